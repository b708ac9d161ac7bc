(** Facts about the numpy vocabulary of Np.v. *)

From Coq Require Import List ZArith QArith Bool Arith Lia Permutation Sorted Lqa.
From Verif Require Import Np.
Import ListNotations.

Lemma Forall2_length {A B} (R : A -> B -> Prop) l1 l2 :
  Forall2 R l1 l2 -> length l1 = length l2.
Proof. induction 1; cbn; congruence. Qed.

Lemma Forall2_impl {A B} (R S : A -> B -> Prop) l1 l2 :
  (forall a b, R a b -> S a b) -> Forall2 R l1 l2 -> Forall2 S l1 l2.
Proof. intros H; induction 1; constructor; auto. Qed.

Lemma bind_ok {A B} (r : res A) (f : A -> res B) b :
  bind r f = Ok b -> exists a, r = Ok a /\ f a = Ok b.
Proof. destruct r; cbn; [eauto | discriminate]. Qed.

Ltac inv_bind H :=
  let a := fresh "a" in let E := fresh "E" in
  apply bind_ok in H; destruct H as [a [E H]].

Lemma mapM_nil {A B} (f : A -> res B) : mapM f [] = Ok [].
Proof. reflexivity. Qed.

Lemma mapM_ok_iff {A B} (f : A -> res B) l r :
  mapM f l = Ok r <-> Forall2 (fun x y => f x = Ok y) l r.
Proof.
  revert r; induction l as [|x l IH]; cbn; intros r.
  - split; intros H; [injection H as <-; constructor | inversion H; reflexivity].
  - split; intros H.
    + inv_bind H. inv_bind H. injection H as <-. constructor; [assumption|]. now apply IH.
    + inversion H; subst. rewrite H2. cbn. apply IH in H4. rewrite H4. reflexivity.
Qed.

Lemma mapM_length {A B} (f : A -> res B) l r : mapM f l = Ok r -> length r = length l.
Proof. rewrite mapM_ok_iff. intros H. symmetry. eapply Forall2_length; eassumption. Qed.

Lemma mapM_total {A B} (f : A -> res B) l :
  Forall (fun x => exists y, f x = Ok y) l -> exists r, mapM f l = Ok r.
Proof.
  induction 1 as [|x l [y Hy] _ [r Hr]]; cbn; [eauto|].
  rewrite Hy; cbn. rewrite Hr; cbn. eauto.
Qed.

Lemma mapM_ext_in {A B} (f g : A -> res B) l :
  (forall x, In x l -> f x = g x) -> mapM f l = mapM g l.
Proof.
  induction l as [|x l IH]; cbn; intros H; [reflexivity|].
  rewrite H by auto. destruct (g x); cbn; [|reflexivity]. rewrite IH by auto. reflexivity.
Qed.

Lemma mapM_pure {A B} (f : A -> B) l : mapM (fun x => Ok (f x)) l = Ok (map f l).
Proof. induction l as [|x l IH]; cbn; [reflexivity|]. rewrite IH; reflexivity. Qed.

Lemma mapM_app {A B} (f : A -> res B) l1 l2 r1 r2 :
  mapM f l1 = Ok r1 -> mapM f l2 = Ok r2 -> mapM f (l1 ++ l2) = Ok (r1 ++ r2).
Proof.
  rewrite !mapM_ok_iff. apply Forall2_app.
Qed.

Lemma mapM_map {A B C} (f : B -> res C) (g : A -> B) l :
  mapM f (map g l) = mapM (fun x => f (g x)) l.
Proof. induction l; cbn; [reflexivity|]. now rewrite IHl. Qed.

Lemma mapM_in {A B} (f : A -> res B) l r y :
  mapM f l = Ok r -> In y r -> exists x, In x l /\ f x = Ok y.
Proof.
  rewrite mapM_ok_iff. induction 1; cbn; [tauto|].
  intros [->|H1]; [eauto|]. destruct (IHForall2 H1) as [x0 [? ?]]; eauto.
Qed.

Lemma mapM_nth {A B} (f : A -> res B) l r i x :
  mapM f l = Ok r -> nth_error l i = Some x ->
  exists y, nth_error r i = Some y /\ f x = Ok y.
Proof.
  rewrite mapM_ok_iff. intros H; revert i; induction H; intros [|i]; cbn; try discriminate.
  - intros [= ->]; eauto.
  - apply IHForall2.
Qed.

Lemma get_ok {A} (l : list A) i a : get l i = Ok a <-> nth_error l i = Some a.
Proof. unfold get. destruct (nth_error l i); split; intros H; inversion H; reflexivity. Qed.

Lemma get_lt {A} (l : list A) i : (i < length l)%nat -> exists a, get l i = Ok a.
Proof.
  intros H. unfold get. destruct (nth_error l i) eqn:E; [eauto|].
  apply nth_error_None in E. lia.
Qed.

Lemma get_nth {A} (d : A) (l : list A) i : (i < length l)%nat -> get l i = Ok (nth i l d).
Proof. intros H. apply get_ok. now apply nth_error_nth'. Qed.

Lemma get_bound {A} (l : list A) i a : get l i = Ok a -> (i < length l)%nat.
Proof. rewrite get_ok. intros H. apply nth_error_Some. congruence. Qed.

Lemma get_in {A} (l : list A) i a : get l i = Ok a -> In a l.
Proof. rewrite get_ok. apply nth_error_In. Qed.

Lemma gather_ok_iff {A} (l : list A) idx r :
  gather l idx = Ok r <-> Forall2 (fun i a => nth_error l i = Some a) idx r.
Proof.
  unfold gather. rewrite mapM_ok_iff. split; intros H.
  - eapply Forall2_impl; [|exact H]. intros; now apply get_ok.
  - eapply Forall2_impl; [|exact H]. intros; now apply get_ok.
Qed.

Lemma gather_length {A} (l : list A) idx r : gather l idx = Ok r -> length r = length idx.
Proof. apply mapM_length. Qed.

Lemma gather_total {A} (l : list A) idx :
  Forall (fun i => i < length l)%nat idx -> exists r, gather l idx = Ok r.
Proof.
  intros H. apply mapM_total. eapply Forall_impl; [|exact H]. intros; now apply get_lt.
Qed.

Lemma gather_map {A} (d : A) (l : list A) idx :
  Forall (fun i => i < length l)%nat idx -> gather l idx = Ok (map (fun i => nth i l d) idx).
Proof.
  induction 1; cbn; [reflexivity|]. unfold gather in IHForall.
  rewrite (get_nth d) by assumption. cbn. rewrite IHForall. reflexivity.
Qed.

Lemma gather_bound {A} (l : list A) idx r :
  gather l idx = Ok r -> Forall (fun i => i < length l)%nat idx.
Proof.
  rewrite gather_ok_iff. induction 1; constructor; [|assumption].
  apply nth_error_Some. congruence.
Qed.

Lemma gather_incl {A} (l : list A) idx r : gather l idx = Ok r -> incl r l.
Proof.
  intros H a Ha. destruct (mapM_in _ _ _ _ H Ha) as [i [_ Hi]]. now apply get_in in Hi.
Qed.

Lemma gather_seq {A} (l : list A) : gather l (seq 0 (length l)) = Ok l.
Proof.
  apply gather_ok_iff.
  assert (H : forall k l0, (forall i a, nth_error l0 i = Some a -> nth_error l (k + i) = Some a) ->
     Forall2 (fun i a => nth_error l i = Some a) (seq k (length l0)) l0).
  { intros k l0; revert k; induction l0 as [|a l0 IH]; cbn; intros k H; constructor.
    - specialize (H 0%nat a eq_refl). now rewrite Nat.add_0_r in H.
    - apply IH. intros i b Hb. specialize (H (S i) b Hb). now rewrite Nat.add_succ_r in H. }
  apply H. intros; assumption.
Qed.

(** map2 *)

Lemma map2_length {A B C} (f : A -> B -> C) l1 l2 :
  length (map2 f l1 l2) = Nat.min (length l1) (length l2).
Proof. revert l2; induction l1; destruct l2; cbn; auto. Qed.

Lemma map2_nth {A B C} (f : A -> B -> C) l1 l2 i a b c :
  (i < length l1)%nat -> (i < length l2)%nat ->
  nth i (map2 f l1 l2) c = f (nth i l1 a) (nth i l2 b).
Proof.
  revert l2 i; induction l1; destruct l2; cbn; intros [|i] H1 H2; try lia; auto.
  apply IHl1; lia.
Qed.

Lemma map2_in {A B C} (f : A -> B -> C) l1 l2 c :
  In c (map2 f l1 l2) -> exists a b, In (a, b) (combine l1 l2) /\ c = f a b.
Proof.
  revert l2; induction l1; destruct l2; cbn; try tauto.
  intros [<-|H]; [eauto|]. destruct (IHl1 _ H) as [x [y [? ?]]]; eauto.
Qed.

Lemma map2_combine {A B C} (f : A -> B -> C) l1 l2 :
  map2 f l1 l2 = map (fun p => f (fst p) (snd p)) (combine l1 l2).
Proof. revert l2; induction l1; destruct l2; cbn; auto. now rewrite IHl1. Qed.

Lemma map_fst_combine {A B} (l1 : list A) (l2 : list B) :
  length l1 = length l2 -> map fst (combine l1 l2) = l1.
Proof. revert l2; induction l1; destruct l2; cbn; intros H; try discriminate; auto.
  rewrite IHl1; auto. Qed.

Lemma map_snd_combine {A B} (l1 : list A) (l2 : list B) :
  length l1 = length l2 -> map snd (combine l1 l2) = l2.
Proof. revert l2; induction l1; destruct l2; cbn; intros H; try discriminate; auto.
  rewrite IHl1; auto. Qed.

Lemma combine_app {A B} (l1 l1' : list A) (l2 l2' : list B) :
  length l1 = length l2 -> combine (l1 ++ l1') (l2 ++ l2') = combine l1 l2 ++ combine l1' l2'.
Proof. revert l2; induction l1; destruct l2; cbn; intros H; try discriminate; auto.
  rewrite IHl1; auto. Qed.

Lemma combine_repeat_l {A B} (a : A) (l : list B) :
  combine (repeat a (length l)) l = map (pair a) l.
Proof. induction l; cbn; congruence. Qed.

(** select, where *)

Lemma select_length {A} (m : list bool) (l : list A) :
  (length (select m l) <= length l)%nat.
Proof. revert l; induction m as [|[] m IH]; destruct l; cbn; try lia; specialize (IH l); lia. Qed.

Lemma select_incl {A} (m : list bool) (l : list A) : incl (select m l) l.
Proof.
  revert l; induction m as [|[] m IH]; destruct l; intros x H; cbn in *; try tauto.
  - destruct H as [->|H]; [left; reflexivity | right; now apply IH].
  - right; now apply IH.
Qed.

Lemma select_combine {A B} (m : list bool) (l1 : list A) (l2 : list B) :
  combine (select m l1) (select m l2) = select m (combine l1 l2).
Proof.
  revert l1 l2; induction m as [|[] m IH]; destruct l1, l2; cbn;
    try reflexivity; try (now rewrite IH); destruct (select m l1); reflexivity.
Qed.

Lemma select_map_filter {A} (f : A -> bool) (l : list A) :
  select (map f l) l = filter f l.
Proof. induction l; cbn; [reflexivity|]. destruct (f a); now rewrite IHl. Qed.

Lemma select_map_filter2 {A B} (f : B -> bool) (l : list A) (y : list B) :
  select (map f y) l = map fst (filter (fun p => f (snd p)) (combine l y)).
Proof.
  revert l; induction y; destruct l; cbn; try reflexivity.
  destruct (f a); cbn; now rewrite IHy.
Qed.

Lemma rows_with_in {A} lab (X : list A) y x :
  In x (rows_with lab X y) <-> In (x, lab) (combine X y).
Proof.
  unfold rows_with. rewrite select_map_filter2, in_map_iff. split.
  - intros [[a b] [<- H]]. apply filter_In in H as [H1 H2]. cbn in *.
    apply Z.eqb_eq in H2. now subst.
  - intros H. exists (x, lab). split; [reflexivity|]. apply filter_In; split; [assumption|].
    cbn. apply Z.eqb_refl.
Qed.

Lemma rows_with_length {A} lab (X : list A) y :
  length X = length y -> length (rows_with lab X y) = count_occ Z.eq_dec y lab.
Proof.
  unfold rows_with. revert y; induction X; destruct y; cbn; intros H; try discriminate; auto.
  injection H as H.
  destruct (Z.eqb_spec lab z) as [e|n]; destruct (Z.eq_dec z lab); cbn; try congruence;
    rewrite IHX; auto.
Qed.

Lemma rows_with_app {A} lab (X X' : list A) y y' :
  length X = length y -> rows_with lab (X ++ X') (y ++ y') = rows_with lab X y ++ rows_with lab X' y'.
Proof.
  unfold rows_with. revert y; induction X; destruct y; cbn; intros H; try discriminate; auto.
  injection H as H. destruct (lab =? z)%Z; cbn; now rewrite IHX.
Qed.

(** Sums *)

Lemma qsum_app l1 l2 : qsum (l1 ++ l2) == qsum l1 + qsum l2.
Proof. induction l1; cbn; [ring|]. rewrite IHl1. ring. Qed.

Lemma qsum_nonneg l : Forall (Qle 0) l -> 0 <= qsum l.
Proof. induction 1; cbn; [lra|]. lra. Qed.

Lemma qsum_scale c l : qsum (map (Qmult c) l) == c * qsum l.
Proof. induction l; cbn; [ring|]. rewrite IHl. ring. Qed.

Lemma qsum_div c l : ~ c == 0 -> qsum (map (fun x => x / c) l) == qsum l / c.
Proof. intros H. induction l; cbn; [field; assumption|]. rewrite IHl. field. assumption. Qed.

Lemma qsum_in_le l x : Forall (Qle 0) l -> In x l -> x <= qsum l.
Proof.
  induction 1; cbn; [tauto|]. intros [->|Hin].
  - pose proof (qsum_nonneg _ H0). lra.
  - specialize (IHForall Hin). lra.
Qed.

Lemma qsum_zero_all l : Forall (Qle 0) l -> qsum l == 0 -> Forall (fun x => x == 0) l.
Proof.
  induction 1; cbn; intros Hs; constructor.
  - pose proof (qsum_nonneg _ H0). lra.
  - apply IHForall. pose proof (qsum_nonneg _ H0). lra.
Qed.

Lemma qsum_eq l1 l2 : Forall2 Qeq l1 l2 -> qsum l1 == qsum l2.
Proof. induction 1; cbn; [reflexivity|]. now rewrite H, IHForall2. Qed.

Lemma qsum_repeat c n : qsum (repeat c n) == inject_Z (Z.of_nat n) * c.
Proof.
  induction n; cbn [repeat qsum]; [ring|]. rewrite IHn.
  rewrite Nat2Z.inj_succ. unfold Z.succ. rewrite inject_Z_plus. ring.
Qed.

Lemma nsum_app l1 l2 : nsum (l1 ++ l2) = (nsum l1 + nsum l2)%nat.
Proof. unfold nsum. induction l1; cbn; lia. Qed.

Lemma repeat_each_length {A} (l : list A) k :
  length (repeat_each l k) = (length l * k)%nat.
Proof. induction l; cbn; [reflexivity|]. rewrite app_length, repeat_length.
  unfold repeat_each in IHl. rewrite IHl. reflexivity. Qed.

Lemma tile_length {A} n (l : list A) : length (tile n l) = (n * length l)%nat.
Proof. unfold tile. induction n; cbn; [reflexivity|]. rewrite app_length, IHn. reflexivity. Qed.

Lemma nth_error_nth_iff {A} (l : list A) i a d :
  nth_error l i = Some a -> nth i l d = a.
Proof. revert i; induction l; destruct i; cbn; try discriminate; [congruence|auto]. Qed.

(** delete_idx *)

Lemma delete_idx_incl {A} (l : list A) idx : incl (delete_idx l idx) l.
Proof.
  unfold delete_idx. intros x Hx. apply in_map_iff in Hx as [[i a] [<- H]].
  apply filter_In in H as [H _]. now apply in_combine_r in H.
Qed.

(** * unique with counts *)

Section Unique.
Context {A : Type} (eqb ltb : A -> A -> bool) (dec : forall x y : A, {x = y} + {x <> y}).
Hypothesis eqb_spec : forall x y, eqb x y = true <-> x = y.
Hypothesis ltb_trans : forall x y z, ltb x y = true -> ltb y z = true -> ltb x z = true.
Hypothesis ltb_irrefl : forall x, ltb x x = false.
Hypothesis ltb_total : forall x y, x <> y -> ltb x y = false -> ltb y x = true.

Let lt x y := ltb x y = true.

Lemma count_insert_keys_in z l x :
  In x (map fst (count_insert eqb ltb z l)) <-> x = z \/ In x (map fst l).
Proof.
  induction l as [|[z' c] l IH]; cbn.
  - intuition congruence.
  - destruct (eqb z z') eqn:E; [apply eqb_spec in E; subst; cbn; intuition congruence|].
    destruct (ltb z z'); cbn; [intuition congruence|]. rewrite IH. intuition congruence.
Qed.

Lemma count_insert_sorted z l :
  StronglySorted lt (map fst l) -> StronglySorted lt (map fst (count_insert eqb ltb z l)).
Proof.
  induction l as [|[z' c] l IH]; cbn; intros H.
  - repeat constructor.
  - destruct (eqb z z') eqn:E; [exact H|].
    destruct (ltb z z') eqn:L; cbn.
    + constructor; [exact H|]. inversion H; subst. constructor; [exact L|].
      eapply Forall_impl; [|exact H3]. intros a Ha. eapply ltb_trans; eassumption.
    + inversion H; subst. constructor; [now apply IH|].
      rewrite Forall_forall. intros x Hx. apply count_insert_keys_in in Hx as [->|Hx].
      * apply ltb_total; [|assumption]. intros ->.
        assert (eqb z' z' = true) by now apply eqb_spec. congruence.
      * rewrite Forall_forall in H3. now apply H3.
Qed.

Lemma unique_sorted y : StronglySorted lt (map fst (unique_by eqb ltb y)).
Proof. induction y; cbn; [constructor|]. now apply count_insert_sorted. Qed.

Lemma unique_NoDup y : NoDup (map fst (unique_by eqb ltb y)).
Proof.
  pose proof (unique_sorted y) as H. induction H as [|x l H IH HF]; constructor; [|assumption].
  intros Hin. rewrite Forall_forall in HF. specialize (HF x Hin). unfold lt in HF.
  rewrite ltb_irrefl in HF. discriminate.
Qed.

Lemma unique_keys y x : In x (map fst (unique_by eqb ltb y)) <-> In x y.
Proof.
  induction y as [|z y IH]; cbn; [tauto|]. rewrite count_insert_keys_in.
  fold (unique_by eqb ltb y). rewrite IH. intuition congruence.
Qed.

Lemma count_insert_lookup z l x c :
  StronglySorted lt (map fst l) ->
  (In (x, c) (count_insert eqb ltb z l) <->
   (x <> z /\ In (x, c) l) \/
   (x = z /\ ((c = 1%nat /\ ~ In z (map fst l)) \/ exists c', c = S c' /\ In (z, c') l))).
Proof.
  induction l as [|[z' c'] l IH]; cbn; intros Hs.
  - split.
    + intros [[= <- <-]|[]]. right. split; [reflexivity|]. left. split; [reflexivity|tauto].
    + intros [[_ []]|[-> [[-> _]|[? [_ []]]]]]. now left.
  - inversion Hs; subst. destruct (eqb z z') eqn:E.
    + apply eqb_spec in E; subst z'. cbn. split.
      * intros [[= <- <-]|H].
        -- right. split; [reflexivity|]. right. exists c'. auto.
        -- left. split; [|now right]. intros ->.
           assert (In z (map fst l)) by (apply in_map_iff; exists (z, c); auto).
           rewrite Forall_forall in H2. specialize (H2 z H0). unfold lt in H2.
           rewrite ltb_irrefl in H2. discriminate.
      * intros [[Hne [H|H]]|[-> [[-> Hn]|[c0 [-> [H|H]]]]]].
        -- congruence.
        -- now right.
        -- exfalso. apply Hn. now left.
        -- injection H as <-. now left.
        -- exfalso.
           assert (In z (map fst l)) by (apply in_map_iff; exists (z, c0); auto).
           rewrite Forall_forall in H2. specialize (H2 z H0). unfold lt in H2.
           rewrite ltb_irrefl in H2. discriminate.
    + destruct (ltb z z') eqn:L; cbn.
      * assert (Hnin : ~ (z' = z \/ In z (map fst l))).
        { intros [->|Hin].
          - rewrite ltb_irrefl in L. discriminate.
          - rewrite Forall_forall in H2. specialize (H2 z Hin). unfold lt in H2.
            pose proof (ltb_trans _ _ _ L H2). rewrite ltb_irrefl in H. discriminate. }
        split.
        -- intros [[= <- <-]|H].
           ++ right. split; [reflexivity|]. left. auto.
           ++ left. split; [|exact H]. intros ->. apply Hnin.
              destruct H as [[= -> ->]|H]; [now left|]. right.
              apply in_map_iff. exists (z, c). auto.
        -- intros [[Hne H]|[-> [[-> _]|[c0 [-> H]]]]]; [tauto|tauto|].
           exfalso. apply Hnin. destruct H as [[= -> ->]|H]; [now left|]. right.
           apply in_map_iff. exists (z, c0). auto.
      * rewrite (IH H1).
        assert (Hzz : z' <> z). { intros ->. assert (eqb z z = true) by now apply eqb_spec. congruence. }
        split.
        -- intros [[= <- <-]|[[Hne H]|[-> H]]].
           ++ left. split; [congruence|now left].
           ++ left. auto.
           ++ right. split; [reflexivity|]. destruct H as [[-> Hn]|[c0 [-> H]]].
              ** left. split; [reflexivity|]. intros [?|?]; [congruence|auto].
              ** right. exists c0. auto.
        -- intros [[Hne [H|H]]|[-> [[-> Hn]|[c0 [-> [H|H]]]]]].
           ++ now left.
           ++ right. left. auto.
           ++ right. right. split; [reflexivity|]. left. auto.
           ++ congruence.
           ++ right. right. split; [reflexivity|]. right. eauto.
Qed.

Lemma unique_in y x c :
  In (x, c) (unique_by eqb ltb y) <-> (0 < c)%nat /\ c = count_occ dec y x.
Proof.
  revert c; induction y as [|z y IH]; intros c; cbn [unique_by fold_right count_occ].
  - cbn. split; [tauto|lia].
  - fold (unique_by eqb ltb y). rewrite count_insert_lookup by apply unique_sorted.
    destruct (dec z x) as [->|Hne].
    + rewrite unique_keys. split.
      * intros [[? _]|[_ [[-> Hn]|[c' [-> H]]]]]; [congruence| |].
        -- rewrite (count_occ_not_In dec) in Hn. rewrite Hn. lia.
        -- apply IH in H as [H ->]. lia.
      * intros [_ ->]. right. split; [reflexivity|].
        destruct (Nat.eq_dec (count_occ dec y x) 0) as [E|E].
        -- left. rewrite E. split; [reflexivity|]. now apply (count_occ_not_In dec).
        -- right. eexists; split; [reflexivity|]. apply IH. split; [lia|reflexivity].
    + split.
      * intros [[_ H]|[? _]]; [now apply IH|congruence].
      * intros H. left. split; [congruence|]. now apply IH.
Qed.

End Unique.

Lemma Zltb_trans x y z : (x <? y)%Z = true -> (y <? z)%Z = true -> (x <? z)%Z = true.
Proof. rewrite !Z.ltb_lt. lia. Qed.
Lemma Zltb_total x y : x <> y -> (x <? y)%Z = false -> (y <? x)%Z = true.
Proof. rewrite Z.ltb_lt, Z.ltb_ge. lia. Qed.

Lemma unique_counts_in y z c :
  In (z, c) (unique_counts y) <-> (0 < c)%nat /\ c = count_occ Z.eq_dec y z.
Proof.
  apply unique_in; [apply Z.eqb_eq|apply Zltb_trans|apply Z.ltb_irrefl|apply Zltb_total].
Qed.
Lemma unique_counts_sorted y : StronglySorted Z.lt (map fst (unique_counts y)).
Proof.
  pose proof (unique_sorted Z.eqb Z.ltb Z.eqb_eq Zltb_trans Zltb_total y) as H.
  unfold unique_counts. induction H as [|x l H IH F]; constructor; [assumption|].
  eapply Forall_impl; [|exact F]. intros a Ha. now apply Z.ltb_lt.
Qed.
Lemma unique_counts_keys y z : In z (map fst (unique_counts y)) <-> In z y.
Proof. apply unique_keys. apply Z.eqb_eq. Qed.
