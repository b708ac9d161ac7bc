(** Lemmas about the noise filters. *)

From Coq Require Import List ZArith QArith Bool Arith Lia Sorting.Sorted Permutation.
From Verif Require Import Np NpFacts Spec SpecNoise SamplerModel SamplerFacts KnnModel KnnFacts
  BaseModel BaseFacts NoiseModel.
Import ListNotations.
Open Scope nat_scope.

Lemma existsb_eqb i l : existsb (Nat.eqb i) l = true <-> In i l.
Proof.
  rewrite existsb_exists. split.
  - intros [x [H E]]. apply Nat.eqb_eq in E. subst. exact H.
  - intro H. exists i. split; [exact H|apply Nat.eqb_refl].
Qed.

Lemma combine_seq_map {A} (d : A) (l : list A) s :
  combine (seq s (length l)) l = map (fun i => (i, nth (i - s) l d)) (seq s (length l)).
Proof.
  revert s. induction l as [|a l IH]; intro s; [reflexivity|].
  cbn [length seq combine map]. f_equal.
  - rewrite Nat.sub_diag. reflexivity.
  - rewrite IH. apply map_ext_in. intros i Hi. apply in_seq in Hi.
    replace (i - s) with (S (i - S s)) by lia. reflexivity.
Qed.

Definition kept (n : nat) (idx : list nat) : list nat :=
  filter (fun i => negb (existsb (Nat.eqb i) idx)) (seq 0 n).

Lemma delete_idx_kept {A} (d : A) (l : list A) idx :
  delete_idx l idx = map (fun i => nth i l d) (kept (length l) idx).
Proof.
  unfold delete_idx, kept. rewrite (combine_seq_map d). rewrite <- (map_id (seq 0 (length l))) at 2.
  induction (seq 0 (length l)) as [|i s IH]; [reflexivity|].
  cbn [map filter fst snd]. destruct (negb _); cbn [map snd]; [f_equal|]; [|apply IH|apply IH].
  f_equal. lia.
Qed.

Lemma seq_StronglySorted a n : StronglySorted lt (seq a n).
Proof.
  revert a. induction n; intro a; constructor; [apply IHn|]. apply Forall_forall.
  intros x H. apply in_seq in H. lia.
Qed.

Lemma filter_StronglySorted {A} (R : A -> A -> Prop) f l :
  StronglySorted R l -> StronglySorted R (filter f l).
Proof.
  induction 1 as [|a l H IH Ha]; [constructor|]. cbn. destruct (f a); [|exact IH].
  constructor; [exact IH|]. rewrite Forall_forall in *. intros x Hx. apply filter_In in Hx. apply Ha, Hx.
Qed.

Lemma kept_in n idx i : In i (kept n idx) <-> i < n /\ ~ In i idx.
Proof.
  unfold kept. rewrite filter_In, in_seq. rewrite <- existsb_eqb.
  destruct (existsb (Nat.eqb i) idx); cbn; intuition (try lia; try discriminate).
Qed.

Lemma delete_both X y idx drop : length X = length y ->
  (forall i, i < length X -> (In i idx <-> drop i)) ->
  drops_exactly X y drop (delete_idx X idx) (delete_idx y idx).
Proof.
  intros Hl H. exists (kept (length X) idx). split; [|split; [|split]].
  - apply filter_StronglySorted, seq_StronglySorted.
  - intro i. rewrite kept_in. split; intros [H1 H2]; (split; [exact H1|]); rewrite (H i H1) in *; exact H2.
  - apply delete_idx_kept.
  - rewrite Hl. apply delete_idx_kept.
Qed.

Lemma NoDup_filter' {A} (f : A -> bool) l : NoDup l -> NoDup (filter f l).
Proof. apply NoDup_filter. Qed.

Lemma filter_partition_perm {A} (f : A -> bool) l :
  Permutation l (filter f l ++ filter (fun x => negb (f x)) l).
Proof.
  induction l as [|a l IH]; [constructor|]. cbn. destruct (f a); cbn.
  - constructor. exact IH.
  - rewrite IH at 1. apply Permutation_middle.
Qed.

Lemma map_nth_seq {A} (d : A) l : map (fun i => nth i l d) (seq 0 (length l)) = l.
Proof.
  induction l as [|a l IH]; [reflexivity|]. cbn [length seq map]. f_equal.
  rewrite <- seq_shift, map_map. exact IH.
Qed.

Lemma combine_map_same {A B C} (f : A -> B) (g : A -> C) l :
  combine (map f l) (map g l) = map (fun i => (f i, g i)) l.
Proof. induction l; cbn; [reflexivity|]. f_equal. assumption. Qed.

Lemma drops_sub X y drop X' y' : length X = length y -> drops_exactly X y drop X' y' -> sub_data X y X' y'.
Proof.
  intros Hl [keep [Hs [Hk [-> ->]]]]. split; [rewrite !map_length; reflexivity|].
  exists (map (fun i => (nth i X [], nth i y 0%Z)) (filter (fun i => negb (existsb (Nat.eqb i) keep)) (seq 0 (length X)))).
  rewrite combine_map_same, <- map_app.
  replace (combine X y) with (map (fun i => (nth i X [], nth i y 0%Z)) (seq 0 (length X))).
  2: { rewrite <- combine_map_same, map_nth_seq. f_equal. rewrite Hl. apply map_nth_seq. }
  apply Permutation_map.
  rewrite (filter_partition_perm (fun i => existsb (Nat.eqb i) keep)) at 1.
  apply Permutation_app_tail. apply NoDup_Permutation.
  - apply NoDup_filter, seq_NoDup.
  - clear Hk. induction Hs as [|a l H IH Ha]; constructor; [|assumption].
    intro Hin. rewrite Forall_forall in Ha. specialize (Ha a Hin). lia.
  - intro i. rewrite filter_In, existsb_eqb, in_seq. rewrite Hk. intuition lia.
Qed.

(** * Tomek links *)

Section TOMEK.

Variables (T : list (list nat)) (y : list Z) (n : nat).
Hypothesis HT : length T = n.
Hypothesis Hy : length y = n.
Hypothesis Hr : rect 2 T.
Hypothesis Hb : Forall (Forall (fun i => i < n)) T.

Definition second (i : nat) : nat := nth 1 (nth i T []) 0.

Lemma T_row i : i < n -> length (nth i T []) = 2 /\ Forall (fun k => k < n) (nth i T []).
Proof.
  intro Hi. assert (In (nth i T []) T) by (apply nth_In; lia).
  split; [|rewrite Forall_forall in Hb; apply Hb; assumption].
  unfold rect in Hr. rewrite Forall_forall in Hr. apply Hr. assumption.
Qed.

Lemma second_lt i : i < n -> second i < n.
Proof.
  intro Hi. destruct (T_row i Hi) as [H1 H2]. rewrite Forall_forall in H2. apply H2. apply nth_In. lia.
Qed.

Lemma get_second i : i < n -> get (nth i T []) 1 = Ok (second i).
Proof. intro Hi. apply get_nth. destruct (T_row i Hi) as [-> _]. lia. Qed.

Lemma tomek_link_of_spec i : i < n ->
  tomek_link_of T y i (nth i T []) =
  Ok (if (second (second i) =? i) && negb (Z.eqb (nth (second i) y 0%Z) (nth i y 0%Z))
      then [(i, second i)] else []).
Proof.
  intro Hi. unfold tomek_link_of. rewrite (get_second i Hi). cbn [bind].
  pose proof (second_lt i Hi) as Hj.
  rewrite (get_nth [] T) by lia. cbn [bind]. rewrite (get_second _ Hj). cbn [bind].
  destruct (Nat.eqb_spec (second (second i)) i) as [E|E]; [|reflexivity].
  rewrite (get_nth 0%Z y) by lia. cbn [bind].
  rewrite (get_nth 0%Z y) by (rewrite E; lia). cbn [bind]. rewrite E.
  destruct (Z.eqb _ _); reflexivity.
Qed.

Definition is_link (i : nat) : bool :=
  (second (second i) =? i) && negb (Z.eqb (nth (second i) y 0%Z) (nth i y 0%Z)).

Lemma tomek_links_spec :
  mapM (fun p => tomek_link_of T y (fst p) (snd p)) (combine (seq 0 (length T)) T) =
  Ok (map (fun i => if is_link i then [(i, second i)] else []) (seq 0 n)).
Proof.
  rewrite (combine_seq_map []), HT. rewrite mapM_map.
  rewrite (mapM_ext_in _ (fun i => Ok (if is_link i then [(i, second i)] else []))); [apply mapM_pure|].
  intros i Hi. apply in_seq in Hi. cbn [fst snd]. rewrite Nat.sub_0_r. apply tomek_link_of_spec. lia.
Qed.

Lemma concat_if {A} (f : nat -> bool) (g : nat -> A) l :
  concat (map (fun i => if f i then [g i] else []) l) = map g (filter f l).
Proof. induction l; cbn; [reflexivity|]. rewrite IHl. destruct (f a); reflexivity. Qed.

Lemma is_link_sym i : i < n -> is_link i = true -> is_link (second i) = true.
Proof.
  unfold is_link. rewrite !andb_true_iff, !negb_true_iff, !Nat.eqb_eq, !Z.eqb_neq.
  intros Hi [E N]. rewrite E. split; congruence.
Qed.

Lemma tomek_removals_spec s mn :
  exists rem, mapM (tomek_removals s mn y) (map (fun i => (i, second i)) (filter is_link (seq 0 n))) = Ok rem /\
  forall i, i < n -> (In i (concat rem) <-> is_link i = true /\ (s = RemoveBoth \/ nth i y 0%Z <> mn)).
Proof.
  rewrite mapM_map. destruct s.
  - rewrite (mapM_ext_in _ (fun i => Ok (if Z.eqb (nth i y 0%Z) mn then [second i] else [i]))).
    2: { intros i Hi. apply filter_In in Hi. destruct Hi as [Hi _]. apply in_seq in Hi.
         unfold tomek_removals. cbn [fst snd]. rewrite (get_nth 0%Z y) by lia. reflexivity. }
    rewrite mapM_pure. eexists. split; [reflexivity|]. intros i Hi. rewrite in_concat. split.
    + intros [l [Hl Hin]]. apply in_map_iff in Hl. destruct Hl as [k [<- Hk]].
      apply filter_In in Hk. destruct Hk as [Hk1 Hk2]. apply in_seq in Hk1.
      destruct (Z.eqb_spec (nth k y 0%Z) mn) as [E|E]; destruct Hin as [<- | []].
      * split; [apply is_link_sym; [lia|assumption]|]. right.
        unfold is_link in Hk2. rewrite andb_true_iff, negb_true_iff, Z.eqb_neq in Hk2. rewrite <- E. apply Hk2.
      * split; [assumption|]. right. assumption.
    + intros [H1 [H2|H2]]; [discriminate|].
      exists (if Z.eqb (nth i y 0%Z) mn then [second i] else [i]). split.
      * apply in_map_iff. exists i. split; [reflexivity|]. apply filter_In. split; [apply in_seq; lia|assumption].
      * destruct (Z.eqb_spec (nth i y 0%Z) mn); [contradiction|left; reflexivity].
  - rewrite (mapM_ext_in _ (fun i => Ok [i; second i])) by reflexivity.
    rewrite mapM_pure. eexists. split; [reflexivity|]. intros i Hi. rewrite in_concat. split.
    + intros [l [Hl Hin]]. split; [|left; reflexivity]. apply in_map_iff in Hl. destruct Hl as [k [<- Hk]].
      apply filter_In in Hk. destruct Hk as [Hk1 Hk2]. apply in_seq in Hk1.
      destruct Hin as [<- | [<- | []]]; [assumption|]. apply is_link_sym; [lia|assumption].
    + intros [H1 _]. exists [i; second i]. split; [|left; reflexivity].
      apply in_map_iff. exists i. split; [reflexivity|]. apply filter_In. split; [apply in_seq; lia|assumption].
Qed.

End TOMEK.

Lemma minority_stats y mn mj : is_minority y mn mj ->
  exists st, class_label_statistics y = Ok st /\ min_label st = mn /\ maj_label st = mj.
Proof.
  intro H. destruct H as [H H']. destruct (statistics_spec y mn mj H) as [st [E [Hm _]]].
  exists st. split; [exact E|]. destruct (is_minority_unique y mn mj _ _ (conj H H') Hm). split; congruence.
Qed.

Lemma two_labels_length y a b : two_labels y a b -> 2 <= length y.
Proof.
  intros [Hne [Ha [Hb _]]]. destruct y as [|u [|v l]]; cbn in *; [contradiction| |lia].
  destruct Ha as [<-|[]], Hb as [<-|[]]. congruence.
Qed.

(** The exact set of removed rows in terms of the neighbour table. *)
Lemma tomek_exact dist nn s X y mn mj :
  knn_ok dist nn -> length X = length y -> is_minority y mn mj ->
  exists T X' y', nn X X 2 = Ok T /\ nearest_table dist X X 2 T /\
    tomek_remove_noise nn s X y = Ok (X', y') /\
    drops_exactly X y (fun i => is_link T y i = true /\ (s = RemoveBoth \/ nth i y 0%Z <> mn)) X' y'.
Proof.
  intros Hnn Hl Hm. destruct (minority_stats y mn mj Hm) as [st [Est [Emn _]]].
  assert (H2 : 2 <= length X) by (rewrite Hl; eapply two_labels_length, (proj1 Hm)).
  destruct (Hnn X X 2 H2) as [T [ET HT]].
  destruct (nearest_table_shape _ _ _ _ _ HT) as [S1 [S2 S3]].
  destruct (tomek_removals_spec T y (length X) S1 (eq_sym Hl) s mn) as [rem [Er Hrem]].
  exists T. do 2 eexists. split; [exact ET|]. split; [exact HT|].
  split.
  - unfold tomek_remove_noise. rewrite Est. cbn [bind]. rewrite ET. cbn [bind].
    rewrite (tomek_links_spec T y (length X) S1 (eq_sym Hl) S2 S3). cbn [bind].
    rewrite concat_if, Emn, Er. cbn [bind]. reflexivity.
  - apply delete_both; assumption.
Qed.

(** Geometry of a two-column neighbour table. *)
Lemma table_row dist X Xq k T i : nearest_table dist X Xq k T -> i < length Xq ->
  let t := nth i T [] in let x := nth i Xq [] in
  length t = k /\ NoDup t /\ Forall (fun i => i < length X)%nat t /\
  StronglySorted (fun i j => dist x (nth i X []) <= dist x (nth j X []))%Q t /\
  (forall i j, In i t -> ~ In j t -> (j < length X)%nat -> (dist x (nth i X []) <= dist x (nth j X []))%Q).
Proof.
  intros H Hi. revert i Hi. unfold nearest_table in H. induction H as [|x t Xq' T' Hh Ht IH]; intros i Hi; cbn in Hi; [lia|].
  destruct i; [exact Hh|]. apply IH. lia.
Qed.

Lemma second_nearest dist X T i : nearest_table dist X X 2 T -> no_duplicates dist X -> i < length X ->
  nth 0 (nth i T []) 0 = i /\ nearest_other dist X i (second T i).
Proof.
  intros HT Hd Hi. destruct (table_row dist X X 2 T i HT Hi) as [H1 [H2 [H3 [H4 H5]]]].
  unfold second. destruct (nth i T []) as [|a [|b [|]]]; try discriminate. cbn [nth].
  inversion H2 as [|? ? Hn _]; subst. inversion H3 as [|? ? Ha H3']; subst. inversion H3' as [|? ? Hb _]; subst.
  inversion H4 as [|? ? _ Hab]; subst. inversion Hab as [|? ? Hab' _]; subst.
  assert (E : a = i).
  { destruct (Nat.eq_dec a i) as [|Na]; [assumption|exfalso].
    destruct (Nat.eq_dec b i) as [->|Nb].
    - apply (Qlt_not_le _ _ (Hd i a Hi Ha (not_eq_sym Na))). exact Hab'.
    - apply (Qlt_not_le _ _ (Hd i a Hi Ha (not_eq_sym Na))). apply H5; [left; reflexivity| |exact Hi].
      intros [|[|[]]]; congruence. }
  subst a. split; [reflexivity|]. split; [|split; [exact Hb|]].
  - intro. subst. apply Hn. left. reflexivity.
  - intros k Hk Nk. destruct (Nat.eq_dec k b) as [->|Nb]; [apply Qle_refl|].
    apply H5; [right; left; reflexivity| |exact Hk]. intros [|[|[]]]; congruence.
Qed.

Lemma strictly_second dist X T i j : nearest_table dist X X 2 T -> no_duplicates dist X -> i < length X ->
  strictly_nearest dist X i j -> second T i = j.
Proof.
  intros HT Hd Hi [Hij [Hj Hs]]. destruct (second_nearest dist X T i HT Hd Hi) as [_ [N1 [N2 N3]]].
  destruct (Nat.eq_dec (second T i) j) as [|N]; [assumption|exfalso].
  apply (Qlt_not_le _ _ (Hs _ N2 (not_eq_sym N1) N)). apply N3; [exact Hj|congruence].
Qed.

Lemma tomek_spec dist nn s X y mn mj :
  knn_ok dist nn -> length X = length y -> is_minority y mn mj -> no_duplicates dist X ->
  exists X' y' drop, tomek_remove_noise nn s X y = Ok (X', y') /\
    drops_exactly X y drop X' y' /\
    (forall i, i < length X -> drop i ->
       (s = RemoveBoth \/ nth i y 0%Z = mj) /\
       exists j, nearest_other dist X i j /\ nearest_other dist X j i /\ nth j y 0%Z <> nth i y 0%Z) /\
    (forall i j, i < length X -> strictly_nearest dist X i j -> strictly_nearest dist X j i ->
       nth j y 0%Z <> nth i y 0%Z -> (s = RemoveBoth \/ nth i y 0%Z = mj) -> drop i).
Proof.
  intros Hnn Hl Hm Hd. destruct (tomek_exact dist nn s X y mn mj Hnn Hl Hm) as [T [X' [y' [ET [HT [E HD]]]]]].
  exists X', y', (fun i => is_link T y i = true /\ (s = RemoveBoth \/ nth i y 0%Z <> mn)).
  split; [exact E|]. split; [exact HD|].
  assert (HL : forall i, i < length X -> nth i y 0%Z = mn \/ nth i y 0%Z = mj).
  { intros i Hi. destruct Hm as [[_ [_ [_ Hm]]] _]. apply Hm. apply nth_In. lia. }
  assert (Hne : mn <> mj) by apply Hm.
  split.
  - intros i Hi [Hlk Hs]. split.
    + destruct Hs as [Hs|Hs]; [left; exact Hs|]. destruct (HL i Hi); [contradiction|right; assumption].
    + destruct (second_nearest dist X T i HT Hd Hi) as [_ N]. exists (second T i). split; [exact N|].
      unfold is_link in Hlk. rewrite andb_true_iff, negb_true_iff, Nat.eqb_eq, Z.eqb_neq in Hlk.
      destruct Hlk as [E1 E2]. split; [|exact E2].
      assert (Hj : second T i < length X) by apply N.
      destruct (second_nearest dist X T (second T i) HT Hd Hj) as [_ N']. rewrite E1 in N'. exact N'.
  - intros i j Hi S1 S2 Hy Hs.
    assert (Hj : j < length X) by apply S1.
    split.
    + unfold is_link. rewrite (strictly_second dist X T i j HT Hd Hi S1), (strictly_second dist X T j i HT Hd Hj S2).
      rewrite Nat.eqb_refl. apply negb_true_iff, Z.eqb_neq. exact Hy.
    + destruct Hs as [Hs|Hs]; [left; exact Hs|right; congruence].
Qed.

Lemma sorted_ext l1 : forall l2, StronglySorted lt l1 -> StronglySorted lt l2 ->
  (forall i, In i l1 <-> In i l2) -> l1 = l2.
Proof.
  induction l1 as [|a l1 IH]; intros l2 S1 S2 H.
  - destruct l2 as [|b l2]; [reflexivity|]. exfalso. apply (H b). left. reflexivity.
  - destruct l2 as [|b l2]; [exfalso; apply (H a); left; reflexivity|].
    inversion S1 as [|? ? S1' F1]; subst. inversion S2 as [|? ? S2' F2]; subst.
    rewrite Forall_forall in F1, F2.
    assert (a = b).
    { destruct (proj1 (H a) (or_introl eq_refl)) as [|Ha]; [congruence|].
      destruct (proj2 (H b) (or_introl eq_refl)) as [|Hb]; [congruence|].
      specialize (F1 b Hb). specialize (F2 a Ha). lia. }
    subst b. f_equal. apply IH; [assumption|assumption|]. intro i. split; intro Hi.
    + destruct (proj1 (H i) (or_intror Hi)) as [<-|]; [|assumption]. specialize (F1 _ Hi). lia.
    + destruct (proj2 (H i) (or_intror Hi)) as [<-|]; [|assumption]. specialize (F2 _ Hi). lia.
Qed.

(** Without any assumption on ties or duplicates. *)
Lemma tomek_minority_kept dist nn X y mn mj :
  knn_ok dist nn -> length X = length y -> is_minority y mn mj ->
  exists X' y', tomek_remove_noise nn RemoveMajority X y = Ok (X', y') /\ sub_data X y X' y' /\
    rows_with mn X' y' = rows_with mn X y.
Proof.
  intros Hnn Hl Hm. destruct (tomek_exact dist nn RemoveMajority X y mn mj Hnn Hl Hm) as [T [X' [y' [ET [HT [E HD]]]]]].
  exists X', y'. split; [exact E|]. split; [eapply drops_sub; eassumption|].
  destruct HD as [keep [Hs [Hk [-> ->]]]]. unfold rows_with. rewrite !select_map_filter2, combine_map_same.
  replace (combine X y) with (map (fun i => (nth i X [], nth i y 0%Z)) (seq 0 (length X))).
  2: { rewrite <- combine_map_same, map_nth_seq. f_equal. rewrite Hl. apply map_nth_seq. }
  assert (G : forall l, map fst (filter (fun p => (mn =? snd p)%Z) (map (fun i => (nth i X [], nth i y 0%Z)) l)) =
              map (fun i => nth i X []) (filter (fun i => (mn =? nth i y 0)%Z) l)).
  { induction l as [|a l IH]; [reflexivity|]. cbn [map filter snd]. destruct (mn =? nth a y 0)%Z; cbn [map fst]; rewrite IH; reflexivity. }
  rewrite !G. f_equal.
  apply sorted_ext.
  - apply filter_StronglySorted, Hs.
  - apply filter_StronglySorted, seq_StronglySorted.
  - intro i. rewrite !filter_In, Hk, in_seq. split.
    + intros [[H1 H2] H3]. split; [lia|assumption].
    + intros [H1 H2]. split; [|assumption]. split; [lia|]. intros [_ [H|H]]; [discriminate|].
      apply Z.eqb_eq in H2. congruence.
Qed.
