(** Lemmas about the undersamplers. *)

From Coq Require Import List ZArith QArith Bool Arith Lia Sorting.Sorted Permutation Lqa.
From Verif Require Import Np NpFacts Spec SpecNoise KnnFacts NoiseFacts NoiseFacts2 UnderModel.
Import ListNotations.
Open Scope nat_scope.

Lemma filter_length_le {A} (f : A -> bool) l : length (filter f l) <= length l.
Proof. induction l as [|a l IH]; cbn; [lia|]. destruct (f a); cbn; lia. Qed.

Lemma bincount2_ok y a b : bincount2 y = Ok (a, b) <->
  (forall z, In z y -> z = 0%Z \/ z = 1%Z) /\ In 1%Z y /\ a = count_label y 0 /\ b = count_label y 1.
Proof.
  unfold bincount2, count_label. destruct (forallb _ y && existsb _ y) eqn:E.
  - apply andb_true_iff in E. destruct E as [E1 E2]. rewrite forallb_forall in E1.
    apply existsb_exists in E2. destruct E2 as [u [Hu Eu]]. apply Z.eqb_eq in Eu. subst u.
    split.
    + intro H. injection H as <- <-. split; [|split; [exact Hu|split; reflexivity]].
      intros z Hz. specialize (E1 z Hz). apply orb_true_iff in E1. rewrite !Z.eqb_eq in E1. exact E1.
    + intros [_ [_ [-> ->]]]. reflexivity.
  - split; [discriminate|]. intros [H1 [H2 _]]. exfalso. apply andb_false_iff in E. destruct E as [E|E].
    + assert (forallb (fun z => (z =? 0)%Z || (z =? 1)%Z) y = true); [|congruence].
      apply forallb_forall. intros z Hz. apply orb_true_iff. rewrite !Z.eqb_eq. apply H1, Hz.
    + assert (existsb (Z.eqb 1) y = true); [|congruence]. apply existsb_exists. exists 1%Z. split; [exact H2|reflexivity].
Qed.

Lemma filter_repeat_pos n : length (filter (fun q => Qlt_b 0 q) (repeat 1%Q n)) = n.
Proof. induction n; cbn; [reflexivity|]. f_equal. exact IHn. Qed.

Lemma gather_NoDup_perm {A} (l : list A) idx r : NoDup idx -> gather l idx = Ok r ->
  exists rest, Permutation l (r ++ rest).
Proof.
  intros Hn Hg. destruct l as [|d l0] eqn:El.
  - destruct idx as [|i idx]; [|apply gather_bound in Hg; inversion Hg; cbn in *; lia].
    injection Hg as <-. exists []. reflexivity.
  - rewrite <- El in *. clear El l0. pose proof (gather_bound _ _ _ Hg) as Hb.
    rewrite (gather_map d) in Hg by exact Hb. injection Hg as <-.
    exists (map (fun i => nth i l d) (filter (fun i => negb (existsb (Nat.eqb i) idx)) (seq 0 (length l)))).
    rewrite <- map_app. rewrite <- (map_nth_seq d l) at 1. apply Permutation_map.
    rewrite (filter_partition_perm (fun i => existsb (Nat.eqb i) idx)) at 1.
    apply Permutation_app_tail. apply NoDup_Permutation; [apply NoDup_filter, seq_NoDup|exact Hn|].
    intro i. rewrite filter_In, existsb_eqb, in_seq. rewrite Forall_forall in Hb. split; [tauto|].
    intro Hi. specialize (Hb i Hi). split; [lia|exact Hi].
Qed.

Lemma rows_sub X y K : length X = length y -> (forall z, In z y -> z = 0%Z \/ z = 1%Z) ->
  (exists rest, Permutation (rows_with 0 X y) (K ++ rest)) ->
  sub_data X y (K ++ rows_with 1 X y) (repeat 0%Z (length K) ++ repeat 1%Z (length (rows_with 1 X y))).
Proof.
  intros Hl Hy [rest P]. split; [rewrite !app_length, !repeat_length; reflexivity|].
  exists (map (fun x => (x, 0%Z)) rest).
  rewrite (rows_with_pairs X y 0 1 Hl) by (discriminate || exact Hy).
  rewrite combine_app by (rewrite repeat_length; reflexivity). rewrite !combine_rows_repeat.
  rewrite P, map_app, <- !app_assoc. apply Permutation_app_head. apply Permutation_app_comm.
Qed.

Lemma random_undersample_spec draw X y : draw_ok draw -> length X = length y ->
  (forall z, In z y -> z = 0%Z \/ z = 1%Z) -> In 1%Z y -> count_label y 1 <= count_label y 0 ->
  exists K, random_undersample draw X y =
      Ok (K ++ rows_with 1 X y, repeat 0%Z (length K) ++ repeat 1%Z (length (rows_with 1 X y))) /\
    length K = count_label y 1 /\ length (rows_with 1 X y) = count_label y 1 /\
    sub_data X y (K ++ rows_with 1 X y) (repeat 0%Z (length K) ++ repeat 1%Z (length (rows_with 1 X y))).
Proof.
  intros Hd Hl Hy H1 Hc. unfold random_undersample.
  rewrite (proj2 (bincount2_ok y _ _) (conj Hy (conj H1 (conj eq_refl eq_refl)))). cbn [bind].
  unfold choice_uniform. destruct (Nat.ltb_spec (count_label y 0) (count_label y 1)); [lia|]. cbn [bind].
  destruct (Hd (repeat 1%Q (count_label y 0)) (count_label y 1)) as [D1 [D2 D3]]; [rewrite filter_repeat_pos; exact Hc|].
  set (m := draw _ _) in *.
  assert (L0 : length (rows_with 0 X y) = count_label y 0) by (apply rows_with_length; exact Hl).
  assert (L1 : length (rows_with 1 X y) = count_label y 1) by (apply rows_with_length; exact Hl).
  destruct (gather_total (rows_with 0 X y) m) as [K EK].
  { eapply Forall_impl; [|exact D3]. cbn. intros i [Hi _]. rewrite repeat_length in Hi. lia. }
  rewrite EK. cbn [bind]. exists K. split; [reflexivity|].
  split; [rewrite (gather_length _ _ _ EK); exact D1|]. split; [exact L1|].
  apply rows_sub; [exact Hl|exact Hy|]. eapply gather_NoDup_perm; eassumption.
Qed.

Lemma random_undersample_raises draw X y :
  ~ ((forall z, In z y -> z = 0%Z \/ z = 1%Z) /\ In 1%Z y) \/ count_label y 0 < count_label y 1 ->
  random_undersample draw X y = Err ValueError.
Proof.
  intro H. unfold random_undersample. destruct (bincount2 y) as [[a b]|e] eqn:E.
  - apply bincount2_ok in E. destruct E as [E1 [E2 [-> ->]]]. destruct H as [H|H]; [tauto|]. cbn [bind].
    unfold choice_uniform. destruct (Nat.ltb_spec (count_label y 0) (count_label y 1)); [reflexivity|lia].
  - unfold bincount2 in E. destruct (_ && _); [discriminate|]. injection E as <-. reflexivity.
Qed.

(** * Driven undersampling *)

Lemma fold_qmin l a : let m := fold_left qmin l a in
  In m (a :: l) /\ Forall (fun x => (m <= x)%Q) (a :: l).
Proof.
  revert a. induction l as [|b l IH]; intro a; cbn [fold_left].
  - split; [left; reflexivity|]. constructor; [apply Qle_refl|constructor].
  - destruct (IH (qmin a b)) as [H1 H2]. set (m := fold_left qmin l (qmin a b)) in *.
    inversion H2 as [|? ? Ha Hf]; subst. unfold qmin in *. destruct (Qle_bool a b) eqn:E.
    + apply Qle_bool_iff in E. split.
      * destruct H1 as [<-|H1]; [left; reflexivity|right; right; exact H1].
      * constructor; [exact Ha|]. constructor; [eapply Qle_trans; eassumption|exact Hf].
    + assert (b <= a)%Q. { destruct (Qlt_le_dec a b) as [L|L]; [|exact L]. apply Qlt_le_weak in L. apply Qle_bool_iff in L. congruence. }
      split; [right; exact H1|]. constructor; [eapply Qle_trans; eassumption|]. constructor; assumption.
Qed.

Lemma fold_qmax l a : let m := fold_left qmax l a in
  In m (a :: l) /\ Forall (fun x => (x <= m)%Q) (a :: l).
Proof.
  revert a. induction l as [|b l IH]; intro a; cbn [fold_left].
  - split; [left; reflexivity|]. constructor; [apply Qle_refl|constructor].
  - destruct (IH (qmax a b)) as [H1 H2]. set (m := fold_left qmax l (qmax a b)) in *.
    inversion H2 as [|? ? Ha Hf]; subst. unfold qmax in *. destruct (Qle_bool a b) eqn:E.
    + apply Qle_bool_iff in E. split; [right; exact H1|].
      constructor; [eapply Qle_trans; eassumption|]. constructor; assumption.
    + assert (b <= a)%Q. { destruct (Qlt_le_dec a b) as [L|L]; [|exact L]. apply Qlt_le_weak in L. apply Qle_bool_iff in L. congruence. }
      split; [destruct H1 as [<-|H1]; [left; reflexivity|right; right; exact H1]|].
      constructor; [exact Ha|]. constructor; [eapply Qle_trans; eassumption|exact Hf].
Qed.

Lemma min_dists_spec dist X_new X_maj : X_new <> [] ->
  exists ds, min_dists dist X_new X_maj = Ok ds /\ length ds = length X_maj /\
  forall i, i < length X_maj -> exists s, In s X_new /\ nth i ds 0%Q = dist (nth i X_maj []) s /\
    forall s', In s' X_new -> (nth i ds 0 <= dist (nth i X_maj []) s')%Q.
Proof.
  intro Hne. destruct X_new as [|s0 X_new']; [congruence|]. unfold min_dists. cbn [map np_min].
  rewrite (mapM_pure (fun x => fold_left qmin (map (fun s => dist x s) X_new') (dist x s0))).
  eexists. split; [reflexivity|]. split; [apply map_length|]. intros i Hi.
  set (g := fun x => fold_left qmin (map (fun s => dist x s) X_new') (dist x s0)).
  rewrite (nth_indep _ 0%Q (g [])) by (rewrite map_length; exact Hi). rewrite map_nth.
  destruct (fold_qmin (map (fun s => dist (nth i X_maj []) s) X_new') (dist (nth i X_maj []) s0)) as [H1 H2].
  fold (g (nth i X_maj [])) in H1, H2.
  change (dist (nth i X_maj []) s0 :: map (fun s => dist (nth i X_maj []) s) X_new') with
    (map (fun s => dist (nth i X_maj []) s) (s0 :: X_new')) in H1, H2.
  apply in_map_iff in H1. destruct H1 as [s [E Hs]]. exists s. split; [exact Hs|]. split; [symmetry; exact E|].
  intros s' Hs'. rewrite Forall_forall in H2. apply H2. apply in_map_iff. exists s'. split; [reflexivity|exact Hs'].
Qed.

(** Whatever the mode, a result consists of all minority rows and of majority
    rows, none repeated. *)
Lemma driven_sub draw dist over m X y X' y' : draw_ok draw -> length X = length y ->
  driven_undersample draw dist over m X y = Ok (X', y') ->
  sub_data X y X' y' /\ rows_with 1 X' y' = rows_with 1 X y /\
  (m <> OuOther -> length X' <= 2 * count_label y 1) /\
  (m = OuRandom \/ m = OuFarthest /\ count_label y 1 <= count_label y 0 -> length X' = 2 * count_label y 1).
Proof.
  intros Hd Hl H. unfold driven_undersample in H.
  apply bind_ok in H. destruct H as [[a b] [Hb H]]. apply bincount2_ok in Hb. destruct Hb as [Hy [H1 [-> ->]]].
  apply bind_ok in H. destruct H as [samp [_ H]]. apply bind_ok in H. destruct H as [ds [Hds H]].
  apply bind_ok in H. destruct H as [K [HK H]]. injection H as <- <-.
  assert (L0 : length (rows_with 0 X y) = count_label y 0) by (apply rows_with_length; exact Hl).
  assert (L1 : length (rows_with 1 X y) = count_label y 1) by (apply rows_with_length; exact Hl).
  assert (Lds : length ds = count_label y 0) by (rewrite <- L0; eapply mapM_length; exact Hds).
  assert (P : (exists rest, Permutation (rows_with 0 X y) (K ++ rest)) /\
    (m <> OuOther -> length K <= count_label y 1) /\
    (m = OuRandom \/ m = OuFarthest /\ count_label y 1 <= count_label y 0 -> length K = count_label y 1)).
  { destruct m.
    - apply bind_ok in HK. destruct HK as [p [Hp HK]]. apply bind_ok in HK. destruct HK as [mask [Hm HK]].
      unfold choice_p in Hm. destruct (Nat.ltb_spec (length (filter (fun q => Qlt_b 0 q) p)) (count_label y 1)); [discriminate|].
      injection Hm as <-. destruct (Hd p (count_label y 1)) as [D1 [D2 D3]]; [unfold Qlt_b in *; lia|].
      pose proof (gather_length _ _ _ HK) as LK.
      split; [eapply gather_NoDup_perm; eassumption|]. split; intros; lia.
    - apply bind_ok in HK. destruct HK as [s [Hs HK]]. injection HK as <-.
      pose proof (gather_length _ _ _ Hs) as Ls. rewrite argsort_length in Ls.
      destruct (gather_NoDup_perm _ _ _ (argsort_NoDup ds) Hs) as [rest Pr].
      split; [exists (skipn (count_label y 1) s ++ rest); rewrite app_assoc, firstn_skipn; exact Pr|].
      rewrite firstn_length. split; [intros; lia|]. intros [E|[_ E]]; [discriminate|lia].
    - injection HK as <-. split; [exists []; rewrite app_nil_r; reflexivity|].
      split; [congruence|]. intros [E|[E _]]; discriminate. }
  destruct P as [P [P1 P2]].
  split; [apply rows_sub; assumption|]. split.
  - rewrite rows_with_app by (rewrite repeat_length; reflexivity).
    rewrite rows_with_repeat_same, rows_with_repeat_other by discriminate. reflexivity.
  - rewrite app_length, L1. split; intro E; [specialize (P1 E)|specialize (P2 E)]; lia.
Qed.

(** Farthest mode: the majority rows removed are those farthest from the new
    rows. *)
Lemma driven_farthest draw dist over X y samp ysamp :
  length X = length y -> (forall z, In z y -> z = 0%Z \/ z = 1%Z) -> In 1%Z y ->
  over X y = Ok (samp, ysamp) -> skipn (length X) samp <> [] ->
  exists ds s, min_dists dist (skipn (length X) samp) (rows_with 0 X y) = Ok ds /\
    Permutation s (seq 0 (count_label y 0)) /\
    driven_undersample draw dist over OuFarthest X y =
      Ok (map (fun i => nth i (rows_with 0 X y) []) (firstn (count_label y 1) s) ++ rows_with 1 X y,
          repeat 0%Z (length (firstn (count_label y 1) s)) ++ repeat 1%Z (length (rows_with 1 X y))) /\
    forall i j, In i (firstn (count_label y 1) s) -> In j (skipn (count_label y 1) s) ->
      (nth i ds 0 <= nth j ds 0)%Q.
Proof.
  intros Hl Hy H1 Ho Hne.
  assert (L0 : length (rows_with 0 X y) = count_label y 0) by (apply rows_with_length; exact Hl).
  destruct (min_dists_spec dist _ (rows_with 0 X y) Hne) as [ds [Eds [Lds _]]].
  exists ds, (argsort ds). split; [exact Eds|]. rewrite L0 in Lds.
  split; [rewrite <- Lds; apply argsort_perm|]. split.
  - unfold driven_undersample. rewrite (proj2 (bincount2_ok y _ _) (conj Hy (conj H1 (conj eq_refl eq_refl)))).
    cbn [bind]. rewrite Ho. cbn [bind fst]. rewrite Eds. cbn [bind].
    rewrite (gather_map []). 2: { apply Forall_forall. intros i Hi. apply argsort_in in Hi. lia. }
    cbn [bind]. rewrite firstn_map, map_length. reflexivity.
  - intros i j Hi Hj. pose proof (argsort_sorted ds) as S.
    rewrite <- (firstn_skipn (count_label y 1) (argsort ds)) in S.
    apply StronglySorted_app_inv in S. apply S; assumption.
Qed.

(** Random mode on equally large classes always raises: the row farthest from
    the new samples has probability zero. *)
Lemma driven_random_balanced_raises draw dist over X y samp ysamp :
  length X = length y -> (forall z, In z y -> z = 0%Z \/ z = 1%Z) -> In 1%Z y ->
  count_label y 0 <= count_label y 1 ->
  over X y = Ok (samp, ysamp) ->
  driven_undersample draw dist over OuRandom X y = Err ValueError.
Proof.
  intros Hl Hy H1 Hc Ho. unfold driven_undersample.
  rewrite (proj2 (bincount2_ok y _ _) (conj Hy (conj H1 (conj eq_refl eq_refl)))).
  cbn [bind]. rewrite Ho. cbn [bind fst].
  assert (L0 : length (rows_with 0 X y) = count_label y 0) by (apply rows_with_length; exact Hl).
  assert (P1 : 0 < count_label y 1) by (apply count_occ_In; exact H1).
  destruct (skipn (length X) samp) as [|s0 sr] eqn:Es.
  - unfold min_dists. destruct (rows_with 0 X y) as [|x0 xr] eqn:E0; [|reflexivity].
    cbn [mapM bind inverse_density np_min]. reflexivity.
  - rewrite <- Es. assert (Hne : skipn (length X) samp <> []) by (rewrite Es; discriminate).
    destruct (min_dists_spec dist _ (rows_with 0 X y) Hne) as [ds [Eds [Lds _]]].
    rewrite Eds. cbn [bind]. unfold inverse_density.
    destruct ds as [|d0 dr] eqn:Ed; [reflexivity|]. cbn [np_min np_max bind]. rewrite <- Ed in *.
    destruct (fold_qmin dr d0) as [I1 F1]. destruct (fold_qmax dr d0) as [I2 F2]. rewrite <- Ed in I1, F1, I2, F2.
    set (lo := fold_left qmin dr d0) in *. set (hi := fold_left qmax dr d0) in *.
    destruct (Qeq_bool (hi - lo) 0) eqn:Eq; [reflexivity|]. cbn [bind].
    apply Qeq_bool_neq in Eq.
    set (inv := map (fun d => 1 - (d - lo) / (hi - lo))%Q ds).
    unfold choice_p.
    assert (Hlt : length (filter (fun q => Qlt_b 0 q) (map (fun v => v / qsum inv)%Q inv)) < count_label y 1).
    { destruct (In_nth _ _ 0%Q I2) as [k [Hk Ek]].
      assert (Hz : Qlt_b 0 (nth k (map (fun v => v / qsum inv)%Q inv) 0%Q) = false).
      { rewrite (nth_indep _ 0%Q (0 / qsum inv)%Q) by (unfold inv; rewrite !map_length; exact Hk).
        rewrite (map_nth (fun v => v / qsum inv)%Q). unfold inv at 1.
        rewrite (nth_indep _ 0%Q (1 - (0 - lo) / (hi - lo))%Q) by (rewrite map_length; exact Hk).
        rewrite (map_nth (fun d => 1 - (d - lo) / (hi - lo))%Q), Ek.
        unfold Qlt_b. apply negb_false_iff, Qle_bool_iff.
        setoid_replace (1 - (hi - lo) / (hi - lo))%Q with 0%Q by (field; exact Eq).
        unfold Qdiv. rewrite Qmult_0_l. apply Qle_refl. }
      assert (G : forall (f : Q -> bool) l k, k < length l -> f (nth k l 0%Q) = false -> length (filter f l) < length l).
      { clear. intros f. induction l as [|a l IH]; intros k Hk Hf; cbn in *; [lia|]. destruct k.
        - rewrite Hf. pose proof (filter_length_le f l). lia.
        - specialize (IH k ltac:(lia) Hf). destruct (f a); cbn; lia. }
      specialize (G _ _ k (ltac:(unfold inv; rewrite !map_length; exact Hk) : k < length (map (fun v => v / qsum inv)%Q inv)) Hz).
      rewrite (map_length _ inv) in G. assert (Li : length inv = length ds) by apply map_length.
      rewrite L0 in Lds. eapply Nat.lt_le_trans; [exact G|lia]. }
    apply Nat.ltb_lt in Hlt. rewrite Hlt. reflexivity.
Qed.

(** An oversampler that adds nothing makes both modes raise. *)
Lemma driven_nothing_new draw dist over m X y samp ysamp :
  length X = length y -> In 0%Z y -> over X y = Ok (samp, ysamp) -> skipn (length X) samp = [] ->
  exists e, driven_undersample draw dist over m X y = Err e.
Proof.
  intros Hl H0 Ho Hs. unfold driven_undersample. destruct (bincount2 y) as [[a b]|e] eqn:E; [|exists e; reflexivity].
  cbn [bind]. rewrite Ho. cbn [bind fst]. rewrite Hs.
  assert (L0 : length (rows_with 0 X y) = count_label y 0) by (apply rows_with_length; exact Hl).
  assert (P0 : 0 < count_label y 0) by (apply count_occ_In; exact H0).
  destruct (rows_with 0 X y) as [|x0 xr]; [cbn in L0; lia|]. exists ValueError. reflexivity.
Qed.

(** * Concrete oracles for the examples *)

(** Takes the first positions of positive weight. *)
Definition draw0 (p : list Q) (size : nat) : list nat :=
  firstn size (filter (fun i => Qlt_b 0 (nth i p 0%Q)) (seq 0 (length p))).

Lemma filter_positions (f : Q -> bool) p :
  length (filter (fun i => f (nth i p 0%Q)) (seq 0 (length p))) = length (filter f p).
Proof.
  induction p as [|a p IH]; [reflexivity|]. cbn [length seq filter]. rewrite <- seq_shift.
  change (nth 0 (a :: p) 0%Q) with a.
  assert (G : length (filter (fun i => f (nth i (a :: p) 0%Q)) (map S (seq 0 (length p)))) = length (filter f p)).
  { rewrite <- IH. clear IH. induction (seq 0 (length p)) as [|i s IHs]; [reflexivity|]. cbn [map filter]; change (nth (S i) (a :: p) 0%Q) with (nth i p 0%Q).
    destruct (f (nth i p 0%Q)); cbn [length]; rewrite IHs; reflexivity. }
  destruct (f a); cbn [length]; rewrite G; reflexivity.
Qed.

Lemma draw0_ok : draw_ok draw0.
Proof.
  intros p size H. unfold draw0. change (fun q => negb (Qle_bool q 0)) with (Qlt_b 0) in H.
  pose proof (filter_positions (Qlt_b 0) p) as L.
  split; [rewrite firstn_length; lia|].
  set (l := filter (fun i => Qlt_b 0 (nth i p 0%Q)) (seq 0 (length p))) in *.
  assert (Hl : NoDup l) by (apply NoDup_filter, seq_NoDup).
  assert (Hin : forall i, In i (firstn size l) -> In i l).
  { intros i Hi. rewrite <- (firstn_skipn size l). apply in_or_app. left. exact Hi. }
  split.
  - rewrite <- (firstn_skipn size l) in Hl. clear - Hl.
    induction (firstn size l) as [|a f IH]; [constructor|]. cbn in Hl. inversion Hl; subst.
    constructor; [intro; apply H1, in_or_app; left; assumption|apply IH; assumption].
  - apply Forall_forall. intros i Hi. apply Hin, filter_In in Hi. destruct Hi as [H1 H2]. apply in_seq in H1.
    split; [lia|]. unfold Qlt_b in H2. apply negb_true_iff in H2.
    destruct (Qlt_le_dec 0%Q (nth i p 0%Q)) as [|L']; [assumption|]. apply Qle_bool_iff in L'. congruence.
Qed.

Definition no_duplicates_b (dist : list Q -> list Q -> Q) (X : list (list Q)) : bool :=
  forallb (fun i => forallb (fun j => (i =? j) ||
    Qlt_b (dist (nth i X []) (nth i X [])) (dist (nth i X []) (nth j X []))) (seq 0 (length X))) (seq 0 (length X)).

Lemma no_duplicates_check dist X : no_duplicates_b dist X = true -> no_duplicates dist X.
Proof.
  intros H i j Hi Hj N. unfold no_duplicates_b in H. rewrite forallb_forall in H.
  specialize (H i ltac:(apply in_seq; lia)). rewrite forallb_forall in H.
  specialize (H j ltac:(apply in_seq; lia)). apply orb_true_iff in H. destruct H as [H|H].
  - apply Nat.eqb_eq in H. contradiction.
  - unfold Qlt_b in H. apply negb_true_iff in H. destruct (Qlt_le_dec (dist (nth i X []) (nth i X [])) (dist (nth i X []) (nth j X []))) as [|L']; [assumption|].
    apply Qle_bool_iff in L'. congruence.
Qed.

Lemma driven_farthest_full draw dist over X y samp ysamp :
  length X = length y -> (forall z, In z y -> z = 0%Z \/ z = 1%Z) -> In 1%Z y ->
  over X y = Ok (samp, ysamp) -> skipn (length X) samp <> [] ->
  exists ds s,
    (length ds = count_label y 0 /\ forall i, i < count_label y 0 ->
       exists g, In g (skipn (length X) samp) /\ nth i ds 0%Q = dist (nth i (rows_with 0 X y) []) g /\
       forall g', In g' (skipn (length X) samp) -> (nth i ds 0 <= dist (nth i (rows_with 0 X y) []) g')%Q) /\
    Permutation s (seq 0 (count_label y 0)) /\
    driven_undersample draw dist over OuFarthest X y =
      Ok (map (fun i => nth i (rows_with 0 X y) []) (firstn (count_label y 1) s) ++ rows_with 1 X y,
          repeat 0%Z (length (firstn (count_label y 1) s)) ++ repeat 1%Z (length (rows_with 1 X y))) /\
    forall i j, In i (firstn (count_label y 1) s) -> In j (skipn (count_label y 1) s) ->
      (nth i ds 0 <= nth j ds 0)%Q.
Proof.
  intros Hl Hy H1 Ho Hne. destruct (driven_farthest draw dist over X y samp ysamp Hl Hy H1 Ho Hne) as [ds [s [E [P H]]]].
  exists ds, s. split; [|split; [exact P|exact H]].
  assert (L0 : length (rows_with 0 X y) = count_label y 0) by (apply rows_with_length; exact Hl).
  destruct (min_dists_spec dist _ (rows_with 0 X y) Hne) as [ds' [E' [Lds Hds]]].
  rewrite E in E'. injection E' as <-. rewrite L0 in *. split; [exact Lds|exact Hds].
Qed.
