(** Proofs about Edge_Det_SMOTE and MCT. *)

From Coq Require Import List ZArith QArith Qpower Bool Arith Lia Lqa Sorting.Sorted Permutation.
From Verif Require Import Np PyVal NpFacts BaseFacts SimplexModel Spec SpecDanger SpecNoise SpecComp SimplexFacts SimplexGeom Float64
  SamplerModel SamplerFacts OversFacts BaseModel KnnFacts DangerModel DangerFacts BorderFacts ClusterModel ClusterOversModel OversGen
  ClusterOversFacts ClusterFacts NoiseModel NoiseFacts NoiseFacts2 CompModel CompFacts CompFacts2 CompFacts3 CompFacts4 EditModel SpecEdit EditFacts EditFacts3 EditFacts4 EditFacts5
  SpecNear NearFacts NearFacts2 LevelModel SpecLevel LevelFacts LevelFacts3 LevelFacts4 SpecGroup GroupFacts GroupFacts2 GroupFacts4 WrapModel SpecWrap WrapFacts WrapFacts2.
Import ListNotations.
Open Scope nat_scope.

(** ** One attribute *)

Lemma fold_add_at (g : nat -> nat) (c : nat -> Q) js : forall m,
  (forall j, In j js -> g j < length m) -> NoDup (map g js) ->
  let r := fold_left (fun m j => set_nth (g j) (nth (g j) m 0 + c j)%Q m) js m in
  length r = length m /\
  (forall j, In j js -> nth (g j) r 0%Q = (nth (g j) m 0 + c j)%Q) /\
  (forall i, ~ In i (map g js) -> nth i r 0%Q = nth i m 0%Q).
Proof.
  induction js as [|j js IH]; intros m Hg HN; [repeat split; intros; contradiction|]. cbn [fold_left map] in *.
  inversion HN as [|? ? Hn HN']; subst.
  set (m1 := set_nth (g j) (nth (g j) m 0 + c j)%Q m).
  assert (L1 : length m1 = length m) by apply set_nth_length.
  destruct (IH m1) as (A1 & A2 & A3); [intros; rewrite L1; apply Hg; now right|assumption|].
  assert (N1 : forall i, nth i m1 0%Q = if i =? g j then (nth (g j) m 0 + c j)%Q else nth i m 0%Q).
  { intros i. apply set_nth_nth. apply Hg. now left. }
  cbv zeta. split; [rewrite A1; assumption|]. split.
  - intros k [<-|Hk].
    + rewrite A3, N1, Nat.eqb_refl by assumption. reflexivity.
    + rewrite A2, N1 by assumption. destruct (Nat.eqb_spec (g k) (g j)) as [E|]; [|reflexivity].
      exfalso. apply Hn. rewrite <- E. now apply in_map.
  - intros i Hi. rewrite A3, N1 by (intros Hk; apply Hi; now right). destruct (Nat.eqb_spec i (g j)); [|reflexivity]. subst. exfalso. apply Hi. now left.
Qed.

Lemma edge_attribute_spec y m col n : length col = n -> length m = n ->
  length (edge_attribute y m col) = n /\
  forall i, i < n -> exists c, edge_at y (argsort col) i c /\ (nth i (edge_attribute y m col) 0 == nth i m 0 + inject_Z c)%Q.
Proof.
  intros Lc Lm. unfold edge_attribute. set (o := argsort col). assert (Lo : length o = n) by (unfold o; now rewrite argsort_length).
  assert (ND : NoDup o) by apply argsort_NoDup.
  set (c := fun j => let e := Z.sub (nth (nth (j - 1) o 0) y 0%Z) (nth (nth (j + 1) o 0) y 0%Z) in inject_Z (e * e)).
  change (fold_left _ (seq 1 (length o - 2)) m) with (fold_left (fun m j => set_nth (nth j o 0) (nth (nth j o 0%nat) m 0 + c j)%Q m) (seq 1 (length o - 2)) m).
  destruct (fold_add_at (fun j => nth j o 0) c (seq 1 (length o - 2)) m) as (A1 & A2 & A3).
  - intros j Hj. apply in_seq in Hj. rewrite Lm, <- Lc. apply argsort_in. apply nth_In. fold o. lia.
  - assert (G : forall a k, a + k <= length o -> NoDup (map (fun j => nth j o 0) (seq a k))); [|destruct (length o - 2) eqn:E2; [constructor|rewrite <- E2; apply G; lia]].
    intros a k; revert a; induction k as [|k IH]; intros a H; cbn; constructor; [|apply IH; lia].
    intros Hin. apply in_map_iff in Hin. destruct Hin as (b & E & Hb). apply in_seq in Hb.
    assert (b = a) by (apply (proj1 (NoDup_nth o 0) ND); [lia|lia|exact E]). lia.
  - split; [lia|]. intros i Hi. assert (Hin : In i o) by (apply argsort_in; lia).
    apply (In_nth _ _ 0) in Hin. destruct Hin as (p & Hp & Ep).
    destruct (lt_dec 0 p) as [H0|H0]; [destruct (lt_dec (p + 1) (length o)) as [H1|H1]|].
    + exists (Z.square (nth (nth (p - 1) o 0) y 0%Z - nth (nth (p + 1) o 0) y 0%Z)). split.
      * exists p. split; [rewrite <- Ep; now apply nth_error_nth'|]. split; [lia|reflexivity].
      * rewrite <- Ep. rewrite (A2 p) by (apply in_seq; lia). unfold c. rewrite Z.square_spec. reflexivity.
    + exists 0%Z. split; [exists p; split; [rewrite <- Ep; now apply nth_error_nth'|]; split; [reflexivity|lia]|].
      rewrite A3; [ring|]. intros Hin. apply in_map_iff in Hin. destruct Hin as (b & E & Hb). apply in_seq in Hb.
      assert (b = p) by (apply (proj1 (NoDup_nth o 0) ND); [lia|lia|congruence]). lia.
    + exists 0%Z. split; [exists p; split; [rewrite <- Ep; now apply nth_error_nth'|]; split; [reflexivity|lia]|].
      rewrite A3; [ring|]. intros Hin. apply in_map_iff in Hin. destruct Hin as (b & E & Hb). apply in_seq in Hb.
      assert (b = p) by (apply (proj1 (NoDup_nth o 0) ND); [lia|lia|congruence]). lia.
Qed.

Lemma edge_columns y n cols : forall m, Forall (fun col => length col = n) cols -> length m = n ->
  let r := fold_left (edge_attribute y) cols m in
  length r = n /\ forall i, i < n -> exists cs, length cs = length cols /\ (nth i r 0 == nth i m 0 + inject_Z (zsum cs))%Q /\
    forall j, j < length cols -> edge_at y (argsort (nth j cols [])) i (nth j cs 0%Z).
Proof.
  induction cols as [|col cols IH]; intros m HF Lm; cbn [fold_left].
  - split; [assumption|]. intros i Hi. exists []. split; [reflexivity|]. split; [cbn; ring|]. cbn. lia.
  - assert (Hc0 := Forall_inv HF). assert (HF1 := Forall_inv_tail HF). destruct (edge_attribute_spec y m col n Hc0 Lm) as (L1 & E1).
    destruct (IH (edge_attribute y m col) HF1 L1) as (L2 & E2). split; [assumption|]. intros i Hi.
    destruct (E1 i Hi) as (c & Hc & Ec). destruct (E2 i Hi) as (cs & Lcs & Ecs & Hcs).
    exists (c :: cs). split; [cbn; lia|]. split.
    + rewrite Ecs, Ec. unfold zsum. cbn [fold_right]. rewrite inject_Z_plus. ring.
    + intros [|j] Hj; [assumption|]. apply Hcs. cbn in Hj. lia.
Qed.

Lemma argsort_in_order v : in_order v (argsort v).
Proof. split; [apply argsort_perm|apply argsort_stable]. Qed.

Lemma edge_strengths X dim y : forall n, length X = n ->
  let cols := map (fun j => map (fun x => nth j x 0%Q) X) (seq 0 dim) in
  let r := fold_left (edge_attribute y) cols (repeat 0%Q n) in
  length r = n /\ forall i, i < n -> exists e, edge_strength X dim y i e /\ (nth i r 0 == inject_Z e)%Q.
Proof.
  intros n Ln cols r. assert (Lc : length cols = dim) by (unfold cols; rewrite map_length; apply seq_length).
  destruct (edge_columns y n cols (repeat 0%Q n)) as (L & E).
  - unfold cols. rewrite Forall_forall. intros c Hc. apply in_map_iff in Hc. destruct Hc as (j & <- & _). now rewrite map_length.
  - apply repeat_length.
  - split; [exact L|]. intros i Hi. destruct (E i Hi) as (cs & Lcs & Ecs & Hcs). exists (zsum cs). split.
    + exists cs. split; [lia|]. split; [reflexivity|]. intros j Hj. exists (argsort (nth j cols [])). rewrite Lc in Hcs.
      specialize (Hcs j Hj). split; [|exact Hcs]. unfold cols. rewrite (nth_map' _ 0) by now rewrite seq_length.
      rewrite seq_nth by assumption. apply argsort_in_order.
    + fold r in Ecs. rewrite Ecs. rewrite nth_repeat. ring.
Qed.

Lemma edge_at_nonneg y o i c : edge_at y o i c -> (0 <= c)%Z.
Proof.
  intros (p & E & H1 & H2). assert (p < length o) by (apply nth_error_Some; congruence).
  destruct (lt_dec 0 p); [destruct (lt_dec (p + 1) (length o))|].
  - rewrite H2 by assumption. rewrite Z.square_spec. apply Z.square_nonneg.
  - rewrite H1 by lia. lia.
  - rewrite H1 by lia. lia.
Qed.

Lemma edge_strength_nonneg X dim y i e : edge_strength X dim y i e -> (0 <= e)%Z.
Proof.
  intros (cs & L & <- & H). assert (F : Forall (fun c => 0 <= c)%Z cs).
  { rewrite Forall_forall. intros c Hc. apply (In_nth _ _ 0%Z) in Hc. destruct Hc as (j & Hj & <-).
    destruct (H j ltac:(lia)) as (o & _ & Ho). eapply edge_at_nonneg; eauto. }
  clear -F. induction F; [cbn; lia|]. unfold zsum in *. cbn [fold_right]. lia.
Qed.

(** ** Weights *)

Lemma shares_of_eq a b w : Forall2 Qeq a b -> shares_of a w -> shares_of b w.
Proof.
  intros E (L & H). assert (La : length a = length b) by (eapply Forall2_length; eassumption).
  assert (Es : (qsum a == qsum b)%Q) by now apply qsum_eq. split; [lia|]. intros i Hi.
  destruct (H i ltac:(lia)) as (H1 & H2). assert (Ei := Forall2_nth' _ _ _ 0%Q 0%Q i E ltac:(lia)). cbv beta in Ei.
  rewrite <- La. split; intros Hs.
  - apply H1. now rewrite Es.
  - rewrite H2 by (now rewrite Es). now rewrite Es, Ei.
Qed.

Lemma normalize_shares u w : normalize u = Ok w -> shares_of u w.
Proof.
  unfold normalize. destruct (Qeq_bool (qsum u) 0) eqn:E; [discriminate|]. intros H. injection H as <-.
  apply Qeq_bool_neq in E. split; [apply map_length|]. intros i Hi. split; [contradiction|]. intros _.
  rewrite (nth_map' _ 0%Q) by assumption. reflexivity.
Qed.

Lemma probability_positive w : (qsum w == 1)%Q -> exists b, b < length w /\ (0 < nth b w 0)%Q.
Proof.
  intros H. destruct (Exists_dec (fun q => 0 < q)%Q w) as [E|E].
  - intros q. destruct (Qlt_le_dec 0 q); [now left|right; now apply Qle_not_lt].
  - apply Exists_exists in E. destruct E as (q & Hq & Hp). apply (In_nth _ _ 0%Q) in Hq. destruct Hq as (b & Hb & <-). eauto.
  - exfalso. assert (F : Forall (fun q => q <= 0)%Q w).
    { rewrite Forall_forall. intros q Hq. apply Qnot_lt_le. intros Hp. apply E, Exists_exists. eauto. }
    assert (qsum w <= 0)%Q; [|Lqa.lra]. clear -F. induction F; [apply Qle_refl|]. rewrite qsum_cons. Lqa.lra.
Qed.

Definition root_ok (root : Q -> Q) : Prop := (forall q, 0 <= q -> 0 <= root q)%Q /\ (forall q, 0 < q -> 0 < root q)%Q.

Lemma root_sum root s : root_ok root -> Forall (Qle 0) s -> (qsum s == 1)%Q -> Forall (Qle 0) (map root s) /\ (0 < qsum (map root s))%Q.
Proof.
  intros (R1 & R2) Hs H. assert (F : Forall (Qle 0) (map root s)).
  { rewrite Forall_forall in *. intros q Hq. apply in_map_iff in Hq. destruct Hq as (a & <- & Ha). auto. }
  split; [assumption|]. destruct (probability_positive s H) as (b & Hb & Hp).
  apply (qsum_pos_in (map root s) (root (nth b s 0%Q))); auto. apply in_map. now apply nth_In.
Qed.

(** ** Edge_Det_SMOTE *)

Lemma edge_magnitudes_spec root mn D : root_ok root -> length (d_X D) = length (d_y D) -> rows_with mn (d_X D) (d_y D) <> [] ->
  exists l es s w, edge_magnitudes root mn D = Ok w /\ rows_labelled (d_y D) mn l /\ length l = length (rows_with mn (d_X D) (d_y D)) /\
    Forall2 (edge_strength (d_X D) (d_dim D) (d_y D)) l es /\
    shares_of (map inject_Z es) s /\ shares_of (map root s) w /\
    length w = length l /\ Forall (Qle 0) w /\ (qsum w == 1)%Q.
Proof.
  intros HR L Hne. unfold edge_magnitudes.
  destruct (edge_strengths (d_X D) (d_dim D) (d_y D) (length (d_X D)) eq_refl) as (Lr & Hr).
  set (r := fold_left (edge_attribute (d_y D)) _ _) in *.
  set (mask := map (Z.eqb mn) (d_y D)). set (l := where_ mask).
  assert (Lm : length mask = length (d_y D)) by apply map_length.
  assert (Hl : rows_labelled (d_y D) mn l).
  { destruct (positions_where mask) as (P1 & P2). split; [exact P1|]. intros i. unfold l. rewrite P2. unfold mask. rewrite nth_error_map.
    destruct (nth_error (d_y D) i) as [z|]; cbn; split; intros H; try discriminate.
    - injection H as H. apply Z.eqb_eq in H. now subst.
    - injection H as ->. now rewrite Z.eqb_refl. }
  assert (Fl : Forall (fun i => i < length (d_X D)) l).
  { rewrite Forall_forall. intros i Hi. apply Hl in Hi. rewrite L. apply nth_error_Some. congruence. }
  assert (LX : length l = length (rows_with mn (d_X D) (d_y D))).
  { unfold rows_with. fold mask. rewrite select_rows_at by lia. unfold rows_at. now rewrite map_length. }
  assert (Hm : rows_with mn r (d_y D) = map (fun i => nth i r 0%Q) l).
  { unfold rows_with. fold mask. rewrite (select_nth 0%Q) by lia. unfold l. rewrite where_filter. do 2 f_equal. f_equal. lia. }
  rewrite Hm.
  assert (G : exists es, Forall2 (edge_strength (d_X D) (d_dim D) (d_y D)) l es /\ Forall2 (fun i e => nth i r 0 == inject_Z e)%Q l es).
  { clear -Fl Hr. induction Fl as [|i l Hi _ (es & I1 & I2)]; [exists []; split; constructor|].
    destruct (Hr i Hi) as (e & He & Ee). exists (e :: es). split; constructor; assumption. }
  destruct G as (es & G1 & G2).
  set (m := map (fun q => if Qlt_b q 0 then 0%Q else q) (map (fun i => nth i r 0%Q) l)).
  assert (Em : Forall2 Qeq m (map inject_Z es)).
  { unfold m. rewrite map_map. clear -G1 G2. revert G1. induction G2 as [|i e l es H _ IH]; intros G1; [constructor|].
    inversion G1 as [|? ? ? ? G G']; subst. cbn [map]. apply Forall2_cons; [|auto].
    apply edge_strength_nonneg in G. destruct (Qlt_b (nth i r 0%Q) 0) eqn:E; [|assumption]. exfalso. apply Qlt_b_iff in E. rewrite H in E.
    change 0%Q with (inject_Z 0) in E. rewrite <- Zlt_Qlt in E. lia. }
  assert (Nm : Forall (Qle 0) m).
  { unfold m. rewrite Forall_forall. intros q Hq. apply in_map_iff in Hq. destruct Hq as (a & <- & _).
    destruct (Qlt_b a 0) eqn:E; [apply Qle_refl|]. apply Qnot_lt_le. intros H. apply Qlt_b_iff in H. congruence. }
  assert (Lm' : length m = length l) by (unfold m; now rewrite !map_length).
  assert (Hm0 : m <> []).
  { intros H0. rewrite H0 in Lm'. cbn in Lm'. rewrite <- Lm' in LX. symmetry in LX. apply length_zero_iff_nil in LX. contradiction. }
  set (s := fix_density (map Fin m)).
  assert (Sh : shares_of m s) by now apply fix_density_shares.
  assert (Hf : map Fin m <> []) by (destruct m; [congruence|discriminate]).
  assert (S1 : (qsum s == 1)%Q) by now apply fix_density_sum.
  assert (S0 : Forall (Qle 0) s).
  { apply fix_density_nonneg. rewrite Forall_forall in *. intros x Hx. apply in_map_iff in Hx. destruct Hx as (q & <- & Hq). cbn. auto. }
  destruct (root_sum root s HR S0 S1) as (R1 & R2).
  destruct (SimplexGeom.normalize_total (map root s) R2) as (w & Ew). destruct (normalize_ok _ _ R1 Ew) as (W1 & W2 & W3).
  exists l, es, s, w. fold m. fold s. split; [exact Ew|]. split; [assumption|]. split; [assumption|]. split; [assumption|].
  split; [eapply shares_of_eq; eassumption|]. split; [now apply normalize_shares|]. split; [|split; assumption].
  rewrite W1, map_length. unfold s. rewrite fix_density_length, map_length. assumption.
Qed.

Lemma weighted_call dist vol ss nn X d k n r w : knn_ok dist nn -> rng_ok r -> unif_pos r -> plain_ss ss -> rect d X ->
  1 <= k <= length X -> length w = length X -> Forall (Qle 0) w -> (qsum w == 1)%Q ->
  exists T S, nn X X k = Ok T /\ nearest_table dist X X k T /\
    sample_simplex vol ss (mk_args X d T k (Some w) None None false None) n r = Ok S /\ length S = n /\
    (ss_gauss ss = GNone -> Forall (neighbour_sample d X X T k (Nat.min (ss_n_dim ss) k - 1) (Some w) None) S).
Proof.
  intros Hnn Hr Hu Hp HX Hk Lw W0 W1. destruct (Hnn X X k ltac:(lia)) as (T & ET & HT).
  destruct (nearest_table_shape _ _ _ _ _ HT) as (L1 & L2 & L3). destruct (probability_positive w W1) as (b & Hb & Hpos).
  destruct (ss_call vol ss (mk_args X d T k (Some w) None None false None) n r b) as (S & ES & LS & HS); auto.
  - constructor; cbn; auto; try discriminate; try lia. split; [lia|assumption].
  - cbn. lia.
  - cbn. lia.
  - exists T, S. auto.
Qed.

Lemma edge_det_runs dist vol nn root p r D mn mj n :
  knn_ok dist nn -> rng_ok r -> unif_pos r -> root_ok root -> plain_ss (sm_ss p) -> wf_data (d_X D) (d_dim D) (d_y D) -> is_minority (d_y D) mn mj ->
  asked (sm_proportion p) (d_y D) mn mj = Ok n ->
  runs D mn n (edge_det_spec dist root p D mn n) (edge_det_sample vol nn root p r D).
Proof.
  intros Hnn Hr Hu HR Hp [W1 W2] Hmin Ha. unfold edge_det_sample, edge_det_algorithm.
  apply (runs_intro _ _ _ _ _ _ _ Hmin Ha). intros st Hst H2 Hn. destruct (stats_labels _ _ _ _ Hst) as [E1 _]. rewrite E1.
  set (X_min := rows_with mn (d_X D) (d_y D)).
  assert (LX : length X_min = count_label (d_y D) mn) by (apply rows_with_length; assumption).
  assert (RX : rect (d_dim D) X_min) by (apply rows_with_rect; assumption).
  destruct (edge_magnitudes_spec root mn D HR W2) as (l & es & s & w & Ew & Hl & Ll & He & Hs & Hw & Lw & W0 & Wsum).
  { fold X_min. intros H0. rewrite H0 in LX. cbn [length] in LX. lia. }
  rewrite Ew. cbn [bind]. fold X_min in Ll.
  destruct (weighted_call dist vol (sm_ss p) nn X_min (d_dim D) (Nat.min (length X_min) (sm_n_neighbors p + 1)) (Z.to_nat n) r w)
    as (T & S & ET & HT & ES & LS & HS); auto; try lia. rewrite ET. cbn [bind]. rewrite ES. cbn [bind].
  eexists. split; [reflexivity|]. split; [assumption|]. exists T, l, es, s, w. auto 10.
Qed.

(** Rows without label changes around them are no base rows unless there are no
    others. *)
Lemma edge_det_bases dist root p D mn n S : root_ok root -> (root 0 == 0)%Q -> (forall a b, a == b -> root a == root b)%Q ->
  length (d_X D) = length (d_y D) ->
  ss_gauss (sm_ss p) = GNone -> edge_det_spec dist root p D mn n S ->
  exists l es, rows_labelled (d_y D) mn l /\ Forall2 (edge_strength (d_X D) (d_dim D) (d_y D)) l es /\
    Forall (fun x => exists b ps, b < length l /\ ((0 < nth b es 0)%Z \/ Forall (fun e => e = 0%Z) es) /\
      incl ps (rows_with mn (d_X D) (d_y D)) /\ convex_comb (d_dim D) (nth (nth b l 0) (d_X D) [] :: ps) x) S.
Proof.
  intros (R1 & R2) R0 RE HL HG (_ & T & l & es & s & w & HT & Hl & He & Hs & Hw & HS).
  specialize (HS HG). exists l, es. split; [assumption|]. split; [assumption|].
  set (X_min := rows_with mn (d_X D) (d_y D)) in *. set (k := Nat.min (length X_min) (sm_n_neighbors p + 1)) in *.
  assert (Le : length l = length es) by (eapply Forall2_length; exact He).
  assert (El : l = where_ (map (Z.eqb mn) (d_y D))).
  { destruct (positions_where (map (Z.eqb mn) (d_y D))) as (P1 & P2). destruct Hl as (Q1 & Q2).
    apply (positions_unique (fun i => nth_error (d_y D) i = Some mn) (fun i => nth_error (map (Z.eqb mn) (d_y D)) i = Some true)); [split; assumption|split; assumption|].
    intros i. rewrite nth_error_map.
    destruct (nth_error (d_y D) i) as [z|]; cbn; split; intros H; try discriminate.
    - injection H as ->. now rewrite Z.eqb_refl.
    - injection H as H. apply Z.eqb_eq in H. now subst. }
  assert (EX : X_min = rows_at (d_X D) l).
  { unfold X_min, rows_with. rewrite El. apply select_rows_at. now rewrite map_length. }
  assert (LX : length X_min = length l) by (rewrite EX; unfold rows_at; now rewrite map_length).
  destruct (nearest_table_shape _ _ _ _ _ HT) as (T1 & T2 & T3).
  eapply Forall_impl; [|exact HS]. intros x (b & ps & Hb & _ & _ & Hps & Hwb & _ & Hx). cbv beta.
  rewrite T1 in Hb. exists b, (map (fun p => nth (nth p (nth b T []) 0) X_min []) ps). split; [lia|]. split; [|split].
  - destruct (Forall_dec (fun e => e = 0%Z) (fun e => Z.eq_dec e 0) es) as [Z0|N0]; [now right|left].
    assert (He0 : forall e, In e es -> (0 <= e)%Z).
    { intros e Hin. apply (In_nth _ _ 0%Z) in Hin. destruct Hin as (j & Hj & <-). eapply edge_strength_nonneg.
      apply (Forall2_nth' _ _ _ 0 0%Z j He). lia. }
    assert (Hpos : (0 < qsum (map inject_Z es))%Q).
    { apply neg_Forall_Exists_neg in N0; [|intros e; apply Z.eq_dec].
      apply Exists_exists in N0. destruct N0 as (e & Hin & Ne). apply (qsum_pos_in _ (inject_Z e)).
      - rewrite Forall_forall. intros q Hq. apply in_map_iff in Hq. destruct Hq as (a & <- & Ha). change 0%Q with (inject_Z 0). rewrite <- Zle_Qle. auto.
      - now apply in_map.
      - change 0%Q with (inject_Z 0). rewrite <- Zlt_Qlt. specialize (He0 e Hin). lia. }
    assert (Hbe : b < length es) by lia.
    destruct (Z_lt_le_dec 0 (nth b es 0%Z)) as [|Hle]; [assumption|exfalso].
    assert (E0 : nth b es 0%Z = 0%Z) by (specialize (He0 _ (nth_In es 0%Z Hbe)); lia).
    destruct Hs as (Ls & Hs). rewrite map_length in Ls, Hs. destruct (Hs b Hbe) as (_ & Hs2).
    rewrite (nth_map' _ 0%Z) in Hs2 by assumption. rewrite E0 in Hs2.
    assert (Sb : (nth b s 0 == 0)%Q) by (rewrite Hs2 by Lqa.lra; cbn; field; Lqa.lra).
    assert (Sh0 : forall j, j < length es -> (0 <= nth j s 0)%Q).
    { intros j Hj. destruct (Hs j Hj) as (_ & Hj2). rewrite Hj2 by Lqa.lra. rewrite (nth_map' _ 0%Z) by assumption.
      apply Qle_shift_div_l; [assumption|]. rewrite Qmult_0_l. change 0%Q with (inject_Z 0). rewrite <- Zle_Qle. apply He0. now apply nth_In. }
    destruct Hw as (Lw & Hw). rewrite map_length in Lw, Hw. destruct (Hw b ltac:(lia)) as (_ & Hw2).
    rewrite (nth_map' _ 0%Q) in Hw2 by lia.
    assert (Hrs : ~ (qsum (map root s) == 0)%Q).
    { assert (exists j, j < length es /\ (0 < nth j s 0)%Q) as (j & Hj & Hjp).
      { apply neg_Forall_Exists_neg in N0; [|intros e; apply Z.eq_dec].
        apply Exists_exists in N0. destruct N0 as (e & Hin & Ne). apply (In_nth _ _ 0%Z) in Hin. destruct Hin as (j & Hj & <-).
        exists j. split; [assumption|]. destruct (Hs j Hj) as (_ & Hj2). rewrite Hj2 by Lqa.lra. rewrite (nth_map' _ 0%Z) by assumption.
        apply Qlt_shift_div_l; [assumption|]. rewrite Qmult_0_l. change 0%Q with (inject_Z 0). rewrite <- Zlt_Qlt.
        specialize (He0 _ (nth_In es 0%Z Hj)). lia. }
      assert (0 < qsum (map root s))%Q; [|Lqa.lra]. apply (qsum_pos_in _ (root (nth j s 0%Q))).
      - rewrite Forall_forall. intros q Hq. apply in_map_iff in Hq. destruct Hq as (a & <- & Ha). apply R1.
        apply (In_nth _ _ 0%Q) in Ha. destruct Ha as (i & Hi & <-). apply Sh0. lia.
      - apply in_map, nth_In. lia.
      - auto. }
    rewrite (Hw2 Hrs) in Hwb. rewrite (RE _ _ Sb), R0 in Hwb. unfold Qdiv in Hwb. rewrite Qmult_0_l in Hwb. now apply Qlt_irrefl in Hwb.
  - intros z Hz. apply in_map_iff in Hz. destruct Hz as (q & <- & Hq). apply nth_In.
    rewrite Forall_forall in Hps. specialize (Hps q Hq).
    destruct (NearFacts.table_row dist X_min X_min k T b HT Hb) as (R3 & R4). rewrite Forall_forall in R4. apply R4, nth_In. lia.
  - rewrite EX in Hx at 1. unfold rows_at in Hx at 1. rewrite (nth_map' _ 0) in Hx by lia. exact Hx.
Qed.

(** ** MCT *)

Lemma mct_runs dist vol norm nn p r D mn mj n :
  knn_ok dist nn -> rng_ok r -> unif_pos r -> (forall x, (0 <= norm x)%Q) -> plain_ss (sm_ss p) -> wf_data (d_X D) (d_dim D) (d_y D) -> is_minority (d_y D) mn mj ->
  asked (sm_proportion p) (d_y D) mn mj = Ok n ->
  runs D mn n (mct_spec dist norm p D mn n) (mct_sample vol norm nn p r D).
Proof.
  intros Hnn Hr Hu HN Hp [W1 W2] Hmin Ha. unfold mct_sample, mct_algorithm.
  apply (runs_intro _ _ _ _ _ _ _ Hmin Ha). intros st Hst H2 Hn. destruct (stats_labels _ _ _ _ Hst) as [E1 _]. rewrite E1.
  set (X_min := rows_with mn (d_X D) (d_y D)).
  assert (LX : length X_min = count_label (d_y D) mn) by (apply rows_with_length; assumption).
  assert (RX : rect (d_dim D) X_min) by (apply rows_with_rect; assumption).
  assert (NX : X_min <> []) by (intros H0; rewrite H0 in LX; cbn [length] in LX; lia).
  destruct (mapM_total (fun j => median (map (fun x => nth j x 0%Q) X_min)) (seq 0 (d_dim D))) as (med & Emed).
  { rewrite Forall_forall. intros j _. destruct (median_spec (map (fun x => nth j x 0%Q) X_min)) as (m & E & _); [destruct X_min; [congruence|discriminate]|eauto]. }
  set (ds := map (fun x => norm (vsub med x)) X_min).
  set (w := fix_density (map (fun d => Fin (qsum ds - d)%Q) ds)).
  assert (Ew : w = fix_density (map Fin (map (fun d => qsum ds - d)%Q ds))) by (unfold w; now rewrite map_map).
  set (u := map (fun d => (qsum ds - d)%Q) ds) in *.
  assert (Nu : u <> []) by (unfold u, ds; destruct X_min; [congruence|discriminate]).
  assert (Fd : Forall (Qle 0) ds) by (unfold ds; rewrite Forall_forall; intros q Hq; apply in_map_iff in Hq; destruct Hq as (x & <- & _); auto).
  assert (Fu : Forall (Qle 0) u).
  { unfold u. rewrite Forall_forall. intros q Hq. apply in_map_iff in Hq. destruct Hq as (d & <- & Hd).
    assert (d <= qsum ds)%Q; [|Lqa.lra]. clear -Fd Hd. induction Fd as [|a l Ha F IH]; [contradiction|]. rewrite qsum_cons.
    destruct Hd as [->|Hd]; [assert (0 <= qsum l)%Q by (now apply qsum_nonneg); Lqa.lra|specialize (IH Hd); Lqa.lra]. }
  assert (Sh : shares_of u w) by (rewrite Ew; now apply fix_density_shares).
  assert (Nf : map Fin u <> []) by (destruct u; [congruence|discriminate]).
  assert (S1 : (qsum w == 1)%Q) by (rewrite Ew; now apply fix_density_sum).
  assert (S0 : Forall (Qle 0) w).
  { rewrite Ew. apply fix_density_nonneg. rewrite Forall_forall in *. intros x Hx. apply in_map_iff in Hx. destruct Hx as (q & <- & Hq). cbn. auto. }
  assert (Lw : length w = length X_min) by (rewrite (proj1 Sh); unfold u, ds; now rewrite !map_length).
  destruct (weighted_call dist vol (sm_ss p) nn X_min (d_dim D) (Nat.min (length X_min) (sm_n_neighbors p + 1)) (Z.to_nat n) r w)
    as (T & S & ET & HT & ES & LS & HS); auto; try lia.
  rewrite ET. cbn [bind]. rewrite Emed. cbn [bind]. fold ds. fold w. rewrite ES. cbn [bind].
  apply mapM_ok_iff in Emed. assert (Lm : length med = d_dim D) by (apply Forall2_length in Emed; rewrite seq_length in Emed; auto).
  eexists. split; [reflexivity|]. split; [assumption|]. exists T, med, w. split; [assumption|]. split; [assumption|]. split; [|split; [exact Sh|exact HS]].
  intros j Hj. pose proof (Forall2_nth' _ _ _ 0 0%Q j Emed ltac:(rewrite seq_length; assumption)) as E. cbv beta in E. rewrite seq_nth in E by assumption. cbn [Nat.add] in E.
  destruct (median_spec (map (fun x => nth j x 0%Q) X_min)) as (m & E' & Hm); [destruct X_min; [congruence|discriminate]|].
  rewrite E in E'. injection E' as ->. exact Hm.
Qed.

Lemma mct_copies dist norm p D mn n S : ss_n_dim (sm_ss p) = 1 -> ss_gauss (sm_ss p) = GNone ->
  mct_spec dist norm p D mn n S ->
  Forall (fun x => exists z, In z (rows_with mn (d_X D) (d_y D)) /\ length x = d_dim D /\
    forall j, j < d_dim D -> (nth j x 0 == nth j z 0)%Q) S.
Proof.
  intros H1 HG (_ & T & med & w & HT & _ & _ & _ & HS). specialize (HS HG).
  eapply Forall_impl; [|exact HS]. intros x (b & ps & Hb & Lps & _ & _ & _ & _ & Hx).
  rewrite H1 in Lps. assert (ps = []) by (apply length_zero_iff_nil; lia). subst ps. cbn [map] in Hx.
  destruct (nearest_table_shape _ _ _ _ _ HT) as (L1 & _). rewrite L1 in Hb.
  eexists. split; [apply nth_In, Hb|]. split; [apply Hx|]. intros j Hj. now apply (convex_comb_single _ _ _ Hx).
Qed.
