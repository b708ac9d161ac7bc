(** Proofs about GroupModel: cluster_SMOTE and kmeans_SMOTE. *)

From Coq Require Import List ZArith QArith Bool Arith Lia Lqa Sorting.Sorted Permutation.
From Verif Require Import Np NpFacts BaseFacts SimplexModel Spec SpecDanger SpecNoise SpecComp SimplexFacts SimplexGeom Float64
  SamplerModel SamplerFacts OversFacts BaseModel KnnFacts DangerModel DangerFacts ClusterOversModel OversGen
  ClusterOversFacts ClusterFacts NoiseModel NoiseFacts NoiseFacts2 CompModel CompFacts CompFacts2 CompFacts3 EditModel SpecEdit EditFacts4 EditFacts5
  SpecNear NearFacts NearFacts2 LevelModel SpecLevel LevelFacts LevelFacts3 GroupModel SpecGroup.
From Verif Require DistFacts.
Import ListNotations.
Open Scope nat_scope.

(** * Positions *)

Lemma positions_where m : positions (fun i => nth_error m i = Some true) (where_ m).
Proof.
  split.
  - rewrite where_filter. apply filter_StronglySorted, NoiseFacts.seq_StronglySorted.
  - intros i. rewrite NoiseFacts2.where_in. split.
    + intros [H E]. rewrite <- E. now apply nth_error_nth'.
    + intros H. split; [apply nth_error_Some; congruence|]. now apply nth_error_nth.
Qed.

Lemma positions_ext (P Q : nat -> Prop) l : (forall i, P i <-> Q i) -> positions P l -> positions Q l.
Proof. intros H [H1 H2]. split; [assumption|]. intros i. now rewrite H2. Qed.

Lemma nth_error_map_true {A} (f : A -> bool) l i : nth_error (map f l) i = Some true <-> exists a, nth_error l i = Some a /\ f a = true.
Proof.
  rewrite nth_error_map. destruct (nth_error l i) as [a|]; cbn.
  - split; [intros [= H]; eauto|intros (? & [= <-] & ->); reflexivity].
  - split; [discriminate|intros (? & ? & _); discriminate].
Qed.

Lemma cluster_at_positions labels c : positions (in_cluster labels c) (cluster_at labels c).
Proof.
  unfold cluster_at. eapply positions_ext; [|apply positions_where]. intros i. cbn. rewrite nth_error_map_true. unfold in_cluster. split.
  - intros (a & E & H). apply Nat.eqb_eq in H. now subst.
  - intros H. exists c. split; [assumption|apply Nat.eqb_refl].
Qed.

Lemma select_rows_at m X : length m = length X -> select m X = rows_at X (where_ m).
Proof. intros H. rewrite (select_nth []), where_filter by assumption. now rewrite H. Qed.

Lemma positions_bound (P : nat -> Prop) l m : positions P l -> (forall i, P i -> i < m) -> Forall (fun i => i < m) l.
Proof. intros [_ H] Hb. apply Forall_forall. intros i Hi. apply Hb, H, Hi. Qed.

Lemma in_cluster_lt labels c i : in_cluster labels c i -> i < length labels.
Proof. intros H. apply nth_error_Some. unfold in_cluster in H. congruence. Qed.

Lemma cluster_at_length labels c : length (cluster_at labels c) = count_occ Nat.eq_dec labels c.
Proof.
  unfold cluster_at, where_. rewrite (DistFacts.select_count) by (rewrite seq_length; reflexivity).
  induction labels as [|a labels IH]; [reflexivity|]. cbn [map count_occ filter]. destruct (Nat.eqb_spec c a) as [->|N].
  - destruct (Nat.eq_dec a a); [cbn; now rewrite IH|congruence].
  - destruct (Nat.eq_dec a c); [congruence|exact IH].
Qed.

(** * Rows of one group *)

Section Grouped.
Variables (dist : row -> row -> Q) (vol : list row -> Q) (nn : list row -> list row -> nat -> res (list (list nat)))
  (ss : ss_params) (dim : nat) (kf : list row -> nat) (rs : nat -> rng) (Vs : list (list row)).
Hypothesis Hnn : knn_ok dist nn.
Hypothesis Hrs : rngs_ok rs.
Hypothesis Hrp : rngs_pos rs.
Hypothesis Hss : plain_ss ss.
Hypothesis HVs : Forall (fun V => rect dim V /\ 1 <= kf V <= length V) Vs.

Lemma group_tables : exists Ts, mapM (fun v => nn v v (kf v)) Vs = Ok Ts /\ length Ts = length Vs /\
  forall q, q < length Vs -> nearest_table dist (nth q Vs []) (nth q Vs []) (kf (nth q Vs [])) (nth q Ts []).
Proof.
  destruct (mapM_total (fun v => nn v v (kf v)) Vs) as [Ts E].
  { eapply Forall_impl; [|exact HVs]. cbn. intros V [_ H]. destruct (Hnn V V (kf V)) as (T & ET & _); [lia|eauto]. }
  exists Ts. split; [assumption|]. split; [now apply mapM_length in E|]. intros q Hq.
  pose proof (ClusterOversFacts.mapM_nth _ _ _ [] [] q E Hq) as Eq. cbv beta in Eq.
  rewrite Forall_forall in HVs. destruct (HVs (nth q Vs [])) as [_ H]; [now apply nth_In|].
  destruct (Hnn (nth q Vs []) (nth q Vs []) (kf (nth q Vs []))) as (T & ET & HT); [lia|]. congruence.
Qed.

Lemma group_rows Ts chosen :
  (forall q, q < length Vs -> nearest_table dist (nth q Vs []) (nth q Vs []) (kf (nth q Vs [])) (nth q Ts [])) ->
  length Ts = length Vs -> Forall (fun c => c < length Vs) chosen -> chosen <> [] ->
  exists S cls, by_cluster (fun c count =>
      do v <- get Vs c;
      do ind <- get Ts c;
      sample_simplex vol ss (mk_args v dim ind (kf v) None None None false None) count (rs (Datatypes.S c))) chosen = Ok S /\
    Permutation cls chosen /\ StronglySorted le cls /\
    Forall2 (fun q x => q < length Vs /\ sample_of dist ss dim (nth q Vs []) (kf (nth q Vs [])) (nth q Ts []) x) cls S.
Proof.
  intros HT LT Hch Hne. set (call := fun c count => _).
  set (P := fun q x => q < length Vs /\ sample_of dist ss dim (nth q Vs []) (kf (nth q Vs [])) (nth q Ts []) x).
  assert (Call : forall c m, In c chosen -> exists S, call c m = Ok S /\ length S = m /\ forall x, In x S -> P c x).
  { intros c m Hc. rewrite Forall_forall in Hch. apply Hch in Hc. unfold call.
    rewrite (get_nth [] Vs c) by assumption. cbn [bind]. rewrite (get_nth [] Ts c) by lia. cbn [bind].
    set (V := nth c Vs []). rewrite Forall_forall in HVs. destruct (HVs V) as [RV KV]; [now apply nth_In|].
    specialize (HT c Hc). fold V in HT. set (T := nth c Ts []) in *.
    destruct (nearest_table_shape _ _ _ _ _ HT) as (L1 & L2 & L3).
    set (args := mk_args V dim T (kf V) None None None false None).
    assert (AO : args_ok args) by (constructor; cbn; auto; try discriminate; lia).
    destruct (ss_call vol ss args m (rs (Datatypes.S c)) 0 AO (Hrs _) (Hrp _) Hss) as (S & ES & LS & FS); cbn; auto; try lia.
    exists S. split; [exact ES|]. split; [assumption|]. intros x Hx. split; [assumption|]. split; [assumption|].
    intros G. specialize (FS G). rewrite Forall_forall in FS. exact (FS x Hx). }
  destruct (by_cluster_total call chosen Hne) as [S ES].
  { intros c m Hc. destruct (Call c m Hc) as (S & E & _). eauto. }
  destruct (by_cluster_order P call chosen S) as (cls & C1 & C2 & C3).
  { intros c m S' Hc Hc'. destruct (Call c m Hc) as (S'' & E & L' & F'). rewrite E in Hc'. injection Hc' as <-. auto. }
  { exact ES. }
  exists S, cls. auto.
Qed.
End Grouped.

Lemma mapM_gather X gs : Forall (Forall (fun i => i < length X)) gs -> mapM (gather X) gs = Ok (map (rows_at X) gs).
Proof.
  intros H. rewrite (mapM_ext_in _ (fun g => Ok (rows_at X g))); [apply mapM_pure|].
  intros g Hg. rewrite Forall_forall in H. now apply gather_rows_at, H.
Qed.

(** * cluster_SMOTE *)

Lemma list_max_in l m : list_max l <= m <-> forall x, In x l -> x <= m.
Proof. rewrite list_max_le, Forall_forall. reflexivity. Qed.

Lemma max_cluster labels : list_max (map (@length nat) (map (cluster_at labels) (nat_unique labels))) <= 1 <-> NoDup labels.
Proof.
  rewrite list_max_in, (NoDup_count_occ Nat.eq_dec). split.
  - intros H c. destruct (in_dec Nat.eq_dec c labels) as [Hc|Hc].
    + rewrite <- cluster_at_length. apply H. rewrite map_map. apply in_map_iff. exists c. split; [reflexivity|]. now apply nat_unique_in.
    + apply (count_occ_not_In Nat.eq_dec) in Hc. lia.
  - intros H x Hx. rewrite map_map in Hx. apply in_map_iff in Hx as (c & <- & _). rewrite cluster_at_length. apply H.
Qed.

Lemma cluster_smote_runs dist vol nn km p rs D mn mj n :
  knn_ok dist nn -> rngs_ok rs -> rngs_pos rs -> plain_ss (gp_ss p) -> wf_data (d_X D) (d_dim D) (d_y D) -> is_minority (d_y D) mn mj ->
  asked (gp_proportion p) (d_y D) mn mj = Ok n -> 1 <= gp_n_neighbors p -> (forall k X, length (km k X) = length X) ->
  let X_min := rows_with mn (d_X D) (d_y D) in
  runs D mn n (cluster_smote_spec dist (r_choice (rs 0)) (km (Nat.min (length X_min) (gp_n_clusters p)) X_min) p D mn n)
    (cluster_smote_sample vol nn km p rs D).
Proof.
  intros Hnn Hrs Hrp Hss [Hr Hl] Hmin Ha Hk Hkm X_min. unfold cluster_smote_sample, cluster_smote_algorithm.
  apply (runs_intro _ _ _ _ _ _ _ Hmin Ha). intros st (E1 & E2 & _) H2 Hn. rewrite E1. fold X_min.
  set (labels := km _ X_min). assert (LL : length labels = length X_min) by apply Hkm.
  destruct (Nat.leb_spec (list_max (map (@length nat) (map (cluster_at labels) (nat_unique labels)))) 1) as [Hm|Hm].
  - exists []. split; [unfold extended; cbn; now rewrite !app_nil_r|]. apply max_cluster in Hm. split; [reflexivity|]. intros H. contradiction.
  - assert (ND : ~ NoDup labels) by (intros H; apply max_cluster in H; lia).
    set (names := nat_unique labels) in *. set (groups := map (cluster_at labels) names).
    assert (Hnm : positions (fun c => In c labels) names).
    { split; [apply nat_unique_sorted|]. intros i. apply nat_unique_in. }
    assert (Hg : Forall (Forall (fun i => i < length X_min)) groups).
    { apply Forall_map, Forall_forall. intros c _. rewrite <- LL.
      eapply positions_bound; [apply cluster_at_positions|]. intros i. apply in_cluster_lt. }
    assert (Hg0 : Forall (fun g => g <> []) groups).
    { apply Forall_map, Forall_forall. intros c Hc. apply Hnm in Hc. intros E.
      apply (f_equal (@length nat)) in E. rewrite cluster_at_length in E. apply (count_occ_In Nat.eq_dec) in Hc. cbn in E. lia. }
    unfold cluster_smote_generate. rewrite mapM_gather by assumption. cbn [bind].
    set (Vs := map (rows_at X_min) groups). assert (LVs : length Vs = length names) by (unfold Vs, groups; now rewrite !map_length).
    set (kf := fun v : list row => Nat.min (gp_n_neighbors p) (length v)).
    assert (HVs : Forall (fun V => rect (d_dim D) V /\ 1 <= kf V <= length V) Vs).
    { apply Forall_map. rewrite Forall_forall in Hg, Hg0 |- *. intros g Hg'. split.
      - apply rows_at_rect; auto. now apply rows_with_rect.
      - unfold kf. rewrite rows_at_length. specialize (Hg0 g Hg'). destruct g; [congruence|]. cbn. lia. }
    destruct (group_tables dist nn (d_dim D) kf Vs Hnn HVs) as (Ts & ET & LT & HT).
    change (fun v => nn v v (Nat.min (gp_n_neighbors p) (length v))) with (fun v => nn v v (kf v)). rewrite ET. cbn [bind].
    assert (Hne : names <> []).
    { intros E. apply ND. destruct labels as [|a l] eqn:El; [constructor|]. exfalso. assert (In a names) by (apply Hnm; now left). rewrite E in H. destruct H. }
    destruct (choice_range_ok (rs 0) (length Vs) (Z.to_nat n) (Hrs 0)) as (ch & Ech & Lch & Fch).
    { rewrite LVs. destruct names; [congruence|cbn; lia]. }
    rewrite Ech. cbn [bind].
    destruct (group_rows dist vol (gp_ss p) (d_dim D) kf rs Vs Hrs Hrp Hss HVs Ts ch HT LT Fch) as (S & cls & ES & C1 & C2 & C3).
    { intros E. rewrite E in Lch. cbn in Lch. lia. }
    unfold kf in ES at 1. rewrite ES. cbn [bind]. exists S. split; [reflexivity|]. split; [intros H; contradiction|]. intros _.
    exists names, groups, Ts, cls. split; [assumption|]. split.
    { unfold groups. clear. induction names; cbn; constructor; [apply cluster_at_positions|assumption]. }
    split.
    { unfold choice_range in Ech. destruct (length Vs =? 0); [discriminate|]. injection Ech as <-. rewrite LVs in C1. exact C1. }
    split; [apply Permutation_length in C1; lia|]. split; [assumption|].
    eapply Forall2_impl; [|exact C3]. cbn beta. intros q x [Hq H].
    assert (Lg : length Vs = length groups) by (unfold Vs; apply map_length). split; [lia|]. cbv zeta. fold X_min.
    assert (EV : nth q Vs [] = rows_at X_min (nth q groups [])).
    { unfold Vs. rewrite (nth_indep _ [] (rows_at X_min [])) by (rewrite map_length; lia). apply map_nth. }
    rewrite EV in H. exact H.
Qed.
