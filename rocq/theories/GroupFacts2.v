(** Proofs about GroupModel: kmeans_SMOTE. *)

From Coq Require Import List ZArith QArith Qpower Bool Arith Lia Lqa Sorting.Sorted Permutation.
From Verif Require Import Np PyVal NpFacts BaseFacts SimplexModel Spec SpecDanger SpecNoise SpecComp SimplexFacts SimplexGeom Float64
  SamplerModel SamplerFacts OversFacts BaseModel KnnFacts DangerModel DangerFacts ClusterOversModel OversGen
  ClusterOversFacts ClusterFacts NoiseModel NoiseFacts NoiseFacts2 CompModel CompFacts CompFacts2 CompFacts3 CompFacts4 EditModel SpecEdit EditFacts4 EditFacts5
  SpecNear NearFacts NearFacts2 LevelModel SpecLevel LevelFacts LevelFacts3 LevelFacts4 GroupModel SpecGroup GroupFacts.
Import ListNotations.
Open Scope nat_scope.

Lemma sorted_unique l l' : StronglySorted lt l -> StronglySorted lt l' -> (forall i, In i l <-> In i l') -> l = l'.
Proof.
  intros H. revert l'. induction H as [|a l H IH F]; intros l' H' E.
  - destruct l' as [|b l']; [reflexivity|]. destruct (proj2 (E b)). now left.
  - destruct H' as [|b l' H' F']; [destruct (proj1 (E a)); now left|].
    assert (a = b).
    { destruct (proj1 (E a)) as [->|Ha]; [now left|reflexivity|]. destruct (proj2 (E b)) as [->|Hb]; [now left|reflexivity|].
      rewrite Forall_forall in F, F'. specialize (F b Hb). specialize (F' a Ha). lia. }
    subst b. f_equal. apply IH; [assumption|]. intros i. specialize (E i). cbn in E. rewrite Forall_forall in F, F'. split; intros Hi.
    + destruct (proj1 E) as [->|?]; auto. specialize (F i Hi). lia.
    + destruct (proj2 E) as [->|?]; auto. specialize (F' i Hi). lia.
Qed.

Lemma positions_unique (P P' : nat -> Prop) l l' : positions P l -> positions P' l' -> (forall i, P i <-> P' i) -> l = l'.
Proof. intros [H1 H2] [H1' H2'] E. apply sorted_unique; auto. intros i. now rewrite H2, H2'. Qed.

Lemma select_map {A B} (f : A -> B) m l : select m (map f l) = map f (select m l).
Proof. revert l. induction m as [|b m IH]; intros [|a l]; cbn; try reflexivity. now destruct b; cbn; rewrite IH. Qed.

Lemma select_seq m k : length m = k -> select m (seq 0 k) = where_ m.
Proof. intros <-. reflexivity. Qed.

Lemma qn_succ a : (qn a + 1 == qn (a + 1))%Q.
Proof. unfold qn, Qeq, inject_Z, Qplus. cbn. lia. Qed.

(** * The filter *)

Lemma km_filter_ok p mn mj y g : Forall (fun i => i < length y) g ->
  exists b, km_filter p mn mj y g = Ok b /\
    (b = true <-> ((qn (votes y g mj) + 1) / (qn (votes y g mn) + 1) < km_irt p)%Q /\ 1 < votes y g mn).
Proof.
  intros H. unfold km_filter. rewrite !count_at_ok by assumption. cbn [bind]. eexists. split; [reflexivity|].
  rewrite andb_true_iff, Qlt_b_spec, Nat.ltb_lt. fold (qn (votes y g mj + 1)). fold (qn (votes y g mn + 1)). rewrite !qn_succ. reflexivity.
Qed.

Lemma minority_in_cluster_ok mn y c : Forall (fun i => i < length y) c ->
  minority_in_cluster mn y c = Ok (filter (fun i => Z.eqb (nth i y 0%Z) mn) c).
Proof.
  intros H. unfold minority_in_cluster. rewrite (gather_map 0%Z) by assumption. cbn [bind]. f_equal. rewrite map_map.
  clear H. induction c as [|i c IH]; [reflexivity|]. cbn [map select filter]. rewrite Z.eqb_sym. now destruct (Z.eqb _ _); rewrite IH.
Qed.

(** * The weights *)

Lemma qsum_but (f : nat -> Q) i l : NoDup l -> In i l ->
  (qsum (map f l) == f i + qsum (map f (filter (fun j => negb (j =? i)) l)))%Q.
Proof.
  induction 1 as [|j l Hj ND IH]; intros Hi; [destruct Hi|]. cbn [map filter].
  destruct (Nat.eqb_spec j i) as [->|N]; cbn [negb map].
  - cbn [qsum map fold_right]. f_equiv.
    replace (filter (fun j => negb (j =? i)) l) with l; [reflexivity|].
    clear - Hj. induction l as [|a l IH]; [reflexivity|]. cbn. destruct (Nat.eqb_spec a i) as [->|N]; [destruct Hj; now left|].
    cbn. f_equal. apply IH. intros H. apply Hj. now right.
  - destruct Hi as [->|Hi]; [congruence|]. cbn [qsum fold_right] in *. change (fold_right Qplus 0%Q) with qsum in *. rewrite (IH Hi). ring.
Qed.

Lemma map_seq_nth {A B} (d : A) (f : A -> B) l : map f l = map (fun i => f (nth i l d)) (seq 0 (length l)).
Proof. rewrite <- (CompFacts4.map_nth_seq d l) at 1. now rewrite map_map. Qed.

Lemma pair_sum dist (V : list row) :
  let m := length V in
  (qsum (map qsum (dist_matrix dist V V)) - qsum (map (fun i => nth i (nth i (dist_matrix dist V V) []) 0%Q) (seq 0 m)) ==
   qsum (map (fun i => qsum (map (fun j => dist (nth i V []) (nth j V [])) (filter (fun j => negb (j =? i)) (seq 0 m)))) (seq 0 m)))%Q.
Proof.
  intros m.
  assert (E1 : map qsum (dist_matrix dist V V) = map (fun i => qsum (map (fun j => dist (nth i V []) (nth j V [])) (seq 0 m))) (seq 0 m)).
  { unfold dist_matrix. rewrite map_map. rewrite (map_seq_nth [] (fun a => qsum (map (dist a) V)) V). apply map_ext_in. intros i _.
    f_equal. apply map_seq_nth. }
  assert (E2 : map (fun i => nth i (nth i (dist_matrix dist V V) []) 0%Q) (seq 0 m) = map (fun i => dist (nth i V []) (nth i V [])) (seq 0 m)).
  { apply map_ext_in. intros i Hi. apply in_seq in Hi. unfold dist_matrix.
    rewrite (nth_indep _ [] (map (dist []) V)) by (rewrite map_length; fold m; lia). rewrite (map_nth (fun a => map (dist a) V)).
    rewrite (nth_indep _ 0%Q (dist (nth i V []) [])) by (rewrite map_length; fold m; lia). apply map_nth. }
  rewrite E1, E2. clear E1 E2.
  rewrite (qsum_map_ext _ (fun i => dist (nth i V []) (nth i V []) + qsum (map (fun j => dist (nth i V []) (nth j V [])) (filter (fun j => negb (j =? i)) (seq 0 m))))%Q).
  - rewrite qsum_map_add. ring.
  - intros i Hi. rewrite (qsum_but (fun j => dist (nth i V []) (nth j V [])) i); [reflexivity|apply seq_NoDup|assumption].
Qed.

Lemma sparsity_ok dist dim V : 1 < length V ->
  (km_sparsity dist dim V == Qpower (mean_distance dist V) (Z.of_nat dim) / qn (length V))%Q.
Proof.
  intros H. unfold km_sparsity, mean_distance. cbv zeta. rewrite pair_sum.
  assert (E : (inject_Z (Z.of_nat (length V * length V - length V)) == qn (length V) * (qn (length V) - 1))%Q).
  { rewrite qn_pred. unfold qn. rewrite <- inject_Z_mult. apply inject_Z_injective. nia. }
  rewrite E. reflexivity.
Qed.

Lemma sparsity_nonneg dist dim V : (forall x z, (0 <= dist x z)%Q) -> 1 < length V -> (0 <= km_sparsity dist dim V)%Q.
Proof.
  intros Hd H. rewrite sparsity_ok by assumption. unfold Qdiv. apply Qmult_le_0_compat.
  - apply Qpower.Qpower_0_le. unfold mean_distance. unfold Qdiv. apply Qmult_le_0_compat.
    + apply qsum_nonneg. apply Forall_map, Forall_forall. intros i _. apply qsum_nonneg, Forall_map, Forall_forall. intros; apply Hd.
    + apply Qinv_le_0_compat. rewrite qn_pred. unfold qn. rewrite <- inject_Z_mult. change 0%Q with (inject_Z 0). rewrite <- Zle_Qle. nia.
  - apply Qinv_le_0_compat. apply Qlt_le_weak, qn_pos. lia.
Qed.

Lemma fix_density_shares s : s <> [] -> shares_of s (fix_density (map Fin s)).
Proof.
  intros Hs. assert (E : map nan_to_num (map Fin s) = s) by (rewrite map_map; cbn; apply map_id).
  split; [now rewrite fix_density_length, map_length|]. intros i Hi. split; intros H.
  - assert (Z : (qsum (map nan_to_num (map Fin s)) == 0)%Q) by now rewrite E.
    apply fix_density_zero in Z. rewrite map_length in Z. rewrite Forall_forall in Z. apply Z, nth_In. now rewrite fix_density_length, map_length.
  - rewrite fix_density_nonzero by now rewrite E. rewrite E. rewrite (nth_indep _ 0%Q (0 / qsum s)%Q) by (rewrite map_length; assumption).
    rewrite (map_nth (fun x => x / qsum s)%Q). reflexivity.
Qed.

Lemma kmeans_smote_runs dist vol nn km p rs D mn mj n :
  knn_ok dist nn -> rngs_ok rs -> rngs_pos rs -> (forall x z, (0 <= dist x z)%Q) -> plain_ss (km_ss p) ->
  wf_data (d_X D) (d_dim D) (d_y D) -> is_minority (d_y D) mn mj ->
  asked (km_proportion p) (d_y D) mn mj = Ok n -> (forall k X, length (km k X) = length X) ->
  runs D mn n (kmeans_smote_spec dist (r_choice (rs 0)) (km (Nat.min (km_n_clusters p) (length (d_X D))) (d_X D)) p D mn mj n)
    (kmeans_smote_sample vol dist nn km p rs D).
Proof.
  intros Hnn Hrs Hrp Hd Hss [Hr Hl] Hmin Ha Hkm. unfold kmeans_smote_sample, kmeans_smote_algorithm.
  apply (runs_intro _ _ _ _ _ _ _ Hmin Ha). intros st (E1 & E2 & _) H2 Hn. rewrite E1, E2.
  set (nc := Nat.min (km_n_clusters p) (length (d_X D))). set (labels := km nc (d_X D)).
  assert (LL : length labels = length (d_y D)) by (unfold labels; rewrite Hkm; assumption).
  set (X := d_X D) in *. set (y := d_y D) in *.
  assert (Hcb : forall c, Forall (fun i => i < length y) (cluster_at labels c)).
  { intros c. rewrite <- LL. eapply positions_bound; [apply cluster_at_positions|]. intros i. apply in_cluster_lt. }
  set (clusters := map (cluster_at labels) (seq 0 nc)).
  destruct (mapM_total (km_filter p mn mj y) clusters) as [flags Ef].
  { apply Forall_map, Forall_forall. intros c _. destruct (km_filter_ok p mn mj y _ (Hcb c)) as (b & E & _). eauto. }
  rewrite Ef. cbn [bind].
  assert (Lf : length flags = nc) by (apply mapM_length in Ef; rewrite Ef; unfold clusters; now rewrite map_length, seq_length).
  set (good := where_ flags).
  assert (Efilt : select flags clusters = map (cluster_at labels) good).
  { unfold clusters. rewrite select_map, (select_seq flags nc Lf). reflexivity. }
  assert (Hgood : positions (fun c => c < nc /\ km_good p y mn mj labels c) good).
  { eapply positions_ext; [|apply positions_where]. intros c. cbn beta.
    assert (K : c < nc -> (nth_error flags c = Some true <-> km_good p y mn mj labels c)).
    { intros Hc. assert (Hb : c < length clusters) by (unfold clusters; rewrite map_length, seq_length; lia).
      pose proof (ClusterOversFacts.mapM_nth _ _ _ [] false c Ef Hb) as Ec.
      assert (En : nth c clusters [] = cluster_at labels c).
      { unfold clusters. rewrite (nth_indep _ [] (cluster_at labels 0)) by assumption. rewrite map_nth, seq_nth by lia. reflexivity. }
      rewrite En in Ec. destruct (km_filter_ok p mn mj y _ (Hcb c)) as (b & E & Hb'). rewrite E in Ec. injection Ec as Ec.
      rewrite (nth_error_nth' flags false) by lia. rewrite <- Ec. split.
      - intros [= ->]. exists (cluster_at labels c). split; [apply cluster_at_positions|]. now apply Hb'.
      - intros (g & Hg & Hcond). assert (g = cluster_at labels c) by (eapply positions_unique; [exact Hg|apply cluster_at_positions|reflexivity]).
        subst g. f_equal. now apply Hb'. }
    split.
    - intros H. assert (c < nc) by (rewrite <- Lf; apply nth_error_Some; congruence). split; [assumption|]. now apply K.
    - intros [Hc H]. now apply K. }
  rewrite Efilt.
  set (mins := fun c => filter (fun i => Z.eqb (nth i y 0%Z) mn) (cluster_at labels c)).
  set (groups := map mins good).
  assert (Hpos : Forall2 (fun c g => positions (fun i => in_cluster labels c i /\ nth i y 0%Z = mn) g) good groups).
  { unfold groups. clear. induction good as [|c l IH]; cbn; constructor; [|assumption].
    destruct (cluster_at_positions labels c) as [P1 P2]. split; [now apply filter_StronglySorted|].
    intros i. unfold mins. rewrite filter_In, P2, Z.eqb_eq. reflexivity. }
  assert (Hgb : Forall (Forall (fun i => i < length X)) groups).
  { apply Forall_map, Forall_forall. intros c _. unfold mins. apply Forall_forall. intros i Hi. apply filter_In in Hi as [Hi _].
    specialize (Hcb c). rewrite Forall_forall in Hcb. specialize (Hcb i Hi). unfold X, y in *. lia. }
  assert (Hg2 : Forall (fun g => 1 < length g) groups).
  { apply Forall_map, Forall_forall. intros c Hc. apply Hgood in Hc as [_ (g & Hg & _ & Hv)].
    assert (g = cluster_at labels c) by (eapply positions_unique; [exact Hg|apply cluster_at_positions|reflexivity]). subst g. exact Hv. }
  match goal with |- exists S, ?m = _ /\ _ => assert (Em : m = if length good =? 0 then Ok (X, y) else
      do minority <- mapM (minority_in_cluster mn y) (map (cluster_at labels) good);
      do vectors <- mapM (gather X) minority;
      do indices <- mapM (fun v => nn v v (Nat.min (length v) (km_n_neighbors p + 1))) vectors;
      do samples <- km_generate vol p rs (d_dim D) vectors indices (fix_density (map (fun v => Fin (km_sparsity dist (d_dim D) v)) vectors)) (Z.to_nat n);
      Ok (extended D st samples)) end.
  { destruct good; reflexivity. }
  rewrite Em. clear Em.
  destruct (Nat.eqb_spec (length good) 0) as [E0|E0].
  - exists []. split; [unfold extended; cbn; now rewrite !app_nil_r|]. exists good, groups. fold X y nc labels.
    split; [assumption|]. split; [assumption|]. split; [reflexivity|]. intros H. destruct good; [congruence|discriminate].
  - rewrite mapM_map, (mapM_ext_in _ (fun c => Ok (mins c))) by (intros c _; apply minority_in_cluster_ok, Hcb).
    rewrite mapM_pure. cbn [bind]. fold groups. rewrite mapM_gather by assumption. cbn [bind].
    set (Vs := map (rows_at X) groups). assert (LVs : length Vs = length groups) by apply map_length.
    assert (Lg : length groups = length good) by (unfold groups; apply map_length).
    set (kf := fun v : list row => Nat.min (length v) (km_n_neighbors p + 1)).
    assert (HV1 : Forall (fun V => 1 < length V) Vs).
    { apply Forall_map. eapply Forall_impl; [|exact Hg2]. intros g. now rewrite rows_at_length. }
    assert (HVs : Forall (fun V => rect (d_dim D) V /\ 1 <= kf V <= length V) Vs).
    { apply Forall_map. rewrite Forall_forall in Hgb, Hg2 |- *. intros g Hg'. split.
      - apply rows_at_rect; auto.
      - unfold kf. rewrite rows_at_length. specialize (Hg2 g Hg'). cbn in Hg2. lia. }
    destruct (group_tables dist nn (d_dim D) kf Vs Hnn HVs) as (Ts & ET & LT & HT).
    change (fun v => nn v v (Nat.min (length v) (km_n_neighbors p + 1))) with (fun v => nn v v (kf v)). rewrite ET. cbn [bind].
    set (s := map (km_sparsity dist (d_dim D)) Vs).
    assert (Es : map (fun v => Fin (km_sparsity dist (d_dim D) v)) Vs = map Fin s) by (unfold s; now rewrite map_map).
    rewrite Es. set (w := fix_density (map Fin s)).
    assert (Hs0 : s <> []).
    { intros E. apply (f_equal (@length Q)) in E. unfold s in E. rewrite map_length in E. cbn in E. lia. }
    assert (Hsn : Forall (Qle 0) s).
    { unfold s. apply Forall_map. eapply Forall_impl; [|exact HV1]. intros V HV. now apply sparsity_nonneg. }
    assert (Hw : shares_of s w) by now apply fix_density_shares.
    assert (Wn : Forall (Qle 0) w).
    { apply fix_density_nonneg. apply Forall_map. eapply Forall_impl; [|exact Hsn]. cbn. auto. }
    assert (Ws : (qsum w == 1)%Q) by (apply fix_density_sum; destruct s; [congruence|discriminate]).
    destruct (rng_choice _ (Hrs 0) w (Z.to_nat n) Wn Ws) as [CL CF].
    assert (Fch : Forall (fun c => c < length Vs) (r_choice (rs 0) w (Z.to_nat n))).
    { eapply Forall_impl; [|exact CF]. cbn. intros c (q & Eq & _).
      assert (c < length w) by (apply nth_error_Some; congruence). rewrite (proj1 Hw) in H. unfold s in H. now rewrite map_length in H. }
    destruct (group_rows dist vol (km_ss p) (d_dim D) kf rs Vs Hrs Hrp Hss HVs Ts (r_choice (rs 0) w (Z.to_nat n)) HT LT Fch) as (S & cls & ES & C1 & C2 & C3).
    { intros E. rewrite E in CL. cbn in CL. lia. }
    unfold km_generate. unfold kf in ES at 1. rewrite ES. cbn [bind]. exists S. split; [reflexivity|].
    exists good, groups. fold X y nc labels. split; [assumption|]. split; [assumption|].
    split; [intros E; rewrite E in E0; cbn in E0; congruence|]. intros _.
    exists s, w, Ts, cls. split.
    { unfold s, Vs. rewrite map_map. clear - Hg2. induction Hg2; cbn [map]; constructor; [|assumption].
      apply sparsity_ok. now rewrite rows_at_length. }
    split; [assumption|]. split; [assumption|]. split; [apply Permutation_length in C1; lia|]. split; [assumption|].
    eapply Forall2_impl; [|exact C3]. cbn beta. intros q x [Hq H]. split; [lia|]. cbv zeta.
    assert (EV : nth q Vs [] = rows_at X (nth q groups [])).
    { unfold Vs. rewrite (nth_indep _ [] (rows_at X [])) by (rewrite map_length; lia). apply map_nth. }
    rewrite EV in H. exact H.
Qed.
