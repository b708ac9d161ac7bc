(** Properties C115 to C119: SMOTEWB, SMOTE_FRST_2T, SOMO, V_SYNTH and DSMOTE. *)

From Coq Require Import List ZArith QArith Qabs Qminmax Bool Arith Lia Lqa Sorting.Sorted Permutation.
From Verif Require Import Np PyVal NpFacts SimplexModel Spec SpecDanger SpecNoise SpecComp SpecEdit BorderFacts SimplexFacts SimplexGeom Float64
  SamplerModel SamplerFacts OversFacts OversGen BaseModel NoiseModel KnnModel KnnFacts DangerModel ClusterOversModel
  ClusterOversFacts CompModel CompFacts SpecNear LevelModel SpecLevel SpecGroup WrapModel SpecWrap DirModel SpecDir RegionModel SpecRegion
  SearchModel SpecSearch GraphModel SpecGraph MixModel SpecMix MixFacts MixFacts2 MixFacts3 MixFacts4 MixFacts5 MixFacts6
  Witness DangerWitness ClusterWitness CompWitness EditWitness NearWitness LevelWitness WrapWitness DirWitness RegionWitness SearchWitness GraphWitness MixWitness.
Import ListNotations.
Open Scope nat_scope.

(** C115. *)
Theorem C115_smotewb : forall volume dist nn boosted proportion ss d c r D mn mj n,
  knn_ok dist nn -> (forall X y, length (boosted X y) = length X) -> draws_ok d -> subsets_ok c -> rng_ok r -> unif_pos r -> plain_ss ss ->
  wf_data (d_X D) (d_dim D) (d_y D) -> is_minority (d_y D) mn mj -> asked proportion (d_y D) mn mj = Ok n ->
  let out := smotewb_sample volume nn boosted proportion ss d c r D in
  (count_label (d_y D) mn <= 2 \/ n = 0%Z -> unchanged D out) /\
  (2 < count_label (d_y D) mn -> (0 < n)%Z -> wb_result dist proportion ss D mn mj (boosted (d_X D) (d_y D)) n out).
Proof. intros volume dist nn boosted proportion ss d c r D mn mj n H1 H2. exact (smotewb_ok volume dist nn H1 boosted H2 proportion ss d c r D mn mj n). Qed.

Example C115_example :
  let out := smotewb_sample vol1 ex_nn even_weights one ex_ss (draws_at (1 # 2)) take_last rng0 en_D in
  wf_data (d_X en_D) (d_dim en_D) (d_y en_D) /\ is_minority (d_y en_D) 1 0 /\ asked one (d_y en_D) 1 0 = Ok 2%Z /\
  out = Ok (d_X en_D ++ [[1 # 2]; [1 # 2]]%Q, d_y en_D ++ [1; 1]%Z) /\
  wb_result sqdist one ex_ss en_D 1 0 (even_weights (d_X en_D) (d_y en_D)) 2 out.
Proof.
  split; [apply en_D_ok|]. split; [apply en_D_ok|]. split; [reflexivity|]. split; [vm_compute; reflexivity|].
  apply (C115_smotewb vol1 sqdist ex_nn even_weights one ex_ss (draws_at (1 # 2)) take_last rng0 en_D 1 0 2);
    auto using ex_nn_ok, even_weights_length, draws_at_ok, half_share, take_last_ok, rng0_ok, rng0_unif_pos, ex_ss_plain; try apply en_D_ok; reflexivity || (cbn; lia).
Qed.

(** With a single row that is not noise one of the two rows asked for is missing. *)
Theorem C115_count_refuted : exists dist nn boosted d c r D,
  knn_ok dist nn /\ (forall X y, length (boosted X y) = length X) /\ draws_ok d /\ subsets_ok c /\ rng_ok r /\ unif_pos r /\
  wf_data (d_X D) (d_dim D) (d_y D) /\ is_minority (d_y D) 1 0 /\ (qsum (boosted (d_X D) (d_y D)) == 1)%Q /\
  asked one (d_y D) 1 0 = Ok 2%Z /\
  exists x, smotewb_sample vol1 nn boosted one ex_ss d c r D = Ok (d_X D ++ [x], d_y D ++ [1%Z]).
Proof.
  exists sqdist, ex_nn, one_quiet, (draws_at (1 # 2)), take_last, rng0, wb_D. split; [exact ex_nn_ok|]. split; [exact one_quiet_length|].
  split; [apply draws_at_ok, half_share|]. split; [exact take_last_ok|]. split; [exact rng0_ok|]. split; [exact rng0_unif_pos|].
  split; [apply wb_D_ok|]. split; [apply wb_D_ok|]. split; [vm_compute; reflexivity|]. split; [reflexivity|]. exists [1 # 2]%Q. vm_compute. reflexivity.
Qed.

(** C116. *)
Theorem C116_frst : forall volume dist nn p rs D mn mj m,
  knn_ok dist nn -> rngs_ok rs -> rngs_pos rs -> plain_ss (fr_ss p) ->
  wf_data (d_X D) (d_dim D) (d_y D) -> is_minority (d_y D) mn mj ->
  (0 <= fr_gamma_S p)%Q -> (0 <= fr_gamma_M p)%Q -> 1 <= fr_n_neighbors p -> asked (frst_step D mn mj) (d_y D) mn mj = Ok m ->
  let out := frst_sample volume nn p rs D in
  (count_label (d_y D) mn <= 2 \/ count_label (d_y D) mj <= count_label (d_y D) mn -> unchanged D out) /\
  (2 < count_label (d_y D) mn -> count_label (d_y D) mn < count_label (d_y D) mj -> frst_result dist p D mn mj m out).
Proof. intros volume dist nn p rs D mn mj m H. exact (frst_ok volume dist nn H p rs D mn mj m). Qed.

Example C116_example :
  let p := mk_frst 3 (1 # 10) (1 # 10) ex_ss in
  wf_data (d_X en_D) (d_dim en_D) (d_y en_D) /\ is_minority (d_y en_D) 1 0 /\ asked (frst_step en_D 1 0) (d_y en_D) 1 0 = Ok 1%Z /\
  frst_sample vol1 ex_nn p rs0 en_D
    = Ok ([[10400 # 104]; [10504 # 104]; [10608 # 104]; [10712 # 104]; [10816 # 104]; [0 # 104]; [104 # 104]; [208 # 104]; [312 # 104]; [346112 # 692224]; [312 # 208]]%Q,
          [0; 0; 0; 0; 0; 1; 1; 1; 1; 1; 1]%Z) /\
  frst_result sqdist p en_D 1 0 1 (frst_sample vol1 ex_nn p rs0 en_D).
Proof.
  cbv zeta. split; [apply en_D_ok|]. split; [apply en_D_ok|]. split; [reflexivity|]. split; [vm_compute; reflexivity|].
  apply (C116_frst vol1 sqdist ex_nn (mk_frst 3 (1 # 10) (1 # 10) ex_ss) rs0 en_D 1 0 1);
    auto using ex_nn_ok, rs0_ok, rs0_pos, ex_ss_plain; try apply en_D_ok; reflexivity || (cbn; lia) || (cbn; lra).
Qed.

(** C117. *)
Theorem C117_somo : forall volume dist winner proportion ss rs D mn mj n,
  rngs_ok rs -> rngs_pos rs -> plain_ss ss ->
  wf_data (d_X D) (d_dim D) (d_y D) -> is_minority (d_y D) mn mj -> asked proportion (d_y D) mn mj = Ok n ->
  let out := somo_sample volume dist winner proportion ss rs D in
  (count_label (d_y D) mn <= 2 \/ n = 0%Z -> unchanged D out) /\
  (2 < count_label (d_y D) mn -> (0 < n)%Z -> somo_result (winner (d_X D)) ss D mn n out).
Proof. exact somo_ok. Qed.

Example C117_example :
  let out := somo_sample vol1 sqdist by_floor one ex_ss rs0 en_D in
  wf_data (d_X en_D) (d_dim en_D) (d_y en_D) /\ is_minority (d_y en_D) 1 0 /\ asked one (d_y en_D) 1 0 = Ok 2%Z /\
  out = Ok (d_X en_D ++ [[0 # 2]; [160 # 64]]%Q, d_y en_D ++ [1; 1]%Z) /\
  somo_result (by_floor (d_X en_D)) ex_ss en_D 1 2 out.
Proof.
  split; [apply en_D_ok|]. split; [apply en_D_ok|]. split; [reflexivity|]. split; [vm_compute; reflexivity|].
  apply (C117_somo vol1 sqdist by_floor one ex_ss rs0 en_D 1 0 2);
    auto using rs0_ok, rs0_pos, ex_ss_plain; try apply en_D_ok; reflexivity || (cbn; lia).
Qed.

(** C118. *)
Theorem C118_v_synth : forall dist pca voronoi p d D mn mj n,
  voronoi_ok voronoi -> draws_ok d -> (forall t s, (0 < dr_unif d t s)%Q) -> pca_ok (d_dim D) pca ->
  wf_data (d_X D) (d_dim D) (d_y D) -> is_minority (d_y D) mn mj -> asked (v_proportion p) (d_y D) mn mj = Ok n ->
  let out := v_synth_sample dist pca voronoi p d D in
  (count_label (d_y D) mn <= 2 \/ d_dim D < 2 \/ n = 0%Z -> unchanged D out) /\
  (2 < count_label (d_y D) mn -> 2 <= d_dim D -> (0 < n)%Z ->
     (v_n_components p <= 1 -> out = Err UnboundLocalError) /\
     (2 <= v_n_components p -> v_result dist pca voronoi p D mn n out)).
Proof. intros dist pca voronoi p d D mn mj n H. exact (v_synth_ok dist pca voronoi H p d D mn mj n). Qed.

Example C118_example :
  let out := v_synth_sample gap (pca_first 2) one_ridge (mk_v one 3) (draws_at (1 # 2)) v_D in
  wf_data (d_X v_D) (d_dim v_D) (d_y v_D) /\ is_minority (d_y v_D) 1 0 /\ asked one (d_y v_D) 1 0 = Ok 2%Z /\
  out = Ok (d_X v_D ++ [[8192 # 8192; 14336 # 8192]; [8192 # 8192; 14336 # 8192]]%Q, d_y v_D ++ [1; 1]%Z) /\
  v_result gap (pca_first 2) one_ridge (mk_v one 3) v_D 1 2 out.
Proof.
  split; [apply v_D_ok|]. split; [apply v_D_ok|]. split; [reflexivity|]. split; [vm_compute; reflexivity|].
  apply (C118_v_synth gap (pca_first 2) one_ridge (mk_v one 3) (draws_at (1 # 2)) v_D 1 0 2);
    auto using one_ridge_ok, draws_at_ok, half_share; try apply v_D_ok; try apply (pca_first_ok 2); reflexivity || (cbn; lia).
Qed.

Example C118_one_component_example :
  v_synth_sample gap (pca_first 2) one_ridge (mk_v one 1) (draws_at (1 # 2)) v_D = Err UnboundLocalError.
Proof. vm_compute. reflexivity. Qed.

(** The ridges refer to the rows left, the labels they are looked up in to all rows: a new
    row need not be between a mixed ridge and a minority row. *)
Theorem C118_minority_end_refuted : exists dist pca voronoi d D V x rest,
  voronoi_ok voronoi /\ draws_ok d /\ (forall t s, (0 < dr_unif d t s)%Q) /\ pca_ok (d_dim D) pca /\
  wf_data (d_X D) (d_dim D) (d_y D) /\ is_minority (d_y D) 1 0 /\ (forall n, pca n (d_X D) = Ok (mk_pca (fit_to n) (repeat (1 # 2)%Q n) (fit_to 2))) /\
  (exists P, voronoi P = Ok V /\ incl P (d_X D)) /\
  v_synth_sample dist pca voronoi (mk_v one 3) d D = Ok (d_X D ++ x :: rest, d_y D ++ 1%Z :: repeat 1%Z (length rest)) /\
  ~ exists r q h, In r (vo_ridges V) /\ convex_comb 2 (ridge_corners V r) q /\ In h (rows_with 1%Z (d_X D) (d_y D)) /\ on_segment unit_share 2 q h x.
Proof.
  set (V := mk_voronoi [[1; 0]; [0; 1]; [5; 5]]%Q [((2, 3), [0; -1]%Z)]).
  exists gap, (pca_first 2), one_ridge, (draws_at (1 # 2)), v_E, V, [36864 # 8192; 30720 # 8192]%Q, [[36864 # 8192; 30720 # 8192]]%Q.
  split; [exact one_ridge_ok|]. split; [apply draws_at_ok, half_share|]. split; [intros; reflexivity|]. split; [apply (pca_first_ok 2)|].
  split; [apply v_E_ok|]. split; [apply v_E_ok|]. split; [reflexivity|].
  split; [exists (tl (d_X v_E)); split; [reflexivity|apply incl_tl, incl_refl]|]. split; [vm_compute; reflexivity|].
  intros (r & q & h & Hr & (_ & ws & Lw & Pw & Sw & Ew) & Hh & (_ & t & [Ht0 Ht1] & Ex)).
  destruct Hr as [<-|[]]. change (ridge_corners V ((2, 3), [0; -1]%Z)) with [[1; 0]; [5; 5]]%Q in *.
  destruct ws as [|w1 [|w2 [|]]]; try discriminate Lw. inversion Pw as [|? ? P1 Pw']; subst. inversion Pw' as [|? ? P2 _]; subst.
  pose proof (Ew 0 ltac:(lia)) as E0. pose proof (Ew 1 ltac:(lia)) as E1. pose proof (Ex 0 ltac:(lia)) as F0. pose proof (Ex 1 ltac:(lia)) as F1.
  cbn [qsum map2 nth fold_right] in *. set (q0 := nth 0 q 0%Q) in *. set (q1 := nth 1 q 0%Q) in *. clearbody q0 q1. clear Ew Ex.
  assert (B : (5 * q0 - 4 * q1 == 5)%Q) by lra.
  assert (H : (5 * nth 0 h 0 - 4 * nth 1 h 0 <= 5)%Q) by (cbn in Hh; destruct Hh as [<-|[<-|[<-|[]]]]; cbn; lra).
  set (h0 := nth 0 h 0%Q) in *. set (h1 := nth 1 h 0%Q) in *. clearbody h0 h1. clear Hh.
  assert (C : ((5 * q0 - 4 * q1) + t * ((5 * h0 - 4 * h1) - (5 * q0 - 4 * q1)) == 15 # 2)%Q) by lra.
  rewrite B in C. nra.
Qed.

(** C119. *)
Theorem C119_dsmote : forall dist gmean score p c D mn mj n r,
  gmean_ok (d_dim D) gmean -> (forall x z, (0 <= dist x z)%Q) -> (forall x z, ~ same_row x z -> (0 < dist x z)%Q) -> (forall t, subsets_ok (c t)) ->
  wf_data (d_X D) (d_dim D) (d_y D) -> is_minority (d_y D) mn mj -> 2 <= d_dim D ->
  (forall x, In x (rows_with mn (d_X D) (d_y D)) -> exists z, In z (rows_with mj (d_X D) (d_y D)) /\ ~ same_row x z) ->
  asked (ds_proportion p) (d_y D) mn mj = Ok n ->
  int_of_f64 (f_mul (ds_rate p) (f_of_Z (Z.of_nat (count_label (d_y D) mn)))) = Ok r ->
  let out := dsmote_sample dist gmean score p c D in
  (count_label (d_y D) mn <= 2 \/ n = 0%Z -> unchanged D out) /\
  (2 < count_label (d_y D) mn -> (0 < n)%Z -> ds_result dist gmean score p (Z.to_nat r) D mn mj n out).
Proof.
  intros dist gmean score p c D mn mj n r H1 H2 H3 H4 H5 H6 H7 H8. exact (dsmote_ok dist gmean score (d_dim D) H1 H2 H3 p c D mn mj n r H4 H5 H6 H7 eq_refl H8).
Qed.

(** The new rows stay in the range of the minority rows kept. *)
Theorem C119_box : forall dist gmean score r D mn mj n f M K S,
  gmean_ok (d_dim D) gmean -> wf_data (d_X D) (d_dim D) (d_y D) ->
  inner_scaled (d_dim D) (d_X D) f -> ds_spec dist gmean score r D mn mj n f M K S ->
  Forall (fun x => forall j lo hi, j < d_dim D -> attr_range (map (fun i => nth i (rows_with mn (d_X D) (d_y D)) []) K) j lo hi ->
    (lo <= nth j x 0 <= hi)%Q) S.
Proof. exact ds_box. Qed.

Example C119_example :
  let out := dsmote_sample grid_dist (mid_range 2) flat_score (mk_ds one quarter 1) (fun _ => take_last) ds_D in
  wf_data (d_X ds_D) (d_dim ds_D) (d_y ds_D) /\ is_minority (d_y ds_D) 1 0 /\ asked one (d_y ds_D) 1 0 = Ok 1%Z /\
  int_of_f64 (f_mul quarter (f_of_Z 4)) = Ok 1%Z /\
  ds_result grid_dist (mid_range 2) flat_score (mk_ds one quarter 1) 1 ds_D 1 0 1 out /\ out <> Err ValueError /\
  dsmote_sample grid_dist (mid_range 2) no_score (mk_ds one quarter 1) (fun _ => take_last) ds_D = Err ValueError.
Proof.
  cbv zeta. split; [apply ds_D_ok|]. split; [apply ds_D_ok|]. split; [reflexivity|]. split; [reflexivity|].
  assert (R : ds_result grid_dist (mid_range 2) flat_score (mk_ds one quarter 1) 1 ds_D 1 0 1
                (dsmote_sample grid_dist (mid_range 2) flat_score (mk_ds one quarter 1) (fun _ => take_last) ds_D)).
  { apply (C119_dsmote grid_dist (mid_range 2) flat_score (mk_ds one quarter 1) (fun _ => take_last) ds_D 1 0 1 1);
      auto using mid_range_ok, grid_dist_nonneg, grid_dist_pos, take_last_ok, ds_D_apart; try apply ds_D_ok; try apply (mid_range_ok 2); reflexivity || (cbn; lia). }
  split; [exact R|]. split; [|vm_compute; reflexivity].
  apply R; [cbn; lia..|]. intros. exists 1%Q. split; reflexivity.
Qed.

Print Assumptions C115_smotewb.
Print Assumptions C115_count_refuted.
Print Assumptions C116_frst.
Print Assumptions C117_somo.
Print Assumptions C118_v_synth.
Print Assumptions C118_minority_end_refuted.
Print Assumptions C119_dsmote.
Print Assumptions C119_box.
