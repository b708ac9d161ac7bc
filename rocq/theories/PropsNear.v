(** Properties C69 to C76: distance_SMOTE, NT_SMOTE, RWO_sampling, ROSE,
    Gaussian_SMOTE, SDSMOTE, ISMOTE, NRAS, SN_SMOTE and SMMO. *)

From Coq Require Import List ZArith QArith Bool Arith Lia Lqa.
From Verif Require Import Np NpFacts SimplexModel Spec SpecNoise SpecComp SimplexFacts SimplexGeom Float64
  SamplerModel SamplerFacts OversFacts OversGen BaseModel NoiseModel KnnModel KnnFacts DangerModel ClusterOversModel
  ClusterOversFacts CompModel CompFacts EditModel SpecEdit NearModel SpecNear NearFacts NearFacts2 NearFacts3
  Witness DangerWitness ClusterWitness CompWitness EditWitness NearWitness.
Import ListNotations.
Open Scope nat_scope.

(** C69. *)
Theorem C69_distance_smote : forall dist vol nn p r D mn mj n,
  knn_ok dist nn -> rng_ok r -> unif_pos r -> wf_data (d_X D) (d_dim D) (d_y D) -> is_minority (d_y D) mn mj ->
  asked (ne_proportion p) (d_y D) mn mj = Ok n -> 1 <= ne_n_neighbors p -> plain_ss (ne_ss p) -> ss_gauss (ne_ss p) = GNone ->
  runs D mn n (distance_smote_spec dist p D mn n) (distance_smote_sample vol nn p r D).
Proof. exact distance_smote_runs. Qed.

Example C69_example :
  runs en_D 1 2 (distance_smote_spec sqdist ne1 en_D 1 2) (distance_smote_sample vol1 ex_nn ne1 rng0 en_D) /\
  exists S, distance_smote_sample vol1 ex_nn ne1 rng0 en_D = Ok (d_X en_D ++ S, d_y en_D ++ [1; 1]%Z).
Proof.
  split; [|eexists; vm_compute; reflexivity].
  apply (C69_distance_smote _ _ _ _ _ _ 1%Z 0%Z); auto using ex_nn_ok, rng0_ok, rng0_unif_pos, ex_ss_plain; try apply en_D_ok; cbn; auto; lia.
Qed.

(** C70. *)
Theorem C70_nt_smote : forall dist vol nn p r D mn mj n,
  knn_ok dist nn -> rng_ok r -> unif_pos r -> wf_data (d_X D) (d_dim D) (d_y D) -> is_minority (d_y D) mn mj ->
  asked (ne_proportion p) (d_y D) mn mj = Ok n -> plain_ss (ne_ss p) -> ss_gauss (ne_ss p) = GNone ->
  ss_n_dim (ne_ss p) <= count_label (d_y D) mn ->
  runs D mn n (nt_smote_spec dist p D mn n) (nt_smote_sample vol nn p r D).
Proof. exact nt_smote_runs. Qed.

Theorem C70_fails : forall vol nn p r D mn mj n,
  length (d_X D) = length (d_y D) -> is_minority (d_y D) mn mj ->
  asked (ne_proportion p) (d_y D) mn mj = Ok n -> (0 < n)%Z -> 2 < count_label (d_y D) mn ->
  count_label (d_y D) mn < ss_n_dim (ne_ss p) ->
  nt_smote_sample vol nn p r D = Err ValueError.
Proof. exact nt_smote_fails. Qed.

Example C70_example :
  runs en_D 1 2 (nt_smote_spec sqdist (ne_dim 3) en_D 1 2) (nt_smote_sample vol1 ex_nn (ne_dim 3) rng0 en_D) /\
  (exists S, nt_smote_sample vol1 ex_nn (ne_dim 3) rng0 en_D = Ok (d_X en_D ++ S, d_y en_D ++ [1; 1]%Z)) /\
  nt_smote_sample vol1 ex_nn (ne_dim 5) rng0 en_D = Err ValueError.
Proof.
  split; [|split; [eexists; vm_compute; reflexivity|]].
  - apply (C70_nt_smote _ _ _ _ _ _ 1%Z 0%Z); auto using ex_nn_ok, rng0_ok, rng0_unif_pos; try apply en_D_ok; cbn; auto; try lia.
    repeat split; cbn; auto.
  - apply (C70_fails _ _ _ _ _ 1%Z 0%Z 2%Z); try apply en_D_ok; cbn; auto; lia.
Qed.

(** C71. *)
Theorem C71_rwo : forall dist vol nn sd p rs D mn mj n,
  knn_ok dist nn -> rngs_ok rs -> unif_pos (rs 0) -> wf_data (d_X D) (d_dim D) (d_y D) -> is_minority (d_y D) mn mj ->
  asked (ne_proportion p) (d_y D) mn mj = Ok n -> plain_ss (ne_ss p) -> ss_gauss (ne_ss p) = GNone ->
  ss_n_dim (ne_ss p) <= count_label (d_y D) mn ->
  runs D mn n (rwo_spec dist sd (r_normal (rs 1) (Z.to_nat n) (d_dim D)) p D mn n) (rwo_sample vol nn sd p rs D).
Proof. exact rwo_runs. Qed.

Theorem C71_rose : forall sd h prop rs D mn mj n,
  rngs_ok rs -> wf_data (d_X D) (d_dim D) (d_y D) -> is_minority (d_y D) mn mj ->
  asked prop (d_y D) mn mj = Ok n ->
  runs D mn n (rose_spec sd h (r_normal (rs 1) (Z.to_nat n) (d_dim D)) D mn n) (rose_sample sd h prop rs D).
Proof. exact rose_runs. Qed.

Theorem C71_gaussian_smote : forall dist vol nn sd sigma p r D mn mj n,
  knn_ok dist nn -> rng_ok r -> unif_pos r -> wf_data (d_X D) (d_dim D) (d_y D) -> is_minority (d_y D) mn mj ->
  asked (ne_proportion p) (d_y D) mn mj = Ok n -> 1 <= ne_n_neighbors p -> plain_ss (ne_ss p) -> ss_gauss (ne_ss p) = GSigma sigma ->
  runs D mn n (gaussian_smote_spec dist sd sigma (r_normal r (Z.to_nat n) (d_dim D)) p D mn n) (gaussian_smote_sample vol nn sd p r D).
Proof. exact gaussian_smote_runs. Qed.

Example C71_example :
  runs en_D 1 2 (rwo_spec sqdist sd1 (r_normal (rs0 1) 2 1) ne1 en_D 1 2) (rwo_sample vol1 ex_nn sd1 ne1 rs0 en_D) /\
  runs en_D 1 2 (rose_spec sd1 h1 (r_normal (rs0 1) 2 1) en_D 1 2) (rose_sample sd1 h1 one rs0 en_D) /\
  runs en_D 1 2 (gaussian_smote_spec sqdist sd1 1 (r_normal rng0 2 1) ne_sigma en_D 1 2) (gaussian_smote_sample vol1 ex_nn sd1 ne_sigma rng0 en_D).
Proof.
  split; [|split].
  - apply (C71_rwo _ _ _ _ _ _ en_D 1%Z 0%Z 2%Z); auto using ex_nn_ok, rs0_ok, ex_ss_plain; try apply rs0_pos; try apply en_D_ok; cbn; auto; lia.
  - apply (C71_rose _ _ _ _ en_D 1%Z 0%Z 2%Z); auto using rs0_ok; apply en_D_ok.
  - apply (C71_gaussian_smote _ _ _ _ _ _ _ en_D 1%Z 0%Z 2%Z); auto using ex_nn_ok, rng0_ok, rng0_unif_pos; try apply en_D_ok; cbn; auto; try lia.
    repeat split; cbn; auto.
Qed.

(** C72. *)
Theorem C72_sdsmote : forall dist vol nn radius p r D mn mj n,
  knn_ok dist nn -> radius_ok radius -> rng_ok r -> unif_pos r -> wf_data (d_X D) (d_dim D) (d_y D) -> is_minority (d_y D) mn mj ->
  asked (ne_proportion p) (d_y D) mn mj = Ok n -> 1 <= ne_n_neighbors p -> plain_ss (ne_ss p) -> ss_gauss (ne_ss p) = GNone ->
  runs D mn n (sdsmote_spec dist p D mn n) (sdsmote_sample vol dist nn radius p r D).
Proof. exact sdsmote_runs. Qed.

Theorem C72_density_ignored : forall dist dist' vol nn radius radius' p r D D' mn mj n,
  radius_ok radius -> radius_ok radius' -> is_minority (d_y D) mn mj ->
  asked (ne_proportion p) (d_y D) mn mj = Ok n ->
  d_y D' = d_y D -> d_dim D' = d_dim D ->
  rows_with mn (d_X D') (d_y D') = rows_with mn (d_X D) (d_y D) ->
  forall S y', sdsmote_sample vol dist nn radius p r D = Ok (d_X D ++ S, y') ->
  sdsmote_sample vol dist' nn radius' p r D' = Ok (d_X D' ++ S, y').
Proof. exact sdsmote_blind. Qed.

Example C72_example :
  runs en_D 1 2 (sdsmote_spec sqdist ne1 en_D 1 2) (sdsmote_sample vol1 sqdist ex_nn rad0 ne1 rng0 en_D) /\
  exists S, sdsmote_sample vol1 sqdist ex_nn rad0 ne1 rng0 en_D = Ok (d_X en_D ++ S, d_y en_D ++ [1; 1]%Z) /\
    sdsmote_sample vol1 sqdist ex_nn rad0 ne1 rng0 en_D' = Ok (d_X en_D' ++ S, d_y en_D ++ [1; 1]%Z).
Proof.
  split.
  - apply (C72_sdsmote _ _ _ _ _ _ _ 1%Z 0%Z); auto using ex_nn_ok, rng0_ok, rng0_unif_pos, ex_ss_plain, rad0_ok; try apply en_D_ok; cbn; auto; lia.
  - eexists. split; [vm_compute; reflexivity|].
    apply (C72_density_ignored sqdist sqdist vol1 ex_nn rad0 rad0 ne1 rng0 en_D en_D' 1%Z 0%Z 2%Z); auto using rad0_ok; apply en_D_ok.
Qed.

(** C73. *)
Theorem C73_ismote : forall dist vol nn p r D mn mj,
  knn_ok dist nn -> rng_ok r -> unif_pos r -> wf_data (d_X D) (d_dim D) (d_y D) -> is_minority (d_y D) mn mj ->
  (0 <= is_minority_weight p <= 1)%Q -> 1 <= is_n_neighbors p -> plain_ss (is_ss p) -> ss_gauss (is_ss p) = GNone ->
  (count_label (d_y D) mn <= 2 \/ count_label (d_y D) mn = count_label (d_y D) mj -> unchanged D (ismote_sample vol dist nn p r D)) /\
  (2 < count_label (d_y D) mn < count_label (d_y D) mj -> ismote_spec dist p D mn mj (ismote_sample vol dist nn p r D)).
Proof. exact ismote_spec_ok. Qed.

(** With one neighbour only copies result. *)
Theorem C73_copies : forall dist p D mn mj X1 y1,
  is_n_neighbors p = 1 -> length (d_X D) = length (d_y D) -> 2 < count_label (d_y D) mn -> rect (d_dim D) (d_X D) ->
  ismote_spec dist p D mn mj (Ok (X1, y1)) ->
  forall x, In x X1 -> exists z, In z (d_X D) /\ same_row x z.
Proof. exact ismote_copies. Qed.

(** The constructor accepts weights above 1; then new rows leave the hull of the
    data. *)
Theorem C73_hull_refuted :
  exists X' y', ismote_sample vol1 sqdist ex_nn (mk_ismote 3 2 ex_ss) rng0 en_D = Ok (X', y') /\
    (exists x, In x X' /\ (nth 0 x 0 < 0)%Q) /\ Forall (fun z => 0 <= nth 0 z 0)%Q (d_X en_D).
Proof.
  eexists _, _. split; [vm_compute; reflexivity|]. split; [|repeat constructor; discriminate].
  eexists. split; [do 9 right; left; reflexivity|vm_compute; reflexivity].
Qed.

Example C73_example :
  ismote_spec sqdist (mk_ismote 3 (1 # 2) ex_ss) en_D 1 0 (ismote_sample vol1 sqdist ex_nn (mk_ismote 3 (1 # 2) ex_ss) rng0 en_D) /\
  ismote_spec sqdist (mk_ismote 1 (1 # 2) ex_ss) en_D 1 0 (ismote_sample vol1 sqdist ex_nn (mk_ismote 1 (1 # 2) ex_ss) rng0 en_D).
Proof.
  split; apply C73_ismote with (mj := 0%Z); auto using ex_nn_ok, rng0_ok, rng0_unif_pos, ex_ss_plain; try apply en_D_ok; cbn; auto; try lia; split; discriminate.
Qed.

(** C74. *)
Theorem C74_nras : forall dist vol nn propensity p r D mn mj n,
  knn_ok dist nn -> rng_ok r -> unif_pos r -> wf_data (d_X D) (d_dim D) (d_y D) -> is_minority (d_y D) mn mj ->
  asked (nr_proportion p) (d_y D) mn mj = Ok n -> (0 < n)%Z -> 2 < count_label (d_y D) mn ->
  1 <= nr_n_neighbors p -> plain_ss (nr_ss p) -> ss_gauss (nr_ss p) = GNone ->
  (forall X y, length (propensity X y) = length X) ->
  exists f, unit_scaled (d_dim D) (d_X D) f /\
    nras_spec dist (propensity (map f (d_X D)) (d_y D)) p D mn mj n (nras_sample vol nn propensity p r D).
Proof. exact nras_ok. Qed.

Theorem C74_unchanged : forall vol nn propensity p r D mn mj n,
  is_minority (d_y D) mn mj -> asked (nr_proportion p) (d_y D) mn mj = Ok n ->
  count_label (d_y D) mn <= 2 \/ n = 0%Z -> unchanged D (nras_sample vol nn propensity p r D).
Proof. exact nras_unchanged. Qed.

(** The threshold is a share of [k], but only [k - 1] neighbours are counted. *)
Theorem C74_t_one : forall dist score p D mn mj n out,
  (1 <= nr_t p)%Q -> 1 <= length (rows_with mn (d_X D) (d_y D)) -> length (d_X D) = length (d_y D) ->
  nras_spec dist score p D mn mj n out -> unchanged D out.
Proof. exact nras_t_one. Qed.

(** The row 1/2 is removed as noise; the new rows lie on the way to it. *)
Theorem C74_noise_refuted :
  exists M K S y', nras_sample vol1 ex_nn prop0 (mk_nras one 3 (1 # 4) ex_ss) rng0 nr_D = Ok (M ++ K ++ S, y') /\
    length K = 3 /\ Forall (fun z => nth 0 z 0 <= 0)%Q K /\ S <> [] /\ Forall (fun z => 0 < nth 0 z 0)%Q S.
Proof.
  set (r := nras_sample _ _ _ _ _ _).
  exists (firstn 6 (match r with Ok (X, _) => X | Err _ => [] end)), (firstn 3 (skipn 6 (match r with Ok (X, _) => X | Err _ => [] end))),
    (skipn 9 (match r with Ok (X, _) => X | Err _ => [] end)), (match r with Ok (_, y) => y | Err _ => [] end).
  split; [vm_compute; reflexivity|]. split; [vm_compute; reflexivity|].
  split; [vm_compute; repeat constructor; discriminate|]. split; [vm_compute; discriminate|vm_compute; repeat constructor].
Qed.

Example C74_example :
  exists f, unit_scaled 1 (d_X nr_D) f /\
    nras_spec sqdist (prop0 (map f (d_X nr_D)) (d_y nr_D)) (mk_nras one 3 (1 # 4) ex_ss) nr_D 1 0 2
      (nras_sample vol1 ex_nn prop0 (mk_nras one 3 (1 # 4) ex_ss) rng0 nr_D).
Proof.
  apply (C74_nras sqdist vol1 ex_nn prop0 (mk_nras one 3 (1 # 4) ex_ss) rng0 nr_D 1%Z 0%Z 2%Z);
    auto using ex_nn_ok, rng0_ok, rng0_unif_pos, ex_ss_plain, prop0_ok; try apply nr_D_ok; cbn; auto; lia.
Qed.

(** C75. *)
Theorem C75_sn_smote : forall dist vol nn p rs D mn mj n,
  knn_ok dist nn -> rngs_ok rs -> rngs_pos rs -> wf_data (d_X D) (d_dim D) (d_y D) -> is_minority (d_y D) mn mj ->
  asked (ne_proportion p) (d_y D) mn mj = Ok n -> 2 <= ne_n_neighbors p -> plain_ss (ne_ss p) -> ss_gauss (ne_ss p) = GNone ->
  runs D mn n (sn_smote_spec dist p D mn n) (sn_smote_sample vol dist nn p rs D).
Proof. exact sn_smote_runs. Qed.

(** One neighbour is accepted by the constructor. *)
Theorem C75_one_neighbour_refuted :
  asked one (d_y en_D) 1 0 = Ok 2%Z /\ sn_smote_sample vol1 sqdist ex_nn (ne_k 1) rs0 en_D = Err IndexError.
Proof. split; vm_compute; reflexivity. Qed.

Example C75_example :
  runs en_D 1 2 (sn_smote_spec sqdist (ne_k 2) en_D 1 2) (sn_smote_sample vol1 sqdist ex_nn (ne_k 2) rs0 en_D) /\
  exists S, sn_smote_sample vol1 sqdist ex_nn (ne_k 2) rs0 en_D = Ok (d_X en_D ++ S, d_y en_D ++ [1; 1]%Z).
Proof.
  split; [|eexists; vm_compute; reflexivity].
  apply (C75_sn_smote _ _ _ _ _ _ 1%Z 0%Z); auto using ex_nn_ok, rs0_ok, rs0_pos, ex_ss_plain; try apply en_D_ok; cbn; auto; lia.
Qed.

(** C76. *)
Theorem C76_smmo : forall dist vol nn ensemble p rs D mn mj n,
  knn_ok dist nn -> rngs_ok rs -> rngs_pos rs -> wf_data (d_X D) (d_dim D) (d_y D) -> is_minority (d_y D) mn mj ->
  asked (ne_proportion p) (d_y D) mn mj = Ok n -> 1 <= ne_n_neighbors p -> plain_ss (ne_ss p) -> ss_gauss (ne_ss p) = GNone ->
  ensemble (d_X D) (d_y D) <> [] ->
  runs D mn n (smmo_spec dist (ensemble (d_X D) (d_y D)) p D mn n) (smmo_sample vol nn ensemble p rs D).
Proof. exact smmo_runs. Qed.

(** Minority labels other than 0 and 1 are always outvoted. *)
Theorem C76_other_label : forall preds y i mn,
  nth i y 0%Z = mn -> mn <> 0%Z -> mn <> 1%Z -> outvoted Majority 0 preds y i.
Proof. exact smmo_other_label. Qed.

Example C76_example :
  runs en_D 1 2 (smmo_spec sqdist (ens0 (d_X en_D) (d_y en_D)) (ne_k 2) en_D 1 2) (smmo_sample vol1 ex_nn ens0 (ne_k 2) rs0 en_D) /\
  (exists S, smmo_sample vol1 ex_nn ens0 (ne_k 2) rs0 en_D = Ok (d_X en_D ++ S, d_y en_D ++ [1; 1]%Z)) /\
  outvoted Majority 0 [d_y lab_D] (d_y lab_D) 0.
Proof.
  split; [|split; [eexists; vm_compute; reflexivity|apply (C76_other_label _ _ _ 2%Z); cbn; lia]].
  apply (C76_smmo _ _ _ _ _ _ _ 1%Z 0%Z); auto using ex_nn_ok, rs0_ok, rs0_pos, ex_ss_plain; try apply en_D_ok; cbn; auto; discriminate || lia.
Qed.

Print Assumptions C69_distance_smote.
Print Assumptions C70_nt_smote.
Print Assumptions C70_fails.
Print Assumptions C71_rwo.
Print Assumptions C71_rose.
Print Assumptions C71_gaussian_smote.
Print Assumptions C72_sdsmote.
Print Assumptions C72_density_ignored.
Print Assumptions C73_ismote.
Print Assumptions C73_copies.
Print Assumptions C73_hull_refuted.
Print Assumptions C74_nras.
Print Assumptions C74_unchanged.
Print Assumptions C74_t_one.
Print Assumptions C74_noise_refuted.
Print Assumptions C75_sn_smote.
Print Assumptions C75_one_neighbour_refuted.
Print Assumptions C76_smmo.
Print Assumptions C76_other_label.
