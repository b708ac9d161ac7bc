(** Properties C82 to C86: cluster_SMOTE, kmeans_SMOTE, CE_SMOTE, NRSBoundary_SMOTE
    and ANS. *)

From Coq Require Import List ZArith QArith Bool Arith Lia Lqa Sorting.Sorted Permutation.
From Verif Require Import Np NpFacts SimplexModel Spec SpecNoise SpecComp SimplexFacts SimplexGeom Float64
  SamplerModel SamplerFacts OversFacts OversGen BaseModel NoiseModel KnnModel KnnFacts DangerModel ClusterOversModel
  ClusterOversFacts CompModel CompFacts SpecNear LevelModel SpecLevel GroupModel SpecGroup GroupFacts GroupFacts2 GroupFacts3
  GroupFacts4 GroupFacts5 GroupFacts6
  Witness DangerWitness ClusterWitness CompWitness EditWitness NearWitness LevelWitness GroupWitness.
Import ListNotations.
Open Scope nat_scope.

(** C82. *)
Theorem C82_cluster_smote : forall dist vol nn km p rs D mn mj n,
  knn_ok dist nn -> rngs_ok rs -> rngs_pos rs -> plain_ss (gp_ss p) -> wf_data (d_X D) (d_dim D) (d_y D) -> is_minority (d_y D) mn mj ->
  asked (gp_proportion p) (d_y D) mn mj = Ok n -> 1 <= gp_n_neighbors p -> (forall k X, length (km k X) = length X) ->
  let X_min := rows_with mn (d_X D) (d_y D) in
  runs D mn n (cluster_smote_spec dist (r_choice (rs 0)) (km (Nat.min (length X_min) (gp_n_clusters p)) X_min) p D mn n)
    (cluster_smote_sample vol nn km p rs D).
Proof. exact cluster_smote_runs. Qed.

(** One neighbour is the row itself: only copies are made. *)
Theorem C82_one_neighbour : forall dist draw labels p D mn n S,
  gp_n_neighbors p = 1 -> ss_gauss (gp_ss p) = GNone -> length labels = length (rows_with mn (d_X D) (d_y D)) ->
  cluster_smote_spec dist draw labels p D mn n S ->
  Forall (fun x => exists z, In z (rows_with mn (d_X D) (d_y D)) /\ length x = d_dim D /\
    forall j, j < d_dim D -> (nth j x 0 == nth j z 0)%Q) S.
Proof. exact cluster_smote_copies. Qed.

Example C82_example :
  runs en_D 1 2 (cluster_smote_spec sqdist (r_choice rng0) (km0 2 [[0];[1];[2];[3]]%Q) (gp_k 2 2) en_D 1 2)
    (cluster_smote_sample vol1 ex_nn km0 (gp_k 2 2) rs0 en_D) /\
  (exists S, cluster_smote_sample vol1 ex_nn km0 (gp_k 2 2) rs0 en_D = Ok (d_X en_D ++ S, d_y en_D ++ [1; 1]%Z)) /\
  unchanged en_D (cluster_smote_sample vol1 ex_nn (fun _ X => seq 0 (length X)) (gp_k 2 2) rs0 en_D).
Proof.
  split; [|split; [eexists; vm_compute; reflexivity|vm_compute; reflexivity]].
  apply (C82_cluster_smote sqdist vol1 ex_nn km0 (gp_k 2 2) rs0 en_D 1 0 2); auto using ex_nn_ok, rs0_ok, rs0_pos, ex_ss_plain, km0_length; try apply en_D_ok; cbn; auto; lia.
Qed.

(** C83. *)
Theorem C83_kmeans_smote : forall dist vol nn km p rs D mn mj n,
  knn_ok dist nn -> rngs_ok rs -> rngs_pos rs -> (forall x z, (0 <= dist x z)%Q) -> plain_ss (km_ss p) ->
  wf_data (d_X D) (d_dim D) (d_y D) -> is_minority (d_y D) mn mj ->
  asked (km_proportion p) (d_y D) mn mj = Ok n -> (forall k X, length (km k X) = length X) ->
  runs D mn n (kmeans_smote_spec dist (r_choice (rs 0)) (km (Nat.min (km_n_clusters p) (length (d_X D))) (d_X D)) p D mn mj n)
    (kmeans_smote_sample vol dist nn km p rs D).
Proof. exact kmeans_smote_runs. Qed.

Example C83_example :
  runs en_D 1 2 (kmeans_smote_spec sqdist (r_choice rng0) (km0 5 (d_X en_D)) (kp 2 5 2) en_D 1 0 2)
    (kmeans_smote_sample vol1 sqdist ex_nn km0 (kp 2 5 2) rs0 en_D) /\
  (exists S, kmeans_smote_sample vol1 sqdist ex_nn km0 (kp 2 5 2) rs0 en_D = Ok (d_X en_D ++ S, d_y en_D ++ [1; 1]%Z)) /\
  unchanged en_D (kmeans_smote_sample vol1 sqdist ex_nn km0 (kp 2 5 0) rs0 en_D).
Proof.
  split; [|split; [eexists; vm_compute; reflexivity|vm_compute; reflexivity]].
  apply (C83_kmeans_smote sqdist vol1 ex_nn km0 (kp 2 5 2) rs0 en_D 1 0 2); auto using ex_nn_ok, rs0_ok, rs0_pos, ex_ss_plain, km0_length, sqdist_nonneg; try apply en_D_ok; cbn; auto; lia.
Qed.

(** C84. *)
Theorem C84_ce_smote : forall dist vol nn labelings p r D mn mj n,
  knn_ok dist nn -> rng_ok r -> unif_pos r -> plain_ss (ce_ss p) -> wf_data (d_X D) (d_dim D) (d_y D) -> is_minority (d_y D) mn mj ->
  asked (ce_proportion p) (d_y D) mn mj = Ok n -> 1 <= ce_k p ->
  runs D mn n (ce_spec dist (labelings (d_X D)) p D mn n) (ce_sample vol nn labelings p r D).
Proof. exact ce_runs. Qed.

(** Clusterings are not matched: the names of the clusters decide, not the
    partitions. *)
Theorem C84_matching_refuted :
  exists L L' X' y', Forall2 same_partition L L' /\
    unchanged en_D (ce_sample vol1 ex_nn (fun _ => L) (cep 2 3 (1 # 2)) rng0 en_D) /\
    ce_sample vol1 ex_nn (fun _ => L') (cep 2 3 (1 # 2)) rng0 en_D = Ok (X', y') /\ length X' = 12.
Proof.
  exists [half_labels; half_labels], [half_labels; map (fun c => 1 - c) half_labels]. do 2 eexists. split.
  - apply Forall2_cons; [split; [reflexivity|]; intros i j _ _; reflexivity|]. apply Forall2_cons; [|apply Forall2_nil].
    split; [reflexivity|]. intros i j Hi Hj.
    do 10 (destruct i as [|i]; [do 10 (destruct j as [|j]; [cbn; split; congruence|]); cbn in Hj; lia|]); cbn in Hi; lia.
  - split; [vm_compute; reflexivity|]. split; vm_compute; reflexivity.
Qed.

Example C84_example :
  runs en_D 1 2 (ce_spec sqdist [half_labels; map (fun c => 1 - c) half_labels] (cep 2 3 (1 # 2)) en_D 1 2)
    (ce_sample vol1 ex_nn (fun _ => [half_labels; map (fun c => 1 - c) half_labels]) (cep 2 3 (1 # 2)) rng0 en_D).
Proof.
  apply (C84_ce_smote sqdist vol1 ex_nn (fun _ => [half_labels; map (fun c => 1 - c) half_labels]) (cep 2 3 (1 # 2)) rng0 en_D 1 0 2);
    auto using ex_nn_ok, rng0_ok, rng0_unif_pos, ex_ss_plain; try apply en_D_ok; cbn; auto; lia.
Qed.

(** C85. *)
Theorem C85_nrs_boundary : forall dist vol nn radius p rs D mn mj n,
  knn_ok dist nn -> within_ok dist radius -> rngs_ok rs -> rngs_pos rs -> plain_ss (nr_ss p) ->
  wf_data (d_X D) (d_dim D) (d_y D) -> is_minority (d_y D) mn mj -> asked (nr_proportion p) (d_y D) mn mj = Ok n ->
  (count_label (d_y D) mn <= 2 \/ n = 0%Z -> unchanged D (nrs_sample vol dist nn radius p rs D)) /\
  (2 < count_label (d_y D) mn -> (0 < n)%Z -> nrs_spec dist p D mn mj n (nrs_sample vol dist nn radius p rs D)).
Proof. exact nrs_runs. Qed.

(** At most the requested rows, none near a majority row surrounded by its own. *)
Theorem C85_distance_kept : forall dist p D mn mj n X' y',
  wf_data (d_X D) (d_dim D) (d_y D) -> nrs_spec dist p D mn mj n (Ok (X', y')) ->
  exists S, X' = d_X D ++ S /\ y' = d_y D ++ repeat mn (length S) /\ length S <= Z.to_nat n /\
    Forall (fun x => exists delta pos, length delta = length (d_X D) /\
      (forall i, i < length (d_X D) -> nrs_radius dist (nr_w p) (d_X D) i (nth i delta 0%Q)) /\
      positions (fun i => i < length (d_X D) /\ nth i (d_y D) 0%Z = mj /\
        forall j, j < length (d_X D) -> (dist (nth i (d_X D) []) (nth j (d_X D) []) <= nth i delta 0)%Q -> nth j (d_y D) 0%Z = mj) pos /\
      pos <> [] /\
      forall i, In i pos -> (nth i delta 0 * (1 # 10) <= dist x (nth i (d_X D) []))%Q /\ (0 < nth i delta 0)%Q) S.
Proof. exact nrs_guarantee. Qed.

(** Valid input on which nothing is accepted is answered by an exception. *)
Theorem C85_total_refuted :
  wf_data (d_X mid_D) (d_dim mid_D) (d_y mid_D) /\ is_minority (d_y mid_D) 1 0 /\
  nrs_sample vol1 sqdist ex_nn ex_rad (nrp 2 0) rs0 mid_D = Err ValueError.
Proof. split; [apply mid_D_ok|]. split; [apply mid_D_ok|]. vm_compute. reflexivity. Qed.

Example C85_example :
  nrs_spec sqdist (nrp 3 0) en_D 1 0 2 (nrs_sample vol1 sqdist ex_nn ex_rad (nrp 3 0) rs0 en_D) /\
  exists S, nrs_sample vol1 sqdist ex_nn ex_rad (nrp 3 0) rs0 en_D = Ok (d_X en_D ++ S, d_y en_D ++ [1; 1]%Z).
Proof.
  split; [|eexists; vm_compute; reflexivity].
  destruct (C85_nrs_boundary sqdist vol1 ex_nn ex_rad (nrp 3 0) rs0 en_D 1 0 2) as [_ H];
    auto using ex_nn_ok, ex_rad_ok, rs0_ok, rs0_pos, ex_ss_plain; try apply en_D_ok.
  apply H; cbn; lia.
Qed.

(** C86. *)
Theorem C86_ans : forall dist vol nn radius prop ss r D mn mj n,
  knn_ok dist nn -> within_ok dist radius -> rng_ok r -> unif_pos r -> plain_ss ss ->
  (forall x, (dist x x == 0)%Q) -> (forall x z, (0 <= dist x z)%Q) ->
  wf_data (d_X D) (d_dim D) (d_y D) -> is_minority (d_y D) mn mj -> asked prop (d_y D) mn mj = Ok n ->
  runs D mn n (ans_spec dist ss D mn mj n) (ans_sample vol dist nn radius prop ss r D).
Proof. exact ans_runs. Qed.

(** Fewer than eight rows, or a minority that keeps to itself: nothing happens. *)
Theorem C86_small : forall dist vol nn radius prop ss r D mn mj n,
  knn_ok dist nn -> within_ok dist radius -> rng_ok r -> unif_pos r -> plain_ss ss ->
  (forall x, (dist x x == 0)%Q) -> (forall x z, (0 <= dist x z)%Q) ->
  wf_data (d_X D) (d_dim D) (d_y D) -> is_minority (d_y D) mn mj -> asked prop (d_y D) mn mj = Ok n ->
  length (d_X D) < 8 -> unchanged D (ans_sample vol dist nn radius prop ss r D).
Proof. intros. eapply ans_small; eauto using ans_runs. Qed.

Theorem C86_separated : forall dist vol nn radius prop ss r D mn mj n,
  knn_ok dist nn -> within_ok dist radius -> rng_ok r -> unif_pos r -> plain_ss ss ->
  (forall x, (dist x x == 0)%Q) -> (forall x z, (0 <= dist x z)%Q) ->
  wf_data (d_X D) (d_dim D) (d_y D) -> is_minority (d_y D) mn mj -> asked prop (d_y D) mn mj = Ok n ->
  let X_min := rows_with mn (d_X D) (d_y D) in
  (forall i, i < length X_min -> exists j, j < length X_min /\ j <> i /\
     forall z, In z (rows_with mj (d_X D) (d_y D)) -> (dist (nth i X_min []) (nth j X_min []) < dist (nth i X_min []) z)%Q) ->
  unchanged D (ans_sample vol dist nn radius prop ss r D).
Proof. intros. eapply ans_separated; eauto using ans_runs. Qed.

Example C86_example :
  runs ans_D 1 2 (ans_spec sqdist ex_ss ans_D 1 0 2) (ans_sample vol1 sqdist ex_nn ex_rad one ex_ss rng0 ans_D) /\
  (exists S, ans_sample vol1 sqdist ex_nn ex_rad one ex_ss rng0 ans_D = Ok (d_X ans_D ++ S, d_y ans_D ++ [1; 1]%Z)) /\
  unchanged sep_D (ans_sample vol1 sqdist ex_nn ex_rad one ex_ss rng0 sep_D).
Proof.
  split; [|split; [eexists; vm_compute; reflexivity|]].
  - apply (C86_ans sqdist vol1 ex_nn ex_rad one ex_ss rng0 ans_D 1 0 2);
      auto using ex_nn_ok, ex_rad_ok, rng0_ok, rng0_unif_pos, ex_ss_plain, sqdist_nonneg, sqdist_self; apply ans_D_ok.
  - apply (C86_separated sqdist vol1 ex_nn ex_rad one ex_ss rng0 sep_D 1 0 2);
      auto using ex_nn_ok, ex_rad_ok, rng0_ok, rng0_unif_pos, ex_ss_plain, sqdist_nonneg, sqdist_self; try apply sep_D_ok.
    exact sep_D_sep.
Qed.

Print Assumptions C82_cluster_smote.
Print Assumptions C82_one_neighbour.
Print Assumptions C83_kmeans_smote.
Print Assumptions C84_ce_smote.
Print Assumptions C84_matching_refuted.
Print Assumptions C85_nrs_boundary.
Print Assumptions C85_distance_kept.
Print Assumptions C85_total_refuted.
Print Assumptions C86_ans.
Print Assumptions C86_small.
Print Assumptions C86_separated.
