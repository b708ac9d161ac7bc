(** Properties C55 to C61: Random_SMOTE, Safe_Level_SMOTE, Selected_SMOTE,
    SMOTE_OUT, SMOTE_Cosine, NDO_sampling, polynom_fit_SMOTE and SMOTE_D. *)

From Coq Require Import List ZArith QArith Bool Arith Lia.
From Verif Require Import Np NpFacts SimplexModel Spec SpecDanger SpecComp SimplexFacts SimplexGeom Float64
  SamplerModel SamplerFacts OversFacts BaseModel KnnModel KnnFacts DangerModel DangerFacts ClusterOversModel
  ClusterOversFacts CompModel CompFacts CompFacts2 CompFacts3 CompFacts4 Witness DangerWitness ClusterWitness CompWitness.
Import ListNotations.
Open Scope nat_scope.

(** C55. *)
Theorem C55_random_smote : forall dist nn p rs D mn mj n,
  knn_ok dist nn -> rngs_ok rs -> wf_data (d_X D) (d_dim D) (d_y D) -> is_minority (d_y D) mn mj ->
  asked (cp_proportion p) (d_y D) mn mj = Ok n -> 1 <= cp_n_neighbors p ->
  runs D mn n (random_smote_spec dist p D mn n) (random_smote_sample nn p rs D).
Proof. exact random_smote_runs. Qed.

(** C56. *)
Theorem C56_safe_level : forall dist nn p rs D mn mj n,
  knn_ok dist nn -> rngs_ok rs -> wf_data (d_X D) (d_dim D) (d_y D) -> is_minority (d_y D) mn mj ->
  asked (cp_proportion p) (d_y D) mn mj = Ok n ->
  runs D mn n (safe_level_spec dist p D mn n) (safe_level_sample nn p rs D).
Proof. exact safe_level_runs. Qed.

(** Copies of the majority row [[1]] labelled as minority. *)
Theorem C56_majority_copy_refuted :
  wf_data (d_X sf_D) (d_dim sf_D) (d_y sf_D) /\ is_minority (d_y sf_D) 1 0 /\
  In [1]%Q (rows_with 0 (d_X sf_D) (d_y sf_D)) /\ ~ In [1]%Q (rows_with 1 (d_X sf_D) (d_y sf_D)) /\
  exists q, (q == 1)%Q /\
  safe_level_sample ex_nn (mk_comp (StFloat f_one) 1) rs0 sf_D = Ok (d_X sf_D ++ [[q]; [q]], d_y sf_D ++ [1; 1]%Z).
Proof.
  split; [apply sf_D_ok|]. split; [apply sf_D_ok|]. split; [cbn; tauto|].
  split; [cbn; intros [H|[H|[H|[]]]]; discriminate H|]. exists (2 # 2)%Q. split; [reflexivity|]. vm_compute. reflexivity.
Qed.

(** C57. *)
Theorem C57_selected : forall dist nn p rs D mn mj n,
  knn_ok dist nn -> rngs_ok rs -> wf_data (d_X D) (d_dim D) (d_y D) -> is_minority (d_y D) mn mj ->
  asked (sl_proportion p) (d_y D) mn mj = Ok n -> 1 <= sl_n_neighbors p -> (0 <= sl_perc_sign_attr p)%Q -> 1 <= d_dim D ->
  runs D mn n (selected_spec dist p D mn mj n) (selected_sample nn p rs D).
Proof. exact selected_runs. Qed.

Theorem C57_percentage_ignored : forall nn pr k a b rs D, 1 <= d_dim D ->
  (1 # 2 < a * inject_Z (Z.of_nat (d_dim D)))%Q -> (1 # 2 < b * inject_Z (Z.of_nat (d_dim D)))%Q ->
  selected_sample nn (mk_selected pr k a) rs D = selected_sample nn (mk_selected pr k b) rs D.
Proof. exact percentage_ignored. Qed.

(** All attributes are asked to vary, but the second one never does. *)
Theorem C57_percentage_refuted :
  wf_data (d_X se_D) (d_dim se_D) (d_y se_D) /\ is_minority (d_y se_D) 1 0 /\
  sl_perc_sign_attr (sel_p 1) = 1%Q /\
  (exists X' y', selected_sample ex_nn (sel_p 1) rs0 se_D = Ok (X', y')) /\
  (forall rs X' y', rngs_ok rs -> selected_sample ex_nn (sel_p 1) rs se_D = Ok (X', y') ->
    exists S, X' = d_X se_D ++ S /\ length S = 2 /\
      forall x, In x S -> (nth 1 x 0 == 0 \/ nth 1 x 0 == 1 \/ nth 1 x 0 == 2)%Q).
Proof.
  split; [apply se_D_ok|]. split; [apply se_D_ok|]. split; [reflexivity|].
  split; [eexists; eexists; vm_compute; reflexivity|exact se_never].
Qed.

(** C58. *)
Theorem C58_smote_out : forall dist nn p rs D mn mj n,
  knn_ok dist nn -> rngs_ok rs -> wf_data (d_X D) (d_dim D) (d_y D) -> is_minority (d_y D) mn mj ->
  asked (cp_proportion p) (d_y D) mn mj = Ok n -> 1 <= cp_n_neighbors p ->
  runs D mn n (smote_out_spec dist p D mn mj n) (smote_out_sample nn p rs D).
Proof. exact smote_out_runs. Qed.

Theorem C58_smote_cosine : forall dist cosd nn nnc p rs D mn mj n,
  knn_ok dist nn -> knn_ok cosd nnc -> rngs_ok rs -> wf_data (d_X D) (d_dim D) (d_y D) -> is_minority (d_y D) mn mj ->
  asked (cp_proportion p) (d_y D) mn mj = Ok n -> 1 <= cp_n_neighbors p ->
  runs D mn n (smote_cosine_spec dist cosd p D mn mj n) (smote_cosine_sample nn nnc p rs D).
Proof. exact smote_cosine_runs. Qed.

(** How far such rows may leave the box of the two minority rows. *)
Theorem C58_bound : forall d u v x z j lo hi, out_sample d u v x z -> j < d ->
  (lo <= nth j u 0 <= hi)%Q -> (lo <= nth j x 0 <= hi)%Q ->
  let e := ((3 # 20) * Qabs.Qabs (nth j u 0 - nth j v 0))%Q in
  (lo - e <= nth j z 0 <= hi + e)%Q.
Proof. exact out_sample_bound. Qed.

(** C59. *)
Theorem C59_ndo : forall dist vol nn p draws r D mn mj n,
  knn_ok dist nn -> (forall a b, (0 <= dist a b)%Q) -> wf_data (d_X D) (d_dim D) (d_y D) -> is_minority (d_y D) mn mj ->
  asked (nd_proportion p) (d_y D) mn mj = Ok n -> 1 <= nd_n_neighbors p ->
  draws_ok (count_label (d_y D) mn) (Nat.min (length (d_X D)) (nd_n_neighbors p + 1)) draws ->
  let X_min := rows_with mn (d_X D) (d_y D) in
  let out := ndo_sample vol dist nn p draws r D in
  (count_label (d_y D) mn <= 2 \/ n = 0%Z -> unchanged D out) /\
  (2 < count_label (d_y D) mn -> (0 < n)%Z ->
   exists T, nearest_table dist (d_X D) X_min (Nat.min (length (d_X D)) (nd_n_neighbors p + 1)) T /\
     (dense_minority dist (d_X D) X_min (d_y D) T mn mj (nd_T p) ->
        out = smote_sample vol nn (mk_smote (nd_proportion p) 5 (nd_ss p)) r D) /\
     (~ dense_minority dist (d_X D) X_min (d_y D) T mn mj (nd_T p) ->
        appends D mn (ndo_spec dist p D mn n T) out)).
Proof. exact ndo_runs. Qed.

Theorem C59_count : forall dist p D mn n T S, ndo_spec dist p D mn n T S ->
  Z.to_nat n <= length S <= Z.to_nat n + 1.
Proof. exact ndo_count. Qed.

(** Three rows are asked for, four are added. *)
Theorem C59_exact_count_refuted : exists S,
  asked (nd_proportion ndo_p) (d_y cl_D) 1 0 = Ok 3%Z /\
  ndo_sample (fun _ => 1%Q) sqdist ex_nn ndo_p ndo_draws rng0 cl_D = Ok (d_X cl_D ++ S, d_y cl_D ++ [1;1;1;1]%Z).
Proof. eexists. split; vm_compute; reflexivity. Qed.

(** C60. *)
Theorem C60_polynom : forall prop top D mn mj n,
  wf_data (d_X D) (d_dim D) (d_y D) -> is_minority (d_y D) mn mj -> asked prop (d_y D) mn mj = Ok n ->
  runs D mn n (poly_spec top D mn n) (polynom_sample prop top D).
Proof. exact polynom_runs. Qed.

Theorem C60_hull : forall top D mn n S, wf_data (d_X D) (d_dim D) (d_y D) -> poly_spec top D mn n S ->
  Forall (in_hull (d_dim D) (rows_with mn (d_X D) (d_y D))) S.
Proof. exact poly_hull. Qed.

Theorem C60_count : forall n m k, 0 < m -> rounded_ratio n m k ->
  (2 * Z.abs (Z.of_nat (m * k) - Z.of_nat n) <= Z.of_nat m)%Z \/ (k = 1 /\ 2 * n <= m).
Proof. exact rounded_ratio_count. Qed.

(** Three rows are asked for, four are added. *)
Theorem C60_length : forall top D mn n S, length (rows_with mn (d_X D) (d_y D)) = count_label (d_y D) mn ->
  poly_spec top D mn n S ->
  exists k, rounded_ratio (Z.to_nat n) (count_label (d_y D) mn) k /\
    length S = match top with Star => k * count_label (d_y D) mn | Bus => k * (count_label (d_y D) mn - 1) end.
Proof. exact poly_count. Qed.

Theorem C60_exact_count_refuted : exists S,
  asked (StFloat f_one) (d_y cl_D) 1 0 = Ok 3%Z /\
  polynom_sample (StFloat f_one) Star cl_D = Ok (d_X cl_D ++ S, d_y cl_D ++ [1;1;1;1]%Z).
Proof. eexists. split; vm_compute; reflexivity. Qed.

(** C61. *)
Theorem C61_smote_d : forall dist std nn p us D mn mj n,
  knn_ok dist nn -> (forall a b, (0 <= dist a b)%Q) -> (forall l, (0 <= std l)%Q) -> (forall a b i, unit_share (us a b i)) ->
  wf_data (d_X D) (d_dim D) (d_y D) -> is_minority (d_y D) mn mj ->
  asked (cp_proportion p) (d_y D) mn mj = Ok n -> 1 <= cp_n_neighbors p ->
  runs D mn n (smote_d_spec dist std p D mn n) (smote_d_sample dist std nn p us D).
Proof. exact smote_d_runs. Qed.

Theorem C61_hull : forall dist std p D mn n S, wf_data (d_X D) (d_dim D) (d_y D) -> smote_d_spec dist std p D mn n S ->
  Forall (in_hull (d_dim D) (rows_with mn (d_X D) (d_y D))) S.
Proof. exact smote_d_hull. Qed.

(** Three rows are asked for, none is added. *)
Theorem C61_exact_count_refuted :
  asked (StFloat f_one) (d_y cl_D) 1 0 = Ok 3%Z /\
  smote_d_sample sqdist mad ex_nn cp5 us0 cl_D = Ok (d_X cl_D, d_y cl_D).
Proof. split; vm_compute; reflexivity. Qed.

Example C55_C61_hypotheses :
  knn_ok sqdist ex_nn /\ rngs_ok rs0 /\ (forall a b, (0 <= sqdist a b)%Q) /\ (forall l, (0 <= mad l)%Q) /\
  (forall a b i, unit_share (us0 a b i)) /\
  draws_ok (count_label (d_y cl_D) 1) (Nat.min (length (d_X cl_D)) (nd_n_neighbors ndo_p + 1)) ndo_draws /\
  wf_data (d_X cl_D) (d_dim cl_D) (d_y cl_D) /\ is_minority (d_y cl_D) 1 0 /\
  2 < count_label (d_y cl_D) 1 /\ asked (StFloat f_one) (d_y cl_D) 1 0 = Ok 3%Z /\
  (exists S, random_smote_sample ex_nn cp5 rs0 cl_D = Ok (d_X cl_D ++ S, d_y cl_D ++ [1;1;1]%Z)) /\
  (exists S, smote_out_sample ex_nn cp5 rs0 cl_D = Ok (d_X cl_D ++ S, d_y cl_D ++ [1;1;1]%Z)) /\
  (exists S, smote_cosine_sample ex_nn ex_nn cp5 rs0 cl_D = Ok (d_X cl_D ++ S, d_y cl_D ++ [1;1;1]%Z)) /\
  (exists S, polynom_sample (StFloat f_one) Bus cl_D = Ok (d_X cl_D ++ S, d_y cl_D ++ [1;1;1]%Z)).
Proof.
  split; [apply ex_nn_ok|]. split; [apply rs0_ok|]. split; [apply sqdist_nonneg|]. split; [apply mad_nonneg|].
  split; [intros; split; [discriminate|reflexivity]|]. split; [apply ndo_draws_ok|].
  split; [apply cl_D_ok|]. split; [apply cl_D_ok|]. split; [vm_compute; lia|]. split; [vm_compute; reflexivity|].
  repeat split; eexists; vm_compute; reflexivity.
Qed.

Print Assumptions C55_random_smote.
Print Assumptions C56_safe_level.
Print Assumptions C56_majority_copy_refuted.
Print Assumptions C57_selected.
Print Assumptions C57_percentage_ignored.
Print Assumptions C57_percentage_refuted.
Print Assumptions C58_smote_out.
Print Assumptions C58_smote_cosine.
Print Assumptions C58_bound.
Print Assumptions C59_ndo.
Print Assumptions C59_count.
Print Assumptions C59_exact_count_refuted.
Print Assumptions C60_polynom.
Print Assumptions C60_hull.
Print Assumptions C60_count.
Print Assumptions C60_length.
Print Assumptions C60_exact_count_refuted.
Print Assumptions C61_smote_d.
Print Assumptions C61_hull.
Print Assumptions C61_exact_count_refuted.
