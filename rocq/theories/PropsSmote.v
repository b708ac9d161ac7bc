(** Properties C01-C06: class statistics, sample counts, SMOTE. *)

From Coq Require Import List ZArith QArith Bool Arith Lia Reals.
From Flocq Require Import Core IEEE754.BinarySingleNaN.
From Verif Require Import Np NpFacts SimplexModel Spec SimplexFacts SimplexGeom Float64
  SamplerModel SamplerFacts KnnModel KnnFacts Witness.
Import ListNotations.
Open Scope nat_scope.

(** C01. *)
Theorem C01_minority_identified : forall y a b, two_labels y a b ->
  exists st, class_label_statistics y = Ok st /\
    is_minority y (min_label st) (maj_label st) /\
    (forall z, In z y -> class_size st z = Ok (count_label y z)).
Proof. exact statistics_spec. Qed.

Theorem C01_single_label_raises : forall y, (exists a, forall z, In z y -> z = a) ->
  class_label_statistics y = Err IndexError.
Proof. exact statistics_one_label. Qed.

(** With three labels only the two smallest label values are looked at. *)
Theorem C01_three_labels_refuted : exists y st,
  class_label_statistics y = Ok st /\
  (exists z, In z y /\ count_label y z < count_label y (min_label st)).
Proof.
  exists [0;0;1;1;1;2]%Z. eexists. split; [reflexivity|]. exists 2%Z. cbn. split; [tauto|lia].
Qed.

Example C01_example : exists st, class_label_statistics [5;3;3;5;3]%Z = Ok st /\
  min_label st = 5%Z /\ maj_label st = 3%Z /\ two_labels [5;3;3;5;3]%Z 3 5.
Proof.
  eexists. split; [reflexivity|]. repeat split; cbn; try lia; tauto || (intros; lia).
Qed.

(** C02. *)
Theorem C02_integer_proportion : forall z a b,
  det_n_to_sample (StInt z) a b = Ok (Z.max 0 ((a - b) * z)).
Proof. reflexivity. Qed.

Theorem C02_float_proportion : forall f a b,
  (Z.abs (a - b) <= 2^53)%Z -> is_finite f = true ->
  (Rabs (rnd64 (IZR (a - b) * B2R f)) < bpow radix2 1024 /\
   det_n_to_sample (StFloat f) a b = Ok (Z.max 0 (Ztrunc (rnd64 (IZR (a - b) * B2R f)))))%R
  \/ (bpow radix2 1024 <= Rabs (rnd64 (IZR (a - b) * B2R f)) /\
      det_n_to_sample (StFloat f) a b = Err OverflowError)%R.
Proof. exact det_float_spec. Qed.

Theorem C02_never_negative : forall s a b k, det_n_to_sample s a b = Ok k -> (0 <= k)%Z.
Proof. exact det_nonneg. Qed.

Theorem C02_monotone : forall f g a b k l,
  (0 <= a - b <= 2^53)%Z -> is_finite f = true -> is_finite g = true ->
  (B2R f <= B2R g)%R ->
  det_n_to_sample (StFloat f) a b = Ok k -> det_n_to_sample (StFloat g) a b = Ok l -> (k <= l)%Z.
Proof. exact det_monotone. Qed.

Theorem C02_exact_at_one : forall a b, (Z.abs (a - b) <= 2^53)%Z ->
  det_n_to_sample (StFloat f_one) a b = Ok (Z.max 0 (a - b)).
Proof. exact det_one. Qed.

Theorem C02_unit_interval : forall f a b,
  (0 <= a - b <= 2^53)%Z -> is_finite f = true -> (B2R f <= 1)%R -> (0 <= B2R f)%R ->
  exists k, det_n_to_sample (StFloat f) a b = Ok k /\ (0 <= k <= a - b)%Z.
Proof. exact det_unit_bound. Qed.

Theorem C02_other_types_raise : forall a b, det_n_to_sample StOther a b = Err ValueError.
Proof. reflexivity. Qed.

(** Rounding is visible: 57% of 100 missing rows are 56 rows. *)
Example C02_example :
  det_n_to_sample (StFloat (f_div (f_of_Z 57) (f_of_Z 100))) 150 50 = Ok 56%Z /\
  det_n_to_sample (StFloat (f_div (f_of_Z 1) (f_of_Z 2))) 150 50 = Ok 50%Z.
Proof. split; vm_compute; reflexivity. Qed.

(** C03. *)
Theorem C03_originals_are_a_prefix : forall dist vol nn p r D mn mj X' y',
  knn_ok dist nn -> rng_ok r -> wf_data (d_X D) (d_dim D) (d_y D) ->
  is_minority (d_y D) mn mj ->
  smote_sample vol nn p r D = Ok (X', y') ->
  exists S n, X' = d_X D ++ S /\ y' = d_y D ++ repeat mn n /\ length S = n /\
    (n = 0 \/ (2 < count_label (d_y D) mn /\
       det_n_to_sample (sm_proportion p) (Z.of_nat (count_label (d_y D) mj))
                       (Z.of_nat (count_label (d_y D) mn)) = Ok (Z.of_nat n))).
Proof. exact smote_prefix. Qed.

(** C04. *)
Theorem C04_balanced : forall dist vol nn p r D mn mj,
  knn_ok dist nn -> rng_ok r -> unif_pos r -> wf_data (d_X D) (d_dim D) (d_y D) ->
  is_minority (d_y D) mn mj -> 2 < count_label (d_y D) mn ->
  (Z.of_nat (count_label (d_y D) mj) <= 2 ^ 53)%Z ->
  sm_proportion p = StFloat f_one ->
  1 <= sm_n_neighbors p -> 1 <= ss_n_dim (sm_ss p) ->
  ss_sampling (sm_ss p) = SRandom \/ ss_sampling (sm_ss p) = SDeterministic ->
  (ss_within (sm_ss p) = WRandom \/ (ss_within (sm_ss p) = WDeterministic /\ ss_n_dim (sm_ss p) <= 2)) ->
  exists X' y', smote_sample vol nn p r D = Ok (X', y') /\
    count_label y' mn = count_label (d_y D) mj /\ count_label y' mj = count_label (d_y D) mj /\
    length X' = length y'.
Proof. exact smote_balanced. Qed.

(** C05. *)
Theorem C05_convex_hull : forall dist vol nn p r D mn mj X' y',
  knn_ok dist nn -> rng_ok r -> wf_data (d_X D) (d_dim D) (d_y D) ->
  is_minority (d_y D) mn mj -> ss_gauss (sm_ss p) = GNone ->
  smote_sample vol nn p r D = Ok (X', y') ->
  let X_min := rows_with mn (d_X D) (d_y D) in
  let k := Nat.min (count_label (d_y D) mn) (sm_n_neighbors p + 1) in
  forall x, In x (skipn (length (d_X D)) X') ->
    (exists T, nearest_table dist X_min X_min k T /\
       neighbour_sample (d_dim D) X_min X_min T k (Nat.min (ss_n_dim (sm_ss p)) k - 1) None None x) /\
    in_hull (d_dim D) X_min x /\
    (forall j lo hi, j < d_dim D -> (forall q, In q X_min -> (lo <= nth j q 0 /\ nth j q 0 <= hi)%Q) ->
       (lo <= nth j x 0 /\ nth j x 0 <= hi)%Q).
Proof. exact smote_hull. Qed.

(** C06. *)
Theorem C06_too_small_returns_copies : forall checks alg D mn mj,
  is_minority (d_y D) mn mj ->
  (exists k, In (CMinNMin k) checks /\ count_label (d_y D) mn <= k) \/
  (exists k, In (CMinNDim k) checks /\ d_dim D < k) ->
  sample_with checks alg D = Ok (d_X D, d_y D).
Proof. exact too_small_copies. Qed.

Theorem C06_otherwise_algorithm_runs : forall checks alg D mn mj,
  is_minority (d_y D) mn mj ->
  Forall (fun c => match c with CMinNMin k => k < count_label (d_y D) mn
                              | CMinNDim k => k <= d_dim D | COther => True end) checks ->
  exists st, class_label_statistics (d_y D) = Ok st /\ min_label st = mn /\ maj_label st = mj /\
    sample_with checks alg D = alg st D.
Proof. exact large_enough_runs. Qed.

Theorem C06_default_checks : In (CMinNMin 2) checks_default.
Proof. left; reflexivity. Qed.

(** A data set, parameters, generator and neighbour search meeting all the
    hypotheses of C03-C05, with a non-trivial outcome. *)
Definition ex_D : dataset :=
  mk_data [[0];[1];[2];[10];[11];[12];[13];[14]]%Q 1 [1;1;1;0;0;0;0;0]%Z.
Definition ex_p : smote_params :=
  mk_smote (StFloat f_one) 5 (mk_ss 2 SRandom WRandom GNone).
Definition ex_nn (Xf Xq : list (list Q)) (k : nat) := Ok (n_neighbors_func sqdist Xf Xq k).

Example C03_C04_C05_example :
  knn_ok sqdist ex_nn /\ rng_ok rng0 /\ unif_pos rng0 /\
  wf_data (d_X ex_D) (d_dim ex_D) (d_y ex_D) /\
  is_minority (d_y ex_D) 1 0 /\ 2 < count_label (d_y ex_D) 1 /\
  exists a b, smote_sample (fun _ => 1%Q) ex_nn ex_p rng0 ex_D =
    Ok (d_X ex_D ++ [[a]; [b]], d_y ex_D ++ [1; 1]%Z) /\ (a == 1#2)%Q /\ (b == 1#2)%Q.
Proof.
  split; [apply n_neighbors_func_knn_ok|]. split; [apply rng0_ok|]. split; [apply rng0_unif_pos|].
  split; [split; [repeat constructor|reflexivity]|].
  split; [repeat split; cbn; try lia; tauto || (intros; lia)|].
  split; [cbn; lia|].
  eexists. eexists. split; [vm_compute; reflexivity|]. split; reflexivity.
Qed.

Example C06_example :
  sample_with checks_default (fun _ _ => Err RuntimeError) (mk_data [[1];[2];[3];[4];[5]]%Q 1 [0;1;0;1;0]%Z)
  = Ok ([[1];[2];[3];[4];[5]]%Q, [0;1;0;1;0]%Z)
  /\ is_minority [0;1;0;1;0]%Z 1 0.
Proof. split; [reflexivity|]. repeat split; cbn; try lia; tauto || (intros; lia). Qed.

Print Assumptions C01_minority_identified.
Print Assumptions C01_single_label_raises.
Print Assumptions C01_three_labels_refuted.
Print Assumptions C02_integer_proportion.
Print Assumptions C02_float_proportion.
Print Assumptions C02_never_negative.
Print Assumptions C02_monotone.
Print Assumptions C02_exact_at_one.
Print Assumptions C02_unit_interval.
Print Assumptions C02_other_types_raise.
Print Assumptions C03_originals_are_a_prefix.
Print Assumptions C04_balanced.
Print Assumptions C05_convex_hull.
Print Assumptions C06_too_small_returns_copies.
Print Assumptions C06_otherwise_algorithm_runs.
Print Assumptions C06_default_checks.
