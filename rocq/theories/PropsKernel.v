(** Property C146: G_SMOTE with a Gaussian kernel. *)

From Coq Require Import Ascii String List ZArith QArith Qabs Qminmax Bool Arith Lia Lqa Sorting.Sorted Permutation.
From Flocq Require Import IEEE754.BinarySingleNaN.
From Verif Require Import Np NpFacts SimplexModel Spec SpecDanger SpecNoise SpecComp SpecEdit BorderFacts SimplexFacts SimplexGeom Float64
  SamplerModel SamplerFacts OversFacts OversGen BaseModel NoiseModel KnnModel KnnFacts DangerModel ClusterOversModel
  ClusterOversFacts CompModel CompFacts SpecNear LevelModel SpecLevel SpecGroup WrapModel SpecWrap DirModel SpecDir
  Witness DangerWitness ClusterWitness CompWitness EditWitness NearWitness LevelWitness WrapWitness DirWitness
  KernelModel SpecKernel KernelFacts KernelWitness.
Import ListNotations.
Open Scope nat_scope.

(** C146. *)
Theorem C146_k_smote : forall dist vol nn norm exp eig arccos sigma p r D mn mj n,
  knn_ok dist nn -> rng_ok r -> unif_pos r -> plain_ss (sm_ss p) -> eig_square eig -> norm_ok norm -> ~ (sigma == 0)%Q -> arccos_ok arccos ->
  wf_data (d_X D) (d_dim D) (d_y D) -> is_minority (d_y D) mn mj ->
  asked (sm_proportion p) (d_y D) mn mj = Ok n -> 1 <= sm_n_neighbors p ->
  (d_dim D < 2 -> unchanged D (k_smote_sample nn norm vol exp arccos eig sigma p r D)) /\
  (2 <= d_dim D -> runs D mn n (k_smote_spec dist norm exp eig sigma p D mn n) (k_smote_sample nn norm vol exp arccos eig sigma p r D)).
Proof. exact k_smote_runs. Qed.

Lemma bend_runs : k_smote_sample ex_nn sum_abs vol1 exp_lin arc eig_eye 2 (smk 3) rng0 tilt_D =
    Ok (d_X tilt_D ++ [[1056 # 64; 1792 # 64]; [1056 # 64; 1792 # 64]]%Q, d_y tilt_D ++ [1; 1]%Z).
Proof. vm_compute. reflexivity. Qed.

Example C146_example :
  runs tilt_D 1 2 (k_smote_spec sqdist sum_abs exp_lin eig_eye 2 (smk 3) tilt_D 1 2)
    (k_smote_sample ex_nn sum_abs vol1 exp_lin arc eig_eye 2 (smk 3) rng0 tilt_D).
Proof.
  apply (C146_k_smote sqdist vol1 ex_nn sum_abs exp_lin eig_eye arc 2 (smk 3) rng0 tilt_D 1 0 2);
    auto using ex_nn_ok, rng0_ok, rng0_unif_pos, ex_ss_plain, eig_eye_ok, arc_ok, sum_abs_norm; try apply tilt_D_ok; try reflexivity; try (cbn; lia).
  discriminate.
Qed.

(** Which methods are accepted, and with which width. *)
Theorem C146_method : forall py_float m,
  (sigma_of py_float m = Ok None <-> m = "linear"%string) /\
  (forall x, sigma_of py_float m = Ok (Some x) <->
     exists rest seg, m = append "non-linear" rest /\ last_part m seg /\ py_float seg = Ok x /\ ~ f_nonpos x) /\
  (forall e, sigma_of py_float m = Err e <->
     (e = ValueError /\ m <> "linear"%string /\ (forall rest, m <> append "non-linear" rest)) \/
     (exists rest seg, m = append "non-linear" rest /\ last_part m seg /\
        (py_float seg = Err e \/ e = ValueError /\ exists x, py_float seg = Ok x /\ f_nonpos x))).
Proof. exact sigma_of_cases. Qed.

Example C146_method_example :
  sigma_of two_only "linear" = Ok None /\ sigma_of two_only "non-linear_2" = Ok (Some (f_of_Z 2)) /\
  sigma_of two_only "non-linear_1_2" = Ok (Some (f_of_Z 2)) /\ sigma_of two_only "non-linear" = Err ValueError /\
  sigma_of two_only "cubic_2" = Err ValueError.
Proof. repeat split; vm_compute; reflexivity. Qed.

(** The width of an accepted kernel need not be positive: NaN passes the check. *)
Theorem C146_positive_refuted :
  ~ (forall py_float, py_float "nan"%string = Ok (B754_nan : f64) ->
     forall m x, sigma_of py_float m = Ok (Some x) -> is_nan x = false).
Proof.
  intros H. specialize (H (fun _ => Ok (B754_nan : f64)) eq_refl "non-linear_nan"%string B754_nan eq_refl). discriminate H.
Qed.

(** The matrix decomposed is not that of a Gaussian kernel: its entries grow with
    the distance of the rows. *)
Theorem C146_kernel : forall exp sigma X a b c, (forall u v, u < v -> exp u < exp v)%Q -> ~ (sigma == 0)%Q ->
  a < length X -> b < length X -> c < length X ->
  (sq_apart (nth a X []) (nth b X []) < sq_apart (nth a X []) (nth c X []))%Q ->
  (nth b (nth a (kernel_matrix exp sigma X) []) 0 < nth c (nth a (kernel_matrix exp sigma X) []) 0)%Q.
Proof. exact kernel_grows. Qed.

Theorem C146_gaussian_refuted :
  ~ (forall exp sigma X a b c, (forall u v, u < v -> exp u < exp v)%Q -> (0 < sigma)%Q ->
     a < length X -> b < length X -> c < length X ->
     (sq_apart (nth a X []) (nth b X []) < sq_apart (nth a X []) (nth c X []))%Q ->
     (nth c (nth a (kernel_matrix exp sigma X) []) 0 < nth b (nth a (kernel_matrix exp sigma X) []) 0)%Q).
Proof.
  intros H. specialize (H exp_lin 1%Q [[0];[1];[2]]%Q 0 1 2 exp_lin_grows eq_refl).
  assert (G : (nth 2 (nth 0 (kernel_matrix exp_lin 1 [[0];[1];[2]]) []) 0 < nth 1 (nth 0 (kernel_matrix exp_lin 1 [[0];[1];[2]]) []) 0)%Q).
  { apply H; cbn; try lia. reflexivity. }
  vm_compute in G. discriminate G.
Qed.

Print Assumptions C146_k_smote.
Print Assumptions C146_method.
Print Assumptions C146_positive_refuted.
Print Assumptions C146_kernel.
Print Assumptions C146_gaussian_refuted.
