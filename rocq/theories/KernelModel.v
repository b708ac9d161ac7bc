(** Model of G_SMOTE with a Gaussian kernel.  File
    smote_variants/oversampling/_g_smote.py.

    Numbers are exact rationals: in floating point the exponential can overflow,
    and then numpy's eigenvalue routine raises LinAlgError. *)

From Coq Require Import Ascii String List ZArith QArith Qabs Bool Arith.
From Flocq Require Import IEEE754.BinarySingleNaN.
From Verif Require Import Np SimplexModel Float64 SamplerModel ClusterOversModel CompModel LevelModel WrapModel DirModel.
Import ListNotations.
Open Scope nat_scope.

(** ** The parameter method *)

(** [s.split("_")\[-1\]]; [acc] holds the segment read so far. *)
Fixpoint last_segment (s acc : string) : string :=
  match s with
  | EmptyString => acc
  | String c s' => if Ascii.eqb c "_"%char then last_segment s' EmptyString else last_segment s' (append acc (String c EmptyString))
  end.

(** [x <= 0] for a double. *)
Definition not_positive (x : f64) : bool :=
  match @Bcompare 53 1024 x (f_of_Z 0) with Some Lt | Some Eq => true | _ => false end.

(** The part of the constructor about [method], _g_smote.py:120-133: the value of
    self.sigma, [None] for the linear method; [py_float] is the builtin float. *)
Definition sigma_of (py_float : string -> res f64) (method : string) : res (option f64) :=
  if String.eqb method "linear"%string then Ok None
  else if String.prefix "non-linear"%string method then
    do sigma <- py_float (last_segment method EmptyString);
    if not_positive sigma then Err ValueError else Ok (Some sigma)
  else Err ValueError.

(** ** The sampling *)

Section Kernel.

Variable nn : list row -> list row -> nat -> res (list (list nat)).
Variable norm : row -> Q.
Variable volume : list row -> Q.
(** np.exp, np.arccos, and np.linalg.eig: the eigenvalues and the matrix whose
    columns are the eigenvectors. *)
Variables exp arccos : Q -> Q.
Variable eig : list row -> list Q * list row.

(** [np.linalg.norm(v) ** 2]. *)
Definition sq (v : row) : Q := dot v v.

(** The kernel matrix of determine_H, _g_smote.py:181-183. *)
Definition kernel_matrix (sigma : Q) (X : list row) : list row :=
  map (fun x => map (fun z => exp (sq (vsub x z) / (2 * (sigma * sigma)))) X) X.

(** determine_H, _g_smote.py:184-185: a row of the matrix. *)
Definition k_direction (sigma : Q) (X_min : list row) : res row :=
  let wv := eig (kernel_matrix sigma X_min) in
  do i <- argmax (fst wv); get (snd wv) i.

(** angles_non_linear, _g_smote.py:251-258, for one entry of [indices]; [None] is
    the NaN that comes from 0 / 0. *)
Definition k_angle (sigma : Q) (X : list row) (H : row) (base nb : nat) : res (option Q) :=
  do b <- get X base; do x <- get X nb;
  let diff := vsub x b in
  let gram := map (fun z => (- sq (vsub diff z) / (2 * (sigma * sigma)))%Q) X in
  let norms := (norm H * norm gram)%Q in
  Ok (if Qeq_bool norms 0 then None else Some (arccos (Qabs (dot gram H) / norms))).

(** [thetas.argsort()]: NaN comes last. *)
Definition is_num (l : list (option Q)) (i : nat) : bool := match nth i l None with Some _ => true | None => false end.
Definition num_at (l : list (option Q)) (i : nat) : Q := match nth i l None with Some q => q | None => 0%Q end.
Definition argsort_nan (l : list (option Q)) : list nat :=
  let nums := filter (is_num l) (seq 0 (length l)) in
  map (fun a => nth a nums 0) (argsort (map (num_at l) nums)) ++ filter (fun i => negb (is_num l i)) (seq 0 (length l)).

(** update_indices_by_angles, _g_smote.py:205-212, and the first n_dim - 1 columns
    behind the row itself, 295-297, for row number [i]. *)
Definition k_row (sigma : Q) (n_dim : nat) (X : list row) (H : row) (i : nat) (t : list nat) : res (list nat) :=
  match t with
  | [] => Err IndexError
  | base :: others =>
    do thetas <- mapM (k_angle sigma X H base) others;
    do ordered <- gather others (argsort_nan thetas);
    Ok (i :: firstn (n_dim - 1) ordered)
  end.

(** G_SMOTE.sampling_algorithm, _g_smote.py:260-344. *)
Definition k_smote_algorithm (sigma : Q) (p : smote_params) (r : rng) (st : stats) (D : dataset) : res (list row * list Z) :=
  do n <- det_n_to_sample_st (sm_proportion p) st;
  if n =? 0 then Ok (d_X D, d_y D)
  else
    let X_min := rows_with (min_label st) (d_X D) (d_y D) in
    let k := Nat.min (length X_min) (sm_n_neighbors p + 1) in
    do ind <- nn X_min X_min k;
    do H <- k_direction sigma X_min;
    do indices <- mapM (fun it => k_row sigma (ss_n_dim (sm_ss p)) X_min H (fst it) (snd it)) (combine (seq 0 (length ind)) ind);
    do samples <- sample_simplex volume (sm_ss p)
      (mk_args X_min (d_dim D) indices (1 + Nat.min (ss_n_dim (sm_ss p) - 1) (k - 1)) None None None false None) n r;
    Ok (d_X D ++ samples, d_y D ++ repeat (min_label st) (length samples)).

Definition k_smote_sample sigma p r D := sample_with g_smote_checks (k_smote_algorithm sigma p r) D.

End Kernel.
