(** Specification vocabulary for G_SMOTE with a Gaussian kernel. *)

From Coq Require Import String List ZArith QArith Qabs Bool Arith Reals.
From Flocq Require Import Core IEEE754.BinarySingleNaN.
From Verif Require Import Np SimplexModel Float64 SamplerModel Spec SpecComp SpecNear CompModel.
Import ListNotations.
Open Scope nat_scope.

(** [seg] is what follows the last underscore of [m], or [m] if there is none. *)
Definition last_part (m seg : string) : Prop :=
  (forall a b, seg <> append a (append "_"%string b)) /\ (m = seg \/ exists pre, m = append pre (append "_"%string seg)).

(** A double that is zero, negative or minus infinity; NaN is not. *)
Definition f_nonpos (x : f64) : Prop := (is_finite x = true /\ (B2R x <= 0)%R) \/ x = B754_infinity true.

(** A norm: not negative, a function of the values, and homogeneous. *)
Record norm_ok (norm : row -> Q) : Prop := {
  no_pos : forall v, (0 <= norm v)%Q;
  no_eq : forall v w, Forall2 Qeq v w -> (norm v == norm w)%Q;
  no_scale : forall c v, (norm (map (Qmult c) v) == Qabs c * norm v)%Q }.

(** As many eigenvalues as rows, and a square matrix. *)
Definition eig_square (eig : list row -> list Q * list row) : Prop :=
  forall M, length (fst (eig M)) = length M /\ length (snd (eig M)) = length M /\ rect (length M) (snd (eig M)).

(** The squared distance of two rows. *)
Definition sq_apart (x z : row) : Q := qsum (map2 (fun a b => (a - b) * (a - b))%Q x z).

(** The row of the eigenvector matrix of the exponentials of the squared distances
    over twice the variance that is numbered like the largest eigenvalue. *)
Definition k_axis (exp : Q -> Q) (eig : list row -> list Q * list row) (sigma : Q) (X_min : list row) (H : row) : Prop :=
  exists M i, length M = length X_min /\ rect (length X_min) M /\
    (forall a b, a < length X_min -> b < length X_min ->
       exists q, (q == sq_apart (nth a X_min []) (nth b X_min []) / (2 * (sigma * sigma)))%Q /\ nth b (nth a M []) 0%Q = exp q) /\
    i < length M /\ H = nth i (snd (eig M)) [] /\
    forall j, j < length M -> (nth j (fst (eig M)) 0 <= nth i (fst (eig M)) 0)%Q.

(** The cosine attached to neighbour [i] of row [b]: of the angle between [H] and
    the squared distances of the difference of the two rows from the minority rows.
    The width of the kernel plays no role.  There is none if one of the two
    vanishes. *)
Definition k_cosine (norm : row -> Q) (X_min : list row) (H : row) (b i : nat) (q : Q) : Prop :=
  let diff := map2 (fun a b => a - b)%Q (nth i X_min []) (nth b X_min []) in
  let s := map (sq_apart diff) X_min in
  ~ (norm H * norm s == 0)%Q /\ (q == Qabs (qsum (map2 Qmult s H)) / (norm H * norm s))%Q.

(** Every new row lies between a minority row and one of its nearest neighbours of
    largest cosine, those without cosine counting last. *)
Definition k_smote_spec (dist : row -> row -> Q) (norm : row -> Q) (exp : Q -> Q) (eig : list row -> list Q * list row) (sigma : Q)
    (p : smote_params) (D : dataset) (mn n : Z) (S : list row) : Prop :=
  let X_min := rows_with mn (d_X D) (d_y D) in
  length S = Z.to_nat n /\
  exists T H, nearest_table dist X_min X_min (Nat.min (length X_min) (sm_n_neighbors p + 1)) T /\ k_axis exp eig sigma X_min H /\
    (ss_n_dim (sm_ss p) = 2 -> ss_gauss (sm_ss p) = GNone ->
     Forall (fun x => exists b i, listed T b i /\
       (forall i' q', listed T b i' -> k_cosine norm X_min H (nth 0 (nth b T []) 0) i' q' ->
          exists q, k_cosine norm X_min H (nth 0 (nth b T []) 0) i q /\ (q' <= q)%Q) /\
       convex_comb (d_dim D) [nth b X_min []; nth i X_min []] x) S).
