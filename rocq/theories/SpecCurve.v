(** What the mesh and the fitted curve of polynom_fit_SMOTE are expected to do. *)

From Coq Require Import List ZArith QArith Bool Arith Sorting.Sorted Permutation.
From Verif Require Import Np SimplexModel Spec SamplerModel CompModel SpecComp.
Import ListNotations.
Open Scope nat_scope.

(** Mesh: [k] partners per minority row, any minority rows; every new row is a
    convex combination of a minority row and some of its partners (one partner
    by default). *)
Definition mesh_spec (ss : ss_params) (D : dataset) (mn n : Z) (S : list row) : Prop :=
  let X_min := rows_with mn (d_X D) (d_y D) in
  length S = Z.to_nat n /\
  exists k T, rounded_ratio (Z.to_nat n) (length X_min) k /\ length T = length X_min /\
    (forall b, b < length X_min -> length (nth b T []) = k + 1 /\ hd 0 (nth b T []) = b /\
       forall i, In i (nth b T []) -> i < length X_min) /\
    (ss_gauss ss = GNone ->
     Forall (neighbour_sample (d_dim D) X_min X_min T (k + 1) (Nat.min (ss_n_dim ss) (k + 1) - 1) None None) S).

Fixpoint pow_nat (x : Q) (n : nat) : Q := match n with O => 1%Q | S n' => (x * pow_nat x n')%Q end.

(** Value at [x] of the polynomial with coefficients [c], highest power first. *)
Fixpoint value_at (c : list Q) (x : Q) : Q :=
  match c with [] => 0%Q | a :: c' => (a * pow_nat x (length c') + value_at c' x)%Q end.

(** Squared error of the polynomial at 0, 1, 2, ... *)
Definition squared_error (c ys : list Q) : Q :=
  qsum (map (fun i => let e := (value_at c (inject_Z (Z.of_nat i)) - nth i ys 0)%Q in (e * e)%Q) (seq 0 (length ys))).

(** [c] is a polynomial of degree at most [deg] with the least squared error. *)
Definition least_squares (deg : nat) (ys c : list Q) : Prop :=
  length c = deg + 1 /\
  forall c', length c' = deg + 1 -> (squared_error c ys <= squared_error c' ys)%Q.

(** What numpy promises about polyfit, for [m] values. *)
Definition polyfit_ok (polyfit : list Q -> nat -> res (list Q)) (m deg : nat) : Prop :=
  forall ys, length ys = m -> exists c, polyfit ys deg = Ok c /\ least_squares deg ys c.

(** What numpy promises about argsort. *)
Definition order_ok (order : list Q -> list nat) : Prop :=
  forall v, Permutation (order v) (seq 0 (length v)) /\
    StronglySorted (fun i j => (nth i v 0 <= nth j v 0)%Q) (order v).

Definition row_mean (x : row) : Q := (qsum x / inject_Z (Z.of_nat (length x)))%Q.

(** [P] lists the rows [X_min] by increasing mean of the row. *)
Definition arranged (X_min P : list row) : Prop :=
  Permutation X_min P /\ StronglySorted (fun a b => (row_mean a <= row_mean b)%Q) P.

(** Curve: in every column [j] the new values are values of one least squares
    polynomial at parameters between 0 and the number of minority rows. *)
Definition curve_spec (deg : nat) (D : dataset) (mn n : Z) (S : list row) : Prop :=
  let X_min := rows_with mn (d_X D) (d_y D) in
  length S = Z.to_nat n /\
  exists P c, arranged X_min P /\
    (forall j, j < d_dim D -> least_squares deg (map (fun x => nth j x 0%Q) P) (nth j c [])) /\
    Forall (fun x => length x = d_dim D /\
      forall j, j < d_dim D -> exists t, (0 <= t)%Q /\ (t < inject_Z (Z.of_nat (length X_min)))%Q /\
        (nth j x 0 == value_at (nth j c []) t)%Q) S.

(** No two rows at different positions have the same mean. *)
Definition distinct_means (X : list row) : Prop :=
  forall i j, i < length X -> j < length X -> (row_mean (nth i X []) == row_mean (nth j X []))%Q -> i = j.
