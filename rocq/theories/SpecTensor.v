(** What metric tensors are expected to be. *)

From Coq Require Import List ZArith Reals Bool Arith Permutation.
From Verif Require Import Np TensorModel.
Import ListNotations.
Open Scope nat_scope.

Definition delta (i j : nat) : R := if i =? j then 1%R else 0%R.
Definition symmetric (n : nat) (M : rmat) : Prop := forall i j, i < n -> j < n -> M i j = M j i.
Definition same_matrix (n : nat) (A B : rmat) : Prop := forall i j, i < n -> j < n -> A i j = B i j.

(** The squared length of [x] measured by [M], and by the identity. *)
Definition form (n : nat) (M : rmat) (x : rvec) : R := rsum n (fun i => rsum n (fun j => (x i * M i j * x j)%R)).
Definition square (n : nat) (x : rvec) : R := rsum n (fun i => (x i * x i)%R).

(** What numpy promises about eigh for the matrix [M]. *)
Definition eigen (n : nat) (M : rmat) (wV : rvec * rmat) : Prop :=
  let (w, V) := wV in
  (forall i j, i < n -> j < n -> M i j = rsum n (fun k => (V i k * w k * V j k)%R)) /\
  (forall i j, i < n -> j < n -> rsum n (fun k => (V i k * V j k)%R) = delta i j) /\
  (forall k l, k < n -> l < n -> rsum n (fun i => (V i k * V i l)%R) = delta k l) /\
  (forall k l, k <= l -> l < n -> (w k <= w l)%R).

(** [x] is an eigenvector of [M] for the value [a]. *)
Definition eigenvector (n : nat) (M : rmat) (a : R) (x : rvec) : Prop :=
  forall i, i < n -> rsum n (fun j => (M i j * x j)%R) = (a * x i)%R.

(** [T] lifts [M]: as [M], but nowhere shorter than [eps] times the usual length. *)
Definition lifts (n : nat) (eps : R) (M T : rmat) : Prop :=
  symmetric n T /\
  (forall x, (eps * square n x <= form n T x)%R) /\
  (forall x, (form n M x <= form n T x)%R) /\
  ((forall x, (0 < square n x)%R -> (eps * square n x < form n M x)%R) -> same_matrix n T M).

Definition product (n : nat) (A B : rmat) : rmat := fun i j => rsum n (fun k => (A i k * B k j)%R).
Definition identity : rmat := delta.

(** Sum of squared errors of squared distances. *)
Definition fit_error (n : nat) (X dissim : rmat) (pairs : list (nat * nat)) (S : rmat) : R :=
  fold_right (fun ij s => ((form n S (fun a => (X (fst ij) a - X (snd ij) a)%R) - dissim (fst ij) (snd ij) ^ 2) ^ 2 + s)%R) 0%R pairs.

(** What scikit-learn promises about the regression. *)
Fixpoint rdot (a b : list R) : R := match a, b with x :: a', y :: b' => (x * y + rdot a' b')%R | _, _ => 0%R end.
Definition regression_error (F : list (list R)) (t c : list R) : R :=
  fold_right (fun ft s => ((rdot (fst ft) c - snd ft) ^ 2 + s)%R) 0%R (combine F t).
Definition least (width : nat) (F : list (list R)) (t c : list R) : Prop :=
  length c = width /\ forall c', length c' = width -> (regression_error F t c <= regression_error F t c')%R.

(** All pairs i <= j < m. *)
Definition all_pairs (m : nat) (ps : list (nat * nat)) : Prop :=
  NoDup ps /\ forall i j, In (i, j) ps <-> i <= j /\ j < m.
