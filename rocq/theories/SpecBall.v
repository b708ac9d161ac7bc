(** Specification vocabulary for the test SOI_CJ merges clusters by. *)

From Coq Require Import List ZArith QArith Bool Arith.
From Verif Require Import Np DistModel.
Import ListNotations.
Open Scope nat_scope.

(** The squared Euclidean distance and the point half way. *)
Fixpoint gap2 (a b : vec) : Q :=
  match a, b with x :: a, z :: b => ((x - z) * (x - z) + gap2 a b)%Q | _, _ => 0%Q end.
Fixpoint half (a b : vec) : vec :=
  match a, b with x :: a, z :: b => ((x + z) / 2)%Q :: half a b | _, _ => [] end.

Definition point (X : mat) (k : nat) : vec := nth k X [].

(** [A] and [B] are nonempty lists of row numbers, all rows have [c] entries. *)
Definition two_clusters (c : nat) (X : mat) (A B : list nat) : Prop :=
  Forall (fun x => length x = c) X /\ A <> [] /\ B <> [] /\ Forall (fun k => k < length X) A /\ Forall (fun k => k < length X) B.

(** A pair of rows of largest distance. *)
Definition farthest_pair (X : mat) (A B : list nat) (i j : nat) : Prop :=
  In i A /\ In j B /\ forall i' j', In i' A -> In j' B -> (gap2 (point X i') (point X j') <= gap2 (point X i) (point X j))%Q.

(** The rows in the ball whose diameter joins the rows [i] and [j]. *)
Definition in_ball (X : mat) (i j k : nat) : Prop :=
  k < length X /\ (gap2 (half (point X i) (point X j)) (point X k) <= gap2 (half (point X i) (point X j)) (point X i))%Q.

(** How many of the rows listed have the label, and another one. *)
Definition with_label (y : list Z) (l : Z) (ks : list nat) : nat := length (filter (fun k => Z.eqb (nth k y 0%Z) l) ks).
Definition without_label (y : list Z) (l : Z) (ks : list nat) : nat := length (filter (fun k => negb (Z.eqb (nth k y 0%Z) l)) ks).

(** A tensor that gives every vector a square that is not negative. *)
Definition semidefinite (c : nat) (T : mat) : Prop := forall t, length t = c -> (0 <= quad T t)%Q.
