(** Specification vocabulary for the neighbourhood-driven oversamplers. *)

From Coq Require Import List ZArith QArith Bool Arith Sorted.
From Verif Require Import Np SimplexModel Spec.
Import ListNotations.

(** Labels of the listed positions, the first one (the point itself) excluded. *)
Definition other_labels (y : list Z) (row_ : list nat) : list Z :=
  map (fun i => nth i y 0%Z) (tl row_).

(** How many of the neighbours carry label [lab]. *)
Definition neighbours_of (y : list Z) (lab : Z) (row_ : list nat) : nat :=
  count_label (other_labels y row_) lab.

(** All neighbours carry label [mj]. *)
Definition noisy (y : list Z) (mj : Z) (row_ : list nat) : Prop :=
  neighbours_of y mj row_ = length (tl row_).

(** Not all neighbours, but more than half of them carry label [mj]; exactly
    half suffices when [mj] is the smaller label value. *)
Definition in_danger (y : list Z) (mn mj : Z) (row_ : list nat) : Prop :=
  let c := neighbours_of y mj row_ in
  let o := (length (tl row_) - c)%nat in
  (c < length (tl row_))%nat /\ ((o < c)%nat \/ (o = c /\ (mj < mn)%Z)).

(** [kept] are the entries of [l] whose position satisfies [P], in order. *)
Definition filtered {A} (l : list A) (P : nat -> Prop) (kept : list A) : Prop :=
  exists idx, StronglySorted lt idx /\
    (forall i, In i idx <-> (i < length l)%nat /\ P i) /\
    (forall d, kept = map (fun i => nth i l d) idx).
