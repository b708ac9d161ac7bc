(** Vocabulary of the noise-removal and undersampling properties. *)

From Coq Require Import List ZArith QArith Bool Arith Sorting.Sorted Permutation.
From Verif Require Import Np Spec.
Import ListNotations.

(** [X', y'] are the rows and labels of [X, y] at the positions that satisfy no
    [drop], in their original order. *)
Definition drops_exactly (X : list (list Q)) (y : list Z) (drop : nat -> Prop)
    (X' : list (list Q)) (y' : list Z) : Prop :=
  exists keep, StronglySorted lt keep /\
    (forall i, In i keep <-> (i < length X)%nat /\ ~ drop i) /\
    X' = map (fun i => nth i X []) keep /\ y' = map (fun i => nth i y 0%Z) keep.

(** Some, but not necessarily all, positions are dropped. *)
Definition sub_data (X : list (list Q)) (y : list Z) (X' : list (list Q)) (y' : list Z) : Prop :=
  length X' = length y' /\
  exists rest, Permutation (combine X y) (combine X' y' ++ rest).

(** [j] is a nearest row to row [i] among the others; strictly the nearest. *)
Definition nearest_other (dist : list Q -> list Q -> Q) (X : list (list Q)) (i j : nat) : Prop :=
  i <> j /\ (j < length X)%nat /\
  forall k, (k < length X)%nat -> k <> i -> dist (nth i X []) (nth j X []) <= dist (nth i X []) (nth k X []).
Definition strictly_nearest (dist : list Q -> list Q -> Q) (X : list (list Q)) (i j : nat) : Prop :=
  i <> j /\ (j < length X)%nat /\
  forall k, (k < length X)%nat -> k <> i -> k <> j ->
    dist (nth i X []) (nth j X []) < dist (nth i X []) (nth k X []).

(** No two rows coincide, as far as the distance can tell. *)
Definition no_duplicates (dist : list Q -> list Q -> Q) (X : list (list Q)) : Prop :=
  forall i j, (i < length X)%nat -> (j < length X)%nat -> i <> j ->
    dist (nth i X []) (nth i X []) < dist (nth i X []) (nth j X []).

(** Number of positions in [t] carrying the label [z]. *)
Definition votes (y : list Z) (t : list nat) (z : Z) : nat :=
  length (filter (fun i => Z.eqb (nth i y 0%Z) z) t).

(** What a draw without replacement promises. *)
Definition draw_ok (draw : list Q -> nat -> list nat) : Prop :=
  forall p size, (size <= length (filter (fun q => negb (Qle_bool q 0)) p))%nat ->
    length (draw p size) = size /\ NoDup (draw p size) /\
    Forall (fun i => (i < length p)%nat /\ (0 < nth i p 0)%Q) (draw p size).

(** [t] lists k nearest rows to row [i], not counting [i] itself. *)
Definition nearest_others (dist : list Q -> list Q -> Q) (X : list (list Q)) (i k : nat)
    (t : list nat) : Prop :=
  length t = k /\ NoDup t /\ ~ In i t /\ Forall (fun j => j < length X)%nat t /\
  forall j l, In j t -> ~ In l t -> l <> i -> (l < length X)%nat ->
    dist (nth i X []) (nth j X []) <= dist (nth i X []) (nth l X []).
