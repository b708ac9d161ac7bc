(** Specification of metric learning, independent of the model's helpers. *)

From Coq Require Import List ZArith QArith Bool Arith.
From Verif Require Import Np.
Import ListNotations.
Open Scope nat_scope.

(** Two rows with equal entries. *)
Definition row_eq (a b : row) : Prop := Forall2 Qeq a b.

(** [X'] holds each different row of [X] once, and [y'] the labels the rows have
    where they occur first. *)
Definition deduplicated (X : list row) (y : list Z) (X' : list row) (y' : list Z) : Prop :=
  length X' = length y' /\
  (forall k, k < length X' -> exists i, i < length X /\ nth k X' [] = nth i X [] /\ nth k y' 0%Z = nth i y 0%Z /\
     forall j, j < i -> ~ row_eq (nth j X []) (nth i X [])) /\
  (forall i, i < length X -> exists k, k < length X' /\ row_eq (nth k X' []) (nth i X [])) /\
  (forall k l, k < length X' -> l < length X' -> row_eq (nth k X' []) (nth l X' []) -> k = l).

(** The column has at most [n] different values. *)
Definition few_values (n : nat) (column : list Q) : Prop :=
  exists vs, length vs <= n /\ forall v, In v column -> exists u, In u vs /\ (v == u)%Q.

(** The number of trees in which the two rows reach different leaves. *)
Definition differing (a b : list nat) : nat :=
  length (filter (fun k => negb (nth k a 0 =? nth k b 0)) (seq 0 (length a))).

Fixpoint total (n : nat) (f : nat -> Q) : Q := match n with 0 => 0%Q | S n' => (total n' f + f n')%Q end.
