(** Specification vocabulary for the volumes of simplices. *)

From mathcomp Require Import ssreflect ssrfun ssrbool eqtype ssrnat seq choice fintype finfun bigop order binomial fingroup perm ssralg zmodp ssrnum matrix mxalgebra.
Import GRing.Theory Num.Theory.
Local Open Scope ring_scope.

(** The vertices are affinely dependent: weights that are not all 0, sum up to 0 and
    combine them to 0. *)
Definition dependent {F : fieldType} {n c} (s : 'M[F]_(n, c)) : Prop :=
  exists w : 'I_n -> F, [/\ exists i, w i != 0, \sum_i w i = 0 & forall j, \sum_i w i * s i j = 0].
