(** Model of the volumes of simplices.  File
    smote_variants/base/_simplexsampling.py.

    Numbers are the elements of a real closed field; a simplex is the matrix of its
    vertices. *)

From mathcomp Require Import ssreflect ssrfun ssrbool eqtype ssrnat seq choice fintype finfun bigop order binomial fingroup perm ssralg zmodp ssrnum matrix mxalgebra.
Import GRing.Theory Num.Theory.
Local Open Scope ring_scope.

Section VOLUME.
Variable F : rcfType.

(** Line 106: [simplex[:-1] - simplex[-1]]. *)
Definition edges {n c} (s : 'M[F]_(n.+1, c)) : 'M[F]_(n, c) :=
  \matrix_(i, j) (s (widen_ord (leqnSn n) i) j - s ord_max j).

(** simplex_volume, lines 96-109; np.sqrt gives NaN, here [None], for a negative
    number. *)
Definition simplex_volume {n c} (s : 'M[F]_(n.+1, c)) : option F :=
  let simplex_mod := edges s in
  let gram := simplex_mod *m simplex_mod^T in
  let d := \det gram in
  if 0 <= d then Some (Num.sqrt d / (n`!)%:R) else None.

(** simplex_volumes, lines 112-126, for simplices of [n + 1] vertices. *)
Definition simplex_volumes {n c} (ss : seq 'M[F]_(n.+1, c)) : seq (option F) :=
  if n == 1%N then
    [seq Some (Num.sqrt (\sum_j (s (inord 0) j - s (inord 1) j) ^+ 2)) | s : 'M[F]_(n.+1, c) <- ss]
  else [seq simplex_volume s | s : 'M[F]_(n.+1, c) <- ss].
End VOLUME.
Arguments edges {F n c} s.
Arguments simplex_volume {F n c} s.
Arguments simplex_volumes {F n c} ss.
