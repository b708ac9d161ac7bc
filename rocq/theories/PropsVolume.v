(** Properties of the volumes of simplices. *)

From mathcomp Require Import ssreflect ssrfun ssrbool eqtype ssrnat seq choice fintype finfun bigop order binomial fingroup perm ssralg zmodp ssrnum matrix mxalgebra.
From Verif Require Import VolumeModel SpecVolume VolumeFacts.
Import Order.TTheory GRing.Theory Num.Theory.
Local Open Scope ring_scope.

(** A volume is never NaN and never negative. *)
Theorem C152_defined : forall (F : rcfType) n c (s : 'M[F]_(n.+1, c)), exists2 v, simplex_volume s = Some v & 0 <= v.
Proof. exact volume_ge0. Qed.

(** It is 0 exactly if the vertices are affinely dependent. *)
Theorem C152_dependent : forall (F : rcfType) n c (s : 'M[F]_(n.+1, c)), simplex_volume s = Some 0 <-> dependent s.
Proof. exact volume_dependent. Qed.

(** The order of the vertices does not matter, although the last one is treated
    differently. *)
Theorem C152_order : forall (F : rcfType) n c (s : 'M[F]_(n.+1, c)) (p : 'S_n.+1), simplex_volume (row_perm p s) = simplex_volume s.
Proof. exact volume_order. Qed.

(** Moving and turning the simplex keeps the volume, scaling multiplies it by the power
    of the factor. *)
Theorem C152_affine : forall (F : rcfType) n c (s : 'M[F]_(n.+1, c)) (a : F) (t : 'rV[F]_c) (Q : 'M[F]_c) v,
  Q *m Q^T = 1%:M -> simplex_volume s = Some v -> simplex_volume (a *: (s *m Q) + \matrix_(i, j) t 0 j) = Some (`|a| ^+ n * v).
Proof. exact volume_affine. Qed.

(** In a space of as many dimensions it is the determinant of the edges over n!. *)
Theorem C152_square : forall (F : rcfType) n (s : 'M[F]_(n.+1, n)),
  simplex_volume s = Some (`|\det (\matrix_(i, j) (s (widen_ord (leqnSn n) i) j - s ord_max j))| / (n`!)%:R).
Proof. exact volume_square. Qed.

(** The special case of two vertices gives the same as the general formula. *)
Theorem C152_volumes : forall (F : rcfType) n c (ss : seq 'M[F]_(n.+1, c)), simplex_volumes ss = [seq simplex_volume s | s <- ss].
Proof. exact volumes_map. Qed.
Theorem C152_edge : forall (F : rcfType) c (s : 'M[F]_(2, c)), simplex_volume s = Some (Num.sqrt (\sum_j (s (inord 0) j - s (inord 1) j) ^+ 2)).
Proof. exact volume_edge. Qed.

(** Simplices of more than c + 1 vertices in c columns have volume 0, even if the
    vertices differ: sampling by volume has nothing to choose from then. *)
Theorem C152_thin : forall (F : rcfType) n c (s : 'M[F]_(n.+1, c)), (c < n)%N -> simplex_volume s = Some 0.
Proof. exact volume_thin. Qed.
Theorem C152_distinct_refuted : forall F : rcfType, ~ (forall n c (s : 'M[F]_(n.+1, c)), injective (fun i => row i s) -> simplex_volume s <> Some 0).
Proof. exact volume_covers. Qed.

Example C152_case : forall F : rcfType, simplex_volume (corner F) = Some (1 / 2%:R).
Proof. exact corner_volume. Qed.
Example C152_case_turn : forall F : rcfType, (1%:M : 'M[F]_2) *m (1%:M)^T = 1%:M.
Proof. move=> F. by rewrite trmx1 mulmx1. Qed.

Print Assumptions C152_defined.
Print Assumptions C152_dependent.
Print Assumptions C152_order.
Print Assumptions C152_affine.
Print Assumptions C152_square.
Print Assumptions C152_volumes.
Print Assumptions C152_edge.
Print Assumptions C152_thin.
Print Assumptions C152_distinct_refuted.
