(** Nearest neighbours by sorting all distances:
    /repo/smote_variants/base/_metrictensor.py:475-505 (n_neighbors_func), used
    by NearestNeighborsWithMetricTensor.kneighbors (lines 764-794) whenever a
    metric tensor is given. *)

From Coq Require Import List ZArith QArith Bool Arith.
From Verif Require Import Np.
Import ListNotations.

(** Line 499: [np.argsort] of every row of the distance table, first k columns.
    When k exceeds the number of fitted rows the slice silently returns fewer
    columns.  [dist] is the entry of the distance table (line 497); the square
    root is dropped because argsort only depends on the order.  Ties are
    resolved by position (numpy's default sort leaves them unspecified). *)
Definition n_neighbors_func (dist : row -> row -> Q) (Xf Xq : list row) (k : nat)
    : list (list nat) :=
  map (fun x => firstn k (argsort (map (dist x) Xf))) Xq.
