(** Model of the distance computations with a metric tensor,
    /repo/smote_variants/base/_metrictensor.py.

    Numbers are rationals; a distance is represented by its square, which orders
    distances in the same way. The square root of a negative number is NaN. *)

From Coq Require Import List ZArith QArith Qabs Bool Arith.
From Verif Require Import Np.
Import ListNotations.
Open Scope nat_scope.

Notation vec := (list Q).
Notation mat := (list (list Q)).

(** A distance: [Sqrt q] or NaN. *)
Inductive dist := Sqrt (q : Q) | NaN.
(** [np.sqrt] *)
Definition sqrt_of (q : Q) : dist := if Qle_bool 0 q then Sqrt q else NaN.
(** The order np.argsort uses: NaN comes last. *)
Definition dist_le (a b : dist) : Prop :=
  match a, b with Sqrt p, Sqrt q => (p <= q)%Q | _, NaN => True | NaN, Sqrt _ => False end.
(** [d <= r] as numpy evaluates it: False for NaN. *)
Definition within (r : Q) (d : dist) : bool :=
  match d with Sqrt q => Qle_bool 0 r && Qle_bool q (r * r) | NaN => false end.

Definition eye (c : nat) : mat := map (fun i => map (fun j => if i =? j then 1%Q else 0%Q) (seq 0 c)) (seq 0 c).
(** einsum "ijk,kl,ijl->ij" for one pair of rows: the sum of t_k T_kl t_l. *)
Definition quad (T : mat) (t : vec) : Q := qsum (map2 (fun tk row => tk * qsum (map2 Qmult row t))%Q t T).
Definition squares (t : vec) : Q := qsum (map (fun x => x * x)%Q t).

(** [np.allclose(tensor, np.eye(c))]: |a - b| <= 1e-8 + 1e-5 |b|. *)
Definition close1 (a b : Q) : bool := Qle_bool (Qabs (a - b)) ((1 # 100000000) + (1 # 100000) * Qabs b).
Definition all_close (a b : mat) : bool := forallb (fun rs => forallb (fun xy => close1 (fst xy) (snd xy)) (combine (fst rs) (snd rs))) (combine a b).

(** Lines 83-94 for one pair of rows; the rows have [c] entries, the tensor is a
    c x c matrix. (numpy would broadcast other shapes or raise.) *)
Definition entry (c : nat) (tensor : option mat) (optimized : bool) (x y : vec) : dist :=
  let t := map2 Qminus x y in
  match tensor with
  | None => if optimized then sqrt_of (squares t) else sqrt_of (quad (eye c) t)
  | Some T => if all_close T (eye c) then (if optimized then sqrt_of (squares t) else sqrt_of (quad (eye c) t)) else sqrt_of (quad T t)
  end.

Definition direct (c : nat) (tensor : option mat) (optimized : bool) (X Y : mat) : list (list dist) :=
  map (fun x => map (entry c tensor optimized x) Y) X.

(** Rounded-up quotient. *)
Definition ceil_div (a b : nat) : nat := (a + b - 1) / b.
(** Lines 63-69; Python divides in floating point, here the division is exact. *)
Definition block_size (max_mem n c m : nat) : nat := Nat.max (n / ceil_div (n * c * m) max_mem) 1.
(** Lines 72-80: X[start:start+size] for start = 0, size, 2 size, ... *)
Fixpoint chunks {A} (fuel size : nat) (X : list A) : list (list A) :=
  match fuel, X with
  | O, _ => []
  | _, [] => []
  | S k, _ => firstn size X :: chunks k size (skipn size X)
  end.

(** pairwise_distances_mahalanobis, lines 42-94; [depth] is the number of nested
    calls the interpreter allows, [max_mem] the configured memory limit. *)
Fixpoint pairwise (depth max_mem c : nat) (tensor : option mat) (optimized : bool) (X Y : mat) : res (list (list dist)) :=
  match depth with
  | O => Err RecursionError
  | S k =>
      let n := length X in
      if max_mem <? n * c * length Y then
        if max_mem =? 0 then Err ZeroDivisionError else
        do bs <- mapM (fun B => pairwise k max_mem c tensor optimized B Y) (chunks n (block_size max_mem n c (length Y)) X);
        Ok (concat bs)
      else Ok (direct c tensor optimized X Y)
  end.

(** ** n_neighbors_func, lines 475-505, and NearestNeighborsWithMetricTensor,
    lines 746-840 *)

Section NEIGHBORS.
(** np.argsort of a row; unstable, any ascending order may come out. *)
Variable argsort : list dist -> list nat.
Variables depth max_mem c : nat.

(** For each query the indices and the distances. *)
Definition n_neighbors_func (tensor : option mat) (k : nat) (X_base X_neighbors : mat) : res (list (list nat * list dist)) :=
  let T := match tensor with Some T => T | None => eye c end in
  do distm <- pairwise depth max_mem c (Some T) true X_base X_neighbors;
  mapM (fun row => let ind := firstn k (argsort row) in do ds <- gather row ind; Ok (ind, ds)) distm.

(** sklearn's NearestNeighbors, fitted to X_fitted. *)
Variable sk_kneighbors : mat -> mat -> nat -> res (list (list nat * list dist)).
Variable sk_radius : mat -> mat -> Q -> res (list (list nat * list dist)).

(** fit and kneighbors, lines 754-799: [precomputed] says metric == 'precomputed'. *)
Definition kneighbors (precomputed : bool) (tensor : option mat) (X_fitted : mat) (k : nat) (X : mat) : res (list (list nat * list dist)) :=
  match precomputed, tensor with
  | true, Some T => n_neighbors_func (Some T) k X X_fitted
  | _, _ => sk_kneighbors X_fitted X k
  end.

(** radius_neighbors, lines 801-840. *)
Definition radius_neighbors (precomputed : bool) (tensor : option mat) (X_fitted : mat) (r : Q) (X : mat) : res (list (list nat * list dist)) :=
  match precomputed, tensor with
  | true, Some T =>
      do distm <- pairwise depth max_mem c (Some T) true X X_fitted;
      mapM (fun row => let ind := where_ (map (within r) row) in do ds <- gather row ind; Ok (ind, ds)) distm
  | _, _ => sk_radius X_fitted X r
  end.
End NEIGHBORS.

(** ** ClosestNeighborsInClasses.fit_transform, lines 355-381

    [ind] is what kneighbors returns for each row. *)
Definition closest_in_classes (X : mat) (y : list Z) (ind_min ind_maj : list (list nat)) : res (mat * list Z) :=
  let X_min := select (map (Z.eqb 1) y) X in
  let X_maj := select (map (Z.eqb 0) y) X in
  do lab_min <- mapM (fun r => do ls <- gather y r; Ok (forallb (Z.eqb 1) ls)) ind_min;
  do lab_maj <- mapM (fun r => do ls <- gather y r; Ok (forallb (Z.eqb 0) ls)) ind_maj;
  Ok (select (map negb lab_maj) X_maj ++ select (map negb lab_min) X_min,
      repeat 0%Z (length (filter id lab_maj)) ++ repeat 1%Z (length (filter id lab_min))).

(** ** RemoveCorrelatedColumns, lines 384-427

    [corr] is the matrix np.corrcoef returns, None for NaN. *)
Definition remove_mask (threshold : Q) (corr : list (list (option Q))) : list bool :=
  map (fun ir => negb (existsb (fun jc => (fst ir <? fst jc) && match snd jc with Some q => negb (Qle_bool (Qabs q) threshold) | None => false end)
                               (combine (seq 0 (length (snd ir))) (snd ir))))
      (combine (seq 0 (length corr)) corr).
Definition keep_columns (mask : list bool) (X : mat) : mat := map (select mask) X.
