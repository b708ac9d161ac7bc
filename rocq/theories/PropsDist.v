(** Properties C21, C22, C50 and C51: distances and neighbours with a metric tensor.

    [entry c tensor optimized x y] is the distance of two rows of [c] numbers, a
    distance being represented by its square; [pairwise depth max_mem …] is
    pairwise_distances_mahalanobis with [depth] nested calls available. *)

From Coq Require Import List ZArith QArith Qabs Bool Arith Lia Permutation Sorted.
From Verif Require Import Np NpFacts DistModel DistFacts DistWitness.
Import ListNotations.
Open Scope nat_scope.

(** If the distances of one row fit into the memory limit, the matrix is complete
    and exact, however many rows there are. *)
Theorem C21_exact : forall depth max_mem c tensor opt X Y,
  2 <= depth -> c * length Y <= max_mem ->
  pairwise depth max_mem c tensor opt X Y = Ok (map (fun x => map (entry c tensor opt x) Y) X).
Proof. exact pairwise_exact. Qed.

(** If they do not, the function calls itself until the interpreter stops it. *)
Theorem C21_small_limit_refuted : forall max_mem c tensor opt Y, 0 < max_mem -> max_mem < c * length Y ->
  forall depth X, X <> [] -> pairwise depth max_mem c tensor opt X Y = Err RecursionError.
Proof. exact pairwise_diverges. Qed.

(** Without a tensor the entries are Euclidean distances; so they are for a tensor
    that numpy finds close to the identity matrix. *)
Theorem C21_euclid : forall c tensor opt x y, length x = c -> length y = c ->
  tensor = None \/ (exists T, tensor = Some T /\ all_close T (eye c) = true) ->
  exists q, entry c tensor opt x y = Sqrt q /\ (q == qsum (map2 (fun a b => (a - b) * (a - b)) x y))%Q.
Proof. exact entry_euclid. Qed.

(** With any other tensor T they are the square roots of the sum of
    t_k T_kl t_l for t = x - y, NaN if that is negative. *)
Theorem C21_tensor : forall c T opt x y, all_close T (eye c) = false ->
  entry c (Some T) opt x y =
  let t := map2 Qminus x y in
  let s := qsum (map2 (fun tk row => tk * qsum (map2 Qmult row t))%Q t T) in
  if Qle_bool 0 s then Sqrt s else NaN.
Proof. exact entry_tensor. Qed.

(** [argsort_ok]: np.argsort returns the positions in an ascending order. *)
Theorem C22_kneighbors : forall argsort, argsort_ok argsort ->
  forall depth max_mem c, 2 <= depth ->
  forall sk T Xf k X, c * length Xf <= max_mem ->
  exists r, kneighbors argsort depth max_mem c sk true (Some T) Xf k X = Ok r /\ length r = length X /\
  forall i x ind ds, nth_error X i = Some x -> nth_error r i = Some (ind, ds) ->
    let d a := entry c (Some T) true x (nth a Xf []) in
    length ind = Nat.min k (length Xf) /\ NoDup ind /\ (forall a, In a ind -> a < length Xf) /\
    ds = map d ind /\ StronglySorted dist_le ds /\
    (forall a b, In a ind -> b < length Xf -> ~ In b ind -> dist_le (d a) (d b)).
Proof. exact kneighbors_spec. Qed.

Theorem C22_radius : forall depth max_mem c, 2 <= depth ->
  forall skr T Xf r X, c * length Xf <= max_mem ->
  exists rs, radius_neighbors depth max_mem c skr true (Some T) Xf r X = Ok rs /\ length rs = length X /\
  forall i x ind ds, nth_error X i = Some x -> nth_error rs i = Some (ind, ds) ->
    let d a := entry c (Some T) true x (nth a Xf []) in
    NoDup ind /\ ds = map d ind /\
    (forall a, In a ind <-> a < length Xf /\ (0 <= r)%Q /\ exists q, d a = Sqrt q /\ (q <= r * r)%Q).
Proof. exact radius_spec. Qed.

(** A tensor given together with another metric than 'precomputed' is ignored:
    the queries are answered by sklearn ([sk], [skr]), which does not know it. *)
Theorem C22_ignored_refuted : forall argsort depth max_mem c sk skr T Xf k r X,
  kneighbors argsort depth max_mem c sk false (Some T) Xf k X = sk Xf X k /\
  radius_neighbors depth max_mem c skr false (Some T) Xf r X = skr Xf X r.
Proof. exact tensor_ignored. Qed.

(** Removing correlated columns: a column is kept exactly if its correlation with
    every later column is at most the threshold or not a number ... *)
Theorem C50_mask : forall th corr i, i < length corr -> (forall r, In r corr -> length r = length corr) ->
  nth i (remove_mask th corr) false = true <->
  (forall j q, i < j < length corr -> nth j (nth i corr []) None = Some q -> (Qabs q <= th)%Q).
Proof. exact columns_spec. Qed.

(** ... so that no two kept columns are correlated above it, and the last column
    is kept. *)
Theorem C50_uncorrelated : forall th corr, (forall r, In r corr -> length r = length corr) ->
  (forall i j q, i < j < length corr -> nth i (remove_mask th corr) false = true -> nth j (remove_mask th corr) false = true ->
    nth j (nth i corr []) None = Some q -> (Qabs q <= th)%Q) /\
  (corr <> [] -> nth (length corr - 1) (remove_mask th corr) false = true).
Proof. exact uncorrelated_spec. Qed.

(** ClosestNeighborsInClasses: the rows returned and the labels returned are
    together as many as the rows of the two classes ... *)
Theorem C51_lengths_partial : forall X y ind_min ind_maj Xf yf,
  length ind_min = length (select (map (Z.eqb 1) y) X) -> length ind_maj = length (select (map (Z.eqb 0) y) X) ->
  closest_in_classes X y ind_min ind_maj = Ok (Xf, yf) ->
  length Xf + length yf = length (select (map (Z.eqb 1) y) X) + length (select (map (Z.eqb 0) y) X).
Proof. exact border_lengths. Qed.

(** ... so there is in general no label for each row: three rows, one of which has
    a neighbour of the other class. *)
Theorem C51_mismatch_refuted :
  closest_in_classes [[0%Q]; [1%Q]; [5%Q]] [0; 0; 1]%Z [[2; 1]] [[0; 1]; [1; 0]] = Ok ([[5%Q]], [0; 0]%Z).
Proof. exact mismatch. Qed.

(** ** Examples *)

(** Three rows, limit 4, i.e. blocks of one row; limit 1 is too small. *)
Example C21_example :
  pairwise 2 4 2 None true [[0; 0]; [3; 4]; [1; 0]]%Q [[0; 0]; [3; 4]]%Q =
    Ok [[Sqrt 0; Sqrt 25]; [Sqrt 25; Sqrt 0]; [Sqrt 1; Sqrt 20]]%Q /\
  pairwise 50 1 2 None true [[0; 0]; [3; 4]]%Q [[0; 0]; [3; 4]]%Q = Err RecursionError.
Proof. vm_compute. auto. Qed.

(** An insertion sort is an argsort. *)
Example C22_argsort : argsort_ok ins_argsort.
Proof. exact ins_argsort_ok. Qed.

(** With the tensor diag(1, 4) the second row is farther than the third. *)
Example C22_example :
  kneighbors ins_argsort 2 10 2 (fun _ _ _ => Err ValueError) true (Some [[1; 0]; [0; 4]]%Q) [[0; 0]; [0; 2]; [3; 0]]%Q 2 [[0; 0]]%Q =
    Ok [([0; 2], [Sqrt 0; Sqrt 9]%Q)] /\
  radius_neighbors 2 10 2 (fun _ _ _ => Err ValueError) true (Some [[1; 0]; [0; 4]]%Q) [[0; 0]; [0; 2]; [3; 0]]%Q 4 [[0; 0]]%Q =
    Ok [([0; 1; 2], [Sqrt 0; Sqrt 16; Sqrt 9]%Q)].
Proof. vm_compute. auto. Qed.

Example C50_example :
  remove_mask (99 # 100) [[Some 1; Some 1; Some (1 # 2)]; [Some 1; Some 1; None]; [Some (1 # 2); None; Some 1]]%Q = [false; true; true].
Proof. reflexivity. Qed.

Example C51_example :
  closest_in_classes [[0%Q]; [5%Q]] [0; 1]%Z [[1; 0]] [[0; 0]] = Ok ([[5%Q]], [0]%Z).
Proof. reflexivity. Qed.

Print Assumptions C21_exact.
Print Assumptions C21_small_limit_refuted.
Print Assumptions C21_euclid.
Print Assumptions C21_tensor.
Print Assumptions C22_kneighbors.
Print Assumptions C22_radius.
Print Assumptions C22_ignored_refuted.
Print Assumptions C50_mask.
Print Assumptions C50_uncorrelated.
Print Assumptions C51_lengths_partial.
Print Assumptions C51_mismatch_refuted.
