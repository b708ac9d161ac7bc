(** Properties C140 and C141: the construction of metric tensors. *)

From Coq Require Import List ZArith Reals Bool Arith Lia Lra Permutation.
From Verif Require Import Np TensorModel SpecTensor TensorFacts TensorFacts2 TensorWitness.
Import ListNotations.
Open Scope nat_scope.

(** C140: fix_pd_matrix returns a symmetric matrix by which no vector is shorter
    than eps times its usual squared length, nor shorter than by the given matrix,
    and which is the given matrix if that was long enough for all vectors. *)
Theorem C140_fix_pd_matrix : forall eigh n eps M, eigen n M (eigh n M) -> lifts n eps M (fix_pd_matrix eigh n eps M).
Proof. exact fix_lifts. Qed.

(** It has the eigenvectors of the given matrix, with eigenvalues of eps at least. *)
Theorem C140_eigenvectors : forall eigh n eps M w V, eigen n M (w, V) -> eigh n M = (w, V) ->
  forall k, k < n -> eigenvector n M (w k) (fun i => V i k) /\
    eigenvector n (fix_pd_matrix eigh n eps M) (Rmax eps (w k)) (fun i => V i k).
Proof. exact fix_eigenvectors. Qed.

(** The mean of matrices, fixed: no vector is shorter than on average. *)
Theorem C140_psd_mean : forall eigh n eps Ms T, psd_mean eigh n eps Ms = Some T ->
  let mean := fun i j => (fold_right (fun M s => (M i j + s)%R) 0%R Ms / INR (length Ms))%R in
  eigen n mean (eigh n mean) ->
  lifts n eps mean T /\ forall x, (fold_right (fun M s => (form n M x + s)%R) 0%R Ms / INR (length Ms) <= form n T x)%R.
Proof. exact psd_mean_ok. Qed.

(** The inverse of the fixed covariance is a symmetric positive definite matrix
    with lengths bounded by 1 / eps. *)
Theorem C140_inverse : forall eigh inv n eps M T, (0 < eps)%R -> eigen n M (eigh n M) ->
  inverse_of_fixed eigh inv n eps M = Ok T -> same_matrix n (product n T (fix_pd_matrix eigh n eps M)) identity ->
  symmetric n T /\ (forall x, (0 < square n x -> 0 < form n T x)%R) /\ (forall x, (0 <= form n T x <= / eps * square n x)%R).
Proof. exact inverse_fixed. Qed.

(** reverse_matrix assigns the different eigenvalues to the eigenvectors in reverse. *)
Theorem C140_reverse_matrix : forall eigh n M w V, eigen n M (w, V) -> eigh n M = (w, V) ->
  (forall a b, a < b -> b < n -> (w a < w b)%R) ->
  symmetric n (reverse_matrix eigh n M) /\
  forall k, k < n -> eigenvector n M (w k) (fun i => V i k) /\ eigenvector n (reverse_matrix eigh n M) (w (n - 1 - k)) (fun i => V i k).
Proof. exact reverse_ok. Qed.

(** With equal eigenvalues it does not permute them: the trace changes. *)
Theorem C140_reverse_ties_refuted :
  ~ forall eigh n M, eigen n M (eigh n M) -> rsum n (fun i => reverse_matrix eigh n M i i) = rsum n (fun i => M i i).
Proof. intros H. destruct ties as (E & H1 & H2). specialize (H eigh_diagonal 3 (diagonal w3) E). rewrite H1, H2 in H. lra. Qed.

(** diag(-1, 2) becomes diag(1e-4, 2), and reversed diag(2, -1). *)
Example C140_example :
  let M := diagonal (fun k => if k =? 0 then (-1)%R else 2%R) in
  let T := fix_pd_matrix eigh_diagonal 2 (1 / 10000) M in
  let B := reverse_matrix eigh_diagonal 2 M in
  eigen 2 M (eigh_diagonal 2 M) /\ T 0 0 = (1 / 10000)%R /\ T 0 1 = 0%R /\ T 1 0 = 0%R /\ T 1 1 = 2%R /\
  B 0 0 = 2%R /\ B 1 1 = (-1)%R.
Proof.
  cbv zeta. destruct fixed_example as (E & H1 & H2 & H3 & H4). destruct reversed_example as (K1 & K2).
  repeat split; assumption || apply E.
Qed.

(** C141: construct_tensor regresses the squared dissimilarities of different
    pairs of rows, all pairs or 100 for each free component of the tensor, on the
    symmetric matrices, and returns the best one fixed.  If a symmetric matrix
    yields the dissimilarities used exactly, so does the best one. *)
Theorem C141_construct_tensor : forall eigh permutation regress m n eps X dissim,
  let rows := m * (m + 1) / 2 in let free := n * (n + 1) / 2 in
  (forall M, symmetric n M -> eigen n M (eigh n M)) ->
  Permutation (permutation rows) (seq 0 rows) ->
  (forall F t, Forall (fun f => length f = free) F -> length F = length t -> least free F t (regress F t)) ->
  exists T S pairs, construct_tensor eigh permutation regress m n eps X dissim = Ok T /\
    NoDup pairs /\ (forall i j, In (i, j) pairs -> i <= j /\ j < m) /\ length pairs = Nat.min rows (100 * free) /\
    symmetric n S /\ (forall S', symmetric n S' -> (fit_error n X dissim pairs S <= fit_error n X dissim pairs S')%R) /\
    lifts n eps S T /\
    ((exists M, symmetric n M /\ forall i j, In (i, j) pairs -> form n M (fun a => (X i a - X j a)%R) = (dissim i j ^ 2)%R) ->
     forall i j, In (i, j) pairs -> form n S (fun a => (X i a - X j a)%R) = (dissim i j ^ 2)%R).
Proof. exact construct_tensor_ok. Qed.

(** One column: the contracts are met, and rows 0 and 2 at distance 4 give the tensor 4. *)
Example C141_example :
  (forall M, symmetric 1 M -> eigen 1 M (eigh1 1 M)) /\
  (forall F t, Forall (fun f => length f = 1) F -> length F = length t -> least 1 F t (regress1 F t)) /\
  exists T, construct_tensor eigh1 (fun n => seq 0 n) regress1 2 1 (1 / 10000) X_line d_line = Ok T /\ T 0 0 = 4%R.
Proof. split; [intros; apply eigh1_ok|]. split; [exact regress1_ok|exact line]. Qed.

Print Assumptions C140_fix_pd_matrix.
Print Assumptions C140_eigenvectors.
Print Assumptions C140_psd_mean.
Print Assumptions C140_inverse.
Print Assumptions C140_reverse_matrix.
Print Assumptions C140_reverse_ties_refuted.
Print Assumptions C141_construct_tensor.
