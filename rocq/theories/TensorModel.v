(** Model of the construction of metric tensors, smote_variants/base/_metrictensor.py:
    fix_pd_matrix, reverse_matrix, create_metric_tensor, construct_tensor and psd_mean.

    Entries are real numbers.  A matrix is the function from positions to entries;
    only positions below its size, which is passed along, mean anything.
    Eigenvectors (np.linalg.eigh), inverses (np.linalg.inv), random permutations
    and linear regressions are parameters. *)

From Coq Require Import List ZArith Reals Bool Arith.
From Verif Require Import Np.
Import ListNotations.
Open Scope nat_scope.

Definition rvec := nat -> R.
Definition rmat := nat -> nat -> R.

(** [np.sum] of the first [n] entries. *)
Fixpoint rsum (n : nat) (f : rvec) : R :=
  match n with O => 0%R | S m => (rsum m f + f m)%R end.

Section Tensor.

(** [np.linalg.eigh(matrix)] for a matrix of size [n]: the eigenvalues in
    ascending order and the matrix whose columns are the eigenvectors. *)
Variable eigh : nat -> rmat -> rvec * rmat.

(** [np.dot(np.dot(V, np.diag(w)), V.T)]. *)
Definition compose (n : nat) (w : rvec) (V : rmat) : rmat :=
  fun i j => rsum n (fun k => (V i k * w k * V j k)%R).

(** [eigv\[eigv <= eps\] = eps]. *)
Definition clip (eps x : R) : R := if Rle_dec x eps then eps else x.

(** fix_pd_matrix, _metrictensor.py:115-131. *)
Definition fix_pd_matrix (n : nat) (eps : R) (M : rmat) : rmat :=
  let (w, V) := eigh n M in
  compose n (fun k => clip eps (w k)) V.

(** [rankdata(v).astype(int)\[i\]]: tied values share the mean of their ranks, which
    [astype] cuts to an integer. *)
Definition int_rank (n : nat) (v : rvec) (i : nat) : nat :=
  let less := length (filter (fun j => if Rlt_dec (v j) (v i) then true else false) (seq 0 n)) in
  let tied := length (filter (fun j => if Req_EM_T (v j) (v i) then true else false) (seq 0 n)) in
  less + (tied + 1) / 2.

(** reverse_matrix, _metrictensor.py:134-147.  The eigenvalues are ascending, so
    [np.argsort] need not move any of them. *)
Definition reverse_matrix (n : nat) (M : rmat) : rmat :=
  let (w, V) := eigh n M in
  compose n (fun k => w (n - int_rank n w k)) V.

(** [np.triu_indices(n, k)]. *)
Definition triu (n k : nat) : list (nat * nat) :=
  flat_map (fun i => map (fun j => (i, j)) (seq (i + k) (n - (i + k)))) (seq 0 n).

(** [M\[p\] = v]. *)
Definition set_at (M : rmat) (p : nat * nat) (v : R) : rmat :=
  fun i j => if (i =? fst p) && (j =? snd p) then v else M i j.
Definition set_all (M : rmat) (ps : list (nat * nat)) (vs : list R) : rmat :=
  fold_left (fun M pv => set_at M (fst pv) (snd pv)) (combine ps vs) M.

(** The matrix of create_metric_tensor before it is fixed, _metrictensor.py:162-169. *)
Definition from_upper (n : nat) (elements : list R) : res rmat :=
  let tu_indices := triu n 0 in
  if length tu_indices =? length elements then
    let dist := set_all (fun _ _ => 0%R) tu_indices elements in
    let both := fun i j => (dist i j + dist j i)%R in
    Ok (fun i j => if i =? j then (both i i / 2)%R else both i j)
  else Err ValueError.

(** create_metric_tensor, _metrictensor.py:150-173; [eps] is 1e-4 there. *)
Definition create_metric_tensor (n : nat) (eps : R) (elements : list R) : res rmat :=
  do dist <- from_upper n elements; Ok (fix_pd_matrix n eps dist).

(** [np.random.RandomState(5).permutation(np.arange(n))]. *)
Variable permutation : nat -> list nat.

(** [LinearRegression(fit_intercept=False).fit(X_target, y_target).coef_]. *)
Variable regress : list (list R) -> list R -> list R.

(** The pairs of rows used in the regression, _metrictensor.py:188-205. *)
Definition pairs_used (m n : nat) : list (nat * nat) :=
  let all := triu m 0 in
  let n_upper := length all in
  let n_d := length (triu n 0) in
  if n_d * 100 <? n_upper then
    let out := skipn (n_d * 100) (permutation n_upper) in
    map snd (filter (fun ip => negb (existsb (Nat.eqb (fst ip)) out)) (combine (seq 0 n_upper) all))
  else all.

(** The products of the components of a difference, those off the diagonal
    doubled, _metrictensor.py:212-222. *)
Definition products (n : nat) (d : rvec) : list R :=
  map (fun ab => let p := (d (fst ab) * d (snd ab))%R in if fst ab <? snd ab then (p * 2)%R else p) (triu n 0).

(** construct_tensor, _metrictensor.py:176-230, for [m] rows of [n] columns.  (The
    score returned besides is not modelled.) *)
Definition construct_tensor (m n : nat) (eps : R) (X : rmat) (dissim : rmat) : res rmat :=
  let pairs := pairs_used m n in
  let y_target := map (fun ij => (dissim (fst ij) (snd ij) ^ 2)%R) pairs in
  let X_target := map (fun ij => products n (fun a => (X (fst ij) a - X (snd ij) a)%R)) pairs in
  create_metric_tensor n eps (regress X_target y_target).

(** psd_mean, _metrictensor.py:508-522; the mean of no matrix is nan. *)
Definition psd_mean (n : nat) (eps : R) (Ms : list rmat) : option rmat :=
  match Ms with
  | [] => None
  | _ => Some (fix_pd_matrix n eps (fun i j => (fold_right (fun M s => (M i j + s)%R) 0%R Ms / INR (length Ms))%R))
  end.

(** [np.linalg.inv(fix_pd_matrix(cov))], _metrictensor.py:612 and 615. *)
Variable inv : nat -> rmat -> res rmat.
Definition inverse_of_fixed (n : nat) (eps : R) (cov : rmat) : res rmat := inv n (fix_pd_matrix n eps cov).

End Tensor.
