(** Model of the score DSMOTE maximises and of its loop.  File
    smote_variants/oversampling/_dsmote.py.

    Entries are real numbers; [Inf] and [NaN] arise from divisions by zero and
    from roots of negative numbers.  The rows are those after scaling, all of the
    same number of columns, which is two or more. *)

From Coq Require Import List Reals Bool Arith.
From Verif Require Import Np.
Import ListNotations.
Open Scope nat_scope.

Definition rrow := list R.

Inductive num := Fin (x : R) | Inf | NaN.

(** [np.sum] and [np.mean] of a vector, [x ** 2], [np.dot], [np.linalg.norm]. *)
Definition tot (l : list R) : R := fold_right Rplus 0%R l.
Definition avg (l : list R) : R := (tot l / INR (length l))%R.
Definition sqr (x : R) : R := (x * x)%R.
Definition inner (a b : rrow) : R := tot (map2 Rmult a b).
Definition len2 (a : rrow) : R := sqrt (tot (map sqr a)).
Definition column (j : nat) (X : list rrow) : list R := map (fun x => nth j x 0%R) X.

(** DSMOTEPartialResults, _dsmote.py:21-40. *)
Record partial := mk_partial { log_sum : list R; sum1 : list R; sum2 : list R; all_sum : R; norm2 : R }.

(** The start of sampling, _dsmote.py:310-322; np.linalg.norm of a matrix is the
    root of the sum of the squares of all entries. *)
Definition partial_of (dim : nat) (X : list rrow) : partial :=
  mk_partial (map (fun j => tot (map ln (column j X))) (seq 0 dim))
    (map (fun j => tot (column j X)) (seq 0 dim))
    (map (fun j => tot (map sqr (column j X))) (seq 0 dim))
    (tot (concat X)) (sqr (len2 (concat X))).

(** generate_one_sample, _dsmote.py:274-281. *)
Definition partial_add (p : partial) (g : rrow) : partial :=
  mk_partial (map2 Rplus (log_sum p) (map ln g)) (map2 Rplus (sum1 p) g) (map2 Rplus (sum2 p) (map sqr g))
    (all_sum p + tot g)%R (norm2 p + len2 g)%R.

(** calculate_gdiv, _dsmote.py:168-187. *)
Definition gdiv (X : list rrow) (g : rrow) (p : partial) : num :=
  let terms := map (fun x => (norm2 p - 2 * inner x g + sqr (len2 g))%R) X in
  if forallb (fun t => if Rle_dec 0 t then true else false) terms then Fin (avg (map sqrt terms)) else NaN.

(** calculate_fisher, _dsmote.py:189-207; the numerator is a square. *)
Definition fisher (all_mean mean_maj : R) (var_min : list R) (var_maj : R) : num :=
  let a := sqr (all_mean - mean_maj) in
  let b := (avg var_min + var_maj)%R in
  if Req_EM_T b 0 then (if Req_EM_T a 0 then NaN else Inf) else Fin (a / b).

Definition num_add (a b : num) : num :=
  match a, b with Fin x, Fin y => Fin (x + y) | NaN, _ | _, NaN => NaN | _, _ => Inf end.
(** [a > b]; there is no minus infinity. *)
Definition num_gt (a b : num) : bool :=
  match a, b with Fin x, Fin y => if Rlt_dec y x then true else false | Inf, Fin _ => true | _, _ => false end.

(** calculate_objective, _dsmote.py:209-238. *)
Definition objective (dim : nat) (X : list rrow) (p : partial) (mean_maj var_maj : R) : num :=
  let n := INR (length X) in
  let mean_min := map (fun s => (s / n)%R) (sum1 p) in
  let var_min := map2 (fun s m => (s / n - sqr m)%R) (sum2 p) mean_min in
  let gmean := map (fun s => exp (s / n)) (log_sum p) in
  let all_mean := (all_sum p / (n * INR dim))%R in
  num_add (gdiv X gmean p) (fisher all_mean mean_maj var_min var_maj).

(** [scipy.stats.mstats.gmean(rows, axis=0)]. *)
Definition gmean (dim : nat) (X : list rrow) : rrow := map (fun j => exp (avg (map ln (column j X)))) (seq 0 dim).

(** [np.var] of a vector, [np.var(X, axis=0)]. *)
Definition var (l : list R) : R := avg (map (fun x => sqr (x - avg l)) l).
Definition vars (dim : nat) (X : list rrow) : list R := map (fun j => var (column j X)) (seq 0 dim).

Section Loop.

(** The try number [s] while row number [added] is sought: three of [m] positions. *)
Variable draw : nat -> nat -> nat -> list nat.

(** generate_one_sample, _dsmote.py:240-291. *)
Definition one_try (dim : nat) (X_min : list rrow) (mean_maj var_maj : R) (p : partial) (added : nat)
    (best : num * option (rrow * partial)) (s : nat) : num * option (rrow * partial) :=
  let g := gmean dim (map (fun i => nth i X_min []) (draw added s (length X_min))) in
  let p' := partial_add p g in
  let score := objective dim (X_min ++ [g]) p' mean_maj var_maj in
  if num_gt score (fst best) then (score, Some (g, p')) else best.
Definition one_sample (n_step dim : nat) (X_min : list rrow) (mean_maj var_maj : R) (p : partial) (added : nat) : option (rrow * partial) :=
  let m := length X_min in
  snd (fold_left (one_try dim X_min mean_maj var_maj p added) (seq 0 (Nat.min (m * (m - 1) * (m - 2)) n_step)) (Fin 0, None)).

(** The loop of sampling, _dsmote.py:324-333: stacking None raises ValueError. *)
Fixpoint grow (n_step dim : nat) (mean_maj var_maj : R) (more added : nat) (X_min : list rrow) (p : partial) : res (list rrow) :=
  match more with
  | 0 => Ok X_min
  | S more =>
    match one_sample n_step dim X_min mean_maj var_maj p added with
    | Some (g, p') => grow n_step dim mean_maj var_maj more (S added) (X_min ++ [g]) p'
    | None => Err ValueError
    end
  end.

(** sampling, _dsmote.py:293-335. *)
Definition ds_sampling (n_step dim : nat) (X_maj X_min : list rrow) (n : nat) : res (list rrow) :=
  grow n_step dim (avg (concat X_maj)) (avg (vars dim X_maj)) n 0 X_min (partial_of dim X_min).

End Loop.
