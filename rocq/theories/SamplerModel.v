(** Model of the sampler base classes and of SMOTE:
    /repo/smote_variants/base/_base.py (StatisticsMixin),
    /repo/smote_variants/base/_oversampling.py (OverSamplingBase),
    /repo/smote_variants/oversampling/_smote.py. *)

From Coq Require Import List ZArith QArith Bool Arith.
From Verif Require Import Np SimplexModel Float64.
Import ListNotations.

(** State set by class_label_statistics. *)
Record stats := mk_stats {
  class_stats : list (Z * nat);
  min_label : Z;
  maj_label : Z }.

(** StatisticsMixin.class_label_statistics, _base.py:297-307.  With fewer than
    two labels [counts\[1\]] raises IndexError.  Labels are integers. *)
Definition class_label_statistics (y : list Z) : res stats :=
  match unique_counts y with
  | (l0, c0) :: (l1, c1) :: _ =>
    let lt := (c0 <? c1)%nat in
    Ok (mk_stats (unique_counts y) (if lt then l0 else l1) (if lt then l1 else l0))
  | _ => Err IndexError
  end.

(** [self.class_stats\[label\]]. *)
Definition class_size (st : stats) (lab : Z) : res nat :=
  match find (fun p => Z.eqb (fst p) lab) (class_stats st) with
  | Some p => Ok (snd p)
  | None => Err KeyError
  end.

(** A value passed as [proportion]/[strategy]: a Python int (also bool), a
    Python float (also numpy.float64), or anything else (string, numpy.int64,
    None, ...). *)
Inductive strategy := StInt (z : Z) | StFloat (f : f64) | StOther.

(** OverSamplingBase.det_n_to_sample, _oversampling.py:155-183, with the class
    sizes given.  [n_maj - n_min] is an int64; int64 * int stays an integer
    (64-bit overflow is not modelled), int64 * float converts to double. *)
Definition det_n_to_sample (s : strategy) (n_maj n_min : Z) : res Z :=
  match s with
  | StInt z => Ok (Z.max 0 ((n_maj - n_min) * z))
  | StFloat f =>
    do k <- int_of_f64 (f_mul (f_of_Z (n_maj - n_min)) f);
    Ok (Z.max 0 k)
  | StOther => Err ValueError
  end.

(** The same with the recorded class sizes (lines 171-174). *)
Definition det_n_to_sample_st (s : strategy) (st : stats) : res nat :=
  do n_maj <- class_size st (maj_label st);
  do n_min <- class_size st (min_label st);
  do k <- det_n_to_sample s (Z.of_nat n_maj) (Z.of_nat n_min);
  Ok (Z.to_nat k).

(** A data set: rows, number of columns (X.shape\[1\]), labels. *)
Record dataset := mk_data { d_X : list row; d_dim : nat; d_y : list Z }.

(** Entries of the [checks] dictionary, in order; keys other than the two
    tested are ignored (_oversampling.py:229-245). *)
Inductive check := CMinNMin (n : nat) | CMinNDim (n : nat) | COther.

(** Lines 152-153: the defaults. *)
Definition checks_default : list check := [CMinNMin 2; COther].

(** The loop of lines 229-245: does a check ask for copies? *)
Fixpoint checks_fail (checks : list check) (st : stats) (dim : nat) : res bool :=
  match checks with
  | [] => Ok false
  | CMinNMin k :: rest =>
    do n <- class_size st (min_label st);
    if (n <=? k)%nat then Ok true else checks_fail rest st dim
  | CMinNDim k :: rest =>
    if (dim <? k)%nat then Ok true else checks_fail rest st dim
  | COther :: rest => checks_fail rest st dim
  end.

(** OverSamplingBase.sample, _oversampling.py:212-247, for an arbitrary
    [sampling_algorithm] (which reads the statistics just recorded). *)
Definition sample_with (checks : list check)
    (algorithm : stats -> dataset -> res (list row * list Z)) (D : dataset)
    : res (list row * list Z) :=
  do st <- class_label_statistics (d_y D);
  do copy <- checks_fail checks st (d_dim D);
  if copy then Ok (d_X D, d_y D) else algorithm st D.

(** SMOTE's parameters, _smote.py:39-87. *)
Record smote_params := mk_smote {
  sm_proportion : strategy;
  sm_n_neighbors : nat;
  sm_ss : ss_params }.

Section SMOTE.

Variable volume : list row -> Q.

(** [fit(Xf).kneighbors(Xq)\[1\]] with k neighbours: the nearest-neighbour search
    (scikit-learn's, or _metrictensor.py's with a tensor) is external here. *)
Variable nn : list row -> list row -> nat -> res (list (list nat)).

(** SMOTE.sampling_algorithm, _smote.py:104-139. *)
Definition smote_algorithm (p : smote_params) (r : rng) (st : stats) (D : dataset)
    : res (list row * list Z) :=
  do n_to_sample <- det_n_to_sample_st (sm_proportion p) st;
  if (n_to_sample =? 0)%nat then Ok (d_X D, d_y D)
  else
    let X_min := rows_with (min_label st) (d_X D) (d_y D) in
    let n_neighbors := Nat.min (length X_min) (sm_n_neighbors p + 1) in
    do ind_min <- nn X_min X_min n_neighbors;
    do samples <- sample_simplex volume (sm_ss p)
        (mk_args X_min (d_dim D) ind_min n_neighbors None None None false None)
        n_to_sample r;
    Ok (d_X D ++ samples, d_y D ++ repeat (min_label st) n_to_sample).

(** SMOTE().sample(X, y). *)
Definition smote_sample (p : smote_params) (r : rng) (D : dataset)
    : res (list row * list Z) :=
  sample_with checks_default (smote_algorithm p r) D.

End SMOTE.
