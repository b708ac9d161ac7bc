(** Model of /repo/smote_variants/base/_metrics.py.

    Scores computed with + - * / sqrt are modelled bit for bit in binary64
    (Python's int / int is correctly rounded; for counts up to 2^53 that is the
    division of the converted operands).  Scores that take logarithms are
    modelled over the real numbers: numpy's log is not specified bit for bit. *)

From Coq Require Import List ZArith QArith Bool Arith Reals.
From Flocq Require Import Core IEEE754.BinarySingleNaN.
From Verif Require Import Np Float64.
Import ListNotations.

Definition f_add (x y : f64) : f64 := @Bplus 53 1024 prec64 emax64 mode_NE x y.
Definition f_sub (x y : f64) : f64 := @Bminus 53 1024 prec64 emax64 mode_NE x y.
Definition f_sqrt (x : f64) : f64 := @Bsqrt 53 1024 prec64 emax64 mode_NE x.
Definition f_zero : f64 := B754_zero false.
(** The double nearest to 0.2: 3602879701896397 * 2^-54. *)
Definition f_0_2 : f64 := binary_normalize 53 1024 prec64 emax64 mode_NE 3602879701896397 (-54) false.

(** prediction_labels, _metrics.py:48-67.  The assignment through
    [indices\[:half\]] / [indices\[half:\]] numbers the ties. *)
Fixpoint split_ties (half : nat) (k : nat) (probs : list Q) : list Z :=
  match probs with
  | [] => []
  | p :: rest =>
    if Qeq_bool p (1#2) then
      (if (k <? half)%nat then 0%Z else 1%Z) :: split_ties half (S k) rest
    else (if Qlt_b (1#2) p then 1%Z else 0%Z) :: split_ties half k rest
  end.
Definition prediction_labels (probs : list Q) : list Z :=
  let labels := map (fun p => if Qlt_b (1#2) p then 1%Z else 0%Z) probs in
  let n := length (filter (fun p => Qeq_bool p (1#2)) probs) in
  if (n <=? 1)%nat then labels else split_ties (n / 2) 0 probs.

(** The dict built by calculate_atoms. *)
Record atoms := mk_atoms { tp : Z; tn : Z; fp : Z; fn : Z }.

Definition count_true (l : list bool) : Z := Z.of_nat (length (filter (fun b => b) l)).

(** calculate_atoms, _metrics.py:70-97.  Label vectors of different lengths do
    not broadcast (length-1 broadcasting is not modelled). *)
Definition calculate_atoms (test pred : list Z) (min_label : Z) : res atoms :=
  if negb (length test =? length pred)%nat then Err ValueError else
  let equals := map2 Z.eqb test pred in
  let not_equals := map negb equals in
  let min_sample := map (fun t => Z.eqb t min_label) test in
  let maj_sample := map negb min_sample in
  Ok (mk_atoms (count_true (map2 andb equals min_sample))
               (count_true (map2 andb equals maj_sample))
               (count_true (map2 andb not_equals maj_sample))
               (count_true (map2 andb not_equals min_sample))).

(** [a / b] for Python ints. *)
Definition int_div (a b : Z) : res f64 :=
  if (b =? 0)%Z then Err ZeroDivisionError else Ok (f_div (f_of_Z a) (f_of_Z b)).

(** Two's complement reduction of an int64. *)
Definition wrap64 (z : Z) : Z :=
  let r := (z mod 2^64)%Z in if (r <? 2^63)%Z then r else (r - 2^64)%Z.

(** The scores of calculate_label_scores that need no logarithm. *)
Record scores := mk_scores {
  s_acc : f64; s_sens : f64; s_spec : f64; s_ppv : f64; s_npv : f64;
  s_fpr : f64; s_fdr : f64; s_fnr : f64; s_bacc : f64; s_gacc : f64; s_f1 : f64;
  s_mcc : option f64; s_informedness : f64; s_markedness : f64 }.

(** calculate_label_scores, _metrics.py:146-180 and 199-200.  [np.prod] works
    on int64 and wraps around (line 173). *)
Definition calculate_label_scores (a : atoms) : res scores :=
  let p := (tp a + fn a)%Z in
  let n := (fp a + tn a)%Z in
  do acc <- int_div (tp a + tn a) (p + n);
  do sens <- int_div (tp a) p;
  do spec <- int_div (tn a) n;
  do ppv <- (if (0 <? tp a + fp a)%Z then int_div (tp a) (tp a + fp a) else Ok f_zero);
  do npv <- (if (0 <? tn a + fn a)%Z then int_div (tn a) (tn a + fn a) else Ok f_zero);
  let fpr := f_sub f_one spec in
  let fdr := f_sub f_one ppv in
  let fnr := f_sub f_one sens in
  let bacc := f_div (f_add sens spec) (f_of_Z 2) in
  let gacc := f_sqrt (f_mul sens spec) in
  do f1 <- int_div (2 * tp a) (2 * tp a + fp a + fn a);
  let tp_fp := (tp a + fp a)%Z in
  let tp_fn := (tp a + fn a)%Z in
  let tn_fp := (fp a + tn a)%Z in
  let tn_fn := (fn a + tn a)%Z in
  let mcc_num := (tp a * tn a - fp a * fn a)%Z in
  let mcc_prod := wrap64 (tp_fp * tp_fn * tn_fp * tn_fn) in
  let mcc := if (mcc_prod =? 0)%Z then None
             else Some (f_div (f_of_Z mcc_num) (f_sqrt (f_of_Z mcc_prod))) in
  let informedness := f_sub (f_add sens spec) f_one in
  let markedness := f_sub (f_add ppv npv) f_one in
  Ok (mk_scores acc sens spec ppv npv fpr fdr fnr bacc gacc f1 mcc informedness markedness).

(** _log_score_div, _metrics.py:120-133, with _log_score, 100-117. *)
Definition log_score_div (num den : Z) : option R :=
  if (0 <? den)%Z then
    if (0 <? num)%Z then Some (IZR num * ln (IZR num / IZR den))%R else None
  else None.

(** The logarithmic part of calculate_label_scores, _metrics.py:182-197:
    (l, lp, ln, uc). *)
Definition log_scores (a : atoms) : R * R * R * option R :=
  let p := (tp a + fn a)%Z in
  let n := (fp a + tn a)%Z in
  let tp_fp := (tp a + fp a)%Z in
  let tp_fn := (tp a + fn a)%Z in
  let tn_fp := (fp a + tn a)%Z in
  let tn_fn := (fn a + tn a)%Z in
  let l := (IZR (p + n) * ln (IZR (p + n)))%R in
  let lp := (IZR p * ln (IZR p / IZR (p + n)))%R in
  let l_n := (IZR n * ln (IZR n / IZR (p + n)))%R in
  let uc :=
    match log_score_div (tp a) (tp_fp * tp_fn), log_score_div (fp a) (tp_fp * tn_fp),
          log_score_div (fn a) (tp_fn * tn_fn), log_score_div (tn a) (tn_fp * tn_fn) with
    | Some ltp, Some lfp, Some lfn, Some ltn =>
      Some ((l + (ltp + lfp + lfn + ltn)) / (l + lp + l_n))%R
    | _, _, _, _ => None
    end in
  (l, lp, l_n, uc).

(** Line 220: [max(int(0.2 * len(test_labels)), 1)]. *)
Definition top20_threshold (n : nat) : res nat :=
  do k <- int_of_f64 (f_mul f_0_2 (f_of_Z (Z.of_nat n)));
  Ok (Nat.max (Z.to_nat k) 1).

(** p_top20, _metrics.py:220-221: number of minority labels among the first
    rows and the divisor. *)
Definition p_top20 (test : list Z) (min_label : Z) : res (nat * nat) :=
  do thres <- top20_threshold (length test);
  Ok (length (filter (fun t => Z.eqb t min_label) (firstn thres test)), thres).

(** brier, _metrics.py:222, in exact arithmetic. *)
Definition brier (test : list Z) (probs : list Q) : Q :=
  (qsum (map2 (fun t p => (p - inject_Z t) * (p - inject_Z t)) test probs)
   / inject_Z (Z.of_nat (length test)))%Q.
