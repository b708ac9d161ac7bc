(** Python floats: IEEE-754 binary64 with round-to-nearest-even, as formalised
    by Flocq (computable operations on sign/mantissa/exponent triples). *)

From Coq Require Import ZArith Reals Lia Lra Psatz.
From Flocq Require Import Core IEEE754.BinarySingleNaN.
From Verif Require Import Np.

Definition prec64 : Prec_gt_0 53 := eq_refl.
Definition emax64 : Prec_lt_emax 53 1024 := eq_refl.

Definition f64 := binary_float 53 1024.

(** Conversion of a Python/numpy integer to a double. *)
Definition f_of_Z (z : Z) : f64 := binary_normalize 53 1024 prec64 emax64 mode_NE z 0 false.
Definition f_mul (x y : f64) : f64 := @Bmult 53 1024 prec64 emax64 mode_NE x y.
Definition f_div (x y : f64) : f64 := @Bdiv 53 1024 prec64 emax64 mode_NE x y.
Definition f_one : f64 := @Bone 53 1024 prec64 emax64.

(** [int(x)]: truncation toward zero; ValueError on NaN, OverflowError on an infinity. *)
Definition int_of_f64 (x : f64) : res Z :=
  match x with
  | B754_nan => Err ValueError
  | B754_infinity _ => Err OverflowError
  | _ => Ok (Btrunc x)
  end.

(** Proofs *)

Open Scope R_scope.

Notation fexp64 := (SpecFloat.fexp 53 1024).
Notation rnd64 := (round radix2 fexp64 ZnearestE).

Global Instance valid_fexp64 : Valid_exp fexp64.
Proof. apply (fexp_correct 53 1024), prec64. Qed.
Global Instance mono_fexp64 : Monotone_exp fexp64.
Proof. apply (fexp_monotone 53 1024). Qed.

Lemma fexp64_FLT e : fexp64 e = FLT_exp (-1074) 53 e.
Proof. reflexivity. Qed.

Lemma format_IZR z : (Z.abs z <= 2 ^ 53)%Z -> generic_format radix2 fexp64 (IZR z).
Proof.
  intros H. apply generic_format_FLT with (emin := (-1074)%Z) (prec := 53%Z).
  destruct (Z.eq_dec (Z.abs z) (2^53)) as [E|E].
  - exists (Float radix2 (Z.sgn z * 2^52) 1).
    + unfold F2R; cbn [Fnum Fexp]. rewrite mult_IZR.
      change (bpow radix2 1) with 2. change (IZR (2^52)) with (IZR 4503599627370496).
      assert (z = Z.sgn z * 2^53)%Z as Hz by (rewrite <- E, Z.mul_comm; symmetry; apply Z.abs_sgn).
      rewrite Hz at 1. rewrite mult_IZR. change (IZR (2^53)) with (IZR 9007199254740992). lra.
    + cbn [Fnum]. destruct (Z.sgn_spec z) as [[_ ->]|[[_ ->]|[_ ->]]]; cbn; lia.
    + cbn; lia.
  - exists (Float radix2 z 0).
    + unfold F2R; cbn. lra.
    + cbn [Fnum]. change (Zpower radix2 53) with (2^53)%Z. lia.
    + cbn; lia.
Qed.

Lemma bpow_1024_large z : (Z.abs z <= 2 ^ 53)%Z -> Rabs (IZR z) < bpow radix2 1024.
Proof.
  intros H. rewrite <- abs_IZR. apply Rle_lt_trans with (bpow radix2 53).
  - change (bpow radix2 53) with (IZR (2^53)). now apply IZR_le.
  - apply bpow_lt. lia.
Qed.

Lemma f_of_Z_exact z : (Z.abs z <= 2 ^ 53)%Z -> B2R (f_of_Z z) = IZR z /\ is_finite (f_of_Z z) = true.
Proof.
  intros H. unfold f_of_Z.
  pose proof (binary_normalize_correct 53 1024 prec64 emax64 mode_NE z 0 false) as C.
  cbv zeta in C. unfold F2R in C; cbn [Fnum Fexp] in C. rewrite Rmult_1_r in C.
  cbn [round_mode] in C. rewrite round_generic in C; [|apply valid_rnd_N|now apply format_IZR].
  rewrite Rlt_bool_true in C by now apply bpow_1024_large. tauto.
Qed.

Lemma Btrunc_Ztrunc (x : f64) : Btrunc x = Ztrunc (B2R x).
Proof.
  apply eq_IZR. rewrite Btrunc_correct by apply emax64. unfold round, scaled_mantissa, F2R. cbn. rewrite ?Rmult_1_r. reflexivity.
Qed.

Lemma int_of_f64_finite x : is_finite x = true -> int_of_f64 x = Ok (Ztrunc (B2R x)).
Proof. intros H. rewrite <- Btrunc_Ztrunc. destruct x; cbn in *; try discriminate; reflexivity. Qed.

Lemma rnd64_le x y : x <= y -> rnd64 x <= rnd64 y.
Proof. apply round_le; [apply valid_fexp64 | apply valid_rnd_N]. Qed.

(** A finite product is the rounded exact product; an overflowing product is an infinity. *)
Lemma f_mul_spec x y : is_finite x = true -> is_finite y = true ->
  (is_finite (f_mul x y) = true /\ B2R (f_mul x y) = rnd64 (B2R x * B2R y)
     /\ Rabs (rnd64 (B2R x * B2R y)) < bpow radix2 1024)
  \/ (exists s, f_mul x y = B754_infinity s /\ bpow radix2 1024 <= Rabs (rnd64 (B2R x * B2R y))
        /\ s = xorb (Bsign x) (Bsign y)).
Proof.
  intros Hx Hy. pose proof (@Bmult_correct 53 1024 prec64 emax64 mode_NE x y) as C.
  cbn [round_mode] in C. destruct (Rlt_bool_spec (Rabs (rnd64 (B2R x * B2R y))) (bpow radix2 1024)).
  - left. destruct C as (C1 & C2 & _). unfold f_mul. rewrite C1, C2, Hx, Hy. auto.
  - right. unfold f_mul. cbn [binary_overflow] in C.
    destruct (Bmult mode_NE x y) as [|s| |]; cbn in C; try discriminate.
    exists s. split; [reflexivity|]. split; [assumption|]. unfold binary_overflow in C. cbn in C. congruence.
Qed.
