(** Rounding facts about the binary64 operations used by the models. *)

From Coq Require Import ZArith Reals Lia Lra Psatz Bool.
From Flocq Require Import Core IEEE754.BinarySingleNaN Relative.
From Verif Require Import Np Float64 MetricsModel.

Open Scope R_scope.

Lemma format_bpow e : (-1074 <= e)%Z -> generic_format radix2 fexp64 (bpow radix2 e).
Proof. intro H. apply generic_format_bpow. unfold SpecFloat.fexp, SpecFloat.emin. lia. Qed.

Lemma rnd_small x : Rabs x <= bpow radix2 1000 -> Rabs (rnd64 x) < bpow radix2 1024.
Proof.
  intro H. apply Rle_lt_trans with (bpow radix2 1000); [|apply bpow_lt; lia].
  apply abs_round_le_generic; [apply valid_fexp64|apply valid_rnd_N|apply format_bpow; lia|exact H].
Qed.

Lemma rnd_id x : generic_format radix2 fexp64 x -> rnd64 x = x.
Proof. intro H. apply round_generic; [apply valid_rnd_N|exact H]. Qed.

Lemma format_0 : generic_format radix2 fexp64 0. Proof. apply generic_format_0. Qed.
Lemma format_1 : generic_format radix2 fexp64 1.
Proof. change 1 with (IZR 1). apply format_IZR. cbn. lia. Qed.
Lemma format_m1 : generic_format radix2 fexp64 (-1).
Proof. change (-1) with (IZR (-1)). apply format_IZR. cbn. lia. Qed.

Lemma rnd_ge x a : generic_format radix2 fexp64 a -> a <= x -> a <= rnd64 x.
Proof. intros Ha H. rewrite <- (rnd_id a Ha). apply rnd64_le, H. Qed.
Lemma rnd_le x a : generic_format radix2 fexp64 a -> x <= a -> rnd64 x <= a.
Proof. intros Ha H. rewrite <- (rnd_id a Ha). apply rnd64_le, H. Qed.

Lemma rnd_01 x : 0 <= x <= 1 -> 0 <= rnd64 x <= 1.
Proof. intros [H1 H2]. split; [apply rnd_ge|apply rnd_le]; auto using format_0, format_1. Qed.
Lemma rnd_m11 x : -1 <= x <= 1 -> -1 <= rnd64 x <= 1.
Proof. intros [H1 H2]. split; [apply rnd_ge|apply rnd_le]; auto using format_m1, format_1. Qed.

Lemma big_bpow x k : (k <= 1000)%Z -> Rabs x <= bpow radix2 k -> Rabs x <= bpow radix2 1000.
Proof. intros Hk H. eapply Rle_trans; [exact H|]. apply bpow_le, Hk. Qed.

Lemma f_add_spec x y : is_finite x = true -> is_finite y = true ->
  Rabs (B2R x + B2R y) <= bpow radix2 1000 ->
  is_finite (f_add x y) = true /\ B2R (f_add x y) = rnd64 (B2R x + B2R y).
Proof.
  intros Hx Hy H. pose proof (@Bplus_correct 53 1024 prec64 emax64 mode_NE x y Hx Hy) as C.
  cbn [round_mode] in C. rewrite Rlt_bool_true in C by apply rnd_small, H.
  destruct C as (C1 & C2 & _). auto.
Qed.

Lemma f_sub_spec x y : is_finite x = true -> is_finite y = true ->
  Rabs (B2R x - B2R y) <= bpow radix2 1000 ->
  is_finite (f_sub x y) = true /\ B2R (f_sub x y) = rnd64 (B2R x - B2R y).
Proof.
  intros Hx Hy H. pose proof (@Bminus_correct 53 1024 prec64 emax64 mode_NE x y Hx Hy) as C.
  cbn [round_mode] in C. rewrite Rlt_bool_true in C by apply rnd_small, H.
  destruct C as (C1 & C2 & _). auto.
Qed.

Lemma f_mul_small x y : is_finite x = true -> is_finite y = true ->
  Rabs (B2R x * B2R y) <= bpow radix2 1000 ->
  is_finite (f_mul x y) = true /\ B2R (f_mul x y) = rnd64 (B2R x * B2R y).
Proof.
  intros Hx Hy H. pose proof (@Bmult_correct 53 1024 prec64 emax64 mode_NE x y) as C.
  cbn [round_mode] in C. rewrite Rlt_bool_true in C by apply rnd_small, H.
  destruct C as (C1 & C2 & _). unfold f_mul. rewrite C2, Hx, Hy. auto.
Qed.

Lemma f_div_spec x y : is_finite x = true -> is_finite y = true -> B2R y <> 0 ->
  Rabs (B2R x / B2R y) <= bpow radix2 1000 ->
  is_finite (f_div x y) = true /\ B2R (f_div x y) = rnd64 (B2R x / B2R y).
Proof.
  intros Hx Hy Hy0 H. pose proof (@Bdiv_correct 53 1024 prec64 emax64 mode_NE x y Hy0) as C.
  cbn [round_mode] in C. rewrite Rlt_bool_true in C by apply rnd_small, H.
  destruct C as (C1 & C2 & _). unfold f_div. rewrite C2, Hx. auto.
Qed.

Lemma f_sqrt_spec x : is_finite x = true -> 0 <= B2R x ->
  is_finite (f_sqrt x) = true /\ B2R (f_sqrt x) = rnd64 (sqrt (B2R x)).
Proof.
  intros Hx H. pose proof (@Bsqrt_correct 53 1024 prec64 emax64 mode_NE x) as C.
  cbn [round_mode] in C. destruct C as (C1 & C2 & _). unfold f_sqrt. split; [|exact C1].
  rewrite C2. destruct x as [s| | |[|] m e Hb]; try reflexivity; try discriminate.
  exfalso. unfold B2R in H. cbn in H. assert (F2R (Float radix2 (Z.neg m) e) < 0); [|lra].
  apply F2R_lt_0. reflexivity.
Qed.

Lemma f_of_Z_spec z : (Z.abs z <= 2 ^ 64)%Z ->
  is_finite (f_of_Z z) = true /\ B2R (f_of_Z z) = rnd64 (IZR z).
Proof.
  intro H. unfold f_of_Z.
  pose proof (binary_normalize_correct 53 1024 prec64 emax64 mode_NE z 0 false) as C.
  cbv zeta in C. unfold F2R in C; cbn [Fnum Fexp] in C. rewrite Rmult_1_r in C.
  cbn [round_mode] in C. rewrite Rlt_bool_true in C; [tauto|].
  apply rnd_small. apply (big_bpow _ 64); [lia|].
  rewrite <- abs_IZR. change (bpow radix2 64) with (IZR (2^64)). apply IZR_le, H.
Qed.

Lemma f_one_R : B2R f_one = 1 /\ is_finite f_one = true.
Proof. split; [apply Bone_correct|reflexivity]. Qed.

(** Correctly rounded quotient of two counts. *)
Lemma int_div_spec a b : (0 <= a <= 2 ^ 53)%Z -> (0 < b <= 2 ^ 53)%Z ->
  exists f, int_div a b = Ok f /\ is_finite f = true /\ B2R f = rnd64 (IZR a / IZR b).
Proof.
  intros Ha Hb. unfold int_div. destruct (Z.eqb_spec b 0); [lia|].
  eexists. split; [reflexivity|].
  destruct (f_of_Z_exact a) as [A1 A2]; [lia|]. destruct (f_of_Z_exact b) as [B1 B2]; [lia|].
  assert (Hb1 : 1 <= IZR b) by (apply IZR_le; lia).
  destruct (f_div_spec (f_of_Z a) (f_of_Z b)) as [C1 C2]; rewrite ?A1, ?B1; auto; [lra| |].
  - apply (big_bpow _ 53); [lia|]. assert (0 <= IZR a) by (apply IZR_le; lia).
    assert (IZR a <= bpow radix2 53).
    { change (bpow radix2 53) with (IZR (2^53)). apply IZR_le. lia. }
    rewrite Rabs_pos_eq by (apply Rmult_le_pos; [lra|left; apply Rinv_0_lt_compat; lra]).
    apply Rle_trans with (IZR a); [|lra]. apply Rmult_le_reg_r with (IZR b); [lra|].
    unfold Rdiv. rewrite Rmult_assoc, Rinv_l by lra. nra.
  - rewrite C2, A1, B1. auto.
Qed.

Lemma ratio_01 a b : (0 <= a <= b)%Z -> (0 < b)%Z -> 0 <= IZR a / IZR b <= 1.
Proof.
  intros Ha Hb. assert (0 < IZR b) by (apply IZR_lt; lia).
  assert (0 <= IZR a <= IZR b) by (split; apply IZR_le; lia). split.
  - apply Rmult_le_pos; [lra|left; apply Rinv_0_lt_compat; lra].
  - apply Rmult_le_reg_r with (IZR b); [lra|]. unfold Rdiv. rewrite Rmult_assoc, Rinv_l by lra. lra.
Qed.

(** In binary64 the square root of the square of an integer below 2^32 never
    falls short of the integer, whatever rounding the square suffered. *)
Lemma sqrt_of_square m : (0 <= m < 2 ^ 32)%Z -> IZR m <= rnd64 (sqrt (rnd64 (IZR m * IZR m))).
Proof.
  intro Hm. destruct (Z.eq_dec m 0) as [->|Hm0].
  { apply rnd_ge; [apply format_0|]. apply sqrt_pos. }
  assert (Hm1 : 1 <= IZR m) by (apply IZR_le; lia).
  assert (Fm : generic_format radix2 fexp64 (IZR m)) by (apply format_IZR; lia).
  assert (Hmlt : IZR m < bpow radix2 32).
  { change (bpow radix2 32) with (IZR (2^32)). apply IZR_lt. lia. }
  destruct (Req_dec (IZR m) (bpow radix2 (mag radix2 (IZR m) - 1))) as [Ep|Ep].
  - (* a power of two: the square is exact *)
    rewrite (rnd_id (IZR m * IZR m)).
    + rewrite sqrt_square by lra. rewrite rnd_id by exact Fm. lra.
    + rewrite Ep, <- bpow_plus. apply format_bpow.
      assert (0 <= mag radix2 (IZR m) - 1)%Z; [|lia].
      assert (0 < mag radix2 (IZR m))%Z; [|lia].
      apply mag_gt_bpow. cbn. rewrite Rabs_pos_eq; lra.
  - (* otherwise compare with the midpoint below m *)
    set (e := mag_val _ _ (mag radix2 (IZR m))) in *.
    assert (Hb : bpow radix2 (e - 1) <= IZR m < bpow radix2 e).
    { assert (Hx : IZR m <> 0) by lra. pose proof (bpow_mag_le radix2 (IZR m) Hx) as H1.
      pose proof (bpow_mag_gt radix2 (IZR m)) as H2. fold e in H1, H2.
      rewrite Rabs_pos_eq in H1 by lra. rewrite Rabs_pos_eq in H2 by lra. auto. }
    assert (He1 : (1 <= e)%Z).
    { destruct (Z_le_gt_dec 1 e) as [|Hgt]; [assumption|].
      assert (bpow radix2 e <= bpow radix2 0) by (apply bpow_le; lia). cbn in H. lra. }
    assert (He32 : (e <= 32)%Z).
    { destruct (Z_le_gt_dec e 32) as [|Hgt]; [assumption|].
      assert (bpow radix2 32 <= bpow radix2 (e - 1)) by (apply bpow_le; lia). lra. }
    assert (Hulp : ulp radix2 fexp64 (IZR m) = bpow radix2 (e - 53)).
    { rewrite ulp_neq_0 by lra. unfold cexp. fold e. f_equal.
      unfold SpecFloat.fexp, SpecFloat.emin. lia. }
    assert (Hpred : pred radix2 fexp64 (IZR m) = IZR m - bpow radix2 (e - 53)).
    { rewrite pred_eq_pos by lra. unfold pred_pos. fold e.
      destruct (Req_bool_spec (IZR m) (bpow radix2 (e - 1))); [contradiction|].
      rewrite Hulp. reflexivity. }
    apply round_N_ge_midp; [apply valid_fexp64|exact Fm|].
    rewrite Hpred. set (g := bpow radix2 (e - 53)) in *.
    assert (Hg0 : 0 < g) by apply bpow_gt_0.
    assert (Hge : bpow radix2 e = g * bpow radix2 53) by (unfold g; rewrite <- bpow_plus; f_equal; lia).
    assert (Hg21 : g <= bpow radix2 (-21)) by (apply bpow_le; lia).
    assert (Hrel := relative_error_N_FLT_ex radix2 (-1074) 53 ltac:(lia) (fun x => negb (Z.even x)) (IZR m * IZR m)).
    destruct Hrel as [eps [Heps Hr]].
    { apply Rle_trans with 1.
      - change 1 with (bpow radix2 0). apply bpow_le. lia.
      - rewrite Rabs_pos_eq by nra. nra. }
    change (round radix2 (FLT_exp (-1074) 53) ZnearestE (IZR m * IZR m)) with (rnd64 (IZR m * IZR m)) in Hr.
    rewrite Hr.
    assert (Hu : / 2 * bpow radix2 (-53 + 1) = bpow radix2 (-53)).
    { cbn. lra. }
    assert (Heps' : Rabs eps <= bpow radix2 (-53)) by (rewrite <- Hu; exact Heps).
    clear Heps Hu. apply Rabs_le_inv in Heps'.
    set (u := bpow radix2 (-53)) in *.
    assert (Huv : u * bpow radix2 53 = 1) by (unfold u; rewrite <- bpow_plus; reflexivity).
    assert (Hu0 : 0 < u) by apply bpow_gt_0.
    (* m <= 2^e - 1, so g - m*u >= u *)
    assert (Hme : IZR m <= bpow radix2 e - 1).
    { destruct Hb as [_ Hb]. assert (Ee : bpow radix2 e = IZR (2 ^ e)).
      { rewrite <- IZR_Zpower by lia. reflexivity. }
      rewrite Ee in *. apply lt_IZR in Hb. rewrite <- minus_IZR. apply IZR_le. lia. }
    assert (Hgm : u <= g - IZR m * u).
    { assert (g = bpow radix2 e * u) by (rewrite Hge, Rmult_assoc, (Rmult_comm _ u), Huv; ring).
      nra. }
    assert (Hmg : g * bpow radix2 52 <= IZR m).
    { unfold g. rewrite <- bpow_plus. replace (e - 53 + 52)%Z with (e - 1)%Z by lia. apply Hb. }
    assert (Hg1 : g < 1).
    { apply Rle_lt_trans with (bpow radix2 (-21)); [exact Hg21|]. change 1 with (bpow radix2 0).
      apply bpow_lt. lia. }
    assert (Hmu : g / 2 <= IZR m * u).
    { assert (u * bpow radix2 52 = / 2) by (unfold u; rewrite <- bpow_plus; reflexivity). nra. }
    assert (Hpos : 0 <= IZR m - g / 2) by lra.
    match goal with |- ?x < _ => replace x with (IZR m - g / 2) by lra end.
    rewrite <- (sqrt_square (IZR m - g / 2)) by exact Hpos.
    apply sqrt_lt_1_alt. split; [nra|].
    assert (IZR m * IZR m * (- u) <= IZR m * IZR m * eps) by (apply Rmult_le_compat_l; nra).
    assert (IZR m * u <= IZR m * (g - IZR m * u)) by (apply Rmult_le_compat_l; lra).
    nra.
Qed.

(** ... and never exceeds it either. *)
Lemma sqrt_of_square_le m : (0 <= m < 2 ^ 32)%Z -> rnd64 (sqrt (rnd64 (IZR m * IZR m))) <= IZR m.
Proof.
  intro Hm. destruct (Z.eq_dec m 0) as [->|Hm0].
  { rewrite Rmult_0_l, (rnd_id 0 format_0), sqrt_0, (rnd_id 0 format_0). lra. }
  assert (Hm1 : 1 <= IZR m) by (apply IZR_le; lia).
  assert (Fm : generic_format radix2 fexp64 (IZR m)) by (apply format_IZR; lia).
  assert (Hmlt : IZR m < bpow radix2 32).
  { change (bpow radix2 32) with (IZR (2^32)). apply IZR_lt. lia. }
  set (e := mag_val _ _ (mag radix2 (IZR m))) in *.
  assert (Hb : bpow radix2 (e - 1) <= IZR m < bpow radix2 e).
  { assert (Hx : IZR m <> 0) by lra. pose proof (bpow_mag_le radix2 (IZR m) Hx) as H1.
    pose proof (bpow_mag_gt radix2 (IZR m)) as H2. fold e in H1, H2.
    rewrite Rabs_pos_eq in H1 by lra. rewrite Rabs_pos_eq in H2 by lra. auto. }
  assert (He1 : (1 <= e)%Z).
  { destruct (Z_le_gt_dec 1 e) as [|Hgt]; [assumption|].
    assert (bpow radix2 e <= bpow radix2 0) by (apply bpow_le; lia). cbn in H. lra. }
  assert (He32 : (e <= 32)%Z).
  { destruct (Z_le_gt_dec e 32) as [|Hgt]; [assumption|].
    assert (bpow radix2 32 <= bpow radix2 (e - 1)) by (apply bpow_le; lia). lra. }
  assert (Hulp : ulp radix2 fexp64 (IZR m) = bpow radix2 (e - 53)).
  { rewrite ulp_neq_0 by lra. unfold cexp. fold e. f_equal.
    unfold SpecFloat.fexp, SpecFloat.emin. lia. }
  assert (Hsucc : succ radix2 fexp64 (IZR m) = IZR m + bpow radix2 (e - 53)).
  { rewrite succ_eq_pos by lra. rewrite Hulp. reflexivity. }
  apply round_N_le_midp; [apply valid_fexp64|exact Fm|].
  rewrite Hsucc. set (g := bpow radix2 (e - 53)) in *.
  assert (Hg0 : 0 < g) by apply bpow_gt_0.
  assert (Hge : bpow radix2 e = g * bpow radix2 53) by (unfold g; rewrite <- bpow_plus; f_equal; lia).
  assert (Hrel := relative_error_N_FLT_ex radix2 (-1074) 53 ltac:(lia) (fun x => negb (Z.even x)) (IZR m * IZR m)).
  destruct Hrel as [eps [Heps Hr]].
  { apply Rle_trans with 1.
    - change 1 with (bpow radix2 0). apply bpow_le. lia.
    - rewrite Rabs_pos_eq by nra. nra. }
  change (round radix2 (FLT_exp (-1074) 53) ZnearestE (IZR m * IZR m)) with (rnd64 (IZR m * IZR m)) in Hr.
  rewrite Hr.
  assert (Hu : / 2 * bpow radix2 (-53 + 1) = bpow radix2 (-53)) by (cbn; lra).
  assert (Heps' : Rabs eps <= bpow radix2 (-53)) by (rewrite <- Hu; exact Heps).
  clear Heps Hu. apply Rabs_le_inv in Heps'.
  set (u := bpow radix2 (-53)) in *.
  assert (Huv : u * bpow radix2 53 = 1) by (unfold u; rewrite <- bpow_plus; reflexivity).
  assert (Hu0 : 0 < u) by apply bpow_gt_0.
  assert (Hgm : IZR m * u <= g).
  { assert (g = bpow radix2 e * u) by (rewrite Hge, Rmult_assoc, (Rmult_comm _ u), Huv; ring). nra. }
  match goal with |- _ < ?x => replace x with (IZR m + g / 2) by lra end.
  rewrite <- (sqrt_square (IZR m + g / 2)) by lra.
  apply sqrt_lt_1_alt.
  assert (Hu1 : u < 1).
  { change 1 with (bpow radix2 0). apply bpow_lt. lia. }
  assert (IZR m * IZR m * eps <= IZR m * IZR m * u) by (apply Rmult_le_compat_l; nra).
  assert (IZR m * IZR m * (- u) <= IZR m * IZR m * eps) by (apply Rmult_le_compat_l; nra).
  assert (IZR m * (IZR m * u) <= IZR m * g) by (apply Rmult_le_compat_l; lra).
  split; nra.
Qed.
