(** The number of samples the multiclass proportions lead to. *)

From Coq Require Import List ZArith Reals Lia Lra Psatz.
From Flocq Require Import Core.Core IEEE754.BinarySingleNaN Relative.
From Verif Require Import Np Float64 FloatFacts SamplerModel SamplerFacts MultiModel.
Open Scope R_scope.

Lemma rnd_rel x : bpow radix2 (-1000) <= Rabs x ->
  Rabs (rnd64 x - x) <= bpow radix2 (-53) * Rabs x.
Proof.
  intros H. unfold rnd64.
  pose proof (relative_error_N_FLT radix2 (-1074) 53 ltac:(reflexivity) (fun n => negb (Z.even n)) x) as R.
  assert (Hx : bpow radix2 (-1074 + 53 - 1) <= Rabs x).
  { eapply Rle_trans; [|exact H]. apply bpow_le. lia. }
  specialize (R Hx).
  replace (/ 2 * bpow radix2 (- (53) + 1)) with (bpow radix2 (-53)) in R.
  - exact R.
  - change (- (53) + 1)%Z with (1 + -53)%Z. rewrite bpow_plus. change (bpow radix2 1) with 2. lra.
Qed.

Lemma bpow_IZR e : (0 <= e)%Z -> bpow radix2 e = IZR (2 ^ e).
Proof. intros H. rewrite <- (IZR_Zpower radix2 e H). reflexivity. Qed.

Section RATIO.
Variables (num den act : Z).
Hypothesis Hnum : (0 < num)%Z.
Hypothesis Hden : (num <= den <= 2 ^ 50)%Z.
Hypothesis Hact : (0 < act <= den)%Z.

Let u := bpow radix2 (-53).
Lemma u_val : u = / IZR (2 ^ 53).
Proof. unfold u. change (-53)%Z with (- (53))%Z. rewrite bpow_opp, bpow_IZR by lia. reflexivity. Qed.

Lemma small_ge x y : 1 <= x -> 0 < y -> y <= IZR (2 ^ 51) -> bpow radix2 (-1000) <= x / y.
Proof.
  intros Hx Hy Hy'. apply Rle_trans with (bpow radix2 (-51)); [apply bpow_le; lia|].
  change (-51)%Z with (- (51))%Z. rewrite bpow_opp, bpow_IZR by lia.
  unfold Rdiv. rewrite <- (Rmult_1_l (/ IZR (2 ^ 51))).
  apply Rmult_le_compat; [lra|left; apply Rinv_0_lt_compat, IZR_lt; reflexivity|lra|].
  apply Rinv_le; assumption.
Qed.

(** The rounded product is within these bounds of the exact one. *)
Lemma ratio_bounds :
  let v := rnd64 (IZR act * rnd64 (IZR num / IZR den)) in
  let e := IZR act * IZR num / IZR den in
  e * (1 - 2 * u) <= v <= e * (1 + 3 * u).
Proof.
  cbv zeta. pose proof u_val as Hu.
  assert (N1 : 1 <= IZR num) by (apply IZR_le; lia).
  assert (D1 : IZR num <= IZR den) by (apply IZR_le; lia).
  assert (D2 : IZR den <= IZR (2 ^ 50)) by (apply IZR_le; lia).
  assert (A1 : 1 <= IZR act) by (apply IZR_le; lia).
  assert (A2 : IZR act <= IZR den) by (apply IZR_le; lia).
  assert (U : 0 < u /\ u <= / 100).
  { rewrite Hu. split; [apply Rinv_0_lt_compat, IZR_lt; reflexivity|].
    apply Rinv_le; [lra|]. apply IZR_le. lia. }
  set (x := IZR num / IZR den).
  assert (Hx : bpow radix2 (-1000) <= x).
  { apply small_ge; lra. }
  assert (Hx0 : 0 < x) by (eapply Rlt_le_trans; [apply bpow_gt_0|exact Hx]).
  pose proof (rnd_rel x) as R1. rewrite (Rabs_pos_eq x) in R1 by lra. specialize (R1 Hx).
  apply Rabs_le_inv in R1. fold u in R1. set (p := rnd64 x) in *.
  assert (P : x * (1 - u) <= p <= x * (1 + u)) by (split; lra).
  set (w := IZR act * p).
  assert (W : IZR act * x * (1 - u) <= w <= IZR act * x * (1 + u)).
  { unfold w. split; rewrite Rmult_assoc; apply Rmult_le_compat_l; lra. }
  assert (Hw : bpow radix2 (-1000) <= w).
  { eapply Rle_trans; [|apply W]. apply Rle_trans with (x * (1 - u)).
    - replace (x * (1 - u)) with ((IZR num * (1 - u)) / IZR den) by (unfold x; field; lra).
      apply Rle_trans with (bpow radix2 (-51)); [apply bpow_le; lia|].
      change (-51)%Z with (- (51))%Z. rewrite bpow_opp, bpow_IZR by lia.
      apply Rmult_le_reg_r with (IZR den); [lra|]. unfold Rdiv. rewrite (Rmult_assoc _ _ (IZR den)), Rinv_l, Rmult_1_r by lra.
      apply Rle_trans with (/ IZR (2 ^ 51) * IZR (2 ^ 50)).
      + apply Rmult_le_compat_l; [left; apply Rinv_0_lt_compat, IZR_lt; reflexivity|exact D2].
      + replace (IZR (2 ^ 51)) with (2 * IZR (2 ^ 50)) by (rewrite <- mult_IZR; f_equal; reflexivity).
        assert (0 < IZR (2 ^ 50)) by (apply IZR_lt; reflexivity).
        replace (/ (2 * IZR (2 ^ 50)) * IZR (2 ^ 50)) with (/ 2) by (field; lra). nra.
    - assert (0 <= x * (1 - u)) by nra. nra. }
  pose proof (rnd_rel w) as R2.
  assert (Hw0 : 0 < w) by (eapply Rlt_le_trans; [apply bpow_gt_0|exact Hw]).
  rewrite (Rabs_pos_eq w) in R2 by lra. specialize (R2 Hw). apply Rabs_le_inv in R2. fold u in R2.
  assert (E : IZR act * IZR num / IZR den = IZR act * x) by (unfold x; field; lra). rewrite E.
  assert (0 < IZR act * x) by nra.
  set (e := IZR act * x) in *. set (v := rnd64 w) in *. split; nra.
Qed.

Lemma ratio_trunc_upper :
  (Ztrunc (rnd64 (IZR act * rnd64 (IZR num / IZR den))) <= num)%Z.
Proof.
  destruct ratio_bounds as [_ B]. set (v := rnd64 _) in *.
  assert (N1 : 1 <= IZR num) by (apply IZR_le; lia).
  assert (N2 : IZR num <= IZR (2 ^ 50)) by (apply IZR_le; lia).
  assert (D1 : IZR num <= IZR den) by (apply IZR_le; lia).
  assert (A2 : IZR act <= IZR den) by (apply IZR_le; lia).
  assert (0 < IZR act) by (apply IZR_lt; lia).
  assert (E : IZR act * IZR num / IZR den <= IZR num).
  { apply Rmult_le_reg_r with (IZR den); [lra|]. unfold Rdiv. rewrite Rmult_assoc, Rinv_l, Rmult_1_r by lra. nra. }
  assert (U : 3 * u * IZR num < 1).
  { rewrite u_val. replace (IZR (2 ^ 53)) with (8 * IZR (2 ^ 50)) by (rewrite <- mult_IZR; f_equal; reflexivity).
    set (t := IZR (2 ^ 50)) in *. assert (0 < t) by lra.
    apply Rmult_lt_reg_r with (8 * t); [lra|].
    replace (3 * / (8 * t) * IZR num * (8 * t)) with (3 * IZR num) by (field; lra). lra. }
  assert (u_pos : 0 < u) by apply bpow_gt_0.
  assert (V : v < IZR (num + 1)) by (rewrite plus_IZR; nra).
  destruct (Rlt_or_le v 0) as [V0|V0].
  - rewrite Ztrunc_ceil by lra. apply Zceil_glb. lra.
  - rewrite Ztrunc_floor by exact V0. pose proof (Zfloor_lb v).
    assert (IZR (Zfloor v) < IZR (num + 1)) by lra. apply lt_IZR in H1. lia.
Qed.

(** [def] rows are missing from the rows counted by [den]. *)
Lemma ratio_trunc_lower : ((den - act) * num * 2 ^ 52 + num * den < 2 ^ 52 * den)%Z ->
  (num - 1 <= Ztrunc (rnd64 (IZR act * rnd64 (IZR num / IZR den))))%Z.
Proof.
  intros H. destruct ratio_bounds as [B _]. set (v := rnd64 _) in *.
  assert (N1 : 1 <= IZR num) by (apply IZR_le; lia).
  assert (D1 : IZR num <= IZR den) by (apply IZR_le; lia).
  assert (A2 : IZR act <= IZR den) by (apply IZR_le; lia).
  assert (0 < IZR act) by (apply IZR_lt; lia).
  assert (u_pos : 0 < u) by apply bpow_gt_0.
  apply IZR_lt in H. rewrite plus_IZR, !mult_IZR, minus_IZR in H.
  assert (Hu : 2 * u = / IZR (2 ^ 52)).
  { rewrite u_val. replace (IZR (2 ^ 53)) with (2 * IZR (2 ^ 52)) by (rewrite <- mult_IZR; f_equal; reflexivity).
    field. apply not_0_IZR. lia. }
  set (e := IZR act * IZR num / IZR den) in *.
  assert (He : e * IZR den = IZR act * IZR num) by (unfold e; field; lra).
  assert (T : 0 < IZR (2 ^ 52)) by (apply IZR_lt; reflexivity).
  set (t := IZR (2 ^ 52)) in *.
  assert (Hen : e <= IZR num).
  { apply Rmult_le_reg_r with (IZR den); [lra|]. rewrite He. nra. }
  assert (V : IZR num - 1 < v).
  { apply Rlt_le_trans with (e * (1 - 2 * u)); [|exact B]. rewrite Hu.
    assert (K : (IZR num - 1) * (t * IZR den) < e * (t - 1) * IZR den).
    { replace (e * (t - 1) * IZR den) with ((t - 1) * (e * IZR den)) by ring. rewrite He. nra. }
    apply Rmult_lt_reg_r with (t * IZR den); [nra|].
    replace (e * (1 - / t) * (t * IZR den)) with (e * (t - 1) * IZR den) by (field; lra). exact K. }
  assert (0 <= v) by lra. rewrite Ztrunc_floor by assumption.
  assert (IZR (num - 1) <= v) by (rewrite minus_IZR; lra).
  apply Zfloor_lub. assumption.
Qed.

End RATIO.

(** Size of the i-th class after the successive strategy (i >= 2). *)
Lemma succ_count n0 n i def : (2 <= i)%nat -> (0 < n <= n0)%nat -> (def <= i - 2)%nat ->
  (Z.of_nat i * Z.of_nat n0 <= 2 ^ 50)%Z ->
  exists k, det_n_to_sample (StFloat (proportion_1_vs_many_succ n0 n i))
      (Z.of_nat (i * n0 - def)) (Z.of_nat n) = Ok (Z.of_nat k) /\
    (n0 - n - 1 <= k <= n0 - n)%nat.
Proof.
  intros Hi Hn Hd Hb.
  set (num := (Z.of_nat n0 - Z.of_nat n)%Z). set (den := (Z.of_nat i * Z.of_nat n0 - Z.of_nat n)%Z).
  set (d := Z.of_nat def).
  assert (Hdef : (def <= i * n0)%nat) by nia.
  assert (HA : (Z.of_nat (i * n0 - def) - Z.of_nat n)%Z = (den - d)%Z) by (unfold den, d; nia).
  assert (Hden : ((Z.of_nat i - 1) * Z.of_nat n0 <= den)%Z) by (unfold den; nia).
  assert (Hden2 : (den <= 2 ^ 50)%Z) by (unfold den; nia).
  assert (Hden3 : (0 < den)%Z) by nia.
  assert (Hnum : (0 <= num < Z.of_nat n0)%Z) by (unfold num; lia).
  assert (Hact : (0 < den - d)%Z) by (unfold d; nia).
  destruct (f_of_Z_exact num) as [N1 N2]; [nia|].
  destruct (f_of_Z_exact den) as [D1 D2]; [nia|].
  assert (Q0 : 0 <= IZR num / IZR den <= 1).
  { assert (0 < IZR den) by (apply IZR_lt; lia). assert (0 <= IZR num) by (apply IZR_le; lia).
    assert (IZR num <= IZR den) by (apply IZR_le; nia).
    split; [apply Rmult_le_pos; [assumption|left; now apply Rinv_0_lt_compat]|].
    apply Rmult_le_reg_r with (IZR den); [lra|]. unfold Rdiv. rewrite Rmult_assoc, Rinv_l, Rmult_1_r by lra. lra. }
  destruct (f_div_spec (f_of_Z num) (f_of_Z den) N2 D2) as [F1 F2].
  { rewrite D1. apply not_0_IZR. lia. }
  { rewrite N1, D1, Rabs_pos_eq by lra. apply Rle_trans with 1; [lra|].
    change 1 with (bpow radix2 0). apply bpow_le. lia. }
  rewrite N1, D1 in F2.
  change (proportion_1_vs_many_succ n0 n i) with (f_div (f_of_Z num) (f_of_Z den)).
  destruct (det_float_spec (f_div (f_of_Z num) (f_of_Z den)) (Z.of_nat (i * n0 - def)) (Z.of_nat n)) as [[_ E]|[E _]].
  - rewrite HA. unfold d. nia.
  - exact F1.
  - rewrite E, HA, F2. destruct (Z.eq_dec num 0) as [Z0|Z0].
    + exists O. split; [|unfold num in Z0; lia].
      rewrite Z0. unfold Rdiv. rewrite Rmult_0_l, (rnd_id 0 format_0), Rmult_0_r, (rnd_id 0 format_0).
      change 0 with (IZR 0). rewrite Ztrunc_IZR. reflexivity.
    + pose proof (ratio_trunc_upper num den (den - d) ltac:(lia) ltac:(nia) ltac:(unfold d; lia)) as U.
      pose proof (ratio_trunc_lower num den (den - d) ltac:(lia) ltac:(nia) ltac:(unfold d; lia)) as L.
      assert (HL : ((den - (den - d)) * num * 2 ^ 52 + num * den < 2 ^ 52 * den)%Z).
      { replace (den - (den - d))%Z with d by ring.
        assert (d <= Z.of_nat i - 2)%Z by (unfold d; lia).
        set (I := Z.of_nat i) in *. set (N := Z.of_nat n0) in *.
        set (T := (2 ^ 52)%Z). assert (HT : (4 * (I * N) <= T)%Z) by (unfold T; lia).
        assert ((I - 1) * num <= den)%Z.
        { apply Z.le_trans with ((I - 1) * N)%Z; [apply Z.mul_le_mono_nonneg_l; lia|exact Hden]. }
        assert (d * num * T <= (I - 2) * num * T)%Z.
        { apply Z.mul_le_mono_nonneg_r; [unfold T; lia|]. apply Z.mul_le_mono_nonneg_r; lia. }
        assert (num * den < T * num)%Z.
        { rewrite Z.mul_comm. apply Z.mul_lt_mono_pos_r; [lia|unfold T; lia]. }
        assert ((I - 2) * num * T + T * num = (I - 1) * num * T)%Z by ring.
        assert (T * ((I - 1) * num) <= T * den)%Z by (apply Z.mul_le_mono_nonneg_l; lia). lia. }
      specialize (L HL). clear E. set (w := Ztrunc (rnd64 (IZR (den - d) * rnd64 (IZR num / IZR den)))) in *.
      assert (W : (0 <= w)%Z) by lia. clearbody w.
      exists (Z.to_nat w). split; [now rewrite Z2Nat.id, Z.max_r by exact W|].
      unfold num in *. lia.
  - exfalso. rewrite HA, F2 in E.
    assert (K : Rabs (rnd64 (IZR (den - d) * rnd64 (IZR num / IZR den))) <= IZR (2 ^ 50)).
    { assert (P := rnd_01 _ Q0). assert (0 <= IZR (den - d) <= IZR (2 ^ 50)).
      { split; apply IZR_le; unfold d; lia. }
      assert (0 <= rnd64 (IZR (den - d) * rnd64 (IZR num / IZR den))) by (apply rnd_ge; [apply format_0|nra]).
      rewrite Rabs_pos_eq by assumption. apply rnd_le; [apply format_IZR; lia|nra]. }
    pose proof (bpow_1024_large (2 ^ 50) ltac:(lia)) as G.
    rewrite Rabs_pos_eq in G by (apply IZR_le; lia). lra.
Qed.

(** A proportion of the form x/x is 1, or nan when x is 0. *)
Lemma same_ratio z : (Z.abs z <= 2 ^ 53)%Z -> z <> 0%Z ->
  is_finite (f_div (f_of_Z z) (f_of_Z z)) = true /\ B2R (f_div (f_of_Z z) (f_of_Z z)) = 1.
Proof.
  intros Hz H0. destruct (f_of_Z_exact z Hz) as [N1 N2].
  assert (IZR z <> 0) by (apply not_0_IZR; exact H0).
  destruct (f_div_spec (f_of_Z z) (f_of_Z z) N2 N2) as [F1 F2].
  { now rewrite N1. }
  { rewrite N1. replace (IZR z / IZR z) with 1 by (field; assumption). rewrite Rabs_pos_eq by lra.
    change 1 with (bpow radix2 0). apply bpow_le. lia. }
  split; [exact F1|]. rewrite F2, N1. replace (IZR z / IZR z) with 1 by (field; assumption).
  apply rnd_id, format_1.
Qed.

Lemma det_same_ratio z a b : (Z.abs z <= 2 ^ 53)%Z -> z <> 0%Z -> (Z.abs (a - b) <= 2 ^ 53)%Z ->
  det_n_to_sample (StFloat (f_div (f_of_Z z) (f_of_Z z))) a b = Ok (Z.max 0 (a - b)).
Proof.
  intros Hz H0 Hab. destruct (same_ratio z Hz H0) as [F1 F2].
  destruct (det_float_spec _ a b Hab F1) as [[_ E]|[E _]]; rewrite F2 in E.
  - rewrite E, Rmult_1_r, rnd64_IZR, Ztrunc_IZR by assumption. reflexivity.
  - exfalso. rewrite Rmult_1_r, rnd64_IZR in E by assumption. pose proof (bpow_1024_large _ Hab). lra.
Qed.

Lemma nan_ratio : f_div (f_of_Z 0) (f_of_Z 0) = B754_nan.
Proof. reflexivity. Qed.

Lemma det_nan a b : det_n_to_sample (StFloat B754_nan) a b = Err ValueError.
Proof.
  unfold det_n_to_sample, f_mul. destruct (f_of_Z (a - b)); reflexivity.
Qed.
