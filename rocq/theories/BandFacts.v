(** Proofs about the densities of KernelADASYN and PDFOS. *)

From Coq Require Import List Reals Bool Arith Lia Lra.
From Verif Require Import Np ScoreModel ScoreFacts BandModel SpecBand.
Import ListNotations.
Open Scope nat_scope.

(** ** KernelADASYN *)

Lemma tot_map2_minus x z : tot (map sqr (map2 Rminus x z)) = tot (map2 (fun a b => sqr (a - b)) x z).
Proof. f_equal. revert z. induction x as [|a x IH]; intros [|b z]; cbn; try reflexivity. now rewrite IH. Qed.

Lemma p_x_is h X r x : (h <> 0)%R ->
  p_x h X r x = (1 / (INR (length X) * h) * (1 / (sqrt (2 * PI) * h) ^ length (hd [] X)) * mixture_at h X r x)%R.
Proof.
  intros Hh. unfold p_x. cbv zeta. f_equal. unfold mixture_at, inner. f_equal. revert r.
  induction X as [|z X IH]; intros [|w r]; cbn [map map2]; try reflexivity. rewrite IH. f_equal. f_equal. f_equal.
  rewrite len2_sqr, tot_map2_minus. field. exact Hh.
Qed.

Lemma mixture_pos v X r x : weights_ok X r -> (0 < mixture_at v X r x)%R.
Proof.
  unfold weights_ok, mixture_at. revert r. induction X as [|z X IH]; intros [|w r] (L & F & (w0 & Hw & P)); try discriminate; [destruct Hw|].
  cbn [map2]. rewrite tot_cons. inversion F as [|? ? Hw0 F']; subst. injection L as L.
  assert (N : forall X r, Forall (fun w => 0 <= w)%R r -> (0 <= tot (map2 (fun w z => (w * exp (- tot (map2 (fun a b => sqr (a - b)) x z) / (2 * v)))%R) r X))%R).
  { clear. intros X r. revert X. induction r as [|w r IH]; intros [|z X] F; cbn [map2]; rewrite ?tot_nil, ?tot_cons; try lra.
    inversion F; subst. pose proof (exp_pos (- tot (map2 (fun a b => sqr (a - b)) x z) / (2 * v))). specialize (IH X H2). nra. }
  set (e := exp _) at 1. assert (0 < e)%R by apply exp_pos. destruct Hw as [->|Hw].
  - specialize (N X r F'). nra.
  - assert (0 < tot (map2 (fun w z => (w * exp (- tot (map2 (fun a b => sqr (a - b)) x z) / (2 * v)))%R) r X))%R; [|nra].
    apply IH. split; [exact L|]. split; [exact F'|]. now exists w0.
Qed.

Lemma constant_pos h (X : list rrow) : (0 < h)%R -> X <> [] -> (0 < 1 / (INR (length X) * h) * (1 / (sqrt (2 * PI) * h) ^ length (hd [] X)))%R.
Proof.
  intros Hh Ne. assert (0 < INR (length X))%R by (apply lt_0_INR; destruct X; [easy|cbn; lia]).
  assert (0 < sqrt (2 * PI))%R by (apply sqrt_lt_R0; pose proof PI_RGT_0; lra).
  apply Rmult_lt_0_compat; apply Rdiv_lt_0_compat; try lra.
  - now apply Rmult_lt_0_compat.
  - apply pow_lt. now apply Rmult_lt_0_compat.
Qed.

Lemma weights_ne X r : weights_ok X r -> X <> [].
Proof. intros (L & _ & (w & Hw & _)) ->. destruct r; [destruct Hw|discriminate]. Qed.

Lemma px_pos h X r x : (0 < h)%R -> weights_ok X r -> (0 < p_x h X r x)%R.
Proof.
  intros Hh W. rewrite p_x_is by lra. apply Rmult_lt_0_compat; [apply constant_pos; [exact Hh|now apply (weights_ne X r)]|now apply mixture_pos].
Qed.

Lemma step_is h X r x z u : (0 < h)%R -> weights_ok X r ->
  mcmc_step h X r x z u = if Rlt_dec (u * mixture_at h X r x) (mixture_at h X r z) then z else x.
Proof.
  intros Hh W. unfold mcmc_step. cbv zeta. rewrite !p_x_is by lra. pose proof (constant_pos h X Hh (weights_ne X r W)) as C.
  set (c := (1 / (INR (length X) * h) * (1 / (sqrt (2 * PI) * h) ^ length (hd [] X)))%R) in *.
  pose proof (mixture_pos h X r x W) as Px. set (a := mixture_at h X r x) in *. set (b := mixture_at h X r z) in *.
  replace (c * b / (c * a))%R with (b / a)%R by (field; lra).
  assert (E : (u < b / a <-> u * a < b)%R).
  { split; intros H.
    - apply (Rmult_lt_compat_r a) in H; [|exact Px]. replace (b / a * a)%R with b in H by (field; lra). exact H.
    - apply (Rmult_lt_reg_r a); [exact Px|]. replace (b / a * a)%R with b by (field; lra). exact H. }
  destruct (Rlt_dec u (b / a)) as [A|A], (Rlt_dec (u * a) b) as [B|B]; try reflexivity; tauto.
Qed.

(** ** PDFOS *)

Lemma sqrt2_pos : (0 < sqrt 2)%R.
Proof. apply sqrt_lt_R0. lra. Qed.
Lemma sqrt2pi_pos : (0 < sqrt (2 * PI))%R.
Proof. apply sqrt_lt_R0. pose proof PI_RGT_0. lra. Qed.

Lemma big_M_is m X S_inv sigma : (0 < sigma)%R -> big_M m X S_inv sigma = criterion expit m X S_inv sigma.
Proof.
  intros Hs. pose proof sqrt2_pos as H2. pose proof sqrt2pi_pos as HP. unfold big_M, criterion. cbv zeta. f_equal.
  - f_equal. f_equal. apply map_ext. intros a. f_equal. apply map_ext. intros b. unfold eq_8_entry, kern. cbv zeta.
    set (t := quad _ _). replace (- (1 / (4 * sqr sigma)) * t)%R with (- t / (2 * sqr (sqrt 2 * sigma)))%R.
    2: { replace (sqr (sqrt 2 * sigma)) with (2 * sqr sigma)%R; [unfold sqr; field; lra|]. unfold sqr. rewrite <- (sqrt_sqrt 2) at 1 by lra. ring. }
    replace (- (1 / (2 * sqr sigma)) * t)%R with (- t / (2 * sqr sigma))%R by (unfold sqr; field; lra).
    rewrite !Rpow_mult_distr. field. repeat split; apply pow_nonzero; lra.
  - f_equal. f_equal. unfold eq_5_0, kern. replace (- 0 / (2 * sqr sigma))%R with 0%R by (unfold Rdiv; ring). rewrite exp_0, Rpow_mult_distr.
    field. split; apply pow_nonzero; lra.
Qed.

Lemma width_pos k : (0 < width_no k)%R.
Proof. apply exp_pos. Qed.

Lemma grid_is : grid = map width_no (seq 0 20).
Proof. reflexivity. Qed.

Lemma best_of err n : exists k, k < S n /\ fold_left (sigma_step err) (map width_no (seq 0 (S n))) (0%R, None) = (width_no k, Some (err (width_no k))) /\
  (forall j, j < S n -> (err (width_no k) <= err (width_no j))%R) /\ (forall j, j < k -> (err (width_no k) < err (width_no j))%R).
Proof.
  induction n as [|n (k & Hk & E & M & F)].
  - exists 0. split; [lia|]. split; [reflexivity|]. split; [|lia]. intros j Hj. replace j with 0 by lia. lra.
  - rewrite seq_S, map_app, fold_left_app, E. cbn [map fold_left]. change (0 + S n) with (S n). unfold sigma_step. cbn [snd].
    destruct (Rlt_dec (err (width_no (S n))) (err (width_no k))) as [L|L].
    + exists (S n). split; [lia|]. split; [reflexivity|]. split.
      * intros j Hj. destruct (Nat.eq_dec j (S n)) as [->|N]; [lra|]. specialize (M j ltac:(lia)). lra.
      * intros j Hj. specialize (M j ltac:(lia)). lra.
    + exists k. split; [lia|]. split; [reflexivity|]. split; [|exact F].
      intros j Hj. destruct (Nat.eq_dec j (S n)) as [->|N]; [lra|]. apply M. lia.
Qed.

Lemma best_sigma m X S_inv : exists k, k < 20 /\ find_best_sigma m X S_inv = width_no k /\
  (forall j, j < 20 -> (criterion expit m X S_inv (width_no k) <= criterion expit m X S_inv (width_no j))%R) /\
  (forall j, j < k -> (criterion expit m X S_inv (width_no k) < criterion expit m X S_inv (width_no j))%R).
Proof.
  destruct (best_of (big_M m X S_inv) 19) as (k & Hk & E & M & F). exists k. split; [exact Hk|].
  split; [unfold find_best_sigma; rewrite grid_is, E; reflexivity|]. split; intros j Hj; rewrite <- !big_M_is by apply width_pos; auto.
Qed.

Lemma width_not_one k : width_no k <> 1%R.
Proof.
  intros E. unfold width_no in E. assert (Z : (-5 + 7 * INR k / 19 = 0)%R).
  { unfold Rpower in E. rewrite <- exp_0 in E. apply exp_inv in E. assert (0 < ln 10)%R by (rewrite <- ln_1; apply ln_increasing; lra).
    apply Rmult_integral in E as [E|E]; lra. }
  assert (Z' : (INR (7 * k) = INR 95)%R). { rewrite mult_INR. replace (INR 7) with 7%R by (cbn; ring). replace (INR 95) with 95%R by (rewrite INR_IZR_INZ; reflexivity). lra. }
  apply INR_eq in Z'. lia.
Qed.

Lemma scaled_differs (c d : R) (S : list rrow) : c <> d -> (exists row a, In row S /\ In a row /\ a <> 0%R) -> map (map (Rmult c)) S <> map (map (Rmult d)) S.
Proof.
  intros N (row & a & Hr & Ha & Na) E.
  assert (G : map (Rmult c) row = map (Rmult d) row).
  { revert E Hr. induction S as [|s S IH]; cbn [map]; intros E Hr; [destruct Hr|]. injection E as E1 E2. destruct Hr as [->|Hr]; auto. }
  revert G Ha. clear - N Na. induction row as [|b row IH]; cbn [map]; intros G Ha; [destruct Ha|]. injection G as G1 G2. destruct Ha as [->|Ha]; auto.
  apply N. apply (Rmult_eq_reg_r a); assumption.
Qed.

Lemma covariance m X S_inv S : let sigma := find_best_sigma m X S_inv in
  fit_S m X S_inv S = map (map (Rmult sigma)) S /\
  ((exists row a, In row S /\ In a row /\ a <> 0%R) -> fit_S m X S_inv S <> map (map (Rmult (sqr sigma))) S).
Proof.
  cbv zeta. split; [reflexivity|]. intros H. apply scaled_differs; [|exact H].
  destruct (best_sigma m X S_inv) as (k & _ & -> & _). intros E. pose proof (width_pos k). apply (width_not_one k). unfold sqr in E. nra.
Qed.

(** ** Two equal rows *)

Lemma kern_zero g m s : (0 < s)%R -> kern g m s 0 = (g 0 / (sqrt (2 * PI) * s) ^ m)%R.
Proof. intros _. unfold kern. now replace (- 0 / (2 * sqr s))%R with 0%R by (unfold Rdiv; ring). Qed.

Lemma equal_pair g sigma : (0 < sigma)%R -> criterion g 1 [[0]; [0]]%R [[1]]%R sigma = ((g 0 / sqrt 2 - 2 * g 0 + 1) / (sqrt (2 * PI) * sigma))%R.
Proof.
  intros Hs. pose proof sqrt2_pos. pose proof sqrt2pi_pos. unfold criterion. cbv zeta. cbn [map map2 length].
  unfold quad, inner. cbn [map2]. rewrite !tot_cons, !tot_nil. replace (1 * (0 - 0) + 0)%R with 0%R by ring. replace ((0 - 0) * 0 + 0)%R with 0%R by ring.
  rewrite !kern_zero by (try apply Rmult_lt_0_compat; lra). rewrite exp_0. replace (INR 2) with 2%R by (cbn; ring). cbn [pow]. unfold sqr. field. lra.
Qed.

Lemma expit_0 : expit 0 = (1 / 2)%R.
Proof. unfold expit. rewrite Ropp_0, exp_0. field. Qed.

Lemma width_grows j k : j < k -> (width_no j < width_no k)%R.
Proof. intros H. apply Rpower_lt; [lra|]. apply lt_INR in H. lra. Qed.

Lemma not_the_gaussian : exists j, j < 20 /\
  (criterion exp 1 [[0]; [0]] [[1]] (width_no j) < criterion exp 1 [[0]; [0]] [[1]] (find_best_sigma 1 [[0]; [0]] [[1]]))%R.
Proof.
  destruct (best_sigma 1 [[0]; [0]]%R [[1]]%R) as (k & Hk & E & M & _). rewrite E. exists 0. split; [lia|].
  pose proof sqrt2_pos as H2. pose proof sqrt2pi_pos as HP. assert (S1 : (1 < sqrt 2)%R) by (rewrite <- sqrt_1; apply sqrt_lt_1; lra).
  assert (N : k <> 0).
  { intros ->. specialize (M 1 ltac:(lia)). rewrite !equal_pair, expit_0 in M by apply width_pos. pose proof (width_grows 0 1 ltac:(lia)) as G. pose proof (width_pos 0).
    replace (1 / 2 / sqrt 2 - 2 * (1 / 2) + 1)%R with (1 / 2 / sqrt 2)%R in M by (field; lra).
    assert (0 < 1 / 2 / sqrt 2)%R by (apply Rdiv_lt_0_compat; lra).
    apply (Rlt_irrefl (1 / 2 / sqrt 2 / (sqrt (2 * PI) * width_no 0))). apply (Rle_lt_trans _ _ _ M). apply Rmult_lt_compat_l; [assumption|].
    apply Rinv_lt_contravar; [apply Rmult_lt_0_compat; apply Rmult_lt_0_compat; try assumption; apply width_pos|]. now apply Rmult_lt_compat_l. }
  rewrite !equal_pair, exp_0 by apply width_pos. pose proof (width_grows 0 k ltac:(lia)) as G. pose proof (width_pos 0).
  assert (Ng : (1 / sqrt 2 - 2 * 1 + 1 < 0)%R). { assert (1 / sqrt 2 < 1)%R; [|lra]. apply (Rmult_lt_reg_r (sqrt 2)); [exact H2|]. replace (1 / sqrt 2 * sqrt 2)%R with 1%R by (field; lra). lra. }
  apply Rmult_lt_gt_compat_neg_l; [exact Ng|]. apply Rinv_lt_contravar; [apply Rmult_lt_0_compat; apply Rmult_lt_0_compat; try assumption; apply width_pos|]. now apply Rmult_lt_compat_l.
Qed.

(** ** The variance of the mixture *)

Lemma variance_differs : exists u, (0 <= u < 1)%R /\
  mcmc_step 4 [[0]]%R [1]%R [0]%R [2]%R u = [0]%R /\ (u * mixture_at (sqr 4) [[0]]%R [1]%R [0]%R < mixture_at (sqr 4) [[0]]%R [1]%R [2]%R)%R.
Proof.
  assert (W : weights_ok [[0]]%R [1]%R). { split; [reflexivity|]. split; [repeat constructor; lra|]. exists 1%R. split; [now left|lra]. }
  assert (E0 : forall v, mixture_at v [[0]]%R [1]%R [0]%R = 1%R).
  { intros v. unfold mixture_at. cbn [map2]. rewrite !tot_cons, !tot_nil. replace (- (sqr (0 - 0) + 0) / (2 * v))%R with 0%R by (unfold sqr, Rdiv; ring). rewrite exp_0. ring. }
  assert (E2 : forall v, mixture_at v [[0]]%R [1]%R [2]%R = exp (- 4 / (2 * v))).
  { intros v. unfold mixture_at. cbn [map2]. rewrite !tot_cons, !tot_nil. replace (- (sqr (2 - 0) + 0) / (2 * v))%R with (- 4 / (2 * v))%R by (unfold sqr, Rdiv; ring). ring. }
  exists (exp (- (1 / 4))). split; [|split].
  - split; [left; apply exp_pos|]. apply Rlt_le_trans with (exp 0); [apply exp_increasing; lra|rewrite exp_0; lra].
  - rewrite step_is by (try exact W; lra). rewrite E0, E2. destruct (Rlt_dec _ _) as [L|_]; [|reflexivity]. exfalso.
    assert (exp (- 4 / (2 * 4)) < exp (- (1 / 4)))%R by (apply exp_increasing; lra). lra.
  - rewrite E0, E2, Rmult_1_r. apply exp_increasing. unfold sqr. lra.
Qed.
