(** The first sensitivity formula of SSO and the witnesses for its differences. *)

From Coq Require Import List Reals Bool Arith Lia Lra.
From Coquelicot Require Import Coquelicot.
From Verif Require Import Np ScoreModel ScoreFacts SensModel SpecSens SensFacts.
Import ListNotations.
Open Scope nat_scope.

Lemma cube_unique q x F m n : (0 < q)%R -> cube_mean q x F m -> cube_mean q x F n -> m = n.
Proof.
  intros Hq. revert F m n. induction x as [|a x IH]; intros F m n; cbn [cube_mean]; [congruence|].
  intros (g & Hg & I) (h & Hh & J). assert (E : (2 * q * m = 2 * q * n)%R).
  { apply (is_RInt_ext g h) in I; [|intros t _; exact (IH _ _ _ (Hg t) (Hh t))].
    rewrite <- (is_RInt_unique _ _ _ _ I). exact (is_RInt_unique _ _ _ _ J). }
  apply (Rmult_eq_reg_l (2 * q)); [exact E|lra].
Qed.

Lemma cube_scal q x k F m : cube_mean q x F m -> cube_mean q x (fun t => (k * F t)%R) (k * m).
Proof.
  revert F m. induction x as [|a x IH]; intros F m; cbn [cube_mean].
  - intros ->. reflexivity.
  - intros (g & Hg & I). exists (fun t => (k * g t)%R). split; [intros t; exact (IH (fun r => F (t :: r)) _ (Hg t))|].
    replace (2 * q * (k * m))%R with (k * (2 * q * m))%R by ring. exact (is_RInt_scal g _ _ k _ I).
Qed.

Lemma sqrt_four : sqrt 4 = 2%R.
Proof. replace 4%R with (2 * 2)%R by ring. apply sqrt_square. lra. Qed.

Definition one_fs (k : R) (u : rrow) : list (R -> R) := map (fun a t => exp (- sqr (t - a) / (2 * k))%R) u.

Lemma one_sep k u t : length u = length t -> sep (one_fs k u) t = exp (- tot (map2 (fun a b => sqr (a - b)) t u) / (2 * k))%R.
Proof.
  revert u. induction t as [|x t IH]; intros [|a u] L; try discriminate; cbn [one_fs map map2 sep].
  - rewrite tot_nil. unfold Rdiv. rewrite Ropp_0, Rmult_0_l, exp_0. ring.
  - injection L as L. fold (one_fs k u). rewrite (IH u L), tot_cons.
    replace (- (sqr (x - a) + tot (map2 (fun a b => sqr (a - b)) t u)) / (2 * k))%R with (- sqr (x - a) / (2 * k) + - tot (map2 (fun a b => sqr (a - b)) t u) / (2 * k))%R by (unfold Rdiv; ring).
    now rewrite exp_plus.
Qed.

Lemma one_integral erf q x a k : erf_ok erf -> (0 < q)%R -> (0 < k)%R ->
  is_RInt (fun t => exp (- sqr (t - a) / (2 * k))%R) (x - q) (x + q)
    (2 * q * (sqrt (PI / 2 * k) * (erf ((x - a + q) / sqrt (2 * k)) - erf ((x - a - q) / sqrt (2 * k))) / (2 * q)))%R.
Proof.
  intros He Hq Hk. assert (Hr : (0 < sqrt (2 * k))%R) by (apply sqrt_lt_R0; lra).
  pose proof (gauss_shift erf He (/ sqrt (2 * k)) a (x - q) (x + q) (Rinv_0_lt_compat _ Hr)) as I.
  match type of I with is_RInt _ _ _ ?v => replace (2 * q * (sqrt (PI / 2 * k) * (erf ((x - a + q) / sqrt (2 * k)) - erf ((x - a - q) / sqrt (2 * k))) / (2 * q)))%R with (v : R) end.
  - eapply is_RInt_ext; [|exact I]. intros t _. cbn beta. f_equal. unfold sqr.
    rewrite <- (sqrt_sqrt (2 * k)) at 3 by lra. field. lra.
  - replace (/ sqrt (2 * k) * (x + q - a))%R with ((x - a + q) / sqrt (2 * k))%R by (field; lra).
    replace (/ sqrt (2 * k) * (x - q - a))%R with ((x - a - q) / sqrt (2 * k))%R by (field; lra).
    replace (sqrt (PI / 2 * k))%R with (sqrt PI / 2 * sqrt (2 * k))%R; [field; lra|].
    pose proof PI_RGT_0. replace (PI / 2 * k)%R with (PI * (2 * k) / 4)%R by field.
    rewrite sqrt_div_alt by lra. rewrite (sqrt_mult_alt PI (2 * k)) by lra. rewrite sqrt_four. field.
Qed.

Lemma one_mean erf q x n : erf_ok erf -> (0 < q)%R -> (0 < uv n)%R -> length (uc n) = length x ->
  cube_mean q x (fun t => (uw n * (uv n * sqrt (PI / 2) / sqrt (PI / 2 * uv n) ^ length t) * exp (- tot (map2 (fun a b => sqr (a - b)) t (uc n)) / (2 * uv n)))%R)
    (sqrt (PI / 2) * uv n * prd (map2 (fun xj uj => (erf ((xj - uj + q) / sqrt (2 * uv n)) - erf ((xj - uj - q) / sqrt (2 * uv n)))%R) x (uc n)) * uw n * / (2 * q) ^ length x)%R.
Proof.
  intros He Hq Hk L. set (s := sqrt (PI / 2 * uv n)). pose proof PI_RGT_0 as HP.
  assert (Hs : (0 < s)%R) by (apply sqrt_lt_R0; apply Rmult_lt_0_compat; lra).
  set (ms := map2 (fun xj uj => (s * (erf ((xj - uj + q) / sqrt (2 * uv n)) - erf ((xj - uj - q) / sqrt (2 * uv n))) / (2 * q))%R) x (uc n)).
  assert (E : (prd ms = s ^ length x * prd (map2 (fun xj uj => (erf ((xj - uj + q) / sqrt (2 * uv n)) - erf ((xj - uj - q) / sqrt (2 * uv n)))%R) x (uc n)) * / (2 * q) ^ length x)%R).
  { unfold ms. revert L. generalize (uc n). clear - Hq. induction x as [|a x IH]; intros [|b u] L; try discriminate.
    - cbn. field.
    - injection L as L. cbn [map2 length pow]. match goal with |- prd (?u :: ?l) = _ => change (prd (u :: l)) with (u * prd l)%R end.
      rewrite (IH u L). match goal with |- context [prd (?u :: ?l)] => change (prd (u :: l)) with (u * prd l)%R end.
      field. split; [|lra]. apply pow_nonzero. lra. }
  apply (cube_ext _ _ (fun t => (uw n * (uv n * sqrt (PI / 2) / s ^ length x) * sep (one_fs (uv n) (uc n)) t)%R)).
  { intros t Lt. rewrite one_sep by congruence. now rewrite Lt. }
  match goal with |- cube_mean _ _ _ ?v => replace v with (uw n * (uv n * sqrt (PI / 2) / s ^ length x) * prd ms)%R end.
  - apply cube_sep; [assumption| |].
    + unfold ms, one_fs. revert L. generalize (uc n). clear - He Hq Hk. induction x as [|a x IH]; intros [|b u] L; try discriminate; cbn [map map2 combine]; constructor.
      * cbn [fst snd]. now apply one_integral.
      * apply IH. now injection L.
    + unfold one_fs. now rewrite map_length.
  - rewrite E. field. split; [|apply pow_nonzero; lra]. apply pow_nonzero. lra.
Qed.

Lemma first_moment erf q net x : erf_ok erf -> (0 < q)%R -> List.Forall (fun n => (0 < uv n)%R /\ length (uc n) = length x) net ->
  cube_mean q x (first_network net) (eq_6 erf q net x).
Proof.
  intros He Hq F. rewrite List.Forall_forall in F. unfold eq_6, Rdiv. rewrite Rmult_comm, <- tot_scale. unfold first_network.
  apply (cube_sum q x (fun n t => (uw n * (uv n * sqrt (PI / 2) / sqrt (PI / 2 * uv n) ^ length t) * exp (- tot (map2 (fun a b => sqr (a - b)) t (uc n)) / (2 * uv n)))%R)).
  intros n Hn. destruct (F n Hn) as [H1 H2]. pose proof (one_mean erf q x n He Hq H1 H2) as M.
  match type of M with cube_mean _ _ _ ?v => match goal with |- cube_mean _ _ _ ?w => replace w with v; [exact M|] end end.
  unfold Rdiv. ring.
Qed.

Lemma first_moment_plain erf q net x : erf_ok erf -> (0 < q)%R -> length x = 1 -> List.Forall (fun n => uv n = 1%R /\ length (uc n) = 1) net ->
  cube_mean q x (network net) (eq_6 erf q net x).
Proof.
  intros He Hq L F. apply (cube_ext _ _ (first_network net)).
  - intros t Lt. unfold first_network, network. f_equal. apply map_ext_in. intros n Hn. rewrite List.Forall_forall in F. destruct (F n Hn) as [-> _].
    rewrite Lt, L. cbn [pow]. pose proof PI_RGT_0. replace (PI / 2 * 1)%R with (PI / 2)%R by ring. replace (sqr 1) with 1%R by (unfold sqr; ring).
    assert (0 < sqrt (PI / 2))%R by (apply sqrt_lt_R0; lra). f_equal. field. lra.
  - apply first_moment; try assumption. eapply List.Forall_impl; [|exact F]. cbn. intros n [-> E]. split; [lra|congruence].
Qed.

(** ** An error function *)

Definition gauss (t : R) : R := exp (- (t * t)).
Lemma gauss_cont t : continuous gauss t.
Proof. apply (ex_derive_continuous gauss). unfold gauss. now auto_derive. Qed.
Lemma gauss_int a b : ex_RInt gauss a b.
Proof. apply (ex_RInt_continuous (V := R_CompleteNormedModule)). intros z _. apply gauss_cont. Qed.

Definition erf_int (x : R) : R := (2 / sqrt PI * RInt gauss 0 x)%R.

Lemma erf_int_ok : erf_ok erf_int.
Proof.
  intros a b. change (is_RInt gauss a b (sqrt PI / 2 * (erf_int b - erf_int a))%R).
  assert (0 < sqrt PI)%R by (apply sqrt_lt_R0, PI_RGT_0).
  replace (sqrt PI / 2 * (erf_int b - erf_int a))%R with (RInt gauss a b); [apply (RInt_correct (V := R_CompleteNormedModule)), gauss_int|].
  pose proof (RInt_Chasles gauss 0 a b (gauss_int 0 a) (gauss_int a b)) as C.
  assert (C' : (RInt gauss 0 b : R) = (RInt gauss 0 a + RInt gauss a b)%R) by (symmetry; exact C).
  enough (G : forall u v w : R, (v = u + w)%R -> (w = sqrt PI / 2 * (2 / sqrt PI * v - 2 / sqrt PI * u))%R) by exact (G _ _ _ C').
  intros u v w ->. field. lra.
Qed.

(** ** Differences *)

Lemma positive_integral (g : R -> R) a b : (a < b)%R -> (forall t, a < t < b -> 0 < g t)%R -> (forall t, continuous g t) -> ~ is_RInt g a b 0%R.
Proof.
  intros H P C I. pose proof (RInt_gt_0 g a b H P (fun t _ => C t)) as G. rewrite (is_RInt_unique _ _ _ _ I) in G. lra.
Qed.

(** Two functions of one variable with the same mean. *)
Lemma mean_one q a F G m : (0 < q)%R -> cube_mean q [a] F m -> cube_mean q [a] G m ->
  is_RInt (fun t => (F [t] - G [t])%R) (a - q) (a + q) 0%R.
Proof.
  cbn [cube_mean]. intros Hq (f & Hf & If) (g & Hg & Ig).
  apply (is_RInt_ext (fun t => f t - g t)%R); [intros t _; now rewrite Hf, Hg|].
  replace 0%R with (2 * q * m - 2 * q * m)%R by ring. exact (is_RInt_minus f g _ _ _ _ If Ig).
Qed.

Lemma widths_differ erf : erf_ok erf -> ~ cube_mean 1 [0%R] (network [(1, [0], 4)%R]) (eq_6 erf 1 [(1, [0], 4)%R] [0%R]).
Proof.
  intros He H. assert (G : cube_mean 1 [0%R] (first_network [(1, [0], 4)%R]) (eq_6 erf 1 [(1, [0], 4)%R] [0%R])).
  { apply first_moment; [assumption|lra|]. constructor; [|constructor]. cbn. split; [lra|reflexivity]. }
  pose proof (mean_one _ _ _ _ _ Rlt_0_1 G H) as I.
  assert (E : forall t, (first_network [(1, [0], 4)] [t] - network [(1, [0], 4)] [t] = 2 * exp (- (t * t) / 8) - exp (- (t * t) / 32))%R).
  { intros t. unfold first_network, network, uw, uc, uv. cbn [map map2 fst snd length pow]. rewrite !tot_cons, !tot_nil.
    pose proof PI_RGT_0. rewrite sqrt_mult_alt by lra. rewrite sqrt_four.
    assert (0 < sqrt (PI / 2))%R by (apply sqrt_lt_R0; lra).
    replace (- (sqr (t - 0) + 0) / (2 * 4))%R with (- (t * t) / 8)%R by (unfold sqr; field).
    replace (- (sqr (t - 0) + 0) / (2 * sqr 4))%R with (- (t * t) / 32)%R by (unfold sqr; field). field. lra. }
  apply (is_RInt_ext _ (fun t => 2 * exp (- (t * t) / 8) - exp (- (t * t) / 32))%R) in I; [|intros t _; apply E].
  revert I. apply positive_integral; [lra| |].
  - intros t Ht. assert (exp (- (t * t) / 32) <= 1)%R. { rewrite <- exp_0. destruct (Req_dec t 0) as [->|N].
      - replace (- (0 * 0) / 32)%R with 0%R by field. lra.
      - left. apply exp_increasing. nra. }
    pose proof (exp_ineq1_le (- (t * t) / 8)). nra.
  - intros t. apply (ex_derive_continuous (fun t => 2 * exp (- (t * t) / 8) - exp (- (t * t) / 32))%R). now auto_derive.
Qed.

Lemma fitted_differ erf : erf_ok erf -> ~ cube_mean 1 [2%R] (fun t => sqr (fitted [(1, [0], 1)%R] t)) (eq_8 erf 1 [(1, [0], 1)%R] [2%R]).
Proof.
  intros He H. assert (G : cube_mean 1 [2%R] (fun t => sqr (network [(1, [0], 1)%R] t)) (eq_8 erf 1 [(1, [0], 1)%R] [2%R])).
  { apply second_moment; [assumption|lra|]. constructor; [|constructor]. cbn. split; [lra|reflexivity]. }
  pose proof (mean_one _ _ _ _ _ Rlt_0_1 G H) as I.
  assert (E : forall t, (sqr (network [(1, [0], 1)] [t]) - sqr (fitted [(1, [0], 1)] [t]) = exp (- (t * t)) - exp (- (2 * (t * t))))%R).
  { intros t. unfold fitted, network, uw, uc, uv. cbn [map map2 fst snd]. rewrite !tot_cons, !tot_nil.
    replace (- (sqr (t - 0) + 0) / sqr 1)%R with (- (t * t))%R by (unfold sqr; field).
    replace (- (sqr (t - 0) + 0) / (2 * sqr 1))%R with (- (t * t) / 2)%R by (unfold sqr; field).
    assert (Ea : exp (- (t * t)) = (exp (- (t * t) / 2) * exp (- (t * t) / 2))%R) by (rewrite <- exp_plus; f_equal; field).
    assert (Eb : exp (- (2 * (t * t))) = (exp (- (t * t)) * exp (- (t * t)))%R) by (rewrite <- exp_plus; f_equal; ring).
    rewrite Eb, Ea. unfold sqr. ring. }
  apply (is_RInt_ext _ (fun t => exp (- (t * t)) - exp (- (2 * (t * t))))%R) in I; [|intros t _; apply E].
  revert I. apply positive_integral; [lra| |].
  - intros t Ht. assert (exp (- (2 * (t * t))) < exp (- (t * t)))%R by (apply exp_increasing; nra). lra.
  - intros t. apply (ex_derive_continuous (fun t => exp (- (t * t)) - exp (- (2 * (t * t))))%R). now auto_derive.
Qed.

Lemma columns_differ erf : erf_ok erf -> ~ cube_mean 1 [0; 0]%R (network [(1, [0; 0], 1)%R]) (eq_6 erf 1 [(1, [0; 0], 1)%R] [0; 0]%R).
Proof.
  intros He H. assert (G : cube_mean 1 [0; 0]%R (first_network [(1, [0; 0], 1)%R]) (eq_6 erf 1 [(1, [0; 0], 1)%R] [0; 0]%R)).
  { apply first_moment; [assumption|lra|]. constructor; [|constructor]. cbn. split; [lra|reflexivity]. }
  set (m := eq_6 erf 1 [(1, [0; 0], 1)%R] [0; 0]%R) in *. pose proof PI_RGT_0 as HP. pose proof PI2_3_2 as H3.
  set (s := sqrt (PI / 2)). assert (Hs : (1 < s)%R). { unfold s. rewrite <- sqrt_1. apply sqrt_lt_1; lra. }
  assert (G' : cube_mean 1 [0; 0]%R (network [(1, [0; 0], 1)%R]) (s * m)).
  { apply (cube_ext _ _ (fun t => (s * first_network [(1, [0; 0], 1)%R] t)%R)); [|now apply cube_scal].
    intros t Lt. unfold first_network, network, uw, uc, uv. cbn [map fst snd]. rewrite !tot_cons, !tot_nil, Lt. cbn [length pow].
    replace (PI / 2 * 1)%R with (PI / 2)%R by ring. fold s. replace (sqr 1) with 1%R by (unfold sqr; ring). field. lra. }
  pose proof (cube_unique _ _ _ _ _ Rlt_0_1 H G') as E. assert (Z : m = 0%R) by nra.
  set (phi := fun t => exp (- sqr (t - 0) / (2 * 1))%R).
  assert (Cp : forall t, continuous phi t). { intros t. apply (ex_derive_continuous phi). unfold phi, sqr. now auto_derive. }
  assert (Ip : is_RInt phi (0 - 1) (0 + 1) (RInt phi (0 - 1) (0 + 1))).
  { apply (RInt_correct (V := R_CompleteNormedModule)). apply (ex_RInt_continuous (V := R_CompleteNormedModule)). intros z _. apply Cp. }
  assert (Pp : (0 < RInt phi (0 - 1) (0 + 1))%R) by (apply RInt_gt_0; [lra|intros t _; apply exp_pos|intros t _; apply Cp]).
  set (i := RInt phi (0 - 1) (0 + 1)) in *.
  assert (K : cube_mean 1 [0; 0]%R (network [(1, [0; 0], 1)%R]) (1 * prd [i / 2; i / 2]%R)).
  { apply (cube_ext _ _ (fun t => (1 * sep (one_fs 1 [0; 0]%R) t)%R)).
    - intros t Lt. rewrite one_sep by (symmetry; exact Lt). unfold network, uw, uc, uv. cbn [map fst snd]. rewrite tot_cons, tot_nil. replace (sqr 1) with 1%R by (unfold sqr; ring). ring.
    - apply cube_sep; [lra| |reflexivity]. 
      assert (Ei : (2 * 1 * (i / 2) = i)%R) by field. cbn [combine one_fs map]. constructor; [|constructor; [|constructor]]; cbn [fst snd]; rewrite Ei; exact Ip. }
  pose proof (cube_unique _ _ _ _ _ Rlt_0_1 H K) as E2. cbn [prd fold_right] in E2. nra.
Qed.

(** ** The sensitivity of a row *)

Lemma cube_nonneg q x F m : (0 < q)%R -> (forall t, 0 <= F t)%R -> cube_mean q x F m -> (0 <= m)%R.
Proof.
  intros Hq. revert F m. induction x as [|a x IH]; intros F m P; cbn [cube_mean]; [intros ->; apply P|].
  intros (g & Hg & I). assert (0 <= RInt g (a - q) (a + q))%R.
  { apply RInt_ge_0; [lra|eexists; exact I|]. intros t _. exact (IH (fun r => F (t :: r)) _ (fun r => P (t :: r)) (Hg t)). }
  rewrite (is_RInt_unique _ _ _ _ I) in H. nra.
Qed.

Lemma cube_const q x k : cube_mean q x (fun _ => k) k.
Proof.
  induction x as [|a x IH]; cbn [cube_mean]; [reflexivity|]. exists (fun _ => k). split; [intros _; exact IH|].
  replace (2 * q * k)%R with ((a + q - (a - q)) * k)%R by ring. exact (is_RInt_const (a - q) (a + q) (k : R_NormedModule)).
Qed.

Lemma sensitivity_mean erf q net x f : erf_ok erf -> (0 < q)%R -> length x = 1 -> List.Forall (fun n => uv n = 1%R /\ length (uc n) = 1) net ->
  cube_mean q x (fun t => sqr (network net t - f)) (sensitivity erf q net x f).
Proof.
  intros He Hq L F. pose proof (first_moment_plain erf q net x He Hq L F) as M1.
  assert (M2 : cube_mean q x (fun t => sqr (network net t)) (eq_8 erf q net x)).
  { apply second_moment; try assumption. eapply List.Forall_impl; [|exact F]. cbn. intros n [-> E]. split; [lra|congruence]. }
  assert (M : cube_mean q x (fun t => sqr (network net t - f)) (sqr f - 2 * f * eq_6 erf q net x + eq_8 erf q net x)).
  { apply (cube_ext _ _ (fun t => (sqr f + (- (2 * f)) * network net t + sqr (network net t))%R)); [intros t _; unfold sqr; ring|].
    replace (sqr f - 2 * f * eq_6 erf q net x + eq_8 erf q net x)%R with (sqr f + (- (2 * f)) * eq_6 erf q net x + eq_8 erf q net x)%R by ring.
    apply (cube_plus q x (fun t => (sqr f + - (2 * f) * network net t)%R)); [|exact M2].
    apply (cube_plus q x (fun t => sqr f)); [apply cube_const|now apply cube_scal]. }
  unfold sensitivity. rewrite Rabs_pos_eq; [exact M|]. refine (cube_nonneg q x _ _ Hq _ M). intros t. apply Rle_0_sqr.
Qed.
