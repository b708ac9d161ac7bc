(** Proofs about the sensitivities of SSO. *)

From Coq Require Import List Reals Bool Arith Lia Lra.
From Coquelicot Require Import Coquelicot.
From Verif Require Import Np ScoreModel ScoreFacts SensModel SpecSens.
Import ListNotations.
Open Scope nat_scope.

(** ** Means over cubes *)

Lemma cube_ext q x F G m : (forall t, length t = length x -> F t = G t) -> cube_mean q x F m -> cube_mean q x G m.
Proof.
  revert F G m. induction x as [|a x IH]; intros F G m H; cbn [cube_mean].
  - intros ->. now apply H.
  - intros (g & Hg & I). exists g. split; [|exact I]. intros t. apply (IH (fun r => F (t :: r))); [|apply Hg].
    intros r Lr. apply H. cbn. now rewrite Lr.
Qed.

Lemma cube_plus q x F G m n : cube_mean q x F m -> cube_mean q x G n -> cube_mean q x (fun t => (F t + G t)%R) (m + n).
Proof.
  revert F G m n. induction x as [|a x IH]; intros F G m n; cbn [cube_mean].
  - intros -> ->. reflexivity.
  - intros (f & Hf & If) (g & Hg & Ig). exists (fun t => (f t + g t)%R). split.
    + intros t. apply (IH (fun r => F (t :: r)) (fun r => G (t :: r))); auto.
    + replace (2 * q * (m + n))%R with (2 * q * m + 2 * q * n)%R by ring. exact (is_RInt_plus f g _ _ _ _ If Ig).
Qed.

Lemma cube_zero q x : cube_mean q x (fun _ => 0%R) 0.
Proof.
  induction x as [|a x IH]; cbn [cube_mean]; [reflexivity|]. exists (fun _ => 0%R). split; [intros _; exact IH|].
  replace (2 * q * 0)%R with ((a + q - (a - q)) * 0)%R by ring. exact (is_RInt_const (a - q) (a + q) (0%R : R_NormedModule)).
Qed.

Lemma cube_sum {A} q x (F : A -> rrow -> R) (m : A -> R) l : (forall a, In a l -> cube_mean q x (F a) (m a)) ->
  cube_mean q x (fun t => tot (map (fun a => F a t) l)) (tot (map m l)).
Proof.
  induction l as [|a l IH]; intros H; cbn [map].
  - apply (cube_ext _ _ (fun _ => 0%R)); [reflexivity|apply cube_zero].
  - rewrite tot_cons. apply (cube_ext _ _ (fun t => (F a t + tot (map (fun a => F a t) l))%R)); [reflexivity|].
    apply cube_plus; [apply H; now left|]. apply IH. intros b Hb. apply H. now right.
Qed.

(** Products of functions of the coordinates. *)
Fixpoint sep (fs : list (R -> R)) (t : rrow) : R :=
  match fs, t with f :: fs, a :: t => (f a * sep fs t)%R | _, _ => 1%R end.

Lemma cube_sep q : (0 < q)%R -> forall x fs (ms : list R) c, Forall2 (fun af m => is_RInt (snd af) (fst af - q) (fst af + q) (2 * q * m)%R) (combine x fs) ms ->
  length fs = length x -> cube_mean q x (fun t => (c * sep fs t)%R) (c * prd ms).
Proof.
  intros Hq. induction x as [|a x IH]; intros fs ms c H L; destruct fs as [|f fs]; try discriminate; cbn [cube_mean combine] in *.
  - inversion H; subst. reflexivity.
  - inversion H as [|? m ? ms' I H']; subst. cbn [fst snd] in I. injection L as L.
    exists (fun t => (c * f t * prd ms')%R). split.
    + intros t. apply (cube_ext _ _ (fun r => (c * f t * sep fs r)%R)); [intros r _; cbn [sep]; ring|]. now apply IH.
    + change (prd (m :: ms')) with (m * prd ms')%R. replace (2 * q * (c * (m * prd ms')))%R with ((c * prd ms') * (2 * q * m))%R by ring.
      apply (is_RInt_ext (fun t => ((c * prd ms') * f t)%R)); [intros t _; change (c * prd ms' * f t = c * f t * prd ms')%R; ring|]. exact (is_RInt_scal f _ _ (c * prd ms')%R _ I).
Qed.

(** ** One attribute of a pair of units *)

Section Pair.
Variable erf : R -> R.
Hypothesis Herf : erf_ok erf.

Lemma gauss_shift s c a b : (0 < s)%R ->
  is_RInt (fun t => exp (- (s * (t - c) * (s * (t - c)))))%R a b (sqrt PI / 2 / s * (erf (s * (b - c)) - erf (s * (a - c))))%R.
Proof.
  intros Hs. pose proof (Herf (s * a + - (s * c))%R (s * b + - (s * c))%R) as I.
  pose proof (is_RInt_comp_lin (fun t => exp (- (t * t)))%R s (- (s * c))%R a b _ I) as J.
  pose proof (is_RInt_scal _ _ _ (/ s)%R _ J) as K.
  replace (sqrt PI / 2 / s * (erf (s * (b - c)) - erf (s * (a - c))))%R
    with (scal (/ s)%R (sqrt PI / 2 * (erf (s * b + - (s * c)) - erf (s * a + - (s * c))))%R : R).
  - eapply is_RInt_ext; [|exact K]. intros t _. cbn beta. change (/ s * (s * exp (- ((s * t + - (s * c)) * (s * t + - (s * c))))) = exp (- (s * (t - c) * (s * (t - c)))))%R.
    rewrite <- Rmult_assoc, Rinv_l, Rmult_1_l by lra. f_equal. ring.
  - change (/ s * (sqrt PI / 2 * (erf (s * b + - (s * c)) - erf (s * a + - (s * c)))) = sqrt PI / 2 / s * (erf (s * (b - c)) - erf (s * (a - c))))%R.
    replace (s * b + - (s * c))%R with (s * (b - c))%R by ring. replace (s * a + - (s * c))%R with (s * (a - c))%R by ring. field. lra.
Qed.

Lemma pair_integral q x a b p r : (0 < q)%R -> (0 < p)%R -> (0 < r)%R ->
  let s1 := sqrt (2 * (p * r) * (p + r))%R in
  is_RInt (fun t => (exp (- sqr (t - a) / (2 * p)) * exp (- sqr (t - b) / (2 * r)))%R) (x - q) (x + q)
    (2 * q * (exp (- sqr (a - b) / (2 * (p + r))) * (sqrt PI / (4 * q) * (s1 / (p + r)) *
      (erf (((p + r) * (x + q) - (a * r + b * p)) / s1) - erf (((p + r) * (x - q) - (a * r + b * p)) / s1)))))%R.
Proof.
  intros Hq Hp Hr s1. assert (Hpos : (0 < 2 * (p * r) * (p + r))%R) by (apply Rmult_lt_0_compat; [apply Rmult_lt_0_compat; [lra|now apply Rmult_lt_0_compat]|lra]).
  assert (Hs1 : (0 < s1)%R) by now apply sqrt_lt_R0. assert (Es1 : (s1 * s1 = 2 * (p * r) * (p + r))%R) by (apply sqrt_sqrt; lra).
  set (c := ((a * r + b * p) / (p + r))%R). set (s := ((p + r) / s1)%R). assert (Hs : (0 < s)%R) by (apply Rdiv_lt_0_compat; lra).
  assert (Ess : (s * s = (p + r) / (2 * (p * r)))%R).
  { unfold s. replace ((p + r) / s1 * ((p + r) / s1))%R with ((p + r) * (p + r) / (s1 * s1))%R by (field; lra). rewrite Es1. field. lra. }
  pose proof (is_RInt_scal _ _ _ (exp (- sqr (a - b) / (2 * (p + r)))) _ (gauss_shift s c (x - q) (x + q) Hs)) as K.
  match type of K with is_RInt _ _ _ ?v => replace (2 * q * (exp (- sqr (a - b) / (2 * (p + r))) * (sqrt PI / (4 * q) * (s1 / (p + r)) *
      (erf (((p + r) * (x + q) - (a * r + b * p)) / s1) - erf (((p + r) * (x - q) - (a * r + b * p)) / s1)))))%R with (v : R) end.
  - eapply is_RInt_ext; [|exact K]. intros t _. cbn beta.
    change (exp (- sqr (a - b) / (2 * (p + r))) * exp (- (s * (t - c) * (s * (t - c)))) = exp (- sqr (t - a) / (2 * p)) * exp (- sqr (t - b) / (2 * r)))%R.
    rewrite <- !exp_plus. f_equal. replace (s * (t - c) * (s * (t - c)))%R with (s * s * sqr (t - c))%R by (unfold sqr; ring). rewrite Ess. unfold c, sqr. field. lra.
  - match goal with |- ?l = _ => change l with (exp (- sqr (a - b) / (2 * (p + r))) * (sqrt PI / 2 / s * (erf (s * (x + q - c)) - erf (s * (x - q - c)))))%R end.
    replace (s * (x + q - c))%R with (((p + r) * (x + q) - (a * r + b * p)) / s1)%R by (unfold s, c; field; lra).
    replace (s * (x - q - c))%R with (((p + r) * (x - q) - (a * r + b * p)) / s1)%R by (unfold s, c; field; lra).
    unfold s. field. lra.
Qed.

(** ** The mean of the squared network *)

Lemma exp_tot l : exp (tot l) = prd (map exp l).
Proof. induction l as [|a l IH]; [apply exp_0|]. cbn [map]. rewrite tot_cons, exp_plus, IH. reflexivity. Qed.

Lemma neg_tot {A} (f : A -> R) k l : (- tot (map f l) / k = tot (map (fun a => - f a / k) l))%R.
Proof. induction l as [|a l IH]; cbn [map]; rewrite ?tot_nil, ?tot_cons; [unfold Rdiv; ring|]. rewrite <- IH. unfold Rdiv. ring. Qed.

Definition pair_fs (p r : R) (ui ur : rrow) : list (R -> R) :=
  map2 (fun a b t => (exp (- sqr (t - a) / (2 * p)) * exp (- sqr (t - b) / (2 * r)))%R) ui ur.

Lemma pair_sep p r ui ur t : length ui = length t -> length ur = length t ->
  sep (pair_fs p r ui ur) t =
    (exp (- tot (map2 (fun a b => sqr (a - b)) t ui) / (2 * p)) * exp (- tot (map2 (fun a b => sqr (a - b)) t ur) / (2 * r)))%R.
Proof.
  revert ui ur. induction t as [|x t IH]; intros [|a ui] [|b ur] L1 L2; try discriminate; cbn [pair_fs map2 sep].
  - rewrite tot_nil. unfold Rdiv. rewrite Ropp_0, !Rmult_0_l, exp_0. ring.
  - injection L1 as L1. injection L2 as L2. fold (pair_fs p r ui ur). rewrite (IH ui ur L1 L2), !tot_cons.
    replace (- (sqr (x - a) + tot (map2 (fun a b => sqr (a - b)) t ui)) / (2 * p))%R with (- sqr (x - a) / (2 * p) + - tot (map2 (fun a b => sqr (a - b)) t ui) / (2 * p))%R by (unfold Rdiv; ring).
    replace (- (sqr (x - b) + tot (map2 (fun a b => sqr (a - b)) t ur)) / (2 * r))%R with (- sqr (x - b) / (2 * r) + - tot (map2 (fun a b => sqr (a - b)) t ur) / (2 * r))%R by (unfold Rdiv; ring).
    rewrite !exp_plus. ring.
Qed.

Definition pair_ms (q p r : R) (x ui ur : rrow) : list R :=
  let s1 := sqrt (2 * (p * r) * (p + r))%R in
  map3 (fun xj a b => (exp (- sqr (a - b) / (2 * (p + r))) * (sqrt PI / (4 * q) * (s1 / (p + r)) *
      (erf (((p + r) * (xj + q) - (a * r + b * p)) / s1) - erf (((p + r) * (xj - q) - (a * r + b * p)) / s1))))%R) x ui ur.

Lemma pair_ms_prd q i r x : length (uc i) = length x -> length (uc r) = length x ->
  ((sqrt PI / (4 * q)) ^ length x * eq_8_pair erf q x i r = uw i * uw r * prd (pair_ms q (sqr (uv i)) (sqr (uv r)) x (uc i) (uc r)))%R.
Proof.
  unfold eq_8_pair, pair_ms. cbv zeta. set (p := sqr (uv i)). set (k := sqr (uv r)). set (s1 := sqrt (2 * (p * k) * (p + k))%R). intros L1 L2.
  rewrite len2_sqr. unfold av_bv. cbv zeta. fold p. fold k.
  enough (G : forall x ui ur, length ui = length x -> length ur = length x ->
    ((sqrt PI / (4 * q)) ^ length x * ((s1 / (p + k)) ^ length x * exp (- (1 / 2) * tot (map sqr (map2 Rminus ui ur)) / (p + k)) *
       prd (map3 (fun xj ui0 ur0 => erf (((p + k) * (xj + q) - (ui0 * k + ur0 * p)) / s1) - erf (((p + k) * (xj - q) - (ui0 * k + ur0 * p)) / s1)) x ui ur)) =
     prd (map3 (fun xj a b => exp (- sqr (a - b) / (2 * (p + k))) * (sqrt PI / (4 * q) * (s1 / (p + k)) *
      (erf (((p + k) * (xj + q) - (a * k + b * p)) / s1) - erf (((p + k) * (xj - q) - (a * k + b * p)) / s1)))) x ui ur))%R).
  { rewrite <- (G x (uc i) (uc r) L1 L2). ring. }
  clear. intros x. induction x as [|xj x IH]; intros [|a ui] [|b ur] L1 L2; try discriminate.
  - cbn [map2 map length pow map3 prd fold_right]. rewrite tot_nil. replace (- (1 / 2) * 0 / (p + k))%R with 0%R by (unfold Rdiv; ring). rewrite exp_0. ring.
  - injection L1 as L1. injection L2 as L2. cbn [map2 map length pow map3]. rewrite tot_cons.
    match goal with |- context [prd (?u :: ?l)] => change (prd (u :: l)) with (u * prd l)%R end.
    match goal with |- _ = prd (?u :: ?l) => change (prd (u :: l)) with (u * prd l)%R end.
    rewrite <- (IH ui ur L1 L2).
    replace (- (1 / 2) * (sqr (a - b) + tot (map sqr (map2 Rminus ui ur))) / (p + k))%R
      with (- sqr (a - b) / (2 * (p + k)) + - (1 / 2) * tot (map sqr (map2 Rminus ui ur)) / (p + k))%R.
    + rewrite exp_plus. ring.
    + unfold Rdiv. rewrite Rinv_mult. generalize (/ (p + k))%R. intros z. field.
Qed.

Lemma pair_mean q x i r : (0 < q)%R -> uv i <> 0%R -> uv r <> 0%R -> length (uc i) = length x -> length (uc r) = length x ->
  cube_mean q x (fun t => (uw i * exp (- tot (map2 (fun a b => sqr (a - b)) t (uc i)) / (2 * sqr (uv i))) *
      (uw r * exp (- tot (map2 (fun a b => sqr (a - b)) t (uc r)) / (2 * sqr (uv r)))))%R)
    ((sqrt PI / (4 * q)) ^ length x * eq_8_pair erf q x i r).
Proof.
  intros Hq Hi Hr L1 L2. rewrite pair_ms_prd by assumption.
  apply (cube_ext _ _ (fun t => (uw i * uw r * sep (pair_fs (sqr (uv i)) (sqr (uv r)) (uc i) (uc r)) t)%R)).
  { intros t Lt. rewrite pair_sep by congruence. ring. }
  assert (P1 : (0 < sqr (uv i))%R) by (unfold sqr; nra). assert (P2 : (0 < sqr (uv r))%R) by (unfold sqr; nra).
  apply cube_sep; [assumption| |].
  - generalize dependent (uc r). generalize dependent (uc i). clear Hi Hr. revert P1 P2. generalize (sqr (uv i)) (sqr (uv r)). intros p k P1 P2. unfold pair_fs, pair_ms. cbv zeta.
    induction x as [|xj x IH]; intros [|a ui] L1 [|b ur] L2; try discriminate; cbn [map2 map3 combine]; [constructor|].
    constructor; [|apply IH; [now injection L1|now injection L2]]. cbn [fst snd]. now apply pair_integral.
  - revert L1 L2. generalize (uc i) (uc r). clear. unfold pair_fs. induction x as [|xj x IH]; intros [|a ui] [|b ur] L1 L2; try discriminate; [reflexivity|].
    cbn [map2 length]. f_equal. apply IH; [now injection L1|now injection L2].
Qed.

Lemma square_sum (f : unit3 -> R) net : sqr (tot (map f net)) = tot (map (fun i => tot (map (fun r => (f i * f r)%R) net)) net).
Proof.
  unfold sqr. rewrite <- (tot_scale (tot (map f net)) f net). f_equal. apply map_ext. intros i. rewrite tot_scale. ring.
Qed.

Lemma second_moment q net x : (0 < q)%R -> List.Forall (fun n => uv n <> 0%R /\ length (uc n) = length x) net ->
  cube_mean q x (fun t => sqr (network net t)) (eq_8 erf q net x).
Proof.
  intros Hq F. rewrite List.Forall_forall in F. unfold eq_8. rewrite <- tot_scale.
  apply (cube_ext _ _ (fun t => tot (map (fun i => tot (map (fun r =>
    (uw i * exp (- tot (map2 (fun a b => sqr (a - b)) t (uc i)) / (2 * sqr (uv i))) * (uw r * exp (- tot (map2 (fun a b => sqr (a - b)) t (uc r)) / (2 * sqr (uv r)))))%R) net)) net))).
  { intros t _. unfold network. symmetry. apply square_sum. }
  apply (cube_sum q x (fun i t => tot (map (fun r => (uw i * exp (- tot (map2 (fun a b => sqr (a - b)) t (uc i)) / (2 * sqr (uv i))) * (uw r * exp (- tot (map2 (fun a b => sqr (a - b)) t (uc r)) / (2 * sqr (uv r)))))%R) net))).
  intros i Hi. rewrite <- tot_scale.
  apply (cube_sum q x (fun r t => (uw i * exp (- tot (map2 (fun a b => sqr (a - b)) t (uc i)) / (2 * sqr (uv i))) * (uw r * exp (- tot (map2 (fun a b => sqr (a - b)) t (uc r)) / (2 * sqr (uv r)))))%R)).
  intros r Hr. destruct (F i Hi), (F r Hr). now apply pair_mean.
Qed.

End Pair.
