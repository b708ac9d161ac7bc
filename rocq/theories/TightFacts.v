(** Facts behind theorems added after mutation testing: the gaussian component of
    SMOTE, the constructor's checks and the generator a sampler starts with. *)

From Coq Require Import String List ZArith QArith Bool Arith Lia Lqa Permutation.
From Verif Require Import Np NpFacts PyVal BaseModel BaseFacts SimplexModel Spec SimplexFacts SimplexGeom Float64
  SamplerModel SamplerFacts KnnModel KnnFacts NearFacts GroupFacts4.
Import ListNotations.
Open Scope list_scope.
Open Scope nat_scope.

(** ** The gaussian component *)

(** The standard deviation configured for column j. *)
Definition sigma_at (g : gaussian) (j : nat) : Q :=
  match g with GNone => 0%Q | GSigma s => s | GSigmas l => nth j l 0%Q end.

Definition with_gauss (p : smote_params) (g : gaussian) : smote_params :=
  mk_smote (sm_proportion p) (sm_n_neighbors p)
    (mk_ss (ss_n_dim (sm_ss p)) (ss_sampling (sm_ss p)) (ss_within (sm_ss p)) g).

Lemma noise_nth g d Z S i j : length Z = length S -> rect d Z -> rect d S ->
  (forall l, g = GSigmas l -> length l = d) -> i < length S -> j < d ->
  (nth j (nth i (add_gaussian_noise g Z S) []) 0 == nth j (nth i S []) 0 + sigma_at g j * nth j (nth i Z []) 0)%Q.
Proof.
  intros L HZ HS Hg Hi Hj.
  assert (LS : length (nth i S []) = d) by (apply (proj1 (Forall_forall _ _) HS); apply nth_In; assumption).
  assert (LZ : length (nth i Z []) = d) by (apply (proj1 (Forall_forall _ _) HZ); apply nth_In; lia).
  destruct g as [|s|l]; cbn [add_gaussian_noise sigma_at].
  - Lqa.lra.
  - rewrite (map2_nth _ S Z i [] [] []) by lia. unfold vadd.
    rewrite (map2_nth _ _ _ j 0%Q 0%Q 0%Q) by (unfold vscale; rewrite ?map_length; lia).
    unfold vscale. rewrite (nth_map' _ 0%Q) by lia. Lqa.lra.
  - rewrite (map2_nth _ S Z i [] [] []) by lia. unfold vadd. specialize (Hg l eq_refl).
    rewrite (map2_nth _ _ _ j 0%Q 0%Q 0%Q) by (rewrite ?map2_length; lia).
    rewrite (map2_nth _ _ _ j 0%Q 0%Q 0%Q) by lia. Lqa.lra.
Qed.

Lemma noise_length g Z S : length Z = length S -> length (add_gaussian_noise g Z S) = length S.
Proof. intro L. destruct g; cbn; rewrite ?map2_length; lia. Qed.

Lemma smote_noise dist vol nn p g r D mn mj X0 y0 :
  knn_ok dist nn -> rng_ok r -> wf_data (d_X D) (d_dim D) (d_y D) ->
  is_minority (d_y D) mn mj -> ss_gauss (sm_ss p) = GNone ->
  smote_sample vol nn p r D = Ok (X0, y0) ->
  (forall l, g = GSigmas l -> length l = d_dim D) ->
  exists X1, smote_sample vol nn (with_gauss p g) r D = Ok (X1, y0) /\ length X1 = length X0 /\
    firstn (length (d_X D)) X1 = d_X D /\
    (forall i j, i < length X0 - length (d_X D) -> j < d_dim D ->
      (nth j (nth (length (d_X D) + i) X1 []) 0 ==
       nth j (nth (length (d_X D) + i) X0 []) 0 +
       sigma_at g j * nth j (nth i (r_normal r (length X0 - length (d_X D)) (d_dim D)) []) 0)%Q).
Proof.
  intros Hnn Hr Hwf Hmin Hg H Hl. unfold smote_sample, sample_with in H |- *.
  destruct (statistics_spec (d_y D) mn mj (proj1 Hmin)) as (st & Hst & Hm & Hsz).
  rewrite Hst in H |- *. cbn [bind] in H |- *. destruct (checks_fail _ _ _) as [[|]|e]; [| |discriminate]; cbn [bind] in H |- *.
  { injection H as <- <-. exists (d_X D). split; [reflexivity|]. split; [reflexivity|]. split; [apply firstn_all|]. intros; lia. }
  unfold smote_algorithm in H |- *. cbn [with_gauss sm_proportion sm_n_neighbors sm_ss] in *.
  destruct (det_n_to_sample_st _ _) as [n|e]; [|discriminate]. cbn [bind] in H |- *.
  destruct (Nat.eqb_spec n 0) as [Hz|Hz].
  { injection H as <- <-. exists (d_X D). split; [reflexivity|]. split; [reflexivity|]. split; [apply firstn_all|]. intros; lia. }
  set (XM := rows_with (min_label st) (d_X D) (d_y D)) in *.
  destruct (nn XM XM _) as [T|e] eqn:ET; [|discriminate]. cbn [bind] in H |- *.
  set (a := mk_args XM _ _ _ _ _ _ _ _) in *. set (ss1 := mk_ss _ _ _ g) in *.
  assert (Es : sm_ss p = without_gauss ss1) by (unfold without_gauss, ss1; cbn; destruct (sm_ss p); cbn in *; now subst).
  destruct (sample_simplex vol (sm_ss p) a n r) as [S|e] eqn:ES; [|discriminate]. cbn [bind] in H. injection H as <- <-.
  destruct (smote_args_ok dist nn D (min_label st) _ T Hnn Hwf (Nat.le_min_l _ _) ET) as [Ht Ha]. fold XM in Ha. fold a in Ha.
  destruct (sample_simplex_spec _ _ _ _ _ _ Ha Hr ES) as [S1 S2]. specialize (S2 Hg).
  rewrite Es in ES. rewrite (ss_noise _ _ _ _ _ _ ES S1). cbn [bind].
  destruct (Nat.eqb_spec n 0) as [?|_]; [lia|]. change (a_dim a) with (d_dim D). change (ss_gauss ss1) with g.
  destruct (rng_normal _ Hr n (d_dim D)) as [N1 N2].
  eexists. split; [reflexivity|]. rewrite !app_length, noise_length by lia. split; [reflexivity|].
  split; [rewrite firstn_app, firstn_all, Nat.sub_diag; cbn; apply app_nil_r|].
  intros i j Hi Hj. rewrite !app_nth2 by lia.
  replace (length (d_X D) + i - length (d_X D)) with i by lia. replace (length (d_X D) + length S - length (d_X D)) with n in * by lia.
  apply (noise_nth g (d_dim D)); try assumption; try lia.
  apply Forall_forall. intros x Hx. pose proof (proj1 (Forall_forall _ _) S2 x Hx) as HN.
  destruct HN as (b & ps & _ & _ & _ & _ & _ & _ & HC). exact (proj1 HC).
Qed.

(** ** The constructor *)

(** The generator a sampler starts with, given the value passed as random_state. *)
Lemma set_random_state_spec v :
  match v with
  | RSNone | RSModule => set_random_state v = Ok (v, GGlobal)
  | RSInt z => set_random_state v = Ok (v, GOwn z 0)
  | RSState i => set_random_state v = Ok (v, GShared i)
  | RSOther => set_random_state v = Err ValueError
  end.
Proof. destruct v; reflexivity. Qed.

Lemma smote_init_inv d o : smote_init d = Ok o ->
  (exists p, num_of (o_proportion o) = Some p /\ xltb p (Fin 0) = false) /\
  (exists k, num_of (o_n_neighbors o) = Some k /\ xltb k (Fin 1) = false) /\
  set_random_state (o_init o) = Ok (o_init o, o_gen o) /\
  o_n_jobs o <> PNone /\ (forall z, o_n_jobs o = PInt z -> (0 < z)%Z).
Proof.
  intro H. unfold smote_init in H.
  apply inv_bind in H. destruct H as [p [_ H]].
  apply inv_bind in H. destruct H as [k [_ H]].
  apply inv_bind in H. destruct H as [nnp [_ H]].
  apply inv_bind in H. destruct H as [ssp [_ H]].
  apply inv_bind in H. destruct H as [nj [_ H]].
  apply inv_bind in H. destruct H as [rs [_ H]].
  apply inv_bind in H. destruct H as [ssd [_ H]].
  destruct (negb _); [discriminate|].
  apply inv_bind in H. destruct H as [st [Hst H]].
  apply inv_bind in H. destruct H as [pn [Hpn H]].
  apply inv_bind in H. destruct H as [u1 [Hc1 H]].
  apply inv_bind in H. destruct H as [kn [Hkn H]].
  apply inv_bind in H. destruct H as [u2 [Hc2 H]].
  apply inv_bind in H. destruct H as [u3 [Hc3 H]].
  destruct (dget ssd "n_dim") as [nd|]; [|discriminate].
  destruct (dget ssd "simplex_sampling") as [ss|]; [|discriminate].
  destruct (dget ssd "within_simplex_sampling") as [ws|]; [|discriminate].
  destruct (dget ssd "gaussian_component") as [g|]; [|discriminate].
  injection H as <-. cbn [o_proportion o_n_neighbors o_init o_gen o_n_jobs].
  unfold as_num in Hpn, Hkn. destruct (num_of p) as [pn'|]; [injection Hpn as ->|discriminate].
  destruct (num_of k) as [kn'|]; [injection Hkn as ->|discriminate].
  unfold check_greater_or_equal, raise_if in Hc1, Hc2.
  destruct (xltb pn (Fin 0)) eqn:E1; [discriminate|]. destruct (xltb kn (Fin 1)) eqn:E2; [discriminate|].
  split; [eauto|]. split; [eauto|]. split; [destruct rs; cbn in Hst; try discriminate; injection Hst as <-; reflexivity|].
  unfold check_n_jobs, raise_if in Hc3. split.
  - intros ->. discriminate.
  - intros z ->. destruct (Z.leb_spec z 0); [discriminate|assumption].
Qed.

Lemma smote_init_checked d o : smote_init d = Ok o ->
  (exists p, num_of (o_proportion o) = Some p) /\
  (forall q, num_of (o_proportion o) = Some (Fin q) -> (0 <= q)%Q) /\
  (exists k, num_of (o_n_neighbors o) = Some k) /\
  (forall q, num_of (o_n_neighbors o) = Some (Fin q) -> (1 <= q)%Q) /\
  o_n_jobs o <> PNone /\ (forall z, o_n_jobs o = PInt z -> (0 < z)%Z).
Proof.
  intro H. destruct (smote_init_inv d o H) as ((p & P1 & P2) & (k & K1 & K2) & _ & J1 & J2).
  split; [eauto|]. split.
  { intros q E. rewrite E in P1. injection P1 as <-. cbn in P2. apply Qnot_lt_le. intro L. apply Qlt_b_spec in L. congruence. }
  split; [eauto|]. split; [|auto].
  intros q E. rewrite E in K1. injection K1 as <-. cbn in K2. apply Qnot_lt_le. intro L. apply Qlt_b_spec in L. congruence.
Qed.

Lemma smote_init_generator d o : smote_init d = Ok o ->
  match o_init o with
  | RSNone | RSModule => o_gen o = GGlobal
  | RSInt z => o_gen o = GOwn z 0
  | RSState i => o_gen o = GShared i
  | RSOther => False
  end.
Proof.
  intro H. destruct (smote_init_inv d o H) as (_ & _ & G & _). destruct (o_init o); cbn in G; congruence.
Qed.

(** The values a constructed object stores are the ones passed. *)
Lemma smote_init_values d o : smote_init d = Ok o ->
  (forall v, dget d "proportion" = Some (VPy v) -> o_proportion o = v) /\
  (forall v, dget d "n_neighbors" = Some (VPy v) -> o_n_neighbors o = v) /\
  (forall z, dget d "random_state" = Some (VPy (PInt z)) -> o_init o = RSInt z) /\
  (forall s, dget d "random_state" = Some (VRs s) -> o_init o = s) /\
  (dget d "random_state" = None -> o_init o = RSNone).
Proof.
  intro H. unfold smote_init in H.
  apply inv_bind in H. destruct H as [p [Hp H]].
  apply inv_bind in H. destruct H as [k [Hk H]].
  apply inv_bind in H. destruct H as [nnp [_ H]].
  apply inv_bind in H. destruct H as [ssp [_ H]].
  apply inv_bind in H. destruct H as [nj [_ H]].
  apply inv_bind in H. destruct H as [rs [Hrs H]].
  apply inv_bind in H. destruct H as [ssd [_ H]].
  destruct (negb _); [discriminate|].
  apply inv_bind in H. destruct H as [st [Hst H]].
  do 5 (apply inv_bind in H; destruct H as [? [_ H]]).
  destruct (dget ssd "n_dim") as [nd|]; [|discriminate].
  destruct (dget ssd "simplex_sampling") as [ss|]; [|discriminate].
  destruct (dget ssd "within_simplex_sampling") as [ws|]; [|discriminate].
  destruct (dget ssd "gaussian_component") as [g|]; [|discriminate].
  injection H as <-. cbn [o_proportion o_n_neighbors o_init].
  assert (Er : fst st = rs) by (destruct rs; cbn in Hst; try discriminate; injection Hst as <-; reflexivity).
  rewrite Er. unfold kw in Hp, Hk.
  split; [intros v E; rewrite E in Hp; congruence|]. split; [intros v E; rewrite E in Hk; congruence|].
  split; [intros z E; rewrite E in Hrs; congruence|]. split; [intros z E; rewrite E in Hrs; congruence|].
  intros E; rewrite E in Hrs; congruence.
Qed.
