(** Proofs about SMOBD. *)

From Coq Require Import List ZArith QArith Qabs Qminmax Qround Qpower Bool Arith Lia Lqa Sorting.Sorted Permutation.
From Verif Require Import Np PyVal NpFacts BaseFacts SimplexModel Spec SpecDanger SpecNoise SpecComp SimplexFacts SimplexGeom Float64
  SamplerModel SamplerFacts OversFacts BaseModel KnnFacts DangerModel DangerFacts BorderFacts ClusterModel ClusterOversModel OversGen
  ClusterOversFacts ClusterFacts NoiseModel NoiseFacts NoiseFacts2 CompModel CompFacts CompFacts2 CompFacts3 CompFacts4 EditModel SpecEdit EditFacts EditFacts3 EditFacts4 EditFacts5
  SpecNear NearFacts NearFacts2 LevelModel SpecLevel LevelFacts LevelFacts3 LevelFacts4 SpecGroup GroupFacts GroupFacts2 GroupFacts4 WrapModel SpecWrap WrapFacts WrapFacts2 WrapFacts3 DirModel SpecDir DirFacts DirFacts3 RegionModel SpecRegion RegionFacts RegionFacts3.
Import ListNotations.
Open Scope nat_scope.

Lemma q_max_spec a b : (a <= q_max a b /\ b <= q_max a b)%Q /\ (q_max a b = a \/ q_max a b = b).
Proof.
  unfold q_max. destruct (Qle_bool a b) eqn:E.
  - apply Qle_bool_iff in E. split; [split; lra|now right].
  - assert (~ (a <= b)%Q) by (intro G; apply Qle_bool_iff in G; congruence). split; [split; lra|now left].
Qed.

Lemma q_max_Qmax a b : (q_max a b == Qmax a b)%Q.
Proof.
  destruct (q_max_spec a b) as [[H1 H2] H3]. destruct (Q.max_spec a b) as [[A B]|[A B]]; destruct H3 as [E|E]; rewrite E in *; rewrite B; lra.
Qed.

Lemma max_of_spec l : l <> [] -> exists m, max_of l = Ok m /\ largest l m.
Proof.
  destruct l as [|q l]; [congruence|]. intros _. eexists. split; [reflexivity|].
  assert (G : forall q, (forall x, x = q \/ In x l -> (x <= fold_left q_max l q)%Q) /\ (fold_left q_max l q = q \/ In (fold_left q_max l q) l)).
  { clear q. induction l as [|a l IH]; intros q; cbn [fold_left].
    - split; [|now left]. intros x [->|[]]. lra.
    - destruct (IH (q_max q a)) as [H1 H2]. destruct (q_max_spec q a) as [[M1 M2] M3]. pose proof (H1 _ (or_introl eq_refl)) as H0. split.
      + intros x [->|[->|Hx]]; [lra|lra|]. apply H1. now right.
      + destruct H2 as [->|H2]; [|right; now right]. destruct M3 as [->| ->]; [now left|right; now left]. }
  destruct (G q) as [H1 H2]. split; [destruct H2 as [H2|H2]; [left; now symmetry|now right]|].
  intros x [Hx|Hx]; apply H1; auto.
Qed.

Lemma largest_unique l m m' : largest l m -> largest l m' -> (m == m')%Q.
Proof. intros [A B] [C E]. specialize (B m' C). specialize (E m A). lra. Qed.

Lemma mean_ext_none l : In None l -> mean_ext l = None.
Proof.
  intros H. unfold mean_ext. destruct (forallb _ l) eqn:E; [|reflexivity]. rewrite forallb_forall in E. specialize (E None H). discriminate.
Qed.

Lemma no_noise t core reach : In None reach -> length core = length reach -> forall density : list Q, length density = length core ->
  map2 (fun (z : bool) q => if z then 0%Q else q) (map2 (fun c r => exceeds t (mean_ext core) c && exceeds t (mean_ext reach) r) core reach) density = density.
Proof.
  intros H. rewrite (mean_ext_none reach H). set (m := mean_ext core). clearbody m. clear H.
  revert reach. induction core as [|c core IH]; intros [|r reach] L [|q density] Ld; try discriminate; [reflexivity|].
  change (map2 (fun c r => exceeds t m c && exceeds t None r) (c :: core) (r :: reach)) with ((exceeds t m c && exceeds t None r) :: map2 (fun c r => exceeds t m c && exceeds t None r) core reach).
  change (exceeds t None r) with false. rewrite andb_false_r.
  change (q :: map2 (fun (z : bool) q => if z then 0%Q else q) (map2 (fun c r => exceeds t m c && exceeds t None r) core reach) density = q :: density).
  f_equal. apply IH; cbn in *; lia.
Qed.

Definition finites (core : list (option Q)) : list Q := flat_map (fun o => match o with Some q => [q] | None => [] end) core.

Lemma finites_in core q : In q (finites core) <-> In (Some q) core.
Proof.
  unfold finites. rewrite in_flat_map. split.
  - intros ([x|] & H & Hq); cbn in Hq; [|contradiction]. destruct Hq as [<-|[]]. exact H.
  - intros H. exists (Some q). split; [exact H|now left].
Qed.

(** The weights before normalisation. *)
Definition smobd_weights (eta1 m m1 m2 : Q) (core : list (option Q)) (counts : list Q) : list Q :=
  map2 (fun a b => a / q_max m1 (1 # 100000000) * eta1 + b / q_max m2 (1 # 100000000) * (1 - eta1))%Q
    (map (fun o => match o with Some q => q | None => (m * (11 # 10))%Q end) core) counts.

Lemma smobd_density_eq dist nn optics radius_counts p X_min core reach : knn_ok dist nn -> radius_counts_ok radius_counts -> X_min <> [] ->
  optics (Nat.min (length X_min - 1) (sb_min_samples p)) (sb_max_eps p) X_min = Ok (core, reach) ->
  length core = length X_min -> length reach = length X_min -> In None reach ->
  let counts := map (fun c => inject_Z (Z.of_nat c)) (radius_counts X_min (sb_max_eps p)) in
  ((forall q, ~ In (Some q) core) -> smobd_density nn optics radius_counts p X_min = Err ValueError) /\
  (forall q, In (Some q) core -> exists T m m1 m2, nearest_table dist X_min X_min (Nat.min (length X_min) (sb_min_samples p + 1)) T /\
     largest (finites core) m /\ largest (map (fun o => match o with Some q => q | None => (m * (11 # 10))%Q end) core) m1 /\ largest counts m2 /\
     smobd_density nn optics radius_counts p X_min = Ok (T, fix_density (map Fin (smobd_weights (sb_eta1 p) m m1 m2 core counts)))).
Proof.
  intros Hnn Hrc Hne EO LC LRh HN counts. unfold smobd_density. rewrite EO. cbn [bind].
  destruct (Hnn X_min X_min (Nat.min (length X_min) (sb_min_samples p + 1))) as (T & ET & HT); [lia|]. rewrite ET. cbn [bind].
  fold (finites core). destruct (Hrc X_min (sb_max_eps p)) as [Lc Fc]. set (rc := radius_counts X_min (sb_max_eps p)) in *.
  assert (Hrc0 : rc <> []) by (intros E; rewrite E in Lc; cbn in Lc; destruct X_min; [congruence|discriminate]).
  split.
  - intros H. destruct (finites core) as [|q l] eqn:E; [reflexivity|]. exfalso. apply (H q), finites_in. rewrite E. now left.
  - intros q Hq. apply finites_in in Hq. assert (F0 : finites core <> []) by (intros E; rewrite E in Hq; destruct Hq).
    destruct (Nat.eqb_spec (length (finites core)) 0) as [E|_]; [destruct (finites core); [congruence|discriminate]|].
    assert (C0 : forallb (Nat.eqb 0) rc = false).
    { destruct rc as [|c rc']; [congruence|]. inversion Fc; subst. destruct c; [lia|reflexivity]. }
    rewrite C0. cbn [orb]. destruct (max_of_spec _ F0) as (m & Em & Hm). rewrite Em. cbn [bind].
    set (f1 := map _ core). destruct (max_of_spec f1) as (m1 & E1 & H1); [intros E; apply (f_equal (@length Q)) in E; unfold f1 in E; rewrite map_length, LC in E; destruct X_min; [congruence|discriminate]|].
    rewrite E1. cbn [bind]. fold counts. destruct (max_of_spec counts) as (m2 & E2 & H2); [intros E; apply (f_equal (@length Q)) in E; unfold counts in E; rewrite map_length in E; destruct rc; [congruence|discriminate]|].
    rewrite E2. cbn [bind]. rewrite no_noise; [|assumption|lia|].
    2:{ unfold f1, counts. rewrite map2_length, !map_length. lia. }
    exists T, m, m1, m2. auto.
Qed.

Lemma smobd_runs dist nn optics radius_counts p rs D mn mj n :
  knn_ok dist nn -> optics_ok optics -> radius_counts_ok radius_counts -> rngs_ok rs -> wf_data (d_X D) (d_dim D) (d_y D) -> is_minority (d_y D) mn mj ->
  asked (sb_proportion p) (d_y D) mn mj = Ok n -> (0 <= sb_eta1 p <= 1)%Q -> 1 <= sb_min_samples p ->
  runs D mn n (smobd_spec dist optics radius_counts p D mn n) (smobd_sample nn optics radius_counts p rs D).
Proof.
  intros Hnn Ho Hrc Hrs [HX Hl] Hmin Ha Heta Hms. unfold smobd_sample, smobd_algorithm.
  apply (runs_intro _ _ _ _ _ _ _ Hmin Ha). intros st (E1 & E2 & _) H2 Hn. rewrite E1.
  unfold smobd_spec. cbv zeta. set (X_min := rows_with mn (d_X D) (d_y D)).
  assert (HL : length X_min = count_label (d_y D) mn) by now apply rows_with_length.
  assert (HR : rect (d_dim D) X_min) by now apply rows_with_rect.
  assert (Hne : X_min <> []) by (intros E; rewrite E in HL; cbn in HL; lia).
  assert (COPY : forall Q : list row -> Prop, Q [] -> exists S, Ok (d_X D, d_y D) = Ok (extended D st S) /\ Q S).
  { intros Q HQ. exists []. unfold extended. cbn [length repeat]. rewrite !app_nil_r. split; [reflexivity|exact HQ]. }
  destruct (Ho (Nat.min (length X_min - 1) (sb_min_samples p)) (sb_max_eps p) X_min) as [(core & reach & EO & LC & LRh & Hpos & HN)|EO].
  2:{ rewrite EO. unfold smobd_density. rewrite EO. cbn [bind]. now apply COPY. }
  rewrite EO. specialize (HN Hne).
  destruct (smobd_density_eq dist nn optics radius_counts p X_min core reach Hnn Hrc Hne EO LC LRh HN) as [G1 G2].
  assert (CASE : finites core = [] \/ exists q0, In (Some q0) core).
  { destruct (finites core) as [|q l] eqn:EF; [now left|right]. exists q. apply finites_in. rewrite EF. now left. }
  destruct CASE as [EF|[q0 H0]].
  { assert (G : forall q, ~ In (Some q) core) by (intros q Hq; apply finites_in in Hq; rewrite EF in Hq; destruct Hq).
    rewrite (G1 G). apply COPY. split; [reflexivity|]. intros m Hm. exfalso. now apply (G m). }
  destruct (G2 q0 H0) as (T & m & m1 & m2 & HT & Hm & Hm1 & Hm2 & ED). rewrite ED. clear G1 G2 ED.
  destruct (nearest_table_shape _ _ _ _ _ HT) as (L & R & F). set (k := Nat.min (length X_min) (sb_min_samples p + 1)) in *.
  destruct (Hrc X_min (sb_max_eps p)) as [Lc Fc]. set (rc := radius_counts X_min (sb_max_eps p)) in *.
  set (counts := map (fun c => inject_Z (Z.of_nat c)) rc) in *.
  set (f1 := map (fun o => match o with Some q => q | None => (m * (11 # 10))%Q end) core) in *.
  set (W := smobd_weights (sb_eta1 p) m m1 m2 core counts).
  assert (Lf : length f1 = length X_min) by (unfold f1; now rewrite map_length).
  assert (Lcc : length counts = length X_min) by (unfold counts; now rewrite map_length).
  assert (LW : length W = length X_min) by (unfold W, smobd_weights; fold f1; rewrite map2_length; lia).
  assert (m0 : (0 <= m)%Q) by (destruct Hm as [Hm _]; apply finites_in in Hm; now apply Hpos).
  assert (Ff : forall b, b < length X_min -> (0 <= nth b f1 0)%Q).
  { intros b Hb. unfold f1. rewrite (nth_map' _ None) by lia. destruct (nth b core None) eqn:E; [|lra]. apply Hpos. rewrite <- E. apply nth_In. lia. }
  assert (Fq : forall b, b < length X_min -> (1 <= nth b counts 0)%Q).
  { intros b Hb. unfold counts. rewrite (nth_map' _ 0) by lia. change 1%Q with (inject_Z 1). rewrite <- Zle_Qle.
    rewrite Forall_forall in Fc. specialize (Fc (nth b rc 0) ltac:(apply nth_In; lia)). lia. }
  set (tiny := (1 # 100000000)%Q) in *.
  assert (P1 : (0 < q_max m1 tiny)%Q). { destruct (q_max_spec m1 tiny) as [[_ H] _]. eapply Qlt_le_trans; [|exact H]. reflexivity. }
  assert (M2 : (1 <= m2)%Q). { destruct Hm2 as [Hi _]. apply (In_nth _ _ 0%Q) in Hi as (b & Hb & <-). apply Fq. lia. }
  assert (P2 : q_max m2 tiny = m2). { destruct (q_max_spec m2 tiny) as [[H _] [E|E]]; [exact E|]. exfalso. rewrite E in H. unfold tiny in H. lra. }
  assert (NW : forall b, b < length X_min -> (nth b W 0 == sb_eta1 p * (nth b f1 0 / q_max m1 tiny) + (1 - sb_eta1 p) * (nth b counts 0 / m2))%Q).
  { intros b Hb. unfold W, smobd_weights. fold f1. fold tiny. rewrite (map2_nth _ _ _ _ 0%Q 0%Q 0%Q) by lia. rewrite P2. ring. }
  assert (PW : Forall (Qle 0) W).
  { apply Forall_forall. intros q Hq. apply (In_nth _ _ 0%Q) in Hq as (b & Hb & <-). rewrite LW in Hb. rewrite NW by assumption.
    assert (A1 : (0 <= nth b f1 0 / q_max m1 tiny)%Q) by (apply Qle_shift_div_l; [assumption|]; rewrite Qmult_0_l; now apply Ff).
    assert (A2 : (0 <= nth b counts 0 / m2)%Q) by (apply Qle_shift_div_l; [lra|]; rewrite Qmult_0_l; specialize (Fq b Hb); lra).
    pose proof (Qmult_le_0_compat (sb_eta1 p) _ ltac:(lra) A1). pose proof (Qmult_le_0_compat (1 - sb_eta1 p) _ ltac:(lra) A2). lra. }
  set (dens := fix_density (map Fin W)).
  assert (EN : map nan_to_num (map Fin W) = W) by (rewrite map_map; cbn; apply map_id).
  assert (Hs : (qsum dens == 1)%Q). { apply fix_density_sum. intros E. apply (f_equal (@length _)) in E. rewrite map_length, LW in E. destruct X_min; [congruence|discriminate]. }
  assert (Hd0 : Forall (Qle 0) dens). { apply fix_density_nonneg. apply Forall_map. exact PW. }
  assert (Ld : length dens = length X_min) by (unfold dens; rewrite fix_density_length, map_length; exact LW).
  assert (HB : exists base, np_choice (rs 0) (seq 0 (length X_min)) (Z.to_nat n) dens = Ok base /\ length base = Z.to_nat n /\
     Forall (fun b => b < length X_min /\ ((forall a, a < length X_min -> (nth a W 0 == 0)%Q) \/ (0 < nth b W 0)%Q)) base).
  { unfold np_choice. assert (FB : forallb (fun q => Qle_bool 0 q) dens = true).
    { apply forallb_forall. intros q Hq. apply Qle_bool_iff. rewrite Forall_forall in Hd0. now apply Hd0. }
    rewrite FB. destruct (rng_choice _ (Hrs 0) dens (Z.to_nat n) Hd0 Hs) as [C1 C2]. set (idx := r_choice (rs 0) dens (Z.to_nat n)) in *.
    assert (C3 : Forall (fun i => i < length (seq 0 (length X_min))) idx).
    { eapply Forall_impl; [|exact C2]. cbv beta. intros i (q & E & _). assert (H : nth_error dens i <> None) by congruence. apply nth_error_Some in H. now rewrite seq_length, <- Ld. }
    exists idx. split.
    { rewrite (gather_map 0 _ _ C3). f_equal. rewrite <- (map_id idx) at 2. apply map_ext_in. intros i Hi. rewrite Forall_forall in C3. specialize (C3 i Hi). rewrite seq_length in C3. now rewrite seq_nth. }
    split; [exact C1|]. rewrite Forall_forall in C2, C3. apply Forall_forall. intros i Hi. specialize (C3 i Hi). rewrite seq_length in C3. split; [exact C3|].
    destruct (C2 i Hi) as (q & E & Hq). destruct (Qeq_bool (qsum W) 0) eqn:EQ.
    - left. apply Qeq_bool_iff in EQ. intros a Ha0. pose proof (proj1 (Forall_forall _ _) PW) as PW'.
      assert (In (nth a W 0%Q) W) by (apply nth_In; lia). assert (nth a W 0 <= qsum W)%Q by (apply NpFacts.qsum_in_le; assumption). specialize (PW' _ H). lra.
    - right. assert (NQ : ~ (qsum W == 0)%Q) by (intro G; apply Qeq_bool_iff in G; congruence).
      assert (ED : dens = map (fun x => (x / qsum W)%Q) W) by (unfold dens; rewrite fix_density_nonzero by (rewrite EN; exact NQ); now rewrite EN).
      rewrite ED in E. rewrite nth_error_map in E. rewrite (nth_error_nth' W 0%Q) in E by lia. cbn in E. injection E as E.
      assert (W0 : (0 <= nth i W 0)%Q) by (apply (proj1 (Forall_forall _ _) PW), nth_In; lia). destruct (Qlt_le_dec 0 (nth i W 0%Q)) as [|G]; [assumption|]. exfalso.
      assert (Z : (nth i W 0 == 0)%Q) by lra. rewrite <- E, Z in Hq. unfold Qdiv in Hq. rewrite Qmult_0_l in Hq. now apply Qlt_irrefl in Hq. }
  destruct HB as (base & EB & B1 & B2). fold dens. rewrite EB. cbn [bind].
  destruct (choice_from1_ok (rs 1) k (Z.to_nat n) (Hrs 1)) as (c & EC & C1 & C2); [unfold k; lia|]. rewrite EC. cbn [bind].
  edestruct (mapM_draws (smobd_row X_min T) (combine base (combine c (r_unif (rs 2) (Z.to_nat n) (d_dim D)))) (Z.to_nat n)
    (fun x => exists b i, listed T b i /\ between unit_share (d_dim D) (nth b X_min []) (nth i X_min []) x /\
        ((forall a, a < length X_min -> (nth a W 0 == 0)%Q) \/ (0 < nth b W 0)%Q) /\ b < length X_min)) as (S & ES & LS & FS).
  { rewrite !combine_length, !unif_length by apply Hrs. lia. }
  { intros (b & j & u) Hd. apply in_combine in Hd as [Hb Hd]. apply in_combine in Hd as [Hj Hu].
    rewrite Forall_forall in B2, C2. destruct (B2 _ Hb) as [B3 B4]. specialize (C2 _ Hj).
    destruct (unif_in _ _ _ _ (Hrs 2) Hu) as [U1 V1]. destruct (entry_listed _ _ _ _ _ b j HT B3 C2) as (i & Ei & Li & Ii).
    unfold smobd_row. rewrite (get_nth [] X_min b) by assumption. cbn [bind]. rewrite Ei. cbn [bind]. rewrite (get_nth [] X_min i) by assumption. cbn [bind].
    eexists. split; [reflexivity|]. exists b, i. split; [assumption|]. split; [|split; [exact B4|exact B3]]. apply vlerp_between; auto; now apply rect_nth. }
  rewrite ES. cbn [bind]. exists S. split; [reflexivity|]. split; [intros G; exfalso; now apply (G q0)|].
  intros m' Hm' Hmax'. split; [exact LS|]. exists T. split; [exact HT|]. intros m1' m2' H1' H2'.
  assert (Em : (m' == m)%Q). { apply (largest_unique (finites core)); [|exact Hm]. split; [now apply finites_in|]. intros q Hq. apply Hmax'. now apply finites_in. }
  assert (Ecd : forall b, b < length X_min -> (nth b (map (fun o => match o with Some q => q | None => (11 # 10) * m' end)%Q core) 0 == nth b f1 0)%Q).
  { intros b Hb. unfold f1. rewrite !(nth_map' _ None) by lia. destruct (nth b core None); [reflexivity|]. rewrite Em. ring. }
  assert (Em1 : (m1' == m1)%Q).
  { destruct H1' as [A B]. destruct Hm1 as [C E]. apply (In_nth _ _ 0%Q) in A as (a & Ha1 & <-). rewrite map_length, LC in Ha1.
    assert (X1 : (nth a f1 0 <= m1)%Q) by (apply E, nth_In; lia). rewrite <- (Ecd a Ha1) in X1.
    apply (In_nth _ _ 0%Q) in C as (c0 & Hc0 & Ec0). rewrite Lf in Hc0. specialize (B (nth c0 (map (fun o => match o with Some q => q | None => (11 # 10) * m' end)%Q core) 0%Q)).
    specialize (B ltac:(apply nth_In; rewrite map_length; lia)). pose proof (Ecd c0 Hc0) as Ec1. rewrite Ec0 in Ec1. rewrite Ec1 in B. lra. }
  assert (Em2 : (m2' == m2)%Q) by exact (largest_unique _ _ _ H2' Hm2).
  assert (EWW : forall b, b < length X_min -> (sb_eta1 p * (nth b (map (fun o => match o with Some q => q | None => (11 # 10) * m' end)%Q core) 0 / Qmax m1' tiny) +
     (1 - sb_eta1 p) * (nth b counts 0 / m2') == nth b W 0)%Q).
  { intros b Hb. rewrite (NW b Hb), (Ecd b Hb), Em1, Em2, q_max_Qmax. reflexivity. }
  eapply Forall_impl; [|exact FS]. intros x (b & i & A1 & A2 & A3 & A4). exists b, i. split; [exact A1|]. split; [exact A2|].
  destruct A3 as [A3|A3]; [left; intros a Ha0; rewrite (EWW a Ha0); now apply A3|right; rewrite (EWW b A4); exact A3].
Qed.

(** The noise threshold has no effect. *)
Lemma smobd_threshold dist nn optics radius_counts prop eta t t' ms eps rs D mn mj :
  knn_ok dist nn -> optics_ok optics -> radius_counts_ok radius_counts -> wf_data (d_X D) (d_dim D) (d_y D) -> is_minority (d_y D) mn mj ->
  smobd_sample nn optics radius_counts (mk_smobd prop eta t ms eps) rs D =
  smobd_sample nn optics radius_counts (mk_smobd prop eta t' ms eps) rs D.
Proof.
  intros Hnn Ho Hrc [HX Hl] Hmin. unfold smobd_sample.
  destruct (statistics_spec (d_y D) mn mj (proj1 Hmin)) as (st & Est & Hm & _). unfold sample_with. rewrite Est. cbn [bind].
  destruct (checks_fail checks_default st (d_dim D)) as [copy|e]; [|reflexivity]. cbn [bind]. destruct copy; [reflexivity|].
  assert (E1 : 0 < count_label (d_y D) (min_label st)) by (apply count_occ_In, Hm).
  unfold smobd_algorithm. cbn [sb_proportion sb_min_samples].
  destruct (det_n_to_sample_st prop st) as [k|e]; [|reflexivity]. cbn [bind]. destruct (k =? 0); [reflexivity|].
  set (X_min := rows_with (min_label st) (d_X D) (d_y D)).
  assert (E : smobd_density nn optics radius_counts (mk_smobd prop eta t ms eps) X_min = smobd_density nn optics radius_counts (mk_smobd prop eta t' ms eps) X_min).
  { assert (Hne : X_min <> []).
    { intros E. apply (f_equal (@length _)) in E. unfold X_min in E. rewrite rows_with_length in E by assumption. cbn [length] in E. unfold count_label in *. lia. }
    destruct (Ho (Nat.min (length X_min - 1) ms) eps X_min) as [(core & reach & EO & LC & LRh & Hpos & HN)|EO].
    2:{ unfold smobd_density. cbn [sb_min_samples sb_max_eps]. rewrite EO. reflexivity. }
    specialize (HN Hne). unfold smobd_density. cbn [sb_min_samples sb_max_eps sb_eta1 sb_t]. rewrite EO. cbn [bind].
    destruct (nn X_min X_min _); [|reflexivity]. cbn [bind]. destruct (_ || _); [reflexivity|]. destruct (max_of _); [|reflexivity]. cbn [bind].
    destruct (max_of (map _ core)); [|reflexivity]. cbn [bind]. destruct (max_of _); [|reflexivity]. cbn [bind].
    destruct (Hrc X_min eps) as [Lc _]. rewrite !no_noise; try assumption; try lia; try reflexivity; rewrite map2_length, !map_length; lia. }
  rewrite E. reflexivity.
Qed.
