(** Proofs about SMOTE_AMSR and DEAGO. *)

From Coq Require Import List ZArith QArith Qabs Qminmax Qround Qpower Bool Arith Lia Lqa Sorting.Sorted Permutation.
From Verif Require Import Np PyVal NpFacts BaseFacts SimplexModel Spec SpecDanger SpecNoise SpecComp SimplexFacts SimplexGeom Float64
  SamplerModel SamplerFacts OversFacts BaseModel KnnFacts DangerModel DangerFacts BorderFacts ClusterModel ClusterOversModel OversGen
  ClusterOversFacts ClusterFacts NoiseModel NoiseFacts NoiseFacts2 CompModel CompFacts CompFacts2 CompFacts3 CompFacts4 EditModel SpecEdit EditFacts EditFacts3 EditFacts4 EditFacts5
  SpecNear NearFacts NearFacts2 LevelModel SpecLevel LevelFacts LevelFacts3 LevelFacts4 SpecGroup GroupFacts GroupFacts2 GroupFacts4 WrapModel SpecWrap WrapFacts WrapFacts2 WrapFacts3 DirModel SpecDir DirFacts DirFacts3 RegionModel SpecRegion RegionFacts RegionFacts2 RegionFacts3 RegionFacts4 SearchModel SpecSearch SearchFacts2 GraphModel SpecGraph GraphFacts GraphFacts2 GraphFacts4 GraphFacts5 GraphFacts6 GraphFacts8 MixModel SpecMix MixFacts MixFacts3 MixFacts4 EmbedModel SpecEmbed.
Import ListNotations.
Open Scope nat_scope.

(** ** SMOTE_AMSR *)

Lemma amsr_steps_nth gap s us j : j < length us ->
  let v := if Qlt_b 0 s then (Qabs gap / s)%Q else Qabs gap in
  (nth j (amsr_steps gap s us) 0 == if Qle_bool 0 gap then nth j us 0 * (1 - v) + v else nth j us 0 * (1 - v))%Q.
Proof.
  intros Hj v. unfold amsr_steps. destruct (Qle_bool 0 gap) eqn:E.
  - rewrite (nth_map_in _ 0%Q) by exact Hj. apply Qle_bool_iff in E. unfold v. destruct (Qlt_b 0 s); rewrite Qabs_pos by exact E; reflexivity.
  - rewrite (nth_map_in _ 0%Q) by exact Hj. assert (H : (gap <= 0)%Q) by (destruct (Qlt_le_dec 0 gap) as [C|C]; [|exact C]; exfalso; assert (Qle_bool 0 gap = true) by (apply Qle_bool_iff; lra); congruence).
    unfold v. destruct (Qlt_b 0 s); rewrite Qabs_neg by exact H; reflexivity.
Qed.

Lemma amsr_steps_length gap s us : length (amsr_steps gap s us) = length us.
Proof. unfold amsr_steps. destruct (Qle_bool 0 gap); apply map_length. Qed.

(** The move written from the lower to the higher score. *)
Lemma amsr_move_pulled score s d us a b : (Qabs (score a - score b) <= s)%Q -> length us = d -> Forall unit_share us -> length a = d -> length b = d ->
  pulled score s d a b (amsr_move s us (score a, a) (score b, b)).
Proof.
  intros Hs Lu Hu La Lb. assert (S0 : (0 <= s)%Q) by (pose proof (Qabs_nonneg (score a - score b)); lra).
  set (w := if Qlt_b 0 s then (Qabs (score b - score a) / s)%Q else Qabs (score b - score a)).
  assert (EA : (Qabs (score b - score a) == Qabs (score a - score b))%Q) by (now rewrite Qabs_Qminus).
  assert (Hw : (0 <= w <= 1)%Q /\ (w * s == Qabs (score a - score b))%Q /\ ((s == 0)%Q -> (w == 0)%Q)).
  { unfold w. destruct (Qlt_b 0 s) eqn:E.
    - apply Qlt_b_iff' in E. rewrite EA. split; [split|split].
      + apply Qle_shift_div_l; [exact E|]. rewrite Qmult_0_l. apply Qabs_nonneg.
      + apply Qle_shift_div_r; [exact E|]. lra.
      + field. lra.
      + lra.
    - assert (Z : (s == 0)%Q). { destruct (Qlt_le_dec 0 s) as [C|C]; [|lra]. apply Qlt_b_iff' in C. congruence. }
      pose proof (Qabs_nonneg (score a - score b)). split; [split; lra|]. split; [rewrite EA, Z in *; lra|intros _; lra]. }
  exists w. destruct Hw as (H1 & H2 & H3). split; [exact H1|]. split; [exact H2|]. split; [exact H3|].
  unfold amsr_move. cbn [fst snd]. set (steps := amsr_steps _ s us). assert (Ls : length steps = d) by (unfold steps; now rewrite amsr_steps_length).
  assert (LV : length (vadd a (map2 Qmult steps (vsub b a))) = d).
  { rewrite vadd_length, map2_length. unfold vsub. rewrite map2_length. lia. }
  assert (NV : forall j, j < d -> (nth j (vadd a (map2 Qmult steps (vsub b a))) 0 == nth j a 0 + nth j steps 0 * (nth j b 0 - nth j a 0))%Q).
  { intros j Hj. assert (Lv : length (vsub b a) = d) by (unfold vsub; rewrite map2_length; lia).
    rewrite vadd_nth by (rewrite ?map2_length; lia). rewrite (map2_nth _ _ _ _ 0%Q 0%Q) by lia. rewrite vsub_nth by lia. reflexivity. }
  assert (US : forall j, j < d -> (0 <= nth j us 0 < 1)%Q).
  { intros j Hj. rewrite Forall_forall in Hu. apply Hu, nth_In. lia. }
  assert (BND : forall u, (0 <= u < 1)%Q -> (0 <= u * (1 - w) <= 1 - w)%Q).
  { intros u [U1 U2]. split; [apply Qmult_le_0_compat; lra|]. assert (0 <= (1 - u) * (1 - w))%Q by (apply Qmult_le_0_compat; lra). lra. }
  pose proof (fun j Hj => amsr_steps_nth (score b - score a) s us j Hj) as NS. cbv zeta in NS. fold w in NS. fold steps in NS.
  split; intros Hle; (split; [exact LV|]); intros j Hj; specialize (NS j ltac:(lia)); specialize (BND _ (US j Hj)); specialize (NV j Hj).
  - assert (E : Qle_bool 0 (score b - score a) = true) by (apply Qle_bool_iff; lra). rewrite E in NS. exists (nth j us 0 * (1 - w) + w)%Q.
    split; [lra|]. rewrite NV, NS. reflexivity.
  - destruct (Qle_bool 0 (score b - score a)) eqn:E.
    + apply Qle_bool_iff in E. assert (Z : (w == 0)%Q).
      { assert (ZZ : (w * s == 0)%Q) by (rewrite H2; assert (score a - score b == 0)%Q as -> by lra; reflexivity).
        destruct (Qeq_dec s 0) as [G|G]; [now apply H3|]. apply Qmult_integral in ZZ. destruct ZZ; [assumption|contradiction]. }
      exists (1 - (nth j us 0 * (1 - w) + w))%Q. pose proof (US j Hj). assert (E0 : (nth j us 0 * (1 - w) + w == nth j us 0)%Q) by (rewrite Z; ring).
      split; [lra|]. rewrite NV, NS, E0. ring.
    + exists (1 - nth j us 0 * (1 - w))%Q. split; [lra|]. rewrite NV, NS. ring.
Qed.

Lemma pulled_sym score s d a b x : pulled score s d a b x -> pulled score s d b a x.
Proof.
  intros (w & H1 & H2 & H3 & H4 & H5). exists w. split; [exact H1|]. split; [rewrite H2; now rewrite Qabs_Qminus|]. split; [exact H3|]. split; assumption.
Qed.

Lemma score_range_cols (score : row -> Q) P : P <> [] ->
  score_range score P (col_max (map score P) - col_min (map score P)) /\
  forall a b, In a P -> In b P -> (Qabs (score a - score b) <= col_max (map score P) - col_min (map score P))%Q.
Proof.
  intros H. assert (H' : map score P <> []) by (destruct P; [congruence|discriminate]).
  destruct (col_max_spec _ H') as [M1 M2]. destruct (col_min_spec _ H') as [N1 N2].
  apply in_map_iff in M1. destruct M1 as (b & Eb & Hb). apply in_map_iff in N1. destruct N1 as (a & Ea & Ha). split.
  - exists a, b. split; [exact Ha|]. split; [exact Hb|]. split; [rewrite Ea, Eb; reflexivity|]. intros x Hx. rewrite Ea, Eb. split; [apply N2|apply M2]; now apply in_map.
  - intros x z Hx Hz. apply Qabs_Qle_condition. pose proof (M2 _ (in_map score _ _ Hx)). pose proof (M2 _ (in_map score _ _ Hz)).
    pose proof (N2 _ (in_map score _ _ Hx)). pose proof (N2 _ (in_map score _ _ Hz)). split; lra.
Qed.

Lemma q_min_spec' a b : (q_min a b <= a /\ q_min a b <= b)%Q /\ (q_min a b = a \/ q_min a b = b).
Proof.
  unfold q_min. destruct (Qle_bool a b) eqn:E.
  - apply Qle_bool_iff in E. split; [split; lra|now left].
  - assert (~ (a <= b)%Q) by (intro G; apply Qle_bool_iff in G; congruence). split; [split; lra|now right].
Qed.

Lemma score_range_star (score : row -> Q) P m : P <> [] ->
  let s := (q_max (col_max (map score P)) (score m) - q_min (col_min (map score P)) (score m))%Q in
  score_range score (m :: P) s /\ forall a, In a P -> (Qabs (score a - score m) <= s)%Q.
Proof.
  intros H s. assert (H' : map score P <> []) by (destruct P; [congruence|discriminate]).
  destruct (col_max_spec _ H') as [M1 M2]. destruct (col_min_spec _ H') as [N1 N2].
  apply in_map_iff in M1. destruct M1 as (b & Eb & Hb). apply in_map_iff in N1. destruct N1 as (a & Ea & Ha).
  destruct (q_max_spec (col_max (map score P)) (score m)) as [[A1 A2] A3]. destruct (q_min_spec' (col_min (map score P)) (score m)) as [[B1 B2] B3]. split.
  - assert (G1 : exists a', In a' (m :: P) /\ score a' = q_min (col_min (map score P)) (score m)).
    { destruct B3 as [B3|B3]; rewrite B3; [exists a; split; [now right|assumption]|exists m; split; [now left|reflexivity]]. }
    assert (G2 : exists b', In b' (m :: P) /\ score b' = q_max (col_max (map score P)) (score m)).
    { destruct A3 as [A3|A3]; rewrite A3; [exists b; split; [now right|assumption]|exists m; split; [now left|reflexivity]]. }
    destruct G1 as (a' & Ha' & Ea'), G2 as (b' & Hb' & Eb'). exists a', b'. split; [exact Ha'|]. split; [exact Hb'|]. unfold s. rewrite Ea', Eb'. split; [reflexivity|].
    intros x [<-|Hx]; [split; assumption|]. pose proof (M2 _ (in_map score _ _ Hx)). pose proof (N2 _ (in_map score _ _ Hx)). split; lra.
  - intros x Hx. apply Qabs_Qle_condition. pose proof (M2 _ (in_map score _ _ Hx)). pose proof (N2 _ (in_map score _ _ Hx)). unfold s. split; lra.
Qed.

Lemma amsr_runs forest proportion tp d D mn mj n : draws_ok d -> wf_data (d_X D) (d_dim D) (d_y D) -> is_minority (d_y D) mn mj ->
  asked proportion (d_y D) mn mj = Ok n ->
  runs D mn n (amsr_spec (forest (d_X D)) tp D mn n) (amsr_sample forest proportion tp d D).
Proof.
  intros Hd [HX Hl] Hmin Ha. unfold amsr_sample, amsr_algorithm.
  apply (runs_intro _ _ _ _ _ _ _ Hmin Ha). intros st (E1 & E2 & _) H2 Hn. rewrite E1.
  set (score := forest (d_X D)). set (X_min := rows_with mn (d_X D) (d_y D)).
  assert (HL : length X_min = count_label (d_y D) mn) by now apply rows_with_length.
  assert (HR : rect (d_dim D) X_min) by now apply rows_with_rect.
  assert (Hne : X_min <> []) by (intros E; rewrite E in HL; cbn in HL; lia).
  destruct (mean_row_of (d_dim D) X_min Hne HR) as (m & Em & Hm). rewrite Em. cbn [bind].
  set (S0 := map (fun x => (score x, x)) X_min).
  assert (Ls : length S0 = length X_min) by apply map_length.
  assert (Es : map fst S0 = map score X_min) by (unfold S0; rewrite map_map; reflexivity).
  assert (G : forall i, i < length X_min -> get S0 i = Ok (score (nth i X_min []), nth i X_min [])).
  { intros i Hi. rewrite (get_nth (score [], []) S0 i) by lia. unfold S0. rewrite (map_nth (fun x => (score x, x))). reflexivity. }
  assert (RI : forall t s b, 0 < b -> exists i, randint d t s b = Ok i /\ i < b).
  { intros t s b Hb. unfold randint. destruct (Nat.eqb_spec b 0); [lia|]. eexists. split; [reflexivity|]. now apply Hd. }
  assert (LU : forall t, length (map (dr_unif d t) (seq 0 (d_dim D))) = d_dim D) by (intros t; now rewrite map_length, seq_length).
  assert (FU : forall t, Forall unit_share (map (dr_unif d t) (seq 0 (d_dim D)))).
  { intros t. rewrite Forall_map. apply Forall_forall. intros s _. apply Hd. }
  assert (RN : forall i, i < length X_min -> length (nth i X_min []) = d_dim D) by (intros i Hi; now apply rect_nth).
  destruct (score_range_star score X_min m Hne) as [SR1 SB1]. destruct (score_range_cols score X_min Hne) as [SR2 SB2].
  set (P := fun x => match tp with
    | TStar => exists b, In b X_min /\ pulled score (q_max (col_max (map score X_min)) (score m) - q_min (col_min (map score X_min)) (score m))%Q (d_dim D) b m x
    | TBus => exists i, S i < length X_min /\ pulled score (col_max (map score X_min) - col_min (map score X_min))%Q (d_dim D) (nth i X_min []) (nth (S i) X_min []) x
    | TMesh => exists a b, In a X_min /\ In b X_min /\ pulled score (col_max (map score X_min) - col_min (map score X_min))%Q (d_dim D) a b x
    end).
  destruct (mapM_draws (amsr_row tp d (d_dim D) (score m, m) S0) (seq 0 (Z.to_nat n)) (Z.to_nat n) P) as (S & ES & LS & FS).
  { apply seq_length. }
  { intros t _. unfold amsr_row, P. rewrite Es, Ls. destruct tp.
    - destruct (RI t 0 (length X_min) ltac:(lia)) as (i & Ei & Hi). rewrite Ei. cbn [bind]. rewrite (G i Hi). cbn [bind fst].
      eexists. split; [reflexivity|]. exists (nth i X_min []). split; [now apply nth_In|]. apply amsr_move_pulled; auto; [apply SB1; now apply nth_In|apply Hm].
    - destruct (RI t 0 (length X_min - 1) ltac:(lia)) as (i & Ei & Hi). rewrite Ei. cbn [bind]. rewrite (G (1 + i)), (G i) by lia. cbn [bind].
      eexists. split; [reflexivity|]. exists i. split; [lia|]. apply pulled_sym. apply amsr_move_pulled; auto; [apply SB2; apply nth_In; lia|apply RN; cbn; lia|apply RN; lia].
    - destruct (RI t 0 (length X_min) ltac:(lia)) as (i & Ei & Hi). destruct (RI t 1 (length X_min) ltac:(lia)) as (j & Ej & Hj). rewrite Ei, Ej. cbn [bind].
      rewrite (G i Hi), (G j Hj). cbn [bind]. eexists. split; [reflexivity|]. exists (nth j X_min []), (nth i X_min []). split; [now apply nth_In|]. split; [now apply nth_In|].
      apply amsr_move_pulled; auto. apply SB2; now apply nth_In. }
  rewrite ES. cbn [bind]. exists S. split; [reflexivity|]. unfold amsr_spec. fold X_min. split; [exact LS|].
  unfold P in FS. destruct tp; [exists m; eexists; split; [exact Hm|]; split; [exact SR1|]; exact FS|eexists; split; [exact SR2|exact FS]..].
Qed.
