(** Facts about SSO. *)

From Coq Require Import List ZArith QArith Qabs Qminmax Qround Qpower Bool Arith Lia Lqa Sorting.Sorted Permutation.
From Verif Require Import Np PyVal NpFacts BaseFacts SimplexModel Spec SpecDanger SpecNoise SpecComp SimplexFacts SimplexGeom Float64
  SamplerModel SamplerFacts OversFacts BaseModel KnnFacts DangerModel DangerFacts BorderFacts ClusterModel ClusterOversModel OversGen
  ClusterOversFacts ClusterFacts NoiseModel NoiseFacts NoiseFacts2 CompModel CompFacts CompFacts2 CompFacts3 CompFacts4 EditModel SpecEdit EditFacts EditFacts3 EditFacts4 EditFacts5
  SpecNear NearFacts NearFacts2 LevelModel SpecLevel LevelFacts LevelFacts3 LevelFacts4 SpecGroup GroupFacts GroupFacts2 GroupFacts4 WrapModel SpecWrap WrapFacts WrapFacts2 WrapFacts3 DirModel SpecDir DirFacts DirFacts3 RegionModel SpecRegion RegionFacts RegionFacts2 RegionFacts4 SearchModel SpecSearch SearchFacts SearchFacts2.
Import ListNotations.
Open Scope nat_scope.

Lemma fix_density_shares_x s : s <> [] -> shares_of (map nan_to_num s) (fix_density s).
Proof.
  intros Hs. split; [now rewrite fix_density_length, map_length|]. rewrite map_length. intros i Hi. split; intros H.
  - apply fix_density_zero in H. rewrite Forall_forall in H. apply H, nth_In. now rewrite fix_density_length.
  - rewrite fix_density_nonzero by assumption.
    rewrite (nth_indep _ 0%Q (0 / qsum (map nan_to_num s))%Q) by (rewrite !map_length; assumption).
    rewrite (map_nth (fun x => x / qsum (map nan_to_num s))%Q). reflexivity.
Qed.

Section Sso.
Variable spread : nat -> dataset -> Q.
Variable sensitivity : nat -> dataset -> res (list xnum).
Variables (p : sso_params) (rs : nat -> rng) (D : dataset) (mn : Z) (per : nat).
Hypothesis Hr : rngs_ok rs.
Hypothesis Hwf : wf_data (d_X D) (d_dim D) (d_y D).
Hypothesis Hsens : sensitivity_ok mn sensitivity.
Hypothesis Hspread : forall t D, (0 <= spread t D)%Q.
Hypothesis Hh : 2 <= so_h p.
Hypothesis Hn : 2 < count_label (d_y D) mn.
Hypothesis Hper : 1 <= per.

Let X_min := rows_with mn (d_X D) (d_y D).

Definition data_at (t : nat) (S : list row) : dataset := mk_data (d_X D ++ S) (d_dim D) (d_y D ++ repeat mn (t * per)).

Definition row_ok (S : list row) (i : nat) : Prop :=
  let t := i / per in
  let earlier := firstn (t * per) S in
  let D_t := data_at t earlier in
  let P := X_min ++ earlier in
  exists s w b, sensitivity t D_t = Ok s /\ shares_of (map nan_to_num s) w /\ b < length P /\ (0 < nth b w 0)%Q /\
    length (nth i S []) = d_dim D /\
    forall j, j < d_dim D -> (Qabs (nth j (nth i S []) 0 - nth j (nth b P []) 0) <= spread t D_t * (1 - nth b w 0))%Q.

Definition stage (t : nat) (D_t : dataset) : Prop :=
  exists S, D_t = data_at t S /\ length S = t * per /\ rect (d_dim D) S /\ forall i, i < t * per -> row_ok S i.

Lemma minority_at t S : length S = t * per -> rows_with mn (d_X (data_at t S)) (d_y (data_at t S)) = X_min ++ S.
Proof.
  intros L. unfold data_at. cbn [d_X d_y]. destruct Hwf as [_ HL]. rewrite rows_with_app by assumption. unfold X_min. f_equal.
  rewrite <- L. apply rows_with_repeat_same.
Qed.

Lemma sso_stage t D_t : stage t D_t -> exists D', sso_round spread sensitivity p rs mn per D_t t = Ok D' /\ stage (S t) D'.
Proof.
  intros (S & -> & LS & RS & HS). unfold sso_round. rewrite minority_at by assumption. set (P := X_min ++ S).
  assert (LX : length X_min = count_label (d_y D) mn) by (destruct Hwf; now apply rows_with_length).
  assert (RX : rect (d_dim D) X_min) by (destruct Hwf; now apply rows_with_rect).
  assert (RP : rect (d_dim D) P) by (apply Forall_app; split; assumption).
  assert (LP : length P = length X_min + t * per) by (unfold P; rewrite app_length; lia).
  destruct (Nat.ltb_spec (Nat.min (so_h p) (length P)) 2); [lia|].
  destruct (Hsens t (data_at t S)) as (s & Es & Ls & Fs).
  { cbn. destruct Hwf as [_ HL]. rewrite !app_length, repeat_length. lia. }
  rewrite Es. cbn [bind]. set (w := fix_density s).
  assert (Ls' : length s = length P).
  { rewrite Ls, LP, LX. cbn. rewrite count_label_app. destruct (Z.eq_dec mn mn); [reflexivity|congruence]. }
  assert (Lw : length w = length P) by (unfold w; now rewrite fix_density_length).
  assert (Hs0 : s <> []) by (destruct s; [cbn in Ls'; lia|discriminate]).
  assert (W0 : Forall (Qle 0) w) by now apply fix_density_nonneg.
  assert (W1 : (qsum w == 1)%Q) by now apply fix_density_sum.
  assert (Wle : Forall (fun x => x <= 1)%Q w) by now apply fix_density_le_one.
  destruct (rng_choice _ (Hr (2 * t)) w per W0 W1) as [C1 C2].
  unfold np_choice. replace (forallb (fun q => Qle_bool 0 q) w) with true.
  2:{ symmetry. apply forallb_forall. intros q Hq. apply Qle_bool_iff. rewrite Forall_forall in W0. auto. }
  set (idx := r_choice (rs (2 * t)) w per) in *. rewrite Forall_forall in C2.
  assert (Hidx : forall b, In b idx -> b < length P /\ (0 < nth b w 0)%Q).
  { intros b Hb. destruct (C2 b Hb) as (q & Eq & Hq). split.
    - rewrite <- Lw. apply nth_error_Some. congruence.
    - now rewrite (nth_error_nth _ _ _ Eq). }
  rewrite (gather_map 0) by (rewrite Forall_forall; intros b Hb; rewrite seq_length; now apply Hidx).
  rewrite (map_ext_in _ (fun b => b)).
  2:{ intros b Hb. rewrite seq_nth by (now apply Hidx). reflexivity. }
  rewrite map_id. cbn [bind]. set (us := r_unif (rs (2 * t + 1)) per (d_dim (data_at t S))). cbn [d_dim data_at] in us.
  assert (Lu : length us = per) by (apply unif_length, Hr).
  set (q := spread t (data_at t S)). pose proof (Hspread t (data_at t S)) as Hq. fold q in Hq.
  destruct (mapM_draws (sso_row q w P) (combine idx us) per (fun x => length x = d_dim D /\ exists b, b < length P /\ (0 < nth b w 0)%Q /\
     forall j, j < d_dim D -> (Qabs (nth j x 0 - nth j (nth b P []) 0) <= q * (1 - nth b w 0))%Q)) as (new & En & Ln & Fn).
  { rewrite combine_length, C1, Lu. lia. }
  { intros [b u] Hbu. pose proof (in_combine_l _ _ _ _ Hbu) as Hb. apply in_combine_r in Hbu.
    destruct (Hidx b Hb) as [Hb1 Hb2]. destruct (unif_in _ _ _ _ (Hr (2 * t + 1)) Hbu) as [Lu' Fu].
    unfold sso_row. cbn [fst snd]. rewrite (get_nth []) by assumption. cbn [bind]. rewrite (get_nth 0%Q) by lia. cbn [bind].
    eexists. split; [reflexivity|]. set (wb := nth b w 0%Q) in *.
    assert (Hwb : (wb <= 1)%Q) by (rewrite Forall_forall in Wle; apply Wle, nth_In; lia).
    assert (Lb : length (nth b P []) = d_dim D) by (unfold rect in RP; rewrite Forall_forall in RP; now apply RP, nth_In).
    split; [rewrite vadd_length, map_length; lia|]. exists b. split; [assumption|]. split; [assumption|]. intros j Hj.
    unfold vadd. rewrite (NpFacts.map2_nth _ _ _ _ 0%Q 0%Q 0%Q) by (rewrite ?map_length; lia). fold wb.
    rewrite (nth_map' _ 0%Q) by lia. rewrite Forall_forall in Fu. destruct (Fu (nth j u 0%Q)) as [U0 U1]; [apply nth_In; lia|].
    set (bj := nth j (nth b P []) 0%Q). set (uj := nth j u 0%Q) in *.
    setoid_replace (bj + q * (uj * (2 * (1 - wb)) - (1 - wb)) - bj)%Q with (q * ((1 - wb) * (2 * uj - 1)))%Q by ring.
    rewrite Qabs_Qmult, (Qabs_pos q) by assumption. rewrite Qabs_Qmult, (Qabs_pos (1 - wb)) by lra.
    assert (Qabs (2 * uj - 1) <= 1)%Q by (apply Qabs_Qle_condition; lra).
    assert (0 <= q * (1 - wb))%Q by (apply Qmult_le_0_compat; lra).
    rewrite Qmult_assoc. rewrite <- (Qmult_1_r (q * (1 - wb))) at 2. rewrite !(Qmult_comm (q * (1 - wb))). apply Qmult_le_compat_r; assumption. }
  rewrite En. cbn [bind]. eexists. split; [reflexivity|]. exists (S ++ new). rewrite Ln. cbn [d_X d_dim d_y data_at].
  split; [|split; [|split]].
  - unfold data_at. rewrite <- !app_assoc, <- repeat_app. f_equal. f_equal. f_equal. cbn. lia.
  - rewrite app_length, Ln. cbn. lia.
  - apply Forall_app. split; [assumption|]. rewrite Forall_forall in *. intros x Hx. now apply Fn.
  - intros i Hi. unfold row_ok.
    destruct (Nat.lt_ge_cases i (t * per)) as [G|G].
    + assert (Hq' : i / per * per <= i) by (rewrite Nat.mul_comm; apply Nat.mul_div_le; lia).
      specialize (HS i G). unfold row_ok in HS. rewrite firstn_app. replace (i / per * per - length S) with 0 by lia.
      rewrite firstn_O, app_nil_r. rewrite (app_nth1 S new) by lia. exact HS.
    + assert (Ei : i / per = t).
      { symmetry. apply (Nat.div_unique i per t (i - t * per)); [cbn in Hi; lia|]. lia. }
      rewrite Ei. rewrite firstn_app, <- LS, Nat.sub_diag, firstn_all. cbn [firstn]. rewrite app_nil_r.
      rewrite app_nth2 by lia. rewrite Forall_forall in Fn.
      destruct (Fn (nth (i - length S) new [])) as (Lx & b & B1 & B2 & B3); [apply nth_In; cbn in Hi; lia|].
      exists s, w, b. fold P. split; [exact Es|]. split; [now apply fix_density_shares_x|]. repeat (split; [assumption|]). exact B3.
Qed.

Lemma sso_stages n : forall t D_t, stage t D_t -> exists D', foldM (sso_round spread sensitivity p rs mn per) (seq t n) D_t = Ok D' /\ stage (t + n) D'.
Proof.
  induction n as [|n IH]; intros t D_t H; cbn [seq foldM].
  - exists D_t. rewrite Nat.add_0_r. auto.
  - destruct (sso_stage t D_t H) as (D1 & -> & H1). cbn [bind]. destruct (IH (S t) D1 H1) as (D' & E & H').
    exists D'. split; [assumption|]. now replace (t + S n) with (S t + n) by lia.
Qed.
End Sso.

Theorem sso_ok spread sensitivity p rs D mn mj n :
  rngs_ok rs -> wf_data (d_X D) (d_dim D) (d_y D) -> is_minority (d_y D) mn mj -> asked (so_proportion p) (d_y D) mn mj = Ok n ->
  sensitivity_ok mn sensitivity -> (forall t D, (0 <= spread t D)%Q) -> 2 <= so_h p -> 1 <= so_n_iter p ->
  let out := sso_sample spread sensitivity p rs D in
  (count_label (d_y D) mn <= 2 -> unchanged D out) /\
  (2 < count_label (d_y D) mn -> appends D mn (sso_spec spread sensitivity p D mn n) out).
Proof.
  intros Hr Hwf Hmin Ha Hs Hsp Hh Hi out. unfold out, sso_sample.
  destruct (sample_default (sso_algorithm spread sensitivity p rs) D mn mj Hmin) as (st & Hst & E). rewrite E. clear E. split.
  - intros G. unfold unchanged. destruct (Nat.leb_spec (count_label (d_y D) mn) 2); [reflexivity|lia].
  - intros G. destruct (Nat.leb_spec (count_label (d_y D) mn) 2); [lia|]. unfold sso_algorithm.
    rewrite (det_st_asked _ _ _ _ _ (proj1 Hmin) Hst), Ha. cbn [bind]. destruct (Nat.eqb_spec (so_n_iter p) 0); [lia|].
    destruct Hst as (-> & _). set (per := Nat.max 1 (Z.to_nat n / so_n_iter p)).
    destruct (sso_stages spread sensitivity p rs D mn per Hr Hwf Hs Hsp Hh G ltac:(unfold per; lia) (so_n_iter p) 0 D) as (D' & -> & S & -> & LS & RS & HS).
    { exists []. split; [|split; [reflexivity|split; [constructor|intros i Hi'; cbn in Hi'; lia]]].
      unfold data_at. cbn. rewrite !app_nil_r. destruct D; reflexivity. }
    cbn [bind data_at d_X d_y]. exists S. cbn [Nat.add] in *. rewrite LS. split; [reflexivity|].
    split; [exact LS|]. fold per. intros i Hi'. rewrite LS in Hi'. exact (HS i Hi').
Qed.

(** One hidden unit is not enough. *)
Theorem sso_one_unit spread sensitivity p rs D mn mj n :
  is_minority (d_y D) mn mj -> asked (so_proportion p) (d_y D) mn mj = Ok n -> so_h p = 1 -> 1 <= so_n_iter p ->
  2 < count_label (d_y D) mn ->
  sso_sample spread sensitivity p rs D = Err ValueError.
Proof.
  intros Hmin Ha Hh Hi G. unfold sso_sample.
  destruct (sample_default (sso_algorithm spread sensitivity p rs) D mn mj Hmin) as (st & Hst & E). rewrite E. clear E.
  destruct (Nat.leb_spec (count_label (d_y D) mn) 2); [lia|]. unfold sso_algorithm.
  rewrite (det_st_asked _ _ _ _ _ (proj1 Hmin) Hst), Ha. cbn [bind]. destruct (so_n_iter p) as [|k]; [lia|].
  cbn [Nat.eqb seq foldM]. unfold sso_round at 1. rewrite Hh.
  destruct (Nat.ltb_spec (Nat.min 1 (length (rows_with (min_label st) (d_X D) (d_y D)))) 2); [reflexivity|lia].
Qed.
