From Coq Require Import List ZArith QArith Qabs Qminmax Qround Qpower Bool Arith Lia Lqa Sorting.Sorted Permutation.
From Verif Require Import Np PyVal NpFacts BaseFacts SimplexModel Spec SpecDanger SpecNoise SpecComp SimplexFacts SimplexGeom Float64
  SamplerModel SamplerFacts OversFacts BaseModel KnnFacts DangerModel DangerFacts BorderFacts ClusterModel ClusterOversModel OversGen
  ClusterOversFacts ClusterFacts NoiseModel NoiseFacts NoiseFacts2 CompModel CompFacts CompFacts2 CompFacts3 CompFacts4 EditModel SpecEdit EditFacts EditFacts3 EditFacts4 EditFacts5
  SpecNear NearFacts NearFacts2 LevelModel SpecLevel LevelFacts LevelFacts3 LevelFacts4 SpecGroup GroupFacts GroupFacts2 GroupFacts4 WrapModel SpecWrap WrapFacts WrapFacts2 WrapFacts3 DirModel SpecDir DirFacts DirFacts3 RegionModel SpecRegion RegionFacts RegionFacts2 RegionFacts3 RegionFacts4 SearchModel SpecSearch SearchFacts2 GraphModel SpecGraph GraphFacts GraphFacts2 GraphFacts4 GraphFacts5 GraphFacts6 GraphFacts8 MixModel SpecMix MixFacts MixFacts3.
Import ListNotations.
Open Scope nat_scope.

(** ** V_SYNTH *)

Lemma last_nth_pos {A} (l : list A) a : l <> [] -> nth (length l - 1) l a = last l a.
Proof.
  intros H. destruct (exists_last H) as (l' & x & ->). rewrite last_last, app_length. cbn [length]. rewrite app_nth2 by lia.
  replace (length l' + 1 - 1 - length l') with 0 by lia. reflexivity.
Qed.

Lemma v_kept_length dist P : length (v_kept dist P) = length P.
Proof. induction P as [|x P IH]; [reflexivity|]. cbn. now rewrite IH. Qed.

Lemma v_kept_nth dist P : forall i, i < length P ->
  (nth i (v_kept dist P) false = true <-> forall j, i < j -> j < length P -> (1 # 1000 <= dist (nth i P []) (nth j P []))%Q).
Proof.
  induction P as [|x P IH]; intros i Hi; [cbn in Hi; lia|]. destruct i as [|i]; cbn [v_kept nth length] in *.
  - rewrite negb_true_iff. split.
    + intros H j H1 H2. destruct j as [|j]; [lia|]. destruct (Qlt_le_dec (dist x (nth j P [])) (1 # 1000)) as [C|C]; [|exact C]. exfalso.
      assert (E : existsb (fun z => Qlt_b (dist x z) (1 # 1000)) P = true).
      { apply existsb_exists. exists (nth j P []). split; [apply nth_In; lia|]. now apply Qlt_b_iff'. }
      congruence.
    + intros H. destruct (existsb _ P) eqn:E; [|reflexivity]. exfalso. apply existsb_exists in E. destruct E as (z & Hz & Ez).
      apply Qlt_b_iff' in Ez. apply (In_nth _ _ []) in Hz. destruct Hz as (j & Hj & <-). specialize (H (S j) ltac:(lia) ltac:(lia)). cbn [nth] in H. lra.
  - rewrite IH by lia. split; intros H j H1 H2.
    + destruct j as [|j]; [lia|]. apply H; lia.
    + apply (H (S j)); lia.
Qed.

Lemma where_in m i : In i (where_ m) <-> i < length m /\ nth i m false = true.
Proof. rewrite where_filter, filter_In, in_seq. intuition lia. Qed.
Lemma where_ordered m : StronglySorted lt (where_ m).
Proof. rewrite where_filter. apply filter_seq_sorted. Qed.

Lemma v_separated dist P y : length y = length P -> separated dist P y (select (v_kept dist P) P) (select (v_kept dist P) y).
Proof.
  intros Hy. exists (where_ (v_kept dist P)). split; [apply where_ordered|]. split.
  - intros i. rewrite where_in, v_kept_length. split; intros [H1 H2]; (split; [exact H1|]); now apply (v_kept_nth dist P i H1).
  - split; apply select_where; rewrite v_kept_length; [reflexivity|now symmetry].
Qed.

Lemma kept_ratio_le l : length (filter (Qlt_b (1 # 100)) l) <= length l.
Proof. apply filter_len. Qed.

Lemma v_reduce_ok pca d X : pca_ok d pca -> forall fuel n last, n <= fuel -> 1 < n -> reduced pca X n (v_reduce pca fuel n X last).
Proof.
  intros Hp. induction fuel as [|fuel IH]; intros n last Hf Hn; [lia|]. cbn [v_reduce].
  destruct (Nat.ltb_spec 1 n) as [_|]; [|lia]. destruct (pca n X) as [f|e] eqn:E; cbn [bind]; [|now constructor].
  set (k := length (filter (Qlt_b (1 # 100)) (pca_ratio f))).
  destruct (Hp _ _ _ E) as (Lr & _). pose proof (kept_ratio_le (pca_ratio f)) as Hk. fold k in Hk. rewrite Lr in Hk.
  destruct (Nat.eqb_spec k n) as [Ek|Nk].
  - apply (reduced_stop _ _ _ _ _ E); [now rewrite <- Ek|now left].
  - destruct (Nat.ltb_spec 1 k) as [Hk1|Hk1].
    + apply (reduced_again _ _ n f k _ E eq_refl Nk Hk1). apply IH; lia.
    + destruct fuel as [|fuel]; cbn [v_reduce]; (destruct (Nat.ltb_spec 1 k); [lia|]); apply (reduced_stop _ _ n f k E eq_refl); now right.
Qed.

Lemma reduced_fit pca X n f k d : pca_ok d pca -> reduced pca X n (Ok (f, k)) -> exists c, length (pca_ratio f) = c /\ (forall x, length (pca_to f x) = c) /\ (forall z, length (pca_from f z) = d).
Proof.
  intros Hp H. remember (Ok (f, k)) as o eqn:Eo. revert f k Eo. induction H as [n e H|n f0 k0 H Hk Hor|n f0 k0 o H Hk Hn H1 H2 IH]; intros f k Eo.
  - discriminate.
  - injection Eo as -> ->. exists n. now apply (Hp n X).
  - eapply IH; eauto.
Qed.

Lemma corner_ok d X : corner_row d X (map (fun j => let m := col_min (column j X) in (m - (1 # 10) * Qabs m)%Q) (seq 0 d)).
Proof.
  split; [now rewrite map_length, seq_length|]. intros j lo hi Hj HR. rewrite (nth_map_in _ 0) by (now rewrite seq_length). rewrite seq_nth by exact Hj. cbn [Nat.add].
  destruct (attr_range_unique _ _ _ _ _ _ HR (column_range X j (attr_range_nonempty _ _ _ _ HR))) as [E1 E2]. cbv zeta. rewrite <- E1. reflexivity.
Qed.

Lemma qsum_pos l : l <> [] -> Forall (Qlt 0) l -> (0 < qsum l)%Q.
Proof.
  intros Hl H. induction H as [|x l Hx H IH]; [congruence|]. cbn [qsum fold_right]. fold (qsum l). destruct l as [|y l]; [cbn; lra|].
  assert (0 < qsum (y :: l))%Q by (apply IH; discriminate). lra.
Qed.

Section V.

Variable dist : row -> row -> Q.
Variable pca : nat -> list row -> res pca_fit.
Variable voronoi : list row -> res voronoi_diagram.
Hypothesis Hvor : voronoi_ok voronoi.

Lemma v_corners V c r : rect c (vo_vertices V) -> vo_vertices V <> [] -> Forall (fun i => (-1 <= i < Z.of_nat (length (vo_vertices V)))%Z) (snd r) ->
  mapM (vertex (vo_vertices V)) (snd r) = Ok (ridge_corners V r) /\ rect c (ridge_corners V r).
Proof.
  intros HR Hne HF. set (vs := vo_vertices V) in *. assert (Hl : 0 < length vs) by (destruct vs; [congruence|cbn; lia]). split.
  - unfold ridge_corners. fold vs. apply mapM_map. intros i Hi. rewrite Forall_forall in HF. specialize (HF i Hi). unfold vertex.
    destruct (Z.ltb_spec i 0) as [Hneg|Hpos].
    + assert (i = -1)%Z as -> by lia. destruct (Z.ltb_spec (Z.of_nat (length vs) + -1) 0); [lia|]. cbn [Z.eqb]. rewrite <- (last_nth_pos vs []) by exact Hne.
      replace (Z.to_nat (Z.of_nat (length vs) + -1)) with (length vs - 1) by lia. apply get_nth. lia.
    + destruct (Z.eqb_spec i (-1)); [lia|]. apply get_nth. lia.
  - unfold ridge_corners. fold vs. unfold rect. rewrite Forall_map. apply Forall_forall. intros i Hi. rewrite Forall_forall in HF. specialize (HF i Hi).
    destruct (Z.eqb_spec i (-1)); [rewrite <- last_nth_pos by exact Hne|]; apply rect_nth; auto; lia.
Qed.

Lemma v_synth_ok p d D mn mj n : draws_ok d -> (forall t s, 0 < dr_unif d t s)%Q -> pca_ok (d_dim D) pca ->
  wf_data (d_X D) (d_dim D) (d_y D) -> is_minority (d_y D) mn mj -> asked (v_proportion p) (d_y D) mn mj = Ok n ->
  let out := v_synth_sample dist pca voronoi p d D in
  (count_label (d_y D) mn <= 2 \/ d_dim D < 2 \/ n = 0%Z -> unchanged D out) /\
  (2 < count_label (d_y D) mn -> 2 <= d_dim D -> (0 < n)%Z ->
     (v_n_components p <= 1 -> out = Err UnboundLocalError) /\
     (2 <= v_n_components p -> v_result dist pca voronoi p D mn n out)).
Proof.
  intros Hd Hu Hp Hwf Hmin Hn. cbv zeta. unfold v_synth_sample. assert (HX : rect (d_dim D) (d_X D)) by apply Hwf. assert (HL : length (d_X D) = length (d_y D)) by apply Hwf.
  destruct (le_lt_dec (count_label (d_y D) mn) 2) as [L|L].
  { split; [|lia]. intros _. apply (too_small_copies _ _ _ mn mj Hmin). left. exists 2. split; [cbn; tauto|assumption]. }
  destruct (le_lt_dec 2 (d_dim D)) as [L2|L2].
  2: { split; [|lia]. intros _. apply (too_small_copies _ _ _ mn mj Hmin). right. exists 2. split; [cbn; tauto|assumption]. }
  destruct (large_enough_runs g_smote_checks (v_synth_algorithm dist pca voronoi p d) D mn mj Hmin) as (st & Est & Em & Ej & E).
  { repeat constructor; assumption. }
  unfold unchanged. rewrite E. unfold v_synth_algorithm.
  rewrite (det_st_asked _ _ _ _ _ (proj1 Hmin) (stats_of_label _ _ _ _ Hmin Est Em Ej)), Hn. cbn [bind].
  destruct (Nat.eqb_spec (Z.to_nat n) 0) as [E0|N0]; [split; [reflexivity|lia]|]. split; [lia|]. intros _ _ _. clear E.
  split.
  { intros Hc. assert (v_reduce pca (Nat.min (d_dim D) (v_n_components p)) (Nat.min (d_dim D) (v_n_components p)) (d_X D ++ bounding_box (d_dim D) (d_X D)) None = Err UnboundLocalError) as ->; [|reflexivity].
    destruct (Nat.min (d_dim D) (v_n_components p)) as [|[|k]] eqn:Ek; [reflexivity|reflexivity|lia]. }
  intros Hc. rewrite Em. set (box := bounding_box (d_dim D) (d_X D)). set (X_bb := d_X D ++ box). set (nc := Nat.min (d_dim D) (v_n_components p)).
  assert (Lbox : length box = Nat.min 100 (d_dim D)) by (unfold box, bounding_box; apply repeat_length).
  pose proof (v_reduce_ok pca (d_dim D) X_bb Hp nc nc None ltac:(lia) ltac:(unfold nc; lia)) as Hred.
  exists X_bb, (v_reduce pca nc nc X_bb None). split.
  { eexists. split; [apply corner_ok|reflexivity]. }
  split; [exact Hred|]. destruct (v_reduce pca nc nc X_bb None) as [[f k]|e] eqn:Er; cbn [bind]; [|reflexivity].
  destruct (Nat.eqb_spec k 1) as [K1|K1]; [split; [reflexivity|lia]|]. split; [lia|]. intros _.
  destruct (reduced_fit _ _ _ _ _ _ Hp Hred) as (c & F1 & F2 & F3).
  set (P0 := map (pca_to f) X_bb). rewrite Lbox. set (y_bb := d_y D ++ repeat (-1)%Z (Nat.min 100 (d_dim D))).
  set (P := select (v_kept dist P0) P0). set (yP := select (v_kept dist P0) y_bb).
  assert (Ly : length y_bb = length P0) by (unfold y_bb, P0, X_bb; rewrite map_length, !app_length, repeat_length, Lbox; lia).
  exists P, yP. split; [now apply v_separated|].
  assert (RP : rect c P).
  { apply Forall_forall. intros x Hx. apply select_incl in Hx. unfold P0 in Hx. apply in_map_iff in Hx. destruct Hx as (z & <- & _). apply F2. }
  assert (LyP : length yP = length P).
  { unfold yP, P. rewrite (select_where 0%Z), (select_where []) by (rewrite v_kept_length; auto). now rewrite !map_length. }
  destruct (voronoi P) as [V|e] eqn:EV; cbn [bind]; [|reflexivity]. destruct (Hvor c P V RP EV) as (V1 & V2 & V3).
  set (test := fun r : (nat * nat) * list Z => (fst (fst r) <? length (d_y D)) && (snd (fst r) <? length (d_y D)) && negb (Z.eqb (nth (fst (fst r)) (d_y D) 0%Z) (nth (snd (fst r)) (d_y D) 0%Z))).
  rewrite (mapM_map _ test).
  2: { intros [[a b] vs] _. unfold test. cbn [fst snd]. destruct (Nat.ltb_spec a (length (d_y D))) as [Ha|Ha]; [|reflexivity].
       destruct (Nat.ltb_spec b (length (d_y D))) as [Hb|Hb]; [|reflexivity]. cbn [andb]. rewrite (get_nth 0%Z _ a Ha), (get_nth 0%Z _ b Hb). reflexivity. }
  cbn [bind].
  assert (Htest : forall r, test r = true <-> mixed_ridge (d_y D) r).
  { intros r. unfold test, mixed_ridge. rewrite !andb_true_iff, !Nat.ltb_lt, negb_true_iff, Z.eqb_neq. tauto. }
  set (cand := where_ (map test (vo_ridges V))).
  set (r0 := ((0, 0), []) : (nat * nat) * list Z).
  assert (Hcand : forall i, In i cand <-> i < length (vo_ridges V) /\ mixed_ridge (d_y D) (nth i (vo_ridges V) r0)).
  { intros i. unfold cand. rewrite where_in, map_length. split; intros [H1 H2]; (split; [exact H1|]).
    - rewrite (nth_map_in _ r0) in H2 by exact H1. now apply Htest.
    - rewrite (nth_map_in _ r0) by exact H1. now apply Htest. }
  split.
  { intros Hno. destruct cand as [|i l] eqn:Ec; [reflexivity|]. exfalso. apply Hno. exists (nth i (vo_ridges V) r0).
    destruct (proj1 (Hcand i)) as [H1 H2]; [now left|]. split; [now apply nth_In|exact H2]. }
  intros (r & Hr & Hm). apply (In_nth _ _ r0) in Hr. destruct Hr as (i & Hi & <-). assert (Hin : In i cand) by now apply Hcand.
  destruct (Nat.eqb_spec (length cand) 0) as [Ec|Nc]; [destruct cand; [destruct Hin|discriminate]|]. rewrite F1.
  set (ok := fun z => exists q r h, In r (vo_ridges V) /\ mixed_ridge (d_y D) r /\ convex_comb c (ridge_corners V r) q /\
    (nth (fst (fst r)) yP 0%Z = mn -> h = fst (fst r)) /\ (nth (fst (fst r)) yP 0%Z <> mn -> h = snd (fst r)) /\ on_segment unit_share c q (nth h P []) z).
  assert (Hrow : forall t, exists z, v_row d mn P yP V c cand t = Ok z /\ ok z).
  { intros t. unfold v_row. destruct (randint_ok d t 0 (length cand) Hd ltac:(lia)) as (a & -> & La). cbn [bind].
    rewrite (get_nth 0 cand a La). cbn [bind]. set (fc := nth a cand 0). assert (Hfc : In fc cand) by now apply nth_In. apply Hcand in Hfc. destruct Hfc as [Lf Mf].
    rewrite (get_nth r0 _ fc Lf). cbn [bind]. set (rg := nth fc (vo_ridges V) r0) in *. assert (Hrg : In rg (vo_ridges V)) by now apply nth_In.
    rewrite Forall_forall in V3. destruct (V3 rg Hrg) as (B1 & B2 & B3 & B4). destruct (v_corners V c rg V1 V2 B4) as [EC RC]. rewrite EC. cbn [bind].
    set (C := ridge_corners V rg) in *. assert (LC : 0 < length C) by (unfold C, ridge_corners; rewrite map_length; destruct (snd rg); [congruence|cbn; lia]).
    set (u := map (dr_unif d t) (seq 0 (length C))).
    assert (Hpos : (0 < qsum u)%Q).
    { apply qsum_pos; [unfold u; destruct (length C); [lia|discriminate]|]. unfold u. rewrite Forall_map. apply Forall_forall. intros; apply Hu. }
    unfold normalize. destruct (Qeq_bool (qsum u) 0) eqn:Eq; [apply Qeq_bool_iff in Eq; lra|]. cbn [bind].
    rewrite (get_nth 0%Z yP) by lia. cbn [bind]. set (h := if Z.eqb _ mn then _ else _).
    assert (Hh : h < length P) by (unfold h; destruct (Z.eqb _ mn); assumption). rewrite (get_nth [] P h Hh). cbn [bind].
    set (q := weighted_sum c (map (fun x => (x / qsum u)%Q) u) C).
    assert (Hq : convex_comb c C q).
    { apply weighted_sum_convex; [exact RC|unfold u; now rewrite !map_length, seq_length| |].
      - rewrite Forall_map. unfold u. rewrite Forall_map. apply Forall_forall. intros s _. apply Qle_shift_div_l; [exact Hpos|]. pose proof (Hu t s). lra.
      - rewrite qsum_map_div. field. intros C0. lra. }
    eexists. split; [reflexivity|]. exists q, rg, h. split; [exact Hrg|]. split; [exact Mf|]. split; [exact Hq|].
    split; [intros Eh; unfold h; rewrite Eh, Z.eqb_refl; reflexivity|]. split; [intros Eh; unfold h; apply Z.eqb_neq in Eh; rewrite Eh; reflexivity|].
    apply between_segment; [apply (ok_unif d Hd)|apply Hq|apply rect_nth; assumption]. }
  destruct (mapM_Forall_ok ok (v_row d mn P yP V c cand) (seq 0 (Z.to_nat n))) as (S & ES & FS); [intros t _; apply Hrow|].
  rewrite ES. cbn [bind]. unfold extended. rewrite Em. exists (map (pca_from f) S). split; [reflexivity|]. split.
  - rewrite map_length. apply mapM_length in ES. now rewrite seq_length in ES.
  - rewrite Forall_map. eapply Forall_impl; [|exact FS]. intros z (q & r & h & H). exists z, q, r, h. rewrite F1. split; [reflexivity|exact H].
Qed.

End V.
