(** Proofs about MOT2LD (continued) and ASMOBD. *)

From Coq Require Import List ZArith QArith Qabs Qminmax Qround Qpower Bool Arith Lia Lqa Sorting.Sorted Permutation.
From Verif Require Import Np PyVal NpFacts BaseFacts SimplexModel Spec SpecDanger SpecNoise SpecComp SimplexFacts SimplexGeom Float64
  SamplerModel SamplerFacts OversFacts BaseModel KnnFacts DangerModel DangerFacts BorderFacts ClusterModel NearModel ClusterOversModel OversGen
  ClusterOversFacts ClusterFacts NoiseModel NoiseFacts NoiseFacts2 CompModel CompFacts CompFacts2 CompFacts3 CompFacts4 EditModel SpecEdit EditFacts EditFacts3 EditFacts4 EditFacts5
  SpecNear NearFacts NearFacts2 LevelModel SpecLevel LevelFacts LevelFacts3 LevelFacts4 SpecGroup GroupFacts GroupFacts2 GroupFacts4 WrapModel SpecWrap WrapFacts WrapFacts2 WrapFacts3 DirModel SpecDir DirFacts DirFacts3 RegionModel SpecRegion RegionFacts RegionFacts2 RegionFacts3 RegionFacts4 SearchModel SpecSearch SearchFacts2 GraphModel SpecGraph GraphFacts GraphFacts2 GraphFacts4 GraphFacts5 GraphFacts6 GraphFacts8 MixModel SpecMix MixFacts MixFacts3 MixFacts4 EmbedModel SpecEmbed EmbedFacts EmbedFacts2 EmbedFacts3 EmbedFacts4.
Import ListNotations.
Open Scope nat_scope.

Section Mot.

Variable dist : row -> row -> Q.
Variable volume : list row -> Q.
Variable nn : list row -> list row -> nat -> res (list (list nat)).
Variable tsne : nat -> list row -> list row.
Variable find_peaks : list Q -> nat -> res (list nat).
Variable listing : list nat -> list nat.

Hypothesis Hnn : knn_ok dist nn.
Hypothesis Hnonneg : forall x z, (0 <= dist x z)%Q.
Hypothesis Hself : forall x, (dist x x == 0)%Q.
Hypothesis Htsne : tsne_ok tsne.
Hypothesis Hpeaks : peaks_ok find_peaks.
Hypothesis Hlist : listing_ok listing.

Lemma all_zero_sum v : (forall i, i < length v -> (nth i v 0 == 0)%Q) -> (qsum v == 0)%Q.
Proof.
  induction v as [|q v IH]; intros H; [reflexivity|]. cbn [qsum fold_right]. fold (qsum v). rewrite IH by (intros i Hi; apply (H (S i)); cbn; lia).
  specialize (H 0 ltac:(cbn; lia)). cbn in H. rewrite H. ring.
Qed.

Lemma mot2ld_ok p rs D mn mj n : rngs_ok rs -> rngs_pos rs -> plain_ss (mo_ss p) -> 1 <= mo_k p -> (forall q, mo_d_cut p = Some q -> (0 < q)%Q) ->
  wf_data (d_X D) (d_dim D) (d_y D) -> is_minority (d_y D) mn mj -> asked (mo_proportion p) (d_y D) mn mj = Ok n ->
  let out := mot2ld_sample volume nn dist tsne find_peaks listing p rs D in
  (count_label (d_y D) mn <= 2 \/ n = 0%Z -> unchanged D out) /\
  (2 < count_label (d_y D) mn -> (0 < n)%Z -> mot_result dist tsne find_peaks p D mn n out).
Proof.
  intros Hr Hu Hss Hk Hcut [HX Hl] Hmin Hn. cbv zeta. unfold mot2ld_sample.
  destruct (sample_default (mot2ld_algorithm volume nn dist tsne find_peaks listing p rs) D mn mj Hmin) as (st & Hst & ->).
  destruct (stats_labels _ _ _ _ Hst) as [El1 El2].
  destruct (Nat.leb_spec (count_label (d_y D) mn) 2) as [Hle|Hgt]; [split; [reflexivity|lia]|].
  unfold mot2ld_algorithm. rewrite (det_st_asked _ _ _ _ _ (proj1 Hmin) Hst), Hn. cbn [bind].
  destruct (Nat.eqb_spec (Z.to_nat n) 0) as [E0|N0]; [split; [reflexivity|lia]|]. split; [lia|]. intros _ _.
  rewrite El1. set (E := tsne (Nat.min (mo_n_components p) (d_dim D)) (d_X D)). set (X_min := rows_with mn (d_X D) (d_y D)).
  assert (HE : length E = length (d_y D)) by (unfold E; rewrite Htsne; exact Hl).
  destruct (mot_clusters_ok dist nn find_peaks Hnn Hnonneg Hself Hpeaks p mn E (d_y D) HE Hgt Hk Hcut) as (T & cut & idx & delta & M1 & M2 & M3 & w & M4 & M5).
  unfold mot_result. fold E X_min. set (E_min := rows_with mn E (d_y D)) in *.
  assert (Lm : length X_min = length E_min) by (unfold X_min, E_min; now rewrite !rows_with_length by assumption). rewrite Lm. set (m := length E_min) in *.
  exists T, cut, idx, delta. split; [exact M1|]. split; [exact M2|]. split; [exact M3|]. exists w. split; [exact M4|]. unfold mot_clustering.
  destruct (find_peaks delta w) as [peaks|e]; [|rewrite M5; cbn [bind]; destruct e; reflexivity].
  destruct peaks as [|t0 pk] eqn:Epk; [rewrite M5; reflexivity|]. destruct M5 as (N & imp & EM & HN & Li & Hpos). rewrite EM. cbn [bind]. rewrite <- Epk in *.
  set (centers := map (fun t => nth (nth t idx 0) E_min []) peaks).
  destruct (Hnn centers E_min 1) as (L & -> & HL); [unfold centers; rewrite map_length, Epk; cbn; lia|]. cbn [bind].
  exists L. split; [exact HL|]. destruct (nearest_table_shape _ _ _ _ _ HL) as (L1 & L2 & L3).
  rewrite (mapM_val _ (fun t => nth 0 t 0)) by (intros t Ht; apply get_nth; unfold rect in L2; rewrite Forall_forall in L2; rewrite (L2 t Ht); lia).
  cbn [bind]. set (labels := map (fun t => nth 0 t 0) L). set (prob := clear N imp).
  assert (Llab : length labels = m) by (unfold labels; rewrite map_length; exact L1).
  assert (Elab : forall i, i < m -> nth i labels 0 = nth 0 (nth i L []) 0) by (intros i Hi; unfold labels; rewrite (nth_map_in (fun t => nth 0 t 0) []) by lia; reflexivity).
  assert (Lp : length prob = m) by (unfold prob; rewrite clear_length; exact Li).
  assert (Pz : forall i, i < m -> In i N -> nth i prob 0%Q = 0%Q).
  { intros i Hi G. unfold prob. rewrite clear_nth by lia. apply listed_iff in G. now rewrite G. }
  assert (Pp : forall i, i < m -> ~ In i N -> (0 < nth i prob 0)%Q).
  { intros i Hi G. unfold prob. rewrite clear_nth by lia. destruct (existsb (Nat.eqb i) N) eqn:C; [apply listed_iff in C; contradiction|]. now apply Hpos. }
  assert (Pn : Forall (Qle 0) prob).
  { apply nonneg_nth. intros i Hi. rewrite Lp in Hi. destruct (in_dec Nat.eq_dec i N) as [G|G]; [rewrite Pz by assumption; lra|specialize (Pp i Hi G); lra]. }
  split.
  { intros Hall. assert (Z0 : (qsum prob == 0)%Q) by (apply all_zero_sum; intros i Hi; rewrite Lp in Hi; rewrite Pz; [reflexivity|exact Hi|apply HN; auto]).
    apply Qeq_bool_iff in Z0. rewrite Z0. reflexivity. }
  intros (i0 & Hi0 & Hno0). assert (HN0 : ~ In i0 N) by (rewrite HN; tauto).
  assert (S0 : (0 < qsum prob)%Q) by (apply (qsum_pos_in _ (nth i0 prob 0%Q)); [exact Pn|apply nth_In; lia|now apply Pp]).
  destruct (Qeq_bool (qsum prob) 0) eqn:C0; [apply Qeq_bool_iff in C0; lra|].
  set (prob1 := map (fun q => (q / qsum prob)%Q) prob).
  assert (Lp1 : length prob1 = m) by (unfold prob1; now rewrite map_length).
  assert (P1p : forall i, i < m -> ~ In i N -> (0 < nth i prob1 0)%Q).
  { intros i Hi G. unfold prob1. rewrite (nth_map_in _ 0%Q) by lia. apply Qlt_shift_div_l; [exact S0|]. rewrite Qmult_0_l. now apply Pp. }
  assert (P1n : forall i, i < m -> (0 <= nth i prob1 0)%Q).
  { intros i Hi. unfold prob1. rewrite (nth_map_in _ 0%Q) by lia. apply Qle_shift_div_l; [exact S0|]. rewrite Qmult_0_l. rewrite Forall_forall in Pn. apply Pn, nth_In. lia. }
  set (members := fun i => filter (fun v => negb (existsb (Nat.eqb v) N)) (where_ (map (Nat.eqb i) labels))).
  set (clusters := map (fun i => listing (filter (fun v => negb (existsb (Nat.eqb v) N)) (where_ (map (Nat.eqb i) labels)))) (seq 0 (S (list_max labels)))).
  assert (Lc : length clusters = S (list_max labels)) by (unfold clusters; now rewrite map_length, seq_length).
  set (P := fun c i => i < m /\ ~ In i N /\ nth i labels 0 = c).
  assert (Hmem : forall c i, In i (members c) <-> P c i).
  { intros c i. unfold members, P. rewrite filter_In, NoiseFacts2.where_in, map_length, Llab. split.
    - intros [[G1 G2] G3]. split; [exact G1|]. rewrite (nth_map_in _ 0) in G2 by lia. apply Nat.eqb_eq in G2. split; [|auto].
      intros C. apply listed_iff in C. rewrite C in G3. discriminate.
    - intros (G1 & G2 & G3). split; [split; [exact G1|rewrite (nth_map_in _ 0) by lia; apply Nat.eqb_eq; auto]|].
      destruct (existsb (Nat.eqb i) N) eqn:C; [apply listed_iff in C; contradiction|reflexivity]. }
  assert (NDm : forall c, NoDup (members c)).
  { intros c. unfold members. apply NoDup_filter. rewrite where_filter. apply NoDup_filter, seq_NoDup. }
  assert (Hcl : forall c, c < length clusters -> NoDup (nth c clusters []) /\ forall i, In i (nth c clusters []) <-> P c i).
  { intros c Hc. rewrite Lc in Hc. unfold clusters. rewrite (nth_map_in _ 0) by now rewrite seq_length. rewrite seq_nth by exact Hc. cbn [Nat.add]. fold (members c).
    pose proof (Hlist _ (NDm c)) as Hp. split; [eapply Permutation_NoDup; [symmetry; exact Hp|apply NDm]|].
    intros i. rewrite <- Hmem. split; apply Permutation_in; [exact Hp|symmetry; exact Hp]. }
  assert (Hlab : forall i, i < m -> nth i labels 0 < length clusters).
  { intros i Hi. rewrite Lc. apply Nat.lt_succ_r. apply (proj1 (list_max_in labels (list_max labels)) (le_n _)). apply nth_In. lia. }
  assert (Hi0P : P (nth i0 labels 0) i0) by (split; [exact Hi0|split; [exact HN0|reflexivity]]).
  destruct (forallb (fun c => length c =? 0) clusters) eqn:CE.
  { exfalso. rewrite forallb_forall in CE. specialize (CE (nth (nth i0 labels 0) clusters []) (nth_In _ _ (Hlab i0 Hi0))). apply Nat.eqb_eq in CE.
    apply (Hcl _ (Hlab i0 Hi0)) in Hi0P. destruct (nth (nth i0 labels 0) clusters []); [destruct Hi0P|discriminate]. }
  set (empty := where_ (map (fun l => length (nth l clusters []) =? 0) labels)). set (prob2 := clear empty prob1).
  assert (Lp2 : length prob2 = m) by (unfold prob2; now rewrite clear_length).
  assert (P2p : forall i, i < m -> ~ In i N -> (0 < nth i prob2 0)%Q).
  { intros i Hi G. unfold prob2. rewrite clear_nth by lia. destruct (existsb (Nat.eqb i) empty) eqn:C; [|now apply P1p]. exfalso.
    apply listed_iff, NoiseFacts2.where_in in C. destruct C as [C1 C2]. rewrite map_length in C1. rewrite (nth_map_in _ 0) in C2 by exact C1. apply Nat.eqb_eq in C2.
    assert (HP : P (nth i labels 0) i) by (split; [exact Hi|split; [exact G|reflexivity]]). apply (Hcl _ (Hlab i Hi)) in HP. destruct (nth (nth i labels 0) clusters []); [destruct HP|discriminate]. }
  assert (P2n : Forall (Qle 0) prob2).
  { apply nonneg_nth. intros i Hi. rewrite Lp2 in Hi. unfold prob2. rewrite clear_nth by lia. destruct (existsb _ _); [lra|now apply P1n]. }
  assert (S2 : (0 < qsum prob2)%Q) by (apply (qsum_pos_in _ (nth i0 prob2 0%Q)); [exact P2n|apply nth_In; lia|now apply P2p]).
  unfold normalize at 1. destruct (Qeq_bool (qsum prob2) 0) eqn:C2; [apply Qeq_bool_iff in C2; lra|]. cbn [bind].
  set (prob3 := map (fun x => (x / qsum prob2)%Q) prob2). assert (Lp3 : length prob3 = m) by (unfold prob3; now rewrite map_length).
  destruct (mot_generate_ok volume (mo_ss p) rs (d_dim D) X_min clusters prob3 (Z.to_nat n) P) as (S & ES & LS & FS); auto.
  - now apply rows_with_rect.
  - lia.
  - intros i Hi. rewrite Lp3 in Hi. unfold prob3. rewrite (nth_map_in _ 0%Q) by lia. apply Qle_shift_div_l; [exact S2|]. rewrite Qmult_0_l. rewrite Forall_forall in P2n. apply P2n, nth_In. lia.
  - intros c i _ (G1 & G2 & _). split; [lia|]. unfold prob3. rewrite (nth_map_in _ 0%Q) by lia. apply Qlt_shift_div_l; [exact S2|]. rewrite Qmult_0_l. now apply P2p.
  - exists (nth i0 labels 0), i0. split; [now apply Hlab|exact Hi0P].
  - exists N, S. split; [exact HN|]. rewrite ES. cbn [bind]. rewrite (delete_idx_kept []), (delete_idx_kept 0%Z). split; [reflexivity|]. split; [exact LS|].
    intros G. specialize (FS G). eapply Forall_impl; [|exact FS]. intros x (c & ps & F1 & F2 & F3 & F4 & F5 & F6). exists c, ps. split; [exact F1|]. split; [exact F2|]. split; [exact F3|].
    assert (PI : forall i, P c i <-> i < length X_min /\ ~ mot_noise dist E E_min (d_y D) mn cut T i /\ nth 0 (nth i L []) 0 = c).
    { intros i. unfold P. rewrite HN, Lm. split; intros (G1 & G2 & G3); (split; [exact G1|]); rewrite Elab in * by exact G1; tauto. }
    split; [eapply Forall_impl; [|exact F4]; intros i; apply PI|]. split; [|exact F6].
    destruct F5 as [F5|F5]; [left|now right]. intros i Hi Hno Hlb. apply F5, PI. auto.
Qed.

End Mot.

(** ** ASMOBD *)

Lemma filter_and {A} (f g : A -> bool) l : filter g (filter f l) = filter (fun x => f x && g x) l.
Proof. induction l as [|x l IH]; [reflexivity|]. cbn [filter]. destruct (f x); cbn [filter andb]; [destruct (g x); now rewrite IH|exact IH]. Qed.

Section Asmobd.

Variable dist : row -> row -> Q.
Variable volume : list row -> Q.
Variable nn : list row -> list row -> nat -> res (list (list nat)).
Variable sd : list Q -> Q.
Variable optics : nat -> Q -> list row -> res (list (option Q) * list (option Q)).
Variable squash : Q -> Q.

Hypothesis Hnn : knn_ok dist nn.
Hypothesis Hself : forall x, (dist x x == 0)%Q.
Hypothesis Hopt : optics_ok optics.

Definition counted mj X y x c : Q * Q :=
  let all := close_to dist x c X y (fun _ => true) in
  let share := (close_to dist x c X y (Z.eqb mj) / all)%Q in (all - share - 1, share)%Q.

Lemma within_ext_some X y x c : within_ext dist X y (Some c) x = map snd (filter (fun zl => Qle_bool (dist x (fst zl)) c) (combine X y)).
Proof. reflexivity. Qed.

Lemma ab_counts_ok mj X y x l r : In (x, l) (combine X y) -> (forall c, r = Some c -> (0 <= c)%Q) ->
  exists nm, ab_counts dist mj X y r x = Ok nm /\ forall c, r = Some c -> nm = counted mj X y x c.
Proof.
  intros Hin Hc. unfold ab_counts. set (found := within_ext dist X y r x).
  assert (Hf : In l found).
  { unfold found, within_ext. apply in_map_iff. exists (x, l). split; [reflexivity|]. apply filter_In. split; [exact Hin|]. destruct r as [c|]; [|reflexivity].
    cbn [fst]. apply Qle_bool_iff. rewrite Hself. now apply Hc. }
  destruct (Nat.eqb_spec (length found) 0) as [E|_]; [destruct found; [destruct Hf|discriminate]|]. eexists. split; [reflexivity|].
  intros c ->. unfold counted, close_to. subst found. rewrite within_ext_some. rewrite map_length, filter_map_length, filter_and.
  assert (E : filter (fun zl : row * Z => Qle_bool (dist x (fst zl)) c) (combine X y) = filter (fun zl => Qle_bool (dist x (fst zl)) c && true) (combine X y)).
  { apply filter_ext. intros z. now rewrite andb_true_r. }
  rewrite <- E. reflexivity.
Qed.

Lemma counted_bounds mn mj X y x c : mn <> mj -> In (x, mn) (combine X y) -> (0 <= c)%Q ->
  let all := close_to dist x c X y (fun _ => true) in
  let share := (close_to dist x c X y (Z.eqb mj) / all)%Q in
  (0 <= share)%Q /\ (0 <= all - share - 1)%Q.
Proof.
  intros Hne Hin Hc. cbv zeta. unfold close_to. set (F := filter (fun zl : row * Z => Qle_bool (dist x (fst zl)) c && true) (combine X y)).
  set (G := filter (fun zl : row * Z => Qle_bool (dist x (fst zl)) c && Z.eqb mj (snd zl)) (combine X y)).
  assert (EG : G = filter (fun zl => Z.eqb mj (snd zl)) F).
  { unfold G, F. rewrite filter_and. apply filter_ext. intros z. now rewrite andb_true_r. }
  assert (HF : In (x, mn) F). { apply filter_In. split; [exact Hin|]. cbn [fst]. rewrite andb_true_r. apply Qle_bool_iff. rewrite Hself. exact Hc. }
  assert (Hlt : length G < length F).
  { rewrite EG. clear - HF Hne. induction F as [|[z l] F IH]; [destruct HF|]. cbn [filter snd length].
    assert (W : length (filter (fun zl : row * Z => Z.eqb mj (snd zl)) F) <= length F) by (clear; induction F as [|a F IH]; cbn [filter length]; [lia|destruct (Z.eqb _ _); cbn [length]; lia]).
    destruct HF as [HF|HF].
    - injection HF as -> ->. destruct (Z.eqb_spec mj mn); [congruence|]. lia.
    - specialize (IH HF). destruct (Z.eqb mj l); cbn [length]; lia. }
  assert (A1 : (0 < inject_Z (Z.of_nat (length F)))%Q) by (apply inj_pos; lia).
  assert (A2 : (0 <= inject_Z (Z.of_nat (length G)))%Q) by (change 0%Q with (inject_Z 0); rewrite <- Zle_Qle; lia).
  assert (A3 : (inject_Z (Z.of_nat (length G)) <= inject_Z (Z.of_nat (length F)) - 1)%Q).
  { assert (Z.of_nat (length G) + 1 <= Z.of_nat (length F))%Z by lia. rewrite Zle_Qle, inject_Z_plus in H. change (inject_Z 1) with 1%Q in H. lra. }
  set (f := inject_Z (Z.of_nat (length F))) in *. set (g := inject_Z (Z.of_nat (length G))) in *.
  assert (S0 : (0 <= g / f)%Q) by (apply Qle_shift_div_l; [exact A1|]; lra).
  split; [exact S0|].
  assert (S1 : (g / f <= f - 1)%Q).
  { apply Qle_shift_div_r; [exact A1|]. assert (B : (1 <= f)%Q) by (unfold f; change 1%Q with (inject_Z 1); rewrite <- Zle_Qle; lia).
    assert (0 <= (f - 1) * (f - 1))%Q by (apply Qmult_le_0_compat; lra). lra. }
  lra.
Qed.

Lemma relax_iter c p : let q := Nat.iter c ab_relax p in
  ab_proportion q = ab_proportion p /\ ab_min_samples q = ab_min_samples p /\ ab_eps q = relaxed c (ab_eps p) /\ ab_eta q = ab_eta p /\
  ab_T1 q = relaxed c (ab_T1 p) /\ ab_T2 q = relaxed c (ab_T2 p) /\ ab_a q = ab_a p /\ ab_sigmoid q = ab_sigmoid p.
Proof.
  cbv zeta. induction c as [|c (I1 & I2 & I3 & I4 & I5 & I6 & I7 & I8)]; [repeat split|]. cbn [Nat.iter nat_rect ab_relax ab_proportion ab_min_samples ab_eps ab_eta ab_T1 ab_T2 ab_a ab_sigmoid].
  unfold relaxed in *. cbn [Nat.iter nat_rect]. unfold Nat.iter in *. rewrite I3, I5, I6. repeat split; assumption.
Qed.

Lemma ab_safe_steps mj X y P n p : forall more c, exists c', c <= c' <= c + more /\
  ab_safe dist optics squash more (Nat.iter c ab_relax p) mj X y P n = ab_attempt dist optics squash (Nat.iter c' ab_relax p) mj X y P n /\
  (forall i, c <= i < c' -> exists nd, ab_attempt dist optics squash (Nat.iter i ab_relax p) mj X y P n = Ok nd /\ length (where_ (fst nd)) < 2) /\
  (c' < c + more -> forall nd, ab_attempt dist optics squash (Nat.iter c' ab_relax p) mj X y P n = Ok nd -> 2 <= length (where_ (fst nd))).
Proof.
  induction more as [|more IH]; intros c.
  - exists c. split; [lia|]. cbn [ab_safe]. split; [destruct (ab_attempt _ _ _ _ _ _ _ _ _); reflexivity|]. split; intros; lia.
  - cbn [ab_safe]. destruct (ab_attempt dist optics squash (Nat.iter c ab_relax p) mj X y P n) as [nd|e] eqn:E.
    + cbn [bind]. destruct (Nat.ltb_spec (length (where_ (fst nd))) 2) as [H|H].
      * destruct (IH (S c)) as (c' & J1 & J2 & J3 & J4). exists c'. split; [lia|]. split; [exact J2|]. split.
        -- intros i Hi. destruct (Nat.eq_dec i c) as [->|]; [eauto|]. apply J3. lia.
        -- intros G. apply J4. lia.
      * exists c. split; [lia|]. split; [now rewrite E|]. split; [lia|]. intros _ nd'. rewrite E. intros G. injection G as <-. exact H.
    + exists c. split; [lia|]. split; [now rewrite E|]. split; [lia|]. intros _ nd'. rewrite E. discriminate.
Qed.

Lemma above_beyond t x : above t x = beyond t x.
Proof. destruct x; reflexivity. Qed.

Lemma ab_attempt_ok p mn mj X y P n : P <> [] -> (forall x, In x P -> In (x, mn) (combine X y)) ->
  match optics (Nat.min (length P - 1) (ab_min_samples p)) (ab_eps p) P with
  | Err e => ab_attempt dist optics squash p mj X y P n = Err e
  | Ok (cores, reaches) => length cores = length P /\ (forall q, In (Some q) cores -> (0 <= q)%Q) /\
      exists mask dens, ab_attempt dist optics squash p mj X y P n = Ok (mask, dens) /\ length mask = length P /\ length dens = length P /\
        where_ mask = ab_kept (ab_T1 p) (ab_T2 p) cores reaches /\
        forall i, i < length P -> match nth i cores None with
          | None => nan_to_num (nth i dens NaN) = 0%Q
          | Some c => exists nm, nm = counted mj X y (nth i P []) c /\ nth i dens NaN = ab_density squash p n (Some c) (fst nm) (snd nm) end
  end.
Proof.
  intros Hne Hin. unfold ab_attempt. destruct (Hopt (Nat.min (length P - 1) (ab_min_samples p)) (ab_eps p) P) as [(cores & reaches & E & L1 & L2 & H1 & H2)|E]; rewrite E; [|reflexivity].
  cbn [bind]. specialize (H2 Hne). split; [exact L1|]. split; [exact H1|].
  assert (Hc : forall xc, In xc (combine P cores) -> exists nm, ab_counts dist mj X y (snd xc) (fst xc) = Ok nm /\ forall c, snd xc = Some c -> nm = counted mj X y (fst xc) c).
  { intros [x r] Hx. cbn [fst snd]. apply (ab_counts_ok mj X y x mn r); [apply Hin; now apply in_combine_l in Hx|]. intros c ->. apply H1. now apply in_combine_r in Hx. }
  destruct (mapM_total (fun xc => ab_counts dist mj X y (snd xc) (fst xc)) (combine P cores)) as (counts & EC).
  { apply Forall_forall. intros xc Hx. destruct (Hc xc Hx) as (nm & Enm & _). eauto. }
  rewrite EC. cbn [bind]. pose proof EC as EC'. apply mapM_ok_iff in EC'. assert (Lc : length counts = length P) by (apply mapM_length in EC; rewrite combine_length in EC; lia).
  do 2 eexists. split; [reflexivity|]. split; [rewrite map_length, combine_length; lia|]. split; [rewrite map2_length; lia|]. split.
  - rewrite where_filter, map_length, combine_length. unfold ab_kept. replace (Nat.min (length cores) (length reaches)) with (length cores) by lia.
    apply filter_ext_in. intros i Hi. apply in_seq in Hi. rewrite (nth_map_in _ (None, None)) by (rewrite combine_length; lia). rewrite combine_nth by lia.
    unfold ab_noise. cbn [fst snd]. rewrite (mean_ext_none reaches H2). cbn [exceeds]. rewrite andb_false_r, orb_false_r. now rewrite !above_beyond.
  - intros i Hi. rewrite (map2_nth _ _ _ _ None (0, 0)%Q) by lia. destruct (nth i cores None) as [c|] eqn:Ei.
    + exists (nth i counts (0, 0)%Q). split; [|reflexivity].
      pose proof (Forall2_nth' _ _ _ ([], None) (0, 0)%Q i EC' ltac:(rewrite combine_length; lia)) as G. rewrite combine_nth in G by lia. cbn [fst snd] in G.
      destruct (Hc (nth i P [], nth i cores None)) as (nm & E1 & E2). { rewrite <- combine_nth by lia. apply nth_In. rewrite combine_length. lia. }
      cbn [fst snd] in E1, E2. rewrite E1 in G. injection G as <-. now apply E2.
    + cbn [ab_density]. destruct (Qeq_bool _ _); reflexivity.
Qed.

Lemma asmobd_ok p r D mn mj n : rng_ok r -> unif_pos r -> plain_ss (ab_ss p) -> (0 <= ab_eta p <= 1)%Q ->
  wf_data (d_X D) (d_dim D) (d_y D) -> is_minority (d_y D) mn mj -> asked (ab_proportion p) (d_y D) mn mj = Ok n ->
  let out := asmobd_sample volume nn dist sd optics squash p r D in
  (count_label (d_y D) mn <= 2 \/ n = 0%Z -> unchanged D out) /\
  (2 < count_label (d_y D) mn -> (0 < n)%Z -> asmobd_result dist sd optics squash p D mn mj n out).
Proof.
  intros Hr Hu Hss Heta [HX Hl] Hmin Hn. cbv zeta. unfold asmobd_sample.
  destruct (sample_default (asmobd_algorithm volume nn dist sd optics squash p r) D mn mj Hmin) as (st & Hst & ->).
  destruct (stats_labels _ _ _ _ Hst) as [El1 El2].
  destruct (Nat.leb_spec (count_label (d_y D) mn) 2) as [Hle|Hgt]; [split; [reflexivity|lia]|].
  unfold asmobd_algorithm. rewrite (det_st_asked _ _ _ _ _ (proj1 Hmin) Hst), Hn. cbn [bind].
  destruct (Nat.eqb_spec (Z.to_nat n) 0) as [E0|N0]; [split; [reflexivity|lia]|]. split; [lia|]. intros _ Hn0.
  rewrite El1, El2. set (mm := std_fit sd (d_dim D) (d_X D)). set (f := mm_transform mm).
  assert (Lmm : length mm = d_dim D) by apply std_fit_length.
  assert (Rmm : Forall (fun lr => ~ (snd lr == 0)%Q) mm) by apply std_fit_range.
  rewrite rows_with_map by exact Hl. set (X_min := rows_with mn (d_X D) (d_y D)).
  assert (HL : length X_min = count_label (d_y D) mn) by now apply rows_with_length.
  assert (HR : rect (d_dim D) X_min) by now apply rows_with_rect.
  unfold asmobd_result. fold X_min. destruct (std_standard sd (d_dim D) (d_X D)) as (w & W1 & W2). exists w, f.
  set (P := map f X_min). set (X_ss := map f (d_X D)). assert (LP : length P = length X_min) by (unfold P; apply map_length).
  assert (HPne : P <> []) by (intros C; rewrite C in LP; cbn in LP; lia).
  assert (HPin : forall x, In x P -> In (x, mn) (combine X_ss (d_y D))).
  { intros x Hx. unfold P, X_min in Hx. rewrite <- rows_with_map in Hx by exact Hl. now apply rows_with_in. }
  destruct (ab_safe_steps mj X_ss (d_y D) P (Z.to_nat n) p 3 0) as (c & C1 & C2 & C3 & C4). cbn [Nat.iter nat_rect] in C2.
  exists c. split; [exact W1|]. split; [exact W2|]. split; [lia|]. cbv zeta.
  assert (Hatt : forall i, let q := Nat.iter i ab_relax p in
     match optics (Nat.min (length X_min - 1) (ab_min_samples p)) (relaxed i (ab_eps p)) P with
     | Err e => ab_attempt dist optics squash q mj X_ss (d_y D) P (Z.to_nat n) = Err e
     | Ok (cores, reaches) => length cores = length P /\ (forall q, In (Some q) cores -> (0 <= q)%Q) /\
      exists mask dens, ab_attempt dist optics squash q mj X_ss (d_y D) P (Z.to_nat n) = Ok (mask, dens) /\ length mask = length P /\ length dens = length P /\
        where_ mask = ab_kept (relaxed i (ab_T1 p)) (relaxed i (ab_T2 p)) cores reaches /\
        forall j, j < length P -> match nth j cores None with
          | None => nan_to_num (nth j dens NaN) = 0%Q
          | Some c => exists nm, nm = counted mj X_ss (d_y D) (nth j P []) c /\ nth j dens NaN = ab_density squash p (Z.to_nat n) (Some c) (fst nm) (snd nm) end
     end).
  { intros i q. pose proof (ab_attempt_ok q mn mj X_ss (d_y D) P (Z.to_nat n) HPne HPin) as G. destruct (relax_iter i p) as (J1 & J2 & J3 & J4 & J5 & J6 & J7 & J8). fold q in J1, J2, J3, J4, J5, J6, J7, J8.
    rewrite J2, J3, J5, J6, LP in G. destruct (optics _ _ _) as [[cores reaches]|e]; [|exact G]. destruct G as (G0 & G1 & mask & dens & G2 & G3 & G4 & G5 & G6). rewrite LP. split; [exact G0|]. split; [exact G1|].
    exists mask, dens. repeat (split; [assumption|]). intros j Hj. specialize (G6 j Hj). destruct (nth j cores None) as [cc|]; [|exact G6].
    destruct G6 as (nm & K1 & K2). exists nm. split; [exact K1|]. rewrite K2. unfold ab_density. now rewrite J4, J7, J8. }
  split.
  { intros i Hi. destruct (C3 i ltac:(lia)) as ([mask dens] & G1 & G2). specialize (Hatt i). cbv zeta in Hatt. destruct (optics _ _ _) as [[cores reaches]|e]; [|congruence].
    exists cores, reaches. split; [reflexivity|]. destruct Hatt as (_ & _ & mask' & dens' & G3 & _ & _ & G4 & _). rewrite G1 in G3. injection G3 as -> ->. rewrite <- G4. exact G2. }
  specialize (Hatt c). cbv zeta in Hatt. change (Nat.iter 0 ab_relax p) with p in C2. rewrite C2.
  destruct (optics _ _ _) as [[cores reaches]|e]; [|rewrite Hatt; reflexivity].
  destruct Hatt as (Lco & Hco & mask & dens & E1 & Lma & Lde & EK & Hde). rewrite E1. cbn [bind fst snd]. set (K := ab_kept _ _ _ _) in *.
  split; [intros G; specialize (C4 ltac:(lia) _ E1); cbn [fst] in C4; rewrite EK in C4; exact C4|].
  assert (Ekept : select mask P = rows_at P K) by (rewrite select_rows_at, EK by lia; reflexivity).
  rewrite Ekept. assert (LK : length (rows_at P K) = length K) by (unfold rows_at; apply map_length). rewrite LK.
  assert (FK : Forall (fun i => i < length P) K).
  { rewrite <- EK. apply Forall_forall. intros i Hi. apply NoiseFacts2.where_in in Hi. lia. }
  destruct (Nat.leb_spec (length K) 2) as [G|G]; [split; [reflexivity|lia]|]. split; [lia|]. intros _.
  assert (Edens : select mask dens = map (fun i => nth i dens NaN) K) by (rewrite (select_where NaN), EK by lia; reflexivity).
  set (weights := map nan_to_num (select mask dens)). assert (Lw : length weights = length K) by (unfold weights; rewrite Edens, !map_length; reflexivity).
  assert (Hweight : forall b, b < length K -> nth b weights 0%Q = nan_to_num (nth (nth b K 0) dens NaN)).
  { intros b Hb. unfold weights. rewrite Edens, map_map. rewrite (nth_map_in _ 0) by exact Hb. reflexivity. }
  assert (Hb : forall b, b < length K -> nth b K 0 < length P) by (intros b Hb; rewrite Forall_forall in FK; apply FK, nth_In, Hb).
  exists weights. split; [exact Lw|]. assert (EZ : inject_Z (Z.of_nat (Z.to_nat n)) = inject_Z n) by (f_equal; lia). split; [|split].
  - intros b Hlt. rewrite Hweight by exact Hlt. specialize (Hde _ (Hb b Hlt)). unfold ab_weight. destruct (nth (nth b K 0) cores None) as [cc|]; [|now rewrite Hde].
    destruct Hde as (nm & -> & ->). unfold counted. cbv zeta. cbn [fst snd ab_density]. rewrite EZ.
    set (all := close_to _ _ _ _ _ (fun _ => true)). set (share := (close_to _ _ _ _ _ _ / all)%Q). destruct (ab_sigmoid p); cbn [nan_to_num].
    + unfold safe_divide. destruct (Qeq_bool (all - share - 1) 0) eqn:C.
      * apply Qeq_bool_iff in C. split; [intros _; reflexivity|contradiction].
      * apply Qeq_bool_neq in C. split; [contradiction|]. intros _. reflexivity.
    + reflexivity.
  - intros Hs. apply nonneg_nth. intros b Hlt. rewrite Lw in Hlt. rewrite Hweight by exact Hlt. specialize (Hde _ (Hb b Hlt)).
    destruct (nth (nth b K 0) cores None) as [cc|] eqn:Ecc; [|rewrite Hde; lra]. destruct Hde as (nm & -> & ->).
    assert (Hcc : (0 <= cc)%Q) by (apply Hco; rewrite <- Ecc; apply nth_In; rewrite Lco; now apply Hb).
    assert (Hmm : mn <> mj) by (apply Hmin).
    destruct (counted_bounds mn mj X_ss (d_y D) (nth (nth b K 0) P []) cc Hmm) as [B1 B2]; [apply HPin, nth_In, Hb, Hlt|exact Hcc|].
    unfold counted. cbv zeta. cbn [fst snd ab_density]. rewrite Hs, EZ. cbn [nan_to_num].
    set (all := close_to _ _ _ _ _ (fun _ => true)) in *. set (share := (close_to _ _ _ _ _ _ / all)%Q) in *.
    assert (N1 : (0 < inject_Z n)%Q) by (change 0%Q with (inject_Z 0); rewrite <- Zlt_Qlt; exact Hn0).
    assert (R1 : (0 <= (1 - ab_eta p) * (all - share - 1) / inject_Z n)%Q) by (apply Qle_shift_div_l; [exact N1|]; rewrite Qmult_0_l; apply Qmult_le_0_compat; lra).
    assert (R2 : (0 <= ab_eta p * cc)%Q) by (apply Qmult_le_0_compat; lra).
    assert (R3 : (0 <= (1 - ab_eta p) * share)%Q) by (apply Qmult_le_0_compat; lra).
    assert (R4 : (0 <= ab_eta p * (ab_eta p * cc + (1 - ab_eta p) * share))%Q) by (apply Qmult_le_0_compat; lra). lra.
  - intros Hw. set (k := Nat.min (length K) (ab_min_samples p + 1)).
    destruct (Hnn (rows_at P K) (rows_at P K) k) as (T & -> & HT); [rewrite LK; unfold k; lia|]. cbn [bind].
    destruct (nearest_table_shape _ _ _ _ _ HT) as (T1 & T2 & T3). rewrite LK in T1, T3. set (W := fix_density (select mask dens)).
    assert (LW : length W = length K) by (unfold W; rewrite fix_density_length, Edens; apply map_length).
    assert (W0 : Forall (Qle 0) W) by (unfold W; apply fix_density_nonneg; unfold weights in Hw; rewrite Forall_map in Hw; exact Hw).
    assert (Wne : select mask dens <> []) by (intros C; rewrite Edens in C; apply (f_equal (@length _)) in C; rewrite map_length in C; cbn in C; lia).
    assert (Ws : (qsum W == 1)%Q) by (unfold W; now apply fix_density_sum).
    assert (RP : rect (d_dim D) (rows_at P K)).
    { unfold rect, rows_at. rewrite Forall_map. eapply Forall_impl; [|exact FK]. intros i Hi. apply rect_nth; [now apply transform_rect|exact Hi]. }
    assert (Hargs : args_ok (mk_args (rows_at P K) (d_dim D) T k (Some W) None None false None)).
    { constructor; cbn; auto; try discriminate; rewrite ?LK, ?T1; auto. }
    destruct (qsum_pos_ex W W0 ltac:(lra)) as (b0 & Hb0 & Hwb).
    destruct (ss_call volume (ab_ss p) _ (Z.to_nat n) r b0 Hargs Hr Hu Hss) as (S & ES & LS & FS); cbn; auto; [unfold k; lia|lia|]. cbn in ES. rewrite ES. cbn [bind].
    exists (map (mm_inverse mm) S). split; [unfold extended; now rewrite El1|]. unfold asmobd_spec. assert (LKX : length (rows_at X_min K) = length K) by (unfold rows_at; apply map_length).
    rewrite LKX. fold k. split; [rewrite map_length; exact LS|]. exists T, W. split; [exact HT|]. split; [exact LW|]. split.
    + intros b Hbk Hpos. destruct (Qeq_dec (qsum weights) 0) as [Z|Z].
      * left. apply Forall_forall. now apply qsum_zero_all.
      * right. unfold W in Hpos. rewrite fix_density_nonzero in Hpos by exact Z. fold weights in Hpos. rewrite (nth_map_in _ 0%Q) in Hpos by lia.
        assert (Sp : (0 < qsum weights)%Q) by now apply qsum_pos_nonzero. set (q := nth b weights 0%Q) in *. set (s := qsum weights) in *.
        assert (Eq : (q == q / s * s)%Q) by (field; lra). rewrite Eq. now apply Qmult_lt_0_compat.
    + intros Hg. specialize (FS Hg). rewrite Forall_map. eapply Forall_impl; [|exact FS]. intros s Hs. cbn [a_dim a_X a_X_vertices vertex_set a_indices a_ncols a_base_weights a_simplex_weights] in Hs.
      assert (ER : rows_at P K = map (mm_transform mm) (rows_at X_min K)).
      { unfold rows_at, P. rewrite map_map. apply map_ext_in. intros i Hi. rewrite Forall_forall in FK. specialize (FK i Hi). unfold f. apply nth_map_in. lia. }
      assert (RX : rect (d_dim D) (rows_at X_min K)).
      { unfold rect, rows_at. rewrite Forall_map. eapply Forall_impl; [|exact FK]. intros i Hi. cbn beta. apply rect_nth; [exact HR|rewrite <- LP; exact Hi]. }
      rewrite ER in Hs. apply neighbour_sample_inverse; auto; rewrite ?LKX; auto. lia.
Qed.

End Asmobd.
