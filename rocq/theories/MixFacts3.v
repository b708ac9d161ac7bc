From Coq Require Import List ZArith QArith Qabs Qminmax Qround Qpower Bool Arith Lia Lqa Sorting.Sorted Permutation.
From Verif Require Import Np PyVal NpFacts BaseFacts SimplexModel Spec SpecDanger SpecNoise SpecComp SimplexFacts SimplexGeom Float64
  SamplerModel SamplerFacts OversFacts BaseModel KnnFacts DangerModel DangerFacts BorderFacts ClusterModel ClusterOversModel OversGen
  ClusterOversFacts ClusterFacts NoiseModel NoiseFacts NoiseFacts2 CompModel CompFacts CompFacts2 CompFacts3 CompFacts4 EditModel SpecEdit EditFacts EditFacts3 EditFacts4 EditFacts5
  SpecNear NearFacts NearFacts2 LevelModel SpecLevel LevelFacts LevelFacts3 LevelFacts4 SpecGroup GroupFacts GroupFacts2 GroupFacts4 WrapModel SpecWrap WrapFacts WrapFacts2 WrapFacts3 DirModel SpecDir DirFacts DirFacts3 RegionModel SpecRegion RegionFacts RegionFacts2 RegionFacts3 RegionFacts4 SearchModel SpecSearch SearchFacts2 GraphModel SpecGraph GraphFacts GraphFacts2 GraphFacts4 GraphFacts5 GraphFacts6 GraphFacts8 MixModel SpecMix MixFacts.
Import ListNotations.
Open Scope nat_scope.

(** ** SMOTE_FRST_2T *)

Lemma attr_range_unique P j lo hi lo' hi' : attr_range P j lo hi -> attr_range P j lo' hi' -> (lo == lo' /\ hi == hi')%Q.
Proof.
  intros (A1 & (a & Ia & Ea) & (b & Ib & Eb)) (B1 & (a' & Ia' & Ea') & (b' & Ib' & Eb')).
  pose proof (A1 a' Ia') as Q1. pose proof (A1 b' Ib') as Q2. pose proof (B1 a Ia) as Q3. pose proof (B1 b Ib) as Q4. lra.
Qed.

Lemma attr_range_nonempty P j lo hi : attr_range P j lo hi -> P <> [].
Proof. intros (_ & (x & Hx & _) & _) ->. destruct Hx. Qed.

Lemma mm_fit_nth d X j : j < d -> nth j (mm_fit d X) (0, 0)%Q =
  (col_min (column j X), if Qeq_bool (col_max (column j X) - col_min (column j X)) 0 then 1%Q else (col_max (column j X) - col_min (column j X))%Q).
Proof. intros Hj. unfold mm_fit. rewrite (nth_map_in _ 0) by (rewrite seq_length; exact Hj). now rewrite seq_nth. Qed.

Lemma mm_scaled d X : min_max_scaled d X (mm_transform (mm_fit d X)).
Proof.
  intros x Hx. split; [apply mm_transform_length; [apply mm_fit_length|exact Hx]|]. intros j lo hi Hj HR.
  rewrite mm_transform_nth, mm_fit_nth by (rewrite ?mm_fit_length; auto). cbn [fst snd].
  destruct (attr_range_unique _ _ _ _ _ _ HR (column_range X j (attr_range_nonempty _ _ _ _ HR))) as [E1 E2].
  destruct (Qeq_bool (col_max (column j X) - col_min (column j X)) 0) eqn:E.
  - apply Qeq_bool_iff in E. split; intros H; [|lra]. rewrite <- E1. field.
  - assert (N : ~ (col_max (column j X) - col_min (column j X) == 0)%Q) by (intros C; apply Qeq_bool_iff in C; congruence).
    split; intros H; [exfalso; apply N; rewrite <- E1, <- E2; lra|]. rewrite <- E1, <- E2. reflexivity.
Qed.

Lemma pos_taxi d x z : length x = d -> length z = d -> (pos d x z == Qmin 1 (taxi d x z))%Q.
Proof.
  intros Hx Hz. unfold pos. rewrite (l1_taxi d x z Hx Hz). set (t := taxi d x z). set (D := inject_Z (Z.of_nat d)). unfold q_max.
  destruct (Qle_bool 0 (D - t - D + 1)) eqn:E.
  - apply Qle_bool_iff in E. rewrite Q.min_r by lra. ring.
  - assert (~ (0 <= D - t - D + 1)%Q) by (rewrite <- Qle_bool_iff; congruence). rewrite Q.min_l by lra. ring.
Qed.

Lemma pos_le_one d x z : (pos d x z <= 1)%Q.
Proof. unfold pos, q_max. destruct (Qle_bool 0 _) eqn:E; [apply Qle_bool_iff in E; lra|lra]. Qed.

Lemma taxi_same d x x' z z' : same_row x x' -> same_row z z' -> (taxi d x z == taxi d x' z')%Q.
Proof.
  intros Hx Hz. unfold taxi. apply CompFacts4.qsum_map_ext. intros j _.
  assert (G : forall a b : row, same_row a b -> (nth j a 0 == nth j b 0)%Q).
  { clear. intros a b H. revert j. induction H; intros [|j]; cbn; auto; reflexivity. }
  rewrite (G _ _ Hx), (G _ _ Hz). reflexivity.
Qed.

Lemma pos_close d x x' z z' g : length x' = d -> length z' = d -> same_row x x' -> same_row z z' -> (pos d x' z' < g)%Q ->
  (Qmin 1 (taxi d x z) < g)%Q.
Proof.
  intros Lx Lz Hx Hz H. pose proof (pos_taxi d x' z' Lx Lz) as E. pose proof (taxi_same d x x' z z' Hx Hz) as E2.
  destruct (Q.min_spec 1 (taxi d x z)) as [[? E3]|[? E3]]; destruct (Q.min_spec 1 (taxi d x' z')) as [[? E4]|[? E4]]; rewrite E3; rewrite E4 in E; lra.
Qed.

Lemma close_to_iff d g refs z : close_to d g refs z = true <-> exists x, In x refs /\ (pos d x z < g)%Q.
Proof. unfold close_to. rewrite existsb_exists. split; intros (x & H1 & H2); exists x; (split; [exact H1|]); now apply Qlt_b_iff'. Qed.

Lemma filter_split_perm {A} (f : A -> bool) l : Permutation l (filter (fun x => negb (f x)) l ++ filter f l).
Proof.
  induction l as [|a l IH]; [constructor|]. cbn. destruct (f a); cbn; [|now constructor]. apply Permutation_cons_app, IH.
Qed.
Lemma filter_map_com {A B} (f : A -> B) (g : B -> bool) l : filter g (map f l) = map f (filter (fun x => g (f x)) l).
Proof. induction l as [|a l IH]; [reflexivity|]. cbn. destruct (g (f a)); cbn; now rewrite IH. Qed.

Lemma pow_step i : ((11 # 10) ^ Z.of_nat (S i) == (11 # 10) ^ Z.of_nat i * (11 # 10))%Q.
Proof. rewrite Nat2Z.inj_succ. unfold Z.succ. rewrite Qpower_plus by discriminate. reflexivity. Qed.
Lemma pow_pos i : (0 < (11 # 10) ^ Z.of_nat i)%Q.
Proof. induction i as [|i IH]; [reflexivity|]. rewrite pow_step. lra. Qed.
Lemma pow_mono i k : i <= k -> ((11 # 10) ^ Z.of_nat i <= (11 # 10) ^ Z.of_nat k)%Q.
Proof. induction 1 as [|k Hk IH]; [lra|]. rewrite pow_step. pose proof (pow_pos k). lra. Qed.

Section Loop.

Variables (d : nat) (f : row -> row) (X_min X_maj : list row) (gS gM : Q) (m : nat) (ok : row -> Prop) (smote : nat -> res (list row)).
Hypothesis Hsm : forall i, exists S, smote i = Ok S /\ length S = m /\ Forall ok S.
Hypothesis HgS : (0 <= gS)%Q.
Hypothesis HgM : (0 <= gM)%Q.
Hypothesis Hne : X_min <> [].
Let Z_min := map f X_min.

Record frst_inv (i : nat) (s : frst_state) : Prop := {
  fi_rows : exists A R, fs_maj s = map f A /\ fs_relab s = map f R /\ Permutation (A ++ R) X_maj /\ length X_min <= length A;
  fi_S : (gS <= fs_S s /\ fs_S s <= gS * (11 # 10) ^ Z.of_nat i)%Q;
  fi_M : (fs_M s <= gM /\ 0 <= fs_M s)%Q;
  fi_ok : Forall ok (fs_synth s);
  fi_near : Forall (fun z => exists x, In x Z_min /\ (pos d x z < gS * (11 # 10) ^ Z.of_nat i)%Q) (fs_synth s);
  fi_refs : incl (fs_refs s) (Z_min ++ fs_synth s ++ fs_relab s);
  fi_relab : forall k, k < length (fs_relab s) -> exists z, In z (Z_min ++ fs_synth s ++ firstn k (fs_relab s)) /\ (pos d z (nth k (fs_relab s) []) < gM)%Q;
  fi_count : (1 < gS)%Q -> length (fs_synth s) = i * m }.

Lemma frst_pass_ok i X_samp s : length X_samp = m -> Forall ok X_samp -> frst_inv i s -> frst_inv (S i) (frst_pass d Z_min i X_samp s).
Proof.
  intros Lm Hok Hi. destruct Hi as [(A & R & EA & ER & HP & HA) (S1 & S2) (M1 & M2) Fok Fnear Frefs Frel Fcnt].
  unfold frst_pass.
  set (g := if length (fs_synth s) <? i then (fs_S s * (11 # 10))%Q else fs_S s).
  assert (Hg : (gS <= g)%Q /\ (g <= gS * (11 # 10) ^ Z.of_nat (S i))%Q).
  { pose proof (pow_step i) as E. pose proof (pow_pos i) as P.
    assert (E2 : (gS * (11 # 10) ^ Z.of_nat (S i) == gS * (11 # 10) ^ Z.of_nat i * (11 # 10))%Q) by (rewrite E; ring).
    rewrite E2. unfold g. destruct (length (fs_synth s) <? i); split; lra. }
  set (added := filter (close_to d g Z_min) X_samp).
  assert (Hadd : Forall ok added).
  { apply Forall_forall. intros z Hz. apply filter_In in Hz. rewrite Forall_forall in Hok. apply Hok, Hz. }
  assert (Hnear : Forall (fun z => exists x, In x Z_min /\ (pos d x z < gS * (11 # 10) ^ Z.of_nat (S i))%Q) (fs_synth s ++ added)).
  { apply Forall_app. split.
    - eapply Forall_impl; [|exact Fnear]. intros z (x & H1 & H2). exists x. split; [exact H1|]. pose proof (pow_mono i (S i) ltac:(lia)).
      assert (gS * (11 # 10) ^ Z.of_nat i <= gS * (11 # 10) ^ Z.of_nat (S i))%Q by nra. lra.
    - apply Forall_forall. intros z Hz. apply filter_In in Hz. destruct Hz as [_ Hz]. apply close_to_iff in Hz. destruct Hz as (x & H1 & H2). exists x. split; [exact H1|]. lra. }
  assert (Hcnt : (1 < gS)%Q -> length (fs_synth s ++ added) = S i * m).
  { intros H1. rewrite app_length, (Fcnt H1). assert (E : added = X_samp).
    { unfold added. clear - Hg H1 Hne. induction X_samp as [|z l IH]; [reflexivity|]. cbn.
      assert (E : close_to d g Z_min z = true).
      { apply close_to_iff. destruct X_min as [|x X]; [congruence|]. exists (f x). split; [now left|]. pose proof (pos_le_one d (f x) z). lra. }
      rewrite E. now rewrite IH. }
    rewrite E, Lm. lia. }
  set (near := close_to d (fs_M s) (fs_refs s)). set (gone := filter near (fs_maj s)).
  destruct (Z.ltb_spec (Z.of_nat (length (fs_maj s)) - Z.of_nat (length Z_min)) (2 * Z.of_nat (length gone))) as [Hlt|Hge].
  - constructor; cbn [fs_maj fs_refs fs_synth fs_relab fs_S fs_M].
    + exists A, R. auto.
    + exact Hg.
    + split; lra.
    + apply Forall_app; auto.
    + exact Hnear.
    + intros z Hz. rewrite in_app_iff in Hz. rewrite !in_app_iff. destruct Hz as [Hz|Hz]; [apply Frefs in Hz; rewrite !in_app_iff in Hz; tauto|tauto].
    + intros k Hk. destruct (Frel k Hk) as (z & H1 & H2). exists z. split; [|exact H2]. rewrite !in_app_iff in *. tauto.
    + exact Hcnt.
  - assert (Eg : gone = map f (filter (fun x => near (f x)) A)) by (unfold gone; rewrite EA; apply filter_map_com).
    assert (Ek : filter (fun x => negb (near x)) (fs_maj s) = map f (filter (fun x => negb (near (f x))) A)) by (rewrite EA; apply (filter_map_com f (fun x => negb (near x)))).
    constructor; cbn [fs_maj fs_refs fs_synth fs_relab fs_S fs_M].
    + exists (filter (fun x => negb (near (f x))) A), (R ++ filter (fun x => near (f x)) A). split; [exact Ek|]. split; [rewrite map_app, ER, Eg; reflexivity|].
      pose proof (filter_split_perm (fun x => near (f x)) A) as PA. split.
      * eapply Permutation_trans; [|exact HP]. eapply Permutation_trans; [|apply Permutation_app_tail; apply Permutation_sym; exact PA].
        rewrite <- !app_assoc. apply Permutation_app_head. apply Permutation_app_comm.
      * apply Permutation_length in PA. rewrite app_length in PA. rewrite Eg, EA in Hge. unfold Z_min in Hge. rewrite !map_length in Hge. lia.
    + exact Hg.
    + split; lra.
    + apply Forall_app; auto.
    + exact Hnear.
    + intros z Hz. rewrite !in_app_iff in Hz. rewrite !in_app_iff. destruct Hz as [Hz|Hz]; [apply Frefs in Hz; rewrite !in_app_iff in Hz; tauto|tauto].
    + intros k Hk. rewrite app_length in Hk. destruct (Nat.lt_ge_cases k (length (fs_relab s))) as [Hk'|Hk'].
      * destruct (Frel k Hk') as (z & H1 & H2). exists z. rewrite app_nth1 by exact Hk'. split; [|exact H2].
        rewrite firstn_app. replace (k - length (fs_relab s)) with 0 by lia. cbn [firstn]. rewrite app_nil_r. rewrite !in_app_iff in *. tauto.
      * rewrite app_nth2 by exact Hk'. set (z0 := nth (k - length (fs_relab s)) gone []).
        assert (Hz0 : In z0 gone) by (apply nth_In; lia). unfold gone in Hz0. apply filter_In in Hz0. destruct Hz0 as [_ Hz0].
        apply close_to_iff in Hz0. destruct Hz0 as (z & H1 & H2). exists z. split; [|lra].
        rewrite firstn_app, (firstn_all2 (fs_relab s)) by exact Hk'. apply Frefs in H1. rewrite !in_app_iff in *. tauto.
    + exact Hcnt.
Qed.

Lemma frst_loop_ok more : forall i s, frst_inv i s ->
  exists s' k, frst_loop d Z_min smote more i s = Ok s' /\ i <= k <= i + more /\ frst_inv k s' /\
    (length (fs_maj s') <= length Z_min + length (fs_synth s') + length (fs_relab s') \/ k = i + more).
Proof.
  induction more as [|more IH]; intros i s Hi; cbn [frst_loop].
  - exists s, i. destruct (_ <? _); (split; [reflexivity|]); (split; [lia|]); (split; [exact Hi|]); right; lia.
  - destruct (Nat.ltb_spec (length Z_min + length (fs_synth s) + length (fs_relab s)) (length (fs_maj s))) as [H|H].
    + destruct (Hsm i) as (S & ES & LS & OS). rewrite ES. cbn [bind].
      destruct (IH (Datatypes.S i) _ (frst_pass_ok i S s LS OS Hi)) as (s' & k & E & Hk & Hi' & H'). exists s', k. split; [exact E|]. split; [lia|]. split; [exact Hi'|]. destruct H'; [now left|right; lia].
    + exists s, i. split; [reflexivity|]. split; [lia|]. split; [exact Hi|]. now left.
Qed.

End Loop.

Section FRST.

Variable volume : list row -> Q.
Variable dist : row -> row -> Q.
Variable nn : list row -> list row -> nat -> res (list (list nat)).
Hypothesis Hnn : knn_ok dist nn.

Lemma frst_ok p rs D mn mj m : rngs_ok rs -> rngs_pos rs -> plain_ss (fr_ss p) -> wf_data (d_X D) (d_dim D) (d_y D) -> is_minority (d_y D) mn mj ->
  (0 <= fr_gamma_S p)%Q -> (0 <= fr_gamma_M p)%Q -> 1 <= fr_n_neighbors p ->
  asked (frst_step D mn mj) (d_y D) mn mj = Ok m ->
  let out := frst_sample volume nn p rs D in
  (count_label (d_y D) mn <= 2 \/ count_label (d_y D) mj <= count_label (d_y D) mn -> unchanged D out) /\
  (2 < count_label (d_y D) mn -> count_label (d_y D) mn < count_label (d_y D) mj -> frst_result dist p D mn mj m out).
Proof.
  intros Hr Hu Hss Hwf Hmin HgS HgM Hk Hm. cbv zeta. unfold frst_sample.
  destruct (sample_default (frst_algorithm volume nn p rs) D mn mj Hmin) as (st & Hst & ->).
  destruct (stats_labels _ _ _ _ Hst) as [El1 El2].
  destruct (Nat.leb_spec (count_label (d_y D) mn) 2) as [Hle|Hgt].
  { split; [reflexivity|lia]. }
  unfold frst_algorithm. rewrite El1, El2.
  assert (HX : rect (d_dim D) (d_X D)) by apply Hwf. assert (HL : length (d_X D) = length (d_y D)) by apply Hwf.
  set (X_min := rows_with mn (d_X D) (d_y D)). set (X_maj := rows_with mj (d_X D) (d_y D)).
  assert (Lmin : length X_min = count_label (d_y D) mn) by (apply rows_with_length, HL).
  assert (Lmaj : length X_maj = count_label (d_y D) mj) by (apply rows_with_length, HL).
  rewrite Lmin, Lmaj. destruct (Nat.leb_spec (count_label (d_y D) mj) (count_label (d_y D) mn)) as [Hc|Hc].
  { split; [reflexivity|lia]. }
  split; [lia|]. intros _ _.
  set (d := d_dim D) in *. set (mm := mm_fit d (d_X D)). set (f := mm_transform mm).
  assert (Lmm : length mm = d) by apply mm_fit_length. assert (Rmm : Forall (fun lr => ~ (snd lr == 0)%Q) mm) by apply mm_fit_range.
  rewrite !rows_with_map by exact HL. fold X_min X_maj.
  assert (Rmin : rect d X_min) by apply rows_with_rect, HX. assert (Rmaj : rect d X_maj) by apply rows_with_rect, HX.
  fold (frst_step D mn mj). set (D' := mk_data (map f (d_X D)) d (d_y D)).
  set (sp := mk_smote (frst_step D mn mj) (fr_n_neighbors p) (fr_ss p)).
  assert (Hwf' : wf_data (d_X D') (d_dim D') (d_y D')).
  { split; cbn; [|now rewrite map_length]. unfold f. now apply transform_rect. }
  set (k := Nat.min (length X_min) (fr_n_neighbors p + 1)).
  set (good := fun z => ss_gauss (fr_ss p) = GNone -> length z = d /\ (exists T, nearest_table dist (map f X_min) (map f X_min) k T /\
     neighbour_sample d (map f X_min) (map f X_min) T k (Nat.min (ss_n_dim (fr_ss p)) k - 1) None None z)).
  set (smote := fun i => do out <- smote_sample volume nn sp (rs i) D'; Ok (skipn (length (map f (d_X D))) (fst out))).
  assert (Hsm : forall i, exists S, smote i = Ok S /\ length S = Z.to_nat m /\ Forall good S).
  { intros i. destruct (smote_result dist volume nn sp (rs i) D' mn mj m Hnn (Hr i) (Hu i) Hss Hwf' Hmin Hm Hk Hgt) as (S & ES & S0 & S1).
    exists S. unfold smote. rewrite ES. cbn [bind fst]. change (d_X D') with (map f (d_X D)).
    rewrite skipn_app, skipn_all, Nat.sub_diag. split; [reflexivity|]. pose proof (asked_some _ _ _ _ _ Hm) as Hm0.
    destruct (Z.eq_dec m 0) as [->|Nm]; [rewrite (S0 eq_refl); split; [reflexivity|constructor]|].
    destruct (S1 ltac:(lia)) as (L & T & HT & HS). unfold smote_spec in *. cbn [d_X d_y d_dim D' sm_n_neighbors sm_ss sp] in *.
    rewrite rows_with_map in HT by exact HL. fold X_min in HT. rewrite map_length in HT. fold k in HT. split; [exact L|].
    apply Forall_forall. intros z Hz G. specialize (HS G). rewrite rows_with_map in HS by exact HL. fold X_min in HS. rewrite map_length in HS. fold k in HS.
    rewrite Forall_forall in HS. specialize (HS z Hz). split; [|now exists T]. destruct HS as (? & ? & ? & ? & ? & ? & ? & ? & HC). apply HC. }
  assert (Hne : X_min <> []) by (intros C; rewrite C in Lmin; cbn in Lmin; lia).
  assert (I0 : frst_inv d f X_min X_maj (fr_gamma_S p) (fr_gamma_M p) (Z.to_nat m) good 0 (mk_frst_state (map f X_maj) (map f X_min) [] [] (fr_gamma_S p) (fr_gamma_M p))).
  { constructor; cbn [fs_maj fs_refs fs_synth fs_relab fs_S fs_M].
    - exists X_maj, []. rewrite app_nil_r. repeat split; auto; lia.
    - split; [lra|]. cbn. lra.
    - split; lra.
    - constructor.
    - constructor.
    - cbn. rewrite app_nil_r. apply incl_refl.
    - cbn. lia.
    - reflexivity. }
  destruct (frst_loop_ok d f X_min X_maj _ _ (Z.to_nat m) good smote Hsm HgS HgM Hne 100 0 _ I0) as (s & kk & Es & Hkk & Hs & Hend).
  rewrite Es. cbn [bind].
  destruct Hs as [(A & R & EA & ER & HP & HA) (S1 & S2) (M1 & M2) Fok Fnear Frefs Frel Fcnt].
  assert (RAR : rect d A /\ rect d R).
  { split; apply Forall_forall; intros x Hx; (assert (Hx' : In x X_maj) by (eapply Permutation_in; [exact HP|]; rewrite in_app_iff; auto));
      unfold rect in Rmaj; rewrite Forall_forall in Rmaj; auto. }
  set (g := mm_inverse mm). set (S := map g (fs_synth s)).
  exists (map g (fs_maj s)), (map g (map f X_min)), S, (map g (fs_relab s)), A, R. split.
  { unfold S. rewrite !app_length, !map_length, !map_app. reflexivity. }
  split; [rewrite EA; apply (mm_back_rows d); auto; apply RAR|]. split; [apply (mm_back_rows d); auto|].
  split; [rewrite ER; apply (mm_back_rows d); auto; apply RAR|]. split.
  - split; [exact HP|]. split; [exact HA|]. exists f. split; [apply mm_scaled|]. intros G.
    assert (Fl : Forall (fun z => length z = d) (fs_synth s)) by (eapply Forall_impl; [|exact Fok]; intros z Hz; apply Hz; exact G).
    assert (Lf : forall x, length x = d -> length (f x) = d) by (intros x Hx; apply mm_transform_length; auto).
    assert (Hfg : forall z, length z = d -> same_row (f (g z)) z) by (intros z Hz; apply (mm_forth d); auto).
    assert (Hrefl : forall z : row, same_row z z) by (intros z; induction z; constructor; auto; reflexivity).
    assert (Hpow : ((11 # 10) ^ Z.of_nat kk <= (11 # 10) ^ 100)%Q) by (apply (pow_mono kk 100); lia).
    unfold rect in Rmin. rewrite Forall_forall in Rmin, Fl. split; [|split].
    + apply Forall_forall. intros x Hx. unfold S in Hx. apply in_map_iff in Hx. destruct Hx as (z & <- & Hz).
      rewrite Forall_forall in Fnear. destruct (Fnear z Hz) as (w & Hw & Hp). apply in_map_iff in Hw. destruct Hw as (v & <- & Hv).
      exists v. split; [exact Hv|]. unfold indiscernible. apply (pos_close d (f v) (f v) (f (g z)) z); auto.
      eapply Qlt_le_trans; [exact Hp|]. nra.
    + intros i Hi. assert (LR : length (fs_relab s) = length R) by (rewrite ER; apply map_length).
      destruct (Frel i ltac:(lia)) as (z & Hz & Hp). rewrite ER in Hp. rewrite (nth_map_in _ []) in Hp by exact Hi.
      assert (Li : length (nth i R []) = d) by (apply rect_nth; [apply RAR|exact Hi]).
      rewrite ER, firstn_map in Hz. rewrite !in_app_iff in Hz.
      assert (Q : exists x, In x (X_min ++ S ++ firstn i R) /\ length z = d /\ same_row (f x) z).
      { destruct Hz as [Hz|[Hz|Hz]].
        - apply in_map_iff in Hz. destruct Hz as (x & <- & Hx). exists x. rewrite in_app_iff. auto.
        - exists (g z). rewrite !in_app_iff. split; [right; left; unfold S; now apply in_map|]. auto.
        - apply in_map_iff in Hz. destruct Hz as (x & <- & Hx). exists x. rewrite !in_app_iff. split; [auto|]. split; [|auto].
          apply Lf. destruct RAR as [_ RR]. unfold rect in RR. rewrite Forall_forall in RR. apply RR. rewrite <- (firstn_skipn i R). rewrite in_app_iff. auto. }
      destruct Q as (x & Hx & Lz & Hsame). exists x. split; [exact Hx|]. unfold indiscernible.
      apply (pos_close d (f x) z _ (f (nth i R []))); auto.
    + cbv zeta. fold k. apply Forall_forall. intros x Hx. unfold S in Hx. apply in_map_iff in Hx. destruct Hx as (z & <- & Hz).
      rewrite Forall_forall in Fok. destruct (Fok z Hz G) as (_ & T & HT & HN). exists T. split; [exact HT|].
      destruct (nearest_table_shape _ _ _ _ _ HT) as (T1 & T2 & T3). rewrite map_length in T1, T3.
      apply (neighbour_sample_inverse d mm X_min X_min T); auto; try lia; apply Forall_forall; exact Rmin.
  - intros Hg1 Hd. unfold S. rewrite !app_length, !map_length.
    destruct Hend as [He|He]; [rewrite map_length in He; lia|].
    rewrite (Fcnt Hg1). cbn in He. subst kk. apply Permutation_length in HP. rewrite app_length, Lmaj in HP.
    rewrite EA, ER, !map_length. lia.
Qed.

End FRST.
