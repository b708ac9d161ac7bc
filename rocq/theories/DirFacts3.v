(** Proofs about G_SMOTE and MDO. *)

From Coq Require Import List ZArith QArith Qabs Qminmax Qpower Bool Arith Lia Lqa Sorting.Sorted Permutation.
From Verif Require Import Np PyVal NpFacts BaseFacts SimplexModel Spec SpecDanger SpecNoise SpecComp SimplexFacts SimplexGeom Float64
  SamplerModel SamplerFacts OversFacts BaseModel KnnFacts DangerModel DangerFacts BorderFacts ClusterModel ClusterOversModel OversGen
  ClusterOversFacts ClusterFacts NoiseModel NoiseFacts NoiseFacts2 CompModel CompFacts CompFacts2 CompFacts3 CompFacts4 EditModel SpecEdit EditFacts EditFacts3 EditFacts4 EditFacts5
  SpecNear NearFacts NearFacts2 LevelModel SpecLevel LevelFacts LevelFacts3 LevelFacts4 SpecGroup GroupFacts GroupFacts2 GroupFacts4 WrapModel SpecWrap WrapFacts WrapFacts2 WrapFacts3 UnderModel DirModel SpecDir DirFacts.
Import ListNotations.
Open Scope nat_scope.

(** ** G_SMOTE *)

Definition g_ratio (norm : row -> Q) (X : list row) (H : row) (b i : nat) : Q :=
  let P := vsub (nth i X []) (nth b X []) in
  let norms := (norm P * norm H)%Q in
  (Qabs (dot P H) / (if Qeq_bool norms 0 then (1 # 100000)%Q else norms))%Q.

Lemma g_angle_ok norm arccos X H b i : b < length X -> i < length X ->
  g_angle norm arccos X H b i = Ok (arccos (g_ratio norm X H b i)).
Proof.
  intros Hb Hi. unfold g_angle. rewrite (get_nth [] X b), (get_nth [] X i) by assumption. reflexivity.
Qed.

Lemma g_ratio_cosine norm X H b i q : g_cosine norm X H b i q <-> (q == g_ratio norm X H b i)%Q.
Proof.
  unfold g_cosine, g_ratio. cbv zeta. set (P := vsub _ _). destruct (Qeq_bool (norm P * norm H) 0) eqn:E.
  - apply Qeq_bool_iff in E. split.
    + intros [A _]. rewrite (A E). unfold Qdiv. rewrite Qmult_comm. setoid_replace (/ (1 # 100000))%Q with (inject_Z 100000) by reflexivity. ring.
    + intros ->. split; [|contradiction]. intros _. unfold Qdiv. setoid_replace (/ (1 # 100000))%Q with (inject_Z 100000) by reflexivity. reflexivity.
  - assert (N : ~ (norm P * norm H == 0)%Q) by (intro G; apply Qeq_bool_iff in G; congruence).
    split; [intros [_ A]; exact (A N)|]. intros ->. split; [contradiction|reflexivity].
Qed.

Lemma g_row_spec norm arccos n_dim X H i base others : base < length X -> Forall (fun v => v < length X) others ->
  exists ord, g_row norm arccos n_dim X H i (base :: others) = Ok (i :: firstn (n_dim - 1) ord) /\
    Permutation ord others /\
    (others <> [] -> forall o, In o others -> (arccos (g_ratio norm X H base (nth 0 ord 0%nat)) <= arccos (g_ratio norm X H base o))%Q).
Proof.
  intros Hb Ho. unfold g_row. rewrite Forall_forall in Ho.
  rewrite (WrapFacts2.mapM_map _ (fun o => arccos (g_ratio norm X H base o))) by (intros o Hi; apply g_angle_ok; auto).
  cbn [bind]. set (th := map (fun o => arccos (g_ratio norm X H base o)) others).
  assert (Lth : length th = length others) by apply map_length.
  rewrite (gather_map 0%nat) by (apply Forall_forall; intros a Ha; apply argsort_in in Ha; lia). cbn [bind].
  eexists. split; [reflexivity|]. split.
  - rewrite (argsort_perm th), Lth. rewrite CompFacts4.map_nth_seq. reflexivity.
  - intros Ne o Hin. destruct (In_nth _ _ 0 Hin) as (a & La & <-).
    pose proof (argsort_sorted th) as HS. pose proof (argsort_length th) as LA.
    destruct (argsort th) as [|z zs] eqn:EA; [destruct others; [congruence|cbn in Lth, LA; lia]|].
    cbn [map nth]. assert (Hz : In z (argsort th)) by (rewrite EA; now left). apply argsort_in in Hz.
    assert (Ha : In a (argsort th)) by (apply argsort_in; lia). rewrite EA in Ha.
    assert (G : (nth z th 0%Q <= nth a th 0%Q)%Q).
    { destruct Ha as [->|Ha]; [apply Qle_refl|]. inversion HS as [|? ? _ F]; subst. rewrite Forall_forall in F. auto. }
    unfold th in G. rewrite !(nth_map' _ 0%nat) in G by lia. exact G.
Qed.

Lemma g_ratio_nonneg norm X H b i : (forall v, 0 <= norm v)%Q -> (0 <= g_ratio norm X H b i)%Q.
Proof.
  intros Hn. unfold g_ratio. cbv zeta. set (P := vsub _ _). destruct (Qeq_bool (norm P * norm H) 0) eqn:E.
  - apply Qle_shift_div_l; [reflexivity|]. rewrite Qmult_0_l. apply Qabs_nonneg.
  - pose proof (Qmult_le_0_compat _ _ (Hn P) (Hn H)). apply Qle_shift_div_l.
    + apply Qle_lteq in H0 as [G|G]; [assumption|]. symmetry in G. apply Qeq_bool_iff in G. congruence.
    + rewrite Qmult_0_l. apply Qabs_nonneg.
Qed.

Lemma stats_of_label D mn mj st : is_minority (d_y D) mn mj -> class_label_statistics (d_y D) = Ok st ->
  min_label st = mn -> maj_label st = mj -> stats_of (d_y D) mn mj st.
Proof.
  intros Hmin E E1 E2. destruct (statistics_spec (d_y D) mn mj (proj1 Hmin)) as (st' & Hst & _ & Hsz).
  rewrite E in Hst. injection Hst as <-. split; [assumption|]. split; assumption.
Qed.

Lemma firstn_sub {A} k (l : list A) x : In x (firstn k l) -> In x l.
Proof. intros H. rewrite <- (firstn_skipn k l). apply in_or_app. now left. Qed.

Lemma g_smote_runs dist vol nn norm eig arccos p r D mn mj n :
  knn_ok dist nn -> rng_ok r -> unif_pos r -> plain_ss (sm_ss p) -> eig_ok (d_dim D) eig -> arccos_ok arccos -> (forall v, 0 <= norm v)%Q ->
  wf_data (d_X D) (d_dim D) (d_y D) -> is_minority (d_y D) mn mj ->
  asked (sm_proportion p) (d_y D) mn mj = Ok n -> 1 <= sm_n_neighbors p ->
  (d_dim D < 2 -> unchanged D (g_smote_sample nn norm vol eig arccos p r D)) /\
  (2 <= d_dim D -> runs D mn n (g_smote_spec dist norm eig p D mn n) (g_smote_sample nn norm vol eig arccos p r D)).
Proof.
  intros Hnn Hr Hu Hp He Hac Hnorm [Hrect Hl] Hmin Ha Hk. unfold g_smote_sample. split; [|intros Hdim; split].
  - intros Hdim. apply (too_small_copies _ _ _ mn mj Hmin). right. exists 2. split; [cbn; tauto|assumption].
  - intros G. destruct (le_lt_dec (count_label (d_y D) mn) 2) as [L|L].
    { apply (too_small_copies _ _ _ mn mj Hmin). left. exists 2. split; [cbn; tauto|assumption]. }
    destruct G as [G|G]; [lia|]. subst n.
    destruct (large_enough_runs g_smote_checks (g_smote_algorithm nn norm vol eig arccos p r) D mn mj Hmin) as (st & Est & Em & Ej & E).
    { repeat constructor; assumption. }
    unfold unchanged. rewrite E. unfold g_smote_algorithm.
    rewrite (det_st_asked _ _ _ _ _ (proj1 Hmin) (stats_of_label _ _ _ _ Hmin Est Em Ej)), Ha. reflexivity.
  - intros L Hn.
    destruct (large_enough_runs g_smote_checks (g_smote_algorithm nn norm vol eig arccos p r) D mn mj Hmin) as (st & Est & Em & Ej & E).
    { repeat constructor; assumption. }
    rewrite E. unfold g_smote_algorithm.
    rewrite (det_st_asked _ _ _ _ _ (proj1 Hmin) (stats_of_label _ _ _ _ Hmin Est Em Ej)), Ha. cbn [bind].
    destruct (Nat.eqb_spec (Z.to_nat n) 0); [lia|]. rewrite Em. set (X_min := rows_with mn (d_X D) (d_y D)).
    assert (HL : length X_min = count_label (d_y D) mn) by now apply rows_with_length.
    assert (HR : rect (d_dim D) X_min) by now apply rows_with_rect.
    set (k := Nat.min (length X_min) (sm_n_neighbors p + 1)).
    destruct (Hnn X_min X_min k) as (T & ET & HT); [unfold k; lia|]. rewrite ET. cbn [bind].
    destruct (He X_min) as (W1 & W2 & W3). unfold g_direction.
    destruct (argmax_spec (fst (eig X_min))) as (a & -> & La & Ma). { intros G. rewrite G in W1. cbn in W1. lia. }
    cbn [bind]. rewrite (get_nth [] (snd (eig X_min)) a) by lia. cbn [bind]. set (H := nth a (snd (eig X_min)) []).
    assert (HA : g_axis eig X_min H) by (exists a; auto).
    destruct (nearest_table_shape _ _ _ _ _ HT) as (LT & _ & _).
    set (nd := ss_n_dim (sm_ss p)). set (f := fun it : nat * list nat => g_row norm arccos nd X_min H (fst it) (snd it)).
    assert (HF : forall i, i < length T -> exists base others ord, nth i T [] = base :: others /\ f (i, nth i T []) = Ok (i :: firstn (nd - 1) ord) /\
       Permutation ord others /\ Forall (fun v => v < length X_min) others /\ length others = k - 1 /\
       (others <> [] -> forall o, In o others -> (arccos (g_ratio norm X_min H base (nth 0 ord 0%nat)) <= arccos (g_ratio norm X_min H base o))%Q)).
    { intros i Hi. rewrite LT in Hi. destruct (NearFacts.table_row _ _ _ _ _ i HT Hi) as [R1 R2].
      destruct (nth i T []) as [|base others] eqn:Ei; [cbn in R1; unfold k in R1; lia|].
      inversion R2 as [|? ? B1 B2]; subst. destruct (g_row_spec norm arccos nd X_min H i base others B1 B2) as (ord & E1 & P1 & M1).
      exists base, others, ord. cbn in R1. repeat split; auto. lia. }
    destruct (mapM_total f (combine (seq 0 (length T)) T)) as [I EI].
    { apply Forall_forall. intros [i t] Hin. apply (In_nth _ _ (0, [])) in Hin as (b & Hb & Eb).
      rewrite combine_length, seq_length, Nat.min_id in Hb. rewrite combine_nth in Eb by apply seq_length.
      rewrite seq_nth in Eb by assumption. injection Eb as <- <-. destruct (HF b Hb) as (? & ? & ? & _ & Ef & _). eauto. }
    rewrite EI. cbn [bind]. apply mapM_ok_iff in EI. pose proof (Forall2_length _ _ _ EI) as LI.
    rewrite combine_length, seq_length, Nat.min_id in LI.
    assert (HI : forall i, i < length T -> exists base others ord, nth i T [] = base :: others /\ nth i I [] = i :: firstn (nd - 1) ord /\
       Permutation ord others /\ Forall (fun v => v < length X_min) others /\ length others = k - 1 /\
       (others <> [] -> forall o, In o others -> (arccos (g_ratio norm X_min H base (nth 0 ord 0%nat)) <= arccos (g_ratio norm X_min H base o))%Q)).
    { intros i Hi. pose proof (Forall2_nth' _ _ _ (0, []) [] i EI ltac:(rewrite combine_length, seq_length; lia)) as G. cbn beta in G.
      rewrite combine_nth in G by apply seq_length. rewrite seq_nth in G by assumption. cbn [plus] in G.
      destruct (HF i Hi) as (base & others & ord & F1 & F2 & F3). rewrite F2 in G. injection G as G. exists base, others, ord. auto. }
    set (nc := 1 + Nat.min (nd - 1) (k - 1)).
    assert (HIrect : rect nc I /\ Forall (Forall (fun v => v < length X_min)) I).
    { split; apply Forall_forall; intros t Hin; apply (In_nth _ _ []) in Hin as (i & Hi & <-); rewrite <- LI in Hi;
        destruct (HI i Hi) as (base & others & ord & F1 & F2 & F3 & F4 & F5 & _); rewrite F2.
      - cbn. rewrite firstn_length, (Permutation_length F3). unfold nc. lia.
      - constructor; [lia|]. apply Forall_forall. intros v Hv. rewrite Forall_forall in F4. apply F4.
        apply (Permutation_in _ F3). apply (firstn_sub _ _ _ Hv). }
    destruct HIrect as [I1 I2].
    set (args := mk_args X_min (d_dim D) I nc None None None false None).
    assert (Hargs : args_ok args).
    { constructor; cbn; auto; try discriminate. lia. }
    destruct (ss_call vol (sm_ss p) args (Z.to_nat n) r 0 Hargs Hr Hu Hp) as (S & ES & LS & FS); cbn; try (unfold nc; lia); auto.
    rewrite ES. cbn [bind]. exists S. split; [reflexivity|]. split; [assumption|].
    exists T, H. split; [assumption|]. split; [assumption|]. intros N2 Ng. specialize (FS Ng). cbn in FS.
    eapply Forall_impl; [|exact FS]. intros x (b & ps & Hb & Lps & Sps & Fps & _ & _ & Hc). fold nd in N2, Lps.
    assert (Enc : nc = 2) by (unfold nc, k; lia). change (length ps = Nat.min nd nc - 1) in Lps. rewrite N2, Enc in Lps. cbn in Lps.
    destruct ps as [|pp [|]]; cbn in Lps; try lia. inversion Fps as [|? ? Hpp _]; subst. change (1 <= pp < nc) in Hpp.
    assert (pp = 1) by lia. subst pp. cbn [map] in Hc. rewrite <- LI in Hb.
    destruct (HI b Hb) as (base & others & ord & F1 & F2 & F3 & F4 & F5 & F6).
    assert (Ne : others <> []) by (intros ->; cbn in F5; unfold k in F5; lia). rewrite F2 in Hc. rewrite N2 in Hc. cbn in Hc.
    destruct ord as [|o ord]; [apply Permutation_nil in F3; congruence|]. cbn [firstn nth] in Hc. cbn [nth] in F6.
    exists b, o, (g_ratio norm X_min H base o). rewrite F1. cbn [nth tl].
    assert (Ho : In o others) by (apply (Permutation_in _ F3); now left).
    split; [split; [assumption|rewrite F1; assumption]|]. split; [apply g_ratio_cosine; reflexivity|]. split; [|exact Hc].
    intros i' q' [_ Hi'] Hq. rewrite F1 in Hi'. cbn in Hi'. apply g_ratio_cosine in Hq. rewrite Hq.
    specialize (F6 Ne i' Hi'). apply Qnot_lt_le. intros G. exact (Qlt_not_le _ _ (Hac _ _ (g_ratio_nonneg norm X_min H base o Hnorm) G) F6).
Qed.

(** ** MDO *)

Lemma floor_small_max v : (floor_small v == Qmax v (1 # 1000))%Q.
Proof.
  unfold floor_small. destruct (Qlt_b v (1 # 1000)) eqn:E.
  - apply Qlt_b_spec in E. rewrite Q.max_r; [reflexivity|Lqa.lra].
  - assert (~ (v < 1 # 1000)%Q) by (intro G; apply Qlt_b_spec in G; congruence). rewrite Q.max_l; [reflexivity|Lqa.lra].
Qed.

Lemma floor_small_pos v : (1 # 1000 <= floor_small v)%Q /\ (v <= floor_small v)%Q.
Proof. rewrite floor_small_max. split; [apply Q.le_max_r|apply Q.le_max_l]. Qed.

Lemma shrink_square root u a : root_below root -> unit_share u -> (0 <= a)%Q ->
  (((2 * u - 1) * root a) * ((2 * u - 1) * root a) <= a)%Q.
Proof.
  intros Hroot [U1 U2] Ha. destruct (Hroot a Ha) as [R1 R2]. set (w := (2 * u - 1)%Q). set (q := root a) in *.
  assert (W : (w * w <= 1)%Q) by (unfold w; nra). assert (W0 : (0 <= w * w)%Q) by nra.
  setoid_replace (w * q * (w * q))%Q with ((w * w) * (q * q))%Q by ring. nra.
Qed.

Lemma mdo_one_in root d t alpha V : draws_ok d -> root_below root -> 1 <= length V ->
  in_ellipsoid alpha V (mdo_one root d t alpha V).
Proof.
  intros Hd Hroot Hc. unfold mdo_one. set (c := length V) in *. set (aV := map (fun v => floor_small (alpha * v)) V).
  set (firsts := map _ (seq 0 (c - 1))). set (s := qsum _). set (last := if Qle_bool s 1 then _ else _).
  assert (LF : length firsts = c - 1) by (unfold firsts; now rewrite map_length, seq_length).
  assert (EA : forall j, j < c -> (nth j aV 0 == Qmax (alpha * nth j V 0) (1 # 1000))%Q).
  { intros j Hj. unfold aV. rewrite (nth_map' _ 0%Q) by assumption. apply floor_small_max. }
  assert (PA : forall j, j < c -> (1 # 1000 <= nth j aV 0)%Q /\ (alpha * nth j V 0 <= nth j aV 0)%Q).
  { intros j Hj. unfold aV. rewrite (nth_map' _ 0%Q) by assumption. apply floor_small_pos. }
  assert (EF : forall j, j < c - 1 -> nth j firsts 0%Q = ((2 * dr_unif d t j - 1) * root (nth j aV 0))%Q).
  { intros j Hj. unfold firsts. rewrite (nth_map' _ 0) by (now rewrite seq_length). now rewrite seq_nth. }
  assert (N1 : forall x j, j < c - 1 -> nth j (firsts ++ [x]) 0%Q = nth j firsts 0%Q) by (intros; rewrite app_nth1; [reflexivity|lia]).
  assert (N2 : forall x, nth (c - 1) (firsts ++ [x]) 0%Q = x) by (intros; rewrite app_nth2, LF, Nat.sub_diag; [reflexivity|lia]).
  set (lv := ((2 * dr_unif d t (c - 1) - 1) * last)%Q).
  assert (ES : (s == qsum (map (fun j => nth j (firsts ++ [lv]) 0 * nth j (firsts ++ [lv]) 0 / Qmax (alpha * nth j V 0) (1 # 1000))%Q (seq 0 (c - 1))))%Q).
  { apply CompFacts4.qsum_map_ext. intros j Hj. apply in_seq in Hj. rewrite N1 by lia. rewrite (EA j) by lia. reflexivity. }
  assert (S0 : (0 <= s)%Q).
  { apply qsum_nonneg. apply Forall_forall. intros q Hq. apply in_map_iff in Hq as (j & <- & Hj). apply in_seq in Hj.
    destruct (PA j ltac:(lia)) as [G _]. apply Qle_shift_div_l; [Lqa.lra|]. set (z := nth j firsts 0%Q). nra. }
  assert (LA : (s <= 1 -> lv * lv <= (1 - s) * nth (c - 1) aV 0)%Q).
  { intros Hs. unfold lv, last. apply Qle_bool_iff in Hs as Hb. rewrite Hb. destruct (PA (c - 1) ltac:(lia)) as [G1 G2].
    set (q0 := qmax _ _). assert (Q0 : (0 <= q0 /\ q0 <= (1 - s) * nth (c - 1) aV 0)%Q).
    { unfold q0, qmax. destruct (Qle_bool ((1 - s) * alpha * nth (c - 1) V 0)%Q 0%Q) eqn:E.
      - split; [apply Qle_refl|]. nra.
      - assert (~ ((1 - s) * alpha * nth (c - 1) V 0 <= 0)%Q) by (intro G; apply Qle_bool_iff in G; congruence). split; [Lqa.lra|].
        setoid_replace ((1 - s) * alpha * nth (c - 1) V 0)%Q with ((1 - s) * (alpha * nth (c - 1) V 0))%Q by ring.
        rewrite !(Qmult_comm (1 - s)). apply Qmult_le_compat_r; [assumption|Lqa.lra]. }
    eapply Qle_trans; [apply shrink_square; [assumption|apply (ok_unif d Hd)|apply Q0]|apply Q0]. }
  assert (LZ : (1 < s)%Q -> (lv == 0)%Q).
  { intros Hs. unfold lv, last. destruct (Qle_bool s 1) eqn:E; [apply Qle_bool_iff in E; Lqa.lra|]. ring. }
  unfold in_ellipsoid. fold c. cbv zeta. fold lv. split; [rewrite app_length, LF; cbn; lia|]. split; [|split].
  - intros j Hj. rewrite <- (EA j Hj). destruct (PA j Hj) as [G _]. destruct (Nat.eq_dec j (c - 1)) as [->|Nj].
    + rewrite N2. destruct (Qlt_le_dec 1 s) as [L|L]; [rewrite (LZ L); Lqa.lra|]. eapply Qle_trans; [apply (LA L)|]. nra.
    + rewrite N1 by lia. rewrite EF by lia. apply shrink_square; [assumption|apply (ok_unif d Hd)|Lqa.lra].
  - rewrite <- ES. intros Hs. rewrite N2, <- (EA (c - 1)) by lia. specialize (LA Hs). destruct (PA (c - 1) ltac:(lia)) as [G _].
    assert (E : (lv * lv / nth (c - 1) aV 0 <= 1 - s)%Q) by (apply Qle_shift_div_r; [Lqa.lra|assumption]). Lqa.lra.
  - rewrite <- ES, N2. exact LZ.
Qed.

Lemma select_where {A} (a : A) m l : length m = length l -> select m l = map (fun i => nth i l a) (where_ m).
Proof. intros H. rewrite (select_nth a m l H), where_filter. now rewrite H. Qed.

Lemma weights_choice d t (w : list Q) p : draws_ok d -> Forall (Qle 0) w -> (0 < qsum w)%Q -> p = map (fun x => (x / qsum w)%Q) w ->
  dr_p d t p < length w /\ (0 < nth (dr_p d t p) w 0)%Q.
Proof.
  intros Hd Hw Hs ->. set (p := map _ w).
  assert (P : Forall (Qle 0) p /\ (qsum p == 1)%Q).
  { split.
    - apply Forall_map. eapply Forall_impl; [|exact Hw]. intros x Hx. cbn beta in Hx. apply Qle_shift_div_l; [assumption|]. Lqa.lra.
    - unfold p. rewrite qsum_div by Lqa.lra. field. Lqa.lra. }
  destruct (ok_p d Hd t p (proj1 P) (proj2 P)) as [G1 G2]. unfold p in G1. rewrite map_length in G1. split; [exact G1|].
  set (i := dr_p d t p) in *. unfold p in G2 at 1. rewrite (nth_map' _ 0%Q) in G2 by assumption.
  destruct (Qlt_le_dec 0 (nth i w 0%Q)) as [L|L]; [assumption|]. exfalso.
  assert (nth i w 0 / qsum w <= 0)%Q by (apply Qle_shift_div_r; [assumption|Lqa.lra]). Lqa.lra.
Qed.

Definition mdo_outcome (dist : row -> row -> Q) (pca_transform : list row -> list row) (pca_inverse : list row -> row -> row)
    (p : mdo_params) (D : dataset) (mn n : Z) (r : res (list row * list Z)) : Prop :=
  exists sel m, mdo_selected dist p D mn sel m /\
    (sel = [] -> unchanged D r) /\
    (sel <> [] -> (forall i, In i sel -> m i = 0) -> r = Err ValueError) /\
    ((exists i, In i sel /\ 0 < m i) -> appends D mn (mdo_spec pca_transform pca_inverse D mn n sel m) r).

Lemma mdo_runs dist nn root pca_transform pca_inverse p d D mn mj n :
  knn_ok dist nn -> draws_ok d -> root_below root -> pca_ok (d_dim D) pca_transform pca_inverse ->
  wf_data (d_X D) (d_dim D) (d_y D) -> is_minority (d_y D) mn mj ->
  asked (md_proportion p) (d_y D) mn mj = Ok n -> 1 <= d_dim D ->
  (count_label (d_y D) mn <= 2 \/ n = 0%Z -> unchanged D (mdo_sample nn root pca_transform pca_inverse p d D)) /\
  (2 < count_label (d_y D) mn -> (0 < n)%Z ->
   mdo_outcome dist pca_transform pca_inverse p D mn n (mdo_sample nn root pca_transform pca_inverse p d D)).
Proof.
  intros Hnn Hd Hroot Hpca [Hr Hl] Hmin Ha Hdim.
  destruct (sample_shape (fun n st D =>
    let X_min := rows_with (min_label st) (d_X D) (d_y D) in
    let K1 := Nat.min (md_K1 p) (length (d_X D)) in
    let K2 := Nat.min (md_K2 p + 1) (length (d_X D)) in
    do ind <- nn (d_X D) X_min K2;
    do n_min <- mapM (count_neighbours (d_y D) (min_label st)) ind;
    let mask := map (fun c => K1 <=? c) n_min in
    let X_sel := select mask X_min in
    if length X_sel =? 0 then Ok (d_X D, d_y D)
    else
      let weights := map (fun c => inject_Z (Z.of_nat c) / inject_Z (Z.of_nat K2))%Q (select mask n_min) in
      do weights <- probabilities weights;
      do samples <- mdo_generate root pca_transform pca_inverse d (d_dim D) X_sel weights n;
      Ok (extended D st samples)) (md_proportion p) D mn mj n Hmin Ha) as (st & (E1 & _) & E).
  match type of E with _ = ?R => assert (E' : mdo_sample nn root pca_transform pca_inverse p d D = R) by exact E end. rewrite E'. clear E E'. split.
  - intros G. unfold unchanged. destruct (Nat.leb_spec (count_label (d_y D) mn) 2); [reflexivity|].
    destruct G as [G| ->]; [lia|reflexivity].
  - intros H2 Hn. destruct (Nat.leb_spec (count_label (d_y D) mn) 2); [lia|].
    destruct (Z.eqb_spec n 0); [lia|]. cbn [orb]. rewrite E1. unfold mdo_outcome, mdo_selected, mdo_spec.
    set (X_min := rows_with mn (d_X D) (d_y D)). set (K1 := Nat.min (md_K1 p) (length (d_X D))). set (K2 := Nat.min (md_K2 p + 1) (length (d_X D))).
    assert (HL : length X_min = count_label (d_y D) mn) by now apply rows_with_length.
    assert (HR : rect (d_dim D) X_min) by now apply rows_with_rect. cbv zeta.
    assert (HK : 1 <= K2). { pose proof (count_occ_bound Z.eq_dec mn (d_y D)). unfold count_label in *. unfold K2. lia. }
    destruct (Hnn (d_X D) X_min K2) as (T & ET & HT); [unfold K2; lia|]. rewrite ET. cbn [bind].
    destruct (nearest_table_shape _ _ _ _ _ HT) as (LT & RT & FT). rewrite Hl in FT.
    set (mt := fun t => votes (d_y D) (tl t) mn).
    assert (EN : mapM (count_neighbours (d_y D) mn) T = Ok (map mt T)).
    { rewrite <- mapM_pure. apply mapM_ext_in. intros t Ht. unfold mt. rewrite <- neighbours_votes.
      apply count_neighbours_ok. rewrite Forall_forall in FT. now apply FT. }
    rewrite EN. cbn [bind]. set (mask := map (fun c => K1 <=? c) (map mt T)).
    assert (LM : length mask = length X_min) by (unfold mask; rewrite !map_length; assumption).
    set (sel := where_ mask). set (m := fun b => mt (nth b T [])).
    assert (HP : positions (fun b => b < length X_min /\ K1 <= m b) sel).
    { destruct (positions_where mask) as [P1 P2]. split; [assumption|]. intros b. unfold sel. rewrite P2. unfold mask, m. rewrite map_map. split.
      - intros G. assert (Hb : b < length T) by (apply nth_error_Some; intro N; rewrite nth_error_map, N in G; discriminate).
        rewrite nth_error_map, (nth_error_nth' T [] Hb) in G. cbn in G. injection G as G. apply Nat.leb_le in G. split; [lia|assumption].
      - intros [Hb G]. rewrite nth_error_map, (nth_error_nth' T []) by lia. cbn. f_equal. now apply Nat.leb_le. }
    rewrite (select_where [] mask X_min LM). rewrite (select_where 0 mask (map mt T)) by (unfold mask; now rewrite map_length). fold sel.
    assert (Hsel : forall b, In b sel -> b < length X_min) by (intros b Hb; apply HP, Hb).
    assert (EM : map (fun i => nth i (map mt T) 0) sel = map m sel).
    { apply map_ext_in. intros b Hb. unfold m. rewrite (nth_map' _ []); [reflexivity|]. rewrite LT. auto. }
    rewrite EM, map_map, map_length.
    exists sel, m. split; [exists T; split; [assumption|]; split; [reflexivity|assumption]|].
    assert (KQ : (0 < inject_Z (Z.of_nat K2))%Q) by (change 0%Q with (inject_Z 0); rewrite <- Zlt_Qlt; lia).
    set (wf := fun b => (inject_Z (Z.of_nat (m b)) / inject_Z (Z.of_nat K2))%Q).
    assert (WN : Forall (Qle 0) (map wf sel)).
    { apply Forall_map, Forall_forall. intros b _. unfold wf. apply Qle_shift_div_l; [assumption|]. rewrite Qmult_0_l. change 0%Q with (inject_Z 0); rewrite <- Zle_Qle. lia. }
    assert (WP : forall b, (0 < wf b)%Q -> 0 < m b).
    { intros b G. destruct (m b) eqn:Em; [|lia]. unfold wf in G. rewrite Em in G. cbn in G. exfalso. unfold Qdiv in G. rewrite Qmult_0_l in G. Lqa.lra. }
    split; [intros ->; reflexivity|]. split.
    + intros Ne Z. destruct (Nat.eqb_spec (length sel) 0) as [L0|L0]; [destruct sel; [congruence|discriminate]|].
      unfold probabilities. assert (Q0 : (qsum (map wf sel) == 0)%Q).
      { assert (G : forall l, (forall i, In i l -> m i = 0) -> (qsum (map wf l) == 0)%Q).
        { induction l as [|a l IH]; intros G; [reflexivity|]. cbn [map]. rewrite qsum_cons, IH by (intros; apply G; now right).
          unfold wf. rewrite (G a) by now left. cbn. unfold Qdiv. rewrite Qmult_0_l. reflexivity. }
        apply G, Z. }
      apply Qeq_bool_iff in Q0. rewrite Q0. reflexivity.
    + intros (i0 & Hi0 & Mi0). destruct (Nat.eqb_spec (length sel) 0) as [L0|L0]; [destruct sel; [destruct Hi0|discriminate]|].
      assert (QP : (0 < qsum (map wf sel))%Q).
      { eapply qsum_pos_in; [assumption|apply in_map, Hi0|]. unfold wf. apply Qlt_shift_div_l; [assumption|]. rewrite Qmult_0_l. change 0%Q with (inject_Z 0); rewrite <- Zlt_Qlt. lia. }
      unfold probabilities. destruct (Qeq_bool (qsum (map wf sel)) 0) eqn:E0; [apply Qeq_bool_iff in E0; Lqa.lra|]. cbn [bind].
      set (pw := map (fun x => (x / qsum (map wf sel))%Q) (map wf sel)). set (P := map (fun i => nth i X_min []) sel).
      assert (LP : length P = length sel) by apply map_length.
      assert (PR : rect (d_dim D) P).
      { apply Forall_map, Forall_forall. intros b Hb. now apply rect_nth; [|apply Hsel]. }
      unfold mdo_generate. destruct (mean_row_of (d_dim D) P) as (mu & Emu & Hmu); [destruct P; [cbn in LP; lia|discriminate]|assumption|].
      rewrite Emu. cbn [bind]. set (Z0 := map (fun x => vsub x mu) P). rewrite LP. set (c := Nat.min (d_dim D) (length sel)).
      destruct (Hpca Z0) as (C1 & C2 & C3). assert (LZ : length Z0 = length sel) by (unfold Z0; now rewrite map_length, LP).
      rewrite LZ in C1, C2. fold c in C2. set (TT := pca_transform Z0) in *.
      set (V := map (fun j => floor_small (variance (column j TT))) (seq 0 c)).
      assert (LV : length V = c) by (unfold V; now rewrite map_length, seq_length).
      assert (EV : forall j, j < c -> (nth j V 0 == Qmax (variance (column j TT)) (1 # 1000))%Q).
      { intros j Hj. unfold V. rewrite (nth_map' _ 0) by (now rewrite seq_length). rewrite seq_nth by assumption. apply floor_small_max. }
      destruct (mapM_draws (fun t => do x <- get TT (dr_p d t pw);
         Ok (vadd (pca_inverse Z0 (mdo_one root d t (qsum (map2 (fun q v => q * q / v)%Q x V)) V)) mu)) (seq 0 (Z.to_nat n)) (Z.to_nat n)
        (fun x => exists i v, i < length sel /\ 0 < m (nth i sel 0) /\
           in_ellipsoid (qsum (map (fun j => nth j (nth i TT []) 0 * nth j (nth i TT []) 0 / nth j V 0)%Q (seq 0 c))) V v /\
           length x = d_dim D /\
           forall j, j < d_dim D -> (nth j x 0 == nth j (pca_inverse Z0 v) 0 + nth j mu 0)%Q)) as (S & ES & LS & FS).
      { apply seq_length. }
      { intros t _. destruct (weights_choice d t (map wf sel) pw Hd WN QP eq_refl) as [G1 G2]. rewrite map_length in G1. set (i := dr_p d t pw) in *.
        rewrite (get_nth [] TT i) by lia. cbn [bind]. eexists. split; [reflexivity|].
        set (al := qsum (map2 _ _ _)). exists i, (mdo_one root d t al V). split; [assumption|].
        rewrite (nth_map' _ 0) in G2 by assumption. split; [apply WP, G2|].
        assert (EQ : al = qsum (map (fun j => nth j (nth i TT []) 0 * nth j (nth i TT []) 0 / nth j V 0)%Q (seq 0 c))).
        { unfold al. f_equal. assert (Lx : length (nth i TT []) = c) by (apply rect_nth; [assumption|lia]).
          apply (nth_ext _ _ 0%Q 0%Q); [rewrite map2_length, map_length, seq_length; lia|].
          rewrite map2_length, Lx, LV, Nat.min_id. intros j Hj.
          rewrite (map2_nth _ _ _ j 0%Q 0%Q 0%Q) by lia. rewrite (nth_map' _ 0) by (now rewrite seq_length). now rewrite seq_nth. }
        rewrite <- EQ. split; [apply mdo_one_in; auto; lia|]. destruct Hmu as [Lmu _].
        split; [rewrite vadd_length, C3, Lmu; apply Nat.min_id|]. intros j Hj. rewrite vadd_nth; [reflexivity| |]; rewrite ?C3, ?Lmu; assumption. }
      match type of ES with ?L = _ => match goal with |- context [mapM ?f ?l] => change (mapM f l) with L end end.
      rewrite ES. cbn [bind]. unfold extended. rewrite E1. exists S. split; [reflexivity|]. split; [assumption|].
      exists mu. split; [assumption|]. exists V. auto.
Qed.
