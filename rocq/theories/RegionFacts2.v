(** Proofs about AND_SMOTE. *)

From Coq Require Import List ZArith QArith Qabs Qminmax Qround Qpower Bool Arith Lia Lqa Sorting.Sorted Permutation.
From Verif Require Import Np PyVal NpFacts BaseFacts SimplexModel Spec SpecDanger SpecNoise SpecComp SimplexFacts SimplexGeom Float64
  SamplerModel SamplerFacts OversFacts BaseModel KnnFacts DangerModel DangerFacts BorderFacts ClusterModel ClusterOversModel OversGen
  ClusterOversFacts ClusterFacts NoiseModel NoiseFacts NoiseFacts2 CompModel CompFacts CompFacts2 CompFacts3 CompFacts4 EditModel SpecEdit EditFacts EditFacts3 EditFacts4 EditFacts5
  SpecNear NearFacts NearFacts2 LevelModel SpecLevel LevelFacts LevelFacts3 LevelFacts4 SpecGroup GroupFacts GroupFacts2 GroupFacts4 WrapModel SpecWrap WrapFacts WrapFacts2 WrapFacts3 DirModel SpecDir DirFacts DirFacts3 RegionModel GroupFacts5 SpecRegion RegionFacts.
Import ListNotations.
Open Scope nat_scope.

Lemma region_sizes_length rmin rmaj u v qs : length (region_sizes rmin rmaj u v qs) = length qs.
Proof. revert u v; induction qs; intros; cbn; auto. Qed.

Lemma region_sizes_spec rmin rmaj qs : forall u v t, NoDup u -> NoDup v -> t < length qs ->
  exists U V, nth t (region_sizes rmin rmaj u v qs) (0, 0) = (length U, length V) /\ NoDup U /\ NoDup V /\
    (forall j, In j U <-> In j u \/ exists q, In q (firstn (S t) qs) /\ In j (rmin q)) /\
    (forall j, In j V <-> In j v \/ exists q, In q (firstn (S t) qs) /\ In j (rmaj q)).
Proof.
  induction qs as [|q qs IH]; intros u v t Nu Nv Ht; [cbn in Ht; lia|]. cbn [region_sizes].
  set (u' := nodup _ (u ++ rmin q)). set (v' := nodup _ (v ++ rmaj q)).
  assert (Hu' : forall j, In j u' <-> In j u \/ In j (rmin q)) by (intro j; unfold u'; rewrite nodup_In, in_app_iff; tauto).
  assert (Hv' : forall j, In j v' <-> In j v \/ In j (rmaj q)) by (intro j; unfold v'; rewrite nodup_In, in_app_iff; tauto).
  assert (Nu' : NoDup u') by apply NoDup_nodup. assert (Nv' : NoDup v') by apply NoDup_nodup.
  destruct t as [|t].
  - exists u', v'. split; [reflexivity|]. split; [assumption|]. split; [assumption|]. cbn [firstn].
    split; intros j; [rewrite Hu'|rewrite Hv']; (split; [intros [H|H]; [now left|right; exists q; split; [now left|assumption]]|
      intros [H|(q' & [<-|[]] & H)]; auto]).
  - cbn in Ht. destruct (IH u' v' t Nu' Nv' ltac:(lia)) as (U & V & E & N1 & N2 & H1 & H2). exists U, V.
    split; [exact E|]. split; [assumption|]. split; [assumption|].
    split; intros j; [rewrite H1, Hu'|rewrite H2, Hv']; cbn [firstn]; (split;
      [intros [[H|H]|(q' & Hq & H)]; [now left|right; exists q; split; [now left|assumption]|right; exists q'; split; [now right|assumption]]|
       intros [H|(q' & [<-|Hq] & H)]; [now left; left|left; now right|right; exists q'; split; assumption]]).
Qed.

Lemma in_box_spec d a b x : length x = d -> in_box a b x = true <-> boxed d a b x.
Proof.
  intros Hd. unfold in_box, boxed. rewrite forallb_forall, Hd. split.
  - intros H j Hj. specialize (H j ltac:(apply in_seq; lia)). apply andb_prop in H as [H1 H2].
    apply Qle_bool_iff in H1, H2. unfold q_min, q_max in *. destruct (Qle_bool (nth j a 0) (nth j b 0))%Q; [now left|now right].
  - intros H j Hj. apply in_seq in Hj. specialize (H j ltac:(lia)). apply andb_true_intro. rewrite !Qle_bool_iff. unfold q_min, q_max.
    destruct (Qle_bool (nth j a 0) (nth j b 0))%Q eqn:E.
    + apply Qle_bool_iff in E. destruct H as [H|H]; [tauto|]. split; lra.
    + assert (~ (nth j a 0 <= nth j b 0)%Q) by (intro G; apply Qle_bool_iff in G; congruence). destruct H as [H|H]; [split; lra|tauto].
Qed.

Lemma boxed_corner d a b : boxed d a b b.
Proof. intros j _. destruct (Qlt_le_dec (nth j a 0) (nth j b 0))%Q; [left|right]; split; lra. Qed.

Lemma box_rows_in X y d lab i idx q j : rect d X -> Forall (fun i => i < length X) idx ->
  In j (box_rows X y lab i idx q) <->
  In j (firstn (q + 1) idx) /\ boxed d (nth i X []) (nth (nth q idx 0) X []) (nth j X []) /\ nth j y 0%Z = lab.
Proof.
  intros HX Hi. unfold box_rows. rewrite filter_In, andb_true_iff, Z.eqb_eq. split.
  - intros (H1 & H2 & H3). split; [assumption|]. split; [|assumption]. apply (in_box_spec d) in H2; [assumption|].
    apply rect_nth; auto. apply firstn_sub in H1. rewrite Forall_forall in Hi. auto.
  - intros (H1 & H2 & H3). split; [assumption|]. split; [|assumption]. apply (in_box_spec d); [|assumption].
    apply rect_nth; auto. apply firstn_sub in H1. rewrite Forall_forall in Hi. auto.
Qed.

Lemma diff_length l : length (diff l) = length l - 1.
Proof. induction l as [|a [|b l] IH]; [reflexivity..|]. change (diff (a :: b :: l)) with ((b - a)%Q :: diff (b :: l)). cbn [length]. rewrite IH. cbn. lia. Qed.

Lemma diff_nth l t : t + 1 < length l -> nth t (diff l) 0%Q = (nth (t + 1) l 0 - nth t l 0)%Q.
Proof.
  revert t; induction l as [|a [|b l] IH]; intros t Ht; [cbn in Ht; lia..|]. change (diff (a :: b :: l)) with ((b - a)%Q :: diff (b :: l)).
  destruct t as [|t]; [reflexivity|]. cbn [length] in Ht. cbn [nth Nat.add]. rewrite IH; [reflexivity|cbn [length]; lia].
Qed.

Lemma In_firstn_nth {A} (l : list A) k j d : j < k -> j < length l -> In (nth j l d) (firstn k l).
Proof.
  revert k j; induction l as [|a l IH]; intros k j H1 H2; [cbn in H2; lia|]. destruct k as [|k]; [lia|]. destruct j as [|j]; [now left|].
  right. apply IH; cbn in H2; lia.
Qed.

Lemma calculate_kappa_spec d X y mn mj i idx : wf_data X d y -> two_labels y mn mj -> Forall (fun i => i < length X) idx ->
  exists k, calculate_kappa mn mj X y i idx = Ok k /\ kappa_spec d X y mn mj i idx k /\ (k <= length idx - 1).
Proof.
  intros [HX Hl] H2 Hi. unfold calculate_kappa. rewrite (gather_map [] X), (gather_map 0%Z y) by (try rewrite <- Hl; assumption). cbn [bind].
  set (qs := filter _ _). set (rmin := box_rows X y mn i idx). set (rmaj := box_rows X y mj i idx).
  set (sizes := region_sizes rmin rmaj [] [] qs).
  assert (Hq : forall q, In q qs <-> 1 <= q < length idx /\ nth (nth q idx 0) y 0%Z <> mj).
  { intros q. unfold qs. rewrite filter_In, in_seq, negb_true_iff, Z.eqb_neq. split; intros [A B]; (split; [lia|assumption]). }
  assert (Sq : StronglySorted lt qs) by (apply filter_StronglySorted, NoiseFacts.seq_StronglySorted).
  assert (Lq : length qs <= length idx - 1) by (unfold qs; etransitivity; [apply filter_len|]; now rewrite seq_length).
  assert (Ls : length sizes = length qs) by apply region_sizes_length.
  set (share := fun s => (inject_Z (Z.of_nat (fst s)) / inject_Z (Z.of_nat (fst s + snd s)))%Q : Q).
  assert (HR : forall t, t < length qs -> exists a b, nth t sizes (0, 0) = (a, b) /\
     is_count (fun j => in_region d X i idx qs (S t) j /\ nth j y 0%Z = mn) a /\
     is_count (fun j => in_region d X i idx qs (S t) j /\ nth j y 0%Z = mj) b /\ 0 < a).
  { intros t Ht. destruct (region_sizes_spec rmin rmaj qs [] [] t (NoDup_nil _) (NoDup_nil _) Ht) as (U & V & E & N1 & N2 & HU & HV).
    fold sizes in E. exists (length U), (length V). split; [exact E|].
    assert (G : forall lab W, (forall j, In j W <-> In j [] \/ exists q, In q (firstn (S t) qs) /\ In j (box_rows X y lab i idx q)) ->
       forall j, In j W <-> in_region d X i idx qs (S t) j /\ nth j y 0%Z = lab).
    { intros lab W HW j. rewrite HW. unfold in_region. split.
      - intros [[]|(q & H & Hj)]. apply (box_rows_in X y d) in Hj as (A & B & C); auto. split; [|exact C]. exists q. auto.
      - intros [(q & A & B & C) E']. right. exists q. split; [exact A|]. apply (box_rows_in X y d); auto. }
    pose proof (G mn U HU) as GU. pose proof (G mj V HV) as GV.
    split; [exists U; auto|]. split; [exists V; auto|].
    assert (Hin : In (nth t qs 0) qs) by now apply nth_In. pose proof (proj1 (Hq _) Hin) as [Hb Hne].
    set (q := nth t qs 0) in *. assert (Hu : In (nth q idx 0) U).
    { apply GU. split.
      - exists q. split; [apply In_firstn_nth; lia|]. split; [apply In_firstn_nth; lia|]. apply boxed_corner.
      - destruct H2 as (_ & _ & _ & H2). destruct (H2 (nth (nth q idx 0) y 0%Z)); [|assumption|contradiction].
        apply nth_In. rewrite <- Hl. rewrite Forall_forall in Hi. apply Hi, nth_In. lia. }
    destruct U; [destruct Hu|cbn; lia]. }
  rewrite (WrapFacts2.mapM_map _ share).
  2:{ intros s Hs. apply (In_nth _ _ (0, 0)) in Hs as (t & Ht & <-). rewrite Ls in Ht. destruct (HR t Ht) as (a & b & -> & _ & _ & Ha).
      unfold precision, share. cbn [fst snd]. destruct (Nat.eqb_spec (a + b) 0); [lia|reflexivity]. }
  cbn [bind]. set (prec := map share sizes). assert (Lp : length prec = length qs) by (unfold prec; now rewrite map_length).
  pose proof (diff_length prec) as Ld. rewrite Lp in Ld.
  destruct (diff prec) as [|d0 ds'] eqn:Ed.
  - exists 0. split; [reflexivity|]. split; [|lia]. exists qs. split; [split; assumption|]. split; [reflexivity|]. cbn in Ld. lia.
  - rewrite <- Ed. assert (Hne : diff prec <> []) by (rewrite Ed; discriminate). rewrite <- Ed in Ld. clear d0 ds' Ed.
    assert (Hd : 0 < length (diff prec)) by (destruct (diff prec); [congruence|cbn; lia]).
    destruct (argmin_spec (diff prec) Hne) as (k & Ek & Hk & Hmin & Hfst). rewrite Ek. cbn [bind]. exists (k + 2). split; [reflexivity|].
    split; [|lia]. exists qs. split; [split; assumption|]. split; [lia|]. intros _. split; [lia|].
    exists (fun s => nth (s - 1) prec 0%Q). split.
    + intros s Hs. destruct (HR (s - 1) ltac:(lia)) as (a & b & E & A & B & C). replace (S (s - 1)) with s in A, B by lia.
      exists a, b. split; [exact A|]. split; [exact B|]. split; [exact C|]. unfold prec. rewrite (nth_map' _ (0, 0)) by lia. rewrite E. reflexivity.
    + assert (G : forall s, 2 <= s <= length qs -> nth (s - 2) (diff prec) 0%Q = (nth (s - 1) prec 0 - nth (pred s - 1) prec 0)%Q).
      { intros s Hs. rewrite diff_nth by lia. replace (s - 2 + 1) with (s - 1) by lia. replace (pred s - 1) with (s - 2) by lia. reflexivity. }
      intros s Hs. rewrite <- !G by lia. replace (k + 2 - 2) with k by lia. split.
      * apply Hmin. lia.
      * intros Hlt. apply Hfst. lia.
Qed.

Lemma and_smote_runs dist vol nn p r D mn mj n :
  knn_ok dist nn -> rng_ok r -> unif_pos r -> wf_data (d_X D) (d_dim D) (d_y D) -> is_minority (d_y D) mn mj ->
  asked (an_proportion p) (d_y D) mn mj = Ok n -> 2 <= an_K p -> plain_ss (an_ss p) -> ss_gauss (an_ss p) = GNone ->
  runs D mn n (and_smote_spec dist p D mn mj n) (and_smote_sample vol nn p r D).
Proof.
  intros Hnn Hr Hu [HX Hl] Hmin Ha HK Hss Hg. unfold and_smote_sample, and_smote_algorithm.
  apply (runs_intro _ _ _ _ _ _ _ Hmin Ha). intros st (E1 & E2 & _) H2 Hn. rewrite E1, E2.
  set (X_min := rows_with mn (d_X D) (d_y D)).
  assert (HL : length X_min = count_label (d_y D) mn) by now apply rows_with_length.
  assert (HR : rect (d_dim D) X_min) by now apply rows_with_rect.
  assert (HLX : length X_min <= length (d_X D)) by (rewrite HL, Hl; pose proof (two_labels_count _ _ _ (proj1 Hmin)); lia).
  set (k := Nat.min (length X_min) (an_K p)).
  destruct (Hnn (d_X D) (d_X D) k) as (T & ET & HT); [unfold k; lia|]. rewrite ET. cbn [bind].
  destruct (nearest_table_shape _ _ _ _ _ HT) as (L & R & F).
  set (rows := where_ (map (Z.eqb mn) (d_y D))).
  assert (Hrows : forall i, In i rows <-> i < length (d_y D) /\ nth i (d_y D) 0%Z = mn).
  { intros i. unfold rows. rewrite NoiseFacts2.where_in, map_length. split; intros [A B]; (split; [assumption|]).
    - rewrite (nth_map' _ 0%Z) in B by assumption. apply Z.eqb_eq in B. congruence.
    - rewrite (nth_map' _ 0%Z) by assumption. apply Z.eqb_eq. congruence. }
  assert (LRW : length rows = length X_min).
  { unfold X_min, rows_with. rewrite (select_where []) by now rewrite map_length. now rewrite map_length. }
  assert (HF : forall i, In i rows -> exists c, (do idx <- get T i; calculate_kappa mn mj (d_X D) (d_y D) i idx) = Ok c /\
     kappa_spec (d_dim D) (d_X D) (d_y D) mn mj i (nth i T []) c /\ c < k).
  { intros i Hi. apply Hrows in Hi as [Hi _]. rewrite (get_nth [] T i) by lia. cbn [bind].
    assert (Hin : In (nth i T []) T) by (apply nth_In; lia).
    destruct (calculate_kappa_spec (d_dim D) (d_X D) (d_y D) mn mj i (nth i T [])) as (c & A & B & C); [split; assumption|apply Hmin| |].
    - rewrite Forall_forall in F. now apply F.
    - exists c. split; [exact A|]. split; [exact B|]. unfold rect in R. rewrite Forall_forall in R. rewrite (R _ Hin) in C. unfold k in *. lia. }
  assert (EM : exists kappa, mapM (fun i => do idx <- get T i; calculate_kappa mn mj (d_X D) (d_y D) i idx) rows = Ok kappa /\
     Forall2 (fun i c => kappa_spec (d_dim D) (d_X D) (d_y D) mn mj i (nth i T []) c /\ c < k) rows kappa).
  { clear LRW Hrows. induction rows as [|i l IH]; [exists []; split; [reflexivity|constructor]|].
    destruct (HF i (or_introl eq_refl)) as (c & A & B). destruct IH as (kp & C & G); [intros; apply HF; now right|].
    exists (c :: kp). cbn [mapM]. rewrite A. cbn [bind]. rewrite C. split; [reflexivity|now constructor]. }
  destruct EM as (kappa & EK & FK). rewrite EK. cbn [bind].
  assert (LK : length kappa = length X_min) by (rewrite <- LRW; symmetry; exact (Forall2_length _ _ _ FK)).
  assert (BK : forall c, In c kappa -> c < k).
  { intros c Hc. apply (In_nth _ _ 0) in Hc as (t & Ht & <-). apply (Forall2_nth' _ _ _ 0 0 t FK). lia. }
  assert (NK : kappa <> []) by (intros E; rewrite E in LK; cbn in LK; lia).
  pose proof (list_max_attained kappa NK) as HM. set (M := list_max kappa) in *. pose proof (BK M HM) as HMk.
  destruct (Hnn X_min X_min (M + 1)) as (T' & ET' & HT'); [unfold k in HMk; lia|]. rewrite ET'. cbn [bind].
  destruct (nearest_table_shape _ _ _ _ _ HT') as (L' & R' & F').
  assert (SPEC : forall S, (Forall (fun c => c = 0) kappa -> S = []) ->
     (~ Forall (fun c => c = 0) kappa -> length S = Z.to_nat n /\
      Forall (fun x => exists b ps, b < length X_min /\
        length ps = Nat.min (ss_n_dim (an_ss p)) (M + 1) - 1 /\ StronglySorted lt ps /\
        Forall (fun q => 1 <= q <= nth b kappa 0) ps /\
        convex_comb (d_dim D) (nth b X_min [] :: map (fun q => nth (nth q (nth b T' []) 0) X_min []) ps) x) S) ->
     and_smote_spec dist p D mn mj n S).
  { intros S G1 G2. exists T, rows, kappa. fold X_min. fold k. split; [exact HT|]. split.
    { split; [unfold rows; rewrite where_filter; apply filter_StronglySorted, NoiseFacts.seq_StronglySorted|exact Hrows]. }
    split; [eapply Forall2_impl; [|exact FK]; cbv beta; tauto|]. split; [now apply Forall_forall|]. split; [exact G1|].
    intros G. destruct (G2 G) as [G3 G4]. split; [exact G3|]. exists T'. split; [exact HT'|exact G4]. }
  assert (ZS : nsum kappa = 0 <-> Forall (fun c => c = 0) kappa).
  { clear. induction kappa as [|c l IH]; [split; [constructor|reflexivity]|]. change (nsum (c :: l)) with (c + nsum l). split.
    - intros H. constructor; [lia|]. apply IH. lia.
    - intros H. inversion H; subst. rewrite (proj2 IH) by assumption. reflexivity. }
  destruct (Nat.eqb_spec (nsum kappa) 0) as [Hz|Hz].
  - exists []. unfold extended. cbn [length repeat]. rewrite !app_nil_r. split; [reflexivity|]. apply SPEC; [reflexivity|]. intros G. exfalso. apply G, ZS, Hz.
  - assert (M2 : 0 < M).
    { destruct (Nat.eq_dec M 0) as [E|]; [|lia]. exfalso. apply Hz, ZS, Forall_forall. intros c Hc.
      apply SimplexGeom.list_max_in_le in Hc. fold M in Hc. lia. }
    set (sw := map (and_weights (M + 1)) kappa).
    set (args := mk_args X_min (d_dim D) T' (M + 1) None None None false (Some sw)).
    assert (Wn : forall b q, b < length X_min -> q < M + 1 -> nth q (nth b sw []) 0%Q = if (0 <? nth b kappa 0) && (q <=? nth b kappa 0) then 1%Q else 0%Q).
    { intros b q Hb Hq. unfold sw. rewrite (nth_map' _ 0) by lia. unfold and_weights. rewrite (nth_map' _ 0) by (now rewrite seq_length).
      now rewrite seq_nth. }
    assert (AO : args_ok args).
    { constructor; cbn; auto; try discriminate; try lia. split; [unfold sw; rewrite map_length; lia|]. split.
      - unfold sw, rect. apply Forall_map, Forall_forall. intros c _. unfold and_weights. now rewrite map_length, seq_length.
      - unfold sw. apply Forall_map, Forall_forall. intros c _. unfold and_weights. apply Forall_map, Forall_forall. intros q _. destruct (_ && _); lra. }
    apply (In_nth _ _ 0) in HM as (b0 & Hb0 & Eb0).
    destruct (ss_weighted vol (an_ss p) args (Z.to_nat n) r b0 sw AO Hr Hu Hss) as (S & ES & LS & FS); cbn [args a_indices a_simplex_weights a_base_weights a_ncols]; auto; try lia.
    { intros q Hq. rewrite Wn by lia. rewrite Eb0. destruct (Nat.ltb_spec 0 M); [|lia]. destruct (Nat.leb_spec q M); [reflexivity|lia]. }
    fold sw. lazymatch goal with |- context [sample_simplex vol ?a ?b ?c ?d] => replace (sample_simplex vol a b c d) with (Ok S) by (symmetry; exact ES) end. cbn [bind].
    exists S. split; [reflexivity|]. apply SPEC; [intros G; exfalso; apply Hz, ZS, G|]. intros _. split; [exact LS|].
    specialize (FS Hg). eapply Forall_impl; [|exact FS]. intros x (b & ps & Hb & Lps & Sps & Fps & _ & Wps & Hx).
    cbn [args a_dim a_X a_X_vertices a_indices a_ncols a_base_weights a_simplex_weights vertex_set] in *. rewrite L' in Hb.
    exists b, ps. split; [assumption|]. split; [assumption|]. split; [assumption|]. split; [|exact Hx].
    rewrite Forall_forall in *. intros q Hq. specialize (Fps q Hq). specialize (Wps q Hq). rewrite Wn in Wps by lia. split; [lia|].
    destruct (Nat.leb_spec q (nth b kappa 0)); [assumption|]. rewrite andb_false_r in Wps. now apply Qlt_irrefl in Wps.
Qed.
