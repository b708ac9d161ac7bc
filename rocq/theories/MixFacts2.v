From Coq Require Import List ZArith QArith Qabs Qminmax Qround Qpower Bool Arith Lia Lqa Sorting.Sorted Permutation.
From Verif Require Import Np PyVal NpFacts BaseFacts SimplexModel Spec SpecDanger SpecNoise SpecComp SimplexFacts SimplexGeom Float64
  SamplerModel SamplerFacts OversFacts BaseModel KnnFacts DangerModel DangerFacts BorderFacts ClusterModel ClusterOversModel OversGen
  ClusterOversFacts ClusterFacts NoiseModel NoiseFacts NoiseFacts2 CompModel CompFacts CompFacts2 CompFacts3 CompFacts4 EditModel SpecEdit EditFacts EditFacts3 EditFacts4 EditFacts5
  SpecNear NearFacts NearFacts2 LevelModel SpecLevel LevelFacts LevelFacts3 LevelFacts4 SpecGroup GroupFacts GroupFacts2 GroupFacts4 WrapModel SpecWrap WrapFacts WrapFacts2 WrapFacts3 DirModel SpecDir DirFacts DirFacts3 RegionModel SpecRegion RegionFacts RegionFacts2 RegionFacts4 SearchModel SpecSearch SearchFacts2 GraphModel SpecGraph GraphFacts GraphFacts2 GraphFacts4 GraphFacts5 GraphFacts6 GraphFacts8 MixModel SpecMix MixFacts.
Import ListNotations.
Open Scope nat_scope.

(** ** SMOTEWB, the result *)

Section SMOTEWB.

Variable volume : list row -> Q.
Variable dist : row -> row -> Q.
Variable nn : list row -> list row -> nat -> res (list (list nat)).
Hypothesis Hnn : knn_ok dist nn.
Variable boosted : list row -> list Z -> list Q.
Hypothesis Hboost : forall X y, length (boosted X y) = length X.

Lemma smotewb_ok proportion ss d c r D mn mj n : draws_ok d -> subsets_ok c -> rng_ok r -> unif_pos r -> plain_ss ss ->
  wf_data (d_X D) (d_dim D) (d_y D) -> is_minority (d_y D) mn mj -> asked proportion (d_y D) mn mj = Ok n ->
  (count_label (d_y D) mn <= 2 \/ n = 0%Z -> unchanged D (smotewb_sample volume nn boosted proportion ss d c r D)) /\
  (2 < count_label (d_y D) mn -> (0 < n)%Z ->
     wb_result dist proportion ss D mn mj (boosted (d_X D) (d_y D)) n (smotewb_sample volume nn boosted proportion ss d c r D)).
Proof.
  intros Hd Hc Hr Hu Hss Hwf Hmin Hn. unfold smotewb_sample.
  destruct (sample_default (smotewb_algorithm volume nn boosted proportion ss d c r) D mn mj Hmin) as (st & Hst & ->).
  destruct (stats_labels _ _ _ _ Hst) as [El1 El2].
  destruct (Nat.leb_spec (count_label (d_y D) mn) 2) as [Hle|Hgt].
  { split; [reflexivity|lia]. }
  unfold smotewb_algorithm. rewrite (det_st_asked _ _ _ _ _ (proj1 Hmin) Hst), Hn. cbn [bind].
  pose proof (asked_some _ _ _ _ _ Hn) as Hn0. split.
  { intros [H'| ->]; [lia|]. reflexivity. }
  intros _ Hpos. destruct (Nat.eqb_spec (Z.to_nat n) 0) as [H0|H0]; [lia|]. rewrite El1, El2.
  assert (Fb : appends D mn (smote_spec dist (mk_smote proportion 5 ss) D mn n) (smote_sample volume nn (mk_smote proportion 5 ss) r D)).
  { refine (proj2 (smote_runs dist volume nn (mk_smote proportion 5 ss) r D mn mj n Hnn Hr Hu Hss Hwf Hmin Hn _) Hgt Hpos). cbn. lia. }
  assert (HX : rect (d_dim D) (d_X D)) by apply Hwf. assert (HL : length (d_X D) = length (d_y D)) by apply Hwf.
  assert (Hne : mn <> mj) by (destruct Hmin as [[N _] _]; congruence).
  set (w := boosted (d_X D) (d_y D)). assert (Lw : length w = length (d_y D)) by (unfold w; rewrite Hboost; exact HL).
  set (X_min := rows_with mn (d_X D) (d_y D)). set (X_maj := rows_with mj (d_X D) (d_y D)).
  assert (Lmin : length X_min = count_label (d_y D) mn) by (apply rows_with_length, HL).
  assert (Lmaj : length X_maj = count_label (d_y D) mj) by (apply rows_with_length, HL).
  set (noisy := noise_mask (wb_threshold (length X_maj) (length (d_y D))) (rows_with mn w (d_y D))).
  set (noisy' := noise_mask (wb_threshold (length X_min) (length (d_y D))) (rows_with mj w (d_y D))).
  assert (Eg : select (map negb noisy) X_min = wb_quiet_min D mn mj w).
  { unfold noisy, wb_quiet_min, quiet_rows. rewrite (quiet_select _ _ (noise_limit_eq _ _)), Lmaj. reflexivity. }
  assert (Eg' : select (map negb noisy') X_maj = quiet_rows (noise_limit (count_label (d_y D) mn) (length (d_y D))) mj w (d_X D) (d_y D)).
  { unfold noisy', quiet_rows. rewrite (quiet_select _ _ (noise_limit_eq _ _)), Lmin. reflexivity. }
  rewrite Eg, Eg'. set (qmin := wb_quiet_min D mn mj w). set (qmaj := quiet_rows _ mj w _ _).
  assert (EG : qmin ++ qmaj = wb_quiet D mn mj w) by reflexivity. set (G := wb_quiet D mn mj w) in *. rewrite EG.
  assert (LG : length G = length qmin + length qmaj) by (rewrite <- EG; apply app_length).
  assert (Lno : length noisy = length X_min).
  { unfold noisy, noise_mask. rewrite map_length, Lmin. apply rows_with_length, Lw. }
  assert (Hno : forall b, b < length X_min -> (nth b noisy false = true <-> wb_noisy D mn mj w b)).
  { intros b Hb. unfold noisy, noise_mask. rewrite (nth_indep _ false (Qlt_b (wb_threshold (length X_maj) (length (d_y D))) 0)) by (fold (noise_mask (wb_threshold (length X_maj) (length (d_y D))) (rows_with mn w (d_y D))); fold noisy; lia).
    rewrite map_nth, Qlt_b_iff'. unfold wb_noisy. rewrite noise_limit_eq, Lmaj. reflexivity. }
  assert (Rmin : rect (d_dim D) X_min) by apply rows_with_rect, HX. assert (Rmaj : rect (d_dim D) X_maj) by apply rows_with_rect, HX.
  assert (RG : rect (d_dim D) G).
  { rewrite <- EG. unfold qmin, qmaj. rewrite <- Eg, <- Eg'. unfold rect in *. rewrite Forall_app. rewrite Forall_forall in Rmin, Rmaj. split; apply Forall_forall; intros x Hx; apply select_incl in Hx; auto. }
  unfold wb_result. fold X_min G. cbv zeta.
  destruct (Nat.eqb_spec (length G) 0) as [HG0|HG0].
  { apply length_zero_iff_nil in HG0. split; [intros _; exact Fb|congruence]. }
  split; [intros ->; now cbn in HG0|]. intros _.
  replace (length X_maj / length X_min) with (count_label (d_y D) mj / count_label (d_y D) mn) by now rewrite Lmaj, Lmin.
  set (k_max := count_label (d_y D) mj / count_label (d_y D) mn).
  assert (Hkm : 1 <= k_max).
  { unfold k_max. assert (count_label (d_y D) mn <= count_label (d_y D) mj) by (destruct Hmin as [_ [H'|[H' _]]]; lia).
    apply Nat.div_le_lower_bound; lia. }
  set (k := Nat.min (length G) (k_max + 1)). assert (Hk : 1 <= k) by (unfold k; lia).
  destruct (Hnn G X_min k ltac:(unfold k; lia)) as (T & ET & HT). rewrite ET. cbn [bind].
  destruct (nearest_table_shape _ _ _ _ _ HT) as [LT ST].
  assert (HTb : forall b, b < length X_min -> length (nth b T []) = k /\ Forall (fun j => j < length G) (nth b T [])).
  { intros b Hb. assert (HTn : nearest_table dist G [nth b X_min []] k [nth b T []]).
    { eapply nearest_table_nth; [exact HT|apply nth_error_nth'; lia|apply nth_error_nth'; lia]. }
    inversion HTn as [|? ? ? ? (A1 & _ & A3 & _) _]; subst. split; assumption. }
  assert (HF : exists F, mapM (fun t => do labels <- gather (repeat mn (length qmin) ++ repeat mj (length qmaj)) t; Ok (first_majority mj labels (k_max + 1))) T = Ok F /\
     Forall2 (fun t f => exists r, leading (length qmin) t r /\ f = if length r =? length t then k_max + 1 else length r) T F).
  { assert (HA : Forall (Forall (fun j => j < length qmin + length qmaj)) T).
    { apply Forall_forall. intros t Ht. apply (In_nth _ _ []) in Ht. destruct Ht as (b & Hb & <-). rewrite <- LG. apply HTb. lia. }
    clear - HA Hne. induction HA as [|t T Ht HA (F & EF & HF)]; [exists []; split; [reflexivity|constructor]|].
    destruct (first_majority_ok mn mj (length qmin) (length qmaj) (k_max + 1) t Hne Ht) as (r & Hr & Er).
    cbn [mapM]. rewrite Er. cbn [bind]. rewrite EF. cbn [bind]. eexists. split; [reflexivity|]. constructor; [exists r; auto|exact HF]. }
  destruct HF as (F & EF & HF). rewrite EF. cbn [bind].
  assert (LF : length F = length X_min) by (rewrite <- (Forall2_length _ _ _ HF); lia).
  set (top := Nat.min k k_max). set (ks := map2 (wb_reach top) noisy F).
  assert (Lks : length ks = length X_min) by (unfold ks; rewrite map2_length; lia).
  assert (HR : exists R, length R = length X_min /\ forall b, b < length X_min -> leading (length qmin) (nth b T []) (nth b R []) /\
     nth b ks 0 = wb_reach top (nth b noisy false) (if length (nth b R []) =? length (nth b T []) then k_max + 1 else length (nth b R []))).
  { assert (exists R, Forall2 (fun tf r => leading (length qmin) (fst tf) r /\ snd tf = if length r =? length (fst tf) then k_max + 1 else length r) (combine T F) R) as (R & HR).
    { clear - HF. induction HF as [|t f T F (r & H1 & H2) HF (R & IH)]; [exists []; constructor|]. exists (r :: R). constructor; auto. }
    exists R. pose proof (Forall2_length _ _ _ HR) as LR. rewrite combine_length in LR. split; [lia|]. intros b Hb.
    assert (Hc' : nth_error (combine T F) b = Some (nth b T [], nth b F 0)).
    { rewrite (nth_error_nth' _ ([], 0)) by (rewrite combine_length; lia). rewrite combine_nth by lia. reflexivity. }
    assert (Hr' : nth_error R b = Some (nth b R [])) by (apply nth_error_nth'; lia).
    pose proof (Forall2_nth_error _ _ _ _ _ _ HR Hc' Hr') as [Q1 Q2]. cbn [fst snd] in *. split; [exact Q1|].
    unfold ks. rewrite (map2_nth _ _ _ _ false 0 0) by lia. now rewrite Q2. }
  destruct HR as (R & LR & HR).
  set (U := map (fun b => wb_used k_max (nth b noisy false) (nth b R [])) (seq 0 (length X_min))).
  assert (LU : length U = length X_min) by (unfold U; now rewrite map_length, seq_length).
  assert (HU : forall b, b < length X_min -> nth b U [] = wb_used k_max (nth b noisy false) (nth b R [])).
  { intros b Hb. unfold U. rewrite (nth_map_in _ 0 []) by (rewrite seq_length; exact Hb). now rewrite seq_nth. }
  assert (HN : wb_neighbours dist D mn mj w T U).
  { unfold wb_neighbours. fold G X_min k_max k. split; [exact HT|]. split; [exact LU|]. intros b Hb. exists (nth b R []).
    destruct (HR b Hb) as [Q1 _]. split; [exact Q1|]. rewrite HU by exact Hb. unfold wb_used. split; intros Hb'.
    - apply Hno in Hb'; [|exact Hb]. now rewrite Hb'.
    - destruct (nth b noisy false) eqn:E; [|reflexivity]. apply Hno in E; [contradiction|exact Hb]. }
  exists T, U. split; [exact HN|]. cbv zeta.
  (* one row *)
  assert (Hrow : forall b, b < length X_min ->
     (if nth b noisy false then firstn (nth b ks 0) (nth b T []) else firstn (nth b ks 0) (skipn 1 (nth b T []))) = nth b U [] /\
     (nth b noisy false = true -> (nth b ks 0 = 0 <-> nth b U [] = [])) /\
     (nth b noisy false = false -> (nth b ks 0 = 0 -> nth b U [] = [] /\ 2 <= length G) /\ (nth b U [] = [] -> 2 <= length G -> nth b ks 0 = 0))).
  { intros b Hb. destruct (HR b Hb) as [Q1 Q2]. destruct (HTb b Hb) as [Q3 Q4].
    destruct (wb_near_ok k_max k (length qmin) (nth b T []) (nth b R []) (nth b noisy false) Hkm Hk Q3 Q1) as (P1 & P2 & P3).
    cbv zeta in P1, P2, P3. fold top in P1, P2, P3. rewrite <- Q2 in P1, P2, P3. rewrite HU by exact Hb. split; [exact P1|]. split.
    - intros E. rewrite (P2 E). unfold wb_used. rewrite E. split; [intros ->; apply firstn_nil|]. destruct (nth b R []); [reflexivity|]. destruct k_max; [lia|discriminate].
    - intros E. unfold wb_used. rewrite E. split.
      + intros Z0. apply (P3 E) in Z0. destruct Z0 as [Z1 Z2]. split.
        * destruct (nth b R []) as [|a [|a' l]]; cbn in *; try apply firstn_nil. lia.
        * assert (Hq : 1 <= length qmin).
          { unfold qmin. rewrite <- Eg. destruct (In_dec Nat.eq_dec b (where_ (map negb noisy))) as [Hi|Hi].
            - rewrite (select_where []) by (rewrite map_length; lia). rewrite map_length. destruct (where_ (map negb noisy)); [destruct Hi|cbn; lia].
            - exfalso. apply Hi. rewrite where_filter, filter_In, in_seq, map_length. split; [lia|].
              rewrite (nth_indep _ false (negb false)) by (rewrite map_length; lia). rewrite map_nth, E. reflexivity. }
          destruct Q1 as (rest & Er & _ & Hr2). destruct rest as [|j rest]; [rewrite Er, app_nil_r in Z1; lia|].
          rewrite Forall_forall in Q4. assert (j < length G) by (apply Q4; rewrite Er; apply in_app_iff; right; now left). lia.
      + intros Z0 HG2. apply (P3 E). assert (Hk2 : 2 <= k) by (unfold k; lia).
        assert (Lr : length (nth b R []) <= 1).
        { destruct (nth b R []) as [|a [|a' l]]; cbn in *; try lia. destruct k_max; [lia|discriminate]. }
        split; lia. }
  assert (Hbad : forall b, b < length X_min -> (wb_bad D mn mj w U b <-> nth b ks 0 = 0 /\ nth b noisy false = true)).
  { intros b Hb. destruct (Hrow b Hb) as (_ & P2 & _). unfold wb_bad. rewrite <- (Hno b Hb). split; intros [A1 A2]; [split; [apply P2|]; auto|]. split; [auto|]. now apply P2. }
  set (mask := map2 (fun b k0 => negb ((k0 =? 0) && b)) noisy ks).
  assert (Lmask : length mask = length X_min) by (unfold mask; rewrite map2_length; lia).
  assert (Hmask : forall b, b < length X_min -> (nth b mask false = true <-> ~ wb_bad D mn mj w U b)).
  { intros b Hb. unfold mask. rewrite (map2_nth _ _ _ _ false 0 false) by lia. rewrite (Hbad b Hb), negb_true_iff, andb_false_iff, Nat.eqb_neq.
    destruct (nth b noisy false); intuition congruence. }
  assert (Husable : forall b, In b (where_ mask) <-> b < length X_min /\ ~ wb_bad D mn mj w U b).
  { intros b. rewrite where_filter, filter_In, in_seq, Lmask. split; intros [A1 A2]; (split; [lia|]); apply Hmask; auto; lia. }
  set (usable := where_ mask) in *.
  assert (Nus : NoDup usable) by (unfold usable; rewrite where_filter; apply NoDup_filter, seq_NoDup).
  assert (Bus : Forall (fun i => i < length X_min) usable) by (apply Forall_forall; intros i Hi; now apply Husable in Hi).
  destruct (Nat.eqb_spec (length usable) 0) as [Hus|Hus].
  { apply length_zero_iff_nil in Hus. split; [intros _; exact Fb|]. intros C. exfalso. apply C. intros b Hb.
    apply Hbad; [exact Hb|]. destruct (nth b mask false) eqn:E.
    - exfalso. assert (Hi : In b usable) by (apply Husable; split; [exact Hb|now apply Hmask]). rewrite Hus in Hi. destruct Hi.
    - unfold mask in E. rewrite (map2_nth _ _ _ _ false 0 false) in E by lia. apply negb_false_iff, andb_true_iff in E. now rewrite Nat.eqb_eq in E. }
  split.
  { intros C. exfalso. apply Hus. destruct usable as [|b l] eqn:El; [reflexivity|]. exfalso. destruct (proj1 (Husable b) (or_introl eq_refl)) as [A1 A2]. auto. }
  intros _.
  set (N := Z.to_nat n) in *. set (u := length usable) in *. set (per := (N + u - 1) / u). set (diff := per * u - N).
  destruct (ceil_bounds N u ltac:(lia) ltac:(lia)) as (C1 & C2 & C3). fold per in C1, C2, C3.
  assert (Hdrawn : exists drawn, (if 0 <? diff then choice_without c 0 u diff else Ok []) = Ok drawn /\ length drawn = diff /\ NoDup drawn /\ Forall (fun i => i < u) drawn).
  { destruct (Nat.ltb_spec 0 diff) as [Hdf|Hdf].
    - unfold choice_without. destruct (Nat.ltb_spec u diff); [unfold diff in *; lia|]. exists (c 0 u diff). split; [reflexivity|]. apply Hc. lia.
    - exists []. split; [reflexivity|]. split; [cbn; lia|]. split; constructor. }
  destruct Hdrawn as (drawn & Ed & Ld & Nd & Bd). rewrite Ed. cbn [bind]. rewrite (gather_map 0) by exact Bd. cbn [bind].
  set (fewer := map (fun i => nth i usable 0) drawn).
  assert (Nf : NoDup fewer).
  { unfold fewer. apply NoDup_map_in; [|exact Nd]. intros a b Ha Hb E. rewrite Forall_forall in Bd. eapply (proj1 (NoDup_nth usable 0) Nus); eauto. }
  assert (If : forall i, In i fewer -> In i usable).
  { intros i Hi. unfold fewer in Hi. apply in_map_iff in Hi. destruct Hi as (a & <- & Ha). apply nth_In. rewrite Forall_forall in Bd. now apply Bd. }
  set (Cf := fun i => if mem usable i then if mem fewer i then per - 1 else per else 0).
  set (C := map Cf (seq 0 (length X_min))).
  assert (HC : forall b, b < length X_min -> nth b C 0 = Cf b).
  { intros b Hb. unfold C. rewrite (nth_map_in _ 0 0) by (rewrite seq_length; exact Hb). now rewrite seq_nth. }
  assert (Sh : wb_shares N (length X_min) (wb_bad D mn mj w U) C).
  { split; [unfold C; now rewrite map_length, seq_length|]. split; [|split].
    - pose proof (share_sum (mem usable) (mem fewer) per (seq 0 (length X_min)) C1) as E. unfold C, Cf.
      rewrite mem_filter_count, (mem_filter_count usable) in E; auto.
      + fold u in E. assert (Lf : length fewer = diff) by (unfold fewer; rewrite map_length; exact Ld). rewrite Lf in E. unfold diff in E.
        assert (E' := E ltac:(intros i Hi; apply mem_in; apply mem_in in Hi; auto)). lia.
      + apply Forall_forall. intros i Hi. apply If in Hi. rewrite Forall_forall in Bus. auto.
    - intros b Hb Hb'. rewrite HC by exact Hb. unfold Cf. destruct (mem usable b) eqn:E; [|reflexivity]. apply mem_in, Husable in E. tauto.
    - intros b b' Hb Hb' N1 N2. rewrite !HC by assumption. unfold Cf.
      assert (E1 : mem usable b = true) by (apply mem_in, Husable; auto). assert (E2 : mem usable b' = true) by (apply mem_in, Husable; auto).
      rewrite E1, E2. destruct (mem fewer b), (mem fewer b'); lia. }
  assert (HB : exists B, mapM (fun i => do b <- get noisy i; do t <- get T i; do k0 <- get ks i; wb_rows d G X_min i b t k0 (Cf i)) (seq 0 (length X_min)) = Ok B /\
     Forall2 (fun i B => wb_block (d_dim D) G (nth i X_min []) (nth i U []) (wb_bad D mn mj w U i) (nth i C 0) B) (seq 0 (length X_min)) B).
  { assert (Hin : Forall (fun i => i < length X_min) (seq 0 (length X_min))) by (apply Forall_forall; intros i Hi; apply in_seq in Hi; lia).
    revert Hin. generalize (seq 0 (length X_min)). induction l as [|i l IH]; intros Hin; [exists []; split; [reflexivity|constructor]|].
    inversion Hin as [|? ? Hi Hin']; subst. destruct (IH Hin') as (B & EB & FB). cbn [mapM].
    rewrite (get_nth false) by lia. cbn [bind]. rewrite (get_nth []) by lia. cbn [bind]. rewrite (get_nth 0) by lia. cbn [bind].
    destruct (Hrow i Hi) as (P1 & P2 & P3).
    assert (HUi : Forall (fun j => j < length G) (nth i U [])).
    { destruct (HTb i Hi) as [_ Q4]. rewrite <- P1. apply Forall_forall. intros j Hj. rewrite Forall_forall in Q4. apply Q4.
      destruct (nth i noisy false); [|destruct (nth i T []) as [|a t]; cbn [skipn] in Hj; [rewrite firstn_nil in Hj; destruct Hj|right]]; (rewrite <- (firstn_skipn (nth i ks 0)); apply in_app_iff; left; exact Hj). }
    destruct (wb_rows_ok (d_dim D) d G X_min i (nth i noisy false) (nth i T []) (nth i ks 0) (Cf i) (nth i U []) Hd RG Rmin Hi HUi P1)
      as (b & Eb & B1 & B2 & B3 & B4).
    rewrite Eb. cbn [bind]. rewrite EB. cbn [bind]. eexists. split; [reflexivity|]. constructor; [|exact FB].
    rewrite HC by exact Hi. split; [|split].
    - intros Hb. apply Hbad in Hb; [|exact Hi]. now apply B1.
    - intros Hb Hu0. assert (En : nth i noisy false = false).
      { destruct (nth i noisy false) eqn:E; [|reflexivity]. exfalso. apply Hb. split; [now apply Hno|exact Hu0]. }
      destruct (P3 En) as [P4 P5]. split.
      + intros HG1. destruct (Nat.eq_dec (nth i ks 0) 0) as [Z0|Z0]; [apply P4 in Z0; lia|]. now apply B3.
      + intros HG2. apply B2; auto.
    - exact B4. }
  destruct HB as (B & EB & FB). cbv zeta. unfold Cf in EB. rewrite EB. cbn [bind]. pose proof (Forall2_length _ _ _ FB) as LB. rewrite seq_length in LB.
  assert (FB' : forall b, b < length X_min -> wb_block (d_dim D) G (nth b X_min []) (nth b U []) (wb_bad D mn mj w U b) (nth b C 0) (nth b B [])).
  { intros b Hb. apply (Forall2_nth_error _ _ _ b _ _ FB); [|apply nth_error_nth'; lia].
    rewrite (nth_error_nth' _ 0) by (rewrite seq_length; lia). now rewrite seq_nth. }
  exists C, B. split; [exact Sh|]. split; [lia|]. split; [exact FB'|]. split; [|split].
  - intros ->. reflexivity.
  - intros HS. destruct (Nat.eqb_spec (length (concat B)) 0) as [Z0|_]; [apply length_zero_iff_nil in Z0; contradiction|].
    unfold extended. now rewrite El1.
  - intros HG2. destruct Sh as (S1 & S2 & S3 & S4). rewrite <- S2.
    assert (LL : map (@length row) B = C).
    { apply (nth_ext _ _ 0 0); [rewrite map_length; lia|]. intros b Hb. rewrite map_length, <- LB in Hb.
      rewrite (nth_map_in _ [] 0) by lia. destruct (FB' b Hb) as (Q1 & Q2 & Q3).
      destruct (list_eq_dec Nat.eq_dec (nth b U []) []) as [Hu0|Hu0]; [|now apply Q3].
      destruct (nth b mask false) eqn:Em.
      - destruct (Q2 (proj1 (Hmask b Hb) Em) Hu0) as [_ Q5]. rewrite (Q5 HG2). apply repeat_length.
      - assert (Hb' : wb_bad D mn mj w U b).
        { apply Hbad; [exact Hb|]. unfold mask in Em. rewrite (map2_nth _ _ _ _ false 0 false) in Em by lia. apply negb_false_iff, andb_true_iff in Em. now rewrite Nat.eqb_eq in Em. }
        rewrite (Q1 Hb'), (S3 b Hb Hb'). reflexivity. }
    rewrite <- LL. clear. induction B as [|x B IH]; [reflexivity|]. cbn. rewrite app_length, IH. reflexivity.
Qed.

End SMOTEWB.
