From Coq Require Import List ZArith QArith Qabs Qminmax Qround Qpower Bool Arith Lia Lqa Sorting.Sorted Permutation.
From Verif Require Import Np PyVal NpFacts BaseFacts SimplexModel Spec SpecDanger SpecNoise SpecComp SimplexFacts SimplexGeom Float64
  SamplerModel SamplerFacts OversFacts BaseModel KnnFacts DangerModel DangerFacts BorderFacts ClusterModel ClusterOversModel OversGen
  ClusterOversFacts ClusterFacts NoiseModel NoiseFacts NoiseFacts2 CompModel CompFacts CompFacts2 CompFacts3 CompFacts4 EditModel SpecEdit EditFacts EditFacts3 EditFacts4 EditFacts5
  SpecNear NearFacts NearFacts2 LevelModel SpecLevel LevelFacts LevelFacts3 LevelFacts4 SpecGroup GroupFacts GroupFacts2 GroupFacts4 WrapModel SpecWrap WrapFacts WrapFacts2 WrapFacts3 DirModel SpecDir DirFacts DirFacts3 RegionModel SpecRegion RegionFacts RegionFacts2 RegionFacts3 RegionFacts4 SearchModel SpecSearch SearchFacts2 GraphModel SpecGraph GraphFacts GraphFacts2 GraphFacts4 GraphFacts5 GraphFacts6 GraphFacts8 MixModel SpecMix MixFacts MixFacts3 MixFacts5.
Import ListNotations.
Open Scope nat_scope.

(** ** DSMOTE *)

Lemma ds_fit_length d X : length (ds_fit d X) = d.
Proof. unfold ds_fit. now rewrite map_length, mm_fit_length. Qed.

Lemma ds_fit_range d X : Forall (fun lr => ~ (snd lr == 0)%Q) (ds_fit d X).
Proof.
  unfold ds_fit. rewrite Forall_map. eapply Forall_impl; [|apply mm_fit_range]. intros [l r] H. cbn in *. intros C. apply H.
  setoid_replace r with (r / (1 - 2 * (1 # 1000000)) * (1 - 2 * (1 # 1000000)))%Q by (field; discriminate). rewrite C. ring.
Qed.

Lemma ds_scaled d X : inner_scaled d X (mm_transform (ds_fit d X)).
Proof.
  intros x Hx. split; [apply mm_transform_length; [apply ds_fit_length|exact Hx]|]. intros j lo hi Hj HR.
  rewrite mm_transform_nth by (rewrite ?ds_fit_length; auto).
  unfold ds_fit. rewrite (nth_map_in _ (0, 0)%Q) by (rewrite mm_fit_length; exact Hj). rewrite mm_fit_nth by exact Hj. cbn [fst snd].
  destruct (attr_range_unique _ _ _ _ _ _ HR (column_range X j (attr_range_nonempty _ _ _ _ HR))) as [E1 E2].
  destruct (Qeq_bool (col_max (column j X) - col_min (column j X)) 0) eqn:E.
  - apply Qeq_bool_iff in E. split; intros H; [|lra]. rewrite <- E1. field; discriminate.
  - assert (N : ~ (col_max (column j X) - col_min (column j X) == 0)%Q) by (intros C; apply Qeq_bool_iff in C; congruence).
    split; intros H; [exfalso; apply N; rewrite <- E1, <- E2; lra|]. rewrite <- E1, <- E2. field. lra.
Qed.

Lemma same_row_nth a b : same_row a b -> forall j, (nth j a 0 == nth j b 0)%Q.
Proof. induction 1; intros [|j]; cbn; auto; reflexivity. Qed.
Lemma row_sym a b : same_row a b -> same_row b a.
Proof. induction 1; constructor; auto. now symmetry. Qed.
Lemma row_trans a b c : same_row a b -> same_row b c -> same_row a c.
Proof. intros H. revert c. induction H; intros c0 H2; inversion H2; subst; constructor; [etransitivity; eassumption|]. now apply IHForall2. Qed.

Lemma mm_inverse_same mm a b : same_row a b -> same_row (mm_inverse mm a) (mm_inverse mm b).
Proof.
  intros H. revert mm. induction H as [|x y l l' Hx H IH]; intros [|[lo r] mm]; cbn; constructor; [|apply IH]. now rewrite Hx.
Qed.

Section DS.

Variable dist : row -> row -> Q.
Variable gmean : list row -> row.
Variable score : list row -> nat -> list row -> row -> option Q.

(** Row [k] of [V] was made from three rows before it. *)
Definition made (Z_maj V : list row) (k a : nat) : Prop :=
  exists i j l q, i < k /\ j < k /\ l < k /\ i <> j /\ j <> l /\ i <> l /\
    nth k V [] = gmean [nth i V []; nth j V []; nth l V []] /\ score Z_maj a (firstn k V) (nth k V []) = Some q /\ (0 < q)%Q.

Definition candidate (Z_maj W : list row) (a : nat) (best : Q * option row) : Prop :=
  (0 <= fst best)%Q /\ match snd best with
  | None => True
  | Some g => exists i j l q, i < length W /\ j < length W /\ l < length W /\ i <> j /\ j <> l /\ i <> l /\
      g = gmean [nth i W []; nth j W []; nth l W []] /\ score Z_maj a W g = Some q /\ (0 < q)%Q
  end.

Lemma ds_try_ok c Z_maj W a best s : (forall t, subsets_ok (c t)) -> 3 <= length W -> candidate Z_maj W a best ->
  exists best', ds_try gmean score c Z_maj W a best s = Ok best' /\ candidate Z_maj W a best' /\
    ((forall z, exists q, score Z_maj a W z = Some q /\ (fst best < q)%Q \/ snd best <> None) -> snd best' <> None).
Proof.
  intros Hc HW (B0 & B1). unfold ds_try, choice_without. destruct (Nat.ltb_spec (length W) 3); [lia|]. cbn [bind].
  destruct (Hc a s (length W) 3 HW) as (L & N & F). rewrite (gather_map []) by exact F. cbn [bind].
  destruct (c a s (length W) 3) as [|i [|j [|l [|]]]]; try discriminate. cbn [map].
  set (g := gmean _). destruct (score Z_maj a W g) as [q|] eqn:Es.
  - destruct (Qlt_b (fst best) q) eqn:Eq.
    + apply Qlt_b_iff' in Eq. eexists. split; [reflexivity|]. split; [|cbn; congruence]. split; cbn; [lra|].
      inversion F as [|? ? F1 F']; subst. inversion F' as [|? ? F2 F'']; subst. inversion F'' as [|? ? F3 _]; subst.
      inversion N as [|? ? N1 N']; subst. inversion N' as [|? ? N2 _]; subst. cbn in N1, N2.
      exists i, j, l, q. repeat (split; [first [assumption|reflexivity|intuition congruence]|]). lra.
    + eexists. split; [reflexivity|]. split; [split; assumption|]. intros Hs. destruct (Hs g) as (q' & [[E1 E2]|E1]); [|exact E1].
      rewrite Es in E1. injection E1 as ->. apply Qlt_b_iff' in E2. congruence.
  - eexists. split; [reflexivity|]. split; [split; assumption|]. intros Hs. destruct (Hs g) as (q' & [[E1 E2]|E1]); [congruence|exact E1].
Qed.

Lemma ds_tries c Z_maj W a : (forall t, subsets_ok (c t)) -> 3 <= length W -> forall l best, candidate Z_maj W a best ->
  exists best', foldM (ds_try gmean score c Z_maj W a) l best = Ok best' /\ candidate Z_maj W a best' /\ (snd best <> None -> snd best' <> None) /\
   (l <> [] -> (forall z, exists q, score Z_maj a W z = Some q /\ (fst best < q)%Q) -> snd best' <> None).
Proof.
  intros Hc HW. induction l as [|s l IH]; intros best Hb; cbn [foldM].
  - exists best. split; [reflexivity|]. split; [exact Hb|]. split; [auto|congruence].
  - destruct (ds_try_ok c Z_maj W a best s Hc HW Hb) as (b1 & E1 & C1 & S1). rewrite E1. cbn [bind].
    destruct (IH b1 C1) as (b2 & E2 & C2 & S2 & _). exists b2. split; [exact E2|]. split; [exact C2|]. split.
    + intros H. apply S2, S1. intros z. exists 0%Q. now right.
    + intros _ H. apply S2, S1. intros z. destruct (H z) as (q & Hq). exists q. now left.
Qed.

Lemma ds_one_ok p c Z_maj W a : (forall t, subsets_ok (c t)) ->
  (length W < 3 -> ds_one gmean score p c Z_maj W a = Err ValueError) /\
  (3 <= length W -> (ds_one gmean score p c Z_maj W a = Err ValueError \/
     exists g, ds_one gmean score p c Z_maj W a = Ok (W ++ [g]) /\ made Z_maj (W ++ [g]) (length W) a) /\
     (1 <= ds_n_step p -> (forall z, exists q, score Z_maj a W z = Some q /\ (0 < q)%Q) -> ds_one gmean score p c Z_maj W a <> Err ValueError)).
Proof.
  intros Hc. unfold ds_one. set (m := length W). split.
  - intros H. assert (E : m * (m - 1) * (m - 2) = 0) by (destruct m as [|[|[|m']]]; [reflexivity|reflexivity|reflexivity|lia]).
    rewrite E. reflexivity.
  - intros H. destruct (ds_tries c Z_maj W a Hc H (seq 0 (Nat.min (m * (m - 1) * (m - 2)) (ds_n_step p))) (0%Q, None)) as (best & E & (C0 & C1) & _ & S).
    { split; cbn; [lra|exact I]. }
    rewrite E. cbn [bind]. split.
    + destruct (snd best) as [g|]; [right|now left]. exists g. split; [reflexivity|].
      destruct C1 as (i & j & l & q & H1 & H2 & H3 & H4 & H5 & H6 & H7 & H8 & H9).
      exists i, j, l, q. unfold m. rewrite (app_nth1 W _ _ H1), (app_nth1 W _ _ H2), (app_nth1 W _ _ H3). rewrite (app_nth2 W) by lia. rewrite Nat.sub_diag. cbn [nth].
      rewrite firstn_app, Nat.sub_diag, firstn_all. cbn [firstn]. rewrite app_nil_r. repeat (split; [assumption|]). assumption.
    + intros Hn Hs. assert (Hb : snd best <> None).
      { apply S; [|exact Hs]. assert (1 <= m * (m - 1) * (m - 2)) by (assert (1 <= m * (m - 1)) by nia; nia).
        destruct (Nat.min (m * (m - 1) * (m - 2)) (ds_n_step p)) eqn:Em; [lia|discriminate]. }
      destruct (snd best); [discriminate|congruence].
Qed.

Lemma made_app Z_maj V T k a : k < length V -> made Z_maj V k a -> made Z_maj (V ++ T) k a.
Proof.
  intros Hk (i & j & l & q & H1 & H2 & H3 & H). exists i, j, l, q. rewrite !(app_nth1 V) by lia. rewrite firstn_app.
  replace (k - length V) with 0 by lia. cbn [firstn]. rewrite app_nil_r. auto.
Qed.

Lemma ds_grow_ok p c Z_maj : (forall t, subsets_ok (c t)) -> forall more a W,
  (length W < 3 -> 0 < more -> ds_grow gmean score p c Z_maj more a W = Err ValueError) /\
  (3 <= length W -> (ds_grow gmean score p c Z_maj more a W = Err ValueError \/
     exists T, ds_grow gmean score p c Z_maj more a W = Ok (W ++ T) /\ length T = more /\
       forall i, i < more -> made Z_maj (W ++ T) (length W + i) (a + i)) /\
     (1 <= ds_n_step p -> (forall Zm b V z, exists q, score Zm b V z = Some q /\ (0 < q)%Q) -> ds_grow gmean score p c Z_maj more a W <> Err ValueError)).
Proof.
  intros Hc. induction more as [|more IH]; intros a W; cbn [ds_grow].
  - split; [lia|]. intros _. split; [|discriminate]. right. exists []. rewrite app_nil_r. split; [reflexivity|]. split; [reflexivity|]. intros; lia.
  - destruct (ds_one_ok p c Z_maj W a Hc) as [O1 O2]. split; [intros H _; rewrite (O1 H); reflexivity|]. intros H. destruct (O2 H) as [[E|(g & E & M)] O3].
    + rewrite E. cbn [bind]. split; [now left|]. intros Hn Hs. exfalso. apply (O3 Hn); [intros z; apply Hs|exact E].
    + rewrite E. cbn [bind]. destruct (IH (S a) (W ++ [g])) as [_ G]. destruct (G ltac:(rewrite app_length; lia)) as [[E2|(T & E2 & LT & MT)] G3].
      * rewrite E2. split; [now left|]. intros Hn Hs. exfalso. apply (G3 Hn Hs E2).
      * rewrite E2. split; [|discriminate]. right. exists (g :: T). rewrite <- app_assoc. cbn [app]. split; [reflexivity|]. split; [cbn; lia|].
        rewrite <- app_assoc in MT. cbn [app] in MT. intros [|i] Hi.
        -- rewrite !Nat.add_0_r. replace (W ++ g :: T) with ((W ++ [g]) ++ T) by (rewrite <- app_assoc; reflexivity).
           apply made_app; [rewrite app_length; cbn; lia|exact M].
        -- specialize (MT i ltac:(lia)). rewrite app_length in MT. cbn [length] in MT. replace (length W + S i) with (length W + 1 + i) by lia.
           replace (a + S i) with (S a + i) by lia. exact MT.
Qed.

Variable dd : nat.
Hypothesis Hg : gmean_ok dd gmean.

Lemma made_rect Z_maj W T m : rect dd W -> length W = m -> (forall i, i < length T -> exists a, made Z_maj (W ++ T) (m + i) a) -> rect dd T.
Proof.
  intros HW Hm H. assert (G : forall k, k < length (W ++ T) -> length (nth k (W ++ T) []) = dd).
  { intros k. induction k as [k IH] using lt_wf_ind. intros Hk. destruct (Nat.lt_ge_cases k m) as [C|C].
    - rewrite app_nth1 by lia. apply rect_nth; [exact HW|lia].
    - rewrite app_length in Hk. destruct (H (k - m) ltac:(lia)) as (a & i & j & l & q & H1 & H2 & H3 & _ & _ & _ & E & _).
      replace (m + (k - m)) with k in * by lia. rewrite E. apply Hg; [|discriminate].
      repeat constructor; apply IH; rewrite ?app_length; lia. }
  apply Forall_forall. intros x Hx. apply (In_nth _ _ []) in Hx. destruct Hx as (i & Hi & <-).
  specialize (G (m + i)). rewrite app_length, app_nth2 in G by lia. replace (m + i - length W) with i in G by lia. apply G. lia.
Qed.

Hypothesis Hdist : forall x z, (0 <= dist x z)%Q.
Hypothesis Hpos : forall x z, ~ same_row x z -> (0 < dist x z)%Q.

Lemma dsmote_ok p c D mn mj n r : (forall t, subsets_ok (c t)) -> wf_data (d_X D) (d_dim D) (d_y D) -> is_minority (d_y D) mn mj -> 2 <= d_dim D -> d_dim D = dd ->
  (forall x, In x (rows_with mn (d_X D) (d_y D)) -> exists z, In z (rows_with mj (d_X D) (d_y D)) /\ ~ same_row x z) ->
  asked (ds_proportion p) (d_y D) mn mj = Ok n ->
  int_of_f64 (f_mul (ds_rate p) (f_of_Z (Z.of_nat (count_label (d_y D) mn)))) = Ok r ->
  let out := dsmote_sample dist gmean score p c D in
  (count_label (d_y D) mn <= 2 \/ n = 0%Z -> unchanged D out) /\
  (2 < count_label (d_y D) mn -> (0 < n)%Z -> ds_result dist gmean score p (Z.to_nat r) D mn mj n out).
Proof.
  intros Hc Hwf Hmin Hdim Edd Hdiff Hn Hr. cbv zeta. unfold dsmote_sample.
  destruct (sample_default (dsmote_algorithm dist gmean score p c) D mn mj Hmin) as (st & Hst & ->).
  destruct (stats_labels _ _ _ _ Hst) as [El1 El2].
  destruct (Nat.leb_spec (count_label (d_y D) mn) 2) as [Hle|Hgt].
  { split; [reflexivity|lia]. }
  unfold dsmote_algorithm. rewrite (det_st_asked _ _ _ _ _ (proj1 Hmin) Hst), Hn. cbn [bind].
  destruct (Nat.eqb_spec (Z.to_nat n) 0) as [E0|N0]; [split; [reflexivity|lia]|]. split; [lia|]. intros _ _.
  rewrite El1, El2. assert (HX : rect (d_dim D) (d_X D)) by apply Hwf. assert (HL : length (d_X D) = length (d_y D)) by apply Hwf.
  set (d := d_dim D) in *. set (mm := ds_fit d (d_X D)). set (f := mm_transform mm). set (g := mm_inverse mm).
  assert (Lmm : length mm = d) by apply ds_fit_length. assert (Rmm : Forall (fun lr => ~ (snd lr == 0)%Q) mm) by apply ds_fit_range.
  rewrite !rows_with_map by exact HL. set (X_min := rows_with mn (d_X D) (d_y D)) in *. set (X_maj := rows_with mj (d_X D) (d_y D)) in *.
  assert (Rmin : rect d X_min) by apply rows_with_rect, HX. assert (Rmaj : rect d X_maj) by apply rows_with_rect, HX.
  assert (Lmin : length X_min = count_label (d_y D) mn) by (apply rows_with_length, HL).
  unfold rect in Rmin, Rmaj.
  set (Z_min := map f X_min). set (Z_maj := map f X_maj).
  assert (LZ : length Z_min = count_label (d_y D) mn) by (unfold Z_min; rewrite map_length; exact Lmin).
  set (abn := fun x => (mean_dist dist 1 Z_min x / mean_dist dist 0 Z_maj x)%Q).
  set (abn' := fun x => (qsum (map (dist x) Z_min) / inject_Z (Z.of_nat (length Z_min)) * inject_Z (Z.of_nat (length Z_min)) / (inject_Z (Z.of_nat (length Z_min)) - 1) /
     (qsum (map (dist x) Z_maj) / inject_Z (Z.of_nat (length Z_maj))))%Q).
  assert (Hfar : forall x, In x Z_min -> (0 < qsum (map (dist x) Z_maj) / inject_Z (Z.of_nat (length Z_maj)))%Q).
  { intros x Hx. unfold Z_min in Hx. apply in_map_iff in Hx. destruct Hx as (w & <- & Hw). destruct (Hdiff w Hw) as (z & Hz & Hwz).
    assert (Hz' : In (f z) Z_maj) by (now apply in_map). apply Qlt_shift_div_l.
    - change 0%Q with (inject_Z 0). rewrite <- Zlt_Qlt. destruct Z_maj; [destruct Hz'|cbn; lia].
    - rewrite Qmult_0_l. assert (Hp : (0 < dist (f w) (f z))%Q).
      { apply Hpos. intros C. apply Hwz. rewrite Forall_forall in Rmin, Rmaj.
        eapply row_trans; [apply row_sym; apply (mm_back d mm w); auto|]. eapply row_trans; [apply (mm_inverse_same mm _ _ C)|]. apply (mm_back d mm z); auto. }
      clear - Hdist Hp Hz'. induction Z_maj as [|v l IH]; [destruct Hz'|]. cbn [map qsum fold_right]. fold (qsum (map (dist (f w)) l)).
      assert (0 <= qsum (map (dist (f w)) l))%Q by (clear - Hdist; induction l as [|u l IH]; cbn; [lra|]; fold (qsum (map (dist (f w)) l)); pose proof (Hdist (f w) u); lra).
      destruct Hz' as [->|Hz']; [lra|]. pose proof (Hdist (f w) v). specialize (IH Hz'). lra. }
  rewrite (mapM_map _ abn').
  2: { intros x Hx. unfold ds_abnormality. specialize (Hfar x Hx). destruct (Qeq_bool _ 0) eqn:E; [apply Qeq_bool_iff in E; lra|reflexivity]. }
  cbn [bind]. rewrite LZ, Hr. cbn [bind].
  set (av := map Qopp (map abn' Z_min)). set (M := firstn (Z.to_nat r) (argsort av)).
  assert (Lav : length av = length Z_min) by (unfold av; now rewrite !map_length).
  assert (FM : Forall (fun i => i < length Z_min) M).
  { apply Forall_forall. intros i Hi. rewrite <- Lav. apply argsort_in. rewrite <- (firstn_skipn (Z.to_nat r) (argsort av)). apply in_or_app. now left. }
  rewrite (gather_map []) by exact FM. cbn [bind].
  set (K := kept (length Z_min) M). rewrite (delete_idx_kept []). fold K.
  assert (HK : forall i, In i K <-> i < length X_min /\ ~ In i M).
  { intros i. unfold K, kept. rewrite filter_In, in_seq, negb_true_iff. rewrite Lmin, LZ. split; intros [H1 H2]; (split; [lia|]).
    - intros C. assert (E : existsb (Nat.eqb i) M = true) by (apply existsb_exists; exists i; split; [exact C|apply Nat.eqb_refl]). congruence.
    - destruct (existsb (Nat.eqb i) M) eqn:E; [|reflexivity]. exfalso. apply H2. apply existsb_exists in E. destruct E as (j & Hj & Ej). apply Nat.eqb_eq in Ej. now subst. }
  assert (SK : StronglySorted lt K) by apply filter_seq_sorted.
  assert (NM : NoDup M).
  { pose proof (argsort_NoDup av) as N. rewrite <- (firstn_skipn (Z.to_nat r) (argsort av)) in N. now apply DistFacts.nodup_app_l in N. }
  assert (LM : length M = Nat.min (Z.to_nat r) (length X_min)).
  { unfold M. rewrite firstn_length, argsort_length, Lav. unfold Z_min. now rewrite map_length. }
  assert (LK : length K + length M = length X_min).
  { rewrite <- app_length. apply Nat.le_antisymm.
    - rewrite <- (seq_length (length X_min) 0). apply NoDup_incl_length.
      + apply NoDup_app_intro; [now apply sorted_lt_NoDup|exact NM|]. intros i Hi. now apply HK.
      + intros i Hi. apply in_seq. apply in_app_iff in Hi. destruct Hi as [Hi|Hi]; [apply HK in Hi; lia|]. rewrite Forall_forall in FM. specialize (FM i Hi). lia.
    - rewrite <- (seq_length (length X_min) 0) at 1. apply NoDup_incl_length; [apply seq_NoDup|]. intros i Hi. apply in_seq in Hi.
      apply in_app_iff. destruct (in_dec Nat.eq_dec i M) as [Hin|Hin]; [now right|]. left. apply HK. split; [lia|exact Hin]. }
  assert (Enth : forall l, Forall (fun i => i < length X_min) l -> map (fun i => nth i Z_min []) l = map f (map (fun i => nth i X_min []) l)).
  { intros l Hl. rewrite map_map. apply map_ext_in. intros i Hi. rewrite Forall_forall in Hl. unfold Z_min. apply nth_map_in. now apply Hl. }
  assert (FM' : Forall (fun i => i < length X_min) M) by (eapply Forall_impl; [|exact FM]; cbn; intros; lia).
  assert (FK' : Forall (fun i => i < length X_min) K) by (apply Forall_forall; intros i Hi; now apply HK).
  rewrite (Enth M FM'), (Enth K FK'). set (XM := map (fun i => nth i X_min []) M). set (XK := map (fun i => nth i X_min []) K).
  set (ZM := Z_maj ++ map f XM). set (W := map f XK).
  assert (LW : length W = length K) by (unfold W, XK; now rewrite !map_length).
  destruct (ds_grow_ok p c ZM Hc (Z.to_nat n) 0 W) as [G1 G2]. split; [|split].
  - intros H. rewrite G1 by lia. reflexivity.
  - intros H. destruct (G2 ltac:(lia)) as [[E|(T & E & LT & MT)] _]; rewrite E; cbn [bind]; [now left|right].
    assert (Hma : most_abnormal dist Z_min Z_maj (Z.to_nat r) M).
    { unfold most_abnormal. split; [rewrite LM; lia|]. split; [exact NM|]. split; [exact FM|]. intros i j Hi Hj Nj.
      assert (Ei : i < length Z_min) by (rewrite Forall_forall in FM; now apply FM).
      assert (Hij : (nth i av 0 <= nth j av 0)%Q).
      { apply (StronglySorted_app_lt (fun i j => nth i av 0 <= nth j av 0)%Q M (skipn (Z.to_nat r) (argsort av))); [|exact Hi|].
        - unfold M. rewrite firstn_skipn. apply argsort_sorted.
        - assert (Hin : In j (argsort av)) by (apply argsort_in; lia). rewrite <- (firstn_skipn (Z.to_nat r) (argsort av)) in Hin. apply in_app_iff in Hin. destruct Hin; [contradiction|assumption]. }
      assert (Eav : forall k, k < length Z_min -> (nth k av 0 == - abn (nth k Z_min []))%Q).
      { intros k Hk. unfold av. rewrite map_map. rewrite (nth_map_in _ []) by exact Hk. unfold abn', abn, mean_dist. rewrite Nat.sub_0_r.
        assert (E1 : (inject_Z (Z.of_nat (length Z_min)) - 1 == inject_Z (Z.of_nat (length Z_min - 1)))%Q).
        { rewrite Nat2Z.inj_sub by lia. unfold Z.sub. rewrite inject_Z_plus, inject_Z_opp. reflexivity. }
        assert (E2 : forall q, (q / inject_Z (Z.of_nat (length Z_min)) * inject_Z (Z.of_nat (length Z_min)) == q)%Q).
        { intros q. field. intros C. unfold Qeq, inject_Z in C. cbn [Qnum Qden] in C. clear - C LZ Hgt. rewrite LZ in C. lia. }
        rewrite E2, E1. reflexivity. }
      rewrite (Eav i Ei), (Eav j Hj) in Hij. fold (abn (nth i Z_min [])). fold (abn (nth j Z_min [])). lra. }
    assert (RX : forall l, Forall (fun i => i < length X_min) l -> rect d (map (fun i => nth i X_min []) l)).
    { intros l Hl. unfold rect. rewrite Forall_map. eapply Forall_impl; [|exact Hl]. intros i Hi. apply rect_nth; assumption. }
    assert (RT : rect d T).
    { rewrite Edd. apply (made_rect ZM W T (length W)); [|reflexivity|].
      - rewrite <- Edd. unfold W. apply transform_rect; [exact Lmm|]. now apply RX.
      - rewrite LT. intros i Hi. exists (0 + i). now apply MT. }
    exists f, M, K, (map g T). split; [apply ds_scaled|]. split.
    + split; [exact Hma|]. split; [exact SK|]. split; [exact HK|]. split; [now rewrite map_length|].
      split; [unfold rect; rewrite Forall_map; eapply Forall_impl; [|exact RT]; intros z Hz; now apply mm_inverse_length|].
      exists T. split.
      * clear - RT Lmm Rmm. induction RT as [|z T Hz RT IH]; constructor; [now apply (mm_forth d)|exact IH].
      * intros i Hi. specialize (MT i Hi). rewrite LW in MT. destruct MT as (i1 & j & l & q & H1).
        exists i1, j, l, q. fold X_min X_maj. rewrite <- (map_map (fun i => nth i X_min []) f M), <- (map_map (fun i => nth i X_min []) f K).
        fold XM XK Z_maj ZM W. exact H1.
    + unfold ds_output. fold X_min X_maj. exists (map g ZM), (map g W). split; [|split].
      * rewrite !map_length, !map_app, !app_length, !map_length. reflexivity.
      * unfold ZM, Z_maj. rewrite <- map_app. apply (mm_back_rows d); auto. apply Forall_app. split; [exact Rmaj|now apply RX].
      * unfold W. apply (mm_back_rows d); auto.
  - intros H Hs Hsc. destruct (G2 ltac:(lia)) as [_ G3]. specialize (G3 Hs Hsc). destruct (ds_grow _ _ _ _ _ _ _ _) as [|[]]; cbn [bind]; congruence.
Qed.

End DS.

(** The new rows stay in the box of the minority rows that are left. *)
Lemma inner_affine d X f j : inner_scaled d X f -> rect d X -> X <> [] -> j < d ->
  exists s o, (0 < s)%Q /\ (forall x, length x = d -> (nth j (f x) 0 == nth j x 0 * s + o)%Q) /\ (forall x, In x X -> (0 < nth j (f x) 0)%Q).
Proof.
  intros Hf HX Hne Hj. pose proof (column_range X j Hne) as HR. set (lo := col_min (column j X)) in *. set (hi := col_max (column j X)) in *.
  assert (Hle : (lo <= hi)%Q) by (destruct X as [|x X']; [congruence|]; destruct (proj1 HR x (or_introl eq_refl)); lra).
  assert (HXl : forall x, In x X -> length x = d) by (unfold rect in HX; rewrite Forall_forall in HX; exact HX).
  destruct (Qlt_le_dec lo hi) as [Hlt|Hge].
  - exists ((1 - (2 # 1000000)) / (hi - lo))%Q, ((1 # 1000000) - lo * ((1 - (2 # 1000000)) / (hi - lo)))%Q.
    assert (Hs : (0 < (1 - (2 # 1000000)) / (hi - lo))%Q) by (apply Qlt_shift_div_l; lra). split; [exact Hs|].
    assert (A : forall x, length x = d -> (nth j (f x) 0 == nth j x 0 * ((1 - (2 # 1000000)) / (hi - lo)) + ((1 # 1000000) - lo * ((1 - (2 # 1000000)) / (hi - lo))))%Q).
    { intros x Hx. destruct (Hf x Hx) as [_ H]. destruct (H j lo hi Hj HR) as [_ H2]. rewrite (H2 Hlt). field. lra. }
    split; [exact A|]. intros x Hx. rewrite (A x (HXl x Hx)). destruct (proj1 HR x Hx) as [H1 _]. set (t := ((1 - (2 # 1000000)) / (hi - lo))%Q) in *. nra.
  - assert (E : (hi == lo)%Q) by lra. exists (1 - (2 # 1000000))%Q, ((1 # 1000000) - lo * (1 - (2 # 1000000)))%Q. split; [reflexivity|].
    assert (A : forall x, length x = d -> (nth j (f x) 0 == nth j x 0 * (1 - (2 # 1000000)) + ((1 # 1000000) - lo * (1 - (2 # 1000000))))%Q).
    { intros x Hx. destruct (Hf x Hx) as [_ H]. destruct (H j lo hi Hj HR) as [H1 _]. rewrite (H1 E). ring. }
    split; [exact A|]. intros x Hx. rewrite (A x (HXl x Hx)). destruct (proj1 HR x Hx) as [H1 _]. lra.
Qed.

Lemma made_bounds d gmean score Z_maj W T : gmean_ok d gmean -> rect d (W ++ T) -> Forall (fun z => forall j, j < d -> (0 < nth j z 0)%Q) W ->
  (forall i, i < length T -> exists a, made gmean score Z_maj (W ++ T) (length W + i) a) ->
  forall k, k < length (W ++ T) -> forall j, j < d -> (exists x, In x W /\ (nth j x 0 <= nth j (nth k (W ++ T) []) 0)%Q) /\ (exists x, In x W /\ (nth j (nth k (W ++ T) []) 0 <= nth j x 0)%Q).
Proof.
  intros Hg HR HW H. set (V := W ++ T) in *. intros k. induction k as [k IH] using lt_wf_ind. intros Hk j Hj.
  destruct (Nat.lt_ge_cases k (length W)) as [C|C].
  - assert (In (nth k V []) W) by (unfold V; rewrite app_nth1 by exact C; now apply nth_In). split; exists (nth k V []); split; auto; lra.
  - unfold V in Hk. rewrite app_length in Hk. destruct (H (k - length W) ltac:(lia)) as (a & i & i' & l & q & H1 & H2 & H3 & _ & _ & _ & E & _).
    replace (length W + (k - length W)) with k in * by lia.
    assert (LV : length V = length W + length T) by apply app_length.
    assert (Hlen : forall q', q' < k -> length (nth q' V []) = d) by (intros q' Hq; apply rect_nth; [exact HR|lia]).
    destruct (Hg [nth i V []; nth i' V []; nth l V []]) as [_ G].
    { repeat constructor; apply Hlen; assumption. }
    { discriminate. }
    assert (Hp : forall q', q' < k -> Forall (Qlt 0) (nth q' V [])).
    { intros q' Hq. apply Forall_forall. intros v Hv. apply (In_nth _ _ 0%Q) in Hv. destruct Hv as (j' & Hj' & <-). rewrite (Hlen q' Hq) in Hj'.
      destruct (IH q' Hq ltac:(lia) j' Hj') as [(x & Hx & Hle) _]. rewrite Forall_forall in HW. specialize (HW x Hx j' Hj'). lra. }
    destruct (G ltac:(repeat constructor; apply Hp; assumption) j Hj) as [(x & Hx & Hle) (z & Hz & Hle')]. rewrite <- E in Hle, Hle'.
    assert (Hs : forall v, In v [nth i V []; nth i' V []; nth l V []] -> exists q', q' < k /\ v = nth q' V []) by (intros v [<-|[<-|[<-|[]]]]; eauto).
    destruct (Hs x Hx) as (q1 & Q1 & ->). destruct (Hs z Hz) as (q2 & Q2 & ->).
    destruct (IH q1 Q1 ltac:(lia) j Hj) as [(w & Hw & Lw) _]. destruct (IH q2 Q2 ltac:(lia) j Hj) as [_ (w' & Hw' & Lw')].
    split; [exists w|exists w']; split; auto; lra.
Qed.

Lemma ds_box dist gmean score r D mn mj n f M K S : gmean_ok (d_dim D) gmean -> wf_data (d_X D) (d_dim D) (d_y D) -> inner_scaled (d_dim D) (d_X D) f ->
  ds_spec dist gmean score r D mn mj n f M K S ->
  Forall (fun x => forall j lo hi, j < d_dim D -> attr_range (map (fun i => nth i (rows_with mn (d_X D) (d_y D)) []) K) j lo hi -> (lo <= nth j x 0 /\ nth j x 0 <= hi)%Q) S.
Proof.
  intros Hg Hwf Hf (_ & _ & HK & LS & RS & Zs & HS & HM). set (d := d_dim D) in *. set (X_min := rows_with mn (d_X D) (d_y D)) in *.
  assert (HX : rect d (d_X D)) by apply Hwf. assert (HL : length (d_X D) = length (d_y D)) by apply Hwf.
  set (XK := map (fun i => nth i X_min []) K). assert (IK : forall x, In x XK -> In x (d_X D)).
  { intros x Hx. unfold XK in Hx. apply in_map_iff in Hx. destruct Hx as (i & <- & Hi). apply HK in Hi. apply (select_incl (map (Z.eqb mn) (d_y D))).
    apply nth_In. apply Hi. }
  apply Forall_forall. intros x Hx j lo hi Hj HR. apply (In_nth _ _ []) in Hx. destruct Hx as (i & Hi & <-).
  pose proof (attr_range_nonempty _ _ _ _ HR) as HneK.
  assert (Hne : d_X D <> []). { intros C. rewrite C in IK. destruct XK as [|x l]; [congruence|]. exact (IK x (or_introl eq_refl)). }
  set (W := map f XK). assert (EW : map (fun i => f (nth i X_min [])) K = W) by (unfold W, XK; now rewrite map_map).
  assert (HlX : forall x, In x (d_X D) -> length x = d) by (unfold rect in HX; rewrite Forall_forall in HX; exact HX).
  assert (LZs : length Zs = length S) by (symmetry; exact (Forall2_length _ _ _ HS)).
  assert (LW : length W = length K) by (unfold W, XK; now rewrite !map_length).
  assert (RZ : rect d Zs).
  { clear - HS RS Hf. unfold rect in *. induction HS as [|x z S Zs Hxz HS IH]; constructor; inversion RS; subst; [|now apply IH].
    apply Forall2_length in Hxz. rewrite <- Hxz. now apply (Hf x). }
  assert (RW : rect d (W ++ Zs)).
  { apply Forall_app. split; [|exact RZ]. unfold W. rewrite Forall_map. apply Forall_forall. intros x Hx. apply (Hf x). auto. }
  assert (PW : Forall (fun z => forall j, j < d -> (0 < nth j z 0)%Q) W).
  { unfold W. rewrite Forall_map. apply Forall_forall. intros x Hx j' Hj'. destruct (inner_affine d (d_X D) f j' Hf HX Hne Hj') as (_ & _ & _ & _ & H). auto. }
  rewrite EW in HM. set (ZM := map f _ ++ _) in HM.
  assert (HM' : forall k, k < length Zs -> exists a, made gmean score ZM (W ++ Zs) (length W + k) a).
  { intros k Hk. exists k. rewrite LW. apply HM. lia. }
  destruct (made_bounds d gmean score ZM W Zs Hg RW PW HM' (length W + i) ltac:(rewrite app_length; lia) j Hj) as [(a & Ha & La) (b & Hb & Lb)].
  rewrite app_nth2 in La, Lb by lia. replace (length W + i - length W) with i in La, Lb by lia.
  assert (Hz : (nth j (nth i Zs []) 0 == nth j (f (nth i S [])) 0)%Q).
  { symmetry. apply same_row_nth. clear - HS Hi. revert i Hi. induction HS; intros [|i] Hi; cbn in *; try lia; auto. apply IHHS. lia. }
  unfold W in Ha, Hb. apply in_map_iff in Ha, Hb. destruct Ha as (a0 & <- & Ha), Hb as (b0 & <- & Hb).
  destruct (inner_affine d (d_X D) f j Hf HX Hne Hj) as (s & o & Hs & Aff & _).
  assert (Lx : length (nth i S []) = d) by (apply rect_nth; assumption).
  rewrite Hz, !Aff in La, Lb by auto. destruct (proj1 HR a0 Ha) as [H1 _]. destruct (proj1 HR b0 Hb) as [_ H2]. split; nra.
Qed.

