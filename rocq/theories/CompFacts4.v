(** Proofs about CompModel: SMOTE_D; consequences for polynom_fit_SMOTE. *)

From Coq Require Import List ZArith QArith Qabs Bool Arith Lia Lqa Qround Sorting.Sorted Permutation.
From Verif Require Import Np PyVal NpFacts SimplexModel Spec SpecDanger SpecComp SimplexFacts SimplexGeom Float64
  SamplerModel SamplerFacts OversFacts BaseModel BaseFacts KnnFacts DangerModel DangerFacts ClusterOversModel OversGen
  ClusterOversFacts CompModel CompFacts CompFacts2 CompFacts3.
Import ListNotations.
Open Scope nat_scope.

(** * SMOTE_D *)

Lemma floor_minus c : Qfloor (c - 1) = (Qfloor c - 1)%Z.
Proof.
  pose proof (Qfloor_le c) as A1. pose proof (Qlt_floor c) as A2. pose proof (Qfloor_le (c - 1)) as A3. pose proof (Qlt_floor (c - 1)) as A4.
  rewrite inject_Z_plus in A2, A4. change (inject_Z 1) with 1%Q in A2, A4.
  assert (B1 : (inject_Z (Qfloor (c - 1)) < inject_Z (Qfloor c))%Q) by lra.
  assert (B2 : (inject_Z (Qfloor c) < inject_Z (Qfloor (c - 1) + 2))%Q).
  { rewrite inject_Z_plus. change (inject_Z 2) with 2%Q. lra. }
  rewrite <- Zlt_Qlt in B1, B2. lia.
Qed.
Lemma ceil_minus c : Qceiling (c - 1) = (Qceiling c - 1)%Z.
Proof.
  pose proof (Qle_ceiling c) as A1. pose proof (Qceiling_lt c) as A2. pose proof (Qle_ceiling (c - 1)) as A3. pose proof (Qceiling_lt (c - 1)) as A4.
  unfold Z.sub in A2, A4. rewrite inject_Z_plus in A2, A4. change (inject_Z (-(1))) with (-1)%Q in A2, A4.
  assert (B1 : (inject_Z (Qceiling (c - 1)) < inject_Z (Qceiling c))%Q) by lra.
  assert (B2 : (inject_Z (Qceiling c) < inject_Z (Qceiling (c - 1) + 2))%Q).
  { rewrite inject_Z_plus. change (inject_Z 2) with 2%Q. lra. }
  rewrite <- Zlt_Qlt in B1, B2. lia.
Qed.

Lemma d_loop_spec d b v : length b = d -> length v = d -> forall fuel u c, (forall i, unit_share (u i)) -> (0 <= c)%Q ->
  fuel = Z.to_nat (Qceiling c) -> exists L, d_loop fuel u b v c = Ok L /\ spread d b v c L.
Proof.
  intros Hb Hv. induction fuel as [|f IH]; intros u c Hu Hc Hf; cbn [d_loop].
  - pose proof (Qle_ceiling c) as G. destruct (Qlt_b 0 c) eqn:E.
    + apply Qlt_b_iff in E. exfalso. assert (0 < inject_Z (Qceiling c))%Q by lra. change 0%Q with (inject_Z 0) in H. rewrite <- Zlt_Qlt in H. lia.
    + exists []. split; [reflexivity|]. split; [|cbn; lia]. cbn [length].
      assert (Hc0 : (c == 0)%Q).
      { destruct (Qlt_le_dec 0 c) as [G'|G']; [apply Qlt_b_iff in G'; congruence|lra]. }
      rewrite Hc0. cbn. lia.
  - pose proof (Qle_ceiling c) as G1. pose proof (Qceiling_lt c) as G2.
    assert (Hpos : (0 < c)%Q).
    { apply Qle_lt_trans with (inject_Z (Qceiling c - 1)); [|assumption]. change 0%Q with (inject_Z 0). rewrite <- Zle_Qle. lia. }
    apply Qlt_b_iff in Hpos as Hb1. rewrite Hb1.
    set (pt := vadd b _).
    assert (Hpt : on_segment (fun t => t == 1 / (c - inject_Z (Z.of_nat 0) + 1))%Q d b v pt).
    { apply (move_segment _ _ _ _ _ (1 / (c + 1))%Q); auto.
      - cbv beta. change (inject_Z (Z.of_nat 0)) with 0%Q. assert (E : (c - 0 + 1 == c + 1)%Q) by ring. rewrite E. reflexivity.
      - intros q. field. lra. }
    destruct (Qlt_le_dec c 1) as [C1|C1].
    + assert (Ef : f = 0). { assert (inject_Z (Qceiling c - 1) < inject_Z 1)%Q by (change (inject_Z 1) with 1%Q; lra). rewrite <- Zlt_Qlt in H. lia. }
      subst f. cbn [d_loop]. assert (E : Qlt_b 0 (c - 1) = false).
      { destruct (Qlt_b 0 (c - 1)) eqn:E; [|reflexivity]. apply Qlt_b_iff in E. exfalso; lra. }
      rewrite E. cbn [bind].
      assert (Fl : Qfloor c = 0%Z).
      { pose proof (Qfloor_le c). pose proof (Qlt_floor c). assert (inject_Z (Qfloor c) < inject_Z 1)%Q by (change (inject_Z 1) with 1%Q; lra).
        assert (inject_Z 0 < inject_Z (Qfloor c + 1))%Q by (change (inject_Z 0) with 0%Q; lra). rewrite <- Zlt_Qlt in *. lia. }
      destruct (Qlt_b (u 0) c); eexists; (split; [reflexivity|]); (split; [cbn [length]; lia|]); cbn [length]; intros i Hi; [|lia].
      assert (i = 0) by lia. subst i. split; [change (inject_Z (Z.of_nat 0)) with 0%Q; lra|assumption].
    + destruct (IH (fun i => u (S i)) (c - 1)%Q) as (L & EL & HL1 & HL2); auto; try lra.
      { rewrite ceil_minus. lia. }
      rewrite EL. cbn [bind].
      assert (Ea : Qlt_b (u 0) c = true) by (apply Qlt_b_iff; destruct (Hu 0); lra). rewrite Ea.
      eexists. split; [reflexivity|]. rewrite floor_minus, ceil_minus in HL1. split; [cbn [length]; lia|].
      intros [|i] Hi; [split; [change (inject_Z (Z.of_nat 0)) with 0%Q; lra|assumption]|]. cbn [length nth] in *.
      destruct (HL2 i ltac:(lia)) as [P1 P2].
      assert (E : (c - inject_Z (Z.of_nat (S i)) == c - 1 - inject_Z (Z.of_nat i))%Q).
      { rewrite Nat2Z.inj_succ. unfold Z.succ. rewrite inject_Z_plus. change (inject_Z 1) with 1%Q. ring. }
      split; [rewrite E; assumption|]. destruct P2 as (Q1 & t & Q2 & Q3). split; [assumption|]. exists t. split; [|assumption].
      rewrite E. assumption.
Qed.

(** Shares. *)
Lemma fix_share w i : i < length w -> share_of w i (nth i (fix_density (map Fin w)) 0%Q).
Proof.
  intros Hi. assert (E : map nan_to_num (map Fin w) = w) by (rewrite map_map; cbn; apply map_id).
  split; intros H.
  - pose proof (fix_density_zero (map Fin w)) as Z. rewrite E in Z. specialize (Z H). rewrite map_length in Z.
    rewrite Forall_forall in Z. apply Z, nth_In. rewrite fix_density_length, map_length. assumption.
  - pose proof (fix_density_nonzero (map Fin w)) as Z. rewrite E in Z. rewrite (Z H).
    rewrite (nth_indep _ 0%Q ((fun x => x / qsum w)%Q 0%Q)) by (rewrite map_length; assumption). rewrite (map_nth (fun x => x / qsum w)%Q). reflexivity.
Qed.

Lemma fix_nonneg w : Forall (Qle 0) w -> Forall (Qle 0) (fix_density (map Fin w)).
Proof. intros H. apply fix_density_nonneg. rewrite Forall_map. exact H. Qed.

Lemma nth_nonneg l i : Forall (Qle 0) l -> (0 <= nth i l 0)%Q.
Proof.
  intros H. destruct (Nat.lt_ge_cases i (length l)) as [G|G]; [|rewrite nth_overflow by assumption; apply Qle_refl].
  rewrite Forall_forall in H. now apply H, nth_In.
Qed.

Lemma qsum_map_scale {A} (c : Q) (f : A -> Q) l : (qsum (map (fun x => c * f x) l) == c * qsum (map f l))%Q.
Proof. induction l; cbn; [ring|]. rewrite IHl. ring. Qed.

Lemma qsum_map_ext {A} (f g : A -> Q) l : (forall x, In x l -> (f x == g x)%Q) -> (qsum (map f l) == qsum (map g l))%Q.
Proof. intros H. induction l as [|a l IH]; cbn; [reflexivity|]. rewrite (H a) by now left. rewrite IH; [reflexivity|]. intros; apply H; now right. Qed.

Lemma map_nth_seq {A} (d : A) l : map (fun i => nth i l d) (seq 0 (length l)) = l.
Proof.
  induction l as [|x t IH]; [reflexivity|]. cbn [length seq map nth]. f_equal. rewrite <- seq_shift, map_map. exact IH.
Qed.

Lemma flat_map_bounds {A} (F : A -> list row) (c : A -> Q) l : l <> [] ->
  (forall a, In a l -> (Qfloor (c a) <= Z.of_nat (length (F a)) <= Qceiling (c a))%Z) ->
  (qsum (map c l) - inject_Z (Z.of_nat (length l)) < inject_Z (Z.of_nat (length (flat_map F l))) /\
   inject_Z (Z.of_nat (length (flat_map F l))) < qsum (map c l) + inject_Z (Z.of_nat (length l)))%Q.
Proof.
  intros Hne H.
  assert (B : forall a, In a l -> (c a - 1 < inject_Z (Z.of_nat (length (F a))) /\ inject_Z (Z.of_nat (length (F a))) < c a + 1)%Q).
  { intros a Ha. destruct (H a Ha) as [H1 H2]. rewrite Zle_Qle in H1, H2.
    pose proof (Qlt_floor (c a)) as F1. pose proof (Qceiling_lt (c a)) as F2.
    unfold Z.sub in F2. rewrite inject_Z_plus in F1, F2. change (inject_Z 1) with 1%Q in F1. change (inject_Z (-(1))) with (-1)%Q in F2. split; lra. }
  clear H. induction l as [|a l IH]; [congruence|]. cbn [flat_map map qsum length].
  rewrite app_length, Nat2Z.inj_add, inject_Z_plus. rewrite Nat2Z.inj_succ. unfold Z.succ. rewrite inject_Z_plus. change (inject_Z 1) with 1%Q.
  destruct (B a) as [B1 B2]; [now left|]. destruct l as [|a' l'].
  - cbn [map qsum flat_map length]. change (inject_Z (Z.of_nat 0)) with 0%Q. split; lra.
  - destruct IH as [I1 I2]; [discriminate|intros; apply B; now right|]. split; lra.
Qed.

Lemma smote_d_runs dist std nn p us D mn mj n :
  knn_ok dist nn -> (forall a b, (0 <= dist a b)%Q) -> (forall l, (0 <= std l)%Q) -> (forall a b i, unit_share (us a b i)) ->
  wf_data (d_X D) (d_dim D) (d_y D) -> is_minority (d_y D) mn mj ->
  asked (cp_proportion p) (d_y D) mn mj = Ok n -> 1 <= cp_n_neighbors p ->
  runs D mn n (smote_d_spec dist std p D mn n) (smote_d_sample dist std nn p us D).
Proof.
  intros Hnn Hd0 Hs0 Hus [Hr Hl] Hmin Ha Hk. unfold smote_d_sample, smote_d_algorithm.
  apply (runs_intro _ _ _ _ _ _ _ Hmin Ha). intros st (E1 & E2 & _) H2 Hn. rewrite E1.
  set (X_min := rows_with mn (d_X D) (d_y D)).
  assert (HL : length X_min = count_label (d_y D) mn) by now apply rows_with_length.
  assert (HR : rect (d_dim D) X_min) by now apply rows_with_rect.
  set (k := Nat.min (length X_min) (cp_n_neighbors p + 1)). set (m := length X_min) in *.
  destruct (Hnn X_min X_min k) as (T & ET & HT); [unfold k, m; lia|]. rewrite ET. cbn [bind].
  destruct (nearest_table_shape _ _ _ _ _ HT) as (LT & RT & FT). fold m in LT.
  set (dt := table_dist dist X_min X_min T).
  assert (Hk2 : 2 <= k) by (unfold k; lia).
  assert (Ldt : length dt = m) by (unfold dt, table_dist; rewrite map2_length; lia).
  assert (Hdt : forall b, b < m -> tl (nth b dt []) = dists_of dist X_min T b).
  { intros b Hb. unfold dt, table_dist, dists_of. rewrite (map2_nth _ _ _ _ [] [] []) by lia. now destruct (nth b T []). }
  assert (LTb : forall b, b < m -> length (nth b T []) = k).
  { intros b Hb. unfold rect in RT. rewrite Forall_forall in RT. apply RT, nth_In. lia. }
  assert (Ldo : forall b, b < m -> length (dists_of dist X_min T b) = k - 1).
  { intros b Hb. unfold dists_of. rewrite map_length. specialize (LTb b Hb). destruct (nth b T []); cbn in *; lia. }
  set (stds := map (fun b => std (dists_of dist X_min T b)) (seq 0 m)).
  assert (Est : map (fun t => Fin (std (tl t))) dt = map Fin stds).
  { unfold stds. rewrite <- (map_nth_seq [] dt) at 1. rewrite !map_map, Ldt. apply map_ext_in. intros b Hb. apply in_seq in Hb.
    now rewrite Hdt by lia. }
  assert (Lst : length stds = m) by (unfold stds; now rewrite map_length, seq_length).
  set (c := fun b j => (inject_Z (Z.of_nat (Z.to_nat n)) * nth b (fix_density (map Fin stds)) 0 * nth j (fix_density (map Fin (dists_of dist X_min T b))) 0)%Q).
  assert (Hc0 : forall b j, (0 <= c b j)%Q).
  { intros b j. unfold c. apply Qmult_le_0_compat; [apply Qmult_le_0_compat|].
    - change 0%Q with (inject_Z 0). rewrite <- Zle_Qle. lia.
    - apply nth_nonneg, fix_nonneg. unfold stds. rewrite Forall_map. apply Forall_forall. intros; apply Hs0.
    - apply nth_nonneg, fix_nonneg. unfold dists_of. rewrite Forall_map. apply Forall_forall. intros; apply Hd0. }
  set (cnt := d_counts std (Z.to_nat n) dt).
  assert (Lcnt : length cnt = m).
  { unfold cnt, d_counts. rewrite map2_length, fix_density_length, !map_length. lia. }
  assert (Ecnt : forall b, b < m -> nth b cnt [] = map (c b) (seq 0 (k - 1))).
  { intros b Hb. unfold cnt, d_counts. rewrite Est. rewrite (map2_nth _ _ _ _ 0%Q [] []) by (rewrite ?fix_density_length, ?map_length; lia).
    rewrite (nth_indep _ [] ((fun t => fix_density (map Fin (tl t))) [])) by (rewrite map_length; lia).
    rewrite (map_nth (fun t => fix_density (map Fin (tl t)))), Hdt by assumption.
    pose proof (map_nth_seq 0%Q (fix_density (map Fin (dists_of dist X_min T b)))) as G.
    rewrite fix_density_length, map_length, Ldo in G by assumption. rewrite <- G at 1. rewrite map_map. reflexivity. }
  assert (Hv : forall b j, b < m -> j < k - 1 -> nth (j + 1) (nth b T []) 0 < m).
  { intros b j Hb Hj. rewrite Forall_forall in FT. assert (In (nth b T []) T) by (apply nth_In; lia). specialize (FT _ H).
    rewrite Forall_forall in FT. apply FT, nth_In. rewrite LTb by assumption. lia. }
  assert (Loop : forall b j, b < m -> j < k - 1 -> exists L,
     d_loop (Z.to_nat (Qceiling (c b j))) (us b j) (nth b X_min []) (nth (nth (j + 1) (nth b T []) 0) X_min []) (c b j) = Ok L /\
     spread (d_dim D) (nth b X_min []) (nth (nth (j + 1) (nth b T []) 0) X_min []) (c b j) L).
  { intros b j Hb Hj. apply d_loop_spec; auto; apply rect_nth; auto. }
  set (L := fun b j => match d_loop (Z.to_nat (Qceiling (c b j))) (us b j) (nth b X_min []) (nth (nth (j + 1) (nth b T []) 0) X_min []) (c b j) with Ok l => l | Err _ => [] end).
  assert (HLs : forall b j, b < m -> j < k - 1 ->
     d_loop (Z.to_nat (Qceiling (c b j))) (us b j) (nth b X_min []) (nth (nth (j + 1) (nth b T []) 0) X_min []) (c b j) = Ok (L b j) /\
     spread (d_dim D) (nth b X_min []) (nth (nth (j + 1) (nth b T []) 0) X_min []) (c b j) (L b j)).
  { intros b j Hb Hj. destruct (Loop b j Hb Hj) as (l & E & Sp). unfold L. rewrite E. auto. }
  assert (EG : d_generate us X_min T cnt = Ok (flat_map (fun b => flat_map (L b) (seq 0 (k - 1))) (seq 0 m))).
  { unfold d_generate. fold m.
    assert (E : forall f, (forall b, In b (seq 0 m) -> f b = Ok (flat_map (L b) (seq 0 (k - 1)))) ->
      mapM f (seq 0 m) = Ok (map (fun b => flat_map (L b) (seq 0 (k - 1))) (seq 0 m))).
    { intros f Hf. rewrite <- mapM_pure. now apply mapM_ext_in. }
    rewrite E; [cbn [bind]; now rewrite concat_map_flat|]. intros b Hb. apply in_seq in Hb.
    rewrite (get_nth [] X_min b) by (fold m; lia). cbn [bind]. rewrite (get_nth [] T b) by lia. cbn [bind].
    rewrite (get_nth [] cnt b) by lia. cbn [bind]. rewrite LTb by lia.
    assert (E' : forall f, (forall j, In j (seq 0 (k - 1)) -> f j = Ok (L b j)) -> mapM f (seq 0 (k - 1)) = Ok (map (L b) (seq 0 (k - 1)))).
    { intros f Hf. rewrite <- mapM_pure. now apply mapM_ext_in. }
    rewrite E'; [cbn [bind]; now rewrite concat_map_flat|]. intros j Hj. apply in_seq in Hj.
    rewrite Ecnt by lia. rewrite (get_nth 0%Q) by (rewrite map_length, seq_length; lia). cbn [bind].
    rewrite (nth_indep _ 0%Q (c b 0)) by (rewrite map_length, seq_length; lia). rewrite map_nth, seq_nth by lia. cbn [Nat.add].
    replace (S j) with (j + 1) by lia. rewrite (get_nth 0 (nth b T [])) by (rewrite LTb; lia). cbn [bind].
    rewrite (get_nth [] X_min) by (apply Hv; lia). cbn [bind]. apply HLs; lia. }
  rewrite EG. cbn [bind]. eexists. split; [reflexivity|]. exists T, c, L. fold m k.
  split; [assumption|]. split; [reflexivity|]. split.
  { intros b j Hb Hj. split; [|apply HLs; assumption]. exists (nth b (fix_density (map Fin stds)) 0%Q), (nth j (fix_density (map Fin (dists_of dist X_min T b))) 0%Q).
    split; [change (share_of stds b (nth b (fix_density (map Fin stds)) 0%Q)); apply fix_share; rewrite Lst; assumption|]. split; [apply fix_share; rewrite Ldo by assumption; exact Hj|]. reflexivity. }
  (* the total *)
  set (prs := flat_map (fun b => map (pair b) (seq 0 (k - 1))) (seq 0 m)).
  set (c2 := fun bj : nat * nat => c (fst bj) (snd bj)). set (L2 := fun bj : nat * nat => L (fst bj) (snd bj)).
  assert (Ef : flat_map (fun b => flat_map (L b) (seq 0 (k - 1))) (seq 0 m) = flat_map L2 prs).
  { unfold prs, L2. clearbody L. clear. generalize (seq 0 m) (seq 0 (k - 1)). intros bs js.
    induction bs as [|b bs IH]; [reflexivity|]. cbn [flat_map]. rewrite flat_map_app, IH. f_equal.
    clear IH. induction js as [|j js IH]; [reflexivity|]. cbn [flat_map map fst snd]. now rewrite IH. }
  assert (Lp : length prs = m * (k - 1)).
  { unfold prs. rewrite (flat_map_const_length _ _ (k - 1)); [now rewrite seq_length|]. intros b _. now rewrite map_length, seq_length. }
  assert (Sp : (qsum (map c2 prs) == inject_Z (Z.of_nat (Z.to_nat n)))%Q).
  { assert (S1 : (qsum (map c2 prs) == qsum (map (fun b => inject_Z (Z.of_nat (Z.to_nat n)) * nth b (fix_density (map Fin stds)) 0)%Q (seq 0 m)))%Q).
    { unfold prs. assert (G : forall bs, (forall b, In b bs -> b < m) -> (qsum (map c2 (flat_map (fun b => map (pair b) (seq 0 (k - 1))) bs)) ==
        qsum (map (fun b => inject_Z (Z.of_nat (Z.to_nat n)) * nth b (fix_density (map Fin stds)) 0)%Q bs))%Q).
      { induction bs as [|b bs IH]; intros Hb; [reflexivity|]. cbn [flat_map map qsum]. rewrite map_app, qsum_app, IH by (intros; apply Hb; now right).
        apply Qplus_comp; [|reflexivity]. rewrite map_map. unfold c2. cbn [fst snd]. unfold c.
        rewrite (qsum_map_scale (inject_Z (Z.of_nat (Z.to_nat n)) * nth b (fix_density (map Fin stds)) 0)%Q).
        assert (Lf : length (fix_density (map Fin (dists_of dist X_min T b))) = k - 1).
        { rewrite fix_density_length, map_length. apply Ldo, Hb. now left. }
        rewrite <- Lf, map_nth_seq. rewrite fix_density_sum; [ring|]. intros E. apply (f_equal (@length _)) in E. rewrite map_length, Ldo in E by (apply Hb; now left).
        cbn in E. lia. }
      apply G. intros b Hb. apply in_seq in Hb. lia. }
    rewrite S1, qsum_map_scale. assert (Lf : length (fix_density (map Fin stds)) = m) by (rewrite fix_density_length, map_length; assumption).
    rewrite <- Lf, map_nth_seq, fix_density_sum; [ring|]. intros E. apply (f_equal (@length _)) in E. rewrite map_length, Lst in E. cbn in E. lia. }
  rewrite Ef. destruct (flat_map_bounds L2 c2 prs) as [B1 B2].
  { apply nonempty_length. rewrite Lp. nia. }
  { intros [b j] Hbj. unfold prs in Hbj. apply in_flat_map in Hbj as (b' & Hb & Hj). apply in_map_iff in Hj as (j' & E & Hj). injection E as -> ->.
    apply in_seq in Hb, Hj. apply (HLs b j); lia. }
  fold m in Lp. rewrite Sp, Lp in B1, B2. unfold Qminus in B1. rewrite <- inject_Z_opp, <- inject_Z_plus, <- Zlt_Qlt in B1. rewrite <- inject_Z_plus, <- Zlt_Qlt in B2. change (Z.abs (Z.of_nat (length (flat_map L2 prs)) - n) < Z.of_nat (m * (k - 1)))%Z. lia.
Qed.

Lemma spread_hull d b v c L P : In b P -> In v P -> spread d b v c L -> Forall (in_hull d P) L.
Proof.
  intros Hb Hv (_ & H). apply Forall_forall. intros x Hx. apply (In_nth _ _ []) in Hx as (i & Hi & <-).
  destruct (H i Hi) as [Hc Hs]. eapply on_segment_hull; [|exact Hb|exact Hv|exact Hs].
  intros t Ht. cbv beta in Ht. rewrite Ht. split; [apply Qdiv_nonneg; lra|]. apply Qle_shift_div_r; lra.
Qed.

Lemma smote_d_hull dist std p D mn n S : wf_data (d_X D) (d_dim D) (d_y D) -> smote_d_spec dist std p D mn n S ->
  Forall (in_hull (d_dim D) (rows_with mn (d_X D) (d_y D))) S.
Proof.
  intros [Hr Hl] (T & c & L & HT & -> & H & _). destruct (nearest_table_shape _ _ _ _ _ HT) as (LT & RT & FT).
  apply Forall_forall. intros x Hx. apply in_flat_map in Hx as (b & Hb & Hx). apply in_flat_map in Hx as (j & Hj & Hx).
  apply in_seq in Hb, Hj. destruct (H b j) as [_ Hs]; [lia|lia|].
  assert (F : Forall (in_hull (d_dim D) (rows_with mn (d_X D) (d_y D))) (L b j)).
  { eapply spread_hull; [| |exact Hs]; apply nth_In; [lia|].
    rewrite Forall_forall in FT. assert (Hin : In (nth b T []) T) by (apply nth_In; lia). specialize (FT _ Hin). rewrite Forall_forall in FT.
    apply FT, nth_In. unfold rect in RT. rewrite Forall_forall in RT. rewrite (RT _ Hin). lia. }
  rewrite Forall_forall in F. now apply F.
Qed.

(** * polynom_fit_SMOTE: counts and hull *)

Lemma rounded_ratio_count n m k : 0 < m -> rounded_ratio n m k ->
  (2 * Z.abs (Z.of_nat (m * k) - Z.of_nat n) <= Z.of_nat m)%Z \/ (k = 1 /\ 2 * n <= m).
Proof.
  intros Hm (r & -> & H & _). destruct r as [|r].
  - right. split; [reflexivity|]. lia.
  - left. replace (Nat.max 1 (S r)) with (S r) by lia. lia.
Qed.

Lemma poly_count top D mn n S : length (rows_with mn (d_X D) (d_y D)) = count_label (d_y D) mn -> poly_spec top D mn n S ->
  exists k, rounded_ratio (Z.to_nat n) (count_label (d_y D) mn) k /\
    length S = match top with Star => k * count_label (d_y D) mn | Bus => k * (count_label (d_y D) mn - 1) end.
Proof.
  intros HL (k & Hk & H). rewrite HL in *. exists k. split; [assumption|]. destruct top.
  - destruct H as (c & _ & _ & H & _). now rewrite HL in H.
  - destruct H as [H _]. rewrite firstn_length, HL in H. rewrite H. f_equal. lia.
Qed.

Lemma divides_hull d k bases target S P : 0 < k -> incl bases P -> (forall a, a < length bases -> in_hull d P (target a)) ->
  rect d bases -> divides d k bases target S -> Forall (in_hull d P) S.
Proof.
  intros Hk Hb Ht HR (HL & H). apply Forall_forall. intros x Hx. apply (In_nth _ _ []) in Hx as (i & Hi & <-).
  rewrite HL in Hi. assert (Ha : i / k < length bases) by (apply Nat.div_lt_upper_bound; lia).
  pose proof (Nat.mod_upper_bound i k ltac:(lia)) as Hm. pose proof (H (i / k) (i mod k) Ha Hm) as G.
  replace (i / k * k + i mod k) with i in G by (rewrite (Nat.div_mod i k) at 1 by lia; lia).
  destruct G as (G1 & t & G2 & G3). cbv beta in G2.
  assert (T : (0 <= t /\ t <= 1)%Q).
  { rewrite G2. split; [apply Qdiv_nonneg; [apply Qlt_le_weak|]; apply inj_pos; lia|].
    apply Qle_shift_div_r; [apply inj_pos; lia|]. rewrite Qmult_1_l, <- Zle_Qle. lia. }
  apply (in_hull_trans d P [nth (i / k) bases []; target (i / k)]).
  - intros q [<-|[<-|[]]]; [|now apply Ht]. apply in_hull_base; [apply Hb, nth_In; assumption|]. now apply rect_nth.
  - split; [assumption|]. exists [1 - t; t]%Q. split; [reflexivity|].
    split; [repeat constructor; lra|]. split; [cbn; ring|]. intros j Hj. rewrite (G3 j Hj). cbn. ring.
Qed.

Lemma poly_hull top D mn n S : wf_data (d_X D) (d_dim D) (d_y D) -> poly_spec top D mn n S ->
  Forall (in_hull (d_dim D) (rows_with mn (d_X D) (d_y D))) S.
Proof.
  intros [Hr Hl] (k & (r & Hk & _) & H). set (X_min := rows_with mn (d_X D) (d_y D)) in *.
  assert (HR : rect (d_dim D) X_min) by now apply rows_with_rect.
  destruct top.
  - destruct H as (c & Lc & Hc & H). eapply divides_hull; [| | | |exact H]; [lia|apply incl_refl| |assumption].
    intros a0 Ha. assert (Hne : X_min <> []) by (apply nonempty_length; lia).
    destruct (mean_row_spec (d_dim D) X_min Hne HR) as (c' & Ec & Lc' & ws & W1 & W2 & W3 & W4).
    exists X_min. split; [apply incl_refl|]. split; [assumption|]. exists ws. repeat split; auto. intros j Hj. rewrite <- (W4 j Hj).
    rewrite (Hc j Hj). unfold mean_row in Ec. pose proof (ClusterOversFacts.mapM_nth _ _ _ 0 0%Q j Ec) as Q. cbv beta in Q. rewrite seq_length in Q. specialize (Q Hj).
    rewrite seq_nth in Q by assumption. cbn [Nat.add] in Q. unfold qmean in Q.
    assert (Lcol : length (column j X_min) = length X_min) by apply map_length.
    destruct (column j X_min) as [|q0 col] eqn:Ecol; [discriminate|]. rewrite <- Ecol in *. rewrite Lcol in Q.
    assert (Q' : nth j c' 0%Q = (qsum (column j X_min) / inject_Z (Z.of_nat (length X_min)))%Q) by congruence.
    rewrite Q'. reflexivity.
  - eapply divides_hull; [| | | |exact H]; [lia| | |].
    + intros x Hx. rewrite <- (firstn_skipn (length X_min - 1) X_min). apply in_or_app. now left.
    + rewrite firstn_length. intros a Ha. apply in_hull_base; [apply nth_In; lia|]. apply rect_nth; [assumption|lia].
    + unfold rect in *. rewrite Forall_forall in *. intros x Hx. apply HR. rewrite <- (firstn_skipn (length X_min - 1) X_min). apply in_or_app. now left.
Qed.
