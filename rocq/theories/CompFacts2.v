(** Proofs about CompModel: Selected_SMOTE, SMOTE_OUT, SMOTE_Cosine. *)

From Coq Require Import List ZArith QArith Bool Arith Lia Lqa Qround Sorting.Sorted Permutation.
From Verif Require Import Np NpFacts SimplexModel Spec SpecDanger SpecComp SimplexFacts SimplexGeom Float64
  SamplerModel SamplerFacts OversFacts BaseModel KnnFacts DangerModel DangerFacts ClusterOversModel OversGen
  ClusterOversFacts CompModel CompFacts.
Import ListNotations.
Open Scope nat_scope.

(** * Selected_SMOTE *)

Lemma q_min_le a b : (q_min a b <= a /\ q_min a b <= b)%Q.
Proof.
  unfold q_min. destruct (Qle_bool a b) eqn:E; [apply Qle_bool_iff in E; lra|].
  assert (~ (a <= b)%Q) by (intros G; apply Qle_bool_iff in G; congruence). lra.
Qed.
Lemma q_max_ge a b : (a <= q_max a b /\ b <= q_max a b)%Q.
Proof.
  unfold q_max. destruct (Qle_bool a b) eqn:E; [apply Qle_bool_iff in E; lra|].
  assert (~ (a <= b)%Q) by (intros G; apply Qle_bool_iff in G; congruence). lra.
Qed.
Lemma q_min_or a b : q_min a b = a \/ q_min a b = b.
Proof. unfold q_min. destruct (Qle_bool a b); auto. Qed.
Lemma q_max_or a b : q_max a b = a \/ q_max a b = b.
Proof. unfold q_max. destruct (Qle_bool a b); auto. Qed.

Lemma fold_min_spec l q : (fold_left q_min l q <= q)%Q /\ (forall x, In x l -> (fold_left q_min l q <= x)%Q) /\
  (fold_left q_min l q = q \/ In (fold_left q_min l q) l).
Proof.
  revert q. induction l as [|a l IH]; intros q; cbn; [repeat split; auto; try lra; tauto|].
  destruct (IH (q_min q a)) as (H1 & H2 & H3). destruct (q_min_le q a) as [M1 M2]. split; [lra|]. split.
  - intros x [<-|Hx]; [lra|auto].
  - destruct H3 as [H3|H3]; [|auto]. rewrite H3. destruct (q_min_or q a) as [->| ->]; auto.
Qed.
Lemma fold_max_spec l q : (q <= fold_left q_max l q)%Q /\ (forall x, In x l -> (x <= fold_left q_max l q)%Q) /\
  (fold_left q_max l q = q \/ In (fold_left q_max l q) l).
Proof.
  revert q. induction l as [|a l IH]; intros q; cbn; [repeat split; auto; try lra; tauto|].
  destruct (IH (q_max q a)) as (H1 & H2 & H3). destruct (q_max_ge q a) as [M1 M2]. split; [lra|]. split.
  - intros x [<-|Hx]; [lra|auto].
  - destruct H3 as [H3|H3]; [|auto]. rewrite H3. destruct (q_max_or q a) as [->| ->]; auto.
Qed.

Lemma col_min_spec c : c <> [] -> In (col_min c) c /\ forall x, In x c -> (col_min c <= x)%Q.
Proof.
  intros H. unfold col_min. destruct (fold_min_spec c (hd 0 c)%Q) as (_ & H2 & H3). split; [|assumption].
  destruct H3 as [->|H3]; [|assumption]. destruct c; [congruence|now left].
Qed.
Lemma col_max_spec c : c <> [] -> In (col_max c) c /\ forall x, In x c -> (x <= col_max c)%Q.
Proof.
  intros H. unfold col_max. destruct (fold_max_spec c (hd 0 c)%Q) as (_ & H2 & H3). split; [|assumption].
  destruct H3 as [->|H3]; [|assumption]. destruct c; [congruence|now left].
Qed.

Lemma column_range P j : P <> [] -> attr_range P j (col_min (column j P)) (col_max (column j P)).
Proof.
  intros H. assert (Hc : column j P <> []) by (destruct P; [congruence|discriminate]).
  destruct (col_min_spec _ Hc) as [I1 B1]. destruct (col_max_spec _ Hc) as [I2 B2].
  assert (In' : forall x, In x P -> In (nth j x 0%Q) (column j P)) by (intros x Hx; exact (in_map (fun x => nth j x 0%Q) _ _ Hx)).
  split; [intros x Hx; split; auto|]. split.
  - apply in_map_iff in I1 as (x & E & Hx). exists x. split; [assumption|]. rewrite E. reflexivity.
  - apply in_map_iff in I2 as (x & E & Hx). exists x. split; [assumption|]. rewrite E. reflexivity.
Qed.

Lemma overlap_percentage_spec X_min X_maj j : X_min <> [] -> X_maj <> [] ->
  covered_share X_min X_maj j (overlap_percentage (column j X_min) (column j X_maj)).
Proof.
  intros H1 H2. unfold covered_share, overlap_percentage.
  pose proof (column_range X_min j H1) as R1. pose proof (column_range X_maj j H2) as R2.
  set (a := col_min (column j X_min)) in *. set (b := col_max (column j X_min)) in *.
  set (c := col_min (column j X_maj)) in *. set (d := col_max (column j X_maj)) in *.
  exists a, b, c, d, (if Qlt_b (q_min b d - q_max a c) 0 then 0%Q else (q_min b d - q_max a c)%Q).
  split; [assumption|]. split; [assumption|]. split.
  - intros lo hi Hlo Hhi L1 L2 L3 L4.
    assert (Elo : (lo == q_max a c)%Q).
    { destruct (q_max_ge a c). destruct (q_max_or a c) as [E|E]; rewrite E in *; destruct Hlo; lra. }
    assert (Ehi : (hi == q_min b d)%Q).
    { destruct (q_min_le b d). destruct (q_min_or b d) as [E|E]; rewrite E in *; destruct Hhi; lra. }
    split; intros Hc.
    + destruct (Qlt_b _ 0) eqn:E; [|lra]. unfold Qlt_b in E. apply negb_true_iff in E.
      assert (~ (0 <= q_min b d - q_max a c)%Q) by (intros G; apply Qle_bool_iff in G; congruence). lra.
    + destruct (Qlt_b _ 0) eqn:E; [reflexivity|]. unfold Qlt_b in E. apply negb_false_iff, Qle_bool_iff in E. lra.
  - destruct (Qeq_bool (b - a) 0) eqn:E.
    + apply Qeq_bool_iff in E. split; intros; [assumption|exfalso; lra].
    + assert (G : ~ (b - a == 0)%Q) by (intros G; apply Qeq_bool_iff in G; congruence). split; intros Hab; [exfalso; lra|]. reflexivity.
Qed.

Lemma covered_share_unique X_min X_maj j r r' : covered_share X_min X_maj j r -> covered_share X_min X_maj j r' -> (r == r')%Q.
Proof.
  assert (RU : forall P a b a' b', attr_range P j a b -> attr_range P j a' b' -> (a == a' /\ b == b')%Q).
  { intros P a b a' b' (B & (x & Hx & Ex) & (z & Hz & Ez)) (B' & (x' & Hx' & Ex') & (z' & Hz' & Ez')).
    pose proof (B _ Hx'). pose proof (B _ Hz'). pose proof (B' _ Hx). pose proof (B' _ Hz). lra. }
  intros (a & b & c & d & o & A1 & A2 & A3 & A4 & A5) (a' & b' & c' & d' & o' & B1 & B2 & B3 & B4 & B5).
  destruct (RU _ _ _ _ _ A1 B1) as [Ea Eb]. destruct (RU _ _ _ _ _ A2 B2) as [Ec Ed].
  destruct (Qeq_dec a b) as [E|E].
  - rewrite (A4 E), (B4 ltac:(lra)). reflexivity.
  - rewrite (A5 E), (B5 ltac:(intros G; apply E; lra)).
    assert (Eo : (o == o')%Q).
    { set (lo := q_max a c). set (hi := q_min b d).
      assert (Hlo : (lo == a \/ lo == c)%Q) by (unfold lo; destruct (q_max_or a c) as [->| ->]; [left|right]; reflexivity).
      assert (Hhi : (hi == b \/ hi == d)%Q) by (unfold hi; destruct (q_min_or b d) as [->| ->]; [left|right]; reflexivity).
      destruct (q_max_ge a c) as [L1 L2]. destruct (q_min_le b d) as [L3 L4]. fold lo in L1, L2. fold hi in L3, L4.
      destruct (A3 lo hi Hlo Hhi L1 L2 L3 L4) as [X1 X2].
      assert (Y : (lo <= hi -> o' == hi - lo)%Q /\ (hi < lo -> o' == 0)%Q).
      { apply B3; destruct Hlo; destruct Hhi; lra. }
      destruct Y as [Y1 Y2].
      destruct (Qlt_le_dec hi lo) as [G|G]; [rewrite (X2 G), (Y2 G)|rewrite (X1 G), (Y1 G)]; reflexivity. }
    rewrite Eo. assert (Eba : (b - a == b' - a')%Q) by lra. rewrite Eba. reflexivity.
Qed.

Lemma rint_spec q : (Qabs.Qabs (q - inject_Z (rint q)) <= 1 # 2)%Q.
Proof.
  unfold rint. pose proof (Qfloor_le q) as F1. pose proof (Qlt_floor q) as F2. rewrite inject_Z_plus in F2.
  change (inject_Z 1) with 1%Q in F2. apply Qabs.Qabs_Qle_condition.
  destruct (q - inject_Z (Qfloor q) ?= 1 # 2)%Q eqn:E.
  - apply Qeq_alt in E. destruct (Z.even (Qfloor q)); [lra|]. rewrite inject_Z_plus. change (inject_Z 1) with 1%Q. lra.
  - apply Qlt_alt in E. lra.
  - apply Qgt_alt in E. rewrite inject_Z_plus. change (inject_Z 1) with 1%Q. lra.
Qed.

Lemma rint_zero_iff q : (0 <= q)%Q -> (rint q <= 0)%Z <-> (q <= 1 # 2)%Q.
Proof.
  intros H. unfold rint. pose proof (Qfloor_le q) as F1. pose proof (Qlt_floor q) as F2. rewrite inject_Z_plus in F2.
  change (inject_Z 1) with 1%Q in F2.
  assert (F0 : (0 <= Qfloor q)%Z).
  { apply Z.le_trans with (Qfloor 0); [reflexivity|]. now apply Qfloor_resp_le. }
  assert (D : Qfloor q = 0%Z \/ (1 <= Qfloor q)%Z) by lia. destruct D as [D|D].
  - rewrite D in *. change (inject_Z 0) with 0%Q in *.
    destruct (q - 0 ?= 1 # 2)%Q eqn:E; [apply Qeq_alt in E|apply Qlt_alt in E|apply Qgt_alt in E];
      cbn [Z.even]; split; intros; try lia; try lra; exfalso; try lia; lra.
  - assert (G : (1 <= q)%Q). { apply Qle_trans with (inject_Z (Qfloor q)); [|assumption]. change 1%Q with (inject_Z 1). rewrite <- Zle_Qle. assumption. }
    split; intros G'; [|exfalso; lra]. exfalso. destruct (q - _ ?= _)%Q; [destruct (Z.even _)| |]; lia.
Qed.

Lemma sorted_Q l : StronglySorted Qle (sort_by Qle_bool l).
Proof.
  assert (Hs : StronglySorted (fun a b => Qle_bool a b = true) (sort_by Qle_bool l)).
  { apply (sort_by_sorted Qle_bool).
    - intros a b. destruct (Qle_bool a b) eqn:E; [auto|]. right. apply Qle_bool_iff.
      assert (~ (a <= b)%Q) by (intros G; apply Qle_bool_iff in G; congruence). lra.
    - intros a b c H1 H2. apply Qle_bool_iff in H1, H2. apply Qle_bool_iff. lra. }
  induction Hs; constructor; [assumption|]. eapply Forall_impl; [|eassumption]. intros x Hx. now apply Qle_bool_iff.
Qed.

Lemma sorted_last l x y : StronglySorted Qle (l ++ [x]) -> In y (l ++ [x]) -> (y <= x)%Q.
Proof.
  induction l as [|a l IH]; cbn; intros H Hy.
  - destruct Hy as [<-|[]]. apply Qle_refl.
  - inversion H; subst. destruct Hy as [<-|Hy]; [|auto]. rewrite Forall_forall in H3. apply H3, in_or_app. right. now left.
Qed.

(** The threshold: the largest share, or the smallest when the count rounds to 0. *)
Lemma significant_spec perc dim X_min X_maj : (0 <= perc)%Q -> 1 <= dim -> X_min <> [] -> X_maj <> [] ->
  exists sign, significant_attributes perc dim X_min X_maj = Ok sign /\ length sign = dim /\
    forall j, j < dim -> (nth j sign 0%Q = 1%Q /\ varies perc X_min X_maj dim j) \/
                         (nth j sign 0%Q = 0%Q /\ ~ varies perc X_min X_maj dim j).
Proof.
  intros Hp Hd H1 H2. unfold significant_attributes. rewrite map_length, seq_length.
  set (pc := fun j => overlap_percentage (column j X_min) (column j X_maj)).
  set (ps := map pc (seq 0 dim)).
  assert (Lps : length ps = dim) by (unfold ps; now rewrite map_length, seq_length).
  assert (PC : forall j, covered_share X_min X_maj j (pc j)) by (intros j; now apply overlap_percentage_spec).
  assert (Hin : forall x, In x ps <-> exists j, j < dim /\ x = pc j).
  { intros x. unfold ps. rewrite in_map_iff. split; intros (j & A & B).
    - exists j. apply in_seq in B. split; [lia|congruence].
    - exists j. split; [congruence|]. apply in_seq. lia. }
  assert (Hnth : forall j, j < dim -> nth j ps 0%Q = pc j).
  { intros j Hj. unfold ps. rewrite (nth_indep _ 0%Q (pc 0)) by (rewrite map_length, seq_length; lia).
    rewrite map_nth, seq_nth by lia. reflexivity. }
  assert (Hq : (0 <= perc * inject_Z (Z.of_nat dim))%Q).
  { apply Qmult_le_0_compat; [assumption|]. change 0%Q with (inject_Z 0). rewrite <- Zle_Qle. lia. }
  pose proof (rint_zero_iff _ Hq) as RZ. set (tmp := rint (perc * inject_Z (Z.of_nat dim))) in *.
  assert (Hs0 : (0 <= tmp)%Z).
  { unfold tmp, rint. assert (F0 : (0 <= Qfloor (perc * inject_Z (Z.of_nat dim)))%Z).
    { apply Z.le_trans with (Qfloor 0); [reflexivity|]. now apply Qfloor_resp_le. }
    destruct (_ ?= _)%Q; [destruct (Z.even _)| |]; lia. }
  assert (Hperm : forall x, In x (sort_by Qle_bool ps) <-> In x ps) by (intros x; apply (sort_by_in Qle_bool)).
  assert (Ls : length (sort_by Qle_bool ps) = dim) by (rewrite (sort_by_length Qle_bool); assumption).
  pose proof (sorted_Q ps) as Ss. set (s := sort_by Qle_bool ps) in *.
  assert (Thr : exists th, from_end s (Z.min 1 tmp) = Ok th /\
      forall j, j < dim -> (Qle_bool th (pc j) = true <-> varies perc X_min X_maj dim j)).
  { destruct (Z.eq_dec tmp 0) as [Ez|Ez].
    - rewrite Ez. cbn [Z.min]. unfold from_end. replace (Z.min 1 0 =? 1)%Z with false by reflexivity.
      change (Z.to_nat (- Z.min 1 0)) with 0. destruct s as [|th s'] eqn:Es; [cbn in Ls; lia|]. exists th. split; [reflexivity|].
      intros j Hj. rewrite Qle_bool_iff. split; intros _; [left; apply RZ; lia|].
      assert (G : In (pc j) (th :: s')) by (apply Hperm, Hin; eauto).
      apply StronglySorted_inv in Ss as [_ H4]. destruct G as [G|G]; [rewrite G; apply Qle_refl|]. rewrite Forall_forall in H4. now apply H4.
    - replace (Z.min 1 tmp) with 1%Z by lia. unfold from_end. cbn [Z.eqb Pos.eqb].
      destruct (rev s) as [|th rs] eqn:Er.
      { apply (f_equal (@length Q)) in Er. rewrite rev_length in Er. cbn in Er. lia. }
      exists th. split; [reflexivity|]. intros j Hj. rewrite Qle_bool_iff.
      assert (Es : s = rev rs ++ [th]) by (rewrite <- (rev_involutive s), Er; reflexivity).
      assert (Max : forall j', j' < dim -> (pc j' <= th)%Q).
      { intros j' Hj'. eapply sorted_last with (l := rev rs); rewrite <- Es; [assumption|]. apply Hperm, Hin. eauto. }
      assert (Att : exists j0, j0 < dim /\ th = pc j0).
      { apply Hin, Hperm. rewrite Es. apply in_or_app. right. now left. }
      destruct Att as (j0 & Hj0 & E0). split.
      + intros G. right. intros j' r r' Hj' C1 C2. rewrite (covered_share_unique _ _ _ _ _ C1 (PC j)).
        rewrite (covered_share_unique _ _ _ _ _ C2 (PC j')). specialize (Max _ Hj'). lra.
      + intros [G|G]; [exfalso; apply RZ in G; lia|]. rewrite E0. exact (G j0 _ _ Hj0 (PC j) (PC j0)). }
  destruct Thr as (th & -> & HT). cbn [bind]. eexists. split; [reflexivity|]. split; [now rewrite map_length|].
  intros j Hj. rewrite (nth_indep _ 0%Q ((fun x => if Qle_bool th x then 1 else 0)%Q 0%Q)) by (rewrite map_length; lia).
  rewrite (map_nth (fun x => if Qle_bool th x then 1 else 0)%Q), Hnth by assumption. specialize (HT j Hj).
  destruct (Qle_bool th (pc j)); [left|right]; (split; [reflexivity|]); [now apply HT|]. intros G. apply HT in G. discriminate.
Qed.

Lemma nonempty_length {A} (l : list A) : 0 < length l -> l <> [].
Proof. destruct l; cbn; [lia|discriminate]. Qed.

Lemma selected_runs dist nn p rs D mn mj n :
  knn_ok dist nn -> rngs_ok rs -> wf_data (d_X D) (d_dim D) (d_y D) -> is_minority (d_y D) mn mj ->
  asked (sl_proportion p) (d_y D) mn mj = Ok n -> 1 <= sl_n_neighbors p -> (0 <= sl_perc_sign_attr p)%Q -> 1 <= d_dim D ->
  runs D mn n (selected_spec dist p D mn mj n) (selected_sample nn p rs D).
Proof.
  intros Hnn Hrs [Hr Hl] Hmin Ha Hk Hp Hd. unfold selected_sample, selected_algorithm.
  apply (runs_intro _ _ _ _ _ _ _ Hmin Ha). intros st (E1 & E2 & _) H2 Hn. rewrite E1, E2.
  set (X_min := rows_with mn (d_X D) (d_y D)). set (X_maj := rows_with mj (d_X D) (d_y D)).
  assert (HL : length X_min = count_label (d_y D) mn) by now apply rows_with_length.
  assert (HL2 : length X_maj = count_label (d_y D) mj) by now apply rows_with_length.
  destruct (two_labels_pos _ _ _ (proj1 Hmin)) as [P1 P2].
  assert (HR : rect (d_dim D) X_min) by now apply rows_with_rect.
  set (k := Nat.min (length X_min) (sl_n_neighbors p + 1)).
  destruct (Hnn X_min X_min k) as (T & ET & HT); [unfold k; lia|]. rewrite ET. cbn [bind].
  destruct (significant_spec (sl_perc_sign_attr p) (d_dim D) X_min X_maj Hp Hd) as (sign & -> & LS & HS);
    [apply nonempty_length; lia..|]. cbn [bind].
  destruct (choice_range_ok (rs 0) (length X_min) (Z.to_nat n) (Hrs 0)) as (base & -> & B1 & B2); [lia|]. cbn [bind].
  destruct (choice_from1_ok (rs 1) k (Z.to_nat n) (Hrs 1)) as (c1 & -> & C1 & C2); [unfold k; lia|]. cbn [bind].
  edestruct (mapM_draws (selected_row X_min T sign)
    (combine base (combine c1 (r_unif (rs 2) (Z.to_nat n) (d_dim D)))) (Z.to_nat n)
    (fun x => exists b i, listed T b i /\
      selected_point (varies (sl_perc_sign_attr p) X_min X_maj (d_dim D)) (d_dim D)
        (nth b X_min []) (nth i X_min []) x)) as (S & ES & LnS & FS).
  { rewrite !combine_length, !unif_length by apply Hrs. lia. }
  { intros (b & c & u) Hd'.
    apply in_combine in Hd' as [Hb Hd']. apply in_combine in Hd' as [Hc Hu].
    rewrite Forall_forall in B2, C2. specialize (B2 _ Hb). specialize (C2 _ Hc).
    destruct (unif_in _ _ _ _ (Hrs 2) Hu) as [U V].
    destruct (entry_listed _ _ _ _ _ b c HT B2 C2) as (i & Ei & L1 & I1).
    unfold selected_row. rewrite Ei. cbn [bind]. rewrite (get_nth [] X_min b) by assumption. cbn [bind].
    rewrite (get_nth [] X_min i) by assumption. cbn [bind].
    pose proof (rect_nth _ _ _ HR B2) as D0. pose proof (rect_nth _ _ _ HR I1) as D1.
    eexists. split; [reflexivity|]. exists b, i. split; [assumption|].
    split; [rewrite vadd_length, !map2_length, vsub_length; lia|]. intros j Hj.
    rewrite vadd_nth by (rewrite ?map2_length, ?vsub_length; lia).
    rewrite (map2_nth _ _ _ _ 0%Q 0%Q 0%Q) by (rewrite ?map2_length, ?vsub_length; lia).
    rewrite (map2_nth _ _ _ _ 0%Q 0%Q 0%Q) by (rewrite ?vsub_length; lia). rewrite vsub_nth by lia.
    destruct (HS j Hj) as [[E G]|[E G]]; rewrite E; split; intros G'; try tauto.
    - exists (nth j u 0%Q). split; [rewrite Forall_forall in V; apply V, nth_In; lia|]. ring.
    - ring. }
  exists S. rewrite ES. cbn [bind]. split; [reflexivity|]. split; [assumption|]. exists T. split; assumption.
Qed.

(** * SMOTE_OUT *)

Lemma out_point_spec d u v x a b : length u = d -> length v = d -> length x = d -> length a = d -> length b = d ->
  Forall unit_share a -> Forall unit_share b -> out_sample d u v x (out_point u v x a b).
Proof.
  intros Hu Hv Hx Ha Hb Fa Fb. unfold out_point. split.
  { rewrite !vadd_length, !map2_length, !vsub_length, !map_length, !vadd_length, !map2_length, !vsub_length, !map_length. lia. }
  intros j Hj. exists (nth j a 0%Q), (nth j b 0%Q). rewrite Forall_forall in Fa, Fb.
  split; [apply Fa, nth_In; lia|]. split; [apply Fb, nth_In; lia|].
  assert (M : forall c l, length l = d -> nth j (map (fun t => t * c)%Q l) 0%Q = (nth j l 0 * c)%Q).
  { intros c l Hl. rewrite (nth_indep _ 0%Q ((fun t => t * c)%Q 0%Q)) by (rewrite map_length; lia).
    now rewrite (map_nth (fun t => t * c)%Q). }
  rewrite vadd_nth by (rewrite ?map2_length, ?vsub_length, ?vadd_length, ?map_length, ?map2_length, ?vsub_length, ?map_length; lia).
  rewrite (map2_nth _ _ _ _ 0%Q 0%Q 0%Q) by (rewrite ?vsub_length, ?vadd_length, ?map2_length, ?vsub_length, ?map_length; lia).
  rewrite vsub_nth by (rewrite ?vadd_length, ?map2_length, ?vsub_length, ?map_length; lia).
  rewrite vadd_nth by (rewrite ?map2_length, ?vsub_length, ?map_length; lia).
  rewrite (map2_nth _ _ _ _ 0%Q 0%Q 0%Q) by (rewrite ?vsub_length, ?map_length; lia).
  rewrite vsub_nth by lia. rewrite !M by assumption. field.
Qed.

(** Consequence: the coordinate stays inside the span of [x] and [u] stretched by
    0.15 of the difference of [u] and [v]. *)
Lemma out_sample_bound d u v x z j lo hi : out_sample d u v x z -> j < d ->
  (lo <= nth j u 0 <= hi)%Q -> (lo <= nth j x 0 <= hi)%Q ->
  let e := ((3 # 20) * Qabs.Qabs (nth j u 0 - nth j v 0))%Q in
  (lo - e <= nth j z 0 <= hi + e)%Q.
Proof.
  intros (_ & H) Hj Hu Hx e. destruct (H j Hj) as (s & t & [S0 S1] & [T0 T1] & E). rewrite E. subst e.
  set (U := nth j u 0%Q) in *. set (V := nth j v 0%Q) in *. set (W := nth j x 0%Q) in *.
  assert (A1 : (- Qabs.Qabs (U - V) <= U - V <= Qabs.Qabs (U - V))%Q)
    by (apply Qabs.Qabs_Qle_condition; apply Qle_refl).
  set (A := Qabs.Qabs (U - V)) in *. pose proof (Qabs.Qabs_nonneg (U - V)) as A0. fold A in A0.
  assert (B : (- A <= s * (U - V) <= A)%Q) by (split; nra).
  set (w := (s * (U - V))%Q) in *.
  assert (C : ((1 - t / 2) * W + (t / 2) * U + (t / 2) * (3 # 10) * w == W + t / 2 * (U + (3 # 10) * s * (U - V) - W))%Q)
    by (unfold w; field).
  rewrite <- C. assert (T2 : (0 <= t / 2 <= 1 # 2)%Q) by (unfold Qdiv; change (/ 2)%Q with (1 # 2)%Q; split; lra). set (h := (t / 2)%Q) in *.
  assert (G1 : (0 <= (1 - h) * (W - lo))%Q) by (apply Qmult_le_0_compat; lra).
  assert (G2 : (0 <= (1 - h) * (hi - W))%Q) by (apply Qmult_le_0_compat; lra).
  assert (G3 : (0 <= h * (U - lo))%Q) by (apply Qmult_le_0_compat; lra).
  assert (G4 : (0 <= h * (hi - U))%Q) by (apply Qmult_le_0_compat; lra).
  assert (G5 : (0 <= h * (A - w))%Q) by (apply Qmult_le_0_compat; lra).
  assert (G6 : (0 <= h * (A + w))%Q) by (apply Qmult_le_0_compat; lra).
  assert (G7 : (0 <= ((1 # 2) - h) * A)%Q) by (apply Qmult_le_0_compat; lra).
  clearbody h A w U V W. clear - G1 G2 G3 G4 G5 G6 G7. split; lra.
Qed.

(** Generation, for any table of minority neighbours. *)
Lemma out_generate_spec dist rs dim n X_min X_maj kmaj kmin M C :
  rngs_ok rs -> rect dim X_min -> rect dim X_maj -> 0 < length X_min -> 0 < kmaj -> 2 <= kmin ->
  nearest_table dist X_maj X_min kmaj M -> rect kmin C -> length C = length X_min ->
  Forall (Forall (fun i => i < length X_min)) C ->
  exists S, out_generate rs dim n X_min X_maj kmaj kmin M C = Ok S /\ length S = n /\
    Forall (fun z => exists b i m, listed C b i /\ In m (nth b M []) /\
      out_sample dim (nth b X_min []) (nth m X_maj []) (nth i X_min []) z) S.
Proof.
  intros Hrs R1 R2 HL Hkj Hkn HM RC LC FC. unfold out_generate.
  destruct (choice_range_ok (rs 0) (length X_min) n (Hrs 0)) as (base & -> & B1 & B2); [lia|]. cbn [bind].
  destruct (choice_range_ok (rs 1) kmaj n (Hrs 1)) as (c1 & -> & C1 & C2); [lia|]. cbn [bind].
  destruct (choice_from1_ok (rs 2) kmin n (Hrs 2)) as (c2 & -> & C3 & C4); [lia|]. cbn [bind].
  apply mapM_draws.
  { rewrite !combine_length, !unif_length by apply Hrs. lia. }
  intros (b & j1 & j2 & u1 & u2) Hd.
  apply in_combine in Hd as [Hb Hd]. apply in_combine in Hd as [Hj1 Hd]. apply in_combine in Hd as [Hj2 Hd].
  apply in_combine in Hd as [Hu1 Hu2].
  rewrite Forall_forall in B2, C2, C4. specialize (B2 _ Hb). specialize (C2 _ Hj1). specialize (C4 _ Hj2).
  destruct (unif_in _ _ _ _ (Hrs 3) Hu1) as [U1 V1]. destruct (unif_in _ _ _ _ (Hrs 4) Hu2) as [U2 V2].
  destruct (entry_any _ _ _ _ _ b j1 HM B2 C2) as (m & Em & L1 & I1).
  assert (Hrow : In (nth b C []) C) by (apply nth_In; lia).
  assert (Hl : length (nth b C []) = kmin) by (unfold rect in RC; rewrite Forall_forall in RC; now apply RC).
  assert (Ei : entry C b j2 = Ok (nth j2 (nth b C []) 0)).
  { unfold entry. rewrite (get_nth [] C b) by lia. cbn [bind]. apply get_nth. lia. }
  set (i := nth j2 (nth b C []) 0) in *.
  assert (L2 : listed C b i).
  { split; [lia|]. unfold i. destruct (nth b C []) as [|x t]; [cbn in Hl; lia|]. destruct j2; [lia|]. cbn. apply nth_In. cbn in Hl. lia. }
  assert (I2 : i < length X_min).
  { rewrite Forall_forall in FC. specialize (FC _ Hrow). rewrite Forall_forall in FC. apply FC, nth_In. lia. }
  unfold out_row. rewrite (get_nth [] X_min b) by assumption. cbn [bind]. rewrite Em. cbn [bind].
  rewrite (get_nth [] X_maj m) by assumption. cbn [bind]. rewrite Ei. cbn [bind].
  rewrite (get_nth [] X_min i) by assumption. cbn [bind]. eexists. split; [reflexivity|].
  exists b, i, m. split; [assumption|]. split; [assumption|].
  apply out_point_spec; auto; now apply rect_nth.
Qed.

Lemma smote_out_runs dist nn p rs D mn mj n :
  knn_ok dist nn -> rngs_ok rs -> wf_data (d_X D) (d_dim D) (d_y D) -> is_minority (d_y D) mn mj ->
  asked (cp_proportion p) (d_y D) mn mj = Ok n -> 1 <= cp_n_neighbors p ->
  runs D mn n (smote_out_spec dist p D mn mj n) (smote_out_sample nn p rs D).
Proof.
  intros Hnn Hrs [Hr Hl] Hmin Ha Hk. unfold smote_out_sample, smote_out_algorithm.
  apply (runs_intro _ _ _ _ _ _ _ Hmin Ha). intros st (E1 & E2 & _) H2 Hn. rewrite E1, E2.
  set (X_min := rows_with mn (d_X D) (d_y D)). set (X_maj := rows_with mj (d_X D) (d_y D)).
  assert (HL : length X_min = count_label (d_y D) mn) by now apply rows_with_length.
  assert (HL2 : length X_maj = count_label (d_y D) mj) by now apply rows_with_length.
  destruct (two_labels_pos _ _ _ (proj1 Hmin)) as [P1 P2].
  set (k := Nat.min (length X_min) (cp_n_neighbors p + 1)). set (kj := Nat.min (length X_maj) (cp_n_neighbors p + 1)).
  destruct (Hnn X_min X_min k) as (T & ET & HT); [unfold k; lia|]. rewrite ET. cbn [bind].
  destruct (Hnn X_maj X_min kj) as (M & EM & HM); [unfold kj; lia|]. rewrite EM. cbn [bind].
  destruct (nearest_table_shape _ _ _ _ _ HT) as (LT & RT & FT).
  destruct (out_generate_spec dist rs (d_dim D) (Z.to_nat n) X_min X_maj kj k M T) as (S & ES & LS & FS); auto;
    try (now apply rows_with_rect); try (unfold k, kj; lia).
  rewrite ES. cbn [bind]. exists S. split; [reflexivity|]. split; [assumption|]. exists T, M. auto.
Qed.

(** * SMOTE_Cosine *)

Lemma perm_seq n t : length t = n -> NoDup t -> Forall (fun i => i < n) t -> Permutation t (seq 0 n).
Proof.
  intros H1 H2 H3. apply NoDup_Permutation_bis; [assumption|rewrite seq_length; lia|].
  intros i Hi. apply in_seq. rewrite Forall_forall in H3. specialize (H3 _ Hi). lia.
Qed.

Lemma sorted_perm_seq n a l : StronglySorted le l -> Permutation l (seq a n) -> l = seq a n.
Proof.
  revert a l. induction n as [|n IH]; intros a l Hs Hp.
  - cbn in Hp. apply Permutation_sym, Permutation_nil in Hp. assumption.
  - destruct l as [|x l]; [apply Permutation_length in Hp; discriminate|].
    assert (x = a).
    { assert (Hx : In x (seq a (S n))) by (eapply Permutation_in; [exact Hp|now left]). apply in_seq in Hx.
      assert (Ha : In a (x :: l)) by (eapply Permutation_in; [apply Permutation_sym, Hp|cbn; auto]).
      destruct Ha as [->|Ha]; [reflexivity|]. inversion Hs; subst. rewrite Forall_forall in H2. specialize (H2 _ Ha). lia. }
    subst x. cbn [seq] in *. f_equal. apply IH; [now inversion Hs|]. eapply Permutation_cons_inv. exact Hp.
Qed.

Lemma StronglySorted_map' {A B} (f : A -> B) (R : B -> B -> Prop) l :
  StronglySorted (fun a b => R (f a) (f b)) l -> StronglySorted R (map f l).
Proof. induction 1; cbn; constructor; auto. now rewrite Forall_map. Qed.

Lemma StronglySorted_impl' {A} (R S : A -> A -> Prop) l : (forall a b, In a l -> In b l -> R a b -> S a b) ->
  StronglySorted R l -> StronglySorted S l.
Proof.
  intros H Hs. induction Hs as [|a l Hs IH F]; constructor.
  - apply IH. intros x y Hx Hy. apply H; now right.
  - rewrite Forall_forall in *. intros x Hx. apply H; [now left|now right|auto].
Qed.

Lemma argsort_nat_length t : length (argsort_nat t) = length t.
Proof. unfold argsort_nat. now rewrite argsort_length, map_length. Qed.

Lemma argsort_nat_perm t : Permutation (argsort_nat t) (seq 0 (length t)).
Proof. unfold argsort_nat. rewrite argsort_perm, map_length. reflexivity. Qed.

Lemma argsort_nat_sorted t : StronglySorted (fun i j => nth i t 0 <= nth j t 0) (argsort_nat t).
Proof.
  eapply StronglySorted_impl'; [|apply argsort_sorted]. intros a b Ha Hb H.
  assert (M : forall i, nth i (map (fun i => inject_Z (Z.of_nat i)) t) 0%Q = inject_Z (Z.of_nat (nth i t 0))).
  { intros i. change 0%Q with ((fun i => inject_Z (Z.of_nat i)) 0) at 1. apply map_nth. }
  cbv beta in H. rewrite (M a), (M b), <- Zle_Qle in H. lia.
Qed.

(** On a permutation, argsort gives the positions. *)
Lemma argsort_nat_inverse n t i : Permutation t (seq 0 n) -> i < n -> position t i (nth i (argsort_nat t) 0).
Proof.
  intros Hp Hi. assert (Lt : length t = n) by (rewrite (Permutation_length Hp); apply seq_length).
  assert (E : map (fun a => nth a t 0) (argsort_nat t) = seq 0 n).
  { apply sorted_perm_seq.
    - apply StronglySorted_map', argsort_nat_sorted.
    - rewrite <- Hp. etransitivity; [apply Permutation_map, argsort_nat_perm|].
      assert (G : map (fun a => nth a t 0) (seq 0 (length t)) = t).
      { clear. induction t as [|x t IH]; [reflexivity|]. cbn [length seq map nth]. f_equal.
        rewrite <- seq_shift, map_map. exact IH. }
      rewrite G. reflexivity. }
  assert (E' : nth i (map (fun a => nth a t 0) (argsort_nat t)) (nth 0 t 0) = i).
  { rewrite E. rewrite (nth_indep _ _ 0) by (rewrite seq_length; lia). now rewrite seq_nth. }
  rewrite (map_nth (fun a => nth a t 0)) in E'. unfold position. rewrite <- E' at 2. apply nth_error_nth'.
  assert (In (nth i (argsort_nat t) 0) (argsort_nat t)) by (apply nth_In; rewrite argsort_nat_length; lia).
  eapply Permutation_in in H; [|apply argsort_nat_perm]. apply in_seq in H. lia.
Qed.

Lemma position_unique t i p q : NoDup t -> position t i p -> position t i q -> p = q.
Proof.
  intros Hn Hp Hq. unfold position in *. assert (p < length t) by (apply nth_error_Some; congruence).
  eapply NoDup_nth_error; eauto. congruence.
Qed.

Lemma composite_row_spec n euc cos : Permutation euc (seq 0 n) -> Permutation cos (seq 0 n) ->
  composite_order n euc cos (composite_row euc cos).
Proof.
  intros P1 P2. unfold composite_order, composite_row.
  assert (L1 : length euc = n) by (rewrite (Permutation_length P1); apply seq_length).
  assert (L2 : length cos = n) by (rewrite (Permutation_length P2); apply seq_length).
  set (s := map2 Nat.add (argsort_nat euc) (argsort_nat cos)).
  assert (Ls : length s = n) by (unfold s; rewrite map2_length, !argsort_nat_length; lia).
  split; [rewrite argsort_nat_perm, Ls; reflexivity|].
  eapply StronglySorted_impl'; [|apply argsort_nat_sorted]. intros i j Hi Hj H pi qi pj qj A1 A2 A3 A4.
  assert (Bi : i < n) by (eapply Permutation_in in Hi; [|apply argsort_nat_perm]; apply in_seq in Hi; lia).
  assert (Bj : j < n) by (eapply Permutation_in in Hj; [|apply argsort_nat_perm]; apply in_seq in Hj; lia).
  assert (N1 : NoDup euc) by (eapply Permutation_NoDup; [apply Permutation_sym, P1|apply seq_NoDup]).
  assert (N2 : NoDup cos) by (eapply Permutation_NoDup; [apply Permutation_sym, P2|apply seq_NoDup]).
  assert (V : forall i, i < n -> nth i s 0 = nth i (argsort_nat euc) 0 + nth i (argsort_nat cos) 0).
  { intros i' Hi'. unfold s. apply map2_nth; rewrite argsort_nat_length; lia. }
  cbv beta in H. rewrite (V i Bi), (V j Bj) in H.
  rewrite (position_unique _ _ _ _ N1 A1 (argsort_nat_inverse n euc i P1 Bi)).
  rewrite (position_unique _ _ _ _ N2 A2 (argsort_nat_inverse n cos i P2 Bi)).
  rewrite (position_unique _ _ _ _ N1 A3 (argsort_nat_inverse n euc j P1 Bj)).
  rewrite (position_unique _ _ _ _ N2 A4 (argsort_nat_inverse n cos j P2 Bj)). lia.
Qed.

Lemma table_perm dist X Xq E b : nearest_table dist X Xq (length X) E -> b < length Xq -> Permutation (nth b E []) (seq 0 (length X)).
Proof.
  intros H Hb. pose proof (nearest_table_shape _ _ _ _ _ H) as (L & _ & _).
  destruct (nth_error Xq b) as [x|] eqn:Ex; [|apply nth_error_None in Ex; lia].
  destruct (nth_error E b) as [t|] eqn:Et; [|apply nth_error_None in Et; lia].
  rewrite (nth_error_nth _ _ _ Et).
  pose proof (Forall2_nth_error _ _ _ _ _ _ H Ex Et) as (A & B & C & _). now apply perm_seq.
Qed.

Lemma smote_cosine_runs dist cosd nn nnc p rs D mn mj n :
  knn_ok dist nn -> knn_ok cosd nnc -> rngs_ok rs -> wf_data (d_X D) (d_dim D) (d_y D) -> is_minority (d_y D) mn mj ->
  asked (cp_proportion p) (d_y D) mn mj = Ok n -> 1 <= cp_n_neighbors p ->
  runs D mn n (smote_cosine_spec dist cosd p D mn mj n) (smote_cosine_sample nn nnc p rs D).
Proof.
  intros Hnn Hnc Hrs [Hr Hl] Hmin Ha Hk. unfold smote_cosine_sample, smote_cosine_algorithm.
  apply (runs_intro _ _ _ _ _ _ _ Hmin Ha). intros st (E1 & E2 & _) H2 Hn. rewrite E1, E2.
  set (X_min := rows_with mn (d_X D) (d_y D)). set (X_maj := rows_with mj (d_X D) (d_y D)).
  assert (HL : length X_min = count_label (d_y D) mn) by now apply rows_with_length.
  assert (HL2 : length X_maj = count_label (d_y D) mj) by now apply rows_with_length.
  destruct (two_labels_pos _ _ _ (proj1 Hmin)) as [P1 P2].
  set (kj := Nat.min (length X_maj) (cp_n_neighbors p)).
  destruct (Hnn X_min X_min (length X_min)) as (E & EE & HE); [lia|]. rewrite EE. cbn [bind].
  destruct (Hnc X_min X_min (length X_min)) as (C & EC & HC); [lia|]. rewrite EC. cbn [bind].
  destruct (Hnn X_maj X_min kj) as (M & EM & HM); [unfold kj; lia|]. rewrite EM. cbn [bind].
  destruct (nearest_table_shape _ _ _ _ _ HE) as (LE & RE & FE).
  destruct (nearest_table_shape _ _ _ _ _ HC) as (LC & RC & FC).
  set (T := map2 composite_row E C).
  assert (LT : length T = length X_min) by (unfold T; rewrite map2_length; lia).
  assert (HT : forall b, b < length X_min -> composite_order (length X_min) (nth b E []) (nth b C []) (nth b T [])).
  { intros b Hb. unfold T. rewrite (map2_nth _ _ _ _ [] [] []) by lia.
    apply composite_row_spec; eapply table_perm; eauto. }
  destruct (out_generate_spec dist rs (d_dim D) (Z.to_nat n) X_min X_maj kj (length X_min) M T) as (S & ES & LS & FS); auto;
    try (now apply rows_with_rect); try (unfold kj; lia).
  { unfold rect. apply Forall_forall. intros t Ht. apply (In_nth _ _ []) in Ht as (b & Hb & <-).
    rewrite LT in Hb. destruct (HT b Hb) as [P _]. rewrite (Permutation_length P). apply seq_length. }
  { apply Forall_forall. intros t Ht. apply (In_nth _ _ []) in Ht as (b & Hb & <-).
    rewrite LT in Hb. destruct (HT b Hb) as [P _]. apply Forall_forall. intros i Hi.
    eapply Permutation_in in Hi; [|exact P]. apply in_seq in Hi. lia. }
  rewrite ES. cbn [bind]. exists S. split; [reflexivity|]. split; [assumption|]. exists E, C, T, M.
  repeat split; auto; now apply HT.
Qed.
