(** Proofs about LevelModel: LN_SMOTE and MSMOTE. *)

From Coq Require Import List ZArith QArith Bool Arith Lia Lqa Sorting.Sorted Permutation.
From Verif Require Import Np NpFacts BaseFacts SimplexModel Spec SpecDanger SpecNoise SpecComp SimplexFacts SimplexGeom Float64
  SamplerModel SamplerFacts OversFacts BaseModel KnnFacts DangerModel DangerFacts ClusterOversModel OversGen
  ClusterOversFacts ClusterFacts NoiseModel NoiseFacts NoiseFacts2 CompModel CompFacts CompFacts2 EditModel SpecEdit EditFacts4 EditFacts5
  SpecNear NearFacts NearFacts2 LevelModel SpecLevel.
Import ListNotations.
Open Scope nat_scope.

(** * LN_SMOTE *)

Lemma count_votes y lab idx : length (filter (Z.eqb lab) (map (fun i => nth i y 0%Z) idx)) = votes y idx lab.
Proof.
  unfold votes. induction idx as [|i idx IH]; [reflexivity|]. cbn [map filter]. rewrite (Z.eqb_sym lab).
  destruct (Z.eqb _ _); cbn [length]; now rewrite IH.
Qed.

Lemma count_at_ok y lab idx : Forall (fun i => i < length y) idx -> count_at y lab idx = Ok (votes y idx lab).
Proof. intros H. unfold count_at. rewrite (gather_map 0%Z) by assumption. cbn [bind]. now rewrite count_votes. Qed.

Lemma removelast_incl {A} (l : list A) x : In x (removelast l) -> In x l.
Proof. induction l as [|a l IH]; [intros []|]. cbn. destruct l; [intros []|]. intros [->|H]; [now left|right; auto]. Qed.

Lemma removelast_length {A} (l : list A) : length (removelast l) = length l - 1.
Proof. induction l as [|a [|b l] IH]; [reflexivity|reflexivity|]. change (removelast (a :: b :: l)) with (a :: removelast (b :: l)). cbn [length] in *. lia. Qed.

Lemma inner_in t i : In i (inner t) -> In i t.
Proof. unfold inner. intros H. apply removelast_incl in H. destruct t; [destruct H|now right]. Qed.

Lemma last_nth {A} (l : list A) d : last l d = nth (length l - 1) l d.
Proof. induction l as [|a [|b l] IH]; [reflexivity|reflexivity|]. change (last (a :: b :: l) d) with (last (b :: l) d). rewrite IH. cbn [length]. now rewrite !Nat.sub_succ, !Nat.sub_0_r. Qed.

Lemma votes_pos y idx lab i : In i idx -> nth i y 0%Z = lab -> 1 <= votes y idx lab.
Proof.
  intros Hi E. unfold votes. assert (H : In i (filter (fun i => Z.eqb (nth i y 0%Z) lab) idx)).
  { apply filter_In. split; [assumption|]. now apply Z.eqb_eq. }
  destruct (filter _ idx); [destruct H|cbn; lia].
Qed.

Section Pairs.
Variables (y : list Z) (mn mj : Z) (k : nat) (T : list (list nat)).
Hypothesis R : rect (k + 2) T.
Hypothesis L : length T = length y.
Hypothesis F : Forall (Forall (fun i => i < length y)) T.

Lemma ends_bound i : i < length y -> Forall (fun j => j < length y) (between_ends T i).
Proof.
  intros Hi. apply Forall_forall. intros j Hj. rewrite Forall_forall in F. specialize (F (nth i T [])).
  rewrite Forall_forall in F. apply F; [apply nth_In; lia|]. now apply (inner_in (nth i T [])).
Qed.

Lemma ends_length i : i < length y -> length (between_ends T i) = k.
Proof.
  intros Hi. unfold between_ends. rewrite removelast_length.
  assert (E : length (nth i T []) = k + 2) by (apply rect_nth; [assumption|lia]).
  destruct (nth i T []); cbn in *; lia.
Qed.

Lemma ln_level_ok i : i < length y -> ln_level mn y T i = Ok (votes y (between_ends T i) mn).
Proof.
  intros Hi. unfold ln_level. rewrite (get_nth [] T i) by lia. cbn [bind]. apply count_at_ok. now apply ends_bound.
Qed.

Lemma ln_pair_level_ok i j : i < length y -> nth i y 0%Z = mn -> j < length y ->
  exists l, ln_pair_level mn mj y T i j = Ok l /\ forall l', level_seen y mn mj T i j l' <-> l' = l.
Proof.
  intros Hi Ei Hj. unfold ln_pair_level. rewrite (get_nth [] T j) by lia. cbn [bind].
  rewrite (get_nth 0%Z y j) by lia. cbn [bind].
  rewrite (count_at_ok y mn (inner (nth j T []))) by (now apply ends_bound). cbn [bind].
  change (inner (nth j T [])) with (between_ends T j). set (c := votes y (between_ends T j) mn).
  destruct (existsb (Nat.eqb i) (between_ends T j)) eqn:Ex.
  - assert (Hin : In i (between_ends T j)).
    { apply existsb_exists in Ex as (q & H1 & H2). apply Nat.eqb_eq in H2. now subst. }
    rewrite andb_true_r. destruct (Z.eqb_spec (nth j y 0%Z) mj) as [Em|Em].
    + assert (Hc : 1 <= c) by (apply (votes_pos _ _ _ i); assumption).
      assert (HL : length (nth j T []) = k + 2) by (apply rect_nth; [assumption|lia]).
      unfold last_of. rewrite (get_nth 0 (nth j T [])) by lia. cbn [bind]. rewrite <- last_nth.
      assert (Hl : last (nth j T []) 0 < length y).
      { rewrite last_nth. rewrite Forall_forall in F. specialize (F (nth j T [])). rewrite Forall_forall in F.
        apply F; apply nth_In; lia. }
      rewrite (get_nth 0%Z y _) by assumption. cbn [bind].
      destruct (Z.eqb_spec (nth (last (nth j T []) 0) y 0%Z) mn) as [El|El]; eexists; (split; [reflexivity|]);
        intros l'; unfold level_seen; fold c; split.
      * intros [H _]. destruct (H (conj Em Hin)) as [H' _]. specialize (H' El). lia.
      * intros ->. split; [|intros H; destruct H; now split]. intros _. split; [intros _; lia|contradiction].
      * intros [H _]. destruct (H (conj Em Hin)) as [_ H']. specialize (H' El). lia.
      * intros ->. split; [|intros H; destruct H; now split]. intros _. split; [contradiction|intros _; lia].
    + eexists. split; [reflexivity|]. intros l'. unfold level_seen. fold c. split.
      * intros [_ H]. apply H. intros [? _]. contradiction.
      * intros ->. split; [intros [? _]; contradiction|reflexivity].
  - rewrite andb_false_r. eexists. split; [reflexivity|]. intros l'. unfold level_seen. fold c.
    assert (Hin : ~ In i (between_ends T j)).
    { intros H. assert (existsb (Nat.eqb i) (between_ends T j) = true); [|congruence].
      apply existsb_exists. exists i. split; [assumption|apply Nat.eqb_refl]. }
    split.
    + intros [_ H]. apply H. intros [_ ?]. contradiction.
    + intros ->. split; [intros [_ ?]; contradiction|reflexivity].
Qed.

Lemma minority_in i : In i (where_ (map (Z.eqb mn) y)) <-> i < length y /\ nth i y 0%Z = mn.
Proof.
  clear. rewrite NoiseFacts2.where_in, map_length. split; intros [H E]; (split; [assumption|]).
  - rewrite (nth_indep _ false (Z.eqb mn 0%Z)) in E by (rewrite map_length; lia). rewrite map_nth in E. apply Z.eqb_eq in E. congruence.
  - rewrite (nth_indep _ false (Z.eqb mn 0%Z)) by (rewrite map_length; lia). rewrite map_nth. apply Z.eqb_eq. congruence.
Qed.

Lemma ln_pairs_spec : exists ps, ln_pairs mn mj y T = Ok ps /\
  forall i j a b, In (i, j, a, b) ps <-> ln_pair y mn mj T i j a b.
Proof.
  unfold ln_pairs.
  match goal with |- context [mapM ?f (where_ _)] => set (g := f) end.
  assert (G : forall i, i < length y -> nth i y 0%Z = mn -> exists l, g i = Ok l /\
    forall i' j a b, In (i', j, a, b) l <-> i' = i /\ In j (between_ends T i) /\ a = votes y (between_ends T i) mn /\ level_seen y mn mj T i j b).
  { intros i Hi Ei. unfold g. rewrite ln_level_ok by assumption. cbn [bind]. rewrite (get_nth [] T i) by lia. cbn [bind].
    change (inner (nth i T [])) with (between_ends T i). pose proof (ends_bound i Hi) as B.
    set (a0 := votes y (between_ends T i) mn). clearbody a0. induction (between_ends T i) as [|j l IH].
    - exists []. split; [reflexivity|]. intros. cbn. tauto.
    - pose proof (Forall_inv B) as Bj. pose proof (Forall_inv_tail B) as B'. destruct (IH B') as (r & Er & Hr). destruct (ln_pair_level_ok i j Hi Ei Bj) as (lv & Elv & Hlv).
      exists ((i, j, a0, lv) :: r). cbn [mapM]. rewrite Elv. cbn [bind]. rewrite Er. cbn [bind]. split; [reflexivity|].
      intros i' j' a b. cbn [In]. rewrite Hr. split.
      + intros [E|(-> & H1 & -> & H2)]; [injection E as <- <- <- <-; split; [reflexivity|split; [now left|split; [reflexivity|now apply Hlv]]]|auto].
      + intros (-> & [->|H1] & -> & H2); [left; apply Hlv in H2; now subst|right; auto]. }
  assert (H : forall ms, (forall i, In i ms -> i < length y /\ nth i y 0%Z = mn) -> exists per, mapM g ms = Ok per /\
    forall i j a b, In (i, j, a, b) (concat per) <-> In i ms /\ In j (between_ends T i) /\ a = votes y (between_ends T i) mn /\ level_seen y mn mj T i j b).
  { induction ms as [|i ms IH]; intros Hms.
    - exists []. split; [reflexivity|]. cbn. tauto.
    - destruct IH as (per & E & Hp); [intros; apply Hms; now right|]. destruct (G i) as (l & El & Hl); try (apply Hms; now left).
      exists (l :: per). cbn [mapM]. rewrite El. cbn [bind]. rewrite E. cbn [bind]. split; [reflexivity|].
      intros i' j a b. cbn [concat In]. rewrite in_app_iff, Hl, Hp. split.
      + intros [(-> & H)|(H & H')]; auto.
      + intros ([->|H] & H'); auto. }
  destruct (H (where_ (map (Z.eqb mn) y))) as (per & E & Hp); [apply minority_in|]. rewrite E. cbn [bind].
  eexists. split; [reflexivity|]. intros i j a b. rewrite filter_In. cbn [fst snd]. rewrite Hp, minority_in, andb_true_iff, !Nat.ltb_lt.
  unfold ln_pair. tauto.
Qed.
End Pairs.

Lemma qn_pos n : 0 < n -> (0 < qn n)%Q.
Proof. intros H. unfold qn. change 0%Q with (inject_Z 0). rewrite <- Zlt_Qlt. lia. Qed.
Lemma qn_nz n : 0 < n -> ~ (qn n == 0)%Q.
Proof. intros H E. apply qn_pos in H. rewrite E in H. now apply Qlt_irrefl in H. Qed.
Lemma qn_lt a b : a < b -> (qn a < qn b)%Q.
Proof. intros H. unfold qn. rewrite <- Zlt_Qlt. lia. Qed.
Lemma qn_le a b : a <= b -> (qn a <= qn b)%Q.
Proof. intros H. unfold qn. rewrite <- Zle_Qle. lia. Qed.

Lemma ln_gap_share a b (lab mn : Z) k u : 0 < a -> 0 < b -> unit_share u -> ln_share a b (lab = mn) k (ln_gap a b (Z.eqb lab mn) k u).
Proof.
  intros Ha Hb Hu. unfold ln_gap. destruct (Nat.eqb_spec b 0); [lia|]. cbn [andb].
  change (inject_Z (Z.of_nat a)) with (qn a). change (inject_Z (Z.of_nat b)) with (qn b). change (inject_Z (Z.of_nat k)) with (qn k).
  pose proof (qn_pos a Ha) as Qa. pose proof (qn_pos b Hb) as Qb.
  set (s := if Qeq_bool (qn a / qn b) 1 then u else if Qlt_b 1 (qn a / qn b) then (u / (qn a / qn b))%Q else (1 - u * (qn a / qn b))%Q).
  assert (Hs : (a = b -> s == u)%Q /\ (b < a -> (s == u * (qn b / qn a))%Q) /\ (a < b -> (s == 1 - u * (qn a / qn b))%Q)).
  { assert (Hq : (a = b <-> qn a / qn b == 1)%Q).
    { split.
      - intros ->. field. now apply qn_nz.
      - intros E. assert (qn a == qn b)%Q by (setoid_replace (qn a) with ((qn a / qn b) * qn b)%Q by (field; now apply qn_nz); rewrite E; ring).
        unfold qn in H. apply (proj1 (inject_Z_injective _ _)) in H. lia. }
    assert (Hl : b < a <-> (1 < qn a / qn b)%Q).
    { split.
      - intros H. apply Qlt_shift_div_l; [assumption|]. rewrite Qmult_1_l. now apply qn_lt.
      - intros H. destruct (Nat.le_gt_cases a b) as [H'|H']; [|assumption]. exfalso. apply qn_le in H'.
        assert (qn a / qn b <= 1)%Q by (apply Qle_shift_div_r; [assumption|now rewrite Qmult_1_l]). Lqa.lra. }
    unfold s. destruct (Qeq_bool _ 1) eqn:E1.
    - apply Qeq_bool_iff, Hq in E1. split; [reflexivity|split; intros; lia].
    - destruct (Qlt_b 1 _) eqn:E2.
      + apply BaseFacts.Qlt_b_spec, Hl in E2. split; [intros; lia|split; intros; [|lia]]. field. split; now apply qn_nz.
      + split; [|split]; intros H; try reflexivity.
        * exfalso. apply Hq in H. apply Qeq_bool_iff in H. congruence.
        * exfalso. apply Hl in H. apply BaseFacts.Qlt_b_spec in H. congruence. }
  exists u, s. split; [assumption|]. destruct Hs as (S1 & S2 & S3). split; [assumption|split; [assumption|split; [assumption|split]]].
  - intros E. apply Z.eqb_eq in E. rewrite E. reflexivity.
  - intros E. apply Z.eqb_neq in E. rewrite E. unfold Qdiv. ring.
Qed.

Lemma ln_smote_runs dist nn p rs D mn mj n :
  knn_ok dist nn -> rngs_ok rs -> wf_data (d_X D) (d_dim D) (d_y D) -> is_minority (d_y D) mn mj ->
  asked (cp_proportion p) (d_y D) mn mj = Ok n -> 2 <= cp_n_neighbors p ->
  runs D mn n (ln_smote_spec dist p D mn mj n) (ln_smote_sample nn p rs D).
Proof.
  intros Hnn Hrs [Hr Hl] Hmin Ha H2n. unfold ln_smote_sample, ln_smote_algorithm.
  apply (runs_intro _ _ _ _ _ _ _ Hmin Ha). intros st (E1 & E2 & _) H2 Hn. rewrite E1, E2.
  unfold ln_smote_spec. set (k := Nat.min (length (d_X D) - 2) (cp_n_neighbors p)).
  assert (Hk : 2 <= k /\ k + 2 <= length (d_X D)).
  { pose proof Hmin as [[Hne _] Hle].
    assert (count_label (d_y D) mn + count_label (d_y D) mj <= length (d_y D)).
    { clear - Hne. unfold count_label. induction (d_y D) as [|z l IH]; cbn; [lia|].
      destruct (Z.eq_dec z mn), (Z.eq_dec z mj); try congruence; lia. }
    unfold k. lia. }
  destruct (Nat.ltb_spec k 2); [lia|].
  destruct (Hnn (d_X D) (d_X D) (k + 2)) as (T & ET & HT); [lia|]. rewrite ET. cbn [bind].
  destruct (nearest_table_shape _ _ _ _ _ HT) as (L & R & F). rewrite Hl in F, L.
  destruct (ln_pairs_spec (d_y D) mn mj k T R L F) as (ps & Eps & P1). rewrite Eps. cbn [bind].
  destruct ps as [|e0 ps'] eqn:Ep.
  - exists []. split; [reflexivity|]. exists T. split; [assumption|].
    split; [reflexivity|]. split; [|constructor]. intros i j a b H0. apply P1 in H0. destruct H0.
  - rewrite <- Ep in *. assert (Hps : 0 < length ps) by (rewrite Ep; cbn; lia).
    edestruct (mapM_draws (fun i => ln_row mn D k ps (rs i)) (seq 0 (Z.to_nat n)) (Z.to_nat n)
      (fun x => exists i j a b, ln_pair (d_y D) mn mj T i j a b /\
      between (ln_share a b (nth j (d_y D) 0%Z = mn) k) (d_dim D) (nth i (d_X D) []) (nth j (d_X D) []) x)) as (S & ES & LS & FS).
    { apply seq_length. }
    { intros q _. unfold ln_row. destruct (choice_range_ok (rs q) (length ps) 1 (Hrs q) Hps) as (base & -> & B1 & B2). cbn [bind].
      destruct base as [|c0 base]; [discriminate|]. pose proof (Forall_inv B2) as B3. rewrite (get_nth 0) by (cbn; lia). cbn [bind nth].
      destruct (get_lt ps c0) as [[[[i j] a] b] Eg]; [exact B3|]. rewrite Eg. cbn [bind].
      apply get_in, P1 in Eg. pose proof Eg as (I1 & I2 & I3 & I4 & I5 & I6 & I7).
      assert (Hj : j < length (d_y D)).
      { pose proof (ends_bound (d_y D) T L F i I1) as B. rewrite Forall_forall in B. now apply B. }
      rewrite (get_nth 0%Z (d_y D) j) by assumption. cbn [bind].
      pose proof (unif_length (rs q) 1 (d_dim D) (Hrs q)) as Lu.
      destruct (r_unif (rs q) 1 (d_dim D)) as [|u us] eqn:Eu; [discriminate|]. rewrite (get_nth []) by (cbn; lia). cbn [bind nth].
      destruct (unif_in (rs q) 1 (d_dim D) u (Hrs q)) as [U V]; [rewrite Eu; now left|].
      rewrite (get_nth [] (d_X D) i) by lia. cbn [bind]. rewrite (get_nth [] (d_X D) j) by lia. cbn [bind].
      eexists. split; [reflexivity|]. exists i, j, a, b. split; [assumption|].
      apply vlerp_between; try (apply rect_nth; [assumption|lia]); [now rewrite map_length|].
      apply Forall_map. eapply Forall_impl; [|exact V]. intros u0 Hu0. now apply ln_gap_share. }
    rewrite ES. cbn [bind]. exists S. split; [reflexivity|]. exists T. split; [assumption|]. split; [|split; auto].
    intros Hno. destruct e0 as [[[i j] a] b]. exfalso. apply (Hno i j a b). apply P1. rewrite Ep. now left.
Qed.

(** One neighbour is too few. *)
Lemma ln_smote_one nn p rs D mn mj n :
  is_minority (d_y D) mn mj -> asked (cp_proportion p) (d_y D) mn mj = Ok n -> cp_n_neighbors p <= 1 ->
  unchanged D (ln_smote_sample nn p rs D).
Proof.
  intros Hmin Ha H. unfold ln_smote_sample, ln_smote_algorithm.
  edestruct (sample_shape (fun n st D => let k := Nat.min (length (d_X D) - 2) (cp_n_neighbors p) in
    if k <? 2 then Ok (d_X D, d_y D) else
      do indices <- nn (d_X D) (d_X D) (k + 2);
      do pairs <- ln_pairs (min_label st) (maj_label st) (d_y D) indices;
      match pairs with
      | [] => Ok (extended D st [])
      | _ =>
        do samples <- mapM (fun i => ln_row (min_label st) D k pairs (rs i)) (seq 0 n);
        Ok (extended D st samples)
      end) (cp_proportion p) D mn mj n Hmin Ha) as (st & _ & E).
  unfold unchanged. etransitivity; [exact E|]. clear E. destruct (_ || _); [reflexivity|]. cbv zeta. destruct (Nat.ltb_spec (Nat.min (length (d_X D) - 2) (cp_n_neighbors p)) 2); [reflexivity|lia].
Qed.

(** The share never leaves the segment; toward a majority row it is cut down. *)
Lemma ln_share_unit y mn mj T i j a b k minority t :
  rect (k + 2) T -> length T = length y -> Forall (Forall (fun i => i < length y)) T -> 0 < k ->
  ln_pair y mn mj T i j a b -> (minority \/ ~ minority) -> ln_share a b minority k t ->
  (0 <= t /\ t <= 1)%Q /\ (~ minority -> (t <= qn b / qn k)%Q).
Proof.
  intros R L F Hk (I1 & I2 & I3 & I4 & I5 & I6 & I7) Dec (u & s & [U1 U2] & S1 & S2 & S3 & T1 & T2).
  assert (Hj : j < length y).
  { pose proof (ends_bound y T L F i I1) as B. rewrite Forall_forall in B. now apply B. }
  assert (Hb : b <= k).
  { pose proof (votes_le y (between_ends T j) mn) as V. rewrite (ends_length y k T R L j Hj) in V.
    destruct I5 as [I5 I5'].
    destruct (Z.eq_dec (nth j y 0%Z) mj) as [Em|Em]; [|rewrite I5'; [assumption|tauto]].
    destruct (in_dec Nat.eq_dec i (between_ends T j)) as [Hi|Hi]; [|rewrite I5'; [assumption|tauto]].
    destruct (I5 (conj Em Hi)) as [J1 J2].
    destruct (Z.eq_dec (nth (last (nth j T []) 0) y 0%Z) mn); [rewrite J1 by assumption; assumption|]. specialize (J2 n). lia. }
  pose proof (qn_pos a I6) as Qa. pose proof (qn_pos b I7) as Qb. pose proof (qn_pos k Hk) as Qk.
  assert (Hs : (0 <= s /\ s <= 1)%Q).
  { destruct (lt_eq_lt_dec a b) as [[C|C]|C].
    - specialize (S3 C). apply qn_lt in C. assert (0 <= qn a / qn b /\ qn a / qn b <= 1)%Q.
      { split; [apply Qle_shift_div_l; [assumption|Lqa.lra]|apply Qle_shift_div_r; [assumption|Lqa.lra]]. }
      rewrite S3. split; Lqa.nra.
    - specialize (S1 C). rewrite S1. Lqa.lra.
    - specialize (S2 C). apply qn_lt in C. assert (0 <= qn b / qn a /\ qn b / qn a <= 1)%Q.
      { split; [apply Qle_shift_div_l; [assumption|Lqa.lra]|apply Qle_shift_div_r; [assumption|Lqa.lra]]. }
      rewrite S2. split; Lqa.nra. }
  assert (Hr : (0 <= qn b / qn k /\ qn b / qn k <= 1)%Q).
  { apply qn_le in Hb. split; [apply Qle_shift_div_l; [assumption|Lqa.lra]|apply Qle_shift_div_r; [assumption|Lqa.lra]]. }
  destruct Dec as [M|M].
  - rewrite (T1 M). split; [assumption|contradiction].
  - rewrite (T2 M). split; [split; Lqa.nra|]. intros _. Lqa.nra.
Qed.

(** * MSMOTE *)

Lemma nth_filter_in {A} (f : A -> bool) l d b : b < length (filter f l) -> In (nth b (filter f l) d) l /\ f (nth b (filter f l) d) = true.
Proof. intros H. apply filter_In. now apply nth_In. Qed.

Lemma msmote_runs dist nn p rs D mn mj n :
  knn_ok dist nn -> rngs_ok rs -> wf_data (d_X D) (d_dim D) (d_y D) -> is_minority (d_y D) mn mj ->
  asked (cp_proportion p) (d_y D) mn mj = Ok n -> 1 <= cp_n_neighbors p ->
  runs D mn n (msmote_spec dist p D mn n) (msmote_sample nn p rs D).
Proof.
  intros Hnn Hrs [Hr Hl] Hmin Ha H1n. unfold msmote_sample, msmote_algorithm.
  apply (runs_intro _ _ _ _ _ _ _ Hmin Ha). intros st (E1 & E2 & _) H2 Hn. rewrite E1.
  unfold msmote_spec. set (X_min := rows_with mn (d_X D) (d_y D)). set (k := Nat.min (length (d_X D)) (cp_n_neighbors p + 1)).
  assert (HL : length X_min = count_label (d_y D) mn) by now apply rows_with_length.
  assert (HR : rect (d_dim D) X_min) by now apply rows_with_rect.
  assert (Hk : 2 <= k).
  { pose proof (count_occ_bound Z.eq_dec mn (d_y D)). unfold count_label in *. unfold k. lia. }
  destruct (Hnn (d_X D) X_min k) as (T & ET & HT); [unfold k; lia|]. rewrite ET. cbn [bind].
  destruct (nearest_table_shape _ _ _ _ _ HT) as (L & R & F). rewrite Hl in F.
  set (m := fun t => votes (d_y D) (tl t) mn).
  assert (EN : mapM (count_neighbours (d_y D) mn) T = Ok (map m T)).
  { rewrite <- mapM_pure. apply mapM_ext_in. intros t Ht. unfold m. rewrite <- neighbours_votes.
    apply count_neighbours_ok. rewrite Forall_forall in F. now apply F. }
  rewrite EN. cbn [bind]. rewrite map_map.
  set (ty := fun t => msmote_type k (m t)).
  assert (Noi : forall t, is_noi (ty t) = (m t =? 0)).
  { intros t. unfold ty, msmote_type. destruct (m t =? 0); [reflexivity|]. now destruct (m t =? k - 1). }
  assert (Hm : forall b, b < length X_min -> In (nth b T []) T) by (intros b Hb; apply nth_In; lia).
  destruct (forallb is_noi (map ty T)) eqn:All.
  - exists []. unfold extended. cbn. rewrite !app_nil_r. split; [reflexivity|]. exists T. split; [assumption|].
    split; [reflexivity|]. split; [|constructor]. intros b Hb Hp. exfalso. rewrite forallb_forall in All.
    specialize (All (ty (nth b T [])) (in_map ty _ _ (Hm b Hb))). rewrite Noi in All. apply Nat.eqb_eq in All. unfold m in All. lia.
  - set (rows := filter _ (combine X_min (combine (map ty T) T))).
    assert (Rows : forall base t' t, In (base, (t', t)) rows -> exists b, b < length X_min /\ base = nth b X_min [] /\ t = nth b T [] /\ t' = ty t /\ 0 < m t).
    { intros base t' t H. unfold rows in H. apply filter_In in H as [H N]. cbn [fst snd] in N.
      apply (In_nth _ _ ([], (ty [], []))) in H as (b & Hb & Eb). rewrite combine_length, combine_length, map_length in Hb.
      rewrite combine_nth in Eb by (rewrite combine_length, map_length; lia). rewrite combine_nth in Eb by now rewrite map_length.
      rewrite map_nth in Eb. injection Eb as <- <- <-. exists b. rewrite Noi in N. destruct (Nat.eqb_spec (m (nth b T [])) 0); [discriminate|].
      repeat split; auto; lia. }
    assert (Hrows : 0 < length rows).
    { destruct rows as [|e rows'] eqn:Er; [|cbn; lia]. exfalso.
      assert (forallb is_noi (map ty T) = true); [|congruence]. apply forallb_forall. intros x Hx. apply in_map_iff in Hx as (t & <- & Ht).
      destruct (is_noi (ty t)) eqn:En; [reflexivity|]. exfalso. apply (In_nth _ _ []) in Ht as (b & Hb & Eb).
      assert (Hin : In (nth b X_min [], (ty t, t)) (combine X_min (combine (map ty T) T))).
      { rewrite <- Eb. rewrite <- (map_nth ty). rewrite <- combine_nth by now rewrite map_length.
        rewrite <- combine_nth by (rewrite combine_length, map_length; lia). apply nth_In. rewrite !combine_length, map_length. lia. }
      assert (In (nth b X_min [], (ty t, t)) rows); [|rewrite Er in H; destruct H].
      unfold rows. apply filter_In. split; [assumption|]. cbn [fst snd]. now rewrite En. }
    destruct (choice_range_ok (rs 0) (length rows) (Z.to_nat n) (Hrs 0) Hrows) as (base & -> & B1 & B2). cbn [bind].
    destruct (choice_from1_ok (rs 1) k (Z.to_nat n) (Hrs 1) Hk) as (cols & -> & C1 & C2). cbn [bind].
    edestruct (mapM_draws (msmote_row (d_X D) rows) (combine base (combine cols (r_unif (rs 2) (Z.to_nat n) (d_dim D)))) (Z.to_nat n)
      (fun x => exists b i, b < length X_min /\ 0 < m (nth b T []) /\ In i (tl (nth b T [])) /\
      (m (nth b T []) < k - 1 -> i = nth 1 (nth b T []) 0) /\
      between unit_share (d_dim D) (nth b X_min []) (nth i (d_X D) []) x)) as (S & ES & LS & FS).
    { rewrite !combine_length, unif_length by apply Hrs. lia. }
    { intros (b0 & (c & u)) Hd. apply in_combine in Hd as [Hb Hcu] || (apply in_combine_l in Hd as Hb; apply in_combine_r in Hd as Hcu).
      pose proof (in_combine_l _ _ _ _ Hcu) as Hc. apply in_combine_r in Hcu as Hu.
      rewrite Forall_forall in B2. specialize (B2 _ Hb). rewrite Forall_forall in C2. specialize (C2 _ Hc).
      destruct (unif_in _ _ _ _ (Hrs 2) Hu) as [U V].
      unfold msmote_row. destruct (get_lt rows b0 B2) as [[bs [t' t]] Eg]. rewrite Eg. cbn [bind].
      apply get_in, Rows in Eg as (b & Hb' & -> & -> & -> & Hp).
      destruct (NearFacts.table_row _ _ _ _ _ b HT Hb') as [Lt Ft].
      set (col := match ty (nth b T []) with SEC => c | _ => 1 end).
      assert (Hcol : 1 <= col < k) by (unfold col; destruct (ty _); lia).
      rewrite (get_nth 0 (nth b T []) col) by lia. cbn [bind].
      assert (Hin : In (nth col (nth b T []) 0) (tl (nth b T []))).
      { destruct (nth b T []) as [|a t]; [cbn in Lt; lia|]. cbn [tl]. destruct col; [lia|]. cbn [nth]. apply nth_In. cbn in Lt. lia. }
      assert (Hi : nth col (nth b T []) 0 < length (d_X D)) by (rewrite Forall_forall in Ft; apply Ft, nth_In; lia).
      rewrite (get_nth [] (d_X D) _) by assumption. cbn [bind]. eexists. split; [reflexivity|].
      exists b, (nth col (nth b T []) 0). split; [assumption|]. split; [assumption|]. split; [assumption|]. split.
      - intros Hlt. unfold col, ty, msmote_type. destruct (m (nth b T []) =? 0); [reflexivity|].
        destruct (Nat.eqb_spec (m (nth b T [])) (k - 1)); [lia|reflexivity].
      - apply vlerp_between; try assumption; now apply rect_nth. }
    rewrite ES. cbn [bind]. exists S. split; [reflexivity|]. exists T. split; [assumption|]. split; [|split; auto].
    intros Hno. exfalso. destruct rows as [|[bs [t' t]] rows'] eqn:Er; [cbn in Hrows; lia|].
    destruct (Rows bs t' t (or_introl eq_refl)) as (b & Hb & _ & -> & _ & Hp). specialize (Hno b Hb). fold (m (nth b T [])) in Hno. lia.
Qed.

Lemma ln_smote_within dist p D mn mj n S :
  wf_data (d_X D) (d_dim D) (d_y D) -> 3 <= length (d_X D) -> 1 <= cp_n_neighbors p ->
  ln_smote_spec dist p D mn mj n S ->
  Forall (fun x => exists i j m, nth i (d_y D) 0%Z = mn /\ i < length (d_X D) /\ j < length (d_X D) /\ m <= Nat.min (length (d_X D) - 2) (cp_n_neighbors p) /\
    between (fun t => (0 <= t /\ t <= 1)%Q /\
        (nth j (d_y D) 0%Z <> mn -> (t <= qn m / qn (Nat.min (length (d_X D) - 2) (cp_n_neighbors p)))%Q))
      (d_dim D) (nth i (d_X D) []) (nth j (d_X D) []) x) S.
Proof.
  intros [WR WL] H3 Hk (T & HT & _ & _ & F). set (k := Nat.min (length (d_X D) - 2) (cp_n_neighbors p)) in *.
  destruct (nearest_table_shape _ _ _ _ _ HT) as (LT & RT & FT). rewrite WL in LT, FT.
  eapply Forall_impl; [|exact F]. cbn. intros x (i & j & a & b & Hp & Lx & B). pose proof Hp as (I1 & I2 & I3 & I4 & I5 & _).
  assert (Hj : j < length (d_y D)).
  { pose proof (ends_bound (d_y D) T LT FT i I1) as Bd. rewrite Forall_forall in Bd. now apply Bd. }
  assert (Hb : b <= k).
  { pose proof (votes_le (d_y D) (between_ends T j) mn) as V. rewrite (ends_length (d_y D) k T RT LT j Hj) in V.
    destruct I5 as [I5 I5'].
    destruct (Z.eq_dec (nth j (d_y D) 0%Z) mj) as [Em|Em]; [|rewrite I5'; [assumption|tauto]].
    destruct (in_dec Nat.eq_dec i (between_ends T j)) as [Hi|Hi]; [|rewrite I5'; [assumption|tauto]].
    destruct (I5 (conj Em Hi)) as [J1 J2].
    destruct (Z.eq_dec (nth (last (nth j T []) 0) (d_y D) 0%Z) mn) as [e|ne]; [rewrite J1 by assumption; assumption|]. specialize (J2 ne). lia. }
  exists i, j, b. split; [assumption|]. split; [lia|]. split; [lia|]. split; [assumption|]. split; [assumption|].
  intros q Hq. destruct (B q Hq) as (t & Ht & Et). exists t. split; [|assumption].
  eapply (ln_share_unit (d_y D) mn mj T i j a b k); eauto; [lia|]. destruct (Z.eq_dec (nth j (d_y D) 0%Z) mn); tauto.
Qed.
