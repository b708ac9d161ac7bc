(** Facts about VIS_RST of GraphModel.v. *)

From Coq Require Import List ZArith QArith Qabs Qminmax Bool Arith Lia Lqa Sorting.Sorted.
From Verif Require Import Np PyVal NpFacts BaseFacts SimplexModel Spec SpecDanger SpecNoise SpecComp SimplexFacts SimplexGeom Float64
  SamplerModel SamplerFacts OversFacts BaseModel DangerModel DangerFacts ClusterOversModel OversGen ClusterOversFacts NoiseFacts NoiseFacts2 CompModel CompFacts
  NearModel SpecNear NearFacts NearFacts2 RegionModel RegionFacts3 LevelModel LevelFacts4 SpecGroup GroupFacts GroupFacts2 WrapModel SpecWrap WrapFacts WrapFacts2 DirModel SpecDir SearchModel SearchFacts SearchFacts2 DirFacts3 GroupFacts6 EditFacts3 GraphModel SpecGraph GraphFacts GraphFacts2.
Import ListNotations.
Open Scope nat_scope.

Lemma mm_forth d mm x : length mm = d -> Forall (fun lr => ~ (snd lr == 0)%Q) mm -> length x = d ->
  same_row (mm_transform mm (mm_inverse mm x)) x.
Proof.
  intros Hm Hr Hx. assert (L1 : length (mm_inverse mm x) = d) by (unfold mm_inverse; rewrite map2_length; lia).
  assert (L2 : length (mm_transform mm (mm_inverse mm x)) = d) by (unfold mm_transform; rewrite map2_length; lia).
  apply (Forall2_nth_intro _ 0%Q 0%Q); [lia|]. intros j Hj.
  rewrite mm_transform_nth, mm_inverse_nth by lia. rewrite Forall_forall in Hr.
  assert (Hj' : j < length mm) by lia. pose proof (Hr (nth j mm (0, 0)%Q) (nth_In mm (0, 0)%Q Hj')). field. assumption.
Qed.

(** ** Masks *)

Lemma select_map_filter {A} (f : A -> bool) l : select (map f l) l = filter f l.
Proof. induction l as [|a l IH]; [reflexivity|]. cbn. rewrite IH. now destruct (f a). Qed.

Lemma select_in_iff {A} m (l : list A) x : In x (select m l) <-> exists a, nth_error m a = Some true /\ nth_error l a = Some x.
Proof.
  revert l. induction m as [|b m IH]; intros l.
  - cbn. split; [contradiction|]. intros (a & H & _). destruct a; discriminate.
  - destruct l as [|y l]; cbn [select].
    + split; [contradiction|]. intros (a & _ & H). destruct a; discriminate.
    + assert (G : In x (select m l) <-> exists a, nth_error (b :: m) (S a) = Some true /\ nth_error (y :: l) (S a) = Some x) by apply IH.
      destruct b; cbn [In]; [rewrite G|rewrite G]; split.
      * intros [->|(a & H)]; [exists 0; auto|exists (S a); auto].
      * intros ([|a] & H1 & H2); [left; cbn in H2; congruence|right; eauto].
      * intros (a & H). exists (S a). auto.
      * intros ([|a] & H1 & H2); [discriminate|eauto].
Qed.

Lemma where_place (f : Z -> bool) y : forall s a i, nth_error (select (map f y) (seq s (length y))) a = Some (s + i) ->
  i < length y /\ f (nth i y 0%Z) = true /\ a = length (filter f (firstn i y)).
Proof.
  induction y as [|z y IH]; intros s a i H; [destruct a; discriminate|].
  cbn [map length seq select] in H. destruct (f z) eqn:Ez.
  - destruct a as [|a]; cbn [nth_error] in H.
    + injection H as H. assert (i = 0) by lia. subst i. cbn. rewrite Ez. split; [lia|auto].
    + assert (1 <= i).
      { apply nth_error_In, select_incl, in_seq in H. lia. }
      destruct i as [|i]; [lia|]. replace (s + S i) with (S s + i) in H by lia. destruct (IH _ _ _ H) as (H1 & H2 & H3).
      cbn. rewrite Ez. cbn. split; [lia|]. split; [exact H2|lia].
  - assert (1 <= i).
    { apply nth_error_In, select_incl, in_seq in H. lia. }
    destruct i as [|i]; [lia|]. replace (s + S i) with (S s + i) in H by lia. destruct (IH _ _ _ H) as (H1 & H2 & H3).
    cbn. rewrite Ez. split; [lia|]. auto.
Qed.

Lemma where_there (f : Z -> bool) y : forall s i, i < length y -> f (nth i y 0%Z) = true ->
  nth_error (select (map f y) (seq s (length y))) (length (filter f (firstn i y))) = Some (s + i).
Proof.
  induction y as [|z y IH]; intros s i Hi Hf; [cbn in Hi; lia|]. cbn [map length seq select].
  destruct i as [|i]; cbn [nth] in Hf; cbn [firstn filter length].
  - rewrite Hf. cbn. f_equal. lia.
  - cbn in Hi. destruct (f z); cbn [length nth_error]; rewrite (IH (S s) i ltac:(lia) Hf); f_equal; lia.
Qed.

Lemma votes_all y t z : votes y t z = length t <-> Forall (fun j => nth j y 0%Z = z) t.
Proof.
  unfold votes. induction t as [|j t IH]; [split; [constructor|reflexivity]|]. cbn [filter].
  pose proof (filter_len (fun i => Z.eqb (nth i y 0%Z) z) t).
  destruct (Z.eqb_spec (nth j y 0%Z) z) as [E|E]; cbn [length]; split; intros H'.
  - constructor; [exact E|]. apply IH. lia.
  - inversion H'; subst. f_equal. now apply IH.
  - lia.
  - inversion H'; subst. contradiction.
Qed.

Lemma votes_le y t z : votes y t z <= length t.
Proof. apply filter_len. Qed.

Lemma tally_ok y z t : Forall (fun j => j < length y) t -> tally y z t = Ok (votes y t z).
Proof.
  intros H. unfold tally. rewrite (gather_map 0%Z) by assumption. cbn [bind]. f_equal. unfold votes.
  clear H. induction t as [|j t IH]; [reflexivity|]. cbn. rewrite (Z.eqb_sym z). destruct (Z.eqb _ z); cbn; now rewrite IH.
Qed.

Lemma foreign_ok y z T : Forall (Forall (fun j => j < length y)) T -> mapM (count_neighbours y z) T = Ok (map (foreign y z) T).
Proof.
  intros H. rewrite <- (mapM_pure (foreign y z)). apply mapM_ext_in. intros t Ht. rewrite Forall_forall in H.
  rewrite count_neighbours_ok, neighbours_votes by auto. reflexivity.
Qed.

Lemma mem_in l x : mem l x = true <-> In x l.
Proof. unfold mem. rewrite existsb_exists. split; [intros (y & H & E); apply Nat.eqb_eq in E; now subst|intros H; exists x; now rewrite Nat.eqb_refl]. Qed.

Section VIS.

Variable volume : list row -> Q.
Variable dist : row -> row -> Q.
Variable nn : list row -> list row -> nat -> res (list (list nat)).
Variable sd : list Q -> Q.
Hypothesis Hnn : knn_ok dist nn.

Lemma vis_relabel_ok p mn mj X y : length X = length y ->
  mn <> mj ->
  let k := Nat.min (length X) (vi_n_neighbors p + 1) in
  exists y1 T, vis_relabel nn p mn mj X y = Ok y1 /\ nearest_table dist X (rows_with mj X y) k T /\ relabelled y mn mj T y1.
Proof.
  intros HL Hne k. unfold vis_relabel. fold k.
  destruct (Hnn X (rows_with mj X y) k) as (T & ET & HT); [unfold k; lia|]. rewrite ET. cbn [bind].
  destruct (nearest_table_shape _ _ _ _ _ HT) as (LT & RT & BT). rewrite HL in BT.
  rewrite (mapM_map (tally y mj) (fun t => votes y t mj)).
  2: { intros t Ht. apply tally_ok. rewrite Forall_forall in BT. auto. }
  cbn [bind]. eexists _, T. split; [reflexivity|]. split; [exact HT|].
  set (bd := select _ _).
  assert (Hbd : forall i, mem bd i = true <-> i < length y /\ nth i y 0%Z = mj /\ ~ Forall (fun j => nth j y 0%Z = mj) (nth (count_label (firstn i y) mj) T [])).
  { intros i. rewrite mem_in. unfold bd. rewrite select_in_iff. rewrite map_map.
    assert (Hc : forall i, length (filter (Z.eqb mj) (firstn i y)) = count_label (firstn i y) mj) by (intros; apply filter_count).
    assert (Hv : forall a, a < length T -> nth_error (map (fun t => negb (votes y t mj =? k)) T) a = Some true <-> ~ Forall (fun j => nth j y 0%Z = mj) (nth a T [])).
    { intros a Ha. rewrite nth_error_map, (nth_error_nth' T []) by exact Ha. cbn [option_map].
      assert (Lk : length (nth a T []) = k) by (unfold rect in RT; rewrite Forall_forall in RT; apply RT, nth_In, Ha).
      rewrite <- votes_all, Lk. destruct (Nat.eqb_spec (votes y (nth a T []) mj) k); cbn; split; congruence. }
    split.
    - intros (a & H1 & H2). unfold where_ in H2. rewrite map_length in H2. destruct (where_place (Z.eqb mj) y 0 a i H2) as (P1 & P2 & P3).
      apply Z.eqb_eq in P2. rewrite Hc in P3. subst a. split; [exact P1|]. split; [congruence|]. apply Hv; [|exact H1].
      rewrite nth_error_map in H1. destruct (nth_error T _) eqn:E; [|discriminate]. apply nth_error_Some. congruence.
    - intros (P1 & P2 & P3). exists (count_label (firstn i y) mj). rewrite <- Hc.
      assert (HW := where_there (Z.eqb mj) y 0 i P1 ltac:(rewrite P2; apply Z.eqb_refl)). unfold where_. rewrite map_length. split; [|exact HW].
      rewrite Hc. apply Hv; [|exact P3]. rewrite LT, (rows_with_length mj X y HL), <- !filter_count.
      assert (length (filter (Z.eqb mj) (firstn i y)) < length (select (map (Z.eqb mj) y) (seq 0 (length y)))) by (apply nth_error_Some; congruence).
      assert (E : length (select (map (Z.eqb mj) y) (seq 0 (length y))) = length (filter (Z.eqb mj) y)); [|lia].
      clear. generalize 0. induction y as [|z y IH]; intros s; [reflexivity|]. cbn. destruct (mj =? z)%Z; cbn; now rewrite IH. }
  assert (Hn : forall i, i < length y -> nth i (map (fun il => if mem bd (fst il) then mn else snd il) (combine (seq 0 (length y)) y)) 0%Z =
     if mem bd i then mn else nth i y 0%Z).
  { intros i Hi. set (F := fun il : nat * Z => if mem bd (fst il) then mn else snd il). rewrite (nth_indep _ 0%Z (F (0, 0%Z))) by (rewrite map_length, combine_length, seq_length; lia).
    rewrite map_nth, combine_nth by now rewrite seq_length. rewrite seq_nth by exact Hi. reflexivity. }
  split; [rewrite map_length, combine_length, seq_length; lia|]. intros i Hi. rewrite (Hn i Hi). split.
  - intros ->. now destruct (mem bd i).
  - intros Ey. cbv zeta. split; intros Hall.
    + destruct (mem bd i) eqn:E; [|exact Ey]. apply Hbd in E. destruct E as (_ & _ & E). contradiction.
    + replace (mem bd i) with true; [reflexivity|]. symmetry. apply Hbd. auto.
Qed.

(** The kinds of the minority rows. *)
Definition kind_of (y : list Z) (mj : Z) (k : nat) (t : list nat) : vis_label :=
  let c := foreign y mj t in if 2 * c <? k - 1 then SAF else if c =? k - 1 then NOI else DAN.

Lemma kind_saf y mj k t : is_saf (kind_of y mj k t) = true <-> safe_row y mj k t.
Proof. unfold kind_of, safe_row. destruct (Nat.ltb_spec (2 * foreign y mj t) (k - 1)); [cbn; tauto|]. destruct (_ =? _); cbn; split; (discriminate || lia). Qed.
Lemma kind_noi y mj k t : is_noi (kind_of y mj k t) = true <-> noise_row y mj k t.
Proof.
  unfold kind_of, noise_row, safe_row. destruct (Nat.ltb_spec (2 * foreign y mj t) (k - 1)); [cbn; split; [discriminate|tauto]|].
  destruct (Nat.eqb_spec (foreign y mj t) (k - 1)); cbn; split; try discriminate; [intros _; split; [lia|assumption]|auto|tauto].
Qed.
Lemma kind_dan y mj k t : is_dan (kind_of y mj k t) = true <-> danger_row y mj k t.
Proof.
  unfold kind_of, danger_row, safe_row. destruct (Nat.ltb_spec (2 * foreign y mj t) (k - 1)); [cbn; split; [discriminate|tauto]|].
  destruct (Nat.eqb_spec (foreign y mj t) (k - 1)); cbn; split; try discriminate; [tauto|intros _; split; [lia|assumption]|auto].
Qed.

Lemma vis_labels_ok p mj X y X_min : length X = length y ->
  let k := Nat.min (length X) (vi_n_neighbors p + 1) in
  exists N, nearest_table dist X X_min k N /\ vis_labels nn p mj X y X_min = Ok (map (kind_of y mj k) N).
Proof.
  intros HL k. unfold vis_labels. fold k. destruct (Hnn X X_min k) as (T & ET & HT); [unfold k; lia|]. rewrite ET. cbn [bind].
  destruct (nearest_table_shape _ _ _ _ _ HT) as (LT & RT & BT). rewrite HL in BT. rewrite foreign_ok by exact BT. cbn [bind].
  exists T. split; [exact HT|]. rewrite map_map. reflexivity.
Qed.

Lemma select_Forall2 {A B} (R : A -> B -> Prop) m l l' : Forall2 R l l' -> Forall2 R (select m l) (select m l').
Proof.
  intros H. revert m. induction H as [|x y l l' H _ IH]; intros [|b m]; cbn; try constructor. destruct b; [constructor; auto|auto].
Qed.

Lemma vis_noise_ok p mj X y samples : length X = length y ->
  let k := Nat.min (length X) (vi_n_neighbors p + 1) in
  exists m C, vis_noise nn p mj X y samples = Ok (select m samples) /\ length m = length samples /\ nearest_table dist X (select m samples) k C /\ Forall (fun t => foreign y mj t = 0) C.
Proof.
  intros HL k. unfold vis_noise. fold k. destruct (Hnn X samples k) as (T & ET & HT); [unfold k; lia|]. rewrite ET. cbn [bind].
  destruct (nearest_table_shape _ _ _ _ _ HT) as (LT & RT & BT). rewrite HL in BT. rewrite foreign_ok by exact BT. cbn [bind]. rewrite map_map.
  exists (map (fun t => foreign y mj t =? 0) T), (select (map (fun t => foreign y mj t =? 0) T) T).
  split; [reflexivity|]. split; [rewrite map_length; exact LT|]. split; [apply select_Forall2, HT|].
  rewrite select_map_filter. apply Forall_forall. intros t Ht. apply filter_In in Ht. now apply Nat.eqb_eq.
Qed.

(** What the two complex modes generate, in the given space. *)
Definition raw_row (d n_dim : nat) (X_min : list row) (copied other : nat -> Prop) (k : nat) (T : list (list nat)) (x : row) : Prop :=
  (exists b, b < length X_min /\ copied b /\ x = nth b X_min []) \/
  (exists b ps, b < length X_min /\ other b /\ length ps = Nat.min n_dim (k - 1) - 1 /\ StronglySorted lt ps /\ Forall (fun q => 2 <= q < k) ps /\
     convex_comb d (nth b X_min [] :: map (fun q => nth (nth q (nth b T []) 0) X_min []) ps) x).

Lemma where_map_filter {A} (a : A) (f : A -> bool) l : where_ (map f l) = filter (fun b => f (nth b l a)) (seq 0 (length l)).
Proof.
  rewrite where_filter, map_length. apply filter_ext_in. intros b Hb. apply in_seq in Hb.
  rewrite (nth_indep _ false (f a)) by (rewrite map_length; lia). apply map_nth.
Qed.

Lemma vis_sampling_ok p copied rs dim X_min labels M k n : rngs_ok rs -> rngs_pos rs -> plain_ss (vi_ss p) -> ss_gauss (vi_ss p) = GNone ->
  rect dim X_min -> nearest_table dist X_min X_min k M -> 2 <= k ->
  length labels = length X_min -> forallb is_noi labels = false ->
  exists S, vis_sampling volume p copied rs dim X_min labels M k n = Ok S /\ length S = n /\
    Forall (raw_row dim (ss_n_dim (vi_ss p)) X_min (fun b => is_noi (nth b labels SAF) = false /\ copied (nth b labels SAF) = true)
              (fun b => is_noi (nth b labels SAF) = false /\ copied (nth b labels SAF) = false) k M) S.
Proof.
  intros Hr Hu Hss Hg HX HM Hk Hl Hnoi. unfold vis_sampling.
  destruct (nearest_table_shape _ _ _ _ _ HM) as (LM & RM & BM).
  set (keep := map (fun l => negb (is_noi l)) labels).
  assert (Lk : length keep = length X_min) by (unfold keep; now rewrite map_length).
  set (P1 := where_ keep).
  assert (HP1 : P1 = filter (fun b => negb (is_noi (nth b labels SAF))) (seq 0 (length labels))) by exact (where_map_filter SAF (fun l => negb (is_noi l)) labels).
  assert (EX : select keep X_min = map (fun b => nth b X_min []) P1) by now apply select_where.
  assert (EM : select keep M = map (fun b => nth b M []) P1) by (apply select_where; lia).
  assert (EL : select keep labels = map (fun b => nth b labels SAF) P1) by (apply select_where; lia).
  assert (InP : forall b, In b P1 <-> b < length X_min /\ is_noi (nth b labels SAF) = false).
  { intros b. rewrite HP1, filter_In, in_seq, negb_true_iff, Hl. split; intros [H1 H2]; (split; [lia|exact H2]). }
  assert (NP : 0 < length P1).
  { destruct P1 as [|b P1'] eqn:E; [|cbn; lia]. exfalso.
    assert (forallb is_noi labels = true); [|congruence]. apply forallb_forall. intros l Hin. apply (In_nth _ _ SAF) in Hin. destruct Hin as (b & Hb & <-).
    destruct (is_noi (nth b labels SAF)) eqn:En; [reflexivity|]. exfalso. apply (proj2 (InP b)). split; [lia|exact En]. }
  rewrite EX, EM, EL, map_map. set (cp := fun b => copied (nth b labels SAF)).
  destruct (choice_range_ok (rs 0) (length P1) (Nat.max n 10) (Hr 0) NP) as (base & EB & LB & FB).
  rewrite map_length, EB. cbn [bind].
  rewrite (gather_map false) by (rewrite map_length; exact FB). cbn [bind].
  set (flags := map (fun i => nth i (map cp P1) false) base).
  assert (Efl : flags = map (fun i => cp (nth i P1 0)) base).
  { apply map_ext_in. intros i Hi. rewrite Forall_forall in FB. specialize (FB i Hi). rewrite (nth_indep _ false (cp 0)) by (rewrite map_length; exact FB). apply map_nth. }
  assert (Fsel : forall f, Forall (fun i => i < length (map (fun b => nth b X_min []) P1)) (select (map f base) base)).
  { intros f. apply Forall_forall. intros i Hi. apply select_incl in Hi. rewrite map_length. rewrite Forall_forall in FB. auto. }
  rewrite Efl. rewrite (gather_map []) by apply Fsel. cbn [bind].
  set (copies := map _ (select (map (fun i => cp (nth i P1 0)) base) base)).
  assert (HC : Forall (fun x => exists b, b < length X_min /\ (is_noi (nth b labels SAF) = false /\ cp b = true) /\ x = nth b X_min []) copies).
  { apply Forall_forall. intros x Hx. unfold copies in Hx. apply in_map_iff in Hx. destruct Hx as (i & <- & Hi).
    rewrite select_map_filter in Hi. apply filter_In in Hi. destruct Hi as [Hi Hc]. rewrite Forall_forall in FB. specialize (FB i Hi).
    exists (nth i P1 0). destruct (proj1 (InP (nth i P1 0)) (nth_In _ _ FB)) as [B1 B2]. split; [exact B1|]. split; [auto|].
    rewrite (nth_indep _ [] (nth 0 X_min [])) by (rewrite map_length; exact FB). apply (map_nth (fun b => nth b X_min [])). }
  assert (LC : length copies = length (filter (fun i => cp (nth i P1 0)) base)) by (unfold copies; rewrite map_length, select_map_filter; reflexivity).
  rewrite !map_map, !select_map, !select_map_filter, ?map_map.
  set (P2 := filter (fun x => negb (cp x)) P1). set (cnt := length (filter (fun x => negb (cp (nth x P1 0))) base)).
  assert (Lcnt : length copies + cnt = Nat.max n 10).
  { rewrite LC. unfold cnt. rewrite <- LB. clear. induction base as [|i base IH]; [reflexivity|]. cbn. destruct (cp (nth i P1 0)); cbn; lia. }
  assert (HS : exists more, sample_simplex volume (vi_ss p) (mk_args (map (fun b => nth b X_min []) P2) dim (map (fun b => tl (nth b M [])) P2) (k - 1) None None (Some X_min) false None) cnt (rs 1) = Ok more /\
     length more = cnt /\ Forall (fun x => exists b ps, b < length X_min /\ (is_noi (nth b labels SAF) = false /\ cp b = false) /\ length ps = Nat.min (ss_n_dim (vi_ss p)) (k - 1) - 1 /\ StronglySorted lt ps /\ Forall (fun q => 2 <= q < k) ps /\
       convex_comb dim (nth b X_min [] :: map (fun q => nth (nth q (nth b M []) 0) X_min []) ps) x) more).
  { destruct (Nat.eq_dec cnt 0) as [E0|N0].
    { rewrite E0. exists []. split; [reflexivity|]. split; [reflexivity|constructor]. }
    assert (NP2 : 0 < length P2).
    { unfold cnt in N0. destruct (filter (fun x => negb (cp (nth x P1 0))) base) as [|i l] eqn:Ef; [cbn in N0; lia|].
      assert (Hi : In i (filter (fun x => negb (cp (nth x P1 0))) base)) by (rewrite Ef; now left). apply filter_In in Hi. destruct Hi as [Hi Hc].
      rewrite Forall_forall in FB. specialize (FB i Hi).
      assert (In (nth i P1 0) P2) by (apply filter_In; split; [now apply nth_In|exact Hc]). destruct P2; [contradiction|cbn; lia]. }
    assert (InP2 : forall b, In b P2 -> b < length X_min /\ is_noi (nth b labels SAF) = false /\ cp b = false).
    { intros b Hb. apply filter_In in Hb. destruct Hb as [Hb Hc]. apply negb_true_iff in Hc. destruct (proj1 (InP b) Hb). auto. }
    destruct (ss_call volume (vi_ss p) (mk_args (map (fun b => nth b X_min []) P2) dim (map (fun b => tl (nth b M [])) P2) (k - 1) None None (Some X_min) false None) cnt (rs 1) 0)
      as (more & E & L & HF).
    - constructor; cbn; try exact I.
      + unfold rect. apply Forall_forall. intros x Hx. apply in_map_iff in Hx. destruct Hx as (b & <- & Hb). unfold rect in HX. rewrite Forall_forall in HX. apply HX, nth_In. now apply InP2.
      + exact HX.
      + discriminate.
      + unfold rect. apply Forall_forall. intros x Hx. apply in_map_iff in Hx. destruct Hx as (b & <- & Hb). unfold rect in RM. rewrite Forall_forall in RM.
        assert (Hb' : b < length M) by (rewrite LM; now apply InP2). pose proof (RM (nth b M []) (nth_In _ _ Hb')) as H. destruct (nth b M []); cbn in *; lia.
      + now rewrite !map_length.
      + apply Forall_forall. intros x Hx. apply in_map_iff in Hx. destruct Hx as (b & <- & Hb).
        assert (Hb' : b < length M) by (rewrite LM; now apply InP2). rewrite Forall_forall in BM. pose proof (BM (nth b M []) (nth_In _ _ Hb')) as H. destruct (nth b M []); [constructor|now inversion H].
    - apply Hr.
    - apply Hu.
    - exact Hss.
    - cbn. lia.
    - cbn. rewrite map_length. exact NP2.
    - reflexivity.
    - exact I.
    - exists more. split; [exact E|]. split; [exact L|]. specialize (HF Hg). cbn [a_dim a_X a_X_vertices a_indices a_ncols a_base_weights a_simplex_weights vertex_set] in HF.
      eapply Forall_impl; [|exact HF]. intros x (c & ps & C1 & C2 & C3 & C4 & _ & _ & C5). rewrite map_length in C1.
      exists (nth c P2 0), (map S ps). destruct (InP2 _ (nth_In P2 0 C1)) as (B1 & B2 & B3). split; [exact B1|]. split; [auto|].
      split; [now rewrite map_length|]. split.
      { clear - C3. induction C3 as [|a l S IH F]; constructor; [exact IH|]. apply Forall_forall. intros q Hq. apply in_map_iff in Hq. destruct Hq as (q' & <- & Hq).
        rewrite Forall_forall in F. specialize (F q' Hq). lia. }
      split.
      { apply Forall_forall. intros q Hq. apply in_map_iff in Hq. destruct Hq as (q' & <- & Hq). rewrite Forall_forall in C4. specialize (C4 q' Hq). lia. }
      rewrite map_map.
      rewrite (nth_indep (map (fun b => nth b X_min []) P2) [] (nth 0 X_min [])) in C5 by (rewrite map_length; exact C1).
      rewrite (map_nth (fun b => nth b X_min [])) in C5.
      erewrite map_ext_in in C5; [exact C5|]. intros q Hq. cbn.
      rewrite (nth_indep (map (fun b => tl (nth b M [])) P2) [] (tl (nth 0 M []))) by (rewrite map_length; exact C1).
      rewrite (map_nth (fun b => tl (nth b M []))). f_equal. destruct (nth (nth c P2 0) M []); [now destruct q|reflexivity]. }
  destruct HS as (more & ES & LS & FS). rewrite ES. cbn [bind]. eexists. split; [reflexivity|]. split; [rewrite firstn_length, app_length; lia|].
  apply Forall_forall. intros x Hx. apply firstn_In in Hx. apply in_app_or in Hx. destruct Hx as [Hx|Hx].
  - left. rewrite Forall_forall in HC. exact (HC x Hx).
  - right. rewrite Forall_forall in FS. exact (FS x Hx).
Qed.

Lemma count_keep z : forall y y1, length y1 = length y -> (forall i, i < length y -> nth i y 0%Z = z -> nth i y1 0%Z = z) ->
  count_label y z <= count_label y1 z.
Proof.
  induction y as [|a y IH]; intros [|b y1] L H; try discriminate; [reflexivity|]. injection L as L.
  specialize (IH y1 L (fun i Hi => H (S i) ltac:(cbn; lia))). unfold count_label in *. cbn [count_occ].
  pose proof (H 0 ltac:(cbn; lia)) as H0. cbn in H0.
  destruct (Z.eq_dec a z) as [E|E], (Z.eq_dec b z) as [E'|E']; lia.
Qed.

Lemma back_comb d mm X b (ps : list nat) (idx : nat -> nat) z :
  length mm = d -> Forall (fun lr => ~ (snd lr == 0)%Q) mm -> rect d X -> b < length X -> (forall q, In q ps -> idx q < length X) ->
  convex_comb d (nth b (map (mm_transform mm) X) [] :: map (fun q => nth (idx q) (map (mm_transform mm) X) []) ps) z ->
  convex_comb d (nth b X [] :: map (fun q => nth (idx q) X []) ps) (mm_inverse mm z).
Proof.
  intros Hm Hr HX Hb Hi H.
  assert (Hn : forall i, i < length X -> nth i (map (mm_transform mm) X) [] = mm_transform mm (nth i X [])).
  { intros i Hi'. rewrite (nth_indep _ [] (mm_transform mm [])) by (now rewrite map_length). apply map_nth. }
  apply (mm_convex d mm); [exact Hm|exact Hr| |].
  - unfold rect in *. rewrite Forall_forall in HX. constructor; [now apply HX, nth_In|]. apply Forall_forall. intros x Hx.
    apply in_map_iff in Hx. destruct Hx as (q & <- & Hq). now apply HX, nth_In, Hi.
  - cbn [map]. rewrite map_map, <- Hn by exact Hb. rewrite (map_ext_in (fun x => mm_transform mm (nth (idx x) X [])) (fun q => nth (idx q) (map (mm_transform mm) X) [])); [exact H|].
    intros q Hq. symmetry. now apply Hn, Hi.
Qed.

Lemma table_entry X k M b q : nearest_table dist X X k M -> 0 < length X -> nth q (nth b M []) 0 < length X.
Proof.
  intros HM HX. destruct (nearest_table_shape _ _ _ _ _ HM) as (LM & RM & BM). rewrite Forall_forall in BM.
  destruct (Nat.lt_ge_cases b (length M)) as [Hb|Hb]; [|rewrite (nth_overflow M) by exact Hb; destruct q; exact HX].
  specialize (BM _ (nth_In M [] Hb)). rewrite Forall_forall in BM.
  destruct (Nat.lt_ge_cases q (length (nth b M []))) as [Hq|Hq]; [apply BM, nth_In, Hq|]. rewrite nth_overflow by exact Hq. exact HX.
Qed.

Lemma vis_generate_ok p rs dim X_min N y mj kk n : rngs_ok rs -> rngs_pos rs -> plain_ss (vi_ss p) -> ss_gauss (vi_ss p) = GNone ->
  rect dim X_min -> 2 <= length X_min -> 1 <= vi_n_neighbors p -> length N = length X_min ->
  ~ (forall b, b < length X_min -> noise_row y mj kk (nth b N [])) ->
  let kind := fun (K : list Z -> Z -> nat -> list nat -> Prop) b => K y mj kk (nth b N []) in
  let k' := Nat.min (length X_min) (vi_n_neighbors p + 1) in
  exists S M, vis_generate volume nn p rs dim X_min (map (kind_of y mj kk) N) n = Ok S /\ length S = n /\
    nearest_table dist X_min X_min k' M /\
    ((forall b, b < length X_min -> ~ kind safe_row b) ->
       Forall (neighbour_sample dim X_min X_min M k' (Nat.min (ss_n_dim (vi_ss p)) k' - 1) None None) S) /\
    (~ (forall b, b < length X_min -> ~ kind safe_row b) ->
       (forall B, positions (fun b => b < length X_min /\ kind danger_row b) B -> 3 * length X_min < 10 * length B ->
          Forall (raw_row dim (ss_n_dim (vi_ss p)) X_min (kind danger_row) (kind safe_row) k' M) S) /\
       (forall B, positions (fun b => b < length X_min /\ kind danger_row b) B -> 10 * length B <= 3 * length X_min ->
          Forall (raw_row dim (ss_n_dim (vi_ss p)) X_min (kind safe_row) (kind danger_row) k' M) S)).
Proof.
  intros Hr Hu Hss Hg HX H2 Hnb HN Hno kind k'. unfold vis_generate. fold k'. set (labels := map (kind_of y mj kk) N).
  assert (Ll : length labels = length X_min) by (unfold labels; now rewrite map_length).
  assert (Hnth : forall b, b < length X_min -> nth b labels SAF = kind_of y mj kk (nth b N [])).
  { intros b Hb. unfold labels. rewrite (nth_indep _ SAF (kind_of y mj kk [])) by (rewrite map_length; lia). apply map_nth. }
  destruct (Hnn X_min X_min k') as (M & EM & HM); [unfold k'; lia|]. rewrite EM. cbn [bind].
  assert (Hk' : 2 <= k') by (unfold k'; lia).
  assert (Hf : forall P : vis_label -> bool, length (filter P labels) = 0 <-> forall b, b < length X_min -> P (nth b labels SAF) = false).
  { intros P. rewrite <- Ll. clear. induction labels as [|l ls IH]; [split; [intros; cbn in *; lia|reflexivity]|]. cbn [filter]. split.
    - intros H b Hb. destruct (P l) eqn:E; [cbn in H; lia|]. destruct b as [|b]; [exact E|]. cbn. apply IH; [exact H|cbn in Hb; lia].
    - intros H. pose proof (H 0 ltac:(cbn; lia)) as H0. cbn in H0. rewrite H0. apply IH. intros b Hb. apply (H (S b)). cbn. lia. }
  assert (Hall : forallb is_noi labels = false).
  { destruct (forallb is_noi labels) eqn:E; [|reflexivity]. exfalso. apply Hno. intros b Hb. apply kind_noi. rewrite <- Hnth by exact Hb.
    rewrite forallb_forall in E. apply E, nth_In. lia. }
  assert (Hdan : forall B, positions (fun b => b < length X_min /\ kind danger_row b) B -> length B = length (filter is_dan labels)).
  { intros B HB. assert (E : B = where_ (map is_dan labels)).
    { eapply positions_unique; [exact HB|apply positions_where|]. intros b. rewrite nth_error_map_true. unfold kind. split.
      - intros [Hb Hd]. exists (nth b labels SAF). split; [apply nth_error_nth'; lia|]. rewrite Hnth by exact Hb. now apply kind_dan.
      - intros (l & Hl & Hd). assert (Hb : b < length X_min) by (rewrite <- Ll; apply nth_error_Some; congruence). split; [exact Hb|].
        apply kind_dan. rewrite <- Hnth by exact Hb. now rewrite (nth_error_nth _ _ _ Hl). }
    rewrite E. unfold where_. rewrite map_length. clear. generalize 0. induction labels as [|l ls IH]; intros s; [reflexivity|]. cbn. destruct (is_dan l); cbn; now rewrite IH. }
  assert (Hsafe : (length (filter is_saf labels) = 0) <-> forall b, b < length X_min -> ~ kind safe_row b).
  { rewrite Hf. unfold kind. split; intros H b Hb.
    - intros Hs. apply kind_saf in Hs. rewrite <- Hnth in Hs by exact Hb. rewrite (H b Hb) in Hs. discriminate.
    - rewrite Hnth by exact Hb. destruct (is_saf _) eqn:E; [|reflexivity]. apply kind_saf in E. destruct (H b Hb E). }
  assert (Hwk : forall (P Q P' Q' : nat -> Prop) S, (forall b, b < length X_min -> P b -> P' b) -> (forall b, b < length X_min -> Q b -> Q' b) ->
     Forall (raw_row dim (ss_n_dim (vi_ss p)) X_min P Q k' M) S -> Forall (raw_row dim (ss_n_dim (vi_ss p)) X_min P' Q' k' M) S).
  { intros P Q P' Q' S HP HQ HF. eapply Forall_impl; [|exact HF]. intros x [(b & B1 & B2 & B3)|(b & ps & B1 & B2 & B3)]; [left; eauto|right; exists b, ps; auto]. }
  destruct (Nat.eqb_spec (length (filter is_saf labels)) 0) as [H0|H0].
  - destruct (nearest_table_shape _ _ _ _ _ HM) as (LM & RM & BM).
    destruct (ss_call volume (vi_ss p) (mk_args X_min dim M k' None None None false None) n (rs 1) 0) as (S & E & L & HF).
    + constructor; cbn; try exact I; try exact HX; try exact RM; try exact BM; try discriminate. lia.
    + apply Hr.
    + apply Hu.
    + exact Hss.
    + cbn. lia.
    + cbn. lia.
    + reflexivity.
    + exact I.
    + exists S, M. split; [exact E|]. split; [exact L|]. split; [exact HM|]. split; [intros _; exact (HF Hg)|]. intros H. exfalso. apply H. now apply Hsafe.
  - destruct (Nat.ltb_spec (3 * length X_min) (10 * length (filter is_dan labels))) as [Hd|Hd].
    + destruct (vis_sampling_ok p is_dan rs dim X_min labels M k' n Hr Hu Hss Hg HX HM Hk' Ll Hall) as (S & E & L & HF).
      exists S, M. split; [exact E|]. split; [exact L|]. split; [exact HM|]. split; [intros H; exfalso; apply H0; now apply Hsafe|]. intros _. split.
      * intros B _ _. eapply Hwk; [| |exact HF].
        -- intros b Hb [_ H]. apply kind_dan. now rewrite <- Hnth.
        -- intros b Hb [H1 H3]. apply kind_saf. rewrite <- Hnth by exact Hb. now destruct (nth b labels SAF).
      * intros B HB HB'. rewrite (Hdan B HB) in HB'. lia.
    + destruct (vis_sampling_ok p is_saf rs dim X_min labels M k' n Hr Hu Hss Hg HX HM Hk' Ll Hall) as (S & E & L & HF).
      exists S, M. split; [exact E|]. split; [exact L|]. split; [exact HM|]. split; [intros H; exfalso; apply H0; now apply Hsafe|]. intros _. split.
      * intros B HB HB'. rewrite (Hdan B HB) in HB'. lia.
      * intros B _ _. eapply Hwk; [| |exact HF].
        -- intros b Hb [_ H]. apply kind_saf. now rewrite <- Hnth.
        -- intros b Hb [H1 H3]. apply kind_dan. rewrite <- Hnth by exact Hb. now destruct (nth b labels SAF).
Qed.

Lemma Forall_select {A} (P : A -> Prop) m l : Forall P l -> Forall P (select m l).
Proof. intros H. rewrite Forall_forall in *. intros x Hx. apply H. now apply select_incl in Hx. Qed.

Lemma select_le {A} m (l : list A) : length (select m l) <= length l.
Proof. revert l. induction m as [|b m IH]; intros [|x l]; cbn; try lia. specialize (IH l). destruct b; cbn; lia. Qed.

Lemma vis_rst_ok p rs D mn mj n : rngs_ok rs -> rngs_pos rs -> plain_ss (vi_ss p) -> ss_gauss (vi_ss p) = GNone ->
  wf_data (d_X D) (d_dim D) (d_y D) -> is_minority (d_y D) mn mj -> asked (vi_proportion p) (d_y D) mn mj = Ok n -> 1 <= vi_n_neighbors p ->
  (count_label (d_y D) mn <= 2 \/ n = 0%Z -> unchanged D (vis_rst_sample volume nn sd p rs D)) /\
  (2 < count_label (d_y D) mn -> (0 < n)%Z -> vis_result dist sd p D mn mj n (vis_rst_sample volume nn sd p rs D)).
Proof.
  intros Hr Hu Hss Hg Hwf Hmin Hn Hk. unfold vis_rst_sample.
  destruct (sample_default (vis_rst_algorithm volume nn sd p rs) D mn mj Hmin) as (st & Hst & ->).
  destruct (stats_labels _ _ _ _ Hst) as [El1 El2].
  destruct (Nat.leb_spec (count_label (d_y D) mn) 2) as [Hle|Hgt].
  { split; [reflexivity|lia]. }
  unfold vis_rst_algorithm. rewrite (det_st_asked _ _ _ _ _ (proj1 Hmin) Hst), Hn. cbn [bind].
  pose proof (asked_some _ _ _ _ _ Hn). split.
  { intros [H'| ->]; [lia|]. reflexivity. }
  intros _ Hpos. destruct (Nat.eqb_spec (Z.to_nat n) 0) as [H0|H0]; [lia|]. rewrite El1, El2.
  destruct Hwf as [HX HL]. set (X := d_X D) in *. set (d := d_dim D) in *. set (y := d_y D) in *.
  set (mm := std_fit sd d X). set (f := mm_transform mm).
  assert (Lmm : length mm = d) by apply std_fit_length. assert (Rmm : Forall (fun lr => ~ (snd lr == 0)%Q) mm) by apply std_fit_range.
  destruct (std_standard sd d X) as (w & Hw1 & Hw2). fold mm f in Hw2.
  assert (HLf : length (map f X) = length y) by (rewrite map_length; exact HL).
  assert (Hne : mn <> mj) by (destruct Hmin as [[N _] _]; congruence).
  destruct (vis_relabel_ok p mn mj (map f X) y HLf Hne) as (y1 & T & ER & HT & HR).
  rewrite map_length in HT. rewrite (rows_with_map f mj X y HL) in HT || rewrite rows_with_map in HT by exact HL.
  assert (Ly1 : length y1 = length y) by apply HR.
  assert (EXm : rows_with mn (map f X) y1 = map f (rows_with mn X y1)) by (apply rows_with_map; lia).
  destruct (vis_labels_ok p mj (map f X) y1 (map f (rows_with mn X y1)) ltac:(lia)) as (N & HN & EN). rewrite map_length in HN, EN.
  assert (LN : length N = length (rows_with mn X y1)) by (rewrite <- (map_length f); exact (proj1 (nearest_table_shape _ _ _ _ _ HN))).
  set (k := Nat.min (length X) (vi_n_neighbors p + 1)) in *.
  exists w, f, T, y1, N. split; [exact Hw1|]. split; [exact Hw2|]. split; [exact HT|]. split; [exact HR|]. cbv zeta. fold k. split; [exact HN|].
  unfold vis_steps. rewrite ER. cbn [bind]. rewrite !filter_count, EXm, EN. cbn [bind].
  assert (Hfor : forallb is_noi (map (kind_of y1 mj k) N) = true <-> forall b, b < length (rows_with mn X y1) -> noise_row y1 mj k (nth b N [])).
  { rewrite forallb_forall, <- LN. split.
    - intros H' b Hb. apply kind_noi, H'. apply in_map, nth_In, Hb.
    - intros H' l Hl. apply in_map_iff in Hl. destruct Hl as (t & <- & Ht). apply (In_nth _ _ []) in Ht. destruct Ht as (b & Hb & <-). now apply kind_noi, H'. }
  split.
  { intros [Hc|Hc].
    - destruct (Nat.leb_spec (count_label y1 mj) (count_label y1 mn)); [|lia]. reflexivity.
    - destruct (count_label y1 mj <=? count_label y1 mn); [reflexivity|]. rewrite (proj2 Hfor Hc). reflexivity. }
  intros Hc Hno. destruct (Nat.leb_spec (count_label y1 mj) (count_label y1 mn)); [lia|].
  destruct (forallb is_noi (map (kind_of y1 mj k) N)) eqn:Efb; [destruct (Hno (proj1 Hfor eq_refl))|].
  set (X_min := rows_with mn X y1) in *.
  assert (Rm : rect d X_min) by (apply rows_with_rect, HX).
  assert (Lm : length X_min = count_label y1 mn) by (apply rows_with_length; lia).
  assert (Hcnt : count_label y mn <= count_label y1 mn).
  { apply count_keep; [exact Ly1|]. intros i Hi Ei. apply (proj1 (proj2 HR i Hi)), Ei. }
  assert (Rf : rect d (map f X_min)) by (apply transform_rect; [exact Lmm|exact Rm]).
  destruct (vis_generate_ok p rs d (map f X_min) N y1 mj k (Z.to_nat n) Hr Hu Hss Hg Rf ltac:(rewrite map_length; lia) Hk ltac:(rewrite map_length; exact LN)
     ltac:(rewrite map_length; exact Hno)) as (S & M & EG & LS & HM & G1 & G2).
  rewrite map_length in HM, G1, G2. rewrite EG. cbn [bind].
  destruct (vis_noise_ok p mj (map f X) y1 S ltac:(lia)) as (m & C & EV & Lme & HC & FC). rewrite map_length in HC. fold k in HC. rewrite EV. cbn [bind].
  rewrite map_app. exists (map (mm_inverse mm) (map f X)), (map (mm_inverse mm) (select m S)), (select m S), C, M.
  rewrite map_length. split; [reflexivity|]. split; [now apply (mm_back_rows d)|]. split; [rewrite <- LS; apply select_le|].
  set (k' := Nat.min (length X_min) (vi_n_neighbors p + 1)) in *.
  assert (Hpos' : 0 < length X_min) by lia.
  assert (Hent : forall b q, nth q (nth b M []) 0 < length X_min).
  { intros b q. rewrite <- (map_length f). eapply table_entry; [exact HM|]. now rewrite map_length. }
  assert (Hrow : forall copied other x, raw_row d (ss_n_dim (vi_ss p)) (map f X_min) copied other k' M x ->
     vis_row d (ss_n_dim (vi_ss p)) X_min copied other k' M (mm_inverse mm x)).
  { intros copied other x [(b & B1 & B2 & B3)|(b & ps & B1 & B2 & B3 & B4 & B5 & B6)]; rewrite map_length in B1.
    - left. exists b. split; [exact B1|]. split; [exact B2|]. subst x.
      rewrite (nth_indep _ [] (f [])) by (rewrite map_length; exact B1). rewrite map_nth. apply (mm_back d); [exact Lmm|exact Rmm|].
      unfold rect in Rm. rewrite Forall_forall in Rm. apply Rm, nth_In, B1.
    - right. exists b, ps. repeat (split; [assumption|]). exact (back_comb d mm X_min b ps (fun q => nth q (nth b M []) 0) x Lmm Rmm Rm B1 (fun q _ => Hent b q) B6). }
  assert (Hcv : forall x, neighbour_sample d (map f X_min) (map f X_min) M k' (Nat.min (ss_n_dim (vi_ss p)) k' - 1) None None x ->
     neighbour_sample d X_min X_min M k' (Nat.min (ss_n_dim (vi_ss p)) k' - 1) None None (mm_inverse mm x)).
  { intros x (b & ps & B1 & B2 & B3 & B4 & _ & _ & B5). exists b, ps. repeat (split; [assumption || exact I|]).
    assert (Hb : b < length X_min) by (pose proof (proj1 (nearest_table_shape _ _ _ _ _ HM)) as E; rewrite map_length in E; lia).
    exact (back_comb d mm X_min b ps (fun q => nth q (nth b M []) 0) x Lmm Rmm Rm Hb (fun q _ => Hent b q) B5). }
  assert (Hlen : Forall (fun x => length x = d) S).
  { set (K := fun b => safe_row y1 mj k (nth b N [])) in *. set (K2 := fun b => danger_row y1 mj k (nth b N [])) in *.
    assert (Hraw : forall copied other x, raw_row d (ss_n_dim (vi_ss p)) (map f X_min) copied other k' M x -> length x = d).
    { intros copied other x [(b & B1 & _ & ->)|(b & ps & _ & _ & _ & _ & _ & B6)]; [|apply B6].
      unfold rect in Rf. rewrite Forall_forall in Rf. apply Rf, nth_In, B1. }
    set (B := where_ (map is_dan (map (kind_of y1 mj k) N))).
    assert (HB : positions (fun b => b < length X_min /\ K2 b) B).
    { eapply positions_ext; [|apply positions_where]. intros b. rewrite nth_error_map_true. unfold K2. split.
      - intros (l & Hl & Hd). rewrite nth_error_map in Hl. destruct (nth_error N b) as [t|] eqn:Et; [|discriminate]. injection Hl as <-.
        split; [rewrite <- LN; apply nth_error_Some; congruence|]. rewrite (nth_error_nth _ _ [] Et). now apply kind_dan.
      - intros [Hb Hd]. exists (kind_of y1 mj k (nth b N [])). rewrite nth_error_map, (nth_error_nth' N []) by lia. split; [reflexivity|]. now apply kind_dan. }
    assert (Hdec : (forall b, b < length X_min -> ~ K b) \/ ~ (forall b, b < length X_min -> ~ K b)).
    { destruct (existsb is_saf (map (kind_of y1 mj k) N)) eqn:Es.
      - right. intros H'. apply existsb_exists in Es. destruct Es as (l & Hl & Hs). apply in_map_iff in Hl. destruct Hl as (t & <- & Ht).
        apply (In_nth _ _ []) in Ht. destruct Ht as (b & Hb & <-). apply kind_saf in Hs. apply (H' b ltac:(lia) Hs).
      - left. intros b Hb Hs. apply kind_saf in Hs. assert (existsb is_saf (map (kind_of y1 mj k) N) = true); [|congruence].
        apply existsb_exists. exists (kind_of y1 mj k (nth b N [])). split; [apply in_map, nth_In; lia|exact Hs]. }
    destruct Hdec as [Hd|Hd].
    - eapply Forall_impl; [|exact (G1 Hd)]. intros x (b & ps & _ & _ & _ & _ & _ & _ & B5). apply B5.
    - destruct (G2 Hd) as [G3 G4]. destruct (Nat.lt_ge_cases (3 * length X_min) (10 * length B)) as [Hl|Hl].
      + eapply Forall_impl; [|exact (G3 B HB Hl)]. intros x. apply Hraw.
      + eapply Forall_impl; [|exact (G4 B HB Hl)]. intros x. apply Hraw. }
  split.
  { apply Forall_select with (m := m) in Hlen. clear - Hlen Lmm Rmm. induction Hlen as [|x l Hx _ IH]; constructor; [|exact IH]. now apply (mm_forth d). }
  split; [exact HC|]. split; [exact FC|]. split; [exact HM|]. split.
  { intros Hs. specialize (G1 Hs). apply Forall_forall. intros x Hx. apply in_map_iff in Hx. destruct Hx as (z & <- & Hz). apply select_incl in Hz.
    rewrite Forall_forall in G1. now apply Hcv, G1. }
  intros Hs. destruct (G2 Hs) as [G3 G4]. split; intros B HB HB'; [specialize (G3 B HB HB')|specialize (G4 B HB HB')];
    apply Forall_forall; intros x Hx; apply in_map_iff in Hx; destruct Hx as (z & <- & Hz); apply select_incl in Hz; apply Hrow.
  - rewrite Forall_forall in G3. now apply G3.
  - rewrite Forall_forall in G4. now apply G4.
Qed.

End VIS.
