(** Facts about DBSMOTE of GraphModel.v. *)

From Coq Require Import List ZArith QArith Qabs Qminmax Bool Arith Lia Lqa Sorting.Sorted.
From Verif Require Import Np PyVal NpFacts BaseFacts SimplexModel Spec SpecDanger SpecNoise SpecComp SimplexFacts SimplexGeom Float64
  SamplerModel SamplerFacts OversFacts BaseModel DangerModel ClusterOversModel OversGen ClusterOversFacts CompModel CompFacts
  NearModel SpecNear NearFacts NearFacts2 RegionModel RegionFacts3 LevelModel WrapModel DirModel SpecDir SearchModel GraphModel SpecGraph GraphFacts.
Import ListNotations.
Open Scope nat_scope.

(** ** Standardisation *)

Lemma std_standard sd d X : exists w, (forall j, j < d -> std_scale sd X j (w j)) /\ standardised d X w (mm_transform (std_fit sd d X)).
Proof.
  exists (fun j => snd (nth j (std_fit sd d X) (0, 0)%Q)). split.
  - intros j Hj. rewrite std_fit_nth by assumption. cbn [snd]. unfold std_scale. fold (column j X).
    destruct (Qeq_bool (sd (column j X)) 0) eqn:E.
    + apply Qeq_bool_iff in E. split; intros; [contradiction|reflexivity].
    + split; intros H; [reflexivity|]. apply Qeq_bool_iff in H. congruence.
  - intros x Hx. pose proof (std_fit_length sd d X) as L.
    split; [unfold mm_transform; rewrite map2_length; lia|]. intros j Hj.
    rewrite mm_transform_nth by lia. rewrite std_fit_nth by assumption. cbn [fst snd]. unfold column. rewrite ?map_length. reflexivity.
Qed.

Lemma mm_transform_length d mm x : length mm = d -> length x = d -> length (mm_transform mm x) = d.
Proof. intros H1 H2. unfold mm_transform. rewrite map2_length. lia. Qed.
Lemma mm_inverse_length d mm x : length mm = d -> length x = d -> length (mm_inverse mm x) = d.
Proof. intros H1 H2. unfold mm_inverse. rewrite map2_length. lia. Qed.

(** ** DBSCAN *)

Lemma num_labels_from labels m : fold_left (fun m l => match l with None => m | Some i => Nat.max m (S i) end) labels m =
  Nat.max m (num_labels labels).
Proof.
  unfold num_labels. revert m. assert (G : forall labels m m', fold_left (fun m (l : option nat) => match l with None => m | Some i => Nat.max m (S i) end) labels (Nat.max m m') =
    Nat.max m (fold_left (fun m l => match l with None => m | Some i => Nat.max m (S i) end) labels m')).
  { clear. induction labels as [|[i|] labels IH]; intros m m'; cbn [fold_left]; auto. now rewrite <- Nat.max_assoc, IH. }
  intros m. rewrite <- (Nat.max_0_r m) at 1. apply G.
Qed.

Lemma num_labels_cons j labels : num_labels (Some j :: labels) = Nat.max (S j) (num_labels labels).
Proof. unfold num_labels at 1. cbn [fold_left]. rewrite num_labels_from. lia. Qed.

Lemma num_labels_le labels i : In (Some i) labels -> i < num_labels labels.
Proof.
  induction labels as [|[j|] labels IH]; intros H; [destruct H| |].
  - rewrite num_labels_cons. destruct H as [E|H]; [injection E as ->; lia|specialize (IH H); lia].
  - destruct H as [E|H]; [discriminate|]. unfold num_labels. cbn [fold_left]. now apply IH.
Qed.

Lemma num_labels_in labels : num_labels labels = 0 \/ In (Some (num_labels labels - 1)) labels.
Proof.
  induction labels as [|[j|] labels IH]; [now left| |].
  - rewrite num_labels_cons. destruct (Nat.max_spec (S j) (num_labels labels)) as [[H E]|[H E]]; rewrite E.
    + right. destruct IH as [IH|IH]; [lia|]. now right.
    + right. left. f_equal. lia.
  - unfold num_labels at 1 2. cbn [fold_left]. fold (num_labels labels). destruct IH; [now left|right; now right].
Qed.

Lemma num_labels_zero labels : num_labels labels = 0 <-> all_noise labels.
Proof.
  split.
  - intros H [i|] Hl; [|reflexivity]. apply num_labels_le in Hl. lia.
  - intros H. destruct (num_labels_in labels) as [E|E]; [assumption|]. specialize (H _ E). discriminate.
Qed.

Section DB.
Variables (dist : row -> row -> Q) (nn : list row -> list row -> nat -> res (list (list nat))) (sd : list Q -> Q)
  (dbscan : Q -> nat -> list row -> list (option nat)).
Hypothesis Hnn : knn_ok dist nn.
Hypothesis Hdist : forall x y, (0 <= dist x y)%Q.
Hypothesis Hdb : dbscan_ok dbscan.
Variable p : db_params.

Lemma attempt_ok X k : length (attempt dbscan p X k) = length X /\
  (forall i j, In (Some i) (attempt dbscan p X k) -> j < i -> In (Some j) (attempt dbscan p X k)) /\
  (k < db_min_samples p -> db_min_samples p = S k -> ~ In None (attempt dbscan p X k)).
Proof.
  destruct k as [|k]; cbn [attempt].
  - destruct (Hdb (db_eps p) (db_min_samples p) X) as (H1 & H2 & H3). repeat split; auto.
  - destruct (Hdb (db_eps p * (3 # 2) ^ Z.of_nat (S k))%Q (db_min_samples p - S k) X) as (H1 & H2 & H3).
    repeat split; auto. intros _ E. apply H3. lia.
Qed.

Lemma retry_ok X todo : X <> [] -> forall step, 1 <= step -> step - 1 < db_min_samples p ->
  (forall k, k < step - 1 -> all_noise (attempt dbscan p X k)) ->
  exists labels, dbscan_retry dbscan p X todo step (attempt dbscan p X (step - 1)) = Ok labels /\
    ((num_labels labels = 0 /\ forall k, k < step + todo -> k < db_min_samples p /\ all_noise (attempt dbscan p X k)) \/
     (exists k, k < step + todo /\ k < db_min_samples p /\ labels = attempt dbscan p X k /\ ~ all_noise labels /\
        forall k', k' < k -> all_noise (attempt dbscan p X k'))).
Proof.
  intros HX. induction todo as [|todo IH]; intros step Hs Hms Hn.
  - cbn [dbscan_retry]. destruct (Nat.eqb_spec (num_labels (attempt dbscan p X (step - 1))) 0) as [E|E].
    + eexists. split; [reflexivity|]. left. split; [assumption|]. intros k Hk. split; [lia|].
      destruct (Nat.eq_dec k (step - 1)) as [->|Hne]; [now apply num_labels_zero|apply Hn; lia].
    + eexists. split; [reflexivity|]. right. exists (step - 1). repeat split; auto; [lia|]. intros H. apply num_labels_zero in H. lia.
  - cbn [dbscan_retry]. destruct (Nat.eqb_spec (num_labels (attempt dbscan p X (step - 1))) 0) as [E|E].
    2: { eexists. split; [reflexivity|]. right. exists (step - 1). repeat split; auto; [lia|]. intros H. apply num_labels_zero in H. lia. }
    pose proof (proj1 (num_labels_zero _) E) as En. destruct (attempt_ok X (step - 1)) as (L & _ & H1).
    destruct (Nat.leb_spec (db_min_samples p) step) as [Hle|Hlt].
    + exfalso. apply H1; [lia|lia|]. destruct (attempt dbscan p X (step - 1)) as [|l labels] eqn:Ea; [destruct X; [congruence|discriminate]|].
      rewrite (En l (or_introl eq_refl)). now left.
    + replace (dbscan (db_eps p * (3 # 2) ^ Z.of_nat step)%Q (db_min_samples p - step) X) with (attempt dbscan p X (S step - 1)).
      2: { replace (S step - 1) with step by lia. destruct step; [lia|reflexivity]. }
      destruct (IH (S step)) as (labels & El & Hl); [lia|lia| |].
      { intros k Hk. destruct (Nat.eq_dec k (step - 1)) as [->|Hne]; [assumption|apply Hn; lia]. }
      exists labels. split; [assumption|]. replace (step + S todo) with (S step + todo) by lia. assumption.
Qed.

(** ** Clusters *)

Lemma select_cluster labels i (X : list row) : select (map (is_label i) labels) X = cluster_rows labels i X.
Proof.
  unfold cluster_rows. revert X; induction labels as [|l labels IH]; intros [|x X]; cbn; auto.
  destruct (is_label i l); cbn; now rewrite IH.
Qed.

Lemma cluster_map labels i (f : row -> row) X : cluster_rows labels i (map f X) = map f (cluster_rows labels i X).
Proof.
  unfold cluster_rows. revert X; induction labels as [|l labels IH]; intros [|x X]; cbn; auto.
  destruct (is_label i l); cbn; now rewrite IH.
Qed.

Lemma cluster_incl labels i X x : In x (cluster_rows labels i X) -> In x X.
Proof.
  unfold cluster_rows. intros H. apply in_map_iff in H. destruct H as ([l y] & <- & H). apply filter_In in H.
  destruct H as [H _]. now apply in_combine_r in H.
Qed.

Lemma cluster_nonempty labels i X : length labels = length X -> In (Some i) labels -> cluster_rows labels i X <> [].
Proof.
  unfold cluster_rows. revert X; induction labels as [|l labels IH]; intros [|x X] L H; try discriminate; [destruct H|].
  cbn. destruct H as [->|H].
  - cbn. rewrite Nat.eqb_refl. discriminate.
  - destruct (is_label i l); [discriminate|]. apply IH; [now injection L|assumption].
Qed.

(** ** The graph of a cluster *)

Lemma mem_iff l x : mem l x = true <-> In x l.
Proof. unfold mem. rewrite existsb_exists. split; [intros (y & H & E); apply Nat.eqb_eq in E; now subst|intros H; exists x; split; [assumption|apply Nat.eqb_refl]]. Qed.

Lemma firstn_tl_in (t : list nat) m x : In x (firstn m (tl t)) <-> exists a, 1 <= a <= m /\ a < length t /\ nth a t 0 = x.
Proof.
  destruct t as [|t0 t]; cbn [tl].
  - rewrite firstn_nil. split; [intros []|]. intros (a & _ & H & _). cbn in H. lia.
  - split.
    + intros H. apply (In_nth _ _ 0) in H. destruct H as (a & Ha & E). rewrite firstn_length in Ha.
      exists (S a). cbn [nth length]. split; [lia|]. split; [lia|].
      rewrite <- E. rewrite <- (firstn_skipn m t) at 1. rewrite app_nth1; [reflexivity|]. rewrite firstn_length. lia.
    + intros (a & Ha & Hl & E). destruct a as [|a]; [lia|]. cbn [nth length] in *. rewrite <- E.
      rewrite <- (firstn_skipn m t) at 1. rewrite app_nth1 by (rewrite firstn_length; lia). apply nth_In. rewrite firstn_length. lia.
Qed.

Lemma db_graph_ok C T : nearest_table dist C C (length C) T -> density_graph dist (db_eps p) (db_min_samples p) C T (db_graph dist p C T).
Proof.
  intros HT. destruct (nearest_table_shape _ _ _ _ _ HT) as (L & R & B).
  assert (Lg : length (db_graph dist p C T) = length C).
  { unfold db_graph. rewrite map_length, combine_length, seq_length. lia. }
  split; [assumption|]. intros u v w. unfold edge.
  destruct (le_lt_dec (length C) u) as [Hu|Hu].
  { rewrite nth_overflow by lia. split; [intros []|]. intros (H & _). lia. }
  assert (Lt : length (nth u T []) = length C) by (unfold rect in R; rewrite Forall_forall in R; apply R, nth_In; lia).
  assert (Bt : forall i, In i (nth u T []) -> i < length C).
  { rewrite Forall_forall in B. specialize (B (nth u T [])). rewrite Forall_forall in B. apply B, nth_In. lia. }
  unfold db_graph. set (F := fun it : nat * list nat => _). rewrite (nth_indep _ [] (F (0, []))) by (rewrite map_length, combine_length, seq_length; lia).
  rewrite map_nth, combine_nth by apply seq_length. rewrite seq_nth by lia. cbn [plus]. unfold F. rewrite in_map_iff. split.
  - intros (j & E & H). injection E as -> <-. apply filter_In in H. destruct H as [Hj H]. apply andb_true_iff in H. destruct H as [H1 H2].
    split; [assumption|]. split; [|split; [reflexivity|now apply Qlt_b_iff']].
    apply mem_iff, firstn_tl_in in H1. destruct H1 as (a & Ha & Hl & Ea). exists a. split; [lia|]. split; [assumption|assumption].
  - intros (_ & (a & Ha & Hl & Ea) & -> & Hw). exists v. split; [reflexivity|]. apply filter_In. split.
    + apply in_seq. split; [lia|]. cbn. apply Bt. rewrite <- Ea. apply nth_In. assumption.
    + apply andb_true_iff. split; [|now apply Qlt_b_iff']. apply mem_iff, firstn_tl_in. exists a. split; [lia|]. auto.
Qed.

Lemma density_ok C T g : nearest_table dist C C (length C) T -> density_graph dist (db_eps p) (db_min_samples p) C T g -> graph_ok g.
Proof.
  intros HT (Lg & He) u v w E. apply He in E. destruct E as (Hu & (a & _ & Hl & Ea) & -> & _).
  destruct (nearest_table_shape _ _ _ _ _ HT) as (L & R & B). rewrite Lg. split; [assumption|]. split; [|apply Hdist].
  rewrite Forall_forall in B. specialize (B (nth u T [])). rewrite Forall_forall in B. apply B; [apply nth_In; lia|].
  rewrite <- Ea. apply nth_In. assumption.
Qed.

Definition paths_ok (d : nat) (C : list row) (sp : distances * parents) : Prop :=
  exists T g s, nearest_table dist C C (length C) T /\ density_graph dist (db_eps p) (db_min_samples p) C T g /\ central dist d C s /\
    bellman_ford_spec g s (fst sp) (snd sp).

Lemma db_paths_ok d C : C <> [] -> rect d C -> exists sp, db_paths dist nn p d C = Ok sp /\ paths_ok d C sp.
Proof.
  intros Hne HR. unfold db_paths. destruct (Hnn C C (length C)) as (T & ET & HT); [lia|]. rewrite ET. cbn [bind].
  destruct (mean_row_of d C Hne HR) as (m & Em & Hm). rewrite Em. cbn [bind].
  destruct (Hnn C [m] (length C)) as (T1 & ET1 & HT1); [lia|]. rewrite ET1. cbn [bind].
  inversion HT1 as [|x t ? Q (Lt & Nd & Bt & St & Ot) HQ E1 E2]; subst. inversion HQ; subst.
  destruct t as [|s t]; [destruct C; [congruence|discriminate]|]. unfold entry. cbn [get nth_error bind].
  assert (Hs : s < length C) by now inversion Bt.
  assert (Hc : central dist d C s).
  { split; [assumption|]. exists m. split; [assumption|]. intros j Hj. destruct (in_dec Nat.eq_dec j (s :: t)) as [Hin|Hin].
    - inversion St as [|? ? _ Hall]; subst. destruct Hin as [<-|Hin]; [Lqa.lra|]. rewrite Forall_forall in Hall. now apply Hall.
    - apply Ot; [now left|assumption|assumption]. }
  pose proof (db_graph_ok C T HT) as Hg. pose proof (density_ok _ _ _ HT Hg) as Hgo.
  destruct (bellman_ford_ok (db_graph dist p C T) s Hgo) as (distance & path & E & HB); [rewrite (proj1 Hg); assumption|].
  rewrite E. exists (distance, path). split; [reflexivity|]. exists T, (db_graph dist p C T), s. repeat (split; [assumption|]). exact HB.
Qed.

Lemma follow_pairs fuel path v c : follow fuel path v = Ok c ->
  hd_error c = Some v /\ (c = [v] -> nth v path None = None) /\
  (forall i, S i < length c -> nth (nth i c 0) path None = Some (nth (S i) c 0)).
Proof.
  revert v c; induction fuel as [|fuel IH]; intros v c H; cbn [follow] in H; inv_bind H.
  - destruct a as [u|]; [discriminate|]. injection H as <-. split; [reflexivity|]. split; [|cbn; intros; lia].
    intros _. apply get_ok in E. apply (nth_error_nth _ _ None) in E. assumption.
  - destruct a as [u|].
    + inv_bind H. injection H as <-. destruct (IH _ _ E0) as (H1 & H2 & H3). split; [reflexivity|]. split.
      * intros Ec. injection Ec as ->. discriminate.
      * intros [|i] Hi; cbn [nth].
        -- apply get_ok in E. rewrite (nth_error_nth _ _ None E). destruct a; [discriminate|]. injection H1 as ->. reflexivity.
        -- apply H3. cbn in Hi. lia.
    + injection H as <-. split; [reflexivity|]. split; [|cbn; intros; lia].
      intros _. apply get_ok in E. apply (nth_error_nth _ _ None) in E. assumption.
Qed.

Lemma between_back dim mm a b u : length mm = dim -> Forall (fun lr => ~ (snd lr == 0)%Q) mm -> length a = dim -> length b = dim ->
  let x := mm_inverse mm (between u (mm_transform mm a) (mm_transform mm b)) in
  length x = dim /\ forall j, j < dim -> (nth j x 0 == nth j a 0 + u * (nth j b 0 - nth j a 0))%Q.
Proof.
  intros Lm Rm La Lb. cbv zeta.
  pose proof (mm_transform_length dim mm a Lm La) as L1. pose proof (mm_transform_length dim mm b Lm Lb) as L2.
  assert (L3 : length (vsub (mm_transform mm b) (mm_transform mm a)) = dim) by (rewrite vsub_length; lia).
  assert (L4 : length (between u (mm_transform mm a) (mm_transform mm b)) = dim) by (unfold between; rewrite vadd_length, ?vscale_length; lia).
  split; [now apply mm_inverse_length|]. intros j Hj. rewrite mm_inverse_nth by lia. unfold between.
  rewrite vadd_nth by (rewrite ?vscale_length; lia). rewrite vscale_nth by lia. rewrite vsub_nth by lia.
  rewrite !mm_transform_nth by lia. assert (Hr : ~ (snd (nth j mm (0, 0)) == 0)%Q) by (rewrite Forall_forall in Rm; apply Rm, nth_In; lia).
  field. exact Hr.
Qed.

Lemma db_row_ok d dim mm labels X_min k paths weights t :
  draws_ok d -> length mm = dim -> Forall (fun lr => ~ (snd lr == 0)%Q) mm -> rect dim X_min ->
  let f := mm_transform mm in
  let clusters := map (fun i => map f (cluster_rows labels i X_min)) (seq 0 k) in
  (forall i, i < k -> cluster_rows labels i X_min <> []) ->
  Forall2 (paths_ok dim) clusters paths -> length weights = k -> Forall (Qle 0) weights -> (qsum weights == 1)%Q ->
  exists x, db_row d clusters paths weights t = Ok x /\ db_row_spec dist f p dim labels X_min (mm_inverse mm x).
Proof.
  intros Hd Lm Rm HR f clusters Hne HP Lw Nw Sw. unfold db_row.
  destruct (ok_p d Hd t weights Nw Sw) as (Hc & _). set (c := dr_p d t weights) in *. rewrite Lw in Hc.
  assert (Lc : length clusters = k) by (unfold clusters; now rewrite map_length, seq_length).
  rewrite (get_nth []) by lia. cbn [bind].
  assert (EC : nth c clusters [] = map f (cluster_rows labels c X_min)).
  { unfold clusters. set (F := fun i => map f (cluster_rows labels i X_min)). rewrite (nth_indep _ [] (F 0)) by (rewrite map_length, seq_length; lia).
    rewrite map_nth, seq_nth by lia. reflexivity. }
  assert (Lp : length clusters = length paths) by (eapply Forall2_length; exact HP).
  assert (HPc : paths_ok dim (nth c clusters []) (nth c paths (([], []) : distances * parents))).
  { apply (Forall2_nth_error _ _ _ c _ _ HP); apply nth_error_nth'; lia. }
  rewrite EC in HPc |- *. set (C := cluster_rows labels c X_min) in *.
  assert (HC : C <> []) by now apply Hne. assert (LC : 0 < length C) by (destruct C; [congruence|cbn; lia]).
  assert (RC : rect dim C). { unfold rect in *. rewrite Forall_forall in *. intros x Hx. apply HR. now apply cluster_incl in Hx. }
  assert (LCn : forall a, a < length C -> length (nth a C []) = dim).
  { intros a Ha. unfold rect in RC. rewrite Forall_forall in RC. apply RC, nth_In. assumption. }
  assert (Enth : forall a, a < length C -> nth a (map f C) [] = f (nth a C [])).
  { intros a Ha. rewrite (nth_indep _ [] (f [])) by (now rewrite map_length). apply map_nth. }
  destruct HPc as (T & g & s & HT & Hg & Hcen & HB). pose proof (density_ok _ _ _ HT Hg) as Hgo. rewrite map_length in HT.
  assert (Lg : length g = length C) by (rewrite (proj1 Hg), map_length; reflexivity).
  unfold randint at 1. rewrite map_length. destruct (Nat.eqb_spec (length C) 0); [lia|]. cbn [bind].
  pose proof (ok_int d Hd t 0 (length C) LC) as Hi. set (idx := dr_int d t 0 (length C)) in *.
  rewrite (get_nth (([], []) : distances * parents)) by lia. cbn [bind].
  destruct HB as (LB1 & LB2 & HB). pose proof (HB idx) as HBi. rewrite Lg in HBi. destruct (HBi Hi) as (_ & Hpi & ch & Ech & Hhd & Hnd & _ & _).
  rewrite Ech. cbn [bind]. destruct (follow_pairs _ _ _ _ Ech) as (_ & H1 & H2).
  assert (Hstep : forall i, S i < length ch -> nth i ch 0 < length C /\ nth (S i) ch 0 < length C /\ tight_edge g s (nth (S i) ch 0) (nth i ch 0)).
  { intros i Hl. specialize (H2 i Hl). assert (Ha : nth i ch 0 < length C).
    { destruct (le_lt_dec (length C) (nth i ch 0)) as [Hge|]; [|assumption]. rewrite nth_overflow in H2 by lia. discriminate. }
    split; [assumption|]. destruct (HB (nth i ch 0)) as (_ & Hp & _); [lia|]. rewrite H2 in Hp. destruct Hp as (_ & Ht).
    split; [|assumption]. destruct Ht as (w & du & E & _). apply Hgo in E. lia. }
  assert (Hmid : forall a b u, a < length C -> b < length C -> tight_edge g s b a -> unit_share u ->
     exists x, (do x <- get (map f C) a; do y <- get (map f C) b; Ok (between u x y)) = Ok x /\ db_row_spec dist f p dim labels X_min (mm_inverse mm x)).
  { intros a b u Ha Hb Ht Hu. rewrite !(get_nth []) by (rewrite map_length; assumption). cbn [bind]. eexists. split; [reflexivity|].
    exists c, T, g, s. fold C. repeat (split; [assumption|]). right. exists a, b, u. rewrite !Enth by assumption.
    destruct (between_back dim mm (nth a C []) (nth b C []) u) as (Q1 & Q2); auto.
    repeat (split; [assumption|]). assumption. }
  destruct ch as [|a ch]; [discriminate|]. cbn [hd_error] in Hhd. injection Hhd as ->.
  destruct ch as [|b ch].
  - rewrite (get_nth []) by (now rewrite map_length). eexists. split; [reflexivity|].
    exists c, T, g, s. fold C. repeat (split; [assumption|]). left. exists idx. split; [assumption|]. split.
    + rewrite (H1 eq_refl) in Hpi. exact Hpi.
    + rewrite Enth by assumption. apply (mm_back dim); auto.
  - destruct ch as [|b2 ch].
    + destruct (Hstep 0) as (Ha & Hb & Ht); [cbn; lia|]. cbn [nth] in Ha, Hb, Ht. apply Hmid; auto. apply (ok_unif d Hd).
    + set (l := idx :: b :: b2 :: ch) in *. unfold randint. destruct (Nat.eqb_spec (length l - 1) 0) as [E|E]; [cbn in E; lia|]. cbn [bind].
      assert (Hl : 0 < length l - 1) by lia. pose proof (ok_int d Hd t 1 (length l - 1) Hl) as Hr.
      set (r := dr_int d t 1 (length l - 1)) in *. rewrite !(get_nth 0) by lia. cbn [bind].
      destruct (Hstep r) as (Ha & Hb & Ht); [lia|]. replace (r + 1) with (S r) by lia. apply Hmid; auto. apply (ok_unif d Hd).
Qed.

Theorem dbsmote_ok d D mn mj n :
  draws_ok d -> wf_data (d_X D) (d_dim D) (d_y D) -> is_minority (d_y D) mn mj ->
  asked (db_proportion p) (d_y D) mn mj = Ok n -> 1 <= db_min_samples p ->
  let out := dbsmote_sample dist nn sd dbscan p d D in
  (count_label (d_y D) mn <= 2 \/ n = 0%Z -> unchanged D out) /\
  (2 < count_label (d_y D) mn -> (0 < n)%Z -> dbsmote_result dist sd dbscan p D mn n out).
Proof.
  intros Hd [HX Hl] Hmin Ha Hms out. unfold out, dbsmote_sample, dbsmote_algorithm.
  edestruct (sample_shape (fun n st D =>
    let mm := std_fit sd (d_dim D) (d_X D) in
    let X_min := rows_with (min_label st) (map (mm_transform mm) (d_X D)) (d_y D) in
    do labels <- execute_dbscan dbscan p X_min;
    let k := num_labels labels in
    if k =? 0 then Ok (d_X D, d_y D)
    else
      let clusters := map (fun i => select (map (is_label i) labels) X_min) (seq 0 k) in
      do paths <- mapM (db_paths dist nn p (d_dim D)) clusters;
      let sizes := map (fun c : list row => inject_Z (Z.of_nat (length c))) clusters in
      let weights := map (fun s => s / qsum sizes)%Q sizes in
      do samples <- mapM (db_row d clusters paths weights) (seq 0 n);
      Ok (extended D st (map (mm_inverse mm) samples))) (db_proportion p) D mn mj n Hmin Ha) as (st & (E1 & _) & E).
  cbv zeta in E |- *. rewrite E. clear E. split.
  { intros H. destruct (Nat.leb_spec (count_label (d_y D) mn) 2); [reflexivity|]. destruct H; [lia|]. subst n. reflexivity. }
  intros H2 Hn. destruct (Nat.leb_spec (count_label (d_y D) mn) 2); [lia|]. destruct (Z.eqb_spec n 0); [lia|]. cbn [orb]. rewrite E1.
  set (mm := std_fit sd (d_dim D) (d_X D)). set (f := mm_transform mm).
  destruct (std_standard sd (d_dim D) (d_X D)) as (w & Hw & Hf). fold mm in Hf. fold f in Hf.
  assert (Lmm : length mm = d_dim D) by apply std_fit_length.
  assert (Rmm : Forall (fun lr => ~ (snd lr == 0)%Q) mm) by apply std_fit_range.
  exists w, f. split; [assumption|]. split; [assumption|]. cbv zeta.
  rewrite rows_with_map by assumption. set (X_min := rows_with mn (d_X D) (d_y D)).
  assert (HL : length X_min = count_label (d_y D) mn) by now apply rows_with_length.
  assert (HR : rect (d_dim D) X_min) by now apply rows_with_rect.
  assert (HXne : map f X_min <> []) by (destruct X_min; [cbn in HL; lia|discriminate]).
  destruct (retry_ok (map f X_min) (db_iter_limit p - 1) HXne 1) as (labels & El & Hlab); [lia|lia|intros; lia|].
  unfold execute_dbscan. cbn [Nat.sub attempt] in El. rewrite El. cbn [bind].
  replace (1 + (db_iter_limit p - 1)) with (Nat.max 1 (db_iter_limit p)) in Hlab by lia.
  destruct Hlab as [(H0 & Hall)|(k & Hk1 & Hk2 & -> & Hnz & Hearly)].
  { left. rewrite H0. split; [reflexivity|]. exact Hall. }
  right. exists k. repeat (split; [assumption|]).
  set (labels := attempt dbscan p (map f X_min) k) in *.
  destruct (attempt_ok (map f X_min) k) as (Ll & Hcont & _). fold labels in Ll, Hcont. rewrite map_length in Ll.
  destruct (Nat.eqb_spec (num_labels labels) 0) as [E0|E0]; [exfalso; apply Hnz; now apply num_labels_zero|].
  assert (Hin : forall i, i < num_labels labels -> In (Some i) labels).
  { intros i Hi. destruct (num_labels_in labels) as [|Hlast]; [lia|].
    destruct (Nat.eq_dec i (num_labels labels - 1)) as [->|Hne]; [assumption|]. apply (Hcont _ i Hlast). lia. }
  assert (Hcl : map (fun i => select (map (is_label i) labels) (map f X_min)) (seq 0 (num_labels labels)) =
                map (fun i => map f (cluster_rows labels i X_min)) (seq 0 (num_labels labels))).
  { apply map_ext. intros i. rewrite select_cluster. apply cluster_map. }
  rewrite Hcl. clear Hcl. set (clusters := map (fun i => map f (cluster_rows labels i X_min)) (seq 0 (num_labels labels))).
  assert (Hne : forall i, i < num_labels labels -> cluster_rows labels i X_min <> []).
  { intros i Hi. apply cluster_nonempty; auto. }
  assert (HP : exists paths, mapM (db_paths dist nn p (d_dim D)) clusters = Ok paths /\ Forall2 (paths_ok (d_dim D)) clusters paths).
  { assert (G : forall C, In C clusters -> C <> [] /\ rect (d_dim D) C).
    { intros C HC. apply in_map_iff in HC. destruct HC as (i & <- & Hi). apply in_seq in Hi. split.
      - specialize (Hne i). destruct (cluster_rows labels i X_min); [exfalso; apply Hne; [lia|reflexivity]|discriminate].
      - apply transform_rect; [assumption|]. unfold rect in *. rewrite Forall_forall in *. intros x Hx. apply HR. now apply cluster_incl in Hx. }
    revert G. generalize clusters as l. intros l. clear - Hnn Hdist. induction l as [|C l IH]; intros G; [exists []; split; [reflexivity|constructor]|].
    destruct (db_paths_ok (d_dim D) C) as (sp & E & Hsp); [apply G; now left|apply G; now left|].
    destruct IH as (ps & Eps & Hps); [intros; apply G; now right|]. exists (sp :: ps). cbn [mapM]. rewrite E, Eps. split; [reflexivity|now constructor]. }
  destruct HP as (paths & EP & HP). rewrite EP. cbn [bind].
  set (sizes := map (fun c : list row => inject_Z (Z.of_nat (length c))) clusters).
  assert (Lcl : length clusters = num_labels labels) by (unfold clusters; now rewrite map_length, seq_length).
  assert (Spos : Forall (Qle 0) sizes).
  { unfold sizes. rewrite Forall_map, Forall_forall. intros C _. apply (Qle_trans _ (inject_Z 0)); [apply Qle_refl|]. rewrite <- Zle_Qle. lia. }
  assert (Ssum : (0 < qsum sizes)%Q).
  { apply (qsum_pos_all sizes).
    - unfold sizes. destruct clusters; [cbn in Lcl; lia|discriminate].
    - unfold sizes. rewrite Forall_map, Forall_forall. intros C HC. apply in_map_iff in HC. destruct HC as (i & <- & Hi). apply in_seq in Hi.
      specialize (Hne i). destruct (cluster_rows labels i X_min) as [|x l]; [exfalso; apply Hne; [lia|reflexivity]|].
      cbn [map length]. apply (Qlt_le_trans _ (inject_Z 1)); [reflexivity|]. rewrite <- Zle_Qle. lia. }
  assert (W2 : (qsum (map (fun s => s / qsum sizes)%Q sizes) == 1)%Q).
  { rewrite qsum_map_div. field. intros H0. rewrite H0 in Ssum. Lqa.lra. }
  assert (W1 : Forall (Qle 0) (map (fun s => s / qsum sizes)%Q sizes)).
  { rewrite Forall_map, Forall_forall. rewrite Forall_forall in Spos. intros q Hq. apply Qle_shift_div_l; [assumption|]. specialize (Spos q Hq). Lqa.lra. }
  set (weights := map (fun s => s / qsum sizes)%Q sizes) in *.
  assert (Lw : length weights = num_labels labels) by (unfold weights, sizes; now rewrite !map_length).
  destruct (mapM_draws (db_row d clusters paths weights) (seq 0 (Z.to_nat n)) (Z.to_nat n)
     (fun x => db_row_spec dist f p (d_dim D) labels X_min (mm_inverse mm x))) as (S & ES & LS & FS); [apply seq_length| |].
  { intros t _. apply (db_row_ok d (d_dim D) mm labels X_min (num_labels labels)); auto. }
  rewrite ES. cbn [bind]. exists (map (mm_inverse mm) S). split; [unfold extended; now rewrite E1|].
  split; [now rewrite map_length|]. rewrite Forall_map. exact FS.
Qed.

End DB.
