(** Facts about MWMOTE. *)

From Coq Require Import List ZArith QArith Qabs Qminmax Qround Qpower Bool Arith Lia Lqa Sorting.Sorted Permutation.
From Verif Require Import Np PyVal NpFacts BaseFacts SimplexModel Spec SpecDanger SpecNoise SpecComp SimplexFacts SimplexGeom Float64
  SamplerModel SamplerFacts OversFacts BaseModel KnnFacts DangerModel DangerFacts BorderFacts ClusterModel ClusterOversModel OversGen
  ClusterOversFacts ClusterFacts NoiseModel NoiseFacts NoiseFacts2 CompModel CompFacts CompFacts2 CompFacts3 CompFacts4 EditModel SpecEdit EditFacts EditFacts3 EditFacts4 EditFacts5
  SpecNear NearFacts NearFacts2 LevelModel SpecLevel LevelFacts LevelFacts3 LevelFacts4 SpecGroup GroupFacts GroupFacts2 GroupFacts4 WrapModel SpecWrap WrapFacts WrapFacts2 WrapFacts3 DirModel SpecDir DirFacts DirFacts2 DirFacts3 RegionModel SpecRegion RegionFacts RegionFacts2 RegionFacts3 RegionFacts4 SearchModel SpecSearch SearchFacts SearchFacts2 SearchFacts3 SearchFacts4.
Import ListNotations.
Open Scope nat_scope.

Lemma unique_flat_positions T : positions (mentioned T) (unique_flat T).
Proof.
  split; [apply nat_unique_sorted|]. intros i. unfold unique_flat. rewrite nat_unique_in, in_concat. reflexivity.
Qed.

Lemma unique_flat_lt T n : Forall (Forall (fun i => i < n)) T -> Forall (fun i => i < n) (unique_flat T).
Proof.
  intros H. apply Forall_forall. intros i Hi. unfold unique_flat in Hi. rewrite nat_unique_in in Hi. apply in_concat in Hi as (t & Ht & Hi).
  rewrite Forall_forall in H. specialize (H t Ht). rewrite Forall_forall in H. auto.
Qed.

Lemma unique_flat_some T k : T <> [] -> rect k T -> 1 <= k -> unique_flat T <> [].
Proof.
  intros Hne HR Hk E. destruct T as [|t T]; [congruence|]. inversion HR; subst. destruct t as [|i t]; [cbn in Hk; lia|].
  assert (In i (unique_flat ((i :: t) :: T))); [|rewrite E in H; destruct H]. unfold unique_flat. apply nat_unique_in. now left.
Qed.

Section Company.
Variables (dist : row -> row -> Q) (nn : list row -> list row -> nat -> res (list (list nat))) (p : mw_params) (D : dataset) (mn : Z).
Hypothesis Hnn : knn_ok dist nn.
Hypothesis HL : length (d_X D) = length (d_y D).

Lemma filter_minorities_ok : exists T1 company, filter_minorities nn p mn D = Ok company /\
  nearest_table dist (d_X D) (d_X D) (Nat.min (length (d_X D)) (mw_k1 p + 1)) T1 /\ positions (has_company (d_y D) mn T1) company.
Proof.
  unfold filter_minorities. destruct (Hnn (d_X D) (d_X D) (Nat.min (length (d_X D)) (mw_k1 p + 1)) ltac:(lia)) as (T & -> & HT). cbn [bind].
  destruct (nearest_table_shape _ _ _ _ _ HT) as (M1 & M2 & M3). set (y := d_y D) in *.
  set (f := fun i => 0 <? count_occ Z.eq_dec (map (fun j => nth j y 0%Z) (tl (nth i T []))) mn).
  set (is := where_ (map (Z.eqb mn) y)).
  rewrite (mapM_ext_in _ (fun i => Ok (if f i then [i] else []))).
  2:{ intros i Hi. unfold is in Hi. apply NoiseFacts2.where_in in Hi as [Hi _]. rewrite map_length in Hi. rewrite (get_nth []) by lia. cbn [bind].
      rewrite (gather_map 0%Z); [reflexivity|]. rewrite Forall_forall in M3. apply Forall_tl. rewrite <- HL. apply M3, nth_In. lia. }
  rewrite mapM_pure. cbn [bind]. exists T. eexists. split; [reflexivity|]. split; [assumption|].
  assert (E : concat (map (fun i => if f i then [i] else []) is) = filter f is).
  { clear. induction is as [|i is IH]; [reflexivity|]. cbn [map concat filter]. rewrite IH. now destruct (f i). }
  rewrite E. split.
  - apply filter_StronglySorted. unfold is. rewrite where_filter. apply filter_StronglySorted, NoiseFacts.seq_StronglySorted.
  - intros i. rewrite filter_In. unfold is, has_company. rewrite NoiseFacts2.where_in, map_length.
    assert (G : i < length y -> (nth i (map (Z.eqb mn) y) false = true <-> nth i y 0%Z = mn)).
    { intros Hi. rewrite (nth_map' _ 0%Z) by assumption. rewrite Z.eqb_eq. intuition. }
    assert (F : f i = true <-> exists j, In j (tl (nth i T [])) /\ nth j y 0%Z = mn).
    { unfold f. rewrite Nat.ltb_lt. change (0 < count_occ Z.eq_dec ?l mn) with (count_occ Z.eq_dec l mn > 0).
      rewrite <- count_occ_In, in_map_iff. split; intros (j & H1 & H2); exists j; auto. }
    rewrite F. intuition.
Qed.
End Company.

(** ** The probabilities *)

Lemma closeness_pos norm p dim y x : (0 < mw_cf_th p)%Q -> (0 < mw_cmax p)%Q -> (0 < closeness_factor norm p dim y x)%Q.
Proof.
  intros H1 H2. unfold closeness_factor. destruct (q_max_ge (1 # 10) (norm (vsub y x) / inject_Z (Z.of_nat dim))) as [G _].
  set (d := q_max _ _) in *. assert (0 < 1 / d)%Q by (apply Qdiv_pos_iff; lra).
  assert (0 < q_min (1 / d) (mw_cf_th p))%Q by (destruct (q_min_or (1 / d) (mw_cf_th p)) as [->| ->]; assumption).
  apply Qmult_lt_0_compat; [|assumption]. now apply Qdiv_pos_iff.
Qed.

Lemma selection_ok norm p dim Y X : 1 <= dim -> (0 < mw_cf_th p)%Q -> (0 < mw_cmax p)%Q -> Y <> [] -> X <> [] ->
  exists probs, selection_probabilities norm p dim Y X = Ok probs /\ length probs = length X /\ Forall (Qlt 0) probs /\ (qsum probs == 1)%Q.
Proof.
  intros Hd H1 H2 HY HX. unfold selection_probabilities. set (cf := map (fun y => map (closeness_factor norm p dim y) X) Y).
  assert (C : forall l, In l cf -> Forall (Qlt 0) l /\ length l = length X).
  { intros l Hl. unfold cf in Hl. apply in_map_iff in Hl as (y & <- & _). split; [|apply map_length]. apply Forall_map, Forall_forall. intros. now apply closeness_pos. }
  assert (Hne : forall l : list Q, length l = length X -> l <> []) by (intros [|] E; [destruct X; [congruence|discriminate]|discriminate]).
  assert (S : forall l, In l cf -> (0 < qsum l)%Q) by (intros l Hl; destruct (C l Hl); apply qsum_pos_all; auto).
  destruct (Nat.eqb_spec dim 0); [lia|]. destruct (Qeq_bool (mw_cf_th p) 0) eqn:E0; [apply Qeq_bool_iff in E0; lra|]. cbn [orb].
  destruct (existsb (fun l => Qeq_bool (qsum l) 0) cf) eqn:E1.
  { apply existsb_exists in E1 as (l & Hl & E1). apply Qeq_bool_iff in E1. specialize (S l Hl). lra. }
  set (weights := map (fun l => map (fun c => c * c / qsum l)%Q l) cf).
  assert (W : forall l, In l weights -> Forall (Qlt 0) l /\ length l = length X).
  { intros l Hl. unfold weights in Hl. apply in_map_iff in Hl as (l' & <- & Hl). destruct (C l' Hl) as [C1 C2]. rewrite map_length. split; [|assumption].
    apply Forall_map. eapply Forall_impl; [|exact C1]. cbn. intros c Hc. apply Qdiv_pos_iff; [auto|]. now apply Qmult_lt_0_compat. }
  set (sums := map (fun j => qsum (map (fun l => nth j l 0%Q) weights)) (seq 0 (length X))).
  assert (Ls : length sums = length X) by (unfold sums; now rewrite map_length, seq_length).
  assert (Ps : Forall (Qlt 0) sums).
  { unfold sums. apply Forall_map, Forall_forall. intros j Hj. apply in_seq in Hj. apply qsum_pos_all.
    - unfold weights, cf. destruct Y; [congruence|discriminate].
    - apply Forall_map, Forall_forall. intros l Hl. destruct (W l Hl) as [W1 W2]. rewrite Forall_forall in W1. apply W1, nth_In. lia. }
  assert (T : (0 < qsum sums)%Q) by (apply qsum_pos_all; auto).
  destruct (Qeq_bool (qsum sums) 0) eqn:E2; [apply Qeq_bool_iff in E2; lra|]. eexists. split; [reflexivity|]. split; [now rewrite map_length|]. split.
  - apply Forall_map. eapply Forall_impl; [|exact Ps]. cbn. intros q Hq. now apply Qdiv_pos_iff.
  - rewrite qsum_div by lra. field. lra.
Qed.

Lemma one_hot_sum (l : nat) q n : forall s, (qsum (map (fun c => if l =? c then q else 0) (seq s n)) == if (s <=? l) && (l <? s + n) then q else 0)%Q.
Proof.
  induction n as [|n IH]; intros s; cbn [seq map].
  - destruct (Nat.leb_spec s l), (Nat.ltb_spec l (s + 0)); cbn [andb]; try lia; reflexivity.
  - rewrite qsum_cons, IH. destruct (Nat.eqb_spec l s).
    + subst s. destruct (Nat.leb_spec (S l) l), (Nat.leb_spec l l), (Nat.ltb_spec l (l + S n)); cbn [andb]; try lia; ring.
    + destruct (Nat.leb_spec (S s) l), (Nat.leb_spec s l), (Nat.ltb_spec l (S s + n)), (Nat.ltb_spec l (s + S n)); cbn [andb]; try lia; ring.
Qed.

Lemma le_list_max l x : In x l -> x <= list_max l.
Proof. intros H. pose proof (proj1 (list_max_le l (list_max l)) (le_n _)) as G. rewrite Forall_forall in G. auto. Qed.

Section Clusters.
Variables (informative : list nat) (probs : list Q) (labels : list nat).
Hypothesis Hinf : Forall (fun i => i < length labels) informative.
Hypothesis Hlen : length probs = length informative.
Hypothesis Hpos : Forall (Qlt 0) probs.
Hypothesis Hsum : (qsum probs == 1)%Q.

Let w : list Q := map (fun c => qsum (map (fun ip => if nth (fst ip) labels 0 =? c then snd ip else 0%Q) (combine informative probs)))
               (seq 0 (list_max labels + 1)).

Lemma map_snd_combine : map snd (combine informative probs) = probs.
Proof.
  revert Hlen. clear. revert probs. induction informative as [|i is IH]; intros [|q ps]; cbn; intros H; try discriminate; [reflexivity|]. f_equal. apply IH. congruence.
Qed.

Lemma cluster_weights_sum : (qsum w == 1)%Q.
Proof.
  unfold w. rewrite qsum_swap. transitivity (qsum (map snd (combine informative probs))); [|now rewrite map_snd_combine]. apply CompFacts4.qsum_map_ext. intros [i q] Hiq. cbn [fst snd].
  rewrite one_hot_sum. apply in_combine_l in Hiq. rewrite Forall_forall in Hinf. specialize (Hinf i Hiq).
  pose proof (le_list_max labels (nth i labels 0) (nth_In _ _ Hinf)). destruct (Nat.ltb_spec (nth i labels 0) (0 + (list_max labels + 1))); [reflexivity|lia].
Qed.

Lemma cluster_weights_nonneg : Forall (Qle 0) w.
Proof.
  unfold w. apply Forall_map, Forall_forall. intros c _. apply qsum_map_nonneg. intros [i q] Hiq. cbn. apply in_combine_r in Hiq.
  rewrite Forall_forall in Hpos. specialize (Hpos q Hiq). destruct (_ =? c); lra.
Qed.

Lemma cluster_probs_ok : Forall (Qle 0) (cluster_probs informative probs labels) /\ (qsum (cluster_probs informative probs labels) == 1)%Q /\
  forall c, (0 < nth c (cluster_probs informative probs labels) 0)%Q -> exists i, In i informative /\ nth i labels 0 = c.
Proof.
  unfold cluster_probs. fold w. pose proof cluster_weights_sum as S. pose proof cluster_weights_nonneg as N. split; [|split].
  - apply Forall_map. eapply Forall_impl; [|exact N]. cbn. intros q Hq. apply Qdiv_nonneg'; lra.
  - rewrite qsum_div by lra. rewrite S. reflexivity.
  - intros c Hc. destruct (Nat.lt_ge_cases c (length w)) as [G|G].
    2:{ rewrite nth_overflow in Hc by (rewrite map_length; assumption). lra. }
    rewrite (nth_map' _ 0%Q) in Hc by assumption. apply Qdiv_pos_iff in Hc; [|lra]. unfold w in Hc, G. rewrite map_length, seq_length in G.
    rewrite (nth_map' _ 0) in Hc by (now rewrite seq_length). rewrite seq_nth in Hc by assumption. cbn [Nat.add] in Hc.
    apply qsum_pos_ex in Hc as (k & Hk & Hc).
    2:{ apply Forall_map, Forall_forall. intros [i q] Hiq. cbn. apply in_combine_r in Hiq. rewrite Forall_forall in Hpos. specialize (Hpos q Hiq). destruct (_ =? c); lra. }
    rewrite map_length in Hk. rewrite (nth_map' _ (0, 0%Q)) in Hc by assumption. pose proof (nth_In _ (0, 0%Q) Hk) as Hin.
    destruct (nth k (combine informative probs) (0, 0%Q)) as [i q]. cbn in Hc. destruct (Nat.eqb_spec (nth i labels 0) c); [|lra].
    exists i. split; [|assumption]. now apply in_combine_l in Hin.
Qed.

Lemma lookup_pos i : (0 < lookup_prob informative probs i)%Q <-> In i informative.
Proof.
  unfold lookup_prob. destruct (where_ (map (Nat.eqb i) informative)) as [|k ks] eqn:E.
  - split; [lra|]. intros H. apply (In_nth _ _ 0) in H as (k & Hk & Ek). exfalso.
    assert (In k (where_ (map (Nat.eqb i) informative))); [|rewrite E in H; destruct H].
    apply NoiseFacts2.where_in. rewrite map_length. split; [assumption|]. rewrite (nth_map' _ 0) by assumption. rewrite Ek. apply Nat.eqb_refl.
  - assert (H : In k (where_ (map (Nat.eqb i) informative))) by (rewrite E; now left). apply NoiseFacts2.where_in in H as [H1 H2]. rewrite map_length in H1.
    rewrite (nth_map' _ 0) in H2 by assumption. apply Nat.eqb_eq in H2. split.
    + intros _. rewrite H2. now apply nth_In.
    + intros _. rewrite Forall_forall in Hpos. apply Hpos, nth_In. lia.
Qed.

Lemma lookup_nonneg i : (0 <= lookup_prob informative probs i)%Q.
Proof.
  destruct (in_dec Nat.eq_dec i informative) as [H|H]; [apply lookup_pos in H; lra|].
  unfold lookup_prob. destruct (where_ _) as [|k ks] eqn:E; [lra|]. exfalso. apply H.
  assert (G : In k (where_ (map (Nat.eqb i) informative))) by (rewrite E; now left). apply NoiseFacts2.where_in in G as [H1 H2]. rewrite map_length in H1.
  rewrite (nth_map' _ 0) in H2 by assumption. apply Nat.eqb_eq in H2. rewrite H2. now apply nth_In.
Qed.
End Clusters.

Lemma where_count c labels : length (where_ (map (Nat.eqb c) labels)) = count_occ Nat.eq_dec labels c.
Proof.
  unfold where_. rewrite map_length. assert (G : forall s, length (select (map (Nat.eqb c) labels) (seq s (length labels))) = count_occ Nat.eq_dec labels c).
  { induction labels as [|l ls IH]; intros s; [reflexivity|]. cbn. destruct (Nat.eqb_spec c l), (Nat.eq_dec l c); cbn; rewrite ?IH; congruence. }
  apply G.
Qed.

Lemma circulant_entry m b q : b < m -> q < m -> nth q (nth b (circulant m) []) 0 = (b + m - q) mod m.
Proof.
  intros Hb Hq. rewrite circulant_row by assumption. rewrite (nth_map' _ 0) by now rewrite seq_length. now rewrite seq_nth by assumption.
Qed.

Lemma circulant_mod m b q : b < m -> q < m -> (b + m - q) mod m = if q <=? b then b - q else b + m - q.
Proof.
  intros Hb Hq. destruct (Nat.leb_spec q b).
  - replace (b + m - q) with (b - q + 1 * m) by lia. rewrite Nat.mod_add by lia. apply Nat.mod_small. lia.
  - apply Nat.mod_small. lia.
Qed.

Theorem mwmote_ok dist vol nn norm kmeans p rs D mn mj n :
  knn_ok dist nn -> rngs_ok rs -> rngs_pos rs -> wf_data (d_X D) (d_dim D) (d_y D) -> is_minority (d_y D) mn mj ->
  asked (mw_proportion p) (d_y D) mn mj = Ok n -> labels_ok kmeans ->
  1 <= mw_k3 p -> 1 <= mw_M p -> 1 <= d_dim D -> (0 < mw_cf_th p)%Q -> (0 < mw_cmax p)%Q -> plain_ss (mw_ss p) -> ss_gauss (mw_ss p) = GNone ->
  let out := mwmote_sample vol nn norm kmeans p rs D in
  (count_label (d_y D) mn <= 2 \/ n = 0%Z -> unchanged D out) /\
  (2 < count_label (d_y D) mn -> (0 < n)%Z -> appends D mn (mwmote_spec dist kmeans p D mn mj n) out).
Proof.
  intros Hnn Hr Hu Hwf Hmin Ha Hlab Hk3 HM Hdim Hth Hcm Hp Hg out. unfold out, mwmote_sample.
  destruct (sample_default (mwmote_algorithm vol nn norm kmeans p rs) D mn mj Hmin) as (st & Hst & E). rewrite E. clear E. unfold mwmote_algorithm.
  rewrite (det_st_asked _ _ _ _ _ (proj1 Hmin) Hst), Ha. cbn [bind]. pose proof (asked_some _ _ _ _ _ Ha) as Hn0. split.
  - intros [G|G]; unfold unchanged.
    + destruct (Nat.leb_spec (count_label (d_y D) mn) 2); [reflexivity|lia].
    + subst n. destruct (_ <=? 2); reflexivity.
  - intros G Hn. destruct (Nat.leb_spec (count_label (d_y D) mn) 2); [lia|]. destruct (Nat.eqb_spec (Z.to_nat n) 0) as [|Hn']; [lia|].
    destruct Hst as (Emn & Emj & _). unfold extended. rewrite Emn, Emj. destruct Hwf as [HR HL].
    set (X_min := rows_with mn (d_X D) (d_y D)). set (X_maj := rows_with mj (d_X D) (d_y D)).
    assert (Lmin : length X_min = count_label (d_y D) mn) by now apply rows_with_length.
    assert (Lmaj : length X_maj = count_label (d_y D) mj) by now apply rows_with_length.
    assert (Hmaj : count_label (d_y D) mn <= count_label (d_y D) mj) by (destruct Hmin as [_ [?|[? _]]]; lia).
    assert (Rmin : rect (d_dim D) X_min) by now apply rows_with_rect.
    destruct (filter_minorities_ok dist nn p D mn Hnn HL) as (T1 & company & -> & HT1 & Hcomp). cbn [bind].
    unfold appends, mwmote_spec. fold X_min X_maj.
    destruct (Nat.eqb_spec (length company) 0) as [Z0|Z0].
    { exists []. cbn [length repeat]. rewrite !app_nil_r. split; [reflexivity|]. exists T1, company. split; [assumption|]. split; [assumption|].
      split; [reflexivity|]. intros N. destruct company; [congruence|discriminate]. }
    assert (N0 : company <> []) by (intros ->; cbn in Z0; lia).
    assert (Fc : Forall (fun i => i < length (d_X D)) company).
    { apply Forall_forall. intros i Hi. apply (proj2 Hcomp) in Hi as [Hi _]. lia. }
    rewrite gather_rows_at by assumption. cbn [bind]. set (k2 := Nat.min (length X_maj) (mw_k2 p + 1)).
    destruct (Hnn X_maj (rows_at (d_X D) company) k2 ltac:(unfold k2; lia)) as (T2 & -> & HT2). cbn [bind].
    destruct (nearest_table_shape _ _ _ _ _ HT2) as (A1 & A2 & A3).
    rewrite gather_rows_at by now apply unique_flat_lt. cbn [bind]. set (border := unique_flat T2).
    assert (Nb : border <> []).
    { apply (unique_flat_some T2 k2); [|assumption|unfold k2; lia]. intros ->. unfold rows_at in A1. rewrite map_length in A1. cbn in A1. congruence. }
    set (k3 := Nat.min (mw_k3 p) (length X_min)).
    destruct (Hnn X_min (rows_at X_maj border) k3 ltac:(unfold k3; lia)) as (T3 & -> & HT3). cbn [bind].
    destruct (nearest_table_shape _ _ _ _ _ HT3) as (B1 & B2 & B3).
    rewrite gather_rows_at by now apply unique_flat_lt. cbn [bind]. set (informative := unique_flat T3).
    assert (Finf : Forall (fun i => i < length X_min) informative) by now apply unique_flat_lt.
    assert (Ninf : informative <> []).
    { apply (unique_flat_some T3 k3); [|assumption|unfold k3; lia]. intros ->. unfold rows_at in B1. rewrite map_length in B1. cbn in B1. destruct border; [congruence|discriminate]. }
    destruct (Hlab (Nat.min (length X_min) (mw_M p)) X_min ltac:(lia)) as [Ll Fl]. set (labels := kmeans _ X_min) in *.
    destruct (selection_ok norm p (d_dim D) (rows_at X_maj border) (rows_at X_min informative) Hdim Hth Hcm) as (probs & -> & Lp & Pp & Sp).
    { unfold rows_at. destruct border; [congruence|discriminate]. }
    { unfold rows_at. destruct informative; [congruence|discriminate]. }
    cbn [bind]. unfold rows_at in Lp. rewrite map_length in Lp.
    assert (Finf' : Forall (fun i => i < length labels) informative) by (rewrite Ll; assumption).
    destruct (cluster_probs_ok informative probs labels Finf' Lp Pp Sp) as (C1 & C2 & C3). set (cp := cluster_probs informative probs labels) in *.
    unfold np_choice. replace (forallb (fun q => Qle_bool 0 q) cp) with true.
    2:{ symmetry. apply forallb_forall. intros q Hq. apply Qle_bool_iff. rewrite Forall_forall in C1. auto. }
    destruct (rng_choice _ (Hr 0) cp (Z.to_nat n) C1 C2) as [R1 R2]. set (chosen := r_choice (rs 0) cp (Z.to_nat n)) in *. rewrite Forall_forall in R2.
    assert (Hch : forall c, In c chosen -> c < length cp /\ (0 < nth c cp 0)%Q).
    { intros c Hc. destruct (R2 c Hc) as (q & Eq & Hq). split; [apply nth_error_Some; congruence|]. now rewrite (nth_error_nth _ _ _ Eq). }
    rewrite (gather_map 0) by (apply Forall_forall; intros c Hc; rewrite seq_length; now apply Hch).
    rewrite (map_ext_in _ (fun c => c)) by (intros c Hc; now rewrite seq_nth by now apply Hch). rewrite map_id. cbn [bind].
    set (call := fun c count => _).
    assert (Hcall : forall c m, In c chosen -> exists S, call c m = Ok S /\ length S = m /\
      forall x, In x S -> exists mm others, In mm informative /\ NoDup others /\
        Forall (fun o => o <> mm /\ o < length X_min /\ nth o labels 0 = nth mm labels 0) others /\
        length others = Nat.min (ss_n_dim (mw_ss p)) (count_occ Nat.eq_dec labels (nth mm labels 0)) - 1 /\
        convex_comb (d_dim D) (nth mm X_min [] :: rows_at X_min others) x).
    { intros c m Hc. unfold call. destruct (Hch c Hc) as [_ Hc1]. destruct (C3 c Hc1) as (i0 & I1 & I2).
      set (ms := where_ (map (Nat.eqb c) labels)).
      assert (Hms : forall i, In i ms <-> i < length X_min /\ nth i labels 0 = c) by (intros i; unfold ms; rewrite mates_where, Ll; reflexivity).
      assert (Lms : length ms = count_occ Nat.eq_dec labels c) by apply where_count.
      assert (Nd : NoDup ms).
      { unfold ms. rewrite where_filter. apply NoDup_filter, seq_NoDup. }
      rewrite gather_rows_at by (apply Forall_forall; intros i Hi; now apply Hms). cbn [bind].
      assert (Lv : length (rows_at X_min ms) = length ms) by apply map_length. rewrite Lv.
      set (w := map (lookup_prob informative probs) ms).
      assert (Hi0 : In i0 ms) by (apply Hms; split; [rewrite Forall_forall in Finf; auto|assumption]).
      assert (Nms : 1 <= length ms) by (destruct ms; [destruct Hi0|cbn; lia]).
      assert (Wn : Forall (Qle 0) w) by (unfold w; apply Forall_map, Forall_forall; intros; now apply lookup_nonneg).
      assert (Ws : (0 < qsum w)%Q).
      { apply (qsum_pos_in w (lookup_prob informative probs i0)); [assumption|now apply in_map|]. now apply lookup_pos. }
      apply (In_nth _ _ 0) in Hi0 as (b0 & Hb0 & Eb0).
      set (args := mk_args (rows_at X_min ms) (d_dim D) (circulant (length ms)) (length ms) (Some (map (fun q => q / qsum w)%Q w)) None None false None).
      assert (Hargs : args_ok args).
      { assert (Rv : rect (d_dim D) (rows_at X_min ms)).
        { unfold rect, rows_at. apply Forall_map, Forall_forall. intros i Hi. unfold rect in Rmin. rewrite Forall_forall in Rmin. apply Rmin, nth_In. now apply Hms. }
        constructor; cbn; auto; try discriminate.
        - apply circulant_rect.
        - rewrite circulant_length, Lv. lia.
        - rewrite Lv. apply circulant_range. lia.
        - rewrite circulant_length, map_length. unfold w at 1. rewrite map_length. split; [lia|].
          apply Forall_map. eapply Forall_impl; [|exact Wn]. cbn. intros q Hq. now apply Qdiv_nonneg'. }
      assert (Wi : forall b, b < length ms -> nth b (map (fun q => q / qsum w)%Q w) 0%Q = (lookup_prob informative probs (nth b ms 0%nat) / qsum w)%Q).
      { intros b Hb. rewrite (nth_map' _ 0%Q) by (unfold w; now rewrite map_length). unfold w at 1. rewrite (nth_map' _ 0) by assumption. reflexivity. }
      destruct (ss_call vol (mw_ss p) args m (rs (Datatypes.S c)) b0 Hargs (Hr _) (Hu _) Hp) as (S & ES & LS & FS); cbn; try lia; auto.
      { rewrite circulant_length. assumption. }
      { rewrite Wi by assumption. apply Qdiv_pos_iff; [assumption|]. apply lookup_pos; [assumption|assumption|]. now rewrite Eb0. }
      exists S. split; [exact ES|]. split; [assumption|]. intros x Hx. specialize (FS Hg). rewrite Forall_forall in FS.
      destruct (FS x Hx) as (b & ps & P1 & P2 & P3 & P4 & P5 & _ & P6). cbn [args a_indices a_base_weights a_X a_X_vertices vertex_set a_dim a_ncols] in *.
      rewrite circulant_length in P1. rewrite Wi in P5 by assumption. apply Qdiv_pos_iff in P5; [|assumption]. apply lookup_pos in P5; [|assumption|assumption].
      assert (Hb : In (nth b ms 0) ms) by now apply nth_In. apply Hms in Hb as [Hb1 Hb2].
      set (pos := fun q => if q <=? b then b - q else b + length ms - q).
      rewrite Forall_forall in P4.
      assert (Epos : forall q, In q ps -> nth q (nth b (circulant (length ms)) []) 0 = pos q).
      { intros q Hq. destruct (P4 q Hq). rewrite circulant_entry by lia. now apply circulant_mod. }
      assert (Rpos : forall q, In q ps -> pos q < length ms /\ pos q <> b).
      { intros q Hq. destruct (P4 q Hq). unfold pos. destruct (Nat.leb_spec q b); lia. }
      exists (nth b ms 0), (map (fun q => nth (pos q) ms 0) ps). split; [assumption|]. split; [|split; [|split]].
      - assert (Nps : NoDup ps) by now apply sorted_lt_NoDup.
        clear - Nps Rpos Nd P4. induction ps as [|q ps IH]; [constructor|]. inversion Nps; subst. cbn [map]. constructor.
        + intros Hin. apply in_map_iff in Hin as (q' & E & Hq'). destruct (Rpos q ltac:(now left)), (Rpos q' ltac:(now right)).
          apply (proj1 (NoDup_nth ms 0) Nd) in E; [|assumption|assumption]. destruct (P4 q ltac:(now left)), (P4 q' ltac:(now right)).
          assert (q = q'); [|congruence]. unfold pos in E. destruct (Nat.leb_spec q b), (Nat.leb_spec q' b); lia.
        + apply IH; auto; intros; [apply P4|apply Rpos]; now right.
      - apply Forall_map, Forall_forall. intros q Hq. destruct (Rpos q Hq) as [Q1 Q2].
        pose proof (proj1 (Hms _) (nth_In ms 0 Q1)) as [Q3 Q4]. rewrite Hb2. split; [|split; assumption].
        intros E. apply (proj1 (NoDup_nth ms 0) Nd) in E; congruence.
      - rewrite map_length, P2, Hb2, <- Lms. reflexivity.
      - replace (nth b (rows_at X_min ms) []) with (nth (nth b ms 0) X_min []) in P6 by (unfold rows_at; rewrite (nth_map' _ 0) by assumption; reflexivity).
        unfold rows_at at 1. rewrite map_map. erewrite map_ext_in; [exact P6|]. intros q Hq. cbn. rewrite (Epos q Hq).
        unfold rows_at. rewrite (nth_map' _ 0) by now apply Rpos. reflexivity. }
    destruct (by_cluster_total call chosen) as [S ES].
    { intros E. rewrite E in R1. cbn in R1. lia. }
    { intros c m Hc. destruct (Hcall c m Hc) as (S & ES & _). eauto. }
    rewrite ES. cbn [bind]. eapply (by_cluster_spec (fun c x => _)) in ES.
    2:{ intros c m S' Hc ES'. destruct (Hcall c m Hc) as (S'' & ES'' & H1 & H2). rewrite ES'' in ES'. injection ES' as <-. split; [exact H1|exact H2]. }
    destruct ES as [LS FS]. rewrite R1 in LS. exists S. split; [reflexivity|]. exists T1, company. split; [assumption|]. split; [assumption|].
    split; [intros; contradiction|]. intros _. split; [assumption|]. exists T2, border, T3, informative.
    split; [exact HT2|]. split; [apply unique_flat_positions|]. split; [exact HT3|]. split; [apply unique_flat_positions|].
    apply Forall_forall. intros x Hx. destruct (FS x Hx) as (c & _ & Hc). exact Hc.
Qed.

(** A zero cutoff or a zero maximum leaves no probability. *)
Theorem mwmote_zero dist vol nn norm kmeans p rs D mn mj n :
  knn_ok dist nn -> wf_data (d_X D) (d_dim D) (d_y D) -> is_minority (d_y D) mn mj ->
  asked (mw_proportion p) (d_y D) mn mj = Ok n -> 2 < count_label (d_y D) mn -> (0 < n)%Z ->
  (forall T, nearest_table dist (d_X D) (d_X D) (Nat.min (length (d_X D)) (mw_k1 p + 1)) T -> exists i, has_company (d_y D) mn T i) ->
  (mw_cf_th p == 0)%Q \/ (mw_cmax p == 0)%Q ->
  mwmote_sample vol nn norm kmeans p rs D = Err ValueError.
Proof.
  intros Hnn Hwf Hmin Ha G Hn Hco Hz. unfold mwmote_sample.
  destruct (sample_default (mwmote_algorithm vol nn norm kmeans p rs) D mn mj Hmin) as (st & Hst & E). rewrite E. clear E. unfold mwmote_algorithm.
  rewrite (det_st_asked _ _ _ _ _ (proj1 Hmin) Hst), Ha. cbn [bind].
  destruct (Nat.leb_spec (count_label (d_y D) mn) 2); [lia|]. destruct (Nat.eqb_spec (Z.to_nat n) 0) as [|Hn']; [lia|].
  destruct Hst as (Emn & Emj & _). rewrite Emn, Emj. destruct Hwf as [HR HL].
  set (X_min := rows_with mn (d_X D) (d_y D)). set (X_maj := rows_with mj (d_X D) (d_y D)).
  assert (Lmin : length X_min = count_label (d_y D) mn) by now apply rows_with_length.
  assert (Lmaj : length X_maj = count_label (d_y D) mj) by now apply rows_with_length.
  assert (Hmaj : count_label (d_y D) mn <= count_label (d_y D) mj) by (destruct Hmin as [_ [?|[? _]]]; lia).
  destruct (filter_minorities_ok dist nn p D mn Hnn HL) as (T1 & company & -> & HT1 & Hcomp). cbn [bind].
  destruct (Hco T1 HT1) as (i0 & Hi0). apply (proj2 Hcomp) in Hi0.
  destruct (Nat.eqb_spec (length company) 0) as [Z0|Z0]; [destruct company; [destruct Hi0|discriminate]|].
  rewrite gather_rows_at by (apply Forall_forall; intros i Hi; apply (proj2 Hcomp) in Hi as [Hi _]; lia). cbn [bind].
  set (k2 := Nat.min (length X_maj) (mw_k2 p + 1)).
  destruct (Hnn X_maj (rows_at (d_X D) company) k2 ltac:(unfold k2; lia)) as (T2 & -> & HT2). cbn [bind].
  destruct (nearest_table_shape _ _ _ _ _ HT2) as (A1 & A2 & A3).
  rewrite gather_rows_at by now apply unique_flat_lt. cbn [bind].
  assert (Nb : unique_flat T2 <> []).
  { apply (unique_flat_some T2 k2); [|assumption|unfold k2; lia]. intros ->. unfold rows_at in A1. rewrite map_length in A1. cbn in A1. congruence. }
  set (k3 := Nat.min (mw_k3 p) (length X_min)).
  destruct (Hnn X_min (rows_at X_maj (unique_flat T2)) k3 ltac:(unfold k3; lia)) as (T3 & -> & HT3). cbn [bind].
  destruct (nearest_table_shape _ _ _ _ _ HT3) as (B1 & B2 & B3).
  rewrite gather_rows_at by now apply unique_flat_lt. cbn [bind].
  assert (E : selection_probabilities norm p (d_dim D) (rows_at X_maj (unique_flat T2)) (rows_at X_min (unique_flat T3)) = Err ValueError); [|rewrite E; reflexivity].
  unfold selection_probabilities. destruct Hz as [Hz|Hz].
  - apply Qeq_bool_iff in Hz. rewrite Hz, orb_true_r. reflexivity.
  - match goal with |- (if ?b then _ else _) = _ => assert (Eb : b = true); [|now rewrite Eb] end.
    apply orb_true_iff. right. destruct (unique_flat T2) as [|b0 bs]; [congruence|]. cbn [rows_at map existsb]. apply orb_true_iff. left.
    apply Qeq_bool_iff. set (X := rows_at X_min (unique_flat T3)). clearbody X. clear - Hz. set (y := nth b0 X_maj []). clearbody y.
    induction X as [|x X IH]; [reflexivity|]. cbn [map]. rewrite qsum_cons, IH. unfold closeness_factor. rewrite Hz. ring.
Qed.
