(** Proofs about CompModel: shared lemmas, Random_SMOTE, Safe_Level_SMOTE. *)

From Coq Require Import List ZArith QArith Bool Arith Lia Lqa Sorting.Sorted Permutation.
From Verif Require Import Np NpFacts SimplexModel Spec SpecDanger SpecComp SimplexFacts SimplexGeom Float64
  SamplerModel SamplerFacts OversFacts BaseModel KnnFacts DangerModel DangerFacts ClusterOversModel OversGen
  ClusterOversFacts ClusterFacts NoiseFacts2 CompModel.
Import ListNotations.
Open Scope nat_scope.

(** * Shared *)

Lemma sample_shape (body : nat -> stats -> dataset -> res (list row * list Z)) prop D mn mj n :
  is_minority (d_y D) mn mj -> asked prop (d_y D) mn mj = Ok n ->
  exists st, stats_of (d_y D) mn mj st /\
    sample_with checks_default (fun st D => do k <- det_n_to_sample_st prop st;
       if k =? 0 then Ok (d_X D, d_y D) else body k st D) D =
    if (count_label (d_y D) mn <=? 2) || (n =? 0)%Z then Ok (d_X D, d_y D) else body (Z.to_nat n) st D.
Proof.
  intros Hmin Ha. edestruct (sample_default (fun st D => do k <- det_n_to_sample_st prop st;
       if k =? 0 then Ok (d_X D, d_y D) else body k st D) D mn mj Hmin) as (st & Hst & E).
  exists st. split; [assumption|]. rewrite E. destruct (_ <=? 2); [reflexivity|]. cbn [orb].
  rewrite (det_st_asked _ _ _ _ _ (proj1 Hmin) Hst), Ha. cbn [bind].
  pose proof (asked_some _ _ _ _ _ Ha) as Hn.
  destruct (Nat.eqb_spec (Z.to_nat n) 0), (Z.eqb_spec n 0); try reflexivity; lia.
Qed.

Lemma runs_intro (body : nat -> stats -> dataset -> res (list row * list Z)) prop D mn mj n P :
  is_minority (d_y D) mn mj -> asked prop (d_y D) mn mj = Ok n ->
  (forall st, stats_of (d_y D) mn mj st -> 2 < count_label (d_y D) mn -> 0 < Z.to_nat n ->
     exists S, body (Z.to_nat n) st D = Ok (extended D st S) /\ P S) ->
  runs D mn n P (sample_with checks_default (fun st D => do k <- det_n_to_sample_st prop st;
       if k =? 0 then Ok (d_X D, d_y D) else body k st D) D).
Proof.
  intros Hmin Ha H. destruct (sample_shape body prop D mn mj n Hmin Ha) as (st & Hst & E). rewrite E. split.
  - intros G. unfold unchanged. destruct (Nat.leb_spec (count_label (d_y D) mn) 2); [reflexivity|].
    destruct G as [G| ->]; [lia|reflexivity].
  - intros H2 Hn. destruct (Nat.leb_spec (count_label (d_y D) mn) 2); [lia|].
    destruct (Z.eqb_spec n 0); [lia|]. cbn [orb].
    destruct (H st Hst H2 ltac:(lia)) as (S & E' & HP). exists S. rewrite E'.
    destruct Hst as (<- & _). split; [reflexivity|assumption].
Qed.

Lemma choice_range_ok r m n : rng_ok r -> 0 < m ->
  exists l, choice_range r m n = Ok l /\ length l = n /\ Forall (fun i => i < m) l.
Proof.
  intros Hr Hm. unfold choice_range. destruct (Nat.eqb_spec m 0); [lia|].
  destruct (uniform_props m Hm) as [U1 U2]. destruct (rng_choice _ Hr _ n U1 U2) as [L F].
  eexists. split; [reflexivity|]. split; [assumption|]. eapply Forall_impl; [|exact F].
  intros i (q & E & _). apply nth_error_Some_lt in E || (assert (E' : nth_error (repeat (1 / inject_Z (Z.of_nat m))%Q m) i <> None) by congruence; apply nth_error_Some in E'; rewrite repeat_length in E'); assumption.
Qed.

Lemma choice_from1_ok r m n : rng_ok r -> 2 <= m ->
  exists l, choice_from1 r m n = Ok l /\ length l = n /\ Forall (fun i => 1 <= i < m) l.
Proof.
  intros Hr Hm. unfold choice_from1. destruct (choice_range_ok r (m - 1) n Hr) as (l & -> & L & F); [lia|].
  eexists. split; [reflexivity|]. split; [now rewrite map_length|]. rewrite Forall_map.
  eapply Forall_impl; [|exact F]. cbn. intros; lia.
Qed.

Lemma mapM_draws {A} (f : A -> res row) l n P : length l = n ->
  (forall d, In d l -> exists x, f d = Ok x /\ P x) ->
  exists S, mapM f l = Ok S /\ length S = n /\ Forall P S.
Proof.
  intros <-. induction l as [|a l IH]; intros H.
  - exists []. repeat split; constructor.
  - destruct (H a) as (x & E & Px); [now left|]. destruct IH as (S & E' & L & F); [intros d Hd; apply H; now right|].
    exists (x :: S). cbn [mapM]. rewrite E. cbn [bind]. rewrite E'. cbn. split; [reflexivity|].
    split; [now rewrite L|]. now constructor.
Qed.

Lemma in_combine {A B} (l1 : list A) (l2 : list B) a b : In (a, b) (combine l1 l2) -> In a l1 /\ In b l2.
Proof. intros H. split; [eapply in_combine_l|eapply in_combine_r]; exact H. Qed.

Lemma unif_in r n d u : rng_ok r -> In u (r_unif r n d) -> length u = d /\ Forall unit_share u.
Proof. intros Hr Hu. destruct (rng_unif _ Hr n d) as [_ F]. rewrite Forall_forall in F. exact (F u Hu). Qed.

Lemma unif_length r n d : rng_ok r -> length (r_unif r n d) = n.
Proof. intros Hr. apply (rng_unif _ Hr n d). Qed.

Lemma vlerp_length d b v u : length b = d -> length v = d -> length u = d -> length (vlerp b v u) = d.
Proof. intros. unfold vlerp. rewrite vadd_length, map2_length, vsub_length. lia. Qed.

Lemma vlerp_nth d b v u j : length b = d -> length v = d -> length u = d -> j < d ->
  (nth j (vlerp b v u) 0 == nth j b 0 + nth j u 0 * (nth j v 0 - nth j b 0))%Q.
Proof.
  intros H1 H2 H3 Hj. unfold vlerp.
  rewrite vadd_nth by (rewrite ?map2_length, ?vsub_length; lia).
  rewrite (map2_nth _ _ _ _ 0%Q 0%Q 0%Q) by (rewrite ?vsub_length; lia).
  rewrite vsub_nth by lia. ring.
Qed.

Lemma vlerp_between (P : Q -> Prop) d b v u : length b = d -> length v = d -> length u = d -> Forall P u ->
  between P d b v (vlerp b v u).
Proof.
  intros H1 H2 H3 H. split; [now apply vlerp_length|]. intros j Hj. exists (nth j u 0%Q). split.
  - rewrite Forall_forall in H. apply H, nth_In. lia.
  - now apply (vlerp_nth d).
Qed.

(** A column other than the first. *)
Lemma entry_listed dist Xf Xq k T b c : nearest_table dist Xf Xq k T -> b < length Xq -> 1 <= c < k ->
  exists i, entry T b c = Ok i /\ listed T b i /\ i < length Xf.
Proof.
  intros HT Hb Hc. destruct (nearest_table_shape _ _ _ _ _ HT) as (L & R & F).
  unfold entry. rewrite (get_nth [] T b) by lia. cbn [bind].
  assert (Hrow : In (nth b T []) T) by (apply nth_In; lia).
  assert (Hl : length (nth b T []) = k) by (unfold rect in R; rewrite Forall_forall in R; now apply R).
  rewrite (get_nth 0 _ c) by lia. exists (nth c (nth b T []) 0). split; [reflexivity|]. split.
  - split; [lia|]. destruct (nth b T []) as [|x t]; [cbn in Hl; lia|]. destruct c; [lia|]. cbn. apply nth_In. cbn in Hl. lia.
  - rewrite Forall_forall in F. specialize (F _ Hrow). rewrite Forall_forall in F. apply F, nth_In. lia.
Qed.

Lemma entry_any dist Xf Xq k T b c : nearest_table dist Xf Xq k T -> b < length Xq -> c < k ->
  exists i, entry T b c = Ok i /\ In i (nth b T []) /\ i < length Xf.
Proof.
  intros HT Hb Hc. destruct (nearest_table_shape _ _ _ _ _ HT) as (L & R & F).
  unfold entry. rewrite (get_nth [] T b) by lia. cbn [bind].
  assert (Hrow : In (nth b T []) T) by (apply nth_In; lia).
  assert (Hl : length (nth b T []) = k) by (unfold rect in R; rewrite Forall_forall in R; now apply R).
  rewrite (get_nth 0 _ c) by lia. exists (nth c (nth b T []) 0). split; [reflexivity|]. split; [apply nth_In; lia|].
  rewrite Forall_forall in F. specialize (F _ Hrow). rewrite Forall_forall in F. apply F, nth_In. lia.
Qed.

(** * Random_SMOTE *)

Lemma random_smote_runs dist nn p rs D mn mj n :
  knn_ok dist nn -> rngs_ok rs -> wf_data (d_X D) (d_dim D) (d_y D) -> is_minority (d_y D) mn mj ->
  asked (cp_proportion p) (d_y D) mn mj = Ok n -> 1 <= cp_n_neighbors p ->
  runs D mn n (random_smote_spec dist p D mn n) (random_smote_sample nn p rs D).
Proof.
  intros Hnn Hrs [Hr Hl] Hmin Ha Hk. unfold random_smote_sample, random_smote_algorithm.
  apply (runs_intro _ _ _ _ _ _ _ Hmin Ha). intros st (E1 & E2 & _) H2 Hn. rewrite E1.
  set (X_min := rows_with mn (d_X D) (d_y D)).
  assert (HL : length X_min = count_label (d_y D) mn) by now apply rows_with_length.
  assert (HR : rect (d_dim D) X_min) by now apply rows_with_rect.
  set (k := Nat.min (length X_min) (cp_n_neighbors p + 1)).
  destruct (Hnn X_min X_min k) as (T & ET & HT); [unfold k; lia|]. rewrite ET. cbn [bind].
  destruct (choice_range_ok (rs 0) (length X_min) (Z.to_nat n) (Hrs 0)) as (base & -> & B1 & B2); [lia|]. cbn [bind].
  destruct (choice_from1_ok (rs 1) k (Z.to_nat n) (Hrs 1)) as (c1 & -> & C1 & C2); [unfold k; lia|]. cbn [bind].
  destruct (choice_from1_ok (rs 2) k (Z.to_nat n) (Hrs 2)) as (c2 & -> & C3 & C4); [unfold k; lia|]. cbn [bind].
  edestruct (mapM_draws (random_smote_row X_min T)
    (combine base (combine c1 (combine c2 (combine (r_unif (rs 3) (Z.to_nat n) (d_dim D)) (r_unif (rs 4) (Z.to_nat n) (d_dim D))))))
    (Z.to_nat n)
    (fun x => exists b i1 i2 z, listed T b i1 /\ listed T b i2 /\
      between unit_share (d_dim D) (nth i1 X_min []) (nth i2 X_min []) z /\
      between unit_share (d_dim D) (nth b X_min []) z x)) as (S & ES & LS & FS).
  { rewrite !combine_length, !unif_length by apply Hrs. lia. }
  { intros (b & j1 & j2 & u1 & u2) Hd.
    apply in_combine in Hd as [Hb Hd]. apply in_combine in Hd as [Hj1 Hd]. apply in_combine in Hd as [Hj2 Hd].
    apply in_combine in Hd as [Hu1 Hu2].
    rewrite Forall_forall in B2, C2, C4. specialize (B2 _ Hb). specialize (C2 _ Hj1). specialize (C4 _ Hj2).
    destruct (unif_in _ _ _ _ (Hrs 3) Hu1) as [U1 V1]. destruct (unif_in _ _ _ _ (Hrs 4) Hu2) as [U2 V2].
    destruct (entry_listed _ _ _ _ _ b j1 HT B2 C2) as (i1 & Ei1 & L1 & I1).
    destruct (entry_listed _ _ _ _ _ b j2 HT B2 C4) as (i2 & Ei2 & L2 & I2).
    unfold random_smote_row. rewrite Ei1. cbn [bind]. rewrite (get_nth [] X_min i1) by assumption. cbn [bind].
    rewrite Ei2. cbn [bind]. rewrite (get_nth [] X_min i2) by assumption. cbn [bind].
    rewrite (get_nth [] X_min b) by assumption. cbn [bind].
    pose proof (rect_nth _ _ _ HR B2) as D0. pose proof (rect_nth _ _ _ HR I1) as D1. pose proof (rect_nth _ _ _ HR I2) as D2.
    eexists. split; [reflexivity|]. exists b, i1, i2, (vlerp (nth i1 X_min []) (nth i2 X_min []) u1).
    split; [assumption|]. split; [assumption|]. split; apply vlerp_between; auto. now apply vlerp_length. }
  exists S. rewrite ES. cbn [bind]. split; [reflexivity|]. split; [assumption|]. exists T. split; assumption.
Qed.

(** * Safe_Level_SMOTE *)

Lemma safe_gap_length a b g : length (safe_gap a b g) = length g.
Proof. unfold safe_gap. destruct (a <? b), (b <? a); now rewrite ?map_length. Qed.

Lemma inj_pos n : 0 < n -> (0 < inject_Z (Z.of_nat n))%Q.
Proof. intros H. change 0%Q with (inject_Z 0). rewrite <- Zlt_Qlt. lia. Qed.

Lemma inj_le a b : a <= b -> (inject_Z (Z.of_nat a) <= inject_Z (Z.of_nat b))%Q.
Proof. intros H. rewrite <- Zle_Qle. lia. Qed.

Lemma safe_gap_share slp sln g : 0 < slp \/ 0 < sln -> Forall unit_share g -> Forall (safe_share slp sln) (safe_gap slp sln g).
Proof.
  intros Hp Hg.
  assert (M : forall t, unit_share t -> Forall (safe_share slp sln) (safe_gap slp sln [t])).
  { clear g Hg. intros t [T0 T1]. unfold safe_gap, safe_share. cbn [map].
    destruct (Nat.eqb_spec sln 0) as [Ez|Ez]; destruct (Nat.ltb_spec 0 slp) as [Ep|Ep]; cbn [andb].
    - destruct (Nat.ltb_spec sln slp); [|lia]. destruct (Nat.ltb_spec slp sln); [lia|]. constructor; [|constructor].
      split; [|split; intros; lia]. intros _ _. unfold Qdiv. ring.
    - lia.
    - pose proof (inj_pos slp Ep) as Q1. pose proof (inj_pos sln ltac:(lia)) as Q2.
      destruct (Nat.ltb_spec sln slp) as [A|A]; destruct (Nat.ltb_spec slp sln) as [B|B]; try lia; cbn [map];
        (constructor; [|constructor]); (split; [intros; lia|]); split; intros; try lia.
      + assert (G : (t * 1 * inject_Z (Z.of_nat sln) / inject_Z (Z.of_nat slp) == t * (inject_Z (Z.of_nat sln) / inject_Z (Z.of_nat slp)))%Q)
          by (unfold Qdiv; ring). rewrite G.
        assert (R : (0 < inject_Z (Z.of_nat sln) / inject_Z (Z.of_nat slp))%Q) by (apply Qlt_shift_div_l; [assumption|lra]).
        split; nra.
      + assert (G : (t * 1 * inject_Z (Z.of_nat slp) / inject_Z (Z.of_nat sln) == t * (inject_Z (Z.of_nat slp) / inject_Z (Z.of_nat sln)))%Q)
          by (unfold Qdiv; ring). rewrite G.
        assert (R : (0 < inject_Z (Z.of_nat slp) / inject_Z (Z.of_nat sln))%Q) by (apply Qlt_shift_div_l; [assumption|lra]).
        split; nra.
      + assert (slp = sln) by lia. subst slp.
        assert (R : (inject_Z (Z.of_nat sln) / inject_Z (Z.of_nat sln) == 1)%Q) by (field; lra). rewrite R. split; nra.
    - assert (slp = 0) by lia. subst slp. destruct (Nat.ltb_spec sln 0); [lia|]. destruct (Nat.ltb_spec 0 sln); [|lia].
      constructor; [|constructor]. split; [intros; lia|]. split; [intros; lia|]. intros _.
      change (inject_Z (Z.of_nat 0)) with 0%Q. unfold Qdiv. split; lra. }
  assert (G : forall g, safe_gap slp sln g = concat (map (fun t => safe_gap slp sln [t]) g)).
  { clear. unfold safe_gap. intros g. destruct (sln <? slp), (slp <? sln); induction g as [|t g IH]; cbn in *; try reflexivity;
      f_equal; try assumption; now rewrite <- IH. }
  rewrite G. apply Forall_concat, Forall_map. eapply Forall_impl; [|exact Hg]. exact M.
Qed.

(** The pairs found. *)
Lemma slp_sln_spec mn y k T : rect k T -> length T = length y -> Forall (Forall (fun i => i < length y)) T ->
  exists ps, slp_sln mn y T = Ok ps /\
    (forall i j a b, In (i, j, a, b) ps -> safe_pair y mn T i j /\
       a = neighbours_of y mn (nth i T []) /\ b = neighbours_of y mn (nth j T [])) /\
    (forall i j, safe_pair y mn T i j -> exists a b, In (i, j, a, b) ps).
Proof.
  intros HR HLen HF. unfold slp_sln. set (minority := where_ (map (Z.eqb mn) y)).
  assert (Hmin : forall i, In i minority <-> i < length y /\ nth i y 0%Z = mn).
  { intros i. unfold minority. split.
    - intros H. pose proof (ClusterFacts.where_bound _ _ H) as Hb. rewrite map_length in Hb. split; [assumption|].
      apply NoiseFacts2.where_in in H as [_ H]. rewrite (nth_indep _ false (Z.eqb mn 0%Z)) in H by (rewrite map_length; lia).
      rewrite map_nth in H. apply Z.eqb_eq in H. congruence.
    - intros [H1 H2]. apply ClusterFacts.where_in; [now rewrite map_length|].
      rewrite (nth_indep _ false (Z.eqb mn 0%Z)) by (rewrite map_length; lia). rewrite map_nth. apply Z.eqb_eq. congruence. }
  set (lev := fun i => neighbours_of y mn (nth i T [])).
  assert (EL : mapM (count_neighbours y mn) T = Ok (map (neighbours_of y mn) T)).
  { rewrite <- mapM_pure. apply mapM_ext_in. intros t Ht. apply count_neighbours_ok. rewrite Forall_forall in HF. now apply HF. }
  rewrite EL. cbn [bind]. set (levels := map (neighbours_of y mn) T).
  assert (Lget : forall i, i < length y -> get levels i = Ok (lev i)).
  { intros i Hi. unfold levels. rewrite (get_nth (neighbours_of y mn [])) by (rewrite map_length; lia). now rewrite map_nth. }
  assert (Lgather : forall l, Forall (fun i => i < length y) l -> gather levels l = Ok (map lev l)).
  { intros l Hl. unfold gather. rewrite <- mapM_pure. apply mapM_ext_in. intros i Hi. apply Lget. rewrite Forall_forall in Hl. now apply Hl. }
  assert (Bmin : Forall (fun i => i < length y) minority).
  { apply Forall_forall. intros i Hi. now apply Hmin in Hi. }
  rewrite (Lgather _ Bmin). cbn [bind].
  assert (Sel : forall f, select (map f (map lev minority)) minority = filter (fun i => f (lev i)) minority).
  { intros f. rewrite map_map. apply select_map_filter. }
  rewrite !Sel. set (pos := filter (fun i => 0 <? lev i) minority). set (null := filter (fun i => lev i =? 0) minority).
  assert (Tgather : forall l, Forall (fun i => i < length y) l -> gather T l = Ok (map (fun i => nth i T []) l)).
  { intros l Hl. apply gather_map. now rewrite HLen. }
  assert (Bpos : Forall (fun i => i < length y) pos).
  { apply Forall_forall. intros i Hi. apply filter_In in Hi as [Hi _]. now apply Hmin in Hi. }
  assert (Bnull : Forall (fun i => i < length y) null).
  { apply Forall_forall. intros i Hi. apply filter_In in Hi as [Hi _]. now apply Hmin in Hi. }
  rewrite (Tgather _ Bpos), (Tgather _ Bnull). cbn [bind].
  assert (Comb : forall l, combine l (map (fun i => nth i T []) l) = map (fun i => (i, nth i T [])) l).
  { induction l; cbn; congruence. }
  rewrite !Comb.
  assert (TB : forall i j, i < length y -> In j (tl (nth i T [])) -> j < length y).
  { intros i j Hi Hj. rewrite Forall_forall in HF. assert (Ht : In (nth i T []) T) by (apply nth_In; lia).
    specialize (HF _ Ht). rewrite Forall_forall in HF. apply HF. destruct (nth i T []); [destruct Hj|now right]. }
  rewrite mapM_map.
  assert (E1 : mapM (fun x => do ls <- gather levels (tl (snd (x, nth x T [])));
       Ok (map (pair (fst (x, nth x T []))) (select (map (fun l => 0 <? l) ls) (tl (snd (x, nth x T [])))))) null =
     Ok (map (fun x => map (pair x) (filter (fun j => 0 <? lev j) (tl (nth x T [])))) null)).
  { rewrite <- mapM_pure. apply mapM_ext_in. intros x Hx. cbn [fst snd].
    assert (Hx' : x < length y) by (rewrite Forall_forall in Bnull; now apply Bnull).
    rewrite Lgather by (apply Forall_forall; intros j Hj; eapply TB; eauto). cbn [bind].
    rewrite map_map. now rewrite (select_map_filter (fun j => 0 <? lev j)). }
  rewrite E1. cbn [bind].
  set (pairs := flat_map _ _ ++ concat _).
  assert (PI : forall i j, In (i, j) pairs <-> safe_pair y mn T i j).
  { intros i j. unfold pairs, safe_pair, listed. rewrite in_app_iff, in_flat_map, in_concat. split.
    - intros [(pt & H1 & H2)|(l & H1 & H2)].
      + apply in_map_iff in H1 as (i' & <- & Hi). cbn [fst snd] in H2. apply in_map_iff in H2 as (j' & E & Hj).
        injection E as -> ->. unfold pos in Hi. apply filter_In in Hi as [Hi Hl]. apply Hmin in Hi as [Hi1 Hi2].
        apply Nat.ltb_lt in Hl. repeat split; auto; try lia.
      + apply in_map_iff in H1 as (i' & <- & Hi). apply in_map_iff in H2 as (j' & E & Hj).
        injection E as -> ->. unfold null in Hi. apply filter_In in Hi as [Hi Hl]. apply Hmin in Hi as [Hi1 Hi2].
        apply filter_In in Hj as [Hj Hlj]. apply Nat.ltb_lt in Hlj. repeat split; auto; try lia.
    - intros (H1 & H2 & (H3 & H4) & H5). assert (Hi : In i minority) by now apply Hmin.
      destruct (Nat.eq_dec (lev i) 0) as [Ez|Ez].
      + right. exists (map (pair i) (filter (fun j => 0 <? lev j) (tl (nth i T [])))). split.
        * apply in_map_iff. exists i. split; [reflexivity|]. apply filter_In. split; [assumption|]. now apply Nat.eqb_eq.
        * apply in_map_iff. exists j. split; [reflexivity|]. apply filter_In. split; [assumption|]. apply Nat.ltb_lt. unfold lev in *. lia.
      + left. exists (i, nth i T []). split.
        * apply in_map_iff. exists i. split; [reflexivity|]. apply filter_In. split; [assumption|]. apply Nat.ltb_lt. lia.
        * cbn [fst snd]. apply in_map_iff. exists j. now split. }
  assert (E2 : mapM (fun ij => do a <- get levels (fst ij); do b <- get levels (snd ij); Ok (fst ij, snd ij, a, b)) pairs =
     Ok (map (fun ij => (fst ij, snd ij, lev (fst ij), lev (snd ij))) pairs)).
  { rewrite <- mapM_pure. apply mapM_ext_in. intros [i j] Hij. cbn [fst snd]. apply PI in Hij as (H1 & _ & (H3 & H4) & _).
    rewrite (Lget i H1). cbn [bind]. rewrite (Lget j (TB _ _ H1 H4)). reflexivity. }
  rewrite E2. eexists. split; [reflexivity|]. split.
  - intros i j a b H. apply in_map_iff in H as ([i' j'] & E & H). cbn [fst snd] in E. injection E as -> -> <- <-.
    split; [now apply PI|]. split; reflexivity.
  - intros i j H. exists (lev i), (lev j). apply in_map_iff. exists (i, j). split; [reflexivity|]. now apply PI.
Qed.

Lemma safe_level_runs dist nn p rs D mn mj n :
  knn_ok dist nn -> rngs_ok rs -> wf_data (d_X D) (d_dim D) (d_y D) -> is_minority (d_y D) mn mj ->
  asked (cp_proportion p) (d_y D) mn mj = Ok n ->
  runs D mn n (safe_level_spec dist p D mn n) (safe_level_sample nn p rs D).
Proof.
  intros Hnn Hrs [Hr Hl] Hmin Ha. unfold safe_level_sample, safe_level_algorithm.
  apply (runs_intro _ _ _ _ _ _ _ Hmin Ha). intros st (E1 & E2 & _) H2 Hn. rewrite E1.
  set (k := Nat.min (cp_n_neighbors p + 1) (length (d_X D))).
  destruct (Hnn (d_X D) (d_X D) k) as (T & ET & HT); [unfold k; lia|]. rewrite ET. cbn [bind].
  destruct (nearest_table_shape _ _ _ _ _ HT) as (L & R & F). rewrite Hl in F.
  destruct (slp_sln_spec mn (d_y D) k T R ltac:(lia) F) as (ps & Eps & P1 & P2). rewrite Eps. cbn [bind].
  destruct ps as [|e0 ps'] eqn:Ep.
  - exists []. unfold extended. cbn. rewrite !app_nil_r. split; [reflexivity|]. exists T. split; [assumption|].
    split; [reflexivity|]. split; [|constructor]. intros i j H. destruct (P2 i j H) as (a & b & []).
  - rewrite <- Ep in *. assert (Hps : 0 < length ps) by (rewrite Ep; cbn; lia).
    destruct (choice_range_ok (rs 0) (length ps) (Z.to_nat n) (Hrs 0) Hps) as (base & -> & B1 & B2). cbn [bind].
    edestruct (mapM_draws (safe_level_row (d_X D) ps) (combine base (r_unif (rs 1) (Z.to_nat n) (d_dim D))) (Z.to_nat n)
      (fun x => exists i j, safe_pair (d_y D) mn T i j /\
      between (safe_share (neighbours_of (d_y D) mn (nth i T [])) (neighbours_of (d_y D) mn (nth j T [])))
        (d_dim D) (nth i (d_X D) []) (nth j (d_X D) []) x)) as (S & ES & LS & FS).
    { rewrite combine_length, unif_length by apply Hrs. lia. }
    { intros (b & u) Hd. apply in_combine in Hd as [Hb Hu]. rewrite Forall_forall in B2. specialize (B2 _ Hb).
      destruct (unif_in _ _ _ _ (Hrs 1) Hu) as [U V].
      unfold safe_level_row. cbn [fst snd]. destruct (get_lt ps b B2) as [[[[i j] a] c] Eg]. rewrite Eg. cbn [bind].
      apply get_in in Eg. destruct (P1 _ _ _ _ Eg) as (Hpair & -> & ->).
      assert (Hi : i < length (d_X D)) by (rewrite Hl; apply Hpair).
      assert (Hj : j < length (d_X D)).
      { destruct Hpair as (I1 & _ & (I3 & I4) & _). rewrite Hl. rewrite Forall_forall in F.
        specialize (F (nth i T [])). rewrite Forall_forall in F. apply F; [now apply nth_In|].
        destruct (nth i T []); [destruct I4|now right]. }
      rewrite (get_nth [] (d_X D) i) by assumption. cbn [bind]. rewrite (get_nth [] (d_X D) j) by assumption. cbn [bind].
      eexists. split; [reflexivity|]. exists i, j. split; [assumption|].
      apply vlerp_between; try (now apply rect_nth); [now rewrite safe_gap_length|].
      apply safe_gap_share; [apply Hpair|assumption]. }
    rewrite ES. cbn [bind]. exists S. split; [reflexivity|]. exists T. split; [assumption|]. split; [|split; auto].
    intros Hno. destruct e0 as [[[i j] a] b]. exfalso. apply (Hno i j). apply (P1 i j a b). rewrite Ep. now left.
Qed.
