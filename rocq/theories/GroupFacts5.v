(** Proofs about GroupModel: ANS. *)

From Coq Require Import List ZArith QArith Bool Arith Lia Lqa Sorting.Sorted Permutation.
From Verif Require Import Np PyVal NpFacts BaseFacts SimplexModel Spec SpecDanger SpecNoise SpecComp SimplexFacts SimplexGeom Float64
  SamplerModel SamplerFacts OversFacts BaseModel KnnFacts DangerModel DangerFacts ClusterOversModel OversGen
  ClusterOversFacts ClusterFacts NoiseModel NoiseFacts NoiseFacts2 CompModel CompFacts CompFacts2 CompFacts3 CompFacts4 EditModel SpecEdit EditFacts4 EditFacts5
  SpecNear NearFacts NearFacts2 LevelModel SpecLevel LevelFacts LevelFacts3 LevelFacts4 GroupModel SpecGroup GroupFacts GroupFacts2 GroupFacts4.
Import ListNotations.
Open Scope nat_scope.

(** * The threshold *)

Lemma outcasts_eq ob c : 1 <= c -> Z.of_nat (outcasts ob c) = outcasts_at ob c.
Proof. intros H. unfold outcasts_at, outcasts. destruct c; [lia|reflexivity]. Qed.

Definition ans_step (ob : list nat) (s : Z * nat * option nat) (c : nat) : Z * nat * option nat :=
  let '(prev, C, best) := s in
  let n_oc := outcasts ob c in
  let diff := Z.abs_nat (Z.of_nat n_oc - prev) in
  if match best with None => true | Some b => diff <? b end
  then (Z.of_nat n_oc, n_oc, Some diff) else (Z.of_nat n_oc, C, best).

Definition ans_state (ob : list nat) (m : nat) (s : Z * nat * option nat) : Prop :=
  let '(prev, C, best) := s in
  prev = outcasts_at ob m /\
  (m = 0 -> C = 0 /\ best = None) /\
  (0 < m -> exists c b, 1 <= c <= m /\ best = Some b /\ Z.of_nat b = outcast_change ob c /\ Z.of_nat C = outcasts_at ob c /\
     (forall c', 1 <= c' <= m -> (outcast_change ob c <= outcast_change ob c')%Z) /\
     (forall c', 1 <= c' < c -> (outcast_change ob c < outcast_change ob c')%Z)).

Lemma ans_fold ob m : ans_state ob m (fold_left (ans_step ob) (seq 1 m) ((-1)%Z, 0, None)).
Proof.
  induction m as [|m IH]; [cbn; split; [reflexivity|]; split; [auto|lia]|].
  rewrite seq_S, fold_left_app. cbn [fold_left]. change (1 + m) with (S m). destruct (fold_left _ _ _) as [[prev C] best].
  destruct IH as (I1 & I2 & I3). unfold ans_step.
  set (diff := Z.abs_nat _).
  assert (Ed : Z.of_nat diff = outcast_change ob (S m)).
  { unfold diff. rewrite Zabs2Nat.id_abs, outcasts_eq by lia. unfold outcast_change. replace (S m - 1) with m by lia. now rewrite I1. }
  destruct (Nat.eq_dec m 0) as [->|Hm].
  - destruct (I2 eq_refl) as [-> ->]. split; [now apply outcasts_eq|]. split; [lia|]. intros _. exists 1, diff.
    split; [lia|]. split; [reflexivity|]. split; [assumption|]. split; [now apply outcasts_eq|]. split.
    + intros c' Hc'. replace c' with 1 by lia. lia.
    + intros c' Hc'. lia.
  - destruct I3 as (c & b & Hc & -> & Hb & HC & Hmin & Hfst); [lia|]. destruct (Nat.ltb_spec diff b) as [H|H].
    + split; [apply outcasts_eq; lia|]. split; [lia|]. intros _. exists (S m), diff. split; [lia|]. split; [reflexivity|]. split; [assumption|].
      split; [apply outcasts_eq; lia|]. split.
      * intros c' Hc'. destruct (Nat.eq_dec c' (S m)) as [->|]; [lia|]. specialize (Hmin c' ltac:(lia)). lia.
      * intros c' Hc'. specialize (Hmin c' ltac:(lia)). lia.
    + split; [apply outcasts_eq; lia|]. split; [lia|]. intros _. exists c, b. split; [lia|]. split; [reflexivity|]. split; [assumption|].
      split; [assumption|]. split; [|assumption]. intros c' Hc'. destruct (Nat.eq_dec c' (S m)) as [->|]; [lia|]. apply Hmin. lia.
Qed.

Lemma ans_C_cut ob rows : ans_cut ob (rows / 4) (ans_C rows ob).
Proof.
  change (ans_C rows ob) with (snd (fst (fold_left (ans_step ob) (seq 1 (rows / 4 - 1)) ((-1)%Z, 0, None)))).
  pose proof (ans_fold ob (rows / 4 - 1)) as H. destruct (fold_left _ _ _) as [[prev C] best]. cbn [fst snd].
  destruct H as (_ & H2 & H3). split.
  - intros Ht. apply H2. lia.
  - intros Ht. destruct H3 as (c & b & Hc & _ & _ & HC & Hmin & Hf); [lia|]. exists c. split; [lia|]. split; [assumption|].
    split; [|assumption]. intros c' Hc'. apply Hmin. lia.
Qed.

(** * Rows within the radius come first *)

Lemma nearest_within (dist : row -> row -> Q) (P : list row) x k t r eps p :
  length t = k -> NoDup t -> Forall (fun i => i < length P) t ->
  StronglySorted (fun i j => (dist x (nth i P []) <= dist x (nth j P []))%Q) t ->
  (forall i j, In i t -> ~ In j t -> j < length P -> (dist x (nth i P []) <= dist x (nth j P []))%Q) ->
  NoDup r -> (forall i, In i r <-> i < length P /\ (dist x (nth i P []) <= eps)%Q) ->
  length r <= k -> p < length r -> (dist x (nth (nth p t 0%nat) P []) <= eps)%Q.
Proof.
  intros Lt Nt Ft St Ht Nr Hr Hlen Hp.
  destruct (Qlt_le_dec eps (dist x (nth (nth p t 0%nat) P []))) as [Hlt|]; [|assumption]. exfalso.
  assert (Hpt : p < length t) by lia.
  assert (I : incl r (firstn p t)).
  { intros i Hi. apply Hr in Hi as [Hi1 Hi2].
    destruct (in_dec Nat.eq_dec i t) as [Hin|Hin].
    - rewrite <- (firstn_skipn p t) in Hin. apply in_app_or in Hin as [Hin|Hin]; [assumption|]. exfalso.
      assert (Es : skipn p t = nth p t 0 :: skipn (S p) t).
      { clear - Hpt. revert p Hpt. induction t as [|a t IH]; intros p Hp; [cbn in Hp; lia|]. destruct p; [reflexivity|]. cbn in *. apply IH. lia. }
      rewrite Es in Hin. destruct Hin as [<-|Hin]; [apply (Qlt_not_le _ _ Hlt Hi2)|].
      assert (Ss : StronglySorted (fun i j => (dist x (nth i P []) <= dist x (nth j P []))%Q) (skipn p t)).
      { clear - St. revert p. induction St as [|a t St IH F]; intros [|p]; cbn; try constructor; auto. }
      rewrite Es in Ss. inversion Ss as [|? ? _ F]; subst. rewrite Forall_forall in F. specialize (F i Hin).
      apply (Qlt_not_le _ _ Hlt). apply (Qle_trans _ (dist x (nth i P []))); assumption.
    - exfalso. specialize (Ht (nth p t 0) i (nth_In _ _ Hpt) Hin Hi1).
      apply (Qlt_not_le _ _ Hlt). apply (Qle_trans _ (dist x (nth i P []))); assumption. }
  apply (NoDup_incl_length Nr) in I. rewrite firstn_length in I. lia.
Qed.

Lemma qprod_ones l : (forall x, In x l -> x = 1%Q) -> (qprod l == 1)%Q.
Proof. induction l as [|a l IH]; intros H; [reflexivity|]. cbn. rewrite (H a) by now left. rewrite IH; [reflexivity|]. intros; apply H; now right. Qed.

Lemma list_max_attained l : l <> [] -> In (list_max l) l.
Proof.
  intros H. assert (G : list_max l = 0 \/ In (list_max l) l).
  { clear H. induction l as [|a l IH]; [now left|]. change (list_max (a :: l)) with (Nat.max a (list_max l)).
    destruct (Nat.max_spec a (list_max l)) as [[_ ->]|[_ ->]]; [|right; now left]. destruct IH as [->|IH]; [now left|right; now right]. }
  destruct G as [G|G]; [|assumption]. destruct l as [|a l]; [congruence|].
  change (list_max (a :: l)) with (Nat.max a (list_max l)) in *. assert (a = 0) by lia. rewrite G. now left.
Qed.

(** * The oversampler *)

Section Dense.
Variables (dist : row -> row -> Q) (vol : list row -> Q) (nn : list row -> list row -> nat -> res (list (list nat)))
  (radius : list row -> row -> Q -> list nat) (ss : ss_params) (r : rng) (dim n : nat) (X_min : list row) (used : list nat) (eps : Q).
Hypothesis Hnn : knn_ok dist nn.
Hypothesis Hrad : within_ok dist radius.
Hypothesis Hr : rng_ok r.
Hypothesis Hu : unif_pos r.
Hypothesis Hss : plain_ss ss.
Hypothesis Hd0 : forall x, (dist x x <= eps)%Q.
Hypothesis Su : StronglySorted lt used.
Hypothesis Fu : Forall (fun i => i < length X_min) used.
Hypothesis RX : rect dim X_min.

Let P := rows_at X_min used.
Let Np := map (fun x => length (radius P x eps)) P.
Let close := fun i j => (dist (nth i X_min []) (nth j X_min []) <= eps)%Q.

Lemma P_nth b : b < length used -> nth b P [] = nth (nth b used 0) X_min [].
Proof. intros H. unfold P, rows_at. now rewrite (nth_map' _ 0). Qed.

Lemma P_length : length P = length used.
Proof. apply rows_at_length. Qed.

Lemma Np_nth b : b < length used -> nth b Np 0 = length (radius P (nth b P []) eps).
Proof. intros H. unfold Np. now rewrite (nth_map' _ []) by (rewrite P_length; assumption). Qed.

Lemma Np_bound c : In c Np -> 1 <= c <= length used.
Proof.
  unfold Np. intros H. apply in_map_iff in H as (x & <- & Hx). destruct (Hrad P x eps) as [N I]. split.
  - apply (In_nth _ _ []) in Hx as (b & Hb & Eb). assert (In b (radius P x eps)).
    { apply I. split; [assumption|]. rewrite Eb. apply Hd0. }
    destruct (radius P x eps); [destruct H|cbn; lia].
  - assert (incl (radius P x eps) (seq 0 (length used))).
    { intros i Hi. apply I in Hi as [Hi _]. rewrite P_length in Hi. apply in_seq. lia. }
    apply (NoDup_incl_length N) in H. now rewrite seq_length in H.
Qed.

Lemma all_alone : forallb (Nat.eqb 1) Np = true <-> forall i j, In i used -> In j used -> close i j -> i = j.
Proof.
  assert (ND : NoDup used) by now apply sorted_lt_NoDup.
  rewrite forallb_forall. split.
  - intros H i j Hi Hj Hc. apply (In_nth _ _ 0) in Hi as (a & Ha & Ea). apply (In_nth _ _ 0) in Hj as (b & Hb & Eb).
    assert (E1 : length (radius P (nth a P []) eps) = 1).
    { symmetry. apply Nat.eqb_eq, H. rewrite <- Np_nth by assumption. apply nth_In. unfold Np. now rewrite map_length, P_length. }
    destruct (Hrad P (nth a P []) eps) as [N I].
    assert (Ia : In a (radius P (nth a P []) eps)) by (apply I; split; [rewrite P_length; assumption|apply Hd0]).
    assert (Ib : In b (radius P (nth a P []) eps)).
    { apply I. split; [rewrite P_length; assumption|]. rewrite !P_nth by assumption. now rewrite Ea, Eb. }
    destruct (radius P (nth a P []) eps) as [|u [|v l]]; [discriminate| |discriminate].
    destruct Ia as [->|[]], Ib as [->|[]]. congruence.
  - intros H c Hc. apply Nat.eqb_eq. pose proof (Np_bound c Hc) as [H1 _]. unfold Np in Hc. apply in_map_iff in Hc as (x & Ex & Hx).
    apply (In_nth _ _ []) in Hx as (a & Ha & Ea). rewrite P_length in Ha. destruct (Hrad P x eps) as [N I].
    destruct (radius P x eps) as [|u [|v l]] eqn:Er; [cbn in Ex; lia|cbn in Ex; lia|]. exfalso.
    assert (G : forall b, In b (u :: v :: l) -> b = a).
    { intros b Hb. apply I in Hb as [Hb1 Hb2]. rewrite P_length in Hb1. rewrite <- Ea, !P_nth in Hb2 by assumption.
      assert (E : nth a used 0 = nth b used 0) by (apply H; [now apply nth_In|now apply nth_In|exact Hb2]).
      rewrite (NoDup_nth used 0) in ND. symmetry. now apply ND. }
    inversion N as [|? ? N1 _]; subst. apply N1. left. rewrite (G u) by now left. apply G. right. now left.
Qed.

Lemma ans_dense : used <> [] -> forallb (Nat.eqb 1) Np = false ->
  exists S, (do base <- over_sum (map (fun c => inject_Z (Z.of_nat c)) Np);
        let max_neighbors := list_max Np in
        do ind <- nn P P max_neighbors;
        let weights := map (fun c => repeat 1%Q c ++ repeat 0%Q (max_neighbors - c)) Np in
        sample_simplex vol ss
          (mk_args P dim ind max_neighbors (Some base) None None false (Some weights)) n r) = Ok S /\ length S = n /\
    (ss_gauss ss = GNone -> Forall (fun x => exists b js, In b used /\
         incl js used /\ NoDup js /\ length js <= ss_n_dim ss - 1 /\ (2 <= ss_n_dim ss -> js <> []) /\
         Forall (close b) js /\ convex_comb dim (rows_at X_min (b :: js)) x) S).
Proof.
  intros Hne Hall.
  assert (LN : length Np = length used) by (unfold Np; now rewrite map_length, P_length).
  assert (NN : Np <> []) by (destruct Np; [destruct used; [congruence|discriminate]|discriminate]).
  set (M := list_max Np). assert (HM : In M Np) by now apply list_max_attained.
  assert (Mmax : forall c, In c Np -> c <= M).
  { intros c Hc. apply (proj1 (list_max_in Np M)); [reflexivity|assumption]. }
  assert (M2 : 2 <= M).
  { destruct (Nat.lt_ge_cases M 2) as [Hlt|]; [|assumption]. exfalso. assert (forallb (Nat.eqb 1) Np = true); [|congruence].
    apply forallb_forall. intros c Hc. apply Nat.eqb_eq. specialize (Mmax c Hc). apply Np_bound in Hc. lia. }
  assert (MP : M <= length P) by (rewrite P_length; apply Np_bound in HM; lia).
  set (u := map (fun c => inject_Z (Z.of_nat c)) Np).
  assert (Up : forall b, b < length used -> (0 < nth b u 0)%Q).
  { intros b Hb. unfold u. rewrite (nth_map' _ 0) by lia. apply qn_pos. assert (Hin : In (nth b Np 0) Np) by (apply nth_In; lia). apply Np_bound in Hin. lia. }
  assert (Un : Forall (Qle 0) u).
  { unfold u. apply Forall_map, Forall_forall. intros c _. change 0%Q with (inject_Z 0). rewrite <- Zle_Qle. lia. }
  assert (Us : (0 < qsum u)%Q).
  { assert (H0 : 0 < length used) by (destruct used; [congruence|cbn; lia]).
    apply (SimplexGeom.qsum_pos_in _ (nth 0 u 0%Q)); auto. apply nth_In. unfold u. rewrite map_length. lia. }
  unfold over_sum. destruct (SimplexGeom.normalize_total u Us) as [base Eb]. rewrite Eb. cbn [bind]. cbv zeta.
  destruct (normalize_ok u base Un Eb) as (B1 & B2 & B3).
  assert (Lb : length base = length used) by (rewrite B1; unfold u; now rewrite map_length).
  destruct (Hnn P P M MP) as (T & ET & HT). fold M. rewrite ET. cbn [bind].
  destruct (nearest_table_shape _ _ _ _ _ HT) as (L1 & L2 & L3). rewrite P_length in L1.
  set (sw := map (fun c => repeat 1%Q c ++ repeat 0%Q (M - c)) Np).
  set (args := mk_args P dim T M (Some base) None None false (Some sw)).
  assert (AO : args_ok args).
  { constructor; cbn; auto; try discriminate.
    - now apply rows_at_rect.
    - now apply rows_at_rect.
    - rewrite L1, P_length. lia.
    - split; [lia|assumption].
    - split; [unfold sw; rewrite map_length; lia|]. split.
      + unfold sw, rect. apply Forall_map, Forall_forall. intros c Hc. rewrite app_length, !repeat_length. specialize (Mmax c Hc). lia.
      + unfold sw. apply Forall_map, Forall_forall. intros c Hc. apply Forall_app. split; apply Forall_forall; intros q Hq; apply repeat_spec in Hq; subst; discriminate. }
  assert (Hsw : forall b p, b < length used -> (0 < nth p (nth b sw []) 0)%Q -> p < nth b Np 0).
  { intros b p Hb H. unfold sw in H. rewrite (nth_map' _ 0) in H by lia. destruct (Nat.lt_ge_cases p (nth b Np 0)) as [|Hge]; [assumption|]. exfalso.
    rewrite app_nth2 in H by (rewrite repeat_length; lia).
    assert (E : nth (p - length (repeat 1%Q (nth b Np 0))) (repeat 0%Q (M - nth b Np 0)) 0%Q = 0%Q) by apply nth_repeat.
    rewrite E in H. now apply Qlt_irrefl in H. }
  destruct Hss as (Hd & Hm & Hw). set (nd := Nat.min (ss_n_dim ss) M).
  apply (In_nth _ _ 0) in HM as (b0 & Hb0 & Eb0). rewrite LN in Hb0.
  destruct (sample_simplex_total vol ss args n r AO Hr Hu Hm Hd) as [S ES]; auto.
  { cbn. lia. }
  { exists (b0, seq 1 (nd - 1)). cbn [args a_indices a_ncols a_base_weights a_simplex_weights fst]. fold nd. split; [|split].
    - apply base_idx_in; [unfold nd; lia|]. split; [lia|]. split; [apply seq_length|]. split; [apply seq_sorted|].
      rewrite Forall_forall. intros q Hq. apply in_seq in Hq. unfold nd in Hq. lia.
    - cbn. unfold normalize in Eb. destruct (Qeq_bool (qsum u) 0); [discriminate|]. injection Eb as <-.
      rewrite (nth_map' _ 0%Q) by (unfold u; rewrite map_length; lia). apply Qlt_shift_div_l; [assumption|]. rewrite Qmult_0_l. now apply Up.
    - cbn [node_weight fst snd]. rewrite qprod_ones; [reflexivity|]. intros q Hq. apply in_map_iff in Hq as (p & <- & Hp). apply in_seq in Hp.
      unfold sw. rewrite (nth_map' _ 0) by lia. rewrite app_nth1 by (rewrite repeat_length; unfold nd in Hp; lia).
      rewrite (nth_indep _ 0%Q 1%Q) by (rewrite repeat_length; unfold nd in Hp; lia). apply nth_repeat. }
  exists S. split; [exact ES|]. destruct (sample_simplex_spec _ _ _ _ _ _ AO Hr ES) as [LS FS]. split; [assumption|].
  intros G. specialize (FS G). eapply Forall_impl; [|exact FS]. intros x (b & ps & Hb & Lps & Sps & Fps & _ & Wps & Hx).
  cbn [args a_dim a_X a_X_vertices a_indices a_ncols a_base_weights a_simplex_weights vertex_set] in *. fold nd in Lps. rewrite L1 in Hb.
  set (t := nth b T []) in *.
  assert (Ht : length t = M /\ NoDup t /\ Forall (fun i => i < length P) t /\
     StronglySorted (fun i j => (dist (nth b P []) (nth i P []) <= dist (nth b P []) (nth j P []))%Q) t /\
     (forall i j, In i t -> ~ In j t -> j < length P -> (dist (nth b P []) (nth i P []) <= dist (nth b P []) (nth j P []))%Q)).
  { exact (Forall2_nth' _ _ _ [] [] b HT ltac:(rewrite P_length; assumption)). }
  destruct Ht as (T1 & T2 & T3 & T4 & T5). rewrite P_length in T3.
  assert (Fp : forall p, In p ps -> p < M /\ nth p t 0 < length used /\ (dist (nth b P []) (nth (nth p t 0%nat) P []) <= eps)%Q).
  { intros p Hp. rewrite Forall_forall in Fps. pose proof (Fps p Hp) as Hpb. split; [lia|]. split.
    - rewrite Forall_forall in T3. apply T3, nth_In. lia.
    - destruct (Hrad P (nth b P []) eps) as [N I].
      apply (nearest_within dist P (nth b P []) M t (radius P (nth b P []) eps) eps p); auto.
      + now rewrite P_length.
      + rewrite <- Np_nth by assumption. apply Mmax, nth_In. lia.
      + rewrite <- Np_nth by assumption. apply Hsw; [assumption|]. rewrite Forall_forall in Wps. now apply Wps. }
  exists (nth b used 0), (map (fun p => nth (nth p t 0) used 0) ps). split; [now apply nth_In|]. split; [|split; [|split; [|split; [|split]]]].
  - intros j Hj. apply in_map_iff in Hj as (p & <- & Hp). apply nth_In. now apply Fp.
  - assert (ND : NoDup used) by now apply sorted_lt_NoDup. assert (NDp : NoDup ps) by now apply sorted_lt_NoDup.
    clear - ND NDp T2 Fp T1. induction NDp as [|p ps Hp NDp IH]; cbn; constructor.
    + intros H. apply in_map_iff in H as (q & E & Hq). apply Hp. destruct (Fp p (or_introl eq_refl)) as (P1 & P2 & _). destruct (Fp q (or_intror Hq)) as (Q1 & Q2 & _).
      rewrite (NoDup_nth used 0) in ND. apply ND in E; auto. rewrite (NoDup_nth t 0) in T2. apply T2 in E; [|lia|lia]. now subst.
    + apply IH. intros q Hq. apply Fp. now right.
  - rewrite map_length, Lps. unfold nd. lia.
  - intros H2 E. apply (f_equal (@length nat)) in E. rewrite map_length, Lps in E. unfold nd in E. cbn in E. lia.
  - apply Forall_map, Forall_forall. intros p Hp. destruct (Fp p Hp) as (_ & Hb2 & Hc). unfold close. rewrite !P_nth in Hc by assumption. exact Hc.
  - unfold rows_at. cbn [map]. rewrite map_map. rewrite P_nth in Hx by assumption.
    erewrite map_ext_in in Hx; [exact Hx|]. intros p Hp. cbv beta. destruct (Fp p Hp) as (_ & Hb2 & _). now rewrite P_nth.
Qed.
End Dense.

Lemma ans_runs dist vol nn radius prop ss r D mn mj n :
  knn_ok dist nn -> within_ok dist radius -> rng_ok r -> unif_pos r -> plain_ss ss ->
  (forall x, (dist x x == 0)%Q) -> (forall x z, (0 <= dist x z)%Q) ->
  wf_data (d_X D) (d_dim D) (d_y D) -> is_minority (d_y D) mn mj -> asked prop (d_y D) mn mj = Ok n ->
  runs D mn n (ans_spec dist ss D mn mj n) (ans_sample vol dist nn radius prop ss r D).
Proof.
  intros Hnn Hrad Hr Hu Hss Hd0 Hdn [HX Hl] Hmin Ha. unfold ans_sample, ans_algorithm.
  apply (runs_intro _ _ _ _ _ _ _ Hmin Ha). intros st (E1 & E2 & _) H2 Hn. rewrite E1, E2.
  set (X_min := rows_with mn (d_X D) (d_y D)).
  assert (Lmin : length X_min = count_label (d_y D) mn) by (apply rows_with_length; assumption).
  destruct (Hnn X_min X_min 2) as (T & ET & HT); [lia|].
  destruct (nearest_table_shape _ _ _ _ _ HT) as (L1 & L2 & L3).
  assert (HTn : forall i, i < length X_min -> length (nth i T []) = 2 /\ Forall (fun j => j < length X_min) (nth i T [])).
  { intros i Hi. unfold rect in L2. rewrite Forall_forall in L2, L3. assert (In (nth i T []) T) by (apply nth_In; lia). auto. }
  set (fst_d := fun i => dist (nth i X_min []) (nth (nth 1 (nth i T []) 0) X_min [])).
  set (first := map fst_d (seq 0 (length X_min))).
  assert (Ef : ans_first_distances dist nn X_min = Ok first).
  { unfold ans_first_distances. rewrite ET. cbn [bind].
    assert (Ec : combine X_min T = map (fun i => (nth i X_min [], nth i T [])) (seq 0 (length X_min))).
    { apply (nth_ext _ _ ([], []) ([], [])); [rewrite combine_length, map_length, seq_length; lia|]. intros i Hi. rewrite combine_length in Hi.
      rewrite combine_nth by lia. rewrite (nth_map' _ 0) by (rewrite seq_length; lia). rewrite seq_nth by lia. reflexivity. }
    rewrite Ec, mapM_map. rewrite (mapM_ext_in _ (fun i => Ok (fst_d i))); [apply mapM_pure|]. intros i Hi. apply in_seq in Hi. cbn [fst snd].
    destruct (HTn i ltac:(lia)) as [Ht Ft]. rewrite (get_nth 0) by lia. cbn [bind].
    rewrite (get_nth []) by (rewrite Forall_forall in Ft; apply Ft, nth_In; lia). reflexivity. }
  rewrite Ef. cbn [bind].
  assert (Lf : length first = length X_min) by (unfold first; now rewrite map_length, seq_length).
  assert (Nf : forall i, i < length X_min -> nth i first 0%Q = fst_d i).
  { intros i Hi. unfold first. rewrite (nth_map' _ 0) by (now rewrite seq_length). now rewrite seq_nth. }
  set (ind := fun i => radius (d_X D) (nth i X_min []) (nth i first 0%Q)).
  set (obf := fun i => votes (d_y D) (ind i) mj). set (ob := map obf (seq 0 (length X_min))).
  assert (Eo : ans_out_border radius D mj X_min first = Ok ob).
  { unfold ans_out_border.
    assert (Ec : combine X_min first = map (fun i => (nth i X_min [], nth i first 0%Q)) (seq 0 (length X_min))).
    { apply (nth_ext _ _ ([], 0%Q) ([], 0%Q)); [rewrite combine_length, map_length, seq_length; lia|]. intros i Hi. rewrite combine_length in Hi.
      rewrite combine_nth by lia. rewrite (nth_map' _ 0) by (rewrite seq_length; lia). rewrite seq_nth by lia. reflexivity. }
    rewrite Ec, mapM_map. rewrite (mapM_ext_in _ (fun i => Ok (obf i))); [apply mapM_pure|]. intros i _. cbn [fst snd].
    apply count_at_ok. apply Forall_forall. intros j Hj. apply Hrad in Hj as [Hj _]. lia. }
  rewrite Eo. cbn [bind]. cbv zeta.
  assert (Lo : length ob = length X_min) by (unfold ob; now rewrite map_length, seq_length).
  set (C := ans_C (length (d_X D)) ob). set (mask := map (fun o => o <? C) ob). set (used := where_ mask).
  assert (Lk : length mask = length X_min) by (unfold mask; now rewrite map_length).
  assert (Hu' : positions (fun i => i < length X_min /\ nth i ob 0 < C) used).
  { eapply positions_ext; [|apply positions_where]. intros i. cbn beta. unfold mask. rewrite nth_error_map_true. split.
    - intros (a & E & H). apply Nat.ltb_lt in H. assert (i < length ob) by (apply nth_error_Some; congruence).
      split; [lia|]. now rewrite (nth_error_nth _ _ 0 E).
    - intros [Hi H]. exists (nth i ob 0). split; [apply nth_error_nth'; lia|]. now apply Nat.ltb_lt. }
  rewrite (select_rows_at mask X_min Lk). fold used.
  assert (Es : select mask first = map (fun i => nth i first 0%Q) used).
  { unfold used. rewrite (select_nth 0%Q) by lia. rewrite where_filter. now rewrite Lk, Lf. }
  rewrite Es. set (eps := col_max (map (fun i => nth i first 0%Q) used)).
  assert (Common : nearest_table dist X_min X_min 2 T /\ length first = length X_min /\
     (forall i, i < length X_min -> nth i first 0%Q = dist (nth i X_min []) (nth (nth 1 (nth i T []) 0) X_min [])) /\
     length ob = length X_min /\
     (forall i, i < length X_min -> majority_within dist D mj (nth i X_min []) (nth i first 0%Q) (nth i ob 0)) /\
     ans_cut ob (length (d_X D) / 4) C /\ positions (fun i => i < length X_min /\ nth i ob 0 < C) used).
  { split; [assumption|]. split; [assumption|]. split; [exact Nf|]. split; [assumption|]. split; [|split; [apply ans_C_cut|assumption]].
    intros i Hi. assert (Eob : nth i ob 0 = obf i) by (unfold ob; rewrite (nth_map' _ 0) by (now rewrite seq_length); now rewrite seq_nth).
    set (t := filter (fun j => existsb (Nat.eqb j) (ind i)) (seq 0 (length (d_X D)))). exists t.
    assert (Ht : forall j, In j t <-> j < length (d_X D) /\ (dist (nth i X_min []) (nth j (d_X D) []) <= nth i first 0)%Q).
    { intros j. unfold t. rewrite filter_In, in_seq, existsb_exists. destruct (Hrad (d_X D) (nth i X_min []) (nth i first 0%Q)) as [_ I]. split.
      - intros [_ (j' & H & E)]. apply Nat.eqb_eq in E. subst j'. now apply I.
      - intros H. split; [lia|]. exists j. split; [now apply I|apply Nat.eqb_refl]. }
    split; [split; [apply filter_StronglySorted, NoiseFacts.seq_StronglySorted|exact Ht]|].
    rewrite Eob. unfold obf, votes. apply Permutation_length. apply NoDup_Permutation.
    - apply NoDup_filter, Hrad.
    - apply NoDup_filter. unfold t. apply NoDup_filter, seq_NoDup.
    - intros j. rewrite !filter_In, Ht. destruct (Hrad (d_X D) (nth i X_min []) (nth i first 0%Q)) as [_ I]. unfold ind. now rewrite I. }
  destruct Common as (A1 & A2 & A3 & A4 & A5 & A6 & A7).
  match goal with |- exists S, ?m = _ /\ _ => set (body := m) end.
  set (P := rows_at X_min used) in *.
  assert (Eb : body = if length used =? 0 then Ok (d_X D, d_y D) else
      if forallb (Nat.eqb 1) (map (fun x => length (radius P x eps)) P) then Ok (d_X D, d_y D) else
      do samples <- (do base <- over_sum (map (fun c => inject_Z (Z.of_nat c)) (map (fun x => length (radius P x eps)) P));
        let max_neighbors := list_max (map (fun x => length (radius P x eps)) P) in
        do ind <- nn P P max_neighbors;
        let weights := map (fun c => repeat 1%Q c ++ repeat 0%Q (max_neighbors - c)) (map (fun x => length (radius P x eps)) P) in
        sample_simplex vol ss
          (mk_args P (d_dim D) ind max_neighbors (Some base) None None false (Some weights)) (Z.to_nat n) r);
      Ok (extended D st samples)).
  { unfold body. unfold P at 1. unfold rows_at. assert (LP : length P = length used) by apply rows_at_length.
    destruct used as [|i us]; [reflexivity|]. cbn [map length Nat.eqb].
    destruct (forallb _ _); [reflexivity|]. destruct (over_sum _); [|reflexivity]. cbn [bind]. destruct (nn P P _); reflexivity. }
  rewrite Eb. clear Eb body.
  assert (Fu : Forall (fun i => i < length X_min) used) by (eapply positions_bound; [exact Hu'|]; intros i (Hi & _); assumption).
  assert (RX : rect (d_dim D) X_min) by now apply rows_with_rect.
  destruct (Nat.eqb_spec (length used) 0) as [E0|E0].
  { apply length_zero_iff_nil in E0. exists []. split; [unfold extended; cbn; now rewrite !app_nil_r|].
    exists T, first, ob, C, used. do 7 (split; [assumption|]). split; [reflexivity|]. intros; contradiction. }
  assert (Une : used <> []) by (intros E; rewrite E in E0; cbn in E0; congruence).
  assert (Hce : map (fun i => nth i first 0%Q) used <> []) by (destruct used; [congruence|discriminate]).
  destruct (col_max_spec _ Hce) as [M1 M2]. fold eps in M1, M2.
  assert (Heps1 : exists i, In i used /\ nth i first 0%Q = eps) by (apply in_map_iff in M1 as (i & E & Hi); eauto).
  assert (Heps2 : forall i, In i used -> (nth i first 0 <= eps)%Q) by (intros i Hi; apply M2; now apply (in_map (fun i => nth i first 0%Q))).
  assert (Hdx : forall x, (dist x x <= eps)%Q).
  { intros x. rewrite Hd0. destruct Heps1 as (i & Hi & <-). rewrite Forall_forall in Fu. rewrite Nf by (now apply Fu). apply Hdn. }
  pose proof (all_alone dist radius X_min used eps Hrad Hdx (proj1 Hu')) as Hal.
  destruct (forallb _ _) eqn:Eall.
  { exists []. split; [unfold extended; cbn; now rewrite !app_nil_r|].
    exists T, first, ob, C, used. do 7 (split; [assumption|]). split; [reflexivity|]. intros _.
    exists eps. split; [assumption|]. split; [assumption|]. cbv zeta. split; [reflexivity|]. split; [|constructor].
    intros i j Hi Hj Hc N. exfalso. apply N. apply (proj1 Hal eq_refl i j Hi Hj Hc). }
  destruct (ans_dense dist vol nn radius ss r (d_dim D) (Z.to_nat n) X_min used eps Hnn Hrad Hr Hu Hss Hdx (proj1 Hu') Fu RX Une Eall) as (S & ES & LS & FS).
  fold P in ES. rewrite ES. cbn [bind]. exists S. split; [reflexivity|].
  exists T, first, ob, C, used. do 7 (split; [assumption|]). split; [intros; contradiction|]. intros _.
  exists eps. split; [assumption|]. split; [assumption|]. cbv zeta. split; [|split; [intros; assumption|assumption]].
  intros H. apply Hal in H. congruence.
Qed.
