(** Proofs about LevelModel: ProWSyn and Gazzah. *)

From Coq Require Import List ZArith QArith Bool Arith Lia Lqa Sorting.Sorted Permutation.
From Verif Require Import Np NpFacts BaseFacts SimplexModel Spec SpecDanger SpecNoise SpecComp SimplexFacts SimplexGeom Float64
  SamplerModel SamplerFacts OversFacts BaseModel KnnFacts DangerModel DangerFacts ClusterOversModel OversGen
  ClusterOversFacts ClusterFacts NoiseModel NoiseFacts NoiseFacts2 CompModel CompFacts CompFacts2 CompFacts3 EditModel SpecEdit EditFacts4 EditFacts5
  SpecNear NearFacts NearFacts2 LevelModel SpecLevel LevelFacts.
Import ListNotations.
Open Scope nat_scope.

(** * Rows per cluster, in the order of the clusters *)

Definition expand (u : list (nat * nat)) : list nat := concat (map (fun cc => repeat (fst cc) (snd cc)) u).

Lemma expand_insert z u : Permutation (expand (count_insert Nat.eqb Nat.ltb z u)) (z :: expand u).
Proof.
  induction u as [|[z' c] u IH]; [reflexivity|]. cbn [count_insert]. destruct (Nat.eqb_spec z z') as [->|N]; [reflexivity|].
  destruct (z <? z'); [reflexivity|]. unfold expand in *. cbn [map concat fst snd]. rewrite IH. symmetry. apply Permutation_middle.
Qed.

Lemma expand_perm l : Permutation (expand (unique_by Nat.eqb Nat.ltb l)) l.
Proof. induction l as [|z l IH]; [reflexivity|]. cbn [unique_by fold_right]. rewrite expand_insert. now constructor. Qed.

Lemma nat_unique_sorted l : StronglySorted lt (map fst (unique_by Nat.eqb Nat.ltb l)).
Proof.
  assert (G : StronglySorted (fun a b => (a <? b) = true) (map fst (unique_by Nat.eqb Nat.ltb l))).
  { apply (unique_sorted Nat.eqb Nat.ltb Nat.eqb_eq); intros; rewrite ?Nat.ltb_lt, ?Nat.ltb_ge in *; lia. }
  induction G as [|a l' G IH F]; constructor; [assumption|]. eapply Forall_impl; [|exact F]. intros b. apply Nat.ltb_lt.
Qed.

Lemma nat_unique_in l x : In x (map fst (unique_by Nat.eqb Nat.ltb l)) <-> In x l.
Proof. apply unique_keys; intros; rewrite ?Nat.eqb_eq, ?Nat.ltb_lt in *; try tauto; lia. Qed.

Lemma expand_in u x : In x (expand u) -> In x (map fst u).
Proof.
  unfold expand. intros H. apply in_concat in H as (l & H1 & H2). apply in_map_iff in H1 as (cc & <- & H1).
  apply repeat_spec in H2. subst. now apply in_map.
Qed.

Lemma sorted_repeat {A} (R : A -> A -> Prop) a m : R a a -> StronglySorted R (repeat a m).
Proof. intros H. induction m; cbn; constructor; [assumption|]. apply Forall_forall. intros x Hx. apply repeat_spec in Hx. now subst. Qed.

Lemma sorted_app {A} (R : A -> A -> Prop) l l' : StronglySorted R l -> StronglySorted R l' ->
  (forall x y, In x l -> In y l' -> R x y) -> StronglySorted R (l ++ l').
Proof.
  intros H H'. induction H as [|a l H IH F]; intros G; [assumption|]. cbn. constructor.
  - apply IH. intros; apply G; [now right|assumption].
  - apply Forall_app. split; [assumption|]. apply Forall_forall. intros y Hy. apply G; [now left|assumption].
Qed.

Lemma expand_sorted u : StronglySorted lt (map fst u) -> StronglySorted le (expand u).
Proof.
  induction u as [|[c m] u IH]; cbn; intros H; [constructor|]. inversion H as [|? ? H1 H2]; subst. unfold expand. cbn [map concat fst snd].
  apply sorted_app; [apply sorted_repeat; lia|now apply IH|]. intros x y Hx Hy. apply repeat_spec in Hx. subst.
  apply expand_in in Hy. rewrite Forall_forall in H2. specialize (H2 y Hy). lia.
Qed.

Lemma by_cluster_order (P : nat -> row -> Prop) call chosen S :
  (forall c n S', In c chosen -> call c n = Ok S' -> length S' = n /\ forall x, In x S' -> P c x) ->
  by_cluster call chosen = Ok S ->
  exists cls, Permutation cls chosen /\ StronglySorted le cls /\ Forall2 P cls S.
Proof.
  intros Hc H. unfold by_cluster in H. inv_bind H. rename a into parts.
  assert (HS : S = concat parts) by (destruct parts; [discriminate|injection H as <-; reflexivity]). subst S. clear H.
  exists (expand (unique_by Nat.eqb Nat.ltb chosen)). split; [apply expand_perm|]. split; [apply expand_sorted, nat_unique_sorted|].
  assert (Hk : forall cc, In cc (unique_by Nat.eqb Nat.ltb chosen) -> In (fst cc) chosen).
  { intros cc Hin. apply nat_unique_in. now apply in_map. }
  set (u := unique_by Nat.eqb Nat.ltb chosen) in *. clearbody u.
  revert parts E Hk. induction u as [|[c n] u IH]; intros parts E Hk; cbn in E.
  - injection E as <-. constructor.
  - inv_bind E. rename a into S'. inv_bind E. rename a into parts'. injection E as <-.
    pose proof (Hk (c, n) (or_introl eq_refl)) as Hin. cbn in Hin. destruct (Hc c n S' Hin E0) as [M1 M2].
    unfold expand. cbn [map concat fst snd]. apply Forall2_app; [|apply IH; [assumption|intros; apply Hk; now right]].
    rewrite <- M1. clear - M2. induction S' as [|x S' IH]; cbn; constructor; [apply M2; now left|]. apply IH. intros; apply M2; now right.
Qed.

(** * ProWSyn *)

Lemma sorted_lt_NoDup l : StronglySorted lt l -> NoDup l.
Proof. induction 1 as [|a l H IH F]; constructor; [|assumption]. rewrite Forall_forall in F. intros H'. specialize (F a H'). lia. Qed.

Lemma sorted_nth_lt l i j : StronglySorted lt l -> i < j -> j < length l -> nth i l 0 < nth j l 0.
Proof.
  intros H. revert i j. induction H as [|a l H IH F]; intros i j Hij Hj; [cbn in Hj; lia|].
  destruct j; [lia|]. cbn in Hj. destruct i; cbn [nth].
  - rewrite Forall_forall in F. apply F, nth_In. lia.
  - apply IH; lia.
Qed.

Lemma sorted_map_nth P is : StronglySorted lt P -> StronglySorted lt is -> Forall (fun i => i < length P) is ->
  StronglySorted lt (map (fun i => nth i P 0) is).
Proof.
  intros HP H F. induction H as [|i is H IH Fi]; cbn; constructor.
  - apply IH. now inversion F.
  - apply Forall_map. rewrite Forall_forall in *. intros j Hj. apply sorted_nth_lt; auto. apply F. now right.
Qed.

Section Levels.
Variables (dist : row -> row -> Q) (nn : list row -> list row -> nat -> res (list (list nat))) (X X_maj : list row) (k L : nat).
Hypothesis Hnn : knn_ok dist nn.
Hypothesis Hk : 1 <= k.
Hypothesis Hmaj : X_maj <> [].

Definition finish (r : list (list nat * nat) * list nat) : list (list nat * nat) :=
  match snd r with [] => fst r | _ => fst r ++ [(snd r, L)] end.

Lemma proximity_loop_ok : forall turns idx P, turns + idx = L -> StronglySorted lt P -> Forall (fun i => i < length X) P ->
  exists r, proximity_loop nn turns idx X X_maj k P = Ok r /\ graded dist X X_maj k L idx P (finish r) /\
    Forall (fun c => fst c <> [] /\ incl (fst c) P) (finish r).
Proof.
  induction turns as [|turns IH]; intros idx P E SP FP.
  - exists ([], P). assert (idx = L) by lia. subst idx. split; [reflexivity|]. unfold finish. cbn [fst snd]. destruct P as [|i P].
    + split; constructor. lia.
    + split; [apply graded_left; discriminate|]. constructor; [|constructor]. cbn [fst]. split; [discriminate|apply incl_refl].
  - destruct P as [|i0 P0] eqn:EP.
    + exists ([], []). split; [reflexivity|]. unfold finish. cbn. split; constructor. lia.
    + rewrite <- EP in *. assert (HP : P <> []) by (rewrite EP; discriminate).
      assert (EE : proximity_loop nn (S turns) idx X X_maj k P =
        do XP <- gather X P; do T <- nn XP X_maj (Nat.min (length P) k);
        let P_i := map fst (unique_by Nat.eqb Nat.ltb (concat T)) in
        do c <- gather P P_i;
        do rest <- proximity_loop nn turns (idx + 1) X X_maj k (delete_idx P P_i);
        Ok ((c, idx + 1) :: fst rest, snd rest)) by (rewrite EP; reflexivity).
      rewrite EE. clear EE. rewrite gather_rows_at by assumption. cbn [bind].
      assert (LP : length (rows_at X P) = length P) by apply rows_at_length.
      destruct (Hnn (rows_at X P) X_maj (Nat.min (length P) k)) as (T & ET & HT); [lia|]. rewrite ET. cbn [bind].
      destruct (nearest_table_shape _ _ _ _ _ HT) as (LT & RT & FT). rewrite LP in FT. cbv zeta.
      set (P_i := map fst (unique_by Nat.eqb Nat.ltb (concat T))).
      assert (Pin : forall q, In q P_i <-> exists t, In t T /\ In q t).
      { intros q. unfold P_i. rewrite nat_unique_in, in_concat. tauto. }
      assert (Pb : Forall (fun q => q < length P) P_i).
      { apply Forall_forall. intros q Hq. apply Pin in Hq as (t & H1 & H2). rewrite Forall_forall in FT. specialize (FT t H1).
        rewrite Forall_forall in FT. now apply FT. }
      rewrite (gather_map 0) by assumption. cbn [bind]. set (c := map (fun i => nth i P 0) P_i).
      assert (Sc : StronglySorted lt c) by (apply sorted_map_nth; auto; apply nat_unique_sorted).
      assert (Cin : forall i, In i c <-> exists t q, In t T /\ In q t /\ nth_error P q = Some i).
      { intros i. unfold c. rewrite in_map_iff. split.
        - intros (q & <- & Hq). rewrite Forall_forall in Pb. pose proof (Pb q Hq) as Hb. apply Pin in Hq as (t & H1 & H2).
          exists t, q. split; [assumption|]. split; [assumption|]. now apply nth_error_nth'.
        - intros (t & q & H1 & H2 & H3). exists q. split; [now apply nth_error_nth|]. apply Pin. exists t. now split. }
      set (P' := delete_idx P P_i).
      assert (EP' : P' = map (fun i => nth i P 0) (kept (length P) P_i)) by apply delete_idx_kept.
      assert (Kb : Forall (fun q => q < length P) (kept (length P) P_i)).
      { apply Forall_forall. intros q Hq. now apply kept_in in Hq. }
      assert (SP' : StronglySorted lt P').
      { rewrite EP'. apply sorted_map_nth; auto. apply filter_StronglySorted. apply NoiseFacts.seq_StronglySorted. }
      assert (Pin' : forall i, In i P' <-> In i P /\ ~ In i c).
      { intros i. rewrite EP', in_map_iff. unfold c. rewrite in_map_iff. split.
        - intros (q & <- & Hq). apply kept_in in Hq as [Hq1 Hq2]. split; [now apply nth_In|]. intros (q' & E' & Hq').
          rewrite Forall_forall in Pb. pose proof (Pb q' Hq') as Hb'. apply Hq2.
          replace q with q'; [assumption|]. pose proof (sorted_lt_NoDup _ SP) as ND. rewrite (NoDup_nth P 0) in ND. now apply ND.
        - intros [H1 H2]. apply (In_nth _ _ 0) in H1 as (q & Hq & Eq). exists q. split; [assumption|]. apply kept_in. split; [assumption|].
          intros Hq'. apply H2. now exists q. }
      destruct (IH (idx + 1) P') as (r & Er & Gr & Fr); [lia|assumption| |].
      { apply Forall_forall. intros i Hi. apply Pin' in Hi as [Hi _]. rewrite Forall_forall in FP. now apply FP. }
      rewrite Er. cbn [bind]. eexists. split; [reflexivity|].
      assert (EF : finish ((c, idx + 1) :: fst r, snd r) = (c, idx + 1) :: finish r).
      { unfold finish. cbn [fst snd]. now destruct (snd r). }
      rewrite EF. split.
      * apply (graded_step _ _ _ _ _ idx P T c P'); auto; lia.
      * constructor; cbn [fst].
        -- split.
           ++ assert (HT0 : exists t, In t T) by (destruct T as [|t ?]; [cbn in LT; destruct X_maj; [congruence|discriminate]|exists t; now left]).
              destruct HT0 as (t & Ht). unfold rect in RT. rewrite Forall_forall in RT. specialize (RT t Ht).
              destruct t as [|q t']; [cbn in RT; assert (0 < length P) by (rewrite EP; cbn; lia); lia|].
              assert (Hq : In q P_i) by (apply Pin; exists (q :: t'); split; [assumption|now left]).
              unfold c. destruct P_i; [destruct Hq|discriminate].
           ++ intros i Hi. apply Cin in Hi as (t & q & _ & _ & H). now apply nth_error_In in H.
        -- eapply Forall_impl; [|exact Fr]. intros cc [H1 H2]. split; [assumption|]. intros i Hi. apply H2, Pin' in Hi. tauto.
Qed.

Lemma proximity_levels_ok P : StronglySorted lt P -> Forall (fun i => i < length X) P ->
  exists Ps, proximity_levels nn L X X_maj k P = Ok Ps /\ graded dist X X_maj k L 0 P Ps /\
    Forall (fun c => fst c <> [] /\ incl (fst c) P) Ps.
Proof.
  intros SP FP. destruct (proximity_loop_ok L 0 P) as (r & E & G & F); auto. exists (finish r).
  unfold proximity_levels. rewrite E. cbn [bind]. auto.
Qed.

(** Every row is in one cluster. *)
Lemma graded_perm idx P Ps : StronglySorted lt P -> graded dist X X_maj k L idx P Ps -> Permutation (concat (map fst Ps)) P.
Proof.
  clear. intros SP G. induction G as [| |idx P T c P' Ps Hidx HP HT Sc Hc SP' HP' G IH]; cbn; [reflexivity|now rewrite app_nil_r|].
  rewrite (IH SP'). apply NoDup_Permutation.
  - assert (N1 := sorted_lt_NoDup _ Sc). assert (N2 := sorted_lt_NoDup _ SP').
    clear - N1 N2 HP'. induction N1 as [|i c Hi N1 IH]; [assumption|]. cbn. constructor.
    + rewrite in_app_iff. intros [H|H]; [contradiction|]. apply HP' in H. destruct H as [_ H]. apply H. now left.
    + assert (G : forall j, In j P' -> ~ In j c).
      { intros j Hj Hjc. apply HP' in Hj as [_ Hj]. apply Hj. now right. }
      clear IH HP' Hi. induction N1 as [|j c Hj N1 IH]; [assumption|]. cbn. constructor.
      * rewrite in_app_iff. intros [H|H]; [contradiction|]. apply (G j H). now left.
      * apply IH. intros j' Hj' H. apply (G j' Hj'). now right.
  - now apply sorted_lt_NoDup.
  - intros i. rewrite in_app_iff, HP'. split.
    + intros [H|[H _]]; [|assumption]. apply Hc in H as (t & q & _ & _ & H). now apply nth_error_In in H.
    + intros H. destruct (in_dec Nat.eq_dec i c); auto.
Qed.

(** Level of cluster number [i]: the rows left over share the last level. *)
Lemma graded_level idx P Ps : graded dist X X_maj k L idx P Ps ->
  length Ps <= L - idx + 1 /\ forall i, i < length Ps -> snd (nth i Ps ([], 0)) = Nat.min (idx + i + 1) L.
Proof.
  clear. induction 1 as [| |idx P T c P' Ps Hidx HP HT Sc Hc SP' HP' G IH]; cbn [length].
  - split; [lia|]. intros; lia.
  - split; [lia|]. intros i Hi. assert (i = 0) by lia. subst. cbn. lia.
  - destruct IH as [I1 I2]. split; [lia|]. intros [|i] Hi; cbn [nth snd]; [lia|]. rewrite I2 by lia. lia.
Qed.
End Levels.

Lemma qn_pred l : (qn l - 1)%Q = inject_Z (Z.of_nat l - 1).
Proof. unfold qn, inject_Z, Qminus, Qplus, Qopp. cbn [Qnum Qden]. f_equal. lia. Qed.

Lemma prowsyn_runs dist vol nn e p rs D mn mj n :
  knn_ok dist nn -> rngs_ok rs -> rngs_pos rs -> plain_ss (pw_ss p) -> wf_data (d_X D) (d_dim D) (d_y D) -> is_minority (d_y D) mn mj ->
  asked (pw_proportion p) (d_y D) mn mj = Ok n -> 1 <= pw_n_neighbors p -> 1 <= pw_L p -> (forall q, (0 < e q)%Q) ->
  runs D mn n (prowsyn_spec dist e (r_choice (rs 0)) p D mn mj n) (prowsyn_sample vol nn e p rs D).
Proof.
  intros Hnn Hrs Hrp Hss [Hr Hl] Hmin Ha Hk HL He. unfold prowsyn_sample, prowsyn_algorithm.
  apply (runs_intro _ _ _ _ _ _ _ Hmin Ha). intros st (E1 & E2 & _) H2 Hn. rewrite E1, E2.
  set (X_maj := rows_with mj (d_X D) (d_y D)). set (P := where_ (map (Z.eqb mn) (d_y D))).
  assert (HP : forall i, In i P <-> i < length (d_y D) /\ nth i (d_y D) 0%Z = mn) by apply minority_in.
  assert (SP : StronglySorted lt P).
  { unfold P. rewrite where_filter. apply filter_StronglySorted, NoiseFacts.seq_StronglySorted. }
  assert (FP : Forall (fun i => i < length (d_X D)) P).
  { apply Forall_forall. intros i Hi. apply HP in Hi. lia. }
  assert (Hmaj : X_maj <> []).
  { intros E. assert (Hc : length X_maj = count_label (d_y D) mj) by now apply rows_with_length. rewrite E in Hc.
    destruct Hmin as [_ Hm]. cbn in Hc. lia. }
  assert (HP0 : P <> []).
  { intros E. destruct Hmin as [(_ & Hin & _) _]. apply (In_nth _ _ 0%Z) in Hin as (i & Hi & Ei).
    assert (In i P) by (apply HP; now split). rewrite E in H. destruct H. }
  destruct (proximity_levels_ok dist nn (d_X D) X_maj (pw_n_neighbors p) (pw_L p) Hnn Hk Hmaj P SP FP) as (Ps & EPs & G & FPs).
  rewrite EPs. cbn [bind].
  set (raw := fun l => e (- pw_theta p * (qn l - 1))%Q).
  assert (EW : map (fun c => match fst c with [] => 0%Q | _ => e (- pw_theta p * inject_Z (Z.of_nat (snd c) - 1))%Q end) Ps = map raw (map snd Ps)).
  { rewrite map_map. apply map_ext_in. intros c Hc. rewrite Forall_forall in FPs. destruct (FPs c Hc) as [Hne _].
    unfold raw. rewrite qn_pred. destruct (fst c); [congruence|reflexivity]. }
  unfold prowsyn_weights, over_sum. rewrite EW. set (ws := map raw (map snd Ps)).
  assert (Wp : Forall (fun q => 0 < q)%Q ws) by (apply Forall_map, Forall_forall; intros; apply He).
  assert (Wn : Forall (Qle 0) ws) by (eapply Forall_impl; [|exact Wp]; intros a Hlt; now apply Qlt_le_weak).
  assert (Wne : ws <> []).
  { intros E. apply (graded_perm dist (d_X D) X_maj (pw_n_neighbors p) (pw_L p) 0 P Ps SP) in G. apply map_eq_nil in E. apply map_eq_nil in E.
    rewrite E in G. cbn in G. apply Permutation_nil in G. contradiction. }
  assert (Wsum : (0 < qsum ws)%Q).
  { destruct ws as [|a ws0] eqn:Ews; [congruence|]. inversion Wp; subst. apply (SimplexGeom.qsum_pos_in _ a); auto. now left. }
  destruct (SimplexGeom.normalize_total ws Wsum) as [w Ew]. rewrite Ew. cbn [bind].
  destruct (normalize_ok ws w Wn Ew) as (W1 & W2 & W3).
  destruct (rng_choice _ (Hrs 0) w (Z.to_nat n) W2 W3) as [CL CF].
  assert (Hch : forall c, In c (r_choice (rs 0) w (Z.to_nat n)) -> c < length Ps).
  { intros c Hc. rewrite Forall_forall in CF. destruct (CF c Hc) as (q & Eq & _).
    assert (c < length w) by (apply nth_error_Some; congruence). rewrite W1 in H. unfold ws in H. now rewrite !map_length in H. }
  unfold prowsyn_generate. set (call := fun c count => _).
  assert (Call : forall c m, In c (r_choice (rs 0) w (Z.to_nat n)) -> exists S, call c m = Ok S /\ length S = m /\
     forall x, In x S -> c < length Ps /\ (ss_gauss (pw_ss p) = GNone -> in_hull (d_dim D) (rows_at (d_X D) (fst (nth c Ps ([], 0)))) x)).
  { intros c m Hc. apply Hch in Hc. unfold call. rewrite (get_nth ([], 0) Ps c) by assumption. cbn [bind].
    set (cl := nth c Ps ([], 0)). assert (Hcl : fst cl <> [] /\ incl (fst cl) P) by (rewrite Forall_forall in FPs; apply FPs, nth_In; assumption).
    destruct Hcl as [Hc1 Hc2].
    assert (Fb : Forall (fun i => i < length (d_X D)) (fst cl)).
    { apply Forall_forall. intros i Hi. rewrite Forall_forall in FP. apply FP, Hc2, Hi. }
    rewrite gather_rows_at by assumption. cbn [bind]. set (V := rows_at (d_X D) (fst cl)).
    assert (LV : length V = length (fst cl)) by apply rows_at_length.
    assert (HV : 1 <= length V) by (rewrite LV; destruct (fst cl); [congruence|cbn; lia]).
    assert (RV : rect (d_dim D) V) by (apply rows_at_rect; assumption).
    set (args := mk_args V (d_dim D) (circulant (length V)) (length V) None None None false None).
    assert (AO : args_ok args).
    { constructor; cbn; auto; try discriminate.
      - apply circulant_rect.
      - rewrite circulant_length. lia.
      - apply circulant_range. lia. }
    destruct (ss_total vol (pw_ss p) args m (rs (S c)) 0 AO (Hrs (S c)) (Hrp (S c)) Hss) as [Sx Et]; cbn; try lia; auto.
    { rewrite circulant_length. lia. }
    exists Sx. split; [exact Et|]. destruct (ss_hull _ _ _ _ _ _ AO (Hrs (S c)) Et) as [Lt H]. split; [exact Lt|].
    intros x Hx. split; [assumption|]. intros Gn. apply (H Gn V); cbn; auto; apply incl_refl. }
  destruct (by_cluster_total call (r_choice (rs 0) w (Z.to_nat n))) as [S ES].
  { intros E. rewrite E in CL. cbn in CL. lia. }
  { intros c m Hc. destruct (Call c m Hc) as (S & E & _). eauto. }
  rewrite ES. cbn [bind]. exists S. split; [reflexivity|].
  edestruct (by_cluster_order (fun c x => c < length Ps /\ (ss_gauss (pw_ss p) = GNone -> in_hull (d_dim D) (rows_at (d_X D) (fst (nth c Ps ([], 0)))) x))
     call (r_choice (rs 0) w (Z.to_nat n)) S) as (cls & C1 & C2 & C3).
  { intros c m S' Hc Hc'. destruct (Call c m Hc) as (S'' & E & L' & F'). rewrite E in Hc'. injection Hc' as <-. auto. }
  { exact ES. }
  exists P, Ps, w, cls. split; [assumption|]. split; [assumption|]. split; [assumption|]. split; [|split; [assumption|split; [|split; assumption]]].
  - split; [rewrite W1; unfold ws; now rewrite map_length|]. intros i Hi. fold raw. fold ws.
    unfold normalize in Ew. destruct (Qeq_bool (qsum ws) 0); [discriminate|]. injection Ew as <-.
    rewrite (nth_indep _ 0%Q (0 / qsum ws)%Q) by (unfold ws; rewrite !map_length in *; assumption).
    rewrite (map_nth (fun u => u / qsum ws)%Q). unfold ws at 1. rewrite (nth_indep _ 0%Q (raw 0)) by (rewrite map_length; assumption).
    rewrite map_nth. reflexivity.
  - apply Permutation_length in C1. lia.
Qed.
