(** IPADE_ID: rounds, phases, and the result. *)

From Coq Require Import List ZArith QArith Qabs Qminmax Qround Qpower Bool Arith Lia Lqa Sorting.Sorted Permutation.
From Verif Require Import Np PyVal NpFacts BaseFacts SimplexModel Spec SpecDanger SpecNoise SpecComp SimplexFacts SimplexGeom Float64
  SamplerModel SamplerFacts OversFacts BaseModel KnnFacts DangerModel DangerFacts BorderFacts ClusterModel NearModel ClusterOversModel OversGen
  ClusterOversFacts ClusterFacts NoiseModel NoiseFacts NoiseFacts2 CompModel CompFacts CompFacts2 CompFacts3 CompFacts4 EditModel SpecEdit EditFacts EditFacts3 EditFacts4 EditFacts5
  SpecNear NearFacts NearFacts2 LevelModel SpecLevel LevelFacts LevelFacts3 LevelFacts4 SpecGroup GroupFacts GroupFacts2 GroupFacts4 WrapModel SpecWrap WrapFacts WrapFacts2 WrapFacts3 DirModel SpecDir DirFacts DirFacts3 RegionModel SpecRegion RegionFacts RegionFacts2 RegionFacts3 RegionFacts4 SearchModel SpecSearch SearchFacts2 GraphModel SpecGraph GraphFacts GraphFacts2 GraphFacts4 GraphFacts5 GraphFacts6 GraphFacts8 MixModel SpecMix MixFacts MixFacts3 MixFacts4 MixFacts6 SwarmModel SpecSwarm.
Import ListNotations.
Open Scope nat_scope.

Lemma where_labels (l : Z) y : length (where_ (map (Z.eqb l) y)) = count_label y l /\
  NoDup (where_ (map (Z.eqb l) y)) /\ forall i, In i (where_ (map (Z.eqb l) y)) -> i < length y /\ nth i y 0%Z = l.
Proof.
  split; [|split].
  - unfold where_. rewrite map_length. fold (rows_with l (seq 0 (length y)) y). apply rows_with_length. now rewrite seq_length.
  - rewrite where_filter. apply NoDup_filter, seq_NoDup.
  - intros i Hi. rewrite where_filter, map_length in Hi. apply filter_In in Hi. destruct Hi as [H1 H2]. apply in_seq in H1. split; [lia|].
    rewrite (nth_indep _ false (Z.eqb l 0)) in H2 by (rewrite map_length; lia). rewrite (map_nth (Z.eqb l)) in H2. apply Z.eqb_eq in H2. congruence.
Qed.

Lemma gather_labels_at y is : Forall (fun i => i < length y) is -> gather y is = Ok (labels_at y is).
Proof. intros H. unfold labels_at. now apply gather_map. Qed.

Lemma rows_of_ok (X : list row) y is : length X = length y -> Forall (fun i => i < length y) is -> rows_of X y is = Ok (set_at X y is).
Proof.
  intros L H. unfold rows_of. rewrite gather_rows_at by (rewrite L; exact H). cbn [bind]. rewrite gather_labels_at by exact H. reflexivity.
Qed.

Lemma clip_unit q : (clip 0 1 q == unit_part q)%Q.
Proof.
  unfold clip, unit_part, q_min, q_max.
  destruct (Qle_bool q 0) eqn:E.
  - apply Qle_bool_iff in E. cbn [Qle_bool]. destruct (Qle_bool 0 1) eqn:E1; [|discriminate].
    rewrite Q.max_l; [reflexivity|]. rewrite Q.min_r by lra. exact E.
  - assert (~ (q <= 0)%Q) by (intros G; apply Qle_bool_iff in G; congruence).
    destruct (Qle_bool q 1) eqn:E1.
    + apply Qle_bool_iff in E1. rewrite Q.min_r, Q.max_r by lra. reflexivity.
    + assert (~ (q <= 1)%Q) by (intros G; apply Qle_bool_iff in G; congruence). rewrite Q.min_l, Q.max_r by lra. reflexivity.
Qed.

Lemma unit_part_range q : (0 <= unit_part q <= 1)%Q.
Proof.
  unfold unit_part. split; [apply Q.le_max_l|]. apply Q.max_lub; [discriminate|]. apply Q.le_min_l.
Qed.

Lemma three_of_three {A} (l : list A) : length l = 3 -> exists a b c, l = [a; b; c].
Proof. destruct l as [|a [|b [|c [|d l]]]]; try discriminate. intros _. now exists a, b, c. Qed.

Lemma NoDup_nth_map (l : list nat) is : NoDup l -> NoDup is -> Forall (fun i => i < length l) is -> NoDup (map (fun i => nth i l 0) is).
Proof.
  intros Hl H Hb. induction H as [|i is Hi H IH]; [constructor|]. inversion Hb; subst. cbn. constructor; [|now apply IH].
  intros G. apply in_map_iff in G. destruct G as (k & E & Hk). apply Hi.
  rewrite Forall_forall in H3. replace i with k; [exact Hk|]. apply (NoDup_nth l 0) in E; auto.
Qed.

Section Evolution.

Variables auc accuracy : training -> training -> res Q.
Variable p : ip_params.
Variable X : list row.
Variable y : list Z.
Variable d : nat.
Variable ds : nat -> nat -> draws.
Variable sub : nat -> nat -> subsets.
Variables mn mj : Z.

Hypothesis Hds : forall call t, draws_ok (ds call t).
Hypothesis Hsub : forall call t, subsets_ok (sub call t).
Hypothesis HX : rect d X.
Hypothesis HL : length X = length y.
Hypothesis H2 : two_labels y mn mj.
Hypothesis Hmn : 3 <= count_label y mn.
Hypothesis Hmj : 3 <= count_label y mj.
Hypothesis Hauc : auc_ok auc mn mj.
Hypothesis Hacc : accuracy_ok accuracy mn mj.

Lemma X_row i : i < length y -> length (nth i X []) = d.
Proof. intros H. apply (Forall_nth (fun r => length r = d)); [exact HX|lia]. Qed.

Lemma ip_update_ok call t i x l : length x = d -> l = mn \/ l = mj ->
  exists r, ip_update p X y ds sub call t (i, (x, l)) = Ok r /\ stirred (ip_F p) (ip_G p) d X y l x r.
Proof.
  intros Hx Hl. unfold ip_update. destruct (where_labels l y) as (L1 & L2 & L3). set (cs := where_ (map (Z.eqb l) y)) in *.
  assert (L4 : 3 <= length cs) by (rewrite L1; destruct Hl; subst l; assumption).
  unfold choice_without. replace (length cs <? 3) with false by (symmetry; apply Nat.ltb_ge; lia). cbn [bind].
  destruct (Hsub call t i (length cs) 3 L4) as (S1 & S2 & S3). set (three := sub call t i (length cs) 3) in *.
  rewrite (gather_map 0) by exact S3. cbn [bind].
  assert (G : forall k, In k (map (fun i => nth i cs 0) three) -> k < length y /\ nth k y 0%Z = l).
  { intros k Hk. apply in_map_iff in Hk. destruct Hk as (q & <- & Hq). apply L3, nth_In. rewrite Forall_forall in S3. auto. }
  pose proof (NoDup_nth_map cs three L2 S2 S3) as S4.
  destruct (three_of_three (map (fun i => nth i cs 0) three)) as (a & b & c & E); [now rewrite map_length|]. rewrite E in *.
  rewrite gather_rows_at by (apply Forall_forall; intros k Hk; rewrite HL; apply G, Hk). unfold rows_at. cbn [bind map get nth_error].
  pose proof (X_row a (proj1 (G a (or_introl eq_refl)))) as La.
  pose proof (X_row b (proj1 (G b (or_intror (or_introl eq_refl))))) as Lb.
  pose proof (X_row c (proj1 (G c (or_intror (or_intror (or_introl eq_refl)))))) as Lc.
  set (u := dr_unif (ds call t) i 0). eexists. split; [reflexivity|]. split.
  { rewrite map_length, !vadd_length, !vscale_length, !vsub_length. lia. }
  exists a, b, c, u. split; [exact S4|]. split; [exact G|]. split; [apply (ok_unif _ (Hds call t))|].
  intros j Hj. erewrite nth_indep by (rewrite map_length, !vadd_length, !vscale_length, !vsub_length; lia). rewrite map_nth, clip_unit.
  rewrite !vadd_nth, !vscale_nth, !vsub_nth by (rewrite ?vadd_length, ?vscale_length, ?vsub_length; lia). reflexivity.
Qed.

(** One round. *)
Lemma round_ok call t R ls : rect d R -> length R = length ls -> (forall l, In l ls -> l = mn \/ l = mj) ->
  exists hat, mapM (ip_update p X y ds sub call t) (combine (seq 0 (length R)) (combine R ls)) = Ok hat /\ length hat = length R /\ rect d hat /\
    forall i, i < length ls -> stirred (ip_F p) (ip_G p) d X y (nth i ls 0%Z) (nth i R []) (nth i hat []).
Proof.
  intros HR L Hls.
  assert (G : forall a, In a (combine (seq 0 (length R)) (combine R ls)) -> exists r, ip_update p X y ds sub call t a = Ok r).
  { intros [i [x l]] Ha. pose proof (in_combine_r _ _ _ _ Ha) as H1. pose proof (in_combine_l _ _ _ _ H1) as H3. pose proof (in_combine_r _ _ _ _ H1) as H4.
    destruct (ip_update_ok call t i x l) as (r & E & _); eauto. unfold rect in HR. rewrite Forall_forall in HR. now apply HR. }
  destruct (mapM_total _ _ (proj2 (Forall_forall _ _) G)) as (hat & E). exists hat. split; [exact E|].
  pose proof (mapM_length _ _ _ E) as LE. rewrite !combine_length, seq_length, L in LE.
  assert (L' : length hat = length ls) by lia. split; [lia|].
  assert (K : forall i, i < length ls -> stirred (ip_F p) (ip_G p) d X y (nth i ls 0%Z) (nth i R []) (nth i hat [])).
  { intros i Hi. pose proof (ClusterOversFacts.mapM_nth _ _ _ (0, ([], 0%Z)) [] i E) as M.
    rewrite !combine_length, seq_length in M. specialize (M ltac:(lia)).
    rewrite combine_nth in M by (rewrite combine_length, seq_length; lia). rewrite seq_nth in M by lia. rewrite combine_nth in M by exact L.
    destruct (ip_update_ok call t (0 + i) (nth i R []) (nth i ls 0%Z)) as (r & E1 & E2).
    - apply (Forall_nth (fun r => length r = d)); [exact HR|lia].
    - apply Hls, nth_In. exact Hi.
    - rewrite E1 in M. injection M as ->. exact E2. }
  split; [|exact K]. apply Forall_nth. intros i x0 Hi. rewrite (nth_indep _ x0 []) by exact Hi. apply K. lia.
Qed.

Variable V0 : list nat.
Variable R0 : list row.
Variable ls : list Z.

Hypothesis Hboth : both mn mj ls.
Hypothesis Hls : forall l, In l ls -> l = mn \/ l = mj.

Let grown := evolves auc (ip_F p) (ip_G p) d X y V0 ls R0.
Definition good_set (GS : training) : Prop := exists R, GS = (R, ls) /\ grown R /\ rect d R /\ length R = length ls.
Definition good_val (W : list nat) : Prop := incl W V0 /\ NoDup W /\ Forall (fun i => i < length y) W.
Definition lost : Prop := exists W, incl W V0 /\ ~ both mn mj (labels_at y W).

Lemma de_loop_ok call W : good_val W -> forall more t score GS, good_set GS -> auc GS (set_at X y W) = Ok score ->
  (de_loop auc p X y ds sub more t call (set_at X y W) score GS = Err ValueError /\ lost) \/
  exists GS' score', de_loop auc p X y ds sub more t call (set_at X y W) score GS = Ok GS' /\ good_set GS' /\
    auc GS' (set_at X y W) = Ok score' /\ (score <= score')%Q.
Proof.
  intros HW. induction more as [|more IH]; intros t score GS (R & -> & HR & Hr & Lr) Hs; cbn [de_loop].
  - right. exists (R, ls), score. split; [reflexivity|]. split; [now exists R|]. split; [exact Hs|lra].
  - cbn [fst snd]. destruct (round_ok call t R ls Hr Lr Hls) as (hat & -> & L1 & L2 & L3). cbn [bind].
    destruct (Hauc (hat, ls) (set_at X y W)) as [(q & Eq)|[E Hne]].
    + rewrite Eq. cbn [bind]. unfold Qlt_b. destruct (Qle_bool q score) eqn:E; cbn [negb].
      * apply IH; [now exists R|exact Hs].
      * assert (Hlt : (score < q)%Q) by (apply Qnot_le_lt; intros G; apply Qle_bool_iff in G; congruence).
        destruct (IH (S t) q (hat, ls)) as [F|(GS' & s' & F1 & F2 & F3 & F4)]; [|exact Eq|now left|].
        -- exists hat. split; [reflexivity|]. split; [|split; [exact L2|lia]]. eapply one_round; eauto. apply HW.
        -- right. exists GS', s'. repeat split; auto. lra.
    + rewrite E. left. split; [reflexivity|]. exists W. split; [apply HW|]. now apply Hne.
Qed.

Lemma de_opt_ok call GS W : good_set GS -> good_val W ->
  (de_optimization auc p X y ds sub call GS W = Err ValueError /\ lost) \/
  exists GS' s s', de_optimization auc p X y ds sub call GS W = Ok GS' /\ good_set GS' /\ auc GS (set_at X y W) = Ok s /\ auc GS' (set_at X y W) = Ok s' /\ (s <= s')%Q.
Proof.
  intros HG HW. unfold de_optimization. rewrite rows_of_ok by (try exact HL; apply HW). cbn [bind].
  destruct (Hauc GS (set_at X y W)) as [(q & Eq)|[E Hne]].
  - rewrite Eq. cbn [bind]. destruct (de_loop_ok call W HW (ip_max_it p) 0 q GS HG Eq) as [F|(GS' & s' & F)]; [now left|right]. exists GS', q, s'. intuition.
  - rewrite E. left. split; [reflexivity|]. exists W. split; [apply HW|]. apply Hne. destruct HG as (R & -> & _). exact Hboth.
Qed.

Lemma one_label l : length (unique_counts l) = 1 -> ~ both mn mj l.
Proof.
  intros H [A B]. assert (KA : In mn (map fst (unique_counts l))) by (now apply unique_counts_keys).
  assert (KB : In mj (map fst (unique_counts l))) by (now apply unique_counts_keys).
  destruct (unique_counts l) as [|[z c] [|]]; try discriminate. cbn in KA, KB. destruct H2 as [Hne _]. destruct KA as [KA|[]], KB as [KB|[]]. congruence.
Qed.

Lemma checks_val W : good_val W -> configuration_checks y W ls = Ok tt \/ (configuration_checks y W ls = Err ValueError /\ lost).
Proof.
  intros HW. unfold configuration_checks. rewrite gather_labels_at by apply HW. cbn [bind].
  destruct (Nat.eqb_spec (length (unique_counts ls)) 1) as [E|_]; [exfalso; now apply (one_label ls)|]. rewrite orb_false_r.
  destruct (Nat.eqb_spec (length (unique_counts (labels_at y W))) 1) as [E|_]; [right|now left].
  split; [reflexivity|]. exists W. split; [apply HW|]. now apply one_label.
Qed.

Lemma class_acc_ok GS W l : good_set GS -> good_val W -> l = mn \/ l = mj ->
  (exists a, class_accuracy accuracy X y GS W l = Ok a) \/ (class_accuracy accuracy X y GS W l = Err ValueError /\ lost).
Proof.
  intros (R & -> & HG) HW Hl. unfold class_accuracy. rewrite gather_labels_at by apply HW. cbn [bind].
  set (W' := select (map (Z.eqb l) (labels_at y W)) W).
  assert (HW' : incl W' W) by apply select_incl.
  assert (B : Forall (fun i => i < length y) W') by (apply Forall_forall; intros i Hi; pose proof (proj2 (proj2 HW)) as G; rewrite Forall_forall in G; auto).
  rewrite rows_of_ok by (try exact HL; exact B). cbn [bind].
  destruct (Hacc (R, ls) (set_at X y W')) as [(a & E)|[E F]]; [left; eauto|right]. split; [exact E|]. exists W. split; [apply HW|].
  intros Hb. specialize (F Hboth). cbn [set_at snd] in F. unfold labels_at in F. apply map_eq_nil in F.
  assert (Hin : In l (labels_at y W)) by (destruct Hl; subst l; apply Hb). unfold labels_at in Hin. apply in_map_iff in Hin. destruct Hin as (i & Ei & Hi).
  assert (In i W'); [|rewrite F in *; contradiction].
  unfold W', labels_at. rewrite map_map, select_map_filter. apply filter_In. split; [exact Hi|]. apply Z.eqb_eq. auto.
Qed.

Lemma target_ok s : good_set (is_GS s) -> good_val (is_val s) -> (is_min s || is_maj s = true) ->
  (exists b, target_is_min accuracy X y mn mj s = Ok b /\ (b = true -> is_min s = true) /\ (b = false -> is_maj s = true)) \/ (target_is_min accuracy X y mn mj s = Err ValueError /\ lost).
Proof.
  intros HG HW Ho. unfold target_is_min. destruct (is_min s).
  - destruct (class_acc_ok _ _ mn HG HW ltac:(now left)) as [(a & ->)|[-> F]]; cbn [bind]; [|now right].
    destruct (is_maj s); [|left; exists true; repeat split; discriminate || reflexivity].
    destruct (class_acc_ok _ _ mj HG HW ltac:(now right)) as [(b & ->)|[-> F]]; cbn [bind]; [|now right].
    left. eexists. repeat split; reflexivity.
  - cbn in Ho. rewrite Ho. destruct (class_acc_ok _ _ mj HG HW ltac:(now right)) as [(a & ->)|[-> F]]; cbn [bind]; [|now right].
    left. exists false. repeat split; discriminate || reflexivity.
Qed.

Variable N : nat.
Hypothesis HN : in_steps auc X y N.

Definition good_state (a0 : Q) (s : ip_state) : Prop :=
  good_set (is_GS s) /\ good_val (is_val s) /\ auc (is_GS s) (set_at X y (is_val s)) = Ok (is_auc s) /\ (a0 <= is_auc s)%Q /\
  (is_trial s = None -> is_count s = 0) /\
  (forall G W, is_trial s = Some (G, W) -> good_set G /\ good_val W) /\ is_count s <= ip_OT p.

Definition left_over (k : nat) (s : ip_state) : nat :=
  (N - k) * (ip_OT p + 1) + (if is_min s then ip_OT p - is_count s + 1 else 0) + (if is_maj s then 1 else 0).

Lemma step_of GS W q : good_val W -> auc GS (set_at X y W) = Ok q -> exists k, k <= N /\ (q * inject_Z (Z.of_nat N) == inject_Z (Z.of_nat k))%Q.
Proof. intros (_ & HW & HB) E. destruct HN as [_ HN']. apply (HN' GS W q HW); [rewrite HL; exact HB|exact E]. Qed.

Lemma step_up k k' q q' : (q * inject_Z (Z.of_nat N) == inject_Z (Z.of_nat k))%Q -> (q' * inject_Z (Z.of_nat N) == inject_Z (Z.of_nat k'))%Q ->
  (q < q')%Q -> k < k'.
Proof.
  intros E E' H. destruct HN as [HN0 _]. apply Nat2Z.inj_lt. rewrite Zlt_Qlt, <- E, <- E'. apply Qmult_lt_compat_r; [|exact H].
  change 0%Q with (inject_Z 0). rewrite <- Zlt_Qlt. lia.
Qed.

Lemma phase_2_ok a0 : forall fuel call s k, good_state a0 s -> k <= N -> (is_auc s * inject_Z (Z.of_nat N) == inject_Z (Z.of_nat k))%Q -> left_over k s <= fuel ->
  (phase_2 auc accuracy p X y ds sub fuel mn mj call s = Err ValueError /\ lost) \/
  exists GS W b, phase_2 auc accuracy p X y ds sub fuel mn mj call s = Ok GS /\ good_set GS /\ good_val W /\ auc GS (set_at X y W) = Ok b /\ (a0 <= b)%Q.
Proof.
  induction fuel as [|fuel IH]; intros call s k Hg Hk Ek Hf; cbn [phase_2].
  all: destruct (negb (Qlt_b (is_auc s) 1) || negb (is_min s || is_maj s)) eqn:Estop;
    [right; destruct Hg as (G1 & G2 & G3 & G4 & _); exists (is_GS s), (is_val s), (is_auc s); split; [reflexivity|]; split; [exact G1|]; split; [exact G2|]; split; [exact G3|exact G4]|].
  all: apply orb_false_iff in Estop; destruct Estop as [_ Ho]; apply negb_false_iff in Ho.
  - exfalso. unfold left_over in Hf. destruct (is_min s), (is_maj s); cbn in Ho; try discriminate; set (q := (N - k) * (ip_OT p + 1)) in *; lia.
  - destruct Hg as (G1 & G2 & G3 & G4 & G5 & G6 & G7).
    destruct (target_ok s G1 G2 Ho) as [(target & -> & T1 & T2)|[-> F]]; cbn [bind]; [|now left].
    match goal with |- context [if target && (0 <? is_count s) then ?A else ?B] => set (r := if target && (0 <? is_count s) then A else B) end.
    assert (Htrial : (r = Err ValueError /\ lost) \/ exists G W, r = Ok (G, W) /\ good_set G /\ good_val W).
    { unfold r. clear r. destruct (target && (0 <? is_count s)) eqn:Et.
      - apply andb_true_iff in Et. destruct Et as [_ Et]. apply Nat.ltb_lt in Et.
        destruct (is_trial s) as [[G W]|]; [|specialize (G5 eq_refl); lia]. destruct (G6 G W eq_refl) as [K1 K2].
        destruct (de_opt_ok call G (is_val s) K1 G2) as [[-> F]|(G' & s1 & s2 & -> & K & _)]; cbn [bind]; [now left|]. right. eauto.
      - cbv zeta. set (l := if target then mn else mj). destruct (where_labels l y) as (L1 & L2 & L3). set (cs := where_ (map (Z.eqb l) y)) in *.
        assert (L4 : 0 < length cs) by (rewrite L1; unfold l; destruct target; lia).
        destruct (randint_ok (ds call 0) 0 1 (length cs) (Hds call 0) L4) as (i & -> & Hi). cbn [bind].
        rewrite (proj2 (get_ok cs i (nth i cs 0)) (nth_error_nth' cs 0 Hi)). cbn [bind].
        assert (K2 : good_val (filter (fun v => negb (v =? nth i cs 0)) (is_val s))).
        { destruct G2 as (A1 & A2 & A3). split; [|split].
          - intros v Hv. apply filter_In in Hv. apply A1, Hv.
          - now apply NoDup_filter.
          - apply Forall_forall. intros v Hv. apply filter_In in Hv. rewrite Forall_forall in A3. apply A3, Hv. }
        destruct (de_opt_ok call (is_GS s) _ G1 K2) as [[-> F]|(G' & s1 & s2 & -> & K & _)]; cbn [bind]; [now left|]. right. eauto. }
    clearbody r. destruct Htrial as [[-> F]|(GT & W & -> & K1 & K2)]; cbn [bind]; [now left|].
    rewrite rows_of_ok by (try exact HL; apply K2). cbn [bind].
    destruct (Hauc GT (set_at X y W)) as [(q & Eq)|[E Hne]].
    2: { rewrite E. left. split; [reflexivity|]. exists W. split; [apply K2|]. apply Hne. destruct K1 as (R & -> & _). exact Hboth. }
    rewrite Eq. cbn [bind]. unfold Qlt_b. destruct (Qle_bool q (is_auc s)) eqn:Ele; cbn [negb].
    + destruct (target && (is_count s <? ip_OT p)) eqn:Ec.
      * apply andb_true_iff in Ec. destruct Ec as [Ec1 Ec2]. apply Nat.ltb_lt in Ec2. subst target.
        apply (IH (S call) _ k); [|exact Hk|exact Ek|].
        -- split; [exact G1|]. split; [exact G2|]. split; [exact G3|]. split; [exact G4|]. split; [discriminate|]. split; [intros G W' E; injection E as <- <-; auto|]. cbn [is_count]. lia.
        -- unfold left_over in *. cbn [is_min is_maj is_count]. rewrite (T1 eq_refl) in *. lia.
      * apply (IH (S call) _ k); [|exact Hk|exact Ek|].
        -- split; [exact G1|]. split; [exact G2|]. split; [exact G3|]. split; [exact G4|]. split; [discriminate|]. split; [intros G W' E; injection E as <- <-; auto|]. exact G7.
        -- unfold left_over in *. cbn [is_min is_maj is_count]. destruct target; [rewrite (T1 eq_refl) in *|rewrite (T2 eq_refl) in *]; destruct (is_min s), (is_maj s); cbn [andb negb] in *; lia.
    + assert (Hlt : (is_auc s < q)%Q) by (apply Qnot_le_lt; intros G; apply Qle_bool_iff in G; congruence).
      destruct (step_of GT W q K2 Eq) as (k' & Hk' & Ek'). pose proof (step_up _ _ _ _ Ek Ek' Hlt) as Hkk.
      assert (snd GT = ls) as -> by (destruct K1 as (R & -> & _); reflexivity).
      destruct (checks_val W K2) as [->|[-> F]]; cbn [bind]; [|now left].
      apply (IH (S call) _ k'); [|exact Hk'|exact Ek'|].
      * split; [exact K1|]. split; [exact K2|]. split; [exact Eq|]. split; [cbn; lra|]. split; [discriminate|]. split; [intros G W' E; injection E as <- <-; auto|].
        cbn [is_count]. destruct target; lia.
      * unfold left_over in *. cbn [is_min is_maj is_count].
        assert ((N - k) * (ip_OT p + 1) >= (N - k') * (ip_OT p + 1) + (ip_OT p + 1)) by nia.
        destruct target; [rewrite (T1 eq_refl) in *|]; destruct (is_min s), (is_maj s); lia.
Qed.

End Evolution.
