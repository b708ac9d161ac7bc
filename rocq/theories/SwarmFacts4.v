(** SMOTE_PSOBAT. *)

From Coq Require Import List ZArith QArith Qabs Qminmax Qround Qpower Bool Arith Lia Lqa Sorting.Sorted Permutation.
From Verif Require Import Np PyVal NpFacts BaseFacts SimplexModel Spec SpecDanger SpecNoise SpecComp SimplexFacts SimplexGeom Float64
  SamplerModel SamplerFacts OversFacts BaseModel KnnFacts DangerModel DangerFacts BorderFacts ClusterModel NearModel ClusterOversModel OversGen
  ClusterOversFacts ClusterFacts NoiseModel NoiseFacts NoiseFacts2 CompModel CompFacts CompFacts2 CompFacts3 CompFacts4 EditModel SpecEdit EditFacts EditFacts3 EditFacts4 EditFacts5
  SpecNear NearFacts NearFacts2 LevelModel SpecLevel LevelFacts LevelFacts3 LevelFacts4 SpecGroup GroupFacts GroupFacts2 GroupFacts4 WrapModel SpecWrap WrapFacts WrapFacts2 WrapFacts3 DirModel SpecDir DirFacts DirFacts3 RegionModel SpecRegion RegionFacts RegionFacts2 RegionFacts3 RegionFacts4 SearchModel SpecSearch SearchFacts2 GraphModel SpecGraph GraphFacts GraphFacts2 GraphFacts4 GraphFacts5 GraphFacts6 GraphFacts8 MixModel SpecMix MixFacts MixFacts3 MixFacts4 MixFacts6 SwarmModel SpecSwarm SwarmFacts.
From Verif Require DistFacts.
Import ListNotations.
Open Scope nat_scope.

(** ** Kappa *)

Definition hit (f : Z * Z -> bool) (l : list (Z * Z)) : nat := length (filter f l).

Lemma four_counts mn mj : mn <> mj -> forall preds tests, length preds = length tests ->
  Forall (fun z => z = mn \/ z = mj) preds -> Forall (fun z => z = mn \/ z = mj) tests ->
  let l := combine preds tests in
  let tp := hit (fun pt => (fst pt =? snd pt)%Z && (snd pt =? mn)%Z) l in
  let fn := hit (fun pt => negb (fst pt =? snd pt)%Z && (snd pt =? mn)%Z) l in
  let tn := hit (fun pt => (fst pt =? snd pt)%Z && (snd pt =? mj)%Z) l in
  let fp := hit (fun pt => negb (fst pt =? snd pt)%Z && (snd pt =? mj)%Z) l in
  hit (fun ab => fst ab =? snd ab)%Z l = tp + tn /\ count_label tests mn = tp + fn /\ count_label tests mj = fp + tn /\
  count_label preds mn = tp + fp /\ count_label preds mj = fn + tn /\ length tests = tp + fn + tn + fp.
Proof.
  intros Hne. induction preds as [|a preds IH]; intros [|b tests] L HP HT; try discriminate L; [cbn; repeat split; reflexivity|].
  inversion HP as [|? ? Ha HP']; subst. inversion HT as [|? ? Hb HT']; subst. cbn in L.
  specialize (IH tests ltac:(lia) HP' HT'). cbv zeta in IH. destruct IH as (I1 & I2 & I3 & I4 & I5 & I6).
  cbv zeta. unfold hit in *. cbn [combine filter fst snd length count_occ].
  assert (CC : forall (l : list Z) (z x : Z), count_label (x :: l) z = (if Z.eq_dec x z then 1 else 0) + count_label l z).
  { intros l z x. unfold count_label. cbn [count_occ]. destruct (Z.eq_dec x z); reflexivity. }
  rewrite !CC.
  destruct Ha as [-> | ->], Hb as [-> | ->]; rewrite ?Z.eqb_refl;
    repeat match goal with |- context [(?u =? ?v)%Z] => destruct (Z.eqb_spec u v); [exfalso; congruence|] end;
    repeat match goal with |- context [Z.eq_dec ?u ?v] => destruct (Z.eq_dec u v); try (exfalso; congruence) end;
    cbn [andb negb length]; repeat split; lia.
Qed.

Lemma quotient_split a b n : (a * b / (n * n) == a / n * (b / n))%Q.
Proof. unfold Qdiv. rewrite Qinv_mult_distr. ring. Qed.

Lemma good_kappa mn mj preds tests : mn <> mj -> length preds = length tests ->
  Forall (fun z => z = mn \/ z = mj) preds -> Forall (fun z => z = mn \/ z = mj) tests ->
  good (scores_of mn mj preds tests) = true <-> kappa_above mn mj preds tests.
Proof.
  intros Hne L HP HT. destruct (four_counts mn mj Hne preds tests L HP HT) as (I1 & I2 & I3 & I4 & I5 & I6). unfold hit in *.
  unfold scores_of, good, kappa_above. cbn [fst].
  set (tp := length (filter (fun pt => (fst pt =? snd pt)%Z && (snd pt =? mn)%Z) (combine preds tests))) in *.
  set (fn := length (filter (fun pt => negb (fst pt =? snd pt)%Z && (snd pt =? mn)%Z) (combine preds tests))) in *.
  set (tn := length (filter (fun pt => (fst pt =? snd pt)%Z && (snd pt =? mj)%Z) (combine preds tests))) in *.
  set (fp := length (filter (fun pt => negb (fst pt =? snd pt)%Z && (snd pt =? mj)%Z) (combine preds tests))) in *.
  set (q := fun k => inject_Z (Z.of_nat k)).
  change (inject_Z (Z.of_nat tp)) with (q tp). change (inject_Z (Z.of_nat fn)) with (q fn).
  change (inject_Z (Z.of_nat tn)) with (q tn). change (inject_Z (Z.of_nat fp)) with (q fp).
  assert (QA : forall a b, (q (a + b)%nat == q a + q b)%Q) by (intros a b; unfold q; rewrite Nat2Z.inj_add, inject_Z_plus; reflexivity).
  set (n := (q tp + q fn + q tn + q fp)%Q).
  assert (EN : (q (length tests) == n)%Q) by (rewrite I6; unfold n; rewrite !QA; reflexivity).
  set (po := ((q tp + q tn) / n)%Q).
  set (pe := ((q tp + q fn) * (q tp + q fp) / (n * n) + (q fp + q tn) * (q fn + q tn) / (n * n))%Q).
  assert (EO : (agreement preds tests == po)%Q).
  { unfold agreement, portion, po. rewrite I1. fold (q (tp + tn)). fold (q (length tests)). now rewrite QA, EN. }
  assert (EE : (chance mn mj preds tests == pe)%Q).
  { unfold chance, portion, pe. rewrite !quotient_split, I2, I3, I4, I5.
    fold (q (tp + fn)) (q (tp + fp)) (q (fp + tn)) (q (fn + tn)) (q (length tests)). now rewrite !QA, EN. }
  destruct (Qeq_bool pe 1) eqn:B.
  - apply Qeq_bool_iff in B. split; [discriminate|]. intros [H _]. exfalso. apply H. now rewrite EE.
  - assert (NB : ~ (pe == 1)%Q) by (intros G; apply Qeq_bool_iff in G; congruence).
    rewrite Qlt_b_spec. rewrite EE, EO. tauto.
Qed.

(** ** Settings *)

Definition in_box (hi : nat) (c : combination) : Prop := (1 <= fst c <= inject_Z (Z.of_nat hi))%Q /\ (1 # 10 <= snd c <= 2)%Q.

Lemma clip_bounds a b x : (a <= b)%Q -> (a <= clip a b x <= b)%Q.
Proof.
  intros H. unfold clip. destruct (CompFacts2.q_min_le (q_max x a) b), (CompFacts2.q_max_ge x a).
  split; [|assumption]. destruct (CompFacts2.q_min_or (q_max x a) b) as [-> | ->]; assumption.
Qed.

Lemma pb_clip_box hi c : 1 <= hi -> in_box hi (pb_clip hi c).
Proof.
  intros H. assert ((1 <= inject_Z (Z.of_nat hi))%Q) by (change 1%Q with (inject_Z 1); rewrite <- Zle_Qle; lia).
  split; apply clip_bounds; [assumption|lra].
Qed.

Lemma box_neighbours hi c : in_box hi c -> 1 <= Z.to_nat (Qfloor (fst c)) <= hi.
Proof.
  intros [[H1 H2] _]. apply Qfloor_resp_le in H1, H2. rewrite Qfloor_Z in H2. change (Qfloor 1) with 1%Z in H1. lia.
Qed.

Lemma pb_init_ok hi d i : draws_ok d -> 2 <= hi -> exists k, randint d i 0 (hi - 1) = Ok k /\ k < hi - 1 /\
  pb_init hi d i = Ok (inject_Z (Z.of_nat (1 + k)), dr_unif d i 1%nat * (19 # 10) + (1 # 10))%Q /\
  in_box hi (inject_Z (Z.of_nat (1 + k)), dr_unif d i 1%nat * (19 # 10) + (1 # 10))%Q.
Proof.
  intros Hd Hhi. destruct (randint_ok d i 0 (hi - 1) Hd ltac:(lia)) as (k & E & Lk). exists k. unfold pb_init. rewrite E. cbn [bind].
  split; [reflexivity|]. split; [exact Lk|]. split; [reflexivity|]. pose proof (ok_unif _ Hd i 1) as U. split; cbn [fst snd].
  - split; [change 1%Q with (inject_Z 1)|]; rewrite <- Zle_Qle; lia.
  - destruct U as [U1 U2]. split; lra.
Qed.

Lemma pick_ok {A} f (l : list (score2 * A)) : pick f l = Ok None \/ exists sa, pick f l = Ok (Some sa) /\ In sa l /\ f (fst sa) = true /\
  forall sb, In sb l -> f (fst sb) = true -> (snd (fst sb) <= snd (fst sa))%Q.
Proof.
  unfold pick, score2 in *. set (sel := filter _ l). destruct (Nat.eqb_spec (length sel) 0) as [E|E]; [now left|right].
  assert (HM : forall sa, In sa sel <-> In sa l /\ f (fst sa) = true) by (intros sa; apply filter_In).
  destruct (DirFacts.argmax_spec (map (fun sa => snd (fst sa)) sel)) as (i & Ei & Li & Mi); [destruct sel; [now cbn in E|discriminate]|].
  rewrite map_length in Li, Mi. rewrite Ei. cbn [bind].
  assert (exists sa, nth_error sel i = Some sa) as [sa Hsa] by (destruct (nth_error sel i) eqn:G; [now eexists|apply nth_error_None in G; lia]).
  assert (EG : get sel i = Ok sa) by now apply get_ok. rewrite EG. cbn [bind]. exists sa. split; [reflexivity|].
  apply nth_error_In in Hsa as Hin. apply HM in Hin as [H1 H2]. split; [exact H1|]. split; [exact H2|].
  intros sb G1 G2. assert (Hb : In sb sel) by now apply HM. apply (In_nth _ _ sa) in Hb as (j & Lj & Ej).
  specialize (Mi j Lj). rewrite (nth_indep _ 0%Q (snd (fst sa))) in Mi by (rewrite map_length; lia).
  rewrite (nth_indep _ 0%Q (snd (fst sa)) (n := i)) in Mi by (rewrite map_length; lia).
  rewrite !(map_nth (fun sa => snd (fst sa)) sel sa) in Mi. rewrite Ej in Mi. now rewrite (nth_error_nth _ _ _ Hsa) in Mi.
Qed.

Section Flock.

Variable p : pb_params.
Variable hi : nat.
Variable eval : nat -> nat -> combination -> res score2.
Hypothesis Hhi : 1 <= hi.
Hypothesis Heval : forall t i c, in_box hi c -> exists s, eval t i c = Ok s.

Definition tried (N : nat) (sc : score2 * combination) : Prop := exists t i, t < N /\ i < n_pop /\ eval t i (snd sc) = Ok (fst sc).
Definition flock_inv (first : combination) (N : nat) (best : score2 * combination) : Prop :=
  in_box hi (snd best) /\ (best = ((Some 0, 0)%Q, first) \/ (good (fst best) = true /\ tried N best)).

Lemma good_tried_scores t flock scores : length flock = n_pop ->
  mapM (fun ib => eval t (fst ib) (bi_at (snd ib))) (combine (seq 0 (length flock)) flock) = Ok scores ->
  length scores = length flock /\ forall sc, In sc (combine scores (map bi_at flock)) -> tried (S t) sc /\ In (snd sc) (map bi_at flock).
Proof.
  unfold tried, score2, combination in *. intros LF E. pose proof (mapM_length _ _ _ E) as L. rewrite combine_length, seq_length, Nat.min_id in L. split; [exact L|].
  intros [s c] Hin. split; [|cbn; eapply in_combine_r; exact Hin].
  apply (In_nth _ _ ((None, 0%Q), (0, 0)%Q)) in Hin as (i & Li & Ei). rewrite combine_length, map_length in Li.
  rewrite combine_nth in Ei by (rewrite map_length; lia). injection Ei as E1 E2.
  assert (exists b, nth_error flock i = Some b) as [b Hb] by (destruct (nth_error flock i) eqn:G; [now eexists|apply nth_error_None in G; lia]).
  apply mapM_ok_iff in E. pose proof (EditFacts4.Forall2_nth' _ _ _ (0, b) (None, 0%Q) i E ltac:(rewrite combine_length, seq_length; lia)) as G.
  rewrite combine_nth in G by now rewrite seq_length. rewrite seq_nth in G by lia. cbn [fst snd plus] in G.
  rewrite (nth_error_nth _ _ _ Hb) in G. rewrite E1 in G.
  rewrite (nth_indep _ _ (bi_at b)) in E2 by (rewrite map_length; lia). rewrite map_nth, (nth_error_nth _ _ _ Hb) in E2. subst c.
  exists t, i. cbn [fst snd]. split; [lia|]. split; [unfold n_pop in *; lia|exact G].
Qed.

Lemma flock_best_ok first t flock scores best : length flock = n_pop -> Forall (fun b => in_box hi (bi_at b)) flock ->
  mapM (fun ib => eval t (fst ib) (bi_at (snd ib))) (combine (seq 0 (length flock)) flock) = Ok scores ->
  flock_inv first t best -> exists best' same, flock_best scores (map bi_at flock) best = Ok (best', same) /\ flock_inv first (S t) best'.
Proof.
  intros LF HB E [I1 I2]. destruct (good_tried_scores t flock scores LF E) as [L HT]. unfold flock_best.
  assert (B : forall sc, In sc (combine scores (map bi_at flock)) -> good (fst sc) = true -> flock_inv first (S t) sc).
  { intros sc Hin Hg. destruct (HT sc Hin) as [T1 T2]. split; [|right; now split]. apply in_map_iff in T2 as (b & <- & Hb). rewrite Forall_forall in HB. now apply HB. }
  assert (I0 : flock_inv first (S t) best).
  { split; [exact I1|]. destruct I2 as [I2|(G & t' & i' & T1 & T2 & T3)]; [now left|right]. split; [exact G|]. exists t', i'. repeat split; auto; lia. }
  assert (LG : forall s, lower (fst best) s = true -> good s = true) by (intros s H; unfold lower in H; rewrite !andb_true_iff in H; tauto).
  destruct (pick_ok (lower (fst best)) (combine scores (map bi_at flock))) as [->|(sa & -> & A1 & A2 & _)]; cbn [bind].
  - destruct (pick_ok (fun s => negb (lower (fst best) s) && good s && poor (fst best)) (combine scores (map bi_at flock))) as [->|(sb & -> & B1 & B2 & _)];
      cbn [bind]; do 2 eexists; (split; [reflexivity|]); [exact I0|]. rewrite !andb_true_iff in B2. apply B; tauto.
  - destruct (pick_ok (fun s => negb (lower (fst best) s) && good s && poor (fst sa)) (combine scores (map bi_at flock))) as [->|(sb & -> & B1 & B2 & _)];
      cbn [bind]; do 2 eexists; (split; [reflexivity|]); [apply B; auto|]. rewrite !andb_true_iff in B2. apply B; tauto.
Qed.

Lemma flock_loop_ok first more : forall t flock best nc, length flock = n_pop -> Forall (fun b => in_box hi (bi_at b)) flock -> flock_inv first t best ->
  exists best', flock_loop more t p hi eval flock best nc = Ok (snd best') /\ flock_inv first (t + more) best'.
Proof.
  assert (Mono : forall N M best, N <= M -> flock_inv first N best -> flock_inv first M best).
  { intros N M best H [I1 I2]. split; [exact I1|]. destruct I2 as [I2|(G & t' & i' & T1 & T2 & T3)]; [now left|right]. split; [exact G|]. exists t', i'. repeat split; auto; lia. }
  induction more as [|more IH]; intros t flock best nc LF HB HI; cbn [flock_loop].
  - exists best. split; [reflexivity|]. eapply Mono; [|exact HI]. lia.
  - destruct (length flock <? nc); [exists best; split; [reflexivity|]; eapply Mono; [|exact HI]; lia|].
    destruct (mapM_total (fun ib => eval t (fst ib) (bi_at (snd ib))) (combine (seq 0 (length flock)) flock)) as (scores & E).
    { apply Forall_forall. intros [i b] Hin. apply Heval. apply in_combine_r in Hin. rewrite Forall_forall in HB. now apply HB. }
    rewrite E. cbn [bind]. destruct (flock_best_ok first t flock scores best LF HB E HI) as (best' & same & -> & HI'). cbn [bind].
    pose proof (mapM_length _ _ _ E) as L. rewrite combine_length, seq_length, Nat.min_id in L.
    destruct (IH (S t) (map (bird_move p hi (snd best')) (map bird_best (combine scores flock))) best' (if same then S nc else 0)) as (b & E1 & E2).
    + rewrite !map_length, combine_length. lia.
    + rewrite !Forall_map. apply Forall_forall. intros sb _. unfold bird_move. cbn [bi_at]. now apply pb_clip_box.
    + exact HI'.
    + exists b. split; [exact E1|]. eapply Mono; [|exact E2]. lia.
Qed.

End Flock.

(** ** Bats *)

Definition front_good (l : list (score2 * combination)) : Prop := exists sc rest, l = sc :: rest /\ good (fst sc) = true.
Definition none_kept (l : list (score2 * combination)) : Prop := Forall (fun sc => fst (fst sc) = Some (- (1))%Q) l.
Definition kept_ok (l : list (score2 * combination)) : Prop := length l = n_keep /\ (none_kept l \/ front_good l).

Lemma sorted_last {A} (R : A -> A -> Prop) l x z : StronglySorted R (l ++ [z]) -> In x l -> R x z.
Proof.
  induction l as [|y l IH]; [intros _ []|]. cbn [app]. intros HS [->|Hin]; inversion HS as [|? ? S1 S2]; subst.
  - rewrite Forall_forall in S2. apply S2, in_or_app. right. now left.
  - now apply IH.
Qed.

Lemma sort_kept (l : list (score2 * combination)) :
  let key (sc : score2 * combination) := match fst (fst sc) with Some k => k | None => 0%Q end in
  exists l', gather l (rev (argsort (map key l))) = Ok l' /\ length l' = length l /\ incl l' l /\
    ((exists sc, In sc l /\ good (fst sc) = true) -> front_good l').
Proof.
  intros key. destruct (gather_total l (rev (argsort (map key l)))) as (l' & E).
  { apply Forall_forall. intros i Hi. rewrite <- in_rev in Hi. apply argsort_in in Hi. now rewrite map_length in Hi. }
  exists l'. split; [exact E|]. pose proof (gather_length _ _ _ E) as L. rewrite rev_length, argsort_length, map_length in L.
  split; [exact L|]. split; [eapply gather_incl; exact E|]. intros (sc & Hin & Hg).
  destruct (rev (argsort (map key l))) as [|z r] eqn:ER.
  { apply (f_equal (@length nat)) in ER. rewrite rev_length, argsort_length, map_length in ER. destruct l; [destruct Hin|discriminate ER]. }
  assert (EA : argsort (map key l) = rev r ++ [z]) by (rewrite <- (rev_involutive (argsort _)), ER; reflexivity).
  apply gather_ok_iff in E. inversion E as [|? sz ? l'' Ez E']; subst. 
  exists sz, l''. split; [reflexivity|].
  apply (In_nth _ _ sc) in Hin as (i & Li & Ei).
  assert (Hi : In i (rev r ++ [z])) by (rewrite <- EA; apply argsort_in; now rewrite map_length).
  assert (Lz : z < length l).
  { assert (G : In z (argsort (map key l))) by (rewrite EA; apply in_or_app; right; now left). apply argsort_in in G. now rewrite map_length in G. }
  assert (KZ : nth z l sc = sz) by (apply nth_error_nth; exact Ez).
  assert (Hle : (key sc <= key sz)%Q).
  { apply in_app_or in Hi as [Hi|[Hi|[]]].
    - pose proof (argsort_sorted (map key l)) as SS. rewrite EA in SS. pose proof (sorted_last _ _ _ _ SS Hi) as G. cbn beta in G.
      rewrite (nth_indep _ 0%Q (key sc)) in G by (rewrite map_length; lia). rewrite (nth_indep _ 0%Q (key sc) (n := z)) in G by (rewrite map_length; lia).
      rewrite !map_nth, Ei, KZ in G. exact G.
    - subst i. rewrite KZ in Ei. subst. apply Qle_refl. }
  unfold good, key in *. destruct (fst (fst sc)) as [k|]; [|discriminate]. apply Qlt_b_spec in Hg. 
  destruct (fst (fst sz)) as [k'|]; [apply Qlt_b_spec|exfalso]; lra.
Qed.

Lemma good_poor s : good s = true -> poor s = false.
Proof.
  unfold good, poor. destruct (fst s) as [k|]; [|discriminate]. rewrite Qlt_b_spec. intros H. apply not_true_is_false. intros G. apply Qle_bool_iff in G. lra.
Qed.

Lemma none_kept_count l : none_kept l -> kept_count l = 0.
Proof.
  unfold kept_count. induction 1 as [|sc l Hs H IH]; [reflexivity|]. cbn [filter]. rewrite Hs. exact IH.
Qed.

Lemma kept_count_le l : kept_count l <= length l.
Proof. unfold kept_count. induction l as [|x l IH]; [reflexivity|]. cbn [filter length]. destruct (match _ with Some k => _ | None => _ end); cbn [length]; lia. Qed.

Lemma bat_keep_ok s b : kept_ok (ba_kept b) -> exists b', bat_keep (s, b) = Ok b' /\ ba_at b' = ba_at b /\ kept_ok (ba_kept b').
Proof.
  intros [L H]. unfold bat_keep. destruct (ba_kept b) as [|front rest] eqn:EK; [discriminate L|]. 
  assert (EG : get (front :: rest) 0 = Ok front) by now apply get_ok. rewrite EG. cbn [bind].
  assert (HK : exists kept, (if first_good (fst front) s then put (front :: rest) (Nat.min (kept_count (front :: rest) + 1) n_keep) (s, ba_at b) else Ok (front :: rest)) = Ok kept /\
     length kept = n_keep /\ (none_kept kept \/ exists sc, In sc kept /\ good (fst sc) = true)).
  { destruct H as [H|(sc & r & E & G)].
    - destruct (first_good (fst front) s) eqn:FG; [|eexists; split; [reflexivity|]; split; [exact L|now left]].
      rewrite none_kept_count by exact H. change (Nat.min (0 + 1) n_keep) with 1. unfold put. rewrite L. change (1 <? n_keep) with true. cbv iota.
      destruct rest as [|r1 rest]; [discriminate L|]. cbn [firstn skipn app]. eexists. split; [reflexivity|]. split; [cbn in L |- *; exact L|].
      right. exists (s, ba_at b). split; [right; now left|]. unfold first_good in FG. rewrite !andb_true_iff in FG. cbn. tauto.
    - injection E as -> ->. unfold first_good. rewrite (good_poor _ G), andb_false_r. eexists. split; [reflexivity|]. split; [exact L|].
      right. exists sc. split; [now left|exact G]. }
  destruct HK as (kept & -> & LK & HK). cbn [bind].
  destruct (sort_kept kept) as (l' & EL & L' & I' & F'). unfold score2, combination in EL |- *. rewrite EL. cbn [bind]. eexists. split; [reflexivity|]. cbn [ba_at ba_kept]. split; [reflexivity|].
  split; [lia|]. destruct HK as [HK|HK]; [left|right; now apply F']. apply Forall_forall. intros x Hx. unfold none_kept in HK. rewrite Forall_forall in HK. now apply HK, I'.
Qed.

Lemma bat_fly_ok hi d loud global ib : 1 <= hi -> draws_ok d -> kept_ok (ba_kept (snd ib)) ->
  exists b', bat_fly hi d loud global ib = Ok b' /\ in_box hi (ba_at b') /\ kept_ok (ba_kept b').
Proof.
  destruct ib as [i b]. cbn [snd]. intros Hhi Hd HK. unfold bat_fly.
  destruct (Qlt_b (ba_pulse b) (dr_unif d i 1)).
  - set (j := Z.to_nat _). assert (Lj : j < length (ba_kept b)).
    { pose proof (kept_count_le (ba_kept b)) as C. destruct HK as [L _]. pose proof (ok_unif _ Hd i 2) as U. unfold j. rewrite L in *.
      assert (G : (inject_Z (Z.of_nat (kept_count (ba_kept b))) * dr_unif d i 2 < inject_Z (Z.of_nat n_keep))%Q).
      { assert (G1 : (inject_Z (Z.of_nat (kept_count (ba_kept b))) <= inject_Z (Z.of_nat n_keep))%Q) by (rewrite <- Zle_Qle; lia).
        assert (G2 : (0 <= inject_Z (Z.of_nat (kept_count (ba_kept b))))%Q) by (change 0%Q with (inject_Z 0); rewrite <- Zle_Qle; lia).
        change (inject_Z (Z.of_nat n_keep)) with 5%Q in *. destruct U as [U1 U2].
        apply Qle_lt_trans with (5 * dr_unif d i 2)%Q; [apply Qmult_le_compat_r; assumption|lra]. }
      set (x := (_ * _)%Q) in *. pose proof (Qfloor_le x) as F. assert (H : (inject_Z (Qfloor x) < inject_Z (Z.of_nat n_keep))%Q) by lra. rewrite <- Zlt_Qlt in H.
      unfold n_keep in *. lia. }
    assert (exists sc, get (ba_kept b) j = Ok sc) as [sc ->].
    { destruct (nth_error (ba_kept b) j) as [sc|] eqn:E; [exists sc; now apply get_ok|apply nth_error_None in E; lia]. }
    cbn [bind]. eexists. split; [reflexivity|]. cbn [ba_at ba_kept]. split; [now apply pb_clip_box|exact HK].
  - cbn [bind]. eexists. split; [reflexivity|]. cbn [ba_at ba_kept]. split; [now apply pb_clip_box|exact HK].
Qed.

Lemma filter_le {A} (f : A -> bool) l : length (filter f l) <= length l.
Proof. induction l as [|x l IH]; [reflexivity|]. cbn [filter length]. destruct (f x); cbn [length]; lia. Qed.

Lemma bat_global_ok scores best : exists o, bat_global scores best = Ok o /\ forall i, o = Some i -> i < length scores.
Proof.
  unfold bat_global.
  assert (P : forall f, exists o, (if length (filter f scores) =? 0 then Ok None else do i <- DirModel.argmax (map snd (filter f scores)); Ok (Some i)) = Ok o /\ forall i, o = Some i -> i < length scores).
  { intros f. destruct (Nat.eqb_spec (length (filter f scores)) 0) as [E|E]; [exists None; split; [reflexivity|discriminate]|].
    destruct (DirFacts.argmax_spec (map snd (filter f scores))) as (i & -> & Li & _); [destruct (filter f scores); [now cbn in E|discriminate]|].
    cbn [bind]. exists (Some i). split; [reflexivity|]. intros j [= <-]. rewrite map_length in Li. exact (Nat.lt_le_trans _ _ _ Li (filter_le f scores)). }
  destruct (P (lower best)) as (a & -> & Ha). cbn [bind]. destruct (P (first_good best)) as (b & -> & Hb). cbn [bind].
  eexists. split; [reflexivity|]. destruct b; auto.
Qed.

Section Bats.

Variable hi : nat.
Variable eval : nat -> nat -> combination -> res score2.
Variable ds : nat -> draws.
Hypothesis Hhi : 1 <= hi.
Hypothesis Hds : forall t, draws_ok (ds t).
Hypothesis Heval : forall t i c, in_box hi c -> exists s, eval t i c = Ok s.

Lemma bat_loop_ok more : forall t bats best nc, Forall (fun b => kept_ok (ba_kept b)) bats -> in_box hi (snd best) ->
  exists c, bat_loop more t hi ds eval bats best nc = Ok c /\ in_box hi c.
Proof.
  induction more as [|more IH]; intros t bats best nc HK HB; cbn [bat_loop]; [eexists; split; [reflexivity|exact HB]|].
  destruct (10 <? S nc); [eexists; split; [reflexivity|exact HB]|].
  set (loud := (_ / _)%Q).
  destruct (mapM_total (bat_fly hi (ds t) loud (snd best)) (combine (seq 0 (length bats)) bats)) as (bats1 & E1).
  { apply Forall_forall. intros [i b] Hin. apply in_combine_r in Hin. rewrite Forall_forall in HK.
    destruct (bat_fly_ok hi (ds t) loud (snd best) (i, b) Hhi (Hds t) (HK _ Hin)) as (b' & E & _). now exists b'. }
  rewrite E1. cbn [bind].
  assert (H1 : Forall (fun b => in_box hi (ba_at b) /\ kept_ok (ba_kept b)) bats1).
  { apply Forall_forall. intros b' Hb. destruct (mapM_in _ _ _ _ E1 Hb) as ([i b] & Hin & E). apply in_combine_r in Hin. rewrite Forall_forall in HK.
    destruct (bat_fly_ok hi (ds t) loud (snd best) (i, b) Hhi (Hds t) (HK _ Hin)) as (b'' & E' & G). rewrite E in E'. injection E' as <-. exact G. }
  clear E1 HK. rewrite Forall_forall in H1.
  destruct (mapM_total (fun ib => eval t (fst ib) (ba_at (snd ib))) (combine (seq 0 (length bats1)) bats1)) as (scores & E2).
  { apply Forall_forall. intros [i b] Hin. apply in_combine_r in Hin. apply Heval. now apply H1. }
  rewrite E2. cbn [bind]. pose proof (mapM_length _ _ _ E2) as L2. rewrite combine_length, seq_length, Nat.min_id in L2. clear E2.
  destruct (mapM_total bat_keep (combine scores bats1)) as (bats2 & E3).
  { apply Forall_forall. intros [s b] Hin. apply in_combine_r in Hin. destruct (bat_keep_ok s b) as (b' & E & _); [now apply H1|]. now exists b'. }
  rewrite E3. cbn [bind].
  assert (H2 : forall b, In b bats2 -> in_box hi (ba_at b) /\ kept_ok (ba_kept b)).
  { intros b' Hb. destruct (mapM_in _ _ _ _ E3 Hb) as ([s b] & Hin & E). apply in_combine_r in Hin.
    destruct (bat_keep_ok s b) as (b'' & E' & G1 & G2); [now apply H1|]. rewrite E in E'. injection E' as <-. rewrite G1. split; [now apply H1|exact G2]. }
  pose proof (mapM_length _ _ _ E3) as L3. rewrite combine_length in L3. clear E3.
  destruct (bat_global_ok scores (fst best)) as (o & -> & Ho). cbn [bind].
  destruct o as [i|].
  - specialize (Ho i eq_refl).
    assert (exists b, get bats2 i = Ok b /\ In b bats2) as (b & -> & Hb).
    { destruct (nth_error bats2 i) as [b|] eqn:E; [|apply nth_error_None in E; lia]. exists b. split; [now apply get_ok|now apply nth_error_In in E]. }
    assert (exists s, get scores i = Ok s) as (s & ->).
    { destruct (nth_error scores i) as [s|] eqn:E; [|apply nth_error_None in E; lia]. exists s. now apply get_ok. }
    cbn [bind]. apply IH; [apply Forall_forall; intros b' Hb'; now apply H2|]. destruct (Qlt_b _ _); cbn [snd]; [now apply H2|exact HB].
  - cbn [bind]. apply IH; [apply Forall_forall; intros b' Hb'; now apply H2|exact HB].
Qed.

End Bats.

(** ** The sampler *)

Lemma start_ok hi d : draws_ok d -> 2 <= hi -> exists start k, mapM (pb_init hi d) (seq 0 n_pop) = Ok start /\ length start = n_pop /\ Forall (in_box hi) start /\
  randint d 0 0 (hi - 1) = Ok k /\ get start 0 = Ok (inject_Z (Z.of_nat (1 + k)), dr_unif d 0 1%nat * (19 # 10) + (1 # 10))%Q /\
  in_box hi (inject_Z (Z.of_nat (1 + k)), dr_unif d 0 1%nat * (19 # 10) + (1 # 10))%Q.
Proof.
  intros Hd Hhi. destruct (mapM_total (pb_init hi d) (seq 0 n_pop)) as (start & E).
  { apply Forall_forall. intros i _. destruct (pb_init_ok hi d i Hd Hhi) as (k & _ & _ & E & _). eexists. exact E. }
  destruct (pb_init_ok hi d 0 Hd Hhi) as (k & Ek & _ & E0 & B0). exists start, k. split; [exact E|]. split; [now apply mapM_length in E|]. split.
  { apply Forall_forall. intros c Hc. destruct (mapM_in _ _ _ _ E Hc) as (i & _ & Ei). destruct (pb_init_ok hi d i Hd Hhi) as (k' & _ & _ & E' & B). rewrite Ei in E'. now injection E' as ->. }
  split; [exact Ek|]. split; [|exact B0].
  apply mapM_ok_iff in E. change (seq 0 n_pop) with (0 :: seq 1 9) in E. inversion E as [|? c0 ? start' Ec E']; subst. rewrite E0 in Ec. injection Ec as <-. now apply get_ok.
Qed.

Lemma tuned_plain to_f p K q : 1 <= K -> plain_ss (pb_ss p) -> plain_ss (sm_ss (tuned to_f p K q)).
Proof.
  intros HK (P1 & P2 & P3). unfold tuned, plain_ss. cbn. split; [lia|]. split; [exact P2|]. destruct P3 as [P3|[P3 P4]]; [now left|right]. split; [exact P3|lia].
Qed.

Lemma pb_sample_ok dist volume nn to_f cross method p hi d ds rs r D mn mj :
  knn_ok dist nn -> proportions_ok to_f (d_y D) mn mj -> cross_ok cross -> plain_ss (pb_ss p) -> 2 <= hi ->
  draws_ok d -> (forall t, draws_ok (ds t)) -> (forall t i, rng_ok (rs t i) /\ unif_pos (rs t i)) -> rng_ok r -> unif_pos r ->
  wf_data (d_X D) (d_dim D) (d_y D) -> is_minority (d_y D) mn mj ->
  let out := pb_sample volume nn to_f cross method p hi d ds rs r D in
  (count_label (d_y D) mn <= 2 -> unchanged D out) /\
  (2 < count_label (d_y D) mn -> pb_result dist volume nn to_f p hi r D mn mj
     (fun K prop => match method with MPso => first_or_good volume nn to_f cross p hi d rs D mn mj K prop | MBat => True end) out).
Proof.
  intros Hnn Hpr Hcr Hss Hhi Hd Hds Hrs Hr Hu Hwf Hmin. cbv zeta. unfold pb_sample.
  destruct (sample_default (pb_algorithm volume nn to_f cross method p hi d ds rs r) D mn mj Hmin) as (st & Hst & ->).
  destruct (Nat.leb_spec (count_label (d_y D) mn) 2) as [Hle|Hgt]; [split; [reflexivity|lia]|]. split; [lia|]. intros _.
  destruct Hst as (Emn & Emj & _). unfold pb_algorithm. rewrite Emn, Emj. unfold EditModel.n_label. fold (count_label (d_y D) mn).
  set (h := Nat.min (count_label (d_y D) mn) hi). assert (Hh : 2 <= h) by (unfold h; lia).
  set (eval := fun t i => pb_evaluate volume nn to_f cross p mn mj D (rs t i)).
  assert (Hrun : forall r' c, rng_ok r' -> unif_pos r' -> in_box h c -> exists n, asked (StFloat (to_f (snd c))) (d_y D) mn mj = Ok n /\
     runs D mn n (smote_spec dist (pb_smote to_f p c) D mn n) (smote_sample volume nn (pb_smote to_f p c) r' D)).
  { intros r' c G1 G2 HB. destruct (Hpr _ (proj2 HB)) as (n & En). exists n. split; [exact En|]. pose proof (box_neighbours _ _ HB) as HK.
    apply (smote_runs dist volume nn (pb_smote to_f p c) r' D mn mj n Hnn G1 G2); [apply (tuned_plain to_f p (Z.to_nat (Qfloor (fst c))) (snd c)); [lia|exact Hss]|exact Hwf|exact Hmin|exact En|cbn; lia]. }
  assert (Hout : forall r' c, rng_ok r' -> unif_pos r' -> in_box h c -> exists X y, smote_sample volume nn (pb_smote to_f p c) r' D = Ok (X, y) /\ Forall (fun z => z = mn \/ z = mj) y).
  { intros r' c G1 G2 HB. destruct (Hrun r' c G1 G2 HB) as (n & En & R1 & R2). pose proof (asked_some _ _ _ _ _ En) as Hn.
    assert (HT : Forall (fun z => z = mn \/ z = mj) (d_y D)) by (apply Forall_forall; intros z Hz; now apply (proj1 Hmin)).
    destruct (Z.eq_dec n 0) as [->|N].
    - exists (d_X D), (d_y D). split; [apply R1; auto|exact HT].
    - destruct (R2 Hgt ltac:(lia)) as (S & E & _). exists (d_X D ++ S), (d_y D ++ repeat mn (length S)). split; [exact E|].
      apply Forall_app. split; [exact HT|]. apply Forall_forall. intros z Hz. apply repeat_spec in Hz. now left. }
  assert (Heval : forall t i c, in_box h c -> exists s, eval t i c = Ok s).
  { intros t i c HB. destruct (Hrs t i) as [G1 G2]. destruct (Hout (rs t i) c G1 G2 HB) as (X & y & E & _). unfold eval, pb_evaluate. rewrite E. cbn [bind fst snd]. now eexists. }
  destruct (start_ok h d Hd Hh) as (start & k & E1 & LS & BS & Ek & E0 & B0).
  set (c0 := (inject_Z (Z.of_nat (1 + k)), dr_unif d 0 1%nat * (19 # 10) + (1 # 10))%Q) in *.
  assert (HC : exists c, (match method with MPso => flock_search p h d eval | MBat => bat_search p h d ds eval end) = Ok c /\ in_box h c /\
    match method with MPso => c = c0 \/ exists s t i, t < pb_maxit p /\ i < n_pop /\ eval t i c = Ok s /\ good s = true | MBat => True end).
  { destruct method.
    - unfold flock_search. rewrite E1. cbn [bind]. rewrite E0. cbn [bind].
      destruct (flock_loop_ok p h eval ltac:(lia) Heval c0 (pb_maxit p) 0 (map (fun c => mk_bird c (0, 0)%Q c (Some 0, 0)%Q) start) ((Some 0, 0)%Q, c0) 0) as (b & Eb & I1 & I2).
      + now rewrite map_length.
      + rewrite Forall_map. eapply Forall_impl; [|exact BS]. intros c Hc. exact Hc.
      + split; [exact B0|now left].
      + exists (snd b). split; [exact Eb|]. split; [exact I1|]. destruct I2 as [->|(G & t & i & T1 & T2 & T3)]; [now left|right]. exists (fst b), t, i. auto.
    - unfold bat_search. rewrite E1. cbn [bind]. rewrite E0. cbn [bind].
      destruct (bat_loop_ok h eval ds ltac:(lia) Hds Heval (pb_maxit p) 0 (map (fun ic => mk_bat (snd ic) (0, 0)%Q (repeat ((Some (- (1)), - (1))%Q, snd ic) n_keep) (dr_unif d (fst ic) 2) (dr_unif d (fst ic) 3)) (combine (seq 0 n_pop) start)) ((Some 0, 0)%Q, c0) 0) as (c & Ec & Bc).
      + rewrite Forall_map. apply Forall_forall. intros ic _. cbn [ba_kept]. split; [apply repeat_length|left]. apply Forall_forall. intros x Hx. apply repeat_spec in Hx. now subst.
      + exact B0.
      + exists c. auto. }
  destruct HC as (c & -> & Bc & Hc). cbn [bind]. pose proof (box_neighbours _ _ Bc) as HK.
  destruct (Hrun r c Hr Hu Bc) as (n & En & HR).
  exists (Z.to_nat (Qfloor (fst c))), (snd c), n. split; [exact HK|]. split; [apply Bc|]. split; [|split; [exact En|]; split; [reflexivity|exact HR]].
  destruct method; [|exact I]. destruct Hc as [->|(s & t & i & T1 & T2 & T3 & G)].
  - left. exists k. split; [exact Ek|]. unfold c0. cbn [fst snd]. rewrite Qfloor_Z. split; [lia|ring].
  - right. unfold eval, pb_evaluate in T3. destruct (Hrs t i) as [G1 G2]. destruct (Hout (rs t i) c G1 G2 Bc) as (X & y & E & HT). rewrite E in T3. cbn [bind fst snd] in T3.
    injection T3 as <-. exists t, i, X, y. split; [exact T1|]. split; [exact T2|]. split; [exact E|].
    destruct (Hcr X y) as [C1 C2]. apply good_kappa in G; [exact G|apply Hmin|exact C1| |exact HT].
    apply Forall_forall. intros z Hz. rewrite Forall_forall in HT. now apply HT, C2.
Qed.

(** ** Several calls *)

Lemma k_range_one hi D mn mj : is_minority (d_y D) mn mj ->
  k_range_after hi D = if count_label (d_y D) mn <=? 2 then hi else Nat.min (count_label (d_y D) mn) hi.
Proof.
  intros Hmin. unfold k_range_after. destruct (statistics_spec (d_y D) mn mj (proj1 Hmin)) as (st & -> & Hm & _).
  destruct (is_minority_unique _ _ _ _ _ Hmin Hm) as [E1 E2]. rewrite <- ?E1, ?E1. reflexivity.
Qed.

Lemma remembered_ok before : Forall (fun D => exists mn mj, is_minority (d_y D) mn mj) before -> remembered before (fold_left k_range_after before 10).
Proof.
  induction before as [|D before IH] using rev_ind; intros H.
  { split; [reflexivity|]. split; [intros n (D & _ & _ & [] & _)|now left]. }
  apply Forall_app in H as [H1 H2]. inversion H2 as [|? ? (mn & mj & Hmin) _]; subst. destruct (IH H1) as (I1 & I2 & I3).
  rewrite fold_left_app. cbn [fold_left]. rewrite (k_range_one _ _ _ _ Hmin). set (h := fold_left k_range_after before 10) in *.
  assert (Hin : forall x, In x (before ++ [D]) <-> In x before \/ x = D) by (intros x; rewrite in_app_iff; cbn; intuition congruence).
  destruct (Nat.leb_spec (count_label (d_y D) mn) 2) as [Hle|Hgt].
  - split; [exact I1|]. split.
    + intros n (D' & a & b & G1 & G2 & G3 & G4). apply Hin in G1 as [G1 | ->]; [apply I2; exists D', a, b; auto|].
      destruct (is_minority_unique _ _ _ _ _ Hmin G2) as [E1 E2]. subst. lia.
    + destruct I3 as [I3|(D' & a & b & G1 & G2)]; [now left|right]. exists D', a, b. split; [apply Hin; now left|exact G2].
  - split; [lia|]. split.
    + intros n (D' & a & b & G1 & G2 & G3 & G4). apply Hin in G1 as [G1 | ->]; [assert (h <= n) by (apply I2; exists D', a, b; auto); lia|].
      destruct (is_minority_unique _ _ _ _ _ Hmin G2) as [E1 E2]. subst. lia.
    + destruct (Nat.min_dec (count_label (d_y D) mn) h) as [-> | ->].
      * right. exists D, mn, mj. split; [apply Hin; now right|auto].
      * destruct I3 as [I3|(D' & a & b & G1 & G2)]; [now left|right]. exists D', a, b. split; [apply Hin; now left|exact G2].
Qed.

Lemma pb_calls_nth volume nn to_f cross method p : forall before c after hi,
  nth_error (pb_calls volume nn to_f cross method p hi (before ++ c :: after)) (length before) =
  Some (pb_sample volume nn to_f cross method p (fold_left k_range_after (map ca_D before) hi) (ca_d c) (ca_ds c) (ca_rs c) (ca_r c) (ca_D c)).
Proof.
  induction before as [|b before IH]; intros c after hi; cbn [app pb_calls length nth_error map fold_left]; [reflexivity|apply IH].
Qed.

Lemma pb_calls_ok dist volume nn to_f cross method p before c after mn mj :
  knn_ok dist nn -> proportions_ok to_f (d_y (ca_D c)) mn mj -> cross_ok cross -> plain_ss (pb_ss p) ->
  draws_ok (ca_d c) -> (forall t, draws_ok (ca_ds c t)) -> (forall t i, rng_ok (ca_rs c t i) /\ unif_pos (ca_rs c t i)) -> rng_ok (ca_r c) -> unif_pos (ca_r c) ->
  Forall (fun D => exists mn mj, is_minority (d_y D) mn mj) (map ca_D before) ->
  wf_data (d_X (ca_D c)) (d_dim (ca_D c)) (d_y (ca_D c)) -> is_minority (d_y (ca_D c)) mn mj ->
  exists hi out, remembered (map ca_D before) hi /\
    nth_error (pb_calls volume nn to_f cross method p 10 (before ++ c :: after)) (length before) = Some out /\
    (count_label (d_y (ca_D c)) mn <= 2 -> unchanged (ca_D c) out) /\
    (2 < count_label (d_y (ca_D c)) mn -> pb_result dist volume nn to_f p hi (ca_r c) (ca_D c) mn mj
       (fun K prop => match method with MPso => first_or_good volume nn to_f cross p hi (ca_d c) (ca_rs c) (ca_D c) mn mj K prop | MBat => True end) out).
Proof.
  intros Hnn Hpr Hcr Hss Hd Hds Hrs Hr Hu Hb Hwf Hmin. pose proof (remembered_ok _ Hb) as HR. rewrite pb_calls_nth.
  set (hi := fold_left k_range_after (map ca_D before) 10) in *.
  assert (2 <= hi). { destruct HR as (_ & _ & [->|(D & a & b & _ & _ & _ & G)]); lia. }
  eexists hi, _. split; [exact HR|]. split; [reflexivity|]. apply (pb_sample_ok dist); auto.
Qed.
