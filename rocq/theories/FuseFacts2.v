(** DSRBF: the networks keep enough neurons, and the result is that of a call of SMOTE. *)

From Coq Require Import List ZArith QArith Qabs Qminmax Qround Qpower Bool Arith Lia Lqa Sorting.Sorted Permutation.
From Verif Require Import Np PyVal NpFacts BaseFacts SimplexModel Spec SpecDanger SpecNoise SpecComp SimplexFacts SimplexGeom Float64
  SamplerModel SamplerFacts OversFacts BaseModel KnnFacts DangerModel DangerFacts BorderFacts ClusterModel NearModel ClusterOversModel OversGen
  ClusterOversFacts ClusterFacts NoiseModel NoiseFacts NoiseFacts2 CompModel CompFacts CompFacts2 CompFacts3 CompFacts4 EditModel SpecEdit EditFacts EditFacts3 EditFacts2 EditFacts4 EditFacts5
  SpecNear NearFacts NearFacts2 LevelModel SpecLevel LevelFacts LevelFacts3 LevelFacts4 SpecGroup GroupFacts GroupFacts2 GroupFacts4 GroupFacts6 WrapModel SpecWrap WrapFacts WrapFacts2 WrapFacts3 DirModel SpecDir DirFacts DirFacts3 RegionModel SpecRegion RegionFacts RegionFacts2 RegionFacts3 RegionFacts4 SearchModel SpecSearch SearchFacts2 GraphModel SpecGraph GraphFacts GraphFacts2 GraphFacts4 GraphFacts5 GraphFacts6 GraphFacts8 MixModel SpecMix MixFacts MixFacts3 MixFacts4 MixFacts6 SwarmModel SpecSwarm SwarmFacts4 FuseModel SpecFuse FuseFacts.
Import ListNotations.
Open Scope nat_scope.

Section Dsrbf.

Variable dist : row -> row -> Q.
Variable volume : list row -> Q.
Variable nn : list row -> list row -> nat -> res (list (list nat)).
Variable neuron : Type.
Variable create : draws -> nat -> list row -> neuron.
Variable clone : neuron -> neuron.
Variable mutate : draws -> nat -> neuron -> neuron.
Variables delete_connection add_connection : draws -> neuron -> neuron.
Variable improve : list row -> list neuron -> list neuron.
Variable loss : list neuron -> list row -> list Z -> Q.
Variable sd : list Q -> Q.
Hypothesis Himp : improve_ok improve.

Variable p : rb_params.
Hypothesis Hmin1 : 1 <= rb_m_min p.
Hypothesis Hpop : 1 <= rb_n_pop p.
Variable hi : nat.
Hypothesis Hhi : rb_m_min p < hi.


Local Notation member := (FuseModel.member neuron).

Definition fine {A} (P : A -> Prop) (r : res A) : Prop := (exists v, r = Ok v /\ P v) \/ (rb_m_min p = 1 /\ r = Err ValueError).

Lemma fine_bind {A B} (P : A -> Prop) (Q : B -> Prop) r (f : A -> res B) : fine P r -> (forall v, P v -> fine Q (f v)) -> fine Q (bind r f).
Proof. intros [(v & -> & H)|[H ->]] HF; cbn [bind]; [now apply HF|right; now split]. Qed.

Lemma fine_mapM {A B} (P : B -> Prop) (f : A -> res B) l : Forall (fun a => fine P (f a)) l -> fine (fun r => length r = length l /\ Forall P r) (mapM f l).
Proof.
  induction 1 as [|a l Ha _ IH]; [left; exists []; repeat constructor|]. cbn [mapM].
  apply (fine_bind P); [exact Ha|]. intros b Hb. apply (fine_bind _ _ _ _ IH). intros r [Hr1 Hr2]. left. exists (b :: r). split; [reflexivity|]. split; [cbn; lia|now constructor].
Qed.

Lemma fine_randint {B} (Q : B -> Prop) d t s b f : draws_ok d -> 0 < b -> (forall i, i < b -> fine Q (f i)) -> fine Q (bind (randint d t s b) f).
Proof. intros Hd Hb HF. destruct (randint_ok d t s b Hd Hb) as (i & -> & Hi). cbn [bind]. now apply HF. Qed.

(** At least two neurons, or one if this is the least number. *)
Definition size_ok (k : nat) : Prop := Nat.min 2 (rb_m_min p) <= k.

Lemma change_ok f (l : list neuron) i : i < length l -> exists l', change neuron f l i = Ok l' /\ length l' = length l.
Proof.
  intros Hi. unfold change. destruct (nth_error l i) as [u|] eqn:E; [|apply nth_error_None in E; lia]. rewrite (proj2 (get_ok _ _ _) E). cbn [bind].
  unfold put. destruct (Nat.ltb_spec i (length l)); [|lia]. eexists. split; [reflexivity|]. rewrite app_length, firstn_length. cbn [length]. rewrite skipn_length. lia.
Qed.

Lemma delete_one {A} (l : list A) i : length l - 1 <= length (delete_idx l [i]) <= length l.
Proof. exact (delete_length l [i]). Qed.

Lemma structural_ok d a : draws_ok d -> size_ok (length (ne_units neuron a)) ->
  fine (fun a' => size_ok (length (ne_units neuron a'))) (rb_structural neuron create clone delete_connection add_connection (rb_m_min p) hi d a).
Proof.
  intros Hd Ha. unfold rb_structural. unfold size_ok in Ha.
  apply (fine_bind (fun us => size_ok (length us))).
  2: { intros us H. left. eexists. split; [reflexivity|exact H]. }
  destruct (Qlt_b _ _).
  - rewrite map_length. destruct (Nat.ltb_spec (length (ne_units neuron a)) hi).
    + left. eexists. split; [reflexivity|]. rewrite app_length, map_length. unfold size_ok. cbn [length]. lia.
    + destruct (Nat.ltb_spec (rb_m_min p) (length (ne_units neuron a))).
      * apply fine_randint; [exact Hd|lia|]. intros i Hi. left. eexists. split; [reflexivity|]. unfold size_ok.
        pose proof (delete_one (map clone (ne_units neuron a)) i) as L. rewrite map_length in L. lia.
      * left. eexists. split; [reflexivity|]. rewrite map_length. exact Ha.
  - apply fine_randint; [exact Hd|rewrite map_length; lia|]. intros i Hi. destruct (change_ok (delete_connection d) _ i Hi) as (us & -> & L1). cbn [bind]. rewrite map_length in *.
    apply fine_randint; [exact Hd|lia|]. intros j Hj. destruct (change_ok (add_connection d) us j Hj) as (us' & -> & L2). left. exists us'. split; [reflexivity|]. unfold size_ok. lia.
Qed.

Lemma some_units_ok d t us : draws_ok d -> size_ok (length us) -> fine (fun l => 1 <= length l < Nat.max 2 (length us)) (some_units neuron d t us).
Proof.
  intros Hd Hs. unfold some_units, size_ok in *. destruct (Nat.eq_dec (length us) 1) as [E|E].
  - right. split; [lia|]. rewrite E. reflexivity.
  - apply fine_randint; [exact Hd|lia|]. intros k Hk.
    destruct (mapM_total (fun i => randint d t (S i) (length us)) (seq 0 (S k))) as (idx & Ei).
    { apply Forall_forall. intros i _. destruct (randint_ok d t (S i) (length us) Hd) as (w & -> & _); [lia|]. eexists. reflexivity. }
    rewrite Ei. cbn [bind]. assert (Li := mapM_length _ _ _ Ei). rewrite seq_length in Li.
    destruct (mapM_total (get us) idx) as (l & El).
    { apply Forall_forall. intros w Hw. destruct (mapM_in _ _ _ _ Ei Hw) as (i & _ & E1). destruct (randint_ok d t (S i) (length us) Hd) as (w' & E2 & Bw); [lia|]. rewrite E1 in E2. injection E2 as ->.
      destruct (nth_error us w') as [u|] eqn:Eu; [exists u; now apply get_ok|apply nth_error_None in Eu; lia]. }
    left. exists l. split; [exact El|]. apply mapM_length in El. lia.
Qed.

Lemma shrink_ok d fuel us : draws_ok d -> length us <= fuel -> 2 <= length us -> exists us', shrink neuron fuel d hi us = Ok us' /\ 2 <= length us'.
Proof.
  intros Hd. revert us. induction fuel as [|fuel IH]; intros us Hf Hl; [lia|]. cbn [shrink]. destruct (Nat.leb_spec (length us) hi); [exists us; now split|].
  destruct (randint_ok d 3 fuel (length us) Hd) as (i & -> & Hi); [lia|]. cbn [bind].
  assert (G : length (delete_idx us [i]) = length us - 1).
  { unfold delete_idx. rewrite map_length. pose proof (EditFacts4.filter_partition (fun q : nat * neuron => existsb (Nat.eqb (fst q)) [i]) (combine (seq 0 (length us)) us)) as FP.
    pose proof (delete_one us i) as DL. unfold delete_idx in DL. rewrite map_length in DL. rewrite combine_length, seq_length, Nat.min_id in FP.
    destruct (nth_error us i) as [u|] eqn:Eu; [|apply nth_error_None in Eu; lia].
    assert (In (i, u) (filter (fun q : nat * neuron => existsb (Nat.eqb (fst q)) [i]) (combine (seq 0 (length us)) us))).
    { apply filter_In. split; [|cbn; now rewrite Nat.eqb_refl]. apply (ClusterFacts.in_combine_seq us i u u). split; [exact Hi|]. now apply nth_error_nth. }
    destruct (filter (fun q : nat * neuron => existsb (Nat.eqb (fst q)) [i]) _); [contradiction|]. cbn [length] in FP. lia. }
  apply IH; lia.
Qed.

Lemma recombine_ok d a b : draws_ok d -> size_ok (length (ne_units neuron a)) -> size_ok (length (ne_units neuron b)) ->
  fine (fun a' => size_ok (length (ne_units neuron a'))) (rb_recombine neuron clone hi d a b).
Proof.
  intros Hd Ha Hb. unfold rb_recombine. apply (fine_bind (fun us => size_ok (length us))).
  2: { intros us H. left. eexists. split; [reflexivity|exact H]. }
  destruct (Qlt_b _ _).
  - apply (fine_bind _ _ _ _ (some_units_ok d 1 _ Hd ltac:(rewrite map_length; exact Ha))). intros l Hl.
    apply (fine_bind _ _ _ _ (some_units_ok d 2 _ Hd Hb)). intros r Hr. left. destruct (shrink_ok d _ (map clone l ++ map clone r) Hd (le_n _)) as (us & E & L).
    { rewrite app_length, !map_length. lia. }
    exists us. split; [exact E|]. unfold size_ok. lia.
  - set (us := map clone (ne_units neuron a)). assert (Lu : length us = length (ne_units neuron a)) by apply map_length.
    assert (F : Forall (fun iu : nat * neuron => fine (fun _ : neuron => True) (if Qlt_b (dr_unif d 4 (fst iu)) (1 # 5) then do j <- randint d 5 (fst iu) (length (ne_units neuron b)); do u <- get (ne_units neuron b) j; Ok (clone u) else Ok (snd iu))) (combine (seq 0 (length us)) us)).
    { apply Forall_forall. intros [i u] _. cbn [fst snd]. destruct (Qlt_b _ _); [|left; eexists; split; [reflexivity|exact I]].
      apply fine_randint; [exact Hd|unfold size_ok in Hb; lia|]. intros j Hj. destruct (nth_error (ne_units neuron b) j) as [v|] eqn:E; [|apply nth_error_None in E; lia].
      rewrite (proj2 (get_ok _ _ _) E). cbn [bind]. left. eexists. split; [reflexivity|exact I]. }
    apply fine_mapM in F. destruct F as [(v & E & L & _)|H]; [|right; exact H]. left. exists v. split; [exact E|]. rewrite combine_length, seq_length in L. unfold size_ok in *. lia.
Qed.

(** ** The population *)

Variable D : dataset.
Variables mn mj n : Z.
Variable ds : nat -> nat -> draws.
Variable rs : nat -> rng.
Hypothesis Hds : forall t i, draws_ok (ds t i).
Hypothesis Hsm : forall e, exists o, smote_sample volume nn (rb_smote p) (rs e) D = Ok o.

Definition member_ok (m : member) : Prop :=
  size_ok (length (ne_units neuron (me_net neuron m))) /\ exists e, e <= rb_n_iter p /\ smote_sample volume nn (rb_smote p) (rs e) D = Ok (me_X neuron m, me_y neuron m).

Definition pop_ok (ms : list member) : Prop := ms <> [] /\ Forall member_ok ms.

Lemma evaluate_ok ms : pop_ok ms -> pop_ok (map (rb_evaluate neuron loss) ms).
Proof.
  intros [H1 H2]. split; [intros E; apply map_eq_nil in E; congruence|]. rewrite Forall_map. eapply Forall_impl; [|exact H2]. intros m Hm. unfold rb_evaluate. destruct (me_loss neuron m); exact Hm.
Qed.

Lemma sorted_ok ms : pop_ok ms -> exists ms', rb_sorted neuron ms = Ok ms' /\ pop_ok ms'.
Proof.
  intros [H1 H2]. unfold rb_sorted. destruct (forallb _ ms); [|exists ms; split; [reflexivity|now split]].
  set (v := map _ ms). assert (Lv : length v = length ms) by apply map_length.
  destruct (mapM_total (get ms) (argsort v)) as (ms' & E).
  { apply Forall_forall. intros i Hi. apply argsort_in in Hi. destruct (nth_error ms i) as [m|] eqn:Em; [exists m; now apply get_ok|apply nth_error_None in Em; lia]. }
  exists ms'. split; [exact E|]. split.
  - intros ->. apply mapM_length in E. rewrite argsort_length in E. destruct ms; [congruence|cbn in *; lia].
  - apply Forall_forall. intros m Hm. destruct (mapM_in _ _ _ _ E Hm) as (i & _ & Ei). apply get_ok, nth_error_In in Ei. rewrite Forall_forall in H2. now apply H2.
Qed.

Lemma firstn_pop ms : pop_ok ms -> pop_ok (firstn (rb_n_pop p) ms).
Proof.
  intros [H1 H2]. split; [destruct ms; [congruence|]; destruct (rb_n_pop p); [lia|discriminate]|]. apply Forall_forall. intros m Hm. apply GroupFacts6.firstn_In in Hm. rewrite Forall_forall in H2. now apply H2.
Qed.

Lemma firstn_members k ms : Forall member_ok ms -> Forall (fun im : nat * member => member_ok (snd im)) (combine (seq 0 (length ms)) (firstn k ms)).
Proof. intros H. apply Forall_forall. intros [i m] Hi. apply in_combine_r in Hi. apply GroupFacts6.firstn_In in Hi. cbn [snd]. rewrite Forall_forall in H. now apply H. Qed.

Lemma rb_loop_ok more : rb_n_iter p = 0 \/ 1 <= rb_n_epoch p <= rb_n_iter p -> forall t ms, t + more = rb_n_iter p -> pop_ok ms ->
  fine pop_ok (rb_loop volume nn neuron create clone mutate delete_connection add_connection improve loss more t p hi ds rs D ms).
Proof.
  intros Hep. induction more as [|more IH]; intros t ms Ht Hms; [left; exists ms; now split|]. cbn [rb_loop].
  destruct (sorted_ok _ (evaluate_ok _ Hms)) as (ms1 & -> & H1). cbn [bind]. apply firstn_pop in H1. set (ms2 := firstn (rb_n_pop p) ms1) in *.
  set (mutants := map _ (combine _ (firstn (rb_n_pop p / 10) ms2))).
  assert (H3 : pop_ok (ms2 ++ mutants)).
  { split; [destruct H1 as [N _], ms2; [congruence|discriminate]|]. apply Forall_app. split; [apply H1|]. unfold mutants. rewrite Forall_map. eapply Forall_impl; [|apply firstn_members, H1].
    intros [i m] [M1 M2]. cbn [fst snd] in *. split; [|exact M2]. cbn [me_net rb_mutation ne_units]. rewrite map_length, combine_length, seq_length. unfold size_ok in *. lia. }
  set (ms3 := ms2 ++ mutants) in *.
  apply (fine_bind (fun r => Forall member_ok r)).
  { match goal with |- fine _ (mapM ?f ?l) => assert (F : Forall (fun im => fine member_ok (f im)) l) end.
    { eapply Forall_impl; [|apply firstn_members, H3]. intros [i m] [M1 M2]. cbn [fst snd] in *. apply (fine_bind _ _ _ _ (structural_ok _ (me_net neuron m) (Hds _ _) M1)).
      intros a Ha. left. eexists. split; [reflexivity|]. split; [exact Ha|exact M2]. }
    apply fine_mapM in F. destruct F as [(v & E & _ & F)|F]; [left; exists v; now split|now right]. }
  intros changed Hc. set (ms4 := ms3 ++ changed).
  assert (H4 : pop_ok ms4) by (split; [destruct H3 as [N _]; unfold ms4; destruct ms3; [congruence|discriminate]|apply Forall_app; split; [apply H3|exact Hc]]).
  apply (fine_bind (fun r => Forall member_ok r)).
  { unfold rb_recombination. set (par := firstn (rb_n_pop p / 10) ms4).
    assert (Hpar : Forall member_ok par). { apply Forall_forall. intros m Hm. apply GroupFacts6.firstn_In in Hm. destruct H4 as [_ F]. rewrite Forall_forall in F. now apply F. }
    match goal with |- fine _ (mapM ?f ?l) => assert (F : Forall (fun im => fine member_ok (f im)) l) end.
    { apply Forall_forall. intros [i m] Hi. cbn [fst snd]. apply in_combine_r in Hi. rewrite Forall_forall in Hpar. destruct (Hpar m Hi) as [M1 M2].
      apply fine_randint; [apply Hds|destruct par; [contradiction|cbn; lia]|]. intros j Hj. destruct (nth_error par j) as [b|] eqn:E; [|apply nth_error_None in E; lia].
      rewrite (proj2 (get_ok _ _ _) E). cbn [bind]. apply nth_error_In in E. destruct (Hpar b E) as [B1 _].
      apply (fine_bind _ _ _ _ (recombine_ok _ (me_net neuron m) (me_net neuron b) (Hds _ _) M1 B1)). intros a Ha. left. eexists. split; [reflexivity|]. split; [exact Ha|exact M2]. }
    apply fine_mapM in F. destruct F as [(v & E & _ & F)|F]; [left; exists v; now split|now right]. }
  intros recombined Hr. set (ms5 := ms4 ++ recombined).
  assert (H5 : pop_ok ms5) by (split; [destruct H4 as [N _]; unfold ms5; destruct ms4; [congruence|discriminate]|apply Forall_app; split; [apply H4|exact Hr]]).
  destruct (Nat.eqb_spec (rb_n_iter p / rb_n_epoch p) 0) as [E0|E0].
  { exfalso. destruct Hep as [Z|Hep]; [lia|]. apply Nat.div_small_iff in E0; lia. }
  apply (fine_bind pop_ok).
  2: { intros ms6 H6. apply IH; [lia|exact H6]. }
  left. destruct (Nat.eqb_spec (t mod (rb_n_iter p / rb_n_epoch p)) 0).
  - destruct (Hsm (S t)) as ([X y] & E). rewrite E. cbn [bind fst snd]. eexists. split; [reflexivity|]. split.
    + destruct H5 as [N _]. destruct ms5; [congruence|discriminate].
    + apply Forall_app. split; [apply H5|]. rewrite Forall_map. eapply Forall_impl; [|apply H5]. intros m [M1 _]. split.
      * cbn [me_net ne_units]. rewrite Himp, map_length. exact M1.
      * exists (S t). split; [lia|exact E].
  - exists ms5. now split.
Qed.

Lemma rb_loop_zero more t ms : 0 < more -> rb_n_iter p / rb_n_epoch p = 0 -> pop_ok ms ->
  let out := rb_loop volume nn neuron create clone mutate delete_connection add_connection improve loss more t p hi ds rs D ms in
  out = Err ZeroDivisionError \/ (rb_m_min p = 1 /\ out = Err ValueError).
Proof.
  intros Hm He Hms. destruct more as [|more]; [lia|]. cbn zeta. cbn [rb_loop].
  destruct (sorted_ok _ (evaluate_ok _ Hms)) as (ms1 & -> & H1). cbn [bind]. apply firstn_pop in H1. set (ms2 := firstn (rb_n_pop p) ms1) in *.
  set (mutants := map _ (combine _ (firstn (rb_n_pop p / 10) ms2))).
  assert (H3 : Forall member_ok (ms2 ++ mutants)).
  { apply Forall_app. split; [apply H1|]. unfold mutants. rewrite Forall_map. eapply Forall_impl; [|apply firstn_members, H1].
    intros [i m] [M1 M2]. cbn [fst snd] in *. split; [|exact M2]. cbn [me_net rb_mutation ne_units]. rewrite map_length, combine_length, seq_length. unfold size_ok in *. lia. }
  set (ms3 := ms2 ++ mutants) in *.
  match goal with |- bind (mapM ?f ?l) _ = _ \/ _ => assert (F : Forall (fun im => fine member_ok (f im)) l) end.
  { eapply Forall_impl; [|apply firstn_members, H3]. intros [i m] [M1 M2]. cbn [fst snd] in *. apply (fine_bind _ _ _ _ (structural_ok _ (me_net neuron m) (Hds _ _) M1)).
    intros a Ha. left. eexists. split; [reflexivity|]. split; [exact Ha|exact M2]. }
  apply fine_mapM in F. destruct F as [(changed & -> & _ & Hc)|[F ->]]; [|right; now split]. cbn [bind].
  set (ms4 := ms3 ++ changed). assert (H4 : Forall member_ok ms4) by (apply Forall_app; now split).
  unfold rb_recombination. set (par := firstn (rb_n_pop p / 10) ms4).
  assert (Hpar : Forall member_ok par). { apply Forall_forall. intros m Hm'. apply GroupFacts6.firstn_In in Hm'. rewrite Forall_forall in H4. now apply H4. }
  match goal with |- bind (mapM ?f ?l) _ = _ \/ _ => assert (F : Forall (fun im => fine member_ok (f im)) l) end.
  { apply Forall_forall. intros [i m] Hi. cbn [fst snd]. apply in_combine_r in Hi. rewrite Forall_forall in Hpar. destruct (Hpar m Hi) as [M1 M2].
    apply fine_randint; [apply Hds|destruct par; [contradiction|cbn; lia]|]. intros j Hj. destruct (nth_error par j) as [b|] eqn:E; [|apply nth_error_None in E; lia].
    rewrite (proj2 (get_ok _ _ _) E). cbn [bind]. apply nth_error_In in E. destruct (Hpar b E) as [B1 _].
    apply (fine_bind _ _ _ _ (recombine_ok _ (me_net neuron m) (me_net neuron b) (Hds _ _) M1 B1)). intros a Ha. left. eexists. split; [reflexivity|]. split; [exact Ha|exact M2]. }
  apply fine_mapM in F. destruct F as [(r & -> & _)|[F ->]]; [|right; now split]. cbn [bind]. rewrite He. left. reflexivity.
Qed.

Lemma rb_optimize_ok : 1 <= rb_n_init_pop p ->
  let out := rb_optimize volume nn neuron create clone mutate delete_connection add_connection improve loss p hi ds rs D in
  (0 < rb_n_iter p -> rb_n_iter p / rb_n_epoch p = 0 -> out = Err ZeroDivisionError \/ (rb_m_min p = 1 /\ out = Err ValueError)) /\
  (rb_n_iter p = 0 \/ 1 <= rb_n_epoch p <= rb_n_iter p -> fine (fun o => exists e, e <= rb_n_iter p /\ smote_sample volume nn (rb_smote p) (rs e) D = Ok o) out).
Proof.
  intros Hinit. cbn zeta. unfold rb_optimize. destruct (Hsm 0) as ([X y] & E0). rewrite E0. cbn [bind fst snd].
  assert (F : Forall (fun i => exists a, rb_init neuron create (rb_m_min p) hi X (ds 0 i) = Ok a /\ size_ok (length (ne_units neuron a))) (seq 0 (rb_n_init_pop p))).
  { apply Forall_forall. intros i _. unfold rb_init. destruct (randint_ok (ds 0 i) 0 0 (hi - rb_m_min p) (Hds _ _)) as (k & -> & _); [lia|]. cbn [bind]. eexists. split; [reflexivity|].
    cbn [ne_units]. rewrite map_length, seq_length. unfold size_ok. lia. }
  destruct (mapM_total (fun i => rb_init neuron create (rb_m_min p) hi X (ds 0 i)) (seq 0 (rb_n_init_pop p))) as (nets & En).
  { eapply Forall_impl; [|exact F]. intros i (a & Ea & _). now exists a. }
  rewrite En. cbn [bind].
  assert (H0 : pop_ok (map (fun n => rb_evaluate neuron loss (mk_member neuron n X y None)) nets)).
  { split.
    - intros EQ. apply map_eq_nil in EQ. subst nets. apply mapM_length in En. rewrite seq_length in En. cbn in En. lia.
    - rewrite Forall_map. apply Forall_forall. intros a Ha. destruct (mapM_in _ _ _ _ En Ha) as (i & Hi & Ei). rewrite Forall_forall in F. destruct (F i Hi) as (a' & Ea & Sa). rewrite Ei in Ea. injection Ea as <-.
      split; [exact Sa|]. exists 0. split; [lia|exact E0]. }
  destruct (sorted_ok _ H0) as (ms & -> & H1). cbn [bind]. apply firstn_pop in H1. set (ms1 := map _ (firstn (rb_n_pop p) ms)).
  assert (H2 : pop_ok ms1).
  { split; [intros EQ; apply map_eq_nil in EQ; now apply H1|]. unfold ms1. rewrite Forall_map. eapply Forall_impl; [|apply H1]. intros m [M1 M2]. split; [|exact M2]. cbn [me_net ne_units]. rewrite Himp. exact M1. }
  split.
  - intros G1 G2. destruct (rb_loop_zero (rb_n_iter p) 0 ms1 G1 G2 H2) as [->|[M ->]]; cbn [bind]; [now left|right; now split].
  - intros Hep. apply (fine_bind _ _ _ _ (rb_loop_ok (rb_n_iter p) Hep 0 ms1 eq_refl H2)). intros ms2 H3. destruct (sorted_ok _ (evaluate_ok _ H3)) as (ms3 & -> & [H4 H5]). cbn [bind].
    destruct ms3 as [|m ms3]; [congruence|]. cbn [get nth_error bind]. left. eexists. split; [reflexivity|]. inversion H5 as [|? ? [_ M2] _]; subst. exact M2.
Qed.

End Dsrbf.

Section DsrbfMain.

Variable dist : row -> row -> Q.
Variable volume : list row -> Q.
Variable nn : list row -> list row -> nat -> res (list (list nat)).
Variable neuron : Type.
Variable create : draws -> nat -> list row -> neuron.
Variable clone : neuron -> neuron.
Variable mutate : draws -> nat -> neuron -> neuron.
Variables delete_connection add_connection : draws -> neuron -> neuron.
Variable improve : list row -> list neuron -> list neuron.
Variable loss : list neuron -> list row -> list Z -> Q.
Variable sd : list Q -> Q.

Lemma rb_sample_ok p ds rs D mn mj n :
  knn_ok dist nn -> improve_ok improve -> plain_ss (sm_ss (rb_smote p)) -> 1 <= sm_n_neighbors (rb_smote p) ->
  1 <= rb_m_min p -> 1 <= rb_n_pop p -> 1 <= rb_n_init_pop p ->
  (forall t i, draws_ok (ds t i)) -> (forall e, rng_ok (rs e) /\ unif_pos (rs e)) ->
  wf_data (d_X D) (d_dim D) (d_y D) -> is_minority (d_y D) mn mj -> asked (sm_proportion (rb_smote p)) (d_y D) mn mj = Ok n ->
  let out := rb_sample volume nn neuron create clone mutate delete_connection add_connection improve loss sd p ds rs D in
  let small := count_label (d_y D) mn <= 2 \/ n = 0%Z \/ Nat.min (length (d_X D)) (rb_m_max p) <= rb_m_min p in
  (small -> unchanged D out) /\
  (~ small -> 0 < rb_n_iter p -> rb_n_iter p < rb_n_epoch p \/ rb_n_epoch p = 0 -> out = Err ZeroDivisionError \/ (rb_m_min p = 1 /\ out = Err ValueError)) /\
  (~ small -> rb_n_iter p = 0 \/ 1 <= rb_n_epoch p <= rb_n_iter p -> rb_extends dist volume nn sd p rs D mn n out \/ (rb_m_min p = 1 /\ out = Err ValueError)).
Proof.
  intros Hnn Himp Hss Hk Hlo Hpop Hinit Hds Hrs Hwf Hmin Ha out small. unfold out, rb_sample.
  destruct (sample_default (rb_algorithm volume nn neuron create clone mutate delete_connection add_connection improve loss sd p ds rs) D mn mj Hmin) as (st & Hst & ->).
  unfold rb_algorithm. rewrite (det_st_asked _ _ _ _ _ (proj1 Hmin) Hst), Ha. cbn [bind]. pose proof (asked_some _ _ _ _ _ Ha) as Hn.
  assert (Hsmall : ~ small -> (count_label (d_y D) mn <=? 2) = false /\ (Z.to_nat n =? 0) = false /\ (Nat.min (length (d_X D)) (rb_m_max p) <=? rb_m_min p) || (length (d_X D) <? rb_m_min p + 1) = false /\ 2 < count_label (d_y D) mn /\ n <> 0%Z /\ rb_m_min p < Nat.min (length (d_X D)) (rb_m_max p)).
  { intros N. unfold small in N. assert (2 < count_label (d_y D) mn /\ n <> 0%Z /\ rb_m_min p < Nat.min (length (d_X D)) (rb_m_max p)) as (A & B & C) by (repeat split; try (intros ->; tauto); lia).
    split; [apply Nat.leb_gt; lia|]. split; [apply Nat.eqb_neq; lia|]. split; [|now repeat split]. apply orb_false_intro; [apply Nat.leb_gt|apply Nat.ltb_ge]; lia. }
  split; [|split].
  - intros [H|[H|H]].
    + apply Nat.leb_le in H. rewrite H. reflexivity.
    + subst n. destruct (_ <=? 2); reflexivity.
    + apply Nat.leb_le in H. rewrite H. destruct (_ <=? 2), (Z.to_nat n =? 0); reflexivity.
  - intros N H1 H2. destruct (Hsmall N) as (-> & -> & -> & C1 & C2 & C3).
    set (mm := std_fit sd (d_dim D) (d_X D)). set (D' := mk_data (map (mm_transform mm) (d_X D)) (d_dim D) (d_y D)).
    destruct (rb_optimize_ok volume nn neuron create clone mutate delete_connection add_connection improve loss Himp p Hlo Hpop _ C3 D' ds rs Hds) as [G _]; [|exact Hinit|].
    { intros e. destruct (Hrs e) as [R1 R2]. destruct (smote_result dist volume nn (rb_smote p) (rs e) D' mn mj n Hnn R1 R2 Hss) as (S & E & _); [|exact Hmin|exact Ha|exact Hk|exact C1|eexists; exact E].
      split; [apply (transform_rect _ mm); [apply std_fit_length|apply Hwf]|]. cbn [d_X d_y D']. rewrite map_length. apply Hwf. }
    destruct G as [-> | [G ->]]; cbn [bind]; [exact H1| |now left|right; now split].
    destruct H2 as [H2| ->]; [now apply Nat.div_small|reflexivity].
  - intros N H1. destruct (Hsmall N) as (-> & -> & -> & C1 & C2 & C3). 
    set (mm := std_fit sd (d_dim D) (d_X D)). set (D' := mk_data (map (mm_transform mm) (d_X D)) (d_dim D) (d_y D)).
    assert (Lmm : length mm = d_dim D) by apply std_fit_length.
    assert (W' : wf_data (d_X D') (d_dim D') (d_y D')) by (split; [apply (transform_rect _ mm); [exact Lmm|apply Hwf]|cbn [d_X d_y D']; rewrite map_length; apply Hwf]).
    assert (G0 : forall e, exists S, smote_sample volume nn (rb_smote p) (rs e) D' = Ok (d_X D' ++ S, d_y D' ++ repeat mn (length S)) /\ smote_spec dist (rb_smote p) D' mn n S).
    { intros e. destruct (Hrs e) as [R1 R2]. destruct (smote_result dist volume nn (rb_smote p) (rs e) D' mn mj n Hnn R1 R2 Hss W' Hmin Ha Hk C1) as (S & E & _ & HS). exists S. split; [exact E|]. apply HS. lia. }
    destruct (rb_optimize_ok volume nn neuron create clone mutate delete_connection add_connection improve loss Himp p Hlo Hpop _ C3 D' ds rs Hds) as [_ G]; [|exact Hinit|].
    { intros e. destruct (G0 e) as (S & E & _). eexists. exact E. }
    destruct (G H1) as [([X y] & -> & e & He & Ee)|[M ->]]; cbn [bind]; [|right; now split]. left.
    destruct (G0 e) as (S0 & E0 & HS0). rewrite Ee in E0. injection E0 as -> ->. cbn [fst snd].
    destruct (std_standard sd (d_dim D) (d_X D)) as (w & Hw & Hst'). fold mm in Hst'.
    exists w, (mm_transform mm), (map (mm_inverse mm) (d_X D')), (map (mm_inverse mm) S0), S0, e.
    split; [exact Hw|]. split; [exact Hst'|]. cbn zeta. fold D'. split; [|split; [|split; [exact He|split; [exact Ee|split; [exact HS0|]]]]].
    + rewrite map_app, map_length. reflexivity.
    + unfold D'. cbn [d_X]. eapply mm_back_rows; [exact Lmm|apply std_fit_range|apply Hwf].
    + intros HG. assert (R : rect (d_dim D) S0).
      { destruct (Hrs e) as [R1 R2]. pose proof (smote_rsb_plain dist volume nn (rb_smote p) (rs e) D' mn mj _ _ Hnn R1 W' Hmin Ee HG) as R. apply Forall_app in R. apply R. }
      unfold same_rows. rewrite map_map. clear - R Lmm. unfold rect in R. induction R as [|x S0 Hx _ IH]; [constructor|]. cbn [map]. constructor; [|exact IH].
      apply (mm_forth (d_dim D)); [exact Lmm|apply std_fit_range|exact Hx].
Qed.

End DsrbfMain.
