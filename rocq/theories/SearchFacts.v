(** Facts about the search of E_SMOTE. *)

From Coq Require Import List ZArith QArith Qabs Qminmax Qround Qpower Bool Arith Lia Lqa Sorting.Sorted Permutation.
From Verif Require Import Np PyVal NpFacts BaseFacts SimplexModel Spec SpecDanger SpecNoise SpecComp SimplexFacts SimplexGeom Float64
  SamplerModel SamplerFacts OversFacts BaseModel KnnFacts DangerModel DangerFacts BorderFacts ClusterModel ClusterOversModel OversGen
  ClusterOversFacts ClusterFacts NoiseModel NoiseFacts NoiseFacts2 CompModel CompFacts CompFacts2 CompFacts3 CompFacts4 EditModel SpecEdit EditFacts EditFacts3 EditFacts4 EditFacts5
  SpecNear NearFacts NearFacts2 LevelModel SpecLevel LevelFacts LevelFacts3 LevelFacts4 SpecGroup GroupFacts GroupFacts2 GroupFacts4 WrapModel SpecWrap WrapFacts WrapFacts2 WrapFacts3 DirModel SpecDir DirFacts DirFacts3 RegionModel SpecRegion RegionFacts RegionFacts2 RegionFacts4 SearchModel SpecSearch.
Import ListNotations.
Open Scope nat_scope.

(** ** Masks *)

Lemma set_at_length {A} i (v : A) l : length (set_at i v l) = length l.
Proof. revert i. induction l as [|a l IH]; intros [|i]; cbn; auto. Qed.

Lemma set_at_nth {A} i (v : A) l j d : i < length l -> nth j (set_at i v l) d = if j =? i then v else nth j l d.
Proof.
  revert i j. induction l as [|a l IH]; intros i j H; [cbn in H; lia|].
  destruct i as [|i], j as [|j]; try reflexivity. cbn. apply IH. cbn in H. lia.
Qed.

Lemma set_at_out {A} i (v : A) l : length l <= i -> set_at i v l = l.
Proof. revert i. induction l as [|a l IH]; intros [|i] H; cbn in *; try lia; try reflexivity. now rewrite IH by lia. Qed.

Lemma n_true_cons b m : n_true (b :: m) = (if b then 1 else 0) + n_true m.
Proof. unfold n_true. cbn. destruct b; cbn; reflexivity. Qed.

Lemma n_true_set i m : n_true m <= n_true (set_at i true m) <= n_true m + 1.
Proof.
  revert i. induction m as [|b m IH]; intros [|i]; cbn [set_at]; try lia.
  - rewrite !n_true_cons. destruct b; lia.
  - rewrite !n_true_cons. specialize (IH i). destruct b; lia.
Qed.

Lemma n_true_all m : (forall j, j < length m -> nth j m false = true) -> n_true m = length m.
Proof.
  induction m as [|b m IH]; intros H; [reflexivity|]. rewrite n_true_cons.
  pose proof (H 0 ltac:(cbn; lia)) as H0. cbn in H0. subst b. rewrite IH; [reflexivity|].
  intros j Hj. apply (H (S j)). cbn. lia.
Qed.

Lemma kept_where mask : where_ mask = kept_columns mask.
Proof. apply where_filter. Qed.

Lemma select_true_length {A} mask (l : list A) : length mask <= length l -> length (select mask l) = n_true mask.
Proof.
  revert l. induction mask as [|b m IH]; intros [|a l] H; cbn in H; try lia; [reflexivity|reflexivity|].
  rewrite n_true_cons. destruct b; cbn; rewrite IH by lia; reflexivity.
Qed.

Lemma n_true_kept mask : n_true mask = length (kept_columns mask).
Proof. rewrite <- kept_where. unfold where_. symmetry. apply select_true_length. now rewrite seq_length. Qed.

Lemma restrict_narrowed mask D : restrict mask D = narrowed mask D.
Proof. unfold restrict, narrowed, pick_columns. now rewrite kept_where, n_true_kept. Qed.

(** ** Filling up *)

Lemma fill_completed fuel draw k want m m' : fill fuel draw k want m = Ok m' -> completed want m m'.
Proof.
  unfold completed. rewrite <- !n_true_kept. revert k m. induction fuel as [|fuel IH]; intros k m H; cbn [fill] in H.
  - destruct (Nat.leb_spec want (n_true m)); [|discriminate]. injection H as <-. repeat split; auto. lia.
  - destruct (Nat.leb_spec want (n_true m)) as [G|G]; [injection H as <-; repeat split; auto; lia|].
    destruct (IH _ _ H) as (H1 & H2 & H3 & H4). rewrite set_at_length in H1. split; [assumption|]. split; [|split; [lia|]].
    + intros j Hj. apply H2. destruct (Nat.lt_ge_cases (draw k) (length m)) as [L|L].
      * rewrite set_at_nth by assumption. destruct (j =? draw k); auto.
      * now rewrite set_at_out.
    + intros _. pose proof (n_true_set (draw k) m). destruct (Nat.le_gt_cases want (n_true (set_at (draw k) true m))) as [L|L]; [|auto].
      rewrite (H3 L). lia.
Qed.

Lemma fill_total draw want (m : list bool) : want <= length m -> forall fuel k m', length m' = length m ->
  (forall c, c < length m -> nth c m' false = true \/ exists i, i < fuel /\ draw (k + i) = c) ->
  exists r, fill fuel draw k want m' = Ok r.
Proof.
  intros Hw. induction fuel as [|fuel IH]; intros k m' L H; cbn [fill].
  - rewrite n_true_all; [|intros j Hj; destruct (H j ltac:(lia)) as [|(i & Hi & _)]; [assumption|lia]].
    rewrite L. destruct (Nat.leb_spec want (length m)); [eauto|lia].
  - destruct (want <=? n_true m'); [eauto|]. apply IH; [now rewrite set_at_length|].
    intros c Hc. destruct (Nat.eq_dec (draw k) c) as [E|E].
    + left. rewrite set_at_nth by lia. now rewrite E, Nat.eqb_refl.
    + destruct (H c Hc) as [G|(i & Hi & G)].
      * left. destruct (Nat.lt_ge_cases (draw k) (length m')) as [L'|L']; [|now rewrite set_at_out].
        rewrite set_at_nth by assumption. destruct (Nat.eqb_spec c (draw k)); [congruence|assumption].
      * destruct i as [|i]; [rewrite Nat.add_0_r in G; congruence|]. right. exists i. split; [lia|].
        rewrite <- G. f_equal. lia.
Qed.

(** ** A chain of steps *)

Lemma foldM_trace {A} (f : A -> nat -> res A) (P : A -> Prop) n : forall s a,
  (forall a g, P a -> s <= g < s + n -> exists a', f a g = Ok a' /\ P a') -> P a ->
  exists kept, kept 0 = a /\ foldM f (seq s n) a = Ok (kept n) /\
    (forall g, g <= n -> P (kept g)) /\ forall g, g < n -> f (kept g) (s + g) = Ok (kept (S g)).
Proof.
  induction n as [|n IH]; intros s a H Pa.
  - exists (fun _ => a). repeat split; auto. intros g Hg. lia.
  - destruct (H a s Pa ltac:(lia)) as (a' & Ea & Pa'). destruct (IH (S s) a') as (kept & K0 & K1 & K2 & K3); auto.
    { intros b g Pb Hg. apply H; [assumption|lia]. }
    exists (fun g => match g with 0 => a | S g' => kept g' end). cbn [seq foldM]. rewrite Ea. cbn [bind].
    split; [reflexivity|]. split; [exact K1|]. split.
    + intros [|g] Hg; [assumption|]. apply K2. lia.
    + intros [|g] Hg; [rewrite Nat.add_0_r, Ea; now rewrite K0|]. replace (s + S g) with (S s + g) by lia. apply K3. lia.
Qed.

(** ** The five best *)

Lemma best_first_sorted {A} (score : A -> Q) l : StronglySorted (fun a b => score b <= score a)%Q (best_first score l).
Proof.
  eapply StronglySorted_impl_in; [|apply (KnnFacts.sort_by_sorted (fun a b => Qle_bool (score b) (score a)))].
  - intros a b _ _ H. now apply Qle_bool_iff.
  - intros a b. destruct (Qlt_le_dec (score a) (score b)) as [G|G]; [right|left]; apply Qle_bool_iff; [now apply Qlt_le_weak|assumption].
  - intros a b c H1 H2. rewrite Qle_bool_iff in *. now apply Qle_trans with (score b).
Qed.

Lemma best_first_perm {A} (score : A -> Q) l : Permutation l (best_first score l).
Proof. apply KnnFacts.sort_by_perm. Qed.

Lemma five_best_first l : 5 <= length l -> five_best l (firstn 5 (best_first fst l)).
Proof.
  intros H. pose proof (best_first_sorted fst l) as G. rewrite <- (firstn_skipn 5 (best_first fst l)) in G.
  apply StronglySorted_app_inv in G as (G1 & G2 & G3). split; [|split; [assumption|]].
  - rewrite firstn_length, <- (Permutation_length (best_first_perm fst l)). lia.
  - exists (skipn 5 (best_first fst l)). split; [rewrite firstn_skipn; apply best_first_perm|assumption].
Qed.

Section Search.
Variable accuracy : nat -> dataset -> Q.
Variables (fuel first want : nat) (d : draws) (D : dataset).
Hypothesis Hd : SpecDir.draws_ok d.
Hypothesis Hcov : covers d fuel (d_dim D).
Hypothesis Hwant : want <= d_dim D.

Definition pop_ok (pop : list (Q * list bool)) : Prop := length pop = 5 /\ Forall (fun a => length (snd a) = d_dim D) pop.

Lemma pop_member pop i : pop_ok pop -> i < 5 -> length (snd (nth i pop (0%Q, []))) = d_dim D.
Proof. intros [L F] Hi. rewrite Forall_forall in F. apply F, nth_In. lia. Qed.

Lemma candidate_child pop t : pop_ok pop -> exists m', e_candidate fuel d want (d_dim D) pop t = Ok m' /\
  length m' = d_dim D /\ child_of d want (d_dim D) t pop m'.
Proof.
  intros Hp. pose proof (ok_int d Hd t 1 5 ltac:(lia)) as D1. pose proof (ok_int d Hd t 2 5 ltac:(lia)) as D2.
  pose proof (proj1 Hp) as L5. unfold e_candidate, child_of.
  assert (FT : forall m, length m = d_dim D -> exists m', fill fuel (fun k => dr_int d t (3 + d_dim D + k) (d_dim D)) 0 want m = Ok m').
  { intros m Lm. apply (fill_total _ want m); [lia|reflexivity|]. intros c Hc. right. destruct (Hcov t c ltac:(lia)) as (i & Hi & E).
    exists i. split; assumption. }
  pose proof (pop_member pop _ Hp D1) as L1. pose proof (pop_member pop _ Hp D2) as L2.
  destruct (dr_int d t 0 2 =? 0) eqn:E0.
  - rewrite !(get_nth (0%Q, [])) by lia. cbn [bind].
    set (a := snd (nth (dr_int d t 1 5) pop (0%Q, []))) in *. set (b := snd (nth (dr_int d t 2 5) pop (0%Q, []))) in *.
    set (m := e_crossover (fun i => dr_int d t (3 + i) 2) a b).
    assert (Lm : length m = d_dim D) by (unfold m, e_crossover; rewrite map_length, seq_length; exact L1).
    destruct (FT m Lm) as (m' & Em). exists m'. split; [exact Em|]. pose proof (fill_completed _ _ _ _ _ _ Em) as Hc.
    split; [destruct Hc as [Hc _]; lia|]. exists m. split; [assumption|]. split; [assumption|]. intros j Hj.
    unfold m, e_crossover. rewrite (nth_map' _ 0) by (rewrite seq_length; lia). rewrite seq_nth by lia. cbn [Nat.add].
    destruct (dr_int d t (3 + j) 2 =? 0); reflexivity.
  - rewrite !(get_nth (0%Q, [])) by lia. cbn [bind].
    set (a := snd (nth (dr_int d t 1 5) pop (0%Q, []))) in *.
    set (m := e_mutate (fun i => dr_int d t (3 + i) 2) a).
    assert (Lm : length m = d_dim D) by (unfold m, e_mutate; rewrite map_length, seq_length; exact L1).
    destruct (FT m Lm) as (m' & Em). exists m'. split; [exact Em|]. pose proof (fill_completed _ _ _ _ _ _ Em) as Hc.
    split; [destruct Hc as [Hc _]; lia|]. exists m. split; [assumption|]. split; [assumption|]. intros j Hj.
    unfold m, e_mutate. rewrite (nth_map' _ 0) by (rewrite seq_length; lia). rewrite seq_nth by lia. cbn [Nat.add].
    destruct (dr_int d t (3 + j) 2 =? 0); destruct (nth j a false); reflexivity.
Qed.

Definition tried_at (pop : list (Q * list bool)) (t : nat) : list bool :=
  match e_candidate fuel d want (d_dim D) pop t with Ok m => m | Err _ => [] end.

Lemma generation_ok pop g : pop_ok pop ->
  let new := map (fun i => let t := g * 5 + i in (accuracy t (narrowed (tried_at pop t) D), tried_at pop t)) (seq 0 5) in
  e_generation accuracy fuel d want D pop g = Ok (firstn 5 (best_first fst (pop ++ new))) /\
  pop_ok (firstn 5 (best_first fst (pop ++ new))).
Proof.
  intros Hp new. split.
  - unfold e_generation.
    erewrite mapM_ext_in with (g := fun i => Ok (let t := g * 5 + i in (accuracy t (narrowed (tried_at pop t) D), tried_at pop t))).
    + rewrite mapM_pure. reflexivity.
    + intros i _. cbv zeta. unfold tried_at. destruct (candidate_child pop (g * 5 + i) Hp) as (m' & -> & _). cbn [bind].
      now rewrite restrict_narrowed.
  - assert (L : 5 <= length (pop ++ new)) by (rewrite app_length; destruct Hp as [-> _]; lia).
    destruct (five_best_first _ L) as (L5 & _). split; [exact L5|].
    rewrite Forall_forall. intros a Ha. assert (Ha' : In a (best_first fst (pop ++ new))).
    { rewrite <- (firstn_skipn 5 (best_first fst (pop ++ new))). apply in_or_app. now left. }
    apply (Permutation_in _ (Permutation_sym (best_first_perm fst _))) in Ha'. apply in_app_or in Ha' as [Ha'|Ha'].
    + destruct Hp as [_ F]. rewrite Forall_forall in F. auto.
    + unfold new in Ha'. apply in_map_iff in Ha' as (i & <- & _). cbn [snd]. unfold tried_at.
      destruct (candidate_child pop (g * 5 + i) Hp) as (m' & -> & Lm & _). exact Lm.
Qed.

Lemma search_ok : first < d_dim D -> exists tried kept, searched accuracy first want d D tried kept /\
  e_search accuracy fuel first d want D = Ok (snd (nth 0 (kept 50) (0%Q, []))) /\
  length (snd (nth 0 (kept 50) (0%Q, []))) = d_dim D.
Proof.
  intros Hf. set (start := set_at first true (repeat false (d_dim D))).
  assert (Ls : length start = d_dim D) by (unfold start; now rewrite set_at_length, repeat_length).
  assert (P0 : pop_ok (repeat (0%Q, start) 5)).
  { split; [reflexivity|]. rewrite Forall_forall. intros a Ha. apply repeat_spec in Ha. now subst a. }
  destruct (foldM_trace (e_generation accuracy fuel d want D) pop_ok 50 0 (repeat (0%Q, start) 5)) as (kept & K0 & K1 & K2 & K3).
  { intros a g Pa _. destruct (generation_ok a g Pa) as [E P]. eauto. }
  { exact P0. }
  exists (fun t => tried_at (kept (t / 5)) t), kept.
  assert (Q5 : forall g i, i < 5 -> (g * 5 + i) / 5 = g).
  { intros g i Hi. rewrite Nat.div_add_l by lia. rewrite Nat.div_small by lia. lia. }
  split; [split; [|split]|split].
  - exists start. split; [|exact K0]. split; [exact Ls|]. intros j Hj. unfold start.
    rewrite set_at_nth by (rewrite repeat_length; lia). destruct (j =? first); [reflexivity|].
    now rewrite nth_repeat.
  - intros g i Hg Hi. rewrite Q5 by assumption. destruct (candidate_child (kept g) (g * 5 + i) (K2 g ltac:(lia))) as (m' & Em & _ & Hc).
    unfold tried_at. rewrite Em. exact Hc.
  - intros g Hg. pose proof (K3 g Hg) as E. change (0 + g) with g in E.
    destruct (generation_ok (kept g) g (K2 g ltac:(lia))) as [E' _]. rewrite E' in E. injection E as <-.
    erewrite (map_ext_in _ (fun i => let t := g * 5 + i in (accuracy t (narrowed (tried_at (kept g) t) D), tried_at (kept g) t))).
    + apply five_best_first. rewrite app_length. destruct (K2 g ltac:(lia)) as [-> _]. lia.
    + intros i Hi. apply in_seq in Hi. cbv zeta. now rewrite Q5 by lia.
  - unfold e_search. cbv zeta. fold start. rewrite K1. cbn [bind]. destruct (K2 50 (le_n _)) as [L _].
    rewrite (get_nth (0%Q, [])) by lia. reflexivity.
  - apply pop_member; [apply K2; lia|lia].
Qed.

End Search.

Lemma narrowed_wf mask D : wf_data (d_X D) (d_dim D) (d_y D) -> wf_data (d_X (narrowed mask D)) (d_dim (narrowed mask D)) (d_y (narrowed mask D)).
Proof.
  intros [_ H2]. split; cbn.
  - unfold rect. rewrite Forall_map, Forall_forall. intros x _. apply map_length.
  - now rewrite map_length.
Qed.

Lemma smote_rows_run dist vol nn p r D mn mj n : knn_ok dist nn -> rng_ok r -> unif_pos r ->
  wf_data (d_X D) (d_dim D) (d_y D) -> is_minority (d_y D) mn mj -> asked (sm_proportion p) (d_y D) mn mj = Ok n ->
  1 <= sm_n_neighbors p -> plain_ss (sm_ss p) -> ss_gauss (sm_ss p) = GNone -> 2 < count_label (d_y D) mn -> (0 < n)%Z ->
  appends D mn (smote_rows dist (sm_ss p) (d_dim D) (rows_with mn (d_X D) (d_y D))
    (Nat.min (count_label (d_y D) mn) (sm_n_neighbors p + 1)) (Z.to_nat n)) (smote_sample vol nn p r D).
Proof.
  intros Hnn Hr Hu Hwf Hmin Ha Hk (P1 & P2 & P3) Hg Hc Hn.
  destruct (smote_total dist vol nn p r D mn mj n Hnn Hr Hu Hwf Hmin Ha Hk P1 P2 P3) as [[X' y'] E].
  destruct (smote_cases dist vol nn p r D mn mj X' y' Hnn Hr Hwf Hmin E) as [(-> & -> & [G|G])|(k & T & S & H1 & H2 & H3 & H4 & -> & -> & HT & HS)].
  - lia.
  - unfold asked in Ha. rewrite Ha in G. injection G as G. lia.
  - exists S. unfold asked in Ha. rewrite Ha in H2. injection H2 as ->. rewrite Nat2Z.id in *. rewrite H4 in *. split; [assumption|].
    split; [assumption|]. exists T. split; [assumption|]. exact (HS Hg).
Qed.

Theorem e_smote_ok dist vol nn accuracy fuel first p d r D mn mj n :
  knn_ok dist nn -> rng_ok r -> unif_pos r -> SpecDir.draws_ok d -> covers d fuel (d_dim D) ->
  wf_data (d_X D) (d_dim D) (d_y D) -> is_minority (d_y D) mn mj -> asked (es_proportion p) (d_y D) mn mj = Ok n ->
  first < d_dim D -> 1 <= es_n_neighbors p -> plain_ss (es_ss p) -> ss_gauss (es_ss p) = GNone ->
  let out := e_smote_sample vol nn accuracy fuel first p d r D in
  (count_label (d_y D) mn <= 2 \/ n = 0%Z -> unchanged D out) /\
  (2 < count_label (d_y D) mn -> (0 < n)%Z -> e_smote_spec dist accuracy first p d D mn n out).
Proof.
  intros Hnn Hr Hu Hd Hcov Hwf Hmin Ha Hf Hk Hp Hg out. unfold out, e_smote_sample, e_smote_algorithm.
  destruct (sample_default (e_smote_algorithm vol nn accuracy fuel first p d r) D mn mj Hmin) as (st & Hst & E).
  unfold e_smote_algorithm in E. rewrite E. clear E.
  rewrite (det_st_asked _ _ _ _ _ (proj1 Hmin) Hst), Ha. cbn [bind]. pose proof (asked_some _ _ _ _ _ Ha) as Hn0. split.
  - intros [G|G]; unfold unchanged.
    + destruct (Nat.leb_spec (count_label (d_y D) mn) 2); [reflexivity|lia].
    + subst n. destruct (_ <=? 2); reflexivity.
  - intros G Hn. destruct (Nat.leb_spec (count_label (d_y D) mn) 2); [lia|]. destruct (Nat.eqb_spec (Z.to_nat n) 0); [lia|].
    destruct (Nat.eqb_spec (d_dim D) 0); [lia|].
    destruct (search_ok accuracy fuel first (Nat.min (es_min_features p) (d_dim D)) d D Hd Hcov ltac:(lia) Hf) as (tried & kept & HS & -> & HL).
    cbn [bind]. exists tried, kept. split; [assumption|]. set (mask := snd (nth 0 (kept 50) (0%Q, []))) in *.
    rewrite restrict_narrowed. cbv zeta.
    apply (smote_rows_run dist vol nn (mk_smote (es_proportion p) (es_n_neighbors p) (es_ss p)) r (narrowed mask D) mn mj n); auto.
    now apply narrowed_wf.
Qed.

(** With positive accuracies the start mask is not chosen. *)
Lemma searched_scores accuracy first want d D tried kept : searched accuracy first want d D tried kept ->
  (forall t D', (0 < accuracy t D')%Q) ->
  forall g, g < 50 -> Forall (fun a => exists t, t < (S g) * 5 /\ a = (accuracy t (narrowed (tried t) D), tried t)) (kept (S g)).
Proof.
  intros ((start & Hs & K0) & Hch & Hb) Hpos.
  assert (Z0 : forall g, g <= 50 -> Forall (fun a => (exists t, t < g * 5 /\ a = (accuracy t (narrowed (tried t) D), tried t)) \/ fst a = 0%Q) (kept g)).
  { induction g as [|g IH]; intros Hg.
    - rewrite K0, Forall_forall. intros a Ha. apply repeat_spec in Ha. subst a. now right.
    - destruct (Hb g ltac:(lia)) as (_ & _ & rest & Hperm & _). specialize (IH ltac:(lia)).
      rewrite Forall_forall in IH |- *. intros a Ha.
      assert (Hin : In a (kept g ++ map (fun i => let t := g * 5 + i in (accuracy t (narrowed (tried t) D), tried t)) (seq 0 5))).
      { apply (Permutation_in _ (Permutation_sym Hperm)). apply in_or_app. now left. }
      apply in_app_or in Hin as [Hin|Hin].
      + destruct (IH a Hin) as [(t & Ht & E)|E]; [left; exists t; split; [lia|assumption]|now right].
      + apply in_map_iff in Hin as (i & <- & Hi). apply in_seq in Hi. left. exists (g * 5 + i). split; [lia|reflexivity]. }
  intros g Hg. destruct (Hb g Hg) as (L5 & _ & rest & Hperm & Hrest).
  assert (All : forall a, In a (kept (S g)) -> (0 < fst a)%Q).
  { intros a Ha. destruct (Qlt_le_dec 0 (fst a)) as [|Gle]; [assumption|]. exfalso.
    set (new := map (fun i => let t := g * 5 + i in (accuracy t (narrowed (tried t) D), tried t)) (seq 0 5)) in *.
    (* the five new ones are positive, so they would all be kept *)
    assert (Hnew : forall b, In b new -> (0 < fst b)%Q).
    { intros b Hb'. unfold new in Hb'. apply in_map_iff in Hb' as (i & <- & _). apply Hpos. }
    assert (Hnr : forall b, In b rest -> (fst b <= 0)%Q) by (intros b Hb'; apply Qle_trans with (fst a); auto).
    set (f := fun b : Q * list bool => Qlt_b 0 (fst b)).
    assert (Cf : length (filter f (kept g ++ new)) = length (filter f (kept (S g) ++ rest))).
    { clear - Hperm. induction Hperm; cbn; auto; try (destruct (f x); cbn; auto); try (destruct (f y); cbn; auto); congruence. }
    rewrite !filter_app, !app_length in Cf.
    assert (F1 : length (filter f new) = 5).
    { assert (Ef : filter f new = new).
      { clear - Hnew. induction new as [|b l IH]; [reflexivity|]. cbn. unfold f at 1.
        rewrite (proj2 (Qlt_b_iff 0 (fst b))) by (apply Hnew; now left). rewrite IH; [reflexivity|]. intros c Hc. apply Hnew. now right. }
      rewrite Ef. unfold new. now rewrite map_length, seq_length. }
    assert (F2 : filter f rest = []).
    { clear - Hnr. induction rest as [|b l IH]; [reflexivity|]. cbn. unfold f at 1.
      destruct (Qlt_b 0 (fst b)) eqn:E.
      - apply Qlt_b_iff in E. exfalso. apply (Qlt_not_le _ _ E). apply Hnr. now left.
      - apply IH. intros c Hc. apply Hnr. now right. }
    rewrite F1, F2 in Cf. cbn in Cf.
    assert (F3 : length (filter f (kept (S g))) < 5).
    { rewrite <- L5. apply in_split in Ha as (l1 & l2 & E). rewrite E, filter_app, !app_length. cbn.
      assert (Ef : f a = false).
      { unfold f. destruct (Qlt_b 0 (fst a)) eqn:E'; [|reflexivity]. apply Qlt_b_iff in E'. exfalso. exact (Qlt_not_le _ _ E' Gle). }
      rewrite Ef. pose proof (filter_len f l1). pose proof (filter_len f l2). lia. }
    lia. }
  specialize (Z0 (S g) ltac:(lia)). rewrite Forall_forall in Z0 |- *. intros a Ha. destruct (Z0 a Ha) as [G|G]; [assumption|].
  exfalso. specialize (All a Ha). rewrite G in All. now apply Qlt_irrefl in All.
Qed.

Lemma searched_best accuracy first want d D tried kept : searched accuracy first want d D tried kept ->
  forall g t, g <= 50 -> t < g * 5 -> (accuracy t (narrowed (tried t) D) <= fst (nth 0 (kept g) (0%Q, [])))%Q.
Proof.
  intros (_ & _ & Hb). induction g as [|g IH]; intros t Hg Ht; [lia|].
  destruct (Hb g ltac:(lia)) as (L5 & Hs & rest & Hperm & Hrest).
  set (new := map (fun i => let t := g * 5 + i in (accuracy t (narrowed (tried t) D), tried t)) (seq 0 5)) in *.
  assert (Top : forall a, In a (kept g ++ new) -> (fst a <= fst (nth 0 (kept (S g)) (0%Q, [])))%Q).
  { intros a Ha. apply (Permutation_in _ Hperm) in Ha.
    destruct (kept (S g)) as [|b l]; [discriminate|]. cbn [nth]. apply in_app_or in Ha as [[<-|Ha]|Ha].
    - apply Qle_refl.
    - inversion Hs as [|? ? _ F]; subst. rewrite Forall_forall in F. auto.
    - apply Hrest; [now left|assumption]. }
  destruct (Nat.lt_ge_cases t (g * 5)) as [Hlt|Hge].
  - apply Qle_trans with (fst (nth 0 (kept g) (0%Q, []))); [apply IH; lia|]. apply Top. apply in_or_app. left. apply nth_In.
    destruct g as [|g]; [lia|]. destruct (Hb g ltac:(lia)) as (L & _). lia.
  - apply (Top (accuracy t (narrowed (tried t) D), tried t)). apply in_or_app. right. unfold new.
    apply in_map_iff. exists (t - g * 5). split; [cbv zeta; now replace (g * 5 + (t - g * 5)) with t by lia|]. apply in_seq. lia.
Qed.

Theorem search_chooses accuracy first want d D tried kept : searched accuracy first want d D tried kept ->
  (forall t D', (0 < accuracy t D')%Q) ->
  let mask := snd (nth 0 (kept 50) (0%Q, [])) in
  want <= length (kept_columns mask) /\
  exists t, t < 250 /\ mask = tried t /\
    forall s, s < 250 -> (accuracy s (narrowed (tried s) D) <= accuracy t (narrowed mask D))%Q.
Proof.
  intros H Hpos mask. pose proof (searched_scores _ _ _ _ _ _ _ H Hpos 49 ltac:(lia)) as F. rewrite Forall_forall in F.
  assert (L : length (kept 50) = 5) by (destruct H as (_ & _ & Hb); destruct (Hb 49 ltac:(lia)) as (L & _); exact L).
  destruct (F (nth 0 (kept 50) (0%Q, []))) as (t & Ht & E); [apply nth_In; lia|].
  assert (Em : mask = tried t) by (unfold mask; now rewrite E). split.
  - rewrite Em. destruct H as (_ & Hch & _). pose proof (Nat.div_mod t 5 ltac:(lia)) as DM.
    assert (Hq : t / 5 < 50) by (apply Nat.div_lt_upper_bound; lia).
    pose proof (Nat.mod_upper_bound t 5 ltac:(lia)) as Hm.
    destruct (Hch (t / 5) (t mod 5) Hq Hm) as (m & _ & (_ & _ & C1 & C2) & _).
    replace (t / 5 * 5 + t mod 5) with t in * by lia.
    destruct (Nat.le_gt_cases want (length (kept_columns m))) as [G|G]; [rewrite (C1 G); exact G|rewrite (C2 G); lia].
  - exists t. split; [exact Ht|]. split; [exact Em|]. intros s Hs. rewrite Em.
    pose proof (searched_best _ _ _ _ _ _ _ H 50 s (le_n _) Hs) as G. rewrite E in G. exact G.
Qed.
