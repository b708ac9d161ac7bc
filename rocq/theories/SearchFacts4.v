(** Facts about TRIM_SMOTE. *)

From Coq Require Import List ZArith QArith Qabs Qminmax Qround Qpower Bool Arith Lia Lqa Sorting.Sorted Permutation.
From Verif Require Import Np PyVal NpFacts BaseFacts SimplexModel Spec SpecDanger SpecNoise SpecComp SimplexFacts SimplexGeom Float64
  SamplerModel SamplerFacts OversFacts BaseModel KnnFacts DangerModel DangerFacts BorderFacts ClusterModel ClusterOversModel OversGen
  ClusterOversFacts ClusterFacts NoiseModel NoiseFacts NoiseFacts2 CompModel CompFacts CompFacts2 CompFacts3 CompFacts4 EditModel SpecEdit EditFacts EditFacts3 EditFacts4 EditFacts5
  SpecNear NearFacts NearFacts2 LevelModel SpecLevel LevelFacts LevelFacts3 LevelFacts4 SpecGroup GroupFacts GroupFacts2 GroupFacts4 WrapModel SpecWrap WrapFacts WrapFacts2 WrapFacts3 DirModel SpecDir DirFacts DirFacts3 RegionModel SpecRegion RegionFacts RegionFacts2 RegionFacts4 SearchModel SpecSearch SearchFacts SearchFacts2 SearchFacts3.
Import ListNotations.
Open Scope nat_scope.

Lemma n_of_perm mn l l' : Permutation l l' -> n_of mn l = n_of mn l'.
Proof. intros H. unfold n_of. now apply filter_perm. Qed.

Lemma density2_perm mn l l' : Permutation l l' -> density2 mn l = density2 mn l'.
Proof. intros H. unfold density2. now rewrite (n_of_perm mn _ _ H), (Permutation_length H). Qed.

Lemma perm_filter {A} (f : A -> bool) l l' : Permutation l l' -> Permutation (filter f l) (filter f l').
Proof.
  induction 1; cbn; auto.
  - destruct (f x); auto.
  - destruct (f x), (f y); auto. apply perm_swap.
  - eapply perm_trans; eauto.
Qed.

Lemma qn_nonneg n : (0 <= qn n)%Q.
Proof. unfold qn. change 0%Q with (inject_Z 0). rewrite <- Zle_Qle. lia. Qed.

Lemma density2_nonneg mn l : (0 <= density2 mn l)%Q.
Proof.
  unfold density2, Qdiv. apply Qmult_le_0_compat; [apply Qmult_le_0_compat; apply qn_nonneg|]. apply Qinv_le_0_compat, qn_nonneg.
Qed.

(** A threshold cuts a sorted list at one place. *)
Lemma sorted_cut {A} (f : A -> bool) (l : list A) : StronglySorted (fun a b => f b = true -> f a = true) l ->
  exists k, k <= length l /\ filter f l = firstn k l /\ filter (fun a => negb (f a)) l = skipn k l /\
    forall d i, i < length l -> (i < k <-> f (nth i l d) = true).
Proof.
  induction 1 as [|a l HS IH HF]; [exists 0; cbn; repeat split; auto; lia|].
  destruct IH as (k & Hk & E1 & E2 & E3). cbn [filter length]. destruct (f a) eqn:Ea.
  - exists (S k). cbn [firstn skipn negb]. rewrite E1, E2. repeat split; auto; try lia.
    + intros. destruct i; [assumption|]. cbn. apply E3; cbn in *; lia.
    + intros. destruct i; [lia|]. cbn in *. apply E3 in H0; lia.
  - assert (N : forall b, In b l -> f b = false).
    { intros b Hb. rewrite Forall_forall in HF. destruct (f b) eqn:Eb; [|reflexivity]. specialize (HF b Hb). cbn in HF. specialize (HF Eb). congruence. }
    exists 0. cbn [firstn skipn negb]. split; [lia|]. split; [|split].
    + clear - N. induction l as [|b l IH]; [reflexivity|]. cbn. rewrite (N b) by now left. apply IH. intros; apply N; now right.
    + f_equal. clear - N. induction l as [|b l IH]; [reflexivity|]. cbn. rewrite (N b) by now left. cbn. f_equal. apply IH. intros; apply N; now right.
    + intros d i Hi. split; [lia|]. destruct i; cbn; [congruence|]. intros G. rewrite (N (nth i l d)) in G; [discriminate|]. apply nth_In. cbn in Hi; lia.
Qed.

Lemma in_box_one j v s r : in_box [(j, v, s)] r = Bool.eqb s (Qle_bool (nth j (fst r) 0%Q) v).
Proof. unfold in_box. cbn. apply andb_true_r. Qed.

Lemma below_eq j v l : below j v l = filter (fun r => Qle_bool (nth j (fst r) 0%Q) v) l.
Proof. apply filter_ext. intros r. rewrite in_box_one. now destruct (Qle_bool _ _). Qed.
Lemma above_eq j v l : above j v l = filter (fun r => negb (Qle_bool (nth j (fst r) 0%Q) v)) l.
Proof. apply filter_ext. intros r. rewrite in_box_one. now destruct (Qle_bool _ _). Qed.

Section Split.
Variables (mn : Z) (dim : nat).

Let value (i : nat) (r : row * Z) : Q := nth i (fst r) 0%Q.
Let srt (i : nat) (l : leaf) : leaf := sort_by (fun a b => Qle_bool (nth i (fst a) 0) (nth i (fst b) 0))%Q l.

Lemma srt_perm i l : Permutation l (srt i l).
Proof. apply sort_by_perm. Qed.

Lemma srt_sorted i l : StronglySorted (fun a b => (value i a <= value i b)%Q) (srt i l).
Proof.
  unfold srt. eapply StronglySorted_impl_in; [|apply sort_by_sorted].
  - intros a b _ _ H. now apply Qle_bool_iff.
  - intros a b. destruct (Qle_bool (nth i (fst a) 0%Q) (nth i (fst b) 0%Q)) eqn:E; [now left|right].
    assert (~ (nth i (fst a) 0 <= nth i (fst b) 0)%Q) by (intros G; apply Qle_bool_iff in G; congruence). apply Qle_bool_iff. lra.
  - intros a b c H1 H2. apply Qle_bool_iff in H1, H2. apply Qle_bool_iff. lra.
Qed.

Lemma srt_cut i v l : exists k, k <= length l /\ Permutation (below i v l) (firstn k (srt i l)) /\ Permutation (above i v l) (skipn k (srt i l)) /\
  forall d j, j < length l -> (j < k <-> (value i (nth j (srt i l) d) <= v)%Q).
Proof.
  destruct (sorted_cut (fun r => Qle_bool (value i r) v) (srt i l)) as (k & K1 & K2 & K3 & K4).
  { eapply StronglySorted_impl_in; [|apply srt_sorted]. cbn. intros a b _ _ H G. apply Qle_bool_iff in G. apply Qle_bool_iff. lra. }
  unfold srt in K1, K4. rewrite sort_by_length in K1. exists k. rewrite <- K2, <- K3, below_eq, above_eq.
  split; [assumption|]. split; [apply perm_filter, srt_perm|]. split; [apply perm_filter, srt_perm|].
  intros d j Hj. rewrite <- Qle_bool_iff. apply K4. now rewrite sort_by_length.
Qed.

(** What the search for the best cut keeps. *)
Let gain (i : nat) (l : leaf) (j : nat) : Q := q_max (density2 mn (firstn (j + 1) (srt i l))) (density2 mn (skipn (j + 1) (srt i l))).
Let differ (i : nat) (l : leaf) (j : nat) : Prop :=
  j + 1 < length l /\ ~ (value i (nth j (srt i l) ([], 0%Z)) == value i (nth (j + 1) (srt i l) ([], 0%Z)))%Q.
Let cut_at (l : leaf) (acc : Q * option (nat * Q)) : Prop :=
  match snd acc with
  | None => fst acc = 0%Q
  | Some s => exists i j, i < dim /\ differ i l j /\ s = (i, value i (nth j (srt i l) ([], 0%Z))) /\ fst acc = gain i l j
  end.

Lemma try_step border i l acc j : i < dim -> j + 1 < length l -> cut_at l acc ->
  let acc' := trim_try mn border i (srt i l) acc j in
  cut_at l acc' /\ (fst acc <= fst acc')%Q /\ (border = false -> differ i l j -> (gain i l j <= fst acc')%Q).
Proof.
  intros Hi Hj Ha acc'. unfold acc', trim_try.
  destruct (Qeq_bool (nth i (fst (nth j (srt i l) ([], 0%Z))) 0%Q) (nth i (fst (nth (j + 1) (srt i l) ([], 0%Z))) 0%Q)) eqn:Ev.
  - rewrite andb_false_r. split; [assumption|]. split; [lra|]. intros _ [_ G]. apply Qeq_bool_iff in Ev. contradiction.
  - assert (Hd : differ i l j) by (split; [assumption|]; intros G; apply Qeq_bool_iff in G; unfold value in G; congruence).
    destruct (negb border || _) eqn:Eb; cbn [andb negb].
    + change (q_max (trim_value mn (firstn (j + 1) (srt i l))) (trim_value mn (skipn (j + 1) (srt i l)))) with (gain i l j).
      destruct (Qlt_b (fst acc) (gain i l j)) eqn:Eg.
      * apply Qlt_b_iff in Eg. split; [|split; [cbn; lra|cbn; intros; lra]]. exists i, j. auto.
      * assert (~ (fst acc < gain i l j)%Q) by (intros G; apply Qlt_b_iff in G; congruence).
        split; [assumption|]. split; [lra|]. intros _ _. lra.
    + split; [assumption|]. split; [lra|]. intros -> _. discriminate.
Qed.

Lemma try_fold border i l js : i < dim -> (forall j, In j js -> j + 1 < length l) -> forall acc, cut_at l acc ->
  let acc' := fold_left (trim_try mn border i (srt i l)) js acc in
  cut_at l acc' /\ (fst acc <= fst acc')%Q /\ (border = false -> forall j, In j js -> differ i l j -> (gain i l j <= fst acc')%Q).
Proof.
  intros Hi. induction js as [|j js IH]; intros Hjs acc Ha; cbn [fold_left].
  - split; [assumption|]. split; [lra|]. intros _ j [].
  - destruct (try_step border i l acc j Hi (Hjs j ltac:(now left)) Ha) as (S1 & S2 & S3).
    destruct (IH ltac:(intros; apply Hjs; now right) _ S1) as (T1 & T2 & T3). cbv zeta in *.
    split; [assumption|]. split; [lra|]. intros Hb j' [<-|Hj'] Hd; [|now apply T3]. specialize (S3 Hb Hd). lra.
Qed.

Lemma search_fold border l is : (forall i, In i is -> i < dim) -> forall acc, cut_at l acc ->
  let acc' := fold_left (fun acc i => fold_left (trim_try mn border i (srt i l)) (seq 0 (length l - 1)) acc) is acc in
  cut_at l acc' /\ (fst acc <= fst acc')%Q /\ (border = false -> forall i j, In i is -> differ i l j -> (gain i l j <= fst acc')%Q).
Proof.
  induction is as [|i is IH]; intros His acc Ha; cbn [fold_left].
  - split; [assumption|]. split; [lra|]. intros _ i j [].
  - destruct (try_fold border i l (seq 0 (length l - 1)) (His i ltac:(now left)) ltac:(intros j Hj; apply in_seq in Hj; lia) acc Ha) as (S1 & S2 & S3).
    destruct (IH ltac:(intros; apply His; now right) _ S1) as (T1 & T2 & T3). cbv zeta in *.
    split; [assumption|]. split; [lra|]. intros Hb i' j' [<-|Hi'] Hd; [|now apply T3].
    specialize (S3 Hb j' ltac:(apply in_seq; destruct Hd; lia) Hd). lra.
Qed.

Lemma splitting_spec border l : let r := splitting_point mn dim border l in
  (snd r = true -> fst (fst r) < dim /\ below (fst (fst r)) (snd (fst r)) l <> [] /\ above (fst (fst r)) (snd (fst r)) l <> []) /\
  (snd r = false -> border = false -> uncuttable mn dim l).
Proof.
  intros r. unfold r, splitting_point.
  destruct (search_fold border l (seq 0 dim) ltac:(intros i Hi; apply in_seq in Hi; lia) (0%Q, None) eq_refl) as (S1 & S2 & S3). cbv zeta in *.
  match goal with |- context [fold_left ?f ?t (0%Q, None)] => set (acc := fold_left f t (0%Q, None)) end.
  change (cut_at l acc) in S1. change (0 <= fst acc)%Q in S2.
  change (border = false -> forall i j, In i (seq 0 dim) -> differ i l j -> (gain i l j <= fst acc)%Q) in S3.
  clearbody acc. destruct acc as [best split]. cbn [fst snd] in *.
  assert (U : (best <= density2 mn l)%Q -> border = false -> uncuttable mn dim l).
  { intros Hb Hbd j v Hj B A. destruct (srt_cut j v l) as (k & K1 & K2 & K3 & K4).
    assert (Kl : k < length l).
    { destruct (Nat.eq_dec k (length l)) as [->|]; [|lia]. exfalso. apply A. apply Permutation_nil.
      apply Permutation_sym. eapply perm_trans; [exact K3|]. rewrite skipn_all2; [constructor|]. unfold srt. rewrite sort_by_length. lia. }
    destruct k as [|k].
    { exfalso. apply B. apply Permutation_nil. apply Permutation_sym. exact K2. }
    assert (Hd : differ j l k).
    { split; [lia|]. intros G. pose proof (proj1 (K4 ([], 0%Z) k ltac:(lia)) ltac:(lia)) as G1. rewrite G in G1.
      apply K4 in G1; lia. }
    specialize (S3 Hbd j k ltac:(apply in_seq; lia) Hd). rewrite (density2_perm mn _ _ K2), (density2_perm mn _ _ K3).
    unfold gain in S3. replace (k + 1) with (S k) in S3 by lia.
    destruct (q_max_ge (density2 mn (firstn (S k) (srt j l))) (density2 mn (skipn (S k) (srt j l)))). split; lra. }
  destruct split as [s|]; cbn [fst snd].
  - split.
    + intros _. destruct S1 as (i & j & Hi & (Hj & Hd) & -> & _). cbn [fst snd]. split; [assumption|].
      set (v := value i (nth j (srt i l) ([], 0%Z))) in *. destruct (srt_cut i v l) as (k & K1 & K2 & K3 & K4).
      assert (j < k) by (apply (K4 ([], 0%Z)); [lia|fold v; lra]).
      assert (k <= j + 1).
      { destruct (Nat.le_gt_cases k (j + 1)) as [|G]; [assumption|]. exfalso. apply (K4 ([], 0%Z) (j + 1) Hj) in G.
        apply Hd. apply Qle_antisym; [|exact G]. pose proof (srt_sorted i l) as HS.
        assert (LL : length (srt i l) = length l) by apply sort_by_length.
        rewrite <- (firstn_skipn (j + 1) (srt i l)) in HS.
        assert (Hin1 : In (nth j (srt i l) ([], 0%Z)) (firstn (j + 1) (srt i l))).
        { rewrite <- (firstn_skipn (j + 1) (srt i l)) at 1. rewrite app_nth1 by (rewrite firstn_length; lia). apply nth_In. rewrite firstn_length. lia. }
        assert (Hin2 : In (nth (j + 1) (srt i l) ([], 0%Z)) (skipn (j + 1) (srt i l))).
        { rewrite <- (firstn_skipn (j + 1) (srt i l)) at 1. rewrite app_nth2 by (rewrite firstn_length; lia). apply nth_In. rewrite firstn_length, skipn_length. lia. }
        apply StronglySorted_app_inv in HS as (_ & _ & HS). exact (HS _ _ Hin1 Hin2). }
      split; intros G.
      * rewrite G in K2. apply Permutation_nil in K2. apply (f_equal (@length _)) in K2. rewrite firstn_length in K2. cbn in K2.
        assert (LL : length (srt i l) = length l) by apply sort_by_length. lia.
      * rewrite G in K3. apply Permutation_nil in K3. apply (f_equal (@length _)) in K3. rewrite skipn_length in K3. cbn in K3.
        assert (LL : length (srt i l) = length l) by apply sort_by_length. lia.
    + intros G. apply U. change (trim_value mn l) with (density2 mn l) in G.
      assert (~ (density2 mn l < best)%Q) by (intros G'; apply Qlt_b_iff in G'; congruence). lra.
  - split; [discriminate|]. intros _. apply U. cbn in S1. rewrite S1. apply density2_nonneg.
Qed.
End Split.

(** ** The trimming *)

Lemma in_box_app b1 b2 l : filter (in_box b1) (filter (in_box b2) l) = filter (in_box (b1 ++ b2)) l.
Proof.
  rewrite filter_filter'. apply filter_ext. intros r. unfold in_box. now rewrite forallb_app.
Qed.

Lemma n_of_pos mn l : 0 < n_of mn l <-> existsb (fun r => Z.eqb (snd r) mn) l = true.
Proof.
  unfold n_of. induction l as [|r l IH]; cbn; [split; [lia|discriminate]|]. destruct (Z.eqb (snd r) mn); cbn; [split; [reflexivity|lia]|exact IH].
Qed.

Section Trim.
Variables (mn : Z) (dim : nat) (data : leaf).

Definition box_leaf (l : leaf) : Prop := (exists box, l = filter (in_box box) data) /\ 0 < n_of mn l.
Definition rest_ok (rest : leaf) : Prop := forall r, In r rest -> snd r = mn -> exists box, filter (in_box box) data = [r].

Lemma rest_ok_app a b : rest_ok a -> rest_ok b -> rest_ok (a ++ b).
Proof. intros Ha Hb r Hr. apply in_app_or in Hr as [Hr|Hr]; auto. Qed.

Lemma split_parts_ok s l : box_leaf l -> below (fst s) (snd s) l <> [] -> above (fst s) (snd s) l <> [] ->
  Forall box_leaf (split_parts mn s l) /\ Forall (fun part => length part < length l) (split_parts mn s l) /\
  exists rest, Permutation l (concat (split_parts mn s l) ++ rest) /\ rest_ok rest.
Proof.
  intros ((box & Hbox) & Hn) B A. unfold split_parts. rewrite <- below_eq, <- above_eq.
  assert (P : Permutation l (below (fst s) (snd s) l ++ above (fst s) (snd s) l)).
  { rewrite below_eq, above_eq. clear. induction l as [|r l IH]; [constructor|]. cbn. destruct (Qle_bool _ _); cbn; [now constructor|].
    now apply Permutation_cons_app. }
  pose proof (Permutation_length P) as L. rewrite app_length in L.
  assert (Hb : exists box, below (fst s) (snd s) l = filter (in_box box) data).
  { exists ([(fst s, snd s, true)] ++ box). rewrite Hbox. unfold below. apply in_box_app. }
  assert (Ha : exists box, above (fst s) (snd s) l = filter (in_box box) data).
  { exists ([(fst s, snd s, false)] ++ box). rewrite Hbox. unfold above. apply in_box_app. }
  set (b := below (fst s) (snd s) l) in *. set (a := above (fst s) (snd s) l) in *.
  assert (0 < length b) by (destruct b; [congruence|cbn; lia]). assert (0 < length a) by (destruct a; [congruence|cbn; lia]).
  split; [|split].
  - apply Forall_forall. intros part Hp. apply filter_In in Hp as [Hp Hm]. split; [|now apply n_of_pos].
    destruct Hp as [<-|[<-|[]]]; assumption.
  - apply Forall_forall. intros part Hp. apply filter_In in Hp as [[<-|[<-|[]]] Hm]; lia.
  - assert (R0 : forall x : leaf, existsb (fun r => Z.eqb (snd r) mn) x = false -> rest_ok x).
    { intros x Hx r Hr Er. exfalso. assert (existsb (fun r => Z.eqb (snd r) mn) x = true); [|congruence].
      apply existsb_exists. exists r. split; [assumption|]. now apply Z.eqb_eq. }
    cbn [filter]. destruct (existsb _ b) eqn:Eb, (existsb _ a) eqn:Ea; cbn [concat].
    + exists []. rewrite !app_nil_r. split; [assumption|]. intros r [].
    + exists a. rewrite app_nil_r. split; [assumption|]. now apply R0.
    + exists b. rewrite app_nil_r. split; [|now apply R0]. eapply perm_trans; [exact P|]. apply Permutation_app_comm.
    + exists (b ++ a). split; [assumption|]. apply rest_ok_app; now apply R0.
Qed.

Lemma split_loop_ok border leafs m : Forall box_leaf leafs -> Forall (fun l => length l <= m) leafs ->
  let parts := fst (split_loop mn dim border leafs) in
  let cands := snd (split_loop mn dim border leafs) in
  Forall box_leaf parts /\ Forall (fun l => length l < m) parts /\
  Forall box_leaf cands /\ Forall (fun l => length l <= m) cands /\
  (border = false -> Forall (uncuttable mn dim) cands) /\ Forall (fun l => 2 <= length l) cands /\
  exists rest, Permutation (concat leafs) (concat parts ++ concat cands ++ rest) /\ rest_ok rest.
Proof.
  intros HB HL. unfold split_loop. cbn [fst snd].
  induction leafs as [|l leafs IH]; [cbn; repeat split; auto; exists []; split; [constructor|intros r []]|].
  inversion HB as [|? ? B1 B2]; subst. inversion HL as [|? ? L1 L2]; subst.
  destruct (IH B2 L2) as (I1 & I2 & I3 & I4 & I5 & I6 & rest & I7 & I8). clear IH. cbn [filter concat].
  destruct (Nat.ltb_spec 1 (length l)) as [G|G].
  - cbn [flat_map filter]. destruct (splitting_spec mn dim border l) as [SP1 SP2]. cbv zeta in *.
    destruct (splitting_point mn dim border l) as [s g]. cbn [fst snd] in *. destruct g; cbn [negb].
    + destruct (SP1 eq_refl) as (_ & NB & NA). destruct (split_parts_ok s l B1 NB NA) as (Q1 & Q2 & rest' & Q3 & Q4).
      split; [now apply Forall_app|]. split.
      { apply Forall_app. split; [|assumption]. eapply Forall_impl; [|exact Q2]. cbn. intros; lia. }
      repeat (split; [assumption|]). exists (rest' ++ rest). split; [|now apply rest_ok_app].
      rewrite concat_app. eapply perm_trans; [apply Permutation_app; [exact Q3|exact I7]|]. rewrite <- !app_assoc.
      apply Permutation_app_head. rewrite !app_assoc. rewrite <- (app_assoc _ rest' rest). rewrite <- (app_assoc rest').
      rewrite !app_assoc. apply Permutation_app_tail. rewrite <- !app_assoc. apply Permutation_app_comm || idtac.
      rewrite Permutation_app_comm. now rewrite <- !app_assoc.
    + cbn [app]. split; [assumption|]. split; [assumption|]. split; [now constructor|]. split; [now constructor|].
      split; [intros Hb; constructor; auto|]. split; [constructor; [lia|assumption]|]. exists rest. split; [|assumption].
      cbn [concat]. rewrite <- !app_assoc. rewrite Permutation_app_comm. eapply perm_trans; [apply Permutation_app_tail; exact I7|].
      rewrite <- !app_assoc. apply Permutation_app_head.
      eapply perm_trans; [rewrite app_assoc; apply Permutation_app_comm|]. reflexivity.
  - cbn [flat_map filter]. repeat (split; [assumption|]). exists (l ++ rest). split.
    + rewrite Permutation_app_comm. eapply perm_trans; [apply Permutation_app_tail; exact I7|]. rewrite <- !app_assoc.
      apply Permutation_app_head, Permutation_app_head, Permutation_app_comm.
    + apply rest_ok_app; [|assumption]. intros r Hr Er. destruct B1 as ((box & Hb) & _). exists box. rewrite <- Hb.
      destruct l as [|a [|]]; cbn in G; try lia; [destruct Hr|]. destruct Hr as [->|[]]. reflexivity.
Qed.

Definition seed_ok (l : leaf) : Prop := (exists box, l = filter (in_box box) data) /\ 2 <= length l /\ 0 < n_of mn l /\ uncuttable mn dim l.

Lemma trimming_ok fuel : forall leafs seeds, Forall box_leaf leafs -> Forall (fun l => length l < fuel) leafs -> Forall seed_ok seeds ->
  (exists rest, Permutation data (concat leafs ++ concat seeds ++ rest) /\ rest_ok rest) ->
  exists out, trimming fuel mn dim leafs seeds = Ok out /\ seeds_spec mn dim data out.
Proof.
  induction fuel as [|fuel IH]; intros leafs seeds HB HL HS (rest & HP & HR).
  - destruct leafs as [|l leafs]; [|inversion HL; lia]. exists seeds. split; [reflexivity|]. split; [exists rest; auto|].
    rewrite Forall_forall in HS. exact HS.
  - destruct leafs as [|l leafs].
    { exists seeds. split; [reflexivity|]. split; [exists rest; auto|]. rewrite Forall_forall in HS. exact HS. }
    cbn [trimming]. set (leafs0 := l :: leafs) in *.
    destruct (split_loop_ok true leafs0 fuel HB) as (A1 & A2 & A3 & A4 & _ & _ & r1 & A5 & A6).
    { eapply Forall_impl; [|exact HL]. cbn. intros; lia. }
    destruct (split_loop mn dim true leafs0) as [parts cands]. cbn [fst snd] in *.
    destruct (split_loop_ok false cands fuel A3 A4) as (B1 & B2 & B3 & _ & B4 & B5 & r2 & B6 & B7).
    destruct (split_loop mn dim false cands) as [parts' done]. cbn [fst snd] in *.
    apply IH.
    + now apply Forall_app.
    + now apply Forall_app.
    + apply Forall_app. split; [assumption|]. specialize (B4 eq_refl). rewrite Forall_forall in *. intros x Hx.
      destruct (B3 x Hx). split; [assumption|]. split; [auto|]. auto.
    + exists (r2 ++ r1 ++ rest). split; [|apply rest_ok_app; [assumption|now apply rest_ok_app]].
      eapply perm_trans; [exact HP|]. rewrite A5, B6. rewrite !concat_app, <- !app_assoc.
      apply Permutation_app_head, Permutation_app_head.
      (* done ++ r2 ++ r1 ++ seeds ++ rest ~ seeds ++ done ++ r2 ++ r1 ++ rest *)
      rewrite !app_assoc. apply Permutation_app_tail. rewrite <- !app_assoc.
      rewrite (app_assoc (concat done)), (app_assoc (concat done ++ r2)).
      eapply perm_trans; [apply Permutation_app_comm|]. now rewrite <- !app_assoc.
Qed.
End Trim.

Section Relax.
Variables (mn : Z) (mp : Q) (seeds : list leaf).
Hypothesis Hmp : (0 <= mp)%Q.

Let purer (q : Q) : list leaf := filter (fun l => negb (Qle_bool (purity mn l) q)) seeds.
Let level (k : nat) : Q := (mp * Qpower (9 # 10) (Z.of_nat k))%Q.

Lemma purer_ext q q' : (q == q')%Q -> purer q = purer q'.
Proof. intros E. apply filter_ext. intros l. f_equal. now rewrite E. Qed.

Lemma relax_ok fuel k m filtered : purer (mp / 10) <> [] -> k <= 22 -> 22 <= k + fuel ->
  filtered = purer (level k) -> (m == Qpower (9 # 10) (Z.of_nat (S k)))%Q -> (forall k', k' < k -> purer (level k') = []) ->
  exists k', relax fuel mn mp m seeds filtered = Ok (purer (level k')) /\ purer (level k') <> [] /\ forall k0, k0 < k' -> purer (level k0) = [].
Proof.
  intros Hne. revert k m filtered. induction fuel as [|fuel IH]; intros k m filtered Hk Hf E Hm Hb.
  - assert (k = 22) by lia. subst k. exists 22. cbn [relax].
    destruct filtered as [|a f]; [|split; [now rewrite <- E|split; [rewrite <- E; discriminate|assumption]]].
    exfalso. apply Hne. 
    assert (I : forall l, In l (purer (mp / 10)) -> In l (purer (level 22))).
    { intros l Hl. apply filter_In in Hl as [H1 H2]. apply filter_In. split; [assumption|]. apply Qlt_b_iff. apply Qlt_b_iff in H2.
      eapply Qle_lt_trans; [|exact H2]. unfold level, Qdiv. rewrite !(Qmult_comm mp). apply Qmult_le_compat_r; [|assumption]. vm_compute. discriminate. }
    rewrite <- E in I. destruct (purer (mp / 10)) as [|x y]; [reflexivity|]. destruct (I x). now left.
  - cbn [relax]. destruct filtered as [|a f].
    2:{ exists k. rewrite <- E. split; [reflexivity|]. split; [discriminate|assumption]. }
    assert (k <> 22).
    { intros ->. apply Hne.
      assert (I : forall l, In l (purer (mp / 10)) -> In l (purer (level 22))).
      { intros l Hl. apply filter_In in Hl as [H1 H2]. apply filter_In. split; [assumption|]. apply Qlt_b_iff. apply Qlt_b_iff in H2.
        eapply Qle_lt_trans; [|exact H2]. unfold level, Qdiv. rewrite !(Qmult_comm mp). apply Qmult_le_compat_r; [|assumption]. vm_compute. discriminate. }
      rewrite <- E in I. destruct (purer (mp / 10)) as [|x y]; [reflexivity|]. destruct (I x). now left. }
    apply (IH (S k)); try lia.
    + change (filter (fun s => Qlt_b (mp * m) (trim_precision mn s)) seeds) with (purer (mp * m)). apply purer_ext. unfold level. now rewrite Hm.
    + rewrite Hm. replace (Z.of_nat (S (S k))) with (Z.of_nat (S k) + 1)%Z by lia. rewrite Qpower_plus by discriminate. reflexivity.
    + intros k' Hk'. destruct (Nat.eq_dec k' k) as [->|]; [now rewrite <- E|]. apply Hb. lia.
Qed.
End Relax.

Theorem trim_smote_ok dist vol nn p r D mn mj n :
  knn_ok dist nn -> rng_ok r -> unif_pos r -> wf_data (d_X D) (d_dim D) (d_y D) -> is_minority (d_y D) mn mj ->
  asked (tm_proportion p) (d_y D) mn mj = Ok n -> 1 <= tm_n_neighbors p -> (0 <= tm_min_precision p)%Q -> plain_ss (tm_ss p) -> ss_gauss (tm_ss p) = GNone ->
  let out := trim_smote_sample vol nn p r D in
  (count_label (d_y D) mn <= 2 \/ n = 0%Z -> unchanged D out) /\
  (2 < count_label (d_y D) mn -> (0 < n)%Z -> appends D mn (trim_smote_spec dist p D mn n) out).
Proof.
  intros Hnn Hr Hu Hwf Hmin Ha Hk Hmp Hp Hg out. unfold out, trim_smote_sample.
  destruct (sample_default (trim_smote_algorithm vol nn p r) D mn mj Hmin) as (st & Hst & E). rewrite E. clear E. unfold trim_smote_algorithm.
  rewrite (det_st_asked _ _ _ _ _ (proj1 Hmin) Hst), Ha. cbn [bind]. pose proof (asked_some _ _ _ _ _ Ha) as Hn0. split.
  - intros [G|G]; unfold unchanged.
    + destruct (Nat.leb_spec (count_label (d_y D) mn) 2); [reflexivity|lia].
    + subst n. destruct (_ <=? 2); reflexivity.
  - intros G Hn. destruct (Nat.leb_spec (count_label (d_y D) mn) 2); [lia|]. destruct (Nat.eqb_spec (Z.to_nat n) 0); [lia|].
    destruct Hst as (Emn & _). rewrite Emn. destruct Hwf as [HR HL]. set (data := combine (d_X D) (d_y D)).
    assert (Hdata : map snd data = d_y D).
    { unfold data. clear - HL. revert HL. generalize (d_y D). induction (d_X D) as [|x X IH]; intros [|y ys]; cbn; intros; try discriminate; [reflexivity|]. f_equal. apply IH. congruence. }
    assert (Hnd : n_of mn data = count_label (d_y D) mn).
    { unfold n_of, count_label. rewrite <- Hdata. clear. induction data as [|[x y] l IH]; [reflexivity|]. cbn. destruct (Z.eqb_spec y mn), (Z.eq_dec y mn); cbn; congruence. }
    destruct (trimming_ok mn (d_dim D) data (length (d_X D) + 1) [data] []) as (seeds & -> & HS).
    { constructor; [|constructor]. split; [|lia]. exists []. unfold in_box. cbn. clear. induction data as [|a l IH]; cbn; congruence. }
    { constructor; [|constructor]. unfold data. rewrite combine_length. lia. }
    { constructor. }
    { exists []. cbn. rewrite !app_nil_r. split; [reflexivity|]. intros x []. }
    cbn [bind]. set (purer := fun q => filter (fun l => negb (Qle_bool (purity mn l) q)) seeds).
    change (filter (fun s => Qlt_b (tm_min_precision p / 10) (trim_precision mn s)) seeds) with (purer (tm_min_precision p / 10)%Q).
    change (filter (fun s => Qlt_b (tm_min_precision p) (trim_precision mn s)) seeds) with (purer (tm_min_precision p)).
    destruct (Nat.eqb_spec (length (purer (tm_min_precision p / 10)%Q)) 0) as [Z0|Z0].
    { assert (E0 : purer (tm_min_precision p / 10)%Q = []) by (destruct (purer (tm_min_precision p / 10)%Q); [reflexivity|discriminate]).
      exists []. cbn [length repeat]. rewrite !app_nil_r. split; [reflexivity|]. exists seeds. split; [assumption|]. cbv zeta. fold purer.
      split; [reflexivity|]. intros N. contradiction. }
    assert (N0 : purer (tm_min_precision p / 10)%Q <> []) by (intros N; rewrite N in Z0; cbn in Z0; lia).
    destruct (relax_ok mn (tm_min_precision p) seeds Hmp 25 0 (9 # 10) (purer (tm_min_precision p)) N0) as (k & -> & K1 & K2); try lia.
    { apply purer_ext. cbn. ring. }
    { reflexivity. }
    fold purer in K1, K2 |- *. set (lv := (tm_min_precision p * (9 # 10) ^ Z.of_nat k)%Q) in *.
    match goal with |- context [Ok (filter ?f seeds)] => change (filter f seeds) with (purer lv) end. cbn [bind].
    set (P := map fst (filter (fun r => Z.eqb (snd r) mn) (concat (purer lv)))).
    assert (HP : 1 <= length P).
    { unfold P. rewrite map_length. destruct (purer lv) as [|s ps] eqn:Ep; [exfalso; exact (K1 Ep)|]. cbn [concat]. rewrite filter_app, app_length.
      assert (Hs : In s seeds) by (assert (In s (purer lv)) by (rewrite Ep; now left); now apply filter_In in H0).
      destruct (proj2 HS s Hs) as (_ & _ & Hs' & _). unfold n_of in Hs'. lia. }
    assert (RP : rect (d_dim D) P).
    { unfold P. apply Forall_map, Forall_forall. intros x Hx. apply filter_In in Hx as [Hx _]. apply in_concat in Hx as (s & Hs & Hx).
      apply filter_In in Hs as [Hs _]. destruct (proj2 HS s Hs) as ((box & ->) & _). apply filter_In in Hx as [Hx _].
      unfold data in Hx. destruct x as [x z]. apply in_combine_l in Hx. unfold rect in HR. rewrite Forall_forall in HR. now apply HR. }
    set (kk := Nat.min (length P) (tm_n_neighbors p + 1)).
    destruct (Hnn P P kk) as (T & ET & HT); [unfold kk; lia|]. rewrite ET. cbn [bind].
    destruct (nearest_table_shape _ _ _ _ _ HT) as (M1 & M2 & M3).
    set (args := mk_args P (d_dim D) T kk None None None false None).
    assert (Hargs : args_ok args) by (constructor; cbn; auto; try discriminate; lia).
    destruct (ss_call vol (tm_ss p) args (Z.to_nat n) r 0 Hargs Hr Hu Hp) as (S & ES & LS & FS); cbn; try (unfold kk; lia); auto.
    rewrite ES. cbn [bind]. exists S. unfold extended. rewrite Emn. split; [reflexivity|]. exists seeds. split; [assumption|]. cbv zeta. fold purer.
    split; [intros N; contradiction|]. intros _. exists k. fold lv. split; [assumption|]. split; [assumption|]. fold P.
    split; [assumption|]. exists T. split; [exact HT|]. exact (FS Hg).
Qed.
