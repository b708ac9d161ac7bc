(** Facts about EditModel.v: SMOTE_RSB. *)

From Coq Require Import List ZArith QArith Qabs Bool Arith Lia Sorting.Sorted Permutation Lqa.
From Verif Require Import Np NpFacts SimplexModel SimplexGeom SamplerModel SamplerFacts Spec SpecNoise SpecComp
  NoiseModel NoiseFacts NoiseFacts2 ClusterOversModel CompModel CompFacts CompFacts2 CompFacts3 OversFacts EditModel SpecEdit
  EditFacts.
Import ListNotations.
Open Scope nat_scope.

Section Loop.
Variables (lv : list Q) (sim : list (list Q)) (P : list row) (limit : nat).
Let n := length P.
Definition okl (k i : nat) : bool := forallb (fun x => Qle_bool x (nth k lv 0%Q)) (nth i sim []).
Definition before (k i : nat) : bool := existsb (fun k' => okl k' i) (seq 0 k).
Definition newl (k i : nat) : bool := okl k i && negb (before k i).
Definition upto (K : nat) : list (nat * nat) :=
  flat_map (fun k => map (fun i => (i, k)) (filter (newl k) (seq 0 n))) (seq 0 K).
Definition rows_of (c : list (nat * nat)) : list row := map (fun ik => nth (fst ik) P []) c.

Lemma before_S k i : before (S k) i = before k i || okl k i.
Proof. unfold before. rewrite seq_S, existsb_app. cbn. rewrite orb_false_r. reflexivity. Qed.

Lemma upto_S K : upto (S K) = upto K ++ map (fun i => (i, K)) (filter (newl K) (seq 0 n)).
Proof. unfold upto. rewrite seq_S, flat_map_app. cbn. rewrite app_nil_r. reflexivity. Qed.

Lemma in_upto K i k : In (i, k) (upto K) <-> i < n /\ k < K /\ newl k i = true.
Proof.
  unfold upto. rewrite in_flat_map. split.
  - intros [k' [Hk Hi]]. apply in_map_iff in Hi. destruct Hi as [i' [E Hi]]. injection E as -> ->.
    apply filter_In in Hi. destruct Hi as [Hi N]. apply in_seq in Hi. apply in_seq in Hk. repeat split; [lia|lia|exact N].
  - intros [Hi [Hk N]]. exists k. split; [apply in_seq; lia|]. apply in_map_iff. exists i. split; [reflexivity|].
    apply filter_In. split; [apply in_seq; lia|exact N].
Qed.

Lemma newl_unique k k' i : newl k i = true -> newl k' i = true -> k = k'.
Proof.
  unfold newl. intros A B. apply andb_prop in A. apply andb_prop in B. destruct A as [A1 A2], B as [B1 B2].
  apply negb_true_iff in A2. apply negb_true_iff in B2.
  destruct (lt_eq_lt_dec k k') as [[L|L]|L]; [|exact L|]; exfalso.
  - enough (before k' i = true) by congruence. unfold before. apply existsb_exists. exists k. split; [apply in_seq; lia|exact A1].
  - enough (before k i = true) by congruence. unfold before. apply existsb_exists. exists k'. split; [apply in_seq; lia|exact B1].
Qed.

Lemma NoDup_app' {A} (l1 l2 : list A) : NoDup l1 -> NoDup l2 -> (forall x, In x l1 -> ~ In x l2) -> NoDup (l1 ++ l2).
Proof.
  induction l1 as [|a l1 IH]; intros N1 N2 H; [exact N2|]. inversion N1; subst. cbn. constructor.
  - intro Q. apply in_app_or in Q. destruct Q as [Q|Q]; [contradiction|]. apply (H a); [left; reflexivity|exact Q].
  - apply IH; auto. intros x Hx. apply H. right. exact Hx.
Qed.

Lemma upto_nodup K : NoDup (map fst (upto K)).
Proof.
  induction K as [|K IH]; [constructor|]. rewrite upto_S, map_app. apply NoDup_app'.
  - exact IH.
  - rewrite map_map. cbn. rewrite map_id. apply NoDup_filter', seq_NoDup.
  - intros i Hi Hj. apply in_map_iff in Hi. destruct Hi as [[i' k] [E Hi]]. cbn in E. subst i'.
    rewrite map_map in Hj. cbn in Hj. rewrite map_id in Hj. apply filter_In in Hj. destruct Hj as [_ Hj].
    apply in_upto in Hi. destruct Hi as [_ [L N]]. pose proof (newl_unique _ _ _ N Hj). lia.
Qed.

Lemma sorted_app {A} (R : A -> A -> Prop) l1 l2 :
  StronglySorted R l1 -> StronglySorted R l2 -> (forall a b, In a l1 -> In b l2 -> R a b) -> StronglySorted R (l1 ++ l2).
Proof.
  induction 1 as [|a l1 S IH F]; intros S2 H; [exact S2|]. cbn. constructor.
  - apply IH; [exact S2|]. intros x y Hx. apply H. right. exact Hx.
  - apply Forall_app. split; [exact F|]. apply Forall_forall. intros y Hy. apply H; [left; reflexivity|exact Hy].
Qed.

Lemma upto_sorted K : StronglySorted (fun a b => snd a <= snd b) (upto K).
Proof.
  induction K as [|K IH]; [constructor|]. rewrite upto_S. apply sorted_app; [exact IH| |].
  - induction (filter (newl K) (seq 0 n)); cbn; constructor; [assumption|]. apply Forall_forall. intros x Hx.
    apply in_map_iff in Hx. destruct Hx as [? [<- _]]. reflexivity.
  - intros [i k] b Ha Hb. apply in_upto in Ha. apply in_map_iff in Hb. destruct Hb as [? [<- _]]. cbn. lia.
Qed.

Lemma not_upto K i : i < n -> ~ In i (map fst (upto K)) -> forall k, k < K -> okl k i = false.
Proof.
  intros Hi. induction K as [|K IH]; intros N k Hk; [lia|].
  rewrite upto_S, map_app in N.
  assert (N1 : ~ In i (map fst (upto K))) by (intro Q; apply N, in_or_app; left; exact Q).
  destruct (Nat.eq_dec k K) as [->|Ne]; [|apply IH; [exact N1|lia]].
  destruct (okl K i) eqn:E; [|reflexivity]. exfalso. apply N, in_or_app. right.
  rewrite map_map. cbn. rewrite map_id. apply filter_In. split; [apply in_seq; lia|].
  unfold newl. rewrite E. cbn. apply negb_true_iff. unfold before.
  destruct (existsb _ _) eqn:X; [|reflexivity]. apply existsb_exists in X. destruct X as [k' [Hk' X]]. apply in_seq in Hk'.
  rewrite IH in X; [discriminate|exact N1|lia].
Qed.

Lemma map2_seq {A B C} (f : A -> B -> C) (g : nat -> A) (h : nat -> B) l :
  map2 f (map g l) (map h l) = map (fun i => f (g i) (h i)) l.
Proof. induction l; cbn; [reflexivity|f_equal; assumption]. Qed.

Hypothesis Hlen : length sim = length P.
Lemma loop_spec suf : forall pre, lv = pre ++ suf ->
  exists K, length pre <= K <= length lv /\
    rsb_loop suf limit sim P (map (before (length pre)) (seq 0 n)) (rows_of (upto (length pre))) = rows_of (upto K) /\
    (K = length lv \/ limit <= length (upto K)).
Proof.
  induction suf as [|v suf IH]; intros pre E.
  - exists (length pre). rewrite E, app_nil_r. split; [lia|]. split; [reflexivity|left; reflexivity].
  - cbn [rsb_loop]. unfold rows_of at 1. rewrite map_length. destruct (length (upto (length pre)) <? limit) eqn:C.
    + destruct (IH (pre ++ [v])) as [K [B [R Q]]]; [rewrite <- app_assoc; exact E|].
      exists K. rewrite app_length in B, R. cbn [length] in B, R. rewrite Nat.add_1_r in B, R.
      split; [lia|]. split; [|exact Q]. rewrite <- R.
      assert (V : nth (length pre) lv 0%Q = v) by (rewrite E, app_nth2, Nat.sub_diag by lia; reflexivity).
      assert (MK : map2 (fun s a => forallb (fun x => Qle_bool x v) s && negb a) sim (map (before (length pre)) (seq 0 n))
                   = map (newl (length pre)) (seq 0 n)).
      { rewrite <- (NoiseFacts.map_nth_seq [] sim) at 1. rewrite Hlen. fold n. rewrite map2_seq. apply map_ext. intro i.
        unfold newl, okl. rewrite V. reflexivity. }
      f_equal.
      * rewrite MK, map2_seq. apply map_ext. intro i. rewrite before_S. unfold newl.
        destruct (before (length pre) i), (okl (length pre) i); reflexivity.
      * rewrite MK, upto_S. unfold rows_of. rewrite map_app, map_map. cbn [fst]. f_equal.
        rewrite (select_nth []) by (rewrite map_length, seq_length; reflexivity). fold n. f_equal.
        apply filter_ext_in'. intros i Hi. apply in_seq in Hi.
        rewrite (nth_indep (map (newl (length pre)) _) false (newl (length pre) 0)) by (rewrite map_length, seq_length; lia).
        rewrite map_nth, seq_nth by lia. reflexivity.
    + exists (length pre). split; [rewrite E, app_length; lia|]. split; [reflexivity|]. right. apply Nat.ltb_ge in C. exact C.
Qed.
End Loop.

Lemma sorted_firstn {A} (R : A -> A -> Prop) k l : StronglySorted R l -> StronglySorted R (firstn k l) /\
  forall a b, In a (firstn k l) -> In b (skipn k l) -> R a b.
Proof.
  revert k. induction l as [|x l IH]; intros k S; [destruct k; cbn; split; [constructor|intros a b []|constructor|intros a b []]|].
  apply StronglySorted_inv in S. destruct S as [S F]. destruct k as [|k]; cbn.
  - split; [constructor|intros a b []].
  - destruct (IH k S) as [I1 I2]. split.
    + constructor; [exact I1|]. apply Forall_forall. intros y Hy. rewrite Forall_forall in F. apply F.
      rewrite <- (firstn_skipn k l). apply in_or_app. left. exact Hy.
    + intros a b [<-|Ha] Hb; [|apply I2; assumption]. rewrite Forall_forall in F. apply F.
      rewrite <- (firstn_skipn k l). apply in_or_app. right. exact Hb.
Qed.

Lemma levels_length : length rsb_levels = 10.
Proof. vm_compute. reflexivity. Qed.

(** The loop of the code ends by itself after these levels. *)
Lemma levels_exhausted f : levels (20 + f) (Float64.f_div (Float64.f_of_Z 2) (Float64.f_of_Z 5)) = rsb_levels.
Proof. vm_compute. reflexivity. Qed.

Lemma levels_close k : k < 10 ->
  (Qabs (nth k rsb_levels 0 - ((2 # 5) + inject_Z (Z.of_nat k) * (1 # 20))) <= 1 # 1000000000000000)%Q.
Proof.
  intro H. apply Qle_bool_imp_le.
  do 10 (destruct k as [|k]; [vm_compute; reflexivity|]). lia.
Qed.

(** ** The similarity *)

Lemma norm_spec d P j : P <> [] -> j < d -> attr_scale P j (nth j (rsb_norm d P) 0%Q).
Proof.
  intros NE Hj. exists (col_min (column j P)), (col_max (column j P)). split; [apply column_range, NE|].
  unfold rsb_norm. set (f := fun j => _).
  rewrite (nth_indep (map f _) 0%Q (f 0)) by (rewrite map_length, seq_length; exact Hj).
  rewrite map_nth, seq_nth by exact Hj. cbn [plus]. unfold f. cbv zeta.
  destruct (Qeq_bool (col_max (column j P) - col_min (column j P)) 0) eqn:E.
  - apply Qeq_bool_eq in E. split; [intro N; exfalso; apply N; lra|]. intros _.
    destruct (q_max_ge (col_max (column j P)) 1) as [G1 G2]. destruct (q_max_or (col_max (column j P)) 1) as [O|O]; rewrite O in *; split; intro; lra.
  - apply Qeq_bool_neq in E. split; [reflexivity|]. intro Q. exfalso. apply E. lra.
Qed.

Lemma scale_pos P j w : attr_scale P j w -> (0 < w)%Q.
Proof.
  intros [lo [hi [[R [[x [Hx E1]] _]] [A B]]]].
  assert (LE : (lo <= hi)%Q). { destruct (R x Hx) as [R1 R2]. lra. }
  destruct (Qeq_dec lo hi) as [E|E].
  - destruct (B E) as [B1 B2]. destruct (Qlt_le_dec 1 hi) as [C|C].
    + rewrite B2; lra.
    + rewrite B1; lra.
  - rewrite (A E). assert (lo < hi)%Q. { apply Qle_lteq in LE. destruct LE as [L|L]; [exact L|contradiction]. } lra.
Qed.

Lemma qsum_map_ext {A} (f g : A -> Q) l : (forall x, In x l -> (f x == g x)%Q) -> (qsum (map f l) == qsum (map g l))%Q.
Proof.
  intro H. apply qsum_eq. induction l; cbn; constructor; [apply H; left; reflexivity|].
  apply IHl. intros x Hx. apply H. right. exact Hx.
Qed.

Lemma similarity_spec d P a b : P <> [] -> length a = d -> length b = d ->
  similar d P a b (rsb_similarity d (rsb_norm d P) a b).
Proof.
  intros NE La Lb. exists (fun j => nth j (rsb_norm d P) 0%Q). split; [intros j Hj; apply norm_spec; assumption|].
  unfold rsb_similarity.
  assert (Ln : length (rsb_norm d P) = d) by (unfold rsb_norm; rewrite map_length, seq_length; reflexivity).
  assert (E : map2 (fun p w => Qabs (fst p / w - snd p / w)) (combine a b) (rsb_norm d P) =
              map (fun j => Qabs (nth j a 0 / nth j (rsb_norm d P) 0 - nth j b 0 / nth j (rsb_norm d P) 0))%Q (seq 0 d)).
  { assert (Lc : length (combine a b) = d) by (rewrite combine_length; lia).
    apply (nth_ext _ _ 0%Q 0%Q).
    - rewrite map2_length, map_length, seq_length. lia.
    - intros j Hj. rewrite map2_length, Lc, Ln, Nat.min_id in Hj.
      rewrite (map2_nth _ _ _ j (0, 0)%Q 0%Q) by lia. rewrite combine_nth by lia. cbn [fst snd].
      set (f := fun j => _). rewrite (nth_indep (map f _) 0%Q (f 0)) by (rewrite map_length, seq_length; exact Hj).
      rewrite map_nth, seq_nth by exact Hj. reflexivity. }
  rewrite E.
  assert (Q : (qsum (map (fun j => Qabs (nth j a 0 / nth j (rsb_norm d P) 0 - nth j b 0 / nth j (rsb_norm d P) 0)) (seq 0 d)) ==
               qsum (map (fun j => Qabs (nth j a 0 - nth j b 0) / nth j (rsb_norm d P) 0) (seq 0 d)))%Q).
  { apply qsum_map_ext. intros j Hj. apply in_seq in Hj.
    pose proof (scale_pos _ _ _ (norm_spec d P j NE ltac:(lia))) as W.
    set (w := nth j (rsb_norm d P) 0%Q) in *.
    setoid_replace (nth j a 0 / w - nth j b 0 / w)%Q with ((nth j a 0 - nth j b 0) * / w)%Q by (field; lra).
    rewrite Qabs_Qmult. rewrite (Qabs_pos (/ w)) by (apply Qlt_le_weak, Qinv_lt_0_compat, W). reflexivity. }
  rewrite Q. reflexivity.
Qed.

Lemma smote_rsb_runs dist vol nn p r D mn mj X1 y1 :
  knn_ok dist nn -> rng_ok r -> wf_data (d_X D) (d_dim D) (d_y D) -> is_minority (d_y D) mn mj ->
  smote_sample vol nn p r D = Ok (X1, y1) -> rect (d_dim D) X1 ->
  let P := skipn (length (d_X D)) X1 in
  let out := smote_rsb_sample vol nn p r D in
  (count_label (d_y D) mn <= 2 \/ P = [] -> unchanged D out) /\
  (2 < count_label (d_y D) mn -> P <> [] -> appends D mn
    (rsb_spec (d_dim D) P (rows_with mj (d_X D) (d_y D)) (count_label (d_y D) mj - count_label (d_y D) mn)) out).
Proof.
  intros K R W M H RE P out.
  destruct (sample_default (smote_rsb_algorithm vol nn p r) D mn mj M) as [st [[S1 [S2 _]] E]].
  fold (smote_rsb_sample vol nn p r D) in E. fold out in E.
  destruct (le_lt_dec (count_label (d_y D) mn) 2) as [C|C].
  { pose proof C as C'. apply Nat.leb_le in C'. rewrite C' in E. split; [intros _; exact E|lia]. }
  pose proof C as C'. apply Nat.leb_gt in C'. rewrite C' in E.
  unfold smote_rsb_algorithm in E. rewrite H in E. cbn [bind fst] in E. fold P in E. rewrite S1, S2 in E.
  pose proof levels_length as LVL. pose proof levels_close as LVC.
  set (LV := rsb_levels) in E, LVL, LVC. clearbody LV.
  split.
  { intros [Q|Q]; [lia|]. rewrite Q in E. exact E. }
  intros _ NE.
  set (d := d_dim D) in *. set (M_ := rows_with mj (d_X D) (d_y D)) in *.
  set (sim := map (fun a => map (rsb_similarity d (rsb_norm d P) a) M_) P) in *.
  assert (LS : length sim = length P) by (unfold sim; apply map_length).
  assert (LL : length M_ - length (rows_with mn (d_X D) (d_y D)) = count_label (d_y D) mj - count_label (d_y D) mn).
  { destruct W as [_ WL]. unfold M_. rewrite !rows_with_length by exact WL. reflexivity. }
  rewrite LL in E. set (limit := count_label (d_y D) mj - count_label (d_y D) mn) in *.
  destruct (loop_spec LV sim P limit LS LV [] eq_refl) as [k [B [EQ Q]]].
  cbn [length] in EQ, B. rewrite LVL in B, Q.
  assert (Z0 : map (before LV sim 0) (seq 0 (length P)) = repeat false (length P)).
  { unfold before. cbn [seq existsb]. generalize 0. clear. induction (length P) as [|m IH]; intro s0; [reflexivity|]. cbn. f_equal. apply IH. }
  rewrite Z0 in EQ. unfold upto at 1 in EQ. cbn [seq flat_map rows_of map] in EQ.
  assert (E' : out = Ok (extended D st (firstn limit (rows_of P (upto LV sim P k))))).
  { rewrite E. destruct P eqn:EP; [congruence|]. rewrite <- EQ. reflexivity. }
  set (U := upto LV sim P k) in *.
  assert (RP : rect d P).
  { apply Forall_forall. intros x Hx. unfold rect in RE. rewrite Forall_forall in RE. apply RE.
    rewrite <- (firstn_skipn (length (d_X D)) X1). apply in_or_app. right. exact Hx. }
  assert (RM : rect d M_) by (apply rows_with_rect, W).
  assert (OK1 : forall kk i, i < length P -> okl LV sim kk i = true -> isolated d P M_ (nth i P []) (nth kk LV 0%Q)).
  { intros kk i Hi O m Hm. unfold okl in O. rewrite forallb_forall in O.
    exists (rsb_similarity d (rsb_norm d P) (nth i P []) m). split.
    - apply similarity_spec; [exact NE|apply rect_nth; assumption|]. unfold rect in RM. rewrite Forall_forall in RM. apply RM, Hm.
    - apply Qle_bool_imp_le, O. unfold sim.
      rewrite (nth_indep (map _ P) [] (map (rsb_similarity d (rsb_norm d P) []) M_)) by (rewrite map_length; exact Hi).
      rewrite (map_nth (fun a => map (rsb_similarity d (rsb_norm d P) a) M_)). apply in_map, Hm. }
  assert (OK2 : forall kk i, i < length P -> okl LV sim kk i = false -> crowded d P M_ (nth i P []) (nth kk LV 0%Q)).
  { intros kk i Hi O. unfold okl in O.
    assert (X : exists x, In x (nth i sim []) /\ Qle_bool x (nth kk LV 0%Q) = false).
    { induction (nth i sim []) as [|x l IH]; [discriminate|]. cbn in O. apply andb_false_iff in O. destruct O as [O|O].
      - exists x. split; [left; reflexivity|exact O].
      - destruct (IH O) as [z [Hz1 Hz2]]. exists z. split; [right; exact Hz1|exact Hz2]. }
    destruct X as [x [Hx O']]. unfold sim in Hx.
    rewrite (nth_indep (map _ P) [] (map (rsb_similarity d (rsb_norm d P) []) M_)) in Hx by (rewrite map_length; exact Hi).
    rewrite (map_nth (fun a => map (rsb_similarity d (rsb_norm d P) a) M_)) in Hx.
    apply in_map_iff in Hx. destruct Hx as [m [<- Hm]]. exists m, (rsb_similarity d (rsb_norm d P) (nth i P []) m). split; [exact Hm|]. split.
    - apply similarity_spec; [exact NE|apply rect_nth; assumption|]. unfold rect in RM. rewrite Forall_forall in RM. apply RM, Hm.
    - apply Qnot_le_lt. intro Q'. apply Qle_bool_iff in Q'. congruence. }
  exists (firstn limit (rows_of P U)). split.
  { rewrite E'. unfold extended. rewrite S1. reflexivity. }
  exists (fun k => nth k LV 0%Q), (firstn limit U).
  split; [exact LVC|]. split; [unfold rows_of; apply firstn_map|].
  destruct (sorted_firstn _ limit U (upto_sorted LV sim P k)) as [SO1 SO2].
  split.
  { pose proof (upto_nodup LV sim P k) as ND. fold U in ND. rewrite <- (firstn_skipn limit U), map_app in ND.
    clear -ND. induction (map fst (firstn limit U)); [constructor|]. cbn in ND. inversion ND; subst. constructor; [|apply IHl; assumption].
    intro Q. apply H1, in_or_app. left. exact Q. }
  split; [apply firstn_le_length|]. split; [exact SO1|].
  assert (INC : forall x, In x (firstn limit U) -> In x U).
  { intros x Hx. rewrite <- (firstn_skipn limit U). apply in_or_app. left. exact Hx. }
  split.
  - intros i kk Hik. apply INC in Hik. apply in_upto in Hik. destruct Hik as [Hi [Hk N]].
    unfold newl in N. apply andb_prop in N. destruct N as [N1 N2]. split; [exact Hi|]. split; [lia|]. split; [apply OK1; assumption|].
    intros k' Hk'. apply OK2; [exact Hi|]. apply negb_true_iff in N2. unfold before in N2.
    destruct (okl LV sim k' i) eqn:O; [|reflexivity]. exfalso.
    enough (existsb (fun k' => okl LV sim k' i) (seq 0 kk) = true) by congruence. apply existsb_exists. exists k'. split; [apply in_seq; lia|exact O].
  - intros i Hi NI.
    assert (DI : ~ In i (map fst U) \/ exists ki, In (i, ki) (skipn limit U)).
    { destruct (in_dec Nat.eq_dec i (map fst U)) as [I|I]; [|left; exact I]. right.
      rewrite <- (firstn_skipn limit U), map_app in I. apply in_app_or in I. destruct I as [I|I]; [contradiction|].
      apply in_map_iff in I. destruct I as [[i' ki] [E1 I]]. cbn in E1. subst. exists ki. exact I. }
    split.
    + intros j kk k' Hj Hk'. apply OK2; [exact Hi|].
      assert (kk < k) by (apply INC in Hj; apply in_upto in Hj; lia).
      destruct DI as [DI|[ki DI]].
      * apply (not_upto LV sim P k i Hi DI). lia.
      * pose proof (SO2 _ _ Hj DI) as LE. cbn in LE.
        assert (I : In (i, ki) U) by (rewrite <- (firstn_skipn limit U); apply in_or_app; right; exact DI).
        apply in_upto in I. destruct I as [_ [_ N]]. unfold newl in N. apply andb_prop in N. destruct N as [_ N].
        apply negb_true_iff in N. unfold before in N. destruct (okl LV sim k' i) eqn:O; [|reflexivity]. exfalso.
        enough (existsb (fun k' => okl LV sim k' i) (seq 0 ki) = true) by congruence. apply existsb_exists. exists k'. split; [apply in_seq; lia|exact O].
    + intro LT. rewrite firstn_length in LT. destruct Q as [Q|Q]; [|lia].
      destruct DI as [DI|[ki DI]].
      * apply OK2; [exact Hi|]. apply (not_upto LV sim P k i Hi DI). lia.
      * rewrite skipn_all2 in DI by lia. destruct DI.
Qed.

(** Without Gaussian noise SMOTE's rows have the dimension of the data. *)
Lemma smote_rsb_plain dist vol nn p r D mn mj X1 y1 :
  knn_ok dist nn -> rng_ok r -> wf_data (d_X D) (d_dim D) (d_y D) -> is_minority (d_y D) mn mj ->
  smote_sample vol nn p r D = Ok (X1, y1) -> ss_gauss (sm_ss p) = GNone -> rect (d_dim D) X1.
Proof.
  intros K R W M H G. pose proof (smote_hull dist vol nn p r D mn mj X1 y1 K R W M G H) as Hu. cbv zeta in Hu.
  destruct (smote_prefix _ _ _ _ _ _ _ _ _ _ K R W M H) as [S [n [-> _]]].
  unfold rect. apply Forall_app. split; [exact (proj1 W)|]. apply Forall_forall. intros x Hx.
  rewrite skipn_app, skipn_all, Nat.sub_diag in Hu. destruct (Hu x Hx) as [_ [[pts [_ HH]] _]]. exact (proj1 HH).
Qed.
