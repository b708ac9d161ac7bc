(** Proofs about GroupModel: NRSBoundary_SMOTE. *)

From Coq Require Import List ZArith QArith Bool Arith Lia Lqa Sorting.Sorted Permutation.
From Verif Require Import Np PyVal NpFacts BaseFacts SimplexModel Spec SpecDanger SpecNoise SpecComp SimplexFacts SimplexGeom Float64
  SamplerModel SamplerFacts OversFacts BaseModel KnnFacts DangerModel DangerFacts ClusterOversModel OversGen
  ClusterOversFacts ClusterFacts NoiseModel NoiseFacts NoiseFacts2 CompModel CompFacts CompFacts2 CompFacts3 CompFacts4 EditModel SpecEdit EditFacts4 EditFacts5
  SpecNear NearFacts NearFacts2 LevelModel SpecLevel LevelFacts LevelFacts3 LevelFacts4 GroupModel SpecGroup GroupFacts GroupFacts2.
Import ListNotations.
Open Scope nat_scope.

(** * The radii *)

Lemma nrs_delta_length dist w X : length (nrs_delta dist w X) = length X.
Proof. unfold nrs_delta. rewrite map_length, combine_length, seq_length. unfold dist_matrix. rewrite map_length. lia. Qed.

Lemma nth_map' {A B} (f : A -> B) da db l i : i < length l -> nth i (map f l) db = f (nth i l da).
Proof. intros H. rewrite (nth_indep _ db (f da)) by (now rewrite map_length). apply map_nth. Qed.

Lemma nrs_delta_ok dist w X i : 2 <= length X -> i < length X -> nrs_radius dist w X i (nth i (nrs_delta dist w X) 0%Q).
Proof.
  intros H2 Hi. set (distm := dist_matrix dist X X). set (top := col_max (map col_max distm)).
  set (f := fun j => dist (nth i X []) (nth j X [])).
  assert (Lm : length distm = length X) by (unfold distm, dist_matrix; apply map_length).
  assert (Erow : nth i distm [] = map f (seq 0 (length X))).
  { unfold distm, dist_matrix. rewrite (nth_map' _ []) by assumption. apply map_seq_nth. }
  assert (Ed : nth i (nrs_delta dist w X) 0%Q =
     let row := nth i distm [] in
     let lo := col_min (map (fun jq => if fst jq =? i then top else snd jq) (combine (seq 0 (length row)) row)) in
     (lo + w * (col_max row - lo))%Q).
  { unfold nrs_delta. fold distm. fold top. rewrite (nth_map' _ (0, [])) by (rewrite combine_length, seq_length; lia).
    rewrite combine_nth by (rewrite seq_length; reflexivity). rewrite seq_nth by lia. reflexivity. }
  rewrite Ed. cbv zeta. rewrite Erow.
  assert (Em : map (fun jq : nat * Q => if fst jq =? i then top else snd jq) (combine (seq 0 (length (map f (seq 0 (length X))))) (map f (seq 0 (length X)))) =
     map (fun j => if j =? i then top else f j) (seq 0 (length X))).
  { rewrite map_length, seq_length. generalize (seq 0 (length X)). clear. induction l as [|a l IH]; [reflexivity|]. cbn. now rewrite IH. }
  rewrite Em. clear Em Ed.
  assert (Hne : forall B (h : nat -> B), map h (seq 0 (length X)) <> []).
  { intros B h E. apply (f_equal (@length B)) in E. rewrite map_length, seq_length in E. cbn in E. lia. }
  destruct (col_max_spec _ (Hne Q f)) as [M1 M2]. destruct (col_min_spec _ (Hne Q (fun j => if j =? i then top else f j))) as [N1 N2].
  set (lo := col_min _) in *. set (hi := col_max (map f (seq 0 (length X)))) in *.
  assert (Htop : forall j, j < length X -> (f j <= top)%Q).
  { intros j Hj. assert (Hd : map col_max distm <> []).
    { intros E. apply (f_equal (@length Q)) in E. rewrite map_length in E. cbn in E. lia. }
    destruct (col_max_spec _ Hd) as [_ T2]. apply (Qle_trans _ hi).
    - apply M2. apply in_map, in_seq. lia.
    - apply T2. apply in_map_iff. exists (nth i distm []). split; [rewrite Erow; reflexivity|]. apply nth_In. lia. }
  exists lo, hi. cbv zeta. fold f.
  assert (Hlo : forall j, j < length X -> j <> i -> (lo <= f j)%Q).
  { intros j Hj N. apply N2. apply in_map_iff. exists j. split; [|apply in_seq; lia]. destruct (Nat.eqb_spec j i); [congruence|reflexivity]. }
  split; [|split; [exact Hlo|split; [|split]]].
  - apply in_map_iff in N1 as (j & Ej & Hj). apply in_seq in Hj. destruct (Nat.eqb_spec j i) as [Eji|N].
    + (* only the diagonal entry: all others are as large *)
      assert (Hj' : exists j', j' < length X /\ j' <> i) by (destruct i; [exists 1|exists 0]; split; lia).
      destruct Hj' as (j' & Hj' & N'). exists j'. split; [assumption|]. split; [assumption|].
      apply Qle_antisym; [rewrite <- Ej; now apply Htop|now apply Hlo].
    + exists j. split; [lia|]. split; [assumption|]. rewrite Ej. reflexivity.
  - apply in_map_iff in M1 as (j & Ej & Hj). apply in_seq in Hj. exists j. split; [lia|]. rewrite Ej. reflexivity.
  - intros j Hj. apply M2. apply in_map, in_seq. lia.
  - reflexivity.
Qed.

(** * The two sets *)

Lemma votes_all y t z : votes y t z = length t <-> forall i, In i t -> nth i y 0%Z = z.
Proof.
  unfold votes. induction t as [|i t IH]; [cbn; split; [intros _ ? []|reflexivity]|]. cbn [filter length].
  pose proof (filter_length_le (fun i => Z.eqb (nth i y 0%Z) z) t) as Hle || assert (Hle : length (filter (fun i => Z.eqb (nth i y 0%Z) z) t) <= length t)
    by (clear; induction t as [|a t IH]; [reflexivity|]; cbn; destruct (Z.eqb _ _); cbn; lia).
  destruct (Z.eqb_spec (nth i y 0%Z) z) as [E|N]; cbn [length].
  - split.
    + intros H j [->|Hj]; [assumption|]. apply IH; [lia|assumption].
    + intros H. f_equal. apply IH. intros j Hj. apply H. now right.
  - split; [lia|]. intros H. destruct N. apply H. now left.
Qed.

Lemma two_labels_other y mn mj j : two_labels y mn mj -> j < length y -> nth j y 0%Z <> mn <-> nth j y 0%Z = mj.
Proof.
  intros (N & _ & _ & H) Hj. specialize (H (nth j y 0%Z) (nth_In _ _ Hj)). split.
  - intros H'. destruct H; [contradiction|assumption].
  - intros E E'. congruence.
Qed.

Section Flags.
Variables (dist : row -> row -> Q) (radius : list row -> row -> Q -> list nat) (D : dataset) (mn mj : Z) (delta : list Q).
Hypothesis Hrad : within_ok dist radius.
Hypothesis Hl : length (d_X D) = length (d_y D).
Hypothesis H2l : two_labels (d_y D) mn mj.
Hypothesis Ld : length delta = length (d_X D).

Let near (i j : nat) : Prop := j < length (d_X D) /\ (dist (nth i (d_X D) []) (nth j (d_X D) []) <= nth i delta 0)%Q.

Lemma nrs_flags_ok : exists flags, nrs_flags radius mn mj D delta = Ok flags /\ length flags = length (d_X D) /\
  positions (fun i => i < length (d_X D) /\ nth i (d_y D) 0%Z = mn /\ exists j, near i j /\ nth j (d_y D) 0%Z = mj) (where_ (map fst flags)) /\
  positions (fun i => i < length (d_X D) /\ nth i (d_y D) 0%Z = mj /\ forall j, near i j -> nth j (d_y D) 0%Z = mj) (where_ (map snd flags)).
Proof.
  set (X := d_X D) in *. set (y := d_y D) in *.
  set (ind := fun i => radius X (nth i X []) (nth i delta 0%Q)).
  assert (Hind : forall i, Forall (fun j => j < length y) (ind i)).
  { intros i. apply Forall_forall. intros j Hj. apply Hrad in Hj as [Hj _]. lia. }
  set (bnd := fun i => (nth i y 0 =? mn)%Z && negb (votes y (ind i) mn =? length (ind i))).
  set (psv := fun i => negb (bnd i) && (nth i y 0 =? mj)%Z && (votes y (ind i) mj =? length (ind i))).
  assert (E : nrs_flags radius mn mj D delta = Ok (map (fun i => (bnd i, psv i)) (seq 0 (length X)))).
  { unfold nrs_flags. fold X. fold y.
    assert (Ec : combine X (combine y delta) = map (fun i => (nth i X [], (nth i y 0%Z, nth i delta 0%Q))) (seq 0 (length X))).
    { apply (nth_ext _ _ ([], (0%Z, 0%Q)) ([], (0%Z, 0%Q))).
      - rewrite !combine_length, map_length, seq_length. lia.
      - intros i Hi. rewrite !combine_length in Hi. rewrite combine_nth by (rewrite combine_length; lia). rewrite combine_nth by lia.
        rewrite (nth_map' _ 0) by (rewrite seq_length; lia). rewrite seq_nth by lia. reflexivity. }
    rewrite Ec, mapM_map. rewrite (mapM_ext_in _ (fun i => Ok (bnd i, psv i))); [apply mapM_pure|].
    intros i _. fold (ind i). rewrite !count_at_ok by apply Hind. reflexivity. }
  exists (map (fun i => (bnd i, psv i)) (seq 0 (length X))). split; [assumption|]. split; [now rewrite map_length, seq_length|].
  assert (K : forall h : nat -> bool, positions (fun i => i < length X /\ h i = true) (where_ (map h (seq 0 (length X))))).
  { intros h. eapply positions_ext; [|apply positions_where]. intros i. cbn beta. rewrite nth_error_map_true. split.
    - intros (a & Ea & Ha). assert (Hi : i < length (seq 0 (length X))) by (apply nth_error_Some; congruence). rewrite seq_length in Hi.
      apply (nth_error_nth _ _ 0) in Ea. rewrite seq_nth in Ea by assumption. cbn in Ea. subst a. now split.
    - intros [Hi Ha]. exists i. split; [|assumption]. rewrite (nth_error_nth' _ 0) by now rewrite seq_length. now rewrite seq_nth. }
  assert (Hn : forall i j, In j (ind i) <-> near i j) by (intros i j; apply Hrad).
  assert (Hb : forall i, i < length X -> (bnd i = true <-> nth i y 0%Z = mn /\ exists j, near i j /\ nth j y 0%Z = mj)).
  { intros i Hi. unfold bnd. rewrite andb_true_iff, Z.eqb_eq, negb_true_iff, Nat.eqb_neq. apply and_iff_compat_l. split.
    - intros H. assert (G : exists j, In j (ind i) /\ nth j y 0%Z <> mn).
      { destruct (existsb (fun j => negb (Z.eqb (nth j y 0%Z) mn)) (ind i)) eqn:Ex.
        - apply existsb_exists in Ex as (j & H1 & H2). exists j. split; [assumption|]. apply negb_true_iff, Z.eqb_neq in H2. assumption.
        - exfalso. apply H. apply votes_all. intros j Hj. destruct (Z.eq_dec (nth j y 0%Z) mn) as [|N]; [assumption|]. exfalso.
          assert (existsb (fun j => negb (Z.eqb (nth j y 0%Z) mn)) (ind i) = true); [|congruence].
          apply existsb_exists. exists j. split; [assumption|]. now apply negb_true_iff, Z.eqb_neq. }
      destruct G as (j & H1 & H2). exists j. split; [now apply Hn|]. apply (two_labels_other y mn mj); auto.
      specialize (Hind i). rewrite Forall_forall in Hind. now apply Hind.
    - intros (j & H1 & H2) H. destruct H2l as (N & _). apply N. rewrite <- H2. symmetry. apply (proj1 (votes_all y (ind i) mn) H). now apply Hn. }
  assert (Hp : forall i, i < length X -> (psv i = true <-> nth i y 0%Z = mj /\ forall j, near i j -> nth j y 0%Z = mj)).
  { intros i Hi. unfold psv. rewrite !andb_true_iff, Z.eqb_eq, negb_true_iff, Nat.eqb_eq, votes_all. split.
    - intros [[_ H1] H2]. split; [assumption|]. intros j Hj. apply H2. now apply Hn.
    - intros [H1 H2]. split; [split; [|assumption]|].
      + unfold bnd. assert (Ez : Z.eqb (nth i y 0%Z) mn = false); [|now rewrite Ez]. apply Z.eqb_neq. destruct H2l as (N & _). congruence.
      + intros j Hj. apply H2. now apply Hn. }
  rewrite !map_map. cbn [fst snd]. split.
  - eapply positions_ext; [|apply (K bnd)]. intros i. cbn beta. split; intros [H1 H2]; (split; [assumption|]); now apply (Hb i H1).
  - eapply positions_ext; [|apply (K psv)]. intros i. cbn beta. split; intros [H1 H2]; (split; [assumption|]); now apply (Hp i H1).
Qed.
End Flags.

(** * The loop *)

Lemma filter_kept (f : row -> bool) (P : row -> Prop) l : (forall x, f x = true <-> P x) -> kept_rows P l (filter f l).
Proof.
  intros H. induction l as [|x l IH]; [constructor|]. cbn [filter]. destruct (f x) eqn:E; constructor; auto.
  - now apply H.
  - intros G. apply H in G. congruence.
Qed.

Section Loop.
Variables (dist : row -> row -> Q) (vol : list row -> Q) (p : nrs_params) (rs : nat -> rng) (dim n : nat)
  (X X_bound X_min : list row) (T : list (list nat)) (k : nat) (delta : list Q) (pos : list nat).
Hypothesis Hrs : rngs_ok rs.
Hypothesis Hrp : rngs_pos rs.
Hypothesis Hss : plain_ss (nr_ss p).
Hypothesis Hb0 : X_bound <> [].
Hypothesis Rb : rect dim X_bound.
Hypothesis Rm : rect dim X_min.
Hypothesis Hk : 1 <= k.
Hypothesis HT : nearest_table dist X_min X_bound k T.
Hypothesis Hpos : pos <> [].

Let X_pos := rows_at X pos.
Let d0 := map (fun i => nth i delta 0%Q) pos.
Let scale (t : nat) : Q := (1 - qn t * (1 # 10))%Q.
Let cand := fun x => ss_gauss (nr_ss p) = GNone -> neighbour_sample dim X_bound X_min T k (Nat.min (ss_n_dim (nr_ss p)) k - 1) None None x.
Let far := fun t x => forall i, In i pos -> (scale t * nth i delta 0 < dist x (nth i X []))%Q.
Let positive := forallb (fun d => Qlt_b 0 d) d0.
Let last := if positive then Nat.min n 10 else 0.

Lemma no_conflict_far t deltas x : Forall2 (fun d i => (d == scale t * nth i delta 0)%Q) deltas pos ->
  no_conflict dist X_pos deltas x = true <-> far t x.
Proof.
  intros H. unfold no_conflict, far, X_pos. clear Hpos. induction H as [|d i ds is Hd H IH].
  - cbn. split; [intros _ ? []|reflexivity].
  - cbn [rows_at map combine forallb fst snd]. rewrite andb_true_iff, Qlt_b_spec, Hd. unfold rows_at in IH. rewrite IH. split.
    + intros [H1 H2] j [->|Hj]; auto.
    + intros G. split; [apply G; now left|]. intros j Hj. apply G. now right.
Qed.

Lemma guard_pos t deltas : Forall2 (fun d i => (d == scale t * nth i delta 0)%Q) deltas pos -> (t = 0 \/ positive = true) ->
  forallb (fun d => Qlt_b 0 d) deltas = positive && (t <? 10).
Proof.
  intros H Ht.
  assert (S0 : (scale 0 == 1)%Q) by (unfold scale, qn; cbn; reflexivity).
  assert (Ep : positive = true <-> forall i, In i pos -> (0 < nth i delta 0)%Q).
  { unfold positive, d0. rewrite forallb_forall. split.
    - intros G i Hi. apply Qlt_b_spec, G. now apply (in_map (fun i => nth i delta 0%Q)).
    - intros G d Hd. apply in_map_iff in Hd as (i & <- & Hi). now apply Qlt_b_spec, G. }
  assert (Eg : forallb (fun d => Qlt_b 0 d) deltas = true <-> forall i, In i pos -> (0 < scale t * nth i delta 0)%Q).
  { rewrite forallb_forall. clear - H. split.
    - intros G i Hi. induction H as [|d j ds is Hd H IH]; [destruct Hi|]. destruct Hi as [->|Hi].
      + rewrite <- Hd. apply Qlt_b_spec, G. now left.
      + apply IH; [intros; apply G; now right|assumption].
    - intros G d Hd. apply Qlt_b_spec. induction H as [|d' j ds is Hd' H IH]; [destruct Hd|]. destruct Hd as [->|Hd].
      + rewrite Hd'. apply G. now left.
      + apply IH; [intros; apply G; now right|assumption]. }
  apply eq_true_iff_eq. rewrite Eg, andb_true_iff, Nat.ltb_lt. split.
  - intros G. destruct (Nat.lt_ge_cases t 10) as [Hlt|Hge].
    + assert (Hs : (0 < scale t)%Q).
      { unfold scale. assert (qn t < qn 10)%Q by now apply qn_lt. unfold qn in *. cbn in *. change (inject_Z 10) with (10 # 1) in *. Lqa.lra. }
      split; [|assumption]. apply Ep. intros i Hi. specialize (G i Hi). revert G. generalize (nth i delta 0%Q). intros q G.
      destruct (Qlt_le_dec 0 q); [assumption|]. exfalso. assert (scale t * q <= 0)%Q by nra. Lqa.lra.
    + exfalso. destruct Ht as [->|Ht]; [lia|]. destruct pos as [|i ps]; [congruence|]. specialize (G i (or_introl eq_refl)).
      assert (Hd := proj1 Ep Ht i (or_introl eq_refl)).
      assert (Hs : (scale t <= 0)%Q).
      { unfold scale. assert (qn 10 <= qn t)%Q by now apply qn_le. unfold qn in *. cbn in *. change (inject_Z 10) with (10 # 1) in *. Lqa.lra. }
      nra.
  - intros [Hp Hlt] i Hi. assert (Hd := proj1 Ep Hp i Hi).
    assert (Hs : (0 < scale t)%Q).
    { unfold scale. assert (qn t < qn 10)%Q by now apply qn_lt. unfold qn in *. cbn in *. change (inject_Z 10) with (10 # 1) in *. Lqa.lra. }
    nra.
Qed.

Lemma nrs_loop_ok : forall m t deltas samples, m + t = n -> (t = 0 \/ positive = true) ->
  Forall2 (fun d i => (d == scale t * nth i delta 0)%Q) deltas pos ->
  exists S, nrs_loop vol dist m p rs t dim n X_bound X_min X_pos T k (map (fun d => d * (1 # 10))%Q d0) deltas samples = Ok (samples ++ S) /\
    turns cand far n last t (length samples) S.
Proof.
  induction m as [|m IH]; intros t deltas samples Hm Ht Hd.
  - exists []. split; [cbn; now rewrite app_nil_r|]. constructor. right. unfold last. destruct positive; lia.
  - cbn [nrs_loop]. rewrite (guard_pos t deltas Hd Ht).
    destruct (Nat.ltb_spec (length samples) n) as [Hn|Hn]; cbn [andb];
      [|exists []; split; [now rewrite app_nil_r|]; apply turns_done; now left].
    destruct positive eqn:Ep; cbn [andb]; [|exists []; split; [now rewrite app_nil_r|]; apply turns_done; right; unfold last; lia].
    destruct (Nat.ltb_spec t 10) as [H10|H10]; [|exists []; split; [now rewrite app_nil_r|]; apply turns_done; right; unfold last; lia].
    destruct (nearest_table_shape _ _ _ _ _ HT) as (L1 & L2 & L3).
    set (args := mk_args X_bound dim T k None None (Some X_min) false None).
    assert (AO : args_ok args) by (constructor; cbn; auto; try discriminate; lia).
    destruct (ss_call vol (nr_ss p) args ((n - length samples) * 10) (rs t) 0 AO (Hrs _) (Hrp _) Hss) as (B & EB & LB & FB); cbn; auto; try lia.
    { rewrite L1. destruct X_bound; [congruence|cbn; lia]. }
    change (sample_simplex vol (nr_ss p) args ((n - length samples) * 10) (rs t) = Ok B) in EB. rewrite EB. cbn [bind].
    destruct (IH (t + 1) (map2 Qminus deltas (map (fun d => d * (1 # 10))%Q d0)) (samples ++ filter (no_conflict dist X_pos deltas) B)) as (S & ES & HS);
      [lia|now right| |].
    { unfold d0. rewrite map_map. assert (Et : (scale (t + 1) == scale t - (1 # 10))%Q) by (unfold scale; rewrite <- qn_succ; ring).
      clear - Hd Et. induction Hd as [|d i ds is Hd1 Hd IH]; cbn; constructor; [|exact IH]. rewrite Hd1, Et. ring. }
    exists (filter (no_conflict dist X_pos deltas) B ++ S). split; [now rewrite ES, app_assoc|].
    apply (turns_more _ _ _ _ t (length samples) B); auto.
    + unfold last. lia.
    + apply Forall_forall. intros x Hx G. specialize (FB G). rewrite Forall_forall in FB. exact (FB x Hx).
    + apply filter_kept. intros x. now apply no_conflict_far.
    + rewrite app_length in HS. exact HS.
Qed.
End Loop.

(** * The oversampler *)

Lemma nrs_runs dist vol nn radius p rs D mn mj n :
  knn_ok dist nn -> within_ok dist radius -> rngs_ok rs -> rngs_pos rs -> plain_ss (nr_ss p) ->
  wf_data (d_X D) (d_dim D) (d_y D) -> is_minority (d_y D) mn mj -> asked (nr_proportion p) (d_y D) mn mj = Ok n ->
  (count_label (d_y D) mn <= 2 \/ n = 0%Z -> unchanged D (nrs_sample vol dist nn radius p rs D)) /\
  (2 < count_label (d_y D) mn -> (0 < n)%Z -> nrs_spec dist p D mn mj n (nrs_sample vol dist nn radius p rs D)).
Proof.
  intros Hnn Hrad Hrs Hrp Hss [Hr Hl] Hmin Ha. unfold nrs_sample, nrs_algorithm.
  match goal with |- context [sample_with checks_default (fun st D => do k <- _; if k =? 0 then _ else @?b k st D) D] =>
    destruct (sample_shape b (nr_proportion p) D mn mj n Hmin Ha) as (st & (E1 & E2 & _) & E) end.
  cbv beta in E. rewrite E. clear E. split.
  { intros G. unfold unchanged. destruct (Nat.leb_spec (count_label (d_y D) mn) 2); [reflexivity|]. destruct G as [G| ->]; [lia|reflexivity]. }
  intros H2 Hn. destruct (Nat.leb_spec (count_label (d_y D) mn) 2); [lia|]. destruct (Z.eqb_spec n 0); [lia|]. cbn [orb].
  rewrite E1, E2. set (X := d_X D) in *. set (y := d_y D) in *. set (X_min := rows_with mn X y). set (delta := nrs_delta dist (nr_w p) X).
  assert (Lmin : length X_min = count_label y mn) by (apply rows_with_length; assumption).
  assert (LX : 2 <= length X).
  { rewrite Hl. assert (count_label y mn <= length y); [|lia]. unfold count_label. clear. induction y as [|a l IH]; cbn; [lia|]. destruct (Z.eq_dec a mn); lia. }
  assert (Ld : length delta = length X) by apply nrs_delta_length.
  destruct (nrs_flags_ok dist radius D mn mj delta Hrad Hl (proj1 Hmin) Ld) as (flags & Ef & Lf & Hb & Hp). rewrite Ef. cbn [bind].
  fold X in Lf. set (bound := where_ (map fst flags)) in *. set (pos := where_ (map snd flags)) in *.
  rewrite (select_rows_at (map fst flags) X) by (now rewrite map_length). rewrite (select_rows_at (map snd flags) X) by (now rewrite map_length).
  fold bound pos. exists delta, bound, pos. split; [assumption|]. split; [intros i Hi; now apply nrs_delta_ok|]. cbv zeta.
  split; [exact Hb|]. split; [exact Hp|]. rewrite !rows_at_length. split.
  { intros [E|E]; rewrite E; cbn; [now rewrite orb_true_r|reflexivity]. }
  intros Nb Np. destruct (Nat.eqb_spec (length pos) 0) as [E|_]; [apply length_zero_iff_nil in E; congruence|].
  destruct (Nat.eqb_spec (length bound) 0) as [E|_]; [apply length_zero_iff_nil in E; congruence|]. cbn [orb].
  set (k := Nat.min (length X_min) (nr_n_neighbors p + 1)).
  destruct (Hnn X_min (rows_at X bound) k) as (T & ET & HT); [unfold k; lia|]. rewrite ET. cbn [bind].
  assert (Es : select (map snd flags) delta = map (fun i => nth i delta 0%Q) pos).
  { unfold pos. rewrite (select_nth 0%Q) by (rewrite map_length; lia). rewrite where_filter, map_length, Ld, Lf. reflexivity. }
  rewrite Es.
  assert (Bb : Forall (fun i => i < length X) bound) by (eapply positions_bound; [exact Hb|]; intros i (Hi & _); assumption).
  edestruct (nrs_loop_ok dist vol p rs (d_dim D) (Z.to_nat n) X (rows_at X bound) X_min T k delta pos Hrs Hrp Hss) as (S & ES & HS).
  { intros E. apply (f_equal (@length row)) in E. rewrite rows_at_length in E. cbn in E. apply length_zero_iff_nil in E. congruence. }
  { now apply rows_at_rect. }
  { now apply rows_with_rect. }
  { unfold k. lia. }
  { exact HT. }
  { exact Np. }
  { instantiate (1 := 0). instantiate (1 := Z.to_nat n). lia. }
  { now left. }
  { instantiate (1 := map (fun i => nth i delta 0%Q) pos). clear. induction pos as [|i l IH]; cbn [map]; constructor; [|exact IH]. unfold qn. cbn. ring. }
  instantiate (1 := []) in ES. rewrite ES. cbn [bind app]. exists T, S. eexists. split; [exact HT|]. split; [|split; [|split; [exact HS|]]].
  - intros (i & Hi & Hle). destruct (forallb _ _) eqn:Ef'; [|reflexivity]. exfalso. rewrite forallb_forall in Ef'.
    specialize (Ef' (nth i delta 0%Q)). rewrite Qlt_b_spec in Ef'. apply (Qlt_not_le _ _ (Ef' (in_map (fun i => nth i delta 0%Q) _ _ Hi)) Hle).
  - intros G. destruct (forallb _ _) eqn:Ef'; [reflexivity|]. exfalso. assert (K : forallb (fun d => Qlt_b 0 d) (map (fun i => nth i delta 0%Q) pos) = true); [|congruence].
    apply forallb_forall. intros d Hd. apply in_map_iff in Hd as (i & <- & Hi). now apply Qlt_b_spec, G.
  - split.
    + intros ->. reflexivity.
    + intros NS. destruct S as [|x S']; [congruence|].
      assert (Ef2 : firstn (Nat.min (length (x :: S')) (Z.to_nat n)) (x :: S') = firstn (Z.to_nat n) (x :: S')).
      { rewrite <- (firstn_all (x :: S')) at 3. rewrite firstn_firstn. f_equal. lia. }
      unfold extended. rewrite Ef2, E1. reflexivity.
Qed.
