(** Facts about EditModel.v: SMOTE_IPF and Supervised_SMOTE. *)

From Coq Require Import List ZArith QArith Qabs Qround Bool Arith Lia Sorting.Sorted Permutation Lqa.
From Verif Require Import Np NpFacts KnnFacts SimplexModel SimplexGeom SamplerModel SamplerFacts Spec SpecNoise SpecComp
  NoiseModel NoiseFacts NoiseFacts2 ClusterOversModel ClusterOversFacts CompModel CompFacts CompFacts2 CompFacts3 OversFacts OversGen EditModel SpecEdit
  EditFacts EditFacts2 EditFacts3 EditFacts4.
Import ListNotations.
Open Scope nat_scope.

Section Ipf.
Variables (predict : nat -> list row -> list Z -> res (list (list Z))) (p : ipf_params) (folds : nat).
Let v := if_voting p.
Let nf := if_n_folds p.
Let k := if_k p.

Definition ipf_mask (ps : list (list Z)) (y : list Z) : list bool :=
  map (fun i => ipf_remove p (map (fun ps => nth i ps 0%Z) ps) (nth i y 0%Z)) (seq 0 (length y)).

Lemma remove_iff ps y i : ipf_remove p (map (fun ps => nth i ps 0%Z) ps) (nth i y 0%Z) = true <-> outvoted v nf ps y i.
Proof.
  unfold ipf_remove, outvoted. rewrite map_length. set (s := zsum _).
  assert (H : Qlt_b (1 # 2) (inject_Z s / inject_Z (Z.of_nat (length ps))) = (Z.of_nat (length ps) <? 2 * s)%Z \/ length ps = 0).
  { destruct (Nat.eq_dec (length ps) 0) as [Q|Q]; [right; exact Q|left].
    assert (LP : (0 < inject_Z (Z.of_nat (length ps)))%Q) by (change 0%Q with (inject_Z 0); rewrite <- Zlt_Qlt; lia).
    apply eq_true_iff_eq. rewrite Qlt_b_iff, Z.ltb_lt. rewrite Zlt_Qlt, inject_Z_mult. change (inject_Z 2) with 2%Q.
    set (l := inject_Z (Z.of_nat (length ps))) in *. set (z := inject_Z s).
    assert (E : (z == l * (z / l))%Q) by (field; lra). set (t := (z / l)%Q) in *.
    split; intro G; [rewrite E; nra|]. apply Qnot_le_lt. intro G'. rewrite E in G. nra. }
  assert (V : (if Qlt_b (1 # 2) (inject_Z s / inject_Z (Z.of_nat (length ps))) then 1%Z else 0%Z) = if (Z.of_nat (length ps) <? 2 * s)%Z then 1%Z else 0%Z).
  { destruct H as [->|H]; [reflexivity|]. assert (s = 0%Z) as ->.
    { unfold s. destruct ps; [reflexivity|discriminate]. }
    rewrite H. reflexivity. }
  rewrite V. fold v. fold nf. rewrite andb_true_iff, negb_true_iff, Z.eqb_neq.
  assert (C : (match v with Majority => true | Consensus => (s =? Z.of_nat nf)%Z end) = true <-> (v = Consensus -> s = Z.of_nat nf)).
  { destruct v; [intuition discriminate|]. rewrite Z.eqb_eq. intuition. }
  rewrite C. destruct (Z.ltb_spec (Z.of_nat (length ps)) (2 * s)); intuition (try lia; congruence).
Qed.

Lemma mask_drops ps X y : length X = length y ->
  drops_exactly X y (outvoted v nf ps y) (delete_idx X (where_ (ipf_mask ps y))) (delete_idx y (where_ (ipf_mask ps y))).
Proof.
  intro L. apply delete_both; [exact L|]. intros i Hi. rewrite where_in. unfold ipf_mask. rewrite map_length, seq_length.
  set (f := fun i => ipf_remove p (map (fun ps => nth i ps 0%Z) ps) (nth i y 0%Z)).
  destruct (Nat.lt_ge_cases i (length y)) as [Hy|Hy]; [|lia].
  rewrite (nth_indep (map f _) false (f 0)) by (rewrite map_length, seq_length; exact Hy).
  rewrite map_nth, seq_nth by exact Hy. cbn [plus]. unfold f. rewrite remove_iff. intuition.
Qed.

Lemma where_length_le (m : list bool) : length (where_ m) <= length m.
Proof.
  rewrite where_filter. etransitivity; [apply filter_len|]. rewrite seq_length. reflexivity.
Qed.

Lemma where_delete {A} (X : list A) m : length m = length X -> length (delete_idx X (where_ m)) = length X - length (where_ m).
Proof.
  intro L. destruct X as [|d X'] eqn:E; [destruct m; [reflexivity|discriminate]|]. rewrite <- E in *.
  rewrite (delete_idx_kept d), map_length. unfold kept.
  pose proof (filter_partition (fun i => existsb (Nat.eqb i) (where_ m)) (seq 0 (length X))) as FP. rewrite seq_length in FP.
  assert (EQ : filter (fun i => existsb (Nat.eqb i) (where_ m)) (seq 0 (length X)) = where_ m).
  { etransitivity; [|symmetry; apply where_filter]. rewrite L. apply filter_ext_in'. intros i Hi. apply in_seq in Hi.
    apply eq_true_iff_eq. rewrite existsb_eqb, where_in. intuition lia. }
  rewrite EQ in FP. lia.
Qed.

Lemma ipf_loop_run : forall fuel c X y X' y', length X = length y ->
  ipf_loop predict fuel p folds c X y = Ok (X', y') ->
  ipf_run (predict folds) v nf k (if_p p) c X y X' y'.
Proof.
  induction fuel as [|fuel IH]; intros c X y X' y' L H; cbn [ipf_loop] in H; fold k in H; destruct (Nat.ltb_spec c k) as [C|C]; try discriminate;
    try (injection H as <- <-; apply ipf_stop; lia).
  inv_bind H. rename a into ps.
  fold (ipf_mask ps y) in H.
  set (idx := where_ (ipf_mask ps y)) in *.
  assert (LM : length (ipf_mask ps y) = length X) by (unfold ipf_mask; rewrite map_length, seq_length; lia).
  pose proof (where_delete X (ipf_mask ps y) LM) as LD. fold idx in LD.
  pose proof (where_length_le (ipf_mask ps y)) as LW. fold idx in LW.
  pose proof (mask_drops ps X y L) as Dr. fold idx in Dr.
  apply IH in H; [|exact (drops_length _ _ _ _ _ Dr)].
  eapply ipf_round; [exact C|exact E|exact Dr| | |exact H].
  - intro Q. replace (length X - length (delete_idx X idx)) with (length idx) in Q by lia.
    apply Qlt_b_iff in Q. rewrite Q. reflexivity.
  - intro Q. replace (length X - length (delete_idx X idx)) with (length idx) in Q by lia.
    destruct (Qlt_b _ _) eqn:B; [|reflexivity]. apply Qlt_b_iff in B. lra.
Qed.

Lemma ipf_run_sub c X y X' y' : length X = length y ->
  ipf_run (predict folds) v nf k (if_p p) c X y X' y' -> sub_data X y X' y'.
Proof.
  intros L H. induction H as [c X y C|c c' X y ps X1 y1 X' y' C E Dr Q1 Q2 R IH].
  - split; [exact L|]. exists []. rewrite app_nil_r. reflexivity.
  - eapply sub_data_trans; [apply (drops_sub _ _ _ _ _ L Dr)|]. apply IH. exact (drops_length _ _ _ _ _ Dr).
Qed.

(** The rounds end. *)
Lemma ipf_ends : predict_ok (predict folds) -> (0 < if_p p)%Q -> forall fuel c X y, length X = length y ->
  length X * (k + 1) + (k - c) <= fuel ->
  (exists X' y', ipf_loop predict fuel p folds c X y = Ok (X', y')) \/
  (exists e Xa ya, ipf_loop predict fuel p folds c X y = Err e /\ sub_data X y Xa ya /\ predict folds Xa ya = Err e /\ e <> OutOfFuel).
Proof.
  intros [PF P0] Pp. induction fuel as [|fuel IH]; intros c X y L F; cbn [ipf_loop]; fold k; destruct (Nat.ltb_spec c k) as [C|C];
    try (left; eauto; fail); [lia|].
  destruct (predict folds X y) as [ps|e] eqn:E; cbn [bind].
  2: { right. exists e, X, y. split; [reflexivity|]. split; [split; [exact L|]; exists []; rewrite app_nil_r; reflexivity|].
       split; [exact E|]. intros ->. exact (PF _ _ E). }
  fold (ipf_mask ps y). set (idx := where_ (ipf_mask ps y)).
  assert (LM : length (ipf_mask ps y) = length X) by (unfold ipf_mask; rewrite map_length, seq_length; lia).
  pose proof (where_delete X (ipf_mask ps y) LM) as LD. fold idx in LD.
  pose proof (where_length_le (ipf_mask ps y)) as LW. fold idx in LW.
  pose proof (mask_drops ps X y L) as Dr. fold idx in Dr.
  pose proof (drops_length _ _ _ _ _ Dr) as L1.
  assert (NE : length X <> 0).
  { intro Z0. destruct X; [|discriminate]. destruct y; [|discriminate]. exact (P0 _ E). }
  set (c' := if Qlt_b _ _ then S c else 0).
  assert (G : length (delete_idx X idx) * (k + 1) + (k - c') <= fuel).
  { unfold c'. destruct (Qlt_b _ _) eqn:B; [nia|].
    assert (B' : (inject_Z (Z.of_nat (length (delete_idx X idx))) * if_p p <= inject_Z (Z.of_nat (length idx)))%Q).
    { apply Qnot_lt_le. intro G. apply Qlt_b_iff in G. congruence. }
    destruct (Nat.eq_dec (length (delete_idx X idx)) 0) as [Q|Q]; [rewrite Q; nia|].
    assert (length idx <> 0).
    { intro Z0. rewrite Z0 in B'. change (inject_Z (Z.of_nat 0)) with 0%Q in B'.
      assert (0 < inject_Z (Z.of_nat (length (delete_idx X idx))))%Q by (change 0%Q with (inject_Z 0); rewrite <- Zlt_Qlt; lia). nra. }
    nia. }
  destruct (IH c' _ _ L1 G) as [H|[e [Xa [ya [H1 [H2 H3]]]]]]; [left; exact H|right].
  exists e, Xa, ya. split; [exact H1|]. split; [eapply sub_data_trans; [apply (drops_sub _ _ _ _ _ L Dr)|exact H2]|exact H3].
Qed.

(** More fuel changes nothing. *)
Lemma ipf_fuel : forall fuel c X y r, ipf_loop predict fuel p folds c X y = r -> r <> Err OutOfFuel ->
  forall fuel', fuel <= fuel' -> ipf_loop predict fuel' p folds c X y = r.
Proof.
  induction fuel as [|fuel IH]; intros c X y r H N fuel' F.
  - cbn [ipf_loop] in H. destruct (c <? if_k p) eqn:C; [congruence|]. destruct fuel'; cbn [ipf_loop]; rewrite C; exact H.
  - destruct fuel' as [|fuel']; [lia|]. cbn [ipf_loop] in *. destruct (c <? if_k p); [|exact H].
    destruct (predict folds X y) as [ps|e]; cbn [bind] in *; [|exact H]. apply IH with (fuel' := fuel') in H; [exact H|exact N|lia].
Qed.

(** With p = 0 the loop never ends normally. *)
Lemma ipf_zero : (if_p p <= 0)%Q -> 0 < k -> forall fuel X y r, ipf_loop predict fuel p folds 0 X y <> Ok r.
Proof.
  intros Pz Kp. induction fuel as [|fuel IH]; intros X y r H; cbn [ipf_loop] in H; fold k in H; destruct (Nat.ltb_spec 0 k) as [C|C]; try lia; [discriminate|].
  inv_bind H. destruct (Qlt_b _ _) eqn:B.
  - apply Qlt_b_iff in B. set (m1 := length (where_ _)) in B. set (m2 := length (delete_idx _ _)) in B.
    assert (0 <= inject_Z (Z.of_nat m1))%Q by (change 0%Q with (inject_Z 0); rewrite <- Zle_Qle; lia).
    assert (0 <= inject_Z (Z.of_nat m2))%Q by (change 0%Q with (inject_Z 0); rewrite <- Zle_Qle; lia). nra.
  - exact (IH _ _ _ H).
Qed.

(** Majority voting leaves no other label than 0 and 1. *)
Lemma ipf_other_labels c X y X' y' : v = Majority -> length X = length y -> c < k ->
  ipf_run (predict folds) v nf k (if_p p) c X y X' y' -> forall z, In z y' -> z = 0%Z \/ z = 1%Z.
Proof.
  intros V L C H z Hz. destruct H as [c X y C'|c c' X y ps X1 y1 X' y' C' E Dr Q1 Q2 R]; [lia|].
  pose proof (drops_length _ _ _ _ _ Dr) as L1.
  pose proof (ipf_run_sub _ _ _ _ _ L1 R) as SB.
  assert (I1 : In z y1).
  { destruct SB as [L2 [rest P]]. destruct (In_nth _ _ 0%Z Hz) as [i [Hi Ei]].
    assert (In (nth i X' [], z) (combine X' y')).
    { rewrite <- Ei, <- (combine_nth _ _ _ _ _ L2). apply nth_In. rewrite combine_length. lia. }
    assert (In (nth i X' [], z) (combine X1 y1)).
    { eapply Permutation_in; [apply Permutation_sym, P|]. apply in_or_app. left. assumption. }
    eapply in_combine_r. eassumption. }
  destruct Dr as [keep [_ [Hk [_ E2]]]]. subst y1. apply in_map_iff in I1. destruct I1 as [i [<- Hi]]. apply Hk in Hi. destruct Hi as [Hi Nd].
  destruct (Z.eq_dec (nth i y 0%Z) 0) as [Z0|Z0]; [left; exact Z0|]. destruct (Z.eq_dec (nth i y 0%Z) 1) as [Z1|Z1]; [right; exact Z1|].
  exfalso. apply Nd. unfold outvoted. split; [|intro G; congruence].
  destruct (Z_lt_le_dec (Z.of_nat (length ps)) (2 * zsum (map (fun p0 => nth i p0 0%Z) ps))); [left|right]; split; assumption.
Qed.

(** Consensus voting never removes a row labelled 1. *)
Lemma ipf_consensus c X y X' y' : v = Consensus -> 0 < nf -> folds <= nf -> length X = length y ->
  (forall Xa ya ps, predict folds Xa ya = Ok ps -> length ps = folds) ->
  ipf_run (predict folds) v nf k (if_p p) c X y X' y' -> rows_with 1%Z X' y' = rows_with 1%Z X y.
Proof.
  intros V Nf Fo L PL H. induction H as [c X y C|c c' X y ps X1 y1 X' y' C E Dr Q1 Q2 R IH]; [reflexivity|].
  rewrite IH by exact (drops_length _ _ _ _ _ Dr).
  apply (rows_with_dropped _ _ _ _ _ _ L Dr). intros i Hi [O1 O2] Z1. specialize (O2 V). pose proof (PL _ _ _ E) as Lp.
  destruct O1 as [[O1 O3]|[O1 O3]]; [congruence|]. lia.
Qed.
End Ipf.

Lemma ipf_runs dist vol nn predict fuel p r D mn mj n X1 y1 :
  knn_ok dist nn -> rng_ok r -> wf_data (d_X D) (d_dim D) (d_y D) -> is_minority (d_y D) mn mj ->
  asked (sm_proportion (if_smote p)) (d_y D) mn mj = Ok n -> smote_sample vol nn (if_smote p) r D = Ok (X1, y1) ->
  let folds := Nat.min (if_n_folds p) (count_label (d_y D) mn) in
  let out := ipf_sample vol nn predict fuel p r D in
  (count_label (d_y D) mn <= 2 \/ n = 0%Z -> unchanged D out) /\
  (2 < count_label (d_y D) mn -> (0 < n)%Z ->
   (forall X' y', out = Ok (X', y') ->
      ipf_run (predict folds) (if_voting p) (if_n_folds p) (if_k p) (if_p p) 0 X1 y1 X' y' /\ sub_data X1 y1 X' y') /\
   (predict_ok (predict folds) -> (0 < if_p p)%Q -> length X1 * (if_k p + 1) + if_k p <= fuel ->
      (exists X' y', out = Ok (X', y')) \/
      (exists e Xa ya, out = Err e /\ e <> OutOfFuel /\ sub_data X1 y1 Xa ya /\ predict folds Xa ya = Err e))).
Proof.
  intros K R W M A H folds out. unfold out, ipf_sample.
  destruct (sample_shape (fun k st D => do new <- smote_sample vol nn (if_smote p) r D;
    ipf_loop predict fuel p (Nat.min (if_n_folds p) (n_label (d_y D) (min_label st))) 0 (fst new) (snd new)) _ D mn mj n M A) as [st [[S1 [S2 _]] E]].
  change (sample_with checks_default (ipf_algorithm vol nn predict fuel p r) D) with
    (sample_with checks_default (fun st D => do k <- det_n_to_sample_st (sm_proportion (if_smote p)) st;
       if k =? 0 then Ok (d_X D, d_y D) else do new <- smote_sample vol nn (if_smote p) r D;
    ipf_loop predict fuel p (Nat.min (if_n_folds p) (n_label (d_y D) (min_label st))) 0 (fst new) (snd new)) D).
  rewrite E. clear E. split.
  { intros [C|C]; unfold unchanged; [apply Nat.leb_le in C; rewrite C|rewrite C, orb_true_r]; reflexivity. }
  intros C Hn. destruct (Nat.leb_spec (count_label (d_y D) mn) 2); [lia|]. destruct (Z.eqb_spec n 0); [lia|]. cbn [orb].
  rewrite H. cbn [bind fst snd]. rewrite S1. change (n_label (d_y D) mn) with (count_label (d_y D) mn). fold folds.
  destruct (smote_two _ _ _ _ _ _ _ _ _ _ K R W M H) as [L1 _].
  split.
  - intros X' y' Q. pose proof (ipf_loop_run _ _ _ _ _ _ _ _ _ L1 Q) as RR. split; [exact RR|]. exact (ipf_run_sub _ _ _ _ _ _ _ _ L1 RR).
  - intros PO Pp F. destruct (ipf_ends predict p folds PO Pp fuel 0 X1 y1 L1 ltac:(lia)) as [G|[e [Xa [ya [G1 [G2 [G3 G4]]]]]]]; [left; exact G|right].
    exists e, Xa, ya. auto.
Qed.

(** The consequences for the whole call. *)
Section IpfCalls.
Variables (dist : row -> row -> Q) (vol : list row -> Q) (nn : list row -> list row -> nat -> res (list (list nat)))
  (predict : nat -> list row -> list Z -> res (list (list Z))) (p : ipf_params) (r : rng) (D : dataset) (mn mj n : Z)
  (X1 : list row) (y1 : list Z).
Let folds := Nat.min (if_n_folds p) (count_label (d_y D) mn).
Hypotheses (K : knn_ok dist nn) (R : rng_ok r) (W : wf_data (d_X D) (d_dim D) (d_y D)) (M : is_minority (d_y D) mn mj)
  (A : asked (sm_proportion (if_smote p)) (d_y D) mn mj = Ok n) (H : smote_sample vol nn (if_smote p) r D = Ok (X1, y1))
  (C : 2 < count_label (d_y D) mn) (N : (0 < n)%Z).

Lemma ipf_call fuel X' y' : ipf_sample vol nn predict fuel p r D = Ok (X', y') -> length X1 = length y1 /\
  ipf_run (predict folds) (if_voting p) (if_n_folds p) (if_k p) (if_p p) 0 X1 y1 X' y'.
Proof.
  intro E. destruct (smote_two _ _ _ _ _ _ _ _ _ _ K R W M H) as [L1 _]. split; [exact L1|].
  destruct (ipf_runs dist vol nn predict fuel p r D mn mj n X1 y1 K R W M A H) as [_ G].
  exact (proj1 (proj1 (G C N) X' y' E)).
Qed.

Lemma ipf_call_labels fuel X' y' : if_voting p = Majority -> 0 < if_k p ->
  ipf_sample vol nn predict fuel p r D = Ok (X', y') -> forall z, In z y' -> z = 0%Z \/ z = 1%Z.
Proof.
  intros V Kp E. destruct (ipf_call _ _ _ E) as [L G]. exact (ipf_other_labels predict p folds 0 X1 y1 X' y' V L Kp G).
Qed.

Lemma ipf_call_consensus fuel X' y' : if_voting p = Consensus -> 0 < if_n_folds p ->
  (forall Xa ya ps, predict folds Xa ya = Ok ps -> length ps = folds) ->
  ipf_sample vol nn predict fuel p r D = Ok (X', y') -> rows_with 1%Z X' y' = rows_with 1%Z X1 y1.
Proof.
  intros V Nf PL E. destruct (ipf_call _ _ _ E) as [L G].
  refine (ipf_consensus predict p folds 0 X1 y1 X' y' V Nf _ L PL G). unfold folds. lia.
Qed.

Lemma zsum_le_length (f : list Z -> Z) ps : (forall q, In q ps -> (f q <= 1)%Z) -> (zsum (map f ps) <= Z.of_nat (length ps))%Z.
Proof.
  induction ps as [|q ps IH]; intro B; [cbn; lia|]. cbn [map length]. change (zsum (f q :: map f ps)) with (f q + zsum (map f ps))%Z.
  specialize (IH ltac:(intros; apply B; right; assumption)). pose proof (B q (or_introl eq_refl)). lia.
Qed.

Lemma ipf_call_few fuel X' y' : if_voting p = Consensus -> count_label (d_y D) mn < if_n_folds p ->
  (forall Xa ya ps, predict folds Xa ya = Ok ps -> length ps = folds /\ forall q i, In q ps -> (nth i q 0 <= 1)%Z) ->
  ipf_sample vol nn predict fuel p r D = Ok (X', y') -> X' = X1 /\ y' = y1.
Proof.
  intros V Nf PL E. destruct (ipf_call _ _ _ E) as [L G]. clear E. revert L G. generalize 0 X1 y1. clear H.
  intros c Xa ya L G. induction G as [c X y Cc|c c' X y ps Xb yb X' y' Cc E Dr Q1 Q2 RR IH]; [split; reflexivity|].
  destruct (PL _ _ _ E) as [Lp Lq].
  assert (Dn : forall i, ~ outvoted (if_voting p) (if_n_folds p) ps y i).
  { intros i [_ O]. specialize (O V). pose proof (zsum_le_length (fun q => nth i q 0%Z) ps (fun q => Lq q i)) as B.
    rewrite O, Lp in B. unfold folds in B. lia. }
  destruct Dr as [keep [Sk [Hk [-> ->]]]].
  assert (EK : keep = seq 0 (length X)).
  { apply (sorted_ext _ _ Sk (seq_StronglySorted 0 (length X))). intro i. rewrite Hk, in_seq. pose proof (Dn i). intuition lia. }
  subst keep. pose proof (NoiseFacts.map_nth_seq [] X) as EX. pose proof (NoiseFacts.map_nth_seq 0%Z y) as EY. rewrite L in IH, EX. rewrite EX, EY in IH.
  apply IH. exact L.
Qed.

Lemma ipf_call_zero fuel X' y' : (if_p p <= 0)%Q -> 0 < if_k p -> ipf_sample vol nn predict fuel p r D <> Ok (X', y').
Proof.
  intros Pz Kp E. unfold ipf_sample in E.
  destruct (sample_shape (fun k st D => do new <- smote_sample vol nn (if_smote p) r D;
    ipf_loop predict fuel p (Nat.min (if_n_folds p) (n_label (d_y D) (min_label st))) 0 (fst new) (snd new)) _ D mn mj n M A) as [st [[S1 [S2 _]] Q]].
  change (sample_with checks_default (ipf_algorithm vol nn predict fuel p r) D) with
    (sample_with checks_default (fun st D => do k <- det_n_to_sample_st (sm_proportion (if_smote p)) st;
       if k =? 0 then Ok (d_X D, d_y D) else do new <- smote_sample vol nn (if_smote p) r D;
    ipf_loop predict fuel p (Nat.min (if_n_folds p) (n_label (d_y D) (min_label st))) 0 (fst new) (snd new)) D) in E.
  rewrite Q in E. clear Q. destruct (Nat.leb_spec (count_label (d_y D) mn) 2); [lia|]. destruct (Z.eqb_spec n 0); [lia|]. cbn [orb] in E.
  rewrite H in E. cbn [bind fst snd] in E. exact (ipf_zero predict p _ Pz Kp _ _ _ _ E).
Qed.
End IpfCalls.

(** ** Supervised_SMOTE *)

Section Supervised.
Variables (vol : list row -> Q) (ss : ss_params) (rs : nat -> rng) (X_min : list row) (dim n : nat).
Variable (proba : row -> Q).
Variables (lo0 hi0 : Q) (P : row -> Prop).
Let batch (i m : nat) := sample_simplex vol ss
        (mk_args X_min dim (circulant (length X_min)) (length X_min) None None None false None) m (rs i).
Hypothesis Bat : forall i m, exists tmp, batch i m = Ok tmp /\ length tmp = m /\ Forall P tmp.

Let step (w : nat) : Q := (inject_Z (Z.of_nat w) * (1 # 10))%Q.
Let accepted (x : row) (w : nat) : Prop := w <= 10 /\ P x /\ (lo0 - step w <= proba x /\ proba x <= hi0 + step w)%Q.
(** The rows so far, with their numbers of steps, none beyond [w]. *)
Let state (w : nat) (samples : list row) : Prop :=
  exists ws, StronglySorted le ws /\ Forall (fun v => v <= w) ws /\ Forall2 accepted samples ws.

Lemma sorted_app_repeat ws w m : StronglySorted le ws -> Forall (fun v => v <= w) ws -> StronglySorted le (ws ++ repeat w m).
Proof.
  induction 1 as [|v ws S IH F]; intro B; cbn [app].
  - induction m; cbn; constructor; [assumption|]. apply Forall_forall. intros z Hz. apply repeat_spec in Hz. lia.
  - inversion B; subst. constructor; [apply IH; assumption|]. apply Forall_app. split; [exact F|].
    apply Forall_forall. intros z Hz. apply repeat_spec in Hz. lia.
Qed.

Lemma Forall2_repeat {A B} (R : A -> B -> Prop) l w : Forall (fun x => R x w) l -> Forall2 R l (repeat w (length l)).
Proof. induction 1; cbn; constructor; assumption. Qed.

Lemma state_app w samples good : state w samples -> Forall (fun x => accepted x w) good -> state w (samples ++ good).
Proof.
  intros [ws [S1 [S2 S3]]] G. exists (ws ++ repeat w (length good)). split; [apply sorted_app_repeat; assumption|]. split.
  - apply Forall_app. split; [exact S2|]. apply Forall_forall. intros z Hz. apply repeat_spec in Hz. lia.
  - apply Forall2_app; [exact S3|apply Forall2_repeat, G].
Qed.

Lemma state_mono w w' samples : w <= w' -> state w samples -> state w' samples.
Proof.
  intros L [ws [S1 [S2 S3]]]. exists ws. split; [exact S1|]. split; [|exact S3]. eapply Forall_impl; [|exact S2]. cbv beta. lia.
Qed.

Definition good_rows (lo hi : Q) (tmp : list row) : list row :=
  filter (fun x => Qle_bool lo (proba x) && Qle_bool (proba x) hi) tmp.

Lemma good_accepted w lo hi tmp : w <= 10 -> (lo == lo0 - step w)%Q -> (hi == hi0 + step w)%Q -> Forall P tmp ->
  Forall (fun x => accepted x w) (good_rows lo hi tmp).
Proof.
  intros W E1 E2 F. apply Forall_forall. intros x Hx. apply filter_In in Hx. destruct Hx as [Hx Q]. apply andb_prop in Q. destruct Q as [Q1 Q2].
  apply Qle_bool_iff in Q1, Q2. rewrite Forall_forall in F. split; [exact W|]. split; [apply F, Hx|]. rewrite <- E1, <- E2. auto.
Qed.

Lemma supervised_loop_S f i lo hi nt ns samples : length samples < n ->
  supervised_loop vol proba (S f) ss rs i X_min dim n lo hi nt ns samples =
  let ts := Nat.max ((n - length samples) * 4) 100 in
  do tmp <- batch i ts;
  let good := good_rows lo hi tmp in
  if (ns + length good) * 10 <? nt + ts
  then supervised_loop vol proba f ss rs (S i) X_min dim n (lo - (1 # 10)) (hi + (1 # 10)) 1 1 (samples ++ good)
  else supervised_loop vol proba f ss rs (S i) X_min dim n lo hi (nt + ts) (ns + length good) (samples ++ good).
Proof. intro H. apply Nat.ltb_lt in H. cbn [supervised_loop]. rewrite H. reflexivity. Qed.

Lemma supervised_loop_done f i lo hi nt ns samples : n <= length samples ->
  supervised_loop vol proba f ss rs i X_min dim n lo hi nt ns samples = Ok samples.
Proof. intro H. apply Nat.ltb_ge in H. destruct f; cbn [supervised_loop]; rewrite H; reflexivity. Qed.

Hypothesis Pr : forall x, (0 <= proba x <= 1)%Q.
Hypothesis Lo : (lo0 <= 1)%Q.
Hypothesis Hi : (0 <= hi0)%Q.

Lemma filter_all_true {A} (f : A -> bool) l : (forall x, In x l -> f x = true) -> filter f l = l.
Proof.
  clear. induction l as [|x l IH]; intro H; [reflexivity|]. cbn. rewrite (H x (or_introl eq_refl)). f_equal. apply IH. intros z Hz. apply H. right. exact Hz.
Qed.

Lemma all_good w lo hi tmp : 10 <= w -> (lo == lo0 - step w)%Q -> (hi == hi0 + step w)%Q -> good_rows lo hi tmp = tmp.
Proof.
  intros W E1 E2. unfold good_rows. apply filter_all_true. intros x _.
  assert (St : (1 <= step w)%Q).
  { unfold step. assert (inject_Z 10 <= inject_Z (Z.of_nat w))%Q by (rewrite <- Zle_Qle; lia). change (inject_Z 10) with 10%Q in H. lra. }
  destruct (Pr x) as [P1 P2]. apply andb_true_intro. split; apply Qle_bool_iff; lra.
Qed.

Lemma step_S w : (step (S w) == step w + (1 # 10))%Q.
Proof. unfold step. rewrite Nat2Z.inj_succ. unfold Z.succ. rewrite inject_Z_plus. change (inject_Z 1) with 1%Q. ring. Qed.

Lemma supervised_loop_ok : forall fuel w t i lo hi nt ns samples,
  w <= 10 -> (lo == lo0 - step w)%Q -> (hi == hi0 + step w)%Q -> state w samples ->
  100 * t <= nt -> ns <= 1 + length samples -> nt <= 10 * ns ->
  (10 - w) * (n + 1) + (n + 1 - t) <= fuel ->
  exists S, supervised_loop vol proba fuel ss rs i X_min dim n lo hi nt ns samples = Ok S /\ n <= length S /\ state 10 S.
Proof.
  induction fuel as [|fuel IH]; intros w t i lo hi nt ns samples W E1 E2 St Ht Hs Hr F.
  all: destruct (Nat.lt_ge_cases (length samples) n) as [C|C];
    [|exists samples; split; [apply supervised_loop_done, C|split; [exact C|apply (state_mono w); assumption]]].
  - exfalso. nia.
  - rewrite supervised_loop_S by exact C. cbv zeta. set (ts := Nat.max ((n - length samples) * 4) 100).
    destruct (Bat i ts) as [tmp [-> [Lt Ft]]]. cbn [bind]. set (good := good_rows lo hi tmp).
    pose proof (state_app w samples good St (good_accepted w lo hi tmp W E1 E2 Ft)) as St'.
    destruct (Nat.ltb_spec ((ns + length good) * 10) (nt + ts)) as [B|B].
    + assert (w <> 10).
      { intros ->. assert (EG : good = tmp) by (apply (all_good 10); [lia|assumption|assumption]). rewrite EG, Lt in B. lia. }
      apply (IH (S w) 0); try lia.
      * rewrite step_S, E1. ring.
      * rewrite step_S, E2. ring.
      * apply (state_mono w); [lia|exact St'].
      * nia.
    + apply (IH w (S t)); try assumption; try lia.
      * rewrite app_length. lia.
Qed.

(** When a tenth of every batch is acceptable from the start, the thresholds stay. *)
Lemma supervised_loop_still :
  (forall i m tmp, batch i m = Ok tmp -> length tmp <= 10 * length (good_rows lo0 hi0 tmp)) ->
  forall fuel i nt ns samples S, nt <= 10 * ns ->
  Forall (fun x => P x /\ (lo0 <= proba x <= hi0)%Q) samples ->
  supervised_loop vol proba fuel ss rs i X_min dim n lo0 hi0 nt ns samples = Ok S ->
  Forall (fun x => P x /\ (lo0 <= proba x <= hi0)%Q) S.
Proof.
  intros T. induction fuel as [|fuel IH]; intros i nt ns samples S Hr F H.
  all: destruct (Nat.lt_ge_cases (length samples) n) as [C|C]; [|rewrite supervised_loop_done in H by exact C; injection H as <-; exact F].
  - cbn [supervised_loop] in H. apply Nat.ltb_lt in C. rewrite C in H. discriminate.
  - rewrite supervised_loop_S in H by exact C. cbv zeta in H.
    destruct (Bat i (Nat.max ((n - length samples) * 4) 100)) as [tmp [Eb [Lt Ft]]]. rewrite Eb in H. cbn [bind] in H.
    pose proof (T _ _ _ Eb) as G. destruct (Nat.ltb_spec ((ns + length (good_rows lo0 hi0 tmp)) * 10) (nt + Nat.max ((n - length samples) * 4) 100)); [lia|].
    apply IH in H; [exact H|lia|]. apply Forall_app. split; [exact F|]. apply Forall_forall. intros x Hx. apply filter_In in Hx.
    destruct Hx as [Hx Q]. apply andb_prop in Q. destruct Q as [Q1 Q2]. apply Qle_bool_iff in Q1, Q2. rewrite Forall_forall in Ft. auto.
Qed.

Lemma supervised_fuel S : forall f0 fuel i lo hi nt ns samples, f0 <= fuel ->
  supervised_loop vol proba f0 ss rs i X_min dim n lo hi nt ns samples = Ok S ->
  supervised_loop vol proba fuel ss rs i X_min dim n lo hi nt ns samples = Ok S.
Proof.
  clear Bat Pr Lo Hi. induction f0 as [|f0 IH]; intros fuel i lo hi nt ns samples HF E.
  all: destruct (Nat.lt_ge_cases (length samples) n) as [C|C];
    [|rewrite supervised_loop_done in E by exact C; rewrite supervised_loop_done by exact C; exact E].
  - cbn [supervised_loop] in E. apply Nat.ltb_lt in C. rewrite C in E. discriminate.
  - destruct fuel as [|fuel]; [lia|]. rewrite supervised_loop_S in * by exact C. cbv zeta in *.
    destruct (batch _ _) as [tmp|]; cbn [bind] in *; [|discriminate].
    destruct (_ <? _); (eapply IH; [|exact E]); lia.
Qed.

Lemma Forall2_firstn' {A B} (R : A -> B -> Prop) l l' : Forall2 R l l' -> forall k, Forall2 R (firstn k l) (firstn k l').
Proof. clear. induction 1; intros [|k]; cbn; constructor; auto. Qed.

Lemma supervised_total : exists S, (forall fuel, 11 * (n + 1) <= fuel ->
  supervised_loop vol proba fuel ss rs 0 X_min dim n lo0 hi0 1 1 [] = Ok S) /\
  n <= length S /\ supervised_spec proba lo0 hi0 n P (firstn n S).
Proof.
  destruct (supervised_loop_ok (11 * (n + 1)) 0 0 0 lo0 hi0 1 1 []) as [S [E [L [ws [S1 [S2 S3]]]]]]; try (cbn; lia).
  - unfold step. cbn. ring.
  - unfold step. cbn. ring.
  - exists []. repeat constructor.
  - exists S. split; [|split; [exact L|]].
    + intros fuel HF. eapply supervised_fuel; eassumption.
    + assert (LS : length ws = length S) by (symmetry; apply (Forall2_length _ _ _ S3)).
      split; [rewrite firstn_length; lia|]. exists (firstn n ws). split; [rewrite firstn_length; lia|]. split; [apply (sorted_firstn le n ws S1)|].
      apply Forall2_firstn', S3.
Qed.
End Supervised.

Lemma supervised_runs vol proba fuel p rs D mn mj n :
  rngs_ok rs -> rngs_pos rs -> plain_ss (su_ss p) -> wf_data (d_X D) (d_dim D) (d_y D) -> is_minority (d_y D) mn mj ->
  asked (su_proportion p) (d_y D) mn mj = Ok n ->
  (forall x, (0 <= proba x <= 1)%Q) -> (su_th_lower p <= 1)%Q -> (0 <= su_th_upper p)%Q ->
  11 * (Z.to_nat n + 1) <= fuel ->
  let X_min := rows_with mn (d_X D) (d_y D) in
  let hull := fun x => ss_gauss (su_ss p) = GNone -> in_hull (d_dim D) X_min x in
  runs D mn n (supervised_spec proba (su_th_lower p) (su_th_upper p) (Z.to_nat n) hull) (supervised_sample vol proba fuel p rs D).
Proof.
  intros R RP PS [WR WL] M A Pr Lo Hi F X_min hull. unfold supervised_sample.
  apply (runs_intro (fun k st D => let X_min := rows_with (min_label st) (d_X D) (d_y D) in
    do samples <- supervised_loop vol proba fuel (su_ss p) rs 0 X_min (d_dim D) k (su_th_lower p) (su_th_upper p) 1 1 [];
    Ok (extended D st (firstn k samples))) _ _ _ mj); [exact M|exact A|].
  intros st [S1 [S2 _]] C Hn. cbv zeta. rewrite S1. fold X_min.
  assert (L1 : length X_min = count_label (d_y D) mn) by (apply rows_with_length; exact WL).
  assert (RM : rect (d_dim D) X_min) by (apply rows_with_rect; exact WR || assumption).
  set (args := mk_args X_min (d_dim D) (circulant (length X_min)) (length X_min) None None None false None).
  assert (AO : args_ok args).
  { constructor; cbn; auto; try discriminate.
    - apply circulant_rect.
    - rewrite circulant_length. lia.
    - apply circulant_range. lia. }
  destruct (supervised_total vol (su_ss p) rs X_min (d_dim D) (Z.to_nat n) proba (su_th_lower p) (su_th_upper p) hull) as [S [E [L SP]]]; try assumption.
  - intros i m. destruct (ss_total vol (su_ss p) args m (rs i) 0 AO (R i) (RP i) PS) as [tmp Et]; cbn; try lia; auto.
    + rewrite circulant_length. lia.
    + exists tmp. split; [exact Et|]. destruct (ss_hull _ _ _ _ _ _ AO (R i) Et) as [Lt H]. split; [exact Lt|].
      apply Forall_forall. intros x Hx G. apply (H G X_min); cbn; auto; apply incl_refl.
  - exists (firstn (Z.to_nat n) S). rewrite (E fuel F). cbn [bind]. split; [reflexivity|exact SP].
Qed.

(** When a tenth of the rows drawn is acceptable anyway, every new row is within the
    thresholds asked for. *)
Lemma supervised_still vol proba fuel p rs D mn mj n :
  rngs_ok rs -> rngs_pos rs -> plain_ss (su_ss p) -> wf_data (d_X D) (d_dim D) (d_y D) -> is_minority (d_y D) mn mj ->
  asked (su_proportion p) (d_y D) mn mj = Ok n ->
  let X_min := rows_with mn (d_X D) (d_y D) in
  (forall i m tmp, sample_simplex vol (su_ss p) (mk_args X_min (d_dim D) (circulant (length X_min)) (length X_min) None None None false None) m (rs i) = Ok tmp ->
     length tmp <= 10 * length (filter (fun x => Qle_bool (su_th_lower p) (proba x) && Qle_bool (proba x) (su_th_upper p)) tmp)) ->
  forall X' y', supervised_sample vol proba fuel p rs D = Ok (X', y') ->
  Forall (fun x => (su_th_lower p <= proba x <= su_th_upper p)%Q) (skipn (length (d_X D)) X').
Proof.
  intros R RP PS [WR WL] M A X_min T X' y' H. unfold supervised_sample in H.
  destruct (sample_shape (fun k st D => let X_min := rows_with (min_label st) (d_X D) (d_y D) in
    do samples <- supervised_loop vol proba fuel (su_ss p) rs 0 X_min (d_dim D) k (su_th_lower p) (su_th_upper p) 1 1 [];
    Ok (extended D st (firstn k samples))) _ D mn mj n M A) as [st [[S1 [S2 _]] E]].
  unfold supervised_algorithm in H. cbv zeta in E. rewrite E in H. clear E.
  destruct (_ || _) eqn:C; [injection H as <- _; rewrite skipn_all; constructor|].
  apply orb_false_iff in C. destruct C as [C _]. apply Nat.leb_gt in C.
  rewrite S1 in H. fold X_min in H. inv_bind H. injection H as <- _. rewrite skipn_app, skipn_all, Nat.sub_diag, skipn_O. cbn [app].
  assert (L1 : length X_min = count_label (d_y D) mn) by (apply rows_with_length; exact WL).
  assert (RM : rect (d_dim D) X_min) by (apply rows_with_rect; exact WR || assumption).
  set (args := mk_args X_min (d_dim D) (circulant (length X_min)) (length X_min) None None None false None) in *.
  assert (AO : args_ok args).
  { constructor; cbn; auto; try discriminate.
    - apply circulant_rect.
    - rewrite circulant_length. lia.
    - apply circulant_range. lia. }
  assert (G : Forall (fun x => True /\ (su_th_lower p <= proba x <= su_th_upper p)%Q) a).
  { eapply (supervised_loop_still vol (su_ss p) rs X_min (d_dim D) (Z.to_nat n) proba (su_th_lower p) (su_th_upper p) (fun _ => True)); [|exact T| | |exact E]; [|lia|constructor].
    intros i m. destruct (ss_total vol (su_ss p) args m (rs i) 0 AO (R i) (RP i) PS) as [tmp Et]; cbn; try lia; auto.
    + rewrite circulant_length. lia.
    + exists tmp. split; [exact Et|]. destruct (ss_hull _ _ _ _ _ _ AO (R i) Et) as [Lt _]. split; [exact Lt|].
      apply Forall_forall. auto. }
  apply Forall_forall. intros x Hx. rewrite Forall_forall in G. apply (G x). rewrite <- (firstn_skipn (Z.to_nat n) a). apply in_or_app. left. exact Hx.
Qed.
