(** Proofs about NoSMOTE, ADOMS, DE_oversampling and LVQ_SMOTE. *)

From Coq Require Import List ZArith QArith Qpower Bool Arith Lia Lqa Sorting.Sorted Permutation.
From Verif Require Import Np PyVal NpFacts BaseFacts SimplexModel Spec SpecDanger SpecNoise SpecComp SimplexFacts SimplexGeom Float64
  SamplerModel SamplerFacts OversFacts BaseModel KnnFacts DangerModel DangerFacts BorderFacts ClusterModel ClusterOversModel OversGen
  ClusterOversFacts ClusterFacts NoiseModel NoiseFacts NoiseFacts2 CompModel CompFacts CompFacts2 CompFacts3 CompFacts4 EditModel SpecEdit EditFacts EditFacts3 EditFacts4 EditFacts5
  SpecNear NearFacts NearFacts2 LevelModel SpecLevel LevelFacts LevelFacts3 LevelFacts4 SpecGroup GroupFacts GroupFacts2 GroupFacts4 WrapModel SpecWrap WrapFacts WrapFacts2 WrapFacts3 DirModel SpecDir.
Import ListNotations.
Import ListNotations.
Open Scope nat_scope.

(** ** NoSMOTE *)

Lemma no_smote_runs v e D mn mj : is_minority (d_y D) mn mj ->
  no_smote_sample v e D =
    if count_label (d_y D) mn <=? 2 then Ok (d_X D, d_y D)
    else if v then Err ValueError else if e then Err RuntimeError else Ok (d_X D, d_y D).
Proof.
  intros Hmin. unfold no_smote_sample. destruct (sample_default (no_smote_algorithm v e) D mn mj Hmin) as (st & _ & E).
  exact E.
Qed.

(** ** Draws *)

Lemma randint_ok d t s b : draws_ok d -> 0 < b -> exists i, randint d t s b = Ok i /\ i < b.
Proof.
  intros Hd Hb. unfold randint. destruct (Nat.eqb_spec b 0); [lia|]. eexists. split; [reflexivity|]. now apply (ok_int _ Hd).
Qed.

Lemma choice_two_ok d t b : draws_ok d -> 2 <= b -> exists a c, choice_two d t b = Ok (a, c) /\ a < b /\ c < b /\ a <> c.
Proof.
  intros Hd Hb. unfold choice_two. destruct (Nat.ltb_spec b 2); [lia|].
  destruct (ok_two _ Hd t b Hb) as (H1 & H2 & H3). destruct (dr_two d t b) as [a c] eqn:E. exists a, c. auto.
Qed.

(** ** ADOMS *)

Lemma adoms_runs dist nn norm pca1 p d D mn mj n :
  knn_ok dist nn -> draws_ok d -> pca1_ok (d_dim D) pca1 -> wf_data (d_X D) (d_dim D) (d_y D) -> is_minority (d_y D) mn mj ->
  asked (cp_proportion p) (d_y D) mn mj = Ok n -> 1 <= cp_n_neighbors p ->
  runs D mn n (adoms_spec dist norm pca1 p D mn n) (adoms_sample nn norm pca1 p d D).
Proof.
  intros Hnn Hd Hp [Hr Hl] Hmin Ha Hk. unfold adoms_sample, adoms_algorithm.
  apply (runs_intro _ _ _ _ _ _ _ Hmin Ha). intros st (E1 & E2 & _) H2 Hn. rewrite E1.
  set (X_min := rows_with mn (d_X D) (d_y D)).
  assert (HL : length X_min = count_label (d_y D) mn) by now apply rows_with_length.
  assert (HR : rect (d_dim D) X_min) by now apply rows_with_rect.
  set (k := Nat.min (length X_min) (cp_n_neighbors p + 1)).
  destruct (Hnn X_min X_min k) as (T & ET & HT); [unfold k; lia|]. rewrite ET. cbn [bind].
  edestruct (mapM_draws (adoms_row norm pca1 d X_min T) (seq 0 (Z.to_nat n)) (Z.to_nat n)
    (fun x => exists b i t s, listed T b i /\ unit_share t /\
      let u := pca1 (map (fun i => nth i X_min []) (nth b T [])) in
      let v := vsub (nth i X_min []) (nth b X_min []) in
      ((0 < dot v u)%Q -> s = 1%Q) /\ ((dot v u <= 0)%Q -> s = (-1)%Q) /\
      length x = d_dim D /\
      forall j, j < d_dim D -> (nth j x 0 == nth j (nth b X_min []) 0 + s * t * norm v * nth j u 0)%Q)) as (S & ES & LS & FS).
  { apply seq_length. }
  { intros t _. unfold adoms_row. destruct (randint_ok d t 0 (length X_min) Hd) as (b & -> & Hb); [lia|]. cbn [bind].
    destruct (NearFacts.table_row _ _ _ _ _ b HT Hb) as [R1 R2].
    destruct (nearest_table_shape _ _ _ _ _ HT) as (LT & _ & _).
    rewrite (get_nth [] T b) by lia. cbn [bind]. rewrite (gather_map []) by assumption. cbn [bind].
    rewrite (get_nth [] X_min b) by lia. cbn [bind]. rewrite map_length, R1.
    destruct (randint_ok d t 1 (k - 1) Hd) as (c & -> & Hc); [unfold k; lia|]. cbn [bind].
    rewrite (get_nth [] _ (1 + c)) by (rewrite map_length; lia). cbn [bind].
    rewrite (nth_map' _ 0) by lia. set (i := nth (1 + c) (nth b T []) 0).
    assert (Hi : In i (tl (nth b T []))).
    { unfold i. destruct (nth b T []) as [|z tt]; [cbn in R1; unfold k in *; lia|]. cbn. apply nth_In. cbn in R1. lia. }
    assert (Hi2 : i < length X_min).
    { rewrite Forall_forall in R2. apply R2. unfold i. apply nth_In. lia. }
    set (u := pca1 _). set (v := vsub _ _).
    eexists. split; [reflexivity|]. exists b, i, (dr_unif d t 0), (if Qlt_b 0 (dot v u) then 1%Q else (-1)%Q).
    split; [split; [lia|assumption]|]. split; [apply (ok_unif _ Hd)|]. fold u. fold v.
    assert (Lb : length (nth b X_min []) = d_dim D) by now apply rect_nth.
    assert (Lu : length u = d_dim D) by apply Hp.
    destruct (Qlt_b 0 (dot v u)) eqn:Es.
    - apply Qlt_b_spec in Es. split; [reflexivity|]. split; [intros H; Lqa.lra|].
      split; [rewrite vadd_length, vscale_length; lia|].
      intros j Hj. rewrite vadd_nth by (rewrite ?vscale_length; lia). rewrite vscale_nth by lia. reflexivity.
    - split; [intros H; apply Qlt_b_spec in H; congruence|]. split; [reflexivity|].
      split; [rewrite vadd_length, vscale_length; lia|].
      intros j Hj. rewrite vadd_nth by (rewrite ?vscale_length; lia). rewrite vscale_nth by lia. reflexivity. }
  rewrite ES. cbn [bind]. exists S. split; [reflexivity|]. split; [assumption|]. exists T. split; assumption.
Qed.

Lemma sqnorm_sum x : sqnorm x = qsum (map (fun j => nth j x 0 * nth j x 0)%Q (seq 0 (length x))).
Proof.
  unfold sqnorm. rewrite <- (CompFacts4.map_nth_seq 0%Q x) at 1. now rewrite map_map.
Qed.

(** The step a new row takes: its squared length is at most the squared norm of
    the neighbour's offset when the direction is a unit vector. *)
Lemma adoms_step dist norm pca1 p D mn n S : rect (d_dim D) (d_X D) -> length (d_X D) = length (d_y D) ->
  pca1_ok (d_dim D) pca1 ->
  adoms_spec dist norm pca1 p D mn n S -> (forall P, sqnorm (pca1 P) == 1)%Q ->
  let X_min := rows_with mn (d_X D) (d_y D) in
  forall x, In x S -> exists b i, b < length X_min /\ i < length X_min /\
    (sqnorm (vsub x (nth b X_min [])) <= norm (vsub (nth i X_min []) (nth b X_min [])) * norm (vsub (nth i X_min []) (nth b X_min [])))%Q.
Proof.
  intros Hr Hl Hp (LS & T & HT & F) Hu X_min x Hx. fold X_min in HT, F. rewrite Forall_forall in F.
  destruct (F x Hx) as (b & i & t & s & [Hb Hi] & [T0 T1] & S1 & S2 & Lx & E).
  destruct (nearest_table_shape _ _ _ _ _ HT) as (LT & _ & FT). rewrite LT in Hb.
  exists b, i. split; [assumption|].
  assert (Hi2 : i < length X_min).
  { rewrite Forall_forall in FT. assert (Hin : In (nth b T []) T) by (apply nth_In; lia). specialize (FT _ Hin).
    rewrite Forall_forall in FT. apply FT. destruct (nth b T []); [destruct Hi|right; assumption]. }
  split; [assumption|]. set (v := vsub (nth i X_min []) (nth b X_min [])) in *. set (u := pca1 _) in *.
  assert (HR : rect (d_dim D) X_min) by now apply rows_with_rect.
  assert (Lb : length (nth b X_min []) = d_dim D) by now apply rect_nth.
  assert (Lu : length u = d_dim D) by apply Hp. specialize (Hu (map (fun i => nth i X_min []) (nth b T []))). fold u in Hu.
  assert (Hs : (s * s == 1)%Q).
  { destruct (Qlt_le_dec 0 (dot v u)) as [G|G]; [rewrite (S1 G)|rewrite (S2 G)]; reflexivity. }
  assert (EQ : (sqnorm (vsub x (nth b X_min [])) == (s * t * norm v) * (s * t * norm v) * sqnorm u)%Q).
  { rewrite !sqnorm_sum, vsub_length, Lx, Lb, Lu, Nat.min_id, <- qsum_map_scale. apply qsum_map_ext. intros j Hj. apply in_seq in Hj.
    rewrite vsub_nth by lia. rewrite E by lia. ring. }
  rewrite EQ, Hu. setoid_replace (s * t * norm v * (s * t * norm v) * 1)%Q with ((s * s) * (t * t) * (norm v * norm v))%Q by ring.
  rewrite Hs.
  assert (G : (0 <= norm v * norm v)%Q) by (destruct (Qlt_le_dec (norm v) 0); nra).
  assert (G2 : (0 <= t * t <= 1)%Q) by (split; nra). nra.
Qed.

(** ** DE_oversampling: the new rows *)

Lemma de_rows dist p d dim X_min T n :
  draws_ok d -> rect dim X_min -> 1 <= dim -> 0 < length X_min ->
  nearest_table dist X_min X_min (Nat.min (length X_min) (de_n_neighbors p + 1)) T ->
  3 <= Nat.min (length X_min) (de_n_neighbors p + 1) ->
  exists S, mapM (de_row p d dim X_min T) (seq 0 n) = Ok S /\ length S = n /\
    Forall (fun x => exists b a1 a2 t c, b < length X_min /\
      1 <= a1 < length (nth b T []) /\ 1 <= a2 < length (nth b T []) /\ a1 <> a2 /\ unit_share t /\ c < dim /\
      length x = dim /\
      let n1 := nth (nth a1 (nth b T []) 0) X_min [] in
      let n2 := nth (nth a2 (nth b T []) 0) X_min [] in
      let base := nth b X_min [] in
      forall j, j < dim ->
        ((nth j x 0 == nth j base 0)%Q /\ j <> c /\ (de_crossover p < 1)%Q) \/
        ((nth j x 0 == nth j base 0 + t * (nth j n1 0 - nth j n2 0))%Q /\ (j = c \/ (0 < de_crossover p)%Q))) S.
Proof.
  intros Hd HR Hdim HX HT Hk. set (k := Nat.min (length X_min) (de_n_neighbors p + 1)) in *.
  apply mapM_draws; [apply seq_length|]. intros t _. unfold de_row.
  destruct (randint_ok d t 0 (length X_min) Hd HX) as (b & -> & Hb). cbn [bind].
  destruct (NearFacts.table_row _ _ _ _ _ b HT Hb) as [R1 R2].
  destruct (nearest_table_shape _ _ _ _ _ HT) as (LT & _ & _).
  rewrite (get_nth [] X_min b) by lia. cbn [bind]. rewrite (get_nth [] T b) by lia. cbn [bind].
  assert (Lt : length (tl (nth b T [])) = k - 1) by (destruct (nth b T []); cbn in *; lia).
  destruct (choice_two_ok d t (length (tl (nth b T []))) Hd) as (a1 & a2 & -> & A1 & A2 & A3); [lia|]. cbn [bind fst snd].
  rewrite (get_nth 0 _ a1), (get_nth 0 _ a2) by assumption. cbn [bind].
  assert (Et : forall a, nth a (tl (nth b T [])) 0 = nth (S a) (nth b T []) 0).
  { intros a. destruct (nth b T []); [now destruct a|reflexivity]. }
  rewrite !Et. rewrite Forall_forall in R2.
  assert (B1 : nth (S a1) (nth b T []) 0 < length X_min) by (apply R2, nth_In; lia).
  assert (B2 : nth (S a2) (nth b T []) 0 < length X_min) by (apply R2, nth_In; lia).
  rewrite (get_nth [] X_min (nth (S a1) _ _)), (get_nth [] X_min (nth (S a2) _ _)) by assumption. cbn [bind].
  destruct (randint_ok d t 1 dim Hd) as (c & -> & Hc); [lia|]. cbn [bind].
  eexists. split; [reflexivity|]. exists b, (S a1), (S a2), (dr_unif d t 0), c.
  split; [assumption|]. split; [lia|]. split; [lia|]. split; [lia|]. split; [apply (ok_unif _ Hd)|]. split; [assumption|].
  split; [now rewrite map_length, seq_length|]. cbv zeta. intros j Hj.
  rewrite (nth_map' _ 0) by (rewrite seq_length; lia). rewrite seq_nth by lia. cbn [plus].
  pose proof (ok_unif _ Hd t (S j)) as [U0 U1].
  assert (L1 : length (nth b X_min []) = dim) by now apply rect_nth.
  assert (L2 : length (nth (nth (S a1) (nth b T []) 0) X_min []) = dim) by now apply rect_nth.
  assert (L3 : length (nth (nth (S a2) (nth b T []) 0) X_min []) = dim) by now apply rect_nth.
  destruct (Qle_bool (de_crossover p) (dr_unif d t (S j))) eqn:E1.
  - apply Qle_bool_iff in E1. cbn [plus] in E1, U0, U1. destruct (Nat.eqb_spec j c) as [->|N].
    + cbn. right. split; [|now left]. rewrite vadd_nth by (rewrite ?vscale_length, ?vsub_length; lia).
      rewrite vscale_nth by (rewrite vsub_length; lia). rewrite vsub_nth by lia. reflexivity.
    + cbn. left. split; [reflexivity|]. split; [assumption|]. Lqa.lra.
  - cbn. right. assert (G : (dr_unif d t (S j) < de_crossover p)%Q).
    { apply Qnot_le_lt. intro G. apply Qle_bool_iff in G. congruence. }
    split; [|right; cbn [plus] in G, U0; Lqa.lra]. rewrite vadd_nth by (rewrite ?vscale_length, ?vsub_length; lia).
    rewrite vscale_nth by (rewrite vsub_length; lia). rewrite vsub_nth by lia. reflexivity.
Qed.

(** ** argmin *)

Lemma argmin_from_spec l : forall pre best a, a < length pre -> nth a pre 0%Q = best ->
  (forall j, j < length pre -> (best <= nth j pre 0)%Q) -> (forall j, j < a -> (best < nth j pre 0)%Q) ->
  let r := argmin_from best a (length pre) l in
  r < length (pre ++ l) /\ (forall j, j < length (pre ++ l) -> (nth r (pre ++ l) 0 <= nth j (pre ++ l) 0)%Q) /\
  (forall j, j < r -> (nth r (pre ++ l) 0 < nth j (pre ++ l) 0)%Q).
Proof.
  induction l as [|q l IH]; intros pre best a Ha En Hle Hlt; cbn [argmin_from].
  - rewrite app_nil_r. rewrite En. auto.
  - replace (pre ++ q :: l) with ((pre ++ [q]) ++ l) by now rewrite <- app_assoc.
    assert (LL : length (pre ++ [q]) = S (length pre)) by (rewrite app_length; cbn; lia).
    destruct (Qlt_b q best) eqn:E.
    + apply Qlt_b_spec in E. specialize (IH (pre ++ [q]) q (length pre)). rewrite LL in IH. apply IH.
      * lia.
      * rewrite app_nth2 by lia. now rewrite Nat.sub_diag.
      * intros j Hj. destruct (Nat.eq_dec j (length pre)) as [->|N].
        -- rewrite app_nth2 by lia. rewrite Nat.sub_diag. apply Qle_refl.
        -- rewrite app_nth1 by lia. pose proof (Hle j ltac:(lia)). Lqa.lra.
      * intros j Hj. rewrite app_nth1 by lia. pose proof (Hle j ltac:(lia)). Lqa.lra.
    + assert (Hq : (best <= q)%Q) by (apply Qnot_lt_le; intro G; apply Qlt_b_spec in G; congruence).
      specialize (IH (pre ++ [q]) best a). rewrite LL in IH. apply IH.
      * lia.
      * rewrite app_nth1 by lia. assumption.
      * intros j Hj. destruct (Nat.eq_dec j (length pre)) as [->|N].
        -- rewrite app_nth2 by lia. rewrite Nat.sub_diag. assumption.
        -- rewrite app_nth1 by lia. apply Hle. lia.
      * intros j Hj. rewrite app_nth1 by lia. now apply Hlt.
Qed.

Lemma argmin_spec l : l <> [] -> exists r, argmin l = Ok r /\ r < length l /\
  (forall j, j < length l -> (nth r l 0 <= nth j l 0)%Q) /\ (forall j, j < r -> (nth r l 0 < nth j l 0)%Q).
Proof.
  destruct l as [|q l]; [congruence|]. intros _. exists (argmin_from q 0 1 l). split; [reflexivity|].
  apply (argmin_from_spec l [q] q 0); cbn; [lia|reflexivity| |lia].
  intros j Hj. destruct j; [apply Qle_refl|lia].
Qed.

Lemma argmax_spec l : l <> [] -> exists r, argmax l = Ok r /\ r < length l /\
  (forall j, j < length l -> (nth j l 0 <= nth r l 0)%Q).
Proof.
  intros H. unfold argmax. destruct (argmin_spec (map Qopp l)) as (r & E & L & M & _).
  { destruct l; [congruence|discriminate]. }
  rewrite map_length in *. exists r. split; [assumption|]. split; [assumption|]. intros j Hj. specialize (M j Hj).
  rewrite !(nth_map' _ 0%Q) in M by assumption. Lqa.lra.
Qed.
