(** Proofs about LLE_SMOTE. *)

From Coq Require Import List ZArith QArith Qpower Bool Arith Lia Lqa Sorting.Sorted Permutation.
From Verif Require Import Np PyVal NpFacts BaseFacts SimplexModel Spec SpecDanger SpecNoise SpecComp SimplexFacts SimplexGeom Float64
  SamplerModel SamplerFacts OversFacts BaseModel KnnFacts DangerModel DangerFacts BorderFacts ClusterModel ClusterOversModel OversGen
  ClusterOversFacts ClusterFacts NoiseModel NoiseFacts NoiseFacts2 CompModel CompFacts CompFacts2 CompFacts3 CompFacts4 EditModel SpecEdit EditFacts EditFacts3 EditFacts4 EditFacts5
  SpecNear NearFacts NearFacts2 LevelModel SpecLevel LevelFacts LevelFacts3 LevelFacts4 SpecGroup GroupFacts GroupFacts2 GroupFacts4 WrapModel SpecWrap WrapFacts WrapFacts2 WrapFacts3.
Import ListNotations.
Open Scope nat_scope.

(** ** Sums over positions *)

Definition psum (m : nat) (f : nat -> Q) : Q := qsum (map f (seq 0 m)).

Lemma psum_ext m f g : (forall i, i < m -> (f i == g i)%Q) -> (psum m f == psum m g)%Q.
Proof. intros H. apply CompFacts4.qsum_map_ext. intros i Hi. apply in_seq in Hi. apply H. lia. Qed.

Lemma psum_scale m c f : (psum m (fun i => c * f i) == c * psum m f)%Q.
Proof. apply qsum_map_scale. Qed.

Lemma psum_add m f g : (psum m (fun i => f i + g i) == psum m f + psum m g)%Q.
Proof. apply qsum_map_add. Qed.

Lemma psum_swap m k (f : nat -> nat -> Q) : (psum m (fun a => psum k (f a)) == psum k (fun b => psum m (fun a => f a b)))%Q.
Proof. apply qsum_swap. Qed.

Lemma psum_nonneg m f : (forall i, i < m -> (0 <= f i)%Q) -> (0 <= psum m f)%Q.
Proof. intros H. apply qsum_map_nonneg. intros i Hi. apply in_seq in Hi. apply H. lia. Qed.

Lemma qsum_psum (l : list Q) : qsum l = psum (length l) (fun i => nth i l 0%Q).
Proof. unfold psum. now rewrite (NoiseFacts.map_nth_seq 0%Q). Qed.

Lemma map2_psum {A B} (f : A -> B -> Q) da db l1 l2 m : length l1 = m -> length l2 = m ->
  qsum (map2 f l1 l2) = psum m (fun i => f (nth i l1 da) (nth i l2 db)).
Proof.
  intros H1 H2. unfold psum. f_equal. apply nth_ext with (d := 0%Q) (d' := 0%Q); [rewrite map2_length, map_length, seq_length; lia|].
  intros i Hi. rewrite map2_length in Hi. rewrite (map2_nth f l1 l2 i da db 0%Q) by lia. rewrite (nth_map' _ 0) by (rewrite seq_length; lia).
  rewrite seq_nth by lia. reflexivity.
Qed.

(** ** The weights *)

Section Weights.
Variables (d : nat) (x : row) (Zs : list row).
Hypothesis Hx : length x = d.
Hypothesis HZ : rect d Zs.
Let k := length Zs.
Let z (a j : nat) : Q := (nth j (nth a Zs []) 0 - nth j x 0)%Q.
Let V := map (fun p => vsub p x) Zs.

Lemma V_nth a j : a < k -> j < d -> nth j (nth a V []) 0%Q = z a j.
Proof.
  intros Ha Hj. unfold V. rewrite (nth_map' _ []) by assumption. unfold vsub. apply map2_nth; [|lia]. rewrite (rect_nth d) by assumption. assumption.
Qed.

Lemma V_length a : a < k -> length (nth a V []) = d.
Proof. intros Ha. unfold V. rewrite (nth_map' _ []) by assumption. unfold vsub. rewrite map2_length, (rect_nth d) by assumption. lia. Qed.

Lemma V_dot a b : a < k -> b < k -> (dot (nth a V []) (nth b V []) == psum d (fun j => z a j * z b j))%Q.
Proof.
  intros Ha Hb. unfold dot. rewrite (map2_psum Qmult 0%Q 0%Q _ _ d) by now apply V_length.
  apply psum_ext. intros j Hj. now rewrite !V_nth by assumption.
Qed.

Section Solution.
Variable w : list Q.
Hypothesis Hw : length w = k.
Hypothesis Hsol : forall a, a < k -> (psum k (fun b => psum d (fun j => z a j * z b j) * nth b w 0) == 1)%Q.
Hypothesis Hk : 1 <= k.
Let W b := nth b w 0%Q.
Let D j := psum k (fun b => W b * z b j)%Q.

Lemma z_D a : a < k -> (psum d (fun j => z a j * D j) == 1)%Q.
Proof.
  intros Ha. rewrite <- (Hsol a Ha). unfold D.
  rewrite (psum_ext d _ (fun j => psum k (fun b => z a j * (W b * z b j))%Q)) by (intros; rewrite psum_scale; reflexivity).
  rewrite psum_swap. apply psum_ext. intros b Hb. rewrite Qmult_comm, <- psum_scale. apply psum_ext. intros j Hj. unfold W. ring.
Qed.

(** The inner product with a combination of weights [v]. *)
Lemma comb_D v : (psum d (fun j => psum k (fun b => v b * z b j) * D j) == psum k v)%Q.
Proof.
  rewrite (psum_ext d _ (fun j => psum k (fun b => v b * (z b j * D j))%Q)).
  2:{ intros j Hj. rewrite Qmult_comm, <- psum_scale. apply psum_ext. intros b Hb. ring. }
  rewrite psum_swap. apply psum_ext. intros b Hb. rewrite psum_scale, z_D by assumption. ring.
Qed.

Lemma D_D : (psum d (fun j => D j * D j) == psum k W)%Q.
Proof. exact (comb_D W). Qed.

Lemma total_positive : (0 < psum k W)%Q.
Proof.
  assert (N : (0 <= psum k W)%Q). { rewrite <- D_D. apply psum_nonneg. intros j _. nra. }
  destruct (Qlt_le_dec 0 (psum k W)) as [|H]; [assumption|exfalso].
  assert (E : (psum d (fun j => D j * D j) == 0)%Q) by (rewrite D_D; Lqa.lra).
  apply NpFacts.qsum_zero_all in E; [|rewrite Forall_map, Forall_forall; intros j _; cbn; nra].
  rewrite Forall_map, Forall_forall in E.
  assert (Z0 : (psum d (fun j => z 0%nat j * D j) == psum d (fun _ => 0))%Q).
  { apply psum_ext. intros j Hj. assert (Ej := E j ltac:(apply in_seq; lia)). cbn in Ej.
    destruct (Qeq_dec (D j) 0) as [->|Ne]; [ring|]. exfalso. apply Ne. destruct (Qmult_integral _ _ Ej); assumption. }
  rewrite z_D in Z0 by lia. assert (P0 : (psum d (fun _ => 0) == 0)%Q).
  { rewrite (psum_ext d _ (fun _ => 0 * 0)%Q) by (intros; ring). rewrite psum_scale. ring. }
  rewrite P0 in Z0. discriminate.
Qed.

(** Deviation of a combination of weights summing to one. *)
Lemma deviation (v : list Q) j : length v = k -> (qsum v == 1)%Q -> j < d ->
  (qsum (map2 (fun a p => a * nth j p 0) v Zs) - nth j x 0 == psum k (fun b => nth b v 0 * z b j))%Q.
Proof.
  intros Hv H1 Hj. rewrite (map2_psum _ 0%Q [] v Zs k) by (assumption || reflexivity).
  assert (E : (nth j x 0 == nth j x 0 * psum k (fun b => nth b v 0%Q))%Q).
  { rewrite <- Hv, <- qsum_psum, H1. ring. }
  assert (E2 : (psum k (fun i => nth i v 0 * nth j (nth i Zs []) 0) ==
    psum k (fun b => nth b v 0 * z b j) + nth j x 0 * psum k (fun b => nth b v 0))%Q).
  { rewrite <- psum_scale, <- psum_add. apply psum_ext. intros b Hb. unfold z. ring. }
  rewrite E2, <- E. ring.
Qed.

Lemma solution_best : best_weights d x Zs (map (fun q => q / qsum w)%Q w).
Proof.
  assert (Ew : qsum w = psum k W) by (rewrite qsum_psum, Hw; reflexivity).
  assert (Hp := total_positive). set (s := psum k W) in *. rewrite Ew.
  set (u := map (fun q => (q / s)%Q) w). assert (Lu : length u = k) by (unfold u; rewrite map_length; exact Hw).
  assert (Hu : (qsum u == 1)%Q) by (unfold u; rewrite NpFacts.qsum_div by Lqa.lra; rewrite Ew; fold s; field; Lqa.lra).
  assert (Eu : forall j, j < d -> (psum k (fun b => nth b u 0 * z b j) == D j / s)%Q).
  { intros j Hj. rewrite (psum_ext k _ (fun b => / s * (W b * z b j))%Q); [rewrite psum_scale; fold (D j); field; Lqa.lra|].
    intros b Hb. unfold u. rewrite (nth_map' _ 0%Q) by lia. fold (W b). field. Lqa.lra. }
  split; [exact Lu|]. split; [exact Hu|]. intros v Hv H1. unfold residual.
  change (psum d (fun j => let e := (qsum (map2 (fun a p => a * nth j p 0) u Zs) - nth j x 0)%Q in (e * e)%Q)
    <= psum d (fun j => let e := (qsum (map2 (fun a p => a * nth j p 0) v Zs) - nth j x 0)%Q in (e * e)%Q))%Q.
  set (e := fun j => psum k (fun b => nth b v 0 * z b j)%Q).
  rewrite (psum_ext d _ (fun j => (/ s * / s) * (D j * D j))%Q).
  2:{ intros j Hj. cbv zeta. rewrite deviation, Eu by assumption. field. Lqa.lra. }
  rewrite psum_scale, D_D. fold s.
  rewrite (psum_ext d (fun j => let e := _ in (e * e)%Q) (fun j => e j * e j)%Q).
  2:{ intros j Hj. cbv zeta. rewrite deviation by assumption. reflexivity. }
  assert (Sq : (0 <= psum d (fun j => (e j - D j / s) * (e j - D j / s)))%Q) by (apply psum_nonneg; intros j _; generalize (e j - D j / s)%Q; intros q; nra).
  assert (Ex : (psum d (fun j => (e j - D j / s) * (e j - D j / s)) ==
    psum d (fun j => e j * e j) + ((- (2) / s) * psum d (fun j => e j * D j) + (/ s * / s) * psum d (fun j => D j * D j)))%Q).
  { rewrite <- !psum_scale, <- !psum_add. apply psum_ext. intros j _. field. Lqa.lra. }
  rewrite Ex, D_D in Sq. fold s in Sq. assert (C : (psum d (fun j => e j * D j) == 1)%Q).
  { unfold e. rewrite (comb_D (fun b => nth b v 0%Q)). rewrite qsum_psum, Hv in H1. exact H1. }
  rewrite C in Sq. setoid_replace (/ s * / s * s)%Q with (/ s)%Q by (field; Lqa.lra).
  setoid_replace (/ s * / s * s)%Q with (/ s)%Q in Sq by (field; Lqa.lra).
  setoid_replace (- (2) / s * 1)%Q with (- (2) * / s)%Q in Sq by (field; Lqa.lra). Lqa.lra.
Qed.
End Solution.

Lemma weights_spec solve : solver_ok solve -> 1 <= k ->
  exists w, lle_weights solve x Zs = Ok w /\ (equal_weights k w \/ best_weights d x Zs w) /\
    (match solve (map (fun a => map (dot a) V) V) with
     | Some u => (dot u u <= 10 ^ 16)%Q -> best_weights d x Zs w
     | None => equal_weights k w end).
Proof.
  intros Hs Hk. unfold lle_weights. fold V. set (C := map (fun a => map (dot a) V) V).
  assert (LC : length C = k) by (unfold C, V; now rewrite !map_length).
  assert (Ones : exists w, normalize (repeat 1%Q (length C)) = Ok w /\ equal_weights k w).
  { rewrite LC. assert (Q1 : (qsum (repeat 1%Q k) == qn k)%Q) by (rewrite qsum_repeat; unfold qn; ring).
    assert (Hp := qn_pos k ltac:(lia)). destruct (SimplexGeom.normalize_total (repeat 1%Q k)) as (w & E); [rewrite Q1; exact Hp|].
    exists w. split; [exact E|]. unfold normalize in E. destruct (Qeq_bool _ 0); [discriminate|]. injection E as <-.
    split; [now rewrite map_length, repeat_length|]. rewrite Forall_map, Forall_forall. intros q Hq. apply repeat_spec in Hq. subst. now rewrite Q1. }
  destruct Ones as (o & Eo & Ho). destruct (solve C) as [w|] eqn:Es; [|eauto].
  destruct (Hs C w Es) as (Lw & Hw). rewrite LC in Lw.
  assert (Hsol : forall a, a < k -> (psum k (fun b => psum d (fun j => z a j * z b j) * nth b w 0) == 1)%Q).
  { intros a Ha. rewrite Forall_forall in Hw. rewrite <- (Hw (nth a C [])) by (apply nth_In; lia).
    unfold C. rewrite (nth_map' _ []) by (unfold V; rewrite map_length; exact Ha).
    rewrite (map2_psum Qmult 0%Q 0%Q _ w k) by (rewrite ?map_length; unfold V; rewrite ?map_length; auto).
    apply psum_ext. intros b Hb. rewrite (nth_map' _ []) by (unfold V; rewrite map_length; exact Hb). now rewrite V_dot by assumption. }
  assert (Hp : (0 < qsum w)%Q) by (rewrite qsum_psum, Lw; exact (total_positive w Lw Hsol Hk)).
  destruct (SimplexGeom.normalize_total w Hp) as (u & Eu).
  assert (B : best_weights d x Zs u).
  { unfold normalize in Eu. destruct (Qeq_bool (qsum w) 0); [discriminate|]. injection Eu as <-. now apply solution_best. }
  destruct (Qlt_b (10 ^ 16) (dot w w)) eqn:Eb.
  - exists o. split; [exact Eo|]. split; [now left|]. intros H. apply CompFacts3.Qlt_b_iff in Eb. exfalso. Lqa.lra.
  - exists u. auto.
Qed.

End Weights.

(** ** The oversampler *)

Lemma lle_runs dist vol nn lle solve p r D mn mj n X_trans :
  knn_ok dist nn -> rng_ok r -> unif_pos r -> plain_ss (ll_ss p) -> ss_gauss (ll_ss p) = GNone ->
  wf_data (d_X D) (d_dim D) (d_y D) -> is_minority (d_y D) mn mj ->
  asked (ll_proportion p) (d_y D) mn mj = Ok n -> solver_ok solve ->
  let X_min := rows_with mn (d_X D) (d_y D) in
  let nc := Nat.min (ll_n_components p) (d_dim D) in
  lle (Nat.min (ll_n_neighbors p) (length X_min - 1)) nc X_min = Ok X_trans -> rect nc X_trans -> length X_trans = length X_min ->
  runs D mn n (lle_spec dist p D X_trans mn n) (lle_sample vol nn lle solve p r D).
Proof.
  intros Hnn Hr Hu Hp HG [W1 W2] Hmin Ha Hs X_min nc Hl Rt Lt. unfold lle_sample, lle_algorithm.
  apply (runs_intro _ _ _ _ _ _ _ Hmin Ha). intros st Hst H2 Hn. destruct (stats_labels _ _ _ _ Hst) as [E1 _]. rewrite E1.
  fold X_min. fold nc. rewrite Hl. cbn [bind].
  assert (LX : length X_min = count_label (d_y D) mn) by (apply rows_with_length; assumption).
  assert (RX : rect (d_dim D) X_min) by (apply rows_with_rect; assumption).
  set (k := Nat.min (ll_n_neighbors p + 1) (length X_trans)). assert (Hk : 1 <= k <= length X_trans) by lia.
  destruct (Hnn X_trans X_trans k ltac:(lia)) as (T & ET & HT). rewrite ET. cbn [bind].
  destruct (nearest_table_shape _ _ _ _ _ HT) as (L1 & L2 & L3).
  destruct (ss_call vol (ll_ss p) (mk_args X_trans nc T k None None None false None) (Z.to_nat n) r 0) as (raw & ES & LS & HS); auto; cbn; try lia.
  { constructor; cbn; auto; try discriminate; try lia. }
  rewrite ES. cbn [bind]. specialize (HS HG). cbn in HS.
  assert (Rraw : rect nc raw).
  { unfold rect. eapply Forall_impl; [|exact HS]. intros x (b & ps & _ & _ & _ & _ & _ & _ & Hx). apply Hx. }
  unfold lle_embed. destruct (Hnn X_trans raw k ltac:(lia)) as (U & EU & HU). rewrite EU. cbn [bind].
  destruct (nearest_table_shape _ _ _ _ _ HU) as (U1 & U2 & U3).
  set (f := fun st : row * list nat => _).
  assert (Hf : Forall (fun xt => exists s, f xt = Ok s /\ (exists w,
      (equal_weights k w \/ best_weights nc (fst xt) (rows_at X_trans (snd xt)) w) /\
      combination (d_dim D) w (rows_at X_min (snd xt)) s)) (combine raw U)).
  { rewrite Forall_forall. intros (x, t) Hin. pose proof (in_combine_l _ _ _ _ Hin) as Hx. pose proof (in_combine_r _ _ _ _ Hin) as Ht.
    unfold rect in *. rewrite Forall_forall in Rraw, U2, U3. specialize (Rraw _ Hx). specialize (U2 _ Ht). specialize (U3 _ Ht).
    unfold f. cbn [fst snd]. rewrite gather_rows_at by assumption. cbn [bind].
    assert (Lr : length (rows_at X_trans t) = k) by (unfold rows_at; now rewrite map_length).
    destruct (weights_spec nc x (rows_at X_trans t) Rraw) with (solve := solve) as (w & Ew & Hw & _); [|assumption|lia|].
    { unfold rect, rows_at. rewrite Forall_forall in *. intros q Hq. apply in_map_iff in Hq. destruct Hq as (i & <- & Hi).
      apply Rt, nth_In. auto. }
    rewrite Ew. cbn [bind]. rewrite gather_rows_at by now rewrite <- Lt. cbn [bind]. eexists. split; [reflexivity|].
    exists w. rewrite Lr in Hw. split; [exact Hw|].
    assert (Rm : rect (d_dim D) (rows_at X_min t)).
    { unfold rect, rows_at. rewrite Forall_forall in *. intros q Hq. apply in_map_iff in Hq. destruct Hq as (i & <- & Hi).
      apply RX, nth_In. rewrite <- Lt. auto. }
    split; [now apply weighted_sum_length|]. intros j Hj. now apply weighted_sum_nth. }
  destruct (mapM_total f (combine raw U)) as (S & EM).
  { eapply Forall_impl; [|exact Hf]. intros a (s & H & _). eauto. }
  rewrite EM. cbn [bind]. apply mapM_ok_iff in EM. eexists. split; [reflexivity|].
  assert (LC : length (combine raw U) = Z.to_nat n) by (rewrite combine_length; lia).
  split; [rewrite <- (Forall2_length _ _ _ EM); exact LC|]. fold X_min. fold nc. rewrite <- Lt. fold k.
  exists T, raw, U. split; [assumption|]. split; [intros _; exact HS|]. split; [assumption|].
  clear -Hf EM. induction EM as [|a s l S E EM IH]; [constructor|]. inversion Hf as [|? ? (s' & E' & H) Hf']; subst.
  apply Forall2_cons; [|now apply IH]. rewrite E in E'. injection E' as <-. exact H.
Qed.
