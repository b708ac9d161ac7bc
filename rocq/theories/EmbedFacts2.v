(** Proofs about PDFOS and DEAGO. *)

From Coq Require Import List ZArith QArith Qabs Qminmax Qround Qpower Bool Arith Lia Lqa Sorting.Sorted Permutation.
From Verif Require Import Np PyVal NpFacts BaseFacts SimplexModel Spec SpecDanger SpecNoise SpecComp SimplexFacts SimplexGeom Float64
  SamplerModel SamplerFacts OversFacts BaseModel KnnFacts DangerModel DangerFacts BorderFacts ClusterModel NearModel ClusterOversModel OversGen
  ClusterOversFacts ClusterFacts NoiseModel NoiseFacts NoiseFacts2 CompModel CompFacts CompFacts2 CompFacts3 CompFacts4 EditModel SpecEdit EditFacts EditFacts3 EditFacts4 EditFacts5
  SpecNear NearFacts NearFacts2 LevelModel SpecLevel LevelFacts LevelFacts3 LevelFacts4 SpecGroup GroupFacts GroupFacts2 GroupFacts4 WrapModel SpecWrap WrapFacts WrapFacts2 WrapFacts3 DirModel SpecDir DirFacts DirFacts3 RegionModel SpecRegion RegionFacts RegionFacts2 RegionFacts3 RegionFacts4 SearchModel SpecSearch SearchFacts2 GraphModel SpecGraph GraphFacts GraphFacts2 GraphFacts4 GraphFacts5 GraphFacts6 GraphFacts8 MixModel SpecMix MixFacts MixFacts3 MixFacts4 EmbedModel SpecEmbed EmbedFacts.
Import ListNotations.
Open Scope nat_scope.

(** ** PDFOS *)

Lemma map2_by_seq {A B C} (f : A -> B -> C) a b l1 : forall l2, length l1 = length l2 ->
  map2 f l1 l2 = map (fun j => f (nth j l1 a) (nth j l2 b)) (seq 0 (length l1)).
Proof.
  induction l1 as [|x l1 IH]; intros [|z l2] H; try discriminate; [reflexivity|]. cbn [length seq map map2 nth]. f_equal.
  rewrite <- seq_shift, map_map. apply IH. now injection H.
Qed.

Lemma qsum_map_ext {A} (f g : A -> Q) l : (forall x, In x l -> (f x == g x)%Q) -> (qsum (map f l) == qsum (map g l))%Q.
Proof.
  induction l as [|x l IH]; intros H; [reflexivity|]. cbn [map qsum fold_right]. unfold qsum in *. cbn [fold_right].
  rewrite (H x) by now left. rewrite IH; [reflexivity|]. intros z Hz. apply H. now right.
Qed.

Lemma fr_transform_projected k m T x : length T = length m -> rect k T -> length x = length m ->
  projected k m T x (fr_transform k m T x).
Proof.
  intros LT RT Lx. unfold fr_transform. split; [now apply weighted_sum_length|]. intros c Hc. rewrite weighted_sum_nth by assumption.
  assert (Lv : length (vsub x m) = length m) by (unfold vsub; rewrite map2_length; lia).
  rewrite (map2_by_seq _ 0%Q []) by lia. rewrite Lv. apply qsum_map_ext. intros j Hj. apply in_seq in Hj. rewrite vsub_nth by lia. reflexivity.
Qed.

Lemma fr_inverse_lifted k m T z : length T = length m -> rect k T -> length z = k -> lifted k m T z (fr_inverse m T z).
Proof.
  intros LT RT Lz. unfold fr_inverse. split; [rewrite vadd_length, map_length; lia|]. intros j Hj.
  rewrite vadd_nth by (rewrite ?map_length; lia). rewrite (nth_map_in _ []) by lia. unfold dot.
  assert (Lj : length (nth j T []) = k) by (apply rect_nth; [exact RT|lia]).
  rewrite (map2_by_seq _ 0%Q 0%Q) by lia. rewrite Lz. ring.
Qed.

Lemma lifted_same k m T z x x' : lifted k m T z x -> same_row x' x -> lifted k m T z x'.
Proof.
  intros [H1 H2] H. assert (L : length x' = length x) by (eapply Forall2_length; exact H). split; [lia|]. intros j Hj.
  rewrite <- H2 by exact Hj. apply (Forall2_nth' _ _ _ 0%Q 0%Q j H); lia.
Qed.

Lemma unique_turns l : let turns := flat_map (fun bc => repeat (fst bc) (snd bc)) (unique_by Nat.eqb Nat.ltb l) in
  length turns = length l /\ forall x, In x turns -> In x l.
Proof.
  cbv zeta. pose proof (expand_perm l) as H. unfold expand in H. rewrite <- flat_map_concat_map in H. split; [now apply Permutation_length|]. intros x. now apply Permutation_in.
Qed.

Section PDFOS.

Variable sd : list Q -> Q.
Variable eigenvectors : list row -> res (nat * list row).
Variable bandwidth : list row -> list row -> list Z -> res unit.
Variable normals : nat -> nat -> list row.

Lemma pdfos_ok proportion d D mn mj n : draws_ok d -> eigen_ok eigenvectors (d_dim D) -> normals_ok normals ->
  wf_data (d_X D) (d_dim D) (d_y D) -> is_minority (d_y D) mn mj -> asked proportion (d_y D) mn mj = Ok n ->
  let out := pdfos_sample sd eigenvectors bandwidth normals proportion d D in
  (count_label (d_y D) mn <= 2 \/ n = 0%Z -> unchanged D out) /\
  (2 < count_label (d_y D) mn -> (0 < n)%Z -> pdfos_result sd eigenvectors bandwidth normals D mn n out).
Proof.
  intros Hd He Hg [HX Hl] Hmin Hn. cbv zeta. unfold pdfos_sample.
  destruct (sample_default (pdfos_algorithm sd eigenvectors bandwidth normals proportion d) D mn mj Hmin) as (st & Hst & ->).
  destruct (stats_labels _ _ _ _ Hst) as [El1 El2].
  destruct (Nat.leb_spec (count_label (d_y D) mn) 2) as [Hle|Hgt]; [split; [reflexivity|lia]|].
  unfold pdfos_algorithm. rewrite (det_st_asked _ _ _ _ _ (proj1 Hmin) Hst), Hn. cbn [bind].
  destruct (Nat.eqb_spec (Z.to_nat n) 0) as [E0|N0]; [split; [reflexivity|lia]|]. split; [lia|]. intros _ _.
  rewrite El1. set (mm := std_fit sd (d_dim D) (d_X D)). set (f := mm_transform mm).
  assert (Lmm : length mm = d_dim D) by apply std_fit_length.
  assert (Rmm : Forall (fun lr => ~ (snd lr == 0)%Q) mm) by apply std_fit_range.
  rewrite rows_with_map by exact Hl. set (X_min := rows_with mn (d_X D) (d_y D)).
  assert (HL : length X_min = count_label (d_y D) mn) by now apply rows_with_length.
  assert (HR : rect (d_dim D) X_min) by now apply rows_with_rect.
  assert (HRf : rect (d_dim D) (map f X_min)) by now apply transform_rect.
  assert (HXf : rect (d_dim D) (map f (d_X D))) by now apply transform_rect.
  unfold pdfos_result. unfold pdfos_fit. destruct (Nat.eqb_spec (d_dim D) 1) as [D1|D1].
  { split; [reflexivity|congruence]. }
  split; [congruence|]. intros _. destruct (std_standard sd (d_dim D) (d_X D)) as (w & W1 & W2). exists w, f.
  split; [exact W1|]. split; [exact W2|]. cbv zeta. fold X_min. destruct (eigenvectors (map f X_min)) as [[k T]|e] eqn:EE; [|cbn [bind]; destruct e; reflexivity].
  cbn [bind]. destruct (He _ _ _ EE) as [LT RT].
  assert (Hne : map f X_min <> []) by (intros E; apply (f_equal (@length _)) in E; rewrite map_length in E; cbn in E; lia).
  destruct (mean_row_of (d_dim D) (map f X_min) Hne HRf) as (m & Em & Hm). rewrite Em. cbn [bind]. assert (Lm : length m = d_dim D) by apply Hm.
  set (A := map (fr_transform k m T) (map f X_min)). set (B := map (fr_transform k m T) (map f (d_X D))).
  assert (PR : forall P, rect (d_dim D) P -> Forall2 (projected k m T) P (map (fr_transform k m T) P)).
  { intros P HP. induction HP as [|x P Hx HP IH]; cbn [map]; constructor; [|exact IH]. apply fr_transform_projected; congruence. }
  exists m, A, B. split; [exact Hm|]. split; [now apply PR|]. split; [now apply PR|].
  destruct (bandwidth A B (d_y D)) as [[]|e] eqn:EB; [|cbn [bind]; destruct e; reflexivity].
  cbn [bind]. unfold pdfos_draw. assert (LA : length A = length X_min) by (unfold A; now rewrite !map_length).
  destruct (mapM_total (fun t => randint d t 0 (length A)) (seq 0 (Z.to_nat n))) as (base & Eb).
  { apply Forall_forall. intros t _. unfold randint. destruct (Nat.eqb_spec (length A) 0); [lia|eauto]. }
  assert (Fb : forall x, In x base -> x < length A).
  { apply mapM_ok_iff in Eb. clear - Eb Hd LA HL Hgt. induction Eb as [|t x l l' H H' IH]; [intros ? []|]. intros z [<-|Hz]; [|now apply IH].
    unfold randint in H. destruct (Nat.eqb_spec (length A) 0); [discriminate|]. injection H as <-. apply Hd. lia. }
  rewrite Eb. cbn [bind]. apply mapM_length in Eb. rewrite seq_length in Eb. destruct (unique_turns base) as [Lt Ft].
  set (turns := flat_map _ _) in *. assert (FT : Forall (fun i => i < length A) turns) by (apply Forall_forall; intros x Hx; apply Fb, Ft, Hx).
  rewrite gather_rows_at by exact FT. cbn [bind]. destruct (Hg (Z.to_nat n) k) as [Lg Rg]. set (G := normals (Z.to_nat n) k) in *.
  set (S := map (mm_inverse mm) _). unfold appends. exists S. split; [unfold extended; now rewrite El1|].
  unfold pdfos_spec. fold X_min. fold G.
  assert (Lrows : length (rows_at A turns) = Z.to_nat n) by (unfold rows_at; rewrite map_length; lia).
  split; [unfold S; rewrite !map_length, map2_length; lia|]. intros t Ht.
  set (b := nth t turns 0). assert (Hb : b < length A) by (rewrite Forall_forall in FT; apply FT, nth_In; lia).
  set (v := vadd (nth b A []) (nth t G [])).
  assert (Lb : length (nth b A []) = k). { unfold A. rewrite (nth_map_in _ []) by (rewrite map_length; lia). now apply weighted_sum_length. }
  assert (Lgt : length (nth t G []) = k) by (apply rect_nth; [exact Rg|lia]).
  assert (Lv : length v = k) by (unfold v; rewrite vadd_length; lia).
  assert (ES : nth t S [] = mm_inverse mm (fr_inverse m T v)).
  { unfold S. rewrite (nth_map_in _ []) by (rewrite map_length, map2_length; lia). f_equal.
    rewrite (nth_map_in _ []) by (rewrite map2_length; lia). f_equal. rewrite (map2_nth _ _ _ _ [] []) by lia. unfold rows_at.
    rewrite (nth_map_in _ 0) by lia. reflexivity. }
  assert (LI : lifted k m T v (fr_inverse m T v)) by (apply fr_inverse_lifted; congruence).
  assert (Lf : length (fr_inverse m T v) = d_dim D) by (destruct LI; lia).
  rewrite ES. split; [apply mm_inverse_length; congruence|].
  exists (nth b (map f X_min) []), (nth b A []), v. split; [apply nth_In; rewrite map_length; lia|]. split; [|split].
  - assert (EA : nth b A [] = fr_transform k m T (nth b (map f X_min) [])) by (unfold A; rewrite (nth_map_in _ []) by (rewrite map_length; lia); reflexivity).
    rewrite EA. apply fr_transform_projected; [congruence|exact RT|]. rewrite Lm. apply rect_nth; [exact HRf|rewrite map_length; lia].
  - split; [lia|]. intros j Hj. unfold v. rewrite vadd_nth by lia. reflexivity.
  - eapply lifted_same; [exact LI|]. unfold f. apply (mm_forth (d_dim D)); auto.
Qed.

End PDFOS.

(** Along a direction without a part in the kept eigenvectors all new rows agree with the mean. *)
Lemma qsum_exchange (g : nat -> nat -> Q) l1 l2 :
  (qsum (map (fun i => qsum (map (fun j => g i j) l2)) l1) == qsum (map (fun j => qsum (map (fun i => g i j) l1)) l2))%Q.
Proof.
  induction l1 as [|i l1 IH].
  - cbn. induction l2 as [|j l2 IH2]; [reflexivity|]. cbn in *. unfold qsum in *. cbn. rewrite <- IH2. ring.
  - cbn [map]. unfold qsum in *. cbn [fold_right]. rewrite IH. clear IH. induction l2 as [|j l2 IH2]; [cbn; ring|]. cbn [map fold_right] in *. rewrite <- IH2. ring.
Qed.
Lemma qsum_scale (c : Q) (g : nat -> Q) l : (qsum (map (fun j => c * g j) l) == c * qsum (map g l))%Q.
Proof. induction l as [|j l IH]; unfold qsum in *; cbn [map fold_right]; [ring|]. rewrite IH. ring. Qed.
Lemma qsum_plus (g h : nat -> Q) l : (qsum (map (fun j => g j + h j) l) == qsum (map g l) + qsum (map h l))%Q.
Proof. induction l as [|j l IH]; unfold qsum in *; cbn [map fold_right]; [ring|]. rewrite IH. ring. Qed.


Lemma lifted_flat k m T z x v : lifted k m T z x ->
  (forall c, c < k -> (qsum (map (fun j => nth j v 0 * nth c (nth j T []) 0) (seq 0 (length m))) == 0)%Q) ->
  (along (length m) v x == along (length m) v m)%Q.
Proof.
  intros [_ H] Hv. unfold along.
  rewrite (qsum_map_ext _ (fun j => nth j v 0 * nth j m 0 + qsum (map (fun c => nth c z 0 * (nth j v 0 * nth c (nth j T []) 0)) (seq 0 k)))%Q).
  2:{ intros j Hj. apply in_seq in Hj. rewrite H by lia. rewrite Qmult_plus_distr_r. apply Qplus_comp; [reflexivity|].
      rewrite <- qsum_scale. apply qsum_map_ext. intros c _. ring. }
  rewrite qsum_plus. rewrite qsum_exchange.
  rewrite (qsum_map_ext _ (fun c => 0 * nth c z 0)%Q (seq 0 k)); [rewrite qsum_scale; ring|].
  intros c Hc. apply in_seq in Hc. rewrite qsum_scale, Hv by lia. ring.
Qed.

(** ** DEAGO *)

Lemma deago_runs dist vol nn sd autoencoder p r D mn mj n :
  knn_ok dist nn -> rng_ok r -> unif_pos r -> wf_data (d_X D) (d_dim D) (d_y D) -> is_minority (d_y D) mn mj ->
  asked (sm_proportion p) (d_y D) mn mj = Ok n -> 1 <= sm_n_neighbors p -> plain_ss (sm_ss p) ->
  (forall P x, length (autoencoder P x) = d_dim D) ->
  runs D mn n (deago_spec dist sd autoencoder p D mn n) (deago_sample vol nn sd autoencoder p r D).
Proof.
  intros Hnn Hr Hu [HX Hl] Hmin Ha Hk Hss Hae. unfold deago_sample, deago_algorithm.
  apply (runs_intro _ _ _ _ _ _ _ Hmin Ha). intros st (E1 & E2 & _) H2 Hn. rewrite E1.
  destruct (smote_runs dist vol nn p r D mn mj n) as [_ G]; auto. { now split. }
  destruct (G H2 ltac:(lia)) as (S0 & ES & HS). rewrite ES. cbn [bind fst]. rewrite skipn_app, skipn_all, Nat.sub_diag. cbn [skipn app].
  set (X_min := rows_with mn (d_X D) (d_y D)). set (mm := std_fit sd (d_dim D) X_min). set (f := mm_transform mm).
  assert (Lmm : length mm = d_dim D) by apply std_fit_length.
  assert (Rmm : Forall (fun lr => ~ (snd lr == 0)%Q) mm) by apply std_fit_range.
  destruct (std_standard sd (d_dim D) X_min) as (w & W1 & W2). eexists. split; [reflexivity|].
  exists w, f, S0. fold X_min. split; [exact W1|]. split; [exact W2|]. split; [exact HS|]. rewrite map_length. split; [reflexivity|].
  intros t Ht. rewrite (nth_map_in _ []) by exact Ht. set (v := autoencoder _ _). assert (Lv : length v = d_dim D) by apply Hae.
  split; [now apply mm_inverse_length|]. apply (mm_forth (d_dim D)); auto.
Qed.
