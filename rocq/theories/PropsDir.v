(** Properties C95 to C100: NoSMOTE, ADOMS, DE_oversampling, LVQ_SMOTE, G_SMOTE
    and MDO. *)

From Coq Require Import List ZArith QArith Qabs Qminmax Bool Arith Lia Lqa Sorting.Sorted Permutation.
From Verif Require Import Np NpFacts SimplexModel Spec SpecDanger SpecNoise SpecComp SpecEdit BorderFacts SimplexFacts SimplexGeom Float64
  SamplerModel SamplerFacts OversFacts OversGen BaseModel NoiseModel KnnModel KnnFacts DangerModel ClusterOversModel
  ClusterOversFacts CompModel CompFacts SpecNear LevelModel SpecLevel SpecGroup WrapModel SpecWrap DirModel SpecDir DirFacts DirFacts2 DirFacts3
  Witness DangerWitness ClusterWitness CompWitness EditWitness NearWitness LevelWitness WrapWitness DirWitness.
Import ListNotations.
Open Scope nat_scope.

(** C95. *)
Theorem C95_no_smote : forall v e D mn mj, is_minority (d_y D) mn mj ->
  no_smote_sample v e D =
    if count_label (d_y D) mn <=? 2 then Ok (d_X D, d_y D)
    else if v then Err ValueError else if e then Err RuntimeError else Ok (d_X D, d_y D).
Proof. exact no_smote_runs. Qed.

Example C95_example : is_minority (d_y en_D) 1 0 /\ no_smote_sample false false en_D = Ok (d_X en_D, d_y en_D) /\
  no_smote_sample false true en_D = Err RuntimeError /\ no_smote_sample true true en_D = Err ValueError.
Proof. split; [apply en_D_ok|]. repeat split. Qed.

(** C96. *)
Theorem C96_adoms : forall dist nn norm pca1 p d D mn mj n,
  knn_ok dist nn -> draws_ok d -> pca1_ok (d_dim D) pca1 -> wf_data (d_X D) (d_dim D) (d_y D) -> is_minority (d_y D) mn mj ->
  asked (cp_proportion p) (d_y D) mn mj = Ok n -> 1 <= cp_n_neighbors p ->
  runs D mn n (adoms_spec dist norm pca1 p D mn n) (adoms_sample nn norm pca1 p d D).
Proof. exact adoms_runs. Qed.

(** With unit directions a new row is nowhere further from its base row than the
    neighbour is. *)
Theorem C96_step : forall dist norm pca1 p D mn n S, rect (d_dim D) (d_X D) -> length (d_X D) = length (d_y D) ->
  pca1_ok (d_dim D) pca1 ->
  adoms_spec dist norm pca1 p D mn n S -> (forall P, sqnorm (pca1 P) == 1)%Q ->
  let X_min := rows_with mn (d_X D) (d_y D) in
  forall x, In x S -> exists b i, b < length X_min /\ i < length X_min /\
    (sqnorm (vsub x (nth b X_min [])) <= norm (vsub (nth i X_min []) (nth b X_min [])) * norm (vsub (nth i X_min []) (nth b X_min [])))%Q.
Proof. exact adoms_step. Qed.

Example C96_example :
  adoms_sample ex_nn cross_norm (fun _ => [1;0]%Q) (mk_comp one 3) (draws_at (1 # 2)) cross_D =
    Ok (d_X cross_D ++ [[-10 # 2; 10 # 2]; [-10 # 2; 10 # 2]]%Q, d_y cross_D ++ [1; 1]%Z) /\
  runs cross_D 1 2 (adoms_spec sqdist cross_norm (fun _ => [1;0]%Q) (mk_comp one 3) cross_D 1 2)
    (adoms_sample ex_nn cross_norm (fun _ => [1;0]%Q) (mk_comp one 3) (draws_at (1 # 2)) cross_D).
Proof.
  split; [vm_compute; reflexivity|].
  apply (C96_adoms sqdist ex_nn cross_norm (fun _ => [1;0]%Q) (mk_comp one 3) (draws_at (1 # 2)) cross_D 1 0 2);
    auto using ex_nn_ok, draws_at_ok, half_share; try apply cross_D_ok; try reflexivity; try (intros P; reflexivity); cbn; lia.
Qed.

(** New rows need not lie among the minority rows: the length of the step is that
    of the difference to the neighbour, not that of its part along the direction. *)
Theorem C96_hull_refuted :
  ~ (forall dist nn norm pca1 p d D mn mj n S,
     knn_ok dist nn -> draws_ok d -> pca1_ok (d_dim D) pca1 -> wf_data (d_X D) (d_dim D) (d_y D) -> is_minority (d_y D) mn mj ->
     asked (cp_proportion p) (d_y D) mn mj = Ok n -> 1 <= cp_n_neighbors p ->
     let X_min := rows_with mn (d_X D) (d_y D) in
     euclidean_on norm X_min -> (forall P, Permutation P X_min -> principal (d_dim D) P (pca1 P)) ->
     S <> [] -> adoms_sample nn norm pca1 p d D = Ok (d_X D ++ S, d_y D ++ repeat mn (length S)) ->
     Forall (in_hull (d_dim D) X_min) S).
Proof.
  intros H.
  specialize (H sqdist ex_nn cross_norm (fun _ => [1;0]%Q) (mk_comp one 3) (draws_second (99 # 100)) cross_D 1%Z 0%Z 2%Z
    [[1287 # 100; 500 # 100]; [1287 # 100; 500 # 100]]%Q).
  assert (F : Forall (in_hull 2 cross_rows) [[1287 # 100; 500 # 100]; [1287 # 100; 500 # 100]]%Q).
  { apply H; auto using ex_nn_ok; try apply cross_D_ok; try reflexivity; try (intros P; reflexivity).
    - apply draws_second_ok. split; reflexivity || discriminate.
    - cbn. lia.
    - apply cross_norm_ok.
    - apply cross_principal.
    - discriminate. }
  inversion F as [|? ? F0 _]; subst.
  destruct (in_hull_bound _ _ _ (-12) 12 0 F0) as [_ G]; [lia| |vm_compute in G; now apply G].
  intros q Hq. cbn in Hq. repeat (destruct Hq as [<-|Hq]; [split; vm_compute; discriminate|]). destruct Hq.
Qed.

(** C97. *)
Theorem C97_de : forall dist nn norm kmeans p d D mn mj n,
  knn_ok dist nn -> draws_ok d -> kmeans_ok (d_dim D) kmeans -> wf_data (d_X D) (d_dim D) (d_y D) -> is_minority (d_y D) mn mj ->
  asked (de_proportion p) (d_y D) mn mj = Ok n -> 2 <= de_n_neighbors p -> 1 <= de_n_clusters p -> 1 <= d_dim D ->
  (count_label (d_y D) mn <= 2 \/ n = 0%Z -> unchanged D (de_sample nn norm kmeans p d D)) /\
  (2 < count_label (d_y D) mn -> (0 < n)%Z -> de_outcome dist norm kmeans p D mn n (de_sample nn norm kmeans p d D)).
Proof. exact de_runs. Qed.

Definition de_p : de_params := mk_de one 3 (1 # 2) (9 # 10) 2.
Example C97_example :
  de_outcome sqdist sum_abs km_side de_p en_D 1 2 (de_sample ex_nn sum_abs km_side de_p (draws_at (1 # 2)) en_D).
Proof.
  apply (C97_de sqdist ex_nn sum_abs km_side de_p (draws_at (1 # 2)) en_D 1 0 2);
    auto using ex_nn_ok, draws_at_ok, half_share, km_side_ok; try apply en_D_ok; try reflexivity; cbn; lia.
Qed.

(** The call can lose original rows, and leave fewer majority than minority rows. *)
Theorem C97_keeps_refuted :
  ~ (forall dist nn norm kmeans p d D mn mj n X' y',
     knn_ok dist nn -> draws_ok d -> kmeans_ok (d_dim D) kmeans -> wf_data (d_X D) (d_dim D) (d_y D) -> is_minority (d_y D) mn mj ->
     asked (de_proportion p) (d_y D) mn mj = Ok n -> 2 <= de_n_neighbors p -> 1 <= de_n_clusters p -> 1 <= d_dim D ->
     de_sample nn norm kmeans p d D = Ok (X', y') -> incl (d_X D) X' \/ count_label y' mn <= count_label y' mj).
Proof.
  intros H.
  specialize (H sqdist ex_nn sum_abs km_side de_p (draws_at (1 # 2)) en_D 1%Z 0%Z 2%Z
    [[0];[1];[2];[3];[3 # 2];[102];[-1 # 2];[-1 # 2]]%Q [1;1;1;1;0;0;1;1]%Z).
  destruct H as [H|H]; auto using ex_nn_ok, draws_at_ok, half_share, km_side_ok; try apply en_D_ok; try reflexivity; try (cbn; lia).
  - specialize (H [100]%Q ltac:(cbn; tauto)). cbn in H. repeat (destruct H as [H|H]; [discriminate H|]). destruct H.
  - vm_compute in H. lia.
Qed.

(** C98. *)
Theorem C98_lvq : forall dist nn norm kmeans p d D mn mj n,
  knn_ok dist nn -> draws_ok d -> kmeans_ok (d_dim D) kmeans -> wf_data (d_X D) (d_dim D) (d_y D) -> is_minority (d_y D) mn mj ->
  asked (lvq_proportion p) (d_y D) mn mj = Ok n -> 1 <= lvq_n_neighbors p -> 3 <= lvq_n_clusters p ->
  let X_min := rows_with mn (d_X D) (d_y D) in
  let codebook := snd (kmeans X_min (Nat.min (length X_min) (lvq_n_clusters p))) in
  runs D mn n (lvq_spec dist norm codebook p D mn n) (lvq_sample nn norm kmeans p d D).
Proof. exact lvq_runs. Qed.

Example C98_example :
  lvq_sample ex_nn sum_abs (km_turn 1) (mk_lvq one 3 3) (draws_last (1 # 2)) en_D =
    Ok (d_X en_D ++ [[1]; [1]]%Q, d_y en_D ++ [1; 1]%Z) /\
  runs en_D 1 2 (lvq_spec sqdist sum_abs [[0];[1];[2]]%Q (mk_lvq one 3 3) en_D 1 2)
    (lvq_sample ex_nn sum_abs (km_turn 1) (mk_lvq one 3 3) (draws_last (1 # 2)) en_D).
Proof.
  split; [vm_compute; reflexivity|].
  apply (C98_lvq sqdist ex_nn sum_abs (km_turn 1) (mk_lvq one 3 3) (draws_last (1 # 2)) en_D 1 0 2);
    auto using ex_nn_ok, draws_last_ok, half_share, km_turn_ok; try apply en_D_ok; try reflexivity; cbn; lia.
Qed.

(** C99. *)
Theorem C99_g_smote : forall dist vol nn norm eig arccos p r D mn mj n,
  knn_ok dist nn -> rng_ok r -> unif_pos r -> plain_ss (sm_ss p) -> eig_ok (d_dim D) eig -> arccos_ok arccos -> (forall v, 0 <= norm v)%Q ->
  wf_data (d_X D) (d_dim D) (d_y D) -> is_minority (d_y D) mn mj ->
  asked (sm_proportion p) (d_y D) mn mj = Ok n -> 1 <= sm_n_neighbors p ->
  (d_dim D < 2 -> unchanged D (g_smote_sample nn norm vol eig arccos p r D)) /\
  (2 <= d_dim D -> runs D mn n (g_smote_spec dist norm eig p D mn n) (g_smote_sample nn norm vol eig arccos p r D)).
Proof. exact g_smote_runs. Qed.

Lemma tilt_runs : g_smote_sample ex_nn tilt_norm vol1 tilt_eig arc (smk 3) rng0 tilt_D =
    Ok (d_X tilt_D ++ [[384 # 64; -512 # 64]; [384 # 64; -512 # 64]]%Q, d_y tilt_D ++ [1; 1]%Z).
Proof. vm_compute. reflexivity. Qed.

Example C99_example :
  runs tilt_D 1 2 (g_smote_spec sqdist tilt_norm tilt_eig (smk 3) tilt_D 1 2) (g_smote_sample ex_nn tilt_norm vol1 tilt_eig arc (smk 3) rng0 tilt_D).
Proof.
  apply (C99_g_smote sqdist vol1 ex_nn tilt_norm tilt_eig arc (smk 3) rng0 tilt_D 1 0 2);
    auto using ex_nn_ok, rng0_ok, rng0_unif_pos, ex_ss_plain, tilt_eig_ok, arc_ok, tilt_norm_nonneg; try apply tilt_D_ok; try reflexivity; cbn; lia.
Qed.

(** The partner of a row need not be the neighbour in the direction closest to
    the principal axis of the minority rows: the code takes a row of the matrix
    whose columns are the eigenvectors. *)
Theorem C99_axis_refuted :
  ~ (forall dist vol nn norm eig arccos p r D mn mj n S,
     knn_ok dist nn -> rng_ok r -> unif_pos r -> plain_ss (sm_ss p) -> eig_ok (d_dim D) eig -> arccos_ok arccos -> (forall v, 0 <= norm v)%Q ->
     wf_data (d_X D) (d_dim D) (d_y D) -> is_minority (d_y D) mn mj ->
     asked (sm_proportion p) (d_y D) mn mj = Ok n -> 1 <= sm_n_neighbors p ->
     let X_min := rows_with mn (d_X D) (d_y D) in
     euclidean_on norm X_min -> eigen_columns (d_dim D) X_min (eig X_min) ->
     ss_n_dim (sm_ss p) = 2 -> ss_gauss (sm_ss p) = GNone ->
     g_smote_sample nn norm vol eig arccos p r D = Ok (d_X D ++ S, d_y D ++ repeat mn (length S)) ->
     Forall (fun x => exists a b i, a < d_dim D /\
         (forall a', a' < d_dim D -> (nth a' (fst (eig X_min)) 0 <= nth a (fst (eig X_min)) 0)%Q) /\
         b < length X_min /\ i < length X_min /\ b <> i /\
         (forall i', i' < length X_min -> b <> i' ->
           let c := fun i => (Qabs (dot (vsub (nth i X_min []) (nth b X_min [])) (col a (snd (eig X_min)))) / norm (vsub (nth i X_min []) (nth b X_min [])))%Q in
           sm_n_neighbors p < length X_min - 1 \/ (c i' <= c i)%Q) /\
         convex_comb (d_dim D) [nth b X_min []; nth i X_min []] x) S).
Proof.
  intros H.
  specialize (H sqdist vol1 ex_nn tilt_norm tilt_eig arc (smk 3) rng0 tilt_D 1%Z 0%Z 2%Z [[384 # 64; -512 # 64]; [384 # 64; -512 # 64]]%Q).
  refine (_ (H _ _ _ _ _ _ _ _ _ _ _ _ _ _ _ _)); clear H; auto using ex_nn_ok, rng0_ok, rng0_unif_pos, ex_ss_plain, tilt_eig_ok, arc_ok, tilt_norm_nonneg, tilt_norm_ok, tilt_eigen;
    try apply tilt_D_ok; try reflexivity; try (cbn; lia).
  intros F. inversion F as [|? ? (a & b & i & Ha & Ma & Hb & Hi & Nbi & M & C) _]; subst. clear F.
  change (d_dim tilt_D) with 2 in *. change (rows_with 1 (d_X tilt_D) (d_y tilt_D)) with tilt_rows in *.
  destruct a as [|[|]]; [| |lia].
  2: { specialize (Ma 0 ltac:(lia)). vm_compute in Ma. now apply Ma. }
  destruct C as (_ & ws & Lw & Pw & Sw & E). cbn in Lw. destruct ws as [|w0 [|w1 [|]]]; try discriminate Lw.
  inversion Pw as [|? ? P0 Pw']; subst. inversion Pw' as [|? ? P1 _]; subst.
  pose proof (E 0 ltac:(lia)) as E0. pose proof (E 1 ltac:(lia)) as E1. clear E.
  unfold qsum in Sw, E0, E1. cbn [fold_right map2 nth] in Sw, E0, E1. cbn in Hb, Hi.
  destruct b as [|[|[|[|]]]]; try lia; (destruct i as [|[|[|[|]]]]; try lia);
    cbn [tilt_rows nth] in E0, E1; try Lqa.lra;
    (destruct (M 2 ltac:(cbn; lia) ltac:(lia)) as [G|G]; [cbn in G; lia|vm_compute in G; now apply G]).
Qed.

(** C100. *)
Theorem C100_mdo : forall dist nn root pca_transform pca_inverse p d D mn mj n,
  knn_ok dist nn -> draws_ok d -> root_below root -> pca_ok (d_dim D) pca_transform pca_inverse ->
  wf_data (d_X D) (d_dim D) (d_y D) -> is_minority (d_y D) mn mj ->
  asked (md_proportion p) (d_y D) mn mj = Ok n -> 1 <= d_dim D ->
  (count_label (d_y D) mn <= 2 \/ n = 0%Z -> unchanged D (mdo_sample nn root pca_transform pca_inverse p d D)) /\
  (2 < count_label (d_y D) mn -> (0 < n)%Z ->
   mdo_outcome dist pca_transform pca_inverse p D mn n (mdo_sample nn root pca_transform pca_inverse p d D)).
Proof. exact mdo_runs. Qed.

Example C100_example :
  mdo_outcome sqdist (pca_same 3) (pca_back 3) (mk_mdo one 5 2) axes_D 1 2
    (mdo_sample ex_nn low_root (pca_same 3) (pca_back 3) (mk_mdo one 5 2) (draws_at (1 # 2)) axes_D) /\
  mdo_sample ex_nn low_root (pca_same 3) (pca_back 3) (mk_mdo one 5 2) (draws_at (1 # 2)) axes_D <> Ok (d_X axes_D, d_y axes_D).
Proof.
  split; [|vm_compute; discriminate].
  apply (C100_mdo sqdist ex_nn low_root (pca_same 3) (pca_back 3) (mk_mdo one 5 2) (draws_at (1 # 2)) axes_D 1 0 2);
    auto using ex_nn_ok, draws_at_ok, half_share, low_root_ok, pca_same_ok; try apply axes_D_ok; try reflexivity; cbn; lia.
Qed.

(** Without minority neighbours and with K1 = 0 the call fails instead of
    returning data. *)
Theorem C100_returns_refuted :
  ~ (forall dist nn root pca_transform pca_inverse p d D mn mj n,
     knn_ok dist nn -> draws_ok d -> root_below root -> pca_ok (d_dim D) pca_transform pca_inverse ->
     wf_data (d_X D) (d_dim D) (d_y D) -> is_minority (d_y D) mn mj ->
     asked (md_proportion p) (d_y D) mn mj = Ok n -> 1 <= d_dim D ->
     exists X' y', mdo_sample nn root pca_transform pca_inverse p d D = Ok (X', y')).
Proof.
  intros H.
  destruct (H sqdist ex_nn low_root (pca_same 1) (pca_back 1) (mk_mdo one 1 0) (draws_at (1 # 2)) lone_D 1%Z 0%Z 1%Z) as (X' & y' & E);
    auto using ex_nn_ok, draws_at_ok, half_share, low_root_ok, pca_same_ok; try apply lone_D_ok; try reflexivity; try (cbn; lia).
  vm_compute in E. discriminate E.
Qed.

(** Squared Mahalanobis distance from the mean, columns uncorrelated. *)
Definition maha (dim : nat) (P : list row) (x : row) : Q :=
  qsum (map (fun j => (nth j x 0 - qsum (map (fun z => nth j z 0) P) / inject_Z (Z.of_nat (length P))) *
                      (nth j x 0 - qsum (map (fun z => nth j z 0) P) / inject_Z (Z.of_nat (length P))) / variance (column j P))%Q (seq 0 dim)).

(** The new rows can be further from the mean, in Mahalanobis distance, than
    every minority row, even where PCA changes nothing. *)
Theorem C100_distance_refuted :
  ~ (forall dist nn root p d D mn mj n S,
     knn_ok dist nn -> draws_ok d -> root_below root ->
     wf_data (d_X D) (d_dim D) (d_y D) -> is_minority (d_y D) mn mj ->
     asked (md_proportion p) (d_y D) mn mj = Ok n -> 1 <= d_dim D ->
     let X_min := rows_with mn (d_X D) (d_y D) in
     mdo_sample nn root (pca_same (d_dim D)) (pca_back (d_dim D)) p d D = Ok (d_X D ++ S, d_y D ++ repeat mn (length S)) ->
     Forall (fun x => exists z, In z X_min /\ (maha (d_dim D) X_min x <= maha (d_dim D) X_min z)%Q) S).
Proof.
  intros H. specialize (H sqdist ex_nn low_root (mk_mdo one 5 2) (draws_at (9 # 10)) axes_D 1%Z 0%Z 2%Z).
  destruct (mdo_sample ex_nn low_root (pca_same 3) (pca_back 3) (mk_mdo one 5 2) (draws_at (9 # 10)) axes_D) as [[X' y']|e] eqn:E; [|vm_compute in E; discriminate E].
  set (S := skipn 14 X'). specialize (H S).
  assert (F : Forall (fun x => exists z, In z (firstn 6 (d_X axes_D)) /\ (maha 3 (firstn 6 (d_X axes_D)) x <= maha 3 (firstn 6 (d_X axes_D)) z)%Q) S).
  { apply H; auto using ex_nn_ok, low_root_ok; try apply axes_D_ok; try reflexivity.
    - apply draws_at_ok. split; reflexivity || discriminate.
    - cbn. lia.
    - change (d_dim axes_D) with 3. rewrite E. unfold S. vm_compute in E. injection E as <- <-. reflexivity. }
  unfold S in F. vm_compute in E. injection E as <- _. cbn [skipn] in F. inversion F as [|? ? (z & Hz & G) _]; subst.
  cbn in Hz. repeat (destruct Hz as [<-|Hz]; [apply (Qle_not_lt _ _ G); vm_compute; reflexivity|]). destruct Hz.
Qed.

Print Assumptions C95_no_smote.
Print Assumptions C96_adoms.
Print Assumptions C96_step.
Print Assumptions C96_hull_refuted.
Print Assumptions C97_de.
Print Assumptions C97_keeps_refuted.
Print Assumptions C98_lvq.
Print Assumptions C99_g_smote.
Print Assumptions C99_axis_refuted.
Print Assumptions C100_mdo.
Print Assumptions C100_returns_refuted.
Print Assumptions C100_distance_refuted.
