(** Properties C120 to C125: SMOTE_AMSR, PDFOS, KernelADASYN, MOT2LD, DEAGO and ASMOBD. *)

From Coq Require Import List ZArith QArith Qabs Qminmax Bool Arith Lia Lqa Sorting.Sorted Permutation.
From Verif Require Import Np PyVal NpFacts SimplexModel Spec SpecDanger SpecNoise SpecComp SpecEdit BorderFacts SimplexFacts SimplexGeom Float64
  SamplerModel SamplerFacts OversFacts OversGen BaseModel NoiseModel KnnModel KnnFacts DangerModel NearModel ClusterOversModel
  ClusterOversFacts CompModel CompFacts SpecNear LevelModel SpecLevel SpecGroup WrapModel SpecWrap DirModel SpecDir RegionModel SpecRegion
  SearchModel SpecSearch GraphModel SpecGraph MixModel SpecMix EmbedModel SpecEmbed EmbedFacts EmbedFacts2 EmbedFacts3 EmbedFacts4 EmbedFacts5 EmbedFacts6
  Witness DangerWitness ClusterWitness CompWitness EditWitness NearWitness LevelWitness WrapWitness DirWitness RegionWitness SearchWitness GraphWitness MixWitness EmbedWitness.
Import ListNotations.
Open Scope nat_scope.

(** C120. *)
Theorem C120_amsr : forall forest proportion tp d D mn mj n,
  draws_ok d -> wf_data (d_X D) (d_dim D) (d_y D) -> is_minority (d_y D) mn mj -> asked proportion (d_y D) mn mj = Ok n ->
  runs D mn n (amsr_spec (forest (d_X D)) tp D mn n) (amsr_sample forest proportion tp d D).
Proof. exact amsr_runs. Qed.

Example C120_example :
  wf_data (d_X en_D) (d_dim en_D) (d_y en_D) /\ is_minority (d_y en_D) 1 0 /\ asked one (d_y en_D) 1 0 = Ok 2%Z /\ 2 < count_label (d_y en_D) 1 /\
  draws_ok (draws_at (1 # 2)) /\
  tidy (amsr_sample first_column one TStar (draws_at (1 # 2)) en_D) = Ok (d_X en_D ++ [[9 # 8]; [9 # 8]]%Q, d_y en_D ++ [1; 1]%Z) /\
  appends en_D 1 (amsr_spec (first_column (d_X en_D)) TStar en_D 1 2) (amsr_sample first_column one TStar (draws_at (1 # 2)) en_D).
Proof.
  split; [apply en_D_ok|]. split; [apply en_D_ok|]. split; [reflexivity|]. split; [cbn; lia|]. split; [apply draws_at_ok, half_share|]. split; [vm_compute; reflexivity|].
  apply (C120_amsr first_column one TStar (draws_at (1 # 2)) en_D 1 0 2);
    auto using draws_at_ok, half_share; try apply en_D_ok; reflexivity || (cbn; lia).
Qed.

(** C121. *)
Theorem C121_pdfos : forall sd eigenvectors bandwidth normals proportion d D mn mj n,
  draws_ok d -> eigen_ok eigenvectors (d_dim D) -> normals_ok normals ->
  wf_data (d_X D) (d_dim D) (d_y D) -> is_minority (d_y D) mn mj -> asked proportion (d_y D) mn mj = Ok n ->
  let out := pdfos_sample sd eigenvectors bandwidth normals proportion d D in
  (count_label (d_y D) mn <= 2 \/ n = 0%Z -> unchanged D out) /\
  (2 < count_label (d_y D) mn -> (0 < n)%Z -> pdfos_result sd eigenvectors bandwidth normals D mn n out).
Proof. exact pdfos_ok. Qed.

(** In a direction at right angles to the eigenvectors kept, the new rows do not spread
    at all: their component is that of the mean. *)
Theorem C121_flat : forall normals f D mn n k m T S v,
  length m = d_dim D -> pdfos_spec normals f D mn n k m T S ->
  (forall c, c < k -> (qsum (map (fun j => nth j v 0 * nth c (nth j T []) 0) (seq 0 (d_dim D))) == 0)%Q) ->
  Forall (fun x => along (d_dim D) v (f x) == along (d_dim D) v m)%Q S.
Proof. exact pdfos_flat. Qed.

Example C121_example :
  wf_data (d_X v_D) (d_dim v_D) (d_y v_D) /\ is_minority (d_y v_D) 1 0 /\ asked one (d_y v_D) 1 0 = Ok 2%Z /\
  tidy (pdfos_sample unit_sd first_axis fine_bandwidth halves one (draws_last (1 # 2)) v_D) =
    Ok (d_X v_D ++ [[3 # 2; 4 # 3]; [3 # 2; 4 # 3]]%Q, d_y v_D ++ [1; 1]%Z) /\
  pdfos_result unit_sd first_axis fine_bandwidth halves v_D 1 2 (pdfos_sample unit_sd first_axis fine_bandwidth halves one (draws_last (1 # 2)) v_D) /\
  pdfos_sample unit_sd no_axis fine_bandwidth halves one (draws_last (1 # 2)) v_D = Ok (d_X v_D, d_y v_D).
Proof.
  split; [apply v_D_ok|]. split; [apply v_D_ok|]. split; [reflexivity|]. split; [vm_compute; reflexivity|]. split; [|vm_compute; reflexivity].
  apply (C121_pdfos unit_sd first_axis fine_bandwidth halves one (draws_last (1 # 2)) v_D 1 0 2);
    auto using draws_last_ok, half_share, first_axis_ok, halves_ok; try apply v_D_ok; try apply first_axis_ok; reflexivity || (cbn; lia).
Qed.

(** C122. *)
Theorem C122_kernel_adasyn : forall dist nn p_x ill_conditioned cholesky normal pca p ds D mn mj n,
  knn_ok dist nn -> kernel_ok p_x -> cholesky_shapes cholesky -> pca_shapes pca -> (forall l, draws_ok (ds l)) -> 1 <= ka_periods p ->
  wf_data (d_X D) (d_dim D) (d_y D) -> is_minority (d_y D) mn mj -> asked (ka_proportion p) (d_y D) mn mj = Ok n ->
  let out := ka_sample nn p_x ill_conditioned cholesky normal pca p ds D in
  (count_label (d_y D) mn <= 2 \/ n = 0%Z -> unchanged D out) /\
  (2 < count_label (d_y D) mn -> (0 < n)%Z -> ka_result dist p_x ill_conditioned cholesky normal pca p ds mn mj n 0 D out).
Proof. exact ka_sample_ok. Qed.

Example C122_example :
  wf_data (d_X ka_D) (d_dim ka_D) (d_y ka_D) /\ is_minority (d_y ka_D) 1 0 /\ asked one (d_y ka_D) 1 0 = Ok 2%Z /\
  tidy (ka_sample ex_nn flat_kernel never_ill ones tenths (pca_first 3) ka_p ka_ds ka_D) =
    Ok (d_X ka_D ++ [[9 # 5; 9 # 5; 34 # 5]; [9 # 2; 9 # 2; 19 # 2]]%Q, d_y ka_D ++ [1; 1]%Z) /\
  ka_result sqdist flat_kernel never_ill ones tenths (pca_first 3) ka_p ka_ds 1 0 2 0 ka_D
    (ka_sample ex_nn flat_kernel never_ill ones tenths (pca_first 3) ka_p ka_ds ka_D).
Proof.
  split; [apply ka_D_ok|]. split; [apply ka_D_ok|]. split; [reflexivity|]. split; [vm_compute; reflexivity|].
  apply (C122_kernel_adasyn sqdist ex_nn flat_kernel never_ill ones tenths (pca_first 3) ka_p ka_ds ka_D 1 0 2);
    auto using ex_nn_ok, flat_kernel_ok, ones_ok, pca_first_shapes, ka_ds_ok; try apply ka_D_ok; reflexivity || (cbn; lia).
Qed.

(** The rows given do not come first in the result, as they do with the other samplers
    that only add rows: after a reduction they come back from the principal components,
    without what the reduction lost. *)
Theorem C122_originals_refuted :
  ~ (forall dist nn p_x ill_conditioned cholesky normal pca p ds D mn mj n X' y',
     knn_ok dist nn -> kernel_ok p_x -> cholesky_shapes cholesky -> pca_shapes pca -> (forall l, draws_ok (ds l)) -> 1 <= ka_periods p ->
     wf_data (d_X D) (d_dim D) (d_y D) -> is_minority (d_y D) mn mj -> asked (ka_proportion p) (d_y D) mn mj = Ok n ->
     ka_sample nn p_x ill_conditioned cholesky normal pca p ds D = Ok (X', y') -> same_rows (firstn (length (d_X D)) X') (d_X D)).
Proof.
  intros H.
  destruct (ka_sample ex_nn flat_kernel three_wide ones tenths (pca_first 3) ka_p ka_ds ka_D) as [[X' y']|e] eqn:E; [|vm_compute in E; discriminate].
  specialize (H sqdist ex_nn flat_kernel three_wide ones tenths (pca_first 3) ka_p ka_ds ka_D 1%Z 0%Z 2%Z X' y' ex_nn_ok flat_kernel_ok ones_ok (pca_first_shapes 3) ka_ds_ok
    ltac:(cbn; lia) (proj1 ka_D_ok) (proj2 ka_D_ok) eq_refl E).
  vm_compute in E. injection E as <- <-. vm_compute in H.
  inversion H as [|? ? ? ? H1 _]; subst. inversion H1 as [|? ? ? ? _ H2]; subst. inversion H2 as [|? ? ? ? _ H3]; subst. inversion H3 as [|? ? ? ? H4 _]; subst. discriminate H4.
Qed.

(** C123. *)
Theorem C123_mot2ld : forall dist volume nn tsne find_peaks listing p rs D mn mj n,
  knn_ok dist nn -> (forall x z, (0 <= dist x z)%Q) -> (forall x, (dist x x == 0)%Q) -> tsne_ok tsne -> peaks_ok find_peaks -> listing_ok listing ->
  rngs_ok rs -> rngs_pos rs -> plain_ss (mo_ss p) -> 1 <= mo_k p -> (forall q, mo_d_cut p = Some q -> (0 < q)%Q) ->
  wf_data (d_X D) (d_dim D) (d_y D) -> is_minority (d_y D) mn mj -> asked (mo_proportion p) (d_y D) mn mj = Ok n ->
  let out := mot2ld_sample volume nn dist tsne find_peaks listing p rs D in
  (count_label (d_y D) mn <= 2 \/ n = 0%Z -> unchanged D out) /\
  (2 < count_label (d_y D) mn -> (0 < n)%Z -> mot_result dist tsne find_peaks p D mn n out).
Proof.
  intros dist volume nn tsne find_peaks listing p rs D mn mj n H1 H2 H3 H4 H5 H6. exact (mot2ld_ok dist volume nn tsne find_peaks listing H1 H2 H3 H4 H5 H6 p rs D mn mj n).
Qed.

Example C123_example :
  wf_data (d_X mot_D) (d_dim mot_D) (d_y mot_D) /\ is_minority (d_y mot_D) 1 0 /\ asked one (d_y mot_D) 1 0 = Ok 2%Z /\
  tidy (mot2ld_sample vol1 ex_nn sqdist same_place first_peak in_order mo_p rs0 mot_D) =
    Ok ([[49];[51];[52];[101];[102];[0];[1];[2];[50];[1];[1]]%Q, [0;0;0;0;0;1;1;1;1;1;1]%Z) /\
  mot_result sqdist same_place first_peak mo_p mot_D 1 2 (mot2ld_sample vol1 ex_nn sqdist same_place first_peak in_order mo_p rs0 mot_D) /\
  mot2ld_sample vol1 ex_nn sqdist same_place no_peak in_order mo_p rs0 mot_D = Ok (d_X mot_D, d_y mot_D).
Proof.
  split; [apply mot_D_ok|]. split; [apply mot_D_ok|]. split; [reflexivity|]. split; [vm_compute; reflexivity|]. split; [|vm_compute; reflexivity].
  apply (C123_mot2ld sqdist vol1 ex_nn same_place first_peak in_order mo_p rs0 mot_D 1 0 2);
    auto using ex_nn_ok, sqdist_nonneg, sqdist_self, same_place_ok, first_peak_ok, in_order_ok, rs0_ok, rs0_pos; try apply mot_D_ok; try apply ex_ss_plain;
    try reflexivity; try (cbn; lia). intros q Hq. discriminate Hq.
Qed.

(** The rows removed as noise are not the noisy minority rows: majority rows are. *)
Theorem C123_noise_refuted :
  ~ (forall dist volume nn tsne find_peaks listing p rs D mn mj n X' y',
     knn_ok dist nn -> (forall x z, (0 <= dist x z)%Q) -> (forall x, (dist x x == 0)%Q) -> tsne_ok tsne -> peaks_ok find_peaks -> listing_ok listing ->
     rngs_ok rs -> rngs_pos rs -> plain_ss (mo_ss p) -> 1 <= mo_k p -> (forall q, mo_d_cut p = Some q -> (0 < q)%Q) ->
     wf_data (d_X D) (d_dim D) (d_y D) -> is_minority (d_y D) mn mj -> asked (mo_proportion p) (d_y D) mn mj = Ok n ->
     mot2ld_sample volume nn dist tsne find_peaks listing p rs D = Ok (X', y') -> incl (rows_with mj (d_X D) (d_y D)) (rows_with mj X' y')).
Proof.
  intros H. destruct (mot2ld_sample vol1 ex_nn sqdist same_place first_peak in_order mo_p rs0 mot_D) as [[X' y']|e] eqn:E; [|vm_compute in E; discriminate].
  assert (G : incl (rows_with 0%Z (d_X mot_D) (d_y mot_D)) (rows_with 0%Z X' y')).
  { apply (H sqdist vol1 ex_nn same_place first_peak in_order mo_p rs0 mot_D 1%Z 0%Z 2%Z X' y');
      auto using ex_nn_ok, sqdist_nonneg, sqdist_self, same_place_ok, first_peak_ok, in_order_ok, rs0_ok, rs0_pos; try apply mot_D_ok; try apply ex_ss_plain;
      try reflexivity; try (cbn; lia). intros q Hq. discriminate Hq. }
  vm_compute in E. injection E as <- <-. specialize (G [100]%Q). cbn in G.
  destruct G as [G|[G|[G|[G|[G|[]]]]]]; [tauto|discriminate..].
Qed.

(** C124. *)
Theorem C124_deago : forall dist volume nn sd autoencoder p r D mn mj n,
  knn_ok dist nn -> rng_ok r -> unif_pos r -> wf_data (d_X D) (d_dim D) (d_y D) -> is_minority (d_y D) mn mj ->
  asked (sm_proportion p) (d_y D) mn mj = Ok n -> 1 <= sm_n_neighbors p -> plain_ss (sm_ss p) ->
  (forall P x, length (autoencoder P x) = d_dim D) ->
  runs D mn n (deago_spec dist sd autoencoder p D mn n) (deago_sample volume nn sd autoencoder p r D).
Proof. exact deago_runs. Qed.

Example C124_example :
  wf_data (d_X en_D) (d_dim en_D) (d_y en_D) /\ is_minority (d_y en_D) 1 0 /\ asked one (d_y en_D) 1 0 = Ok 2%Z /\
  tidy (deago_sample vol1 ex_nn unit_sd (halver 1) (mk_smote one 5 ex_ss) rng0 en_D) = Ok (d_X en_D ++ [[1]; [1]]%Q, d_y en_D ++ [1; 1]%Z) /\
  appends en_D 1 (deago_spec sqdist unit_sd (halver 1) (mk_smote one 5 ex_ss) en_D 1 2) (deago_sample vol1 ex_nn unit_sd (halver 1) (mk_smote one 5 ex_ss) rng0 en_D).
Proof.
  split; [apply en_D_ok|]. split; [apply en_D_ok|]. split; [reflexivity|]. split; [vm_compute; reflexivity|].
  apply (C124_deago sqdist vol1 ex_nn unit_sd (halver 1) (mk_smote one 5 ex_ss) rng0 en_D 1 0 2);
    auto using ex_nn_ok, rng0_ok, rng0_unif_pos; try apply en_D_ok; try apply ex_ss_plain; try reflexivity; try (cbn; lia). intros P x. apply (halver_length 1).
Qed.

(** C125. *)
Theorem C125_asmobd : forall dist volume nn sd optics squash p r D mn mj n,
  knn_ok dist nn -> (forall x, (dist x x == 0)%Q) -> optics_ok optics ->
  rng_ok r -> unif_pos r -> plain_ss (ab_ss p) -> (0 <= ab_eta p <= 1)%Q ->
  wf_data (d_X D) (d_dim D) (d_y D) -> is_minority (d_y D) mn mj -> asked (ab_proportion p) (d_y D) mn mj = Ok n ->
  let out := asmobd_sample volume nn dist sd optics squash p r D in
  (count_label (d_y D) mn <= 2 \/ n = 0%Z -> unchanged D out) /\
  (2 < count_label (d_y D) mn -> (0 < n)%Z -> asmobd_result dist sd optics squash p D mn mj n out).
Proof. intros dist volume nn sd optics squash p r D mn mj n H1 H2 H3. exact (asmobd_ok dist volume nn sd optics squash H1 H2 H3 p r D mn mj n). Qed.

Example C125_example :
  wf_data (d_X ab_D) (d_dim ab_D) (d_y ab_D) /\ is_minority (d_y ab_D) 1 0 /\ asked one (d_y ab_D) 1 0 = Ok 2%Z /\
  tidy (asmobd_sample vol1 ex_nn sqdist unit_sd next_row squash2 (ab_p false (1 # 2)) rng0 ab_D) = Ok (d_X ab_D ++ [[1 # 20]; [1 # 20]]%Q, d_y ab_D ++ [1; 1]%Z) /\
  asmobd_result sqdist unit_sd next_row squash2 (ab_p false (1 # 2)) ab_D 1 0 2 (asmobd_sample vol1 ex_nn sqdist unit_sd next_row squash2 (ab_p false (1 # 2)) rng0 ab_D).
Proof.
  split; [apply ab_D_ok|]. split; [apply ab_D_ok|]. split; [reflexivity|]. split; [vm_compute; reflexivity|].
  apply (C125_asmobd sqdist vol1 ex_nn unit_sd next_row squash2 (ab_p false (1 # 2)) rng0 ab_D 1 0 2);
    auto using ex_nn_ok, sqdist_self, next_row_ok, rng0_ok, rng0_unif_pos; try apply ab_D_ok; try apply ex_ss_plain; try reflexivity; try (cbn; lia).
  cbn. split; discriminate.
Qed.

(** With smoothing by the sigmoid the weights may be negative, and the call fails. *)
Theorem C125_sigmoid_refuted :
  ~ (forall dist volume nn sd optics squash p r D mn mj n,
     knn_ok dist nn -> (forall x, (dist x x == 0)%Q) -> optics_ok optics -> (forall k e X, exists cr, optics k e X = Ok cr) -> (forall q, (0 <= squash q < 1)%Q) ->
     rng_ok r -> unif_pos r -> plain_ss (ab_ss p) -> (0 <= ab_eta p <= 1)%Q ->
     wf_data (d_X D) (d_dim D) (d_y D) -> is_minority (d_y D) mn mj -> asked (ab_proportion p) (d_y D) mn mj = Ok n ->
     asmobd_sample volume nn dist sd optics squash p r D <> Err ValueError).
Proof.
  intros H. apply (H sqdist vol1 ex_nn unit_sd next_row squash2 (ab_p true 1) rng0 ab_D 1%Z 0%Z 2%Z);
    auto using ex_nn_ok, sqdist_self, next_row_ok, squash2_range, rng0_ok, rng0_unif_pos; try apply ab_D_ok; try apply ex_ss_plain; try reflexivity; try (cbn; lia).
  - intros k e X. eexists. reflexivity.
  - cbn. split; discriminate.
Qed.

Print Assumptions C120_amsr.
Print Assumptions C121_pdfos.
Print Assumptions C121_flat.
Print Assumptions C122_kernel_adasyn.
Print Assumptions C122_originals_refuted.
Print Assumptions C123_mot2ld.
Print Assumptions C123_noise_refuted.
Print Assumptions C124_deago.
Print Assumptions C125_asmobd.
Print Assumptions C125_sigmoid_refuted.
