(** Properties C129 to C131: AMSCO, DSRBF and ADG. *)

From Coq Require Import List ZArith QArith Qabs Qminmax Bool Arith Lia Lqa Sorting.Sorted Permutation.
From Verif Require Import Np PyVal NpFacts SimplexModel Spec SpecDanger SpecNoise SpecComp SpecEdit BorderFacts SimplexFacts SimplexGeom Float64
  SamplerModel SamplerFacts OversFacts OversGen BaseModel NoiseModel KnnModel KnnFacts DangerModel NearModel ClusterOversModel
  ClusterOversFacts CompModel CompFacts SpecNear LevelModel SpecLevel SpecGroup WrapModel SpecWrap DirModel SpecDir RegionModel SpecRegion
  SearchModel SpecSearch GraphModel SpecGraph MixModel SpecMix SwarmModel SpecSwarm FuseModel SpecFuse FuseFacts FuseFacts2 FuseFacts3
  Witness DangerWitness ClusterWitness CompWitness EditWitness NearWitness LevelWitness WrapWitness DirWitness RegionWitness SearchWitness GraphWitness MixWitness EmbedWitness SwarmWitness FuseWitness.
From Verif Require EditFacts4.
Import ListNotations.
Open Scope nat_scope.

(** C129. *)
Theorem C129_amsco : forall dist volume nn to_f fitness p ads D mn mj,
  knn_ok dist nn -> plain_ss (am_ss p) -> 1 <= am_n_pop p -> 1 <= am_n_iter p -> (forall t, am_draws_ok (ads t)) ->
  wf_data (d_X D) (d_dim D) (d_y D) -> is_minority (d_y D) mn mj -> numbers_ok to_f (am_bound p D mj) ->
  let out := am_sample volume nn to_f fitness p ads D in
  (count_label (d_y D) mn <= 4 -> unchanged D out) /\
  (4 < count_label (d_y D) mn -> am_result dist to_f fitness p D mn mj out).
Proof. exact am_sample_ok. Qed.

Example C129_example :
  knn_ok sqdist ex_nn /\ plain_ss (am_ss am_p) /\ (forall t, am_draws_ok (am_ads t)) /\
  wf_data (d_X ip_D) (d_dim ip_D) (d_y ip_D) /\ is_minority (d_y ip_D) 1 0 /\ numbers_ok as_one (am_bound am_p ip_D 0) /\ 4 < count_label (d_y ip_D) 1 /\
  tidy (am_sample vol1 ex_nn as_one likes_all am_p am_ads ip_D) =
    Ok ([[16];[16];[16];[16];[0];[1];[2];[3];[4];[1 # 2]]%Q, [0;0;0;0;1;1;1;1;1;1]%Z) /\
  am_result sqdist as_one likes_all am_p ip_D 1 0 (am_sample vol1 ex_nn as_one likes_all am_p am_ads ip_D).
Proof.
  split; [apply ex_nn_ok|]. split; [apply ex_ss_plain|]. split; [apply am_ads_ok|]. split; [apply ip_D_ok|]. split; [apply ip_D_ok|].
  split; [apply as_one_ok; vm_compute; lia|]. split; [cbn; lia|]. split; [vm_compute; reflexivity|].
  apply (C129_amsco sqdist vol1 ex_nn as_one likes_all am_p am_ads ip_D 1 0); auto using ex_nn_ok, ex_ss_plain, am_ads_ok; try apply ip_D_ok; try (cbn; lia). apply as_one_ok; vm_compute; lia.
Qed.

(** If all rows are always predicted as majority rows, the call fails. *)
Theorem C129_fails_refuted : exists dist volume nn to_f fitness p ads D,
  knn_ok dist nn /\ plain_ss (am_ss p) /\ 1 <= am_n_pop p /\ 1 <= am_n_iter p /\ (forall t, am_draws_ok (ads t)) /\
  wf_data (d_X D) (d_dim D) (d_y D) /\ is_minority (d_y D) 1 0 /\ numbers_ok to_f (am_bound p D 0) /\ 4 < count_label (d_y D) 1 /\
  am_sample volume nn to_f fitness p ads D = Err TypeError.
Proof.
  exists sqdist, vol1, ex_nn, as_one, no_kappa, am_p, am_ads, ip_D.
  split; [apply ex_nn_ok|]. split; [apply ex_ss_plain|]. split; [cbn; lia|]. split; [cbn; lia|]. split; [apply am_ads_ok|]. split; [apply ip_D_ok|]. split; [apply ip_D_ok|].
  split; [apply as_one_ok; vm_compute; lia|]. split; [cbn; lia|]. vm_compute. reflexivity.
Qed.

(** Rows given are dropped, and others are repeated. *)
Theorem C129_kept_refuted : exists dist volume nn to_f fitness p ads D X y,
  knn_ok dist nn /\ plain_ss (am_ss p) /\ 1 <= am_n_pop p /\ 1 <= am_n_iter p /\ (forall t, am_draws_ok (ads t)) /\
  wf_data (d_X D) (d_dim D) (d_y D) /\ is_minority (d_y D) 1 0 /\ numbers_ok to_f (am_bound p D 0) /\ 4 < count_label (d_y D) 1 /\
  am_sample volume nn to_f fitness p ads D = Ok (X, y) /\ length X < length (d_X D) /\ exists x, In x (d_X D) /\ ~ In x X.
Proof.
  exists sqdist, vol1, ex_nn, as_one, likes_all, am_p, am_ads, ip_D.
  destruct (am_sample vol1 ex_nn as_one likes_all am_p am_ads ip_D) as [[X y]|] eqn:E; [|vm_compute in E; discriminate]. exists X, y.
  split; [apply ex_nn_ok|]. split; [apply ex_ss_plain|]. split; [cbn; lia|]. split; [cbn; lia|]. split; [apply am_ads_ok|]. split; [apply ip_D_ok|]. split; [apply ip_D_ok|].
  split; [apply as_one_ok; vm_compute; lia|]. split; [cbn; lia|]. split; [reflexivity|]. vm_compute in E. injection E as <- <-. split; [cbn; lia|].
  exists [10]%Q. split; [cbn; tauto|]. intros H. cbn in H. repeat (destruct H as [H|H]; [discriminate|]). exact H.
Qed.

(** New minority rows may be made from majority rows. *)
Theorem C129_new_refuted : exists dist volume nn to_f fitness p ads D X y i,
  knn_ok dist nn /\ plain_ss (am_ss p) /\ 1 <= am_n_pop p /\ 1 <= am_n_iter p /\ (forall t, am_draws_ok (ads t)) /\
  wf_data (d_X D) (d_dim D) (d_y D) /\ is_minority (d_y D) 1 0 /\ numbers_ok to_f (am_bound p D 0) /\ 4 < count_label (d_y D) 1 /\
  am_sample volume nn to_f fitness p ads D = Ok (X, y) /\ nth_error y i = Some 1%Z /\
  same_row (nth i X []) [16]%Q /\ In [16]%Q (rows_with 0 (d_X D) (d_y D)) /\ (forall x, In x (rows_with 1 (d_X D) (d_y D)) -> (hd 0 x <= 4)%Q).
Proof.
  exists sqdist, vol1, ex_nn, as_one, likes_all, am_p2, am_ads, ip_D.
  destruct (am_sample vol1 ex_nn as_one likes_all am_p2 am_ads ip_D) as [[X y]|] eqn:E; [|vm_compute in E; discriminate]. exists X, y, 11.
  split; [apply ex_nn_ok|]. split; [apply ex_ss_plain|]. split; [cbn; lia|]. split; [cbn; lia|]. split; [apply am_ads_ok|]. split; [apply ip_D_ok|]. split; [apply ip_D_ok|].
  split; [apply as_one_ok; vm_compute; lia|]. split; [cbn; lia|]. split; [reflexivity|]. vm_compute in E. injection E as <- <-. split; [reflexivity|]. split; [constructor; [reflexivity|constructor]|].
  split; [cbn; tauto|]. intros x Hx. cbn in Hx. repeat (destruct Hx as [<-|Hx]; [cbn; Lqa.lra|]). destruct Hx.
Qed.

(** C130. *)
Theorem C130_dsrbf : forall dist volume nn neuron create clone mutate delete_connection add_connection improve loss sd p ds rs D mn mj n,
  knn_ok dist nn -> improve_ok improve -> plain_ss (sm_ss (rb_smote p)) -> 1 <= sm_n_neighbors (rb_smote p) ->
  1 <= rb_m_min p -> 1 <= rb_n_pop p -> 1 <= rb_n_init_pop p ->
  (forall t i, draws_ok (ds t i)) -> (forall e, rng_ok (rs e) /\ unif_pos (rs e)) ->
  wf_data (d_X D) (d_dim D) (d_y D) -> is_minority (d_y D) mn mj -> asked (sm_proportion (rb_smote p)) (d_y D) mn mj = Ok n ->
  let out := rb_sample volume nn neuron create clone mutate delete_connection add_connection improve loss sd p ds rs D in
  let small := count_label (d_y D) mn <= 2 \/ n = 0%Z \/ Nat.min (length (d_X D)) (rb_m_max p) <= rb_m_min p in
  (small -> unchanged D out) /\
  (~ small -> 0 < rb_n_iter p -> rb_n_iter p < rb_n_epoch p \/ rb_n_epoch p = 0 -> out = Err ZeroDivisionError \/ (rb_m_min p = 1 /\ out = Err ValueError)) /\
  (~ small -> rb_n_iter p = 0 \/ 1 <= rb_n_epoch p <= rb_n_iter p -> rb_extends dist volume nn sd p rs D mn n out \/ (rb_m_min p = 1 /\ out = Err ValueError)).
Proof. exact rb_sample_ok. Qed.

Example C130_example :
  improve_ok same_units /\ (forall e, rng_ok (rs_two e) /\ unif_pos (rs_two e)) /\ wf_data (d_X en_D) (d_dim en_D) (d_y en_D) /\ is_minority (d_y en_D) 1 0 /\
  asked one (d_y en_D) 1 0 = Ok 2%Z /\
  tidy (rb_run (rb_p 2 10 1 1) (draws_at (1 # 2)) en_D) = Ok ([[0];[1];[2];[3];[3 # 2];[100];[101];[102];[103];[104];[4 # 5];[4 # 5]]%Q, [1;1;1;1;0;0;0;0;0;0;1;1]%Z) /\
  rb_extends sqdist vol1 ex_nn unit_sd (rb_p 2 10 1 1) rs_two en_D 1 2 (rb_run (rb_p 2 10 1 1) (draws_at (1 # 2)) en_D).
Proof.
  split; [apply same_units_ok|]. split; [apply rs_two_ok|]. split; [apply en_D_ok|]. split; [apply en_D_ok|]. split; [vm_compute; reflexivity|]. split; [vm_compute; reflexivity|].
  destruct (C130_dsrbf sqdist vol1 ex_nn nat new_unit same_unit mutant_unit changed_unit changed_unit same_units last_coord unit_sd (rb_p 2 10 1 1) (fun _ _ => draws_at (1 # 2)) rs_two en_D 1 0 2
    ex_nn_ok same_units_ok ex_ss_plain ltac:(cbn; lia) ltac:(cbn; lia) ltac:(cbn; lia) ltac:(cbn; lia) (fun _ _ => draws_at_ok _ half_share) rs_two_ok (proj1 en_D_ok) (proj2 en_D_ok) ltac:(vm_compute; reflexivity)) as (_ & _ & H).
  destruct H as [H|[H _]]; [cbn; lia|cbn; lia|exact H|discriminate].
Qed.

(** With fewer iterations than epochs the call fails. *)
Theorem C130_epochs_refuted : exists dist volume nn neuron create clone mutate delete_connection add_connection improve loss sd p ds rs D,
  knn_ok dist nn /\ @improve_ok neuron improve /\ plain_ss (sm_ss (rb_smote p)) /\ 2 <= rb_m_min p /\ 1 <= rb_n_pop p /\ 1 <= rb_n_init_pop p /\ 1 <= rb_n_iter p /\ 1 <= rb_n_epoch p /\
  (forall t i, draws_ok (ds t i)) /\ (forall e, rng_ok (rs e) /\ unif_pos (rs e)) /\ wf_data (d_X D) (d_dim D) (d_y D) /\ is_minority (d_y D) 1 0 /\
  rb_sample volume nn neuron create clone mutate delete_connection add_connection improve loss sd p ds rs D = Err ZeroDivisionError.
Proof.
  exists sqdist, vol1, ex_nn, nat, new_unit, same_unit, mutant_unit, changed_unit, changed_unit, same_units, last_coord, unit_sd, (rb_p 2 10 1 2), (fun _ _ => draws_at (1 # 2)), rs_two, en_D.
  split; [apply ex_nn_ok|]. split; [apply same_units_ok|]. split; [apply ex_ss_plain|]. do 5 (split; [cbn; lia|]). split; [intros; apply draws_at_ok, half_share|]. split; [apply rs_two_ok|].
  split; [apply en_D_ok|]. split; [apply en_D_ok|]. vm_compute. reflexivity.
Qed.

(** Networks with one neuron cannot be recombined. *)
Theorem C130_one_neuron_refuted : exists dist volume nn neuron create clone mutate delete_connection add_connection improve loss sd p ds rs D,
  knn_ok dist nn /\ @improve_ok neuron improve /\ plain_ss (sm_ss (rb_smote p)) /\ 1 <= rb_m_min p < rb_m_max p /\ 1 <= rb_n_epoch p <= rb_n_iter p /\
  (forall t i, draws_ok (ds t i)) /\ (forall e, rng_ok (rs e) /\ unif_pos (rs e)) /\ wf_data (d_X D) (d_dim D) (d_y D) /\ is_minority (d_y D) 1 0 /\
  rb_sample volume nn neuron create clone mutate delete_connection add_connection improve loss sd p ds rs D = Err ValueError.
Proof.
  exists sqdist, vol1, ex_nn, nat, new_unit, same_unit, mutant_unit, changed_unit, changed_unit, same_units, last_coord, unit_sd, (rb_p 1 10 1 1), (fun _ _ => draws_at 0), rs_two, en_D.
  split; [apply ex_nn_ok|]. split; [apply same_units_ok|]. split; [apply ex_ss_plain|]. do 2 (split; [cbn; lia|]). split; [intros; apply draws_at_ok; split; reflexivity || discriminate|]. split; [apply rs_two_ok|].
  split; [apply en_D_ok|]. split; [apply en_D_ok|]. vm_compute. reflexivity.
Qed.

(** With the labels 1 and 2 instead of 0 and 1 other rows are returned. *)
Theorem C130_labels_refuted : exists dist volume nn neuron create clone mutate delete_connection add_connection improve loss sd p ds rs D X y X' y',
  knn_ok dist nn /\ @improve_ok neuron improve /\ plain_ss (sm_ss (rb_smote p)) /\ (forall us X y, loss us X (map (Z.add 1) y) = loss us X y) /\
  (forall t i, draws_ok (ds t i)) /\ (forall e, rng_ok (rs e) /\ unif_pos (rs e)) /\ wf_data (d_X D) (d_dim D) (d_y D) /\ is_minority (d_y D) 1 0 /\
  rb_sample volume nn neuron create clone mutate delete_connection add_connection improve loss sd p ds rs D = Ok (X, y) /\
  rb_sample volume nn neuron create clone mutate delete_connection add_connection improve loss sd p ds rs (mk_data (d_X D) (d_dim D) (map (Z.add 1) (d_y D))) = Ok (X', y') /\
  ~ same_rows X X'.
Proof.
  exists sqdist, vol1, ex_nn, nat, new_unit, same_unit, mutant_unit, changed_unit, changed_unit, same_units, last_coord, unit_sd, (rb_p 2 10 1 1), (fun _ _ => draws_at (1 # 2)), rs_two, en_D.
  destruct (rb_run (rb_p 2 10 1 1) (draws_at (1 # 2)) en_D) as [[X y]|] eqn:E; [|vm_compute in E; discriminate].
  destruct (rb_run (rb_p 2 10 1 1) (draws_at (1 # 2)) en_D_up) as [[X' y']|] eqn:E'; [|vm_compute in E'; discriminate]. exists X, y, X', y'.
  split; [apply ex_nn_ok|]. split; [apply same_units_ok|]. split; [apply ex_ss_plain|]. split; [reflexivity|]. split; [intros; apply draws_at_ok, half_share|]. split; [apply rs_two_ok|].
  split; [apply en_D_ok|]. split; [apply en_D_ok|]. split; [exact E|]. split; [exact E'|]. vm_compute in E, E'. injection E as <- <-. injection E' as <- <-.
  intros H. do 10 (inversion_clear H as [|? ? ? ? _ G]; rename G into H). inversion H as [|? ? ? ? G _]; subst. inversion G as [|? ? ? ? K]; subst. vm_compute in K. discriminate.
Qed.

(** C131. *)
Theorem C131_adg : forall clusters alpha kernel mixture pca_transform pca_inverse,
  clusters_ok clusters -> mixture_ok mixture -> forall fuel s D mn mj n,
  is_minority (d_y D) mn mj -> asked s (d_y D) mn mj = Ok n -> d_dim D <= fuel ->
  let sample := adg_sample clusters alpha kernel mixture pca_transform pca_inverse in
  let out := sample fuel s D in
  let Z := rows_with 0 (d_X D) (d_y D) in
  let P := rows_with 1 (d_X D) (d_y D) in
  (count_label (d_y D) mn <= 2 \/ n = 0%Z -> unchanged D out) /\
  (2 < count_label (d_y D) mn -> (0 < n)%Z ->
    (Z = [] -> P = [] -> out = Err ValueError) /\
    (Z ++ P <> [] -> all_same P -> out = Err AttributeError) /\
    (Z = [] -> ~ all_same P -> out = Ok (P, repeat 1%Z (length P))) /\
    (Z <> [] -> ~ all_same P ->
      exists rounds singular, adg_rounds alpha kernel mixture (Z.to_nat n) Z P rounds singular /\
        let S := concat rounds in
        let A := Z ++ P ++ S in
        let yA := repeat 0%Z (length Z) ++ repeat 1%Z (length P) ++ repeat mn (length S) in
        let nc := d_dim D / 2 in
        length S < 2 * Z.to_nat n /\
        (singular = false \/ d_dim D <= 1 -> out = Ok (A, yA)) /\
        (singular = true -> 2 <= d_dim D -> length A < nc -> out = Err ValueError) /\
        (singular = true -> 2 <= d_dim D -> nc <= length A ->
          out = do o <- sample (fuel - 1) s (mk_data (map (pca_transform A nc) A) nc yA); Ok (map (pca_inverse A nc) (fst o), snd o)))).
Proof. exact adg_sample_ok. Qed.

Theorem C131_stops : forall clusters alpha kernel mixture pca_transform pca_inverse,
  clusters_ok clusters -> forall fuel s D mn mj, is_minority (d_y D) mn mj -> d_dim D <= fuel ->
  adg_sample clusters alpha kernel mixture pca_transform pca_inverse fuel s D <> Err OutOfFuel.
Proof. exact adg_no_fuel. Qed.

Example C131_example :
  clusters_ok one_cluster /\ mixture_ok copies_first /\ is_minority (d_y en_D) 1 0 /\ asked one (d_y en_D) 1 0 = Ok 2%Z /\
  rows_with 0 (d_X en_D) (d_y en_D) <> [] /\ ~ all_same (rows_with 1 (d_X en_D) (d_y en_D)) /\
  tidy (adg_run all_ones en_D) = Ok ([[3 # 2];[100];[101];[102];[103];[104];[0];[1];[2];[3];[0];[0];[0]]%Q, [0;0;0;0;0;0;1;1;1;1;1;1;1]%Z) /\
  exists rounds, adg_rounds all_ones kernel1 copies_first 2 (rows_with 0 (d_X en_D) (d_y en_D)) (rows_with 1 (d_X en_D) (d_y en_D)) rounds false /\ length rounds = 2.
Proof.
  split; [apply one_cluster_ok|]. split; [apply copies_first_ok|]. split; [apply en_D_ok|]. split; [vm_compute; reflexivity|]. split; [discriminate|].
  split; [intros H; specialize (H [0]%Q [1]%Q ltac:(cbn; tauto) ltac:(cbn; tauto)); inversion H as [|? ? ? ? G]; subst; vm_compute in G; discriminate|].
  split; [vm_compute; reflexivity|]. exists [[[0];[0]]%Q; [[0]]%Q]. split; [|reflexivity]. split; [|split; [|split; [discriminate|]]].
  - intros i Hi. cbn [length] in Hi. destruct i as [|[|i]]; [| |lia]; (split; [cbn; lia|]; split; [eexists; split; reflexivity|discriminate]).
  - intros i Hi. cbn [length] in Hi. destruct i as [|i]; [cbn; lia|lia].
  - intros _. left. reflexivity.
Qed.

(** The rows given do not come first, and there are more new rows than asked for. *)
Theorem C131_number_refuted : exists clusters alpha kernel mixture pca_transform pca_inverse fuel s D X y,
  clusters_ok clusters /\ mixture_ok mixture /\ wf_data (d_X D) (d_dim D) (d_y D) /\ is_minority (d_y D) 1 0 /\ d_dim D <= fuel /\
  asked s (d_y D) 1 0 = Ok 2%Z /\ adg_sample clusters alpha kernel mixture pca_transform pca_inverse fuel s D = Ok (X, y) /\
  length X = 3 + length (d_X D) /\ ~ same_rows (firstn (length (d_X D)) X) (d_X D).
Proof.
  exists one_cluster, all_ones, kernel1, copies_first, keep_columns, back_to_two, 2, one, en_D.
  destruct (adg_run all_ones en_D) as [[X y]|] eqn:E; [|vm_compute in E; discriminate]. exists X, y.
  split; [apply one_cluster_ok|]. split; [apply copies_first_ok|]. split; [apply en_D_ok|]. split; [apply en_D_ok|]. split; [cbn; lia|]. split; [vm_compute; reflexivity|]. split; [exact E|].
  vm_compute in E. injection E as <- <-. split; [reflexivity|]. intros H. inversion H as [|? ? ? ? G _]; subst. inversion G as [|? ? ? ? K]; subst. vm_compute in K. discriminate.
Qed.

(** With the labels 1 and 2 the minority rows are lost. *)
Theorem C131_labels_refuted : exists clusters alpha kernel mixture pca_transform pca_inverse fuel s D X y,
  clusters_ok clusters /\ mixture_ok mixture /\ wf_data (d_X D) (d_dim D) (d_y D) /\ is_minority (d_y D) 2 1 /\ d_dim D <= fuel /\
  adg_sample clusters alpha kernel mixture pca_transform pca_inverse fuel s D = Ok (X, y) /\ 2 < count_label (d_y D) 2 /\ count_label y 2 = 0.
Proof.
  exists one_cluster, all_ones, kernel1, copies_first, keep_columns, back_to_two, 2, one, en_D_up.
  destruct (adg_run all_ones en_D_up) as [[X y]|] eqn:E; [|vm_compute in E; discriminate]. exists X, y.
  split; [apply one_cluster_ok|]. split; [apply copies_first_ok|]. split; [apply en_D_up_ok|]. split; [apply en_D_up_ok|]. split; [cbn; lia|]. split; [exact E|].
  vm_compute in E. injection E as <- <-. split; [cbn; lia|reflexivity].
Qed.

(** If the label 0 is that of the minority, the new rows are drawn from the majority. *)
Theorem C131_source_refuted : exists clusters alpha kernel mixture pca_transform pca_inverse fuel s D X y i,
  clusters_ok clusters /\ mixture_ok mixture /\ (forall P t q, incl (mixture P t q) (firstn q P ++ repeat (hd [] P) q)) /\
  wf_data (d_X D) (d_dim D) (d_y D) /\ is_minority (d_y D) 0 1 /\ d_dim D <= fuel /\
  adg_sample clusters alpha kernel mixture pca_transform pca_inverse fuel s D = Ok (X, y) /\
  length (d_X D) <= i /\ nth_error y i = Some 0%Z /\ In (nth i X []) (rows_with 1 (d_X D) (d_y D)) /\ ~ In (nth i X []) (rows_with 0 (d_X D) (d_y D)).
Proof.
  exists one_cluster, all_ones, kernel1, copies_first, keep_columns, back_to_two, 2, one, en_D_swap.
  destruct (adg_run all_ones en_D_swap) as [[X y]|] eqn:E; [|vm_compute in E; discriminate]. exists X, y, 10.
  split; [apply one_cluster_ok|]. split; [apply copies_first_ok|]. split; [intros P t q; apply incl_appr, incl_refl|]. split; [apply en_D_swap_ok|]. split; [apply en_D_swap_ok|]. split; [cbn; lia|]. split; [exact E|].
  vm_compute in E. injection E as <- <-. split; [cbn; lia|]. split; [reflexivity|]. split; [cbn; tauto|]. intros H. cbn in H. repeat (destruct H as [H|H]; [discriminate|]). exact H.
Qed.

(** After a projection the rows given are not among those returned. *)
Theorem C131_kept_refuted : exists clusters alpha kernel mixture pca_transform pca_inverse fuel s D X y,
  clusters_ok clusters /\ mixture_ok mixture /\ wf_data (d_X D) (d_dim D) (d_y D) /\ is_minority (d_y D) 1 0 /\ d_dim D <= fuel /\
  adg_sample clusters alpha kernel mixture pca_transform pca_inverse fuel s D = Ok (X, y) /\
  exists x, In x (d_X D) /\ forall x', In x' X -> ~ same_row x x'.
Proof.
  exists one_cluster, singular_two, kernel1, copies_first, keep_columns, back_to_two, 2, one, two_D.
  destruct (adg_run singular_two two_D) as [[X y]|] eqn:E; [|vm_compute in E; discriminate]. exists X, y.
  split; [apply one_cluster_ok|]. split; [apply copies_first_ok|]. split; [apply two_D_ok|]. split; [apply two_D_ok|]. split; [cbn; lia|]. split; [exact E|].
  vm_compute in E. injection E as <- <-. exists [0;7]%Q. split; [cbn; tauto|]. intros x' Hx' HS. cbn in Hx'.
  repeat (destruct Hx' as [<-|Hx']; [inversion HS as [|? ? ? ? _ G]; subst; inversion G as [|? ? ? ? K]; subst; vm_compute in K; discriminate|]). destruct Hx'.
Qed.

Print Assumptions C129_amsco.
Print Assumptions C129_fails_refuted.
Print Assumptions C129_kept_refuted.
Print Assumptions C129_new_refuted.
Print Assumptions C130_dsrbf.
Print Assumptions C130_epochs_refuted.
Print Assumptions C130_one_neuron_refuted.
Print Assumptions C130_labels_refuted.
Print Assumptions C131_adg.
Print Assumptions C131_stops.
Print Assumptions C131_number_refuted.
Print Assumptions C131_labels_refuted.
Print Assumptions C131_source_refuted.
Print Assumptions C131_kept_refuted.
