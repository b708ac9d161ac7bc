(** Properties C110 to C114: Bellman-Ford and DBSMOTE, NEATER, VIS_RST, SOI_CJ and SYMPROD. *)

From Coq Require Import List ZArith QArith Qabs Qminmax Bool Arith Lia Lqa Sorting.Sorted Permutation.
From Verif Require Import Np PyVal NpFacts SimplexModel Spec SpecDanger SpecNoise SpecComp SpecEdit BorderFacts SimplexFacts SimplexGeom Float64
  SamplerModel SamplerFacts OversFacts OversGen BaseModel NoiseModel KnnModel KnnFacts DangerModel ClusterOversModel
  ClusterOversFacts CompModel CompFacts SpecNear LevelModel SpecLevel SpecGroup WrapModel SpecWrap DirModel SpecDir RegionModel SpecRegion
  SearchModel SpecSearch GraphModel SpecGraph GraphFacts GraphFacts2 GraphFacts3 GraphFacts4 GraphFacts5 GraphFacts6 GraphFacts7 GraphFacts8
  Witness DangerWitness ClusterWitness CompWitness EditWitness NearWitness LevelWitness WrapWitness DirWitness RegionWitness SearchWitness GraphWitness.
Import ListNotations.
Open Scope nat_scope.

(** C110. *)
Theorem C110_bellman_ford : forall g s, graph_ok g -> s < length g ->
  exists distance path, bellman_ford g s = Ok (distance, path) /\ bellman_ford_spec g s distance path.
Proof. exact bellman_ford_ok. Qed.

Example C110_bellman_ford_example :
  graph_ok four_nodes /\
  bellman_ford four_nodes 0 = Ok ([Some 0; Some 1; Some 2; None]%Q, [None; Some 0; Some 1; None]) /\
  shortest four_nodes 0 2 2 /\ ~ reachable four_nodes 0 3.
Proof.
  split; [exact four_nodes_ok|]. split; [reflexivity|].
  destruct (C110_bellman_ford four_nodes 0 four_nodes_ok) as (dd & pp & E & _ & _ & H); [cbn; lia|].
  vm_compute in E. injection E as <- <-. split.
  - exact (proj1 (H 2 ltac:(cbn; lia))).
  - exact (proj1 (H 3 ltac:(cbn; lia))).
Qed.

Theorem C110_dbsmote : forall dist nn sd dbscan p d D mn mj n,
  knn_ok dist nn -> (forall x y, (0 <= dist x y)%Q) -> dbscan_ok dbscan -> draws_ok d ->
  wf_data (d_X D) (d_dim D) (d_y D) -> is_minority (d_y D) mn mj -> asked (db_proportion p) (d_y D) mn mj = Ok n -> 1 <= db_min_samples p ->
  let out := dbsmote_sample dist nn sd dbscan p d D in
  (count_label (d_y D) mn <= 2 \/ n = 0%Z -> unchanged D out) /\
  (2 < count_label (d_y D) mn -> (0 < n)%Z -> dbsmote_result dist sd dbscan p D mn n out).
Proof. intros dist nn sd dbscan p d D mn mj n H1 H2 H3. exact (dbsmote_ok dist nn sd dbscan H1 H2 H3 p d D mn mj n). Qed.

(** The graph keeps the first radius: if no two minority rows are closer than that,
    only copies are added, whatever the clustering. *)
Theorem C110_copies : forall dist f p D mn n labels S,
  wf_data (d_X D) (d_dim D) (d_y D) -> dbsmote_spec dist f p D mn n labels S ->
  ForallOrdPairs (fun x y => (db_eps p <= dist (f x) (f y))%Q /\ (db_eps p <= dist (f y) (f x))%Q) (rows_with mn (d_X D) (d_y D)) ->
  Forall (fun x => exists y, In y (rows_with mn (d_X D) (d_y D)) /\ same_row x y) S.
Proof. exact copies_only. Qed.

Example C110_example :
  wf_data (d_X en_D) (d_dim en_D) (d_y en_D) /\ is_minority (d_y en_D) 1 0 /\ asked one (d_y en_D) 1 0 = Ok 2%Z /\
  dbsmote_sample sqdist ex_nn unit_sd wide (mk_db one (3 # 2) 3 10) (cycle (1 # 2)) en_D = Ok (d_X en_D ++ [[160000 # 320000]; [400 # 400]]%Q, d_y en_D ++ [1; 1]%Z) /\
  dbsmote_sample sqdist ex_nn unit_sd wide (mk_db one (4 # 5) 3 10) (cycle (1 # 2)) en_D = Ok (d_X en_D ++ [[0 # 400]; [400 # 400]]%Q, d_y en_D ++ [1; 1]%Z) /\
  dbsmote_result sqdist unit_sd wide (mk_db one (4 # 5) 3 10) en_D 1 2
    (dbsmote_sample sqdist ex_nn unit_sd wide (mk_db one (4 # 5) 3 10) (cycle (1 # 2)) en_D).
Proof.
  split; [apply en_D_ok|]. split; [apply en_D_ok|]. split; [reflexivity|]. split; [|split].
  - vm_compute. reflexivity.
  - vm_compute. reflexivity.
  - apply (C110_dbsmote sqdist ex_nn unit_sd wide (mk_db one (4 # 5) 3 10) (cycle (1 # 2)) en_D 1 0 2);
      auto using ex_nn_ok, sqdist_nonneg, wide_ok, cycle_ok, half_share; try apply en_D_ok; reflexivity || (cbn; lia).
Qed.

(** C111. *)
Theorem C111_neater : forall volume dist nn p r1 r2 D mn mj n m,
  knn_ok dist nn -> (forall x y, (0 <= dist x y)%Q) -> rng_ok r1 -> unif_pos r1 -> rng_ok r2 -> unif_pos r2 ->
  wf_data (d_X D) (d_dim D) (d_y D) -> is_minority (d_y D) mn mj ->
  asked (ng_proportion p) (d_y D) mn mj = Ok n -> asked (StFloat f_one) (d_y D) mn mj = Ok m ->
  1 <= ng_smote_n_neighbors p -> 1 <= ng_b p -> (0 < ng_alpha p)%Q -> plain_ss (ng_ss p) ->
  (count_label (d_y D) mn <= 2 \/ n = 0%Z -> unchanged D (neater_sample volume dist nn p r1 r2 D)) /\
  (2 < count_label (d_y D) mn -> (0 < n)%Z -> neater_result dist p D mn mj n (neater_sample volume dist nn p r1 r2 D)).
Proof. exact neater_ok. Qed.

Example C111_example :
  let p := mk_neater one 3 6 (1 # 2) 1 ex_ss in
  wf_data (d_X en_D) (d_dim en_D) (d_y en_D) /\ is_minority (d_y en_D) 1 0 /\ asked (ng_proportion p) (d_y en_D) 1 0 = Ok 2%Z /\
  neater_sample vol1 sqdist ex_nn p rng0 rng0 en_D
    = Ok (d_X en_D ++ [[32 # 64]; [32 # 64]; [32 # 64]; [32 # 64]]%Q, d_y en_D ++ [1; 1; 1; 1]%Z) /\
  neater_result sqdist p en_D 1 0 2 (neater_sample vol1 sqdist ex_nn p rng0 rng0 en_D).
Proof.
  cbv zeta. split; [apply en_D_ok|]. split; [apply en_D_ok|]. split; [reflexivity|]. split; [vm_compute; reflexivity|].
  apply (C111_neater vol1 sqdist ex_nn (mk_neater one 3 6 (1 # 2) 1 ex_ss) rng0 rng0 en_D 1 0 2 2);
    auto using ex_nn_ok, sqdist_nonneg, rng0_ok, rng0_unif_pos, ex_ss_plain; try apply en_D_ok; reflexivity || (cbn; lia).
Qed.

(** The new labels need not be labels of the data. *)
Theorem C111_labels_refuted :
  ~ (forall volume dist nn p r1 r2 D mn mj n X' y',
     knn_ok dist nn -> (forall x y, (0 <= dist x y)%Q) -> rng_ok r1 -> unif_pos r1 -> rng_ok r2 -> unif_pos r2 ->
     wf_data (d_X D) (d_dim D) (d_y D) -> is_minority (d_y D) mn mj -> asked (ng_proportion p) (d_y D) mn mj = Ok n ->
     1 <= ng_smote_n_neighbors p -> 1 <= ng_b p -> (0 < ng_alpha p)%Q -> plain_ss (ng_ss p) ->
     neater_sample volume dist nn p r1 r2 D = Ok (X', y') -> incl y' (d_y D)).
Proof.
  intros H. specialize (H vol1 sqdist ex_nn (mk_neater one 3 2 (1 # 2) 1 ex_ss) rng0 rng0 lab_D 5%Z 7%Z 2%Z
    (d_X lab_D ++ [[32 # 64]; [32 # 64]; [32 # 64]; [32 # 64]]%Q) (d_y lab_D ++ [0; 0; 0; 0]%Z)).
  assert (F : incl (d_y lab_D ++ [0; 0; 0; 0]%Z) (d_y lab_D)).
  { apply H; auto using ex_nn_ok, sqdist_nonneg, rng0_ok, rng0_unif_pos, ex_ss_plain; try apply lab_D_ok; try reflexivity; try (cbn; lia). }
  assert (G : In 0%Z (d_y lab_D)) by (apply F; apply in_or_app; right; left; reflexivity).
  cbn in G. lia.
Qed.

(** With minority 0 and majority 1 the rows among minority rows join the majority. *)
Example C111_swapped_example :
  is_minority (d_y swap_D) 0 1 /\
  neater_sample vol1 sqdist ex_nn (mk_neater one 3 6 (1 # 2) 1 ex_ss) rng0 rng0 swap_D
    = Ok (d_X swap_D ++ [[32 # 64]; [32 # 64]; [32 # 64]; [32 # 64]]%Q, d_y swap_D ++ [1; 1; 1; 1]%Z).
Proof. split; [apply swap_D_ok|]. vm_compute. reflexivity. Qed.

(** C112. *)
Theorem C112_vis_rst : forall volume dist nn sd p rs D mn mj n,
  knn_ok dist nn -> rngs_ok rs -> rngs_pos rs -> plain_ss (vi_ss p) -> ss_gauss (vi_ss p) = GNone ->
  wf_data (d_X D) (d_dim D) (d_y D) -> is_minority (d_y D) mn mj -> asked (vi_proportion p) (d_y D) mn mj = Ok n -> 1 <= vi_n_neighbors p ->
  (count_label (d_y D) mn <= 2 \/ n = 0%Z -> unchanged D (vis_rst_sample volume nn sd p rs D)) /\
  (2 < count_label (d_y D) mn -> (0 < n)%Z -> vis_result dist sd p D mn mj n (vis_rst_sample volume nn sd p rs D)).
Proof. intros volume dist nn sd p rs D mn mj n H1. exact (vis_rst_ok volume dist nn sd H1 p rs D mn mj n). Qed.

Example C112_example :
  let p := mk_vis one 2 ex_ss in
  wf_data (d_X vis_D) (d_dim vis_D) (d_y vis_D) /\ is_minority (d_y vis_D) 1 0 /\ asked (vi_proportion p) (d_y vis_D) 1 0 = Ok 4%Z /\
  (exists X0, same_rows X0 (d_X vis_D) /\
     vis_rst_sample vol1 ex_nn unit_sd p rs0 vis_D = Ok (X0 ++ [[0 # 576]; [0 # 576]; [0 # 576]; [0 # 576]]%Q, [1;1;1;1;1;0;0;0;0;0;0;0] ++ [1; 1; 1; 1])%Z) /\
  vis_result sqdist unit_sd p vis_D 1 0 4 (vis_rst_sample vol1 ex_nn unit_sd p rs0 vis_D).
Proof.
  cbv zeta. split; [apply vis_D_ok|]. split; [apply vis_D_ok|]. split; [reflexivity|]. split.
  - exists [[0 # 576];[576 # 576];[1152 # 576];[1728 # 576];[1728 # 1152];[57600 # 576];[58176 # 576];[58752 # 576];[59328 # 576];[59904 # 576];[60480 # 576];[61056 # 576]]%Q.
    split; [|vm_compute; reflexivity]. repeat constructor; cbn; try lia; intros [|j]; cbn; try lia; reflexivity.
  - apply (C112_vis_rst vol1 sqdist ex_nn unit_sd (mk_vis one 2 ex_ss) rs0 vis_D 1 0 4);
      auto using ex_nn_ok, rs0_ok, rs0_pos, ex_ss_plain; try apply vis_D_ok; reflexivity || (cbn; lia).
Qed.

(** The labels of the original rows change. *)
Theorem C112_labels_refuted :
  ~ (forall volume dist nn sd p rs D mn mj n X' y',
     knn_ok dist nn -> rngs_ok rs -> rngs_pos rs -> plain_ss (vi_ss p) -> ss_gauss (vi_ss p) = GNone ->
     wf_data (d_X D) (d_dim D) (d_y D) -> is_minority (d_y D) mn mj -> asked (vi_proportion p) (d_y D) mn mj = Ok n -> 1 <= vi_n_neighbors p ->
     vis_rst_sample volume nn sd p rs D = Ok (X', y') -> firstn (length (d_y D)) y' = d_y D).
Proof.
  intros H. destruct C112_example as (H1 & H2 & H3 & (X0 & _ & E) & _).
  specialize (H vol1 sqdist ex_nn unit_sd (mk_vis one 2 ex_ss) rs0 vis_D 1%Z 0%Z 4%Z _ _ ex_nn_ok rs0_ok rs0_pos ex_ss_plain eq_refl H1 H2 H3 ltac:(cbn; lia) E).
  discriminate H.
Qed.

(** C113. *)
Theorem C113_clusters : forall dist nn prevail fuel mn X y,
  knn_ok dist nn -> length X = length y ->
  soi_clustering nn prevail fuel mn X y = Err OutOfFuel \/
  exists Cs, soi_clustering nn prevail fuel mn X y = Ok Cs /\ soi_clusters dist X y mn Cs.
Proof. intros dist nn prevail fuel mn X y H1. exact (soi_clustering_ok dist nn H1 prevail fuel mn X y). Qed.

Theorem C113_soi_cj : forall volume dist nn sd prevail listing fuel p rs D mn mj n,
  knn_ok dist nn -> listing_ok listing -> rngs_ok rs -> rngs_pos rs -> plain_ss (so_ss p) ->
  wf_data (d_X D) (d_dim D) (d_y D) -> is_minority (d_y D) mn mj -> asked (so_proportion p) (d_y D) mn mj = Ok n ->
  let out := soi_cj_sample volume nn sd prevail listing fuel p rs D in
  (count_label (d_y D) mn <= 2 \/ n = 0%Z -> unchanged D out) /\
  (2 < count_label (d_y D) mn -> (0 < n)%Z ->
     (soi_clustering nn prevail fuel mn (d_X D) (d_y D) = Err OutOfFuel /\ out = Err OutOfFuel) \/
     exists Cs, soi_clustering nn prevail fuel mn (d_X D) (d_y D) = Ok Cs /\ soi_clusters dist (d_X D) (d_y D) mn Cs /\
       (Forall (fun c => length c <= 2) Cs -> unchanged D out) /\
       (~ Forall (fun c => length c <= 2) Cs -> appends D mn (soi_spec dist sd p rs D mn n Cs) out)).
Proof. intros volume dist nn sd prevail listing fuel p rs D mn mj n H1 H2. exact (soi_cj_ok volume dist nn sd H1 prevail listing H2 fuel p rs D mn mj n). Qed.

Example C113_example :
  let p := mk_soi one true ex_ss in
  wf_data (d_X soi_D) (d_dim soi_D) (d_y soi_D) /\ is_minority (d_y soi_D) 1 0 /\ asked (so_proportion p) (d_y soi_D) 1 0 = Ok 2%Z /\
  soi_clustering ex_nn always 10 1 (d_X soi_D) (d_y soi_D) = Ok [[3; 2; 1; 0]; [4]] /\
  soi_cj_sample vol1 ex_nn unit_sd always in_order 10 p rs0 soi_D = Ok (d_X soi_D ++ [[5 # 2]; [5 # 2]]%Q, d_y soi_D ++ [1; 1]%Z) /\
  soi_cj_sample vol1 ex_nn unit_sd always in_order 10 (mk_soi one false ex_ss) rs0 soi_D = Ok (d_X soi_D ++ [[160 # 64]; [160 # 64]]%Q, d_y soi_D ++ [1; 1]%Z) /\
  appends soi_D 1 (soi_spec sqdist unit_sd p rs0 soi_D 1 2 [[3; 2; 1; 0]; [4]]) (soi_cj_sample vol1 ex_nn unit_sd always in_order 10 p rs0 soi_D).
Proof.
  cbv zeta. split; [apply soi_D_ok|]. split; [apply soi_D_ok|]. split; [reflexivity|]. split; [vm_compute; reflexivity|].
  split; [vm_compute; reflexivity|]. split; [vm_compute; reflexivity|].
  destruct (C113_soi_cj vol1 sqdist ex_nn unit_sd always in_order 10 (mk_soi one true ex_ss) rs0 soi_D 1 0 2 ex_nn_ok in_order_ok rs0_ok rs0_pos ex_ss_plain
    (proj1 soi_D_ok) (proj2 soi_D_ok) eq_refl) as [_ H].
  destruct (H ltac:(cbn; lia) eq_refl) as [[H' _]|(Cs & E & _ & _ & H')]; [vm_compute in H'; discriminate H'|].
  vm_compute in E. injection E as <-. apply H'. intros F. inversion F as [|? ? G _]; subst. cbn in G. lia.
Qed.

(** A minority apart from the majority is left as it is. *)
Theorem C113_separated : forall volume dist nn sd prevail listing fuel p rs D mn mj n,
  knn_ok dist nn -> wf_data (d_X D) (d_dim D) (d_y D) -> is_minority (d_y D) mn mj -> asked (so_proportion p) (d_y D) mn mj = Ok n ->
  (forall x a b, In x (rows_with mn (d_X D) (d_y D)) -> In a (rows_with mn (d_X D) (d_y D)) -> In b (rows_with mj (d_X D) (d_y D)) -> (dist x a < dist x b)%Q) ->
  unchanged D (soi_cj_sample volume nn sd prevail listing (S fuel) p rs D).
Proof. exact soi_cj_separated. Qed.

Example C113_separated_example :
  is_minority (d_y apart_D) 1 0 /\ asked one (d_y apart_D) 1 0 = Ok 2%Z /\
  unchanged apart_D (soi_cj_sample vol1 ex_nn unit_sd always in_order 1 (mk_soi one true ex_ss) rs0 apart_D).
Proof.
  split; [apply apart_D_ok|]. split; [reflexivity|].
  apply (C113_separated vol1 sqdist ex_nn unit_sd always in_order 0 (mk_soi one true ex_ss) rs0 apart_D 1 0 2); auto using ex_nn_ok; try apply apart_D_ok.
  intros x a b Hx Ha Hb. cbn in Hx, Ha, Hb.
  repeat (destruct Hx as [<-|Hx]); try contradiction;
  repeat (destruct Ha as [<-|Ha]); try contradiction;
  repeat (destruct Hb as [<-|Hb]); try contradiction; reflexivity.
Qed.

(** A row of a run can be in none of the clusters. *)
Theorem C113_lost_refuted :
  ~ (forall dist nn prevail fuel mn mj D Cs T runs,
     knn_ok dist nn -> wf_data (d_X D) (d_dim D) (d_y D) -> is_minority (d_y D) mn mj ->
     soi_clustering nn prevail fuel mn (d_X D) (d_y D) = Ok Cs ->
     nearest_table dist (d_X D) (rows_with mn (d_X D) (d_y D)) (count_label (d_y D) mn) T -> Forall2 (run_of (d_y D) mn) T runs ->
     forall r i, In r runs -> In i r -> exists c, In c Cs /\ In i c).
Proof.
  intros H. destruct (ex_nn_ok (d_X lost_D) (rows_with 1 (d_X lost_D) (d_y lost_D)) 3 ltac:(cbn; lia)) as (T & E & HT).
  vm_compute in E. injection E as <-.
  assert (R : Forall2 (run_of (d_y lost_D) 1) [[0; 1; 5]; [1; 5; 2]; [2; 4; 5]] [[0; 1]; [1]; [2]]).
  { constructor; [|constructor; [|constructor; [|constructor]]]; (split; [repeat constructor|left]).
    - exists 5, []. split; [reflexivity|]. cbn. discriminate.
    - exists 5, [2]. split; [reflexivity|]. cbn. discriminate.
    - exists 4, [5]. split; [reflexivity|]. cbn. discriminate. }
  destruct (H sqdist ex_nn always 10 1%Z 0%Z lost_D [[1]; [2]] _ _ ex_nn_ok (proj1 lost_D_ok) (proj2 lost_D_ok) eq_refl HT R [0; 1] 0) as (c & Hc & Hi); [now left|now left|].
  cbn in Hc. destruct Hc as [<-|[<-|[]]]; cbn in Hi; lia.
Qed.

(** C114. *)
Theorem C114_symprod : forall dist nn sd dirichlet p rs D mn mj n,
  knn_ok dist nn -> (forall x y, (0 <= dist x y)%Q) -> (forall x, (dist x x == 0)%Q) -> dirichlet_ok dirichlet -> rngs_ok rs ->
  wf_data (d_X D) (d_dim D) (d_y D) -> 0 < d_dim D -> is_minority (d_y D) mn mj -> asked (sy_proportion p) (d_y D) mn mj = Ok n -> 1 <= sy_k_neighbors p ->
  let out := symprod_sample dist nn sd dirichlet p rs D in
  (count_label (d_y D) mn <= 2 \/ n = 0%Z -> unchanged D out) /\
  (2 < count_label (d_y D) mn -> (0 < n)%Z -> symprod_result dist sd dirichlet p D mn mj n out).
Proof. intros dist nn sd dirichlet p rs D mn mj n H1 H2 H3 H4. exact (symprod_ok dist nn sd dirichlet H1 H2 H3 H4 p rs D mn mj n). Qed.

Example C114_example :
  let p := mk_sym one 100 3 2 1 in
  wf_data (d_X sym_D) (d_dim sym_D) (d_y sym_D) /\ is_minority (d_y sym_D) 1 0 /\ asked (sy_proportion p) (d_y sym_D) 1 0 = Ok 2%Z /\
  (exists a b, symprod_sample step_dist step_nn unit_sd even_beta p rs0 sym_D = Ok (d_X sym_D ++ [[a]; [b]], d_y sym_D ++ [1; 1]%Z) /\ (a == 8 # 13)%Q /\ (b == 8 # 13)%Q) /\
  symprod_result step_dist unit_sd even_beta p sym_D 1 0 2 (symprod_sample step_dist step_nn unit_sd even_beta p rs0 sym_D).
Proof.
  cbv zeta. split; [apply sym_D_ok|]. split; [apply sym_D_ok|]. split; [reflexivity|]. split; [do 2 eexists; split; [vm_compute; reflexivity|split; vm_compute; reflexivity]|].
  apply (C114_symprod step_dist step_nn unit_sd even_beta (mk_sym one 100 3 2 1) rs0 sym_D 1 0 2);
    auto using step_nn_ok, step_nonneg, step_self, even_beta_ok, rs0_ok; try apply sym_D_ok; reflexivity || (cbn; lia).
Qed.

(** Nothing prevents a division by zero. *)
Theorem C114_nan_refuted :
  ~ (forall dist nn sd dirichlet p rs D mn mj n,
     knn_ok dist nn -> (forall x y, (0 <= dist x y)%Q) -> (forall x, (dist x x == 0)%Q) -> dirichlet_ok dirichlet -> rngs_ok rs ->
     wf_data (d_X D) (d_dim D) (d_y D) -> 0 < d_dim D -> is_minority (d_y D) mn mj -> asked (sy_proportion p) (d_y D) mn mj = Ok n -> 1 <= sy_k_neighbors p ->
     symprod_sample dist nn sd dirichlet p rs D <> Err NotANumber).
Proof.
  intros H. assert (E : symprod_sample step_dist step_nn unit_sd even_beta (mk_sym one 100 3 2 1) rs0 sym_E = Err NotANumber) by (vm_compute; reflexivity).
  revert E. refine (H step_dist step_nn unit_sd even_beta (mk_sym one 100 3 2 1) rs0 sym_E 1%Z 0%Z 3%Z step_nn_ok step_nonneg step_self even_beta_ok rs0_ok
    (proj1 sym_E_ok) _ (proj2 sym_E_ok) _ _); [cbn; lia|reflexivity|cbn; lia].
Qed.

Print Assumptions C110_bellman_ford.
Print Assumptions C110_dbsmote.
Print Assumptions C110_copies.
Print Assumptions C111_neater.
Print Assumptions C111_labels_refuted.
Print Assumptions C112_vis_rst.
Print Assumptions C112_labels_refuted.
Print Assumptions C113_clusters.
Print Assumptions C113_soi_cj.
Print Assumptions C113_separated.
Print Assumptions C113_lost_refuted.
Print Assumptions C114_symprod.
Print Assumptions C114_nan_refuted.
