(** Properties C87 to C94: ISOMAP_Hybrid, SL_graph_SMOTE, SVM_balance, MSYN,
    Edge_Det_SMOTE, MCT, AHC and LLE_SMOTE. *)

From Coq Require Import List ZArith QArith Reals Bool Arith Lia Lqa Sorting.Sorted Permutation.
From Flocq Require Import IEEE754.BinarySingleNaN.
From Verif Require Import Np NpFacts SimplexModel Spec SpecDanger SpecNoise SpecComp SpecEdit BorderFacts SimplexFacts SimplexGeom Float64
  SamplerModel SamplerFacts OversFacts OversGen BaseModel NoiseModel KnnModel KnnFacts DangerModel ClusterOversModel
  ClusterOversFacts CompModel CompFacts SpecNear LevelModel SpecLevel SpecGroup WrapModel SpecWrap WrapFacts WrapFacts2 WrapFacts3
  WrapFacts4 WrapFacts5 WrapFloat UnderFacts
  Witness DangerWitness ClusterWitness CompWitness EditWitness NearWitness LevelWitness WrapWitness.
Import ListNotations.
Open Scope nat_scope.

(** C87. *)
Theorem C87_isomap : forall dist vol nn iso nc p r D mn mj n X_trans,
  knn_ok dist nn -> rng_ok r -> unif_pos r -> plain_ss (sm_ss p) -> wf_data (d_X D) (d_dim D) (d_y D) -> is_minority (d_y D) mn mj ->
  asked (sm_proportion p) (d_y D) mn mj = Ok n -> 1 <= sm_n_neighbors p ->
  iso (d_X D) (d_y D) = Ok X_trans -> wf_data X_trans nc (d_y D) ->
  let out := isomap_sample vol nn iso nc p r D in
  (count_label (d_y D) mn <= 2 -> unchanged D out) /\
  (2 < count_label (d_y D) mn -> isomap_spec dist nc p X_trans (d_y D) mn n out).
Proof. exact isomap_main. Qed.

(** Without the label 0, or without positive labels, nothing is cleaned. *)
Theorem C87_never_cleans : forall dist nc p X_trans y mn n r,
  length X_trans = length y -> In mn y -> isomap_spec dist nc p X_trans y mn n r ->
  ~ In 0%Z y \/ Forall (fun z => z <= 0)%Z y ->
  exists S, (n = 0%Z -> S = []) /\ ((0 < n)%Z -> smote_spec dist p (mk_data X_trans nc y) mn n S) /\
    r = Ok (X_trans ++ S, y ++ repeat mn (length S)).
Proof. exact isomap_uncleaned. Qed.

(** Two columns become one; the row at 3/2 is removed. *)
Example C87_example :
  isomap_spec sqdist 1 (smk 3) (map (firstn 1) (d_X flat_D)) (d_y flat_D) 1 2 (isomap_sample vol1 ex_nn (project 1) 1 (smk 3) rng0 flat_D) /\
  isomap_sample vol1 ex_nn (project 1) 1 (smk 3) rng0 flat_D =
    Ok ([[0];[1];[2];[3];[100];[101];[102];[103];[104];[32 # 64];[32 # 64]]%Q, [1;1;1;1;0;0;0;0;0;1;1]%Z).
Proof.
  split; [|vm_compute; reflexivity].
  apply (C87_isomap sqdist vol1 ex_nn (project 1) 1 (smk 3) rng0 flat_D 1 0 2 (map (firstn 1) (d_X flat_D)));
    auto using ex_nn_ok, rng0_ok, rng0_unif_pos, ex_ss_plain; try apply flat_D_ok; cbn; auto; try lia.
  split; [repeat constructor|reflexivity].
Qed.

(** C88. *)
Theorem C88_sl_graph : forall dist vol nn p rs r D mn mj n,
  knn_ok dist nn -> rngs_ok rs -> rng_ok r -> unif_pos r -> plain_ss (sm_ss p) -> wf_data (d_X D) (d_dim D) (d_y D) -> is_minority (d_y D) mn mj ->
  asked (sm_proportion p) (d_y D) mn mj = Ok n ->
  let out := sl_graph_sample vol nn p rs r D in
  (count_label (d_y D) mn <= 2 \/ n = 0%Z -> unchanged D out) /\
  (2 < count_label (d_y D) mn -> (0 < n)%Z ->
   exists T, nearest_table dist (d_X D) (rows_with mn (d_X D) (d_y D)) (Nat.min (length (d_X D)) (sm_n_neighbors p)) T /\
     (left_skewed (label_sums (d_y D) T) ->
        appends D mn (safe_level_spec dist (mk_comp (sm_proportion p) (sm_n_neighbors p)) D mn n) out) /\
     (~ left_skewed (label_sums (d_y D) T) -> exists X' y', out = Ok (X', y') /\
        border1_spec dist (mk_border (sm_proportion p) (sm_n_neighbors p) 5 (sm_ss p)) D mn mj X' y')).
Proof. exact sl_graph_main. Qed.

(** The label names matter: order preserving linear renaming keeps the choice,
    order reversing renaming asks the opposite question. *)
Theorem C88_renaming : forall a b k y T, T <> [] -> rect k T -> Forall (Forall (fun i => i < length y)) T ->
  let y' := map (fun z => a * z + b)%Z y in
  ((0 < a)%Z -> (left_skewed (label_sums y' T) <-> left_skewed (label_sums y T))) /\
  ((a < 0)%Z -> (left_skewed (label_sums y' T) <-> right_skewed (label_sums y T))).
Proof. exact skew_renaming. Qed.

(** Exchanging the names of the two classes changes which rows are added. *)
Theorem C88_names_refuted :
  ~ (forall dist vol nn p rs r D D' mn mj X y X' y', knn_ok dist nn -> rngs_ok rs -> rng_ok r -> unif_pos r -> plain_ss (sm_ss p) ->
     wf_data (d_X D) (d_dim D) (d_y D) -> is_minority (d_y D) mn mj -> is_minority (d_y D') mj mn ->
     d_X D' = d_X D -> d_dim D' = d_dim D -> d_y D' = map (fun z => if (z =? mn)%Z then mj else mn) (d_y D) ->
     sl_graph_sample vol nn p rs r D = Ok (X, y) -> sl_graph_sample vol nn p rs r D' = Ok (X', y') -> X = X').
Proof.
  intros H.
  specialize (H sqdist vol1 ex_nn (smk 2) rs0 rng0 sl_D sl_D' 1%Z 0%Z (d_X sl_D ++ [[1 # 2];[1 # 2]]%Q) (d_y sl_D ++ [1; 1]%Z) (d_X sl_D) (d_y sl_D')).
  assert (E : d_X sl_D ++ [[1 # 2];[1 # 2]]%Q = d_X sl_D).
  { apply H; auto using ex_nn_ok, rs0_ok, rng0_ok, rng0_unif_pos, ex_ss_plain; try apply sl_D_ok; try apply sl_D'_ok; vm_compute; reflexivity. }
  discriminate E.
Qed.

Example C88_example :
  (let out := sl_graph_sample vol1 ex_nn (smk 2) rs0 rng0 sl_D in
   exists T, nearest_table sqdist (d_X sl_D) [[0];[1];[2];[20]]%Q 2 T /\
     (left_skewed (label_sums (d_y sl_D) T) -> appends sl_D 1 (safe_level_spec sqdist (mk_comp one 2) sl_D 1 2) out) /\
     (~ left_skewed (label_sums (d_y sl_D) T) -> exists X' y', out = Ok (X', y') /\
        border1_spec sqdist (mk_border one 2 5 ex_ss) sl_D 1 0 X' y')) /\
  left_skewed (label_sums (d_y sl_D) [[0;1];[1;0];[2;1];[3;4]]) /\ ~ left_skewed (label_sums (d_y sl_D') [[0;1];[1;0];[2;1];[3;4]]).
Proof.
  split; [|split].
  - apply (C88_sl_graph sqdist vol1 ex_nn (smk 2) rs0 rng0 sl_D 1 0 2); auto using ex_nn_ok, rs0_ok, rng0_ok, rng0_unif_pos, ex_ss_plain; try apply sl_D_ok; cbn; auto; lia.
  - exists (7 # 4)%Q. split; reflexivity.
  - intros (m & Em & Hm). assert (E : (m == 1 # 4)%Q) by (change (m * 4 == 1)%Q in Em; Lqa.lra). unfold cubes in Hm. cbn [label_sums map] in Hm. cbn in Hm.
    rewrite E in Hm. discriminate Hm.
Qed.

(** C89. *)
Theorem C89_svm_balance : forall dist vol nn score predict p r D mn mj n,
  knn_ok dist nn -> rng_ok r -> unif_pos r -> plain_ss (sm_ss p) -> wf_data (d_X D) (d_dim D) (d_y D) -> is_minority (d_y D) mn mj ->
  asked (sm_proportion p) (d_y D) mn mj = Ok n -> 1 <= sm_n_neighbors p ->
  let out := svm_sample vol nn score predict p r D in
  (count_label (d_y D) mn <= 2 -> unchanged D out) /\
  (2 < count_label (d_y D) mn -> exists S C,
    let XS := d_X D ++ S in
    let yS := d_y D ++ repeat mn (length S) in
    (n = 0%Z -> S = []) /\ ((0 < n)%Z -> smote_spec dist p D mn n S) /\
    best_candidate (score XS yS (Nat.min 5 (count_label yS mn))) C /\
    out = Ok (XS, predict XS yS C)).
Proof. exact svm_main. Qed.

(** The labels of the input rows are not kept, even if no rows are requested. *)
Theorem C89_labels_refuted :
  ~ (forall dist vol nn score predict p r D mn mj, knn_ok dist nn -> rng_ok r -> unif_pos r -> plain_ss (sm_ss p) ->
     (forall X y C, y <> [] -> length (predict X y C) = length X /\ incl (predict X y C) y) ->
     wf_data (d_X D) (d_dim D) (d_y D) -> is_minority (d_y D) mn mj -> asked (sm_proportion p) (d_y D) mn mj = Ok 0%Z ->
     unchanged D (svm_sample vol nn score predict p r D)).
Proof.
  intros H. specialize (H sqdist vol1 ex_nn (fun _ _ _ _ => 1%Q) (fun X y _ => repeat (last y 0%Z) (length X)) (sm_none 5) rng0 en_D 1%Z 0%Z
    ex_nn_ok rng0_ok rng0_unif_pos ex_ss_plain).
  assert (E : unchanged en_D (svm_sample vol1 ex_nn (fun _ _ _ _ => 1%Q) (fun X y _ => repeat (last y 0%Z) (length X)) (sm_none 5) rng0 en_D)).
  { apply H; try apply en_D_ok; [|vm_compute; reflexivity]. intros X y _ Hy. split; [apply repeat_length|]. intros z Hz. apply repeat_spec in Hz. subst z.
    destruct (exists_last Hy) as (l & z & ->). rewrite last_last. apply in_or_app. right. now left. }
  vm_compute in E. discriminate E.
Qed.

Example C89_example : exists S C,
  let XS := d_X en_D ++ S in
  let yS := d_y en_D ++ repeat 1%Z (length S) in
  smote_spec sqdist (smk 3) en_D 1 2 S /\ best_candidate (fun c => if Qeq_bool c 1 then 1 else 1 # 2)%Q C /\
  svm_sample vol1 ex_nn (fun _ _ _ c => if Qeq_bool c 1 then 1 else 1 # 2)%Q (fun X y c => if Qeq_bool c 1 then y else []) (smk 3) rng0 en_D = Ok (XS, yS).
Proof.
  destruct (C89_svm_balance sqdist vol1 ex_nn (fun _ _ _ c => if Qeq_bool c 1 then 1 else 1 # 2)%Q (fun X y c => if Qeq_bool c 1 then y else [])
    (smk 3) rng0 en_D 1 0 2) as [_ H]; auto using ex_nn_ok, rng0_ok, rng0_unif_pos, ex_ss_plain; try apply en_D_ok; cbn; auto; try lia.
  destruct H as (S & C & _ & H1 & H2 & H3); [cbn; lia|]. exists S, C. split; [apply H1; reflexivity|]. split; [exact H2|].
  assert (E : C = 1%Q).
  { destruct H2 as [_ H2]. destruct H2 as (I & M & _); [exists 1%Q; split; [cbn; auto|reflexivity]|]. specialize (M 1%Q ltac:(cbn; auto)).
    cbn in I. destruct I as [<-|[<-|[<-|[<-|[]]]]]; try reflexivity; exfalso; apply M; reflexivity. }
  subst C. exact H3.
Qed.

(** C90. *)
Theorem C90_msyn : forall dist vol nn p r D mn mj n n3,
  knn_ok dist nn -> rng_ok r -> unif_pos r -> plain_ss (sm_ss p) -> wf_data (d_X D) (d_dim D) (d_y D) -> is_minority (d_y D) mn mj ->
  asked (sm_proportion p) (d_y D) mn mj = Ok n -> asked (times_three (sm_proportion p)) (d_y D) mn mj = Ok n3 -> (n <= n3)%Z ->
  1 <= sm_n_neighbors p -> no_duplicates dist (d_X D) ->
  runs D mn n (msyn_spec dist p D mn mj n n3) (msyn_sample vol dist nn p r D).
Proof. exact msyn_runs. Qed.

(** There are enough candidates for every finite proportion, not negative. *)
Theorem C90_enough : forall y mn mj f n n3, is_minority y mn mj -> (Z.of_nat (length y) <= 2^53)%Z ->
  is_finite f = true -> (0 <= B2R f)%R ->
  asked (StFloat f) y mn mj = Ok n -> asked (times_three (StFloat f)) y mn mj = Ok n3 -> (n <= n3)%Z.
Proof. exact three_times_enough. Qed.

Example C90_example :
  runs en_D 1 2 (msyn_spec sqdist (smk 3) en_D 1 0 2 6) (msyn_sample vol1 sqdist ex_nn (smk 3) rng0 en_D) /\
  exists S, msyn_sample vol1 sqdist ex_nn (smk 3) rng0 en_D = Ok (d_X en_D ++ S, d_y en_D ++ [1; 1]%Z).
Proof.
  split; [|eexists; vm_compute; reflexivity].
  apply (C90_msyn sqdist vol1 ex_nn (smk 3) rng0 en_D 1 0 2 6); auto using ex_nn_ok, rng0_ok, rng0_unif_pos, ex_ss_plain; try apply en_D_ok; try lia.
  - cbn. lia.
  - apply UnderFacts.no_duplicates_check; vm_compute; reflexivity.
Qed.

(** C91. *)
Theorem C91_edge_det : forall dist vol nn root p r D mn mj n,
  knn_ok dist nn -> rng_ok r -> unif_pos r -> root_ok root -> plain_ss (sm_ss p) -> wf_data (d_X D) (d_dim D) (d_y D) -> is_minority (d_y D) mn mj ->
  asked (sm_proportion p) (d_y D) mn mj = Ok n ->
  runs D mn n (edge_det_spec dist root p D mn n) (edge_det_sample vol nn root p r D).
Proof. exact edge_det_runs. Qed.

(** Minority rows with the same label before and after them in every attribute
    are not sampled from, unless all are such rows. *)
Theorem C91_bases : forall dist root p D mn n S, root_ok root -> (root 0 == 0)%Q -> (forall a b, a == b -> root a == root b)%Q ->
  length (d_X D) = length (d_y D) ->
  ss_gauss (sm_ss p) = GNone -> edge_det_spec dist root p D mn n S ->
  exists l es, rows_labelled (d_y D) mn l /\ Forall2 (edge_strength (d_X D) (d_dim D) (d_y D)) l es /\
    Forall (fun x => exists b ps, b < length l /\ ((0 < nth b es 0)%Z \/ Forall (fun e => e = 0%Z) es) /\
      incl ps (rows_with mn (d_X D) (d_y D)) /\ convex_comb (d_dim D) (nth (nth b l 0) (d_X D) [] :: ps) x) S.
Proof. exact edge_det_bases. Qed.

Example C91_example :
  runs en_D 1 2 (edge_det_spec sqdist (fun q => q) (smk 3) en_D 1 2) (edge_det_sample vol1 ex_nn (fun q => q) (smk 3) rng0 en_D) /\
  (exists S, edge_det_sample vol1 ex_nn (fun q => q) (smk 3) rng0 en_D = Ok (d_X en_D ++ S, d_y en_D ++ [1; 1]%Z)) /\
  (exists w, edge_magnitudes (fun q => q) 1 en_D = Ok w /\ Forall2 Qeq w [0; 1 # 3; 1 # 3; 1 # 3]%Q).
Proof.
  split; [|split; [eexists; vm_compute; reflexivity|eexists; split; [vm_compute; reflexivity|repeat constructor; reflexivity]]].
  apply (C91_edge_det sqdist vol1 ex_nn (fun q => q) (smk 3) rng0 en_D 1 0 2); auto using ex_nn_ok, rng0_ok, rng0_unif_pos, ex_ss_plain, id_root_ok; try apply en_D_ok.
Qed.

(** C92. *)
Theorem C92_mct : forall dist vol norm nn p r D mn mj n,
  knn_ok dist nn -> rng_ok r -> unif_pos r -> (forall x, (0 <= norm x)%Q) -> plain_ss (sm_ss p) -> wf_data (d_X D) (d_dim D) (d_y D) -> is_minority (d_y D) mn mj ->
  asked (sm_proportion p) (d_y D) mn mj = Ok n ->
  runs D mn n (mct_spec dist norm p D mn n) (mct_sample vol norm nn p r D).
Proof. exact mct_runs. Qed.

(** With one vertex per simplex, MCT's default, only copies are made. *)
Theorem C92_copies : forall dist norm p D mn n S, ss_n_dim (sm_ss p) = 1 -> ss_gauss (sm_ss p) = GNone ->
  mct_spec dist norm p D mn n S ->
  Forall (fun x => exists z, In z (rows_with mn (d_X D) (d_y D)) /\ length x = d_dim D /\
    forall j, j < d_dim D -> (nth j x 0 == nth j z 0)%Q) S.
Proof. exact mct_copies. Qed.

Example C92_example :
  let p := mk_smote one 3 (mk_ss 1 SRandom WRandom GNone) in
  runs en_D 1 2 (mct_spec sqdist sum_abs p en_D 1 2) (mct_sample vol1 sum_abs ex_nn p rng0 en_D) /\
  (exists S, mct_sample vol1 sum_abs ex_nn p rng0 en_D = Ok (d_X en_D ++ S, d_y en_D ++ [1; 1]%Z)).
Proof.
  split; [|eexists; vm_compute; reflexivity].
  apply (C92_mct sqdist vol1 sum_abs ex_nn _ rng0 en_D 1 0 2); auto using ex_nn_ok, rng0_ok, rng0_unif_pos, sum_abs_nonneg; try apply en_D_ok.
  split; cbn; auto.
Qed.

(** C93. *)
Theorem C93_ahc : forall children centers limit s D mn mj,
  wf_data (d_X D) (d_dim D) (d_y D) -> is_minority (d_y D) mn mj -> centers_ok (d_dim D) centers ->
  let X_min := rows_with mn (d_X D) (d_y D) in
  let X_maj := rows_with mj (d_X D) (d_y D) in
  dendrogram (length X_min) (children X_min) -> length X_min <= limit ->
  let out := ahc_sample children centers limit s D in
  (count_label (d_y D) mn <= 2 -> unchanged D out) /\
  (2 < count_label (d_y D) mn -> exists new maj,
    out = Ok (new ++ X_min ++ maj, repeat mn (length new + length X_min) ++ repeat mj (length maj)) /\
    match s with
    | AhcMaj => new = []
    | _ => length new = length X_min - 1 /\ ahc_rows (d_dim D) X_min (children X_min) new /\ mean_of (d_dim D) X_min (last new [])
    end /\
    match s with
    | AhcMin => maj = X_maj
    | AhcMaj => centers (length X_min) X_maj = Ok maj /\ length maj = length X_min
    | AhcMinMaj => let k := Nat.min (length X_maj) (2 * length X_min - 1) in centers k X_maj = Ok maj /\ length maj = k
    end).
Proof. exact ahc_main. Qed.

(** The recursion limit stops it on large minority classes: whatever the limit,
    there are data and a dendrogram needing more. *)
Theorem C93_recursion_refuted : forall limit, exists D children,
  wf_data (d_X D) (d_dim D) (d_y D) /\ is_minority (d_y D) 1 0 /\ 2 < count_label (d_y D) 1 /\
  (forall X, 3 <= length X -> dendrogram (length X) (children X)) /\
  forall centers, ahc_sample children centers limit AhcMin D = Err RecursionError.
Proof.
  intros limit. set (n := limit + 3). exists (chain_D n), (fun X => chain (length X)).
  destruct (chain_D_ok n ltac:(lia)) as (H1 & H2 & H3). split; [exact H1|]. split; [exact H2|]. split; [lia|]. split; [intros; now apply chain_ok|].
  intros centers. unfold ahc_sample. destruct (sample_default (ahc_algorithm (fun X => chain (length X)) centers limit AhcMin) _ 1%Z 0%Z H2) as (st & Hst & ->).
  destruct (Nat.leb_spec (count_label (d_y (chain_D n)) 1) 2); [lia|]. destruct (stats_labels _ _ _ _ Hst) as [E1 E2].
  unfold ahc_algorithm. rewrite E1. assert (L := rows_with_length 1 (d_X (chain_D n)) (d_y (chain_D n)) (proj2 H1)).
  change (count_occ Z.eq_dec (d_y (chain_D n)) 1%Z) with (count_label (d_y (chain_D n)) 1) in L.
  rewrite ahc_deep by lia. reflexivity.
Qed.

Example C93_example :
  dendrogram 4 (chain 4) /\
  ahc_sample (fun X => chain (length X)) first_rows 4 AhcMinMaj en_D =
    Ok ([[1 # 2];[6 # 6];[36 # 24]]%Q ++ [[0];[1];[2];[3]]%Q ++ [[3#2];[100];[101];[102];[103];[104]]%Q, repeat 1%Z 7 ++ repeat 0%Z 6) /\
  ahc_sample (fun X => chain (length X)) first_rows 3 AhcMin en_D = Err RecursionError.
Proof. split; [apply chain_ok; lia|]. split; vm_compute; reflexivity. Qed.

(** C94. *)
Theorem C94_lle : forall dist vol nn lle solve p r D mn mj n X_trans,
  knn_ok dist nn -> rng_ok r -> unif_pos r -> plain_ss (ll_ss p) -> ss_gauss (ll_ss p) = GNone ->
  wf_data (d_X D) (d_dim D) (d_y D) -> is_minority (d_y D) mn mj ->
  asked (ll_proportion p) (d_y D) mn mj = Ok n -> solver_ok solve ->
  let X_min := rows_with mn (d_X D) (d_y D) in
  let nc := Nat.min (ll_n_components p) (d_dim D) in
  lle (Nat.min (ll_n_neighbors p) (length X_min - 1)) nc X_min = Ok X_trans -> rect nc X_trans -> length X_trans = length X_min ->
  runs D mn n (lle_spec dist p D X_trans mn n) (lle_sample vol nn lle solve p r D).
Proof. exact lle_runs. Qed.

(** When the equations have a solution of moderate size the weights reproduce the
    sample best. *)
Theorem C94_weights : forall d x Zs, length x = d -> rect d Zs -> forall solve, solver_ok solve -> 1 <= length Zs ->
  exists w, lle_weights solve x Zs = Ok w /\ (equal_weights (length Zs) w \/ best_weights d x Zs w) /\
    (match solve (map (fun a => map (dot a) (map (fun p => vsub p x) Zs)) (map (fun p => vsub p x) Zs)) with
     | Some u => (dot u u <= 10 ^ 16)%Q -> best_weights d x Zs w
     | None => equal_weights (length Zs) w end).
Proof. exact weights_spec. Qed.

(** New rows need not lie between minority rows, not even with an embedding that
    changes nothing. *)
Theorem C94_hull_refuted :
  ~ (forall dist vol nn lle solve p r D mn mj X y, knn_ok dist nn -> rng_ok r -> unif_pos r -> plain_ss (ll_ss p) -> ss_gauss (ll_ss p) = GNone ->
     (forall k c X, rect (d_dim D) X -> c = d_dim D -> lle k c X = Ok X) -> solver_ok solve ->
     wf_data (d_X D) (d_dim D) (d_y D) -> is_minority (d_y D) mn mj ->
     lle_sample vol nn lle solve p r D = Ok (X, y) ->
     Forall (fun x => exists ps, incl ps (rows_with mn (d_X D) (d_y D)) /\ convex_comb (d_dim D) ps x) (skipn (length (d_X D)) X)).
Proof.
  intros H. set (out := lle_sample vol1 ex_nn id_lle cramer (llp 1 2) rng_fifth lle_D).
  assert (E : exists x1 x2 y, out = Ok (d_X lle_D ++ [x1; x2], y) /\ (nth 1 x1 0 < 0)%Q) by (do 3 eexists; split; [vm_compute; reflexivity|vm_compute; reflexivity]).
  destruct E as (x1 & x2 & y & E & Hneg).
  specialize (H sqdist vol1 ex_nn id_lle cramer (llp 1 2) rng_fifth lle_D 1%Z 0%Z (d_X lle_D ++ [x1; x2]) y
    ex_nn_ok rng_fifth_ok rng_fifth_pos ex_ss_plain eq_refl).
  assert (G : Forall (fun x => exists ps, incl ps (rows_with 1 (d_X lle_D) (d_y lle_D)) /\ convex_comb (d_dim lle_D) ps x) [x1; x2]).
  { apply H; try apply lle_D_ok; [|apply cramer_ok|exact E]. intros k c X HX ->. unfold id_lle. f_equal. rewrite <- (map_id X) at 2. apply map_ext_in.
    intros x Hx. apply firstn_all2. unfold rect in HX. rewrite Forall_forall in HX. now rewrite (HX x Hx). }
  inversion G as [|? ? (ps & Hps & (_ & ws & W1 & W2 & W3 & W4)) _]; subst. specialize (W4 1 ltac:(cbn; lia)).
  assert (N : (0 <= nth 1 x1 0)%Q); [|Lqa.lra]. rewrite W4. apply qsum_nonneg. clear -Hps W2. revert ws W2.
  induction ps as [|q ps IH]; intros [|w ws] W2; cbn [map2]; try constructor.
  - inversion W2; subst. assert (0 <= nth 1 q 0)%Q.
    { specialize (Hps q (or_introl eq_refl)). cbn in Hps. destruct Hps as [<-|[<-|[<-|[]]]]; cbn; discriminate. }
    now apply Qmult_le_0_compat.
  - apply IH; [intros a Ha; apply Hps; now right|inversion W2; assumption].
Qed.

Example C94_example :
  runs lle_D 1 2 (lle_spec sqdist (llp 1 2) lle_D [[10;0];[0;0];[-1;1]]%Q 1 2) (lle_sample vol1 ex_nn id_lle cramer (llp 1 2) rng_fifth lle_D) /\
  (exists x1 x2, lle_sample vol1 ex_nn id_lle cramer (llp 1 2) rng_fifth lle_D = Ok (d_X lle_D ++ [x1; x2], d_y lle_D ++ [1; 1]%Z) /\
     Forall2 Qeq x1 [1; -1]%Q).
Proof.
  split.
  - apply (C94_lle sqdist vol1 ex_nn id_lle cramer (llp 1 2) rng_fifth lle_D 1 0 2); auto using ex_nn_ok, rng_fifth_ok, rng_fifth_pos, ex_ss_plain, cramer_ok; try apply lle_D_ok.
    repeat constructor.
  - do 2 eexists. split; [vm_compute; reflexivity|]. repeat constructor; vm_compute; reflexivity.
Qed.

Print Assumptions C87_isomap.
Print Assumptions C87_never_cleans.
Print Assumptions C88_sl_graph.
Print Assumptions C88_renaming.
Print Assumptions C88_names_refuted.
Print Assumptions C89_svm_balance.
Print Assumptions C89_labels_refuted.
Print Assumptions C90_msyn.
Print Assumptions C90_enough.
Print Assumptions C91_edge_det.
Print Assumptions C91_bases.
Print Assumptions C92_mct.
Print Assumptions C92_copies.
Print Assumptions C93_ahc.
Print Assumptions C93_recursion_refuted.
Print Assumptions C94_lle.
Print Assumptions C94_weights.
Print Assumptions C94_hull_refuted.
