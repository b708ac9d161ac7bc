(** Properties C62 to C68: SMOTE_TomekLinks, SMOTE_ENN, SMOTE_RSB, SPY, Stefanowski,
    SUNDO, SMOTE_IPF and Supervised_SMOTE. *)

From Coq Require Import List ZArith QArith Bool Arith Lia.
From Verif Require Import Np NpFacts SimplexModel Spec SpecNoise SpecComp SimplexFacts SimplexGeom Float64
  SamplerModel SamplerFacts OversFacts OversGen BaseModel NoiseModel UnderFacts KnnModel KnnFacts DangerModel ClusterOversModel
  ClusterOversFacts CompModel CompFacts EditModel SpecEdit EditFacts EditFacts2 EditFacts3 EditFacts4 EditFacts5
  Witness DangerWitness ClusterWitness CompWitness EditWitness.
Import ListNotations.
Open Scope nat_scope.

(** C62. [X1], [y1] is what SMOTE returns. *)
Theorem C62_tomek : forall dist vol nn p r D mn mj X1 y1,
  knn_ok dist nn -> rng_ok r -> wf_data (d_X D) (d_dim D) (d_y D) -> is_minority (d_y D) mn mj ->
  smote_sample vol nn p r D = Ok (X1, y1) ->
  let out := smote_tomek_sample vol nn p r D in
  (count_label (d_y D) mn <= 2 -> unchanged D out) /\
  (2 < count_label (d_y D) mn -> no_duplicates dist X1 ->
   exists X2 y2 drop, drops_exactly X1 y1 drop X2 y2 /\
    (forall i, i < length X1 -> drop i ->
       exists j, nearest_other dist X1 i j /\ nearest_other dist X1 j i /\ nth j y1 0%Z <> nth i y1 0%Z) /\
    (forall i j, i < length X1 -> strictly_nearest dist X1 i j -> strictly_nearest dist X1 j i ->
       nth j y1 0%Z <> nth i y1 0%Z -> drop i) /\
    (X2 = [] -> unchanged D out) /\ (X2 <> [] -> out = Ok (X2, y2))).
Proof. exact smote_tomek_spec. Qed.

Theorem C62_tomek_sub : forall dist vol nn p r D mn mj X1 y1,
  knn_ok dist nn -> rng_ok r -> wf_data (d_X D) (d_dim D) (d_y D) -> is_minority (d_y D) mn mj ->
  smote_sample vol nn p r D = Ok (X1, y1) ->
  exists X' y', smote_tomek_sample vol nn p r D = Ok (X', y') /\ X' <> [] /\
    ((X' = d_X D /\ y' = d_y D) \/ sub_data X1 y1 X' y').
Proof. exact smote_tomek_sub. Qed.

(** Every minority row vanishes. *)
Theorem C62_tomek_one_class_refuted :
  2 < count_label (d_y tk_D) 1 /\ smote_tomek_sample vol1 ex_nn smh rng0 tk_D = Ok ([[1000]]%Q, [0]%Z).
Proof. split; [vm_compute; lia|vm_compute; reflexivity]. Qed.

Theorem C62_enn : forall dist vol nn p r D mn mj X1 y1,
  knn_ok dist nn -> rng_ok r -> wf_data (d_X D) (d_dim D) (d_y D) -> is_minority (d_y D) mn mj ->
  smote_sample vol nn p r D = Ok (X1, y1) ->
  let out := smote_enn_sample vol nn p r D in
  (count_label (d_y D) mn <= 2 -> unchanged D out) /\
  (2 < count_label (d_y D) mn -> no_duplicates dist X1 ->
   exists N X2 y2, (forall i, i < length X1 -> nearest_others dist X1 i 3 (N i)) /\
     drops_exactly X1 y1 (fun i => votes y1 (N i) (nth i y1 0%Z) <= 1) X2 y2 /\
     let ok := In mn y2 /\ In mj y2 /\ count_label y2 mn <= count_label y2 mj in
     (ok -> out = Ok (X2, y2)) /\ (~ ok -> unchanged D out)).
Proof. exact smote_enn_spec. Qed.

Theorem C62_enn_sub : forall dist vol nn p r D mn mj X1 y1,
  knn_ok dist nn -> rng_ok r -> wf_data (d_X D) (d_dim D) (d_y D) -> is_minority (d_y D) mn mj ->
  smote_sample vol nn p r D = Ok (X1, y1) ->
  exists X' y', smote_enn_sample vol nn p r D = Ok (X', y') /\ two_labels y' mn mj /\
    count_label y' mn <= count_label y' mj /\
    ((X' = d_X D /\ y' = d_y D) \/ sub_data X1 y1 X' y').
Proof. exact smote_enn_sub. Qed.

(** Two rows are asked for and SMOTE generates them, but the result is the input. *)
Theorem C62_enn_lost_refuted :
  asked (StFloat f_one) (d_y en_D) 1 0 = Ok 2%Z /\
  (exists S, smote_sample vol1 ex_nn sm1 rng0 en_D = Ok (d_X en_D ++ S, d_y en_D ++ [1; 1]%Z)) /\
  smote_enn_sample vol1 ex_nn sm1 rng0 en_D = Ok (d_X en_D, d_y en_D).
Proof. split; [vm_compute; reflexivity|]. split; [eexists|]; vm_compute; reflexivity. Qed.

(** C63. *)
Theorem C63_rsb : forall dist vol nn p r D mn mj X1 y1,
  knn_ok dist nn -> rng_ok r -> wf_data (d_X D) (d_dim D) (d_y D) -> is_minority (d_y D) mn mj ->
  smote_sample vol nn p r D = Ok (X1, y1) -> rect (d_dim D) X1 ->
  let P := skipn (length (d_X D)) X1 in
  let out := smote_rsb_sample vol nn p r D in
  (count_label (d_y D) mn <= 2 \/ P = [] -> unchanged D out) /\
  (2 < count_label (d_y D) mn -> P <> [] -> appends D mn
    (rsb_spec (d_dim D) P (rows_with mj (d_X D) (d_y D)) (count_label (d_y D) mj - count_label (d_y D) mn)) out).
Proof. exact smote_rsb_runs. Qed.

(** The assumption on SMOTE's rows holds without Gaussian noise. *)
Theorem C63_rectangular : forall dist vol nn p r D mn mj X1 y1,
  knn_ok dist nn -> rng_ok r -> wf_data (d_X D) (d_dim D) (d_y D) -> is_minority (d_y D) mn mj ->
  smote_sample vol nn p r D = Ok (X1, y1) -> ss_gauss (sm_ss p) = GNone -> rect (d_dim D) X1.
Proof. exact smote_rsb_plain. Qed.

(** Four rows are asked for and SMOTE generates them, two are added. *)
Theorem C63_exact_count_refuted :
  asked (StFloat (f_of_Z 2)) (d_y en_D) 1 0 = Ok 4%Z /\
  (exists S, smote_sample vol1 ex_nn sm2 rng0 en_D = Ok (d_X en_D ++ S, d_y en_D ++ [1; 1; 1; 1]%Z)) /\
  (exists S, smote_rsb_sample vol1 ex_nn sm2 rng0 en_D = Ok (d_X en_D ++ S, d_y en_D ++ [1; 1]%Z)).
Proof. split; [vm_compute; reflexivity|]. split; eexists; vm_compute; reflexivity. Qed.

(** C64. *)
Theorem C64_spy : forall dist nn p D mn mj,
  knn_ok dist nn -> wf_data (d_X D) (d_dim D) (d_y D) -> is_minority (d_y D) mn mj ->
  let X_min := rows_with mn (d_X D) (d_y D) in
  let k := Nat.min (length (d_X D)) (sp_n_neighbors p + 1) in
  (count_label (d_y D) mn <= 2 -> unchanged D (spy_sample nn p D)) /\
  (2 < count_label (d_y D) mn -> exists T y', nearest_table dist (d_X D) X_min k T /\
     spy_sample nn p D = Ok (d_X D, y') /\
     relabels (d_y D) (spy_hit (d_y D) mj T (sp_threshold p) k) mn y').
Proof. exact spy_runs. Qed.

Theorem C64_only_majority : forall (y : list Z) mj T th k mn y' i,
  relabels y (spy_hit y mj T th k) mn y' -> i < length y ->
  nth i y' 0%Z = nth i y 0%Z \/ (nth i y 0%Z = mj /\ nth i y' 0%Z = mn).
Proof. exact spy_only_majority. Qed.

Theorem C64_threshold_one : forall dist nn p D mn mj X' y',
  knn_ok dist nn -> wf_data (d_X D) (d_dim D) (d_y D) -> is_minority (d_y D) mn mj -> 2 < count_label (d_y D) mn ->
  (1 <= sp_threshold p)%Q -> spy_sample nn p D = Ok (X', y') ->
  exists T, nearest_table dist (d_X D) (rows_with mn (d_X D) (d_y D)) (Nat.min (length (d_X D)) (sp_n_neighbors p + 1)) T /\
    forall b i, listed T b i -> nth i y' 0%Z = mn.
Proof. exact spy_threshold_one. Qed.

(** Of the five neighbours of [[0]], and of [[1]], four are majority rows, more than
    the share 0.7, but they are relabelled: the count of the row itself is added. *)
Theorem C64_threshold_refuted :
  (exists t1 t2 tt, ex_nn (d_X spy_D) (rows_with 1 (d_X spy_D) (d_y spy_D)) 6 = Ok (t1 :: t2 :: tt) /\
     votes (d_y spy_D) (tl t1) 0 = 4 /\ votes (d_y spy_D) (tl t2) 0 = 4) /\
  ((7 # 10) * 5 < inject_Z 4)%Q /\
  spy_sample ex_nn (mk_spy 5 (7 # 10)) spy_D = Ok (d_X spy_D, [1;1;1;1;1;1;1;0;0]%Z).
Proof. split; [do 3 eexists; repeat split; vm_compute; reflexivity|]. split; vm_compute; reflexivity. Qed.

(** C65. *)
Theorem C65_stefanowski : forall dist nn s D mn mj,
  knn_ok dist nn -> wf_data (d_X D) (d_dim D) (d_y D) -> is_minority (d_y D) mn mj ->
  (count_label (d_y D) mn <= 6 -> unchanged D (stefanowski_sample nn s D)) /\
  (6 < count_label (d_y D) mn -> stefanowski_spec dist s D mn mj (stefanowski_sample nn s D)).
Proof. exact stefanowski_runs. Qed.

Theorem C65_keeps : forall dist s D mn mj X' y',
  wf_data (d_X D) (d_dim D) (d_y D) -> is_minority (d_y D) mn mj ->
  stefanowski_spec dist s D mn mj (Ok (X', y')) ->
  two_labels y' mn mj /\ incl X' (d_X D) /\ incl (rows_with mn (d_X D) (d_y D)) (rows_with mn X' y') /\
  incl (rows_with mj X' y') (rows_with mj (d_X D) (d_y D)).
Proof. exact stefanowski_keeps. Qed.

(** [[0]] is the only noisy minority row. Four of its five nearest rows are majority
    rows, but its first neighbour decides: it is copied only twice. *)
Theorem C65_vote_refuted :
  (exists T, ex_nn (d_X st_D) (d_X st_D) 6 = Ok T /\ votes (d_y st_D) (tl (nth 0 T [])) 0 = 4) /\
  stefanowski_sample ex_nn StrongAmp st_D = Ok (d_X st_D ++ [[0]; [0]]%Q, d_y st_D ++ [1; 1]%Z).
Proof. split; [eexists; split; vm_compute; reflexivity|vm_compute; reflexivity]. Qed.

(** C66. *)
Theorem C66_sundo : forall dist nn std rs D mn mj,
  knn_ok dist nn -> (forall i, rng_ok (rs i)) -> wf_data (d_X D) (d_dim D) (d_y D) -> is_minority (d_y D) mn mj ->
  let out := sundo_sample dist nn std rs D in
  (count_label (d_y D) mn <= 2 \/ count_label (d_y D) mn = count_label (d_y D) mj -> unchanged D out) /\
  (2 < count_label (d_y D) mn < count_label (d_y D) mj ->
   sundo_spec dist (fun j => std (column j (rows_with mn (d_X D) (d_y D)))) (fun n => r_normal (rs 1) n (d_dim D)) D mn mj out).
Proof. exact sundo_runs. Qed.

Theorem C66_bound : forall dist stds normals D mn mj X' y',
  (forall a b, (0 <= dist a b)%Q) -> (forall a, (dist a a == 0)%Q) ->
  length (d_X D) = length (d_y D) ->
  2 < count_label (d_y D) mn < count_label (d_y D) mj -> mn <> mj ->
  sundo_spec dist stds normals D mn mj (Ok (X', y')) ->
  exists N, sundo_number (count_label (d_y D) mj) (count_label (d_y D) mn) N /\
    count_label y' mn = count_label (d_y D) mn + N /\
    count_label (d_y D) mj <= count_label y' mj + 2 * N /\ 0 < count_label y' mj.
Proof. exact sundo_bound. Qed.

(** Not balanced: five minority rows, three majority rows. *)
Theorem C66_balance_refuted : exists X',
  sundo_sample sqdist ex_nn (fun _ => 1%Q) rs0 su_D = Ok (X', [1;1;1;1;1;0;0;0]%Z).
Proof. eexists. vm_compute. reflexivity. Qed.

(** C67. [X1], [y1] is what SMOTE returns. *)
Theorem C67_ipf : forall dist vol nn predict fuel p r D mn mj n X1 y1,
  knn_ok dist nn -> rng_ok r -> wf_data (d_X D) (d_dim D) (d_y D) -> is_minority (d_y D) mn mj ->
  asked (sm_proportion (if_smote p)) (d_y D) mn mj = Ok n -> smote_sample vol nn (if_smote p) r D = Ok (X1, y1) ->
  let folds := Nat.min (if_n_folds p) (count_label (d_y D) mn) in
  let out := ipf_sample vol nn predict fuel p r D in
  (count_label (d_y D) mn <= 2 \/ n = 0%Z -> unchanged D out) /\
  (2 < count_label (d_y D) mn -> (0 < n)%Z ->
   (forall X' y', out = Ok (X', y') ->
      ipf_run (predict folds) (if_voting p) (if_n_folds p) (if_k p) (if_p p) 0 X1 y1 X' y' /\ sub_data X1 y1 X' y') /\
   (predict_ok (predict folds) -> (0 < if_p p)%Q -> length X1 * (if_k p + 1) + if_k p <= fuel ->
      (exists X' y', out = Ok (X', y')) \/
      (exists e Xa ya, out = Err e /\ e <> OutOfFuel /\ sub_data X1 y1 Xa ya /\ predict folds Xa ya = Err e))).
Proof. exact ipf_runs. Qed.

(** With p = 0, which the constructor accepts, the call never returns a result. *)
Theorem C67_zero_refuted : forall vol nn predict p r D mn mj n X1 y1,
  is_minority (d_y D) mn mj -> asked (sm_proportion (if_smote p)) (d_y D) mn mj = Ok n ->
  smote_sample vol nn (if_smote p) r D = Ok (X1, y1) -> 2 < count_label (d_y D) mn -> (0 < n)%Z ->
  forall fuel X' y', (if_p p <= 0)%Q -> 0 < if_k p -> ipf_sample vol nn predict fuel p r D <> Ok (X', y').
Proof. exact ipf_call_zero. Qed.

(** With majority voting only the labels 0 and 1 are left, whatever the labels are. *)
Theorem C67_labels : forall dist vol nn predict p r D mn mj n X1 y1,
  knn_ok dist nn -> rng_ok r -> wf_data (d_X D) (d_dim D) (d_y D) -> is_minority (d_y D) mn mj ->
  asked (sm_proportion (if_smote p)) (d_y D) mn mj = Ok n -> smote_sample vol nn (if_smote p) r D = Ok (X1, y1) ->
  2 < count_label (d_y D) mn -> (0 < n)%Z ->
  forall fuel X' y', if_voting p = Majority -> 0 < if_k p ->
  ipf_sample vol nn predict fuel p r D = Ok (X', y') -> forall z, In z y' -> z = 0%Z \/ z = 1%Z.
Proof. exact ipf_call_labels. Qed.

(** With labels 1 and 2 and classifiers that make no mistake all rows labelled 2,
    the whole minority, are removed. *)
Theorem C67_labels_refuted : exists X',
  ipf_sample vol1 ex_nn perfect 1000 (ipf_p Majority) rng0 lab_D = Ok (X', [1;1;1;1;1;1]%Z).
Proof. eexists. vm_compute. reflexivity. Qed.

(** Consensus voting removes no row labelled 1. *)
Theorem C67_consensus : forall dist vol nn predict p r D mn mj n X1 y1,
  let folds := Nat.min (if_n_folds p) (count_label (d_y D) mn) in
  knn_ok dist nn -> rng_ok r -> wf_data (d_X D) (d_dim D) (d_y D) -> is_minority (d_y D) mn mj ->
  asked (sm_proportion (if_smote p)) (d_y D) mn mj = Ok n -> smote_sample vol nn (if_smote p) r D = Ok (X1, y1) ->
  2 < count_label (d_y D) mn -> (0 < n)%Z ->
  forall fuel X' y', if_voting p = Consensus -> 0 < if_n_folds p ->
  (forall Xa ya ps, predict folds Xa ya = Ok ps -> length ps = folds) ->
  ipf_sample vol nn predict fuel p r D = Ok (X', y') -> rows_with 1%Z X' y' = rows_with 1%Z X1 y1.
Proof. exact ipf_call_consensus. Qed.

(** With fewer minority rows than folds it removes nothing at all (labels 0, 1). *)
Theorem C67_consensus_few : forall dist vol nn predict p r D mn mj n X1 y1,
  let folds := Nat.min (if_n_folds p) (count_label (d_y D) mn) in
  knn_ok dist nn -> rng_ok r -> wf_data (d_X D) (d_dim D) (d_y D) -> is_minority (d_y D) mn mj ->
  asked (sm_proportion (if_smote p)) (d_y D) mn mj = Ok n -> smote_sample vol nn (if_smote p) r D = Ok (X1, y1) ->
  2 < count_label (d_y D) mn -> (0 < n)%Z ->
  forall fuel X' y', if_voting p = Consensus -> count_label (d_y D) mn < if_n_folds p ->
  (forall Xa ya ps, predict folds Xa ya = Ok ps -> length ps = folds /\ forall q i, In q ps -> (nth i q 0 <= 1)%Z) ->
  ipf_sample vol nn predict fuel p r D = Ok (X', y') -> X' = X1 /\ y' = y1.
Proof. exact ipf_call_few. Qed.

(** All classifiers agree that every row has label 0, but no row is removed. *)
Theorem C67_consensus_refuted :
  smote_sample vol1 ex_nn sm1 rng0 en_D = ipf_sample vol1 ex_nn zeros 1000 (ipf_p Consensus) rng0 en_D.
Proof. vm_compute. reflexivity. Qed.

(** C68. *)
Theorem C68_supervised : forall vol proba fuel p rs D mn mj n,
  rngs_ok rs -> rngs_pos rs -> plain_ss (su_ss p) -> wf_data (d_X D) (d_dim D) (d_y D) -> is_minority (d_y D) mn mj ->
  asked (su_proportion p) (d_y D) mn mj = Ok n ->
  (forall x, (0 <= proba x <= 1)%Q) -> (su_th_lower p <= 1)%Q -> (0 <= su_th_upper p)%Q ->
  11 * (Z.to_nat n + 1) <= fuel ->
  let X_min := rows_with mn (d_X D) (d_y D) in
  let hull := fun x => ss_gauss (su_ss p) = GNone -> in_hull (d_dim D) X_min x in
  runs D mn n (supervised_spec proba (su_th_lower p) (su_th_upper p) (Z.to_nat n) hull) (supervised_sample vol proba fuel p rs D).
Proof. exact supervised_runs. Qed.

(** The thresholds are not touched if every batch has at least a tenth of its rows
    within them. *)
Theorem C68_within : forall vol proba fuel p rs D mn mj n,
  rngs_ok rs -> rngs_pos rs -> plain_ss (su_ss p) -> wf_data (d_X D) (d_dim D) (d_y D) -> is_minority (d_y D) mn mj ->
  asked (su_proportion p) (d_y D) mn mj = Ok n ->
  let X_min := rows_with mn (d_X D) (d_y D) in
  (forall i m tmp, sample_simplex vol (su_ss p) (mk_args X_min (d_dim D) (circulant (length X_min)) (length X_min) None None None false None) m (rs i) = Ok tmp ->
     length tmp <= 10 * length (filter (fun x => Qle_bool (su_th_lower p) (proba x) && Qle_bool (proba x) (su_th_upper p)) tmp)) ->
  forall X' y', supervised_sample vol proba fuel p rs D = Ok (X', y') ->
  Forall (fun x => (su_th_lower p <= proba x <= su_th_upper p)%Q) (skipn (length (d_X D)) X').
Proof. exact supervised_still. Qed.

(** The classifier never gives a probability between the thresholds 0.8 and 1. *)
Theorem C68_threshold_refuted : (forall x, (half_proba x < su_th_lower sup_p)%Q) /\
  exists S, supervised_sample vol1 half_proba 1000 sup_p rs0 en_D = Ok (d_X en_D ++ S, d_y en_D ++ [1; 1]%Z).
Proof. split; [intro; reflexivity|]. eexists. vm_compute. reflexivity. Qed.

Example C62_C68_hypotheses :
  knn_ok sqdist ex_nn /\ rng_ok rng0 /\ rngs_ok rs0 /\ rngs_pos rs0 /\ plain_ss ex_ss /\
  (forall a b, (0 <= sqdist a b)%Q) /\ (forall a, (sqdist a a == 0)%Q) /\ (forall k, predict_ok (perfect k)) /\
  (wf_data (d_X tk_D) (d_dim tk_D) (d_y tk_D) /\ is_minority (d_y tk_D) 1 0) /\
  (wf_data (d_X en_D) (d_dim en_D) (d_y en_D) /\ is_minority (d_y en_D) 1 0) /\
  (wf_data (d_X spy_D) (d_dim spy_D) (d_y spy_D) /\ is_minority (d_y spy_D) 1 0) /\
  (wf_data (d_X st_D) (d_dim st_D) (d_y st_D) /\ is_minority (d_y st_D) 1 0 /\ 6 < count_label (d_y st_D) 1) /\
  (wf_data (d_X su_D) (d_dim su_D) (d_y su_D) /\ is_minority (d_y su_D) 1 0 /\
     2 < count_label (d_y su_D) 1 < count_label (d_y su_D) 0) /\
  (wf_data (d_X lab_D) (d_dim lab_D) (d_y lab_D) /\ is_minority (d_y lab_D) 2 1) /\
  (exists X1, smote_sample vol1 ex_nn smh rng0 tk_D = Ok (X1, d_y tk_D ++ [1]%Z) /\ no_duplicates sqdist X1) /\
  (exists X1, smote_sample vol1 ex_nn sm1 rng0 en_D = Ok (X1, d_y en_D ++ [1; 1]%Z) /\ rect 1 X1) /\
  (forall x, (0 <= half_proba x <= 1)%Q) /\
  (exists S, ipf_sample vol1 ex_nn perfect 1000 (ipf_p Majority) rng0 en_D = Ok (d_X en_D ++ S, d_y en_D ++ [1; 1]%Z)).
Proof.
  split; [apply ex_nn_ok|]. split; [apply rng0_ok|]. split; [apply rs0_ok|]. split; [apply rs0_pos|]. split; [split; [cbv; lia|split; left; reflexivity]|].
  split; [apply sqdist_nonneg|]. split; [apply sqdist_self|]. split; [apply perfect_ok|].
  split; [apply tk_D_ok|]. split; [apply en_D_ok|]. split; [apply spy_D_ok|].
  split; [split; [apply st_D_ok|split; [apply st_D_ok|vm_compute; lia]]|].
  split; [split; [apply su_D_ok|split; [apply su_D_ok|vm_compute; lia]]|].
  split; [apply lab_D_ok|].
  split; [eexists; split; [vm_compute; reflexivity|apply UnderFacts.no_duplicates_check; vm_compute; reflexivity]|].
  split; [eexists; split; [vm_compute; reflexivity|repeat constructor]|].
  split; [intro; split; discriminate|]. eexists. vm_compute. reflexivity.
Qed.

Print Assumptions C62_tomek.
Print Assumptions C62_tomek_sub.
Print Assumptions C62_tomek_one_class_refuted.
Print Assumptions C62_enn.
Print Assumptions C62_enn_sub.
Print Assumptions C62_enn_lost_refuted.
Print Assumptions C63_rsb.
Print Assumptions C63_rectangular.
Print Assumptions C63_exact_count_refuted.
Print Assumptions C64_spy.
Print Assumptions C64_only_majority.
Print Assumptions C64_threshold_one.
Print Assumptions C64_threshold_refuted.
Print Assumptions C65_stefanowski.
Print Assumptions C65_keeps.
Print Assumptions C65_vote_refuted.
Print Assumptions C66_sundo.
Print Assumptions C66_bound.
Print Assumptions C66_balance_refuted.
Print Assumptions C67_ipf.
Print Assumptions C67_zero_refuted.
Print Assumptions C67_labels.
Print Assumptions C67_labels_refuted.
Print Assumptions C67_consensus.
Print Assumptions C67_consensus_few.
Print Assumptions C67_consensus_refuted.
Print Assumptions C68_supervised.
Print Assumptions C68_within.
Print Assumptions C68_threshold_refuted.
