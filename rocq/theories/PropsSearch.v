(** Properties C105 to C109: E_SMOTE, GASMOTE, SSO, TRIM_SMOTE and MWMOTE. *)

From Coq Require Import List ZArith QArith Qabs Qminmax Bool Arith Lia Lqa Sorting.Sorted Permutation.
From Verif Require Import Np PyVal NpFacts SimplexModel Spec SpecDanger SpecNoise SpecComp SpecEdit BorderFacts SimplexFacts SimplexGeom Float64
  SamplerModel SamplerFacts OversFacts OversGen BaseModel NoiseModel KnnModel KnnFacts DangerModel ClusterOversModel
  ClusterOversFacts CompModel CompFacts SpecNear LevelModel SpecLevel SpecGroup WrapModel SpecWrap DirModel SpecDir RegionModel SpecRegion
  SearchModel SpecSearch SearchFacts SearchFacts2 SearchFacts3 SearchFacts4 SearchFacts5
  Witness DangerWitness ClusterWitness CompWitness EditWitness NearWitness LevelWitness WrapWitness DirWitness RegionWitness SearchWitness.
Import ListNotations.
Open Scope nat_scope.

(** C105. *)
Theorem C105_e_smote : forall dist vol nn accuracy fuel first p d r D mn mj n,
  knn_ok dist nn -> rng_ok r -> unif_pos r -> draws_ok d -> covers d fuel (d_dim D) ->
  wf_data (d_X D) (d_dim D) (d_y D) -> is_minority (d_y D) mn mj -> asked (es_proportion p) (d_y D) mn mj = Ok n ->
  first < d_dim D -> 1 <= es_n_neighbors p -> plain_ss (es_ss p) -> ss_gauss (es_ss p) = GNone ->
  let out := e_smote_sample vol nn accuracy fuel first p d r D in
  (count_label (d_y D) mn <= 2 \/ n = 0%Z -> unchanged D out) /\
  (2 < count_label (d_y D) mn -> (0 < n)%Z -> e_smote_spec dist accuracy first p d D mn n out).
Proof. exact e_smote_ok. Qed.

(** With positive accuracies the columns kept are the best of the 250 choices
    tried, and at least min_features. *)
Theorem C105_best_columns : forall accuracy first want d D tried kept,
  searched accuracy first want d D tried kept -> (forall t D', (0 < accuracy t D')%Q) ->
  let mask := snd (nth 0 (kept 50) (0%Q, [])) in
  want <= length (kept_columns mask) /\
  exists t, t < 250 /\ mask = tried t /\
    forall s, s < 250 -> (accuracy s (narrowed (tried s) D) <= accuracy t (narrowed mask D))%Q.
Proof. exact search_chooses. Qed.

Example C105_example :
  let p := mk_e one 3 ex_ss 1 in
  let D' := mk_data [[0;7];[1;8];[2;9];[10;0];[11;1];[12;2];[13;3];[14;4]]%Q 2 [1;1;1;0;0;0;0;0]%Z in
  wf_data (d_X two_D) (d_dim two_D) (d_y two_D) /\ is_minority (d_y two_D) 1 0 /\ covers (cycle (1 # 2)) 2 2 /\
  asked (es_proportion p) (d_y two_D) 1 0 = Ok 2%Z /\
  e_smote_sample vol1 ex_nn likes_more 2 1 p (cycle (1 # 2)) rng0 two_D
    = Ok (d_X D' ++ [[32 # 64; 480 # 64]; [32 # 64; 480 # 64]]%Q, d_y D' ++ [1; 1]%Z) /\
  e_smote_spec sqdist likes_more 1 p (cycle (1 # 2)) two_D 1 2 (e_smote_sample vol1 ex_nn likes_more 2 1 p (cycle (1 # 2)) rng0 two_D).
Proof.
  cbv zeta. split; [apply two_D_ok|]. split; [apply two_D_ok|]. split; [apply cycle_covers|]. split; [reflexivity|]. split; [vm_compute; reflexivity|].
  apply (C105_e_smote sqdist vol1 ex_nn likes_more 2 1 (mk_e one 3 ex_ss 1) (cycle (1 # 2)) rng0 two_D 1 0 2);
    auto using ex_nn_ok, rng0_ok, rng0_unif_pos, ex_ss_plain, cycle_ok, half_share; try apply two_D_ok; try apply cycle_covers; reflexivity || (cbn; lia).
Qed.

Example C105_best_columns_example :
  exists tried kept, searched likes_more 1 1 (cycle (1 # 2)) two_D tried kept /\
    1 <= length (kept_columns (snd (nth 0 (kept 50) (0%Q, [])))).
Proof.
  destruct C105_example as (_ & _ & _ & _ & _ & tried & kept & H & _). exists tried, kept. split; [exact H|].
  exact (proj1 (C105_best_columns _ _ _ _ _ _ _ H likes_more_pos)).
Qed.

(** The random state does not determine the result: the first column comes from
    elsewhere. *)
Theorem C105_seed_refuted :
  ~ (forall dist vol nn accuracy fuel first first' p d r D mn mj,
     knn_ok dist nn -> rng_ok r -> unif_pos r -> draws_ok d -> covers d fuel (d_dim D) ->
     wf_data (d_X D) (d_dim D) (d_y D) -> is_minority (d_y D) mn mj ->
     first < d_dim D -> first' < d_dim D -> 1 <= es_n_neighbors p -> plain_ss (es_ss p) -> ss_gauss (es_ss p) = GNone ->
     e_smote_sample vol nn accuracy fuel first p d r D = e_smote_sample vol nn accuracy fuel first' p d r D).
Proof.
  intros H. specialize (H sqdist vol1 ex_nn no_taste 2 0 1 (mk_e one 3 ex_ss 1) (cycle0 (1 # 2)) rng0 two_D 1%Z 0%Z
    ex_nn_ok rng0_ok rng0_unif_pos (cycle0_ok _ half_share) (cycle0_covers _ 2) (proj1 two_D_ok) (proj2 two_D_ok)
    ltac:(cbn; lia) ltac:(cbn; lia) ltac:(cbn; lia) ex_ss_plain eq_refl).
  vm_compute in H. discriminate H.
Qed.

(** C106. *)
Theorem C106_gasmote : forall dist vol nn predictions power p d rs D mn mj,
  knn_ok dist nn -> (forall e i, rng_ok (rs e i)) -> (forall e i, unif_pos (rs e i)) -> draws_ok d -> power_ok power ->
  wf_data (d_X D) (d_dim D) (d_y D) -> is_minority (d_y D) mn mj ->
  1 <= ga_maxn p -> 1 <= ga_n_pop p -> (0 <= ga_pr p /\ ga_pr p <= 1)%Q -> plain_ss (ga_ss p) -> ss_gauss (ga_ss p) = GNone ->
  let out := gasmote_sample vol nn predictions power p d rs D in
  (count_label (d_y D) mn <= 2 -> unchanged D out) /\
  (2 < count_label (d_y D) mn -> appends D mn (gasmote_spec dist p D mn) out).
Proof. exact gasmote_ok. Qed.

Lemma rs00_ok : forall e i : nat, rng_ok rng0. Proof. intros _ _. exact rng0_ok. Qed.
Lemma rs00_pos : forall e i : nat, unif_pos rng0. Proof. intros _ _. exact rng0_unif_pos. Qed.
Lemma half_rate : (0 <= 1 # 2 /\ 1 # 2 <= 1)%Q. Proof. split; discriminate. Qed.

Example C106_example :
  let p := mk_ga 3 3 4 2 (1 # 2) (1 # 2) 2 ex_ss in
  wf_data (d_X en_D) (d_dim en_D) (d_y en_D) /\ is_minority (d_y en_D) 1 0 /\
  gasmote_sample vol1 ex_nn below2 same_power p (cycle (1 # 2)) (fun _ _ => rng0) en_D
    = Ok (d_X en_D ++ [[32 # 64]; [96 # 64]; [96 # 64]]%Q, d_y en_D ++ [1; 1; 1]%Z) /\
  appends en_D 1 (gasmote_spec sqdist p en_D 1) (gasmote_sample vol1 ex_nn below2 same_power p (cycle (1 # 2)) (fun _ _ => rng0) en_D).
Proof.
  cbv zeta. split; [apply en_D_ok|]. split; [apply en_D_ok|]. split; [vm_compute; reflexivity|].
  apply (C106_gasmote sqdist vol1 ex_nn below2 same_power (mk_ga 3 3 4 2 (1 # 2) (1 # 2) 2 ex_ss) (cycle (1 # 2)) (fun _ _ => rng0) en_D 1 0);
    auto using ex_nn_ok, rs00_ok, rs00_pos, ex_ss_plain, cycle_ok, half_share, same_power_ok, half_rate; try apply en_D_ok; reflexivity || (cbn; lia).
Qed.

(** The genetic search returns numbers below maxn; their fitness, as it was
    evaluated, is at least that of every initial configuration. *)
Theorem C106_search : forall power p d fitness N,
  power_ok power -> draws_ok d -> 1 <= ga_maxn p -> 1 <= ga_n_pop p -> (0 <= ga_pr p /\ ga_pr p <= 1)%Q -> 1 <= N ->
  (forall e conf, length conf = N /\ Forall (fun c => c < ga_maxn p) conf -> exists q, fitness e conf = Ok q) ->
  exists conf, genetic_algorithm power p d fitness N = Ok conf /\ (length conf = N /\ Forall (fun c => c < ga_maxn p) conf) /\
  exists e q, fitness e conf = Ok q /\
    forall t, t < ga_n_pop p -> exists q', fitness t (map (fun i => dr_int d t i (ga_maxn p)) (seq 0 N)) = Ok q' /\ (q' <= q)%Q.
Proof. exact genetic_ok. Qed.

Example C106_search_example :
  let p := mk_ga 3 5 4 2 (1 # 2) (1 # 2) 3 ex_ss in
  genetic_algorithm same_power p (cycle (1 # 2)) (fun _ conf => Ok (inject_Z (Z.of_nat (list_sum conf)))) 3 = Ok [2; 3; 4] /\
  exists conf, genetic_algorithm same_power p (cycle (1 # 2)) (fun _ conf => Ok (inject_Z (Z.of_nat (list_sum conf)))) 3 = Ok conf /\
    Forall (fun c => c < 5) conf.
Proof.
  cbv zeta. split; [vm_compute; reflexivity|].
  destruct (C106_search same_power (mk_ga 3 5 4 2 (1 # 2) (1 # 2) 3 ex_ss) (cycle (1 # 2)) (fun _ conf => Ok (inject_Z (Z.of_nat (list_sum conf)))) 3) as (conf & E & (_ & F) & _);
    auto using same_power_ok, cycle_ok, half_share, half_rate; cbn; try lia; eauto.
Qed.

(** With maxn = 1 nothing is generated. *)
Theorem C106_maxn_one : forall dist vol nn predictions power p d rs D mn mj,
  knn_ok dist nn -> (forall e i, rng_ok (rs e i)) -> (forall e i, unif_pos (rs e i)) -> draws_ok d -> power_ok power ->
  wf_data (d_X D) (d_dim D) (d_y D) -> is_minority (d_y D) mn mj ->
  ga_maxn p = 1 -> 1 <= ga_n_pop p -> (0 <= ga_pr p /\ ga_pr p <= 1)%Q -> plain_ss (ga_ss p) -> ss_gauss (ga_ss p) = GNone ->
  unchanged D (gasmote_sample vol nn predictions power p d rs D).
Proof. exact gasmote_one. Qed.

Example C106_maxn_one_example :
  let p := mk_ga 3 1 4 2 (1 # 2) (1 # 2) 2 ex_ss in
  count_label (d_y en_D) 1 = 4 /\ unchanged en_D (gasmote_sample vol1 ex_nn below2 same_power p (cycle (1 # 2)) (fun _ _ => rng0) en_D).
Proof.
  cbv zeta. split; [reflexivity|].
  apply (C106_maxn_one sqdist vol1 ex_nn below2 same_power (mk_ga 3 1 4 2 (1 # 2) (1 # 2) 2 ex_ss) (cycle (1 # 2)) (fun _ _ => rng0) en_D 1 0);
    auto using ex_nn_ok, rs00_ok, rs00_pos, ex_ss_plain, cycle_ok, half_share, same_power_ok, half_rate; try apply en_D_ok; reflexivity || (cbn; lia).
Qed.

(** The second child of a crossover is the second parent. *)
Theorem C106_second_child : forall ks a b, length a = length b -> Forall (fun k => k <= length b) ks ->
  snd (ga_crossover ks a b) = b.
Proof. exact crossover_second. Qed.

Example C106_second_child_example : ga_crossover [1; 2] [1; 2; 3] [4; 5; 6] = ([1; 5; 6], [4; 5; 6]).
Proof. reflexivity. Qed.

(** pm is the probability of no mutation. *)
Theorem C106_mutation : forall power p d ge t conf, draws_ok d -> (ga_pm p = 1)%Q -> ga_mutation power p d ge t conf = conf.
Proof.
  intros power p d ge t conf Hd Hp. unfold ga_mutation. rewrite Hp. destruct (ok_unif _ Hd t 0) as [_ U].
  destruct (Qle_bool 1 (dr_unif d t 0)) eqn:E; [|reflexivity]. apply Qle_bool_iff in E. lra.
Qed.

Example C106_mutation_example :
  ga_mutation same_power (mk_ga 3 5 4 2 1 (1 # 2) 3 ex_ss) (cycle (1 # 2)) 0 0 [2; 4] = [2; 4] /\
  ga_mutation same_power (mk_ga 3 5 4 2 0 (1 # 2) 3 ex_ss) (cycle (1 # 2)) 0 0 [2; 4] = [1; 4].
Proof. split; vm_compute; reflexivity. Qed.

(** The classes need not be balanced afterwards. *)
Theorem C106_balance_refuted :
  ~ (forall dist vol nn predictions power p d rs D mn mj X' y',
     knn_ok dist nn -> (forall e i, rng_ok (rs e i)) -> (forall e i, unif_pos (rs e i)) -> draws_ok d -> power_ok power ->
     wf_data (d_X D) (d_dim D) (d_y D) -> is_minority (d_y D) mn mj -> 2 < count_label (d_y D) mn -> 2 <= ga_maxn p ->
     gasmote_sample vol nn predictions power p d rs D = Ok (X', y') -> count_label y' mn = count_label y' mj).
Proof.
  intros H. set (p := mk_ga 3 3 4 2 (1 # 2) (1 # 2) 2 ex_ss).
  specialize (H sqdist vol1 ex_nn below2 same_power p (cycle (1 # 2)) (fun _ _ => rng0) en_D 1%Z 0%Z
    (d_X en_D ++ [[32 # 64]; [96 # 64]; [96 # 64]]%Q) (d_y en_D ++ [1; 1; 1]%Z)
    ex_nn_ok rs00_ok rs00_pos (cycle_ok _ half_share) same_power_ok (proj1 en_D_ok) (proj2 en_D_ok) ltac:(cbn; lia) ltac:(cbn; lia)).
  specialize (H ltac:(vm_compute; reflexivity)). discriminate H.
Qed.

(** C107. *)
Theorem C107_sso : forall spread sensitivity p rs D mn mj n,
  rngs_ok rs -> wf_data (d_X D) (d_dim D) (d_y D) -> is_minority (d_y D) mn mj -> asked (so_proportion p) (d_y D) mn mj = Ok n ->
  sensitivity_ok mn sensitivity -> (forall t D, (0 <= spread t D)%Q) -> 2 <= so_h p -> 1 <= so_n_iter p ->
  let out := sso_sample spread sensitivity p rs D in
  (count_label (d_y D) mn <= 2 -> unchanged D out) /\
  (2 < count_label (d_y D) mn -> appends D mn (sso_spec spread sensitivity p D mn n) out).
Proof. exact sso_ok. Qed.

Example C107_example :
  let p := mk_sso one 2 2 in
  wf_data (d_X en_D) (d_dim en_D) (d_y en_D) /\ is_minority (d_y en_D) 1 0 /\ asked (so_proportion p) (d_y en_D) 1 0 = Ok 2%Z /\
  sso_sample unit_spread equal_weights p rs0 en_D = Ok (d_X en_D ++ [[0 # 32]; [0 # 50]]%Q, d_y en_D ++ [1; 1]%Z) /\
  appends en_D 1 (sso_spec unit_spread equal_weights p en_D 1 2) (sso_sample unit_spread equal_weights p rs0 en_D).
Proof.
  cbv zeta. split; [apply en_D_ok|]. split; [apply en_D_ok|]. split; [reflexivity|]. split; [vm_compute; reflexivity|].
  apply (C107_sso unit_spread equal_weights (mk_sso one 2 2) rs0 en_D 1 0 2); auto using rs0_ok, equal_weights_ok; try apply en_D_ok;
    try reflexivity; try (cbn; lia). intros. discriminate.
Qed.

(** One hidden unit, which the constructor accepts, is not enough. *)
Theorem C107_one_unit : forall spread sensitivity p rs D mn mj n,
  is_minority (d_y D) mn mj -> asked (so_proportion p) (d_y D) mn mj = Ok n -> so_h p = 1 -> 1 <= so_n_iter p ->
  2 < count_label (d_y D) mn ->
  sso_sample spread sensitivity p rs D = Err ValueError.
Proof. exact sso_one_unit. Qed.

Example C107_one_unit_example : sso_sample unit_spread equal_weights (mk_sso one 1 5) rs0 en_D = Err ValueError.
Proof. apply (C107_one_unit unit_spread equal_weights (mk_sso one 1 5) rs0 en_D 1 0 2); try apply en_D_ok; reflexivity || (cbn; lia). Qed.

(** The number of new rows need not be the number asked for, not even when that is 0. *)
Theorem C107_number_refuted :
  ~ (forall spread sensitivity p rs D mn mj n S,
     rngs_ok rs -> wf_data (d_X D) (d_dim D) (d_y D) -> is_minority (d_y D) mn mj -> asked (so_proportion p) (d_y D) mn mj = Ok n ->
     sensitivity_ok mn sensitivity -> (forall t D, (0 <= spread t D)%Q) -> 2 <= so_h p -> 1 <= so_n_iter p -> n = 0%Z ->
     sso_sample spread sensitivity p rs D = Ok (d_X D ++ S, d_y D ++ repeat mn (length S)) -> S = []).
Proof.
  intros H. specialize (H unit_spread equal_weights (mk_sso (StInt 0) 2 1) rs0 en_D 1%Z 0%Z 0%Z [[0 # 32]]%Q).
  discriminate H; auto using rs0_ok, equal_weights_ok; try apply en_D_ok; try reflexivity; try (cbn; lia). intros. discriminate.
Qed.

(** C108. *)
Theorem C108_trim_smote : forall dist vol nn p r D mn mj n,
  knn_ok dist nn -> rng_ok r -> unif_pos r -> wf_data (d_X D) (d_dim D) (d_y D) -> is_minority (d_y D) mn mj ->
  asked (tm_proportion p) (d_y D) mn mj = Ok n -> 1 <= tm_n_neighbors p -> (0 <= tm_min_precision p)%Q -> plain_ss (tm_ss p) -> ss_gauss (tm_ss p) = GNone ->
  let out := trim_smote_sample vol nn p r D in
  (count_label (d_y D) mn <= 2 \/ n = 0%Z -> unchanged D out) /\
  (2 < count_label (d_y D) mn -> (0 < n)%Z -> appends D mn (trim_smote_spec dist p D mn n) out).
Proof. exact trim_smote_ok. Qed.

Example C108_example :
  let p := mk_trim one 3 (3 # 10) ex_ss in
  wf_data (d_X en_D) (d_dim en_D) (d_y en_D) /\ is_minority (d_y en_D) 1 0 /\ asked (tm_proportion p) (d_y en_D) 1 0 = Ok 2%Z /\
  trimming 11 1 1 [combine (d_X en_D) (d_y en_D)] [] = Ok [[([0], 1%Z); ([1], 1%Z); ([2], 1%Z); ([3], 1%Z); ([3 # 2], 0%Z)]]%Q /\
  trim_smote_sample vol1 ex_nn p rng0 en_D = Ok (d_X en_D ++ [[32 # 64]; [32 # 64]]%Q, d_y en_D ++ [1; 1]%Z) /\
  appends en_D 1 (trim_smote_spec sqdist p en_D 1 2) (trim_smote_sample vol1 ex_nn p rng0 en_D).
Proof.
  cbv zeta. split; [apply en_D_ok|]. split; [apply en_D_ok|]. split; [reflexivity|]. split; [vm_compute; reflexivity|]. split; [vm_compute; reflexivity|].
  apply (C108_trim_smote sqdist vol1 ex_nn (mk_trim one 3 (3 # 10) ex_ss) rng0 en_D 1 0 2);
    auto using ex_nn_ok, rng0_ok, rng0_unif_pos, ex_ss_plain; try apply en_D_ok; try reflexivity; try (cbn; lia). discriminate.
Qed.

(** C109. *)
Theorem C109_mwmote : forall dist vol nn norm kmeans p rs D mn mj n,
  knn_ok dist nn -> rngs_ok rs -> rngs_pos rs -> wf_data (d_X D) (d_dim D) (d_y D) -> is_minority (d_y D) mn mj ->
  asked (mw_proportion p) (d_y D) mn mj = Ok n -> labels_ok kmeans ->
  1 <= mw_k3 p -> 1 <= mw_M p -> 1 <= d_dim D -> (0 < mw_cf_th p)%Q -> (0 < mw_cmax p)%Q -> plain_ss (mw_ss p) -> ss_gauss (mw_ss p) = GNone ->
  let out := mwmote_sample vol nn norm kmeans p rs D in
  (count_label (d_y D) mn <= 2 \/ n = 0%Z -> unchanged D out) /\
  (2 < count_label (d_y D) mn -> (0 < n)%Z -> appends D mn (mwmote_spec dist kmeans p D mn mj n) out).
Proof. exact mwmote_ok. Qed.

Example C109_example :
  let p := mk_mw one 5 2 2 2 5 10 ex_ss in
  wf_data (d_X en_D) (d_dim en_D) (d_y en_D) /\ is_minority (d_y en_D) 1 0 /\ asked (mw_proportion p) (d_y en_D) 1 0 = Ok 2%Z /\
  mwmote_sample vol1 ex_nn first_coord striped p rs0 en_D = Ok (d_X en_D ++ [[64 # 64]; [64 # 64]]%Q, d_y en_D ++ [1; 1]%Z) /\
  appends en_D 1 (mwmote_spec sqdist striped p en_D 1 0 2) (mwmote_sample vol1 ex_nn first_coord striped p rs0 en_D).
Proof.
  cbv zeta. split; [apply en_D_ok|]. split; [apply en_D_ok|]. split; [reflexivity|]. split; [vm_compute; reflexivity|].
  apply (C109_mwmote sqdist vol1 ex_nn first_coord striped (mk_mw one 5 2 2 2 5 10 ex_ss) rs0 en_D 1 0 2);
    auto using ex_nn_ok, rs0_ok, rs0_pos, ex_ss_plain, striped_ok; try apply en_D_ok; reflexivity || (cbn; lia).
Qed.

(** With cf_th = 0 or cmax = 0, which the constructor accepts, the call fails. *)
Theorem C109_zero : forall dist vol nn norm kmeans p rs D mn mj n,
  knn_ok dist nn -> wf_data (d_X D) (d_dim D) (d_y D) -> is_minority (d_y D) mn mj ->
  asked (mw_proportion p) (d_y D) mn mj = Ok n -> 2 < count_label (d_y D) mn -> (0 < n)%Z ->
  (forall T, nearest_table dist (d_X D) (d_X D) (Nat.min (length (d_X D)) (mw_k1 p + 1)) T -> exists i, has_company (d_y D) mn T i) ->
  (mw_cf_th p == 0)%Q \/ (mw_cmax p == 0)%Q ->
  mwmote_sample vol nn norm kmeans p rs D = Err ValueError.
Proof. exact mwmote_zero. Qed.

Example C109_zero_example : mwmote_sample vol1 ex_nn first_coord striped (mk_mw one 9 2 2 2 5 0 ex_ss) rs0 en_D = Err ValueError.
Proof.
  apply (C109_zero sqdist vol1 ex_nn first_coord striped (mk_mw one 9 2 2 2 5 0 ex_ss) rs0 en_D 1 0 2); try apply en_D_ok; try apply ex_nn_ok;
    try reflexivity; try (cbn; lia); [|now right].
  intros T HT. exists 0. apply (all_company en_D 1 T 0 0 1 HT); reflexivity || (cbn; lia).
Qed.

Print Assumptions C105_e_smote.
Print Assumptions C105_best_columns.
Print Assumptions C105_seed_refuted.
Print Assumptions C106_gasmote.
Print Assumptions C106_search.
Print Assumptions C106_maxn_one.
Print Assumptions C106_second_child.
Print Assumptions C106_mutation.
Print Assumptions C106_balance_refuted.
Print Assumptions C107_sso.
Print Assumptions C107_one_unit.
Print Assumptions C107_number_refuted.
Print Assumptions C108_trim_smote.
Print Assumptions C109_mwmote.
Print Assumptions C109_zero.
