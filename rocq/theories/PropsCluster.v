(** Properties C45 and C54: CBSO, CURE_SMOTE, Assembled_SMOTE and A_SUWO. *)

From Coq Require Import List ZArith QArith Bool Arith Lia.
From Verif Require Import Np NpFacts SimplexModel Spec SimplexFacts SimplexGeom Float64
  SamplerModel SamplerFacts OversFacts BaseModel DangerModel ClusterModel ClusterFacts ClusterFacts2 ClusterOversModel
  OversGen ClusterOversFacts Witness DangerWitness ClusterWitness.
Import ListNotations.
Open Scope nat_scope.

(** C45. *)
Theorem C45_cbso : forall dm th n m, (forall i j, dm i j == dm j i)%Q -> 1 <= n -> square n m ->
  (forall i j, i < n -> j < n -> exists q, at_ m i j = Some q /\ (q == dm i j)%Q) ->
  exists cl, cbso_clusters th m = Ok cl /\ partition_of n cl /\
    forall i j, i < n -> j < n -> (together cl i j <-> chained dm th n i j).
Proof. exact cbso_clusters_spec. Qed.

Theorem C45_cure : forall pick k th n m, pick_ok pick -> 2 <= k -> 1 <= n -> square n m ->
  (forall i j, i < n -> j < n -> i <> j -> exists q, at_ m i j = Some q) ->
  exists cl, cure_clusters pick k 0 m = Ok cl /\ sub_partition n cl /\
    Nat.min n (k - 1) <= length cl <= k /\
    (n <= k -> cl = singletons n) /\
    cure_clusters pick k th m = Ok (filter (fun c => negb (length c <? th)) cl).
Proof. exact cure_clusters_spec. Qed.

Theorem C45_suwo : forall dm th n maj m, (forall i j, dm i j == dm j i)%Q -> 1 <= n -> square n m ->
  length maj = n ->
  (forall i j, i < n -> j < n -> exists q, at_ m i j = Some q /\ (q == dm i j)%Q) ->
  exists cl, suwo_clusters th maj m = Ok cl /\ partition_of n cl /\
    forall i j, together cl i j -> chained dm th n i j.
Proof. exact suwo_clusters_spec. Qed.

(** Only a majority cluster near both rows keeps them apart: if each is near at
    most one row, A_SUWO joins exactly the chained rows; if there is one between
    any two near rows, it joins none. *)
Theorem C45_suwo_sparse : forall dm th n maj w m, (forall i j, dm i j == dm j i)%Q -> 1 <= n -> square n m ->
  length maj = n -> Forall (fun r => length r = w) maj -> sparse_maj maj n th ->
  (forall i j, i < n -> j < n -> exists q, at_ m i j = Some q /\ (q == dm i j)%Q) ->
  exists cl, suwo_clusters th maj m = Ok cl /\ partition_of n cl /\
    forall i j, i < n -> j < n -> (together cl i j <-> chained dm th n i j).
Proof. exact suwo_sparse. Qed.

Theorem C45_suwo_apart : forall dm th n maj w m, (forall i j, dm i j == dm j i)%Q -> 1 <= n -> square n m ->
  length maj = n -> Forall (fun r => length r = w) maj -> kept_apart maj dm th n ->
  (forall i j, i < n -> j < n -> exists q, at_ m i j = Some q /\ (q == dm i j)%Q) ->
  suwo_clusters th maj m = Ok (singletons n).
Proof. exact suwo_apart. Qed.

Theorem C45_assembled : forall pop similar n m, 1 <= n -> square n m ->
  exists cl, assembled_clusters pop similar m = Ok cl /\ partition_of n cl.
Proof. exact assembled_clusters_spec. Qed.

(** With one cluster the loop of CURE_SMOTE drops and merges in every iteration:
    an even number of rows leaves no cluster at all. *)
Theorem C45_cure_one_refuted : forall pick th n m, pick_ok pick -> 1 <= n -> square n m ->
  (forall i j, i < n -> j < n -> i <> j -> exists q, at_ m i j = Some q) ->
  exists cl, cure_clusters pick 1 th m = Ok cl /\ sub_partition n cl /\ length cl <= n mod 2.
Proof. exact cure_one_spec. Qed.

(** Two pairs of near rows; every row is its own cluster for CURE_SMOTE with
    four clusters. *)
Definition ex_m : dmat := finite (dist_matrix sqdist [[0];[1];[10];[11]]%Q [[0];[1];[10];[11]]%Q).
Example C45_example :
  square 4 ex_m /\
  cbso_clusters 2 ex_m = Ok [[0; 1]; [2; 3]] /\
  cbso_clusters 81 ex_m = Ok [[0; 1; 2; 3]] /\
  cure_clusters pick0 4 0 ex_m = Ok [[0]; [1]; [2]; [3]] /\
  cure_clusters pick0 2 0 ex_m = Ok [[0; 1; 3]] /\
  cure_clusters pick0 1 0 ex_m = Ok [] /\
  suwo_clusters 2 (repeat [Some 50; Some 60]%Q 4) ex_m = Ok [[0; 1]; [2; 3]] /\
  suwo_clusters 2 [[Some 0]; [Some 50]; [Some 50]; [Some 50]]%Q ex_m = Ok [[0; 1]; [2; 3]] /\
  suwo_clusters 2 (repeat [Some (1 # 2)]%Q 4) ex_m = Ok [[0]; [1]; [2]; [3]] /\
  assembled_clusters 2 (fun _ _ => true) ex_m = Ok [[0; 1; 2; 3]] /\
  assembled_clusters 2 (fun _ _ => false) ex_m = Ok [[0; 1]; [2; 3]].
Proof. split; [split; [reflexivity|repeat constructor]|]. vm_compute. repeat split; reflexivity. Qed.

(** C54. *)
Theorem C54_cbso : forall dist vol nn,
  knn_ok dist nn -> (forall a b, (dist a b == dist b a)%Q) -> forall p rs D mn mj X' y',
  rngs_ok rs -> wf_data (d_X D) (d_dim D) (d_y D) -> is_minority (d_y D) mn mj ->
  cb_n_neighbors p + 1 <= length (d_X D) ->
  cbso_sample vol dist nn p rs D = Ok (X', y') -> cbso_spec dist p D mn mj X' y'.
Proof. exact cbso_cases. Qed.

Theorem C54_cbso_total : forall dist vol nn p rs D mn mj n,
  knn_ok dist nn -> (forall a b, (dist a b == dist b a)%Q) ->
  rngs_ok rs -> rngs_pos rs -> plain_ss (cb_ss p) ->
  wf_data (d_X D) (d_dim D) (d_y D) -> is_minority (d_y D) mn mj ->
  cb_n_neighbors p + 1 <= length (d_X D) ->
  asked (cb_proportion p) (d_y D) mn mj = Ok n ->
  exists X' y', cbso_sample vol dist nn p rs D = Ok (X', y').
Proof. exact cbso_total. Qed.

(** The number of neighbours is not reduced to the number of rows. *)
Theorem C54_cbso_small_refuted : forall dist vol nn p rs D mn mj n,
  (forall Xf Xq k, length Xf < k -> nn Xf Xq k = Err ValueError) ->
  is_minority (d_y D) mn mj -> 2 < count_label (d_y D) mn ->
  asked (cb_proportion p) (d_y D) mn mj = Ok n -> (0 < n)%Z ->
  length (d_X D) < cb_n_neighbors p + 1 ->
  cbso_sample vol dist nn p rs D = Err ValueError.
Proof. exact cbso_small. Qed.

Theorem C54_cure : forall dist vol p pick rs D mn mj,
  pick_ok pick -> rngs_ok rs -> 2 <= cu_n_clusters p ->
  wf_data (d_X D) (d_dim D) (d_y D) -> is_minority (d_y D) mn mj ->
  (forall X' y', cure_sample vol dist p pick rs D = Ok (X', y') -> cure_spec p D mn mj X' y') /\
  (rngs_pos rs -> plain_ss (cu_ss p) -> forall n, asked (cu_proportion p) (d_y D) mn mj = Ok n ->
    exists X' y', cure_sample vol dist p pick rs D = Ok (X', y')).
Proof. exact cure_run. Qed.

(** One cluster, an even number of minority rows: never a sample. *)
Theorem C54_cure_one_refuted : forall dist vol p pick rs D mn mj n,
  pick_ok pick -> wf_data (d_X D) (d_dim D) (d_y D) -> is_minority (d_y D) mn mj ->
  cu_n_clusters p = 1 -> Nat.even (count_label (d_y D) mn) = true ->
  asked (cu_proportion p) (d_y D) mn mj = Ok n ->
  cure_sample vol dist p pick rs D = Ok (d_X D, d_y D).
Proof. exact cure_one_copies. Qed.

Theorem C54_assembled : forall dist vol nn, knn_ok dist nn -> forall p similar rs D mn mj,
  rngs_ok rs -> wf_data (d_X D) (d_dim D) (d_y D) -> is_minority (d_y D) mn mj ->
  (forall X' y', assembled_sample vol dist nn p similar rs D = Ok (X', y') -> assembled_spec dist p D mn mj X' y') /\
  (rngs_pos rs -> plain_ss (as_ss p) -> forall n, asked (as_proportion p) (d_y D) mn mj = Ok n ->
    exists X' y', assembled_sample vol dist nn p similar rs D = Ok (X', y')).
Proof. exact assembled_run. Qed.

Theorem C54_suwo : forall dist vol nn,
  knn_ok dist nn -> (forall a b, (dist a b == dist b a)%Q) -> (forall a b, (0 <= dist a b)%Q) ->
  forall p agg lda rs D mn mj X' y',
  rngs_ok rs -> (forall V q, lda V = Ok q -> (0 <= q)%Q) ->
  wf_data (d_X D) (d_dim D) (d_y D) -> is_minority (d_y D) mn mj ->
  suwo_sample vol dist nn p agg lda rs D = Ok (X', y') -> suwo_spec dist p D mn mj X' y'.
Proof. exact suwo_cases. Qed.

(** A_SUWO does not keep the original rows. *)
Theorem C54_suwo_prefix_refuted : exists X' y',
  wf_data (d_X su_D) (d_dim su_D) (d_y su_D) /\ is_minority (d_y su_D) 1 0 /\
  suwo_sample (fun _ => 1%Q) sqdist ex_nn_strict su_p agg0 lda0 rs0 su_D = Ok (X', y') /\
  In [20; 20]%Q (d_X su_D) /\ ~ In [20; 20]%Q X'.
Proof.
  do 2 eexists. split; [apply su_D_ok|]. split; [apply su_D_ok|]. split; [vm_compute; reflexivity|].
  split; [cbn; tauto|]. cbn. intuition congruence.
Qed.

Example C54_example :
  knn_ok sqdist ex_nn_strict /\ rngs_ok rs0 /\ rngs_pos rs0 /\ pick_ok pick0 /\ plain_ss ex_ss /\
  (forall a b, (sqdist a b == sqdist b a)%Q) /\ (forall a b, (0 <= sqdist a b)%Q) /\
  wf_data (d_X cl_D) (d_dim cl_D) (d_y cl_D) /\ is_minority (d_y cl_D) 1 0 /\
  asked (cb_proportion cb_p) (d_y cl_D) 1 0 = Ok 3%Z /\
  (exists a b c, cbso_sample (fun _ => 1%Q) sqdist ex_nn_strict cb_p rs0 cl_D = Ok (d_X cl_D ++ [a; b; c], d_y cl_D ++ [1; 1; 1]%Z)) /\
  (exists a b c, cure_sample (fun _ => 1%Q) sqdist cu_p pick0 rs0 cl_D = Ok (d_X cl_D ++ [a; b; c], d_y cl_D ++ [1; 1; 1]%Z)) /\
  cure_sample (fun _ => 1%Q) sqdist cu_p1 pick0 rs0 cl_D = Ok (d_X cl_D, d_y cl_D) /\
  (exists a b c, assembled_sample (fun _ => 1%Q) sqdist ex_nn_strict as_p (fun _ _ => true) rs0 cl_D = Ok (d_X cl_D ++ [a; b; c], d_y cl_D ++ [1; 1; 1]%Z)) /\
  (exists X', suwo_sample (fun _ => 1%Q) sqdist ex_nn_strict su_p agg0 lda0 rs0 cl_D = Ok (X', d_y cl_D ++ [1; 1; 1]%Z)) /\
  cbso_sample (fun _ => 1%Q) sqdist ex_nn_strict (mk_cbso (StFloat f_one) 11 (3 # 2) ex_ss) rs0 cl_D = Err ValueError.
Proof.
  split; [exact ex_nn_strict_ok|]. split; [exact rs0_ok|]. split; [exact rs0_pos|]. split; [exact pick0_ok|].
  split; [unfold plain_ss, ex_ss; cbn; split; [lia|tauto]|].
  split; [exact sqdist_sym|]. split; [exact sqdist_nonneg|]. split; [apply cl_D_ok|]. split; [apply cl_D_ok|].
  split; [vm_compute; reflexivity|]. split; [do 3 eexists; vm_compute; reflexivity|].
  split; [do 3 eexists; vm_compute; reflexivity|]. split; [vm_compute; reflexivity|].
  split; [do 3 eexists; vm_compute; reflexivity|]. split; [eexists; vm_compute; reflexivity|].
  vm_compute. reflexivity.
Qed.

Print Assumptions C45_cbso.
Print Assumptions C45_cure.
Print Assumptions C45_suwo.
Print Assumptions C45_suwo_sparse.
Print Assumptions C45_suwo_apart.
Print Assumptions C45_assembled.
Print Assumptions C45_cure_one_refuted.
Print Assumptions C54_cbso.
Print Assumptions C54_cbso_total.
Print Assumptions C54_cbso_small_refuted.
Print Assumptions C54_cure.
Print Assumptions C54_cure_one_refuted.
Print Assumptions C54_assembled.
Print Assumptions C54_suwo.
Print Assumptions C54_suwo_prefix_refuted.
