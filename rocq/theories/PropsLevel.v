(** Properties C77 to C81: LN_SMOTE, Lee, ProWSyn, Gazzah and MSMOTE. *)

From Coq Require Import List ZArith QArith Bool Arith Lia Lqa Sorting.Sorted Permutation.
From Verif Require Import Np NpFacts SimplexModel Spec SpecNoise SpecComp SimplexFacts SimplexGeom Float64
  SamplerModel SamplerFacts OversFacts OversGen BaseModel NoiseModel KnnModel KnnFacts DangerModel ClusterOversModel
  ClusterOversFacts CompModel CompFacts SpecNear LevelModel SpecLevel LevelFacts LevelFacts2 LevelFacts3 LevelFacts4
  Witness DangerWitness ClusterWitness CompWitness EditWitness NearWitness LevelWitness.
Import ListNotations.
Open Scope nat_scope.

(** C77. *)
Theorem C77_ln_smote : forall dist nn p rs D mn mj n,
  knn_ok dist nn -> rngs_ok rs -> wf_data (d_X D) (d_dim D) (d_y D) -> is_minority (d_y D) mn mj ->
  asked (cp_proportion p) (d_y D) mn mj = Ok n -> 2 <= cp_n_neighbors p ->
  runs D mn n (ln_smote_spec dist p D mn mj n) (ln_smote_sample nn p rs D).
Proof. exact ln_smote_runs. Qed.

(** The rows of C77 lie on the way from a minority row to another row, and only a
    part of the way if that is a majority row. *)
Theorem C77_within : forall dist p D mn mj n S,
  wf_data (d_X D) (d_dim D) (d_y D) -> 3 <= length (d_X D) -> 1 <= cp_n_neighbors p ->
  ln_smote_spec dist p D mn mj n S ->
  Forall (fun x => exists i j m, nth i (d_y D) 0%Z = mn /\ i < length (d_X D) /\ j < length (d_X D) /\ m <= Nat.min (length (d_X D) - 2) (cp_n_neighbors p) /\
    between (fun t => (0 <= t /\ t <= 1)%Q /\
        (nth j (d_y D) 0%Z <> mn -> (t <= qn m / qn (Nat.min (length (d_X D) - 2) (cp_n_neighbors p)))%Q))
      (d_dim D) (nth i (d_X D) []) (nth j (d_X D) []) x) S.
Proof. exact ln_smote_within. Qed.

Theorem C77_one_neighbour : forall nn p rs D mn mj n,
  is_minority (d_y D) mn mj -> asked (cp_proportion p) (d_y D) mn mj = Ok n -> cp_n_neighbors p <= 1 ->
  unchanged D (ln_smote_sample nn p rs D).
Proof. exact ln_smote_one. Qed.

Example C77_example :
  runs en_D 1 2 (ln_smote_spec sqdist (cp_k 3) en_D 1 0 2) (ln_smote_sample ex_nn (cp_k 3) rs0 en_D) /\
  (exists S, ln_smote_sample ex_nn (cp_k 3) rs0 en_D = Ok (d_X en_D ++ S, d_y en_D ++ [1; 1]%Z)) /\
  unchanged en_D (ln_smote_sample ex_nn (cp_k 1) rs0 en_D).
Proof.
  split; [|split; [eexists; vm_compute; reflexivity|]].
  - apply C77_ln_smote; auto using ex_nn_ok, rs0_ok; try apply en_D_ok; cbn; auto; lia.
  - apply (C77_one_neighbour _ _ _ _ 1%Z 0%Z 2%Z); try apply en_D_ok; cbn; auto; lia.
Qed.

(** C78. *)
Theorem C78_lee : forall dist vol nn fuel p rs D mn mj n,
  knn_ok dist nn -> rngs_ok rs -> rngs_pos rs -> plain_ss (le_ss p) -> wf_data (d_X D) (d_dim D) (d_y D) -> is_minority (d_y D) mn mj ->
  asked (le_proportion p) (d_y D) mn mj = Ok n -> 1 <= le_n_neighbors p -> (0 <= le_rejection_level p)%Q ->
  Z.to_nat n + 71 <= fuel ->
  runs D mn n (lee_spec dist p 11 D mn mj n) (lee_sample vol nn fuel p rs D).
Proof. intros. eapply lee_runs_gen; eauto. Qed.

(** The level stays where it was as long as no batch is rejected completely. *)
Theorem C78_level_stays : forall dist vol nn fuel p rs D mn mj n,
  knn_ok dist nn -> rngs_ok rs -> rngs_pos rs -> plain_ss (le_ss p) -> wf_data (d_X D) (d_dim D) (d_y D) -> is_minority (d_y D) mn mj ->
  asked (le_proportion p) (d_y D) mn mj = Ok n -> 1 <= le_n_neighbors p ->
  let X_min := rows_with mn (d_X D) (d_y D) in
  let c := Nat.min (length X_min) (le_n_neighbors p + 1) in
  (forall T i m new ind, nn X_min X_min c = Ok T -> 20 <= m ->
     sample_simplex vol (le_ss p) (mk_args X_min (d_dim D) T c None None None false None) m (rs i) = Ok new ->
     nn (d_X D) new (Nat.min (length X_min) (le_n_neighbors p)) = Ok ind ->
     exists t, In t ind /\ (qn (votes (d_y D) t mj) / qn (le_n_neighbors p) < le_rejection_level p)%Q) ->
  Z.to_nat n + 71 <= fuel ->
  runs D mn n (lee_spec dist p 0 D mn mj n) (lee_sample vol nn fuel p rs D).
Proof.
  intros dist vol nn fuel p rs D mn mj n A1 A2 A3 A4 A5 A6 A7 A8 X_min c E F. eapply lee_runs_gen; eauto.
  right. intros T ET i m new ind. intros. eapply E; eauto.
Qed.

(** The fraction of majority neighbours is not what is compared: with fewer minority
    rows than neighbours asked for, a row all of whose neighbours are majority rows
    is accepted. *)
Theorem C78_fraction_refuted :
  exists S, lee_sample vol1 ex_nn 80 (lee_k 5 (7 # 10)) rs0 mid_D = Ok (d_X mid_D ++ S, d_y mid_D ++ [1; 1]%Z) /\
    Forall (fun x => exists t, ex_nn (d_X mid_D) [x] 5 = Ok [t] /\ votes (d_y mid_D) t 0 = 5) S /\ S <> [].
Proof.
  exists [[320 # 64]; [320 # 64]]%Q. split; [vm_compute; reflexivity|]. split; [|discriminate].
  apply Forall_cons; [|apply Forall_cons; [|apply Forall_nil]]; eexists; split; vm_compute; reflexivity.
Qed.

Example C78_example :
  runs en_D 1 2 (lee_spec sqdist (lee_k 3 (1 # 2)) 11 en_D 1 0 2) (lee_sample vol1 ex_nn 80 (lee_k 3 (1 # 2)) rs0 en_D) /\
  runs mid_D 1 2 (lee_spec sqdist (lee_k 3 (1 # 10)) 11 mid_D 1 0 2) (lee_sample vol1 ex_nn 80 (lee_k 3 (1 # 10)) rs0 mid_D) /\
  (exists S, lee_sample vol1 ex_nn 80 (lee_k 3 (1 # 10)) rs0 mid_D = Ok (d_X mid_D ++ S, d_y mid_D ++ [1; 1]%Z)).
Proof.
  split; [|split; [|eexists; vm_compute; reflexivity]].
  - apply C78_lee; auto using ex_nn_ok, rs0_ok, rs0_pos, ex_ss_plain; try apply en_D_ok; cbn; auto; try lia; discriminate.
  - apply C78_lee; auto using ex_nn_ok, rs0_ok, rs0_pos, ex_ss_plain; try apply mid_D_ok; cbn; auto; try lia; discriminate.
Qed.

(** C79. *)
Theorem C79_prowsyn : forall dist vol nn e p rs D mn mj n,
  knn_ok dist nn -> rngs_ok rs -> rngs_pos rs -> plain_ss (pw_ss p) -> wf_data (d_X D) (d_dim D) (d_y D) -> is_minority (d_y D) mn mj ->
  asked (pw_proportion p) (d_y D) mn mj = Ok n -> 1 <= pw_n_neighbors p -> 1 <= pw_L p -> (forall q, (0 < e q)%Q) ->
  runs D mn n (prowsyn_spec dist e (r_choice (rs 0)) p D mn mj n) (prowsyn_sample vol nn e p rs D).
Proof. exact prowsyn_runs. Qed.

(** Every minority row is in exactly one cluster. *)
Theorem C79_partition : forall dist X X_maj k L P Ps,
  StronglySorted lt P -> graded dist X X_maj k L 0 P Ps -> Permutation (concat (map fst Ps)) P.
Proof. intros dist X X_maj k L P Ps. apply graded_perm. Qed.

(** The clusters have the levels 1, 2, ... up to [L]; rows left after that make one
    more cluster, of level [L] again. *)
Theorem C79_levels : forall dist X X_maj k L P Ps,
  graded dist X X_maj k L 0 P Ps ->
  length Ps <= L + 1 /\ forall i, i < length Ps -> snd (nth i Ps ([], 0)) = Nat.min (i + 1) L.
Proof. intros dist X X_maj k L P Ps H. apply graded_level in H. now rewrite Nat.sub_0_r in H. Qed.

(** So the distant rows can be as likely as the nearer ones. *)
Theorem C79_distinct_levels_refuted :
  exists Ps, graded sqdist (d_X en_D) (rows_with 0 (d_X en_D) (d_y en_D)) 1 1 0 [0; 1; 2; 3] Ps /\
    map snd Ps = [1; 1].
Proof.
  exists [([1; 3], 1); ([0; 2], 1)]. split; [|reflexivity].
  assert (E : ex_nn (rows_at (d_X en_D) [0; 1; 2; 3]) (rows_with 0 (d_X en_D) (d_y en_D)) 1 = Ok [[1]; [3]; [3]; [3]; [3]; [3]]) by (vm_compute; reflexivity).
  assert (HT : nearest_table sqdist (rows_at (d_X en_D) [0; 1; 2; 3]) (rows_with 0 (d_X en_D) (d_y en_D)) 1 [[1]; [3]; [3]; [3]; [3]; [3]]).
  { destruct (ex_nn_ok (rows_at (d_X en_D) [0; 1; 2; 3]) (rows_with 0 (d_X en_D) (d_y en_D)) 1) as (T & ET & HT); [cbn; lia|].
    rewrite E in ET. injection ET as <-. exact HT. }
  apply (graded_step sqdist (d_X en_D) _ 1 1 0 [0; 1; 2; 3] [[1]; [3]; [3]; [3]; [3]; [3]] [1; 3] [0; 2]); try lia; try discriminate.
  - exact HT.
  - repeat constructor.
  - intros i. split.
    + intros [<-|[<-|[]]]; [exists [1], 1|exists [3], 3]; cbn; auto.
    + intros (t & q & Ht & Hq & Hi). cbn in Ht. repeat (destruct Ht as [<-|Ht]; [destruct Hq as [<-|[]]; cbn in Hi; injection Hi as <-; cbn; auto|]). destruct Ht.
  - repeat constructor.
  - intros i. cbn. split; [intros [<-|[<-|[]]]; split; auto; intros [|[|[]]]; discriminate|]. intros [[<-|[<-|[<-|[<-|[]]]]] H]; tauto.
  - apply (graded_left sqdist (d_X en_D) _ 1 1 [0; 2]). discriminate.
Qed.

Example C79_example :
  runs en_D 1 2 (prowsyn_spec sqdist exp0 (r_choice (rs0 0)) (pw 1 2) en_D 1 0 2) (prowsyn_sample vol1 ex_nn exp0 (pw 1 2) rs0 en_D) /\
  (exists S, prowsyn_sample vol1 ex_nn exp0 (pw 1 2) rs0 en_D = Ok (d_X en_D ++ S, d_y en_D ++ [1; 1]%Z)).
Proof.
  split; [|eexists; vm_compute; reflexivity].
  apply C79_prowsyn; auto using ex_nn_ok, rs0_ok, rs0_pos, ex_ss_plain, exp0_pos; try apply en_D_ok; cbn; auto; lia.
Qed.

(** C80. *)
Theorem C80_gazzah : forall pca prop n_components D mn mj n,
  pca_ok pca -> wf_data (d_X D) (d_dim D) (d_y D) -> is_minority (d_y D) mn mj -> asked prop (d_y D) mn mj = Ok n ->
  let out := gazzah_sample pca prop n_components D in
  let c := Nat.min (d_dim D) n_components in
  (count_label (d_y D) mn <= 2 \/ n = 0%Z -> unchanged D out) /\
  (2 < count_label (d_y D) mn -> (0 < n)%Z ->
     (c <= count_label (d_y D) mj -> gazzah_spec pca c D mn mj n out) /\
     (count_label (d_y D) mj < c -> out = Err ValueError)).
Proof. exact gazzah_outcome. Qed.

Theorem C80_keeps : forall pca prop n_components D mn mj n X' y',
  pca_ok pca -> wf_data (d_X D) (d_dim D) (d_y D) -> is_minority (d_y D) mn mj -> asked prop (d_y D) mn mj = Ok n ->
  2 < count_label (d_y D) mn -> (0 < n)%Z -> gazzah_sample pca prop n_components D = Ok (X', y') ->
  exists K S, X' = K ++ S /\ K <> [] /\ incl K (rows_with mj (d_X D) (d_y D)) /\ poly_spec Star D mn n S /\
    y' = repeat mj (length K) ++ repeat mn (length S).
Proof. exact gazzah_keeps. Qed.

(** The minority rows themselves are not returned. *)
Theorem C80_minority_refuted :
  exists X' y', gazzah_sample pca0 one 2 en_D = Ok (X', y') /\
    Forall (fun x => ~ exists z, In z X' /\ Forall2 Qeq x z) (rows_with 1 (d_X en_D) (d_y en_D)).
Proof.
  do 2 eexists. split; [vm_compute; reflexivity|].
  repeat (apply Forall_cons || apply Forall_nil); intros (z & Hz & E); cbn in Hz;
    repeat (destruct Hz as [<-|Hz]; [inversion E as [|a b la lb Ea El]; discriminate Ea|]); destruct Hz.
Qed.

Example C80_example :
  gazzah_spec pca0 1 en_D 1 0 2 (gazzah_sample pca0 one 2 en_D) /\
  exists X' y', gazzah_sample pca0 one 2 en_D = Ok (X', y') /\ length X' = 9.
Proof.
  split; [|do 2 eexists; split; vm_compute; reflexivity].
  destruct (C80_gazzah pca0 one 2 en_D 1 0 2) as [_ H]; auto using pca0_ok; try apply en_D_ok.
  apply H; cbn; lia.
Qed.

(** C81. *)
Theorem C81_msmote : forall dist nn p rs D mn mj n,
  knn_ok dist nn -> rngs_ok rs -> wf_data (d_X D) (d_dim D) (d_y D) -> is_minority (d_y D) mn mj ->
  asked (cp_proportion p) (d_y D) mn mj = Ok n -> 1 <= cp_n_neighbors p ->
  runs D mn n (msmote_spec dist p D mn n) (msmote_sample nn p rs D).
Proof. exact msmote_runs. Qed.

(** New rows may lie outside the hull of the minority, toward a majority row. *)
Theorem C81_hull_refuted :
  exists x, msmote_sample ex_nn (cp_k 3) rs0 bor_D = Ok (d_X bor_D ++ [x], d_y bor_D ++ [1]%Z) /\
    Forall (fun z => (nth 0 z 0 < nth 0 x 0)%Q) (rows_with 1 (d_X bor_D) (d_y bor_D)).
Proof.
  eexists. split; [vm_compute; reflexivity|].
  repeat (apply Forall_cons || apply Forall_nil); reflexivity.
Qed.

Example C81_example :
  runs bor_D 1 1 (msmote_spec sqdist (cp_k 3) bor_D 1 1) (msmote_sample ex_nn (cp_k 3) rs0 bor_D) /\
  runs en_D 1 2 (msmote_spec sqdist (cp_k 3) en_D 1 2) (msmote_sample ex_nn (cp_k 3) rs0 en_D).
Proof.
  split; apply (C81_msmote _ _ _ _ _ 1%Z 0%Z); auto using ex_nn_ok, rs0_ok; try apply en_D_ok; try apply bor_D_ok; cbn; auto; lia.
Qed.

Print Assumptions C77_ln_smote.
Print Assumptions C77_within.
Print Assumptions C77_one_neighbour.
Print Assumptions C78_lee.
Print Assumptions C78_level_stays.
Print Assumptions C78_fraction_refuted.
Print Assumptions C79_prowsyn.
Print Assumptions C79_partition.
Print Assumptions C79_levels.
Print Assumptions C79_distinct_levels_refuted.
Print Assumptions C80_gazzah.
Print Assumptions C80_keeps.
Print Assumptions C80_minority_refuted.
Print Assumptions C81_msmote.
Print Assumptions C81_hull_refuted.
