(** Properties C43 and C44: ADASYN, Borderline-SMOTE1 and Borderline-SMOTE2. *)

From Coq Require Import List ZArith QArith Bool Arith Lia.
From Verif Require Import Np NpFacts SimplexModel Spec SpecDanger SimplexFacts SimplexGeom Float64
  SamplerModel SamplerFacts OversFacts BaseModel KnnModel KnnFacts DangerModel DangerFacts BorderFacts
  Witness DangerWitness.
Import ListNotations.
Open Scope nat_scope.

(** C43. *)
Theorem C43_adasyn : forall dist vol nn p r D mn mj X' y',
  knn_ok dist nn -> rng_ok r -> wf_data (d_X D) (d_dim D) (d_y D) ->
  is_minority (d_y D) mn mj -> 1 <= ad_n_neighbors p ->
  adasyn_sample vol nn p r D = Ok (X', y') ->
  adasyn_spec dist p D mn mj X' y'.
Proof. exact adasyn_cases. Qed.

Theorem C43_total : forall dist vol nn p r D mn mj n,
  knn_ok dist nn -> rng_ok r -> unif_pos r -> wf_data (d_X D) (d_dim D) (d_y D) ->
  is_minority (d_y D) mn mj ->
  asked (adasyn_beta (ad_proportion p) (ad_beta p)) (d_y D) mn mj = Ok n ->
  1 <= ad_n_neighbors p -> 1 <= ss_n_dim (ad_ss p) ->
  ss_sampling (ad_ss p) = SRandom \/ ss_sampling (ad_ss p) = SDeterministic ->
  (ss_within (ad_ss p) = WRandom \/ (ss_within (ad_ss p) = WDeterministic /\ ss_n_dim (ad_ss p) <= 2)) ->
  exists out, adasyn_sample vol nn p r D = Ok out.
Proof. exact adasyn_total. Qed.

(** With [proportion=0] given explicitly the default [beta=1] takes over and
    the classes are balanced. *)
Theorem C43_zero_proportion_refuted : exists a b,
  wf_data (d_X ad_D) (d_dim ad_D) (d_y ad_D) /\ is_minority (d_y ad_D) 1 0 /\
  adasyn_sample (fun _ => 1%Q) ex_nn
      (mk_adasyn 5 (StFloat f_one) (Some (StFloat (f_of_Z 0))) f_0_9 ex_ss) rng0 ad_D
    = Ok (d_X ad_D ++ [[a]; [b]], d_y ad_D ++ [1; 1]%Z).
Proof.
  destruct ad_zero_proportion as (a & b & H). exists a, b.
  split; [apply ad_D_ok|]. split; [apply ad_D_ok|exact H].
Qed.

(** C44. *)
Theorem C44_border1 : forall dist vol nn p r D mn mj X' y',
  knn_ok dist nn -> rng_ok r -> wf_data (d_X D) (d_dim D) (d_y D) ->
  is_minority (d_y D) mn mj ->
  border1_sample vol nn p r D = Ok (X', y') ->
  border1_spec dist p D mn mj X' y'.
Proof. exact border1_cases. Qed.

Theorem C44_border2 : forall dist vol nn p r D mn mj X' y',
  knn_ok dist nn -> rng_ok r -> wf_data (d_X D) (d_dim D) (d_y D) ->
  is_minority (d_y D) mn mj ->
  border2_sample vol nn p r D = Ok (X', y') ->
  border2_spec dist p D mn mj X' y'.
Proof. exact border2_cases. Qed.

Theorem C44_border1_total : forall dist vol nn p r D mn mj n,
  knn_ok dist nn -> rng_ok r -> unif_pos r -> wf_data (d_X D) (d_dim D) (d_y D) ->
  is_minority (d_y D) mn mj -> asked (bo_proportion p) (d_y D) mn mj = Ok n ->
  1 <= bo_k_neighbors p -> 1 <= ss_n_dim (bo_ss p) ->
  ss_sampling (bo_ss p) = SRandom \/ ss_sampling (bo_ss p) = SDeterministic ->
  (ss_within (bo_ss p) = WRandom \/ (ss_within (bo_ss p) = WDeterministic /\ ss_n_dim (bo_ss p) <= 2)) ->
  exists out, border1_sample vol nn p r D = Ok out.
Proof. exact border1_total. Qed.

Theorem C44_border2_total : forall dist vol nn p r D mn mj n,
  knn_ok dist nn -> rng_ok r -> unif_pos r -> wf_data (d_X D) (d_dim D) (d_y D) ->
  is_minority (d_y D) mn mj -> asked (bo_proportion p) (d_y D) mn mj = Ok n ->
  1 <= bo_k_neighbors p -> 1 <= ss_n_dim (bo_ss p) ->
  ss_sampling (bo_ss p) = SRandom \/ ss_sampling (bo_ss p) = SDeterministic ->
  (ss_within (bo_ss p) = WRandom \/ (ss_within (bo_ss p) = WDeterministic /\ ss_n_dim (bo_ss p) <= 2)) ->
  exists out, border2_sample vol nn p r D = Ok out.
Proof. exact border2_total. Qed.

(** The nearest minority neighbour of the only row in danger is [[20; 0]], and
    two neighbours may be used; still no draw moves a sample toward it. *)
Theorem C44_nearest_refuted : exists near,
  wf_data (d_X bo_D) (d_dim bo_D) (d_y bo_D) /\ is_minority (d_y bo_D) 1 0 /\
  bo_k_neighbors bo_p = 2 /\
  near = [20; 0]%Q /\ In near (rows_with 1 (d_X bo_D) (d_y bo_D)) /\
  (forall z, In z (rows_with 1 (d_X bo_D) (d_y bo_D)) -> z <> [0; 0]%Q ->
     (sqdist [0; 0] near <= sqdist [0; 0] z)%Q) /\
  (exists X' y', border1_sample (fun _ => 1%Q) ex_nn bo_p rng0 bo_D = Ok (X', y')) /\
  (forall vol r X' y', rng_ok r -> border1_sample vol ex_nn bo_p r bo_D = Ok (X', y') ->
     exists S, X' = d_X bo_D ++ S /\ length S = 2 /\ forall x, In x S -> (nth 0 x 0 == 0)%Q).
Proof.
  exists [20; 0]%Q. split; [apply bo_D_ok|]. split; [apply bo_D_ok|]. split; [reflexivity|]. split; [reflexivity|].
  split; [cbn; tauto|]. split; [|split; [|exact bo_never_nearest]].
  - intros z Hz Hne. cbn in Hz. repeat (destruct Hz as [<-|Hz]; [try (now contradict Hne); vm_compute; discriminate|]).
    destruct Hz.
  - eexists. eexists. vm_compute. reflexivity.
Qed.

(** With one neighbour asked for, every new sample is a copy of a row. *)
Theorem C44_duplicates : forall dist vol nn p r D mn mj X' y',
  knn_ok dist nn -> rng_ok r -> wf_data (d_X D) (d_dim D) (d_y D) ->
  is_minority (d_y D) mn mj -> bo_k_neighbors p = 1 -> ss_gauss (bo_ss p) = GNone ->
  border1_sample vol nn p r D = Ok (X', y') ->
  exists S, X' = d_X D ++ S /\
    forall x, In x S -> exists b, In b (rows_with mn (d_X D) (d_y D)) /\
      forall j, j < d_dim D -> (nth j x 0 == nth j b 0)%Q.
Proof. exact border1_duplicates. Qed.

(** Swapping the two label values changes which rows are in danger. *)
Theorem C44_tie_refuted : exists X X_min,
  determine_danger_remove_noise ex_nn X [1;1;1;0;0;0;0;0;0]%Z X_min 2 0 = Ok (X_min, [[0]]%Q) /\
  determine_danger_remove_noise ex_nn X [0;0;0;1;1;1;1;1;1]%Z X_min 2 1 = Ok (X_min, []).
Proof. exists tie_X, (firstn 3 tie_X). exact (conj tie_low tie_high). Qed.

Example C43_C44_hypotheses :
  knn_ok sqdist ex_nn /\ rng_ok rng0 /\ unif_pos rng0 /\
  asked (StFloat f_one) (d_y bo_D) 1 0 = Ok 2%Z /\
  asked (StFloat f_one) (d_y ad_D) 1 0 = Ok 2%Z /\
  (exists S, border2_sample (fun _ => 1%Q) ex_nn bo_p rng0 bo_D = Ok (d_X bo_D ++ S, d_y bo_D ++ [1;1]%Z)).
Proof.
  split; [apply ex_nn_ok|]. split; [apply rng0_ok|]. split; [apply rng0_unif_pos|].
  split; [vm_compute; reflexivity|]. split; [vm_compute; reflexivity|].
  eexists. vm_compute. reflexivity.
Qed.

Print Assumptions C43_adasyn.
Print Assumptions C43_total.
Print Assumptions C43_zero_proportion_refuted.
Print Assumptions C44_border1.
Print Assumptions C44_border2.
Print Assumptions C44_border1_total.
Print Assumptions C44_border2_total.
Print Assumptions C44_nearest_refuted.
Print Assumptions C44_duplicates.
Print Assumptions C44_tie_refuted.
