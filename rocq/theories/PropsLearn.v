(** Properties C142 to C145: the learning of metric tensors. *)

From Coq Require Import String List ZArith QArith Reals Bool Arith Lia Lra.
From Verif Require Import Np Spec TensorModel SpecTensor LearnModel SpecLearn LearnFacts LearnFacts2 TensorWitness.
Import ListNotations.
Open Scope nat_scope.

(** C142: the dissimilarity of two rows is the share of the trees in which they
    reach different leaves. *)
Theorem C142_dissimilarity_matrix : forall F (leaves : F -> row -> list nat) self f t X,
  fo_classifier F self = Some f -> (forall x, length (leaves f x) = t) -> X <> [] ->
  exists D, dissimilarity_matrix F leaves self X = (Ok D, mk_forest F (Some f) (Some (map (leaves f) X))) /\
    length D = length X /\
    forall i, i < length X -> length (nth i D []) = length X /\
      forall j, j < length X -> (nth j (nth i D []) 0 == inject_Z (Z.of_nat (differing (leaves f (nth i X [])) (leaves f (nth j X [])))) / inject_Z (Z.of_nat t))%Q.
Proof. exact dissimilarity_ok. Qed.

(** Such a share is a distance between the lists of leaves, between 0 and 1. *)
Theorem C142_metric : forall t a b c, 0 < t -> length a = t -> length b = t -> length c = t ->
  let share a b := (inject_Z (Z.of_nat (differing a b)) / inject_Z (Z.of_nat t))%Q in
  (0 <= share a b)%Q /\ (share a b <= 1)%Q /\ ((share a b == 0)%Q <-> a = b) /\ (share a b == share b a)%Q /\
  (share a c <= share a b + share b c)%Q.
Proof. exact share_metric. Qed.

(** transform_kneighbors compares rows with the rows of the last
    dissimilarity_matrix, whose leaves were stored. *)
Theorem C142_transform_kneighbors : forall F (leaves : F -> row -> list nat) self f t Z X,
  fo_classifier F self = Some f -> (forall x, length (leaves f x) = t) -> X <> [] ->
  forall nodes, fo_nodes F self = Some nodes -> nodes = Z -> Z <> [] -> (forall a, In a Z -> length a = t) ->
  exists D, transform_kneighbors F leaves self X = Ok D /\ length D = length X /\
    forall i, i < length X -> length (nth i D []) = length Z /\
      forall j, j < length Z -> (nth j (nth i D []) 0 == inject_Z (Z.of_nat (differing (leaves f (nth i X [])) (nth j Z []))) / inject_Z (Z.of_nat t))%Q.
Proof. exact transform_ok. Qed.

(** After fit alone it fails. *)
Theorem C142_fit_only : forall F (leaves : F -> row -> list nat) f t X, (forall x, length (leaves f x) = t) -> X <> [] -> t <> 1 ->
  transform_kneighbors F leaves (forest_fit F (forest_new F) f) X = Err ValueError.
Proof. exact transform_fresh. Qed.

(** fit keeps the leaves stored for the previous classifier, so after a second
    fit a row differs from itself. *)
Theorem C142_refit_refuted :
  ~ forall (F : Type) (leaves : F -> row -> list nat) (f1 f2 : F) (x : row),
      (forall f x, length (leaves f x) = 2) ->
      forall D self, dissimilarity_matrix F leaves (forest_fit F (forest_new F) f1) [x] = (Ok D, self) ->
      forall E, transform_kneighbors F leaves (forest_fit F self f2) [x] = Ok E -> (nth 0 (nth 0 E []) 0 == 0)%Q.
Proof.
  intros H. specialize (H nat leaves_example 0 1 [0%Q] (fun _ _ => eq_refl) _ _ eq_refl _ eq_refl). vm_compute in H. discriminate.
Qed.

(** Rows 0, 1 and 2: the last one reaches another leaf in one of the two trees. *)
Example C142_example :
  let self := forest_fit nat (forest_new nat) 0 in
  (forall x, length (leaves_example 0 x) = 2) /\
  exists D s, dissimilarity_matrix nat leaves_example self [[0]; [1]; [2]]%Q = (Ok D, s) /\
    map (map Qred) D = [[0; 0; 1 # 2]; [0; 0; 1 # 2]; [1 # 2; 1 # 2; 0]]%Q /\
    exists E, transform_kneighbors nat leaves_example s [[5]]%Q = Ok E /\ map (map Qred) E = [[1 # 2; 1 # 2; 0]]%Q.
Proof.
  cbv zeta. split; [reflexivity|]. eexists. eexists. split; [reflexivity|]. split; [vm_compute; reflexivity|].
  eexists. split; [reflexivity|]. vm_compute. reflexivity.
Qed.

Open Scope string_scope.

(** C143: the learners get each different row once with the label of its first
    occurrence.  "ITML_mi" and "gmean" train NCA, not ITML, and "gmean" averages a
    tensor with itself. *)
Theorem C143_learners : forall M itml lsml nca rf inverse_cov mutual diag matmul eye psd_mean old X y, List.length X = List.length y ->
  let tensor m := tensor M itml lsml nca rf inverse_cov mutual diag matmul eye psd_mean (Some m) old X y in
  exists X' y', deduplicated X y X' y' /\
  tensor "ITML" = (do T <- itml "identity" X' y'; Ok (Some T)) /\
  tensor "LSML" = (do T <- lsml X' y'; Ok (Some T)) /\
  tensor "NCA" = (do T <- nca X' y'; Ok (Some T)) /\
  tensor "ITML_mi" = (do T <- nca X' y'; do w <- mutual X y; Ok (Some (matmul T (diag w)))) /\
  tensor "gmean" = (do T <- nca X' y'; Ok (Some (psd_mean [T; T]))).
Proof. exact trained. Qed.

(** The forest, the covariance and the mutual information use all rows. *)
Theorem C143_all_rows : forall M itml lsml nca rf inverse_cov mutual diag matmul eye psd_mean old X y,
  let tensor m := tensor M itml lsml nca rf inverse_cov mutual diag matmul eye psd_mean (Some m) old X y in
  tensor "rf" = (do T <- rf X y; Ok (Some T)) /\
  tensor "cov" = (do T <- inverse_cov X; Ok (Some T)) /\
  tensor "MI_weighted" = (do w <- mutual X y; Ok (Some (diag w))).
Proof. exact whole. Qed.

Theorem C143_identity : forall M itml lsml nca rf inverse_cov mutual diag matmul eye psd_mean old X y dim,
  wf_data X dim y -> X <> [] ->
  tensor M itml lsml nca rf inverse_cov mutual diag matmul eye psd_mean (Some "id") old X y = Ok (Some (eye dim)).
Proof. exact identity_tensor. Qed.

(** "cov_min" uses the rows labelled 1. *)
Theorem C143_cov_min : forall M itml lsml nca rf inverse_cov mutual diag matmul eye psd_mean old X y, List.length X = List.length y ->
  tensor M itml lsml nca rf inverse_cov mutual diag matmul eye psd_mean (Some "cov_min") old X y =
    (do T <- inverse_cov (map fst (filter (fun p => (snd p =? 1)%Z) (combine X y))); Ok (Some T)).
Proof. exact labelled_one. Qed.

(** They need not be the rows of the smaller class. *)
Theorem C143_cov_min_refuted :
  ~ forall M itml lsml nca rf inverse_cov mutual diag matmul eye psd_mean old X y l, List.length X = List.length y ->
      (forall l', In l' y -> count_occ Z.eq_dec y l <= count_occ Z.eq_dec y l') ->
      tensor M itml lsml nca rf inverse_cov mutual diag matmul eye psd_mean (Some "cov_min") old X y =
        (do T <- inverse_cov (map fst (filter (fun p => (snd p =? l)%Z) (combine X y))); Ok (Some T)).
Proof.
  intros H.
  specialize (H (list row) (fun _ X _ => Ok X) (fun X _ => Ok X) (fun X _ => Ok X) (fun X _ => Ok X) (fun X => Ok X) (fun _ _ => Ok []) (fun _ => [])
    (fun A _ => A) (fun _ => []) (fun _ => []) None [[0%Q]; [1%Q]; [2%Q]] [0; 1; 1]%Z 0%Z eq_refl).
  assert (K : forall l', In l' [0; 1; 1]%Z -> count_occ Z.eq_dec [0; 1; 1]%Z 0%Z <= count_occ Z.eq_dec [0; 1; 1]%Z l')
    by (intros l' [<-|[<-|[<-|[]]]]; vm_compute; repeat constructor).
  specialize (H K). vm_compute in H. discriminate.
Qed.

(** Any other method leaves the tensor of the object as it was. *)
Theorem C143_unknown : forall M itml lsml nca rf inverse_cov mutual diag matmul eye psd_mean method old X y,
  ~ In method (map (@Some string) ["ITML"; "rf"; "LSML"; "cov"; "cov_min"; "MI_weighted"; "id"; "ITML_mi"; "NCA"; "gmean"]) ->
  tensor M itml lsml nca rf inverse_cov mutual diag matmul eye psd_mean method old X y = Ok old.
Proof. exact unknown. Qed.

(** The tensor of "ITML_mi" need not be symmetric or positive, even if the learner
    returns a positive definite one and the weights are not negative. *)
Theorem C143_itml_mi_refuted :
  ~ forall itml lsml nca rf inverse_cov mutual psd_mean old X y T w T',
      nca (fst (unique_rows X y)) (snd (unique_rows X y)) = Ok T -> mutual X y = Ok w -> List.length w = 2 ->
      symmetric 2 T -> (forall x, (0 < square 2 x -> 0 < form 2 T x)%R) -> (forall q, In q w -> (0 <= q)%Q) ->
      tensor rmat itml lsml nca rf inverse_cov mutual weights (product 2) (fun _ => identity) psd_mean (Some "ITML_mi") old X y = Ok (Some T') ->
      symmetric 2 T' \/ (forall x, (0 <= form 2 T' x)%R).
Proof.
  intros H. destruct corr_product as (P1 & P2).
  specialize (H (fun _ => one_of T_corr) (one_of T_corr) (one_of T_corr) (one_of T_corr) (fun _ => Ok T_corr) (fun _ _ => Ok [2; 0]%Q) (fun _ => T_corr)
    None [[0; 0]; [1; 0]]%Q [0; 1]%Z T_corr [2; 0]%Q (product 2 T_corr (weights [2; 0]%Q)) eq_refl eq_refl eq_refl).
  assert (S : symmetric 2 T_corr) by (intros i j Hi Hj; unfold T_corr; now rewrite Nat.eqb_sym).
  specialize (H S corr_positive ltac:(intros q [<-|[<-|[]]]; vm_compute; discriminate) eq_refl).
  destruct H as [H|H].
  - apply P1. now apply H; repeat constructor.
  - specialize (H (fun k => if Nat.eqb k 0 then 1 else -2)%R). exact (Rlt_not_le _ _ P2 H).
Qed.

(** Four rows, two of them equal: the label of the first of those is used. *)
Example C143_example :
  tensor (list row * list Z) (fun _ X y => Ok (X, y)) (fun X y => Ok (X, y)) (fun X y => Ok (X, y)) (fun X y => Ok (X, y)) (fun X => Ok (X, [])) (fun _ _ => Ok [])
    (fun _ => ([], [])) (fun A _ => A) (fun _ => ([], [])) (fun _ => ([], [])) (Some "LSML") None
    [[2; 1]; [0; 5]; [2; 1]; [2; 0]]%Q [1; 0; 0; 0]%Z = Ok (Some ([[0; 5]; [2; 0]; [2; 1]]%Q, [0; 0; 1]%Z)).
Proof. vm_compute. reflexivity. Qed.

(** C144: a column counts as discrete if it has at most 5 (the threshold) values. *)
Theorem C144_discrete_variable_mask : forall dim n X, List.length (discrete_variable_mask dim n X) = dim /\
  forall j, j < dim -> (nth j (discrete_variable_mask dim n X) false = true <-> few_values n (map (fun x => nth j x 0%Q) X)).
Proof. exact mask_ok. Qed.

(** Without normalisation the mean of the repetitions is returned. *)
Theorem C144_not_normalized : forall mi reps dim X, exists w, estimate_mutual_information mi false reps dim X = Some w /\ List.length w = dim /\
  forall j, j < dim -> (nth j w 0 == total reps (fun s => nth j (mi (discrete_variable_mask dim 5 X) s) 0%Q) / inject_Z (Z.of_nat reps))%Q.
Proof. exact estimate_plain. Qed.

(** With it, the weights are not negative, sum to the number of columns, and are
    proportional to the means; nan if no column has any information. *)
Theorem C144_normalized : forall mi reps dim X,
  let mask := discrete_variable_mask dim 5 X in
  let average j := (total reps (fun s => nth j (mi mask s) 0%Q) / inject_Z (Z.of_nat reps))%Q in
  (forall s j, s < reps -> (0 <= nth j (mi mask s) 0)%Q) -> 0 < reps ->
  (estimate_mutual_information mi true reps dim X = None <-> forall s j, s < reps -> j < dim -> (nth j (mi mask s) 0 == 0)%Q) /\
  forall w, estimate_mutual_information mi true reps dim X = Some w ->
    List.length w = dim /\ (forall j, j < dim -> (0 <= nth j w 0)%Q) /\ (total dim (fun j => nth j w 0%Q) == inject_Z (Z.of_nat dim))%Q /\
    (forall j k, j < dim -> k < dim -> (nth j w 0 * average k == nth k w 0 * average j)%Q) /\
    (forall j k, j < dim -> k < dim -> ((nth j w 0 <= nth k w 0)%Q <-> (average j <= average k)%Q)).
Proof. exact estimate_normalized. Qed.

Example C144_example :
  discrete_variable_mask 2 5 [[0; 1]; [0; 2]; [1; 3]; [1; 4]; [0; 5]; [2 # 2; 6]]%Q = [true; false] /\
  option_map (map Qred) (estimate_mutual_information (fun mask s => match mask with [true; false] => [1; inject_Z (Z.of_nat s)] | _ => [] end)%Q true 3 2
    [[0; 1]; [0; 2]; [1; 3]; [1; 4]; [0; 5]; [2 # 2; 6]]%Q) = Some [1; 1]%Q /\
  estimate_mutual_information (fun _ _ => [0; 0]%Q) true 3 2 [[0; 1]]%Q = None.
Proof. vm_compute. repeat split; reflexivity. Qed.

(** C145: a tensor in nn_params is used. *)
Theorem C145_given : forall M itml lsml nca rf inverse_cov mutual diag matmul eye psd_mean d T X y,
  NoDup (map fst d) -> In ("metric_tensor", NTensor T) d ->
  metric_tensor_from_nn_params M itml lsml nca rf inverse_cov mutual diag matmul eye psd_mean d X y = Ok (NTensor T).
Proof. exact params_given. Qed.

(** Otherwise one is learned if the metric is precomputed, by the method at the
    key metric_learning_method, *)
Theorem C145_learned : forall M itml lsml nca rf inverse_cov mutual diag matmul eye psd_mean d m X y,
  NoDup (map fst d) -> In ("metric", NStr "precomputed") d -> In ("metric_learning_method", NStr m) d ->
  ~ In "metric_tensor" (map fst d) \/ In ("metric_tensor", NNone) d ->
  metric_tensor_from_nn_params M itml lsml nca rf inverse_cov mutual diag matmul eye psd_mean d X y =
    (do T <- tensor M itml lsml nca rf inverse_cov mutual diag matmul eye psd_mean (Some m) None X y;
     Ok (match T with Some T => NTensor T | None => NNone end)).
Proof. exact params_learned. Qed.

(** and none without that key or with another metric. *)
Theorem C145_none : forall M itml lsml nca rf inverse_cov mutual diag matmul eye psd_mean d X y,
  NoDup (map fst d) -> ~ In "metric_tensor" (map fst d) ->
  ~ In ("metric", NStr "precomputed") d \/ ~ In "metric_learning_method" (map fst d) ->
  metric_tensor_from_nn_params M itml lsml nca rf inverse_cov mutual diag matmul eye psd_mean d X y = Ok NNone.
Proof. exact params_none. Qed.

(** The docstrings of the oversamplers name the key metric_learning instead: no
    tensor is learned for the parameters they document. *)
Theorem C145_documented_refuted :
  ~ forall M itml lsml nca rf inverse_cov mutual diag matmul eye psd_mean m X y,
      metric_tensor_from_nn_params M itml lsml nca rf inverse_cov mutual diag matmul eye psd_mean
        [("metric", NStr "precomputed"); ("metric_learning", NStr m)] X y =
      (do T <- tensor M itml lsml nca rf inverse_cov mutual diag matmul eye psd_mean (Some m) None X y;
       Ok (match T with Some T => NTensor T | None => NNone end)).
Proof.
  intros H. specialize (H unit (fun _ _ _ => Ok tt) (fun _ _ => Ok tt) (fun _ _ => Ok tt) (fun _ _ => Ok tt) (fun _ => Ok tt) (fun _ _ => Ok [])
    (fun _ => tt) (fun _ _ => tt) (fun _ => tt) (fun _ => tt) "ITML" [[0]; [1]]%Q [0; 1]%Z). vm_compute in H. discriminate.
Qed.

Example C145_example : forall T : nat,
  metric_tensor_from_nn_params nat (fun _ _ _ => Ok T) (fun _ _ => Err ValueError) (fun _ _ => Err ValueError) (fun _ _ => Err ValueError) (fun _ => Err ValueError)
    (fun _ _ => Err ValueError) (fun _ => 0) Nat.mul (fun n => n) (fun _ => 0)
    [("metric", NStr "precomputed"); ("metric_learning_method", NStr "ITML")] [[0%Q]] [0%Z] = Ok (NTensor T).
Proof. reflexivity. Qed.

Print Assumptions C142_dissimilarity_matrix.
Print Assumptions C142_metric.
Print Assumptions C142_transform_kneighbors.
Print Assumptions C142_fit_only.
Print Assumptions C142_refit_refuted.
Print Assumptions C143_learners.
Print Assumptions C143_all_rows.
Print Assumptions C143_identity.
Print Assumptions C143_cov_min.
Print Assumptions C143_cov_min_refuted.
Print Assumptions C143_unknown.
Print Assumptions C143_itml_mi_refuted.
Print Assumptions C144_discrete_variable_mask.
Print Assumptions C144_not_normalized.
Print Assumptions C144_normalized.
Print Assumptions C145_given.
Print Assumptions C145_learned.
Print Assumptions C145_none.
Print Assumptions C145_documented_refuted.
