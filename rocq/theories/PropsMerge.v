(** C153: the end of SOI_CJ's merging of clusters. *)

From Coq Require Import List ZArith QArith Bool Arith Lia.
From Verif Require Import Np Spec BaseModel SamplerModel KnnModel GraphModel SpecGraph MergeFacts Witness DangerWitness GraphWitness.
Import ListNotations.
Open Scope nat_scope.

(** If the minority never prevails, every round with an intersection removes a row
    from some cluster: there are at most one more rounds than rows in the clusters. *)
Theorem C153_never : forall prevail, (forall a b, prevail a b = false) ->
  forall fuel s, list_sum (map (@length nat) (objs s)) < fuel -> exists clusters, soi_merge prevail fuel s = Ok clusters.
Proof. exact never_ends. Qed.

(** If the minority always prevails, every round with an intersection shortens the
    list of clusters. *)
Theorem C153_always : forall prevail, (forall a b, prevail a b = true) ->
  forall fuel s, length (slots s) < fuel -> exists clusters, soi_merge prevail fuel s = Ok clusters.
Proof. exact always_ends. Qed.

(** In both cases the clustering of a data set ends within m * m + 1 rounds, where m is
    the number of minority rows. *)
Theorem C153_clustering : forall dist nn prevail fuel mn X y, knn_ok dist nn -> length X = length y ->
  (forall a b, prevail a b = false) \/ (forall a b, prevail a b = true) -> count_label y mn * count_label y mn < fuel ->
  exists clusters, soi_clustering nn prevail fuel mn X y = Ok clusters /\ soi_clusters dist X y mn clusters.
Proof. exact clustering_ends. Qed.

(** Two intersecting clusters that should be merged: the union is thrown away, the
    second cluster is left as it was. *)
Theorem C153_two : forall prevail fuel a b, (exists x, In x a /\ In x b) -> prevail a b = true ->
  soi_merge prevail (S (S fuel)) (mk_soi_state [a; b] [0; 1] false) = Ok [b].
Proof. exact two_merged. Qed.

(** Three clusters that intersect. *)
Definition three : soi_state := mk_soi_state [[0; 1; 2]; [1; 3]; [2; 4]] [0; 1; 2] false.

(** Merging can leave no cluster at all. *)
Theorem C153_left_refuted : ~ (forall prevail fuel a b c clusters, a <> [] -> b <> [] -> c <> [] -> NoDup a -> NoDup b -> NoDup c ->
  soi_merge prevail fuel (mk_soi_state [a; b; c] [0; 1; 2] false) = Ok clusters -> clusters <> []).
Proof.
  intros H. apply (H (fun _ _ => false) 8 [0; 1; 2] [1; 3] [2; 4] []); [discriminate|discriminate|discriminate| | | |vm_compute; reflexivity|reflexivity];
  repeat constructor; cbn; intuition discriminate.
Qed.

Example C153_case_never : list_sum (map (@length nat) (objs three)) < 8 /\ soi_merge (fun _ _ => false) 8 three = Ok [] /\
  soi_merge (fun _ _ => false) 1 three = Err OutOfFuel.
Proof. split; [cbn; lia|split; vm_compute; reflexivity]. Qed.
Example C153_case_always : length (slots three) < 4 /\ soi_merge (fun _ _ => true) 4 three = Ok [[2; 4]] /\
  soi_merge (fun _ _ => true) 1 three = Err OutOfFuel.
Proof. split; [cbn; lia|split; vm_compute; reflexivity]. Qed.
Example C153_case_clustering : exists clusters, soi_clustering ex_nn always 26 1 (d_X soi_D) (d_y soi_D) = Ok clusters /\ soi_clusters sqdist (d_X soi_D) (d_y soi_D) 1 clusters.
Proof. apply C153_clustering; [exact ex_nn_ok|apply soi_D_ok|right; reflexivity|cbn; lia]. Qed.
Example C153_case_two : soi_merge always 2 (mk_soi_state [[0; 1]; [1; 2]] [0; 1] false) = Ok [[1; 2]].
Proof. apply C153_two; [exists 1; cbn; auto|reflexivity]. Qed.

Print Assumptions C153_never.
Print Assumptions C153_always.
Print Assumptions C153_clustering.
Print Assumptions C153_two.
Print Assumptions C153_left_refuted.
