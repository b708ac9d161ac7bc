(** Properties of the test SOI_CJ merges clusters by. *)

From Coq Require Import List ZArith QArith Bool Arith.
From Verif Require Import Np DistModel BallModel SpecBall BallFacts.
Import ListNotations.
Open Scope nat_scope.

(** Without a tensor two clusters are merged exactly if minority rows outnumber the
    others in the ball whose diameter joins a farthest pair; the pair lies in the ball. *)
Theorem C151_ball : forall c pre X y mn A B, two_clusters c X A B -> length y = length X ->
  exists i j ks b, farthest_pair X A B i j /\ ball c pre None X A B = Ok ks /\ NoDup ks /\ (forall k, In k ks <-> in_ball X i j k) /\ In i ks /\ In j ks /\
    ball_test c pre None X y mn A B = Ok b /\ (b = true <-> without_label y mn ks < with_label y mn ks).
Proof. exact ball_euclid. Qed.

(** With a tensor the test does not fail. *)
Theorem C151_tensor : forall c pre T X y mn A B, semidefinite c T -> two_clusters c X A B -> length y = length X ->
  exists b, ball_test c pre (Some T) X y mn A B = Ok b.
Proof. exact ball_tensor. Qed.

(** With a tensor the radius is Euclidean but the rows are searched with the tensor:
    the ball can be empty, so that overlapping clusters are not merged although there
    are only minority rows. *)
Theorem C151_merges_refuted : ~ (forall c T X y mn A B b, semidefinite c T -> two_clusters c X A B -> length y = length X -> (forall l, In l y -> l = mn) ->
  ball_test c true (Some T) X y mn A B = Ok b -> b = true).
Proof. exact merges_refuted. Qed.

(** The ball does not cover the two clusters. *)
Theorem C151_covers_refuted : ~ (forall c X A B ks k, two_clusters c X A B -> (exists m, In m A /\ In m B) ->
  ball c false None X A B = Ok ks -> In k (A ++ B) -> In k ks).
Proof. exact covers_refuted. Qed.

Example C151_case : two_clusters 1 (line [0; 2; 1]%Q) [0; 2] [1; 2] /\ ball_test 1 false None (line [0; 2; 1]%Q) [1; 1; 0]%Z 1 [0; 2] [1; 2] = Ok true.
Proof. split; [exact clusters_two|vm_compute; reflexivity]. Qed.
Example C151_case_tensor : semidefinite 1 stretch.
Proof. exact stretch_ok. Qed.

Print Assumptions C151_ball.
Print Assumptions C151_tensor.
Print Assumptions C151_merges_refuted.
Print Assumptions C151_covers_refuted.
