(** Concrete data for C69 to C76. *)

From Coq Require Import List ZArith QArith Bool Arith Lia Lqa.
From Verif Require Import Np NpFacts SimplexModel Spec SpecNoise SpecComp SimplexFacts SimplexGeom Float64
  SamplerModel SamplerFacts OversFacts OversGen BaseModel NoiseModel KnnModel KnnFacts DangerModel ClusterOversModel
  ClusterOversFacts CompModel CompFacts EditModel SpecEdit NearModel SpecNear
  Witness DangerWitness ClusterWitness CompWitness EditWitness.
Import ListNotations.
Open Scope nat_scope.

Definition one := StFloat f_one.
Definition ne1 := mk_near one 5 ex_ss.
Definition ne_k (k : nat) := mk_near one k ex_ss.
Definition ne_dim (d : nat) := mk_near one 5 (mk_ss d SRandom WRandom GNone).
Definition ne_sigma := mk_near one 5 (mk_ss 2 SRandom WRandom (GSigma 1)).

(** Stand-ins for the standard deviation, the bandwidth, the radius search, the
    propensity scores and the ensemble. *)
Definition sd1 (c : list Q) : Q := 1%Q.
Definition h1 (n d : nat) : Q := 1%Q.
Definition rad0 (Xf Xq : list row) (r : Q) : list (list nat) := map (fun _ => []) Xq.
Lemma rad0_ok : radius_ok rad0.
Proof. intros Xf Xq r. apply map_length. Qed.
Definition prop0 (X : list row) (y : list Z) : list Q := map (fun _ => 0%Q) X.
Lemma prop0_ok X y : length (prop0 X y) = length X.
Proof. apply map_length. Qed.
Definition ens0 (X : list row) (y : list Z) : list (list Z) := [map (fun _ => 0%Z) y].

(** The last minority row has only majority rows around it; it is the nearest row
    of the first one. *)
Definition nr_D : dataset := mk_data
  [[0];[-1];[-2];[1#2];[3#5];[7#10];[4#5];[100];[101];[102]]%Q 1 [1;1;1;1;0;0;0;0;0;0]%Z.
Lemma nr_D_ok : wf_data (d_X nr_D) (d_dim nr_D) (d_y nr_D) /\ is_minority (d_y nr_D) 1 0.
Proof. data_ok. Qed.

(** [en_D] with the majority elsewhere. *)
Definition en_D' : dataset := mk_data
  [[0];[1];[2];[3];[-50];[10];[20];[30];[40];[50]]%Q 1 [1;1;1;1;0;0;0;0;0;0]%Z.

Lemma ex_ss_plain : plain_ss ex_ss.
Proof. repeat split; cbn; auto. Qed.
