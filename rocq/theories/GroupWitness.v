(** Concrete data for C82 to C86. *)

From Coq Require Import List ZArith QArith Bool Arith Lia Lqa.
From Verif Require Import Np NpFacts SimplexModel Spec SpecNoise SpecComp SimplexFacts SimplexGeom Float64
  SamplerModel SamplerFacts OversFacts OversGen BaseModel NoiseModel KnnModel KnnFacts DangerModel ClusterOversModel
  ClusterOversFacts CompModel CompFacts SpecNear LevelModel SpecLevel GroupModel SpecGroup
  Witness DangerWitness ClusterWitness CompWitness EditWitness NearWitness LevelWitness.
Import ListNotations.
Open Scope nat_scope.

(** Two neighbouring rows per cluster. *)
Definition km0 (k : nat) (X : list row) : list nat := map (fun i => i / 2) (seq 0 (length X)).
Lemma km0_length k X : length (km0 k X) = length X.
Proof. unfold km0. now rewrite map_length, seq_length. Qed.

Definition gp_k (k c : nat) := mk_group one k c ex_ss.
Definition kp (k c : nat) (t : Q) := mk_kmeans one k c t ex_ss.
Definition cep (h k : nat) (a : Q) := mk_ce one h k a ex_ss.
Definition nrp (k : nat) (w : Q) := mk_nrs one k w ex_ss.

(** Search within a radius by comparing with every row. *)
Definition ex_rad (X : list row) (x : row) (r : Q) : list nat :=
  filter (fun i => Qle_bool (sqdist x (nth i X [])) r) (seq 0 (length X)).
Lemma ex_rad_ok : within_ok sqdist ex_rad.
Proof.
  intros X x r. split; [apply NoDup_filter, seq_NoDup|]. intros i. unfold ex_rad. rewrite filter_In, in_seq, Qle_bool_iff. cbn. split.
  - intros [H1 H2]. split; [lia|assumption].
  - intros [H1 H2]. split; [lia|assumption].
Qed.

Definition half_labels : list nat := [0;1;0;1;0;1;0;1;0;1].
Definition same_partition (l l' : list nat) : Prop :=
  length l = length l' /\ forall i j, i < length l -> j < length l -> (nth i l 0 = nth j l 0 <-> nth i l' 0 = nth j l' 0).

Definition ans_D : dataset := mk_data
  [[0];[1];[2];[3];[4];[3#2];[8#5];[100];[101];[102];[103];[104]]%Q 1 [1;1;1;1;1;0;0;0;0;0;0;0]%Z.
Lemma ans_D_ok : wf_data (d_X ans_D) (d_dim ans_D) (d_y ans_D) /\ is_minority (d_y ans_D) 1 0.
Proof. data_ok. Qed.

(** The minority keeps to itself. *)
Definition sep_D : dataset := mk_data
  [[0];[1];[2];[3];[50];[60];[70];[80];[90];[100]]%Q 1 [1;1;1;1;0;0;0;0;0;0]%Z.
Lemma sep_D_ok : wf_data (d_X sep_D) (d_dim sep_D) (d_y sep_D) /\ is_minority (d_y sep_D) 1 0.
Proof. data_ok. Qed.
Lemma sep_D_sep : forall i, i < 4 -> exists j, j < 4 /\ j <> i /\
  forall z, In z [[50];[60];[70];[80];[90];[100]]%Q -> (sqdist (nth i [[0];[1];[2];[3]]%Q []) (nth j [[0];[1];[2];[3]]%Q []) < sqdist (nth i [[0];[1];[2];[3]]%Q []) z)%Q.
Proof.
  intros i Hi. exists (if i =? 0 then 1 else i - 1). do 4 (destruct i as [|i]; [cbn; split; [lia|]; split; [lia|]; intros z Hz; cbn in Hz;
    repeat (destruct Hz as [<-|Hz]; [reflexivity|]); destruct Hz|]). lia.
Qed.
