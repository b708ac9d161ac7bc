(** Concrete data for C62 to C68. *)

From Coq Require Import List ZArith QArith Bool Arith Lia Lqa.
From Verif Require Import Np NpFacts SimplexModel Spec SpecNoise SpecComp SimplexFacts SimplexGeom Float64
  SamplerModel SamplerFacts OversFacts OversGen BaseModel NoiseModel KnnModel KnnFacts DangerModel ClusterOversModel
  ClusterOversFacts CompModel CompFacts EditModel SpecEdit EditFacts EditFacts2 EditFacts3 EditFacts4 EditFacts5
  Witness DangerWitness ClusterWitness CompWitness.
Import ListNotations.
Open Scope nat_scope.

Definition vol1 : list row -> Q := fun _ => 1%Q.
Definition f_half : f64 := f_div f_one (f_of_Z 2).
Definition sm1 := mk_smote (StFloat f_one) 5 ex_ss.
Definition smh := mk_smote (StFloat f_half) 5 ex_ss.
Definition sm2 := mk_smote (StFloat (f_of_Z 2)) 5 ex_ss.

Ltac data_ok := split; [split; [repeat constructor|reflexivity]|]; repeat split; cbn; try lia; tauto || (intros; lia).

(** Each minority row and the new one have a majority row next to them. *)
Definition tk_D : dataset := mk_data
  [[0];[100];[200];[1];[101];[201];[51];[1000]]%Q 1 [1;1;1;0;0;0;0;0]%Z.
Lemma tk_D_ok : wf_data (d_X tk_D) (d_dim tk_D) (d_y tk_D) /\ is_minority (d_y tk_D) 1 0.
Proof. data_ok. Qed.

(** A majority row among the minority rows. *)
Definition en_D : dataset := mk_data
  [[0];[1];[2];[3];[3#2];[100];[101];[102];[103];[104]]%Q 1 [1;1;1;1;0;0;0;0;0;0]%Z.
Lemma en_D_ok : wf_data (d_X en_D) (d_dim en_D) (d_y en_D) /\ is_minority (d_y en_D) 1 0.
Proof. data_ok. Qed.

Definition spy_D : dataset := mk_data
  [[0];[1];[100];[2];[3];[4];[5];[200];[201]]%Q 1 [1;1;1;0;0;0;0;0;0]%Z.
Lemma spy_D_ok : wf_data (d_X spy_D) (d_dim spy_D) (d_y spy_D) /\ is_minority (d_y spy_D) 1 0.
Proof. data_ok. Qed.

Definition st_D : dataset := mk_data
  [[0];[-10];[-16];[-17];[-18];[-19];[-20];[11];[12];[13];[14];[15];[16];[17];[18]]%Q 1
  [1;1;1;1;1;1;1;0;0;0;0;0;0;0;0]%Z.
Lemma st_D_ok : wf_data (d_X st_D) (d_dim st_D) (d_y st_D) /\ is_minority (d_y st_D) 1 0.
Proof. data_ok. Qed.

Definition su_D : dataset := mk_data
  [[-5];[-6];[-7];[0];[1];[10];[11];[30];[60];[100]]%Q 1 [1;1;1;0;0;0;0;0;0;0]%Z.
Lemma su_D_ok : wf_data (d_X su_D) (d_dim su_D) (d_y su_D) /\ is_minority (d_y su_D) 1 0.
Proof. data_ok. Qed.

(** Classifiers that reproduce the labels, that always say 0. *)
Definition perfect (k : nat) (X : list row) (y : list Z) : res (list (list Z)) :=
  match y with [] => Err ValueError | _ => Ok (repeat y k) end.
Definition zeros (k : nat) (X : list row) (y : list Z) : res (list (list Z)) :=
  match y with [] => Err ValueError | _ => Ok (repeat (map (fun _ => 0%Z) y) k) end.
Lemma perfect_ok k : predict_ok (perfect k).
Proof. split; [intros X [|z y]; discriminate|intros ps H; discriminate]. Qed.
Lemma zeros_ok k : predict_ok (zeros k).
Proof. split; [intros X [|z y]; discriminate|intros ps H; discriminate]. Qed.

Definition ipf_p v := mk_ipf sm1 9 3 (1 # 100) v.
Definition sup_p := mk_supervised (StFloat f_one) (4 # 5) 1 ex_ss.
Definition half_proba (x : row) : Q := (1 # 2)%Q.


(** The labels of [en_D] shifted by one. *)
Definition lab_D : dataset := mk_data (d_X en_D) 1 (map (fun z => (z + 1)%Z) (d_y en_D)).
Lemma lab_D_ok : wf_data (d_X lab_D) (d_dim lab_D) (d_y lab_D) /\ is_minority (d_y lab_D) 2 1.
Proof. data_ok. Qed.

Lemma sqdist_self a : (sqdist a a == 0)%Q.
Proof.
  unfold sqdist. induction a as [|q a IH]; [reflexivity|]. cbn. cbn in IH. rewrite IH. ring.
Qed.
