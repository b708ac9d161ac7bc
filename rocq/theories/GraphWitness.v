(** Concrete data for C110 to C114. *)

From Coq Require Import List ZArith QArith Qabs Qround Bool Arith Lia Lqa Permutation.
From Verif Require Import Np PyVal NpFacts SimplexModel Spec SpecNoise SpecComp SimplexFacts SimplexGeom Float64
  SamplerModel SamplerFacts OversFacts OversGen BaseModel NoiseModel KnnModel KnnFacts DangerModel ClusterOversModel
  ClusterOversFacts CompModel CompFacts SpecNear LevelModel SpecLevel SpecGroup WrapModel SpecWrap DirModel SpecDir RegionModel SpecRegion
  SearchModel SpecSearch GraphModel SpecGraph
  Witness DangerWitness ClusterWitness CompWitness EditWitness NearWitness LevelWitness WrapWitness DirWitness RegionWitness SearchWitness.
Import ListNotations.
Open Scope nat_scope.

(** Four nodes, one of them out of reach. *)
Definition four_nodes : graph := [[(1, 1%Q); (2, 5%Q)]; [(2, 1%Q)]; []; [(0, 1%Q)]].
Lemma four_nodes_ok : graph_ok four_nodes.
Proof.
  intros u v w H. unfold edge, four_nodes in H.
  destruct u as [|[|[|[|u]]]]; cbn in H; repeat (destruct H as [H|H]; [injection H as <- <-; cbn; repeat split; lia || (unfold Qle; cbn; lia)|]); try contradiction.
  destruct u; contradiction.
Qed.

(** No scaling. *)
Definition unit_sd (_ : list Q) : Q := 1%Q.

(** One cluster as soon as eps is at least 1. *)
Definition wide (eps : Q) (ms : nat) (X : list row) : list (option nat) := map (fun _ => if Qle_bool 1 eps || (ms =? 1) then Some 0 else None) X.
Lemma wide_ok : dbscan_ok wide.
Proof.
  intros eps ms X. unfold wide. split; [apply map_length|]. split.
  - intros i j H Hj. apply in_map_iff in H. destruct H as (x & E & _). destruct (_ || _); [injection E as <-; lia|discriminate].
  - intros -> H. apply in_map_iff in H. destruct H as (x & E & _). rewrite orb_true_r in E. discriminate.
Qed.

(** The same rows with other labels. *)
Definition lab_D : dataset := mk_data (d_X en_D) 1 [5;5;5;5;7;7;7;7;7;7]%Z.
Lemma lab_D_ok : wf_data (d_X lab_D) (d_dim lab_D) (d_y lab_D) /\ is_minority (d_y lab_D) 5 7.
Proof. data_ok. Qed.
Definition swap_D : dataset := mk_data (d_X en_D) 1 [0;0;0;0;1;1;1;1;1;1]%Z.
Lemma swap_D_ok : wf_data (d_X swap_D) (d_dim swap_D) (d_y swap_D) /\ is_minority (d_y swap_D) 0 1.
Proof. data_ok. Qed.

(** A majority row among the minority. *)
Definition vis_D : dataset := mk_data [[0];[1];[2];[3];[3#2];[100];[101];[102];[103];[104];[105];[106]]%Q 1 [1;1;1;1;0;0;0;0;0;0;0;0]%Z.
Lemma vis_D_ok : wf_data (d_X vis_D) (d_dim vis_D) (d_y vis_D) /\ is_minority (d_y vis_D) 1 0.
Proof. data_ok. Qed.

Definition soi_D : dataset := mk_data [[0];[1];[2];[3];[20];[9];[10];[30];[31];[32];[33];[34]]%Q 1 [1;1;1;1;1;0;0;0;0;0;0;0]%Z.
Lemma soi_D_ok : wf_data (d_X soi_D) (d_dim soi_D) (d_y soi_D) /\ is_minority (d_y soi_D) 1 0.
Proof. data_ok. Qed.
(** The minority far from the majority. *)
Definition apart_D : dataset := mk_data [[0];[1];[2];[50];[60];[70];[80];[90]]%Q 1 [1;1;1;0;0;0;0;0]%Z.
Lemma apart_D_ok : wf_data (d_X apart_D) (d_dim apart_D) (d_y apart_D) /\ is_minority (d_y apart_D) 1 0.
Proof. data_ok. Qed.
Definition lost_D : dataset := mk_data [[1];[8];[14];[38];[15];[9];[34]]%Q 1 [1;1;1;0;0;0;0]%Z.
Lemma lost_D_ok : wf_data (d_X lost_D) (d_dim lost_D) (d_y lost_D) /\ is_minority (d_y lost_D) 1 0.
Proof. data_ok. Qed.
Definition always (_ _ : list nat) : bool := true.
Definition in_order (c : list nat) : list nat := c.
Lemma in_order_ok : listing_ok in_order.
Proof. intros c _. apply Permutation_refl. Qed.

(** Whole distances, to keep the numbers small. *)
Definition step_dist (x y : list Q) : Q := inject_Z (Z.abs (Qfloor (nth 0%nat x 0 - nth 0%nat y 0)%Q)).
Definition step_nn (Xf Xq : list (list Q)) (k : nat) := Ok (n_neighbors_func step_dist Xf Xq k).
Lemma step_nn_ok : knn_ok step_dist step_nn.
Proof. apply n_neighbors_func_knn_ok. Qed.
Lemma step_nonneg x y : (0 <= step_dist x y)%Q.
Proof. unfold step_dist, Qle, inject_Z. cbn. lia. Qed.
Lemma step_self x : (step_dist x x == 0)%Q.
Proof.
  unfold step_dist. assert (E : Qfloor (nth 0%nat x 0%Q - nth 0%nat x 0%Q)%Q = 0%Z); [|rewrite E; reflexivity].
  rewrite (Qfloor_comp _ 0%Q) by ring. reflexivity.
Qed.

Definition even_beta (k _ : nat) : list Q := repeat (1 # Pos.of_nat k)%Q k.
Lemma even_beta_ok : dirichlet_ok even_beta.
Proof. intros k i. split; [apply repeat_length|]. apply Forall_forall. intros x Hx. apply repeat_spec in Hx. subst x. reflexivity. Qed.
Definition sym_D : dataset := mk_data
  [[0];[1];[3];[4];[6];[7];[9];[20];[21];[22];[23];[24];[25];[26];[29];[39]]%Q 1 [1;1;1;1;1;1;1;0;0;0;0;0;0;0;0;0]%Z.
Lemma sym_D_ok : wf_data (d_X sym_D) (d_dim sym_D) (d_y sym_D) /\ is_minority (d_y sym_D) 1 0.
Proof. data_ok. Qed.
(** All minority rows equally close to each other. *)
Definition sym_E : dataset := mk_data
  [[0];[1];[0];[1];[0];[1];[20];[21];[22];[23];[24];[25];[26];[29];[39]]%Q 1 [1;1;1;1;1;1;0;0;0;0;0;0;0;0;0]%Z.
Lemma sym_E_ok : wf_data (d_X sym_E) (d_dim sym_E) (d_y sym_E) /\ is_minority (d_y sym_E) 1 0.
Proof. data_ok. Qed.
