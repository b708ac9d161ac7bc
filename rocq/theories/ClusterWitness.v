(** Concrete data for C45 and C54. *)

From Coq Require Import List ZArith QArith Bool Arith Lia Lqa.
From Verif Require Import Np NpFacts SimplexModel Spec SimplexFacts SimplexGeom Float64
  SamplerModel SamplerFacts OversFacts BaseModel DangerModel ClusterModel ClusterFacts ClusterOversModel
  OversGen ClusterOversFacts Witness DangerWitness.
Import ListNotations.
Open Scope nat_scope.

Definition cl_D : dataset := mk_data
  [[0;0];[1;0];[10;0];[11;0];[0;1];[1;1];[10;1];[11;1];[5;5];[6;6];[7;5]]%Q 2
  [1;1;1;1;0;0;0;0;0;0;0]%Z.
Lemma cl_D_ok : wf_data (d_X cl_D) (d_dim cl_D) (d_y cl_D) /\ is_minority (d_y cl_D) 1 0.
Proof.
  split; [split; [repeat constructor|reflexivity]|].
  repeat split; cbn; try lia; tauto || (intros; lia).
Qed.

Lemma sqdist_sym a b : (sqdist a b == sqdist b a)%Q.
Proof.
  unfold sqdist. revert b. induction a as [|x a IH]; intros [|y b]; cbn; try reflexivity. rewrite IH. ring.
Qed.
Lemma sqdist_nonneg a b : (0 <= sqdist a b)%Q.
Proof.
  unfold sqdist. revert b. induction a as [|x a IH]; intros [|y b]; cbn; try discriminate. specialize (IH b).
  assert (0 <= (x - y) * (x - y))%Q by (destruct (Qlt_le_dec (x - y) 0); nra). lra.
Qed.

Definition rs0 : nat -> rng := fun _ => rng0.
Lemma rs0_ok : rngs_ok rs0. Proof. intros i. exact rng0_ok. Qed.
Lemma rs0_pos : rngs_pos rs0. Proof. intros i. exact rng0_unif_pos. Qed.

Definition pick0 (it : nat) (l : list nat) : nat := hd 0 l.
Lemma pick0_ok : pick_ok pick0.
Proof. intros it [|x l] H; [congruence|now left]. Qed.

Definition cb_p := mk_cbso (StFloat f_one) 3 (3 # 2) ex_ss.
Definition cu_p := mk_cure (StFloat f_one) 2 1 ex_ss.
Definition cu_p1 := mk_cure (StFloat f_one) 1 1 ex_ss.
Definition as_p := mk_assembled (StFloat f_one) 3 2 ex_ss.
Definition su_p := mk_suwo (StFloat f_one) 3 2 (1 # 2) ex_ss.

(** A row without any neighbour of its class is dropped by A_SUWO. *)
Definition su_D : dataset := mk_data
  [[0;0];[1;0];[0;1];[1;1];[20;20];
   [20;21];[21;20];[21;21];[22;20];[20;22];[23;23];[24;24]]%Q 2
  [1;1;1;1;1;0;0;0;0;0;0;0]%Z.
Lemma su_D_ok : wf_data (d_X su_D) (d_dim su_D) (d_y su_D) /\ is_minority (d_y su_D) 1 0.
Proof.
  split; [split; [repeat constructor|reflexivity]|].
  repeat split; cbn; try lia; tauto || (intros; lia).
Qed.
Definition agg0 (X : list row) (k : nat) : res (list nat) := Ok (map (fun i => i mod k) (seq 0 (length X))).
Definition lda0 (V : list row) : res Q := Ok (1 # 2)%Q.

(** The search of scikit-learn refuses more neighbours than rows. *)
Lemma cbso_small dist vol nn p rs D mn mj n :
  (forall Xf Xq k, length Xf < k -> nn Xf Xq k = Err ValueError) ->
  is_minority (d_y D) mn mj -> 2 < count_label (d_y D) mn ->
  asked (cb_proportion p) (d_y D) mn mj = Ok n -> (0 < n)%Z ->
  length (d_X D) < cb_n_neighbors p + 1 ->
  cbso_sample vol dist nn p rs D = Err ValueError.
Proof.
  intros Hnn Hmin Hc Hask Hn Hl. unfold cbso_sample.
  destruct (sample_default (cbso_algorithm vol dist nn p rs) D mn mj Hmin) as (st & Hst & E). rewrite E.
  destruct (Nat.leb_spec (count_label (d_y D) mn) 2); [lia|].
  unfold cbso_algorithm. rewrite (det_st_asked _ _ _ _ _ (proj1 Hmin) Hst), Hask. cbn [bind].
  destruct (Nat.eqb_spec (Z.to_nat n) 0); [lia|]. cbv zeta. rewrite Hnn by assumption. reflexivity.
Qed.

Definition ex_nn_strict (Xf Xq : list (list Q)) (k : nat) : res (list (list nat)) :=
  if (length Xf <? k)%nat then Err ValueError else ex_nn Xf Xq k.
Lemma ex_nn_strict_ok : knn_ok sqdist ex_nn_strict.
Proof.
  intros Xf Xq k H. unfold ex_nn_strict. destruct (Nat.ltb_spec (length Xf) k); [lia|]. now apply ex_nn_ok.
Qed.
