(** Concrete data for C55 to C61. *)

From Coq Require Import List ZArith QArith Bool Arith Lia Lqa.
From Verif Require Import Np NpFacts SimplexModel Spec SpecDanger SpecComp SimplexFacts SimplexGeom Float64
  SamplerModel SamplerFacts OversFacts BaseModel KnnModel KnnFacts DangerModel DangerFacts ClusterOversModel
  ClusterOversFacts CompModel CompFacts CompFacts2 CompFacts3 CompFacts4 Witness DangerWitness ClusterWitness.
Import ListNotations.
Open Scope nat_scope.

Definition cp5 := mk_comp (StFloat f_one) 5.
Definition sel_p (perc : Q) := mk_selected (StFloat f_one) 5 perc.
Definition ndo_p := mk_ndo (StFloat f_one) 2 (1#2) ex_ss.
Definition ndo_draws : nat -> ndo_draw := fun _ => mk_draw 0 0 (1#2) (1#2).
Definition us0 : nat -> nat -> nat -> Q := fun _ _ _ => (1#2)%Q.

(** Mean absolute deviation: a deviation that is computable over Q. *)
Definition mad (l : list Q) : Q :=
  let m := average l in average (map (fun x => if Qle_bool m x then x - m else m - x)%Q l).

Lemma average_nonneg l : Forall (Qle 0) l -> (0 <= average l)%Q.
Proof.
  intros H. unfold average. destruct l as [|a t]; [discriminate|].
  apply Qdiv_nonneg; [now apply qsum_nonneg|]. apply inj_pos. cbn. lia.
Qed.
Lemma mad_nonneg l : (0 <= mad l)%Q.
Proof.
  apply average_nonneg. rewrite Forall_map. apply Forall_forall. intros x _.
  destruct (Qle_bool _ x) eqn:E; [apply Qle_bool_iff in E; lra|].
  destruct (Qlt_le_dec x (average l)); [lra|]. apply Qle_bool_iff in q. congruence.
Qed.

(** Minority rows 0, 1, 2 far apart, each next to a majority row. *)
Definition sf_D : dataset := mk_data
  [[0];[100];[200];[1];[101];[201];[202];[203]]%Q 1 [1;1;1;0;0;0;0;0]%Z.
Lemma sf_D_ok : wf_data (d_X sf_D) (d_dim sf_D) (d_y sf_D) /\ is_minority (d_y sf_D) 1 0.
Proof.
  split; [split; [repeat constructor|reflexivity]|].
  repeat split; cbn; try lia; tauto || (intros; lia).
Qed.

(** The majority covers all of the minority range of attribute 0, half of that
    of attribute 1. *)
Definition se_D : dataset := mk_data
  [[0;0];[1;1];[2;2];[0;1];[1;2];[2;3];[2;4];[2;5]]%Q 2 [1;1;1;0;0;0;0;0]%Z.
Lemma se_D_ok : wf_data (d_X se_D) (d_dim se_D) (d_y se_D) /\ is_minority (d_y se_D) 1 0.
Proof.
  split; [split; [repeat constructor|reflexivity]|].
  repeat split; cbn; try lia; tauto || (intros; lia).
Qed.

Lemma se_fixed j : j < 2 -> (varies 1 (firstn 3 (d_X se_D)) (skipn 3 (d_X se_D)) 2 j <-> j = 0).
Proof.
  intros Hj. destruct (significant_spec 1 2 (firstn 3 (d_X se_D)) (skipn 3 (d_X se_D))) as (sg & E & L & H);
    [discriminate|lia|discriminate|discriminate|].
  assert (E' : significant_attributes 1 2 (firstn 3 (d_X se_D)) (skipn 3 (d_X se_D)) = Ok [1; 0]%Q) by (vm_compute; reflexivity).
  assert (sg = [1; 0]%Q) by congruence. subst sg. specialize (H j Hj). destruct j as [|[|j]]; [| |lia]; cbn [nth] in H; destruct H as [[A B]|[A B]]; try discriminate A; split; auto; try tauto; lia.
Qed.

(** Although all attributes are asked to vary, attribute 1 never does. *)
Lemma se_never rs X' y' : rngs_ok rs -> selected_sample ex_nn (sel_p 1) rs se_D = Ok (X', y') ->
  exists S, X' = d_X se_D ++ S /\ length S = 2 /\
    forall x, In x S -> (nth 1 x 0 == 0 \/ nth 1 x 0 == 1 \/ nth 1 x 0 == 2)%Q.
Proof.
  intros Hrs E. destruct (selected_runs sqdist ex_nn (sel_p 1) rs se_D 1 0 2 ex_nn_ok Hrs (proj1 se_D_ok) (proj2 se_D_ok)) as [_ H];
    [vm_compute; reflexivity|cbn; lia|discriminate|cbn; lia|].
  destruct H as (S & E' & HL & T & HT & F); [vm_compute; lia|lia|].
  assert (Q1 : X' = d_X se_D ++ S) by congruence. exists S. split; [assumption|]. split; [assumption|].
  intros x Hx. rewrite Forall_forall in F. destruct (F x Hx) as (b & i & [Hb _] & _ & G).
  destruct (G 1 ltac:(cbn; lia)) as [_ G1].
  assert (E1 : (nth 1 x 0 == nth 1 (nth b (rows_with 1 (d_X se_D) (d_y se_D)) []) 0)%Q).
  { apply G1. intros V. change (varies 1 (firstn 3 (d_X se_D)) (skipn 3 (d_X se_D)) 2 1) in V. apply se_fixed in V; lia. }
  apply nearest_table_shape, proj1 in HT. change (rows_with 1 (d_X se_D) (d_y se_D)) with (firstn 3 (d_X se_D)) in *. cbn in HT. rewrite HT in Hb.
  destruct b as [|[|[|b]]]; [| | |lia]; cbn in E1; auto.
Qed.

(** The parameter only distinguishes "none" from "some". *)
Lemma percentage_ignored nn pr k a b rs D : 1 <= d_dim D ->
  (1 # 2 < a * inject_Z (Z.of_nat (d_dim D)))%Q -> (1 # 2 < b * inject_Z (Z.of_nat (d_dim D)))%Q ->
  selected_sample nn (mk_selected pr k a) rs D = selected_sample nn (mk_selected pr k b) rs D.
Proof.
  intros Hd Ha Hb. unfold selected_sample, selected_algorithm. cbn [sl_proportion sl_n_neighbors sl_perc_sign_attr].
  assert (E : forall X_min X_maj, significant_attributes a (d_dim D) X_min X_maj = significant_attributes b (d_dim D) X_min X_maj).
  { intros. unfold significant_attributes. rewrite map_length, seq_length.
    assert (G : forall q, (1 # 2 < q)%Q -> Z.min 1 (rint q) = 1%Z).
    { intros q Hq. pose proof (rint_zero_iff q ltac:(lra)). assert (~ (rint q <= 0)%Z) by (intros C; apply H in C; lra). lia. }
    now rewrite !G. }
  unfold sample_with. destruct (class_label_statistics (d_y D)) as [st|e]; [|reflexivity]. cbn [bind].
  destruct (checks_fail _ _ _) as [[|]|e]; try reflexivity. cbn [bind].
  destruct (det_n_to_sample_st pr st) as [n|e]; [|reflexivity]. cbn [bind]. now rewrite E.
Qed.

Lemma ndo_draws_ok : draws_ok (count_label (d_y cl_D) 1) (Nat.min (length (d_X cl_D)) (nd_n_neighbors ndo_p + 1)) ndo_draws.
Proof. intros i. cbn. repeat split; try lia; try reflexivity; discriminate. Qed.
