(** Concrete data for C43 and C44. *)

From Coq Require Import List ZArith QArith Bool Arith Lia Lqa.
From Verif Require Import Np NpFacts SimplexModel Spec SpecDanger SimplexFacts SimplexGeom Float64
  SamplerModel SamplerFacts OversFacts BaseModel KnnModel KnnFacts DangerModel DangerFacts BorderFacts Witness.
Import ListNotations.
Open Scope nat_scope.

Definition ex_nn (Xf Xq : list (list Q)) (k : nat) := Ok (n_neighbors_func sqdist Xf Xq k).
Lemma ex_nn_ok : knn_ok sqdist ex_nn.
Proof. apply n_neighbors_func_knn_ok. Qed.
Definition ex_ss := mk_ss 2 SRandom WRandom GNone.
Definition f_0_9 : f64 := f_div (f_of_Z 9) (f_of_Z 10).

(** ** ADASYN *)
Definition ad_D : dataset :=
  mk_data [[0];[1];[2];[3];[4];[5];[6];[7]]%Q 1 [1;1;1;0;0;0;0;0]%Z.

Lemma ad_zero_proportion :
  exists a b, adasyn_sample (fun _ => 1%Q) ex_nn
      (mk_adasyn 5 (StFloat f_one) (Some (StFloat (f_of_Z 0))) f_0_9 ex_ss) rng0 ad_D
    = Ok (d_X ad_D ++ [[a]; [b]], d_y ad_D ++ [1; 1]%Z).
Proof. eexists. eexists. vm_compute. reflexivity. Qed.

Lemma ad_D_ok : wf_data (d_X ad_D) (d_dim ad_D) (d_y ad_D) /\ is_minority (d_y ad_D) 1 0.
Proof.
  split; [split; [repeat constructor|reflexivity]|].
  repeat split; cbn; try lia; tauto || (intros; lia).
Qed.

(** ** Borderline: the nearest minority neighbour of the only row in danger,
    row 0, is row 1; its second nearest is row 4. *)
Definition bo_D : dataset := mk_data
  [[0;0];[20;0];[38;0];[38;2];[0;-21];[0;-38];[2;-38];
   [-10;0];[-8;0];[-1000;0];[-1000;1];[-1000;2];[-1000;3];[-1000;4];[-1000;5];[-1000;6]]%Q 2
  [1;1;1;1;1;1;1;0;0;0;0;0;0;0;0;0]%Z.
Definition bo_p := mk_border (StFloat f_one) 3 2 ex_ss.

Lemma bo_D_ok : wf_data (d_X bo_D) (d_dim bo_D) (d_y bo_D) /\ is_minority (d_y bo_D) 1 0.
Proof.
  split; [split; [repeat constructor|reflexivity]|].
  repeat split; cbn; try lia; tauto || (intros; lia).
Qed.

Lemma bo_danger : determine_danger_remove_noise ex_nn (d_X bo_D) (d_y bo_D) (firstn 7 (d_X bo_D)) 3 0
  = Ok (firstn 7 (d_X bo_D), [[0;0]]%Q).
Proof. vm_compute. reflexivity. Qed.

Lemma bo_neighbours : ex_nn (firstn 7 (d_X bo_D)) [[0;0]]%Q 3 = Ok [[0; 1; 4]].
Proof. vm_compute. reflexivity. Qed.

Lemma bo_reduces vol r : border1_sample vol ex_nn bo_p r bo_D =
  do samples <- sample_simplex vol ex_ss
     (mk_args [[0;0]]%Q 2 [[1; 4]] 2 None None (Some (firstn 7 (d_X bo_D))) false None) 2 r;
  Ok (d_X bo_D ++ samples, d_y bo_D ++ [1; 1]%Z).
Proof.
  unfold border1_sample, sample_with.
  replace (class_label_statistics (d_y bo_D)) with (Ok (mk_stats [(0%Z, 9); (1%Z, 7)] 1 0)) by (vm_compute; reflexivity).
  cbn [bind]. replace (checks_fail _ _ _) with (Ok false) by (vm_compute; reflexivity). cbn [bind].
  unfold border1_algorithm. replace (det_n_to_sample_st _ _) with (Ok 2) by (vm_compute; reflexivity).
  cbn [bind Nat.eqb min_label maj_label].
  change (rows_with 1 (d_X bo_D) (d_y bo_D)) with (firstn 7 (d_X bo_D)).
  change (bo_n_neighbors bo_p) with 3. rewrite bo_danger. cbn [bind].
  change ((length (firstn 7 (d_X bo_D)) <? 2) || (length [[0; 0]%Q] =? 0)) with false. cbv iota.
  change (Nat.min (length (firstn 7 (d_X bo_D))) (bo_k_neighbors bo_p + 1)) with 3.
  rewrite bo_neighbours. reflexivity.
Qed.

Lemma bo_never_nearest vol r X' y' : rng_ok r ->
  border1_sample vol ex_nn bo_p r bo_D = Ok (X', y') ->
  exists S, X' = d_X bo_D ++ S /\ length S = 2 /\ forall x, In x S -> (nth 0 x 0 == 0)%Q.
Proof.
  intros Hr H. rewrite bo_reduces in H. inv_bind H. injection H as <- <-. exists a. split; [reflexivity|].
  apply sample_simplex_spec in E; [|constructor; cbn; try discriminate; auto; repeat constructor|assumption].
  destruct E as [E1 E2]. split; [assumption|]. intros x Hx. specialize (E2 eq_refl). cbn in E2.
  rewrite Forall_forall in E2. destruct (E2 x Hx) as (b & ps & B1 & B2 & _ & B4 & _ & _ & B6).
  cbn in B1. assert (b = 0) by lia. subst b.
  destruct ps as [|q [|]]; try discriminate. inversion B4 as [|? ? B5 _]; subst. assert (q = 1) by lia. subst q.
  cbn in B6. destruct B6 as (_ & ws & W1 & _ & _ & W4). rewrite (W4 0) by lia.
  destruct ws as [|w1 [|w2 [|]]]; try discriminate. cbn. ring.
Qed.

(** ** A tie among the neighbours is broken by the label values. *)
Definition tie_X : list (list Q) := [[0];[-1];[-2];[1];[2];[3];[4];[5];[6]]%Q.
Lemma tie_low : determine_danger_remove_noise ex_nn tie_X [1;1;1;0;0;0;0;0;0]%Z (firstn 3 tie_X) 2 0
  = Ok (firstn 3 tie_X, [[0]]%Q).
Proof. vm_compute. reflexivity. Qed.
Lemma tie_high : determine_danger_remove_noise ex_nn tie_X [0;0;0;1;1;1;1;1;1]%Z (firstn 3 tie_X) 2 1
  = Ok (firstn 3 tie_X, []).
Proof. vm_compute. reflexivity. Qed.
