(** Properties C126 to C128: IPADE_ID, SMOTE_PSO and SMOTE_PSOBAT. *)

From Coq Require Import List ZArith QArith Qabs Qminmax Bool Arith Lia Lqa Sorting.Sorted Permutation.
From Verif Require Import Np PyVal NpFacts SimplexModel Spec SpecDanger SpecNoise SpecComp SpecEdit BorderFacts SimplexFacts SimplexGeom Float64
  SamplerModel SamplerFacts OversFacts OversGen BaseModel NoiseModel KnnModel KnnFacts DangerModel NearModel ClusterOversModel
  ClusterOversFacts CompModel CompFacts SpecNear LevelModel SpecLevel SpecGroup WrapModel SpecWrap DirModel SpecDir RegionModel SpecRegion
  SearchModel SpecSearch GraphModel SpecGraph MixModel SpecMix SwarmModel SpecSwarm SwarmFacts2 SwarmFacts3 SwarmFacts4
  Witness DangerWitness ClusterWitness CompWitness EditWitness NearWitness LevelWitness WrapWitness DirWitness RegionWitness SearchWitness GraphWitness MixWitness EmbedWitness SwarmWitness.
From Verif Require EditFacts4.
Import ListNotations.
Open Scope nat_scope.

(** C126. *)
Theorem C126_ipade_id : forall leaves auc accuracy fuel p ds sub D mn mj N,
  leaves_ok leaves -> auc_ok auc mn mj -> accuracy_ok accuracy mn mj -> (forall c t, draws_ok (ds c t)) -> (forall c t, subsets_ok (sub c t)) ->
  wf_data (d_X D) (d_dim D) (d_y D) -> is_minority (d_y D) mn mj ->
  let f := mm_transform (mm_fit (d_dim D) (d_X D)) in
  in_steps auc (map f (d_X D)) (d_y D) N -> N * (ip_OT p + 1) + ip_OT p + 2 <= fuel ->
  let out := ip_sample leaves auc accuracy fuel p ds sub D in
  (count_label (d_y D) mn <= 4 -> unchanged D out) /\
  (4 < count_label (d_y D) mn -> ip_result leaves auc p f D mn mj out).
Proof. exact ip_sample_ok. Qed.

Definition ip_out leaves := ip_sample leaves far_left half_right 10 ip_p (fun _ _ => draws_at (1 # 2)) (fun _ _ => take_last) ip_D.

Example C126_example :
  leaves_ok by_half /\ auc_ok far_left 1 0 /\ accuracy_ok half_right 1 0 /\ wf_data (d_X ip_D) (d_dim ip_D) (d_y ip_D) /\ is_minority (d_y ip_D) 1 0 /\
  4 < count_label (d_y ip_D) 1 /\ tidy (ip_out by_half) = Ok ([[3 # 2]; [47 # 4]]%Q, [1; 0]%Z) /\
  ip_result by_half far_left ip_p (mm_transform (mm_fit (d_dim ip_D) (d_X ip_D))) ip_D 1 0 (ip_out by_half).
Proof.
  split; [apply by_half_ok|]. split; [apply far_left_ok|]. split; [apply half_right_ok|]. split; [apply ip_D_ok|]. split; [apply ip_D_ok|].
  split; [cbn; lia|]. split; [vm_compute; reflexivity|].
  apply (C126_ipade_id by_half far_left half_right 10 ip_p (fun _ _ => draws_at (1 # 2)) (fun _ _ => take_last) ip_D 1 0 2);
    auto using by_half_ok, far_left_ok, half_right_ok, draws_at_ok, half_share, take_last_ok, far_left_steps; try apply ip_D_ok; cbn; lia.
Qed.

(** The data given need not be among the rows returned, and there may be fewer rows. *)
Theorem C126_extends_refuted : exists leaves auc accuracy fuel p ds sub D X y,
  leaves_ok leaves /\ auc_ok auc 1 0 /\ accuracy_ok accuracy 1 0 /\ (forall c t, draws_ok (ds c t)) /\ (forall c t, subsets_ok (sub c t)) /\
  wf_data (d_X D) (d_dim D) (d_y D) /\ is_minority (d_y D) 1 0 /\ 4 < count_label (d_y D) 1 /\
  ip_sample leaves auc accuracy fuel p ds sub D = Ok (X, y) /\ length y < length (d_y D) /\
  (forall x, In x X -> ~ exists x', In x' (d_X D) /\ same_row x x').
Proof.
  exists by_half, far_left, half_right, 10, ip_p, (fun _ _ => draws_at (1 # 2)), (fun _ _ => take_last), ip_D.
  destruct (ip_out by_half) as [[X y]|] eqn:E; [|vm_compute in E; discriminate]. exists X, y.
  split; [apply by_half_ok|]. split; [apply far_left_ok|]. split; [apply half_right_ok|]. split; [intros; apply draws_at_ok, half_share|]. split; [intros; apply take_last_ok|].
  split; [apply ip_D_ok|]. split; [apply ip_D_ok|]. split; [cbn; lia|]. split; [exact E|].
  vm_compute in E. injection E as <- <-. split; [cbn; lia|].
  intros x Hx (x' & Hx' & HS). unfold same_row in HS. cbn in Hx, Hx'.
  repeat (destruct Hx as [<-|Hx]; [repeat (destruct Hx' as [<-|Hx']; [inversion HS as [|? ? ? ? G]; subst; vm_compute in G; discriminate|]); destruct Hx'|]). destruct Hx.
Qed.

(** If a class is missing in the leaves, the rows returned are not those given. *)
Theorem C126_copies_refuted : exists leaves auc accuracy fuel p ds sub D X,
  leaves_ok leaves /\ auc_ok auc 1 0 /\ accuracy_ok accuracy 1 0 /\ (forall c t, draws_ok (ds c t)) /\ (forall c t, subsets_ok (sub c t)) /\
  wf_data (d_X D) (d_dim D) (d_y D) /\ is_minority (d_y D) 1 0 /\ 4 < count_label (d_y D) 1 /\
  ip_sample leaves auc accuracy fuel p ds sub D = Ok (X, d_y D) /\ ~ same_rows X (d_X D).
Proof.
  exists one_leaf, far_left, half_right, 10, ip_p, (fun _ _ => draws_at (1 # 2)), (fun _ _ => take_last), ip_D, (map (mm_transform (mm_fit (d_dim ip_D) (d_X ip_D))) (d_X ip_D)).
  split; [apply one_leaf_ok|]. split; [apply far_left_ok|]. split; [apply half_right_ok|]. split; [intros; apply draws_at_ok, half_share|]. split; [intros; apply take_last_ok|].
  split; [apply ip_D_ok|]. split; [apply ip_D_ok|]. split; [cbn; lia|]. split; [vm_compute; reflexivity|].
  intros H. inversion H as [|? ? ? ? _ H1]; subst. inversion H1 as [|? ? ? ? H2 _]; subst. inversion H2 as [|? ? ? ? G]; subst. vm_compute in G. discriminate.
Qed.

(** C127. *)
Theorem C127_smote_pso : forall dist nn sd norm support score p ds D mn mj,
  knn_ok dist nn -> norm_ok norm -> support_ok support mn mj -> score_ok score mn mj -> 1 <= ps_k p -> 1 <= ps_n_pop p ->
  wf_data (d_X D) (d_dim D) (d_y D) -> is_minority (d_y D) mn mj ->
  let out := pso_sample nn sd norm support score p ds D in
  (count_label (d_y D) mn <= 2 \/ count_label (d_y D) mn = count_label (d_y D) mj -> unchanged D out) /\
  (2 < count_label (d_y D) mn < count_label (d_y D) mj -> appends D mn (pso_result dist sd norm support score p D mn mj) out).
Proof. exact pso_sample_ok. Qed.

Definition pso_out := pso_sample ex_nn unit_sd norm1 all_rows far_out pso_p (fun _ => draws_at (1 # 2)) en_D.

Example C127_example :
  norm_ok norm1 /\ support_ok all_rows 1 0 /\ score_ok far_out 1 0 /\ wf_data (d_X en_D) (d_dim en_D) (d_y en_D) /\ is_minority (d_y en_D) 1 0 /\
  2 < count_label (d_y en_D) 1 < count_label (d_y en_D) 0 /\
  tidy pso_out = Ok (d_X en_D ++ [[3 # 10]; [11 # 10]; [19 # 10]; [27 # 10]]%Q, d_y en_D ++ [1; 1; 1; 1]%Z) /\
  appends en_D 1 (pso_result sqdist unit_sd norm1 all_rows far_out pso_p en_D 1 0) pso_out.
Proof.
  split; [apply norm1_ok|]. split; [apply all_rows_ok|]. split; [apply far_out_ok|]. split; [apply en_D_ok|]. split; [apply en_D_ok|]. split; [cbn; lia|].
  split; [vm_compute; reflexivity|].
  apply (C127_smote_pso sqdist ex_nn unit_sd norm1 all_rows far_out pso_p (fun _ => draws_at (1 # 2)) en_D 1 0);
    auto using ex_nn_ok, norm1_ok, all_rows_ok, far_out_ok; try apply en_D_ok; cbn; lia.
Qed.

(** More rows than missing may be added: the minority becomes the larger class. *)
Theorem C127_balanced_refuted : exists dist nn sd norm support score p ds D X y,
  knn_ok dist nn /\ norm_ok norm /\ support_ok support 1 0 /\ score_ok score 1 0 /\ 1 <= ps_k p /\ 1 <= ps_n_pop p /\
  wf_data (d_X D) (d_dim D) (d_y D) /\ is_minority (d_y D) 1 0 /\ 2 < count_label (d_y D) 1 /\
  pso_sample nn sd norm support score p ds D = Ok (X, y) /\ count_label y 0 < count_label y 1.
Proof.
  destruct pso_out as [[X y]|] eqn:E; [|vm_compute in E; discriminate].
  exists sqdist, ex_nn, unit_sd, norm1, all_rows, far_out, pso_p, (fun _ => draws_at (1 # 2)), en_D, X, y.
  split; [apply ex_nn_ok|]. split; [apply norm1_ok|]. split; [apply all_rows_ok|]. split; [apply far_out_ok|]. split; [cbn; lia|]. split; [cbn; lia|].
  split; [apply en_D_ok|]. split; [apply en_D_ok|]. split; [cbn; lia|]. split; [exact E|]. vm_compute in E. injection E as <- <-. vm_compute. lia.
Qed.

(** C128. *)
Theorem C128_psobat : forall dist volume nn to_f cross method p hi d ds rs r D mn mj,
  knn_ok dist nn -> proportions_ok to_f (d_y D) mn mj -> cross_ok cross -> plain_ss (pb_ss p) -> 2 <= hi ->
  draws_ok d -> (forall t, draws_ok (ds t)) -> (forall t i, rng_ok (rs t i) /\ unif_pos (rs t i)) -> rng_ok r -> unif_pos r ->
  wf_data (d_X D) (d_dim D) (d_y D) -> is_minority (d_y D) mn mj ->
  let out := pb_sample volume nn to_f cross method p hi d ds rs r D in
  (count_label (d_y D) mn <= 2 -> unchanged D out) /\
  (2 < count_label (d_y D) mn -> pb_result dist volume nn to_f p hi r D mn mj
     (fun K prop => match method with MPso => first_or_good volume nn to_f cross p hi d rs D mn mj K prop | MBat => True end) out).
Proof. exact pb_sample_ok. Qed.

(** The calls of one object: the number of neighbours is bounded by the smallest minority
    seen before. *)
Theorem C128_calls : forall dist volume nn to_f cross method p before c after mn mj,
  knn_ok dist nn -> proportions_ok to_f (d_y (ca_D c)) mn mj -> cross_ok cross -> plain_ss (pb_ss p) ->
  draws_ok (ca_d c) -> (forall t, draws_ok (ca_ds c t)) -> (forall t i, rng_ok (ca_rs c t i) /\ unif_pos (ca_rs c t i)) -> rng_ok (ca_r c) -> unif_pos (ca_r c) ->
  Forall (fun D => exists mn mj, is_minority (d_y D) mn mj) (map ca_D before) ->
  wf_data (d_X (ca_D c)) (d_dim (ca_D c)) (d_y (ca_D c)) -> is_minority (d_y (ca_D c)) mn mj ->
  exists hi out, remembered (map ca_D before) hi /\
    nth_error (pb_calls volume nn to_f cross method p 10 (before ++ c :: after)) (length before) = Some out /\
    (count_label (d_y (ca_D c)) mn <= 2 -> unchanged (ca_D c) out) /\
    (2 < count_label (d_y (ca_D c)) mn -> pb_result dist volume nn to_f p hi (ca_r c) (ca_D c) mn mj
       (fun K prop => match method with MPso => first_or_good volume nn to_f cross p hi (ca_d c) (ca_rs c) (ca_D c) mn mj K prop | MBat => True end) out).
Proof. exact pb_calls_ok. Qed.

Definition pb_out cross method maxit := pb_sample vol1 ex_nn two_steps cross method (still maxit) 10 spread (fun _ => draws_at 0) rs00 rng0 en_D.

Example C128_example :
  proportions_ok two_steps (d_y en_D) 1 0 /\ cross_ok better_large /\ plain_ss (pb_ss (still 1)) /\ draws_ok spread /\
  wf_data (d_X en_D) (d_dim en_D) (d_y en_D) /\ is_minority (d_y en_D) 1 0 /\ 2 < count_label (d_y en_D) 1 /\
  tidy (pb_out better_large MPso 1) = Ok (d_X en_D ++ [[1 # 2]; [1 # 2]]%Q, d_y en_D ++ [1; 1]%Z) /\
  pb_result sqdist vol1 ex_nn two_steps (still 1) 10 rng0 en_D 1 0 (first_or_good vol1 ex_nn two_steps better_large (still 1) 10 spread rs00 en_D 1 0) (pb_out better_large MPso 1) /\
  pb_result sqdist vol1 ex_nn two_steps (still 1) 10 rng0 en_D 1 0 (fun _ _ => True) (pb_out better_small MBat 1).
Proof.
  assert (D0 : draws_ok (draws_at 0)) by (apply draws_at_ok; split; reflexivity || discriminate).
  split; [apply two_steps_ok|]. split; [apply better_large_ok|]. split; [apply ex_ss_plain|]. split; [apply spread_ok|].
  split; [apply en_D_ok|]. split; [apply en_D_ok|]. split; [cbn; lia|]. split; [vm_compute; reflexivity|]. split.
  - apply (C128_psobat sqdist vol1 ex_nn two_steps better_large MPso (still 1) 10 spread (fun _ => draws_at 0) rs00 rng0 en_D 1 0);
      auto using ex_nn_ok, two_steps_ok, better_large_ok, ex_ss_plain, spread_ok, rs00_ok, rng0_ok, rng0_unif_pos; try apply en_D_ok; cbn; lia.
  - apply (C128_psobat sqdist vol1 ex_nn two_steps better_small MBat (still 1) 10 spread (fun _ => draws_at 0) rs00 rng0 en_D 1 0);
      auto using ex_nn_ok, two_steps_ok, better_small_ok, ex_ss_plain, spread_ok, rs00_ok, rng0_ok, rng0_unif_pos; try apply en_D_ok; cbn; lia.
Qed.

(** The best settings so far are given up for worse ones: with one more iteration the
    trees of the cross validation on the data returned are less accurate. *)
Theorem C128_best_refuted : exists dist volume nn to_f cross p p' hi d ds rs r D X y X' y',
  knn_ok dist nn /\ proportions_ok to_f (d_y D) 1 0 /\ cross_ok cross /\ plain_ss (pb_ss p) /\ pb_ss p' = pb_ss p /\ pb_maxit p' = S (pb_maxit p) /\
  pb_c1 p' = pb_c1 p /\ pb_c2 p' = pb_c2 p /\ pb_c3 p' = pb_c3 p /\ 2 <= hi /\
  draws_ok d /\ (forall t, draws_ok (ds t)) /\ (forall t i, rng_ok (rs t i) /\ unif_pos (rs t i)) /\ rng_ok r /\ unif_pos r /\
  wf_data (d_X D) (d_dim D) (d_y D) /\ is_minority (d_y D) 1 0 /\ 2 < count_label (d_y D) 1 /\
  pb_sample volume nn to_f cross MPso p hi d ds rs r D = Ok (X, y) /\ pb_sample volume nn to_f cross MPso p' hi d ds rs r D = Ok (X', y') /\
  kappa_above 1 0 (cross X y) y /\ (agreement (cross X' y') y' < agreement (cross X y) y)%Q.
Proof.
  destruct (pb_out better_large MPso 1) as [[X y]|] eqn:E; [|vm_compute in E; discriminate].
  destruct (pb_out better_large MPso 2) as [[X' y']|] eqn:E'; [|vm_compute in E'; discriminate].
  assert (D0 : draws_ok (draws_at 0)) by (apply draws_at_ok; split; reflexivity || discriminate).
  exists sqdist, vol1, ex_nn, two_steps, better_large, (still 1), (still 2), 10, spread, (fun _ => draws_at 0), rs00, rng0, en_D, X, y, X', y'.
  split; [apply ex_nn_ok|]. split; [apply two_steps_ok|]. split; [apply better_large_ok|]. split; [apply ex_ss_plain|]. do 5 (split; [reflexivity|]). split; [lia|].
  split; [apply spread_ok|]. split; [auto|]. split; [apply rs00_ok|]. split; [apply rng0_ok|]. split; [apply rng0_unif_pos|].
  split; [apply en_D_ok|]. split; [apply en_D_ok|]. split; [cbn; lia|]. split; [exact E|]. split; [exact E'|].
  vm_compute in E, E'. injection E as <- <-. injection E' as <- <-. split; [split; [intros H; vm_compute in H; discriminate|vm_compute; reflexivity]|vm_compute; reflexivity].
Qed.

(** The bats choose settings that fail, where the particles with the same draws find ones
    that do not. *)
Theorem C128_bats_refuted : exists dist volume nn to_f cross p hi d ds rs r D X y X' y',
  knn_ok dist nn /\ proportions_ok to_f (d_y D) 1 0 /\ cross_ok cross /\ plain_ss (pb_ss p) /\ 2 <= hi /\
  draws_ok d /\ (forall t, draws_ok (ds t)) /\ (forall t i, rng_ok (rs t i) /\ unif_pos (rs t i)) /\ rng_ok r /\ unif_pos r /\
  wf_data (d_X D) (d_dim D) (d_y D) /\ is_minority (d_y D) 1 0 /\ 2 < count_label (d_y D) 1 /\
  pb_sample volume nn to_f cross MBat p hi d ds rs r D = Ok (X, y) /\ pb_sample volume nn to_f cross MPso p hi d ds rs r D = Ok (X', y') /\
  ~ kappa_above 1 0 (cross X y) y /\ kappa_above 1 0 (cross X' y') y'.
Proof.
  destruct (pb_out better_small MBat 1) as [[X y]|] eqn:E; [|vm_compute in E; discriminate].
  destruct (pb_out better_small MPso 1) as [[X' y']|] eqn:E'; [|vm_compute in E'; discriminate].
  assert (D0 : draws_ok (draws_at 0)) by (apply draws_at_ok; split; reflexivity || discriminate).
  exists sqdist, vol1, ex_nn, two_steps, better_small, (still 1), 10, spread, (fun _ => draws_at 0), rs00, rng0, en_D, X, y, X', y'.
  split; [apply ex_nn_ok|]. split; [apply two_steps_ok|]. split; [apply better_small_ok|]. split; [apply ex_ss_plain|]. split; [lia|].
  split; [apply spread_ok|]. split; [auto|]. split; [apply rs00_ok|]. split; [apply rng0_ok|]. split; [apply rng0_unif_pos|].
  split; [apply en_D_ok|]. split; [apply en_D_ok|]. split; [cbn; lia|]. split; [exact E|]. split; [exact E'|].
  vm_compute in E, E'. injection E as <- <-. injection E' as <- <-. split.
  - intros [_ H]. vm_compute in H. discriminate.
  - split; [intros H; vm_compute in H; discriminate|vm_compute; reflexivity].
Qed.

(** The same call gives another result after a call on other data. *)
Theorem C128_stateless_refuted : exists dist volume nn to_f cross p c c' X y X' y',
  knn_ok dist nn /\ cross_ok cross /\ plain_ss (pb_ss p) /\ proportions_ok to_f (d_y (ca_D c)) 1 0 /\
  wf_data (d_X (ca_D c)) (d_dim (ca_D c)) (d_y (ca_D c)) /\ is_minority (d_y (ca_D c)) 1 0 /\
  draws_ok (ca_d c) /\ (forall t, draws_ok (ca_ds c t)) /\ (forall t i, rng_ok (ca_rs c t i) /\ unif_pos (ca_rs c t i)) /\ rng_ok (ca_r c) /\ unif_pos (ca_r c) /\
  nth_error (pb_calls volume nn to_f cross MPso p 10 [c; c'; c]) 0 = Some (Ok (X, y)) /\
  nth_error (pb_calls volume nn to_f cross MPso p 10 [c; c'; c]) 2 = Some (Ok (X', y')) /\ ~ same_rows X X'.
Proof.
  assert (D0 : draws_ok (draws_at 0)) by (apply draws_at_ok; split; reflexivity || discriminate).
  set (p := mk_pb 1 0 0 0 wide_ss).
  destruct (nth_error (pb_calls vol1 ex_nn two_steps better_large MPso p 10 (map the_call [en_D; three_D; en_D])) 0) as [[[X y]|]|] eqn:E; [|vm_compute in E; discriminate..].
  destruct (nth_error (pb_calls vol1 ex_nn two_steps better_large MPso p 10 (map the_call [en_D; three_D; en_D])) 2) as [[[X' y']|]|] eqn:E'; [|vm_compute in E'; discriminate..].
  exists sqdist, vol1, ex_nn, two_steps, better_large, p, (the_call en_D), (the_call three_D), X, y, X', y'.
  split; [apply ex_nn_ok|]. split; [apply better_large_ok|]. split; [apply wide_ss_plain|]. split; [apply two_steps_ok|]. split; [apply en_D_ok|]. split; [apply en_D_ok|].
  split; [apply spread_ok|]. split; [intros t; exact D0|]. split; [apply rs00_ok|]. split; [apply rng0_ok|]. split; [apply rng0_unif_pos|].
  split; [exact E|]. split; [exact E'|]. vm_compute in E, E'. injection E as <- <-. injection E' as <- <-. intros H.
  assert (G := EditFacts4.Forall2_nth' _ _ _ [] [] 10 H ltac:(cbn; lia)). cbn in G. inversion G as [|? ? ? ? G1]; subst. vm_compute in G1. discriminate.
Qed.

Print Assumptions C126_ipade_id.
Print Assumptions C126_extends_refuted.
Print Assumptions C126_copies_refuted.
Print Assumptions C127_smote_pso.
Print Assumptions C127_balanced_refuted.
Print Assumptions C128_psobat.
Print Assumptions C128_calls.
Print Assumptions C128_best_refuted.
Print Assumptions C128_bats_refuted.
Print Assumptions C128_stateless_refuted.
