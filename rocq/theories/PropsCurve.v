(** Properties C132 and C133: the mesh and the fitted curve of polynom_fit_SMOTE. *)

From Coq Require Import List ZArith QArith Bool Arith Lia Lqa Sorting.Sorted Permutation.
From Verif Require Import Np NpFacts SimplexModel Spec SpecComp SimplexFacts SimplexGeom Float64
  SamplerModel SamplerFacts OversFacts OversGen ClusterOversModel CompModel CurveModel SpecCurve CurveFacts Witness EditWitness EmbedWitness CurveWitness.
Import ListNotations.
Open Scope nat_scope.

(** C132. *)
Theorem C132_mesh : forall vol prop ss pick r D mn mj n,
  rng_ok r -> unif_pos r -> plain_ss ss -> (forall t b, pick t b < count_label (d_y D) mn) ->
  wf_data (d_X D) (d_dim D) (d_y D) -> is_minority (d_y D) mn mj -> asked prop (d_y D) mn mj = Ok n ->
  runs D mn n (mesh_spec ss D mn n) (mesh_sample vol prop ss pick r D).
Proof. exact mesh_runs. Qed.

Theorem C132_hull : forall ss D mn n S, wf_data (d_X D) (d_dim D) (d_y D) -> ss_gauss ss = GNone -> mesh_spec ss D mn n S ->
  Forall (in_hull (d_dim D) (rows_with mn (d_X D) (d_y D))) S.
Proof. exact mesh_hull. Qed.

Theorem C132_pair : forall ss D mn n S, ss_gauss ss = GNone -> ss_n_dim ss = 2 -> mesh_spec ss D mn n S ->
  let X_min := rows_with mn (d_X D) (d_y D) in
  Forall (fun x => exists b i w, b < length X_min /\ i < length X_min /\ (0 <= w <= 1)%Q /\ length x = d_dim D /\
     forall j, j < d_dim D -> (nth j x 0 == nth j (nth b X_min []) 0 + w * (nth j (nth i X_min []) 0 - nth j (nth b X_min []) 0))%Q) S.
Proof. exact mesh_pair. Qed.

Example C132_example :
  rng_ok rng0 /\ unif_pos rng0 /\ plain_ss mesh_ss /\ (forall t b, next_row t b < count_label (d_y diag_D) 1) /\
  wf_data (d_X diag_D) (d_dim diag_D) (d_y diag_D) /\ is_minority (d_y diag_D) 1 0 /\ asked (StFloat f_one) (d_y diag_D) 1 0 = Ok 1%Z /\
  tidy (mesh_sample vol1 (StFloat f_one) mesh_ss next_row rng0 diag_D) =
    Ok ([[0;0];[1;1];[2;2];[9;0];[9;1];[9;2];[9;3];[1 # 2;1 # 2]]%Q, [1;1;1;0;0;0;0;1]%Z).
Proof.
  split; [apply rng0_ok|]. split; [apply rng0_unif_pos|]. split; [repeat split; cbn; auto; lia|].
  split; [intros t b; unfold next_row; destruct (Nat.ltb_spec b 2); cbn; lia|].
  split; [apply diag_D_ok|]. split; [apply diag_D_ok|]. split; vm_compute; reflexivity.
Qed.

(** A row may be drawn as its own partner; the new row is then a copy. *)
Theorem C132_copies_refuted : exists vol prop ss pick r D,
  rng_ok r /\ unif_pos r /\ plain_ss ss /\ (forall t b, pick t b < count_label (d_y D) 1) /\
  wf_data (d_X D) (d_dim D) (d_y D) /\ is_minority (d_y D) 1 0 /\
  tidy (mesh_sample vol prop ss pick r D) = tidy (Ok (d_X D ++ [[0;0]]%Q, d_y D ++ [1]%Z)) /\ In [0;0]%Q (d_X D).
Proof.
  exists vol1, (StFloat f_one), mesh_ss, same_row, rng0, diag_D.
  split; [apply rng0_ok|]. split; [apply rng0_unif_pos|]. split; [repeat split; cbn; auto; lia|].
  split; [intros t b; unfold same_row; cbn; lia|]. split; [apply diag_D_ok|]. split; [apply diag_D_ok|].
  split; [vm_compute; reflexivity|]. now left.
Qed.

(** C133. *)
Theorem C133_curve : forall order polyfit prop deg u D mn mj n,
  order_ok order -> polyfit_ok polyfit (count_label (d_y D) mn) deg -> (forall j s, unit_share (u j s)) -> 1 <= d_dim D ->
  wf_data (d_X D) (d_dim D) (d_y D) -> is_minority (d_y D) mn mj -> asked prop (d_y D) mn mj = Ok n ->
  runs D mn n (curve_spec deg D mn n) (curve_sample order polyfit prop deg u D).
Proof. exact curve_runs. Qed.

Theorem C133_order : forall order order' polyfit prop deg u D D' mn mj n,
  order_ok order -> order_ok order' -> polyfit_ok polyfit (count_label (d_y D) mn) deg -> (forall j s, unit_share (u j s)) -> 1 <= d_dim D ->
  wf_data (d_X D) (d_dim D) (d_y D) -> wf_data (d_X D') (d_dim D') (d_y D') -> d_y D' = d_y D -> d_dim D' = d_dim D ->
  is_minority (d_y D) mn mj -> asked prop (d_y D) mn mj = Ok n ->
  Permutation (rows_with mn (d_X D) (d_y D)) (rows_with mn (d_X D') (d_y D')) -> distinct_means (rows_with mn (d_X D) (d_y D)) ->
  exists S, curve_sample order polyfit prop deg u D = Ok (d_X D ++ S, d_y D ++ repeat mn (length S)) /\
    curve_sample order' polyfit prop deg u D' = Ok (d_X D' ++ S, d_y D' ++ repeat mn (length S)).
Proof. exact curve_sample_order. Qed.

Example C133_example :
  order_ok argsort /\ polyfit_ok line3 (count_label (d_y diag_D) 1) 1 /\ (forall j s, unit_share (u_cols j s)) /\
  wf_data (d_X diag_D) (d_dim diag_D) (d_y diag_D) /\ is_minority (d_y diag_D) 1 0 /\ asked (StFloat f_one) (d_y diag_D) 1 0 = Ok 1%Z /\
  distinct_means (rows_with 1 (d_X diag_D) (d_y diag_D)) /\
  tidy (curve_sample argsort line3 (StFloat f_one) 1 u_cols diag_D) =
    Ok ([[0;0];[1;1];[2;2];[9;0];[9;1];[9;2];[9;3];[1;0]]%Q, [1;1;1;0;0;0;0;1]%Z).
Proof.
  split; [apply argsort_order|]. split; [apply line3_ok|]. split; [apply u_cols_ok|]. split; [apply diag_D_ok|]. split; [apply diag_D_ok|].
  split; [vm_compute; reflexivity|]. split; [|vm_compute; reflexivity].
  intros i j Hi Hj. cbn in Hi, Hj. destruct i as [|[|[|]]]; try lia; destruct j as [|[|[|]]]; try lia; intros E; try reflexivity; vm_compute in E; discriminate.
Qed.

(** The columns are evaluated at different parameters: although all minority
    rows lie on a line, the new row does not. *)
Theorem C133_line_refuted : exists order polyfit prop u D S x,
  order_ok order /\ polyfit_ok polyfit (count_label (d_y D) 1) 1 /\ (forall j s, unit_share (u j s)) /\
  wf_data (d_X D) (d_dim D) (d_y D) /\ is_minority (d_y D) 1 0 /\
  curve_sample order polyfit prop 1 u D = Ok (d_X D ++ S, d_y D ++ repeat 1%Z (length S)) /\ In x S /\
  Forall (fun p => nth 0 p 0 == nth 1 p 0)%Q (rows_with 1 (d_X D) (d_y D)) /\
  (~ nth 0 x 0 == nth 1 x 0)%Q /\ ~ in_hull (d_dim D) (rows_with 1 (d_X D) (d_y D)) x.
Proof.
  exists argsort, line3, (StFloat f_one), u_cols, diag_D, [[108 # 108; 0 # 12]]%Q, [108 # 108; 0 # 12]%Q.
  split; [apply argsort_order|]. split; [apply line3_ok|]. split; [apply u_cols_ok|]. split; [apply diag_D_ok|]. split; [apply diag_D_ok|].
  split; [vm_compute; reflexivity|]. split; [left; reflexivity|]. split; [repeat constructor|].
  split; [vm_compute; discriminate|]. intros H. apply diag_hull in H as [H _]. vm_compute in H. discriminate.
Qed.

(** The parameter may exceed the number of the last row: the new row continues
    the line beyond the minority rows. *)
Theorem C133_range_refuted : exists order polyfit prop u D S x,
  order_ok order /\ polyfit_ok polyfit (count_label (d_y D) 1) 1 /\ (forall j s, unit_share (u j s)) /\ (forall s j j', u j s = u j' s) /\
  wf_data (d_X D) (d_dim D) (d_y D) /\ is_minority (d_y D) 1 0 /\
  curve_sample order polyfit prop 1 u D = Ok (d_X D ++ S, d_y D ++ repeat 1%Z (length S)) /\ In x S /\
  (forall p, In p (rows_with 1 (d_X D) (d_y D)) -> nth 0 p 0 < nth 0 x 0)%Q.
Proof.
  exists argsort, line3, (StFloat f_one), u56, diag_D, [[1080 # 432; 1080 # 432]]%Q, [1080 # 432; 1080 # 432]%Q.
  split; [apply argsort_order|]. split; [apply line3_ok|]. split; [apply u56_ok|]. split; [reflexivity|]. split; [apply diag_D_ok|]. split; [apply diag_D_ok|].
  split; [vm_compute; reflexivity|]. split; [left; reflexivity|]. intros p Hp. cbn in Hp. destruct Hp as [<-|[<-|[<-|[]]]]; reflexivity.
Qed.

(** With equal means the order of the minority rows matters. *)
Theorem C133_ties_refuted : exists order polyfit prop u D D',
  order_ok order /\ polyfit_ok polyfit (count_label (d_y D) 1) 1 /\ (forall j s, unit_share (u j s)) /\
  wf_data (d_X D) (d_dim D) (d_y D) /\ wf_data (d_X D') (d_dim D') (d_y D') /\ is_minority (d_y D) 1 0 /\ d_y D' = d_y D /\
  Permutation (rows_with 1 (d_X D) (d_y D)) (rows_with 1 (d_X D') (d_y D')) /\
  tidy (curve_sample order polyfit prop 1 u D) = tidy (Ok (d_X D ++ [[7 # 4; 1 # 4]]%Q, d_y D ++ [1]%Z)) /\
  tidy (curve_sample order polyfit prop 1 u D') = tidy (Ok (d_X D' ++ [[1 # 4; 7 # 4]]%Q, d_y D' ++ [1]%Z)).
Proof.
  exists argsort, line3, (StFloat f_one), u56, tie_D, tie_D'.
  split; [apply argsort_order|]. split; [apply line3_ok|]. split; [apply u56_ok|].
  split; [apply tie_D_ok|]. split; [apply tie_D'_ok|]. split; [apply tie_D_ok|]. split; [reflexivity|]. split; [apply perm_swap|].
  split; vm_compute; reflexivity.
Qed.

Print Assumptions C132_mesh.
Print Assumptions C132_hull.
Print Assumptions C132_pair.
Print Assumptions C132_copies_refuted.
Print Assumptions C133_curve.
Print Assumptions C133_order.
Print Assumptions C133_line_refuted.
Print Assumptions C133_range_refuted.
Print Assumptions C133_ties_refuted.
