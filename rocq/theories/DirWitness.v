(** Concrete data for C95 to C100. *)

From Coq Require Import List ZArith QArith Qabs Bool Arith Lia Lqa Permutation.
From Verif Require Import Np NpFacts SimplexModel Spec SpecNoise SpecComp SimplexFacts SimplexGeom Float64
  SamplerModel SamplerFacts OversFacts OversGen BaseModel NoiseModel KnnModel KnnFacts DangerModel ClusterOversModel
  ClusterOversFacts CompModel CompFacts SpecNear LevelModel SpecLevel SpecGroup WrapModel SpecWrap DirModel SpecDir
  Witness DangerWitness ClusterWitness CompWitness EditWitness NearWitness LevelWitness WrapWitness.
Import ListNotations.
Open Scope nat_scope.

(** Draws: always the first thing, and the share [u]. *)
Definition draws_at (u : Q) : draws := mk_draws (fun _ _ _ => 0) (fun _ _ => u) (fun _ _ => (0, 1)) (fun _ w => first_positive w).

Lemma draws_at_ok u : unit_share u -> draws_ok (draws_at u).
Proof.
  intros Hu. constructor; cbn; auto.
  - intros _ b Hb. repeat split; lia.
  - intros _ w H1 H2. destruct (first_positive_spec w H1) as (q & E & Hq); [rewrite H2; reflexivity|].
    split; [apply nth_error_Some; congruence|]. now rewrite (nth_error_nth _ _ _ E).
Qed.

(** The same, but the second thing where the second request offers several. *)
Definition draws_second (u : Q) : draws :=
  mk_draws (fun _ s b => if (s =? 1) && (1 <? b) then 1 else 0) (fun _ _ => u) (fun _ _ => (0, 1)) (fun _ w => first_positive w).
Lemma draws_second_ok u : unit_share u -> draws_ok (draws_second u).
Proof.
  intros Hu. destruct (draws_at_ok u Hu) as [_ H2 H3 H4]. constructor; [|exact H2|exact H3|exact H4].
  intros t s b Hb. cbn [draws_second dr_int]. destruct (s =? 1); cbn [andb]; [|lia]. destruct (Nat.ltb_spec 1 b); lia.
Qed.

(** The same, but always the last thing. *)
Definition draws_last (u : Q) : draws := mk_draws (fun _ _ b => b - 1) (fun _ _ => u) (fun _ _ => (0, 1)) (fun _ w => first_positive w).
Lemma draws_last_ok u : unit_share u -> draws_ok (draws_last u).
Proof.
  intros Hu. destruct (draws_at_ok u Hu) as [_ H2 H3 H4]. constructor; [|exact H2|exact H3|exact H4]. intros t s b Hb. cbn. lia.
Qed.

Lemma half_share : unit_share (1 # 2).
Proof. split; reflexivity || discriminate. Qed.

(** The row [x] cut or filled up to [dim] columns. *)
Definition resize (dim : nat) (x : row) : row := map (fun j => nth j x 0%Q) (seq 0 dim).
Lemma resize_length dim x : length (resize dim x) = dim.
Proof. unfold resize. now rewrite map_length, seq_length. Qed.

(** A clustering: small and large numbers for two clusters, otherwise in turn. *)
Definition km_turn (dim : nat) (X : list row) (k : nat) : list nat * list row :=
  (map (fun i => i mod k) (seq 0 (length X)), map (fun i => resize dim (nth i X [])) (seq 0 k)).
Definition km_side (X : list row) (k : nat) : list nat * list row :=
  if (k =? 2) && (length X =? 12) then
    (map (fun x => if Qle_bool (nth 0 x 0%Q) 50 then 0 else 1) X, [[3 # 2]; [102]]%Q)
  else km_turn 1 X k.

Lemma km_turn_ok dim : kmeans_ok dim (km_turn dim).
Proof.
  intros X k Hk. unfold km_turn. cbn. rewrite !map_length, !seq_length. repeat split.
  - unfold rect. rewrite Forall_map, Forall_forall. intros i _. apply resize_length.
  - rewrite Forall_map, Forall_forall. intros i _. apply Nat.mod_upper_bound. lia.
Qed.

Lemma km_side_ok : kmeans_ok 1 km_side.
Proof.
  intros X k Hk. unfold km_side. destruct (Nat.eqb_spec k 2) as [->|]; cbn [andb]; [|now apply km_turn_ok].
  destruct (length X =? 12); [|now apply km_turn_ok]. cbn. rewrite map_length. repeat split.
  - repeat constructor.
  - rewrite Forall_map, Forall_forall. intros x _. destruct (Qle_bool _ _); lia.
Qed.

(** ** ADOMS *)
Definition cross_D : dataset := mk_data
  [[0;5];[12;0];[-12;0];[0;-5];[100;0];[101;0];[102;0];[103;0];[104;0];[105;0]]%Q 2 [1;1;1;1;0;0;0;0;0;0]%Z.
Lemma cross_D_ok : wf_data (d_X cross_D) (d_dim cross_D) (d_y cross_D) /\ is_minority (d_y cross_D) 1 0.
Proof. data_ok. Qed.

(** The Euclidean norm of the differences of the minority rows of [cross_D]. *)
Definition cross_norm (v : row) : Q :=
  let q := sqnorm v in
  if Qeq_bool q 169 then 13 else if Qeq_bool q 576 then 24 else if Qeq_bool q 100 then 10 else 0.

(** [u] is a unit vector along which the rows of P vary most. *)
Definition principal (dim : nat) (P : list row) (u : row) : Prop :=
  length u = dim /\ (sqnorm u == 1)%Q /\
  forall m w, mean_of dim P m -> length w = dim ->
    (qsum (map (fun x => dot (vsub x m) w * dot (vsub x m) w) P) <=
     sqnorm w * qsum (map (fun x => dot (vsub x m) u * dot (vsub x m) u) P))%Q.

Definition euclidean_on (norm : row -> Q) (P : list row) : Prop :=
  forall a b, In a P -> In b P -> (0 <= norm (vsub a b))%Q /\ (norm (vsub a b) * norm (vsub a b) == sqnorm (vsub a b))%Q.

Definition cross_rows : list row := [[0;5];[12;0];[-12;0];[0;-5]]%Q.

Lemma cross_norm_ok : euclidean_on cross_norm cross_rows.
Proof.
  intros a b Ha Hb. cbn in Ha, Hb.
  repeat (destruct Ha as [<-|Ha]; [repeat (destruct Hb as [<-|Hb]; [split; vm_compute; (reflexivity || discriminate)|]); destruct Hb|]). destruct Ha.
Qed.

Lemma cross_principal P : Permutation P cross_rows -> principal 2 P [1;0]%Q.
Proof.
  intros HP. split; [reflexivity|]. split; [reflexivity|]. intros m w [Lm Hm] Lw.
  pose proof (Permutation_length HP) as LP.
  destruct m as [|m0 [|m1 [|]]]; try discriminate Lm. destruct w as [|w0 [|w1 [|]]]; try discriminate Lw.
  assert (M0 : (m0 == 0)%Q).
  { pose proof (Hm 0 ltac:(lia)) as E. cbn [nth] in E. rewrite (qsum_perm _ _ (Permutation_map (fun x => nth 0 x 0%Q) HP)), LP in E. rewrite E. reflexivity. }
  assert (M1 : (m1 == 0)%Q).
  { pose proof (Hm 1 ltac:(lia)) as E. cbn [nth] in E. rewrite (qsum_perm _ _ (Permutation_map (fun x => nth 1 x 0%Q) HP)), LP in E. rewrite E. reflexivity. }
  rewrite (qsum_perm _ _ (Permutation_map (fun x => (dot (vsub x [m0;m1]) [w0;w1] * dot (vsub x [m0;m1]) [w0;w1])%Q) HP)).
  rewrite (qsum_perm _ _ (Permutation_map (fun x => (dot (vsub x [m0;m1]) [1;0]%Q * dot (vsub x [m0;m1]) [1;0]%Q)%Q) HP)).
  unfold cross_rows, dot, vsub, sqnorm, qsum. cbn [map map2 fold_right]. rewrite M0, M1. ring_simplify. nra.
Qed.

(** ** G_SMOTE *)
Definition tilt_D : dataset := mk_data
  [[-15;20];[27;-36];[48;36];[-48;-36];[1000;0];[1001;0];[1002;0];[1003;0];[1004;0];[1005;0]]%Q 2 [1;1;1;1;0;0;0;0;0;0]%Z.
Lemma tilt_D_ok : wf_data (d_X tilt_D) (d_dim tilt_D) (d_y tilt_D) /\ is_minority (d_y tilt_D) 1 0.
Proof. data_ok. Qed.

Definition tilt_norm (v : row) : Q :=
  let q := sqnorm v in
  if Qeq_bool q 4900 then 70 else if Qeq_bool q 4225 then 65 else if Qeq_bool q 5625 then 75
  else if Qeq_bool q 14400 then 120 else if Qeq_bool q 1 then 1 else 0.
Definition tilt_rows : list row := [[-15;20];[27;-36];[48;36];[-48;-36]]%Q.
Lemma tilt_norm_ok : euclidean_on tilt_norm tilt_rows.
Proof.
  intros a b Ha Hb. cbn in Ha, Hb.
  repeat (destruct Ha as [<-|Ha]; [repeat (destruct Hb as [<-|Hb]; [split; vm_compute; (reflexivity || discriminate)|]); destruct Hb|]). destruct Ha.
Qed.
Lemma tilt_norm_nonneg v : (0 <= tilt_norm v)%Q.
Proof. unfold tilt_norm. repeat destruct (Qeq_bool _ _); discriminate. Qed.

(** Column [i] of a matrix. *)
Definition col (i : nat) (M : list row) : row := map (fun x => nth i x 0%Q) M.

(** The columns of the matrix are unit eigenvectors of the covariance of P. *)
Definition eigen_columns (dim : nat) (P : list row) (wv : list Q * list row) : Prop :=
  forall m i, mean_of dim P m -> i < dim ->
    (sqnorm (col i (snd wv)) == 1)%Q /\
    forall j, j < dim ->
      (qsum (map (fun k => qsum (map (fun x => (nth j x 0 - nth j m 0) * (nth k x 0 - nth k m 0)) P) / inject_Z (Z.of_nat (length P - 1))
                           * nth k (col i (snd wv)) 0) (seq 0 dim)) == nth i (fst wv) 0 * nth j (col i (snd wv)) 0)%Q.

Definition tilt_eig (_ : list row) : list Q * list row := ([2400; 850], [[4 # 5; -3 # 5]; [3 # 5; 4 # 5]])%Q.
Lemma tilt_eig_ok : eig_ok 2 tilt_eig.
Proof. intros P. cbn. repeat split. repeat constructor. Qed.

Lemma tilt_eigen : eigen_columns 2 tilt_rows (tilt_eig tilt_rows).
Proof.
  intros m i [Lm Hm] Hi. destruct m as [|m0 [|m1 [|]]]; try discriminate Lm.
  assert (M0 : (m0 == 3)%Q) by (rewrite (Hm 0 ltac:(lia)); reflexivity).
  assert (M1 : (m1 == -4)%Q) by (rewrite (Hm 1 ltac:(lia)); reflexivity).
  split; [destruct i as [|[|]]; [| |lia]; reflexivity|].
  intros j Hj. destruct i as [|[|]]; [| |lia]; (destruct j as [|[|]]; [| |lia]);
    unfold tilt_rows, tilt_eig, qsum, col; cbn [map fold_right seq nth fst snd length Nat.sub Z.of_nat]; rewrite M0, M1; vm_compute; reflexivity.
Qed.

(** A decreasing function in place of the inverse cosine. *)
Definition arc (q : Q) : Q := (2 - q)%Q.
Lemma arc_ok : arccos_ok arc.
Proof. intros a b _ H. unfold arc. Lqa.lra. Qed.

(** ** MDO *)
Definition low_root (q : Q) : Q := if Qle_bool q 1 then q else 1%Q.
Lemma low_root_ok : root_below low_root.
Proof.
  intros q Hq. unfold low_root. destruct (Qle_bool q 1) eqn:E.
  - apply Qle_bool_iff in E. split; [assumption|nra].
  - assert (~ (q <= 1)%Q) by (intro G; apply Qle_bool_iff in G; congruence). split; [discriminate|Lqa.lra].
Qed.

Definition pca_same (dim : nat) (Z : list row) : list row := map (resize (Nat.min dim (length Z))) Z.
Definition pca_back (dim : nat) (_ : list row) (v : row) : row := resize dim v.
Lemma pca_same_ok dim : pca_ok dim (pca_same dim) (pca_back dim).
Proof.
  intros Z. unfold pca_same. rewrite map_length. split; [reflexivity|]. split; [|intros v; apply resize_length].
  unfold rect. rewrite Forall_map, Forall_forall. intros x _. apply resize_length.
Qed.

Definition axes_D : dataset := mk_data
  [[1;0;0];[-1;0;0];[0;1;0];[0;-1;0];[0;0;1];[0;0;-1];
   [100;0;0];[101;0;0];[102;0;0];[103;0;0];[104;0;0];[105;0;0];[106;0;0];[107;0;0]]%Q 3 [1;1;1;1;1;1;0;0;0;0;0;0;0;0]%Z.
Lemma axes_D_ok : wf_data (d_X axes_D) (d_dim axes_D) (d_y axes_D) /\ is_minority (d_y axes_D) 1 0.
Proof. data_ok. Qed.

(** Every minority row has a majority row next to it. *)
Definition lone_D : dataset := mk_data
  [[0];[1];[100];[101];[200];[201];[300]]%Q 1 [1;0;1;0;1;0;0]%Z.
Lemma lone_D_ok : wf_data (d_X lone_D) (d_dim lone_D) (d_y lone_D) /\ is_minority (d_y lone_D) 1 0.
Proof. data_ok. Qed.
