(** Concrete data for C87 to C94. *)

From Coq Require Import List ZArith QArith Bool Arith Lia Lqa Permutation.
From Verif Require Import Np NpFacts SimplexModel Spec SpecNoise SpecComp SimplexFacts SimplexGeom Float64
  SamplerModel SamplerFacts OversFacts OversGen BaseModel NoiseModel KnnModel KnnFacts DangerModel ClusterOversModel
  ClusterOversFacts CompModel CompFacts SpecNear LevelModel SpecLevel SpecGroup WrapModel SpecWrap WrapFacts WrapFacts2 WrapFacts3 WrapFacts4 WrapFacts5
  Witness DangerWitness ClusterWitness CompWitness EditWitness NearWitness LevelWitness.
Import ListNotations.
Open Scope nat_scope.

Definition smk (k : nat) := mk_smote one k ex_ss.
Definition sm_none (k : nat) := mk_smote (StFloat (f_of_Z 0)) k ex_ss.

(** Rows without their last column. *)
Definition project (nc : nat) (X : list row) (y : list Z) : res (list row) := Ok (map (firstn nc) X).

Definition flat_D : dataset := mk_data
  [[0;0];[1;7];[2;5];[3;1];[3#2;9];[100;0];[101;1];[102;2];[103;3];[104;4]]%Q 2 [1;1;1;1;0;0;0;0;0;0]%Z.
Lemma flat_D_ok : wf_data (d_X flat_D) (d_dim flat_D) (d_y flat_D) /\ is_minority (d_y flat_D) 1 0.
Proof. data_ok. Qed.

(** One minority row has a majority neighbour; the same with the labels exchanged. *)
Definition sl_D : dataset := mk_data
  [[0];[1];[2];[20];[81#4];[100];[101];[102];[103];[104]]%Q 1 [1;1;1;1;0;0;0;0;0;0]%Z.
Definition sl_D' : dataset := mk_data (d_X sl_D) 1 (map (fun z => -1 * z + 1)%Z (d_y sl_D)).
Lemma sl_D_ok : wf_data (d_X sl_D) (d_dim sl_D) (d_y sl_D) /\ is_minority (d_y sl_D) 1 0.
Proof. data_ok. Qed.
Lemma sl_D'_ok : wf_data (d_X sl_D') (d_dim sl_D') (d_y sl_D') /\ is_minority (d_y sl_D') 0 1.
Proof. data_ok. Qed.

(** The square root up to a factor: the identity. *)
Lemma id_root_ok : root_ok (fun q => q).
Proof. split; auto. Qed.

Definition sum_abs (x : row) : Q := qsum (map Qabs.Qabs x).
Lemma sum_abs_nonneg x : (0 <= sum_abs x)%Q.
Proof. apply qsum_map_nonneg. intros a _. apply Qabs.Qabs_nonneg. Qed.

(** Rows at growing distances: every row joins the group of the rows before it. *)
Definition chain_D (n : nat) : dataset :=
  mk_data (map (fun i => [inject_Z (2 ^ Z.of_nat i)]) (seq 0 n) ++ map (fun i => [inject_Z (- Z.of_nat i)]) (seq 0 (S n))) 1
          (repeat 1%Z n ++ repeat 0%Z (S n)).

Lemma count_repeat a b n : count_label (repeat a n) b = if Z.eq_dec a b then n else 0.
Proof.
  unfold count_label. induction n as [|n IH]; cbn; [destruct (Z.eq_dec a b); reflexivity|]. rewrite IH. destruct (Z.eq_dec a b); reflexivity.
Qed.

Lemma chain_D_ok n : 3 <= n -> wf_data (d_X (chain_D n)) 1 (d_y (chain_D n)) /\ is_minority (d_y (chain_D n)) 1 0 /\ count_label (d_y (chain_D n)) 1 = n.
Proof.
  intros Hn. split; [split|split].
  - unfold rect. cbn [d_X chain_D]. rewrite Forall_app. split; rewrite Forall_map, Forall_forall; reflexivity.
  - cbn [d_X d_y chain_D]. rewrite !app_length, !map_length, !seq_length, !repeat_length. reflexivity.
  - split.
    + split; [discriminate|]. cbn [d_y chain_D]. split; [apply in_app_iff; left; destruct n; [lia|now left]|]. split; [apply in_app_iff; right; now left|].
      intros z Hz. apply in_app_iff in Hz. destruct Hz as [Hz|Hz]; apply repeat_spec in Hz; subst; auto.
    + left. cbn [d_y chain_D]. rewrite !count_label_app, !count_repeat. cbn [Z.eq_dec]. destruct (Z.eq_dec 1 1), (Z.eq_dec 0 1), (Z.eq_dec 1 0), (Z.eq_dec 0 0); try congruence; lia.
  - cbn [d_y chain_D]. rewrite !count_label_app, !count_repeat. destruct (Z.eq_dec 1 1), (Z.eq_dec 0 1); try congruence; lia.
Qed.

Definition first_rows (k : nat) (X : list row) : res (list row) := Ok (firstn k X).
Lemma first_rows_ok dim : centers_ok dim first_rows.
Proof.
  intros k X Hk HX. exists (firstn k X). split; [reflexivity|]. split; [rewrite firstn_length; lia|].
  unfold rect in *. rewrite <- (firstn_skipn k X) in HX. apply Forall_app in HX. apply HX.
Qed.

(** Cramer's rule for one or two equations. *)
Definition cramer (C : list row) : option (list Q) :=
  match C with
  | [[a]] => if Qeq_bool a 0 then None else Some [(1 / a)%Q]
  | [[a; b]; [c; d]] =>
    let det := (a * d - b * c)%Q in
    if Qeq_bool det 0 then None else Some [((d - b) / det)%Q; ((a - c) / det)%Q]
  | _ => None
  end.
Lemma cramer_ok : solver_ok cramer.
Proof.
  intros C w H. destruct C as [|[|a [|b [|]]] [|[|c [|d [|]]] [|]]]; cbn in H; try discriminate.
  - destruct (Qeq_bool a 0) eqn:E; [discriminate|]. injection H as <-. apply Qeq_bool_neq in E. split; [reflexivity|].
    repeat constructor. cbn. field. exact E.
  - destruct (Qeq_bool (a * d - b * c) 0) eqn:E; [discriminate|]. injection H as <-. apply Qeq_bool_neq in E. split; [reflexivity|].
    repeat constructor; cbn; field; exact E.
Qed.

Definition id_lle (k c : nat) (X : list row) : res (list row) := Ok (map (firstn c) X).
Definition llp (k c : nat) := mk_lle one k c ex_ss.

Definition lle_D : dataset := mk_data
  [[10;0];[0;0];[-1;1];[100;0];[101;0];[102;0];[103;0];[104;0]]%Q 2 [1;1;1;0;0;0;0;0]%Z.
Lemma lle_D_ok : wf_data (d_X lle_D) (d_dim lle_D) (d_y lle_D) /\ is_minority (d_y lle_D) 1 0.
Proof. data_ok. Qed.

(** The first of two weights is a quarter of the second. *)
Definition rng_fifth : rng := mk_rng (r_choice rng0) (fun n k => repeat (firstn k ((1 # 5) :: repeat (4 # 5) k)) n) (r_normal rng0).
Lemma rng_fifth_ok : rng_ok rng_fifth.
Proof.
  constructor; [apply rng0_ok| |apply rng0_ok]. intros n k. cbn [r_unif rng_fifth]. rewrite repeat_length. split; [reflexivity|].
  apply Forall_repeat. split; [rewrite firstn_length; cbn; rewrite repeat_length; lia|].
  assert (F : Forall (fun x => 0 <= x /\ x < 1)%Q ((1 # 5) :: repeat (4 # 5) k)).
  { constructor; [split; [discriminate|reflexivity]|]. apply Forall_repeat. split; [discriminate|reflexivity]. }
  rewrite <- (firstn_skipn k) in F. apply Forall_app in F. apply F.
Qed.
Lemma rng_fifth_pos : unif_pos rng_fifth.
Proof.
  intros n k Hk. cbn [r_unif rng_fifth]. apply Forall_repeat. destruct k as [|k]; [lia|]. cbn [firstn repeat qsum].
  assert (F : Forall (Qle 0) (repeat (4 # 5)%Q (Datatypes.S k))) by (apply Forall_repeat; discriminate).
  rewrite <- (firstn_skipn k) in F. apply Forall_app in F. destruct F as [F _]. apply qsum_nonneg in F. cbn [repeat] in F. Lqa.lra.
Qed.
