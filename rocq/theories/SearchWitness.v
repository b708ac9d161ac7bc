(** Concrete data for C105 to C109. *)

From Coq Require Import List ZArith QArith Qabs Bool Arith Lia Lqa Permutation.
From Verif Require Import Np PyVal NpFacts SimplexModel Spec SpecNoise SpecComp SimplexFacts SimplexGeom Float64
  SamplerModel SamplerFacts OversFacts OversGen BaseModel NoiseModel KnnModel KnnFacts DangerModel ClusterOversModel
  ClusterOversFacts CompModel CompFacts SpecNear LevelModel SpecLevel SpecGroup WrapModel SpecWrap DirModel SpecDir RegionModel SpecRegion
  SearchModel SpecSearch
  Witness DangerWitness ClusterWitness CompWitness EditWitness NearWitness LevelWitness WrapWitness DirWitness RegionWitness.
Import ListNotations.
Open Scope nat_scope.

(** Integers that cycle. *)
Definition cycle (u : Q) : draws := mk_draws (fun t s b => (t + s) mod b) (fun _ _ => u) (fun _ _ => (0, 1)) (fun _ w => first_positive w).
Lemma cycle_ok u : unit_share u -> draws_ok (cycle u).
Proof.
  intros Hu. destruct (draws_at_ok u Hu) as [_ H2 H3 H4]. constructor; [|exact H2|exact H3|exact H4].
  intros t s b Hb. cbn. apply Nat.mod_upper_bound. lia.
Qed.

(** The same, but the first integer is always 0. *)
Definition cycle0 (u : Q) : draws := mk_draws (fun t s b => if s =? 0 then 0 else (t + s) mod b) (fun _ _ => u) (fun _ _ => (0, 1)) (fun _ w => first_positive w).
Lemma cycle0_ok u : unit_share u -> draws_ok (cycle0 u).
Proof.
  intros Hu. destruct (draws_at_ok u Hu) as [_ H2 H3 H4]. constructor; [|exact H2|exact H3|exact H4].
  intros t s b Hb. cbn. destruct (s =? 0); [lia|]. apply Nat.mod_upper_bound. lia.
Qed.

Lemma cycle_covers u dim : covers (cycle u) dim dim.
Proof.
  intros t c Hc. cbn [cycle dr_int]. set (a := t + (3 + dim)). pose proof (Nat.div_mod a dim ltac:(lia)) as DM.
  pose proof (Nat.mod_upper_bound a dim ltac:(lia)) as U. destruct (Nat.le_gt_cases (a mod dim) c) as [G|G].
  - exists (c - a mod dim). split; [lia|]. symmetry. apply (Nat.mod_unique _ _ (a / dim)); [assumption|]. unfold a in *. lia.
  - exists (c + dim - a mod dim). split; [lia|]. symmetry. apply (Nat.mod_unique _ _ (a / dim + 1)); [assumption|]. unfold a in *. nia.
Qed.
Lemma cycle0_covers u dim : covers (cycle0 u) dim dim.
Proof.
  intros t c Hc. destruct (cycle_covers u dim t c Hc) as (k & Hk & E). exists k. split; [assumption|]. cbn [cycle cycle0 dr_int] in *. exact E.
Qed.

(** Two columns; the classifier likes more columns, or does not care. *)
Definition two_D : dataset := mk_data
  [[0;7];[1;8];[2;9];[10;0];[11;1];[12;2];[13;3];[14;4]]%Q 2 [1;1;1;0;0;0;0;0]%Z.
Lemma two_D_ok : wf_data (d_X two_D) (d_dim two_D) (d_y two_D) /\ is_minority (d_y two_D) 1 0.
Proof. data_ok. Qed.
Definition likes_more (_ : nat) (D : dataset) : Q := (Z.of_nat (1 + d_dim D) # Pos.of_nat (2 + d_dim D))%Q.
Lemma likes_more_pos t D : (0 < likes_more t D)%Q.
Proof. unfold likes_more, Qlt. cbn [Qnum Qden]. lia. Qed.
Definition no_taste (_ : nat) (_ : dataset) : Q := (1 # 2)%Q.

(** A classifier that says 1 below 2. *)
Definition below2 (_ : nat) (X : list row) (_ : list Z) : list Z := map (fun x => if Qle_bool 2 (nth 0 x 0%Q) then 0%Z else 1%Z) X.
Definition same_power (_ : nat) (u : Q) : Q := u.
Lemma same_power_ok : power_ok same_power.
Proof. intros ge u H. exact H. Qed.

Definition unit_spread (_ : nat) (_ : dataset) : Q := 1%Q.
Definition equal_weights (_ : nat) (D : dataset) : res (list xnum) := Ok (repeat (Fin 1) (count_label (d_y D) 1)).
Lemma equal_weights_ok : sensitivity_ok 1 equal_weights.
Proof.
  intros t D _. eexists. split; [reflexivity|]. split; [apply repeat_length|]. apply Forall_repeat. discriminate.
Qed.

Definition first_coord (x : row) : Q := Qabs (nth 0 x 0%Q).
Definition striped (k : nat) (P : list row) : list nat := map (fun i => i mod k) (seq 0 (length P)).
Lemma striped_ok : labels_ok striped.
Proof.
  intros k P Hk. unfold striped. rewrite map_length, seq_length. split; [reflexivity|]. apply Forall_map, Forall_forall. intros i _.
  apply Nat.mod_upper_bound. lia.
Qed.

Lemma row_of_table dist Xf Xq k T : nearest_table dist Xf Xq k T -> forall j, j < length T ->
  length (nth j T []) = k /\ NoDup (nth j T []) /\ Forall (fun i => i < length Xf) (nth j T []).
Proof.
  intros HT. unfold nearest_table in HT. induction HT as [|x t Xq T H HT IH]; intros j Hin; [cbn in Hin; lia|].
  destruct j as [|j]; [cbn; tauto|]. apply IH. cbn in Hin. lia.
Qed.

(** With all rows in every list of neighbours each minority row has company. *)
Lemma all_company D mn T i j k : nearest_table sqdist (d_X D) (d_X D) (length (d_X D)) T -> length (d_X D) = length (d_y D) ->
  i < length (d_y D) -> j < length (d_y D) -> k < length (d_y D) -> i <> k ->
  nth i (d_y D) 0%Z = mn -> nth k (d_y D) 0%Z = mn -> nth j (d_y D) 0%Z = mn -> has_company (d_y D) mn T j.
Proof.
  intros HT HL Hi Hj Hk Hne Ei Ek Ej. split; [assumption|]. split; [assumption|].
  assert (Ht : length (nth j T []) = length (d_X D) /\ NoDup (nth j T []) /\ Forall (fun i => i < length (d_X D)) (nth j T [])).
  { assert (Hin : j < length T) by (rewrite (proj1 (nearest_table_shape _ _ _ _ _ HT)); lia).
    exact (row_of_table _ _ _ _ _ HT j Hin). }
  destruct Ht as (L & N & F). set (t := nth j T []) in *.
  assert (A : incl (seq 0 (length (d_X D))) t).
  { apply NoDup_length_incl; [assumption|rewrite seq_length; lia|]. intros z Hz. rewrite Forall_forall in F. apply in_seq. specialize (F z Hz). lia. }
  assert (Ii : In i t) by (apply A, in_seq; lia). assert (Ik : In k t) by (apply A, in_seq; lia).
  destruct t as [|h t]; [destruct Ii|]. cbn [tl]. destruct Ii as [->|Ii]; [|eauto]. destruct Ik as [->|Ik]; [congruence|]. eauto.
Qed.
