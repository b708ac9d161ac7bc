(** Concrete data for C115 to C119. *)

From Coq Require Import List ZArith QArith Qabs Qround Bool Arith Lia Lqa Permutation.
From Verif Require Import Np PyVal NpFacts SimplexModel Spec SpecNoise SpecComp SimplexFacts SimplexGeom Float64
  SamplerModel SamplerFacts OversFacts OversGen BaseModel NoiseModel KnnModel KnnFacts DangerModel ClusterOversModel
  ClusterOversFacts CompModel CompFacts SpecNear LevelModel SpecLevel SpecGroup WrapModel SpecWrap DirModel SpecDir RegionModel SpecRegion
  SearchModel SpecSearch GraphModel SpecGraph MixModel SpecMix CompFacts2
  Witness DangerWitness ClusterWitness CompWitness EditWitness NearWitness LevelWitness WrapWitness DirWitness RegionWitness SearchWitness GraphWitness.
Import ListNotations.
Open Scope nat_scope.


(** The last [m] things. *)
Definition take_last : subsets := fun _ b m => seq (b - m) m.
Lemma take_last_ok : subsets_ok take_last.
Proof.
  intros t b m H. unfold take_last. split; [apply seq_length|]. split; [apply seq_NoDup|]. apply Forall_forall. intros i Hi. apply in_seq in Hi. lia.
Qed.

(** ** SMOTEWB *)

Definition even_weights (X : list row) (_ : list Z) : list Q := map (fun _ => (1 # 10)%Q) X.
Lemma even_weights_length X y : length (even_weights X y) = length X.
Proof. apply map_length. Qed.

Definition wb_D : dataset := mk_data [[0];[1];[2];[10];[11];[12];[13];[14]]%Q 1 [1;1;1;0;0;0;0;0]%Z.
Lemma wb_D_ok : wf_data (d_X wb_D) (d_dim wb_D) (d_y wb_D) /\ is_minority (d_y wb_D) 1 0.
Proof. data_ok. Qed.
(** One row without weight. *)
Definition one_quiet (X : list row) (y : list Z) : list Q :=
  map (fun iz => if fst iz =? 0 then 0%Q else if Z.eqb (snd iz) 1 then (1 # 5)%Q else (3 # 25)%Q) (combine (seq 0 (length X)) (y ++ repeat 0%Z (length X))).
Lemma one_quiet_length X y : length (one_quiet X y) = length X.
Proof. unfold one_quiet. rewrite map_length, combine_length, seq_length, app_length, repeat_length. lia. Qed.

(** ** SOMO *)

(** The column, rounded down. *)
Definition by_floor (_ : list row) (x : row) : cell := (Qfloor (nth 0 x 0%Q), 0%Z).

(** ** V_SYNTH *)

Definition fit_to (n : nat) (x : row) : row := firstn n (x ++ repeat 0%Q n).
Lemma fit_to_length n x : length (fit_to n x) = n.
Proof. unfold fit_to. rewrite firstn_length, app_length, repeat_length. lia. Qed.
(** The first columns. *)
Definition pca_first (d : nat) (n : nat) (_ : list row) : res pca_fit := Ok (mk_pca (fit_to n) (repeat (1 # 2)%Q n) (fit_to d)).
Lemma pca_first_ok d : pca_ok d (pca_first d).
Proof.
  intros n X f H. injection H as <-. cbn. split; [apply repeat_length|]. split; intros; apply fit_to_length.
Qed.
(** A diagram with one ridge, between points 2 and 3. *)
Definition one_ridge (P : list row) : res voronoi_diagram :=
  match P with
  | a :: b :: c :: _ :: _ => Ok (mk_voronoi [a; b; c] [((2, 3), [0; -1]%Z)])
  | _ => Err ValueError
  end.
Lemma one_ridge_ok : voronoi_ok one_ridge.
Proof.
  intros k P V HP H. destruct P as [|a [|b [|c [|e P]]]]; try discriminate. injection H as <-. unfold rect in HP.
  inversion HP as [|? ? Ha HP1]; subst. inversion HP1 as [|? ? Hb HP2]; subst. inversion HP2 as [|? ? Hc _]; subst. cbn. split; [repeat constructor; assumption|]. split; [discriminate|].
  constructor; [|constructor]. cbn. split; [lia|]. split; [lia|]. split; [discriminate|]. repeat constructor; lia.
Qed.

Definition v_D : dataset := mk_data [[1;1];[2;1];[1;2];[5;5];[6;5];[5;6];[6;6];[7;7]]%Q 2 [1;1;1;0;0;0;0;0]%Z.
Lemma v_D_ok : wf_data (d_X v_D) (d_dim v_D) (d_y v_D) /\ is_minority (d_y v_D) 1 0.
Proof. data_ok. Qed.
(** The first row is the lower corner, which does not move as it is zero. *)
Definition v_E : dataset := mk_data [[0;0];[1;0];[0;1];[5;5];[6;5];[5;6];[6;6];[7;7]]%Q 2 [1;1;1;0;0;0;0;0]%Z.
Lemma v_E_ok : wf_data (d_X v_E) (d_dim v_E) (d_y v_E) /\ is_minority (d_y v_E) 1 0.
Proof. data_ok. Qed.

(** ** DSMOTE *)

Fixpoint gap (x z : row) : Q :=
  match x, z with
  | [], [] => 0
  | a :: x', b :: z' => Qabs (a - b) + gap x' z'
  | _, _ => 1
  end%Q.
Lemma gap_nonneg x : forall z, (0 <= gap x z)%Q.
Proof. induction x as [|a x IH]; intros [|b z]; cbn [gap]; try lra. pose proof (Qabs_nonneg (a - b)). specialize (IH z). lra. Qed.
Lemma gap_pos x : forall z, ~ same_row x z -> (0 < gap x z)%Q.
Proof.
  induction x as [|a x IH]; intros [|b z] H; cbn [gap]; try lra; [exfalso; apply H; constructor|].
  pose proof (Qabs_nonneg (a - b)) as P1. pose proof (gap_nonneg x z) as P2.
  destruct (Qeq_dec (a - b) 0) as [E|N].
  - assert (0 < gap x z)%Q; [|lra]. apply IH. intros C. apply H. constructor; [lra|exact C].
  - assert (0 < Qabs (a - b))%Q; [|lra]. destruct (Qlt_le_dec 0 (Qabs (a - b))); [assumption|]. exfalso. apply N.
    apply Qabs_Qle_condition in q. lra.
Qed.

(** Rounded up to twentieths. *)
Definition grid_dist (x z : row) : Q := inject_Z (Qceiling (20 * gap x z)).
Lemma grid_dist_pos x z : ~ same_row x z -> (0 < grid_dist x z)%Q.
Proof. intros H. apply gap_pos in H. unfold grid_dist. pose proof (Qle_ceiling (20 * gap x z)). lra. Qed.
Lemma grid_dist_nonneg x z : (0 <= grid_dist x z)%Q.
Proof. pose proof (gap_nonneg x z). unfold grid_dist. pose proof (Qle_ceiling (20 * gap x z)). lra. Qed.

Lemma nth_map_seq (f : nat -> Q) d j : j < d -> nth j (map f (seq 0 d)) 0%Q = f j.
Proof. intros H. rewrite (nth_indep _ _ (f 0)) by (now rewrite map_length, seq_length). rewrite (map_nth f), seq_nth by exact H. reflexivity. Qed.

(** Half way between the smallest and the largest number of each column. *)
Definition mid_range (d : nat) (P : list row) : row := map (fun j => Qred ((col_min (column j P) + col_max (column j P)) / 2)%Q) (seq 0 d).
Lemma mid_range_ok d : gmean_ok d (mid_range d).
Proof.
  intros P HP Hne. unfold mid_range. split; [now rewrite map_length, seq_length|]. intros _ j Hj.
  rewrite nth_map_seq by exact Hj.
  destruct (column_range P j Hne) as (A & (x & Hx & Ex) & (z & Hz & Ez)). set (lo := col_min _) in *. set (hi := col_max _) in *.
  assert (lo <= hi)%Q by (destruct (A x Hx); lra).
  assert (E : (Qred ((lo + hi) / 2) == lo + (hi - lo) * (1 # 2))%Q) by (rewrite Qred_correct; field). split; [exists x|exists z]; (split; [assumption|]); rewrite E; lra.
Qed.

Definition flat_score (_ : list row) (_ : nat) (_ : list row) (_ : row) : option Q := Some 1%Q.
Definition no_score (_ : list row) (_ : nat) (_ : list row) (_ : row) : option Q := None.
Definition quarter : f64 := f_div f_one (f_of_Z 4).
Definition ds_D : dataset := mk_data [[0;0];[1;0];[0;1];[4;4];[5;4];[4;5];[5;5];[5;3];[3;5]]%Q 2 [1;1;1;1;0;0;0;0;0]%Z.
Lemma ds_D_ok : wf_data (d_X ds_D) (d_dim ds_D) (d_y ds_D) /\ is_minority (d_y ds_D) 1 0.
Proof. data_ok. Qed.
Lemma ds_D_apart x : In x (rows_with 1%Z (d_X ds_D) (d_y ds_D)) -> exists z, In z (rows_with 0%Z (d_X ds_D) (d_y ds_D)) /\ ~ same_row x z.
Proof.
  intros H. exists [5; 5]%Q. split; [cbn; tauto|]. intros C. cbn in H. inversion C as [|a b x' z' E _]; subst.
  destruct H as [H|[H|[H|[H|[]]]]]; injection H as <- _; revert E; apply Qeq_bool_neq; reflexivity.
Qed.
