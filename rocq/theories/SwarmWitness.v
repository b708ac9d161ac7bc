(** Concrete data for C126 to C128. *)

From Coq Require Import List ZArith QArith Qabs Qround Bool Arith Lia Lqa Permutation.
From Verif Require Import Np PyVal NpFacts SimplexModel Spec SpecNoise SpecComp SimplexFacts SimplexGeom Float64
  SamplerModel SamplerFacts OversFacts OversGen BaseModel NoiseModel KnnModel KnnFacts DangerModel NearModel ClusterOversModel
  ClusterOversFacts CompModel CompFacts SpecNear LevelModel SpecLevel SpecGroup WrapModel SpecWrap DirModel SpecDir RegionModel SpecRegion
  SearchModel SpecSearch GraphModel SpecGraph MixModel SpecMix SwarmModel SpecSwarm CompFacts2 LevelFacts4
  Witness DangerWitness ClusterWitness CompWitness EditWitness NearWitness LevelWitness WrapWitness DirWitness RegionWitness SearchWitness GraphWitness MixWitness EmbedWitness.
From Verif Require CompFacts4.
Import ListNotations.
Open Scope nat_scope.

(** ** IPADE_ID *)

Definition ip_D : dataset := mk_data [[0];[1];[2];[3];[4];[10];[11];[12];[13];[14];[16]]%Q 1 [1;1;1;1;1;0;0;0;0;0;0]%Z.
Lemma ip_D_ok : wf_data (d_X ip_D) (d_dim ip_D) (d_y ip_D) /\ is_minority (d_y ip_D) 1 0.
Proof. data_ok. Qed.

(** A tree with two leaves, and a tree with one. *)
Definition by_half (X : list row) (_ : list Z) : list nat := map (fun x => if Qle_bool (hd 0%Q x) (1 # 2) then 0 else 1) X.
Lemma by_half_ok : leaves_ok by_half.
Proof. intros X y. apply map_length. Qed.
Definition one_leaf (X : list row) (_ : list Z) : list nat := map (fun _ => 0) X.
Lemma one_leaf_ok : leaves_ok one_leaf.
Proof. intros X y. apply map_length. Qed.

(** The score is better if the first row is far left. *)
Definition has_both (l : list Z) : bool := existsb (Z.eqb 1) l && existsb (Z.eqb 0) l.
Definition far_left (GS V : training) : res Q :=
  if has_both (snd V) then Ok (if Qle_bool (hd 0%Q (hd [] (fst GS))) (1 # 10) then 1 else (1 # 2))%Q else Err ValueError.
Lemma has_both_spec l : has_both l = true <-> both 1 0 l.
Proof.
  unfold has_both, both. rewrite andb_true_iff, !existsb_exists. split.
  - intros [(a & H1 & H2) (b & H3 & H4)]. apply Z.eqb_eq in H2, H4. now subst.
  - intros [H1 H2]. split; [exists 1%Z|exists 0%Z]; now split.
Qed.
Lemma far_left_ok : auc_ok far_left 1 0.
Proof.
  intros GS V. unfold far_left. destruct (has_both (snd V)) eqn:E; [left; now eexists|right]. split; [reflexivity|]. intros _ G.
  apply has_both_spec in G. congruence.
Qed.
Lemma far_left_steps X y : in_steps far_left X y 2.
Proof.
  split; [lia|]. intros GS W q _ _ H. unfold far_left in H. destruct (has_both _); [|discriminate]. injection H as <-.
  destruct (Qle_bool _ _); [exists 2|exists 1]; split; lia || reflexivity.
Qed.
Definition half_right (_ V : training) : res Q := if length (snd V) =? 0 then Err ValueError else Ok (1 # 2)%Q.
Lemma half_right_ok : accuracy_ok half_right 1 0.
Proof.
  intros GS V. unfold half_right. destruct (Nat.eqb_spec (length (snd V)) 0) as [E|E]; [right|left; now eexists].
  split; [reflexivity|]. intros _. now apply length_zero_iff_nil.
Qed.
Definition ip_p := mk_ip (1 # 2) (1 # 2) 2 3.

(** ** SMOTE_PSO *)

Definition norm1 (x : row) : Q := qsum (map Qabs x).
Lemma norm1_ok : norm_ok norm1.
Proof.
  unfold norm1. split; [|split].
  - intros x. induction x as [|a x IH]; cbn; [lra|]. pose proof (Qabs_nonneg a). lra.
  - intros c x. induction x as [|a x IH]; [cbn; ring|]. change (vscale c (a :: x)) with (c * a :: vscale c x)%Q. cbn [map]. rewrite !qsum_cons, Qabs_Qmult, IH. ring.
  - intros x y H. induction H as [|a b x y H1 H2 IH]; [reflexivity|]. cbn [map]. rewrite !qsum_cons, IH. now rewrite H1.
Qed.
Definition all_rows (_ : list row) (y : list Z) : list nat := seq 0 (length y).
Lemma all_rows_ok mn mj : support_ok all_rows mn mj.
Proof.
  intros X y _ H. unfold all_rows, labels_at. split; [apply Forall_forall; intros i Hi; apply in_seq in Hi; lia|].
  replace (map (fun i => nth i y 0%Z) (seq 0 (length y))) with y; [exact H|]. symmetry. apply CompFacts4.map_nth_seq.
Qed.
(** The score grows with the distance of the last row from the origin. *)
Definition far_out (A _ : training) : res Q := Ok (norm1 (last (fst A) [])).
Lemma far_out_ok mn mj : score_ok far_out mn mj.
Proof. intros A B _ _. exists (norm1 (last (fst A) [])). split; [reflexivity|apply norm1_ok]. Qed.
Definition pso_p := mk_pso 1 (1 # 10) 2 1 1 1 2.

(** ** SMOTE_PSOBAT *)

(** Half of the rows missing, or all of them. *)
Definition two_steps (q : Q) : f64 := if Qle_bool q (1 # 2) then f_div f_one (f_of_Z 2) else f_one.
Lemma two_steps_ok : proportions_ok two_steps (d_y en_D) 1 0.
Proof.
  intros q _. unfold two_steps. destruct (Qle_bool q (1 # 2)); [exists 1%Z|exists 2%Z]; vm_compute; reflexivity.
Qed.
(** The first particle is far right, the others are far left. *)
Definition spread : draws := mk_draws (fun _ _ b => b - 1) (fun t s => if (t =? 0) || negb (s =? 1) then (1 # 2) else 0)%Q (fun _ _ => (0, 1)) (fun _ w => first_positive w).
Lemma spread_ok : draws_ok spread.
Proof.
  destruct (draws_last_ok _ half_share) as [H1 H2 H3 H4]. constructor; [exact H1| |exact H3|exact H4].
  intros t s. cbn. destruct ((t =? 0) || negb (s =? 1)); split; reflexivity || discriminate.
Qed.
(** Predictions: right for 12 rows, the first one is the fifth label otherwise; and right for 11 rows, the label
    of the last row otherwise. *)
Definition better_large (_ : list row) (y : list Z) : list Z :=
  if length y =? 12 then y else match y with a :: rest => nth 3 rest a :: rest | [] => [] end.
Definition better_small (_ : list row) (y : list Z) : list Z :=
  if length y =? 11 then y else map (fun _ => last y 0%Z) y.
Lemma last_in {A} (l : list A) d : l <> [] -> In (last l d) l.
Proof. induction l as [|a [|b l] IH]; intros H; [congruence|now left|right; apply IH; discriminate]. Qed.
Lemma better_large_ok : cross_ok better_large.
Proof.
  intros X y. unfold better_large. destruct (length y =? 12); [split; [reflexivity|apply incl_refl]|]. destruct y as [|a rest]; [split; [reflexivity|apply incl_refl]|].
  split; [reflexivity|]. intros z [<-|Hz]; [|now right]. destruct (nth_in_or_default 3 rest a) as [H | ->]; [now right|now left].
Qed.
Lemma better_small_ok : cross_ok better_small.
Proof.
  intros X y. unfold better_small. destruct (length y =? 11); [split; [reflexivity|apply incl_refl]|]. split; [apply map_length|].
  intros z Hz. apply in_map_iff in Hz as (w & <- & Hw). apply last_in. intros ->. destruct Hw.
Qed.
Definition still (maxit : nat) : pb_params := mk_pb maxit 0 0 0 ex_ss.
(** Simplices with three vertices, if there are two neighbours. *)
Definition wide_ss := mk_ss 3 SRandom WRandom GNone.
Lemma wide_ss_plain : plain_ss wide_ss.
Proof. repeat split; cbn; auto. Qed.
Definition rs00 (_ _ : nat) : rng := rng0.
Lemma rs00_ok t i : rng_ok (rs00 t i) /\ unif_pos (rs00 t i).
Proof. split; [apply rng0_ok|apply rng0_unif_pos]. Qed.
Definition three_D : dataset := mk_data [[0];[1];[2];[10];[11];[12];[13]]%Q 1 [1;1;1;0;0;0;0]%Z.
Lemma three_D_ok : wf_data (d_X three_D) (d_dim three_D) (d_y three_D) /\ is_minority (d_y three_D) 1 0.
Proof. data_ok. Qed.
Definition the_call (D : dataset) : pb_call := mk_call spread (fun _ => draws_at 0) rs00 rng0 D.
