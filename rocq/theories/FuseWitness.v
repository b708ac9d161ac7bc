(** Concrete data for C129 to C131. *)

From Coq Require Import List ZArith QArith Qabs Qround Bool Arith Lia Lqa Permutation.
From Verif Require Import Np PyVal NpFacts SimplexModel Spec SpecNoise SpecComp SimplexFacts SimplexGeom Float64
  SamplerModel SamplerFacts OversFacts OversGen BaseModel NoiseModel KnnModel KnnFacts DangerModel NearModel ClusterOversModel
  ClusterOversFacts CompModel CompFacts SpecNear LevelModel SpecLevel SpecGroup WrapModel SpecWrap DirModel SpecDir RegionModel SpecRegion
  SearchModel SpecSearch GraphModel SpecGraph MixModel SpecMix SwarmModel SpecSwarm FuseModel SpecFuse CompFacts2 LevelFacts4
  Witness DangerWitness ClusterWitness CompWitness EditWitness NearWitness LevelWitness WrapWitness DirWitness RegionWitness SearchWitness GraphWitness MixWitness EmbedWitness SwarmWitness.
From Verif Require CompFacts4.
Import ListNotations.
Open Scope nat_scope.


(** ** AMSCO *)

Definition am_p : am_params := mk_am 1 1 (1 # 2) (1 # 2) (1 # 2) ex_ss.
Definition am_p2 : am_params := mk_am 1 2 (1 # 2) (1 # 2) (1 # 2) ex_ss.
Definition as_one (_ : Q) : f64 := f_one.
Definition likes_all (_ _ : list row) : Q * Q := (1, 1)%Q.
(** Everything is predicted as the majority. *)
Definition no_kappa (_ _ : list row) : Q * Q := (0, 1 # 2)%Q.

Lemma as_one_ok M : M <= 24 -> numbers_ok as_one M.
Proof.
  intros HM q a b _ Hab. unfold as_one.
  assert (G : forallb (fun a => forallb (fun b => match det_n_to_sample (StFloat f_one) (Z.of_nat a) (Z.of_nat b) with Ok _ => true | Err _ => false end) (seq 0 25)) (seq 0 25) = true) by (vm_compute; reflexivity).
  rewrite forallb_forall in G. specialize (G a ltac:(apply in_seq; lia)). cbv beta in G. rewrite forallb_forall in G. specialize (G b ltac:(apply in_seq; lia)). cbv beta in G.
  destruct (det_n_to_sample _ _ _) as [n|]; [now exists n|discriminate].
Qed.

(** One position is removed, none is added. *)
Definition drop_one : draws := mk_draws (fun t s b => if (t =? 0) && (1 <? b) then 1 else 0) (fun _ _ => (1 # 2)%Q) (fun _ _ => (0, 1)) (fun _ w => first_positive w).
Lemma drop_one_ok : draws_ok drop_one.
Proof.
  destruct (draws_last_ok _ half_share) as [H1 H2 H3 H4]. constructor; [|exact H2|exact H3|exact H4].
  intros t s b Hb. cbn [drop_one dr_int]. destruct (t =? 0); cbn [andb]; [|lia]. destruct (Nat.ltb_spec 1 b); lia.
Qed.
Definition am_ads (_ : nat) : am_draws := mk_am_draws (draws_at (1 # 2)) rs00 (draws_last (1 # 2)) (fun _ _ => drop_one).
Lemma am_ads_ok t : am_draws_ok (am_ads t).
Proof. split; [apply draws_at_ok, half_share|]. split; [apply rs00_ok|]. split; [apply draws_last_ok, half_share|]. intros; apply drop_one_ok. Qed.

(** ** DSRBF *)

Definition rb_p (m_min n_pop n_iter n_epoch : nat) : rb_params := mk_rb (mk_smote one 2 ex_ss) m_min 4 n_pop 2 n_iter n_epoch.
Definition new_unit (_ : draws) (_ : nat) (_ : list row) : nat := 0.
Definition same_unit (u : nat) : nat := u.
Definition mutant_unit (_ : draws) (_ u : nat) : nat := S u.
Definition changed_unit (_ : draws) (u : nat) : nat := S u.
Definition same_units (_ : list row) (us : list nat) : list nat := us.
Lemma same_units_ok : improve_ok same_units.
Proof. intros X us. reflexivity. Qed.
(** The loss is smaller if the last row is further right. *)
Definition last_coord (_ : list nat) (X : list row) (_ : list Z) : Q := (- hd 0 (last X []))%Q.
Definition rs_two (e : nat) : rng := if e =? 0 then rng0 else rng_fifth.
Lemma rs_two_ok e : rng_ok (rs_two e) /\ unif_pos (rs_two e).
Proof. unfold rs_two. destruct (e =? 0); split; [apply rng0_ok|apply rng0_unif_pos|apply rng_fifth_ok|apply rng_fifth_pos]. Qed.
Definition rb_run p d D := rb_sample vol1 ex_nn nat new_unit same_unit mutant_unit changed_unit changed_unit same_units last_coord unit_sd p (fun _ _ => d) rs_two D.
Definition en_D_up : dataset := mk_data (d_X en_D) 1 (map (Z.add 1) (d_y en_D)).
Lemma en_D_up_ok : wf_data (d_X en_D_up) (d_dim en_D_up) (d_y en_D_up) /\ is_minority (d_y en_D_up) 2 1.
Proof. data_ok. Qed.

(** ** ADG *)

Fixpoint row_same (a b : row) : bool :=
  match a, b with
  | [], [] => true
  | x :: a, y :: b => Qeq_bool x y && row_same a b
  | _, _ => false
  end.
Lemma row_same_iff a b : row_same a b = true <-> same_row a b.
Proof.
  revert b. induction a as [|x a IH]; intros [|y b]; cbn; try (split; [discriminate|intros H; inversion H]).
  - split; [constructor|reflexivity].
  - rewrite andb_true_iff, Qeq_bool_iff, IH. split; [intros [H1 H2]; now constructor|intros H; inversion H; now split].
Qed.
(** One cluster, if the rows are not all the same. *)
Definition one_cluster (P : list row) : option (list nat) :=
  match P with
  | [] => None
  | x :: r => if forallb (row_same x) r then None else Some (map (fun _ => 0) P)
  end.
Lemma one_cluster_ok : clusters_ok one_cluster.
Proof.
  intros [|x r]; cbn [one_cluster].
  - split; [intros _ a b []|reflexivity].
  - assert (R : forall z, same_row z z) by (intros z; unfold same_row; induction z; constructor; auto; reflexivity).
    destruct (forallb (row_same x) r) eqn:E.
    + split; [intros _|reflexivity]. rewrite forallb_forall in E.
      assert (G : forall z, In z (x :: r) -> same_row x z) by (intros z [<-|Hz]; [apply R|now apply row_same_iff, E]).
      intros a b Ha Hb. apply G in Ha, Hb. unfold same_row in *. revert x E G b Ha Hb. clear. intros x _ _ b Ha. revert b.
      induction Ha as [|u v x' a Huv Ha IH]; intros b Hb; inversion Hb; subst; constructor; [now rewrite <- Huv|now apply IH].
    + split; [discriminate|]. intros H. exfalso. assert (forallb (row_same x) r = true); [|congruence]. apply forallb_forall. intros z Hz. apply row_same_iff. apply H; [now left|now right].
Qed.
Definition copies_first (P : list row) (_ q : nat) : list row := repeat (hd [] P) q.
Lemma copies_first_ok : mixture_ok copies_first.
Proof. intros P t q. apply repeat_length. Qed.
Definition all_ones (_ : nat) (Z P : list row) : option row := Some (map (fun _ => 1%Q) (Z ++ P)).
(** Singular if there are two columns. *)
Definition singular_two (_ : nat) (Z P : list row) : option row := if length (hd [] Z) =? 2 then None else Some (map (fun _ => 1%Q) (Z ++ P)).
Definition kernel1 (_ _ : row) : Q := 1%Q.
Definition keep_columns (_ : list row) (nc : nat) (x : row) : row := fit_to nc x.
Definition back_to_two (_ : list row) (_ : nat) (x : row) : row := fit_to 2 x.
Definition adg_run alpha D := adg_sample one_cluster alpha kernel1 copies_first keep_columns back_to_two 2 one D.
(** The labels of en_D exchanged. *)
Definition en_D_swap : dataset := mk_data (d_X en_D) 1 (map (Z.sub 1) (d_y en_D)).
Lemma en_D_swap_ok : wf_data (d_X en_D_swap) (d_dim en_D_swap) (d_y en_D_swap) /\ is_minority (d_y en_D_swap) 0 1.
Proof. data_ok. Qed.
