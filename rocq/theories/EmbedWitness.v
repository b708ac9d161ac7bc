(** Concrete data for C120 to C125. *)

From Coq Require Import List ZArith QArith Qabs Qround Bool Arith Lia Lqa Permutation.
From Verif Require Import Np PyVal NpFacts SimplexModel Spec SpecNoise SpecComp SimplexFacts SimplexGeom Float64
  SamplerModel SamplerFacts OversFacts OversGen BaseModel NoiseModel KnnModel KnnFacts DangerModel NearModel ClusterOversModel
  ClusterOversFacts CompModel CompFacts SpecNear LevelModel SpecLevel SpecGroup WrapModel SpecWrap DirModel SpecDir RegionModel SpecRegion
  SearchModel SpecSearch GraphModel SpecGraph MixModel SpecMix EmbedModel SpecEmbed CompFacts2
  Witness DangerWitness ClusterWitness CompWitness EditWitness NearWitness LevelWitness WrapWitness DirWitness RegionWitness SearchWitness GraphWitness MixWitness.
Import ListNotations.
Open Scope nat_scope.

(** Fractions in lowest terms. *)
Definition tidy (out : res (list row * list Z)) : res (list row * list Z) :=
  match out with Ok (X, y) => Ok (map (map Qred) X, y) | Err e => Err e end.

(** The score is the column. *)
Definition first_column (_ : list row) (x : row) : Q := nth 0 x 0%Q.

(** The first axis only. *)
Definition first_axis (_ : list row) : res (nat * list row) := Ok (1, [[1]; [0]]%Q).
Lemma first_axis_ok : eigen_ok first_axis 2.
Proof. intros X k T H. injection H as <- <-. repeat constructor. Qed.
Definition no_axis (_ : list row) : res (nat * list row) := Err LinAlgError.
Definition fine_bandwidth (_ _ : list row) (_ : list Z) : res unit := Ok tt.
Definition halves (n k : nat) : list row := repeat (repeat (1 # 2)%Q k) n.
Lemma halves_ok : normals_ok halves.
Proof. intros n k. split; [apply repeat_length|]. apply Forall_repeat. apply repeat_length. Qed.

(** ** KernelADASYN *)

Definition flat_kernel (_ : list row) (_ : list Q) (_ : row) : Q := 1%Q.
Lemma flat_kernel_ok : kernel_ok flat_kernel.
Proof. intros X r _ _. split; intros; reflexivity || discriminate. Qed.
(** The matrix itself, all ones. *)
Definition ones (V : list row) : res (list row) := Ok (map (fun _ => repeat 1%Q (length V)) V).
Lemma ones_ok : cholesky_shapes ones.
Proof.
  intros V L H. injection H as <-. split; [apply map_length|]. apply Forall_forall. intros x Hx. apply in_map_iff in Hx. destruct Hx as (v & <- & _). apply repeat_length.
Qed.
Definition tenths (_ i k : nat) : row := repeat (Z.of_nat i # 10)%Q k.
Definition three_wide (V : list row) : bool := length V =? 3.
Definition never_ill (_ : list row) : bool := false.
Lemma pca_first_shapes d : pca_shapes (pca_first d).
Proof. intros k X f H x _. injection H as <-. cbn. apply fit_to_length. Qed.
Definition ka_ds (_ : nat) : draws := draws_at (1 # 2).
Lemma ka_ds_ok l : draws_ok (ka_ds l).
Proof. apply draws_at_ok, half_share. Qed.
Definition ka_p := mk_ka one 5 3 2.
Definition ka_D : dataset := mk_data
  [[0;0;5];[1;0;5];[0;1;5];[1#2;1#2;5];[2;0;5];[0;2;5];[2;2;5];[3;3;5]]%Q 3 [1;1;1;0;0;0;0;0]%Z.
Lemma ka_D_ok : wf_data (d_X ka_D) (d_dim ka_D) (d_y ka_D) /\ is_minority (d_y ka_D) 1 0.
Proof. data_ok. Qed.

(** ** MOT2LD *)

Definition same_place (_ : nat) (X : list row) : list row := X.
Lemma same_place_ok : tsne_ok same_place.
Proof. intros k X. reflexivity. Qed.
Definition first_peak (d : list Q) (_ : nat) : res (list nat) := match d with [] => Err ValueError | _ => Ok [0] end.
Lemma first_peak_ok : peaks_ok first_peak.
Proof. intros [|q d] w peaks H; [discriminate|]. injection H as <-. constructor; [cbn; lia|constructor]. Qed.
Definition no_peak (_ : list Q) (_ : nat) : res (list nat) := Ok [].
Definition mo_p := mk_mot one 2 3 None ex_ss.
(** The last minority row is among the majority. *)
Definition mot_D : dataset := mk_data
  [[49];[51];[52];[100];[101];[102];[0];[1];[2];[50]]%Q 1 [0;0;0;0;0;0;1;1;1;1]%Z.
Lemma mot_D_ok : wf_data (d_X mot_D) (d_dim mot_D) (d_y mot_D) /\ is_minority (d_y mot_D) 1 0.
Proof. data_ok. Qed.

(** ** DEAGO *)

Definition halver (d : nat) (_ : list row) (x : row) : row := fit_to d (map (fun q => q / 2)%Q x).
Lemma halver_length d P x : length (halver d P x) = d.
Proof. apply fit_to_length. Qed.

(** ** ASMOBD *)

(** The core distance is that to the nearest other row. *)
Definition next_row (_ : nat) (_ : Q) (X : list row) : res (list (option Q) * list (option Q)) :=
  Ok (map (fun x => Some (col_min (filter (Qlt_b 0) (map (sqdist x) X)))) X, match X with [] => [] | _ :: X' => None :: map (fun _ => Some 0%Q) X' end).
Lemma col_min_nonneg l : Forall (fun q => (0 <= q)%Q) l -> (0 <= col_min l)%Q.
Proof.
  destruct l as [|q l]; [intros _; apply Qle_refl|]. intros H. destruct (col_min_spec (q :: l) ltac:(discriminate)) as [H1 _].
  rewrite Forall_forall in H. now apply H.
Qed.
Lemma next_row_ok : optics_ok next_row.
Proof.
  intros k e X. left. eexists _, _. split; [reflexivity|]. split; [apply map_length|]. split; [destruct X; cbn; [reflexivity|now rewrite map_length]|]. split.
  - intros q H. apply in_map_iff in H. destruct H as (x & E & _). injection E as <-. apply col_min_nonneg. apply Forall_forall. intros q Hq.
    apply filter_In in Hq. destruct Hq as [Hq _]. apply in_map_iff in Hq. destruct Hq as (z & <- & _). apply sqdist_nonneg.
  - intros H. destruct X; [congruence|]. now left.
Qed.
Definition squash2 (q : Q) : Q := (Qabs q / (2 + Qabs q))%Q.
Lemma squash2_range q : (0 <= squash2 q < 1)%Q.
Proof.
  unfold squash2. pose proof (Qabs_nonneg q) as H. split; [apply Qle_shift_div_l|apply Qlt_shift_div_r]; lra.
Qed.
Definition ab_p (sigmoid : bool) (eta : Q) := mk_asmobd one 2 (4 # 5) eta 100 100 1 1 2 sigmoid ex_ss.
(** Two minority rows and a majority row close to each other. *)
Definition ab_D : dataset := mk_data
  [[0];[1#10];[5];[10];[1#20];[100];[101];[102];[103];[104]]%Q 1 [1;1;1;1;0;0;0;0;0;0]%Z.
Lemma ab_D_ok : wf_data (d_X ab_D) (d_dim ab_D) (d_y ab_D) /\ is_minority (d_y ab_D) 1 0.
Proof. data_ok. Qed.

