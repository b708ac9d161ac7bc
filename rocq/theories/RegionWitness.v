(** Concrete data for C101 to C104. *)

From Coq Require Import List ZArith QArith Qabs Bool Arith Lia Lqa Permutation.
From Verif Require Import Np NpFacts SimplexModel Spec SpecNoise SpecComp SimplexFacts SimplexGeom Float64
  SamplerModel SamplerFacts OversFacts OversGen BaseModel NoiseModel KnnModel KnnFacts DangerModel ClusterOversModel
  ClusterOversFacts CompModel CompFacts SpecNear LevelModel SpecLevel SpecGroup WrapModel SpecWrap DirModel SpecDir RegionModel SpecRegion
  Witness DangerWitness ClusterWitness CompWitness EditWitness NearWitness LevelWitness WrapWitness DirWitness.
Import ListNotations.
Open Scope nat_scope.

(** ** OUPS *)

(** The ranking in which rows come. *)
Definition as_is (X : list row) (_ : list Z) : list nat := seq 0 (length X).
Lemma as_is_ok : sorting_ok as_is.
Proof. intros X y _. apply Permutation_refl. Qed.

(** The reverse. *)
Definition backwards (X : list row) (_ : list Z) : list nat := rev (seq 0 (length X)).
Lemma backwards_ok : sorting_ok backwards.
Proof. intros X y _. apply Permutation_sym, Permutation_rev. Qed.

(** Minority rows rank last, behind a majority row far away. *)
Definition tail_D : dataset := mk_data
  [[-110];[-110];[-110];[-110];[-110];[-110];[-110];[-110];[-110];[-110];[-110];[-110];[-110];[-110];[-110];[0];[1];[2]]%Q 1
  [0;0;0;0;0;0;0;0;0;0;0;0;0;0;0;1;1;1]%Z.
Lemma tail_D_ok : wf_data (d_X tail_D) (d_dim tail_D) (d_y tail_D) /\ is_minority (d_y tail_D) 1 0.
Proof. data_ok. Qed.

Definition det_ss : ss_params := mk_ss 2 SDeterministic WDeterministic GNone.
Lemma det_ss_plain : plain_ss det_ss.
Proof. split; [cbn; lia|]. split; [now right|right; split; [reflexivity|cbn; lia]]. Qed.


(** ** CCR *)
Definition crowd_D : dataset := mk_data [[0];[1000];[2000];[1];[2];[3];[4];[100]]%Q 1 [1;1;1;0;0;0;0;0]%Z.
Lemma crowd_D_ok : wf_data (d_X crowd_D) (d_dim crowd_D) (d_y crowd_D) /\ is_minority (d_y crowd_D) 1 0.
Proof. data_ok. Qed.

Definition keep (_ : nat) (l : list Q) : list Q := l.
Lemma keep_ok : shuffle_ok keep.
Proof. intros t l. apply Permutation_refl. Qed.

(** Three columns, majority rows far away. *)
Definition space_D : dataset := mk_data
  [[0;0;0];[1000;0;0];[2000;0;0];[0;5000;0];[0;6000;0];[0;7000;0];[0;8000;0];[0;9000;0];[0;10000;0]]%Q 3 [1;1;1;0;0;0;0;0;0]%Z.
Lemma space_D_ok : wf_data (d_X space_D) (d_dim space_D) (d_y space_D) /\ is_minority (d_y space_D) 1 0.
Proof. data_ok. Qed.

(** ** SMOBD *)

(** Rows beyond 500 are noise: no core row, not reached from anywhere. *)
Definition optics500 (_ : nat) (_ : Q) (X : list row) : res (list (option Q) * list (option Q)) :=
  Ok (map (fun x => if Qle_bool 500 (nth 0 x 0%Q) then None else Some 1%Q) X,
      match X with [] => [] | _ :: X' => None :: map (fun x => if Qle_bool 500 (nth 0 x 0%Q) then None else Some 1%Q) X' end).
Lemma optics500_ok : optics_ok optics500.
Proof.
  intros k e X. left. eexists. eexists. split; [reflexivity|]. rewrite map_length. split; [reflexivity|]. split; [|split].
  - destruct X; [reflexivity|]. cbn. now rewrite map_length.
  - intros q Hq. apply in_map_iff in Hq as (x & E & _). destruct (Qle_bool 500 (nth 0 x 0%Q)); [discriminate|]. injection E as <-. discriminate.
  - destruct X; [congruence|]. intros _. now left.
Qed.
Definition counts_all (X : list row) (_ : Q) : list nat := map (fun _ => length X) X.
Lemma counts_all_ok : radius_counts_ok counts_all.
Proof. intros X e. split; [apply map_length|]. unfold counts_all. rewrite Forall_map, Forall_forall. intros x Hx. destruct X; [destruct Hx|cbn; lia]. Qed.

Definition noisy_D : dataset := mk_data [[1000];[0];[1];[2];[100];[101];[102];[103];[104];[105]]%Q 1 [1;1;1;1;0;0;0;0;0;0]%Z.
Lemma noisy_D_ok : wf_data (d_X noisy_D) (d_dim noisy_D) (d_y noisy_D) /\ is_minority (d_y noisy_D) 1 0.
Proof. data_ok. Qed.
