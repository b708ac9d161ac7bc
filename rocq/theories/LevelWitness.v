(** Concrete data for C77 to C81. *)

From Coq Require Import List ZArith QArith Bool Arith Lia Lqa.
From Verif Require Import Np NpFacts SimplexModel Spec SpecNoise SpecComp SimplexFacts SimplexGeom Float64
  SamplerModel SamplerFacts OversFacts OversGen BaseModel NoiseModel KnnModel KnnFacts DangerModel ClusterOversModel
  ClusterOversFacts CompModel CompFacts SpecNear LevelModel SpecLevel LevelFacts LevelFacts4
  Witness DangerWitness ClusterWitness CompWitness EditWitness NearWitness.
Import ListNotations.
Open Scope nat_scope.

Definition cp_k (k : nat) := mk_comp one k.
Definition lee_k (k : nat) (q : Q) := mk_lee one k q ex_ss.
Definition pw (k l : nat) := mk_prowsyn one k l 1 ex_ss.

(** Stand-ins for the exponential and the principal components. *)
Definition exp0 (q : Q) : Q := if Qlt_b q 0 then (1 # 2)%Q else 1%Q.
Lemma exp0_pos q : (0 < exp0 q)%Q.
Proof. unfold exp0. destruct (Qlt_b q 0); reflexivity. Qed.

Definition pca0 (c : nat) (X : list row) : res (list row) :=
  if length X <? c then Err ValueError
  else Ok (map (fun x => match c with
                         | O => []
                         | S c' => (nth 0 x 0 - qsum (map (fun x => nth 0 x 0) X) / qn (length X))%Q :: repeat 0%Q c'
                         end) X).
Lemma pca0_ok : pca_ok pca0.
Proof.
  intros c X. unfold pca0. split; intros H.
  - apply Nat.ltb_lt in H. now rewrite H.
  - apply Nat.ltb_ge in H as H'. rewrite H'. eexists. split; [reflexivity|]. split; [apply map_length|]. split.
    + apply Forall_map, Forall_forall. intros x _. destruct c; [reflexivity|]. cbn. now rewrite repeat_length.
    + intros j Hj. rewrite map_map. destruct c as [|c]; [lia|]. destruct j as [|j]; cbn [nth].
      * assert (Hl : 0 < length X) by lia. set (s := qsum (map (fun x => nth 0 x 0%Q) X)). set (m := (s / qn (length X))%Q).
        assert (G : forall Y, (qsum (map (fun x : row => (nth 0 x 0 - m)%Q) Y) == qsum (map (fun x => nth 0 x 0%Q) Y) - qn (length Y) * m)%Q).
        { induction Y as [|y Y IH].
          - cbn [map length]. change (qn 0) with 0%Q. change (qsum []) with 0%Q. ring.
          - cbn [map length]. rewrite !qsum_cons, IH. unfold qn. rewrite Nat2Z.inj_succ. unfold Z.succ. rewrite inject_Z_plus.
            change (inject_Z 1) with 1%Q. ring. }
        rewrite G. fold s. unfold m. field. now apply qn_nz.
      * clear. induction X as [|x X IH]; [reflexivity|]. cbn [map]. rewrite qsum_cons, IH.
        rewrite nth_repeat. reflexivity.
Qed.

(** Whatever lies between the first two minority rows has majority rows around it. *)
Definition mid_D : dataset := mk_data
  [[0];[10];[20];[24#5];[49#10];[5];[51#10];[26#5]]%Q 1 [1;1;1;0;0;0;0;0]%Z.
Lemma mid_D_ok : wf_data (d_X mid_D) (d_dim mid_D) (d_y mid_D) /\ is_minority (d_y mid_D) 1 0.
Proof. data_ok. Qed.

(** The first minority row has a majority row next to it and the minority on the
    other side. *)
Definition bor_D : dataset := mk_data
  [[0];[-3];[-4];[-5];[1];[100];[101];[102];[103]]%Q 1 [1;1;1;1;0;0;0;0;0]%Z.
Lemma bor_D_ok : wf_data (d_X bor_D) (d_dim bor_D) (d_y bor_D) /\ is_minority (d_y bor_D) 1 0.
Proof. data_ok. Qed.
