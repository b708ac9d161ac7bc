(** Concrete metric tensors. *)

From Coq Require Import String List ZArith QArith Reals Bool Arith Lia Lra Permutation.
From Verif Require Import Np TensorModel SpecTensor TensorFacts TensorFacts2 LearnModel SpecLearn.
Import ListNotations.
Open Scope nat_scope.

(** Diagonal matrices with ascending diagonals are their own eigenvalues. *)
Definition diagonal (w : rvec) : rmat := fun i j => if i =? j then w i else 0%R.
Definition eigh_diagonal (n : nat) (M : rmat) : rvec * rmat := (fun k => M k k, delta).

Lemma rsum_delta n (f : rvec) i : i < n -> rsum n (fun k => (delta i k * f k)%R) = f i.
Proof.
  revert i. induction n; intros i Hi; [lia|]. cbn [rsum]. destruct (Nat.eq_dec i n) as [->|N].
  - assert (E : rsum n (fun k => (delta n k * f k)%R) = 0%R).
    { transitivity (rsum n (fun _ => 0%R)); [|apply rsum_zero]. apply rsum_ext. intros k Hk. unfold delta.
      destruct (Nat.eqb_spec n k); [lia|ring]. }
    rewrite E. unfold delta. rewrite Nat.eqb_refl. ring.
  - rewrite IHn by lia. unfold delta. destruct (Nat.eqb_spec i n); [lia|ring].
Qed.

Lemma delta_sym i j : delta i j = delta j i.
Proof. unfold delta. now rewrite Nat.eqb_sym. Qed.

Lemma compose_delta n w i j : i < n -> j < n -> compose n w delta i j = diagonal w i j.
Proof.
  intros Hi Hj. unfold compose.
  transitivity (rsum n (fun k => (delta i k * (w k * delta j k))%R)); [apply rsum_ext; intros; ring|].
  rewrite rsum_delta by exact Hi. unfold diagonal, delta. rewrite (Nat.eqb_sym j i). destruct (i =? j); ring.
Qed.

Lemma diagonal_eigen n w : (forall k l, k <= l -> l < n -> (w k <= w l)%R) -> eigen n (diagonal w) (eigh_diagonal n (diagonal w)).
Proof.
  intros H. unfold eigen, eigh_diagonal. assert (D : forall k, diagonal w k k = w k) by (intros; unfold diagonal; now rewrite Nat.eqb_refl).
  repeat split; intros.
  - rewrite <- (compose_delta n w i j) by assumption. unfold compose. apply rsum_ext. intros k Hk. now rewrite D.
  - now rewrite (rsum_delta n (fun k => delta j k)), delta_sym by assumption.
  - transitivity (rsum n (fun i => (delta k i * delta l i)%R)); [apply rsum_ext; intros i Hi; cbv beta; now rewrite (delta_sym k i), (delta_sym l i)|].
    now rewrite (rsum_delta n (fun k => delta l k)), delta_sym by assumption.
  - rewrite !D. now apply H.
Qed.

Definition w2 : rvec := fun k => if k =? 0 then (-1)%R else 2%R.
Definition w3 : rvec := fun k => if k =? 2 then 2%R else 1%R.

Lemma w2_up k l : k <= l -> l < 2 -> (w2 k <= w2 l)%R.
Proof. intros H K. unfold w2. destruct (Nat.eqb_spec k 0), (Nat.eqb_spec l 0); try lra; lia. Qed.
Lemma w3_up k l : k <= l -> l < 3 -> (w3 k <= w3 l)%R.
Proof. intros H K. unfold w3. destruct (Nat.eqb_spec k 2), (Nat.eqb_spec l 2); try lra; lia. Qed.

Lemma fixed_example : let T := fix_pd_matrix eigh_diagonal 2 (1 / 10000) (diagonal w2) in
  eigen 2 (diagonal w2) (eigh_diagonal 2 (diagonal w2)) /\ T 0 0 = (1 / 10000)%R /\ T 0 1 = 0%R /\ T 1 0 = 0%R /\ T 1 1 = 2%R.
Proof.
  cbv zeta. split; [apply diagonal_eigen, w2_up|]. unfold fix_pd_matrix, eigh_diagonal.
  rewrite !compose_delta by lia. unfold diagonal, w2, clip. cbn [Nat.eqb].
  destruct (Rle_dec (-1) (1 / 10000)); [|lra]. destruct (Rle_dec 2 (1 / 10000)); [lra|]. repeat split; reflexivity.
Qed.

Lemma reversed_example : let T := reverse_matrix eigh_diagonal 2 (diagonal w2) in T 0 0 = 2%R /\ T 1 1 = (-1)%R.
Proof.
  cbv zeta. unfold reverse_matrix, eigh_diagonal. rewrite !compose_delta by lia. unfold diagonal, int_rank, w2. cbn [Nat.eqb seq filter].
  repeat match goal with |- context [Rlt_dec ?a ?b] => destruct (Rlt_dec a b); try lra | |- context [Req_EM_T ?a ?b] => destruct (Req_EM_T a b); try lra end.
  cbn. split; reflexivity.
Qed.

(** Equal eigenvalues: 1, 1, 2 become 2, 2, 1. *)
Lemma ties : let T := reverse_matrix eigh_diagonal 3 (diagonal w3) in
  eigen 3 (diagonal w3) (eigh_diagonal 3 (diagonal w3)) /\
  rsum 3 (fun i => diagonal w3 i i) = 4%R /\ rsum 3 (fun i => T i i) = 5%R.
Proof.
  cbv zeta. split; [apply diagonal_eigen, w3_up|]. split; [unfold rsum, diagonal, w3; cbn [Nat.eqb]; ring|].
  unfold reverse_matrix, eigh_diagonal. unfold rsum. rewrite !compose_delta by lia. unfold diagonal, int_rank, w3. cbn [Nat.eqb seq filter].
  repeat match goal with |- context [Rlt_dec ?a ?b] => destruct (Rlt_dec a b); try lra | |- context [Req_EM_T ?a ?b] => destruct (Req_EM_T a b); try lra end.
  cbn. ring.
Qed.

(** One column, rows 0 and 2 at distance 4. *)
Definition X_line : rmat := fun i _ => if i =? 0 then 0%R else 2%R.
Definition d_line : rmat := fun i j => if i =? j then 0%R else 4%R.
Lemma line : exists T, construct_tensor eigh1 (fun n => seq 0 n) regress1 2 1 (1 / 10000) X_line d_line = Ok T /\ T 0 0 = 4%R.
Proof.
  unfold construct_tensor, create_metric_tensor, regress1.
  set (q := (ft _ _ / ff _)%R). cbn [from_upper]. unfold from_upper. cbn [triu length].
  eexists. split; [reflexivity|]. unfold fix_pd_matrix, eigh1, compose, rsum.
  assert (Q4 : q = 4%R).
  { unfold q, ft, ff, pairs_used, products, triu, X_line, d_line. cbn. field. }
  clearbody q. subst q. unfold set_all, set_at. cbn.
  unfold clip. destruct (Rle_dec _ _); lra.
Qed.

(** A positive definite matrix times nonnegative weights. *)
Definition T_corr : rmat := fun i j => if i =? j then 1%R else (9 / 10)%R.
Definition weights (w : list Q) : rmat := fun i j => if i =? j then Q2R (nth i w 0%Q) else 0%R.

Lemma corr_positive x : (0 < square 2 x)%R -> (0 < form 2 T_corr x)%R.
Proof. unfold square, form, rsum, T_corr. cbn [Nat.eqb]. intros H. pose proof (Rle_0_sqr (x 0 + x 1)) as K. unfold Rsqr in K. lra. Qed.

Lemma corr_product : let T := product 2 T_corr (weights [2; 0]%Q) in
  T 0 1 <> T 1 0 /\ (form 2 T (fun k => if k =? 0 then 1 else -2) < 0)%R.
Proof.
  cbv zeta. unfold form, product, rsum, T_corr, weights. cbn [Nat.eqb nth].
  assert (E2 : Q2R 2 = 2%R) by (unfold Q2R; cbn; lra). assert (E0 : Q2R 0 = 0%R) by (unfold Q2R; cbn; lra).
  rewrite !E2, !E0. split; lra.
Qed.

Definition one_of (T : rmat) (_ : list row) (_ : list Z) : res rmat := Ok T.

(** Leaves of two forests of two trees: by the first coordinate, and by a fixed number. *)
Definition leaves_example (f : nat) (x : row) : list nat :=
  [f; if Qle_bool (nth 0 x 0%Q) 1 then f else S f].
