(** Facts about metric tensors, and a tensor of one column. *)

From Coq Require Import List ZArith Reals Bool Arith Lia Lra Permutation.
From Verif Require Import Np TensorModel SpecTensor TensorFacts.
Import ListNotations.
Open Scope nat_scope.

Lemma triu_double n : forall b a, a + b = n ->
  2 * length (flat_map (fun i => map (fun j => (i, j)) (seq (i + 0) (n - (i + 0)))) (seq a b)) = b * (b + 1).
Proof.
  induction b; intros a H; [reflexivity|]. cbn [seq flat_map]. rewrite app_length, map_length, seq_length.
  specialize (IHb (S a) ltac:(lia)). nia.
Qed.

Lemma triu_length n : length (triu n 0) = n * (n + 1) / 2.
Proof.
  pose proof (triu_double n n 0 eq_refl) as H. fold (triu n 0) in H. rewrite <- H.
  rewrite Nat.mul_comm, Nat.div_mul; lia.
Qed.

Lemma construct_tensor_ok eigh permutation regress m n eps X dissim :
  let rows := m * (m + 1) / 2 in let free := n * (n + 1) / 2 in
  (forall M, symmetric n M -> eigen n M (eigh n M)) ->
  Permutation (permutation rows) (seq 0 rows) ->
  (forall F t, Forall (fun f => length f = free) F -> length F = length t -> least free F t (regress F t)) ->
  exists T S pairs, construct_tensor eigh permutation regress m n eps X dissim = Ok T /\
    NoDup pairs /\ (forall i j, In (i, j) pairs -> i <= j /\ j < m) /\ length pairs = Nat.min rows (100 * free) /\
    symmetric n S /\ (forall S', symmetric n S' -> (fit_error n X dissim pairs S <= fit_error n X dissim pairs S')%R) /\
    lifts n eps S T /\
    ((exists M, symmetric n M /\ forall i j, In (i, j) pairs -> form n M (fun a => (X i a - X j a)%R) = (dissim i j ^ 2)%R) ->
     forall i j, In (i, j) pairs -> form n S (fun a => (X i a - X j a)%R) = (dissim i j ^ 2)%R).
Proof.
  cbv zeta. rewrite <- !triu_length. intros HE HP HR.
  destruct (construct_ok eigh permutation regress m n eps X dissim HE HP HR) as (T & S & pairs & H1 & H2 & H3 & H4 & H5 & H6 & H7).
  exists T, S, pairs. repeat split; try assumption; try (now apply (H3 i j)); try apply H7.
  intros (M & HM & HX). now apply (construct_exact n X dissim pairs S M).
Qed.

(** ** One column *)

Definition eigh1 (n : nat) (M : rmat) : rvec * rmat := (fun _ => M 0 0, fun _ _ => 1%R).

Lemma eigh1_ok M : eigen 1 M (eigh1 1 M).
Proof.
  unfold eigen, eigh1. repeat split; intros.
  - assert (i = 0) by lia. assert (j = 0) by lia. subst. unfold rsum. ring.
  - assert (i = 0) by lia. assert (j = 0) by lia. subst. unfold rsum, delta. cbn [Nat.eqb]. ring.
  - assert (k = 0) by lia. assert (l = 0) by lia. subst. unfold rsum, delta. cbn [Nat.eqb]. ring.
  - apply Rle_refl.
Qed.

Definition ff (F : list (list R)) : R := fold_right (fun f s => (hd 0 f * hd 0 f + s)%R) 0%R F.
Definition ft (F : list (list R)) (t : list R) : R := fold_right (fun p s => (hd 0 (fst p) * snd p + s)%R) 0%R (combine F t).
Definition tt2 (F : list (list R)) (t : list R) : R := fold_right (fun p s => (snd p * snd p + s)%R) 0%R (combine F t).
Definition regress1 (F : list (list R)) (t : list R) : list R := [(ft F t / ff F)%R].

Lemma error1 F : forall t c, Forall (fun f => length f = 1) F -> length F = length t ->
  regression_error F t [c] = (ff F * c * c - 2 * ft F t * c + tt2 F t)%R.
Proof.
  induction F as [|f F IH]; intros t c HF HL.
  - destruct t; [|discriminate]. unfold regression_error, ff, ft, tt2. cbn [combine fold_right]. ring.
  - destruct t as [|u t]; [discriminate|]. inversion HF; subst. destruct f as [|a [|b f]]; try discriminate.
    specialize (IH t c H2 ltac:(cbn in HL; lia)). revert IH. unfold regression_error, ff, ft, tt2.
    cbn [combine fold_right fst snd hd rdot]. intros ->. ring.
Qed.

Lemma ff_nonneg F : (0 <= ff F)%R.
Proof. induction F as [|f F IH]; [apply Rle_refl|]. unfold ff in *. cbn [fold_right]. nra. Qed.

Lemma ff_zero F : forall t, ff F = 0%R -> ft F t = 0%R.
Proof.
  induction F as [|f F IH]; intros t H; [reflexivity|]. destruct t as [|u t]; [reflexivity|].
  change (hd 0 f * hd 0 f + ff F = 0)%R in H. change (hd 0 f * u + ft F t = 0)%R. pose proof (ff_nonneg F).
  assert (E : (hd 0 f = 0)%R) by nra. rewrite (IH t) by nra. rewrite E. ring.
Qed.

Lemma regress1_ok F t : Forall (fun f => length f = 1) F -> length F = length t -> least 1 F t (regress1 F t).
Proof.
  intros HF HL. split; [reflexivity|]. intros c' Hc. destruct c' as [|c [|]]; try discriminate. unfold regress1.
  rewrite !error1 by assumption. destruct (Req_dec (ff F) 0) as [E|E].
  - rewrite E, (ff_zero F t E). lra.
  - pose proof (ff_nonneg F). set (q := (ft F t / ff F)%R). assert (B : ft F t = (q * ff F)%R) by (unfold q; field; exact E).
    rewrite B. assert (K : (0 <= ff F * ((c - q) * (c - q)))%R) by (apply Rmult_le_pos; [assumption|apply Rle_0_sqr]). clearbody q. lra.
Qed.
