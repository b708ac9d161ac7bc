(** Concrete objects meeting the contracts used as hypotheses. *)

From Coq Require Import List ZArith QArith Bool Arith Lia Lqa.
From Verif Require Import Np NpFacts SimplexModel Spec.
Import ListNotations.

(** A (very regular) generator: always the first position of positive
    probability, always 1/2, always 0. *)
Definition first_positive (p : list Q) : nat := argmax_bool (map (fun q => Qlt_b 0 q) p).

Definition rng0 : rng := mk_rng
  (fun p n => repeat (first_positive p) n)
  (fun n k => repeat (repeat (1 # 2) k) n)
  (fun n k => repeat (repeat 0 k) n).

Lemma Forall_repeat {A} (P : A -> Prop) a n : P a -> Forall P (repeat a n).
Proof. intros H. induction n; cbn; constructor; auto. Qed.

Lemma first_positive_spec p : Forall (Qle 0) p -> 0 < qsum p ->
  exists q, nth_error p (first_positive p) = Some q /\ 0 < q.
Proof.
  unfold first_positive, argmax_bool.
  assert (G : Forall (Qle 0) p -> 0 < qsum p ->
     exists i, first_true (map (fun q => Qlt_b 0 q) p) = Some i /\ exists q, nth_error p i = Some q /\ 0 < q).
  { induction p as [|x p IH]; cbn; intros Hp Hs; [lra|]. inversion Hp; subst.
    unfold Qlt_b at 1. destruct (Qle_bool x 0) eqn:E; cbn.
    - apply Qle_bool_iff in E. destruct IH as (i & Hi & q & Hq); auto; [lra|].
      exists (S i). rewrite Hi. cbn. split; [reflexivity|eauto].
    - exists 0%nat. split; [reflexivity|]. exists x. split; [reflexivity|].
      destruct (Qlt_le_dec 0 x); [assumption|]. apply Qle_bool_iff in q. congruence. }
  intros Hp Hs. destruct (G Hp Hs) as (i & -> & H). exact H.
Qed.

Lemma rng0_ok : rng_ok rng0.
Proof.
  constructor; cbn.
  - intros p n Hp Hs. rewrite repeat_length. split; [reflexivity|].
    apply Forall_repeat. apply first_positive_spec; [assumption|lra].
  - intros n k. rewrite repeat_length. split; [reflexivity|]. apply Forall_repeat.
    split; [apply repeat_length|]. apply Forall_repeat. split; reflexivity || (unfold Qle; cbn; lia).
  - intros n k. rewrite repeat_length. split; [reflexivity|]. apply Forall_repeat. apply repeat_length.
Qed.

Lemma rng0_unif_pos : unif_pos rng0.
Proof.
  intros n k Hk. cbn. apply Forall_repeat. destruct k; [lia|]. cbn [repeat qsum].
  assert (H : 0 <= qsum (repeat (1#2) k)).
  { apply qsum_nonneg. apply Forall_repeat. unfold Qle; cbn; lia. }
  lra.
Qed.
