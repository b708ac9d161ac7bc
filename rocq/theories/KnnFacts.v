(** Proofs about sorting and KnnModel.v. *)

From Coq Require Import List ZArith QArith Bool Arith Lia Sorted Permutation Lqa.
From Verif Require Import Np NpFacts SimplexModel Spec KnnModel.
Import ListNotations.

Section Sort.
Context {A : Type} (le : A -> A -> bool).
Hypothesis le_total : forall x y, le x y = true \/ le y x = true.
Hypothesis le_trans : forall x y z, le x y = true -> le y z = true -> le x z = true.

Lemma insert_by_perm x l : Permutation (x :: l) (insert_by le x l).
Proof.
  induction l as [|y l IH]; cbn; [constructor; constructor|].
  destruct (le x y); [reflexivity|]. rewrite perm_swap. now constructor.
Qed.

Lemma sort_by_perm l : Permutation l (sort_by le l).
Proof.
  induction l as [|x l IH]; [constructor|]. cbn. fold (sort_by le l).
  rewrite <- insert_by_perm. now constructor.
Qed.

Lemma insert_by_sorted x l :
  StronglySorted (fun a b => le a b = true) l ->
  StronglySorted (fun a b => le a b = true) (insert_by le x l).
Proof.
  induction 1 as [|y l H IH F]; cbn; [repeat constructor|].
  destruct (le x y) eqn:E.
  - constructor; [now constructor|]. constructor; [assumption|].
    eapply Forall_impl; [|exact F]. intros a Ha. eapply le_trans; eassumption.
  - constructor; [assumption|]. rewrite Forall_forall. intros z Hz.
    apply (Permutation_in _ (Permutation_sym (insert_by_perm x l))) in Hz.
    destruct Hz as [<-|Hz].
    + destruct (le_total x y); congruence.
    + rewrite Forall_forall in F. auto.
Qed.

Lemma sort_by_sorted l : StronglySorted (fun a b => le a b = true) (sort_by le l).
Proof. induction l; [constructor|]. now apply insert_by_sorted. Qed.

Lemma sort_by_length l : length (sort_by le l) = length l.
Proof. apply Permutation_length, Permutation_sym, sort_by_perm. Qed.
Lemma sort_by_in l x : In x (sort_by le l) <-> In x l.
Proof. split; apply Permutation_in; [apply Permutation_sym|]; apply sort_by_perm. Qed.
End Sort.

Lemma argsort_perm v : Permutation (argsort v) (seq 0 (length v)).
Proof.
  unfold argsort. rewrite <- (map_fst_combine (seq 0 (length v)) v) at 2 by now rewrite seq_length.
  apply Permutation_map, Permutation_sym, sort_by_perm.
Qed.

Lemma argsort_length v : length (argsort v) = length v.
Proof. rewrite (Permutation_length (argsort_perm v)). apply seq_length. Qed.

Lemma argsort_in v i : In i (argsort v) <-> (i < length v)%nat.
Proof.
  split; intros H.
  - apply (Permutation_in _ (argsort_perm v)), in_seq in H. lia.
  - apply (Permutation_in _ (Permutation_sym (argsort_perm v))), in_seq. lia.
Qed.

Lemma argsort_NoDup v : NoDup (argsort v).
Proof. apply (Permutation_NoDup (Permutation_sym (argsort_perm v))), seq_NoDup. Qed.

Lemma combine_seq_nth {A} (d : A) l i x s : In (i, x) (combine (seq s (length l)) l) -> (s <= i)%nat /\ x = nth (i - s) l d.
Proof.
  revert s; induction l as [|y l IH]; cbn; intros s; [tauto|]. intros [H|H].
  - injection H as -> ->. rewrite Nat.sub_diag. auto.
  - apply IH in H as [H1 H2]. split; [lia|]. replace (i - s)%nat with (S (i - S s)) by lia. exact H2.
Qed.

Lemma StronglySorted_map {A B} (f : A -> B) (R : B -> B -> Prop) l :
  StronglySorted (fun a b => R (f a) (f b)) l -> StronglySorted R (map f l).
Proof. induction 1; cbn; constructor; auto. now rewrite Forall_map. Qed.

Lemma StronglySorted_impl_in {A} (R S : A -> A -> Prop) l :
  (forall a b, In a l -> In b l -> R a b -> S a b) -> StronglySorted R l -> StronglySorted S l.
Proof.
  intros H. induction 1 as [|a l Hs IH F]; constructor.
  - apply IH. intros; apply H; cbn; auto.
  - rewrite Forall_forall in *. intros b Hb. apply H; cbn; auto.
Qed.

Lemma Qle_bool_total x y : Qle_bool x y = true \/ Qle_bool y x = true.
Proof. rewrite !Qle_bool_iff. destruct (Qlt_le_dec x y); [left; lra|right; lra]. Qed.

Lemma argsort_sorted v : StronglySorted (fun i j => nth i v 0 <= nth j v 0) (argsort v).
Proof.
  unfold argsort. apply StronglySorted_map.
  eapply StronglySorted_impl_in; [|apply (sort_by_sorted (fun a b : nat * Q => Qle_bool (snd a) (snd b)))].
  - intros [i x] [j y] Hi Hj H. cbn [fst snd] in *.
    apply sort_by_in in Hi, Hj.
    apply (combine_seq_nth 0) in Hi as [_ ->]. apply (combine_seq_nth 0) in Hj as [_ ->].
    rewrite !Nat.sub_0_r in H. now apply Qle_bool_iff.
  - intros; apply Qle_bool_total.
  - intros x y z. rewrite !Qle_bool_iff. lra.
Qed.

Lemma StronglySorted_app_inv {A} (R : A -> A -> Prop) l1 l2 :
  StronglySorted R (l1 ++ l2) ->
  StronglySorted R l1 /\ StronglySorted R l2 /\ (forall a b, In a l1 -> In b l2 -> R a b).
Proof.
  induction l1 as [|x l1 IH]; cbn; intros H.
  - repeat split; auto; [constructor|tauto].
  - inversion H as [|? ? H1 H2]; subst. destruct (IH H1) as (I1 & I2 & I3).
    rewrite Forall_app in H2. destruct H2 as [F1 F2].
    split; [constructor; auto|]. split; [auto|].
    intros a b [->|Ha] Hb; [|auto]. rewrite Forall_forall in F2. auto.
Qed.

Lemma n_neighbors_func_nearest dist Xf Xq k : (k <= length Xf)%nat ->
  nearest_table dist Xf Xq k (n_neighbors_func dist Xf Xq k).
Proof.
  intros Hk. unfold nearest_table, n_neighbors_func.
  induction Xq as [|x Xq IH]; cbn; constructor; [|exact IH].
  set (v := map (dist x) Xf).
  assert (Hlv : length v = length Xf) by apply map_length.
  assert (Hnth : forall i, (i < length Xf)%nat -> nth i v 0 = dist x (nth i Xf [])).
  { intros i Hi. unfold v. rewrite (nth_indep _ 0 (dist x [])) by now rewrite map_length. apply map_nth. }
  pose proof (firstn_skipn k (argsort v)) as Hsplit.
  assert (Hin : forall i, In i (argsort v) -> (i < length Xf)%nat).
  { intros i Hi. apply argsort_in in Hi. lia. }
  assert (Hinf : forall i, In i (firstn k (argsort v)) -> (i < length Xf)%nat).
  { intros i Hi. apply Hin. rewrite <- Hsplit. apply in_app_iff; auto. }
  pose proof (argsort_sorted v) as Hs. rewrite <- Hsplit in Hs.
  apply StronglySorted_app_inv in Hs as (S1 & S2 & S3).
  split; [rewrite firstn_length, argsort_length; lia|].
  split.
  { pose proof (argsort_NoDup v) as Hnd. rewrite <- Hsplit in Hnd.
    clear - Hnd. induction (firstn k (argsort v)); cbn in *; [constructor|].
    inversion Hnd; subst. constructor; auto. rewrite in_app_iff in H1. tauto. }
  split; [rewrite Forall_forall; auto|].
  split.
  - eapply StronglySorted_impl_in; [|exact S1]. intros i j Hi Hj H. cbn in H.
    rewrite !Hnth in H by auto. exact H.
  - intros i j Hi Hj Hjl.
    assert (Hj2 : In j (skipn k (argsort v))).
    { assert (In j (argsort v)) by (apply argsort_in; lia).
      rewrite <- Hsplit in H. apply in_app_iff in H. tauto. }
    specialize (S3 i j Hi Hj2). cbn in S3. rewrite !Hnth in S3 by auto. exact S3.
Qed.

(** The brute-force search meets the contract of the oracle. *)
Lemma n_neighbors_func_knn_ok dist : knn_ok dist (fun Xf Xq k => Ok (n_neighbors_func dist Xf Xq k)).
Proof. intros Xf Xq k Hk. eexists; split; [reflexivity|]. now apply n_neighbors_func_nearest. Qed.
