(** Proofs about the test SOI_CJ merges clusters by. *)

From Coq Require Import List ZArith QArith Bool Arith Lia Lqa.
From Verif Require Import Np DistModel DistFacts BallModel SpecBall.
Import ListNotations.
Open Scope nat_scope.

Lemma squares_gap a b : squares (map2 Qminus a b) = gap2 a b.
Proof. unfold squares. revert b. induction a as [|x a IH]; intros [|z b]; cbn; try reflexivity. now rewrite IH. Qed.
Lemma middle_half a b : middle a b = half a b.
Proof. unfold middle. revert b. induction a as [|x a IH]; intros [|z b]; cbn; try reflexivity. now rewrite IH. Qed.
Lemma gap2_nonneg a b : (0 <= gap2 a b)%Q.
Proof. rewrite <- squares_gap. apply squares_nonneg. Qed.

Lemma entry_euclid c a b : entry c None true a b = Sqrt (gap2 a b).
Proof. unfold entry. cbv zeta. rewrite squares_gap. apply sqrt_nonneg, gap2_nonneg. Qed.

Lemma half_ends a b : length a = length b -> (gap2 (half a b) b == gap2 (half a b) a)%Q.
Proof.
  revert b. induction a as [|x a IH]; intros [|z b] L; try discriminate; cbn [half gap2]; [reflexivity|].
  rewrite IH by now injection L. field.
Qed.

Lemma gather_fine {A} (d : A) (l : list A) idx : Forall (fun k => k < length l) idx -> gather l idx = Ok (map (fun k => nth k l d) idx).
Proof.
  unfold gather. induction 1 as [|k idx H _ IH]; [reflexivity|]. cbn [mapM map]. unfold get at 1. rewrite (nth_error_nth' l d H). cbn [bind]. now rewrite IH.
Qed.

(** A list of squares has a largest one. *)
Lemma top_exists {A} (f : A -> Q) l : l <> [] -> exists x, In x l /\ forall x', In x' l -> (f x' <= f x)%Q.
Proof.
  induction l as [|a l IH]; [easy|]. intros _. destruct l as [|b l]; [exists a; split; [now left|intros x' [<-|[]]; apply Qle_refl]|].
  destruct IH as (x & Hx & M); [easy|]. destruct (Qlt_le_dec (f x) (f a)) as [L|L].
  - exists a. split; [now left|]. intros x' [<-|H]; [apply Qle_refl|]. specialize (M x' H). lra.
  - exists x. split; [now right|]. intros x' [<-|H]; [assumption|now apply M].
Qed.

Lemma farthest_ok c tensor X A B (f : nat * nat -> Q) : two_clusters c X A B ->
  (forall p, entry c tensor true (nth (fst p) X []) (nth (snd p) X []) = Sqrt (f p) \/ ~ In p (list_prod A B)) ->
  exists p, farthest c tensor X A B = Ok p /\ In (fst p) A /\ In (snd p) B /\ forall i j, In i A -> In j B -> (f (i, j) <= f p)%Q.
Proof.
  intros (R & NA & NB & FA & FB) E. unfold farthest. rewrite (gather_fine [] X A FA), (gather_fine [] X B FB). cbn [bind]. cbv zeta.
  assert (NP : list_prod A B <> []).
  { destruct A as [|a A]; [easy|]. destruct B as [|b B]; [easy|]. discriminate. }
  destruct (list_prod A B) as [|p0 ps] eqn:EP; [easy|]. set (d := fun p : nat * nat => entry c tensor true (nth (fst p) X []) (nth (snd p) X [])).
  destruct (find _ (p0 :: ps)) as [p|] eqn:F.
  - exists p. split; [reflexivity|]. apply find_some in F as [I T]. pose proof I as I'. rewrite <- EP in I'. apply in_prod_iff in I' as I2 || (destruct p as [pi pj]; apply in_prod_iff in I' as I2).
    cbn [fst snd]. destruct I2 as [I2 I3]. split; [exact I2|]. split; [exact I3|]. intros i j Hi Hj.
    destruct (E (pi, pj)) as [Ep|Np]; [|now elim Np]. cbn [fst snd] in Ep.
    assert (T2 : is_top (map d (p0 :: ps)) (Sqrt (f (pi, pj))) = true) by (rewrite <- Ep; exact T). clear T. unfold is_top in T2. rewrite forallb_forall in T2.
    assert (IJ : In (i, j) (p0 :: ps)) by (rewrite <- EP; now apply in_prod).
    destruct (E (i, j)) as [Eij|Nij]; [|now elim Nij]. assert (ID : In (Sqrt (f (i, j))) (map d (p0 :: ps))) by (rewrite <- Eij; exact (in_map d _ _ IJ)). specialize (T2 _ ID). now apply Qle_bool_iff in T2.
  - exfalso. destruct (top_exists f (p0 :: ps)) as (p & Hp & M); [easy|]. pose proof (find_none _ _ F p Hp) as X1. change (is_top (map d (p0 :: ps)) (d p) = false) in X1.
    destruct (E p) as [Ep|Np]; [|now elim Np]. change (entry c tensor true (nth (fst p) X []) (nth (snd p) X [])) with (d p) in Ep. rewrite Ep in X1. unfold is_top in X1.
    rewrite <- not_true_iff_false in X1. apply X1. apply forallb_forall. intros e He. apply in_map_iff in He as (q & <- & Hq).
    destruct (E q) as [Eq|Nq]; [|now elim Nq]. change (entry c tensor true (nth (fst q) X []) (nth (snd q) X [])) with (d q) in Eq. rewrite Eq. apply Qle_bool_iff. now apply M.
Qed.

Lemma count_split (y : list Z) l ks : length ks = with_label y l ks + without_label y l ks.
Proof. unfold with_label, without_label. induction ks as [|k ks IH]; [reflexivity|]. cbn [filter]. destruct (Z.eqb (nth k y 0%Z) l); cbn; lia. Qed.

Lemma count_labels (y : list Z) mn ks : length (filter (Z.eqb mn) (map (fun k => nth k y 0%Z) ks)) = with_label y mn ks.
Proof. unfold with_label. induction ks as [|k ks IH]; [reflexivity|]. cbn [filter map]. rewrite (Z.eqb_sym mn). destruct (Z.eqb (nth k y 0%Z) mn); cbn; lia. Qed.

Lemma test_is c pre tensor X y mn A B ks : length y = length X -> ball c pre tensor X A B = Ok ks ->
  exists b, ball_test c pre tensor X y mn A B = Ok b /\ (b = true <-> without_label y mn ks < with_label y mn ks).
Proof.
  intros L E. unfold ball_test. rewrite E. cbn [bind].
  assert (F : Forall (fun k => k < length y) ks).
  { unfold ball in E. destruct (farthest c tensor X A B); [|discriminate]. cbn [bind] in E. cbv zeta in E. injection E as <-. apply Forall_forall. intros k Hk. apply filter_In in Hk as [Hk _]. apply in_seq in Hk. lia. }
  rewrite (gather_fine 0%Z y ks F). cbn [bind]. eexists. split; [reflexivity|]. rewrite Nat.ltb_lt, count_labels, (count_split y mn ks). lia.
Qed.

Lemma ball_euclid c pre X y mn A B : two_clusters c X A B -> length y = length X ->
  exists i j ks b, farthest_pair X A B i j /\ ball c pre None X A B = Ok ks /\ NoDup ks /\ (forall k, In k ks <-> in_ball X i j k) /\ In i ks /\ In j ks /\
    ball_test c pre None X y mn A B = Ok b /\ (b = true <-> without_label y mn ks < with_label y mn ks).
Proof.
  intros H L. destruct (farthest_ok c None X A B (fun p => gap2 (point X (fst p)) (point X (snd p))) H) as ((i & j) & E & Hi & Hj & M).
  { intros p. left. apply entry_euclid. }
  cbn [fst snd] in *. destruct H as (R & _ & _ & FA & FB). rewrite Forall_forall in FA, FB, R.
  assert (EB : ball c pre None X A B = Ok (filter (fun k => Qle_bool (gap2 (half (point X i) (point X j)) (point X k)) (gap2 (half (point X i) (point X j)) (point X i))) (seq 0 (length X)))).
  { unfold ball. rewrite E. cbn [bind]. cbv zeta. cbn [fst snd]. rewrite middle_half, squares_gap. f_equal. apply filter_ext. intros k. destruct pre; rewrite entry_euclid; reflexivity. }
  destruct (test_is c pre None X y mn A B _ L EB) as (b & Eb & Hb). exists i, j. eexists. exists b.
  split; [split; [exact Hi|split; [exact Hj|exact M]]|]. split; [exact EB|]. split; [apply NoDup_filter, seq_NoDup|].
  assert (I : forall k, In k (filter (fun k => Qle_bool (gap2 (half (point X i) (point X j)) (point X k)) (gap2 (half (point X i) (point X j)) (point X i))) (seq 0 (length X))) <-> in_ball X i j k).
  { intros k. rewrite filter_In, in_seq, Qle_bool_iff. unfold in_ball. split; intros [? ?]; split; auto; lia. }
  split; [exact I|]. split; [|split; [|split; [exact Eb|exact Hb]]].
  - apply I. split; [now apply FA|apply Qle_refl].
  - apply I. split; [now apply FB|]. rewrite half_ends; [apply Qle_refl|]. unfold point. rewrite !R by (apply nth_In; auto). reflexivity.
Qed.

Lemma ball_tensor c pre T X y mn A B : semidefinite c T -> two_clusters c X A B -> length y = length X ->
  exists b, ball_test c pre (Some T) X y mn A B = Ok b.
Proof.
  intros S H L.
  destruct (farthest_ok c (Some T) X A B (fun p => let t := map2 Qminus (point X (fst p)) (point X (snd p)) in if all_close T (eye c) then squares t else quad T t) H) as (p & E & _).
  { intros (i & j). destruct (in_dec Nat.eq_dec i A) as [Hi|N]; [|right; intros Q; apply in_prod_iff in Q; tauto]. destruct (in_dec Nat.eq_dec j B) as [Hj|N]; [|right; intros Q; apply in_prod_iff in Q; tauto].
    left. unfold entry. cbn [fst snd]. destruct (all_close T (eye c)); apply sqrt_nonneg; [apply squares_nonneg|].
    apply S. destruct H as (R & _ & _ & FA & FB). rewrite Forall_forall in *. assert (LL : forall k, k < length X -> length (nth k X []) = c) by (intros k Hk; apply R, nth_In, Hk).
    unfold point; cbn [fst snd]; rewrite map2_length; rewrite !LL by auto; reflexivity. }
  assert (EB : exists ks, ball c pre (Some T) X A B = Ok ks) by (unfold ball; rewrite E; cbn [bind]; cbv zeta; eauto).
  destruct EB as (ks & EB). destruct (test_is c pre (Some T) X y mn A B ks L EB) as (b & Eb & _). eauto.
Qed.

(** ** Witnesses *)

Definition line (l : list Q) : mat := map (fun x => [x]) l.
Definition stretch : mat := [[16%Q]].
Lemma stretch_ok : semidefinite 1 stretch.
Proof. intros [|a [|b t]] L; try discriminate. unfold quad, stretch. cbn. assert (0 <= a * a)%Q by (destruct a as [p q]; unfold Qle, Qmult; cbn; nia). lra. Qed.
Lemma clusters_two : two_clusters 1 (line [0; 2; 1]%Q) [0; 2] [1; 2].
Proof. unfold two_clusters. repeat split; try easy; repeat constructor. Qed.
Lemma clusters_line : two_clusters 1 (line [0; 4; 10]%Q) [0; 1; 2] [1].
Proof. unfold two_clusters. repeat split; try easy; repeat constructor. Qed.

Lemma merges_refuted : ~ (forall c T X y mn A B b, semidefinite c T -> two_clusters c X A B -> length y = length X -> (forall l, In l y -> l = mn) ->
  ball_test c true (Some T) X y mn A B = Ok b -> b = true).
Proof.
  intros H. specialize (H 1 stretch (line [0; 2]%Q) [1; 1]%Z 1%Z [0; 1] [1] false stretch_ok). 
  assert (false = true); [|discriminate]. apply H; [unfold two_clusters; repeat split; try easy; repeat constructor|reflexivity|intros l [<-|[<-|[]]]; reflexivity|vm_compute; reflexivity].
Qed.

Lemma covers_refuted : ~ (forall c X A B ks k, two_clusters c X A B -> (exists m, In m A /\ In m B) -> ball c false None X A B = Ok ks -> In k (A ++ B) -> In k ks).
Proof.
  intros H. specialize (H 1 (line [0; 4; 10]%Q) [0; 1; 2] [1] [1; 2] 0 clusters_line).
  assert (I : In 0 [1; 2]); [|destruct I as [I|[I|[]]]; discriminate]. apply H; [exists 1; cbn; auto|vm_compute; reflexivity|now left].
Qed.
