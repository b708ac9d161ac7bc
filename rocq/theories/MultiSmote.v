(** Oversamplers that satisfy the contract of the multiclass wrapper. *)

From Coq Require Import List ZArith QArith Bool Arith Lia.
From Verif Require Import Np NpFacts Float64 SimplexModel Spec SamplerModel SamplerFacts NoiseFacts2
  SpecMulti MultiFacts.
Import ListNotations.
Open Scope nat_scope.

(** The least one can do: repeat the last row. *)
Definition over_copy (i : nat) (p : f64) (X : list row) (y : list Z) : res (list row * list Z) :=
  do k <- det_n_to_sample (StFloat p) (Z.of_nat (count_label y 0)) (Z.of_nat (count_label y 1));
  Ok (X ++ repeat (last X []) (Z.to_nat k), y ++ repeat 1%Z (Z.to_nat k)).

Lemma count_01 a b : count_label (repeat 0%Z a ++ repeat 1%Z b) 0 = a /\
  count_label (repeat 0%Z a ++ repeat 1%Z b) 1 = b.
Proof.
  rewrite !count_label_app.
  pose proof (count_label_app [] 0 a 0) as C0. pose proof (count_label_app [] 0 a 1) as C1.
  cbn [app] in C0, C1. rewrite C0, C1. cbn. lia.
Qed.

Lemma last_in {A} (l : list A) d : l <> [] -> In (last l d) l.
Proof.
  intros H. destruct (exists_last H) as (l' & a & ->). rewrite last_last. apply in_app_iff. right. now left.
Qed.

Lemma over_copy_ok d : over_ok over_copy d (fun _ => True) (fun B s => In s B).
Proof.
  intros i p A B HA HB HB0 _ _ y. destruct (count_01 (length A) (length B)) as [C0 C1]. fold y in C0, C1.
  unfold over_copy. rewrite C0, C1.
  destruct (det_n_to_sample (StFloat p) (Z.of_nat (length A)) (Z.of_nat (length B))) as [k|e]; [|reflexivity].
  cbn [bind]. eexists. split; [reflexivity|]. split; [apply repeat_length|].
  assert (HL : In (last (A ++ B) []) B).
  { destruct (exists_last HB0) as (B' & b & ->). rewrite app_assoc, last_last. apply in_app_iff. right. now left. }
  unfold rect in *. rewrite !Forall_forall in *. split; intros s Hs; apply repeat_spec in Hs; subst s; auto.
Qed.

(** SMOTE, with a generator state per call. *)
Section SMOTE.
Variables (dist : list Q -> list Q -> Q) (vol : list row -> Q)
  (nn : list row -> list row -> nat -> res (list (list nat)))
  (k : nat) (ss : ss_params) (r : nat -> rng) (d : nat).
Hypothesis Hnn : knn_ok dist nn.
Hypothesis Hr : forall i, rng_ok (r i) /\ unif_pos (r i).
Hypothesis Hk : 1 <= k.
Hypothesis Hd : 1 <= ss_n_dim ss.
Hypothesis Hs : ss_sampling ss = SRandom \/ ss_sampling ss = SDeterministic.
Hypothesis Hw : ss_within ss = WRandom \/ (ss_within ss = WDeterministic /\ ss_n_dim ss <= 2).
Hypothesis Hg : ss_gauss ss = GNone.

Definition over_smote (i : nat) (p : f64) (X : list row) (y : list Z) : res (list row * list Z) :=
  smote_sample vol nn (mk_smote (StFloat p) k ss) (r i) (mk_data X d y).

Lemma over_smote_ok : over_ok over_smote d (fun n => 2 < n) (in_hull d).
Proof.
  intros i p A B HA HB HB0 Hle Hen y. set (D := mk_data (A ++ B) d y).
  destruct (count_01 (length A) (length B)) as [C0 C1]. fold y in C0, C1.
  assert (Hmin : is_minority y 1 0).
  { split; [|rewrite C0, C1; destruct (Nat.eq_dec (length A) (length B)); [right; lia|left; lia]].
    split; [lia|]. split; [apply (count_occ_In Z.eq_dec); unfold count_label in C1; lia|].
    split; [apply (count_occ_In Z.eq_dec); unfold count_label in C0; lia|].
    intros z Hz. apply in_app_iff in Hz as [Hz|Hz]; apply repeat_spec in Hz; auto. }
  assert (Hwf : wf_data (d_X D) (d_dim D) (d_y D)).
  { split; [unfold rect; cbn; apply Forall_app; auto|]. cbn. unfold y. rewrite !app_length, !repeat_length. reflexivity. }
  destruct (det_n_to_sample (StFloat p) (Z.of_nat (length A)) (Z.of_nat (length B))) as [n|e] eqn:En.
  - destruct (Hr i) as [Hr1 Hr2].
    destruct (smote_total dist vol nn (mk_smote (StFloat p) k ss) (r i) D 1 0 n Hnn Hr1 Hr2 Hwf Hmin) as [[X' y'] E];
      cbn [sm_proportion sm_n_neighbors sm_ss d_y D]; rewrite ?C0, ?C1; auto.
    unfold over_smote. fold D. rewrite E.
    assert (Hx := smote_hull dist vol nn (mk_smote (StFloat p) k ss) (r i) D 1 0 X' y' Hnn Hr1 Hwf Hmin Hg E). cbv zeta in Hx.
    assert (HB' : rows_with 1 (d_X D) (d_y D) = B) by apply rows_with_01.
    rewrite HB' in Hx. cbn [d_dim D] in Hx.
    destruct (smote_cases dist vol nn _ (r i) D 1 0 X' y' Hnn Hr1 Hwf Hmin E)
      as [(-> & -> & Hz)|(m & T & S & H1 & H2 & H3 & H4 & H5 & H6 & _)];
      cbn [sm_proportion d_y d_X D] in *; rewrite ?C0, ?C1 in *.
    + assert (n = 0%Z) by (destruct Hz as [Hz|Hz]; [lia|congruence]). subst n.
      exists []. cbn. rewrite !app_nil_r. repeat split; constructor.
    + rewrite En in H2. injection H2 as ->. rewrite Nat2Z.id. subst X' y'. exists S.
      split; [reflexivity|]. split; [exact H4|].
      assert (F : Forall (in_hull d B) S).
      { apply Forall_forall. intros x Hin. apply Hx. now rewrite skipn_exact. }
      split; [|exact F]. eapply Forall_impl; [|exact F]. intros x (pts & _ & C). apply C.
  - unfold over_smote, smote_sample, sample_with. fold D.
    destruct (statistics_spec y 1 0 (proj1 Hmin)) as (st & Hst & Hm & Hsz).
    destruct (is_minority_unique _ _ _ _ _ Hmin Hm) as [E1 E0]. cbn [d_y D]. rewrite Hst. cbn [bind].
    assert (I1 : In 1%Z y) by apply Hmin. assert (I0 : In 0%Z y) by apply Hmin.
    unfold checks_default. cbn [checks_fail]. rewrite <- E1, (Hsz _ I1). cbn [bind]. rewrite C1.
    destruct (Nat.leb_spec (length B) 2) as [Hle2|_]; [lia|]. cbn [bind].
    unfold smote_algorithm, det_n_to_sample_st. rewrite <- E1, <- E0, (Hsz _ I1), (Hsz _ I0). cbn [bind sm_proportion].
    rewrite C0, C1, En. reflexivity.
Qed.
End SMOTE.
