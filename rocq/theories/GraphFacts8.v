(** A minority apart from the majority, for SOI_CJ. *)

From Coq Require Import List ZArith QArith Bool Arith Lia Lqa.
From Verif Require Import Np NpFacts SimplexModel Spec SpecDanger SpecNoise SpecComp SimplexFacts SamplerModel SamplerFacts OversFacts OversGen
  DangerFacts ClusterOversModel ClusterOversFacts CompFacts SpecNear SpecWrap GraphModel SpecGraph GraphFacts5.
Import ListNotations.
Open Scope nat_scope.

Definition places (y : list Z) (mn : Z) : list nat := filter (fun i => (nth i y 0 =? mn)%Z) (seq 0 (length y)).

Lemma places_count y mn : length (places y mn) = count_label y mn.
Proof.
  unfold places. induction y as [|a y IH]; [reflexivity|]. cbn [length seq filter].
  rewrite <- seq_shift. change (nth 0 (a :: y) 0%Z) with a.
  assert (E : forall l, length (filter (fun i => (nth i (a :: y) 0 =? mn)%Z) (map S l)) = length (filter (fun i => (nth i y 0 =? mn)%Z) l)).
  { induction l as [|x l IHl]; [reflexivity|]. cbn [map filter]. change (nth (S x) (a :: y) 0%Z) with (nth x y 0%Z).
    destruct (nth x y 0 =? mn)%Z; cbn [length]; now rewrite IHl. }
  unfold count_label in *. cbn [count_occ]. destruct (Z.eqb_spec a mn) as [->|N]; destruct (Z.eq_dec _ _); try congruence; cbn [length]; now rewrite E, IH.
Qed.

Lemma rows_with_nth mn : forall (X : list row) y i, length X = length y -> nth_error y i = Some mn -> In (nth i X []) (rows_with mn X y).
Proof.
  induction X as [|x X IH]; intros [|a y] i L E; try (cbn in L; lia); [destruct i; discriminate E|].
  cbn in L. destruct i as [|i].
  - cbn in E. injection E as ->. unfold rows_with. cbn. rewrite Z.eqb_refl. now left.
  - cbn in E. change (nth (S i) (x :: X) []) with (nth i X []). assert (L' : length X = length y) by lia. specialize (IH y i L' E).
    unfold rows_with in *. cbn. destruct (mn =? a)%Z; [right|]; exact IH.
Qed.

Lemma soi_cj_separated : forall volume dist nn sd prevail listing fuel p rs D mn mj n,
  knn_ok dist nn -> wf_data (d_X D) (d_dim D) (d_y D) -> is_minority (d_y D) mn mj -> asked (so_proportion p) (d_y D) mn mj = Ok n ->
  (forall x a b, In x (rows_with mn (d_X D) (d_y D)) -> In a (rows_with mn (d_X D) (d_y D)) -> In b (rows_with mj (d_X D) (d_y D)) -> (dist x a < dist x b)%Q) ->
  unchanged D (soi_cj_sample volume nn sd prevail listing (S fuel) p rs D).
Proof.
  intros volume dist nn sd prevail listing fuel p rs D mn mj n Hnn Hwf Hmin Hn Hsep.
  apply (soi_cj_nothing volume dist nn sd Hnn prevail listing fuel p rs D mn mj n Hwf Hmin Hn).
  destruct Hwf as [_ HL]. intros T HT. apply Forall_forall. intros t Ht.
  apply In_nth_error in Ht. destruct Ht as (q & Eq).
  destruct (nearest_table_shape _ _ _ _ _ HT) as (LT & _ & _).
  assert (Hq : q < length (rows_with mn (d_X D) (d_y D))).
  { rewrite <- LT. apply nth_error_Some. congruence. }
  destruct (nth_error (rows_with mn (d_X D) (d_y D)) q) as [x|] eqn:Ex; [|apply nth_error_None in Ex; lia].
  pose proof (nearest_table_nth _ _ _ _ _ _ _ _ HT Ex Eq) as H1. inversion H1 as [|? ? ? ? (L & ND & B & _ & Hn') _]; subst. clear H1.
  assert (Hx : In x (rows_with mn (d_X D) (d_y D))) by now apply (nth_error_In _ q).
  unfold minority_rows. apply Forall_forall. intros i Hi.
  rewrite Forall_forall in B. assert (Bi := B i Hi).
  assert (Hyi : i < length (d_y D)) by lia.
  destruct (nth_error (d_y D) i) as [z|] eqn:Ez; [|apply nth_error_None in Ez; lia].
  destruct (Z.eq_dec z mn) as [->|Hz]; [reflexivity|]. exfalso.
  assert (z = mj).
  { destruct Hmin as [(_ & _ & _ & Hall) _]. specialize (Hall z (nth_error_In _ _ Ez)). tauto. }
  subst z.
  (* some minority row is missing in t *)
  assert (Hmiss : exists m, In m (places (d_y D) mn) /\ ~ In m t).
  { destruct (Exists_dec (fun m => ~ In m t) (places (d_y D) mn)) as [E|E].
    - intros m. destruct (in_dec Nat.eq_dec m t); [right|left]; tauto.
    - apply Exists_exists in E. exact E.
    - exfalso. apply Forall_Exists_neg in E.
      assert (Hin : incl (i :: places (d_y D) mn) t).
      { intros m [<-|Hm]; [exact Hi|]. rewrite Forall_forall in E. specialize (E m Hm).
        destruct (in_dec Nat.eq_dec m t); [assumption|contradiction]. }
      assert (ND' : NoDup (i :: places (d_y D) mn)).
      { constructor; [|apply NoDup_filter, seq_NoDup]. intros Hin'. unfold places in Hin'. apply filter_In in Hin'.
        destruct Hin' as [_ Hin']. apply Z.eqb_eq in Hin'. rewrite (nth_error_nth _ _ 0%Z Ez) in Hin'. congruence. }
      pose proof (NoDup_incl_length ND' Hin) as Hl. cbn [length] in Hl. rewrite places_count in Hl. lia. }
  destruct Hmiss as (m & Hm & Hmt). unfold places in Hm. apply filter_In in Hm. destruct Hm as [Hm1 Hm2]. apply in_seq in Hm1. apply Z.eqb_eq in Hm2.
  assert (Em : nth_error (d_y D) m = Some mn).
  { rewrite <- Hm2. apply nth_error_nth'. lia. }
  specialize (Hn' i m Hi Hmt ltac:(lia)).
  specialize (Hsep x (nth m (d_X D) []) (nth i (d_X D) []) Hx (rows_with_nth _ _ _ _ HL Em) (rows_with_nth _ _ _ _ HL Ez)).
  lra.
Qed.
