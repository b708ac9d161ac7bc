(** Facts about SOI_CJ of GraphModel.v. *)

From Coq Require Import List ZArith QArith Qabs Qminmax Bool Arith Lia Lqa Sorting.Sorted Permutation.
From Verif Require Import Np PyVal NpFacts BaseFacts SimplexModel Spec SpecDanger SpecNoise SpecComp SimplexFacts SimplexGeom Float64
  SamplerModel SamplerFacts OversFacts BaseModel DangerModel DangerFacts ClusterOversModel OversGen ClusterOversFacts NoiseFacts NoiseFacts2 CompModel CompFacts
  NearModel SpecNear NearFacts NearFacts2 RegionModel RegionFacts3 LevelModel LevelFacts4 SpecGroup GroupFacts GroupFacts2 WrapModel SpecWrap WrapFacts WrapFacts2 DirModel SpecDir SearchModel SearchFacts SearchFacts2 DirFacts3 GroupFacts6 EditFacts3 GraphModel SpecGraph GraphFacts GraphFacts2 GraphFacts4.
Import ListNotations.
Open Scope nat_scope.

Lemma first_true_from_some l : forall s i, first_true_from s l = Some i -> s <= i /\ nth_error l (i - s) = Some true /\ Forall (fun b => b = false) (firstn (i - s) l).
Proof.
  induction l as [|b l IH]; intros s i H; [discriminate|]. cbn in H. destruct b.
  - injection H as <-. rewrite Nat.sub_diag. repeat split; [lia|constructor].
  - destruct (IH _ _ H) as (H1 & H2 & H3). replace (i - s) with (S (i - S s)) by lia. cbn. repeat split; [lia|exact H2|]. constructor; auto.
Qed.

Lemma first_true_from_none l : forall s, first_true_from s l = None -> Forall (fun b => b = false) l.
Proof. induction l as [|b l IH]; intros s H; [constructor|]. cbn in H. destruct b; [discriminate|]. constructor; [reflexivity|]. eapply IH, H. Qed.

Lemma soi_init_ok y mn t : Forall (fun i => i < length y) t -> exists r, soi_init y mn t = Ok r /\ run_of y mn t r /\ exists l, t = r ++ l.
Proof.
  intros Ht. unfold soi_init. rewrite (gather_map 0%Z) by exact Ht. cbn [bind]. rewrite map_map. eexists. split; [reflexivity|].
  set (bs := map (fun i => negb (nth i y 0%Z =? mn)%Z) t).
  assert (Hb : forall k i, nth_error t k = Some i -> nth_error bs k = Some false -> nth_error y i = Some mn).
  { intros k i H1 H2. unfold bs in H2. rewrite nth_error_map, H1 in H2. cbn in H2. injection H2 as H2. apply negb_false_iff, Z.eqb_eq in H2.
    rewrite Forall_forall in Ht. rewrite (nth_error_nth' y 0%Z); [now f_equal|]. apply Ht. eapply nth_error_In, H1. }
  assert (Hb' : forall k i, nth_error t k = Some i -> nth_error bs k = Some true -> nth_error y i <> Some mn).
  { intros k i H1 H2 H3. unfold bs in H2. rewrite nth_error_map, H1 in H2. cbn in H2. injection H2 as H2. apply negb_true_iff, Z.eqb_neq in H2.
    apply H2. now apply nth_error_nth. }
  unfold first_true. destruct (first_true_from 0 bs) as [f|] eqn:E.
  - destruct (first_true_from_some _ _ _ E) as (_ & H2 & H3). rewrite Nat.sub_0_r in *.
    assert (Hf : f < length t) by (rewrite <- (map_length (fun i => negb (nth i y 0%Z =? mn)%Z)); apply nth_error_Some; unfold bs in H2; congruence).
    split; [|exists (skipn f t); symmetry; apply firstn_skipn]. split.
    + apply Forall_forall. intros i Hi. apply In_nth_error in Hi. destruct Hi as (k & Hk).
      assert (k < f) by (assert (k < length (firstn f t)) by (apply nth_error_Some; congruence); rewrite firstn_length in *; lia).
      apply (Hb k); [rewrite <- Hk; symmetry; rewrite <- (firstn_skipn f t) at 2; rewrite nth_error_app1 by (rewrite firstn_length; lia); reflexivity|].
      assert (Hk2 : nth_error (firstn f bs) k = nth_error bs k).
      { rewrite <- (firstn_skipn f bs) at 2. rewrite nth_error_app1; [reflexivity|]. rewrite firstn_length. unfold bs. rewrite map_length. lia. }
      rewrite <- Hk2. assert (k < length (firstn f bs)) by (rewrite firstn_length; unfold bs; rewrite map_length; lia).
      rewrite (nth_error_nth' _ false) by assumption. f_equal. rewrite Forall_forall in H3. apply H3, nth_In. assumption.
    + left. destruct (nth_error t f) as [i|] eqn:Ei; [|apply nth_error_None in Ei; lia].
      exists i, (skipn (S f) t). split; [|exact (Hb' f i Ei H2)].
      clear - Ei. revert f Ei. induction t as [|a t IH]; intros [|f] Ei; try discriminate; cbn in *; [now injection Ei as ->|]. f_equal. now apply IH.
  - cbn. split; [|now exists t]. split; [constructor|]. right. split; [reflexivity|]. apply first_true_from_none in E.
    apply Forall_forall. intros i Hi. apply In_nth_error in Hi. destruct Hi as (k & Hk). apply (Hb k i Hk).
    assert (k < length bs) by (unfold bs; rewrite map_length; apply nth_error_Some; congruence).
    rewrite (nth_error_nth' _ false) by assumption. f_equal. rewrite Forall_forall in E. apply E, nth_In. assumption.
Qed.

Section SOI.

Variable volume : list row -> Q.
Variable dist : row -> row -> Q.
Variable nn : list row -> list row -> nat -> res (list (list nat)).
Variable sd : list Q -> Q.
Hypothesis Hnn : knn_ok dist nn.
Variable prevail : list nat -> list nat -> bool.
Variable listing : list nat -> list nat.
Hypothesis Hlist : listing_ok listing.

(** ** The sets *)

Section Merge.
Variables (y : list Z) (mn : Z) (runs : list (list nat)).

Definition set_ok (c : list nat) : Prop := c = [] \/ (from_runs runs c /\ NoDup c /\ minority_rows y mn c).
Definition state_ok (s : soi_state) : Prop := Forall set_ok (objs s).

Lemma set_ok_nth s i : state_ok s -> set_ok (nth i (objs s) []).
Proof.
  intros H. destruct (Nat.lt_ge_cases i (length (objs s))) as [Hi|Hi]; [|rewrite nth_overflow by exact Hi; now left].
  unfold state_ok in H. rewrite Forall_forall in H. apply H, nth_In, Hi.
Qed.

Lemma Forall_set_at {A} (P : A -> Prop) i x l : P x -> Forall P l -> Forall P (set_at i x l).
Proof.
  intros Hx. revert i. induction l as [|a l IH]; intros i H; [destruct i; exact H|].
  inversion H; subst. destruct i; cbn; constructor; auto.
Qed.

Lemma meet_in a b x : In x (filter (mem b) a) <-> In x a /\ In x b.
Proof. rewrite filter_In, mem_in. reflexivity. Qed.

Lemma soi_update_ok s idx i jj : state_ok s -> state_ok (soi_update prevail s idx i jj).
Proof.
  intros H. unfold soi_update. destruct jj as [jdx j]. set (a := nth i (objs s) []). set (b := nth j (objs s) []).
  pose proof (set_ok_nth s i H) as Ha. fold a in Ha. pose proof (set_ok_nth s j H) as Hb. fold b in Hb.
  destruct (filter (mem b) a) as [|x common] eqn:E; [exact H|]. rewrite <- E.
  assert (Hx : In x a /\ In x b) by (apply meet_in; rewrite E; now left).
  destruct Ha as [Ha|(Fa & Na & Ma)]; [rewrite Ha in Hx; destruct (proj1 Hx)|].
  destruct Hb as [Hb|(Fb & Nb & Mb)]; [rewrite Hb in Hx; destruct (proj2 Hx)|].
  assert (Hrest : forall u v, (u = a /\ v = b) \/ (u = b /\ v = a) -> set_ok (filter (fun z => negb (mem (filter (mem b) a) z)) u)).
  { intros u v Huv. right.
    assert (Hin : forall z, In z (filter (fun z => negb (mem (filter (mem b) a) z)) u) <-> In z u /\ ~ In z v).
    { intros z. rewrite filter_In, negb_true_iff. destruct (mem (filter (mem b) a) z) eqn:Ez.
      - apply mem_in, meet_in in Ez. split; [intros [_ C]; discriminate|]. intros [_ C]. destruct Huv as [[-> ->]|[-> ->]]; tauto.
      - assert (~ (In z a /\ In z b)) by (rewrite <- meet_in, <- mem_in; congruence). destruct Huv as [[-> ->]|[-> ->]]; tauto. }
    split; [|split].
    - destruct Huv as [[-> ->]|[-> ->]]; [apply (fr_rest _ a b)|apply (fr_rest _ b a)]; auto; exists x; tauto.
    - apply NoDup_filter. destruct Huv as [[-> _]|[-> _]]; assumption.
    - apply Forall_forall. intros z Hz. apply Hin in Hz. destruct Huv as [[-> _]|[-> _]]; [unfold minority_rows in Ma; rewrite Forall_forall in Ma; now apply Ma|unfold minority_rows in Mb; rewrite Forall_forall in Mb; now apply Mb]. }
  destruct (prevail a b).
  - unfold state_ok. cbn [objs]. apply Forall_app. split; [|constructor; [now left|constructor]]. apply Forall_set_at; [|exact H]. right.
    assert (Hin : forall z, In z (a ++ filter (fun x => negb (mem a x)) b) <-> In z a \/ In z b).
    { intros z. rewrite in_app_iff, filter_In, negb_true_iff. destruct (mem a z) eqn:Ez; [apply mem_in in Ez; tauto|].
      assert (~ In z a) by (rewrite <- mem_in; congruence). tauto. }
    split; [|split].
    + apply (fr_union _ a b); auto. exists x. exact Hx.
    + assert (Nf : NoDup (filter (fun x => negb (mem a x)) b)) by now apply NoDup_filter.
      assert (Df : forall z, In z a -> ~ In z (filter (fun x => negb (mem a x)) b)).
      { intros z Hz Hz'. apply filter_In in Hz'. destruct Hz' as [_ Hz']. apply negb_true_iff in Hz'. apply mem_in in Hz. congruence. }
      revert Nf Df. generalize (filter (fun x => negb (mem a x)) b). clear - Na. intros f Nf Df. induction a as [|z l IH]; [exact Nf|]. cbn. inversion Na; subst. constructor; [|apply IH; auto; intros; apply Df; now right].
      rewrite in_app_iff. intros [C|C]; [contradiction|]. apply (Df z); [now left|exact C].
    + apply Forall_forall. intros z Hz. apply Hin in Hz. unfold minority_rows in Ma, Mb. rewrite Forall_forall in Ma, Mb. destruct Hz; auto.
  - destruct (length b <? length a); unfold state_ok; cbn [objs]; (apply Forall_set_at; [|exact H]).
    + apply (Hrest b a). now right.
    + apply (Hrest a b). now left.
Qed.

Lemma soi_inner_ok s idx : state_ok s -> state_ok (soi_inner prevail s idx).
Proof.
  unfold soi_inner. intros H. generalize (nth idx (slots s) 0). generalize (combine (seq 0 (length (skipn (idx + 1) (slots s)))) (skipn (idx + 1) (slots s))).
  intros l i. revert s H. induction l as [|jj l IH]; intros s H; [exact H|]. cbn. apply IH. now apply soi_update_ok.
Qed.

Lemma soi_pass_ok s : state_ok s -> state_ok (soi_pass prevail s).
Proof.
  unfold soi_pass. intros H. change (state_ok (fold_left (soi_inner prevail) (seq 0 (length (slots s))) {| objs := objs s; slots := slots s; met := false |})).
  assert (H' : state_ok {| objs := objs s; slots := slots s; met := false |}) by exact H. revert H'. generalize {| objs := objs s; slots := slots s; met := false |}. clear H.
  generalize (seq 0 (length (slots s))). intros l. induction l as [|i l IH]; intros s' H; [exact H|]. cbn. apply IH. now apply soi_inner_ok.
Qed.

(** No two sets met in a pass that changed nothing. *)
Lemma update_met s idx i jj : met (soi_update prevail s idx i jj) = false ->
  soi_update prevail s idx i jj = s /\ disjoint (nth i (objs s) []) (nth (snd jj) (objs s) []).
Proof.
  destruct jj as [jdx j]. cbn [snd]. unfold soi_update. destruct (filter _ _) as [|x common] eqn:E.
  - intros _. split; [reflexivity|]. intros x Hx Hx'.
    assert (In x (filter (mem (nth j (objs s) [])) (nth i (objs s) []))) by (apply meet_in; auto). rewrite E in H. destruct H.
  - destruct (prevail _ _); [discriminate|]. destruct (_ <? _); discriminate.
Qed.

Lemma met_up s idx i jj : met s = true -> met (soi_update prevail s idx i jj) = true.
Proof.
  intros H. destruct jj as [jdx j]. unfold soi_update. destruct (filter _ _); [exact H|]. destruct (prevail _ _); [reflexivity|]. destruct (_ <? _); reflexivity.
Qed.

Lemma fold_met idx i l : forall s, met (fold_left (fun s jj => soi_update prevail s idx i jj) l s) = false ->
  fold_left (fun s jj => soi_update prevail s idx i jj) l s = s /\ forall jj, In jj l -> disjoint (nth i (objs s) []) (nth (snd jj) (objs s) []).
Proof.
  induction l as [|jj l IH]; intros s H; [split; [reflexivity|contradiction]|]. cbn in *. destruct (IH _ H) as [E1 E2].
  assert (M : met (soi_update prevail s idx i jj) = false) by (rewrite E1 in H; exact H).
  destruct (update_met _ _ _ _ M) as [E3 E4]. rewrite E3 in *. split; [exact E1|]. intros j [<-|Hj]; [exact E4|exact (E2 j Hj)].
Qed.

Lemma inner_met s idx : met (soi_inner prevail s idx) = false ->
  soi_inner prevail s idx = s /\ forall q, idx < q < length (slots s) -> disjoint (nth (nth idx (slots s) 0) (objs s) []) (nth (nth q (slots s) 0) (objs s) []).
Proof.
  intros H. unfold soi_inner in *. destruct (fold_met _ _ _ _ H) as [E1 E2]. split; [exact E1|]. intros q Hq.
  set (rest := skipn (idx + 1) (slots s)) in *.
  assert (Hr : nth (q - idx - 1) rest 0 = nth q (slots s) 0).
  { unfold rest. rewrite <- (firstn_skipn (idx + 1) (slots s)) at 2. rewrite app_nth2 by (rewrite firstn_length; lia). rewrite firstn_length. f_equal. lia. }
  assert (Lr : q - idx - 1 < length rest) by (unfold rest; rewrite skipn_length; lia).
  specialize (E2 (nth (q - idx - 1) (combine (seq 0 (length rest)) rest) (0, 0))). rewrite <- Hr.
  rewrite combine_nth in E2 by now rewrite seq_length. cbn [snd] in E2. apply E2. rewrite <- combine_nth by now rewrite seq_length.
  apply nth_In. rewrite combine_length, seq_length. lia.
Qed.

Lemma outer_met l : forall s, met (fold_left (soi_inner prevail) l s) = false ->
  fold_left (soi_inner prevail) l s = s /\ forall idx q, In idx l -> idx < q < length (slots s) -> disjoint (nth (nth idx (slots s) 0) (objs s) []) (nth (nth q (slots s) 0) (objs s) []).
Proof.
  induction l as [|i l IH]; intros s H; [split; [reflexivity|contradiction]|]. cbn in *. destruct (IH _ H) as [E1 E2].
  assert (M : met (soi_inner prevail s i) = false) by (rewrite E1 in H; exact H).
  destruct (inner_met _ _ M) as [E3 E4]. rewrite E3 in *. split; [exact E1|]. intros idx q [<-|Hj] Hq; [exact (E4 q Hq)|exact (E2 idx q Hj Hq)].
Qed.

Lemma pairs_intro {A} (R : A -> A -> Prop) d l : (forall p q, p < q < length l -> R (nth p l d) (nth q l d)) -> ForallOrdPairs R l.
Proof.
  induction l as [|a l IH]; intros H; constructor.
  - apply Forall_forall. intros x Hx. apply (In_nth _ _ d) in Hx. destruct Hx as (q & Hq & <-). apply (H 0 (S q)). cbn. lia.
  - apply IH. intros p q Hpq. apply (H (S p) (S q)). cbn. lia.
Qed.

Lemma pairs_filter {A} (R : A -> A -> Prop) f l : ForallOrdPairs R l -> ForallOrdPairs R (filter f l).
Proof.
  induction 1 as [|a l Ha _ IH]; [constructor|]. cbn. destruct (f a); [|exact IH]. constructor; [|exact IH].
  apply Forall_forall. intros x Hx. apply filter_In in Hx. rewrite Forall_forall in Ha. now apply Ha.
Qed.

Lemma pairs_map {A B} (R : B -> B -> Prop) (f : A -> B) l : ForallOrdPairs (fun a b => R (f a) (f b)) l -> ForallOrdPairs R (map f l).
Proof. induction 1 as [|a l Ha _ IH]; cbn; constructor; auto. apply Forall_forall. intros x Hx. apply in_map_iff in Hx. destruct Hx as (z & <- & Hz). rewrite Forall_forall in Ha. auto. Qed.

Lemma soi_merge_ok fuel : forall s, state_ok s -> soi_merge prevail fuel s = Err OutOfFuel \/
  exists Cs, soi_merge prevail fuel s = Ok Cs /\ Forall (fun c => from_runs runs c /\ c <> [] /\ NoDup c /\ minority_rows y mn c) Cs /\ ForallOrdPairs disjoint Cs.
Proof.
  induction fuel as [|fuel IH]; intros s H; [left; reflexivity|]. cbn [soi_merge].
  pose proof (soi_pass_ok s H) as H'. destruct (met (soi_pass prevail s)) eqn:M; [exact (IH _ H')|]. right. eexists. split; [reflexivity|]. split.
  - apply Forall_forall. intros c Hc. apply in_map_iff in Hc. destruct Hc as (i & <- & Hi).
    pose proof (set_ok_nth _ i H') as [E|(E1 & E2 & E3)].
    + exfalso. unfold soi_pass in Hi, E. cbn [slots objs] in Hi, E. apply filter_In in Hi. rewrite E in Hi. destruct Hi as [_ Hi]. discriminate.
    + split; [exact E1|]. split; [|auto]. intros E. unfold soi_pass in Hi, E. cbn [slots objs] in Hi, E. apply filter_In in Hi. rewrite E in Hi. destruct Hi as [_ Hi]. discriminate.
  - unfold soi_pass in *. cbn [met] in M. cbn [slots objs]. destruct (outer_met _ _ M) as [E1 E2]. rewrite E1 in *. cbn [slots objs] in *.
    apply pairs_map, pairs_filter, (pairs_intro _ 0). intros p q Hpq. apply E2; [apply in_seq; lia|exact Hpq].
Qed.

End Merge.

Lemma soi_clustering_ok fuel mn X y : length X = length y -> soi_clustering nn prevail fuel mn X y = Err OutOfFuel \/
  exists Cs, soi_clustering nn prevail fuel mn X y = Ok Cs /\ soi_clusters dist X y mn Cs.
Proof.
  intros HL. unfold soi_clustering, soi_clusters. set (X_min := rows_with mn X y).
  assert (LX : length X_min <= length X).
  { unfold X_min. rewrite rows_with_length by exact HL. rewrite HL, <- filter_count. apply filter_len. }
  destruct (Hnn X X_min (length X_min) LX) as (T & ET & HT). rewrite ET. cbn [bind].
  destruct (nearest_table_shape _ _ _ _ _ HT) as (LT & RT & BT).
  assert (NT : Forall (@NoDup nat) T).
  { clear - HT. induction HT as [|x t Xq T (H1 & H2 & _) _ IH]; constructor; auto. }
  rewrite HL in BT.
  assert (HR : exists runs, mapM (soi_init y mn) T = Ok runs /\ Forall2 (run_of y mn) T runs /\ Forall (fun r => NoDup r /\ minority_rows y mn r) runs).
  { clear - BT NT. induction T as [|t T IH]; [exists []; split; [reflexivity|]; split; constructor|].
    inversion BT; subst. inversion NT; subst. destruct (IH H2 H4) as (runs & E & F1 & F2). destruct (soi_init_ok y mn t H1) as (r & Er & Rr & l & El).
    exists (r :: runs). cbn. rewrite Er. cbn. rewrite E. split; [reflexivity|]. split; constructor; auto. split; [|apply Rr].
    rewrite El in H3. clear - H3. induction r; [constructor|]. inversion H3; subst. constructor; auto. intros C. apply H1. apply in_or_app. now left. }
  destruct HR as (runs & ER & HR & HR2). rewrite ER. cbn [bind].
  destruct (soi_merge_ok y mn runs fuel (mk_soi_state runs (seq 0 (length runs)) false)) as [E|(Cs & E & E2 & E3)].
  - unfold state_ok. cbn [objs]. apply Forall_forall. intros c Hc. right. rewrite Forall_forall in HR2. split; [now constructor|apply HR2, Hc].
  - left. exact E.
  - right. exists Cs. split; [exact E|]. exists T, runs. auto.
Qed.

(** ** Sampling *)

Lemma pairs_in m a b : In (a, b) (pairs m) <-> a < b < m.
Proof.
  unfold pairs. rewrite in_flat_map. split.
  - intros (a' & H1 & H2). apply in_seq in H1. apply in_map_iff in H2. destruct H2 as (b' & E & H2). injection E as <- <-. apply in_seq in H2. lia.
  - intros H. exists a. split; [apply in_seq; lia|]. apply in_map. apply in_seq. lia.
Qed.

Lemma soi_interpolate_ok r1 r2 dim X c n : rng_ok r1 -> rng_ok r2 -> rect dim X -> NoDup c -> Forall (fun i => i < length X) c -> 2 <= length c ->
  exists S, soi_interpolate r1 r2 dim X c n = Ok S /\ length S = n /\ Forall (soi_between X dim c) S.
Proof.
  intros Hr1 Hr2 HX Hn Hb H2. unfold soi_interpolate.
  assert (Hp : 0 < length (pairs (length c))).
  { assert (In (0, 1) (pairs (length c))) by (apply pairs_in; lia). destruct (pairs (length c)); [contradiction|cbn; lia]. }
  destruct (choice_range_ok r1 _ n Hr1 Hp) as (idx & E & L & F). rewrite E. cbn [bind].
  rewrite (gather_map (0, 0)) by exact F. cbn [bind].
  destruct (rng_unif _ Hr2 n dim) as [LU FU]. set (chosen := map _ idx).
  assert (Lc : length chosen = n) by (unfold chosen; now rewrite map_length).
  apply mapM_draws; [rewrite combine_length; lia|]. intros [[a b] u] Hin.
  assert (Hu : In u (r_unif r2 n dim)) by (eapply in_combine_r, Hin). apply in_combine_l in Hin. unfold chosen in Hin. apply in_map_iff in Hin.
  destruct Hin as (i & Ei & Hi). rewrite Forall_forall in F. specialize (F i Hi).
  assert (Hab : a < b < length c) by (apply pairs_in; rewrite <- Ei; apply nth_In, F).
  rewrite Forall_forall in Hb, FU. destruct (FU u Hu) as [Lu Fu]. cbn [fst snd].
  rewrite (get_nth 0 c a) by lia. cbn [bind]. rewrite (get_nth 0 c b) by lia. cbn [bind].
  assert (Ba : nth a c 0 < length X) by (apply Hb, nth_In; lia). assert (Bb : nth b c 0 < length X) by (apply Hb, nth_In; lia).
  rewrite (get_nth [] X (nth a c 0)) by exact Ba. cbn [bind]. rewrite (get_nth [] X (nth b c 0)) by exact Bb. cbn [bind].
  eexists. split; [reflexivity|]. exists (nth a c 0), (nth b c 0).
  split; [apply nth_In; lia|]. split; [apply nth_In; lia|]. split.
  { intros C. apply NoDup_nth in C; lia || assumption. }
  unfold rect in HX. rewrite Forall_forall in HX. pose proof (HX _ (nth_In X [] Ba)) as La. pose proof (HX _ (nth_In X [] Bb)) as Lb.
  set (xa := nth (nth a c 0) X []) in *. set (xb := nth (nth b c 0) X []) in *.
  assert (Lv : length (map2 Qmult (vsub xb xa) u) = dim) by (rewrite map2_length, vsub_length; lia).
  split; [rewrite vadd_length; lia|]. intros j Hj. exists (nth j u 0%Q). split.
  { rewrite Forall_forall in Fu. apply Fu, nth_In. lia. }
  rewrite vadd_nth by lia. rewrite (map2_nth Qmult (vsub xb xa) u j 0%Q 0%Q 0%Q) by (rewrite ?vsub_length; lia). rewrite vsub_nth by lia. ring.
Qed.

Lemma soi_jitter_ok p rs s dim X X_min c c0 n : rng_ok (rs s) -> unif_pos (rs s) -> plain_ss (so_ss p) -> rect dim X -> NoDup c -> Forall (fun i => i < length X) c -> 1 <= length c ->
  (forall q, In q c <-> In q c0) ->
  exists S, soi_jitter volume nn sd p (rs s) dim X X_min c n = Ok S /\ length S = n /\ Forall (soi_noisy dist sd (so_ss p) rs X X_min dim c0) S.
Proof.
  intros Hr Hu Hss HX Hn Hb H1 Hc. unfold soi_jitter. rewrite (gather_map []) by exact Hb. cbn [bind].
  set (C := map (fun i => nth i X []) c).
  assert (RC : rect dim C).
  { apply Forall_forall. intros x Hx. apply in_map_iff in Hx. destruct Hx as (i & <- & Hi). unfold rect in HX. rewrite Forall_forall in HX, Hb. apply HX, nth_In, Hb, Hi. }
  assert (LC : length C = length c) by apply map_length.
  destruct (Hnn C C (length C) ltac:(lia)) as (T & ET & HT). rewrite ET. cbn [bind].
  destruct (nearest_table_shape _ _ _ _ _ HT) as (LT & RT & BT).
  set (ss := mk_ss _ _ _ _). set (ar := mk_args _ _ _ _ _ _ _ _ _).
  destruct (ss_call volume (without_gauss ss) ar n (rs s) 0) as (S0 & E & L & HF).
  - constructor; cbn; try exact I; try exact RC; try exact RT; try exact BT; try discriminate. lia.
  - exact Hr.
  - exact Hu.
  - exact Hss.
  - cbn. lia.
  - cbn. lia.
  - reflexivity.
  - exact I.
  - rewrite (ss_noise volume ss ar n (rs s) S0 E L). specialize (HF eq_refl). cbn in HF.
    destruct (Nat.eqb_spec n 0) as [->|N0]; [exists []; repeat split; constructor|].
    cbn [ss_gauss ss add_gaussian_noise a_dim ar]. eexists. split; [reflexivity|].
    destruct (rng_normal _ Hr n dim) as [LN RN].
    split; [rewrite map2_length; lia|]. apply Forall_forall. intros x Hx. apply (In_nth _ _ []) in Hx. destruct Hx as (i & Hi & Ex).
    rewrite map2_length in Hi.
    rewrite (map2_nth (fun s z => vadd s (map2 Qmult z (soi_std sd dim X_min C))) S0 (r_normal (rs s) n dim) i [] [] []) in Ex by lia.
    exists c, T, (nth i S0 []), s, n, i. split; [exact Hc|]. split; [exact Hn|]. cbv zeta. fold C. split; [exact HT|].
    rewrite Forall_forall in HF. assert (Hi0 : i < length S0) by lia. assert (Hi1 : i < length (r_normal (rs s) n dim)) by lia. pose proof (HF _ (nth_In S0 [] Hi0)) as Hz. split; [exact Hz|].
    assert (Lz : length (nth i S0 []) = dim) by (destruct Hz as (b & ps & _ & _ & _ & _ & _ & _ & Hz); apply Hz).
    unfold rect in RN. rewrite Forall_forall in RN. pose proof (RN _ (nth_In (r_normal (rs s) n dim) [] Hi1)) as Lg.
    assert (Ls : length (soi_std sd dim X_min C) = dim) by (unfold soi_std; now rewrite map_length, seq_length).
    assert (Lm : length (map2 Qmult (nth i (r_normal (rs s) n dim) []) (soi_std sd dim X_min C)) = dim) by (rewrite map2_length; lia).
    subst x. split; [rewrite vadd_length; lia|]. split; [lia|]. intros j Hj. rewrite vadd_nth by lia.
    rewrite (map2_nth Qmult _ _ j 0%Q 0%Q 0%Q) by lia.
    assert (Es : nth j (soi_std sd dim X_min C) 0%Q = Qmin (sd (map (fun x => nth j x 0%Q) X_min)) (sd (map (fun x => nth j x 0%Q) C))).
    { unfold soi_std. set (F := fun j => Qmin (sd (column j X_min)) (sd (column j C))). rewrite (nth_indep _ 0%Q (F 0)) by (now rewrite map_length, seq_length).
      rewrite map_nth, seq_nth by exact Hj. reflexivity. }
    rewrite Es. reflexivity.
Qed.

Lemma soi_cj_ok fuel p rs D mn mj n : rngs_ok rs -> rngs_pos rs -> plain_ss (so_ss p) ->
  wf_data (d_X D) (d_dim D) (d_y D) -> is_minority (d_y D) mn mj -> asked (so_proportion p) (d_y D) mn mj = Ok n ->
  let out := soi_cj_sample volume nn sd prevail listing fuel p rs D in
  (count_label (d_y D) mn <= 2 \/ n = 0%Z -> unchanged D out) /\
  (2 < count_label (d_y D) mn -> (0 < n)%Z ->
     (soi_clustering nn prevail fuel mn (d_X D) (d_y D) = Err OutOfFuel /\ out = Err OutOfFuel) \/
     (exists Cs, soi_clustering nn prevail fuel mn (d_X D) (d_y D) = Ok Cs /\ soi_clusters dist (d_X D) (d_y D) mn Cs /\
       (Forall (fun c => length c <= 2) Cs -> unchanged D out) /\
       (~ Forall (fun c => length c <= 2) Cs -> appends D mn (soi_spec dist sd p rs D mn n Cs) out))).
Proof.
  intros Hr Hu Hss Hwf Hmin Hn out. unfold out, soi_cj_sample. clear out.
  destruct (sample_default (soi_cj_algorithm volume nn sd prevail listing fuel p rs) D mn mj Hmin) as (st & Hst & ->).
  destruct (stats_labels _ _ _ _ Hst) as [El1 El2].
  destruct (Nat.leb_spec (count_label (d_y D) mn) 2) as [Hle|Hgt].
  { split; [reflexivity|lia]. }
  unfold soi_cj_algorithm. rewrite (det_st_asked _ _ _ _ _ (proj1 Hmin) Hst), Hn. cbn [bind].
  pose proof (asked_some _ _ _ _ _ Hn). split.
  { intros [H'| ->]; [lia|]. reflexivity. }
  intros _ Hpos. destruct (Nat.eqb_spec (Z.to_nat n) 0) as [H0|H0]; [lia|]. rewrite El1.
  destruct Hwf as [HX HL]. destruct (soi_clustering_ok fuel mn (d_X D) (d_y D) HL) as [E|(Cs & E & HC)]; rewrite E; cbn [bind]; [left; auto|].
  right. exists Cs. split; [reflexivity|]. split; [exact HC|].
  set (big := filter (fun c => 2 <? length c) Cs).
  assert (Hbig : forall c, In c big -> In c Cs /\ 2 < length c /\ NoDup c /\ Forall (fun i => i < length (d_X D)) c).
  { intros c Hc. apply filter_In in Hc. destruct Hc as [Hc H2]. apply Nat.ltb_lt in H2. split; [exact Hc|]. split; [exact H2|].
    destruct HC as (T & runs & _ & _ & HF & _). rewrite Forall_forall in HF. destruct (HF c Hc) as (_ & _ & N & M). split; [exact N|].
    unfold minority_rows in M. eapply Forall_impl; [|exact M]. intros i Hi. cbn in Hi. rewrite HL. apply nth_error_Some. congruence. }
  assert (Hlst : forall c, In c big -> NoDup (listing c) /\ (forall q, In q (listing c) <-> In q c) /\ length (listing c) = length c).
  { intros c Hc. destruct (Hbig c Hc) as (_ & _ & N & _). pose proof (Hlist c N) as P. split; [exact (Permutation_NoDup (Permutation_sym P) N)|].
    split; [|now apply Permutation_length]. intros q. split; apply Permutation_in; [exact P|exact (Permutation_sym P)]. }
  split.
  { intros Hall. assert (Eb : big = []).
    { unfold big. clear - Hall. induction Hall as [|c l Hc _ IH]; [reflexivity|]. cbn [filter]. destruct (Nat.ltb_spec 2 (length c)); [lia|exact IH]. }
    rewrite Eb. reflexivity. }
  intros Hex. assert (Nb : big <> []).
  { intros Eb. apply Hex. apply Forall_forall. intros c Hc. destruct (Nat.le_gt_cases (length c) 2) as [Hl|Hl]; [exact Hl|].
    assert (In c big) by (apply filter_In; split; [exact Hc|now apply Nat.ltb_lt]). rewrite Eb in *. contradiction. }
  set (fl := map listing big).
  assert (Ef : exists c0 l0, fl = c0 :: l0) by (unfold fl; destruct big as [|c0 l0]; [congruence|cbn; eauto]).
  destruct Ef as (c0 & l0 & Ef). rewrite Ef. rewrite <- Ef.
  set (sizes := map (fun c : list nat => inject_Z (Z.of_nat (length c))) fl).
  assert (Psz : Forall (Qlt 0) sizes).
  { apply Forall_forall. intros x Hx. apply in_map_iff in Hx. destruct Hx as (c & <- & Hc). unfold fl in Hc. apply in_map_iff in Hc. destruct Hc as (c' & <- & Hc').
    destruct (Hlst c' Hc') as (_ & _ & L). destruct (Hbig c' Hc') as (_ & L2 & _). rewrite L. unfold Qlt, inject_Z. cbn. lia. }
  assert (Ssz : (0 < qsum sizes)%Q) by (apply qsum_pos_all; [unfold sizes; rewrite Ef; discriminate|exact Psz]).
  set (probs := map (fun s => s / qsum sizes)%Q sizes).
  assert (Hp1 : (qsum probs == 1)%Q) by (unfold probs; rewrite qsum_map_div; field; lra).
  assert (Hp0 : Forall (Qle 0) probs).
  { apply Forall_forall. intros x Hx. apply in_map_iff in Hx. destruct Hx as (s & <- & Hs). rewrite Forall_forall in Psz. specialize (Psz s Hs). apply Qle_shift_div_l; lra. }
  assert (Lpr : length probs = length fl) by (unfold probs, sizes; now rewrite !map_length).
  assert (Ech : exists chosen, np_choice (rs 0) (seq 0 (length fl)) (Z.to_nat n) probs = Ok chosen /\ length chosen = Z.to_nat n /\ Forall (fun c => c < length fl) chosen).
  { unfold np_choice. replace (forallb (fun q => Qle_bool 0 q) probs) with true.
    2: { symmetry. apply forallb_forall. intros q Hq. apply Qle_bool_iff. rewrite Forall_forall in Hp0. now apply Hp0. }
    destruct (rng_choice _ (Hr 0) probs (Z.to_nat n) Hp0 Hp1) as [L F].
    assert (F' : Forall (fun i => i < length fl) (r_choice (rs 0) probs (Z.to_nat n))).
    { eapply Forall_impl; [|exact F]. intros i (q & Hq & _). rewrite <- Lpr. apply nth_error_Some. congruence. }
    rewrite (gather_map 0) by (rewrite seq_length; exact F'). eexists. split; [reflexivity|]. split; [now rewrite map_length|].
    apply Forall_forall. intros c Hc. apply in_map_iff in Hc. destruct Hc as (i & <- & Hi). rewrite Forall_forall in F'. specialize (F' i Hi). rewrite seq_nth by exact F'. exact F'. }
  destruct Ech as (chosen & Ec & Lc & Fc). rewrite Ec. cbn [bind].
  set (call := fun c count : nat => _).
  set (P := fun (c : nat) x => exists c', In c' Cs /\ 2 < length c' /\
    if so_interpolation p then soi_between (d_X D) (d_dim D) c' x
    else soi_noisy dist sd (so_ss p) rs (d_X D) (rows_with mn (d_X D) (d_y D)) (d_dim D) c' x).
  assert (Hcall : forall c m, In c chosen -> exists S, call c m = Ok S /\ length S = m /\ Forall (P c) S).
  { intros c m Hc. rewrite Forall_forall in Fc. specialize (Fc c Hc). unfold call. rewrite (get_nth [] fl c Fc). cbn [bind].
    assert (Hin : In (nth c fl []) fl) by now apply nth_In. unfold fl in Hin at 2. apply in_map_iff in Hin. destruct Hin as (c' & Ec' & Hc').
    rewrite <- Ec'. destruct (Hlst c' Hc') as (N1 & N2 & N3). destruct (Hbig c' Hc') as (B1 & B2 & B3 & B4).
    assert (B5 : Forall (fun i => i < length (d_X D)) (listing c')).
    { apply Forall_forall. intros q Hq. rewrite Forall_forall in B4. apply B4, N2, Hq. }
    unfold P. destruct (so_interpolation p).
    - destruct (soi_interpolate_ok (rs (2 * c + 1)) (rs (2 * c + 2)) (d_dim D) (d_X D) (listing c') m (Hr _) (Hr _) HX N1 B5 ltac:(lia)) as (S & E1 & E2 & E3).
      exists S. split; [exact E1|]. split; [exact E2|]. eapply Forall_impl; [|exact E3]. intros x (a & b & A1 & A2 & A3). exists c'. split; [exact B1|]. split; [exact B2|].
      exists a, b. split; [now apply N2|]. split; [now apply N2|]. exact A3.
    - destruct (soi_jitter_ok p rs (2 * c + 1) (d_dim D) (d_X D) (rows_with mn (d_X D) (d_y D)) (listing c') c' m (Hr _) (Hu _) Hss HX N1 B5 ltac:(lia) N2) as (S & E1 & E2 & E3).
      exists S. split; [exact E1|]. split; [exact E2|]. eapply Forall_impl; [|exact E3]. intros x Hx. exists c'. auto. }
  destruct (by_cluster_total call chosen) as (S & ES).
  { intros C. rewrite C in Lc. cbn in Lc. lia. }
  { intros c m Hc. destruct (Hcall c m Hc) as (S & E1 & _). eauto. }
  rewrite ES. cbn [bind].
  destruct (by_cluster_spec P call chosen S) as [LS FS]; [|exact ES|].
  { intros c m S' Hc E'. destruct (Hcall c m Hc) as (S2 & E1 & E2 & E3). rewrite E1 in E'. injection E' as <-. split; [exact E2|]. now apply Forall_forall. }
  exists S. unfold extended. rewrite El1. split; [reflexivity|]. split; [lia|]. apply Forall_forall. intros x Hx. destruct (FS x Hx) as (c & _ & Hx'). exact Hx'.
Qed.

(** If the nearest rows of every minority row are of the minority, nothing happens. *)
Lemma soi_cj_nothing fuel p rs D mn mj n : wf_data (d_X D) (d_dim D) (d_y D) -> is_minority (d_y D) mn mj -> asked (so_proportion p) (d_y D) mn mj = Ok n ->
  (forall T, nearest_table dist (d_X D) (rows_with mn (d_X D) (d_y D)) (count_label (d_y D) mn) T -> Forall (minority_rows (d_y D) mn) T) ->
  unchanged D (soi_cj_sample volume nn sd prevail listing (S fuel) p rs D).
Proof.
  intros Hwf Hmin Hn Hsep. unfold soi_cj_sample.
  destruct (sample_default (soi_cj_algorithm volume nn sd prevail listing (S fuel) p rs) D mn mj Hmin) as (st & Hst & ->).
  destruct (stats_labels _ _ _ _ Hst) as [El1 El2].
  destruct (Nat.leb_spec (count_label (d_y D) mn) 2) as [Hle|Hgt]; [reflexivity|].
  unfold soi_cj_algorithm. rewrite (det_st_asked _ _ _ _ _ (proj1 Hmin) Hst), Hn. cbn [bind].
  destruct (Z.to_nat n =? 0); [reflexivity|]. rewrite El1. destruct Hwf as [HX HL].
  unfold soi_clustering. set (X_min := rows_with mn (d_X D) (d_y D)) in *.
  assert (LX : length X_min = count_label (d_y D) mn) by now apply rows_with_length.
  assert (LX2 : length X_min <= length (d_X D)).
  { rewrite LX, HL, <- filter_count. apply filter_len. }
  destruct (Hnn (d_X D) X_min (length X_min) LX2) as (T & ET & HT). rewrite ET. cbn [bind].
  destruct (nearest_table_shape _ _ _ _ _ HT) as (LT & RT & BT). rewrite LX in HT. specialize (Hsep T HT). rewrite HL in BT.
  rewrite (mapM_map (soi_init (d_y D) mn) (fun _ => [])).
  2: { intros t Ht. rewrite Forall_forall in BT, Hsep. destruct (soi_init_ok (d_y D) mn t (BT t Ht)) as (r & E & (Mr & [(i & l & E1 & E2)|[-> _]]) & _); [|exact E].
       exfalso. apply E2. specialize (Hsep t Ht). unfold minority_rows in Hsep. rewrite Forall_forall in Hsep. apply Hsep. rewrite E1. apply in_or_app. right. now left. }
  cbn [bind]. set (s := mk_soi_state _ _ _).
  assert (Ho : forall i, nth i (objs s) [] = []).
  { intros i. cbn [s objs]. destruct (Nat.lt_ge_cases i (length (map (fun _ : list nat => @nil nat) T))) as [Hi|Hi]; [|now apply nth_overflow].
    apply (nth_In _ []) in Hi. apply in_map_iff in Hi. destruct Hi as (t & Et & _). now rewrite <- Et. }
  assert (Hup : forall idx i jj, soi_update prevail s idx i jj = s).
  { intros idx i [jdx j]. unfold soi_update. rewrite (Ho i). reflexivity. }
  assert (Hin : forall idx, soi_inner prevail s idx = s).
  { intros idx. unfold soi_inner. generalize (combine (seq 0 (length (skipn (idx + 1) (slots s)))) (skipn (idx + 1) (slots s))). intros l.
    induction l as [|jj l IH]; [reflexivity|]. cbn [fold_left]. rewrite Hup. exact IH. }
  assert (Hps : fold_left (soi_inner prevail) (seq 0 (length (slots s))) s = s).
  { generalize (seq 0 (length (slots s))). intros l. induction l as [|i l IH]; [reflexivity|]. cbn [fold_left]. rewrite Hin. exact IH. }
  cbn [soi_merge]. unfold soi_pass. change {| objs := objs s; slots := slots s; met := false |} with s. rewrite Hps. cbn [met s].
  fold s. cbn [bind slots objs].
  set (fin := map _ (filter _ _)).
  assert (E : forall l, filter (fun i => negb (length (nth i (objs s) []) =? 0)) l = []).
  { intros l. induction l as [|i l IH]; [reflexivity|]. cbn [filter]. rewrite (Ho i). exact IH. }
  assert (Ef : fin = []) by (unfold fin; now rewrite E).
  rewrite Ef. reflexivity.
Qed.

End SOI.
