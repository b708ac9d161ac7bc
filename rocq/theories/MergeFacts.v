(** Proofs about the end of SOI_CJ's merging. *)

From Coq Require Import List ZArith Bool Arith Lia.
From Verif Require Import Np NpFacts Spec SpecDanger SamplerFacts SearchModel SearchFacts GraphModel SpecGraph GraphFacts GraphFacts2 GraphFacts4 GraphFacts5.
Import ListNotations.
Open Scope nat_scope.

Definition sizes (l : list (list nat)) : nat := list_sum (map (@length nat) l).

Lemma filter_le {A} (f : A -> bool) l : length (filter f l) <= length l.
Proof. induction l as [|a l IH]; [cbn; lia|]. cbn. destruct (f a); cbn; lia. Qed.

Lemma filter_shorter {A} (f : A -> bool) l x : In x l -> f x = false -> length (filter f l) < length l.
Proof.
  induction l as [|a l IH]; [easy|]. intros [->|H] F; cbn.
  - rewrite F. pose proof (filter_le f l). lia.
  - specialize (IH H F). destruct (f a); cbn; lia.
Qed.

Lemma sizes_set i v l : i < length l -> sizes (set_at i v l) + length (nth i l []) = sizes l + length v.
Proof.
  unfold sizes, list_sum. revert i. induction l as [|a l IH]; intros [|i] H; cbn [length] in H; try lia; cbn [set_at map nth fold_right].
  - lia.
  - specialize (IH i ltac:(lia)). lia.
Qed.

Lemma nth_in_range (l : list (list nat)) i x : In x (nth i l []) -> i < length l.
Proof. intros H. destruct (Nat.lt_ge_cases i (length l)) as [L|L]; [assumption|]. rewrite nth_overflow in H by assumption. destruct H. Qed.

Lemma mem_true l x : In x l -> mem l x = true.
Proof. intros H. apply existsb_exists. exists x. split; [assumption|apply Nat.eqb_refl]. Qed.

(** An invariant of the updates is one of the pass. *)
Lemma pass_keeps prevail (P : soi_state -> Prop) s : P (mk_soi_state (objs s) (slots s) false) ->
  (forall s' idx i jj, P s' -> fst jj < length (slots s') -> P (soi_update prevail s' idx i jj)) ->
  exists s', P s' /\ length (slots s') = length (slots s) /\
    soi_pass prevail s = mk_soi_state (objs s') (filter (fun i => negb (length (nth i (objs s') []) =? 0)) (slots s')) (met s').
Proof.
  intros H0 Hu. unfold soi_pass. set (N := length (slots s)).
  assert (U : forall s' idx i jj, length (slots s') = N -> length (slots (soi_update prevail s' idx i jj)) = N).
  { intros s' idx i [jdx j] L. unfold soi_update. destruct (filter _ _); [assumption|]. destruct (prevail _ _); [|destruct (_ <? _)]; cbn [slots]; now rewrite !set_at_len. }
  enough (G : forall l s1, P s1 -> length (slots s1) = N -> let s' := fold_left (soi_inner prevail) l s1 in P s' /\ length (slots s') = N).
  { destruct (G (seq 0 N) (mk_soi_state (objs s) (slots s) false) H0 eq_refl) as [A B]. eexists. split; [exact A|]. split; [exact B|reflexivity]. }
  induction l as [|idx l IH]; intros s1 P1 L1; cbn [fold_left]; [auto|].
  enough (I : P (soi_inner prevail s1 idx) /\ length (slots (soi_inner prevail s1 idx)) = N) by (destruct I; now apply IH).
  unfold soi_inner. set (rest := skipn (idx + 1) (slots s1)). set (i := nth idx (slots s1) 0).
  assert (R : Forall (fun jj => fst jj < N) (combine (seq 0 (length rest)) rest)).
  { apply Forall_forall. intros [jdx j] Hj. apply in_combine_l, in_seq in Hj. unfold rest in Hj. rewrite skipn_length in Hj. cbn. lia. }
  clearbody rest i. revert s1 P1 L1. induction R as [|jj ll Hjj _ IHl]; intros s1 P1 L1; cbn [fold_left]; [auto|].
  apply IHl; [apply Hu; [assumption|now rewrite L1]|now apply U].
Qed.

(** ** The minority never prevails *)

Lemma never_update prevail s idx i jj T : (forall a b, prevail a b = false) -> sizes (objs s) + Nat.b2n (met s) <= T ->
  sizes (objs (soi_update prevail s idx i jj)) + Nat.b2n (met (soi_update prevail s idx i jj)) <= T.
Proof.
  intros Hp H. destruct jj as [jdx j]. unfold soi_update. destruct (filter (mem (nth j (objs s) [])) (nth i (objs s) [])) as [|x common] eqn:E; [exact H|].
  rewrite Hp. assert (Hx : In x (filter (mem (nth j (objs s) [])) (nth i (objs s) []))) by (rewrite E; now left).
  apply filter_In in Hx as [Hi Hm]. apply existsb_exists in Hm as (x' & Hj & Ex). apply Nat.eqb_eq in Ex. subst x'.
  assert (M : negb (mem (x :: common) x) = false) by (rewrite mem_true; [reflexivity|now left]).
  destruct (_ <? _); cbn [objs met Nat.b2n].
  - pose proof (filter_shorter (fun z => negb (mem (x :: common) z)) _ x Hj M). pose proof (sizes_set j (filter (fun z => negb (mem (x :: common) z)) (nth j (objs s) [])) (objs s) (nth_in_range _ _ _ Hj)). lia.
  - pose proof (filter_shorter (fun z => negb (mem (x :: common) z)) _ x Hi M). pose proof (sizes_set i (filter (fun z => negb (mem (x :: common) z)) (nth i (objs s) [])) (objs s) (nth_in_range _ _ _ Hi)). lia.
Qed.

Lemma never_ends prevail : (forall a b, prevail a b = false) -> forall fuel s, sizes (objs s) < fuel -> exists r, soi_merge prevail fuel s = Ok r.
Proof.
  intros Hp. induction fuel as [|fuel IH]; intros s H; [lia|]. cbn [soi_merge].
  destruct (pass_keeps prevail (fun s' => sizes (objs s') + Nat.b2n (met s') <= sizes (objs s)) s) as (s' & I & _ & ->).
  - cbn [objs met Nat.b2n]. lia.
  - intros s' idx i jj Hs _. now apply never_update.
  - cbn [met]. destruct (met s'); [|eauto]. apply IH. cbn [objs Nat.b2n] in *. lia.
Qed.

(** ** The minority always prevails *)

Lemma always_ends prevail : (forall a b, prevail a b = true) -> forall fuel s, length (slots s) < fuel -> exists r, soi_merge prevail fuel s = Ok r.
Proof.
  intros Hp. induction fuel as [|fuel IH]; intros s H; [lia|]. cbn [soi_merge].
  destruct (pass_keeps prevail (fun s' => met s' = true -> exists o, In o (slots s') /\ nth o (objs s') [] = []) s) as (s' & I & L & ->).
  - easy.
  - intros s' idx i [jdx j] Hs Hj. unfold soi_update. destruct (filter _ _) as [|x common]; [exact Hs|]. rewrite Hp. cbn [objs slots met fst] in *. intros _.
    exists (length (objs s')). split.
    + assert (L : jdx < length (set_at jdx (length (objs s')) (set_at idx i (slots s')))) by (rewrite !set_at_len; exact Hj).
      pose proof (nth_In _ 0 L) as X. rewrite set_at_same in X; [exact X|]. now rewrite set_at_len.
    + rewrite app_nth2; rewrite set_at_len; [|lia]. now rewrite Nat.sub_diag.
  - cbn [met]. destruct (met s'); [|eauto]. apply IH. cbn [slots]. destruct (I eq_refl) as (o & Ho & Eo).
    pose proof (filter_shorter (fun i => negb (length (nth i (objs s') []) =? 0)) (slots s') o Ho) as F. cbv beta in F. rewrite Eo in F. specialize (F eq_refl). lia.
Qed.

(** ** Two clusters *)

Lemma two_pass prevail a b : (exists x, In x a /\ In x b) -> prevail a b = true ->
  exists u, soi_pass prevail (mk_soi_state [a; b] [0; 1] false) = mk_soi_state [u; b; []] [1] true.
Proof.
  intros (x & Ha & Hb) Hp. exists (a ++ filter (fun z => negb (mem a z)) b).
  assert (E : soi_update prevail (mk_soi_state [a; b] [0; 1] false) 0 0 (0, 1) = mk_soi_state [a ++ filter (fun z => negb (mem a z)) b; b; []] [2; 1] true).
  { unfold soi_update. cbn [objs nth]. destruct (filter (mem b) a) eqn:E; [|now rewrite Hp].
    exfalso. assert (In x (filter (mem b) a)) as I by (apply filter_In; split; [assumption|now apply mem_true]). rewrite E in I. destruct I. }
  assert (E1 : soi_inner prevail (mk_soi_state [a; b] [0; 1] false) 0 = mk_soi_state [a ++ filter (fun z => negb (mem a z)) b; b; []] [2; 1] true) by exact E.
  unfold soi_pass. cbn [slots objs length seq fold_left]. rewrite E1. destruct b; [destruct Hb|]. reflexivity.
Qed.

Lemma two_merged prevail fuel a b : (exists x, In x a /\ In x b) -> prevail a b = true ->
  soi_merge prevail (S (S fuel)) (mk_soi_state [a; b] [0; 1] false) = Ok [b].
Proof.
  intros H Hp. destruct (two_pass prevail a b H Hp) as (u & E). cbn [soi_merge]. rewrite E. cbn [met].
  destruct H as (x & _ & Hb). destruct b; [destruct Hb|]. reflexivity.
Qed.

(** ** The clustering *)

Lemma clustering_ends dist nn prevail fuel mn X y : knn_ok dist nn -> length X = length y ->
  (forall a b, prevail a b = false) \/ (forall a b, prevail a b = true) ->
  count_occ Z.eq_dec y mn * count_occ Z.eq_dec y mn < fuel ->
  exists Cs, soi_clustering nn prevail fuel mn X y = Ok Cs /\ soi_clusters dist X y mn Cs.
Proof.
  intros Hnn HL Hc Hf. destruct (soi_clustering_ok dist nn Hnn prevail fuel mn X y HL) as [E|E]; [exfalso|exact E].
  revert E. unfold soi_clustering. rewrite <- (rows_with_length mn X y HL) in Hf. set (X_min := rows_with mn X y) in *.
  assert (LX : length X_min <= length X).
  { unfold X_min. rewrite rows_with_length by exact HL. rewrite HL. apply count_occ_bound. }
  destruct (Hnn X X_min (length X_min) LX) as (T & -> & HT). cbn [bind].
  destruct (nearest_table_shape _ _ _ _ _ HT) as (LT & RT & BT). rewrite HL in BT. set (m := length X_min) in *.
  assert (HR : exists runs, mapM (soi_init y mn) T = Ok runs /\ length runs = length T /\ sizes runs <= length T * m).
  { clear - BT RT. clearbody m. induction T as [|t T IH]; [exists []; repeat split; cbn; lia|].
    inversion BT; subst. inversion RT; subst. destruct (IH H4 H2) as (runs & E & L & S). destruct (soi_init_ok y mn t H1) as (r & Er & _ & l & El).
    exists (r :: runs). cbn [mapM]. rewrite Er. cbn [bind]. rewrite E. split; [reflexivity|]. split; [cbn; lia|].
    assert (length r <= length t) by (rewrite El, app_length; lia). unfold sizes, list_sum in *. cbn [map fold_right length]. lia. }
  destruct HR as (runs & -> & LR & SR). cbn [bind]. rewrite LT in *.
  intros E. destruct Hc as [Hc|Hc].
  - destruct (never_ends prevail Hc fuel (mk_soi_state runs (seq 0 (length runs)) false)) as (r & E'); [cbn [objs]; lia|congruence].
  - destruct (always_ends prevail Hc fuel (mk_soi_state runs (seq 0 (length runs)) false)) as (r & E'); [cbn [slots]; rewrite seq_length; nia|congruence].
Qed.
