(** The helpers of the plots. *)

From Coq Require Import String DecimalString DecimalNat List ZArith QArith Bool Arith Lia Permutation Sorting.Sorted.
From Verif Require Import Np NpFacts PyVal SimplexModel Spec CompModel ShellModel SpecShell.
Import ListNotations.
Open Scope nat_scope.

(** ** Names of classes *)

Lemma lab_unique y : map fst (unique_by lab_eqb lab_ltb (map LNum y)) = map LNum (map fst (unique_counts y)).
Proof.
  assert (G : unique_by lab_eqb lab_ltb (map LNum y) = map (fun zc => (LNum (fst zc), snd zc)) (unique_counts y)).
  { induction y as [|z y IH]; [reflexivity|]. unfold unique_counts, unique_by in *. cbn [map fold_right]. rewrite IH. clear IH.
    set (l := fold_right _ [] y). clearbody l. induction l as [|[a c] l IH]; [reflexivity|]. cbn [map count_insert fst snd lab_eqb lab_ltb].
    destruct (z =? a)%Z; [reflexivity|]. destruct (z <? a)%Z; [reflexivity|]. cbn [map fst snd]. f_equal. exact IH. }
  rewrite G, !map_map. reflexivity.
Qed.

Lemma lab_eqb_num a b : lab_eqb (LNum a) (LNum b) = (a =? b)%Z.
Proof. reflexivity. Qed.

Lemma unique_Z_sorted y : StronglySorted Z.lt (map fst (unique_counts y)).
Proof.
  assert (G : StronglySorted (fun a b => (a <? b)%Z = true) (map fst (unique_counts y))).
  { apply unique_sorted; intros; rewrite ?Z.eqb_eq, ?Z.ltb_lt, ?Z.ltb_ge in *; try lia. }
  induction G as [|a l G IH F]; constructor; auto. eapply Forall_impl; [|exact F]. cbv beta. intros b. apply Z.ltb_lt.
Qed.

Lemma unique_Z_in y z : In z (map fst (unique_counts y)) <-> In z y.
Proof. apply unique_keys; intros; rewrite ?Z.eqb_eq, ?Z.ltb_lt, ?Z.ltb_ge in *; try lia. Qed.

Lemma unique_Z_perm y : Permutation (map fst (unique_counts y)) (nodup Z.eq_dec y).
Proof.
  apply NoDup_Permutation; [|apply NoDup_nodup|intros; rewrite unique_Z_in, nodup_In; reflexivity].
  pose proof (unique_Z_sorted y) as S. induction S as [|a l S IH F]; constructor; auto. rewrite Forall_forall in F. intros H. specialize (F a H). lia.
Qed.

Lemma position_sorted l z : StronglySorted Z.lt l -> In z l -> position (map LNum l) (LNum z) = length (filter (fun a => (a <? z)%Z) l).
Proof.
  induction 1 as [|a l S IH F]; intros Hin; [destruct Hin|]. cbn [map position lab_eqb filter]. rewrite Forall_forall in F.
  destruct (Z.eqb_spec z a) as [->|N].
  - rewrite Z.ltb_irrefl. assert (E : filter (fun b => (b <? a)%Z) l = []); [|now rewrite E].
    clear -F. induction l as [|b l IH]; [reflexivity|]. cbn. destruct (Z.ltb_spec b a) as [H|H]; [specialize (F b (or_introl eq_refl)); lia|].
    apply IH. intros; apply F; now right.
  - destruct Hin as [->|Hin]; [congruence|]. pose proof (F z Hin). destruct (Z.ltb_spec a z); [|lia]. cbn [length]. now rewrite IH.
Qed.

Lemma filter_perm_length {A} (f : A -> bool) l l' : Permutation l l' -> length (filter f l) = length (filter f l').
Proof. induction 1; cbn; try destruct (f x); try destruct (f y); cbn; congruence. Qed.

Lemma relabel_two y : n_labels y = 2 -> relabel_y (map LNum y) =
  map (fun a => if (a =? 0)%Z then "majority"%string else if (a =? 1)%Z then "minority"%string else "dummy"%string) y.
Proof.
  intros H. unfold relabel_y. rewrite lab_unique, map_length. rewrite (Permutation_length (unique_Z_perm y)). unfold n_labels in H. rewrite H.
  cbn [Nat.eqb]. rewrite map_map. reflexivity.
Qed.

Lemma relabel_more y : n_labels y <> 2 -> relabel_y (map LNum y) =
  map (fun a => if (a =? 0)%Z then "majority"%string else minority_name (n_smaller y a)) y.
Proof.
  intros H. unfold relabel_y. rewrite lab_unique, map_length. rewrite (Permutation_length (unique_Z_perm y)). unfold n_labels in H.
  destruct (Nat.eqb_spec (length (nodup Z.eq_dec y)) 2); [congruence|]. rewrite map_map. apply map_ext_in. intros a Ha. rewrite lab_eqb_num.
  destruct (a =? 0)%Z; [reflexivity|]. f_equal. unfold n_smaller. rewrite <- (filter_perm_length _ _ _ (unique_Z_perm y)).
  apply position_sorted; [apply unique_Z_sorted|now apply unique_Z_in].
Qed.

Lemma minority_name_inj i j : minority_name i = minority_name j -> i = j.
Proof.
  unfold minority_name. cbn [append]. intros H. repeat (injection H as H).
  assert (E : Nat.to_uint i = Nat.to_uint j). { pose proof (f_equal NilEmpty.uint_of_string H) as G. rewrite !NilEmpty.usu in G. congruence. }
  rewrite <- (Unsigned.of_to i), <- (Unsigned.of_to j). now rewrite E.
Qed.

Lemma n_smaller_inj y a b : In a y -> In b y -> n_smaller y a = n_smaller y b -> a = b.
Proof.
  intros Ha Hb. unfold n_smaller. set (l := nodup Z.eq_dec y). assert (Ia : In a l) by now apply nodup_In. assert (Ib : In b l) by now apply nodup_In.
  assert (G : forall a b l, In a l -> (a < b)%Z -> length (filter (fun z => (z <? a)%Z) l) < length (filter (fun z => (z <? b)%Z) l)).
  { clear. intros a b l Hin H. 
    assert (W : forall l, length (filter (fun z => (z <? a)%Z) l) <= length (filter (fun z => (z <? b)%Z) l)).
    { induction l0 as [|z l0 IH]; [reflexivity|]. cbn. destruct (Z.ltb_spec z a), (Z.ltb_spec z b); cbn; lia. }
    induction l as [|z l IH]; [destruct Hin|]. cbn. destruct Hin as [->|Hin].
    - rewrite Z.ltb_irrefl. destruct (Z.ltb_spec a b); [|lia]. cbn. specialize (W l). lia.
    - specialize (IH Hin). destruct (Z.ltb_spec z a), (Z.ltb_spec z b); cbn; lia. }
  intros E. destruct (Z.lt_trichotomy a b) as [H|[H|H]]; [|exact H|].
  - specialize (G a b l Ia H). lia.
  - specialize (G b a l Ib H). lia.
Qed.

Lemma relabel_spec y i : i < length y -> n_labels y <> 2 ->
  nth i (relabel_y (map LNum y)) ""%string =
    if (nth i y 0 =? 0)%Z then "majority"%string else minority_name (n_smaller y (nth i y 0%Z)).
Proof.
  intros Hi H. rewrite relabel_more by assumption. set (f := fun a => _).
  rewrite (nth_indep _ ""%string (f 0%Z)) by now rewrite map_length. now rewrite map_nth.
Qed.

Lemma relabel_distinguishes y i j : i < length y -> j < length y -> n_labels y <> 2 ->
  nth i (relabel_y (map LNum y)) ""%string = nth j (relabel_y (map LNum y)) ""%string <-> nth i y 0%Z = nth j y 0%Z.
Proof.
  intros Hi Hj H. rewrite !relabel_spec by assumption. split; [|intros ->; reflexivity].
  destruct (Z.eqb_spec (nth i y 0%Z) 0) as [E|E], (Z.eqb_spec (nth j y 0%Z) 0) as [F|F]; try congruence; try discriminate.
  intros G. apply minority_name_inj in G. apply (n_smaller_inj y); auto using nth_In.
Qed.

Lemma relabel_length y : length (relabel_y y) = length y.
Proof. unfold relabel_y. destruct (_ =? 2); apply map_length. Qed.

Lemma relabel_01 y i : n_labels y = 2 -> In 0%Z y -> In 1%Z y -> i < length y ->
  (nth i y 0%Z = 0%Z -> nth i (relabel_y (map LNum y)) ""%string = "majority"%string) /\
  (nth i y 0%Z <> 0%Z -> nth i (relabel_y (map LNum y)) ""%string = "minority"%string).
Proof.
  intros H H0 H1 Hi. rewrite relabel_two by assumption. set (f := fun a => _).
  rewrite (nth_indep _ ""%string (f 0%Z)) by now rewrite map_length. rewrite map_nth. unfold f.
  assert (A : nth i y 0%Z = 0%Z \/ nth i y 0%Z = 1%Z).
  { pose proof (nth_In y 0%Z Hi) as Hin. set (z := nth i y 0%Z) in *. clearbody z. unfold n_labels in H.
    destruct (Z.eq_dec z 0); [now left|]. destruct (Z.eq_dec z 1); [now right|]. exfalso.
    assert (L : length [0%Z; 1%Z; z] <= length (nodup Z.eq_dec y)).
    { apply NoDup_incl_length; [repeat constructor; cbn; intuition lia|]. intros a. rewrite nodup_In. cbn. intuition (subst; auto). }
    cbn in L. lia. }
  destruct A as [A|A]; rewrite A; cbn; split; congruence.
Qed.

(** ** The tables *)

Lemma zs_eqb_spec a : forall b, zs_eqb a b = true <-> a = b.
Proof.
  induction a as [|x a IH]; intros [|z b]; cbn; try (split; congruence). rewrite andb_true_iff, Z.eqb_eq, IH. split; [intros []; congruence|intros H; now injection H].
Qed.

Lemma zs_ltb_irrefl a : zs_ltb a a = false.
Proof. induction a as [|x a IH]; cbn; [reflexivity|]. now rewrite Z.ltb_irrefl, Z.eqb_refl, IH. Qed.

Lemma zs_ltb_trans a : forall b c, zs_ltb a b = true -> zs_ltb b c = true -> zs_ltb a c = true.
Proof.
  induction a as [|x a IH]; intros [|z b] [|w c]; cbn; try congruence.
  rewrite !orb_true_iff, !andb_true_iff, !Z.ltb_lt, !Z.eqb_eq. intros [H|[-> H]] [G|[-> G]]; try (left; lia). right. split; [reflexivity|]. eapply IH; eassumption.
Qed.

Lemma zs_ltb_total a : forall b, a <> b -> zs_ltb a b = false -> zs_ltb b a = true.
Proof.
  induction a as [|x a IH]; intros [|z b] N H; cbn in *; try congruence.
  rewrite orb_true_iff, andb_true_iff, Z.ltb_lt, Z.eqb_eq. apply orb_false_iff in H as [H1 H2]. apply Z.ltb_ge in H1.
  destruct (Z.eqb_spec x z) as [->|]; [|left; lia]. right. split; [reflexivity|]. cbn in H2. apply IH; congruence.
Qed.

Definition zs_dec := list_eq_dec Z.eq_dec.

Lemma unique_rows_in U r c : In (r, c) (unique_by zs_eqb zs_ltb U) <-> 0 < c /\ c = count_occ zs_dec U r.
Proof. apply unique_in; [apply zs_eqb_spec|apply zs_ltb_trans|apply zs_ltb_irrefl|apply zs_ltb_total]. Qed.

Lemma unique_rows_nodup U : NoDup (map fst (unique_by zs_eqb zs_ltb U)).
Proof. apply unique_NoDup; [apply zs_eqb_spec|apply zs_ltb_trans|apply zs_ltb_irrefl|apply zs_ltb_total]. Qed.
