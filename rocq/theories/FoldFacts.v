(** Facts about fold and cache file names and about folds. *)

From Coq Require Import List ZArith QArith Bool Arith Lia Permutation Sorted.
From Verif Require Import Np NpFacts JsonModel JsonFacts FoldModel.
Import ListNotations.
Open Scope nat_scope.

(** ** Padded numbers *)

Lemma pad4_digits n : all_digits (pad4 n).
Proof.
  unfold pad4. destruct (digits_spec (Z.of_nat n) ltac:(lia)) as (_ & D & _). apply Forall_app. split; [|exact D].
  apply Forall_forall. intros x H. apply repeat_spec in H. now subst.
Qed.

Lemma digits_value_app a b : digits_value (a ++ b) = (digits_value a * 10 ^ Z.of_nat (length b) + digits_value b)%Z.
Proof.
  induction b as [|c b IH] using rev_ind; [rewrite app_nil_r; unfold digits_value at 3; cbn; lia|].
  rewrite app_assoc, !digits_value_snoc, IH, app_length. cbn [length].
  replace (Z.of_nat (length b + 1)) with (Z.succ (Z.of_nat (length b))) by lia. rewrite Z.pow_succ_r by lia. lia.
Qed.

Lemma digits_value_zeros k : digits_value (repeat 48%Z k) = 0%Z.
Proof.
  induction k as [|k IH]; [reflexivity|]. change (repeat 48%Z (S k)) with ([48%Z] ++ repeat 48%Z k). rewrite digits_value_app, IH. reflexivity.
Qed.

Lemma pad4_value n : digits_value (pad4 n) = Z.of_nat n.
Proof.
  unfold pad4. rewrite digits_value_app, digits_value_zeros. destruct (digits_spec (Z.of_nat n) ltac:(lia)) as (V & _). lia.
Qed.

Lemma pad4_inj n m : pad4 n = pad4 m -> n = m.
Proof. intros E. apply (f_equal digits_value) in E. rewrite !pad4_value in E. lia. Qed.

Lemma digit_range c : is_digit c = true -> (48 <= c <= 57)%Z.
Proof. unfold is_digit. rewrite andb_true_iff, !Z.leb_le. auto. Qed.

Lemma digits_value_bound d : all_digits d -> (0 <= digits_value d < 10 ^ Z.of_nat (length d))%Z.
Proof.
  induction d as [|c d IH] using rev_ind; intros D; [cbn; lia|]. apply Forall_app in D as [D C]. inversion C as [|? ? Hc _]; subst.
  specialize (IH D). apply digit_range in Hc. rewrite digits_value_snoc, app_length. cbn [length].
  replace (Z.of_nat (length d + 1)) with (Z.succ (Z.of_nat (length d))) by lia. rewrite Z.pow_succ_r by lia. lia.
Qed.

Lemma pad4_length n : n < 10 * 10 * 10 * 10 -> length (pad4 n) = 4.
Proof.
  intros L. unfold pad4. rewrite app_length, repeat_length.
  enough (length (digits (Z.of_nat n)) <= 4) by lia.
  destruct (digits_spec (Z.of_nat n) ltac:(lia)) as (V & D & c & d & E & C). rewrite E in *.
  destruct (Z.eq_dec c 48) as [->|N]; [destruct (C eq_refl) as [_ ->]; cbn; lia|].
  change (c :: d) with ([c] ++ d) in V. rewrite digits_value_app in V. inversion D as [|? ? Hc Hd]; subst.
  pose proof (digits_value_bound d Hd) as B. apply digit_range in Hc.
  assert (X : digits_value [c] = (c - 48)%Z) by (unfold digits_value; cbn [fold_left]; lia). rewrite X in V.
  cbn [length]. destruct (le_lt_dec (length d) 3) as [|G]; [lia|]. exfalso.
  assert (10 ^ 4 <= 10 ^ Z.of_nat (length d))%Z by (apply Z.pow_le_mono_r; lia).
  assert (10 ^ Z.of_nat (length d) <= (c - 48) * 10 ^ Z.of_nat (length d))%Z by nia.
  lia.
Qed.

(** ** Names are distinct *)

Lemma digits_then a b c x y : all_digits a -> all_digits b -> is_digit c = false -> a ++ c :: x = b ++ c :: y -> a = b /\ x = y.
Proof.
  intros Da Db Nc E. pose proof (span_all a c x Da Nc) as Sa. rewrite E, (span_all b c y Db Nc) in Sa. now injection Sa as -> ->.
Qed.

Theorem fold_name_inj r f r' f' ser : fold_name r f ser = fold_name r' f' ser -> r = r' /\ f = f'.
Proof.
  unfold fold_name. intros E. apply app_inv_head in E. cbn [app] in E.
  apply digits_then in E as [E1 E2]; try apply pad4_digits; [|reflexivity].
  apply digits_then in E2 as [E2 _]; try apply pad4_digits; [|reflexivity]. split; now apply pad4_inj.
Qed.

Theorem sampling_name_inj r f h r' f' h' ser : sampling_name r f h ser = sampling_name r' f' h' ser -> r = r' /\ f = f' /\ h = h'.
Proof.
  unfold sampling_name. intros E. apply app_inv_head in E. cbn [app] in E.
  apply digits_then in E as [E1 E2]; try apply pad4_digits; [|reflexivity].
  apply digits_then in E2 as [E2 E3]; try apply pad4_digits; [|reflexivity]. apply app_inv_tail in E3. repeat split; auto; now apply pad4_inj.
Qed.

Theorem evaluation_name_inj r f h r' f' h' ser : evaluation_name r f h ser = evaluation_name r' f' h' ser -> r = r' /\ f = f' /\ h = h'.
Proof.
  unfold evaluation_name. intros E. apply app_inv_head in E. cbn [app] in E.
  apply digits_then in E as [E1 E2]; try apply pad4_digits; [|reflexivity].
  apply digits_then in E2 as [E2 E3]; try apply pad4_digits; [|reflexivity]. apply app_inv_tail in E3. repeat split; auto; now apply pad4_inj.
Qed.

(** ** Order of names *)

Definition text_ltb (a b : text) : bool := text_leb a b && negb (text_leb b a).

Lemma text_leb_refl a : text_leb a a = true.
Proof. induction a as [|x a IH]; cbn; [reflexivity|]. now rewrite Z.ltb_irrefl, Z.eqb_refl. Qed.

Lemma text_leb_prefix p a b : text_leb (p ++ a) (p ++ b) = text_leb a b.
Proof. induction p as [|x p IH]; cbn; [reflexivity|]. now rewrite Z.ltb_irrefl, Z.eqb_refl. Qed.

(** Digit strings of one length compare like their values. *)
Lemma digits_order a : forall b x y, length a = length b -> all_digits a -> all_digits b -> (digits_value a < digits_value b)%Z ->
  text_leb (a ++ x) (b ++ y) = true /\ text_leb (b ++ y) (a ++ x) = false.
Proof.
  induction a as [|c a IH]; intros [|e b] x y L Da Db V; cbn in L; try discriminate.
  injection L as L. inversion Da as [|? ? Hc Da']; inversion Db as [|? ? He Db']; subst. apply digit_range in Hc, He.
  change (c :: a) with ([c] ++ a) in V. change (e :: b) with ([e] ++ b) in V. rewrite !digits_value_app, L in V.
  assert (X : forall c, digits_value [c] = (c - 48)%Z) by (intros; unfold digits_value; cbn [fold_left]; lia). rewrite !X in V.
  pose proof (digits_value_bound a Da') as Ba. pose proof (digits_value_bound b Db') as Bb. rewrite L in Ba.
  cbn [app text_leb]. destruct (Z.lt_trichotomy c e) as [H|[->|H]].
  - rewrite (proj2 (Z.ltb_lt c e) H). destruct (Z.ltb_spec e c); [lia|]. destruct (Z.eqb_spec e c); [lia|]. auto.
  - rewrite Z.ltb_irrefl, Z.eqb_refl. apply IH; auto. lia.
  - exfalso. assert ((e - 48 + 1) * 10 ^ Z.of_nat (length b) <= (c - 48) * 10 ^ Z.of_nat (length b))%Z by (apply Z.mul_le_mono_nonneg_r; lia). lia.
Qed.

Definition limit : nat := 10 * 10 * 10 * 10.

Theorem fold_name_order r f r' f' ser : r < limit -> f < limit -> r' < limit -> f' < limit ->
  r < r' \/ (r = r' /\ f < f') -> text_leb (fold_name r f ser) (fold_name r' f' ser) = true /\ text_leb (fold_name r' f' ser) (fold_name r f ser) = false.
Proof.
  intros L1 L2 L3 L4 H. unfold fold_name. rewrite !text_leb_prefix. destruct H as [H|[<- H]].
  - apply digits_order; try apply pad4_digits; [now rewrite !pad4_length|]. rewrite !pad4_value. lia.
  - rewrite !text_leb_prefix. apply digits_order; try apply pad4_digits; [now rewrite !pad4_length|]. rewrite !pad4_value. lia.
Qed.

Lemma sorted_id l : StronglySorted (fun a b => text_leb a b = true) l -> sorted l = l.
Proof.
  induction 1 as [|a l _ IH H]; cbn; [reflexivity|]. fold (sorted l). rewrite IH. destruct l as [|b l]; cbn; [reflexivity|].
  inversion H as [|? ? Hb _]; subst. now rewrite Hb.
Qed.

(** ** Folds *)

Lemma combine_app_len {A B} (a1 a2 : list A) (b1 b2 : list B) : length a1 = length b1 -> combine (a1 ++ a2) (b1 ++ b2) = combine a1 b1 ++ combine a2 b2.
Proof. revert b1. induction a1 as [|x a1 IH]; intros [|y b1] L; cbn in *; try discriminate; [reflexivity|]. f_equal. auto. Qed.

Lemma Forall2_firstn {A B} (P : A -> B -> Prop) n l l' : Forall2 P l l' -> Forall2 P (firstn n l) (firstn n l').
Proof. intros H. revert n. induction H; intros [|n]; cbn; constructor; auto. Qed.
Lemma Forall2_skipn {A B} (P : A -> B -> Prop) n l l' : Forall2 P l l' -> Forall2 P (skipn n l) (skipn n l').
Proof. intros H. revert n. induction H; intros [|n]; cbn; auto. Qed.

Lemma nth_error_ext {A} (l l' : list A) : (forall k, nth_error l k = nth_error l' k) -> l = l'.
Proof.
  revert l'. induction l as [|x l IH]; intros [|y l'] H; [reflexivity|specialize (H 0); discriminate H|specialize (H 0); discriminate H|].
  pose proof (H 0) as H0. injection H0 as ->. f_equal. apply IH. intros k. exact (H (S k)).
Qed.

Lemma nth_error_seq s n k : k < n -> nth_error (seq s n) k = Some (s + k).
Proof. intros L. rewrite (nth_error_nth' _ 0) by now rewrite seq_length. now rewrite seq_nth. Qed.

Lemma map_const_repeat {A B} (f : A -> B) b l : Forall (fun x => f x = b) l -> map f l = repeat b (length l).
Proof. induction 1 as [|x l Hx _ IH]; cbn; [reflexivity|]. now rewrite Hx, IH. Qed.

Lemma gather_perm {A} (l : list A) idx r : gather l idx = Ok r -> Permutation idx (seq 0 (length l)) -> Permutation r l.
Proof.
  intros G P. rewrite gather_ok_iff in G. destruct (Permutation_Forall2 P G) as (r' & P' & G').
  apply gather_ok_iff in G'. rewrite gather_seq in G'. injection G' as <-. exact P'.
Qed.

Lemma gather_app {A} (l : list A) i j r t : gather l i = Ok r -> gather l j = Ok t -> gather l (i ++ j) = Ok (r ++ t).
Proof. rewrite !gather_ok_iff. apply Forall2_app. Qed.

Lemma gather_combine {A B} (l : list A) (m : list B) idx r t : length l = length m ->
  gather l idx = Ok r -> gather m idx = Ok t -> gather (combine l m) idx = Ok (combine r t).
Proof.
  intros L. rewrite !gather_ok_iff. intros H. revert t. induction H as [|i a idx r Hi _ IH]; intros t H'; inversion H' as [|? b ? t' Hb Ht]; subst; cbn; constructor; auto.
  clear -L Hi Hb. revert m i L Hi Hb. induction l as [|x l IH]; intros [|y m] [|i] L Hi Hb; cbn in *; try discriminate.
  - now injection Hi as ->; injection Hb as ->.
  - apply IH; auto.
Qed.

Lemma describe_repeat n_splits idx : n_splits <> 0 -> describe n_splits idx = {| split_idx := idx; repeat_idx := idx / n_splits; fold_idx := idx mod n_splits |}.
Proof. intros N. unfold describe. f_equal. rewrite (Nat.mod_eq idx n_splits N). lia. Qed.

(** Selecting by [idx / n_splits = r] takes one consecutive block. *)
Lemma block {A} n_splits (l : list A) (r : nat) : n_splits <> 0 ->
  map snd (filter (fun ix => fst ix / n_splits =? r) (combine (seq 0 (length l)) l)) = firstn n_splits (skipn (r * n_splits) l).
Proof.
  intros N.
  assert (G : forall (l : list A) s b, (forall i, s <= i < s + length l -> (i / n_splits =? r) = b) ->
    map snd (filter (fun ix => fst ix / n_splits =? r) (combine (seq s (length l)) l)) = if b then l else []).
  { clear. induction l as [|x l IH]; intros s b H; [destruct b; reflexivity|]. cbn [length seq combine filter]. cbn [fst]. cbn [length] in H.
    rewrite (H s) by lia. specialize (IH (S s) b ltac:(intros i Hi; apply H; lia)). destruct b; cbn [map snd]; now rewrite IH. }
  set (p := firstn (r * n_splits) l). set (m := firstn n_splits (skipn (r * n_splits) l)). set (q := skipn n_splits (skipn (r * n_splits) l)).
  assert (E : l = p ++ m ++ q) by (unfold p, m, q; now rewrite !firstn_skipn).
  assert (Lp : m ++ q <> [] -> length p = r * n_splits).
  { intros H. unfold p. rewrite firstn_length. apply Nat.min_l. destruct (le_lt_dec (r * n_splits) (length l)); [assumption|].
    exfalso. apply H. unfold m, q. rewrite firstn_skipn. apply skipn_all2. lia. }
  assert (Lm : q <> [] -> length m = n_splits).
  { intros H. unfold m. rewrite firstn_length. apply Nat.min_l. destruct (le_lt_dec n_splits (length (skipn (r * n_splits) l))); [assumption|].
    exfalso. apply H. unfold q. apply skipn_all2. lia. }
  assert (Up : length p <= r * n_splits) by (unfold p; rewrite firstn_length; lia).
  assert (Um : length m <= n_splits) by (unfold m; rewrite firstn_length; lia).
  rewrite E at 1 2. rewrite !app_length, !seq_app. rewrite !combine_app_len by now rewrite seq_length. rewrite !filter_app, !map_app.
  rewrite (G p 0 false), (G m _ true), (G q _ false); [cbn [app]; now rewrite app_nil_r| | |].
  - intros i Hi. apply Nat.eqb_neq. assert (q <> []) by (intros X; rewrite X in Hi; cbn in Hi; lia).
    rewrite Lp in Hi by (intros X; apply app_eq_nil in X as [_ X]; contradiction). rewrite Lm in Hi by assumption.
    intros <-. pose proof (Nat.mod_upper_bound i n_splits N). pose proof (Nat.div_mod i n_splits N). lia.
  - intros i Hi. apply Nat.eqb_eq. assert (m <> []) by (intros X; rewrite X in Hi; cbn in Hi; lia).
    rewrite Lp in Hi by (intros X; apply app_eq_nil in X as [X _]; contradiction).
    symmetry. apply (Nat.div_unique i n_splits r (i - r * n_splits)); lia.
  - intros i Hi. apply Nat.eqb_neq. intros <-. pose proof (Nat.mul_div_le i n_splits N). lia.
Qed.

Section FOLD.
Context {row label : Type}.
Variable data : list row.
Variable target : list label.
Variable a : address.
Variable n_splits : nat.

Notation generate := (generate row label data target a n_splits).

Lemma generate_spec splits : forall h idx g h', generate h idx splits = Ok (g, h') ->
  length g = length splits /\
  (forall k s, nth_error splits k = Some s -> exists hf, nth_error g k = Some hf /\ where_desc _ _ (snd hf) = a /\ fst hf a = describe n_splits (idx + k) /\
     gather data (fst s) = Ok (X_train _ _ (snd hf)) /\ gather target (fst s) = Ok (y_train _ _ (snd hf)) /\
     gather data (snd s) = Ok (X_test _ _ (snd hf)) /\ gather target (snd s) = Ok (y_test _ _ (snd hf))) /\
  (splits <> [] -> h' a = describe n_splits (idx + (length splits - 1))).
Proof.
  induction splits as [|s splits IH]; intros h idx g h'; cbn [FoldModel.generate].
  - intros [= <- <-]. repeat split; [|congruence]. intros [|k] s'; discriminate.
  - unfold advance. destruct (gather data (fst s)) as [xt|] eqn:E1; [|discriminate]. destruct (gather target (fst s)) as [yt|] eqn:E2; [|discriminate].
    destruct (gather data (snd s)) as [xs|] eqn:E3; [|discriminate]. destruct (gather target (snd s)) as [ys|] eqn:E4; [|discriminate]. cbn [bind fst snd].
    destruct (generate (set_heap h a (describe n_splits idx)) (S idx) splits) as [[g' h'']|] eqn:G; [|discriminate]. cbn [bind fst snd]. intros [= <- <-].
    destruct (IH _ _ _ _ G) as (L & N & Hl). cbn [length]. split; [now rewrite L|]. split.
    + intros [|k] s'; cbn [nth_error].
      * intros [= <-]. eexists. split; [reflexivity|]. cbn. unfold set_heap. rewrite Nat.eqb_refl. rewrite Nat.add_0_r. auto 8.
      * intros H. destruct (N _ _ H) as (hf & H1 & H2). exists hf. split; [assumption|]. now rewrite Nat.add_succ_r.
    + intros _. destruct splits as [|s2 splits].
      * cbn in G. injection G as _ <-. unfold set_heap. rewrite Nat.eqb_refl. f_equal. cbn. lia.
      * rewrite Hl by discriminate. f_equal. cbn [length]. lia.
Qed.

(** Consumed one at a time, every fold shows its own indices. *)
Theorem consumed_desc splits h g h' : generate h 0 splits = Ok (g, h') -> map fst (consumed _ _ g) = map (describe n_splits) (seq 0 (length splits)).
Proof.
  intros G. destruct (generate_spec _ _ _ _ _ G) as (L & N & _). apply nth_error_ext. intros k.
  unfold consumed. rewrite map_map. cbn [fst]. rewrite !nth_error_map. destruct (le_lt_dec (length splits) k) as [Hk|Hk].
  - rewrite (proj2 (nth_error_None g k)) by lia. rewrite (proj2 (nth_error_None (seq 0 (length splits)) k)) by (rewrite seq_length; lia). reflexivity.
  - destruct (nth_error splits k) as [s|] eqn:E; [|apply nth_error_None in E; lia].
    destruct (N _ _ E) as (hf & H1 & H2 & H3 & _). rewrite H1. rewrite nth_error_seq by assumption. cbn. now rewrite H2, H3.
Qed.

(** Retained, all folds show the indices of the last one. *)
Theorem retained_desc splits h g : generate h 0 splits = Ok g -> splits <> [] ->
  map fst (retained _ _ g) = repeat (describe n_splits (length splits - 1)) (length splits).
Proof.
  destruct g as [g h']. intros G Ne. destruct (generate_spec _ _ _ _ _ G) as (L & N & Hl). unfold retained. rewrite map_map. cbn [fst snd].
  specialize (Hl Ne). rewrite <- L at 2. cbn in Hl. rewrite <- Hl. apply map_const_repeat.
  apply Forall_forall. intros hf H. apply In_nth_error in H as (k & H).
  destruct (nth_error splits k) as [s|] eqn:E; [|apply nth_error_None in E; assert (k < length g) by (apply nth_error_Some; congruence); lia].
  destruct (N _ _ E) as (hf' & H1 & H2 & _). rewrite H1 in H. injection H as ->. now rewrite H2.
Qed.

(** What RepeatedStratifiedKFold promises: every split divides the positions,
    and the tests of each repetition cover every position once. *)
Record split_contract (n_repeats : nat) (splits : list (list nat * list nat)) : Prop := {
  sc_len : length splits = n_repeats * n_splits;
  sc_split : forall s, In s splits -> Permutation (fst s ++ snd s) (seq 0 (length data));
  sc_tests : forall r, r < n_repeats -> Permutation (flat_map snd (firstn n_splits (skipn (r * n_splits) splits))) (seq 0 (length data))
}.

(** Indices are in range, distinct for distinct folds, and in the order generated. *)
Theorem fold_indices n_repeats splits h g h' : n_splits <> 0 -> split_contract n_repeats splits -> generate h 0 splits = Ok (g, h') ->
  map (fun df => (repeat_idx (fst df), fold_idx (fst df))) (consumed _ _ g) =
  flat_map (fun r => map (fun f => (r, f)) (seq 0 n_splits)) (seq 0 n_repeats).
Proof.
  intros Nz C G. rewrite <- (map_map fst (fun d => (repeat_idx d, fold_idx d))), (consumed_desc _ _ _ _ G), map_map, (sc_len _ _ C).
  clear C G. induction n_repeats as [|k IH]; [reflexivity|].
  rewrite seq_S, flat_map_app, <- IH. cbn [flat_map plus]. rewrite app_nil_r. rewrite Nat.mul_succ_l, Nat.add_comm, (Nat.add_comm n_splits), seq_app, map_app. f_equal.
  cbn [plus]. apply nth_error_ext. intros i. rewrite !nth_error_map. destruct (le_lt_dec n_splits i) as [H|H].
  - rewrite !(proj2 (nth_error_None _ _)) by (rewrite seq_length; lia). reflexivity.
  - rewrite !nth_error_seq by assumption. cbn [option_map plus]. f_equal. rewrite (describe_repeat _ _ Nz). cbn [repeat_idx fold_idx].
    rewrite Nat.add_comm, Nat.div_add, Nat.mod_add, Nat.div_small, Nat.mod_small by assumption. reflexivity.
Qed.

Definition samples : list (row * label) := combine data target.
Definition train_samples (f : folding row label) := combine (X_train _ _ f) (y_train _ _ f).
Definition test_samples (f : folding row label) := combine (X_test _ _ f) (y_test _ _ f).
(** The test samples of one repetition, by the index the folds show. *)
Definition tests_of (r : nat) (l : list (descriptor * folding row label)) : list (row * label) :=
  flat_map (fun df => test_samples (snd df)) (filter (fun df => repeat_idx (fst df) =? r) l).

Hypothesis same_length : length target = length data.

Theorem fold_split n_repeats splits h g h' : split_contract n_repeats splits -> generate h 0 splits = Ok (g, h') ->
  forall df, In df (consumed _ _ g) -> Permutation (train_samples (snd df) ++ test_samples (snd df)) samples.
Proof.
  intros C G df I. unfold consumed in I. apply in_map_iff in I as (hf & <- & I). cbn [snd].
  destruct (generate_spec _ _ _ _ _ G) as (L & N & _). apply In_nth_error in I as (k & I).
  destruct (nth_error splits k) as [s|] eqn:E; [|apply nth_error_None in E; assert (k < length g) by (apply nth_error_Some; congruence); lia].
  destruct (N _ _ E) as (hf' & H1 & _ & _ & H4 & H5 & H6 & H7). rewrite H1 in I. injection I as ->.
  unfold train_samples, test_samples. apply (gather_perm _ (fst s ++ snd s)).
  - unfold samples. apply gather_app; apply gather_combine; auto.
  - unfold samples. rewrite combine_length, same_length, Nat.min_id. apply (sc_split _ _ C). now apply nth_error_In in E.
Qed.

Theorem fold_cover n_repeats splits h g h' r : n_splits <> 0 -> split_contract n_repeats splits -> generate h 0 splits = Ok (g, h') -> r < n_repeats ->
  Permutation (tests_of r (consumed _ _ g)) samples.
Proof.
  intros Nz C G Hr. destruct (generate_spec _ _ _ _ _ G) as (L & N & _). pose proof (consumed_desc _ _ _ _ G) as Cd.
  assert (E1 : combine (seq 0 (length (consumed _ _ g))) (consumed _ _ g) = combine (seq 0 (length (consumed _ _ g))) (consumed _ _ g)) by reflexivity.
  assert (Fl : filter (fun df => repeat_idx (fst df) =? r) (consumed _ _ g) = firstn n_splits (skipn (r * n_splits) (consumed _ _ g))).
  { rewrite <- (block n_splits (consumed _ _ g) r Nz).
    assert (Lc : length (consumed _ _ g) = length splits) by (unfold consumed; now rewrite map_length).
    revert Cd. rewrite <- Lc. generalize 0. generalize (consumed _ _ g). clear -Nz.
    induction l as [|df l IH]; intros s E; [reflexivity|]. cbn [length seq map] in E. injection E as E1 E2. cbn [length seq combine filter]. cbn [fst].
    rewrite E1, (describe_repeat _ _ Nz). cbn [repeat_idx]. destruct (s / n_splits =? r); cbn [map snd]; now rewrite (IH (S s) E2). }
  unfold tests_of. rewrite Fl. apply (gather_perm _ (flat_map snd (firstn n_splits (skipn (r * n_splits) splits)))).
  2: { unfold samples. rewrite combine_length, same_length, Nat.min_id. now apply (sc_tests _ _ C). }
  assert (F2 : Forall2 (fun s df => gather samples (snd s) = Ok (test_samples (snd df))) splits (consumed _ _ g)).
  { unfold consumed. clear -L N same_length. revert splits L N. generalize 0. induction g as [|hf g IH]; intros k0 [|s splits] L N; cbn in L; try discriminate; [constructor|].
    cbn [map]. constructor.
    - destruct (N 0 s eq_refl) as (hf' & H1 & _ & _ & _ & _ & H6 & H7). cbn in H1. injection H1 as <-. unfold samples, test_samples. cbn [snd]. apply gather_combine; auto.
    - apply (IH (S k0)); [lia|]. intros k s' Hs. destruct (N (S k) s' Hs) as (hf' & H1 & H2). cbn in H1. exists hf'. split; [assumption|]. now rewrite Nat.add_succ_r in H2. }
  clear -F2. assert (F3 : Forall2 (fun s df => gather samples (snd s) = Ok (test_samples (snd df))) (firstn n_splits (skipn (r * n_splits) splits)) (firstn n_splits (skipn (r * n_splits) (consumed row label g)))).
  { apply Forall2_firstn, Forall2_skipn, F2. }
  induction F3 as [|s df l l' H _ IH]; cbn; [reflexivity|]. now apply gather_app.
Qed.

End FOLD.

(** ** The list of fold files *)

Lemma starts_app p x : starts p (p ++ x) = true.
Proof. induction p as [|c p IH]; cbn; [reflexivity|]. now rewrite Z.eqb_refl. Qed.

Definition is_fold_file (ser s : text) : bool := starts t_fold s && ends ([46%Z] ++ ser) s && (length t_fold + length ([46%Z] ++ ser) <=? length s).

Lemma fold_name_file r f ser : is_fold_file ser (fold_name r f ser) = true.
Proof.
  unfold is_fold_file, fold_name. rewrite starts_app. unfold ends.
  replace (t_fold ++ pad4 r ++ [95%Z] ++ pad4 f ++ [46%Z] ++ ser) with ((t_fold ++ pad4 r ++ [95%Z] ++ pad4 f) ++ ([46%Z] ++ ser)) by (rewrite <- !app_assoc; reflexivity).
  rewrite (rev_app_distr (t_fold ++ _)), starts_app. cbn [andb]. apply Nat.leb_le. rewrite !app_length. lia.
Qed.

Lemma filter_all {A} (p : A -> bool) l : (forall x, In x l -> p x = true) -> filter p l = l.
Proof. induction l as [|x l IH]; intros H; cbn; [reflexivity|]. rewrite (H x) by now left. now rewrite IH by (intros; apply H; now right). Qed.
Lemma filter_none {A} (p : A -> bool) l : (forall x, In x l -> p x = false) -> filter p l = [].
Proof. induction l as [|x l IH]; intros H; cbn; [reflexivity|]. rewrite (H x) by now left. apply IH. intros; apply H; now right. Qed.

Lemma add_names names : forall dir, NoDup names -> (forall n, In n names -> ~ In n dir) -> fold_left add_name names dir = dir ++ names.
Proof.
  induction names as [|n names IH]; intros dir Nd H; cbn; [now rewrite app_nil_r|]. inversion Nd as [|? ? Ni Nd']; subst.
  unfold add_name at 2. replace (existsb (eqb_text n) dir) with false.
  - rewrite IH; [now rewrite <- app_assoc|assumption|]. intros m Hm Hd. apply in_app_or in Hd as [Hd|[->|[]]]; [|contradiction]. apply (H m); [now right|assumption].
  - symmetry. apply not_true_iff_false. intros E. apply existsb_exists in E as (x & Hx & E). apply eqb_text_eq in E. subst. apply (H x); [now left|assumption].
Qed.

Definition lex_lt (p q : nat * nat) : Prop := fst p < fst q \/ (fst p = fst q /\ snd p < snd q).

Lemma strongly_app {A} (R : A -> A -> Prop) l1 l2 : StronglySorted R l1 -> StronglySorted R l2 -> (forall x y, In x l1 -> In y l2 -> R x y) -> StronglySorted R (l1 ++ l2).
Proof.
  intros S1 S2 H. induction S1 as [|a l S1 IH Fa]; cbn; [assumption|]. constructor.
  - apply IH. intros x y Hx Hy. apply H; [now right|assumption].
  - apply Forall_app. split; [assumption|]. apply Forall_forall. intros y Hy. apply H; [now left|assumption].
Qed.

Lemma pairs_sorted S R : forall k, StronglySorted lex_lt (flat_map (fun r => map (fun f => (r, f)) (seq 0 S)) (seq k R)).
Proof.
  induction R as [|R IH]; intros k; cbn [seq flat_map]; [constructor|]. apply strongly_app; [|apply IH|].
  - clear IH. generalize 0. induction S as [|S IHS]; intros b; cbn [seq map]; constructor; auto.
    apply Forall_forall. intros x Hx. apply in_map_iff in Hx as (f & <- & Hf). apply in_seq in Hf. right. cbn. lia.
  - intros x y Hx Hy. apply in_map_iff in Hx as (f & <- & Hf). apply in_flat_map in Hy as (r & Hr & Hy).
    apply in_map_iff in Hy as (f' & <- & _). apply in_seq in Hr. left. cbn. lia.
Qed.

Lemma pairs_bound S R x : In x (flat_map (fun r => map (fun f => (r, f)) (seq 0 S)) (seq 0 R)) -> fst x < R /\ snd x < S.
Proof.
  intros H. apply in_flat_map in H as (r & Hr & H). apply in_map_iff in H as (f & <- & Hf). apply in_seq in Hr, Hf. cbn. lia.
Qed.

Lemma strongly_map {A B} (R : A -> A -> Prop) (Q : B -> B -> Prop) (f : A -> B) l :
  (forall x y, In x l -> In y l -> R x y -> Q (f x) (f y)) -> StronglySorted R l -> StronglySorted Q (map f l).
Proof.
  intros H S. induction S as [|a l S IH Fa]; cbn; constructor.
  - apply IH. intros x y Hx Hy. apply H; now right.
  - rewrite Forall_forall in *. intros y Hy. apply in_map_iff in Hy as (x & <- & Hx). apply H; [now left|now right|auto].
Qed.

Definition names_of (n_repeats n_splits : nat) (ser : text) : list text :=
  map (fun rf => fold_name (fst rf) (snd rf) ser) (flat_map (fun r => map (fun f => (r, f)) (seq 0 n_splits)) (seq 0 n_repeats)).

Lemma names_sorted n_repeats n_splits ser : n_repeats <= limit -> n_splits <= limit ->
  StronglySorted (fun a b => text_leb a b = true /\ a <> b) (names_of n_repeats n_splits ser).
Proof.
  intros LR LS. apply (strongly_map lex_lt); [|apply pairs_sorted]. intros x y Hx Hy H. apply pairs_bound in Hx, Hy.
  destruct (fold_name_order (fst x) (snd x) (fst y) (snd y) ser) as [E1 E2]; try lia; [exact H|]. split; [assumption|]. intros E. rewrite E, text_leb_refl in E2. discriminate E2.
Qed.

Lemma strongly_nodup {A} (R : A -> A -> Prop) l : (forall x y, R x y -> x <> y) -> StronglySorted R l -> NoDup l.
Proof.
  intros H S. induction S as [|a l S IH Fa]; constructor; [|assumption]. intros I. rewrite Forall_forall in Fa. now apply (H a a (Fa a I)).
Qed.

Lemma strongly_impl {A} (R Q : A -> A -> Prop) l : (forall x y, R x y -> Q x y) -> StronglySorted R l -> StronglySorted Q l.
Proof. intros H S. induction S as [|a l S IH Fa]; constructor; [assumption|]. eapply Forall_impl; [|exact Fa]. auto. Qed.

Theorem folding_files_spec n_repeats n_splits ser dir : n_repeats <= limit -> n_splits <= limit ->
  (forall s, In s dir -> is_fold_file ser s = false) ->
  folding_files ser dir (names_of n_repeats n_splits ser) = names_of n_repeats n_splits ser.
Proof.
  intros LR LS H. pose proof (names_sorted n_repeats n_splits ser LR LS) as St.
  assert (Nm : forall n, In n (names_of n_repeats n_splits ser) -> is_fold_file ser n = true).
  { intros n Hn. apply in_map_iff in Hn as (x & <- & _). apply fold_name_file. }
  unfold folding_files. rewrite add_names.
  - unfold glob1. rewrite filter_app. change (fun s => starts t_fold s && ends ([46%Z] ++ ser) s && (length t_fold + length ([46%Z] ++ ser) <=? length s)) with (is_fold_file ser).
    rewrite filter_none by assumption. rewrite filter_all by assumption. cbn [app]. apply sorted_id. exact (strongly_impl _ _ _ (fun x y H => proj1 H) St).
  - apply (strongly_nodup _ _ (fun x y H => proj2 H) St).
  - intros n Hn Hd. specialize (Nm n Hn). rewrite (H n Hd) in Nm. discriminate Nm.
Qed.

Theorem cached_names_spec {row label} (data : list row) (target : list label) a n_splits n_repeats splits h g h' ser :
  n_splits <> 0 -> split_contract data n_splits n_repeats splits -> generate row label data target a n_splits h 0 splits = Ok (g, h') ->
  cached_names row label ser g = names_of n_repeats n_splits ser.
Proof.
  intros Nz C G. unfold cached_names, names_of. rewrite <- (fold_indices data target a n_splits n_repeats splits h g h' Nz C G), map_map. reflexivity.
Qed.

(** ** Clean-up *)

Theorem clean_up_spec all dir s : In s (clean_up all dir) <->
  In s dir /\ starts (removelast t_over) s = false /\ (all = true -> starts (removelast t_fold) s = false).
Proof.
  unfold clean_up. destruct all; rewrite ?filter_In, ?negb_true_iff; intuition (try discriminate).
Qed.

Theorem clean_up_keeps_evaluations all dir r f h ser : In (evaluation_name r f h ser) dir -> In (evaluation_name r f h ser) (clean_up all dir).
Proof. intros H. apply clean_up_spec. repeat split; auto. Qed.

Theorem clean_up_removes all dir r f h ser : ~ In (sampling_name r f h ser) (clean_up all dir) /\ ~ In (fold_name r f ser) (clean_up true dir).
Proof. split; intros H; apply clean_up_spec in H as (_ & H1 & H2); [discriminate H1|]. specialize (H2 eq_refl). discriminate H2. Qed.

Theorem clean_up_keeps_folds dir r f ser : In (fold_name r f ser) dir -> In (fold_name r f ser) (clean_up false dir).
Proof. intros H. apply clean_up_spec. repeat split; auto. Qed.

(** ** Class statistics *)

Theorem stats_binary c0 c1 : 0 < c0 -> 0 < c1 ->
  label_stats [0%Z; 1%Z] [c0; c1] = Ok (Nat.min c0 c1, Nat.max c0 c1, (Z.of_nat (Nat.max c0 c1) # Pos.of_nat (Nat.min c0 c1))%Q).
Proof.
  intros P0 P1. unfold label_stats, fold_maj_label, fold_min_label, min_count. cbn [fold_left bind combine filter snd].
  destruct (le_lt_dec c1 c0) as [L|L].
  - rewrite Nat.min_r, Nat.max_l by assumption. rewrite Nat.eqb_refl. destruct (Nat.eqb_spec c0 c1) as [->|N]; cbn;
      destruct c1; try lia; reflexivity.
  - rewrite Nat.min_l, Nat.max_r by lia. rewrite Nat.eqb_refl. destruct (Nat.eqb_spec c1 c0) as [->|N]; [lia|]. cbn.
      destruct c0; try lia; reflexivity.
Qed.
