(** Facts about MetricsModel.v. *)

From Coq Require Import List ZArith QArith Bool Arith Lia Permutation Reals Lra Psatz.
From Flocq Require Import Core IEEE754.BinarySingleNaN.
From Verif Require Import Np NpFacts Float64 MetricsModel FloatFacts.
Import ListNotations.
Open Scope Z_scope.

(** ** Atoms *)

Definition count_pairs (f : Z -> Z -> bool) (test pred : list Z) : Z :=
  Z.of_nat (length (filter (fun q => f (fst q) (snd q)) (combine test pred))).

Lemma count_true_map2 (g : Z -> Z -> bool) test pred :
  count_true (map2 g test pred) = count_pairs g test pred.
Proof.
  unfold count_true, count_pairs. f_equal.
  revert pred; induction test as [|t test IH]; intros [|p pred]; cbn; try reflexivity.
  destruct (g t p); cbn; rewrite IH; reflexivity.
Qed.

Lemma map2_map_r {A B C D} (f : A -> B -> C) (g : D -> B) l1 l2 :
  map2 f l1 (map g l2) = map2 (fun x y => f x (g y)) l1 l2.
Proof. revert l2; induction l1; intros [|y l2]; cbn; [reflexivity..|]. now rewrite IHl1. Qed.
Lemma map_map2 {A B C D} (h : C -> D) (f : A -> B -> C) l1 l2 :
  map h (map2 f l1 l2) = map2 (fun x y => h (f x y)) l1 l2.
Proof. revert l2; induction l1; intros [|y l2]; cbn; [reflexivity..|]. now rewrite IHl1. Qed.

Lemma map2_and (e m : Z -> Z -> bool) (test pred : list Z) (g : Z -> bool) :
  length test = length pred ->
  map2 andb (map2 e test pred) (map g test) = map2 (fun t p => e t p && g t) test pred.
Proof.
  revert pred; induction test as [|t test IH]; intros [|p pred]; cbn; intro H;
    try reflexivity; try discriminate. f_equal. apply IH. lia.
Qed.

Lemma calculate_atoms_spec test pred mn : length test = length pred ->
  exists a, calculate_atoms test pred mn = Ok a /\
    tp a = count_pairs (fun t p => Z.eqb t p && Z.eqb t mn) test pred /\
    tn a = count_pairs (fun t p => Z.eqb t p && negb (Z.eqb t mn)) test pred /\
    fp a = count_pairs (fun t p => negb (Z.eqb t p) && negb (Z.eqb t mn)) test pred /\
    fn a = count_pairs (fun t p => negb (Z.eqb t p) && Z.eqb t mn) test pred.
Proof.
  intro H. unfold calculate_atoms. rewrite H, Nat.eqb_refl. cbn [negb].
  eexists. split; [reflexivity|]. cbn [tp tn fp fn].
  rewrite map_map2, map_map, !map2_and by (auto; exact (fun _ _ => true)).
  rewrite !count_true_map2. auto.
Qed.

Lemma count_pairs_ext f g test pred :
  (forall t p, In (t, p) (combine test pred) -> f t p = g t p) ->
  count_pairs f test pred = count_pairs g test pred.
Proof.
  intro H. unfold count_pairs. do 2 f_equal. apply filter_ext_in. intros [t p] Hin. cbn. auto.
Qed.

Lemma count_pairs_split f g h test pred :
  (forall t p, f t p = (g t p || h t p) /\ (g t p && h t p = false)) ->
  count_pairs f test pred = count_pairs g test pred + count_pairs h test pred.
Proof.
  intro H. unfold count_pairs.
  induction (combine test pred) as [|[t p] l IH]; [reflexivity|].
  cbn [filter fst snd]. destruct (H t p) as [H1 H2].
  destruct (g t p), (h t p), (f t p); cbn [orb andb] in H1, H2; try discriminate; cbn [length]; lia.
Qed.

Lemma count_pairs_nonneg f test pred : 0 <= count_pairs f test pred.
Proof. unfold count_pairs. lia. Qed.

Lemma count_pairs_label g test pred : length test = length pred ->
  count_pairs (fun t _ => g t) test pred = Z.of_nat (length (filter g test)).
Proof.
  unfold count_pairs. revert pred; induction test as [|t test IH]; intros [|p pred] H;
    try discriminate; [reflexivity|].
  cbn [combine filter fst snd]. specialize (IH pred ltac:(cbn in H; lia)).
  destruct (g t); cbn [length]; lia.
Qed.

Lemma filter_length_all {A} (f : A -> bool) l :
  Z.of_nat (length (filter f l)) + Z.of_nat (length (filter (fun x => negb (f x)) l)) = Z.of_nat (length l).
Proof. induction l as [|x l IH]; cbn; [reflexivity|]. destruct (f x); cbn [negb length]; lia. Qed.

Lemma filter_count_occ l z :
  length (filter (fun t => Z.eqb t z) l) = count_occ Z.eq_dec l z.
Proof.
  induction l as [|x l IH]; cbn; [reflexivity|].
  destruct (Z.eqb_spec x z); destruct (Z.eq_dec x z); try congruence; cbn; lia.
Qed.

Lemma atoms_partition test pred mn a : calculate_atoms test pred mn = Ok a ->
  0 <= tp a /\ 0 <= tn a /\ 0 <= fp a /\ 0 <= fn a /\
  tp a + fn a = Z.of_nat (count_occ Z.eq_dec test mn) /\
  tp a + tn a + fp a + fn a = Z.of_nat (length test) /\
  tn a + fp a = Z.of_nat (length test) - Z.of_nat (count_occ Z.eq_dec test mn).
Proof.
  intro Ha. assert (Hl : length test = length pred).
  { unfold calculate_atoms in Ha. destruct (Nat.eqb_spec (length test) (length pred)); [assumption|discriminate]. }
  destruct (calculate_atoms_spec test pred mn Hl) as [a' [Ha' [H1 [H2 [H3 H4]]]]].
  rewrite Ha in Ha'. injection Ha' as <-.
  assert (Hp : tp a + fn a = Z.of_nat (count_occ Z.eq_dec test mn)).
  { rewrite H1, H4, <- filter_count_occ, <- (count_pairs_label (fun t => Z.eqb t mn) test pred Hl).
    symmetry. apply count_pairs_split. intros t p.
    destruct (Z.eqb t p), (Z.eqb t mn); auto. }
  assert (Hn : tn a + fp a = Z.of_nat (length test) - Z.of_nat (count_occ Z.eq_dec test mn)).
  { rewrite <- filter_count_occ, <- (filter_length_all (fun t => Z.eqb t mn) test).
    rewrite H2, H3.
    replace (_ + _ - _) with (Z.of_nat (length (filter (fun x => negb (x =? mn)) test))) by lia.
    rewrite <- (count_pairs_label (fun t => negb (Z.eqb t mn)) test pred Hl).
    symmetry. apply count_pairs_split. intros t p.
    destruct (Z.eqb t p), (Z.eqb t mn); auto. }
  rewrite H1, H2, H3, H4 in *.
  repeat split; try apply count_pairs_nonneg; lia.
Qed.

(** Permuting rows does not change the atoms. *)
Lemma atoms_permutation test pred test' pred' mn a :
  length test' = length pred' ->
  Permutation (combine test pred) (combine test' pred') ->
  calculate_atoms test pred mn = Ok a -> calculate_atoms test' pred' mn = Ok a.
Proof.
  intros Hl' HP Ha. assert (Hl : length test = length pred).
  { unfold calculate_atoms in Ha. destruct (Nat.eqb_spec (length test) (length pred)); [assumption|discriminate]. }
  destruct (calculate_atoms_spec test pred mn Hl) as [a1 [E1 [H1 [H2 [H3 H4]]]]].
  destruct (calculate_atoms_spec test' pred' mn Hl') as [a2 [E2 [K1 [K2 [K3 K4]]]]].
  rewrite E2. rewrite E1 in Ha. injection Ha as <-. f_equal.
  assert (G : forall f, count_pairs f test' pred' = count_pairs f test pred).
  { intro f. unfold count_pairs. f_equal. apply Permutation_length.
    symmetry. clear - HP. induction HP; cbn.
    - constructor.
    - destruct (f (fst x) (snd x)); [constructor|]; assumption.
    - destruct (f (fst x) (snd x)), (f (fst y) (snd y)); try reflexivity; constructor.
    - eapply perm_trans; eassumption. }
  rewrite <- !G in *. destruct a1, a2; cbn in *. congruence.
Qed.

(** ** prediction_labels *)

Lemma split_ties_length h k l : length (split_ties h k l) = length l.
Proof.
  revert k; induction l as [|p l IH]; intro k; cbn; [reflexivity|].
  destruct (Qeq_bool p (1#2)); cbn; rewrite IH; reflexivity.
Qed.

Lemma prediction_labels_length l : length (prediction_labels l) = length l.
Proof. unfold prediction_labels. destruct (_ <=? _)%nat; [apply map_length|apply split_ties_length]. Qed.

Lemma Qlt_b_iff a b : Qlt_b a b = true <-> (a < b)%Q.
Proof.
  unfold Qlt_b. rewrite negb_true_iff. split; intro H.
  - apply Qnot_le_lt. intro H1. apply Qle_bool_iff in H1. congruence.
  - destruct (Qle_bool b a) eqn:E; [|reflexivity]. apply Qle_bool_iff in E.
    exfalso. apply (Qlt_not_le _ _ H E).
Qed.

Lemma split_ties_nth h k l i p : nth_error l i = Some p ->
  ((1#2) < p)%Q /\ nth_error (split_ties h k l) i = Some 1 \/
  (p < (1#2))%Q /\ nth_error (split_ties h k l) i = Some 0 \/
  (p == (1#2))%Q /\ (nth_error (split_ties h k l) i = Some 0 \/ nth_error (split_ties h k l) i = Some 1).
Proof.
  revert k i; induction l as [|q l IH]; intros k i Hi; [destruct i; discriminate|].
  destruct i as [|i]; cbn [nth_error split_ties] in Hi |- *.
  - injection Hi as ->. destruct (Qeq_bool p (1#2)) eqn:E.
    + right; right. apply Qeq_bool_iff in E. split; [exact E|]. destruct (k <? h)%nat; auto.
    + cbn [nth_error]. destruct (Qlt_b (1#2) p) eqn:E2.
      * left. apply Qlt_b_iff in E2. auto.
      * right; left. split; [|reflexivity]. apply Qnot_le_lt. intro H.
        apply Qle_lteq in H. destruct H as [H|H]; [apply Qlt_b_iff in H; congruence|].
        symmetry in H. apply Qeq_bool_iff in H. congruence.
  - destruct (Qeq_bool q (1#2)); cbn [nth_error]; apply IH, Hi.
Qed.

Lemma prediction_labels_nth l i p : nth_error l i = Some p ->
  ((1#2) < p)%Q /\ nth_error (prediction_labels l) i = Some 1 \/
  (p < (1#2))%Q /\ nth_error (prediction_labels l) i = Some 0 \/
  (p == (1#2))%Q /\ (nth_error (prediction_labels l) i = Some 0 \/ nth_error (prediction_labels l) i = Some 1).
Proof.
  intro Hi. unfold prediction_labels. destruct (_ <=? _)%nat; [|apply split_ties_nth, Hi].
  rewrite nth_error_map, Hi. cbn. destruct (Qlt_b (1#2) p) eqn:E.
  - left. apply Qlt_b_iff in E. auto.
  - right. apply not_true_iff_false in E. rewrite Qlt_b_iff in E. apply Qnot_lt_le in E.
    apply Qle_lteq in E. destruct E as [E|E]; auto.
Qed.

(** Ties are split evenly. *)
Lemma split_ties_count h k l :
  length (filter (fun q => Qeq_bool (fst q) (1#2) && Z.eqb (snd q) 0) (combine l (split_ties h k l)))
  = Nat.min (h - k) (length (filter (fun p => Qeq_bool p (1#2)) l)).
Proof.
  revert k; induction l as [|p l IH]; intro k; cbn [split_ties combine filter length]; [lia|].
  destruct (Qeq_bool p (1#2)) eqn:E; cbn [combine filter fst snd]; rewrite E; cbn [andb].
  - destruct (k <? h)%nat eqn:Ek.
    + apply Nat.ltb_lt in Ek. cbn [Z.eqb length]. rewrite IH. cbn [length]. lia.
    + apply Nat.ltb_ge in Ek. cbn [Z.eqb length]. rewrite IH. lia.
  - rewrite IH. reflexivity.
Qed.

Lemma prediction_ties_half l :
  let n := length (filter (fun p => Qeq_bool p (1#2)) l) in (2 <= n)%nat ->
  length (filter (fun q => Qeq_bool (fst q) (1#2) && Z.eqb (snd q) 0) (combine l (prediction_labels l)))
  = (n / 2)%nat.
Proof.
  cbv zeta. intro H. unfold prediction_labels.
  destruct (Nat.leb_spec (length (filter (fun p => Qeq_bool p (1#2)) l)) 1); [lia|].
  rewrite split_ties_count, Nat.sub_0_r. apply Nat.min_l.
  apply Nat.div_le_upper_bound; lia.
Qed.

(** ** Label scores *)

Definition in01 (f : f64) : Prop := is_finite f = true /\ (0 <= B2R f <= 1)%R.
Definition in11 (f : f64) : Prop := is_finite f = true /\ (-1 <= B2R f <= 1)%R.

Definition atoms_ok (a : atoms) : Prop :=
  0 <= tp a /\ 0 <= tn a /\ 0 <= fp a /\ 0 <= fn a /\
  0 < tp a + fn a /\ 0 < fp a + tn a /\ tp a + tn a + fp a + fn a <= 2 ^ 52.

Lemma ratio_spec a b : 0 <= a <= b -> 0 < b <= 2 ^ 53 ->
  exists f, int_div a b = Ok f /\ in01 f /\ B2R f = rnd64 (IZR a / IZR b).
Proof.
  intros Ha Hb. destruct (int_div_spec a b) as [f [H1 [H2 H3]]]; [lia|lia|].
  exists f. split; [exact H1|]. split; [|exact H3]. split; [exact H2|].
  rewrite H3. apply rnd_01, ratio_01; lia.
Qed.

Lemma one_minus f : in01 f -> in01 (f_sub f_one f) /\ B2R (f_sub f_one f) = rnd64 (1 - B2R f).
Proof.
  intros [H1 H2]. destruct f_one_R as [E1 E2].
  destruct (f_sub_spec f_one f E2 H1) as [H3 H4].
  - rewrite E1. apply (big_bpow _ 0); [lia|]. cbn. apply Rabs_le. lra.
  - rewrite H4, E1. split; [|reflexivity]. split; [exact H3|]. rewrite H4, E1. apply rnd_01. lra.
Qed.

Lemma rnd_02 x : (0 <= x <= 2)%R -> (0 <= rnd64 x <= 2)%R.
Proof.
  intros [H1 H2]. split; [apply rnd_ge; [apply format_0|lra]|].
  apply rnd_le; [|lra]. change 2%R with (IZR 2). apply format_IZR. cbn; lia.
Qed.

Lemma add_01 f g : in01 f -> in01 g ->
  is_finite (f_add f g) = true /\ B2R (f_add f g) = rnd64 (B2R f + B2R g) /\
  (0 <= B2R (f_add f g) <= 2)%R.
Proof.
  intros [F1 F2] [G1 G2]. destruct (f_add_spec f g F1 G1) as [H1 H2].
  - apply (big_bpow _ 1); [lia|]. change (bpow radix2 1) with 2%R. apply Rabs_le. lra.
  - rewrite H2. split; [exact H1|]. split; [reflexivity|]. apply rnd_02. lra.
Qed.

Lemma half_sum f g : in01 f -> in01 g ->
  in01 (f_div (f_add f g) (f_of_Z 2)) /\
  B2R (f_div (f_add f g) (f_of_Z 2)) = rnd64 (rnd64 (B2R f + B2R g) / 2).
Proof.
  intros HF HG. destruct (add_01 f g HF HG) as [H1 [H2 H3]].
  destruct (f_of_Z_exact 2) as [T1 T2]; [cbn; lia|].
  destruct (f_div_spec (f_add f g) (f_of_Z 2) H1 T2) as [D1 D2].
  - rewrite T1. lra.
  - rewrite T1. apply (big_bpow _ 0); [lia|]. cbn. apply Rabs_le. lra.
  - rewrite D2, T1, H2. split; [|reflexivity]. split; [exact D1|]. rewrite D2, T1.
    apply rnd_01. lra.
Qed.

Lemma sum_minus_one f g : in01 f -> in01 g ->
  in11 (f_sub (f_add f g) f_one) /\
  B2R (f_sub (f_add f g) f_one) = rnd64 (rnd64 (B2R f + B2R g) - 1).
Proof.
  intros HF HG. destruct (add_01 f g HF HG) as [H1 [H2 H3]].
  destruct f_one_R as [E1 E2].
  destruct (f_sub_spec (f_add f g) f_one H1 E2) as [D1 D2].
  - rewrite E1. apply (big_bpow _ 0); [lia|]. cbn. apply Rabs_le. lra.
  - rewrite D2, E1, H2. split; [|reflexivity]. split; [exact D1|]. rewrite D2, E1.
    apply rnd_m11. lra.
Qed.

Lemma geo_mean f g : in01 f -> in01 g ->
  in01 (f_sqrt (f_mul f g)) /\
  B2R (f_sqrt (f_mul f g)) = rnd64 (sqrt (rnd64 (B2R f * B2R g))).
Proof.
  intros [F1 F2] [G1 G2]. destruct (f_mul_small f g F1 G1) as [M1 M2].
  - apply (big_bpow _ 0); [lia|]. cbn. apply Rabs_le. nra.
  - assert (H : (0 <= B2R (f_mul f g) <= 1)%R) by (rewrite M2; apply rnd_01; nra).
    destruct (f_sqrt_spec (f_mul f g) M1 (proj1 H)) as [S1 S2].
    rewrite S2, M2. split; [|reflexivity]. split; [exact S1|]. rewrite S2. apply rnd_01.
    split; [apply sqrt_pos|]. rewrite <- sqrt_1 at 1. apply sqrt_le_1_alt. lra.
Qed.

(** The Matthews numerator never exceeds the denominator. *)
Lemma mcc_ineq a b c d : 0 <= a -> 0 <= b -> 0 <= c -> 0 <= d ->
  (a * d - b * c) * (a * d - b * c) <= (a + b) * (a + c) * (b + d) * (c + d).
Proof.
  intros. assert (H3 : a * d + b * c <= (a + b) * (c + d)) by nia.
  assert (H4 : a * d + b * c <= (a + c) * (b + d)) by nia.
  assert (H5 : 0 <= a * d) by nia. assert (H6 : 0 <= b * c) by nia.
  assert (H7 : (a * d - b * c) * (a * d - b * c) <= (a * d + b * c) * (a * d + b * c)) by nia.
  apply Z.le_trans with (1 := H7).
  replace ((a + b) * (a + c) * (b + d) * (c + d)) with (((a + b) * (c + d)) * ((a + c) * (b + d))) by ring.
  apply Z.mul_le_mono_nonneg; lia.
Qed.

Lemma wrap64_id z : 0 <= z < 2 ^ 63 -> wrap64 z = z.
Proof.
  intro H. unfold wrap64. rewrite Z.mod_small by lia.
  destruct (Z.ltb_spec z (2^63)); lia.
Qed.

Lemma mcc_value m P : m * m <= P -> 0 < P < 2 ^ 63 ->
  in11 (f_div (f_of_Z m) (f_sqrt (f_of_Z P))) /\
  B2R (f_div (f_of_Z m) (f_sqrt (f_of_Z P))) = rnd64 (IZR m / rnd64 (sqrt (rnd64 (IZR P)))).
Proof.
  intros Hm HP.
  assert (Hmb : Z.abs m < 2 ^ 32).
  { destruct (Z_lt_le_dec (Z.abs m) (2^32)) as [|H]; [assumption|]. exfalso.
    assert (2^32 * 2^32 <= Z.abs m * Z.abs m) by (apply Z.mul_le_mono_nonneg; lia).
    assert (Z.abs m * Z.abs m = m * m) by nia. lia. }
  destruct (f_of_Z_exact m) as [M1 M2]; [lia|].
  destruct (f_of_Z_spec P) as [P1 P2]; [lia|].
  assert (HP1 : (1 <= IZR P)%R) by (apply IZR_le; lia).
  assert (Hr1 : (1 <= rnd64 (IZR P))%R) by (apply rnd_ge; [apply format_1|exact HP1]).
  destruct (f_sqrt_spec (f_of_Z P) P1) as [S1 S2]; [rewrite P2; lra|].
  rewrite P2 in S2.
  assert (Hs1 : (1 <= rnd64 (sqrt (rnd64 (IZR P))))%R).
  { apply rnd_ge; [apply format_1|]. rewrite <- sqrt_1 at 1. apply sqrt_le_1_alt, Hr1. }
  assert (Hsm : (IZR (Z.abs m) <= rnd64 (sqrt (rnd64 (IZR P))))%R).
  { eapply Rle_trans; [apply sqrt_of_square; lia|]. apply rnd64_le, sqrt_le_1_alt, rnd64_le.
    rewrite <- mult_IZR. apply IZR_le. nia. }
  set (s := rnd64 (sqrt (rnd64 (IZR P)))) in *.
  assert (Hq : (-1 <= IZR m / s <= 1)%R).
  { rewrite abs_IZR in Hsm. apply Rabs_le_inv in Hsm. split.
    - apply Rmult_le_reg_r with s; [lra|]. unfold Rdiv. rewrite Rmult_assoc, Rinv_l by lra. lra.
    - apply Rmult_le_reg_r with s; [lra|]. unfold Rdiv. rewrite Rmult_assoc, Rinv_l by lra. lra. }
  destruct (f_div_spec (f_of_Z m) (f_sqrt (f_of_Z P)) M2 S1) as [D1 D2].
  - rewrite S2. lra.
  - rewrite M1, S2. apply (big_bpow _ 0); [lia|]. cbn. apply Rabs_le. lra.
  - rewrite M1, S2 in D2. rewrite D2. split; [|reflexivity]. split; [exact D1|]. rewrite D2.
    apply rnd_m11, Hq.
Qed.

(** All scores: the values and the ranges. *)
Lemma label_scores_spec a : atoms_ok a ->
  exists s, calculate_label_scores a = Ok s /\
  (in01 (s_acc s) /\ B2R (s_acc s) = rnd64 (IZR (tp a + tn a) / IZR (tp a + tn a + fp a + fn a))) /\
  (in01 (s_sens s) /\ B2R (s_sens s) = rnd64 (IZR (tp a) / IZR (tp a + fn a))) /\
  (in01 (s_spec s) /\ B2R (s_spec s) = rnd64 (IZR (tn a) / IZR (tn a + fp a))) /\
  (in01 (s_ppv s) /\ B2R (s_ppv s) =
     if Z.eq_dec (tp a + fp a) 0 then 0%R else rnd64 (IZR (tp a) / IZR (tp a + fp a))) /\
  (in01 (s_npv s) /\ B2R (s_npv s) =
     if Z.eq_dec (tn a + fn a) 0 then 0%R else rnd64 (IZR (tn a) / IZR (tn a + fn a))) /\
  (in01 (s_fpr s) /\ B2R (s_fpr s) = rnd64 (1 - B2R (s_spec s))) /\
  (in01 (s_fdr s) /\ B2R (s_fdr s) = rnd64 (1 - B2R (s_ppv s))) /\
  (in01 (s_fnr s) /\ B2R (s_fnr s) = rnd64 (1 - B2R (s_sens s))) /\
  (in01 (s_bacc s) /\ B2R (s_bacc s) = rnd64 (rnd64 (B2R (s_sens s) + B2R (s_spec s)) / 2)) /\
  (in01 (s_gacc s) /\ B2R (s_gacc s) = rnd64 (sqrt (rnd64 (B2R (s_sens s) * B2R (s_spec s))))) /\
  (in01 (s_f1 s) /\ B2R (s_f1 s) = rnd64 (IZR (2 * tp a) / IZR (2 * tp a + fp a + fn a))) /\
  (in11 (s_informedness s) /\
     B2R (s_informedness s) = rnd64 (rnd64 (B2R (s_sens s) + B2R (s_spec s)) - 1)) /\
  (in11 (s_markedness s) /\
     B2R (s_markedness s) = rnd64 (rnd64 (B2R (s_ppv s) + B2R (s_npv s)) - 1)).
Proof.
  intros (H1 & H2 & H3 & H4 & Hp & Hn & Hb). change (2 ^ 52) with 4503599627370496 in Hb.
  unfold calculate_label_scores.
  destruct (ratio_spec (tp a + tn a) (tp a + fn a + (fp a + tn a))) as [acc [-> [A1 A2]]]; [lia|lia|].
  cbn [bind].
  destruct (ratio_spec (tp a) (tp a + fn a)) as [sens [-> [B1 B2]]]; [lia|lia|]. cbn [bind].
  destruct (ratio_spec (tn a) (fp a + tn a)) as [spec [-> [C1 C2]]]; [lia|lia|]. cbn [bind].
  assert (Hppv : exists ppv, (if 0 <? tp a + fp a then int_div (tp a) (tp a + fp a) else Ok f_zero) = Ok ppv /\
     in01 ppv /\ B2R ppv = if Z.eq_dec (tp a + fp a) 0 then 0%R else rnd64 (IZR (tp a) / IZR (tp a + fp a))).
  { destruct (Z.ltb_spec 0 (tp a + fp a)).
    - destruct (Z.eq_dec (tp a + fp a) 0); [lia|]. apply ratio_spec; lia.
    - destruct (Z.eq_dec (tp a + fp a) 0); [|lia]. exists f_zero. unfold in01, f_zero. cbn. repeat split; try reflexivity; lra. }
  assert (Hnpv : exists npv, (if 0 <? tn a + fn a then int_div (tn a) (tn a + fn a) else Ok f_zero) = Ok npv /\
     in01 npv /\ B2R npv = if Z.eq_dec (tn a + fn a) 0 then 0%R else rnd64 (IZR (tn a) / IZR (tn a + fn a))).
  { destruct (Z.ltb_spec 0 (tn a + fn a)).
    - destruct (Z.eq_dec (tn a + fn a) 0); [lia|]. apply ratio_spec; lia.
    - destruct (Z.eq_dec (tn a + fn a) 0); [|lia]. exists f_zero. unfold in01, f_zero. cbn. repeat split; try reflexivity; lra. }
  destruct Hppv as [ppv [-> [D1 D2]]]. cbn [bind].
  destruct Hnpv as [npv [-> [E1 E2]]]. cbn [bind].
  destruct (ratio_spec (2 * tp a) (2 * tp a + fp a + fn a)) as [f1 [-> [F1 F2]]]; [lia|lia|]. cbn [bind].
  eexists. split; [reflexivity|].
  cbn [s_acc s_sens s_spec s_ppv s_npv s_fpr s_fdr s_fnr s_bacc s_gacc s_f1 s_informedness s_markedness].
  replace (tp a + tn a + fp a + fn a) with (tp a + fn a + (fp a + tn a)) by lia.
  replace (tn a + fp a) with (fp a + tn a) by lia.
  split; [auto|]. split; [auto|]. split; [auto|]. split; [auto|]. split; [auto|].
  split; [apply one_minus, C1|]. split; [apply one_minus, D1|]. split; [apply one_minus, B1|].
  split; [apply half_sum; assumption|]. split; [apply geo_mean; assumption|]. split; [auto|].
  split; apply sum_minus_one; assumption.
Qed.

Definition mcc_product (a : atoms) : Z :=
  (tp a + fp a) * (tp a + fn a) * (tn a + fp a) * (tn a + fn a).

Lemma mcc_spec a s : atoms_ok a -> calculate_label_scores a = Ok s ->
  mcc_product a < 2 ^ 63 ->
  match s_mcc s with
  | None => tp a + fp a = 0 \/ tn a + fn a = 0
  | Some m => 0 < tp a + fp a /\ 0 < tn a + fn a /\ in11 m /\
      B2R m = rnd64 (IZR (tp a * tn a - fp a * fn a) / rnd64 (sqrt (rnd64 (IZR (mcc_product a)))))
  end.
Proof.
  intros (H1 & H2 & H3 & H4 & Hp & Hn & Hb) Hs HP. unfold calculate_label_scores in Hs.
  repeat (match type of Hs with bind ?r _ = _ => destruct r; [|discriminate]; cbn [bind] in Hs end).
  injection Hs as <-. cbn [s_mcc].
  assert (EP : (tp a + fp a) * (tp a + fn a) * (fp a + tn a) * (fn a + tn a) = mcc_product a)
    by (unfold mcc_product; ring).
  rewrite EP.
  assert (HP0 : 0 <= mcc_product a).
  { unfold mcc_product. repeat apply Z.mul_nonneg_nonneg; lia. }
  rewrite wrap64_id by lia. destruct (Z.eqb_spec (mcc_product a) 0) as [E|E].
  - unfold mcc_product in E. apply Z.mul_eq_0 in E. destruct E as [E|E]; [|auto].
    apply Z.mul_eq_0 in E. destruct E as [E|E]; [|lia].
    apply Z.mul_eq_0 in E. destruct E as [E|E]; [auto|lia].
  - assert (0 < tp a + fp a).
    { destruct (Z.eq_dec (tp a + fp a) 0) as [E0|]; [|lia]. exfalso. apply E. unfold mcc_product.
      rewrite E0. ring. }
    assert (0 < tn a + fn a).
    { destruct (Z.eq_dec (tn a + fn a) 0) as [E0|]; [|lia]. exfalso. apply E. unfold mcc_product.
      rewrite E0. ring. }
    split; [assumption|]. split; [assumption|]. apply mcc_value; [|lia].
    rewrite <- EP. apply Z.le_trans with (1 := mcc_ineq (tp a) (fp a) (fn a) (tn a) H1 H3 H4 H2).
    apply Z.eq_le_incl. ring.
Qed.

(** Perfect predictions. *)
Lemma rnd64_1 : rnd64 1 = 1%R. Proof. apply rnd_id, format_1. Qed.
Lemma rnd64_0 : rnd64 0 = 0%R. Proof. apply rnd_id, format_0. Qed.
Lemma rnd64_2 : rnd64 2 = 2%R.
Proof. apply rnd_id. change 2%R with (IZR 2). apply format_IZR. cbn; lia. Qed.

Lemma ratio_self z : 0 < z -> (IZR z / IZR z = 1)%R.
Proof. intro H. apply Rinv_r. assert (0 < IZR z)%R by (apply IZR_lt; lia). lra. Qed.

Lemma perfect_scores a s : atoms_ok a -> fp a = 0 -> fn a = 0 ->
  calculate_label_scores a = Ok s ->
  B2R (s_acc s) = 1%R /\ B2R (s_sens s) = 1%R /\ B2R (s_spec s) = 1%R /\ B2R (s_ppv s) = 1%R /\
  B2R (s_npv s) = 1%R /\ B2R (s_fpr s) = 0%R /\ B2R (s_fdr s) = 0%R /\ B2R (s_fnr s) = 0%R /\
  B2R (s_bacc s) = 1%R /\ B2R (s_gacc s) = 1%R /\ B2R (s_f1 s) = 1%R /\
  B2R (s_informedness s) = 1%R /\ B2R (s_markedness s) = 1%R.
Proof.
  intros Ha Hfp Hfn Hs. assert (Ha' := Ha). destruct Ha' as (H1 & H2 & _ & _ & Hp & Hn & _).
  destruct (label_scores_spec a Ha) as (s' & Hs' & [_ A] & [_ B] & [_ C] & [_ D] & [_ E] & [_ F] &
    [_ G] & [_ I] & [_ J] & [_ K] & [_ L] & [_ M] & [_ N]).
  rewrite Hs in Hs'. injection Hs' as <-. rewrite Hfp, Hfn in *.
  rewrite ?Z.add_0_r, ?Z.add_0_l in *.
  assert (Hsens : B2R (s_sens s) = 1%R) by (rewrite B, ratio_self by lia; apply rnd64_1).
  assert (Hspec : B2R (s_spec s) = 1%R) by (rewrite C, ratio_self by lia; apply rnd64_1).
  assert (Hppv : B2R (s_ppv s) = 1%R).
  { destruct (Z.eq_dec (tp a) 0); [lia|]. rewrite D, ratio_self by lia. apply rnd64_1. }
  assert (Hnpv : B2R (s_npv s) = 1%R).
  { destruct (Z.eq_dec (tn a) 0); [lia|]. rewrite E, ratio_self by lia. apply rnd64_1. }
  rewrite Hsens, Hspec, Hppv, Hnpv in *.
  replace (1 + 1)%R with 2%R in * by lra. rewrite rnd64_2 in *.
  replace (1 - 1)%R with 0%R in * by lra. replace (2 - 1)%R with 1%R in * by lra.
  replace (2 / 2)%R with 1%R in * by lra. replace (1 * 1)%R with 1%R in * by lra.
  rewrite rnd64_0 in *. rewrite rnd64_1 in *. rewrite sqrt_1, rnd64_1 in *.
  repeat split; try assumption.
  - rewrite A, ratio_self by lia. apply rnd64_1.
  - rewrite L, ratio_self by lia. apply rnd64_1.
Qed.

Lemma perfect_mcc a s : atoms_ok a -> fp a = 0 -> fn a = 0 -> mcc_product a < 2 ^ 63 ->
  calculate_label_scores a = Ok s -> exists m, s_mcc s = Some m /\ B2R m = 1%R.
Proof.
  intros Ha Hfp Hfn HP Hs. assert (Hm := mcc_spec a s Ha Hs HP).
  destruct Ha as (H1 & H2 & _ & _ & Hp & Hn & _).
  destruct (s_mcc s) as [m|]; [|lia]. exists m. split; [reflexivity|].
  destruct Hm as (_ & _ & [Hf Hr] & Hv).
  apply Rle_antisym; [lra|]. rewrite Hv.
  apply rnd_ge; [apply format_1|].
  assert (Es : rnd64 (sqrt (rnd64 (IZR (mcc_product a)))) = IZR (tp a * tn a)).
  { unfold mcc_product in *. rewrite Hfp, Hfn in *. rewrite !Z.add_0_r in *.
    replace (tp a * tp a * tn a * tn a) with ((tp a * tn a) * (tp a * tn a)) in * by ring.
    set (x := tp a * tn a) in *. assert (0 < x) by (unfold x; nia).
    assert (x < 2 ^ 32) by nia. rewrite mult_IZR.
    apply Rle_antisym; [|apply sqrt_of_square; lia].
    apply sqrt_of_square_le; lia. }
  rewrite Es, Hfp. rewrite Z.mul_0_l, Z.sub_0_r. rewrite ratio_self by nia. lra.
Qed.

(** ** Uncertainty coefficient *)

Open Scope R_scope.

Lemma ln_lower x : 0 < x -> 1 - / x <= ln x.
Proof.
  intro H. assert (Hx : 0 < / x) by now apply Rinv_0_lt_compat.
  replace (ln x) with (- ln (/ x)) by (rewrite ln_Rinv by assumption; ring).
  assert (ln (/ x) <= / x - 1); [|lra].
  destruct (Req_dec (/ x) 1) as [E|E]; [rewrite E, ln_1; lra|].
  left. rewrite <- (ln_exp (/ x - 1)). apply ln_increasing; [assumption|].
  assert (1 + (/ x - 1) < exp (/ x - 1)); [apply exp_ineq1; lra|lra].
Qed.

Lemma x_ln_ratio x y : 0 < x -> 0 < y -> x - y <= x * ln (x / y).
Proof.
  intros Hx Hy. assert (Hq : 0 < x / y) by (apply Rdiv_lt_0_compat; assumption).
  assert (H := ln_lower _ Hq). apply Rmult_le_compat_l with (r := x) in H; [|lra].
  eapply Rle_trans; [|exact H]. right. field. lra.
Qed.

Section UC.
Variables A B C D : R.
Hypothesis HA : 1 <= A. Hypothesis HB : 1 <= B. Hypothesis HC : 1 <= C. Hypothesis HD : 1 <= D.
(* A = tp, B = fp, C = fn, D = tn *)
Let p := A + C. Let n := B + D. Let N := p + n.
Let r := A + B. Let q := C + D.

Lemma split_ln x y z : 0 < x -> 0 < y -> 0 < z -> ln (x / (y * z)) = ln (N * x / (y * z)) - ln N.
Proof.
  intros. assert (0 < N) by (unfold N, p, n; lra).
  assert (0 < y * z) by nra.
  replace (N * x / (y * z)) with (N * (x / (y * z))) by (field; nra).
  rewrite ln_mult; [ring|assumption|apply Rdiv_lt_0_compat; assumption].
Qed.

Lemma uc_num_nonneg :
  0 <= N * ln N + (A * ln (A / (r * p)) + B * ln (B / (r * n)) + C * ln (C / (p * q)) + D * ln (D / (n * q))).
Proof.
  assert (Hp : 0 < p) by (unfold p; lra). assert (Hn : 0 < n) by (unfold n; lra).
  assert (Hr : 0 < r) by (unfold r; lra). assert (Hq : 0 < q) by (unfold q; lra).
  assert (HN : 0 < N) by (unfold N; lra).
  rewrite (split_ln A r p), (split_ln B r n), (split_ln C p q), (split_ln D n q) by lra.
  assert (G : forall x y z, 0 < x -> 0 < y -> 0 < z -> x - y * z / N <= x * ln (N * x / (y * z))).
  { intros x y z Hx Hy Hz. assert (Hyz : 0 < y * z / N) by (apply Rdiv_lt_0_compat; nra).
    replace (N * x / (y * z)) with (x / (y * z / N)) by (field; lra). apply x_ln_ratio; assumption. }
  assert (G1 := G A r p ltac:(lra) Hr Hp). assert (G2 := G B r n ltac:(lra) Hr Hn).
  assert (G3 := G C p q ltac:(lra) Hp Hq). assert (G4 := G D n q ltac:(lra) Hn Hq).
  assert (E : r * p / N + r * n / N + p * q / N + n * q / N = N).
  { unfold N, p, n, r, q. field. lra. }
  assert (EN : A + B + C + D = N) by (unfold N, p, n; ring).
  assert (A * ln N + B * ln N + C * ln N + D * ln N = N * ln N) by (rewrite <- EN; ring).
  lra.
Qed.

Hypothesis Hp2 : 2 <= p. Hypothesis Hn2 : 2 <= n.

Lemma uc_denom_eq : N * ln N + p * ln (p / N) + n * ln (n / N) = p * ln p + n * ln n.
Proof.
  assert (Hp : 0 < p) by lra. assert (Hn : 0 < n) by lra.
  assert (HN : 0 < N) by (unfold N; lra).
  unfold Rdiv. rewrite !ln_mult by (try assumption; apply Rinv_0_lt_compat; assumption).
  rewrite !ln_Rinv by assumption. unfold N at 1. ring.
Qed.

Lemma ln2_pos : 0 < ln 2. Proof. rewrite <- ln_1. apply ln_increasing; lra. Qed.

Lemma ln_ge_2 x : 2 <= x -> ln 2 <= ln x.
Proof. intros [H| <-]; [left; apply ln_increasing; lra|lra]. Qed.

Lemma uc_denom_pos : 0 < p * ln p + n * ln n.
Proof.
  assert (H1 := ln_ge_2 p Hp2). assert (H2 := ln_ge_2 n Hn2). assert (H3 := ln2_pos). nra.
Qed.

Lemma ln_le_1 x : 0 < x -> x <= 1 -> ln x <= 0.
Proof. intros H [H1| ->]; [left; rewrite <- ln_1; apply ln_increasing; lra|rewrite ln_1; lra]. Qed.

Lemma uc_num_le :
  N * ln N + (A * ln (A / (r * p)) + B * ln (B / (r * n)) + C * ln (C / (p * q)) + D * ln (D / (n * q)))
  <= p * ln p + n * ln n.
Proof.
  assert (Hp : 0 < p) by lra. assert (Hn : 0 < n) by lra.
  assert (Hr : 0 < r) by (unfold r; lra). assert (Hq : 0 < q) by (unfold q; lra).
  assert (HN : 0 < N) by (unfold N; lra).
  assert (G : forall x y z, 0 < x -> x <= y -> 0 < z -> x * ln (x / (y * z)) <= - (x * ln z)).
  { intros x y z Hx Hxy Hz. replace (x / (y * z)) with ((x / y) * / z) by (field; lra).
    rewrite ln_mult by (try (apply Rinv_0_lt_compat; lra); apply Rdiv_lt_0_compat; lra).
    rewrite ln_Rinv by assumption.
    assert (ln (x / y) <= 0); [|nra]. apply ln_le_1; [apply Rdiv_lt_0_compat; lra|].
    apply Rmult_le_reg_r with y; [lra|]. unfold Rdiv. rewrite Rmult_assoc, Rinv_l by lra. lra. }
  assert (G1 := G A r p ltac:(lra) ltac:(unfold r; lra) Hp).
  assert (G2 := G B r n ltac:(lra) ltac:(unfold r; lra) Hn).
  assert (G3 := G C q p ltac:(lra) ltac:(unfold q; lra) Hp). rewrite (Rmult_comm q p) in G3.
  assert (G4 := G D q n ltac:(lra) ltac:(unfold q; lra) Hn). rewrite (Rmult_comm q n) in G4.
  assert (E : A * ln p + C * ln p = p * ln p) by (unfold p at 3; ring).
  assert (E' : B * ln n + D * ln n = n * ln n) by (unfold n at 3; ring).
  (* N ln N <= 2 (p ln p + n ln n) *)
  assert (H2 := ln2_pos).
  assert (K1 : p - N / 2 <= p * ln (p / (N / 2))) by (apply x_ln_ratio; lra).
  assert (K2 : n - N / 2 <= n * ln (n / (N / 2))) by (apply x_ln_ratio; lra).
  assert (Hd : forall x, 0 < x -> ln (x / (N / 2)) = ln x - ln N + ln 2).
  { intros x Hx. replace (x / (N / 2)) with (x * / N * 2) by (field; lra).
    rewrite ln_mult; [|apply Rmult_lt_0_compat; [assumption|apply Rinv_0_lt_compat; assumption]|lra].
    rewrite ln_mult by (try assumption; apply Rinv_0_lt_compat; assumption).
    rewrite ln_Rinv by assumption. ring. }
  rewrite Hd in K1, K2 by assumption.
  assert (L1 := ln_ge_2 p Hp2). assert (L2 := ln_ge_2 n Hn2).
  assert (M1 : p * ln 2 <= p * ln p) by (apply Rmult_le_compat_l; lra).
  assert (M2 : n * ln 2 <= n * ln n) by (apply Rmult_le_compat_l; lra).
  assert (EN : N = p + n) by reflexivity.
  assert (EN2 : N * ln N = p * ln N + n * ln N) by (rewrite EN at 1; ring).
  assert (p * (ln p - ln N + ln 2) = p * ln p - p * ln N + p * ln 2) by ring.
  assert (n * (ln n - ln N + ln 2) = n * ln n - n * ln N + n * ln 2) by ring.
  lra.
Qed.
End UC.

Lemma uc_spec a : (0 < tp a)%Z -> (0 < tn a)%Z -> (0 < fp a)%Z -> (0 < fn a)%Z ->
  exists u, snd (log_scores a) = Some u /\ 0 <= u <= 1.
Proof.
  intros H1 H2 H3 H4. unfold log_scores, log_score_div. cbn [snd].
  repeat (match goal with |- context [(0 <? ?x)%Z] =>
    replace (0 <? x)%Z with true by (symmetry; apply Z.ltb_lt; nia) end).
  eexists. split; [reflexivity|].
  rewrite !plus_IZR, !mult_IZR, !plus_IZR.
  assert (A1 : 1 <= IZR (tp a)) by (apply IZR_le; lia).
  assert (D1 : 1 <= IZR (tn a)) by (apply IZR_le; lia).
  assert (B1 : 1 <= IZR (fp a)) by (apply IZR_le; lia).
  assert (C1 : 1 <= IZR (fn a)) by (apply IZR_le; lia).
  assert (N1 := uc_num_nonneg _ _ _ _ A1 B1 C1 D1).
  assert (N2 := uc_num_le _ _ _ _ A1 B1 C1 D1 ltac:(lra) ltac:(lra)).
  assert (N3 := uc_denom_eq (IZR (tp a)) (IZR (fp a)) (IZR (fn a)) (IZR (tn a)) ltac:(lra) ltac:(lra)).
  assert (N4 := uc_denom_pos (IZR (tp a)) (IZR (fp a)) (IZR (fn a)) (IZR (tn a)) ltac:(lra) ltac:(lra)).
  rewrite N3.
  match goal with |- 0 <= ?x / ?y <= 1 => set (num := x) in *; set (den := y) in * end.
  split.
  - apply Rmult_le_pos; [exact N1|left; apply Rinv_0_lt_compat, N4].
  - apply Rmult_le_reg_r with den; [exact N4|]. unfold Rdiv.
    rewrite Rmult_assoc, Rinv_l, Rmult_1_r by lra. lra.
Qed.

(** ** Probability scores *)

Lemma f_0_2_spec : is_finite f_0_2 = true /\ B2R f_0_2 = (1 + bpow radix2 (-54)) / 5.
Proof.
  unfold f_0_2.
  pose proof (binary_normalize_correct 53 1024 prec64 emax64 mode_NE 3602879701896397 (-54) false) as C.
  cbv zeta in C. cbn [round_mode] in C.
  assert (Hf : generic_format radix2 fexp64 (F2R (Float radix2 3602879701896397 (-54)))).
  { apply generic_format_FLT with (emin := (-1074)%Z) (prec := 53%Z).
    exists (Float radix2 3602879701896397 (-54)); [reflexivity| |].
    - cbn [Fnum]. change (Zpower radix2 53) with (2^53)%Z. cbn. lia.
    - cbn; lia. }
  rewrite rnd_id in C by exact Hf.
  assert (Hv : F2R (Float radix2 3602879701896397 (-54)) = (1 + bpow radix2 (-54)) / 5).
  { unfold F2R. cbn [Fnum Fexp]. change (bpow radix2 (-54)) with (/ 18014398509481984). field. }
  rewrite Hv in C. rewrite Rlt_bool_true in C; [tauto|].
  apply Rle_lt_trans with (bpow radix2 0).
  - change (bpow radix2 (-54)) with (/ 18014398509481984). cbn [bpow]. apply Rabs_le. lra.
  - apply bpow_lt. lia.
Qed.

Lemma top20_threshold_spec n : (Z.of_nat n <= 2 ^ 49)%Z ->
  top20_threshold n = Ok (Nat.max (n / 5) 1).
Proof.
  intro Hn. unfold top20_threshold.
  destruct f_0_2_spec as [F1 F2].
  destruct (f_of_Z_exact (Z.of_nat n)) as [N1 N2]; [lia|].
  set (k := Z.of_nat (n / 5)).
  assert (Hk : (5 * k <= Z.of_nat n <= 5 * k + 4)%Z).
  { unfold k. assert (H := Nat.div_mod n 5 ltac:(lia)).
    assert (H' := Nat.mod_upper_bound n 5 ltac:(lia)). lia. }
  assert (Hk0 : (0 <= k)%Z) by (unfold k; lia).
  set (x := B2R f_0_2 * B2R (f_of_Z (Z.of_nat n))).
  assert (Hx : IZR k <= x <= IZR (16 * k + 15) / 16).
  { unfold x. rewrite F2, N1. change (bpow radix2 (-54)) with (/ 18014398509481984).
    assert (K1 : IZR (5 * k) <= IZR (Z.of_nat n)) by (apply IZR_le; lia).
    assert (K2 : IZR (Z.of_nat n) <= IZR (5 * k + 4)) by (apply IZR_le; lia).
    assert (K3 : 0 <= IZR k) by (apply IZR_le; lia).
    assert (K4 : IZR (Z.of_nat n) <= IZR (2^49)) by (apply IZR_le; lia).
    change (2^49)%Z with 562949953421312%Z in K4.
    rewrite mult_IZR in K1. rewrite !plus_IZR, !mult_IZR in *. split; nra. }
  assert (Hr : IZR k <= rnd64 x <= IZR (16 * k + 15) / 16).
  { split; [apply rnd_ge|apply rnd_le]; try tauto.
    - apply format_IZR. lia.
    - apply generic_format_FLT with (emin := (-1074)%Z) (prec := 53%Z).
      exists (Float radix2 (16 * k + 15) (-4)).
      + unfold F2R. cbn [Fnum Fexp]. change (bpow radix2 (-4)) with (/ 16). reflexivity.
      + cbn [Fnum]. change (Zpower radix2 53) with (2^53)%Z. lia.
      + cbn; lia. }
  destruct (f_mul_small f_0_2 (f_of_Z (Z.of_nat n)) F1 N2) as [M1 M2].
  { fold x. apply (big_bpow _ 53); [lia|]. rewrite Rabs_pos_eq.
    - eapply Rle_trans; [apply Hx|]. change (bpow radix2 53) with (IZR (2^53)).
      apply Rmult_le_reg_r with 16; [lra|]. unfold Rdiv. rewrite Rmult_assoc, Rinv_l by lra.
      rewrite Rmult_1_r. rewrite <- mult_IZR. apply IZR_le. lia.
    - eapply Rle_trans; [|apply Hx]. apply IZR_le. lia. }
  rewrite int_of_f64_finite by exact M1. cbn [bind]. do 2 f_equal.
  rewrite M2. fold x.
  assert (Ht : Ztrunc (rnd64 x) = k).
  { rewrite Ztrunc_floor by (eapply Rle_trans; [|apply Hr]; apply IZR_le; lia).
    apply Zfloor_imp. split; [apply Hr|]. eapply Rle_lt_trans; [apply Hr|].
    rewrite !plus_IZR, mult_IZR. lra. }
  rewrite Ht. unfold k. apply Nat2Z.id.
Qed.

Open Scope Q_scope.

Lemma qsum_perm l l' : Permutation l l' -> qsum l == qsum l'.
Proof. induction 1; cbn; [reflexivity|rewrite IHPermutation; reflexivity|ring|]. now rewrite IHPermutation1. Qed.

Lemma brier_perm test probs test' probs' :
  length test = length probs -> length test' = length probs' ->
  Permutation (combine test probs) (combine test' probs') ->
  brier test probs == brier test' probs'.
Proof.
  intros H1 H2 HP. unfold brier.
  assert (Hl : length test = length test').
  { apply Permutation_length in HP. rewrite !combine_length in HP. lia. }
  rewrite Hl. apply Qmult_comp; [|reflexivity].
  rewrite !map2_combine. apply qsum_perm, Permutation_map, HP.
Qed.

Lemma brier_range test probs : length test = length probs -> test <> [] ->
  Forall (fun t => t = 0%Z \/ t = 1%Z) test -> Forall (fun p => 0 <= p /\ p <= 1) probs ->
  0 <= brier test probs /\ brier test probs <= 1.
Proof.
  intros Hl Hne Ht Hp. unfold brier.
  assert (Hn : 0 < inject_Z (Z.of_nat (length test))).
  { change 0 with (inject_Z 0). rewrite <- Zlt_Qlt. destruct test; [congruence|cbn [length]; lia]. }
  assert (Hs : 0 <= qsum (map2 (fun t p => (p - inject_Z t) * (p - inject_Z t)) test probs) /\
               qsum (map2 (fun t p => (p - inject_Z t) * (p - inject_Z t)) test probs)
               <= inject_Z (Z.of_nat (length test))).
  { clear Hne Hn. revert probs Hl Hp. induction Ht as [|t test Ht0 Ht IH]; intros [|p probs] Hl Hp;
      try discriminate; [cbn; split; apply Qle_refl|].
    inversion Hp as [|? ? [P1 P2] P3]; subst. cbn [map2 qsum length].
    destruct (IH probs ltac:(cbn in Hl; lia) P3) as [I1 I2].
    rewrite Nat2Z.inj_succ. unfold Z.succ. rewrite inject_Z_plus.
    change (inject_Z 1) with 1.
    assert (H : 0 <= (p - inject_Z t) * (p - inject_Z t) /\ (p - inject_Z t) * (p - inject_Z t) <= 1).
    { assert (S1 : 0 <= p * p) by (apply Qmult_le_0_compat; assumption).
      assert (S2 : 0 <= p * (1 - p)) by (apply Qmult_le_0_compat; Lqa.lra).
      assert (S3 : 0 <= (1 - p) * (1 - p)) by (apply Qmult_le_0_compat; Lqa.lra).
      destruct Ht0 as [-> | ->]; [change (inject_Z 0) with 0|change (inject_Z 1) with 1].
      - assert (E : (p - 0) * (p - 0) == p * p) by ring. rewrite E. split; Lqa.lra.
      - assert (E : (p - 1) * (p - 1) == (1 - p) * (1 - p)) by ring. rewrite E. split; Lqa.lra. }
    split; Lqa.lra. }
  split.
  - apply Qmult_le_0_compat; [apply Hs|]. apply Qlt_le_weak, Qinv_lt_0_compat, Hn.
  - apply Qle_shift_div_r; [exact Hn|]. rewrite Qmult_1_l. apply Hs.
Qed.

Open Scope Z_scope.

(** The number of rows with true label [t] and predicted label [p]. *)
Definition rows_of (test pred : list Z) (t p : Z) : Z :=
  Z.of_nat (count_occ (fun a b : Z * Z => ltac:(decide equality; apply Z.eq_dec)) (combine test pred) (t, p)).

Lemma rows_of_pairs test pred t p :
  rows_of test pred t p = count_pairs (fun a b => Z.eqb a t && Z.eqb b p) test pred.
Proof.
  unfold rows_of, count_pairs. f_equal.
  induction (combine test pred) as [|[a b] l IH]; cbn [count_occ filter fst snd]; [reflexivity|].
  match goal with |- context [if ?d then _ else _] => destruct d as [E|E] end.
  - injection E as -> ->. rewrite !Z.eqb_refl. cbn [andb length]. congruence.
  - destruct (Z.eqb_spec a t), (Z.eqb_spec b p); cbn [andb]; try congruence.
Qed.

Lemma atoms_two_labels test pred mn mj a : mn <> mj ->
  Forall (fun z => z = mn \/ z = mj) test -> Forall (fun z => z = mn \/ z = mj) pred ->
  calculate_atoms test pred mn = Ok a ->
  tp a = rows_of test pred mn mn /\ tn a = rows_of test pred mj mj /\
  fp a = rows_of test pred mj mn /\ fn a = rows_of test pred mn mj.
Proof.
  intros Hne Ht Hp Ha. assert (Hl : length test = length pred).
  { unfold calculate_atoms in Ha. destruct (Nat.eqb_spec (length test) (length pred)); [assumption|discriminate]. }
  destruct (calculate_atoms_spec test pred mn Hl) as [a' [Ha' [H1 [H2 [H3 H4]]]]].
  rewrite Ha in Ha'. injection Ha' as <-. rewrite H1, H2, H3, H4, !rows_of_pairs.
  rewrite Forall_forall in Ht, Hp.
  assert (G : forall f g, (forall t p, (t = mn \/ t = mj) -> (p = mn \/ p = mj) -> f t p = g t p) ->
              count_pairs f test pred = count_pairs g test pred).
  { intros f g H. apply count_pairs_ext. intros t p Hin. apply H.
    - apply Ht. eapply in_combine_l, Hin.
    - apply Hp. eapply in_combine_r, Hin. }
  assert (Emm : (mn =? mj) = false) by (apply Z.eqb_neq; assumption).
  assert (Emm' : (mj =? mn) = false) by (apply Z.eqb_neq; congruence).
  repeat split; apply G; intros t p [-> | ->] [-> | ->]; rewrite ?Z.eqb_refl, ?Emm, ?Emm'; reflexivity.
Qed.

Lemma p_top20_spec test mn : Z.of_nat (length test) <= 2 ^ 49 ->
  p_top20 test mn = Ok (count_occ Z.eq_dec (firstn (Nat.max (length test / 5) 1) test) mn,
                        Nat.max (length test / 5) 1).
Proof.
  intro H. unfold p_top20. rewrite top20_threshold_spec by exact H. cbn [bind].
  rewrite filter_count_occ. reflexivity.
Qed.

Lemma prediction_perm_no_ties l l' :
  Permutation l l' -> (length (filter (fun p => Qeq_bool p (1#2)) l) <= 1)%nat ->
  Permutation (combine l (prediction_labels l)) (combine l' (prediction_labels l')).
Proof.
  intros HP H.
  assert (H' : (length (filter (fun p => Qeq_bool p (1#2)) l') <= 1)%nat).
  { erewrite <- Permutation_length; [exact H|]. clear - HP. induction HP; cbn.
    - constructor.
    - destruct (Qeq_bool x (1#2)); [constructor|]; assumption.
    - destruct (Qeq_bool x (1#2)), (Qeq_bool y (1#2)); try reflexivity; constructor.
    - eapply perm_trans; eassumption. }
  unfold prediction_labels. apply Nat.leb_le in H. apply Nat.leb_le in H'. rewrite H, H'.
  assert (G : forall k, combine k (map (fun p => if Qlt_b (1#2) p then 1 else 0) k) =
              map (fun p => (p, if Qlt_b (1#2) p then 1 else 0)) k).
  { induction k; cbn; [reflexivity|]. f_equal. assumption. }
  rewrite !G. apply Permutation_map, HP.
Qed.

Lemma empty_class_raises a :
  0 <= tp a -> 0 <= tn a -> 0 <= fp a -> 0 <= fn a ->
  tp a + fn a = 0 \/ fp a + tn a = 0 -> calculate_label_scores a = Err ZeroDivisionError.
Proof.
  intros H1 H2 H3 H4 H. unfold calculate_label_scores, int_div.
  destruct (Z.eqb_spec (tp a + fn a + (fp a + tn a)) 0); [reflexivity|]. cbn [bind].
  destruct H as [H|H].
  - rewrite H. reflexivity.
  - destruct (Z.eqb_spec (tp a + fn a) 0); [reflexivity|]. cbn [bind]. rewrite H. reflexivity.
Qed.

Lemma mcc_overflow :
  (exists s m, atoms_ok (mk_atoms 641 6700417 0 0) /\
     calculate_label_scores (mk_atoms 641 6700417 0 0) = Ok s /\
     s_mcc s = Some m /\ (40000 <= B2R m)%R) /\
  (exists s, atoms_ok (mk_atoms 32768 32768 32768 32768) /\
     calculate_label_scores (mk_atoms 32768 32768 32768 32768) = Ok s /\ s_mcc s = None).
Proof.
  split.
  - eexists. eexists. split; [unfold atoms_ok; cbn; lia|]. split; [reflexivity|].
    cbn [s_mcc tp tn fp fn]. rewrite ?Z.add_0_r, ?Z.add_0_l, ?Z.mul_0_l, ?Z.sub_0_r.
    change (641 * 6700417) with 4294967297.
    replace (wrap64 _) with 8589934593 by reflexivity.
    change (8589934593 =? 0) with false. cbv iota. split; [reflexivity|].
    destruct (f_of_Z_exact 4294967297) as [A1 A2]; [cbn; lia|].
    destruct (f_of_Z_exact 8589934593) as [B1 B2]; [cbn; lia|].
    destruct (f_sqrt_spec (f_of_Z 8589934593) B2) as [S1 S2]; [rewrite B1; apply IZR_le; lia|].
    rewrite B1 in S2.
    assert (Hs : (1 <= B2R (f_sqrt (f_of_Z 8589934593)) <= 92682)%R).
    { rewrite S2. split.
      - apply rnd_ge; [apply format_1|]. rewrite <- sqrt_1. apply sqrt_le_1_alt. apply IZR_le. lia.
      - apply rnd_le; [apply format_IZR; cbn; lia|].
        rewrite <- (sqrt_square 92682) by lra. apply sqrt_le_1_alt.
        rewrite <- mult_IZR. apply IZR_le. lia. }
    set (q := B2R (f_sqrt (f_of_Z 8589934593))) in *.
    assert (Hq : (40000 <= 4294967297 / q <= 4294967297)%R).
    { split; (apply Rmult_le_reg_r with q; [lra|]); unfold Rdiv;
      rewrite Rmult_assoc, Rinv_l by lra; lra. }
    destruct (f_div_spec (f_of_Z 4294967297) (f_sqrt (f_of_Z 8589934593)) A2 S1) as [D1 D2].
    + fold q. lra.
    + fold q. rewrite A1. apply (big_bpow _ 33); [lia|]. rewrite Rabs_pos_eq by lra.
      change (bpow radix2 33) with 8589934592%R. lra.
    + rewrite D2. fold q. rewrite A1. apply rnd_ge; [apply format_IZR; cbn; lia|]. lra.
  - eexists. split; [unfold atoms_ok; cbn; lia|]. split; [reflexivity|]. reflexivity.
Qed.
