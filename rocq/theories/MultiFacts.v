(** Multiclass oversampling: facts about the model. *)

From Coq Require Import List ZArith QArith Bool Arith Lia Permutation Sorting.Sorted.
From Verif Require Import Np NpFacts Float64 Spec SamplerModel SamplerFacts KnnFacts NoiseFacts2
  MultiModel SpecMulti MultiFloat.
Import ListNotations.
Open Scope nat_scope.

(** ** The sorted labels *)

Definition stats_of (y : list Z) : list (Z * nat) := sort_labels (unique_counts y).

Lemma stats_of_in y l n : In (l, n) (stats_of y) <-> In l y /\ n = count_label y l.
Proof.
  unfold stats_of, sort_labels. rewrite sort_by_in, unique_counts_in. unfold count_label.
  rewrite (count_occ_In Z.eq_dec). split; intros [H1 H2]; subst; split; auto.
Qed.

Lemma stats_of_perm y : Permutation (map fst (stats_of y)) (map fst (unique_counts y)).
Proof. apply Permutation_map. symmetry. apply sort_by_perm. Qed.

Lemma stats_of_NoDup y : NoDup (map fst (stats_of y)).
Proof.
  eapply Permutation_NoDup; [symmetry; apply stats_of_perm|].
  pose proof (unique_counts_sorted y) as S. induction S as [|a l S IH F]; constructor; [|assumption].
  intros H. rewrite Forall_forall in F. specialize (F _ H). lia.
Qed.

Lemma stats_of_sorted y : StronglySorted (fun a b => snd b <= snd a) (stats_of y).
Proof.
  assert (S : StronglySorted (fun a b : Z * nat => (snd b <=? snd a) = true) (stats_of y)).
  { apply sort_by_sorted.
    - intros a b. destruct (Nat.leb_spec (snd b) (snd a)); [now left|right; apply Nat.leb_le; lia].
    - intros a b c H1 H2. apply Nat.leb_le in H1, H2. apply Nat.leb_le. lia. }
  induction S as [|a l S IH F]; constructor; [assumption|].
  eapply Forall_impl; [|exact F]. cbn. intros b H. now apply Nat.leb_le in H.
Qed.

Lemma stats_of_length y : length (stats_of y) = n_classes y.
Proof.
  unfold n_classes. rewrite <- (map_length fst (stats_of y)).
  apply Nat.le_antisymm; apply NoDup_incl_length; try apply stats_of_NoDup; try apply NoDup_nodup.
  - intros z H. apply nodup_In. apply in_map_iff in H as ([a n] & <- & H). now apply stats_of_in in H.
  - intros z H. apply nodup_In in H. apply in_map_iff. exists (z, count_label y z). split; [reflexivity|].
    apply stats_of_in. auto.
Qed.

Lemma statistics_of y a b : In a y -> In b y -> a <> b ->
  exists st, class_label_statistics y = Ok st /\ class_stats st = unique_counts y.
Proof.
  intros Ha Hb Hab. unfold class_label_statistics.
  apply unique_counts_keys in Ha, Hb. destruct (unique_counts y) as [|[k1 c1] [|[k2 c2] t]].
  - destruct Ha.
  - cbn in *. intuition congruence.
  - eexists. split; reflexivity.
Qed.

(** The head of the sorted labels is a largest class. *)
Lemma stats_of_head y : y <> [] -> exists l0 cs, stats_of y = (l0, count_label y l0) :: cs /\ In l0 y /\
  forall l, In l y -> count_label y l <= count_label y l0.
Proof.
  intros Hy. destruct y as [|z y]; [congruence|]. set (w := z :: y) in *.
  destruct (stats_of w) as [|[l0 n] cs] eqn:E.
  - exfalso. assert (In (z, count_label w z) (stats_of w)) by (apply stats_of_in; split; [left|]; reflexivity).
    rewrite E in H. destruct H.
  - assert (H0 : In (l0, n) (stats_of w)) by (rewrite E; left; reflexivity).
    apply stats_of_in in H0 as [H0 ->]. exists l0, cs. split; [reflexivity|]. split; [assumption|].
    intros l Hl. assert (H : In (l, count_label w l) (stats_of w)) by (apply stats_of_in; auto).
    pose proof (stats_of_sorted w) as S. rewrite E in S, H. inversion S as [|? ? ? F]; subst.
    destruct H as [H|H]; [injection H as <- _; lia|]. rewrite Forall_forall in F. now apply F in H.
Qed.

Lemma largest_head y l0 : largest_class y l0 -> exists cs, stats_of y = (l0, count_label y l0) :: cs.
Proof.
  intros (H0 & Hlt & _). destruct (stats_of_head y) as (l & cs & E & Hl & Hmax).
  { intros ->. destruct H0. }
  destruct (Z.eq_dec l l0) as [->|Hne]; [eauto|].
  specialize (Hlt l Hl Hne). specialize (Hmax l0 H0). lia.
Qed.

Lemma stats_rest y l0 n0 cs : stats_of y = (l0, n0) :: cs ->
  (forall l n, In (l, n) cs <-> In l y /\ l <> l0 /\ n = count_label y l) /\ NoDup (map fst cs) /\
  StronglySorted (fun a b => snd b <= snd a) cs.
Proof.
  intros E. pose proof (stats_of_NoDup y) as N. pose proof (stats_of_sorted y) as S. rewrite E in N, S.
  cbn [map fst] in N. inversion N as [|? ? N1 N2]; subst. inversion S; subst.
  split; [|auto]. intros l n. split.
  - intros H. assert (Hs : In (l, n) (stats_of y)) by (rewrite E; right; exact H).
    apply stats_of_in in Hs as [G1 G2]. split; [assumption|]. split; [|assumption].
    intros ->. apply N1. apply in_map_iff. exists (l0, n). auto.
  - intros (H & Hne & ->). assert (Hs : In (l, count_label y l) (stats_of y)) by (apply stats_of_in; auto).
    rewrite E in Hs. destruct Hs as [Hs|Hs]; [injection Hs as <- _; congruence|exact Hs].
Qed.

Lemma count_two_le y a b : a <> b -> count_label y a + count_label y b <= length y.
Proof.
  intros H. unfold count_label. induction y as [|z y IH]; cbn; [lia|].
  destruct (Z.eq_dec z a), (Z.eq_dec z b); subst; try congruence; lia.
Qed.

Lemma count_app y1 y2 z : count_label (y1 ++ y2) z = count_label y1 z + count_label y2 z.
Proof. apply count_occ_app. Qed.

(** ** Assembling the result *)

Lemma label_blocks_count (R : Z * nat -> list row -> Prop) cs rs : Forall2 R cs rs -> NoDup (map fst cs) ->
  forall l, (forall n, ~ In (l, n) cs) /\ count_label (concat (map2 (fun c r => repeat (fst c) (length r)) cs rs)) l = 0 \/
    exists n r, In (l, n) cs /\ In r rs /\ R (l, n) r /\
      count_label (concat (map2 (fun c r => repeat (fst c) (length r)) cs rs)) l = length r.
Proof.
  intros F. induction F as [|[z n] r cs rs HR F IH]; intros N l.
  - left. split; [intros ? []|reflexivity].
  - cbn [map fst] in N. inversion N as [|? ? N1 N2]; subst. cbn [map2 concat fst]. rewrite count_app.
    assert (Hrep : count_label (repeat z (length r)) l = if Z.eq_dec z l then length r else 0).
    { pose proof (count_label_app [] z (length r) l) as C. cbn [app] in C. rewrite C. reflexivity. }
    rewrite Hrep. destruct (IH N2 l) as [[H1 H2]|(m & r' & H1 & H2 & H3 & H4)].
    + destruct (Z.eq_dec z l) as [->|Hne].
      * right. exists n, r. split; [left; reflexivity|]. split; [left; reflexivity|]. split; [assumption|]. lia.
      * left. split; [|lia]. intros m [E|E]; [injection E as E _; congruence|now apply (H1 m)].
    + right. destruct (Z.eq_dec z l) as [->|Hne].
      * exfalso. apply N1. apply in_map_iff. exists (l, m). auto.
      * exists m, r'. cbn. auto 6.
Qed.

Lemma label_blocks_length (cs : list (Z * nat)) (rs : list (list row)) : length cs = length rs ->
  length (concat (map2 (fun c r => repeat (fst c) (length r)) cs rs)) = length (concat rs).
Proof.
  revert rs. induction cs as [|c cs IH]; intros [|r rs] H; cbn in *; try discriminate; [reflexivity|].
  rewrite !app_length, repeat_length, IH by lia. reflexivity.
Qed.

Lemma label_blocks_pairs (R : Z * nat -> list row -> Prop) cs rs : Forall2 R cs rs ->
  forall s z, In (s, z) (combine (concat rs) (concat (map2 (fun c r => repeat (fst c) (length r)) cs rs))) ->
    exists n r, In (z, n) cs /\ R (z, n) r /\ In s r.
Proof.
  intros F. induction F as [|[w n] r cs rs HR F IH]; intros s z H; [destruct H|].
  cbn [map2 concat fst] in H. rewrite combine_app in H by (now rewrite repeat_length).
  apply in_app_iff in H as [H|H].
  - rewrite combine_rows_repeat in H. apply in_map_iff in H as (x & E & H). injection E as -> ->.
    exists n, r. cbn. auto.
  - destruct (IH s z H) as (m & r' & H1 & H2 & H3). exists m, r'. cbn. auto.
Qed.

(** ** One call of the oversampler *)

Section WITH_OVER.
Variables (over : nat -> f64 -> list row -> list Z -> res (list row * list Z)) (d : nat)
  (enough : nat -> Prop) (P : list row -> row -> Prop).
Hypothesis Hover : over_ok over d enough P.

Lemma skipn_exact {T} n (l1 l2 : list T) : length l1 = n -> skipn n (l1 ++ l2) = l2.
Proof. intros <-. rewrite skipn_app, skipn_all, Nat.sub_diag. reflexivity. Qed.

Lemma rows_with_01 (A B : list row) :
  rows_with 1 (A ++ B) (repeat 0%Z (length A) ++ repeat 1%Z (length B)) = B.
Proof.
  rewrite rows_with_app by (now rewrite repeat_length).
  rewrite rows_with_repeat_other, rows_with_repeat_same by discriminate. reflexivity.
Qed.

Lemma over_call i p A B k : rect d A -> rect d B -> B <> [] -> length B <= length A -> enough (length B) ->
  det_n_to_sample (StFloat p) (Z.of_nat (length A)) (Z.of_nat (length B)) = Ok (Z.of_nat k) ->
  exists s S, over i p (A ++ B) (repeat 0%Z (length A) ++ repeat 1%Z (length B)) = Ok s /\
    appended_ones (length (A ++ B)) s = S /\ rows_with 1 (fst s) (snd s) = B ++ S /\
    length S = k /\ rect d S /\ Forall (P B) S.
Proof.
  intros HA HB HB0 Hle He Hk. pose proof (Hover i p A B HA HB HB0 Hle He) as H. cbv zeta in H.
  rewrite Hk in H. rewrite Nat2Z.id in H. destruct H as (S & H1 & H2 & H3 & H4).
  eexists. exists S. split; [exact H1|]. unfold appended_ones. cbn [fst snd].
  split.
  - rewrite !skipn_exact by (rewrite ?app_length, ?repeat_length; lia). rewrite <- H2. apply rows_with_repeat_same.
  - split; [|auto]. rewrite rows_with_app by (rewrite !app_length, !repeat_length; lia).
    rewrite rows_with_01. f_equal. rewrite <- H2. apply rows_with_repeat_same.
Qed.

Lemma over_call_err i p A B e : rect d A -> rect d B -> B <> [] -> length B <= length A -> enough (length B) ->
  det_n_to_sample (StFloat p) (Z.of_nat (length A)) (Z.of_nat (length B)) = Err e ->
  over i p (A ++ B) (repeat 0%Z (length A) ++ repeat 1%Z (length B)) = Err e.
Proof.
  intros HA HB HB0 Hle He Hk. pose proof (Hover i p A B HA HB HB0 Hle He) as H. cbv zeta in H.
  now rewrite Hk in H.
Qed.

(** ** Equalize *)

Variables (X : list row) (y : list Z).
Hypothesis HX : rect d X.
Hypothesis HL : length X = length y.

Lemma rows_count l : length (rows_with l X y) = count_label y l.
Proof. apply rows_with_length, HL. Qed.

Lemma rows_nonempty l : In l y -> rows_with l X y <> [].
Proof.
  intros H E. pose proof (rows_count l) as C. rewrite E in C. cbn in C.
  apply (count_occ_In Z.eq_dec) in H. unfold count_label in C. lia.
Qed.

Lemma select_rect m : rect d (select m X).
Proof.
  apply Forall_forall. intros x H. apply select_incl in H. unfold rect in HX. rewrite Forall_forall in HX. auto.
Qed.

Lemma select_count {T} (m : list bool) : forall l : list T, length m = length l ->
  length (select m l) = length (filter (fun b => b) m).
Proof. induction m as [|[] m IH]; intros [|a l] H; cbn in *; try discriminate; auto. Qed.

Lemma others_length l : length (filter (fun b => b) (map (fun z => negb (Z.eqb z l)) y)) = length y - count_label y l.
Proof.
  clear HL. unfold count_label. induction y as [|z t IH]; [reflexivity|]. cbn [map filter].
  pose proof (count_occ_bound Z.eq_dec l t) as B.
  cbn [count_occ]. destruct (Z.eqb_spec z l), (Z.eq_dec z l); cbn [negb filter length]; try congruence; rewrite IH; lia.
Qed.

Lemma others_rows l : length (select (map (fun z => negb (Z.eqb z l)) y) X) = length y - count_label y l.
Proof. rewrite <- others_length. apply select_count. rewrite map_length. auto. Qed.

Lemma equalize_class_ok n0 i l : In l y -> count_label y l < n0 -> n0 + count_label y l <= length y ->
  enough (count_label y l) -> (Z.of_nat (length y) <= 2 ^ 53)%Z ->
  exists r, equalize_class over X y n0 i (l, count_label y l) = Ok r /\
    length r = length y - 2 * count_label y l /\ rect d r /\ Forall (P (rows_with l X y)) r.
Proof.
  intros Hl Hlt Hn He Hb. unfold equalize_class. cbn [fst snd].
  set (A := select (map (fun z => negb (Z.eqb z l)) y) X). set (B := rows_with l X y).
  rewrite others_length, <- others_rows. fold A.
  change (count_occ Z.eq_dec y l) with (count_label y l). rewrite <- rows_count. fold B.
  assert (LA : length A = length y - count_label y l) by apply others_rows.
  assert (LB : length B = count_label y l) by apply rows_count.
  destruct (over_call i (proportion_1_vs_many n0 (length B)) A B (length y - 2 * count_label y l)) as (s & S & H1 & H2 & _ & H4 & H5 & H6).
  - apply select_rect.
  - apply rows_with_rect, HX.
  - apply rows_nonempty, Hl.
  - lia.
  - rewrite LB. exact He.
  - unfold proportion_1_vs_many. rewrite LA, LB, det_same_ratio by lia. f_equal. lia.
  - rewrite H1. cbn [bind]. exists S. rewrite H2, LB. auto.
Qed.

Lemma equalize_loop_ok n0 cs : forall i,
  (forall l n, In (l, n) cs -> In l y /\ n = count_label y l /\ n < n0 /\ n0 + n <= length y /\ enough n) ->
  (Z.of_nat (length y) <= 2 ^ 53)%Z ->
  exists rs, equalize_loop over X y n0 i cs = Ok rs /\
    Forall2 (fun c r => length r = length y - 2 * snd c /\ Forall (P (rows_with (fst c) X y)) r) cs rs.
Proof.
  induction cs as [|[l n] cs IH]; intros i H Hb.
  - exists []. split; [reflexivity|constructor].
  - destruct (H l n (or_introl eq_refl)) as (H1 & -> & H3 & H4 & H5).
    destruct (equalize_class_ok n0 i l H1 H3 H4 H5 Hb) as (r & E & R1 & _ & R2).
    destruct (IH (S i)) as (rs & E' & F); [intros; apply H; now right|exact Hb|].
    exists (r :: rs). cbn [equalize_loop]. rewrite E. cbn [bind]. rewrite E'. cbn [bind].
    split; [reflexivity|]. constructor; [cbn; auto|exact F].
Qed.

Lemma equalize_spec l0 : largest_class y l0 ->
  (forall l, In l y -> l <> l0 -> enough (count_label y l)) -> (Z.of_nat (length y) <= 2 ^ 53)%Z ->
  exists S ys, sample_equalize over X y = Ok (X ++ S, y ++ ys) /\ length S = length ys /\
    count_label (y ++ ys) l0 = count_label y l0 /\
    (forall l, In l y -> l <> l0 -> count_label (y ++ ys) l = length y - count_label y l) /\
    (forall s z, In (s, z) (combine S ys) -> In z y /\ z <> l0 /\ P (rows_with z X y) s).
Proof.
  intros HB He Hb. destruct (largest_head y l0 HB) as (cs & E). destruct (stats_rest y _ _ _ E) as (Hcs & N & _).
  destruct HB as (H0 & Hlt & l1 & Hl1 & Hne). destruct (statistics_of y l1 l0 Hl1 H0 Hne) as (st & Est & Ecs).
  unfold sample_equalize. rewrite Est. cbn [bind]. rewrite Ecs. fold (stats_of y). rewrite E.
  destruct (equalize_loop_ok (count_label y l0) cs 1) as (rs & Er & F); [|exact Hb|].
  { intros l n H. apply Hcs in H as (H1 & H2 & ->). split; [assumption|]. split; [reflexivity|].
    split; [now apply Hlt|]. split; [apply count_two_le; congruence|now apply He]. }
  rewrite Er. cbn [bind]. unfold assemble. eexists. eexists. split; [reflexivity|].
  split; [symmetry; apply label_blocks_length; eapply Forall2_length; exact F|].
  split; [|split].
  - rewrite count_app. destruct (label_blocks_count _ _ _ F N l0) as [[_ C]|(n & r & C & _)]; [rewrite C; lia|].
    apply Hcs in C as (_ & C & _). congruence.
  - intros l Hl Hn. rewrite count_app. destruct (label_blocks_count _ _ _ F N l) as [[C _]|(n & r & C & _ & [R _] & Cn)].
    + exfalso. apply (C (count_label y l)). apply Hcs. auto.
    + apply Hcs in C as (_ & _ & ->). cbn [snd] in R. rewrite Cn, R.
      pose proof (count_two_le y l l0 Hn). pose proof (Hlt l Hl Hn). lia.
  - intros s z H. destruct (label_blocks_pairs _ _ _ F s z H) as (n & r & C & [_ R] & Hs).
    apply Hcs in C as (C1 & C2 & _). cbn [fst] in R. rewrite Forall_forall in R. auto.
Qed.

(** ** Successive *)

Lemma succ_count_any n0 n i def : 1 <= i -> 0 < n <= n0 -> (i = 1 -> n < n0) -> def <= i - 2 ->
  (Z.of_nat i * Z.of_nat n0 <= 2 ^ 50)%Z ->
  exists k, det_n_to_sample (StFloat (proportion_1_vs_many_succ n0 n i))
      (Z.of_nat (i * n0 - def)) (Z.of_nat n) = Ok (Z.of_nat k) /\
    n0 - n - 1 <= k <= n0 - n /\ (i = 1 -> k = n0 - n).
Proof.
  intros Hi Hn H1 Hd Hb. destruct (Nat.eq_dec i 1) as [->|Hne].
  - exists (n0 - n). split; [|lia]. assert (def = 0) by lia. subst def.
    unfold proportion_1_vs_many_succ. change (Z.of_nat 1) with 1%Z. rewrite Z.mul_1_l, det_same_ratio by lia.
    f_equal. lia.
  - destruct (succ_count n0 n i def) as (k & E & B); try lia. exists k. split; [exact E|]. lia.
Qed.

Lemma successive_loop_ok n0 cs : forall i def X_maj,
  1 <= i -> def <= i - 2 -> length X_maj = i * n0 - def -> rect d X_maj ->
  (Z.of_nat (i + length cs) * Z.of_nat n0 <= 2 ^ 50)%Z ->
  (forall l n, In (l, n) cs -> In l y /\ n = count_label y l /\ n <= n0 /\ (i = 1 -> n < n0) /\ enough n) ->
  exists rs, successive_loop over X y n0 i X_maj cs = Ok rs /\
    Forall2 (fun c r => n0 - snd c - 1 <= length r <= n0 - snd c /\ Forall (P (rows_with (fst c) X y)) r) cs rs /\
    (i = 1 -> length (hd [] rs) = n0 - snd (hd (0%Z, n0) cs)).
Proof.
  induction cs as [|[l n] cs IH]; intros i def X_maj Hi Hd HM RM Hb H.
  - exists []. split; [reflexivity|]. split; [constructor|]. cbn. lia.
  - destruct (H l n (or_introl eq_refl)) as (H1 & Hn & H3 & H4 & H5).
    cbn [successive_loop fst snd]. change (count_occ Z.eq_dec y l) with (count_label y l).
    pose proof (rows_count l) as LB. rewrite <- LB. set (B := rows_with l X y) in *.
    assert (Hp : 0 < n) by (subst n; now apply (count_occ_In Z.eq_dec)).
    destruct (succ_count_any n0 n i def) as (k & Ek & Bk & Bk1); try lia.
    assert (HBn : length B = n) by congruence.
    destruct (over_call i (proportion_1_vs_many_succ n0 n i) X_maj B k) as (s & S & E1 & E2 & E3 & E4 & E5 & E6).
    + exact RM.
    + apply rows_with_rect, HX.
    + apply rows_nonempty, H1.
    + rewrite HM, HBn. destruct (Nat.eq_dec i 1); [subst i; nia|]. nia.
    + now rewrite HBn.
    + rewrite HM, HBn. exact Ek.
    + rewrite E1. cbn [bind]. rewrite E3.
      destruct (IH (Datatypes.S i) (def + (n0 - n - k)) (X_maj ++ B ++ S)) as (rs & Er & F & _).
      * lia.
      * destruct (Nat.eq_dec i 1) as [Hi1|Hi1]; [rewrite (Bk1 Hi1)|]; lia.
      * rewrite !app_length, HM, HBn, E4.
        assert (def <= i * n0) by (destruct (Nat.eq_dec i 1); nia). nia.
      * unfold rect in *. rewrite !Forall_app. repeat split; auto. apply rows_with_rect, HX.
      * replace (Datatypes.S i + length cs) with (i + length ((l, n) :: cs)) by (cbn; lia). exact Hb.
      * intros l' n' Hin. destruct (H l' n' (or_intror Hin)) as (G1 & G2 & G3 & _ & G5). repeat split; auto. lia.
      * rewrite Er. cbn [bind]. exists (S :: rs). rewrite E2. split; [reflexivity|].
        split; [constructor; [cbn [fst snd]; rewrite E4; auto|exact F]|].
        intros Hi1. cbn [hd snd]. rewrite E4. now apply Bk1.
Qed.

Lemma successive_spec l0 : largest_class y l0 ->
  (forall l, In l y -> l <> l0 -> enough (count_label y l)) ->
  (Z.of_nat (n_classes y) * Z.of_nat (count_label y l0) <= 2 ^ 50)%Z ->
  exists S ys, sample_successive over X y = Ok (X ++ S, y ++ ys) /\ length S = length ys /\
    count_label (y ++ ys) l0 = count_label y l0 /\
    (forall l, In l y -> count_label y l0 - 1 <= count_label (y ++ ys) l <= count_label y l0) /\
    (exists l1, In l1 y /\ l1 <> l0 /\ (forall l, In l y -> l <> l0 -> count_label y l <= count_label y l1) /\
       count_label (y ++ ys) l1 = count_label y l0) /\
    (forall s z, In (s, z) (combine S ys) -> In z y /\ z <> l0 /\ P (rows_with z X y) s).
Proof.
  intros HB He Hb. destruct (largest_head y l0 HB) as (cs & E). destruct (stats_rest y _ _ _ E) as (Hcs & N & Hs).
  destruct HB as (H0 & Hlt & l1 & Hl1 & Hne). destruct (statistics_of y l1 l0 Hl1 H0 Hne) as (st & Est & Ecs).
  unfold sample_successive. rewrite Est. cbn [bind]. rewrite Ecs. fold (stats_of y). rewrite E.
  assert (Hlen : n_classes y = 1 + length cs) by (rewrite <- stats_of_length, E; reflexivity).
  destruct (successive_loop_ok (count_label y l0) cs 1 0 (rows_with l0 X y)) as (rs & Er & F & F1).
  { lia. } { lia. } { rewrite rows_count. lia. } { apply rows_with_rect, HX. } { rewrite <- Hlen. exact Hb. }
  { intros l n H. apply Hcs in H as (H1 & H2 & ->). split; [assumption|]. split; [reflexivity|].
    pose proof (Hlt l H1 H2). split; [lia|]. split; [auto|now apply He]. }
  rewrite Er. cbn [bind]. unfold assemble. eexists. eexists. split; [reflexivity|].
  split; [symmetry; apply label_blocks_length; eapply Forall2_length; exact F|].
  assert (C0 : count_label (y ++ concat (map2 (fun c r => repeat (fst c) (length r)) cs rs)) l0 = count_label y l0).
  { rewrite count_app. destruct (label_blocks_count _ _ _ F N l0) as [[_ C]|(n & r & C & _)]; [rewrite C; lia|].
    apply Hcs in C as (_ & C & _). congruence. }
  split; [exact C0|]. split; [|split].
  - intros l Hl. destruct (Z.eq_dec l l0) as [->|Hn]; [rewrite C0; lia|].
    rewrite count_app. destruct (label_blocks_count _ _ _ F N l) as [[C _]|(n & r & C & _ & [R _] & Cn)].
    + exfalso. apply (C (count_label y l)). apply Hcs. auto.
    + apply Hcs in C as (_ & _ & ->). cbn [snd] in R. rewrite Cn. pose proof (Hlt l Hl Hn). lia.
  - destruct cs as [|[l2 n2] cs].
    { exfalso. assert (H : In (l1, count_label y l1) (@nil (Z * nat))) by (apply Hcs; auto). destruct H. }
    destruct rs as [|r rs]; [inversion F|]. specialize (F1 eq_refl). cbn [hd snd] in F1.
    destruct (proj1 (Hcs l2 n2) (or_introl eq_refl)) as (G1 & G2 & ->).
    exists l2. split; [assumption|]. split; [assumption|]. split.
    + intros l Hl Hn. assert (H : In (l, count_label y l) ((l2, count_label y l2) :: cs)) by (apply Hcs; auto).
      inversion Hs as [|? ? ? G]; subst. destruct H as [H|H]; [injection H as <- _; lia|].
      rewrite Forall_forall in G. now apply G in H.
    + cbn [map2 concat fst]. rewrite count_app.
      inversion F as [|? ? ? ? _ F']; subst. cbn [map fst] in N. inversion N as [|? ? N1 N2]; subst.
      rewrite count_app.
      assert (Hrep : count_label (repeat l2 (length r)) l2 = length r).
      { pose proof (count_label_app [] l2 (length r) l2) as C. cbn [app] in C. rewrite C.
        destruct (Z.eq_dec l2 l2); [reflexivity|congruence]. }
      rewrite Hrep, F1. pose proof (Hlt l2 G1 G2).
      destruct (label_blocks_count _ _ _ F' N2 l2) as [[_ C]|(n & r' & C & _)]; [rewrite C; lia|].
      exfalso. apply N1. apply in_map_iff. exists (l2, n). auto.
  - intros s z H. destruct (label_blocks_pairs _ _ _ F s z H) as (n & r & C & [_ R] & Hin).
    apply Hcs in C as (C1 & C2 & _). cbn [fst] in R. rewrite Forall_forall in R. auto.
Qed.

(** ** Ties for the largest class *)

Lemma tie_spec a b : In a y -> In b y -> a <> b -> count_label y a = count_label y b ->
  (forall l, In l y -> count_label y l <= count_label y a) -> enough (count_label y a) ->
  sample_successive over X y = Err ValueError /\ sample_equalize over X y = Err ValueError.
Proof.
  intros Ha Hb Hab Heq Hmax He.
  destruct (statistics_of y a b Ha Hb Hab) as (st & Est & Ecs).
  destruct (stats_of_head y) as (l0 & cs & E & H0 & Hm0). { intros ->. destruct Ha. }
  destruct (stats_rest y _ _ _ E) as (Hcs & N & Hs).
  assert (Hn0 : count_label y l0 = count_label y a) by (pose proof (Hm0 a Ha); pose proof (Hmax l0 H0); lia).
  (* the second label has as many rows *)
  destruct cs as [|[l2 n2] cs].
  { exfalso. destruct (Z.eq_dec a l0) as [->|Hne].
    - assert (H : In (b, count_label y b) (@nil (Z * nat))) by (apply Hcs; auto). destruct H.
    - assert (H : In (a, count_label y a) (@nil (Z * nat))) by (apply Hcs; auto). destruct H. }
  destruct (proj1 (Hcs l2 n2) (or_introl eq_refl)) as (G1 & G2 & ->).
  assert (Hn2 : count_label y l2 = count_label y l0).
  { apply Nat.le_antisymm; [now apply Hm0|].
    inversion Hs as [|? ? ? G]; subst. rewrite Forall_forall in G.
    assert (K : forall z, In z y -> z <> l0 -> count_label y z <= count_label y l2).
    { intros z Hz Hz0. assert (HH : In (z, count_label y z) ((l2, count_label y l2) :: cs)) by (apply Hcs; auto).
      destruct HH as [HH|HH]; [injection HH as <- _; lia|]. now apply G in HH. }
    destruct (Z.eq_dec a l0) as [->|Hne].
    - rewrite Heq. apply K; auto.
    - rewrite Hn0. now apply K. }
  assert (LB : length (rows_with l2 X y) = count_label y l2) by apply rows_count.
  unfold sample_successive, sample_equalize. rewrite Est. cbn [bind]. rewrite Ecs. fold (stats_of y). rewrite E.
  split.
  - cbn [successive_loop fst snd]. change (count_occ Z.eq_dec y l2) with (count_label y l2).
    rewrite <- (rows_count l2).
    rewrite (over_call_err 1 _ (rows_with l0 X y) (rows_with l2 X y) ValueError); [reflexivity| | | | | |].
    + apply rows_with_rect, HX.
    + apply rows_with_rect, HX.
    + apply rows_nonempty, G1.
    + rewrite !rows_count. lia.
    + rewrite rows_count, Hn2, Hn0. exact He.
    + unfold proportion_1_vs_many_succ. rewrite !rows_count, Hn2.
      replace (Z.of_nat (count_label y l0) - Z.of_nat (count_label y l0))%Z with 0%Z by lia.
      replace (Z.of_nat 1 * Z.of_nat (count_label y l0) - Z.of_nat (count_label y l0))%Z with 0%Z by lia.
      rewrite nan_ratio. apply det_nan.
  - cbn [equalize_loop]. unfold equalize_class. cbn [fst snd].
    rewrite others_length, <- others_rows. change (count_occ Z.eq_dec y l2) with (count_label y l2).
    rewrite <- (rows_count l2).
    rewrite (over_call_err 1 _ _ (rows_with l2 X y) ValueError); [reflexivity| | | | | |].
    + apply select_rect.
    + apply rows_with_rect, HX.
    + apply rows_nonempty, G1.
    + rewrite others_rows, rows_count. pose proof (count_two_le y l2 l0 G2). lia.
    + rewrite rows_count, Hn2, Hn0. exact He.
    + unfold proportion_1_vs_many. rewrite rows_count, Hn2.
      replace (Z.of_nat (count_label y l0) - Z.of_nat (count_label y l0))%Z with 0%Z by lia.
      rewrite nan_ratio. apply det_nan.
Qed.

End WITH_OVER.

Lemma count_three_lt y l0 l l' : l <> l0 -> l' <> l0 -> l <> l' -> In l' y ->
  count_label y l0 < length y - count_label y l.
Proof.
  intros N N' NN H. unfold count_label.
  assert (C : count_occ Z.eq_dec y l0 + count_occ Z.eq_dec y l + count_occ Z.eq_dec y l' <= length y).
  { clear H. induction y as [|z y IH]; cbn; [lia|].
    destruct (Z.eq_dec z l0), (Z.eq_dec z l), (Z.eq_dec z l'); subst; try congruence; lia. }
  apply (count_occ_In Z.eq_dec) in H. lia.
Qed.
