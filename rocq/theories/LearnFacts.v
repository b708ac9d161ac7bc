(** Facts about the learning of metric tensors. *)

From Coq Require Import String List ZArith QArith Bool Arith Lia Permutation.
From Coq Require Import Psatz.
From Verif Require Import Np NpFacts BaseFacts LearnModel SpecLearn.
Import ListNotations.
Open Scope nat_scope.

(** ** Leaves *)

Lemma filter_shift (p : nat -> bool) n : length (filter p (seq 1 n)) = length (filter (fun k => p (S k)) (seq 0 n)).
Proof.
  rewrite <- seq_shift. induction (seq 0 n) as [|k l IH]; [reflexivity|].
  cbn [map filter]. destruct (p (S k)); cbn [length]; now rewrite ?IH.
Qed.

Lemma differing_cons x a z b : differing (x :: a) (z :: b) = (if x =? z then 0 else 1) + differing a b.
Proof.
  unfold differing. cbn [length seq filter nth]. pose proof (filter_shift (fun k => negb (nth k (x :: a) 0 =? nth k (z :: b) 0)) (length a)) as E.
  cbn [nth] in E. destruct (x =? z); cbn [negb length Nat.add]; now rewrite E.
Qed.

Lemma differing_nil b : differing [] b = 0.
Proof. reflexivity. Qed.

Lemma differing_le a : forall b, length a = length b -> differing a b <= length a.
Proof.
  induction a as [|x a IH]; intros [|z b] H; try discriminate; [cbn; lia|].
  rewrite differing_cons. cbn [length]. specialize (IH b ltac:(cbn in H; lia)). destruct (x =? z); lia.
Qed.

Lemma differing_zero a : forall b, length a = length b -> (differing a b = 0 <-> a = b).
Proof.
  induction a as [|x a IH]; intros [|z b] H; try discriminate; [cbn; tauto|].
  rewrite differing_cons. specialize (IH b ltac:(cbn in H; lia)).
  destruct (Nat.eqb_spec x z) as [E|E]; [rewrite IH; split; [intros ->; now subst|intros K; now inversion K]|].
  split; [lia|]. intros K. inversion K; tauto.
Qed.

Lemma differing_sym a : forall b, length a = length b -> differing a b = differing b a.
Proof.
  induction a as [|x a IH]; intros [|z b] H; try discriminate; [reflexivity|].
  rewrite !differing_cons, (IH b) by (cbn in H; lia). now rewrite Nat.eqb_sym.
Qed.

Lemma differing_triangle a : forall b c, length a = length b -> length b = length c -> differing a c <= differing a b + differing b c.
Proof.
  induction a as [|x a IH]; intros [|z b] [|w c] H K; try discriminate; [cbn; lia|].
  rewrite !differing_cons. specialize (IH b c ltac:(cbn in H; lia) ltac:(cbn in K; lia)).
  destruct (Nat.eqb_spec x w), (Nat.eqb_spec x z), (Nat.eqb_spec z w); subst; try lia; tauto.
Qed.

Lemma unlike_sum a : forall b, length a = length b ->
  (qsum (map2 (fun x z => 1 - (if x =? z then 1 else 0))%Q a b) == inject_Z (Z.of_nat (differing a b)))%Q.
Proof.
  induction a as [|x a IH]; intros [|z b] H; try discriminate; [reflexivity|].
  cbn [map2 qsum]. rewrite (IH b) by (cbn in H; lia). rewrite differing_cons, Nat2Z.inj_add, inject_Z_plus.
  destruct (x =? z); cbn [Z.of_nat]; change (inject_Z (Z.of_nat 1)) with 1%Q; change (inject_Z 0) with 0%Q; ring.
Qed.

Lemma unlike_ok t a b : length a = length b -> (unlike t a b == inject_Z (Z.of_nat (differing a b)) / inject_Z (Z.of_nat t))%Q.
Proof. intros H. unfold unlike. now rewrite unlike_sum. Qed.

Section Forest.
Variable F : Type.
Variable leaves : F -> row -> list nat.

Local Notation share t a b := (inject_Z (Z.of_nat (differing a b)) / inject_Z (Z.of_nat t))%Q.

Lemma nodes_trees f t X : (forall x, length (leaves f x) = t) -> X <> [] -> n_trees (map (leaves f) X) = t.
Proof. intros H K. destruct X as [|x X]; [tauto|]. cbn. apply H. Qed.

(** A distance between rows. *)
Lemma dissimilarity_ok self f t X : fo_classifier F self = Some f -> (forall x, length (leaves f x) = t) -> X <> [] ->
  exists D, dissimilarity_matrix F leaves self X = (Ok D, mk_forest F (Some f) (Some (map (leaves f) X))) /\
    length D = length X /\
    forall i, i < length X -> length (nth i D []) = length X /\
      forall j, j < length X -> (nth j (nth i D []) 0 == share t (leaves f (nth i X [])) (leaves f (nth j X [])))%Q.
Proof.
  intros Hf Ht HX. unfold dissimilarity_matrix, forest_apply. rewrite Hf. destruct X as [|x0 X0]; [tauto|].
  set (X := x0 :: X0) in *. cbn [fo_classifier]. rewrite (nodes_trees f t X Ht HX). eexists. split; [reflexivity|].
  split; [now rewrite !map_length|]. intros i Hi.
  rewrite (nth_indep _ _ (map (unlike t []) (map (leaves f) X))) by (rewrite !map_length; lia).
  rewrite (map_nth (fun a => map (unlike t a) (map (leaves f) X))).
  rewrite (nth_indep (map (leaves f) X) [] (leaves f [])) by (rewrite map_length; lia). rewrite map_nth.
  split; [now rewrite !map_length|]. intros j Hj.
  rewrite (nth_indep _ _ (unlike t (leaves f (nth i X [])) (leaves f []))) by (rewrite !map_length; lia).
  rewrite !map_nth. apply unlike_ok. now rewrite !Ht.
Qed.

Lemma share_metric t a b c : 0 < t -> length a = t -> length b = t -> length c = t ->
  (0 <= share t a b)%Q /\ (share t a b <= 1)%Q /\ ((share t a b == 0)%Q <-> a = b) /\ (share t a b == share t b a)%Q /\
  (share t a c <= share t a b + share t b c)%Q.
Proof.
  intros Ht Ha Hb Hc.
  assert (T : (0 < inject_Z (Z.of_nat t))%Q) by (unfold Qlt; cbn; lia).
  assert (N : forall n, (0 <= inject_Z (Z.of_nat n))%Q) by (intro n; unfold Qle; cbn; lia).
  split; [apply Qle_shift_div_l; [exact T|]; rewrite Qmult_0_l; apply N|].
  split; [apply Qle_shift_div_r; [exact T|]; rewrite Qmult_1_l, <- Zle_Qle; pose proof (differing_le a b); lia|].
  split.
  { rewrite <- (differing_zero a b) by congruence. split; intros H.
    - assert (E : (inject_Z (Z.of_nat (differing a b)) == 0)%Q).
      { setoid_replace (inject_Z (Z.of_nat (differing a b))) with (share t a b * inject_Z (Z.of_nat t))%Q by (field; lra).
        rewrite H. ring. }
      unfold Qeq in E. cbn in E. lia.
    - rewrite H. cbn. unfold Qdiv. now rewrite Qmult_0_l. }
  split; [now rewrite (differing_sym a b) by congruence|].
  setoid_replace (share t a b + share t b c)%Q with (inject_Z (Z.of_nat (differing a b + differing b c)) / inject_Z (Z.of_nat t))%Q
    by (rewrite Nat2Z.inj_add, inject_Z_plus; field; lra).
  apply Qle_shift_div_l; [exact T|].
  setoid_replace (share t a c * inject_Z (Z.of_nat t))%Q with (inject_Z (Z.of_nat (differing a c))) by (field; lra).
  rewrite <- Zle_Qle. pose proof (differing_triangle a b c). lia.
Qed.

(** New rows against the rows of the last matrix. *)
Lemma transform_ok self f t Z X : fo_classifier F self = Some f -> (forall x, length (leaves f x) = t) -> X <> [] ->
  forall nodes, fo_nodes F self = Some nodes -> nodes = Z -> Z <> [] -> (forall a, In a Z -> length a = t) ->
  exists D, transform_kneighbors F leaves self X = Ok D /\ length D = length X /\
    forall i, i < length X -> length (nth i D []) = length Z /\
      forall j, j < length Z -> (nth j (nth i D []) 0 == share t (leaves f (nth i X [])) (nth j Z []))%Q.
Proof.
  intros Hf Ht HX nodes Hn -> HZ Hl. unfold transform_kneighbors, forest_apply. rewrite Hf, Hn. destruct X as [|x0 X0]; [tauto|].
  set (X := x0 :: X0) in *. cbn [bind]. rewrite (nodes_trees f t X Ht HX).
  assert (E : n_trees Z = t) by (destruct Z as [|a Z']; [tauto|cbn; apply Hl; now left]). rewrite E, Nat.eqb_refl.
  eexists. split; [reflexivity|]. split; [now rewrite !map_length|]. intros i Hi.
  rewrite (nth_indep _ _ (map (unlike t []) Z)) by (rewrite !map_length; lia).
  rewrite (map_nth (fun a => map (unlike t a) Z)).
  rewrite (nth_indep (map (leaves f) X) [] (leaves f [])) by (rewrite map_length; lia). rewrite map_nth.
  split; [now rewrite !map_length|]. intros j Hj.
  rewrite (nth_indep _ _ (unlike t (leaves f (nth i X [])) [])) by (rewrite !map_length; lia).
  rewrite !map_nth. apply unlike_ok. rewrite Ht, Hl; [reflexivity|now apply nth_In].
Qed.

Lemma transform_fresh f t X : (forall x, length (leaves f x) = t) -> X <> [] -> t <> 1 ->
  transform_kneighbors F leaves (forest_fit F (forest_new F) f) X = Err ValueError.
Proof.
  intros Ht HX H1. unfold transform_kneighbors, forest_apply. cbn [fo_classifier forest_fit forest_new fo_nodes].
  destruct X as [|x0 X0]; [tauto|]. cbn [bind]. rewrite (nodes_trees f t (x0 :: X0) Ht HX).
  now rewrite (proj2 (Nat.eqb_neq t 1) H1).
Qed.

End Forest.

(** ** Few values *)

Lemma n_distinct_spec n x : n_distinct x <= n <-> few_values n x.
Proof.
  unfold n_distinct, few_values. split.
  - intros H. exists (nodup Q_leibniz (map Qred x)). split; [exact H|]. intros v Hv. exists (Qred v).
    split; [apply nodup_In, in_map, Hv|symmetry; apply Qred_correct].
  - intros [vs [Hl Hv]]. transitivity (length (map Qred vs)); [|now rewrite map_length].
    apply NoDup_incl_length; [apply NoDup_nodup|]. intros q Hq. apply nodup_In, in_map_iff in Hq. destruct Hq as [v [<- Hq]].
    destruct (Hv v Hq) as [u [Hu E]]. rewrite (Qred_complete _ _ E). now apply in_map.
Qed.

Lemma mask_ok dim n X : length (discrete_variable_mask dim n X) = dim /\
  forall j, j < dim -> (nth j (discrete_variable_mask dim n X) false = true <-> few_values n (map (fun x => nth j x 0%Q) X)).
Proof.
  unfold discrete_variable_mask. split; [now rewrite map_length, seq_length|]. intros j Hj.
  set (g := fun j => n_distinct (map (fun x => nth j x 0%Q) X) <=? n).
  rewrite (nth_indep _ _ (g 0)) by (now rewrite map_length, seq_length). rewrite map_nth, seq_nth by exact Hj.
  unfold g. cbn [Nat.add]. rewrite Nat.leb_le. apply n_distinct_spec.
Qed.

(** ** Mutual information *)

Lemma qsum_total (f : nat -> Q) n : (qsum (map f (seq 0 n)) == total n f)%Q.
Proof. induction n; [reflexivity|]. rewrite seq_S, map_app, qsum_app, IHn. cbn [map qsum total Nat.add]. ring. Qed.

Lemma total_nonneg n (f : nat -> Q) : (forall j, j < n -> (0 <= f j)%Q) -> (0 <= total n f)%Q.
Proof. induction n; intros H; cbn [total]; [lra|]. pose proof (H n ltac:(lia)). pose proof (IHn ltac:(intros; apply H; lia)). lra. Qed.

Lemma total_zero n (f : nat -> Q) : (forall j, j < n -> (0 <= f j)%Q) -> (total n f == 0)%Q -> forall j, j < n -> (f j == 0)%Q.
Proof.
  induction n; intros H E j Hj; [lia|]. cbn [total] in E. pose proof (H n ltac:(lia)).
  pose proof (total_nonneg n f ltac:(intros; apply H; lia)).
  destruct (Nat.eq_dec j n) as [->|N]; [lra|]. apply IHn; [intros; apply H; lia|lra|lia].
Qed.

Lemma total_ext n (f g : nat -> Q) : (forall j, j < n -> (f j == g j)%Q) -> (total n f == total n g)%Q.
Proof. induction n; intros H; cbn [total]; [reflexivity|]. rewrite IHn by (intros; apply H; lia). now rewrite (H n) by lia. Qed.

Lemma total_div n (f : nat -> Q) c : (total n (fun j => f j / c) == total n f / c)%Q.
Proof. induction n; cbn [total]; [unfold Qdiv; ring|]. rewrite IHn. unfold Qdiv. ring. Qed.

Lemma total_all_zero n (f : nat -> Q) : (forall j, j < n -> (f j == 0)%Q) -> (total n f == 0)%Q.
Proof. induction n; intros H; cbn [total]; [reflexivity|]. rewrite IHn by (intros; apply H; lia). rewrite (H n) by lia. ring. Qed.

Lemma nth_map_seq {A} (f : nat -> A) n j d : j < n -> nth j (map f (seq 0 n)) d = f j.
Proof.
  intros H. rewrite (nth_indep _ _ (f 0)) by (now rewrite map_length, seq_length). now rewrite map_nth, seq_nth.
Qed.

Lemma div_mul (a m : Q) : (0 < m)%Q -> (a / m * m == a)%Q.
Proof. intros H. field. lra. Qed.
Lemma mul_div (a m : Q) : (0 < m)%Q -> (m * a / m == a)%Q.
Proof. intros H. field. lra. Qed.

Section Mutual.
Variable mi : list bool -> nat -> list Q.
Variables (reps dim : nat) (X : list row).
Local Notation mask := (discrete_variable_mask dim 5 X).
Local Notation average := (fun j => (total reps (fun s => nth j (mi mask s) 0%Q) / inject_Z (Z.of_nat reps))%Q).

Lemma estimate_plain : exists w, estimate_mutual_information mi false reps dim X = Some w /\ length w = dim /\
  forall j, j < dim -> (nth j w 0 == average j)%Q.
Proof.
  eexists. split; [reflexivity|]. split; [now rewrite map_length, seq_length|]. intros j Hj.
  rewrite nth_map_seq by exact Hj. now rewrite qsum_total.
Qed.

Hypothesis nonneg : forall s j, s < reps -> (0 <= nth j (mi mask s) 0)%Q.
Hypothesis some : 0 < reps.

Lemma average_nonneg j : (0 <= average j)%Q.
Proof.
  apply Qle_shift_div_l; [unfold Qlt; cbn; lia|]. rewrite Qmult_0_l. apply total_nonneg. intros. now apply nonneg.
Qed.

Lemma average_zero j : (average j == 0)%Q <-> forall s, s < reps -> (nth j (mi mask s) 0 == 0)%Q.
Proof.
  assert (T : (0 < inject_Z (Z.of_nat reps))%Q) by (unfold Qlt; cbn; lia). split; intros H.
  - assert (E : (total reps (fun s => nth j (mi mask s) 0%Q) == 0)%Q).
    { setoid_replace (total reps (fun s => nth j (mi mask s) 0%Q)) with (average j * inject_Z (Z.of_nat reps))%Q by (field; lra).
      cbv beta in H |- *. rewrite H. ring. }
    intros s Hs. apply (total_zero reps (fun s => nth j (mi mask s) 0%Q)); [intros; now apply nonneg|exact E|exact Hs].
  - rewrite (total_all_zero reps (fun s => nth j (mi mask s) 0%Q)) by exact H. unfold Qdiv. ring.
Qed.

Lemma estimate_normalized :
  (estimate_mutual_information mi true reps dim X = None <-> forall s j, s < reps -> j < dim -> (nth j (mi mask s) 0 == 0)%Q) /\
  forall w, estimate_mutual_information mi true reps dim X = Some w ->
    length w = dim /\ (forall j, j < dim -> (0 <= nth j w 0)%Q) /\ (total dim (fun j => nth j w 0%Q) == inject_Z (Z.of_nat dim))%Q /\
    (forall j k, j < dim -> k < dim -> (nth j w 0 * average k == nth k w 0 * average j)%Q) /\
    (forall j k, j < dim -> k < dim -> ((nth j w 0 <= nth k w 0)%Q <-> (average j <= average k)%Q)).
Proof.
  unfold estimate_mutual_information. cbv zeta.
  set (mean := map _ (seq 0 dim)). set (m := (qsum mean / inject_Z (Z.of_nat dim))%Q).
  assert (Em : forall j, j < dim -> (nth j mean 0 == average j)%Q).
  { intros j Hj. unfold mean. rewrite nth_map_seq by exact Hj. now rewrite qsum_total. }
  assert (Lm : length mean = dim) by (unfold mean; now rewrite map_length, seq_length).
  assert (Es : (qsum mean == total dim average)%Q).
  { unfold mean. rewrite qsum_total. apply total_ext. intros j Hj. cbv beta. now rewrite qsum_total. }
  assert (P : (0 <= total dim average)%Q) by (apply total_nonneg; intros; apply average_nonneg).
  assert (D : dim = 0 \/ (0 < inject_Z (Z.of_nat dim))%Q) by (destruct (Nat.eq_dec dim 0); [now left|right; unfold Qlt; cbn; lia]).
  assert (M0 : (m == 0)%Q <-> (total dim average == 0)%Q).
  { unfold m. rewrite Es. destruct D as [D|D].
    - rewrite D. cbn [total]. unfold Qdiv. split; intros _; ring.
    - split; intros H.
      + setoid_replace (total dim average) with (total dim average / inject_Z (Z.of_nat dim) * inject_Z (Z.of_nat dim))%Q by (field; lra).
        rewrite H. ring.
      + rewrite H. unfold Qdiv. ring. }
  split.
  - destruct (Qeq_bool m 0) eqn:E.
    + apply Qeq_bool_iff, M0 in E. split; [|reflexivity]. intros _ s j Hs Hj.
      refine (proj1 (average_zero j) _ s Hs). apply (total_zero dim average); [intros; apply average_nonneg|exact E|exact Hj].
    + split; [discriminate|]. intros H. exfalso. apply Qeq_bool_neq in E. apply E, M0. apply total_all_zero. intros j Hj.
      apply average_zero. intros s Hs. now apply H.
  - intros w. destruct (Qeq_bool m 0) eqn:E; [discriminate|]. intros K. injection K as <-. apply Qeq_bool_neq in E.
    destruct D as [D|D]; [exfalso; apply E, M0; rewrite D; reflexivity|].
    assert (Mp : (0 < m)%Q).
    { assert (0 <= m)%Q by (unfold m; rewrite Es; apply Qle_shift_div_l; [exact D|now rewrite Qmult_0_l]). lra. }
    assert (W : forall j, j < dim -> (nth j (map (fun v => (v / m)%Q) mean) 0 == average j / m)%Q).
    { intros j Hj. rewrite (nth_indep _ _ (0 / m)%Q) by (rewrite map_length; lia).
      rewrite (map_nth (fun v => (v / m)%Q)). now rewrite Em. }
    split; [now rewrite map_length|].
    split; [intros j Hj; rewrite W by exact Hj; apply Qle_shift_div_l; [exact Mp|rewrite Qmult_0_l; apply average_nonneg]|].
    split.
    { rewrite (total_ext dim _ (fun j => average j / m)%Q) by exact W. rewrite total_div.
      assert (Et : (total dim average == m * inject_Z (Z.of_nat dim))%Q).
      { unfold m. rewrite Es. symmetry. now apply div_mul. }
      rewrite Et. now apply mul_div. }
    split; [intros j k Hj Hk; rewrite !W by assumption; cbv beta; unfold Qdiv; ring|].
    intros j k Hj Hk. rewrite !W by assumption. cbv beta. split; intros H.
    + apply (Qmult_le_compat_r _ _ m) in H; [|lra].
      rewrite !div_mul in H by exact Mp. exact H.
    + apply Qle_shift_div_l; [exact Mp|].
      rewrite div_mul by exact Mp. exact H.
Qed.
End Mutual.

(** ** Different rows *)

Lemma row_eqb_spec a : forall b, row_eqb a b = true <-> row_eq a b.
Proof.
  unfold row_eqb, row_eq. induction a as [|x a IH]; intros [|z b]; cbn.
  - split; [constructor|reflexivity].
  - split; [discriminate|intros H; inversion H].
  - split; [discriminate|intros H; inversion H].
  - specialize (IH b). cbn in IH. rewrite andb_true_iff in IH. rewrite !andb_true_iff, Qeq_bool_iff. split.
    + intros [H1 [H2 H3]]. constructor; [exact H2|apply IH; tauto].
    + intros H. inversion H; subst. apply IH in H5. tauto.
Qed.

Lemma row_eq_sym a b : row_eq a b -> row_eq b a.
Proof. induction 1; constructor; [now symmetry|assumption]. Qed.
Lemma row_eq_refl a : row_eq a a.
Proof. induction a; constructor; [reflexivity|assumption]. Qed.
Lemma row_eq_trans a b c : row_eq a b -> row_eq b c -> row_eq a c.
Proof.
  intros H. revert c. induction H; intros c K; inversion K; subst; constructor; [now rewrite H|now apply IHForall2].
Qed.

Lemma seen_spec a seen : existsb (row_eqb a) seen = true <-> exists s, In s seen /\ row_eq a s.
Proof. rewrite existsb_exists. split; intros [s [H K]]; exists s; split; try exact H; now apply row_eqb_spec. Qed.

Lemma firsts_in P : forall seen p, In p (firsts seen P) ->
  (forall s, In s seen -> ~ row_eq (fst p) s) /\
  exists i, nth_error P i = Some p /\ forall j q, j < i -> nth_error P j = Some q -> ~ row_eq (fst q) (fst p).
Proof.
  induction P as [|q P IH]; intros seen p H; [contradiction|]. cbn in H.
  destruct (existsb (row_eqb (fst q)) seen) eqn:E.
  - destruct (IH seen p H) as [Hs [i [Hi Hb]]]. split; [exact Hs|]. exists (S i). split; [exact Hi|].
    intros [|j] r Hj Hr; [|apply (Hb j r); [lia|exact Hr]]. cbn in Hr. injection Hr as <-.
    apply seen_spec in E. destruct E as [s [Is Es]]. intros K. apply (Hs s Is).
    apply row_eq_trans with (fst q); [now apply row_eq_sym|exact Es].
  - assert (N : forall s, In s seen -> ~ row_eq (fst q) s).
    { intros s Is Es. assert (existsb (row_eqb (fst q)) seen = true) by (apply seen_spec; now exists s). congruence. }
    destruct H as [<-|H].
    + split; [exact N|]. exists 0. split; [reflexivity|]. intros; lia.
    + destruct (IH _ p H) as [Hs [i [Hi Hb]]]. split; [intros s Is; apply Hs; now right|]. exists (S i). split; [exact Hi|].
      intros [|j] r Hj Hr; [|apply (Hb j r); [lia|exact Hr]]. cbn in Hr. injection Hr as <-.
      intros K. apply (Hs (fst q)); [now left|now apply row_eq_sym].
Qed.

Lemma firsts_cover P : forall seen q, In q P -> (exists s, In s seen /\ row_eq (fst q) s) \/ exists p, In p (firsts seen P) /\ row_eq (fst p) (fst q).
Proof.
  induction P as [|p P IH]; intros seen q H; [contradiction|]. cbn.
  destruct (existsb (row_eqb (fst p)) seen) eqn:E.
  - destruct H as [->|H]; [left; now apply seen_spec|now apply IH].
  - destruct H as [->|H]; [right; exists q; split; [now left|apply row_eq_refl]|].
    destruct (IH (fst p :: seen) q H) as [[s [[<-|Is] Es]]|[r [Ir Er]]].
    + right. exists p. split; [now left|now apply row_eq_sym].
    + left. now exists s.
    + right. exists r. split; [now right|exact Er].
Qed.

Lemma firsts_apart P : forall seen, ForallOrdPairs (fun p q => ~ row_eq (fst p) (fst q)) (firsts seen P).
Proof.
  induction P as [|p P IH]; intros seen; [constructor|]. cbn. destruct (existsb _ seen); [apply IH|].
  constructor; [|apply IH]. apply Forall_forall. intros q Hq K. destruct (firsts_in P _ q Hq) as [Hs _].
  apply (Hs (fst p)); [now left|now apply row_eq_sym].
Qed.

Lemma insert_row_perm p l : Permutation (insert_row p l) (p :: l).
Proof.
  induction l as [|q l IH]; cbn; [apply Permutation_refl|]. destruct (row_leb (fst p) (fst q)); [apply Permutation_refl|].
  transitivity (q :: p :: l); [now constructor|apply perm_swap].
Qed.

Lemma sort_rows_perm l : Permutation (sort_rows l) l.
Proof.
  induction l as [|p l IH]; cbn; [constructor|]. transitivity (p :: sort_rows l); [apply insert_row_perm|now constructor].
Qed.

Lemma apart_perm (l l' : list (row * Z)) : Permutation l l' ->
  ForallOrdPairs (fun p q => ~ row_eq (fst p) (fst q)) l -> ForallOrdPairs (fun p q => ~ row_eq (fst p) (fst q)) l'.
Proof.
  induction 1; intros K.
  - constructor.
  - inversion K; subst. constructor; [|now apply IHPermutation]. rewrite Forall_forall in *. intros q Hq. apply H2.
    apply Permutation_in with l'; [now apply Permutation_sym|exact Hq].
  - inversion K; subst. inversion H1; subst. inversion H2; subst.
    constructor; [constructor; [|assumption]; intros E; apply H3; now apply row_eq_sym|]. constructor; assumption.
  - auto.
Qed.

Lemma apart_nth (l : list (row * Z)) d : ForallOrdPairs (fun p q => ~ row_eq (fst p) (fst q)) l ->
  forall i j, i < j -> j < length l -> ~ row_eq (fst (nth i l d)) (fst (nth j l d)).
Proof.
  induction 1; intros i j Hi Hj; [cbn in Hj; lia|]. destruct j; [lia|]. cbn in Hj. destruct i; cbn.
  - rewrite Forall_forall in H. apply H, nth_In. lia.
  - apply IHForallOrdPairs; lia.
Qed.

Lemma combine_nth_error (X : list row) (y : list Z) : length X = length y -> forall i x l,
  nth_error (combine X y) i = Some (x, l) -> i < length X /\ nth i X [] = x /\ nth i y 0%Z = l.
Proof.
  intros H i x l E. assert (K : i < length (combine X y)) by (apply nth_error_Some; congruence).
  rewrite combine_length in K. apply (nth_error_nth _ _ ([], 0%Z)) in E. rewrite combine_nth in E by exact H.
  injection E as <- <-. split; [lia|split; reflexivity].
Qed.

Lemma unique_rows_ok X y : length X = length y -> deduplicated X y (fst (unique_rows X y)) (snd (unique_rows X y)).
Proof.
  intros H. unfold unique_rows. cbv zeta. cbn [fst snd]. set (l := sort_rows (firsts [] (combine X y))).
  assert (Pl : Permutation l (firsts [] (combine X y))) by apply sort_rows_perm.
  assert (Nf : forall k, k < length l -> nth k (map fst l) [] = fst (nth k l ([], 0%Z))).
  { intros k Hk. rewrite (nth_indep _ _ (fst ([] : row, 0%Z))) by (rewrite map_length; exact Hk). apply (map_nth fst). }
  assert (Ns : forall k, k < length l -> nth k (map snd l) 0%Z = snd (nth k l ([], 0%Z))).
  { intros k Hk. rewrite (nth_indep _ _ (snd ([] : row, 0%Z))) by (rewrite map_length; exact Hk). apply (map_nth snd). }
  split; [now rewrite !map_length|]. rewrite map_length. split; [|split].
  - intros k Hk. rewrite Nf, Ns by exact Hk. set (p := nth k l ([], 0%Z)).
    assert (Hp : In p (firsts [] (combine X y))) by (apply Permutation_in with l; [exact Pl|now apply nth_In]).
    destruct (firsts_in _ _ _ Hp) as [_ [i [Hi Hb]]]. destruct p as [x lab]. cbn [fst snd] in *.
    destruct (combine_nth_error X y H i x lab Hi) as [Li [Ex Ey]]. exists i. split; [exact Li|]. split; [now symmetry|]. split; [now symmetry|].
    intros j Hj. assert (Lj : j < length (combine X y)) by (rewrite combine_length; lia).
    rewrite Ex. destruct (nth_error (combine X y) j) as [[x' l']|] eqn:E; [|apply nth_error_None in E; lia].
    destruct (combine_nth_error X y H j x' l' E) as [_ [Ex' _]]. rewrite Ex'. apply (Hb j (x', l') Hj E).
  - intros i Hi. assert (Li : i < length (combine X y)) by (rewrite combine_length; lia).
    assert (Hq : In (nth i X [], nth i y 0%Z) (combine X y)).
    { rewrite <- combine_nth by exact H. now apply nth_In. }
    destruct (firsts_cover _ [] _ Hq) as [[s [[] _]]|[p [Hp Ep]]].
    apply (Permutation_in _ (Permutation_sym Pl)) in Hp. destruct (In_nth _ _ ([], 0%Z) Hp) as [k [Hk Ek]].
    exists k. split; [exact Hk|]. rewrite Nf by exact Hk. rewrite Ek. exact Ep.
  - intros k m Hk Hm E. rewrite Nf in E by exact Hk. rewrite Nf in E by exact Hm.
    assert (A := apart_nth l ([], 0%Z) (apart_perm _ _ (Permutation_sym Pl) (firsts_apart (combine X y) []))).
    destruct (lt_eq_lt_dec k m) as [[L|L]|L]; [exfalso; now apply (A k m L)|exact L|exfalso; apply (A m k L Hk); now apply row_eq_sym].
Qed.
