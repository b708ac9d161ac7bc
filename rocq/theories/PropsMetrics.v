(** Properties C18-C20: evaluation scores. *)

From Coq Require Import List ZArith QArith Bool Arith Lia Permutation Reals Lra.
From Flocq Require Import Core IEEE754.BinarySingleNaN.
From Verif Require Import Np Float64 MetricsModel FloatFacts MetricsFacts.
Import ListNotations.
Open Scope Z_scope.

(** C18. *)
Theorem C18_partition : forall test pred mn a, calculate_atoms test pred mn = Ok a ->
  0 <= tp a /\ 0 <= tn a /\ 0 <= fp a /\ 0 <= fn a /\
  tp a + fn a = Z.of_nat (count_occ Z.eq_dec test mn) /\
  tp a + tn a + fp a + fn a = Z.of_nat (length test) /\
  tn a + fp a = Z.of_nat (length test) - Z.of_nat (count_occ Z.eq_dec test mn).
Proof. exact atoms_partition. Qed.

(** [rows_of test pred t p]: number of rows labelled t and predicted p. *)
Theorem C18_confusion_matrix : forall test pred mn mj a, mn <> mj ->
  Forall (fun z => z = mn \/ z = mj) test -> Forall (fun z => z = mn \/ z = mj) pred ->
  calculate_atoms test pred mn = Ok a ->
  tp a = rows_of test pred mn mn /\ tn a = rows_of test pred mj mj /\
  fp a = rows_of test pred mj mn /\ fn a = rows_of test pred mn mj.
Proof. exact atoms_two_labels. Qed.

Theorem C18_total : forall test pred mn, length test = length pred ->
  exists a, calculate_atoms test pred mn = Ok a.
Proof.
  exact (fun t p m H => match calculate_atoms_spec t p m H with ex_intro _ a (conj E _) => ex_intro _ a E end).
Qed.

(** Thresholding at one half. *)
Theorem C18_prediction_labels : forall l,
  length (prediction_labels l) = length l /\
  forall i p, nth_error l i = Some p ->
  ((1#2) < p)%Q /\ nth_error (prediction_labels l) i = Some 1 \/
  (p < (1#2))%Q /\ nth_error (prediction_labels l) i = Some 0 \/
  (p == (1#2))%Q /\ (nth_error (prediction_labels l) i = Some 0 \/ nth_error (prediction_labels l) i = Some 1).
Proof. exact (fun l => conj (prediction_labels_length l) (prediction_labels_nth l)). Qed.

(** Two or more ties at one half are split: half of them get label 0. *)
Theorem C18_ties_split : forall l,
  let n := length (filter (fun p => Qeq_bool p (1#2)) l) in (2 <= n)%nat ->
  length (filter (fun q => Qeq_bool (fst q) (1#2) && Z.eqb (snd q) 0) (combine l (prediction_labels l)))
  = (n / 2)%nat.
Proof. exact prediction_ties_half. Qed.

Example C18_example : exists a,
  prediction_labels [3#4; 1#2; 1#4; 1#2; 1#2]%Q = [1; 0; 0; 1; 1] /\
  calculate_atoms [1; 1; 0; 0; 1] [1; 0; 0; 1; 1] 1 = Ok a /\
  (tp a, tn a, fp a, fn a) = (2, 1, 1, 1).
Proof. eexists. split; [reflexivity|]. split; reflexivity. Qed.

(** C19: counts non-negative, both classes present, at most 2^52 rows. *)
Theorem C19_rates : forall a,
  0 <= tp a -> 0 <= tn a -> 0 <= fp a -> 0 <= fn a -> 0 < tp a + fn a -> 0 < fp a + tn a ->
  tp a + tn a + fp a + fn a <= 2 ^ 52 ->
  exists s, calculate_label_scores a = Ok s /\
  (in01 (s_acc s) /\ B2R (s_acc s) = rnd64 (IZR (tp a + tn a) / IZR (tp a + tn a + fp a + fn a))) /\
  (in01 (s_sens s) /\ B2R (s_sens s) = rnd64 (IZR (tp a) / IZR (tp a + fn a))) /\
  (in01 (s_spec s) /\ B2R (s_spec s) = rnd64 (IZR (tn a) / IZR (tn a + fp a))) /\
  (in01 (s_ppv s) /\ B2R (s_ppv s) =
     if Z.eq_dec (tp a + fp a) 0 then 0%R else rnd64 (IZR (tp a) / IZR (tp a + fp a))) /\
  (in01 (s_npv s) /\ B2R (s_npv s) =
     if Z.eq_dec (tn a + fn a) 0 then 0%R else rnd64 (IZR (tn a) / IZR (tn a + fn a))) /\
  (in01 (s_fpr s) /\ B2R (s_fpr s) = rnd64 (1 - B2R (s_spec s))) /\
  (in01 (s_fdr s) /\ B2R (s_fdr s) = rnd64 (1 - B2R (s_ppv s))) /\
  (in01 (s_fnr s) /\ B2R (s_fnr s) = rnd64 (1 - B2R (s_sens s))) /\
  (in01 (s_bacc s) /\ B2R (s_bacc s) = rnd64 (rnd64 (B2R (s_sens s) + B2R (s_spec s)) / 2)) /\
  (in01 (s_gacc s) /\ B2R (s_gacc s) = rnd64 (sqrt (rnd64 (B2R (s_sens s) * B2R (s_spec s))))) /\
  (in01 (s_f1 s) /\ B2R (s_f1 s) = rnd64 (IZR (2 * tp a) / IZR (2 * tp a + fp a + fn a))) /\
  (in11 (s_informedness s) /\
     B2R (s_informedness s) = rnd64 (rnd64 (B2R (s_sens s) + B2R (s_spec s)) - 1)) /\
  (in11 (s_markedness s) /\
     B2R (s_markedness s) = rnd64 (rnd64 (B2R (s_ppv s) + B2R (s_npv s)) - 1)).
Proof.
  exact (fun a h1 h2 h3 h4 h5 h6 h7 => label_scores_spec a
    (conj h1 (conj h2 (conj h3 (conj h4 (conj h5 (conj h6 h7))))))).
Qed.

Theorem C19_mcc : forall a s,
  atoms_ok a -> calculate_label_scores a = Ok s ->
  (tp a + fp a) * (tp a + fn a) * (tn a + fp a) * (tn a + fn a) < 2 ^ 63 ->
  match s_mcc s with
  | None => tp a + fp a = 0 \/ tn a + fn a = 0
  | Some m => 0 < tp a + fp a /\ 0 < tn a + fn a /\ in11 m /\
      B2R m = rnd64 (IZR (tp a * tn a - fp a * fn a) /
                     rnd64 (sqrt (rnd64 (IZR ((tp a + fp a) * (tp a + fn a) * (tn a + fp a) * (tn a + fn a))))))
  end.
Proof. exact mcc_spec. Qed.

Theorem C19_perfect : forall a s, atoms_ok a -> fp a = 0 -> fn a = 0 ->
  calculate_label_scores a = Ok s ->
  (B2R (s_acc s) = 1 /\ B2R (s_sens s) = 1 /\ B2R (s_spec s) = 1 /\ B2R (s_ppv s) = 1 /\
  B2R (s_npv s) = 1 /\ B2R (s_fpr s) = 0 /\ B2R (s_fdr s) = 0 /\ B2R (s_fnr s) = 0 /\
  B2R (s_bacc s) = 1 /\ B2R (s_gacc s) = 1 /\ B2R (s_f1 s) = 1 /\
  B2R (s_informedness s) = 1 /\ B2R (s_markedness s) = 1)%R.
Proof. exact perfect_scores. Qed.

Theorem C19_perfect_mcc : forall a s, atoms_ok a -> fp a = 0 -> fn a = 0 ->
  (tp a + fp a) * (tp a + fn a) * (tn a + fp a) * (tn a + fn a) < 2 ^ 63 ->
  calculate_label_scores a = Ok s -> exists m, s_mcc s = Some m /\ B2R m = 1%R.
Proof. exact perfect_mcc. Qed.

(** The uncertainty coefficient, over the reals: given whenever no atom is
    zero, and then between 0 and 1. *)
Theorem C19_uncertainty : forall a, 0 < tp a -> 0 < tn a -> 0 < fp a -> 0 < fn a ->
  exists u, snd (log_scores a) = Some u /\ (0 <= u <= 1)%R.
Proof. exact uc_spec. Qed.

(** An empty class raises. *)
Theorem C19_empty_class_raises : forall a,
  0 <= tp a -> 0 <= tn a -> 0 <= fp a -> 0 <= fn a ->
  tp a + fn a = 0 \/ fp a + tn a = 0 -> calculate_label_scores a = Err ZeroDivisionError.
Proof. exact empty_class_raises. Qed.

(** Without the bound on the product the Matthews correlation is wrong: the
    int64 product wraps (finding).  Perfect predictions on 641 + 6700417 rows
    give a value above 40000; a balanced half-wrong classifier on 131072 rows
    gives None although all marginals are positive. *)
Theorem C19_mcc_overflow_refuted :
  (exists s m, atoms_ok (mk_atoms 641 6700417 0 0) /\
     calculate_label_scores (mk_atoms 641 6700417 0 0) = Ok s /\
     s_mcc s = Some m /\ (40000 <= B2R m)%R) /\
  (exists s, atoms_ok (mk_atoms 32768 32768 32768 32768) /\
     calculate_label_scores (mk_atoms 32768 32768 32768 32768) = Ok s /\ s_mcc s = None).
Proof. exact mcc_overflow. Qed.

Example C19_example : exists s, atoms_ok (mk_atoms 3 4 1 2) /\
  mcc_product (mk_atoms 3 4 1 2) < 2 ^ 63 /\
  calculate_label_scores (mk_atoms 3 4 1 2) = Ok s /\ (s_mcc s <> None).
Proof.
  eexists. split; [unfold atoms_ok; cbn; lia|]. split; [cbn; lia|].
  split; [reflexivity|]. cbn. discriminate.
Qed.

(** C20. *)
Theorem C20_atoms_permutation : forall test pred test' pred' mn a,
  length test' = length pred' ->
  Permutation (combine test pred) (combine test' pred') ->
  calculate_atoms test pred mn = Ok a -> calculate_atoms test' pred' mn = Ok a.
Proof. exact atoms_permutation. Qed.

Theorem C20_labels_permutation : forall l l',
  Permutation l l' -> (length (filter (fun p => Qeq_bool p (1#2)) l) <= 1)%nat ->
  Permutation (combine l (prediction_labels l)) (combine l' (prediction_labels l')).
Proof. exact prediction_perm_no_ties. Qed.

Theorem C20_brier_permutation : forall test probs test' probs',
  length test = length probs -> length test' = length probs' ->
  Permutation (combine test probs) (combine test' probs') ->
  (brier test probs == brier test' probs')%Q.
Proof. exact brier_perm. Qed.

Theorem C20_brier_range : forall test probs, length test = length probs -> test <> [] ->
  Forall (fun t => t = 0 \/ t = 1) test -> Forall (fun p => 0 <= p /\ p <= 1)%Q probs ->
  (0 <= brier test probs /\ brier test probs <= 1)%Q.
Proof. exact brier_range. Qed.

(** p_top20 looks at the first fifth of the rows (at least one) in the order
    given: [(k, m)] stands for the score k / m. *)
Theorem C20_p_top20_value : forall test mn, Z.of_nat (length test) <= 2 ^ 49 ->
  p_top20 test mn = Ok (count_occ Z.eq_dec (firstn (Nat.max (length test / 5) 1) test) mn,
                        Nat.max (length test / 5) 1).
Proof. exact p_top20_spec. Qed.

(** Finding: it takes no account of the probabilities, and swapping two rows
    changes it. *)
Theorem C20_p_top20_refuted : exists test test' : list Z,
  Permutation test test' /\ p_top20 test 1 <> p_top20 test' 1.
Proof.
  exists [1; 0; 0; 0; 0], [0; 1; 0; 0; 0]. split; [apply perm_swap|].
  rewrite !p_top20_spec by (cbn; lia). cbn. discriminate.
Qed.

(** Finding: with ties at one half the predicted labels, hence all label
    scores, depend on the row order. *)
Theorem C20_ties_refuted : exists (test : list Z) probs test' probs' a a',
  Permutation (combine test probs) (combine test' probs') /\
  calculate_atoms test (prediction_labels probs) 1 = Ok a /\
  calculate_atoms test' (prediction_labels probs') 1 = Ok a' /\ tp a <> tp a'.
Proof.
  exists [1; 0], [1#2; 1#2]%Q, [0; 1], [1#2; 1#2]%Q. do 2 eexists.
  split; [apply perm_swap|]. split; [reflexivity|]. split; [reflexivity|]. cbn. discriminate.
Qed.

Example C20_example :
  Permutation (combine [1; 0; 1] [1#3; 1#4; 1]%Q) (combine [0; 1; 1] [1#4; 1#3; 1]%Q) /\
  p_top20 [1; 0; 0; 0; 0; 0] 1 = Ok (1%nat, 1%nat).
Proof. split; [apply perm_swap|]. rewrite p_top20_spec by (cbn; lia). reflexivity. Qed.

Print Assumptions C18_partition.
Print Assumptions C18_confusion_matrix.
Print Assumptions C18_total.
Print Assumptions C18_prediction_labels.
Print Assumptions C18_ties_split.
Print Assumptions C19_rates.
Print Assumptions C19_mcc.
Print Assumptions C19_perfect.
Print Assumptions C19_perfect_mcc.
Print Assumptions C19_uncertainty.
Print Assumptions C19_empty_class_raises.
Print Assumptions C19_mcc_overflow_refuted.
Print Assumptions C20_atoms_permutation.
Print Assumptions C20_labels_permutation.
Print Assumptions C20_brier_permutation.
Print Assumptions C20_brier_range.
Print Assumptions C20_p_top20_value.
Print Assumptions C20_p_top20_refuted.
Print Assumptions C20_ties_refuted.
