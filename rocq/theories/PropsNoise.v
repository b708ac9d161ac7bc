(** Properties C23-C27: noise removal and undersampling.

    [knn_ok dist nn] is the contract of the neighbour search: for any query the
    k rows returned are nearest ones in increasing order, ties broken anyhow. *)

From Coq Require Import List ZArith QArith Bool Arith Lia Permutation.
From Verif Require Import Np NpFacts Spec SpecNoise SamplerModel KnnModel KnnFacts NoiseModel NoiseFacts
  NoiseFacts2 UnderModel UnderFacts.
Import ListNotations.
Open Scope nat_scope.

(** C23.  [drop] lies between "member of a pair that are strictly nearest to
    each other" and "member of a pair that are nearest to each other, ties
    allowed"; with 'remove_majority' only majority members are dropped. *)
Theorem C23_tomek : forall dist nn s X y mn mj,
  knn_ok dist nn -> length X = length y -> is_minority y mn mj -> no_duplicates dist X ->
  exists X' y' drop, tomek_remove_noise nn s X y = Ok (X', y') /\
    drops_exactly X y drop X' y' /\
    (forall i, i < length X -> drop i ->
       (s = RemoveBoth \/ nth i y 0%Z = mj) /\
       exists j, nearest_other dist X i j /\ nearest_other dist X j i /\ nth j y 0%Z <> nth i y 0%Z) /\
    (forall i j, i < length X -> strictly_nearest dist X i j -> strictly_nearest dist X j i ->
       nth j y 0%Z <> nth i y 0%Z -> (s = RemoveBoth \/ nth i y 0%Z = mj) -> drop i).
Proof. exact tomek_spec. Qed.

(** With no assumption on duplicates: still a sub-dataset, and
    'remove_majority' keeps all minority rows. *)
Theorem C23_minority_kept : forall dist nn X y mn mj,
  knn_ok dist nn -> length X = length y -> is_minority y mn mj ->
  exists X' y', tomek_remove_noise nn RemoveMajority X y = Ok (X', y') /\ sub_data X y X' y' /\
    rows_with mn X' y' = rows_with mn X y.
Proof. exact tomek_minority_kept. Qed.

Definition nn0 := fun Xf Xq k => Ok (n_neighbors_func sqdist Xf Xq k).
Definition col (l : list Z) : list (list Q) := map (fun z => [inject_Z z]) l.

(** Finding: two coinciding rows of different classes, as near a mutual
    nearest pair as can be, are not recognised as a link. *)
Theorem C23_duplicates_refuted : exists nn X y,
  knn_ok sqdist nn /\ is_minority y 1 0 /\ nth 0 X [] = nth 1 X [] /\ nth 0 y 0%Z <> nth 1 y 0%Z /\
  length X = length y /\ tomek_remove_noise nn RemoveBoth X y = Ok (X, y).
Proof.
  exists nn0, (col [0; 0; 5; 7]%Z), [0; 1; 0; 0]%Z. split; [apply n_neighbors_func_knn_ok|].
  split; [split; [repeat split; cbn; try tauto; try discriminate; intros; intuition congruence|left; cbn; lia]|].
  split; [reflexivity|]. split; [discriminate|]. split; [reflexivity|]. vm_compute. reflexivity.
Qed.

Example C23_example :
  let X := col [0; 1; 5; 7; 8]%Z in let y := [0; 1; 0; 0; 1]%Z in
  knn_ok sqdist nn0 /\ is_minority y 1 0 /\ no_duplicates sqdist X /\
  tomek_remove_noise nn0 RemoveMajority X y = Ok (col [1; 5; 8]%Z, [1; 0; 1]%Z) /\
  tomek_remove_noise nn0 RemoveBoth X y = Ok (col [5]%Z, [0]%Z).
Proof.
  split; [apply n_neighbors_func_knn_ok|].
  split; [split; [repeat split; cbn; try tauto; try discriminate; intros; intuition congruence|left; cbn; lia]|].
  split; [apply no_duplicates_check; reflexivity|]. split; vm_compute; reflexivity.
Qed.

(** C24.  Terminates (no [OutOfFuel]); the result is all minority rows and the
    majority rows [K]; each dropped row is nearest to a row of [K]. *)
Theorem C24_condensed : forall dist nn X y mn mj,
  knn_ok dist nn -> length X = length y -> is_minority y mn mj ->
  exists K D, cnn_remove_noise nn X y =
      Ok (rows_with mn X y ++ K, repeat mn (count_label y mn) ++ repeat mj (length K)) /\
    Permutation (K ++ D) (rows_with mj X y) /\
    hd_error K = hd_error (rows_with mj X y) /\
    forall d, In d D -> exists m, In m K /\
      forall z, In z (rows_with mn X y ++ K) -> (dist d m <= dist d z)%Q.
Proof. exact cnn_spec. Qed.

Example C24_example :
  let X := col [0; 10; 3; 11; 12; 2]%Z in let y := [1; 1; 0; 0; 0; 0]%Z in
  is_minority y 1 0 /\
  cnn_remove_noise nn0 X y = Ok (col [0; 10; 3; 11; 12]%Z, [1; 1; 0; 0; 0]%Z).
Proof.
  split; [split; [repeat split; cbn; try tauto; try discriminate; intros; intuition congruence|left; cbn; lia]|].
  vm_compute. reflexivity.
Qed.

(** C25.  [N i] are the three nearest other rows. *)
Theorem C25_enn : forall dist nn rm X y mn mj,
  knn_ok dist nn -> length X = length y -> is_minority y mn mj -> 4 <= length X -> no_duplicates dist X ->
  exists N X' y', (forall i, i < length X -> nearest_others dist X i 3 (N i)) /\
    enn_remove_noise nn rm X y = Ok (X', y') /\
    drops_exactly X y (fun i =>
      match rm with EnnBoth => True | EnnMin => nth i y 0%Z = mn | EnnMaj => nth i y 0%Z = mj end /\
      votes y (N i) (nth i y 0%Z) <= 1) X' y'.
Proof. exact enn_geo. Qed.

Theorem C25_enn_other_class_kept : forall dist nn rm X y mn mj X' y',
  knn_ok dist nn -> length X = length y -> is_minority y mn mj ->
  enn_remove_noise nn rm X y = Ok (X', y') -> sub_data X y X' y' /\
  (rm = EnnMaj -> rows_with mn X' y' = rows_with mn X y) /\
  (rm = EnnMin -> rows_with mj X' y' = rows_with mj X y).
Proof. exact enn_keeps. Qed.

Theorem C25_enn_small : forall nn rm X y mn mj, is_minority y mn mj -> length X < 4 ->
  enn_remove_noise nn rm X y = Ok (X, y).
Proof. exact enn_small. Qed.

Theorem C25_ncr : forall dist nn X y mn mj,
  knn_ok dist nn -> length X = length y -> is_minority y mn mj -> 4 <= length X -> no_duplicates dist X ->
  exists N X' y', (forall i, i < length X -> nearest_others dist X i 3 (N i)) /\
    ncr_remove_noise nn X y = Ok (X', y') /\
    drops_exactly X y (fun i => nth i y 0%Z = mj /\
      (2 <= votes y (N i) mn \/
       exists j, j < length X /\ nth j y 0%Z = mn /\ In i (N j) /\ 2 <= votes y (N j) mj)) X' y'.
Proof. exact ncr_geo. Qed.

Theorem C25_ncr_minority_kept : forall dist nn X y mn mj,
  knn_ok dist nn -> length X = length y -> is_minority y mn mj -> 4 <= length X ->
  exists X' y', ncr_remove_noise nn X y = Ok (X', y') /\ sub_data X y X' y' /\
  rows_with mn X' y' = rows_with mn X y.
Proof. exact ncr_keeps. Qed.

(** A neighbour search that, like scikit-learn's, refuses more neighbours than
    rows. *)
Definition nn_strict := fun Xf Xq k =>
  if (k <=? length Xf)%nat then Ok (n_neighbors_func sqdist Xf Xq k) else Err ValueError.

(** Finding: on fewer than four rows the cleaning rule raises where the edited
    nearest neighbours return the data. *)
Theorem C25_ncr_small_refuted : forall X y mn mj, is_minority y mn mj -> length X < 4 ->
  ncr_remove_noise nn_strict X y = Err ValueError /\
  enn_remove_noise nn_strict EnnBoth X y = Ok (X, y).
Proof.
  exact (fun X y mn mj Hm H => conj (ncr_small X y mn mj Hm H) (enn_small nn_strict EnnBoth X y mn mj Hm H)).
Qed.

Example C25_example :
  let X := col [0; 1; 2; 4; 20; 21; 23; 26]%Z in let y := [1; 0; 1; 1; 0; 0; 0; 0]%Z in
  is_minority y 1 0 /\ no_duplicates sqdist X /\
  enn_remove_noise nn0 EnnMaj X y = Ok (col [0; 2; 4; 20; 21; 23; 26]%Z, [1; 1; 1; 0; 0; 0; 0]%Z) /\
  ncr_remove_noise nn0 X y = Ok (col [0; 2; 4; 20; 21; 23; 26]%Z, [1; 1; 1; 0; 0; 0; 0]%Z).
Proof.
  split; [split; [repeat split; cbn; try tauto; try discriminate; intros; intuition congruence|left; cbn; lia]|].
  split; [apply no_duplicates_check; reflexivity|]. split; vm_compute; reflexivity.
Qed.

(** C26.  Both composites return a sub-dataset; the minority rows are kept when
    the first stage leaves the classes in their roles. *)
Theorem C26_cnn_tomek : forall dist nn X y mn mj,
  knn_ok dist nn -> length X = length y -> is_minority y mn mj ->
  exists X1 y1 X' y', cnn_remove_noise nn X y = Ok (X1, y1) /\
    cnn_tomek_remove_noise nn X y = Ok (X', y') /\ sub_data X y X' y' /\
    (is_minority y1 mn mj -> rows_with mn X' y' = rows_with mn X y).
Proof. exact cnn_tomek_spec. Qed.

Theorem C26_one_sided : forall dist nn X y mn mj,
  knn_ok dist nn -> length X = length y -> is_minority y mn mj ->
  exists X1 y1, tomek_remove_noise nn RemoveMajority X y = Ok (X1, y1) /\
    (is_minority y1 mn mj -> exists X' y', one_sided_remove_noise nn X y = Ok (X', y') /\ sub_data X y X' y' /\
       rows_with mn X' y' = rows_with mn X y) /\
    (is_minority y1 mj mn -> exists X' y', one_sided_remove_noise nn X y = Ok (X', y') /\ sub_data X y X' y') /\
    (~ In mj y1 -> one_sided_remove_noise nn X y = Err IndexError).
Proof. exact one_sided_spec. Qed.

(** Finding: the stages recompute which class is the minority, so rows of the
    input's minority class are removed. *)
Theorem C26_roles_swap_refuted : exists nn, knn_ok sqdist nn /\
  (exists X y X' y', length X = length y /\ is_minority y 1 0 /\ no_duplicates sqdist X /\
     cnn_tomek_remove_noise nn X y = Ok (X', y') /\
     length (rows_with 1 X' y') < length (rows_with 1 X y)) /\
  (exists X y X' y', length X = length y /\ is_minority y 1 0 /\ no_duplicates sqdist X /\
     one_sided_remove_noise nn X y = Ok (X', y') /\
     length (rows_with 1 X' y') < length (rows_with 1 X y)).
Proof.
  exists nn0. split; [apply n_neighbors_func_knn_ok|]. split.
  - exists (col [0; 10; 1; 2; 4]%Z), [1; 1; 0; 0; 0]%Z. do 2 eexists. split; [reflexivity|].
    split; [split; [repeat split; cbn; try tauto; try discriminate; intros; intuition congruence|left; cbn; lia]|].
    split; [apply no_duplicates_check; reflexivity|]. split; [vm_compute; reflexivity|]. vm_compute. lia.
  - exists (col [0; 9; 1; 10; 20]%Z), [1; 1; 0; 0; 0]%Z. do 2 eexists. split; [reflexivity|].
    split; [split; [repeat split; cbn; try tauto; try discriminate; intros; intuition congruence|left; cbn; lia]|].
    split; [apply no_duplicates_check; reflexivity|]. split; [vm_compute; reflexivity|]. vm_compute. lia.
Qed.

Example C26_example :
  let X := col [0; 100; 1; 101; 40; 45; 50; 55]%Z in let y := [1; 1; 0; 0; 0; 0; 0; 0]%Z in
  is_minority y 1 0 /\ exists X1 y1, tomek_remove_noise nn0 RemoveMajority X y = Ok (X1, y1) /\ is_minority y1 1 0.
Proof.
  split; [split; [repeat split; cbn; try tauto; try discriminate; intros; intuition congruence|left; cbn; lia]|].
  do 2 eexists. split; [vm_compute; reflexivity|].
  split; [repeat split; cbn; try tauto; try discriminate; intros; intuition congruence|left; cbn; lia].
Qed.

(** C27. *)
Theorem C27_random : forall draw X y, draw_ok draw -> length X = length y ->
  (forall z, In z y -> z = 0%Z \/ z = 1%Z) -> In 1%Z y -> count_label y 1 <= count_label y 0 ->
  exists K, random_undersample draw X y =
      Ok (K ++ rows_with 1 X y, repeat 0%Z (length K) ++ repeat 1%Z (length (rows_with 1 X y))) /\
    length K = count_label y 1 /\ length (rows_with 1 X y) = count_label y 1 /\
    sub_data X y (K ++ rows_with 1 X y) (repeat 0%Z (length K) ++ repeat 1%Z (length (rows_with 1 X y))).
Proof. exact random_undersample_spec. Qed.

Theorem C27_random_raises : forall draw X y,
  ~ ((forall z, In z y -> z = 0%Z \/ z = 1%Z) /\ In 1%Z y) \/ count_label y 0 < count_label y 1 ->
  random_undersample draw X y = Err ValueError.
Proof. exact random_undersample_raises. Qed.

Theorem C27_driven : forall draw dist over m X y X' y', draw_ok draw -> length X = length y ->
  driven_undersample draw dist over m X y = Ok (X', y') ->
  sub_data X y X' y' /\ rows_with 1 X' y' = rows_with 1 X y /\
  (m <> OuOther -> length X' <= 2 * count_label y 1) /\
  (m = OuRandom \/ m = OuFarthest /\ count_label y 1 <= count_label y 0 -> length X' = 2 * count_label y 1).
Proof. exact driven_sub. Qed.

(** 'farthest' removes the majority rows farthest from the generated rows. *)
Theorem C27_driven_farthest : forall draw dist over X y samp ysamp,
  length X = length y -> (forall z, In z y -> z = 0%Z \/ z = 1%Z) -> In 1%Z y ->
  over X y = Ok (samp, ysamp) -> skipn (length X) samp <> [] ->
  exists ds s,
    (length ds = count_label y 0 /\ forall i, i < count_label y 0 ->
       exists g, In g (skipn (length X) samp) /\ nth i ds 0%Q = dist (nth i (rows_with 0 X y) []) g /\
       forall g', In g' (skipn (length X) samp) -> (nth i ds 0 <= dist (nth i (rows_with 0 X y) []) g')%Q) /\
    Permutation s (seq 0 (count_label y 0)) /\
    driven_undersample draw dist over OuFarthest X y =
      Ok (map (fun i => nth i (rows_with 0 X y) []) (firstn (count_label y 1) s) ++ rows_with 1 X y,
          repeat 0%Z (length (firstn (count_label y 1) s)) ++ repeat 1%Z (length (rows_with 1 X y))) /\
    forall i j, In i (firstn (count_label y 1) s) -> In j (skipn (count_label y 1) s) ->
      (nth i ds 0 <= nth j ds 0)%Q.
Proof. exact driven_farthest_full. Qed.

(** Findings: 'random' mode raises on equally large classes (and when the
    minority is larger), and every mode raises when the oversampler adds
    nothing. *)
Theorem C27_driven_random_balanced_refuted : forall draw dist over X y samp ysamp,
  length X = length y -> (forall z, In z y -> z = 0%Z \/ z = 1%Z) -> In 1%Z y ->
  count_label y 0 <= count_label y 1 ->
  over X y = Ok (samp, ysamp) ->
  driven_undersample draw dist over OuRandom X y = Err ValueError.
Proof. exact driven_random_balanced_raises. Qed.

Theorem C27_driven_nothing_new_refuted : forall draw dist over m X y samp ysamp,
  length X = length y -> In 0%Z y -> over X y = Ok (samp, ysamp) -> skipn (length X) samp = [] ->
  exists e, driven_undersample draw dist over m X y = Err e.
Proof. exact driven_nothing_new. Qed.

Example C27_example :
  let X := col [0; 1; 2; 3; 4]%Z in let y := [0; 1; 0; 1; 0]%Z in
  let over := fun X y => Ok (X ++ col [3]%Z, y ++ [1]%Z) in
  draw_ok draw0 /\ count_label y 1 <= count_label y 0 /\
  random_undersample draw0 X y = Ok (col [0; 2; 1; 3]%Z, [0; 0; 1; 1]%Z) /\
  driven_undersample draw0 sqdist over OuFarthest X y = Ok (col [2; 4; 1; 3]%Z, [0; 0; 1; 1]%Z) /\
  driven_undersample draw0 sqdist over OuRandom X y = Ok (col [2; 4; 1; 3]%Z, [0; 0; 1; 1]%Z).
Proof. split; [exact draw0_ok|]. split; [cbn; lia|]. repeat split; vm_compute; reflexivity. Qed.

Print Assumptions C23_tomek.
Print Assumptions C23_minority_kept.
Print Assumptions C23_duplicates_refuted.
Print Assumptions C24_condensed.
Print Assumptions C25_enn.
Print Assumptions C25_enn_other_class_kept.
Print Assumptions C25_enn_small.
Print Assumptions C25_ncr.
Print Assumptions C25_ncr_minority_kept.
Print Assumptions C25_ncr_small_refuted.
Print Assumptions C26_cnn_tomek.
Print Assumptions C26_one_sided.
Print Assumptions C26_roles_swap_refuted.
Print Assumptions C27_random.
Print Assumptions C27_random_raises.
Print Assumptions C27_driven.
Print Assumptions C27_driven_farthest.
Print Assumptions C27_driven_random_balanced_refuted.
Print Assumptions C27_driven_nothing_new_refuted.
