(** Property C28: multiclass oversampling.

    [over_ok over d enough P] is the contract of the binary oversampler wrapped;
    SMOTE meets it with [P] "lies in the convex hull of the class". *)

From Coq Require Import List ZArith QArith Bool Arith Lia.
From Verif Require Import Np NpFacts Float64 SimplexModel Spec SamplerModel KnnModel KnnFacts Witness MultiModel
  SpecMulti MultiFacts MultiSmote.
Import ListNotations.
Open Scope nat_scope.

(** The successive strategy: with one largest class the result is the input
    followed by new rows, each made from the class it is added to; the second
    largest class gets exactly as many rows as the largest, every further class
    as many or one fewer. *)
Theorem C28_successive : forall over d enough P, over_ok over d enough P -> forall X y,
  rect d X -> length X = length y -> forall l0, largest_class y l0 ->
  (forall l, In l y -> l <> l0 -> enough (count_label y l)) ->
  (Z.of_nat (n_classes y) * Z.of_nat (count_label y l0) <= 2 ^ 50)%Z ->
  exists S ys, multiclass_sample over EqSuccessive X y = Ok (X ++ S, y ++ ys) /\ length S = length ys /\
    count_label (y ++ ys) l0 = count_label y l0 /\
    (forall l, In l y -> count_label y l0 - 1 <= count_label (y ++ ys) l <= count_label y l0) /\
    (exists l1, In l1 y /\ l1 <> l0 /\ (forall l, In l y -> l <> l0 -> count_label y l <= count_label y l1) /\
       count_label (y ++ ys) l1 = count_label y l0) /\
    (forall s z, In (s, z) (combine S ys) -> In z y /\ z <> l0 /\ P (rows_with z X y) s).
Proof. exact successive_spec. Qed.

(** The other strategy: every class but the largest ends with as many rows as
    all the other classes had together (so with two classes it balances). *)
Theorem C28_equalize : forall over d enough P, over_ok over d enough P -> forall X y,
  rect d X -> length X = length y -> forall l0, largest_class y l0 ->
  (forall l, In l y -> l <> l0 -> enough (count_label y l)) -> (Z.of_nat (length y) <= 2 ^ 53)%Z ->
  exists S ys, multiclass_sample over Equalize X y = Ok (X ++ S, y ++ ys) /\ length S = length ys /\
    count_label (y ++ ys) l0 = count_label y l0 /\
    (forall l, In l y -> l <> l0 -> count_label (y ++ ys) l = length y - count_label y l) /\
    (forall s z, In (s, z) (combine S ys) -> In z y /\ z <> l0 /\ P (rows_with z X y) s).
Proof. exact equalize_spec. Qed.

(** SMOTE meets the contract. *)
Theorem C28_smote : forall dist vol nn k ss r d, knn_ok dist nn ->
  (forall i, rng_ok (r i) /\ unif_pos (r i)) -> 1 <= k -> 1 <= ss_n_dim ss ->
  ss_sampling ss = SRandom \/ ss_sampling ss = SDeterministic ->
  ss_within ss = WRandom \/ (ss_within ss = WDeterministic /\ ss_n_dim ss <= 2) ->
  ss_gauss ss = GNone ->
  over_ok (over_smote vol nn k ss r d) d (fun n => 2 < n) (in_hull d).
Proof. exact over_smote_ok. Qed.

(** Finding: when two classes share the largest size both strategies raise
    (a 0/0 proportion reaches the oversampler as nan). *)
Theorem C28_tie_refuted : forall over d enough P, over_ok over d enough P -> forall X y,
  rect d X -> length X = length y -> forall a b, In a y -> In b y -> a <> b ->
  count_label y a = count_label y b -> (forall l, In l y -> count_label y l <= count_label y a) ->
  enough (count_label y a) ->
  multiclass_sample over EqSuccessive X y = Err ValueError /\
  multiclass_sample over Equalize X y = Err ValueError.
Proof. exact tie_spec. Qed.

Definition labels3 (a b c : nat) : list Z := repeat 0%Z a ++ repeat 1%Z b ++ repeat 2%Z c.
Definition line (n : nat) : list row := map (fun i => [inject_Z (Z.of_nat i)]) (seq 0 n).

(** Finding: the rounding of the proportion leaves a class one row short. *)
Theorem C28_one_short_refuted : exists over X y, over_ok over 1 (fun _ => True) (fun B s => In s B) /\
  rect 1 X /\ length X = length y /\ largest_class y 0 /\
  exists X' y', multiclass_sample over EqSuccessive X y = Ok (X', y') /\
    count_label y' 0 = 48 /\ count_label y' 1 = 48 /\ count_label y' 2 = 47.
Proof.
  exists over_copy, (line 142), (labels3 48 47 47). split; [apply over_copy_ok|].
  split; [repeat constructor|]. split; [reflexivity|]. split.
  - split; [left; reflexivity|]. split.
    + intros l Hl Hne. unfold labels3 in Hl. rewrite !in_app_iff in Hl.
      destruct Hl as [Hl|[Hl|Hl]]; apply repeat_spec in Hl; subst l; [congruence| |];
      apply Nat.ltb_lt; vm_compute; reflexivity.
    + exists 1%Z. split; [|discriminate]. unfold labels3. rewrite !in_app_iff. right. left. left. reflexivity.
  - do 2 eexists. split; [vm_compute; reflexivity|]. vm_compute. auto.
Qed.

(** Finding: with three classes the other strategy makes the smaller classes
    larger than the largest. *)
Theorem C28_equalize_overshoots_refuted : forall over d enough P, over_ok over d enough P -> forall X y,
  rect d X -> length X = length y -> forall l0, largest_class y l0 ->
  (forall l, In l y -> l <> l0 -> enough (count_label y l)) -> (Z.of_nat (length y) <= 2 ^ 53)%Z ->
  forall l l', In l y -> In l' y -> l <> l0 -> l' <> l0 -> l <> l' ->
  exists X' y', multiclass_sample over Equalize X y = Ok (X', y') /\ count_label y' l0 < count_label y' l.
Proof.
  intros over d enough P H X y HX HL l0 HB He Hb l l' Hl Hl' N N' NN.
  destruct (equalize_spec over d enough P H X y HX HL l0 HB He Hb) as (S & ys & E & _ & C0 & C & _).
  exists (X ++ S), (y ++ ys). split; [exact E|]. rewrite C0, (C l Hl N).
  exact (count_three_lt y l0 l l' N N' NN Hl').
Qed.

Example C28_example :
  let X := line 12 in let y := labels3 6 3 3 in
  let ss := mk_ss 2 SRandom WRandom GNone in
  let over := over_smote (fun _ => 1%Q) (fun Xf Xq k => Ok (n_neighbors_func sqdist Xf Xq k)) 2 ss (fun _ => rng0) 1 in
  rect 1 X /\ length X = length y /\ largest_class y 0 /\
  (forall l, In l y -> l <> 0%Z -> 2 < count_label y l) /\
  (Z.of_nat (n_classes y) * Z.of_nat (count_label y 0) <= 2 ^ 50)%Z /\
  exists X' y', multiclass_sample over EqSuccessive X y = Ok (X', y') /\ length X' = 18 /\
    count_label y' 1 = 6 /\ count_label y' 2 = 6.
Proof.
  cbv zeta. split; [repeat constructor|]. split; [reflexivity|].
  assert (K : forall l, In l (labels3 6 3 3) -> l <> 0%Z -> l = 1%Z \/ l = 2%Z).
  { intros l Hl Hne. unfold labels3 in Hl. rewrite !in_app_iff in Hl.
    destruct Hl as [Hl|[Hl|Hl]]; apply repeat_spec in Hl; auto; congruence. }
  split.
  - split; [left; reflexivity|]. split.
    + intros l Hl Hne. destruct (K l Hl Hne); subst l; apply Nat.ltb_lt; vm_compute; reflexivity.
    + exists 1%Z. split; [|discriminate]. unfold labels3. rewrite !in_app_iff. right. left. left. reflexivity.
  - split; [intros l Hl Hne; destruct (K l Hl Hne); subst l; apply Nat.ltb_lt; vm_compute; reflexivity|].
    split; [apply Z.leb_le; vm_compute; reflexivity|].
    do 2 eexists. split; [vm_compute; reflexivity|]. vm_compute. auto.
Qed.

Print Assumptions C28_successive.
Print Assumptions C28_equalize.
Print Assumptions C28_smote.
Print Assumptions C28_tie_refuted.
Print Assumptions C28_one_short_refuted.
Print Assumptions C28_equalize_overshoots_refuted.
