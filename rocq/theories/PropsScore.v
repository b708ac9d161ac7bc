(** Property C147: the score DSMOTE maximises. *)

From Coq Require Import List Reals Bool Arith Lia Lra.
From Verif Require Import Np ScoreModel SpecScore ScoreFacts.
Import ListNotations.
Open Scope nat_scope.

(** C147.  The score computed from the running sums. *)
Theorem C147_score : forall dim kept gs mean_maj var_maj, kept <> [] -> Forall (fun x => length x = dim) (kept ++ gs) ->
  objective dim (kept ++ gs) (fold_left partial_add gs (partial_of dim kept)) mean_maj var_maj = score_of dim kept gs mean_maj var_maj.
Proof. exact score_is. Qed.

(** It always exceeds the documented objective. *)
Theorem C147_above : forall dim kept gs mean_maj var_maj, kept <> [] -> 1 <= dim -> gs <> [] ->
  positive_rows dim kept -> positive_rows dim gs -> Forall (below_some dim kept) gs ->
  num_exceeds (objective dim (kept ++ gs) (fold_left partial_add gs (partial_of dim kept)) mean_maj var_maj)
    (documented dim (kept ++ gs) mean_maj var_maj).
Proof. exact score_above. Qed.

(** If two minority rows or two majority rows differ the requested rows are found,
    each a candidate of largest score. *)
Theorem C147_total : forall draw n_step dim X_maj X_min n, draw_ok draw -> 1 <= dim -> 3 <= length X_min -> 1 <= n_step ->
  positive_rows dim X_min -> Forall (fun x => length x = dim) X_maj -> varied X_min \/ varied X_maj ->
  exists new, ds_sampling draw n_step dim X_maj X_min n = Ok (X_min ++ new) /\ length new = n /\ means_of_three dim X_min new /\
    best_tries draw n_step dim X_min (avg (concat X_maj)) (avg (vars dim X_maj)) 0 new.
Proof. exact sampling_total. Qed.

Definition first_three (_ _ _ : nat) : list nat := [0; 1; 2].
Lemma first_three_ok : draw_ok first_three.
Proof.
  intros a s m H. split; [reflexivity|]. split.
  - repeat constructor; cbn; lia.
  - repeat constructor; lia.
Qed.

Definition ones : list rrow := [[1; 2]; [2; 1]; [1; 1]]%R.
Lemma ones_ok : positive_rows 2 ones.
Proof. repeat constructor; lra. Qed.

Example C147_example :
  (exists new, ds_sampling first_three 50 2 [[3; 1]]%R ones 4 = Ok (ones ++ new) /\ length new = 4 /\ means_of_three 2 ones new /\
     best_tries first_three 50 2 ones (avg (concat [[3; 1]]%R)) (avg (vars 2 [[3; 1]]%R)) 0 new) /\
  num_exceeds (objective 2 (ones ++ [[1; 1]]%R) (fold_left partial_add [[1; 1]]%R (partial_of 2 ones)) 0 1) (documented 2 (ones ++ [[1; 1]]%R) 0 1).
Proof.
  split.
  - apply (C147_total first_three 50 2 [[3; 1]]%R ones 4 first_three_ok); auto using ones_ok; cbn; try lia; left.
    exists [1; 2]%R, [2; 1]%R. cbn. split; [tauto|]. split; [tauto|]. intros E. injection E as E _. lra.
  - apply (C147_above 2 ones [[1; 1]]%R 0 1); auto using ones_ok; try discriminate.
    + repeat constructor; lra.
    + constructor; [|constructor]. intros j Hj. exists [1; 1]%R. split; [cbn; tauto|]. lra.
Qed.

(** The effect is not identical to that of the documented objective, as the comment
    in the code expects. *)
Theorem C147_identical_refuted :
  ~ (forall dim kept gs mean_maj var_maj, 3 <= length kept -> gs <> [] ->
     positive_rows dim kept -> positive_rows dim gs -> Forall (below_some dim kept) gs -> (0 < var_maj)%R ->
     objective dim (kept ++ gs) (fold_left partial_add gs (partial_of dim kept)) mean_maj var_maj = documented dim (kept ++ gs) mean_maj var_maj).
Proof.
  intros H. specialize (H 2 ones [[1; 1]]%R 0%R 1%R). pose proof (proj2 C147_example) as E.
  assert (B : Forall (below_some 2 ones) [[1; 1]]%R).
  { constructor; [|constructor]. intros j Hj. exists [1; 1]%R. split; [cbn; tauto|]. lra. }
  rewrite H in E; auto using ones_ok; try discriminate; try (cbn; lia); try (repeat constructor; lra); try lra.
  unfold documented in E. destruct (fisher_number 2 (ones ++ [[1; 1]]%R) 0 1) as (q & Eq & _).
  - pose proof (avg_nonneg _ (vars_nonneg 2 (ones ++ [[1; 1]]%R))). lra.
  - rewrite Eq in E. cbn [num_add num_exceeds] in E. lra.
Qed.

(** The call can fail although there are three minority rows: the ratio is 0 / 0 if
    all rows of a class are equal and the two means agree. *)
Theorem C147_returns_refuted :
  ~ (forall draw n_step dim X_maj X_min n, draw_ok draw -> 2 <= dim -> 3 <= length X_min -> 1 <= n_step ->
     positive_rows dim X_min -> positive_rows dim X_maj -> X_maj <> [] -> exists X', ds_sampling draw n_step dim X_maj X_min n = Ok X').
Proof.
  intros H. destruct (H first_three 1 2 [[2; 1]]%R [[1; 2]; [1; 2]; [1; 2]]%R 1 first_three_ok) as (X' & E);
    try discriminate; try (cbn; lia); try (repeat constructor; lra).
  pose proof (eq_trans (eq_sym E) equal_rows_fail) as G. discriminate G.
Qed.

Print Assumptions C147_score.
Print Assumptions C147_above.
Print Assumptions C147_total.
Print Assumptions C147_identical_refuted.
Print Assumptions C147_returns_refuted.
