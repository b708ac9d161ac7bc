(** Model of the noise filters: /repo/smote_variants/noise_removal/.

    Every filter records the label statistics of its own input first
    (class_label_statistics, base/_base.py:297-307).  Nearest-neighbour search
    is the argument [nn] (NearestNeighborsWithMetricTensor with the configured
    metric, or scikit-learn's KNeighborsClassifier); its contract is
    [Spec.knn_ok].  Learned metric tensors only change [nn]. *)

From Coq Require Import List ZArith QArith Bool Arith.
From Verif Require Import Np SamplerModel BaseModel.
Import ListNotations.

Section NOISE.

Variable nn : list row -> list row -> nat -> res (list (list nat)).

(** _tomeklinkremoval.py:100-105, the body of the loop for one (idx, row). *)
Definition tomek_link_of (indices : list (list nat)) (y : list Z) (idx : nat) (r : list nat)
    : res (list (nat * nat)) :=
  do j <- get r 1;
  do rj <- get indices j;
  do k <- get rj 1;
  if (k =? idx)%nat then
    do yj <- get y j;
    do yk <- get y k;
    Ok (if Z.eqb yj yk then [] else [(idx, j)])
  else Ok [].

(** The strategies accepted by the constructor, line 62. *)
Inductive tomek_strategy := RemoveMajority | RemoveBoth.

(** Lines 107-117, the rows to be removed for one link. *)
Definition tomek_removals (s : tomek_strategy) (mn : Z) (y : list Z) (link : nat * nat)
    : res (list nat) :=
  match s with
  | RemoveMajority =>
    do y0 <- get y (fst link);
    Ok (if Z.eqb y0 mn then [snd link] else [fst link])
  | RemoveBoth => Ok [fst link; snd link]
  end.

(** TomekLinkRemoval.remove_noise, _tomeklinkremoval.py:77-121.  Line 119 drops
    repeated positions and loses their order; np.delete ignores both. *)
Definition tomek_remove_noise (s : tomek_strategy) (X : list row) (y : list Z)
    : res (list row * list Z) :=
  do st <- class_label_statistics y;
  do indices <- nn X X 2;
  do links <- mapM (fun p => tomek_link_of indices y (fst p) (snd p))
                   (combine (seq 0 (length indices)) indices);
  do to_remove <- mapM (tomek_removals s (min_label st) y) (concat links);
  Ok (delete_idx X (concat to_remove), delete_idx y (concat to_remove)).

(** KNeighborsClassifier(n_neighbors=1).fit(Xf, yf).predict(Xq): the label of
    the one neighbour. *)
Definition predict_1nn (Xf : list row) (yf : list Z) (Xq : list row) : res (list Z) :=
  do idx <- nn Xf Xq 1;
  mapM (fun t => do i <- get t 0; get yf i) idx.

(** The loop of _condensednn.py:81-96. *)
Fixpoint cnn_loop (fuel : nat) (mj : Z) (X_hat : list row) (y_hat : list Z) (X_maj : list row)
    : res (list row * list Z) :=
  match X_maj with
  | [] => Ok (X_hat, y_hat)
  | _ :: _ =>
    match fuel with
    | O => Err OutOfFuel
    | S fuel' =>
      do pred <- predict_1nn X_hat y_hat X_maj;
      if forallb (Z.eqb mj) pred then Ok (X_hat, y_hat)
      else
        let wrong := map (fun p => negb (Z.eqb p mj)) pred in
        let X_hat' := X_hat ++ select wrong X_maj in
        let y_hat' := y_hat ++ repeat mj (length X_hat' - length y_hat) in
        cnn_loop fuel' mj X_hat' y_hat' (delete_idx X_maj (where_ wrong))
    end
  end.

(** CondensedNearestNeighbors.remove_noise, _condensednn.py:55-98.  The loop
    gets as much fuel as there are majority rows. *)
Definition cnn_remove_noise (X : list row) (y : list Z) : res (list row * list Z) :=
  do st <- class_label_statistics y;
  let X_maj := rows_with (maj_label st) X y in
  do first <- get X_maj 0;
  let X_hat := rows_with (min_label st) X y ++ [first] in
  let y_hat := repeat (min_label st) (length X_hat - 1) ++ [maj_label st] in
  cnn_loop (length X_maj) (maj_label st) X_hat y_hat (skipn 1 X_maj).

(** The values of [remove] accepted by EditedNearestNeighbors, line 59. *)
Inductive enn_remove := EnnBoth | EnnMin | EnnMaj.

(** _editednn.py:103-110 for one idx. *)
Definition enn_drops (rm : enn_remove) (st : stats) (y : list Z) (idx : nat) (t : list nat)
    : res bool :=
  do yi <- get y idx;
  do votes <- gather y (skipn 1 t);
  do m <- mode votes;
  Ok (negb (Z.eqb yi m) &&
      match rm with
      | EnnBoth => true
      | EnnMin => Z.eqb yi (min_label st)
      | EnnMaj => Z.eqb yi (maj_label st)
      end).

(** EditedNearestNeighbors.remove_noise, _editednn.py:74-112. *)
Definition enn_remove_noise (rm : enn_remove) (X : list row) (y : list Z)
    : res (list row * list Z) :=
  do st <- class_label_statistics y;
  if (length X <? 4)%nat then Ok (X, y)
  else
    do indices <- nn X X 4;
    do drops <- mapM (fun idx => do t <- get indices idx; enn_drops rm st y idx t)
                     (seq 0 (length X));
    Ok (delete_idx X (where_ drops), delete_idx y (where_ drops)).

(** _neighborhoodcleaningrule.py:98-110 for one idx: the positions appended to
    the removal list. *)
Definition ncr_removals (st : stats) (indices : list (list nat)) (y : list Z) (idx : nat)
    : res (list nat) :=
  do yi <- get y idx;
  do t <- get indices idx;
  do votes <- gather y (skipn 1 t);
  do m <- mode votes;
  if Z.eqb yi (maj_label st) && Z.eqb m (min_label st) then Ok [idx]
  else if Z.eqb yi (min_label st) && Z.eqb m (maj_label st) then
    Ok (select (map (Z.eqb (maj_label st)) votes) (skipn 1 t))
  else Ok [].

(** NeighborhoodCleaningRule.remove_noise, _neighborhoodcleaningrule.py:71-114. *)
Definition ncr_remove_noise (X : list row) (y : list Z) : res (list row * list Z) :=
  do st <- class_label_statistics y;
  do indices <- nn X X 4;
  do to_remove <- mapM (ncr_removals st indices y) (seq 0 (length X));
  Ok (delete_idx X (concat to_remove), delete_idx y (concat to_remove)).

(** CNNTomekLinks.remove_noise, _cnntomeklinks.py:59-77: both stages with their
    default parameters, the second one on the output of the first. *)
Definition cnn_tomek_remove_noise (X : list row) (y : list Z) : res (list row * list Z) :=
  do _ <- class_label_statistics y;
  do r <- cnn_remove_noise X y;
  tomek_remove_noise RemoveMajority (fst r) (snd r).

(** OneSidedSelection.remove_noise, _onesidedselection.py:59-77. *)
Definition one_sided_remove_noise (X : list row) (y : list Z) : res (list row * list Z) :=
  do _ <- class_label_statistics y;
  do r <- tomek_remove_noise RemoveMajority X y;
  cnn_remove_noise (fst r) (snd r).

End NOISE.
