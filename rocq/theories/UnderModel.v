(** Model of the undersamplers: /repo/smote_variants/undersampling/. *)

From Coq Require Import List ZArith QArith Bool Arith.
From Verif Require Import Np.
Import ListNotations.

(** [n_maj, n_min = np.bincount(y)] (_random_undersampling.py:44,
    _oversampling_driven_undersampling.py:59): np.bincount raises ValueError on
    negative labels and returns max(y)+1 counts, which only unpack into two
    names when the largest label is 1. *)
Definition bincount2 (y : list Z) : res (nat * nat) :=
  if forallb (fun z => Z.eqb z 0 || Z.eqb z 1) y && existsb (Z.eqb 1) y
  then Ok (count_occ Z.eq_dec y 0%Z, count_occ Z.eq_dec y 1%Z)
  else Err ValueError.

Section UNDER.

(** The draw behind RandomState.choice(np.arange(len(p)), size, p=p,
    replace=False); contract [SpecNoise.draw_ok]. *)
Variable draw : list Q -> nat -> list nat.

(** RandomState.choice(np.arange(n), size, replace=False): ValueError when more
    positions are wanted than there are. *)
Definition choice_uniform (n size : nat) : res (list nat) :=
  if (n <? size)%nat then Err ValueError else Ok (draw (repeat 1%Q n) size).

(** The same with probabilities: ValueError when fewer non-zero entries than
    wanted. *)
Definition choice_p (p : list Q) (size : nat) : res (list nat) :=
  if (length (filter (fun q => Qlt_b 0 q) p) <? size)%nat then Err ValueError
  else Ok (draw p size).

(** RandomUndersampling.sample, _random_undersampling.py:33-53. *)
Definition random_undersample (X : list row) (y : list Z) : res (list row * list Z) :=
  do c <- bincount2 y;
  let '(n_maj, n_min) := c in
  do mask <- choice_uniform n_maj n_min;
  do X_maj <- gather (rows_with 0 X y) mask;
  let X_min := rows_with 1 X y in
  Ok (X_maj ++ X_min, repeat 0%Z (length X_maj) ++ repeat 1%Z (length X_min)).

Definition qmin (a b : Q) : Q := if Qle_bool a b then a else b.
Definition qmax (a b : Q) : Q := if Qle_bool a b then b else a.

(** np.min / np.max of a vector: ValueError on an empty one. *)
Definition np_min (l : list Q) : res Q :=
  match l with [] => Err ValueError | a :: l' => Ok (fold_left qmin l' a) end.
Definition np_max (l : list Q) : res Q :=
  match l with [] => Err ValueError | a :: l' => Ok (fold_left qmax l' a) end.

(** The two modes; any other string leaves the majority rows alone. *)
Inductive ou_mode := OuRandom | OuFarthest | OuOther.

(** The Euclidean distance of line 68 (its square root is not rational, so the
    distance is a parameter). *)
Variable dist : row -> row -> Q.

(** Lines 66-68: for every majority row the distance to the nearest new row. *)
Definition min_dists (X_new X_maj : list row) : res (list Q) :=
  mapM (fun x => np_min (map (fun s => dist x s) X_new)) X_maj.

(** Lines 71-74.  0/0 gives nan, and RandomState.choice rejects nan
    probabilities with a ValueError. *)
Definition inverse_density (dists : list Q) : res (list Q) :=
  do lo <- np_min dists;
  do hi <- np_max dists;
  if Qeq_bool (hi - lo)%Q 0%Q then Err ValueError
  else
    let inv := map (fun d => 1 - (d - lo) / (hi - lo))%Q dists in
    Ok (map (fun v => v / qsum inv)%Q inv).

(** OversamplingDrivenUndersampling.sample,
    _oversampling_driven_undersampling.py:48-85.  [oversample] is
    self.oversampler.sample. *)
Definition driven_undersample (oversample : list row -> list Z -> res (list row * list Z))
    (m : ou_mode) (X : list row) (y : list Z) : res (list row * list Z) :=
  do c <- bincount2 y;
  let '(n_maj, n_min) := c in
  do samp <- oversample X y;
  let X_new := skipn (length X) (fst samp) in
  let X_min := rows_with 1 X y in
  let X_maj := rows_with 0 X y in
  do dists <- min_dists X_new X_maj;
  do X_maj' <-
    match m with
    | OuRandom => do p <- inverse_density dists; do mask <- choice_p p n_min; gather X_maj mask
    | OuFarthest => do s <- gather X_maj (argsort dists); Ok (firstn n_min s)
    | OuOther => Ok X_maj
    end;
  Ok (X_maj' ++ X_min, repeat 0%Z (length X_maj') ++ repeat 1%Z (length X_min)).

End UNDER.
