(** Specification vocabulary for the score of DSMOTE. *)

From Coq Require Import List Reals Bool Arith.
From Verif Require Import Np ScoreModel.
Import ListNotations.
Open Scope nat_scope.

(** The distance of two rows. *)
Definition apart (a b : rrow) : R := sqrt (tot (map2 (fun x y => sqr (x - y)) a b)).

(** The Fisher ratio of the minority rows [X]: the squared difference of the means
    over the sum of the mean variances. *)
Definition fisher_of (dim : nat) (X : list rrow) (mean_maj var_maj : R) : num :=
  let a := sqr (avg (concat X) - mean_maj) in
  let b := (avg (vars dim X) + var_maj)%R in
  if Req_EM_T b 0 then (if Req_EM_T a 0 then NaN else Inf) else Fin (a / b).

(** The objective the comment of sampling_algorithm gives, _dsmote.py:415-431: the
    mean distance from the geometric mean and the Fisher ratio. *)
Definition documented (dim : nat) (X : list rrow) (mean_maj var_maj : R) : num :=
  num_add (Fin (avg (map (fun x => apart x (gmean dim X)) X))) (fisher_of dim X mean_maj var_maj).

(** Rows of [dim] positive entries. *)
Definition positive_rows (dim : nat) (X : list rrow) : Prop :=
  Forall (fun x => length x = dim /\ Forall (fun a => 0 < a)%R x) X.

(** No entry of [g] exceeds those of all rows of [X] in its column. *)
Definition below_some (dim : nat) (X : list rrow) (g : rrow) : Prop :=
  forall j, j < dim -> exists x, In x X /\ (nth j g 0 <= nth j x 0)%R.

(** The first is larger, or both are infinite, or both are NaN. *)
Definition num_exceeds (a b : num) : Prop :=
  match a, b with Fin x, Fin y => (y < x)%R | Inf, Inf | NaN, NaN => True | _, _ => False end.

(** The three positions are different and exist. *)
Definition draw_ok (draw : nat -> nat -> nat -> list nat) : Prop :=
  forall a s m, 3 <= m -> length (draw a s m) = 3 /\ NoDup (draw a s m) /\ Forall (fun i => i < m) (draw a s m).

(** Two rows differ. *)
Definition varied (X : list rrow) : Prop := exists x z, In x X /\ In z X /\ x <> z.

(** What DSMOTE maximises, [gs] being the rows added to the rows [kept] with the
    candidate as last: instead of the squared length of a row the sum of the squares
    of all entries of [kept] and of the lengths of the rows added. *)
Definition score_of (dim : nat) (kept gs : list rrow) (mm vm : R) : num :=
  let X := kept ++ gs in
  let G := gmean dim X in
  let terms := map (fun x => (tot (map sqr (concat kept)) + tot (map len2 gs) - 2 * inner x G + sqr (len2 G))%R) X in
  num_add (if forallb (fun t => if Rle_dec 0 t then true else false) terms then Fin (avg (map sqrt terms)) else NaN) (fisher_of dim X mm vm).

(** Every row added is the geometric mean of three different rows before it. *)
Definition means_of_three (dim : nat) (kept gs : list rrow) : Prop :=
  forall k, k < length gs -> exists i j l, NoDup [i; j; l] /\ Forall (fun i => i < length kept + k) [i; j; l] /\
    nth k gs [] = gmean dim [nth i (kept ++ gs) []; nth j (kept ++ gs) []; nth l (kept ++ gs) []].

(** The first number is not larger. *)
Definition num_at_most (a b : num) : Prop := match a, b with Fin x, Fin y => (x <= y)%R | _, _ => False end.

(** From number [from] on every row added is one of the candidates tried for it, and
    none of them has a larger score. *)
Definition best_tries (draw : nat -> nat -> nat -> list nat) (n_step dim : nat) (kept : list rrow) (mm vm : R) (from : nat) (gs : list rrow) : Prop :=
  forall k, from <= k < length gs ->
    let before := firstn k gs in
    let X := kept ++ before in
    let m := length X in
    let candidate s := gmean dim (map (fun i => nth i X []) (draw k s m)) in
    let tries := Nat.min (m * (m - 1) * (m - 2)) n_step in
    (exists s, s < tries /\ nth k gs [] = candidate s) /\
    (forall s, s < tries -> num_at_most (score_of dim kept (before ++ [candidate s]) mm vm) (score_of dim kept (before ++ [nth k gs []]) mm vm)).
