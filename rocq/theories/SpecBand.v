(** Specification vocabulary for the densities of KernelADASYN and PDFOS. *)

From Coq Require Import List Reals Bool Arith.
From Verif Require Import Np ScoreModel BandModel.
Import ListNotations.
Open Scope nat_scope.

(** The mixture of Gaussians of variance [v] around the rows, without its constant. *)
Definition mixture_at (v : R) (X : list rrow) (r : list R) (x : rrow) : R :=
  tot (map2 (fun w z => (w * exp (- tot (map2 (fun a b => sqr (a - b)) x z) / (2 * v)))%R) r X).

(** Weights, one of them positive. *)
Definition weights_ok (X : list rrow) (r : list R) : Prop :=
  length r = length X /\ Forall (fun w => 0 <= w)%R r /\ exists w, In w r /\ (0 < w)%R.

(** The kernel of width [s] and profile [g] at squared distance [t]. *)
Definition kern (g : R -> R) (m : nat) (s t : R) : R := (g (- t / (2 * sqr s)) / (sqrt (2 * PI) * s) ^ m)%R.

(** The criterion of the paper: the mean over all pairs of the kernel of width
    sqrt 2 sigma minus twice that of width sigma, plus twice the Gaussian kernel at
    0 over the number of rows. *)
Definition criterion (g : R -> R) (m : nat) (X S_inv : list rrow) (sigma : R) : R :=
  let n := INR (length X) in
  let t a b := quad S_inv (map2 Rminus a b) in
  (tot (map (fun a => tot (map (fun b => kern g m (sqrt 2 * sigma) (t a b) - 2 * kern g m sigma (t a b)) X)) X) / sqr n
   + 2 * kern exp m sigma 0 / n)%R.

(** The number [k] of the widths tried. *)
Definition width_no (k : nat) : R := Rpower 10 (-5 + 7 * INR k / 19).
