(** Specification vocabulary for the sensitivities of SSO. *)

From Coq Require Import List Reals Bool Arith.
From Coquelicot Require Import Coquelicot.
From Verif Require Import Np ScoreModel SensModel.
Import ListNotations.
Open Scope nat_scope.

(** The error function. *)
Definition erf_ok (erf : R -> R) : Prop :=
  forall a b, is_RInt (fun t => exp (- (t * t))) a b (sqrt PI / 2 * (erf b - erf a))%R.

(** [m] is the mean of [F] over the cube of half width [q] around [x], one
    coordinate integrated after the other. *)
Fixpoint cube_mean (q : R) (x : rrow) (F : rrow -> R) (m : R) : Prop :=
  match x with
  | [] => m = F []
  | a :: x' => exists g : R -> R, (forall t, cube_mean q x' (fun r => F (t :: r)) (g t)) /\ is_RInt g (a - q) (a + q) (2 * q * m)%R
  end.

(** The radial basis function network of Gaussians of standard deviation v. *)
Definition network (net : list unit3) (t : rrow) : R :=
  tot (map (fun n => (uw n * exp (- tot (map2 (fun a b => sqr (a - b)) t (uc n)) / (2 * sqr (uv n))))%R) net).

(** The network the first sensitivity formula belongs to: v takes the place of its
    square, and the weights are multiplied by v sqrt(pi / 2) / sqrt(pi v / 2)^d. *)
Definition first_network (net : list unit3) (t : rrow) : R :=
  tot (map (fun n => (uw n * (uv n * sqrt (PI / 2) / sqrt (PI / 2 * uv n) ^ length t) *
    exp (- tot (map2 (fun a b => sqr (a - b)) t (uc n)) / (2 * uv n)))%R) net).
