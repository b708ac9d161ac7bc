(** Model of the sensitivities of SSO, smote_variants/oversampling/_sso.py.

    Entries are real numbers, the widths are not 0.  A network is the list of its
    hidden units, each the weight w, the centre u and the width v; the arrays of the
    code have one axis per unit, the broadcasting is written out as sums over units. *)

From Coq Require Import List Reals Bool Arith.
From Verif Require Import Np ScoreModel.
Import ListNotations.
Open Scope nat_scope.

Definition unit3 := (R * rrow * R)%type.
Definition uw (n : unit3) : R := fst (fst n).
Definition uc (n : unit3) : rrow := snd (fst n).
Definition uv (n : unit3) : R := snd n.

(** [np.prod]. *)
Definition prd (l : list R) : R := fold_right Rmult 1%R l.

Section Sens.

(** [scipy.special.erf]. *)
Variable erf : R -> R.

(** eq_6_vectorized, _sso.py:137-156, for one row [x]. *)
Definition eq_6 (q : R) (net : list unit3) (x : rrow) : R :=
  (tot (map (fun n =>
     let tmp_prod := map2 (fun xj uj => (erf ((xj - uj + q) / sqrt (2 * uv n)) - erf ((xj - uj - q) / sqrt (2 * uv n)))%R) x (uc n) in
     (sqrt (PI / 2) * uv n * prd tmp_prod * uw n)%R) net)
   / (2 * q) ^ length x)%R.

(** eq_8_av_bv, _sso.py:186-215, for the units [i] and [r] and one attribute: the
    difference of the two values of erf, 239. *)
Definition av_bv (q : R) (i r : unit3) (a1 vi_vr xj ui ur : R) : R :=
  let a01 := (ui * sqr (uv r) + ur * sqr (uv i))%R in
  (erf ((vi_vr * (xj + q) - a01) / a1) - erf ((vi_vr * (xj - q) - a01) / a1))%R.

Fixpoint map3 {A B C D} (f : A -> B -> C -> D) (a : list A) (b : list B) (c : list C) : list D :=
  match a, b, c with x :: a, y :: b, z :: c => f x y z :: map3 f a b c | _, _, _ => [] end.

(** eq_8_vectorized, _sso.py:217-253, for one row [x]. *)
Definition eq_8_pair (q : R) (x : rrow) (i r : unit3) : R :=
  let vi_vr := (sqr (uv i) + sqr (uv r))%R in
  let a1 := sqrt (2 * (sqr (uv i) * sqr (uv r)) * vi_vr) in
  let tmp_prod := map3 (av_bv q i r a1 vi_vr) x (uc i) (uc r) in
  let tmp_a := ((a1 / vi_vr) ^ length x)%R in
  let tmp_b := exp (- (1 / 2) * sqr (len2 (map2 Rminus (uc i) (uc r))) / vi_vr) in
  (tmp_a * tmp_b * (uw i * uw r) * prd tmp_prod)%R.
Definition eq_8 (q : R) (net : list unit3) (x : rrow) : R :=
  ((sqrt PI / (4 * q)) ^ length x * tot (map (fun i => tot (map (eq_8_pair q x i) net)) net))%R.

(** determine_Q_and_weights, _sso.py:378-389: the sensitivity of a row with
    prediction [f]. *)
Definition sensitivity (q : R) (net : list unit3) (x : rrow) (f : R) : R :=
  Rabs (sqr f - 2 * f * eq_6 q net x + eq_8 q net x).

End Sens.

(** The response of the fitted network without its intercept, _sso.py:286-297: the
    regression multiplies exp(-d^2 / v^2) by the weights. *)
Definition fitted (net : list unit3) (t : rrow) : R :=
  tot (map (fun n => (uw n * exp (- tot (map2 (fun a b => sqr (a - b)) t (uc n)) / sqr (uv n)))%R) net).
