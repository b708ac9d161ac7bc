(** Model of the densities of KernelADASYN and PDFOS.  Files
    smote_variants/oversampling/_kerneladasyn.py and _pdfos.py.

    Entries are real numbers; the rows of a matrix have the same length. *)

From Coq Require Import List Reals Bool Arith.
From Verif Require Import Np ScoreModel.
Import ListNotations.
Open Scope nat_scope.

(** ** KernelADASYN *)

(** p_x, _kerneladasyn.py:132-146. *)
Definition p_x (h : R) (X_min : list rrow) (r_score : list R) (x : rrow) : R :=
  let result := (1 / (INR (length X_min) * h))%R in
  let result := (result * (1 / (sqrt (2 * PI) * h) ^ length (hd [] X_min)))%R in
  let exp_term := map (fun z => exp (- (1 / 2) * sqr (len2 (map2 Rminus x z)) / h)) X_min in
  (result * inner r_score exp_term)%R.

(** One pass of the loop of mcmc, _kerneladasyn.py:170-177; [x_new] is the proposal,
    [u] the uniform number. *)
Definition mcmc_step (h : R) (X_min : list rrow) (r_score : list R) (x_old x_new : rrow) (u : R) : rrow :=
  let alpha := (p_x h X_min r_score x_new / p_x h X_min r_score x_old)%R in
  if Rlt_dec u alpha then x_new else x_old.

(** ** PDFOS *)

(** [scipy.special.expit]. *)
Definition expit (t : R) : R := (1 / (1 + exp (- t)))%R.

(** eq_5_0, _pdfos.py:111-122; m / 2 is a float. *)
Definition eq_5_0 (sigma : R) (m : nat) : R := (/ sigma ^ m / sqrt (2 * PI) ^ m)%R.

(** The einsum of eq_8_vectorized for one pair, _pdfos.py:138-139. *)
Definition quad (S_inv : list rrow) (d : rrow) : R := tot (map2 (fun dk row => (dk * inner row d)%R) d S_inv).

(** eq_8_vectorized, _pdfos.py:124-149, for one pair. *)
Definition eq_8_entry (m : nat) (sigma tmp : R) : R :=
  let numerator_9 := (/ (sqrt 2 * sigma) ^ m * expit (- (1 / (4 * sqr sigma)) * tmp))%R in
  let numerator_5 := (/ sigma ^ m * expit (- (1 / (2 * sqr sigma)) * tmp))%R in
  let denominator := (sqrt (2 * PI) ^ m)%R in
  (numerator_9 / denominator - 2 * (numerator_5 / denominator))%R.

(** M, _pdfos.py:151-173. *)
Definition big_M (m : nat) (X : list rrow) (S_inv : list rrow) (sigma : R) : R :=
  let total := tot (map (fun a => tot (map (fun b => eq_8_entry m sigma (quad S_inv (map2 Rminus a b))) X)) X) in
  (total / sqr (INR (length X)) + 2 * eq_5_0 sigma m / INR (length X))%R.

(** [np.logspace(-5, 2, num=20)]. *)
Definition grid : list R := map (fun k => Rpower 10 (-5 + 7 * INR k / 19)) (seq 0 20).

(** The loop of find_best_sigma, _pdfos.py:188-210, on the rows chosen; no error is
    [np.inf]. *)
Definition sigma_step (err : R -> R) (best : R * option R) (sigma : R) : R * option R :=
  match snd best with
  | None => (sigma, Some (err sigma))
  | Some e => if Rlt_dec (err sigma) e then (sigma, Some (err sigma)) else best
  end.
Definition find_best_sigma (m : nat) (X_reduced S_inv : list rrow) : R :=
  fst (fold_left (sigma_step (big_M m X_reduced S_inv)) grid (0%R, None)).

(** fit, _pdfos.py:237-239: the covariance of the normal numbers drawn by sample. *)
Definition fit_S (m : nat) (X_reduced S_inv S : list rrow) : list rrow :=
  let best_sigma := find_best_sigma m X_reduced S_inv in
  map (map (Rmult best_sigma)) S.
