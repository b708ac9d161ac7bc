(** Property C149: the densities of KernelADASYN and PDFOS. *)

From Coq Require Import List Reals Bool Arith Lia Lra.
From Verif Require Import Np ScoreModel BandModel SpecBand BandFacts.
Import ListNotations.
Open Scope nat_scope.

(** C149.  KernelADASYN's chain follows the mixture of variance h. *)
Theorem C149_chain : forall h X r x_old x_new u, (0 < h)%R -> weights_ok X r ->
  (0 < p_x h X r x_old)%R /\
  mcmc_step h X r x_old x_new u = if Rlt_dec (u * mixture_at h X r x_old) (mixture_at h X r x_new) then x_new else x_old.
Proof. exact (fun h X r x z u Hh W => conj (px_pos h X r x Hh W) (step_is h X r x z u Hh W)). Qed.

(** PDFOS minimises its criterion over the 20 widths. *)
Theorem C149_width : forall m X S_inv, exists k, k < 20 /\ find_best_sigma m X S_inv = width_no k /\
  (forall j, j < 20 -> (criterion expit m X S_inv (width_no k) <= criterion expit m X S_inv (width_no j))%R) /\
  (forall j, j < k -> (criterion expit m X S_inv (width_no k) < criterion expit m X S_inv (width_no j))%R).
Proof. exact best_sigma. Qed.

(** The criterion at every width. *)
Theorem C149_criterion : forall m X S_inv sigma, (0 < sigma)%R -> big_M m X S_inv sigma = criterion expit m X S_inv sigma.
Proof. exact big_M_is. Qed.

(** The covariance of the numbers drawn is never that of the kernel. *)
Theorem C149_covariance : forall m X S_inv S, let sigma := find_best_sigma m X S_inv in
  fit_S m X S_inv S = map (map (Rmult sigma)) S /\
  ((exists row a, In row S /\ In a row /\ a <> 0%R) -> fit_S m X S_inv S <> map (map (Rmult (sqr sigma))) S).
Proof. exact covariance. Qed.

Example C149_example :
  weights_ok [[0; 1]; [2; 3]]%R [1 / 3; 2 / 3]%R /\ (0 < p_x 2 [[0; 1]; [2; 3]] [1 / 3; 2 / 3] [5; 5])%R /\
  fit_S 1 [[1]; [2]]%R [[1]]%R [[1]]%R <> map (map (Rmult (sqr (find_best_sigma 1 [[1]; [2]]%R [[1]]%R)))) [[1]]%R.
Proof.
  assert (W : weights_ok [[0; 1]; [2; 3]]%R [1 / 3; 2 / 3]%R).
  { split; [reflexivity|]. split; [repeat constructor; lra|]. exists (1 / 3)%R. split; [now left|lra]. }
  split; [exact W|]. split; [apply (C149_chain 2 _ _ [5; 5]%R [5; 5]%R 0); [lra|exact W]|].
  apply C149_covariance. exists [1]%R, 1%R. split; [now left|]. split; [now left|lra].
Qed.

(** h is not the standard deviation of the mixture, as the factor of the density
    assumes. *)
Theorem C149_bandwidth_refuted :
  ~ (forall h X r x_old x_new u, (0 < h)%R -> weights_ok X r -> (0 <= u < 1)%R -> x_new <> x_old ->
     (u * mixture_at (sqr h) X r x_old < mixture_at (sqr h) X r x_new)%R -> mcmc_step h X r x_old x_new u = x_new).
Proof.
  intros H. destruct variance_differs as (u & Hu & E & L).
  assert (N : ([2] <> [0])%R) by (intros Z; injection Z as Z; lra).
  rewrite (H 4%R [[0]]%R [1]%R [0]%R [2]%R u) in E; try assumption; try lra; [exact (N E)|].
  split; [reflexivity|]. split; [repeat constructor; lra|]. exists 1%R. split; [now left|lra].
Qed.

(** The width does not minimise the criterion of the paper, whose kernel is Gaussian. *)
Theorem C149_gaussian_refuted :
  ~ (forall m X S_inv j, 2 <= length X -> 1 <= m -> Forall (fun x => length x = m) X -> j < 20 ->
     (criterion exp m X S_inv (find_best_sigma m X S_inv) <= criterion exp m X S_inv (width_no j))%R).
Proof.
  intros H. destruct not_the_gaussian as (j & Hj & L).
  specialize (H 1 [[0]; [0]]%R [[1]]%R j ltac:(cbn; lia) (le_n 1) ltac:(repeat constructor) Hj). lra.
Qed.

Print Assumptions C149_chain.
Print Assumptions C149_width.
Print Assumptions C149_criterion.
Print Assumptions C149_covariance.
Print Assumptions C149_bandwidth_refuted.
Print Assumptions C149_gaussian_refuted.
