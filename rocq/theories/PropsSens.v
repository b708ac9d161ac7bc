(** Property C148: the sensitivities of SSO. *)

From Coq Require Import List Reals Bool Arith Lia Lra.
From Coquelicot Require Import Coquelicot.
From Verif Require Import Np ScoreModel SensModel SpecSens SensFacts SensMore.
Import ListNotations.
Open Scope nat_scope.

(** C148.  The second formula is the mean of the squared network over the cube. *)
Theorem C148_second : forall erf q net x, erf_ok erf -> (0 < q)%R ->
  List.Forall (fun n => uv n <> 0%R /\ length (uc n) = length x) net ->
  cube_mean q x (fun t => sqr (network net t)) (eq_8 erf q net x).
Proof. exact (fun erf q net x He => second_moment erf He q net x). Qed.

(** The first is the mean of a different network. *)
Theorem C148_first : forall erf q net x, erf_ok erf -> (0 < q)%R ->
  List.Forall (fun n => (0 < uv n)%R /\ length (uc n) = length x) net ->
  cube_mean q x (first_network net) (eq_6 erf q net x).
Proof. exact first_moment. Qed.

(** Of one column and widths 1 the sensitivity is the mean squared change of the
    network, as documented. *)
Theorem C148_sensitivity : forall erf q net x f, erf_ok erf -> (0 < q)%R -> length x = 1 ->
  List.Forall (fun n => uv n = 1%R /\ length (uc n) = 1) net ->
  cube_mean q x (fun t => sqr (network net t - f)) (sensitivity erf q net x f).
Proof. exact sensitivity_mean. Qed.

(** The mean over a cube is unique. *)
Theorem C148_unique : forall q x F m n, (0 < q)%R -> cube_mean q x F m -> cube_mean q x F n -> m = n.
Proof. exact cube_unique. Qed.

Example C148_example : erf_ok erf_int /\
  cube_mean 1 [1; 2]%R (fun t => sqr (network [(1, [0; 3], 2); (-1, [1; 1], 1)]%R t)) (eq_8 erf_int 1 [(1, [0; 3], 2); (-1, [1; 1], 1)]%R [1; 2]%R) /\
  cube_mean 1 [1; 2]%R (first_network [(1, [0; 3], 2); (-1, [1; 1], 1)]%R) (eq_6 erf_int 1 [(1, [0; 3], 2); (-1, [1; 1], 1)]%R [1; 2]%R) /\
  cube_mean 1 [5]%R (fun t => sqr (network [(1, [0], 1); (-1, [4], 1)]%R t - 7)) (sensitivity erf_int 1 [(1, [0], 1); (-1, [4], 1)]%R [5]%R 7).
Proof.
  split; [exact erf_int_ok|]. split; [|split].
  - apply C148_second; [exact erf_int_ok|lra|]. repeat constructor; cbn; lra.
  - apply C148_first; [exact erf_int_ok|lra|]. repeat constructor; cbn; lra.
  - apply C148_sensitivity; [exact erf_int_ok|lra|reflexivity|]. repeat constructor.
Qed.

(** The first formula is not the mean of the network the second squares: not for
    other widths, *)
Theorem C148_widths_refuted :
  ~ (forall erf q net x, erf_ok erf -> (0 < q)%R -> length x = 1 ->
     List.Forall (fun n => (0 < uv n)%R /\ length (uc n) = length x) net -> cube_mean q x (network net) (eq_6 erf q net x)).
Proof.
  intros H. apply (widths_differ erf_int erf_int_ok). apply H; [exact erf_int_ok|lra|reflexivity|]. repeat constructor; cbn; lra.
Qed.

(** nor for more columns. *)
Theorem C148_columns_refuted :
  ~ (forall erf q net x, erf_ok erf -> (0 < q)%R ->
     List.Forall (fun n => uv n = 1%R /\ length (uc n) = length x) net -> cube_mean q x (network net) (eq_6 erf q net x)).
Proof.
  intros H. apply (columns_differ erf_int erf_int_ok). apply H; [exact erf_int_ok|lra|]. repeat constructor; cbn; lra.
Qed.

(** The second formula does not belong to the network that was fitted. *)
Theorem C148_fitted_refuted :
  ~ (forall erf q net x, erf_ok erf -> (0 < q)%R ->
     List.Forall (fun n => (0 < uv n)%R /\ length (uc n) = length x) net -> cube_mean q x (fun t => sqr (fitted net t)) (eq_8 erf q net x)).
Proof.
  intros H. apply (fitted_differ erf_int erf_int_ok). apply H; [exact erf_int_ok|lra|]. repeat constructor; cbn; lra.
Qed.

Print Assumptions C148_second.
Print Assumptions C148_first.
Print Assumptions C148_sensitivity.
Print Assumptions C148_unique.
Print Assumptions C148_widths_refuted.
Print Assumptions C148_columns_refuted.
Print Assumptions C148_fitted_refuted.
