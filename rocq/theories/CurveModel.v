(** Model of the two remaining topologies of polynom_fit_SMOTE: the mesh of
    random pairs and the fitted curve.  Files
    smote_variants/oversampling/_polynom_fit_smote.py. *)

From Coq Require Import List ZArith QArith Bool Arith.
From Verif Require Import Np SimplexModel Float64 SamplerModel ClusterOversModel CompModel.
Import ListNotations.
Open Scope nat_scope.

(** ** polynom_fit_SMOTE_mesh *)

(** [np.vstack(\[base, neighbors\]).T], _polynom_fit_smote.py:479-490; [pick t b]
    is entry [b] of the [t]-th call of [choice(..., replace=True)]. *)
Definition mesh_indices (pick : nat -> nat -> nat) (m k : nat) : list (list nat) :=
  map (fun b => b :: map (fun t => pick t b) (seq 0 k)) (seq 0 m).

(** polynom_fit_SMOTE_mesh.sampling_algorithm, _polynom_fit_smote.py:456-513. *)
Definition mesh_algorithm (volume : list row -> Q) (prop : strategy) (ss : ss_params) (pick : nat -> nat -> nat) (r : rng)
    (st : stats) (D : dataset) : res (list row * list Z) :=
  do n <- det_n_to_sample_st prop st;
  if n =? 0 then Ok (d_X D, d_y D)
  else
    let X_min := rows_with (min_label st) (d_X D) (d_y D) in
    let kdx := poly_kdx n (length X_min) in
    do samples <- sample_simplex volume ss
        (mk_args X_min (d_dim D) (mesh_indices pick (length X_min) kdx) (kdx + 1) None None None false None) n r;
    Ok (extended D st samples).

Definition mesh_sample volume prop ss pick r D :=
  sample_with checks_default (mesh_algorithm volume prop ss pick r) D.

(** ** polynom_fit_SMOTE with topology poly_N *)

Section Curve.

(** [v.argsort()]; numpy does not say which of equal values comes first. *)
Variable order : list Q -> list nat.
(** [np.polyfit(np.arange(len(v)), v, degree)]: coefficients, highest power first. *)
Variable polyfit : list Q -> nat -> res (list Q).

(** [np.poly1d(c)(x)]: numpy evaluates polynomials by Horner's rule. *)
Definition poly1d (c : list Q) (x : Q) : Q := fold_left (fun acc a => acc * x + a)%Q c 0%Q.

(** [X_min\[np.mean(X_min, axis=1).argsort()\]], _polynom_fit_smote.py:133. *)
Definition by_mean (X_min : list row) : res (list row) :=
  do means <- mapM qmean X_min;
  gather X_min (order means).

(** The branch [topology.startswith("poly")], _polynom_fit_smote.py:127-148;
    [u dim s] is entry [s] of [random_sample(size=n_to_sample)] for column [dim]. *)
Definition curve_rows (degree dim n : nat) (u : nat -> nat -> Q) (X_min : list row) : res (list row) :=
  do sorted <- by_mean X_min;
  do polys <- mapM (fun j => polyfit (column j sorted) degree) (seq 0 dim);
  let m := inject_Z (Z.of_nat (length X_min)) in
  let cols := map (fun j => map (fun s => poly1d (nth j polys []) (u j s * m)) (seq 0 n)) (seq 0 dim) in
  Ok (map (fun s => map (fun j => nth s (nth j cols []) 0%Q) (seq 0 dim)) (seq 0 n)).

Definition curve_algorithm (prop : strategy) (degree : nat) (u : nat -> nat -> Q) (st : stats) (D : dataset)
    : res (list row * list Z) :=
  do n <- det_n_to_sample_st prop st;
  if n =? 0 then Ok (d_X D, d_y D)
  else
    let X_min := rows_with (min_label st) (d_X D) (d_y D) in
    do samples <- curve_rows degree (d_dim D) n u X_min;
    match samples with [] => Err ValueError | _ => Ok (extended D st samples) end.

(** polynom_fit_SMOTE_poly.sample, _polynom_fit_smote.py:84-153 and 382-393; the
    checks of [sample] run a second time. *)
Definition curve_sample prop degree u D :=
  sample_with checks_default
    (fun _ D' => sample_with checks_default (curve_algorithm prop degree u) D') D.

End Curve.
