(** Data for the examples about G_SMOTE with a Gaussian kernel. *)

From Coq Require Import Ascii String List ZArith QArith Qabs Bool Arith Lia Lqa.
From Verif Require Import Np NpFacts SimplexModel Spec SpecComp SamplerModel Float64 WrapModel WrapWitness KernelModel SpecKernel.
Import ListNotations.
Open Scope nat_scope.

(** The 1-norm. *)
Lemma sum_abs_norm : norm_ok sum_abs.
Proof.
  split.
  - exact sum_abs_nonneg.
  - intros v w F. unfold sum_abs, qsum. induction F as [|a b v w E F IH]; cbn [map fold_right]; [reflexivity|]. now rewrite IH, E.
  - intros c v. unfold sum_abs, qsum. induction v as [|a v IH]; cbn [map fold_right]; [ring|]. rewrite IH, Qabs_Qmult. ring.
Qed.

(** An increasing function in place of exp, and a matrix with the unit vectors as
    eigenvectors. *)
Definition exp_lin (q : Q) : Q := (q + 1)%Q.
Lemma exp_lin_grows u v : (u < v -> exp_lin u < exp_lin v)%Q.
Proof. unfold exp_lin. lra. Qed.
Definition eig_eye (M : list row) : list Q * list row :=
  let n := length M in
  (map (fun i => inject_Z (Z.of_nat i)) (seq 0 n), map (fun i => map (fun j => if i =? j then 1%Q else 0%Q) (seq 0 n)) (seq 0 n)).
Lemma eig_eye_ok : eig_square eig_eye.
Proof.
  intros M. unfold eig_eye. cbn [fst snd]. rewrite !map_length, seq_length. repeat split; auto.
  apply Forall_forall. intros x Hx. apply in_map_iff in Hx as (i & <- & _). now rewrite map_length, seq_length.
Qed.

(** float, as far as the examples go. *)
Definition two_only (s : string) : res f64 := if String.eqb s "2" then Ok (f_of_Z 2) else Err ValueError.
