(** Model of /repo/smote_variants/multiclassoversampling/_multiclassoversampling.py. *)

From Coq Require Import List ZArith QArith Bool Arith.
From Verif Require Import Np Float64 SamplerModel.
Import ListNotations.

(** Line 33: the class sizes are numpy int64, so the division is a float
    division that yields nan for 0/0 instead of raising. *)
Definition proportion_1_vs_many (n_maj n_i : nat) : f64 :=
  f_div (f_of_Z (Z.of_nat n_maj - Z.of_nat n_i)) (f_of_Z (Z.of_nat n_maj - Z.of_nat n_i)).

(** Lines 49-55. *)
Definition proportion_1_vs_many_succ (n_maj n_i class_idx : nat) : f64 :=
  f_div (f_of_Z (Z.of_nat n_maj - Z.of_nat n_i))
        (f_of_Z (Z.of_nat class_idx * Z.of_nat n_maj - Z.of_nat n_i)).

(** Lines 152-153 and 232-233: labels sorted by decreasing class size (stable,
    the dictionary lists labels in increasing order), kept with their sizes. *)
Definition sort_labels (stats : list (Z * nat)) : list (Z * nat) :=
  sort_by (fun a b => (snd b <=? snd a)%nat) stats.

Section MULTI.

(** [over i p X y]: instantiate_obj with proportion p, then sample(X, y); the
    number i of the class allows a random generator shared between calls. *)
Variable over : nat -> f64 -> list row -> list Z -> res (list row * list Z).

(** The rows appended by the oversampler and labelled 1 (lines 192-194, 272-273). *)
Definition appended_ones (n : nat) (s : list row * list Z) : list row :=
  rows_with 1 (skipn n (fst s)) (skipn n (snd s)).

(** Lines 168-194: one pass of the loop of sample_equalize_1_vs_many. *)
Definition equalize_class (X : list row) (y : list Z) (n_maj : nat) (i : nat) (c : Z * nat)
    : res (list row) :=
  let others := map (fun z => negb (Z.eqb z (fst c))) y in
  let X_train := select others X ++ rows_with (fst c) X y in
  let y_train := repeat 0%Z (length (filter (fun b => b) others)) ++
                 repeat 1%Z (count_occ Z.eq_dec y (fst c)) in
  do s <- over i (proportion_1_vs_many n_maj (snd c)) X_train y_train;
  Ok (appended_ones (length X_train) s).

(** The loop over range(1, len(labels)). *)
Fixpoint equalize_loop (X : list row) (y : list Z) (n_maj : nat) (i : nat) (cs : list (Z * nat))
    : res (list (list row)) :=
  match cs with
  | [] => Ok []
  | c :: cs' =>
    do r <- equalize_class X y n_maj i c;
    do rs <- equalize_loop X y n_maj (S i) cs';
    Ok (r :: rs)
  end.

(** Lines 196-206 and 275-285: original data followed by the new rows of each
    class in the order of the labels. *)
Definition assemble (X : list row) (y : list Z) (cs : list (Z * nat)) (rs : list (list row))
    : list row * list Z :=
  (X ++ concat rs, y ++ concat (map2 (fun c r => repeat (fst c) (length r)) cs rs)).

(** sample_equalize_1_vs_many, lines 128-206. *)
Definition sample_equalize (X : list row) (y : list Z) : res (list row * list Z) :=
  do st <- class_label_statistics y;
  match sort_labels (class_stats st) with
  | [] => Err IndexError
  | (_, n_maj) :: cs => do rs <- equalize_loop X y n_maj 1 cs; Ok (assemble X y cs rs)
  end.

(** The loop of sample_equalize_1_vs_many_successive, lines 243-273. *)
Fixpoint successive_loop (X : list row) (y : list Z) (n_maj : nat) (i : nat) (X_maj : list row)
    (cs : list (Z * nat)) : res (list (list row)) :=
  match cs with
  | [] => Ok []
  | c :: cs' =>
    let X_train := X_maj ++ rows_with (fst c) X y in
    let y_train := repeat 0%Z (length X_maj) ++ repeat 1%Z (count_occ Z.eq_dec y (fst c)) in
    do s <- over i (proportion_1_vs_many_succ n_maj (snd c) i) X_train y_train;
    let X_maj' := X_maj ++ rows_with 1 (fst s) (snd s) in
    do rs <- successive_loop X y n_maj (S i) X_maj' cs';
    Ok (appended_ones (length X_train) s :: rs)
  end.

(** sample_equalize_1_vs_many_successive, lines 208-285. *)
Definition sample_successive (X : list row) (y : list Z) : res (list row * list Z) :=
  do st <- class_label_statistics y;
  match sort_labels (class_stats st) with
  | [] => Err IndexError
  | (l0, n_maj) :: cs =>
    do rs <- successive_loop X y n_maj 1 (rows_with l0 X y) cs;
    Ok (assemble X y cs rs)
  end.

(** The strategies accepted by the constructor, line 123, and sample, lines 287-302. *)
Inductive multi_strategy := EqSuccessive | Equalize.
Definition multiclass_sample (s : multi_strategy) (X : list row) (y : list Z)
    : res (list row * list Z) :=
  match s with EqSuccessive => sample_successive X y | Equalize => sample_equalize X y end.

End MULTI.
