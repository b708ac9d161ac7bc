(** Vocabulary of the multiclass properties. *)

From Coq Require Import List ZArith QArith Bool Arith.
From Verif Require Import Np Float64 SamplerModel Spec.
Import ListNotations.

(** Contract of a binary oversampler used on rows labelled 0 followed by at most
    as many rows labelled 1: when the 1-class is large enough it keeps its
    input, appends the number of rows that det_n_to_sample prescribes, labelled
    1 and related to the rows of that class by [P]; it raises when
    det_n_to_sample does. *)
Definition over_ok (over : nat -> f64 -> list (list Q) -> list Z -> res (list (list Q) * list Z))
    (d : nat) (enough : nat -> Prop) (P : list (list Q) -> list Q -> Prop) : Prop :=
  forall i p A B, rect d A -> rect d B -> B <> [] -> (length B <= length A)%nat -> enough (length B) ->
    let y := repeat 0%Z (length A) ++ repeat 1%Z (length B) in
    match det_n_to_sample (StFloat p) (Z.of_nat (length A)) (Z.of_nat (length B)) with
    | Ok k => exists S, over i p (A ++ B) y = Ok ((A ++ B) ++ S, y ++ repeat 1%Z (Z.to_nat k)) /\
        length S = Z.to_nat k /\ rect d S /\ Forall (P B) S
    | Err e => over i p (A ++ B) y = Err e
    end.

(** [l0] is the one largest class. *)
Definition largest_class (y : list Z) (l0 : Z) : Prop :=
  In l0 y /\ (forall l, In l y -> l <> l0 -> (count_label y l < count_label y l0)%nat) /\
  exists l, In l y /\ l <> l0.

(** Number of classes. *)
Definition n_classes (y : list Z) : nat := length (nodup Z.eq_dec y).
