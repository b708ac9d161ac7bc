(** Specification vocabulary for the helpers of base/_base.py, independent of the
    modelled code. *)

From Coq Require Import List ZArith QArith Bool Arith String.
From Verif Require Import PyVal.
Import ListNotations.

Definition not_nan (x : xnum) : Prop := x <> NaN.

(** The order of the extended number line; nan is related to nothing. *)
Definition xle (x y : xnum) : Prop :=
  match x, y with
  | NaN, _ | _, NaN => False
  | NInf, _ => True
  | _, PInf => True
  | Fin a, Fin b => a <= b
  | _, _ => False
  end.
Definition xlt (x y : xnum) : Prop := xle x y /\ ~ xle y x.
Definition xeq (x y : xnum) : Prop := xle x y /\ xle y x.

(** The object found by following a path of keys through nested dictionaries. *)
Fixpoint at_path (v : pyval) (p : list string) : option pyval :=
  match p with
  | [] => Some v
  | k :: p' =>
    match v with
    | PDict d => match dget d k with Some w => at_path w p' | None => None end
    | _ => None
    end
  end.

Definition is_dict (v : pyval) : Prop := exists d, v = PDict d.

(** No dictionary at any depth lists a key twice (always true in Python). *)
Definition keys_distinct (v : pyval) : Prop :=
  forall p d, at_path v p = Some (PDict d) -> NoDup (map fst d).

(** The empty list and the empty string: the sized objects without items. *)
Definition empty_sequence (v : pyval) : Prop := v = PList [] \/ v = PStr EmptyString.
