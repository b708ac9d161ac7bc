(** Python values as far as the modelled helpers inspect them: extended
    numbers (finite, nan, inf), and literal objects (None, bool, int, float,
    str, list, dict with string keys).

    These definitions model Python built-ins (not part of /repo); the comments
    name the places of /repo that use them. *)

From Coq Require Import List ZArith QArith Bool Arith String.
From Verif Require Import Np.
Import ListNotations.

(** A number as the validators and fix_density see it: a finite number or one
    of the three special floats. *)
Inductive xnum := Fin (q : Q) | NaN | PInf | NInf.

(** Python's [x < y] on numbers: false whenever nan is involved. *)
Definition xltb (x y : xnum) : bool :=
  match x, y with
  | NaN, _ | _, NaN => false
  | Fin a, Fin b => Qlt_b a b
  | NInf, NInf => false
  | NInf, _ => true
  | _, NInf => false
  | PInf, _ => false
  | _, PInf => true
  end.

(** Python's [x == y] on numbers. *)
Definition xeqb (x y : xnum) : bool :=
  match x, y with
  | Fin a, Fin b => Qeq_bool a b
  | PInf, PInf | NInf, NInf => true
  | _, _ => false
  end.

(** Python's [x <= y] on numbers. *)
Definition xleb (x y : xnum) : bool := xltb x y || xeqb x y.

(** Literal objects.  A dict is the list of its items in insertion order. *)
Inductive pyval :=
| PNone
| PBool (b : bool)
| PInt (z : Z)
| PFloat (x : xnum)
| PStr (s : string)
| PList (l : list pyval)
| PDict (d : list (string * pyval)).

Notation pydict := (list (string * pyval)) (only parsing).

(** [d.get(key)]: the value of the (unique) item with that key. *)
Fixpoint dget {A} (d : list (string * A)) (key : string) : option A :=
  match d with
  | [] => None
  | (k, v) :: d' => if String.eqb k key then Some v else dget d' key
  end.

(** [d\[key\] = v]: overwrite in place, or append. *)
Fixpoint dset {A} (d : list (string * A)) (key : string) (v : A) : list (string * A) :=
  match d with
  | [] => [(key, v)]
  | (k, w) :: d' => if String.eqb k key then (k, v) :: d' else (k, w) :: dset d' key v
  end.

(** The numeric value of a bool, int or float. *)
Definition num_of (v : pyval) : option xnum :=
  match v with
  | PBool b => Some (Fin (if b then 1 else 0))
  | PInt z => Some (Fin (inject_Z z))
  | PFloat x => Some x
  | _ => None
  end.

(** Python's [v == w].  (The identity shortcut [v is w] inside containers, which
    matters for nan only, is not modelled.) *)
Fixpoint py_eq (v w : pyval) {struct v} : bool :=
  match v, w with
  | PNone, PNone => true
  | PStr a, PStr b => String.eqb a b
  | PList a, PList b =>
    (fix go (a b : list pyval) : bool :=
       match a, b with
       | [], [] => true
       | x :: a', y :: b' => py_eq x y && go a' b'
       | _, _ => false
       end) a b
  | PDict a, PDict b =>
    (List.length a =? List.length b)%nat &&
    (fix go (a : list (string * pyval)) : bool :=
       match a with
       | [] => true
       | (k, x) :: a' =>
         match dget b k with Some y => py_eq x y | None => false end && go a'
       end) a
  | _, _ =>
    match num_of v, num_of w with
    | Some x, Some y => xeqb x y
    | _, _ => false
    end
  end.

(** [len(v)]: TypeError for objects without length. *)
Definition py_len (v : pyval) : res nat :=
  match v with
  | PStr s => Ok (String.length s)
  | PList l => Ok (List.length l)
  | PDict d => Ok (List.length d)
  | _ => Err TypeError
  end.

(** [v\[key\]] with a string key: KeyError on a dict without the key, TypeError on
    lists, strings and everything not subscriptable. *)
Definition py_item (v : pyval) (key : string) : res pyval :=
  match v with
  | PDict d => match dget d key with Some x => Ok x | None => Err KeyError end
  | _ => Err TypeError
  end.

(** Induction over literal objects. *)
Section pyval_induction.
  Variable P : pyval -> Prop.
  Hypothesis Hnone : P PNone.
  Hypothesis Hbool : forall b, P (PBool b).
  Hypothesis Hint : forall z, P (PInt z).
  Hypothesis Hfloat : forall x, P (PFloat x).
  Hypothesis Hstr : forall s, P (PStr s).
  Hypothesis Hlist : forall l, Forall P l -> P (PList l).
  Hypothesis Hdict : forall d, Forall (fun kv => P (snd kv)) d -> P (PDict d).

  Fixpoint pyval_rect' (v : pyval) : P v :=
    match v with
    | PNone => Hnone
    | PBool b => Hbool b
    | PInt z => Hint z
    | PFloat x => Hfloat x
    | PStr s => Hstr s
    | PList l => Hlist l
        ((fix go l : Forall P l :=
            match l with
            | [] => Forall_nil _
            | x :: l' => Forall_cons x (pyval_rect' x) (go l')
            end) l)
    | PDict d => Hdict d
        ((fix go d : Forall (fun kv => P (snd kv)) d :=
            match d with
            | [] => Forall_nil _
            | (k, x) :: d' => Forall_cons (k, x) (pyval_rect' x) (go d')
            end) d)
    end.
End pyval_induction.
