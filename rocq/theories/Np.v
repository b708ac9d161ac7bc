(** Shared vocabulary of the model: exceptions as values and the handful of
    numpy / itertools operations the modelled code calls.

    These definitions model numpy 1.x / Python built-ins (not part of /repo);
    each comment names the operation and the places of /repo that call it. *)

From Coq Require Import List ZArith QArith Bool Arith.
Import ListNotations.
Open Scope list_scope.

(** Python exceptions raised by the modelled code or by numpy on its behalf. *)
Inductive exn :=
| ValueError | IndexError | KeyError | TypeError | AttributeError
| AssertionError | RuntimeError | ZeroDivisionError | OverflowError
| FileNotFoundError | JSONDecodeError | UnpicklingError | UnboundLocalError | LinAlgError | EOFError
| RecursionError | StopIteration
| NotANumber  (* not a Python exception: the code would carry on with NaN; the model stops *)
| OutOfFuel   (* not a Python exception: the loop did not stop within the fuel given *).

(** Result of a Python call: a value or an exception. *)
Inductive res (A : Type) :=
| Ok (a : A)
| Err (e : exn).
Arguments Ok {A} a.
Arguments Err {A} e.

Definition bind {A B} (r : res A) (f : A -> res B) : res B :=
  match r with Ok a => f a | Err e => Err e end.

Notation "'do' x <- e1 ; e2" := (bind e1 (fun x => e2))
  (at level 200, x pattern, e1 at level 100, e2 at level 200, right associativity).

(** Left-to-right evaluation of a fallible function over a list. *)
Fixpoint mapM {A B} (f : A -> res B) (l : list A) : res (list B) :=
  match l with
  | [] => Ok []
  | x :: l' => do y <- f x; do ys <- mapM f l'; Ok (y :: ys)
  end.

(** [a\[i\]] for one non-negative index: IndexError when out of bounds. *)
Definition get {A} (l : list A) (i : nat) : res A :=
  match nth_error l i with Some a => Ok a | None => Err IndexError end.

(** [a\[idx\]] for an integer index array (fancy indexing on axis 0). *)
Definition gather {A} (l : list A) (idx : list nat) : res (list A) :=
  mapM (get l) idx.

(** [a\[mask\]] for a boolean mask of the same length. *)
Fixpoint select {A} (mask : list bool) (l : list A) : list A :=
  match mask, l with
  | b :: mask', x :: l' => if b then x :: select mask' l' else select mask' l'
  | _, _ => []
  end.

(** [np.where(mask)\[0\]]. *)
Definition where_ (mask : list bool) : list nat :=
  select mask (seq 0 (length mask)).

(** [np.delete(a, idx, axis=0)]: the positions listed are dropped, repeated
    positions count once, the order of the rest is kept.  (An out-of-range
    position raises IndexError in numpy; callers in /repo only pass positions
    they obtained by enumerating the same array.) *)
Definition delete_idx {A} (l : list A) (idx : list nat) : list A :=
  map snd (filter (fun p => negb (existsb (Nat.eqb (fst p)) idx))
                  (combine (seq 0 (length l)) l)).

(** Pointwise combination of two equally long arrays (numpy arithmetic on
    equal shapes); the callers check the shapes. *)
Fixpoint map2 {A B C} (f : A -> B -> C) (l1 : list A) (l2 : list B) : list C :=
  match l1, l2 with
  | x :: l1', y :: l2' => f x y :: map2 f l1' l2'
  | _, _ => []
  end.

(** [np.sum] of a vector of numbers. *)
Fixpoint qsum (l : list Q) : Q :=
  match l with [] => 0%Q | x :: l' => (x + qsum l')%Q end.

(** [np.prod] of a vector of numbers. *)
Fixpoint qprod (l : list Q) : Q :=
  match l with [] => 1%Q | x :: l' => (x * qprod l')%Q end.

Definition nsum (l : list nat) : nat := fold_right Nat.add 0%nat l.
Definition zsum (l : list Z) : Z := fold_right Z.add 0%Z l.

(** [np.repeat(a, k)] with a scalar repeat count: each element k times. *)
Definition repeat_each {A} (l : list A) (k : nat) : list A :=
  flat_map (fun x => repeat x k) l.

(** [np.tile(a, (n, 1))] for a two-dimensional a: n copies stacked. *)
Definition tile {A} (n : nat) (l : list A) : list A := concat (repeat l n).

(** [itertools.combinations(l, k)] in the order itertools emits them. *)
Fixpoint combinations {A} (k : nat) (l : list A) : list (list A) :=
  match k with
  | O => [[]]
  | S k' =>
    match l with
    | [] => []
    | x :: l' => map (cons x) (combinations k' l') ++ combinations k l'
    end
  end.

(** [itertools.product( *ls )]. *)
Fixpoint product {A} (ls : list (list A)) : list (list A) :=
  match ls with
  | [] => [[]]
  | l :: ls' => flat_map (fun x => map (cons x) (product ls')) l
  end.

(** Insertion of one element into a sorted list of (element, count). *)
Fixpoint count_insert {A} (eqb ltb : A -> A -> bool) (z : A) (l : list (A * nat))
    : list (A * nat) :=
  match l with
  | [] => [(z, 1%nat)]
  | (z', c) :: l' =>
    if eqb z z' then (z', S c) :: l'
    else if ltb z z' then (z, 1%nat) :: l
    else (z', c) :: count_insert eqb ltb z l'
  end.

(** [np.unique(y, return_counts=True)]: the distinct values in increasing order
    with their multiplicities. *)
Definition unique_by {A} (eqb ltb : A -> A -> bool) (y : list A) : list (A * nat) :=
  fold_right (count_insert eqb ltb) [] y.

(** [np.unique(y, return_counts=True)] for integer labels. *)
Definition unique_counts (y : list Z) : list (Z * nat) := unique_by Z.eqb Z.ltb y.

(** Stable insertion of an element by a key. *)
Fixpoint insert_by {A} (le : A -> A -> bool) (x : A) (l : list A) : list A :=
  match l with
  | [] => [x]
  | y :: l' => if le x y then x :: l else y :: insert_by le x l'
  end.

(** Python's [sorted] (stable). *)
Definition sort_by {A} (le : A -> A -> bool) (l : list A) : list A :=
  fold_right (insert_by le) [] l.

(** [np.argsort] of a vector: the positions in order of increasing value (ties
    in increasing position; numpy's default quicksort does not promise an order
    among ties, so no theorem may rely on it without saying so). *)
Definition argsort (v : list Q) : list nat :=
  map fst (sort_by (fun a b => Qle_bool (snd a) (snd b))
                   (combine (seq 0 (length v)) v)).

(** [np.cumsum]. *)
Fixpoint cumsum_from (acc : Q) (l : list Q) : list Q :=
  match l with
  | [] => []
  | x :: l' => let a := (acc + x)%Q in a :: cumsum_from a l'
  end.
Definition cumsum (l : list Q) : list Q := cumsum_from 0%Q l.

(** [np.argmax] of a boolean vector: first True, 0 when there is none. *)
Fixpoint first_true (l : list bool) : option nat :=
  match l with
  | [] => None
  | b :: l' => if b then Some 0%nat else option_map S (first_true l')
  end.
Definition argmax_bool (l : list bool) : nat :=
  match first_true l with Some i => i | None => 0%nat end.

(** Row arithmetic. *)
Notation row := (list Q) (only parsing).
Definition vadd (x y : row) : row := map2 Qplus x y.
Definition vsub (x y : row) : row := map2 Qminus x y.
Definition vscale (c : Q) (x : row) : row := map (Qmult c) x.

(** [X\[y == lab\]]: the rows carrying a label, in order. *)
Definition rows_with {A} (lab : Z) (X : list A) (y : list Z) : list A :=
  select (map (Z.eqb lab) y) X.

Definition Qeq_b := Qeq_bool.
Definition Qlt_b (x y : Q) : bool := negb (Qle_bool y x).
