(** What the wrappers, the configuration and the helpers of the plots are
    expected to do. *)

From Coq Require Import String List ZArith QArith Bool Arith Permutation.
From Verif Require Import Np PyVal SimplexModel ShellModel.
Import ListNotations.
Open Scope nat_scope.

(** The value of parameter [name] after assigning [ps] in turn. *)
Fixpoint updated {A} (ps : list (string * A)) (name : string) (v : A) : A :=
  match ps with [] => v | (k, w) :: rest => updated rest name (if String.eqb k name then w else v) end.

(** The flags after a sequence of calls. *)
Definition run_calls (calls : list (flag_name * pyval)) (f : flags) : flags :=
  fold_left (fun f c => snd (flag_call f (fst c) (snd c))) calls f.

(** The value the last setting of a flag has left behind: calls with None do
    not count, nor do calls for other flags. *)
Definition name_eqb (a b : flag_name) : bool :=
  match a, b with External, External | Internal, Internal | Chunk, Chunk => true | _, _ => false end.
Definition default_of (n : flag_name) : pyval := match n with Chunk => PInt 50000000 | _ => PBool true end.
Fixpoint last_set (n : flag_name) (calls : list (flag_name * pyval)) (v : pyval) : pyval :=
  match calls with
  | [] => v
  | (m, PNone) :: rest => last_set n rest v
  | (m, w) :: rest => last_set n rest (if name_eqb m n then w else v)
  end.

(** Number of different labels, and of different labels smaller than [z]. *)
Definition n_labels (y : list Z) : nat := length (nodup Z.eq_dec y).
Definition n_smaller (y : list Z) (z : Z) : nat := length (filter (fun a => (a <? z)%Z) (nodup Z.eq_dec y)).

(** Number of rows of [X, y] with label [l] whose chosen coordinates, rounded to
    four decimals, are [cs]. *)
Definition coords_of (coordinates : list nat) (x : row) : list Z := map (fun c => round4 (nth c x 0%Q)) coordinates.
Definition seen (coordinates : list nat) (X : list row) (y : list Z) (cs : list Z) (l : Z) : nat :=
  length (filter (fun p => if list_eq_dec Z.eq_dec (coords_of coordinates (fst p)) cs then Z.eqb (snd p) l else false) (combine X y)).

Definition coordinates_ok (dim : nat) (coordinates : list nat) : Prop :=
  NoDup coordinates /\ forall c, In c coordinates -> c < dim.

(** One row for every pair of coordinates and label present before or after. *)
Definition table_of (coordinates : list nat) (X : list row) (y : list Z) (X' : list row) (y' : list Z) (ms : list merged) : Prop :=
  (forall m, In m ms ->
     (mg_old m = None <-> seen coordinates X y (mg_coords m) (mg_y m) = 0) /\
     (mg_new m = None <-> seen coordinates X' y' (mg_coords m) (mg_y m) = 0) /\
     (mg_old m <> None \/ mg_new m <> None)) /\
  (forall cs l, 0 < seen coordinates X y cs l \/ 0 < seen coordinates X' y' cs l ->
     exists m, In m ms /\ mg_coords m = cs /\ mg_y m = l).

(** ... with the numbers of rows, and only one row each. *)
Definition exact_table (coordinates : list nat) (X : list row) (y : list Z) (X' : list row) (y' : list Z) (ms : list merged) : Prop :=
  (forall m, In m ms ->
     (forall c, mg_old m = Some c -> c = seen coordinates X y (mg_coords m) (mg_y m)) /\
     (forall c, mg_new m = Some c -> c = seen coordinates X' y' (mg_coords m) (mg_y m))) /\
  NoDup (map (fun m => (mg_coords m, mg_y m)) ms).

(** The flag says how the number of rows has changed. *)
Definition flag_right (old new : nat) (f : option flag) : Prop :=
  (f = Some New <-> old = 0 /\ 0 < new) /\
  (f = Some Removed <-> 0 < old /\ new = 0) /\
  (f = Some Untouched <-> 0 < old /\ old = new) /\
  (f = Some CountChanged <-> 0 < old /\ 0 < new /\ old <> new).
