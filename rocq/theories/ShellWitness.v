(** Objects used in the examples about the wrappers and the plots. *)

From Coq Require Import String List ZArith QArith Bool Arith.
From Verif Require Import Np PyVal SimplexModel Float64 ShellModel.
Import ListNotations.
Open Scope nat_scope.

(** An oversampler that repeats the data, and a classifier that predicts the
    first label of its training data; not fitted before. *)
Definition sh_make (d : string * string * list (string * pyval)) : res (attr unit (option (list Z))) :=
  if String.eqb (snd (fst d)) "Twice" then Ok (ASampler tt)
  else if String.eqb (snd (fst d)) "First" then Ok (AClassifier None)
  else Err AttributeError.
Definition sh_sample (o : unit) (X : list row) (y : list Z) : res (list row * list Z) * unit := (Ok (X ++ X, y ++ y), tt).
Definition sh_fit (c : option (list Z)) (X : list row) (y : list Z) : res unit * option (list Z) :=
  match y with [] => (Err ValueError, c) | _ => (Ok tt, Some y) end.
Definition sh_predict (c : option (list Z)) (X : list row) : res (list Z) :=
  match c with Some y => Ok (map (fun _ => hd 0%Z y) X) | None => Err ValueError end.
Definition sh_proba (c : option (list Z)) (X : list row) : res (list (list Q)) :=
  match c with Some _ => Ok (map (fun _ => [1%Q]) X) | None => Err ValueError end.
Definition sh_classes (c : option (list Z)) : res (list Z) :=
  match c with Some y => Ok (nodup Z.eq_dec y) | None => Err AttributeError end.

Definition d_over : string * string * list (string * pyval) := ("sv", "Twice", [])%string.
Definition d_clf : string * string * list (string * pyval) := ("sk", "First", [])%string.
Definition d_bad : string * string * list (string * pyval) := ("sk", "Missing", [])%string.

(** [int] on the strings of the example. *)
Definition sh_int (s : string) : res Z := if String.eqb s "555" then Ok 555%Z else Err ValueError.

Definition three_D : list row := [[0;0;0]]%Q.
Definition three_D' : list row := [[0;0;0];[0;0;1]]%Q.
