(** Notions used to state the properties of the queries. *)

From Coq Require Import String List ZArith QArith.
From Verif Require Import QueryModel.
Import ListNotations.
Open Scope list_scope.

(** [sub l m]: l is m with some elements left out. *)
Inductive sub {A} : list A -> list A -> Prop :=
| sub_nil : sub [] []
| sub_keep x l m : sub l m -> sub (x :: l) (x :: m)
| sub_drop x l m : sub l m -> sub l (x :: m).

(** The runtime listed for a class. *)
Definition runtime (rt : list (string * Q)) (o : cls) (t : Q) : Prop := lookup rt (c_name o) = Some t.

(** A value meets a filter given as one value or as a list; nothing is asked if the filter is None. *)
Definition meets {A} (x : A) (s : spec A) : Prop := match s with One y => x = y | Many l => In x l end.
Definition asked {A} (o : option A) (P : A -> Prop) : Prop := match o with None => True | Some a => P a end.

(** What get_simplex_sampling_oversamplers asks for. *)
Definition simplex_ok (within exclude : option (spec string)) (gauss : option bool) (dim : option (spec Z)) (o : cls) : Prop :=
  In "ss_params"%string (c_sig o) /\
  exists s, c_ss o = Some s /\
    asked within (meets (ss_within s)) /\ asked exclude (fun e => ~ meets (ss_within s) e) /\
    asked gauss (fun g => g = true <-> exists n, ss_gauss s = Some n /\ (0 < n)%nat) /\
    asked dim (meets (ss_dim s)).
