(** Model of smote_variants/queries/_queries.py.

    A class is represented by what the queries look at: its name, its categories,
    the parameters of its constructor, the keys of [o().get_params()], and the
    simplex sampling parameters of [o()].  Everything else about it is left out. *)

From Coq Require Import String List ZArith QArith Bool Arith.
From Verif Require Import Np.
Import ListNotations.
Open Scope nat_scope.
Open Scope list_scope.

(** ss_params of a default instance (_queries.py 390-396): "n_dim",
    "within_simplex_sampling", and the number of entries of "gaussian_component",
    [None] for None. *)
Record ss := { ss_dim : Z; ss_within : string; ss_gauss : option nat }.

Record cls := {
  c_name : string;              (* __name__ *)
  c_cats : list string;         (* categories *)
  c_sig : list string;          (* parameters of __init__ without self and **kwargs *)
  c_kwargs : bool;              (* __init__ takes **kwargs *)
  c_keys : list string;         (* keys of o().get_params() *)
  c_ss : option ss              (* ss_params of o(), if it has any *)
}.

Definition has (s : string) (l : list string) : bool := existsb (String.eqb s) l.

Fixpoint lookup (l : list (string * Q)) (s : string) : option Q :=
  match l with [] => None | (k, v) :: r => if String.eqb k s then Some v else lookup r s end.

(** [runtimes[name]] for each class, in order; KeyError for a missing one. *)
Fixpoint timed (rt : list (string * Q)) (os : list cls) : res (list (cls * Q)) :=
  match os with
  | [] => Ok []
  | o :: r => match lookup rt (c_name o) with
              | None => Err KeyError
              | Some t => bind (timed rt r) (fun ps => Ok ((o, t) :: ps))
              end
  end.

(** sorted(pairs, key=lambda x: x[1]): stable insertion sort. *)
Fixpoint insert_pair (p : cls * Q) (l : list (cls * Q)) : list (cls * Q) :=
  match l with [] => [p] | q :: r => if Qle_bool (snd p) (snd q) then p :: l else q :: insert_pair p r end.
Definition sort_pairs (l : list (cls * Q)) : list (cls * Q) := fold_right insert_pair [] l.

(** l[:n] for any integer n. *)
Definition slice_to {A} (n : Z) (l : list A) : list A :=
  if (n <? 0)%Z then firstn (Z.to_nat (Z.of_nat (length l) + n)) l else firstn (Z.to_nat n) l.

(** determine_n_quickest (_queries.py 118-139). *)
Definition n_quickest (rt : list (string * Q)) (os : list cls) (n : Z) : res (list cls) :=
  if (n =? -1)%Z then Ok os
  else bind (timed rt os) (fun ps =>
       let n := Z.min n (Z.of_nat (length os)) in
       Ok (map fst (slice_to n (sort_pairs ps)))).

Section QUERIES.
(** The list in get_all_oversamplers (_queries.py 159-251) and the table of
    runtimes (_runtimes.py 8-101); the actual ones are in QueryData.v. *)
Variable reg : list cls.
Variable rt : list (string * Q).

(** get_all_oversamplers (_queries.py 142-253). *)
Definition get_all (n : Z) : res (list cls) := n_quickest rt reg n.

(** get_proportion_oversamplers (_queries.py 256-273). *)
Definition get_proportion (n : Z) : res (list cls) :=
  bind (get_all (-1)) (fun os => n_quickest rt (filter (fun o => has "proportion" (c_keys o)) os) n).

(** get_metric_learning_oversamplers (_queries.py 276-295); "CD" is
    OverSampling.cat_metric_learning. *)
Definition get_metric_learning (n : Z) : res (list cls) :=
  bind (get_all (-1)) (fun os => n_quickest rt (filter (fun o => has "CD" (c_cats o)) os) n).

(** A filter given as one value or as a list of values. *)
Inductive spec (A : Type) := One (x : A) | Many (l : list A).
Arguments One {A}. Arguments Many {A}.

(** check_within_simplex_sampling (_queries.py 298-313). *)
Definition check_within (s : ss) (w : spec string) : bool :=
  match w with One x => String.eqb (ss_within s) x | Many l => has (ss_within s) l end.

(** check_gaussian_component (_queries.py 316-335). *)
Definition check_gauss (s : ss) (g : bool) : bool :=
  let has_g := match ss_gauss s with None => false | Some n => 0 <? n end in
  if g then has_g else negb has_g.

(** check_n_dim (_queries.py 338-353). *)
Definition check_dim (s : ss) (d : spec Z) : bool :=
  match d with One x => Z.eqb (ss_dim s) x | Many l => existsb (Z.eqb (ss_dim s)) l end.

Definition opt_check {A} (f : A -> bool) (o : option A) : list bool :=
  match o with None => [] | Some a => [f a] end.

(** The loop of get_simplex_sampling_oversamplers (_queries.py 386-419).  A class
    with ss_params in its signature whose instances have none raises. *)
Fixpoint simplex_loop (within exclude : option (spec string)) (gauss : option bool) (dim : option (spec Z))
    (os : list cls) : res (list cls) :=
  match os with
  | [] => Ok []
  | o :: r =>
    if negb (has "ss_params" (c_sig o)) then simplex_loop within exclude gauss dim r
    else match c_ss o with
    | None => Err AttributeError
    | Some s =>
      let checks := opt_check (check_within s) within
                    ++ opt_check (fun e => negb (check_within s e)) exclude
                    ++ opt_check (check_gauss s) gauss
                    ++ opt_check (check_dim s) dim in
      bind (simplex_loop within exclude gauss dim r) (fun rest =>
      Ok (if (length checks =? 0) || forallb (fun b => b) checks then o :: rest else rest))
    end
  end.

(** get_simplex_sampling_oversamplers (_queries.py 356-421). *)
Definition get_simplex within exclude gauss dim (n : Z) : res (list cls) :=
  bind (get_all (-1)) (fun os => bind (simplex_loop within exclude gauss dim os) (fun l => n_quickest rt l n)).

(** multiclass_filter (_queries.py 424-438); "CM" is cat_changes_majority, "DR"
    cat_dim_reduction. *)
Definition multiclass_filter (o : cls) : bool :=
  negb (has "CM" (c_cats o)) && negb (has "DR" (c_cats o)) && has "proportion" (c_keys o).

(** get_multiclass_oversamplers (_queries.py 441-468). *)
Definition get_multiclass (strategy : string) (n : Z) : res (list cls) :=
  bind (get_all (-1)) (fun os =>
  n_quickest rt (if has strategy ["eq_1_vs_many_successive"; "equalize_1_vs_many"]%string
                 then filter multiclass_filter os else os) n).
End QUERIES.

Arguments One {A}. Arguments Many {A}.

(** generate_parameter_combinations (_queries.py 480-510).  A class is given by its
    list parameter_combinations() and the function [rebuild] taking a combination p
    to [oversampler( **p).get_params()]; [shuffle i] is what random_state.shuffle
    makes of the i-th list. *)
Section COMBINATIONS.
Variables P D : Type.
Variable class_name : D -> option string.            (* r["class_name"] *)
Variable shuffle : nat -> list P -> list P.

Fixpoint comb_loop (i : nat) (n_max : Z) (classes : list (list P * (P -> D))) : list D :=
  match classes with
  | [] => []
  | (combs, rebuild) :: r =>
    let combs := shuffle i combs in
    let n := Z.min (Z.of_nat (length combs)) n_max in
    map rebuild (slice_to n combs) ++ comb_loop (S i) n_max r
  end.

Fixpoint tuples (l : list D) : res (list (string * string * D)) :=
  match l with
  | [] => Ok []
  | r :: rest => match class_name r with
                 | None => Err KeyError
                 | Some c => bind (tuples rest) (fun ts => Ok (("smote_variants"%string, c, r) :: ts))
                 end
  end.

(** result_format="dict" and otherwise. *)
Definition combinations_dict (classes : list (list P * (P -> D))) (n_max : Z) : list D := comb_loop 0 n_max classes.
Definition combinations (classes : list (list P * (P -> D))) (n_max : Z) : res (list (string * string * D)) :=
  tuples (comb_loop 0 n_max classes).
End COMBINATIONS.
