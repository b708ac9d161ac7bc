(** Properties C13-C17, C41, C42, C46: helpers of base/_base.py and the parameter
    handling of samplers. *)

From Coq Require Import List ZArith QArith Bool Arith String Lia Lqa Permutation.
From Verif Require Import Np PyVal BaseModel SpecBase BaseFacts SimplexModel.
Import ListNotations.
Open Scope string_scope.
Open Scope list_scope.

(** The number an entry counts as: special floats count as zero. *)
Definition finite_part (x : xnum) : Q := match x with Fin q => q | _ => 0 end.

(** C13. *)
Theorem C13_probability_vector : forall l, l <> [] ->
  Forall (fun x => 0 <= finite_part x) l ->
  List.length (fix_density l) = List.length l /\
  qsum (fix_density l) == 1 /\
  Forall (fun x => 0 <= x) (fix_density l) /\ Forall (fun x => x <= 1) (fix_density l).
Proof.
  exact (fun l H1 H2 => conj (fix_density_length l) (conj (fix_density_sum l H1)
    (conj (fix_density_nonneg l H2) (fix_density_le_one l H2)))).
Qed.

Theorem C13_uniform_when_nothing_left : forall l, qsum (map finite_part l) == 0 ->
  Forall (fun x => x == 1 / inject_Z (Z.of_nat (List.length l))) (fix_density l).
Proof. exact fix_density_zero. Qed.

Theorem C13_proportional_otherwise : forall l, ~ qsum (map finite_part l) == 0 ->
  fix_density l = map (fun x => x / qsum (map finite_part l)) (map finite_part l).
Proof. exact fix_density_nonzero. Qed.

Example C13_example :
  let l := [Fin 1; NaN; PInf; Fin 3] in
  Forall (fun x => 0 <= finite_part x) l /\ ~ qsum (map finite_part l) == 0 /\
  Forall2 Qeq (fix_density l) [1#4; 0; 0; 3#4].
Proof. repeat split; repeat constructor; cbn; discriminate. Qed.

Theorem C13_safe_divide : forall a b v,
  (b == 0 -> safe_divide a b v = v) /\ (~ b == 0 -> exists q, safe_divide a b v = Fin q /\ q * b == a).
Proof. exact safe_divide_spec. Qed.

Example C13_safe_divide_example : safe_divide 3 0 PInf = PInf /\ safe_divide 3 2 PInf = Fin (3 / 2).
Proof. split; reflexivity. Qed.

(** C14. *)
Theorem C14_inverse_cdf : forall A (arr : list A) p rands,
  List.length rands = List.length p ->
  Forall (fun u => 0 <= u /\ u < 1) rands ->
  Forall (fun r => qsum r == 1 /\ List.length r = List.length arr) p ->
  exists out, vector_choice arr p rands = Ok out /\ List.length out = List.length p /\
    forall k x, nth_error out k = Some x ->
    exists i, nth_error arr i = Some x /\
      qsum (firstn i (nth k p [])) <= nth k rands 0 /\
      nth k rands 0 < qsum (firstn (S i) (nth k p [])).
Proof. exact @vector_choice_spec. Qed.

(** In particular the element chosen has positive probability. *)
Theorem C14_positive_probability : forall A (arr : list A) p rands out k x,
  List.length rands = List.length p ->
  Forall (fun u => 0 <= u /\ u < 1) rands ->
  Forall (fun r => qsum r == 1 /\ List.length r = List.length arr) p ->
  vector_choice arr p rands = Ok out -> nth_error out k = Some x ->
  exists i, nth_error arr i = Some x /\ 0 < nth i (nth k p []) 0.
Proof. exact @vector_choice_positive. Qed.

Example C14_example :
  vector_choice ["a"; "b"; "c"] [[1#2; 0; 1#2]; [0; 1; 0]] [1#2; 0] = Ok ["c"; "b"].
Proof. reflexivity. Qed.

(** C15. *)
Theorem C15_comparisons : forall v a, not_nan v -> not_nan a ->
  (check_less_or_equal v a = Ok tt <-> xle v a) /\
  (check_less v a = Ok tt <-> xlt v a) /\
  (check_greater_or_equal v a = Ok tt <-> xle a v) /\
  (check_greater v a = Ok tt <-> xlt a v) /\
  (check_equal v a = Ok tt <-> ~ xeq v a).
Proof. exact check_comparisons. Qed.

Theorem C15_ranges : forall v a b, not_nan v -> not_nan a -> not_nan b ->
  (check_in_range v a b = Ok tt <-> xle a v /\ xle v b) /\
  (check_out_range v a b = Ok tt <-> xlt v a \/ xlt b v).
Proof. exact check_ranges. Qed.

Theorem C15_list_and_jobs : forall v l z b,
  (check_isin v l = Ok tt <-> exists w, In w l /\ py_eq v w = true) /\
  (check_n_jobs (PInt z) = Ok tt <-> (0 < z)%Z) /\
  (check_n_jobs (PBool b) = Ok tt <-> b = true) /\
  check_n_jobs PNone = Err ValueError.
Proof. exact check_list_jobs. Qed.

(** The only exception a validator raises on numbers is ValueError. *)
Theorem C15_only_ValueError : forall v a b w l e,
  In (Err e) [check_in_range v a b; check_out_range v a b; check_less_or_equal v a;
              check_less v a; check_greater_or_equal v a; check_greater v a;
              check_equal v a; check_isin w l; check_n_jobs w] -> e = ValueError.
Proof. exact check_only_ValueError. Qed.

(** nan passes every validator, whatever the bounds (finding), and a
    non-positive float passes check_n_jobs. *)
Theorem C15_nan_refuted : forall a b,
  check_in_range NaN a b = Ok tt /\ check_out_range NaN a b = Ok tt /\
  check_less_or_equal NaN a = Ok tt /\ check_less NaN a = Ok tt /\
  check_greater_or_equal NaN a = Ok tt /\ check_greater NaN a = Ok tt /\
  check_equal NaN a = Ok tt /\ check_n_jobs (PFloat (Fin (-1))) = Ok tt.
Proof. exact check_nan. Qed.

Example C15_example : not_nan (Fin 3) /\ check_in_range (Fin 3) (Fin 1) PInf = Ok tt /\
  check_less (Fin 3) (Fin 3) = Err ValueError /\ check_less_or_equal (Fin 3) (Fin 3) = Ok tt.
Proof. repeat split; discriminate. Qed.

(** C16. *)
Theorem C16_coalesce_dict : forall A (d0 d1 : list (string * A)) k, NoDup (map fst d0) ->
  dget (coalesce_dict (Some d0) d1) k =
  match dget d0 k with Some v => Some v | None => dget d1 k end.
Proof. exact @coalesce_dict_get. Qed.

Theorem C16_coalesce_dict_is_a_dict : forall A (d0 d1 : list (string * A)),
  NoDup (map fst d1) ->
  NoDup (map fst (coalesce_dict (Some d0) d1)) /\ coalesce_dict None d1 = d1.
Proof. exact (fun A d0 d1 H => conj (coalesce_dict_nodup d0 d1 H) eq_refl). Qed.

(** A True answer: at every path of the first dictionary the second has an
    object too, leaves are equal, dictionaries face dictionaries with the same
    keys - except that an empty dictionary may face an empty list or string. *)
Theorem C16_equal_dicts_sound : forall d0 d1,
  keys_distinct (PDict d0) -> keys_distinct (PDict d1) -> equal_dicts d0 d1 = Ok true ->
  forall p x, at_path (PDict d0) p = Some x ->
  exists z, at_path (PDict d1) p = Some z /\
    (~ is_dict x -> py_eq x z = true) /\
    (is_dict x -> is_dict z \/ (x = PDict [] /\ empty_sequence z)) /\
    (forall e e', x = PDict e -> z = PDict e' -> forall k, dget e k = None <-> dget e' k = None).
Proof. exact equal_dicts_sound. Qed.

Theorem C16_equal_dicts_complete : forall d0 d1, keys_distinct (PDict d0) ->
  (forall p x, at_path (PDict d0) p = Some x ->
     exists z, at_path (PDict d1) p = Some z /\
       (~ is_dict x -> py_eq x z = true) /\
       (forall e, x = PDict e -> exists e', z = PDict e' /\ List.length e' = List.length e)) ->
  equal_dicts d0 d1 = Ok true.
Proof. exact (fun d0 d1 => eq_val_complete (PDict d0) (PDict d1)). Qed.

Theorem C16_equal_dicts_total_on_same_keys : forall d0 d1, keys_distinct (PDict d0) ->
  (forall p e, at_path (PDict d0) p = Some (PDict e) ->
     exists z, at_path (PDict d1) p = Some (PDict z) /\
       forall k, dget e k <> None -> dget z k <> None) ->
  exists b, equal_dicts d0 d1 = Ok b.
Proof. exact (fun d0 d1 H1 H2 => eq_val_total (PDict d0) (PDict d1) H2 H1). Qed.

(** Findings: it raises on dictionaries whose keys differ, raises on a dict
    facing a number, and calls an empty dict equal to an empty list, in one
    direction only. *)
Theorem C16_equal_dicts_refuted : 
  equal_dicts [("a", PInt 1)] [("b", PInt 1)] = Err KeyError /\
  equal_dicts [("a", PDict [])] [("a", PInt 1)] = Err TypeError /\
  equal_dicts [("a", PDict [])] [("a", PList [])] = Ok true /\
  equal_dicts [("a", PList [])] [("a", PDict [])] = Ok false.
Proof. repeat split; reflexivity. Qed.

Example C16_example :
  equal_dicts [("a", PDict [("x", PInt 1)]); ("b", PStr "s")]
              [("b", PStr "s"); ("a", PDict [("x", PFloat (Fin 1))])] = Ok true /\
  equal_dicts [("a", PDict [("x", PInt 1)])] [("a", PDict [("x", PInt 2)])] = Ok false /\
  coalesce_dict (Some [("a", 1%nat); ("c", 2%nat)]) [("b", 3%nat); ("a", 4%nat)] =
    [("b", 3%nat); ("a", 1%nat); ("c", 2%nat)].
Proof. repeat split; reflexivity. Qed.

(** C17. *)
Theorem C17_mode : forall data, data <> [] ->
  exists m, mode data = Ok m /\ In m data /\
    (forall x, count_occ Z.eq_dec data x <= count_occ Z.eq_dec data m)%nat /\
    (forall x, count_occ Z.eq_dec data x = count_occ Z.eq_dec data m -> (m <= x)%Z).
Proof. exact mode_spec. Qed.

Example C17_example : mode [3; 1; 3; 2; 1]%Z = Ok 1%Z.
Proof. reflexivity. Qed.

(** C41. *)
Theorem C41_grid_complete : forall A (dict : list (string * list A)),
  NoDup (map fst dict) ->
  exists combos, generate_parameter_combinations dict = Ok combos /\
  List.length combos = fold_right Nat.mul 1%nat (map (fun kv => List.length (snd kv)) dict) /\
  (forall c, In c combos -> Permutation (map fst c) (map fst dict) /\
     forall k l, In (k, l) dict -> exists x, dget c k = Some x /\ In x l) /\
  (forall f : string -> A, (forall k l, In (k, l) dict -> In (f k) l) ->
     exists c, In c combos /\ forall k l, In (k, l) dict -> dget c k = Some (f k)) /\
  (Forall (fun kv => NoDup (snd kv)) dict -> NoDup combos /\
     forall c c', In c combos -> In c' combos -> (forall k, dget c k = dget c' k) -> c = c').
Proof. exact @grid_ok. Qed.

Example C41_example :
  generate_parameter_combinations [("b", [1;2]%Z); ("a", [7;8]%Z)] =
  Ok [[("a", 7); ("b", 1)]; [("a", 7); ("b", 2)]; [("a", 8); ("b", 1)]; [("a", 8); ("b", 2)]]%Z.
Proof. reflexivity. Qed.

(** C42: after any history of sampling calls, building a SMOTE object from
    get_params() gives the object as it was first constructed, generator
    position included. *)
Theorem C42_rebuild : forall kwargs o calls o',
  smote_init kwargs = Ok o -> use_all o calls = Ok o' ->
  smote_init (smote_get_params o') = Ok o.
Proof. exact smote_rebuild. Qed.

(** A constructed object can always be used. *)
Theorem C42_usable : forall kwargs o calls,
  smote_init kwargs = Ok o -> exists o', use_all o calls = Ok o'.
Proof. exact (fun k o ns H => use_all_total o ns (smote_init_gen k o H)). Qed.

(** set_params(...get_params()) leaves the parameters alone but, unless the
    random state was given as a generator object, replaces the generator by the
    value it was seeded with: the next draw raises (finding). *)
Theorem C42_set_params_refuted : forall o n,
  (o_init o = RSNone \/ exists z, o_init o = RSInt z) ->
  use_generator (smote_set_params o (smote_get_params o)) (S n) = Err AttributeError.
Proof. exact set_get_broken. Qed.

(** With a generator object it does leave the sampler equivalent. *)
Theorem C42_set_params_generator_object : forall kwargs o s,
  smote_init kwargs = Ok o -> o_init o = RSState s ->
  smote_get_params (smote_set_params o (smote_get_params o)) = smote_get_params o /\
  o_gen (smote_set_params o (smote_get_params o)) = o_gen o.
Proof. exact set_get_shared. Qed.

(** set_params(ss_params=...) has no effect on the sampler (finding). *)
Theorem C42_ss_params_ignored_refuted : forall o v,
  smote_get_params (smote_set_params o [("ss_params", v)]) = smote_get_params o /\
  o_gen (smote_set_params o [("ss_params", v)]) = o_gen o.
Proof. exact set_ss_params. Qed.

Example C42_example : exists o o',
  smote_init [("proportion", VPy (PFloat (Fin (1#2)))); ("random_state", VPy (PInt 5))] = Ok o /\
  use_all o [3; 4]%nat = Ok o' /\ o_gen o' = GOwn 5 7 /\ o_gen o = GOwn 5 0.
Proof. do 2 eexists. split; [reflexivity|]. split; [reflexivity|]. split; reflexivity. Qed.

(** C46. *)
Theorem C46_shuffle : forall A B (X : list A) (y : list B) mask,
  List.length X = List.length y -> Permutation mask (seq 0 (List.length X)) ->
  exists X' y', shuffle_training_set X y (Some mask) = Ok (X', y') /\
    List.length X' = List.length X /\ List.length y' = List.length y /\
    Permutation (combine X' y') (combine X y).
Proof. exact @shuffle_spec. Qed.

Theorem C46_no_random_state : forall A B (X : list A) (y : list B),
  shuffle_training_set X y None = Ok (X, y).
Proof. reflexivity. Qed.

Example C46_example : Permutation [2;0;1]%nat (seq 0 (List.length ["a"; "b"; "c"])) /\
  shuffle_training_set ["a"; "b"; "c"] [1;2;3]%Z (Some [2;0;1]%nat) = Ok (["c"; "a"; "b"], [3;1;2]%Z).
Proof.
  split; [|reflexivity]. cbn. apply Permutation_sym.
  apply (Permutation_cons_append [0;1]%nat 2%nat) || (apply (perm_trans (l' := [0;2;1]%nat));
    [apply perm_skip, perm_swap|apply perm_swap]).
Qed.

Print Assumptions C13_probability_vector.
Print Assumptions C13_uniform_when_nothing_left.
Print Assumptions C13_proportional_otherwise.
Print Assumptions C13_safe_divide.
Print Assumptions C14_inverse_cdf.
Print Assumptions C14_positive_probability.
Print Assumptions C15_comparisons.
Print Assumptions C15_ranges.
Print Assumptions C15_list_and_jobs.
Print Assumptions C15_only_ValueError.
Print Assumptions C15_nan_refuted.
Print Assumptions C16_coalesce_dict.
Print Assumptions C16_coalesce_dict_is_a_dict.
Print Assumptions C16_equal_dicts_sound.
Print Assumptions C16_equal_dicts_complete.
Print Assumptions C16_equal_dicts_total_on_same_keys.
Print Assumptions C16_equal_dicts_refuted.
Print Assumptions C17_mode.
Print Assumptions C41_grid_complete.
Print Assumptions C42_rebuild.
Print Assumptions C42_usable.
Print Assumptions C42_set_params_refuted.
Print Assumptions C42_set_params_generator_object.
Print Assumptions C42_ss_params_ignored_refuted.
Print Assumptions C46_shuffle.
Print Assumptions C46_no_random_state.
