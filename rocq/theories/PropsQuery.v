(** Properties C40, C52 and C53: queries for oversamplers.

    [n_quickest rt os n] is determine_n_quickest; [sub l m] says that l is m with
    some elements left out; [runtime rt o t] that t is the runtime listed for o;
    [simplex_ok] is spelled out in SpecQuery.v.  [registry] and [runtimes] are the
    actual lists of the library (QueryData.v). *)

From Coq Require Import String List ZArith QArith Bool Arith Lia Permutation Sorted.
From Verif Require Import Np NpFacts QueryModel QueryData SpecQuery QueryFacts QueryWitness.
Import ListNotations.
Open Scope nat_scope.
Open Scope list_scope.

(** Each query selects exactly the registered oversamplers with the property asked
    for, in their order, and applies [n_quickest] to them, which for the default -1
    returns them all. *)
Theorem C40_default : forall rt os, n_quickest rt os (-1) = Ok os.
Proof. exact n_quickest_all. Qed.

Theorem C40_all : forall reg rt, exists l, sub l reg /\ (forall o, In o l <-> In o reg /\ True) /\
  forall n, get_all reg rt n = n_quickest rt l n.
Proof. exact all_selects. Qed.

Theorem C40_proportion : forall reg rt, exists l, sub l reg /\
  (forall o, In o l <-> In o reg /\ In "proportion"%string (c_keys o)) /\
  forall n, get_proportion reg rt n = n_quickest rt l n.
Proof. exact proportion_selects. Qed.

Theorem C40_metric_learning : forall reg rt, exists l, sub l reg /\
  (forall o, In o l <-> In o reg /\ In "CD"%string (c_cats o)) /\
  forall n, get_metric_learning reg rt n = n_quickest rt l n.
Proof. exact metric_selects. Qed.

Theorem C40_simplex : forall reg rt within exclude gauss dim,
  (forall o, In o reg -> In "ss_params"%string (c_sig o) -> c_ss o <> None) ->
  exists l, sub l reg /\ (forall o, In o l <-> In o reg /\ simplex_ok within exclude gauss dim o) /\
  forall n, get_simplex reg rt within exclude gauss dim n = n_quickest rt l n.
Proof. exact simplex_selects. Qed.

Theorem C40_multiclass : forall reg rt strategy,
  In strategy ["eq_1_vs_many_successive"; "equalize_1_vs_many"]%string ->
  exists l, sub l reg /\
  (forall o, In o l <-> In o reg /\ (~ In "CM"%string (c_cats o) /\ ~ In "DR"%string (c_cats o) /\ In "proportion"%string (c_keys o))) /\
  forall n, get_multiclass reg rt strategy n = n_quickest rt l n.
Proof. exact multiclass_selects. Qed.

(** Any other strategy is accepted silently and nothing is filtered. *)
Theorem C40_unknown_strategy_refuted : forall reg rt strategy n,
  ~ In strategy ["eq_1_vs_many_successive"; "equalize_1_vs_many"]%string ->
  get_multiclass reg rt strategy n = get_all reg rt n.
Proof. exact multiclass_unknown. Qed.

(** For n >= 0 the result consists of min(n, number) of the oversamplers, ordered
    by runtime, none of the others being quicker. *)
Theorem C40_quickest : forall rt os n l, (0 <= n)%Z -> n_quickest rt os n = Ok l ->
  exists rest, Permutation (l ++ rest) os /\ length l = Nat.min (Z.to_nat n) (length os) /\
    (forall o, In o os -> exists t, runtime rt o t) /\
    StronglySorted (fun a b => forall ta tb, runtime rt a ta -> runtime rt b tb -> (ta <= tb)%Q) l /\
    (forall a b ta tb, In a l -> In b rest -> runtime rt a ta -> runtime rt b tb -> (ta <= tb)%Q).
Proof. exact n_quickest_spec. Qed.

(** Among equal runtimes the first ones of the list are taken, in their order. *)
Theorem C40_ties : forall rt os n l t, (0 <= n)%Z -> n_quickest rt os n = Ok l ->
  let same o := match lookup rt (c_name o) with Some u => Qeq_bool u t | None => false end in
  exists r, filter same os = filter same l ++ r.
Proof. exact n_quickest_stable. Qed.

(** The call fails only with KeyError and only for a class without a runtime. *)
Theorem C40_fails : forall rt os n,
  (forall o, In o os -> exists t, runtime rt o t) -> exists l, n_quickest rt os n = Ok l.
Proof. exact n_quickest_total. Qed.

(** Numbers below -1 leave out that many of the slowest. *)
Theorem C40_negative : forall rt os n ps, (n < -1)%Z -> timed rt os = Ok ps ->
  n_quickest rt os n = Ok (map fst (firstn (length os - Z.to_nat (- n)) (sort_pairs ps))).
Proof. exact n_quickest_negative. Qed.

(** In the library no query fails, and the 91 registered names are distinct. *)
Theorem C40_registry : forall n,
  (exists l, get_all registry runtimes n = Ok l) /\
  (exists l, get_proportion registry runtimes n = Ok l) /\
  (exists l, get_metric_learning registry runtimes n = Ok l) /\
  (forall w e g d, exists l, get_simplex registry runtimes w e g d n = Ok l) /\
  (forall s, exists l, get_multiclass registry runtimes s n = Ok l).
Proof. exact queries_total. Qed.
Theorem C40_names : NoDup (map c_name registry) /\ length registry = 91.
Proof. exact registry_names. Qed.

(** ** C52: random parameter combinations

    A class is given by its list of combinations and the function from a
    combination to the parameters of the object built with it. *)
Theorem C52_combinations : forall P D (shuffle : nat -> list P -> list P),
  (forall i l, Permutation (shuffle i l) l) ->
  forall i n_max (classes : list (list P * (P -> D))), (0 <= n_max)%Z ->
  exists parts, comb_loop P D shuffle i n_max classes = concat parts /\
    Forall2 (fun c part => length part = Nat.min (Z.to_nat n_max) (length (fst c)) /\
                           exists rest, Permutation (part ++ rest) (map (snd c) (fst c))) classes parts.
Proof. exact comb_spec. Qed.

(** The triples carry the class name found among the parameters ... *)
Theorem C52_triples : forall D (class_name : D -> option string) l ts,
  tuples D class_name l = Ok ts <->
  Forall2 (fun d t => exists c, class_name d = Some c /\ t = ("smote_variants"%string, c, d)) l ts.
Proof. exact tuples_spec. Qed.

(** ... so one class without it makes the whole call fail ... *)
Theorem C52_missing_name : forall P D (class_name : D -> option string) (shuffle : nat -> list P -> list P),
  (forall i l, Permutation (shuffle i l) l) ->
  forall classes n_max combs rebuild, (0 < n_max)%Z -> In (combs, rebuild) classes -> combs <> [] ->
  (forall p, class_name (rebuild p) = None) ->
  combinations P D class_name shuffle classes n_max = Err KeyError.
Proof. exact combinations_fail. Qed.

(** ... and there is exactly one such class. *)
Theorem C52_smote_amsr_refuted : forall o, In o registry ->
  ~ In "class_name"%string (c_keys o) <-> c_name o = "SMOTE_AMSR"%string.
Proof. exact class_names. Qed.

(** ** C53: constructor parameters and get_params

    Every constructor parameter of every registered oversampler is among its
    get_params(), with six exceptions ... *)
Theorem C53_parameters : forall o p, In o registry -> In p (c_sig o) ->
  ~ In p (c_keys o) <-> In (c_name o, p) [("DEAGO", "nn_params"); ("PDFOS", "metric_learning"); ("SOMO", "nn_params");
                                          ("SPY", "n_jobs"); ("SYMPROD", "n_jobs"); ("SMOTEWB", "n_jobs")]%string.
Proof. exact rebuild_keys. Qed.

(** ... which do occur ... *)
Theorem C53_lost_refuted : forall q, In q [("DEAGO", "nn_params"); ("PDFOS", "metric_learning"); ("SOMO", "nn_params");
                                          ("SPY", "n_jobs"); ("SYMPROD", "n_jobs"); ("SMOTEWB", "n_jobs")]%string ->
  exists o, In o registry /\ c_name o = fst q /\ In (snd q) (c_sig o) /\ ~ In (snd q) (c_keys o).
Proof. exact extra_lossy. Qed.

(** ... and every constructor accepts the keys of its own get_params(). *)
Theorem C53_accepted : forall o k, In o registry -> In k (c_keys o) -> c_kwargs o = true \/ In k (c_sig o).
Proof. exact rebuild_accepts. Qed.

(** ** Examples *)

Definition names (r : res (list cls)) : res (list string) := match r with Ok l => Ok (map c_name l) | Err e => Err e end.

Example C40_example_quickest :
  names (get_all registry runtimes 3) = Ok ["polynom_fit_SMOTE_bus"; "polynom_fit_SMOTE_star"; "ROSE"]%string.
Proof. vm_compute. reflexivity. Qed.
Example C40_example_simplex :
  names (get_simplex registry runtimes None (Some (Many ["deterministic"]%string)) (Some false) (Some (Many [1; 3]%Z)) (-1)) =
    Ok ["MCT"; "NT_SMOTE"; "RWO_sampling"; "SOI_CJ"]%string /\
  names (get_simplex registry runtimes (Some (One "deterministic"%string)) None None None 5) = Ok ["polynom_fit_SMOTE_mesh"]%string.
Proof. vm_compute. auto. Qed.
Example C40_example_multiclass : forall l, get_multiclass registry runtimes "equalize_1_vs_many" (-1) = Ok l -> length l = 66.
Proof. intros l H. vm_compute in H. injection H as <-. reflexivity. Qed.
Example C40_example_negative : forall l, get_all registry runtimes (-90) = Ok l -> map c_name l = ["polynom_fit_SMOTE_bus"]%string.
Proof. intros l H. vm_compute in H. injection H as <-. reflexivity. Qed.
Example C52_example :
  combinations nat nat (fun n => Some (if n <? 10 then "A"%string else "B"%string)) (fun _ l => rev l) [([1; 2; 3], fun n => n); ([4], fun n => 10 * n)] 2 =
    Ok (map (fun p => ("smote_variants"%string, fst p, snd p)) [("A"%string, 3); ("A"%string, 2); ("B"%string, 40)]).
Proof. reflexivity. Qed.
Example C52_shuffle : forall (i : nat) (l : list nat), Permutation (rev l) l.
Proof. intros _ l. symmetry. apply Permutation_rev. Qed.

Print Assumptions C40_default.
Print Assumptions C40_all.
Print Assumptions C40_proportion.
Print Assumptions C40_metric_learning.
Print Assumptions C40_simplex.
Print Assumptions C40_multiclass.
Print Assumptions C40_unknown_strategy_refuted.
Print Assumptions C40_quickest.
Print Assumptions C40_ties.
Print Assumptions C40_fails.
Print Assumptions C40_negative.
Print Assumptions C40_registry.
Print Assumptions C40_names.
Print Assumptions C52_combinations.
Print Assumptions C52_triples.
Print Assumptions C52_missing_name.
Print Assumptions C52_smote_amsr_refuted.
Print Assumptions C53_parameters.
Print Assumptions C53_lost_refuted.
Print Assumptions C53_accepted.
