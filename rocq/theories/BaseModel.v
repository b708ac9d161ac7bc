(** Model of the helpers of /repo/smote_variants/base/_base.py, of the parameter
    handling of RandomStateMixin / OverSamplingBase (base/_oversampling.py) and of
    SMOTE's constructor (oversampling/_smote.py).  Numbers are exact. *)

From Coq Require Import List ZArith QArith Bool Arith String Ascii.
From Verif Require Import Np PyVal.
Import ListNotations.
Open Scope string_scope.
Open Scope list_scope.

(** shuffle_training_set, _base.py:58-76.  [None]: no random state given;
    [Some mask]: the content of [shuffle_mask] after the in-place shuffle. *)
Definition shuffle_training_set {A B} (X : list A) (y : list B)
    (mask : option (list nat)) : res (list A * list B) :=
  match mask with
  | None => Ok (X, y)
  | Some m => do X' <- gather X m; do y' <- gather y m; Ok (X', y')
  end.

(** [np.nan_to_num(x, nan=0.0, posinf=0.0, neginf=0.0)], _base.py:83. *)
Definition nan_to_num (x : xnum) : Q := match x with Fin q => q | _ => 0 end.

(** fix_density, _base.py:79-88.  Overflow of the floating point sum is not
    modelled. *)
Definition fix_density (density : list xnum) : list Q :=
  let d := map nan_to_num density in
  let d := if Qeq_bool (qsum d) 0 then repeat 1 (List.length d) else d in
  map (fun x => x / qsum d) d.

(** safe_divide, _base.py:91-102. *)
Definition safe_divide (numerator denominator : Q) (default : xnum) : xnum :=
  if Qeq_bool denominator 0 then default else Fin (numerator / denominator).

(** equal_dicts, _base.py:105-127.  [eq_val] is the body of the loop for one
    item: the recursive call for a dict value (whose counterpart need not be a
    dict), [==] otherwise. *)
Fixpoint eq_val (v w : pyval) {struct v} : res bool :=
  match v with
  | PDict d =>
    do n <- py_len w;
    if negb (List.length d =? n)%nat then Ok false
    else
      (fix go (d : list (string * pyval)) : res bool :=
         match d with
         | [] => Ok true
         | (key, val) :: d' =>
           do other <- py_item w key;
           do b <- eq_val val other;
           if b then go d' else Ok false
         end) d
  | _ => Ok (py_eq v w)
  end.
Definition equal_dicts (d0 d1 : pydict) : res bool := eq_val (PDict d0) (PDict d1).

(** coalesce, _base.py:130-143. *)
Definition coalesce (v0 v1 : pyval) : pyval :=
  match v0 with PNone => v1 | _ => v0 end.

(** coalesce_dict, _base.py:146-164; the first argument may be None. *)
Definition coalesce_dict {A} (d0 : option (list (string * A))) (d1 : list (string * A))
    : list (string * A) :=
  match d0 with
  | None => d1
  | Some d => fold_left (fun r kv => dset r (fst kv) (snd kv)) d d1
  end.

(** mode, _base.py:183-194, for integer data; [max] of an empty sequence raises
    ValueError. *)
Definition mode (data : list Z) : res Z :=
  let u := unique_counts data in
  match map snd u with
  | [] => Err ValueError
  | c :: cs =>
    let m := fold_left Nat.max cs c in
    do i <- get (where_ (map (fun k => k =? m)%nat (map snd u))) 0;
    get (map fst u) i
  end.

(** The validators of ParametersMixin, _base.py:412-659: [Ok tt] when the method
    returns, [Err ValueError] when it raises. *)
Definition raise_if (b : bool) : res unit := if b then Err ValueError else Ok tt.

(** check_in_range, 412-425. *)
Definition check_in_range (value lo hi : xnum) : res unit :=
  raise_if (xltb value lo || xltb hi value).
(** check_out_range, 427-440. *)
Definition check_out_range (value lo hi : xnum) : res unit :=
  raise_if (xleb lo value && xleb value hi).
(** check_less_or_equal 442-455, check_less_or_equal_par 457-475. *)
Definition check_less_or_equal (value val : xnum) : res unit := raise_if (xltb val value).
(** check_less 477-493, check_less_par 495-513. *)
Definition check_less (value val : xnum) : res unit := raise_if (xleb val value).
(** check_greater_or_equal 515-528, check_greater_or_equal_par 530-548. *)
Definition check_greater_or_equal (value val : xnum) : res unit := raise_if (xltb value val).
(** check_greater 550-565, check_greater_par 567-585. *)
Definition check_greater (value val : xnum) : res unit := raise_if (xleb value val).
(** check_equal 587-602, check_equal_par 604-621. *)
Definition check_equal (value val : xnum) : res unit := raise_if (xeqb value val).
(** check_isin, 623-635. *)
Definition check_isin (value : pyval) (list_ : list pyval) : res unit :=
  raise_if (negb (existsb (py_eq value) list_)).
(** check_n_jobs, 637-652; a bool is an int in Python. *)
Definition check_n_jobs (value : pyval) : res unit :=
  raise_if match value with
           | PNone => true
           | PInt z => (z <=? 0)%Z
           | PBool b => negb b
           | _ => false
           end.

(** Lexicographic order on strings, used by [sorted] on the keys. *)
Fixpoint str_leb (a b : string) : bool :=
  match a, b with
  | EmptyString, _ => true
  | String _ _, EmptyString => false
  | String x a', String y b' =>
    (nat_of_ascii x <? nat_of_ascii y)%nat ||
    ((nat_of_ascii x =? nat_of_ascii y)%nat && str_leb a' b')
  end.

(** generate_parameter_combinations, _base.py:661-674, with raw=False. *)
Definition generate_parameter_combinations {A} (dictionary : list (string * list A))
    : res (list (list (string * A))) :=
  let keys := sort_by str_leb (map fst dictionary) in
  do values <- mapM (fun k => match dget dictionary k with
                              | Some v => Ok v | None => Err KeyError end) keys;
  Ok (map (fun p => combine keys p) (product values)).

(** What a caller may pass as [random_state]. *)
Inductive rs_init :=
| RSNone                 (* None *)
| RSInt (seed : Z)       (* int *)
| RSState (id : nat)     (* an existing RandomState object *)
| RSModule               (* the module np.random *)
| RSOther.               (* anything else *)

(** What [self.random_state] holds: the global generator, a generator created
    from a seed that has answered [pos] requests since, somebody else's
    RandomState object, or (after [setattr]) an object that is no generator. *)
Inductive gen :=
| GGlobal
| GOwn (seed : Z) (pos : nat)
| GShared (id : nat)
| GBroken (v : rs_init).

(** RandomStateMixin.set_random_state, _base.py:369-391: the pair
    (_random_state_init, random_state). *)
Definition set_random_state (r : rs_init) : res (rs_init * gen) :=
  match r with
  | RSNone | RSModule => Ok (r, GGlobal)
  | RSInt z => Ok (r, GOwn z 0)
  | RSState i => Ok (r, GShared i)
  | RSOther => Err ValueError
  end.

(** A parameter value in a keyword dictionary. *)
Inductive pval := VPy (v : pyval) | VRs (r : rs_init).

(** The attributes of a SMOTE object (oversampling/_smote.py:72-87,
    base/_simplexsampling.py:359-363, base/_base.py:372-391) and whatever else
    [setattr] put on it. *)
Record smote_obj := mk_obj {
  o_proportion : pyval;
  o_n_neighbors : pyval;
  o_nn_params : pyval;
  o_n_jobs : pyval;
  o_n_dim : pyval;
  o_simplex_sampling : pyval;
  o_within : pyval;
  o_gaussian : pyval;
  o_init : rs_init;
  o_gen : gen;
  o_extra : list (string * pval) }.

Definition kw (d : list (string * pval)) (key : string) (default : pyval) : res pyval :=
  match dget d key with
  | Some (VPy v) => Ok v
  | Some (VRs _) => Err TypeError
  | None => Ok default
  end.

(** Comparing a non-number with a number raises TypeError. *)
Definition as_num (v : pyval) : res xnum :=
  match num_of v with Some x => Ok x | None => Err TypeError end.

Definition ss_default : pydict :=
  [("n_dim", PInt 2); ("simplex_sampling", PStr "random");
   ("within_simplex_sampling", PStr "random"); ("gaussian_component", PNone)].

(** SMOTE.__init__, _smote.py:39-87 with OverSamplingSimplex.__init__
    (base/_oversampling.py:363-391) and SimplexSamplingMixin.__init__.  Keys the
    constructor does not name go to [**_kwargs] and are dropped.  A key of
    [ss_params] OverSamplingSimplex.__init__ does not know raises TypeError. *)
Definition smote_init (d : list (string * pval)) : res smote_obj :=
  do proportion <- kw d "proportion" (PFloat (Fin 1));
  do n_neighbors <- kw d "n_neighbors" (PInt 5);
  do nn_params <- kw d "nn_params" PNone;
  do ssp <- kw d "ss_params" PNone;
  do n_jobs <- kw d "n_jobs" (PInt 1);
  do rs <- match dget d "random_state" with
           | Some (VRs r) => Ok r
           | Some (VPy PNone) => Ok RSNone
           | Some (VPy (PInt z)) => Ok (RSInt z)
           | Some (VPy _) => Ok RSOther
           | None => Ok RSNone end;
  do ssd <- match ssp with
            | PNone => Ok ss_default
            | PDict e => Ok (coalesce_dict (Some e) ss_default)
            | _ => Err AttributeError end;
  if negb (forallb (fun k => existsb (String.eqb k) (map fst ss_default)) (map fst ssd))
  then Err TypeError else
  do st <- set_random_state rs;
  do pn <- as_num proportion;
  do _ <- check_greater_or_equal pn (Fin 0);
  do kn <- as_num n_neighbors;
  do _ <- check_greater_or_equal kn (Fin 1);
  do _ <- check_n_jobs n_jobs;
  match dget ssd "n_dim", dget ssd "simplex_sampling",
        dget ssd "within_simplex_sampling", dget ssd "gaussian_component" with
  | Some nd, Some ss, Some ws, Some g =>
    Ok (mk_obj proportion n_neighbors (coalesce nn_params (PDict [])) n_jobs
               nd ss ws (coalesce g (PDict [])) (fst st) (snd st) [])
  | _, _, _, _ => Err KeyError
  end.

(** SMOTE.get_params, _smote.py:141-152, SimplexSamplingMixin.get_params
    (_simplexsampling.py:365-381), RandomStateMixin.get_params (_base.py:393-404),
    OverSamplingSimplex.get_params (_oversampling.py:393-397). *)
Definition smote_get_params (o : smote_obj) : list (string * pval) :=
  [("proportion", VPy (o_proportion o)); ("n_neighbors", VPy (o_n_neighbors o));
   ("nn_params", VPy (o_nn_params o)); ("n_jobs", VPy (o_n_jobs o));
   ("ss_params", VPy (PDict [("n_dim", o_n_dim o);
                             ("simplex_sampling", o_simplex_sampling o);
                             ("within_simplex_sampling", o_within o);
                             ("gaussian_component", o_gaussian o)]));
   ("random_state", VRs (o_init o)); ("class_name", VPy (PStr "SMOTE"))].

Definition py (p : pval) (old : pyval) : pyval := match p with VPy v => v | VRs _ => old end.

(** One [setattr(self, key, value)] of OverSamplingBase.set_params,
    _oversampling.py:310-321.  Keys that are no attribute the sampler reads
    (notably "ss_params" and "class_name") just become new attributes.
    Simplification: a random-state value assigned to another attribute than
    random_state leaves it unchanged in the model. *)
Definition set_attr (o : smote_obj) (key : string) (v : pval) : smote_obj :=
  let 'mk_obj p k nnp nj nd ss ws g i rs ex := o in
  if String.eqb key "proportion" then mk_obj (py v p) k nnp nj nd ss ws g i rs ex
  else if String.eqb key "n_neighbors" then mk_obj p (py v k) nnp nj nd ss ws g i rs ex
  else if String.eqb key "nn_params" then mk_obj p k (py v nnp) nj nd ss ws g i rs ex
  else if String.eqb key "n_jobs" then mk_obj p k nnp (py v nj) nd ss ws g i rs ex
  else if String.eqb key "n_dim" then mk_obj p k nnp nj (py v nd) ss ws g i rs ex
  else if String.eqb key "simplex_sampling" then mk_obj p k nnp nj nd (py v ss) ws g i rs ex
  else if String.eqb key "within_simplex_sampling" then mk_obj p k nnp nj nd ss (py v ws) g i rs ex
  else if String.eqb key "gaussian_component" then mk_obj p k nnp nj nd ss ws (py v g) i rs ex
  else if String.eqb key "random_state" then
    mk_obj p k nnp nj nd ss ws g i
      match v with
      | VRs RSModule => GGlobal
      | VRs (RSState s) => GShared s
      | VRs r => GBroken r
      | VPy _ => GBroken RSOther
      end ex
  else mk_obj p k nnp nj nd ss ws g i rs (dset ex key v).

Definition smote_set_params (o : smote_obj) (params : list (string * pval)) : smote_obj :=
  fold_left (fun o kv => set_attr o (fst kv) (snd kv)) params o.

(** Use of the generator by one sampling call that makes [n] requests: the
    generator advances; an object that is no generator has no method [choice],
    [random_sample], ... (AttributeError) as soon as one request is made. *)
Definition use_generator (o : smote_obj) (n : nat) : res smote_obj :=
  match o_gen o, n with
  | GBroken _, S _ => Err AttributeError
  | GOwn seed pos, _ =>
    let 'mk_obj p k nnp nj nd ss ws g i _ ex := o in
    Ok (mk_obj p k nnp nj nd ss ws g i (GOwn seed (pos + n)) ex)
  | _, _ => Ok o
  end.

(** A history of sampling calls. *)
Fixpoint use_all (o : smote_obj) (ns : list nat) : res smote_obj :=
  match ns with
  | [] => Ok o
  | n :: ns' => do o' <- use_generator o n; use_all o' ns'
  end.
