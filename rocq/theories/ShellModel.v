(** Model of the classifier wrappers, the configuration flags and the helpers of
    the plots.  Files smote_variants/classifiers/_oversamplingclassifier.py,
    _mlpclassifierwrapper.py, _errorwarning_classifier.py,
    smote_variants/config.py and smote_variants/visualization/_visualization.py. *)

From Coq Require Import String DecimalString List ZArith QArith Bool Arith.
From Verif Require Import Np PyVal Float64 SimplexModel CompModel.
Import ListNotations.
Open Scope nat_scope.

(** ** OversamplingClassifier *)

Section Wrapper.

(** The states of oversampler and classifier objects. *)
Variables O C : Type.

(** Values of attributes; a description is (module, class, parameters). *)
Inductive attr :=
| ADesc (d : string * string * list (string * pyval))
| ASampler (o : O)
| AClassifier (c : C)
| ALabels (l : list Z)
| ANone
| AOther (v : pyval).

(** instantiate_obj, base/_base.py:167-180: what the import and the constructor
    return or raise is arbitrary. *)
Variable make : string * string * list (string * pyval) -> res attr.
(** The methods of the two objects; a call may change the object even if it raises. *)
Variable sample : O -> list row -> list Z -> res (list row * list Z) * O.
Variable fit : C -> list row -> list Z -> res unit * C.
Variable predict : C -> list row -> res (list Z).
Variable predict_proba : C -> list row -> res (list (list Q)).
Variable classes : C -> res (list Z).

(** An object is its attribute dictionary. *)
Definition object := list (string * attr).

Fixpoint setattr (self : object) (name : string) (v : attr) : object :=
  match self with
  | [] => [(name, v)]
  | (k, w) :: rest => if String.eqb k name then (k, v) :: rest else (k, w) :: setattr rest name v
  end.

Definition getattr (self : object) (name : string) : res attr :=
  match dget self name with Some v => Ok v | None => Err AttributeError end.

Definition instantiate (v : attr) : res attr :=
  match v with ADesc d => make d | _ => Err TypeError end.

Local Open Scope string_scope.

(** OversamplingClassifier.__init__, _oversamplingclassifier.py:16-31. *)
Definition oc_init (oversampler classifier : attr) : res object :=
  let self := setattr (setattr [] "oversampler" oversampler) "classifier" classifier in
  do o <- instantiate oversampler;
  do c <- instantiate classifier;
  Ok (setattr (setattr (setattr self "oversampler_obj" o) "classifier_obj" c) "classes_" ANone).

(** fit, _oversamplingclassifier.py:33-50: the outcome and the object afterwards. *)
Definition oc_fit (self : object) (X : list row) (y : list Z) : res unit * object :=
  match getattr self "oversampler_obj" with
  | Ok (ASampler o) =>
    let (r, o') := sample o X y in
    let self := setattr self "oversampler_obj" (ASampler o') in
    match r with
    | Err e => (Err e, self)
    | Ok (X_samp, y_samp) =>
      match getattr self "classifier_obj" with
      | Ok (AClassifier c) =>
        let (r, c') := fit c X_samp y_samp in
        let self := setattr self "classifier_obj" (AClassifier c') in
        match r with
        | Err e => (Err e, self)
        | Ok _ =>
          match classes c' with
          | Err e => (Err e, self)
          | Ok l => (Ok tt, setattr self "classes_" (ALabels l))
          end
        end
      | _ => (Err AttributeError, self)
      end
    end
  | _ => (Err AttributeError, self)
  end.

(** predict and predict_proba, _oversamplingclassifier.py:52-70. *)
Definition oc_predict (self : object) (X : list row) : res (list Z) :=
  do v <- getattr self "classifier_obj"; match v with AClassifier c => predict c X | _ => Err AttributeError end.
Definition oc_predict_proba (self : object) (X : list row) : res (list (list Q)) :=
  do v <- getattr self "classifier_obj"; match v with AClassifier c => predict_proba c X | _ => Err AttributeError end.

(** get_params, _oversamplingclassifier.py:72-83. *)
Definition oc_get_params (self : object) : res (list (string * attr)) :=
  do o <- getattr self "oversampler"; do c <- getattr self "classifier";
  Ok [("oversampler", o); ("classifier", c)].

(** set_params, _oversamplingclassifier.py:85-102. *)
Definition oc_set_params (self : object) (ps : list (string * attr)) : res unit * object :=
  let self := fold_left (fun s p => setattr s (fst p) (snd p)) ps self in
  match (do v <- getattr self "oversampler"; instantiate v) with
  | Err e => (Err e, self)
  | Ok o =>
    let self := setattr self "oversampler_obj" o in
    match (do v <- getattr self "classifier"; instantiate v) with
    | Err e => (Err e, self)
    | Ok c => (Ok tt, setattr self "classifier_obj" c)
    end
  end.

End Wrapper.

Arguments ADesc {O C} d. Arguments ASampler {O C} o. Arguments AClassifier {O C} c.
Arguments ALabels {O C} l. Arguments ANone {O C}. Arguments AOther {O C} v.
Arguments setattr {O C}. Arguments getattr {O C}.

(** ** MLPClassifierWrapper *)

Inductive fraction := FStr (s : string) | FNum (x : f64).

(** The parameters of the constructor, _mlpclassifierwrapper.py:15-44. *)
Record mlp := mk_mlp {
  ml_max_iter : pyval; ml_activation : pyval; ml_fraction : fraction;
  ml_alpha : pyval; ml_learning_rate : pyval; ml_random_state : pyval }.

(** The values of the parameters the caller leaves out, _mlpclassifierwrapper.py:18-23. *)
Definition mlp_default (alpha : pyval) : mlp :=
  mk_mlp (PInt 10000) (PStr "relu") (FStr "sqrt") alpha (PStr "adaptive") PNone.

Section MLP.

(** [int(s)] for a string. *)
Variable int_of_str : string -> res Z.
(** sklearn's network: its parameters, the size of the hidden layer and the data
    determine the outcome of training. *)
Variable M : Type.
Variable train : mlp -> nat -> list row -> list Z -> res M.
Variable mpredict : M -> list row -> res (list Z).

(** [n * s]. *)
Fixpoint str_repeat (n : nat) (s : string) : string :=
  match n with O => EmptyString | S n' => append s (str_repeat n' s) end.

(** _determine_hidden_layer_size, _mlpclassifierwrapper.py:46-50; [np.sqrt] of a
    number of columns is rounded down (exact below 2^52). *)
Definition hidden_size (p : mlp) (n_dim : nat) : res nat :=
  match ml_fraction p with
  | FStr s =>
    if String.eqb s "sqrt" then Ok (Nat.max 1 (Nat.sqrt n_dim))
    else do z <- int_of_str (str_repeat n_dim s); Ok (Nat.max 1 (Z.to_nat z))
  | FNum x => do z <- int_of_f64 (f_mul (f_of_Z (Z.of_nat n_dim)) x); Ok (Nat.max 1 (Z.to_nat z))
  end.

(** An object: parameters and the trained network, if any. *)
Definition mlp_state : Type := mlp * option M.

(** fit, _mlpclassifierwrapper.py:52-72. *)
Definition mlp_fit (self : mlp_state) (n_dim : nat) (X : list row) (y : list Z) : res unit * mlp_state :=
  match (do h <- hidden_size (fst self) n_dim; train (fst self) h X y) with
  | Ok m => (Ok tt, (fst self, Some m))
  | Err e => (Err e, self)
  end.

(** predict, _mlpclassifierwrapper.py:74-84. *)
Definition mlp_predict (self : mlp_state) (X : list row) : res (list Z) :=
  match snd self with Some m => mpredict m X | None => Err AttributeError end.

(** get_params, _mlpclassifierwrapper.py:98-112, passed to the constructor, copy,
    _mlpclassifierwrapper.py:114-121: max_iter is not among the parameters. *)
Definition mlp_copy (self : mlp_state) : mlp_state :=
  let p := fst self in
  (mk_mlp (PInt 10000) (ml_activation p) (ml_fraction p) (ml_alpha p) (ml_learning_rate p) (ml_random_state p), None).

End MLP.

(** ** ErrorWarningClassifier *)

Section Mock.

Variable K : Type.                                       (* KNeighborsClassifier *)
Variable kfit : K -> list row -> list Z -> res K.
Variable kproba : K -> list row -> res (list (list Q)).

Record mock := mk_mock { mo_value : bool; mo_warning : bool; mo_runtime : bool; mo_knn : K }.

(** fit, _errorwarning_classifier.py:33-55: the outcome with the number of
    warnings issued, and the object afterwards. *)
Definition mock_fit (self : mock) (X : list row) (y : list Z) : res nat * mock :=
  if mo_value self then (Err ValueError, self)
  else if mo_runtime self then (Err RuntimeError, self)
  else match kfit (mo_knn self) X y with
       | Ok k => (Ok (if mo_warning self then 1 else 0), mk_mock (mo_value self) (mo_warning self) (mo_runtime self) k)
       | Err e => (Err e, self)
       end.

(** predict, _errorwarning_classifier.py:57-66: there is no return statement. *)
Definition mock_predict (self : mock) (X : list row) : option (list Z) := None.

(** predict_proba, _errorwarning_classifier.py:68-78. *)
Definition mock_proba (self : mock) (X : list row) : res (list (list Q)) := kproba (mo_knn self) X.

End Mock.

(** ** config *)

(** The dictionary [flags], config.py:14-22. *)
Record flags := mk_flags { fl_external : pyval; fl_internal : pyval; fl_chunk : pyval }.
Definition flags0 : flags := mk_flags (PBool true) (PBool true) (PInt 50000000).

Inductive flag_name := External | Internal | Chunk.

Definition flag_get (f : flags) (n : flag_name) : pyval :=
  match n with External => fl_external f | Internal => fl_internal f | Chunk => fl_chunk f end.

(** suppress_external_warnings, suppress_internal_warnings and
    distance_matrix_max_memory_chunk, config.py:25-70: the value returned and the
    dictionary afterwards. *)
Definition flag_call (f : flags) (n : flag_name) (arg : pyval) : pyval * flags :=
  let f' := match arg with
            | PNone => f
            | v => match n with
                   | External => mk_flags v (fl_internal f) (fl_chunk f)
                   | Internal => mk_flags (fl_external f) v (fl_chunk f)
                   | Chunk => mk_flags (fl_external f) (fl_internal f) v
                   end
            end in
  (flag_get f' n, f').

(** ** Plots *)

(** A class label in a table: a number, or a name given by [relabel_y]. *)
Inductive lab := LNum (z : Z) | LName (s : string).

Definition lab_eqb (a b : lab) : bool :=
  match a, b with LNum x, LNum z => Z.eqb x z | LName s, LName t => String.eqb s t | _, _ => false end.
Definition lab_ltb (a b : lab) : bool :=
  match a, b with
  | LNum x, LNum z => Z.ltb x z
  | LName s, LName t => String.ltb s t
  | LNum _, LName _ => true
  | LName _, LNum _ => false
  end.

(** [f"minority {idx}"]. *)
Definition minority_name (i : nat) : string := append "minority " (NilEmpty.string_of_uint (Nat.to_uint i)).

(** Position in a list. *)
Fixpoint position (l : list lab) (a : lab) : nat :=
  match l with [] => 0 | b :: l' => if lab_eqb a b then 0 else S (position l' a) end.

(** relabel_y, _visualization.py:56-79.  (Sorting numbers and names together
    raises TypeError in numpy; no caller mixes them and the model puts the numbers
    first.) *)
Definition relabel_y (y : list lab) : list string :=
  let unique_labels := map fst (unique_by lab_eqb lab_ltb y) in
  if length unique_labels =? 2 then
    map (fun a => if lab_eqb a (LNum 0) then "majority"%string else if lab_eqb a (LNum 1) then "minority"%string else "dummy"%string) y
  else
    map (fun a => if lab_eqb a (LNum 0) then "majority"%string else minority_name (position unique_labels a)) y.

(** [np.round(x, 4)] as a number of ten-thousandths. *)
Definition round4 (q : Q) : Z := rint (q * 10000).

Fixpoint zs_eqb (a b : list Z) : bool :=
  match a, b with
  | [], [] => true
  | x :: a', z :: b' => (x =? z)%Z && zs_eqb a' b'
  | _, _ => false
  end.
Fixpoint zs_ltb (a b : list Z) : bool :=
  match a, b with
  | [], _ :: _ => true
  | x :: a', z :: b' => (x <? z)%Z || ((x =? z)%Z && zs_ltb a' b')
  | _, [] => false
  end.

(** A row of the table of [unique_data]: coordinates, label, count. *)
Record entry := mk_entry { en_coords : list Z; en_y : Z; en_count : nat }.

(** unique_data, _visualization.py:82-104.  (Labels are integers, so rounding
    keeps them.  Repeated coordinates give columns of the same name, which pandas
    refuses to merge on; the check is made here.) *)
Definition unique_data (dim : nat) (X : list row) (y : list Z) (coordinates : list nat) : res (list entry) :=
  if negb (length X =? length y) then Err ValueError
  else if negb (forallb (fun c => c <? dim) coordinates) then Err IndexError
  else if negb (length (nodup Nat.eq_dec coordinates) =? length coordinates) then Err ValueError
  else
    let unified := map2 (fun x l => map round4 x ++ [l]) X y in
    Ok (map (fun rc => mk_entry (map (fun c => nth c (removelast (fst rc)) 0%Z) coordinates) (last (fst rc) 0%Z) (snd rc))
            (unique_by zs_eqb zs_ltb unified)).

Inductive flag := Untouched | New | Removed | CountChanged.

(** A row of the merged table: key, counts, counts_old; a missing value is None. *)
Record merged := mk_merged { mg_coords : list Z; mg_y : Z; mg_new : option nat; mg_old : option nat }.

Definition same_key (a b : entry) : bool := zs_eqb (en_coords a) (en_coords b) && (en_y a =? en_y b)%Z.

(** [new_pdf.merge(orig_pdf, how="outer", on=coords + \["y"\])]: one row per pair of
    rows with the same key and one per row without partner.  (pandas orders the
    result by key; the order is not modelled.) *)
Definition merge (new orig : list entry) : list merged :=
  flat_map (fun e =>
    match filter (same_key e) orig with
    | [] => [mk_merged (en_coords e) (en_y e) (Some (en_count e)) None]
    | os => map (fun o => mk_merged (en_coords e) (en_y e) (Some (en_count e)) (Some (en_count o))) os
    end) new ++
  flat_map (fun o => if existsb (same_key o) new then [] else [mk_merged (en_coords o) (en_y o) None (Some (en_count o))]) orig.

(** The column flag, _visualization.py:133-151. *)
Definition flag_of (m : merged) : option flag :=
  match mg_new m, mg_old m with
  | Some c, Some o => Some (if o =? c then Untouched else CountChanged)
  | Some _, None => Some New
  | None, Some _ => Some Removed
  | None, None => None
  end.

(** The column resampled_flag, _visualization.py:155. *)
Definition resampled_flag (m : merged) : bool :=
  match flag_of m with Some New | Some Untouched => true | _ => false end.
(** The column original_flag, _visualization.py:154. *)
Definition original_flag (m : merged) : bool := match mg_old m with Some _ => true | None => false end.

(** vector_labeling, _visualization.py:107-160. *)
Definition vector_labeling (dim : nat) (X : list row) (y : list Z) (X_samp : list row) (y_samp : list Z) (coordinates : list nat)
    : res (list merged) :=
  do orig <- unique_data dim X y coordinates;
  do new <- unique_data dim X_samp y_samp coordinates;
  Ok (merge new orig).

(** What plot_sampling does to the label column of the table it is given,
    _visualization.py:279 (plot_comparison does the same to both of its tables,
    363-364). *)
Definition plot_relabels (ys : list lab) : list lab := map LName (relabel_y ys).
