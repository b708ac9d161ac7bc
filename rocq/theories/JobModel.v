(** Model of SamplingJob (evaluation/_sampling.py lines 80-270), of the reuse of
    cached results, and of the tables built from the results
    (evaluation/_functions.py lines 161-260 and 618-659). *)

From Coq Require Import List ZArith QArith Bool Arith.
From Verif Require Import Np JsonModel CacheModel FoldModel.
Import ListNotations.
Open Scope nat_scope.

(** ** SamplingJob.do_oversampling and SamplingJob.timeout

    Datasets are values of a type [M], labels of a type [Y]; a scaler is given by
    what it does: fitted to training data it is a transformation (sklearn's
    [fit_transform(X, y)] is [fit(X, y).transform(X)]). *)
Section SAMPLING.
Variables M Y D P : Type.     (* data, labels, fold descriptor, parameter dictionary *)

Record fold := { f_X_train : M; f_y_train : Y; f_X_test : M; f_y_test : Y; f_desc : D }.
Record oversampler := {
  os_params : P;                      (* get_params() *)
  os_sample : M -> Y -> res (M * Y);
  os_prep : M -> res M                (* preprocessing_transform; identity unless overridden *)
}.
Definition scaler := M -> Y -> M -> M.
Record oversampling := {
  o_X_train : M; o_y_train : Y; o_X_test : M; o_y_test : Y; o_desc : D; o_params : P;
  o_error : option exn
}.

Definition scale (sc : option scaler) (f : fold) (x : M) : M :=
  match sc with Some s => s (f_X_train f) (f_y_train f) x | None => x end.

(** Lines 138-208; [coalesced] is coalesce_dict(get_params(), oversampler_params).
    A ValueError or RuntimeError of the oversampler is recorded, any other
    exception is passed on. *)
Definition do_oversampling (sc : option scaler) (os : oversampler) (coalesced : P) (f : fold) : res oversampling :=
  let X_train := scale sc f (f_X_train f) in
  let X_test := scale sc f (f_X_test f) in
  let attempt :=
    do xy <- os_sample os X_train (f_y_train f);
    do t <- os_prep os (f_X_test f);
    Ok (fst xy, snd xy, t) in
  let failed e := Ok {| o_X_train := X_train; o_y_train := f_y_train f; o_X_test := X_test; o_y_test := f_y_test f;
                        o_desc := f_desc f; o_params := coalesced; o_error := Some e |} in
  match attempt with
  | Ok (xs, ys, t) => Ok {| o_X_train := xs; o_y_train := ys; o_X_test := t; o_y_test := f_y_test f;
                            o_desc := f_desc f; o_params := coalesced; o_error := None |}
  | Err ValueError => failed ValueError
  | Err RuntimeError => failed RuntimeError
  | Err e => Err e
  end.

(** Lines 211-270. *)
Definition timeout (sc : option scaler) (os : oversampler) (f : fold) : oversampling :=
  {| o_X_train := scale sc f (f_X_train f); o_y_train := f_y_train f; o_X_test := scale sc f (f_X_test f);
     o_y_test := f_y_test f; o_desc := f_desc f; o_params := os_params os; o_error := Some RuntimeError |}.
End SAMPLING.

(** ** Reuse of cached oversamplings, lines 133-136 and 198-207 *)

Section REUSE.
Context {F : Type}.
Variable frepr : F -> text.
Variable fparse : text -> F.
Variables Params Scaler Data : Type.
Variable show : text -> Params -> text.   (* str((oversampler, oversampler_params)) *)
Variable md5 : text -> text.              (* hexdigest *)

(** What a SamplingJob is asked to do. *)
Record request := { q_repeat : nat; q_fold : nat; q_oversampler : text; q_params : Params; q_scaler : Scaler; q_data : Data }.
(** The document such a job computes. *)
Variable compute : request -> list (text * json F).

Definition target (q : request) : text := sampling_name (q_repeat q) (q_fold q) (md5 (show (q_oversampler q) (q_params q))) t_json.

(** The files after the job, and the document a reader of the returned file
    name gets. *)
Definition run_job (reset : bool) (files : disk) (q : request) : res disk :=
  do damaged <- damaged_json fparse (files (target q));
  if negb damaged && negb reset then Ok files
  else Ok (put files (target q) (Some (print frepr (JObj (compute q))))).
Definition read_result (files : disk) (q : request) : res (@loaded F) := load_json fparse (files (target q)) [].
End REUSE.

(** The same for EvaluationJob, _evaluation.py lines 83-100: the label is the
    classifier and the parameter dictionary found in the oversampling. *)
Section REUSE_EVAL.
Variables Classifier Params : Type.
Variable showc : Classifier -> text.
Variable showp : Params -> text.
Variable md5 : text -> text.
Definition eval_target (r f : nat) (c : Classifier) (p : Params) : text :=
  evaluation_name r f (md5 (showc c ++ showp p)) t_json.
End REUSE_EVAL.

(** ** Tables of results *)

(** The columns a row is grouped by, _functions.py lines 241-250; [None] is NaN. *)
Record config := { k_dataset : text; k_omodule : text; k_oversampler : text; k_classifier : text; k_oparams : text; k_cmodule : text; k_cparams : text }.
Definition all_keys (c : config) : list text :=
  [k_dataset c; k_omodule c; k_oversampler c; k_classifier c; k_oparams c; k_cmodule c; k_cparams c].
(** model_selection, lines 632-640. *)
Definition pair_keys (c : config) : list text := [k_dataset c; k_oversampler c; k_omodule c; k_classifier c; k_cmodule c].

Definition text_eqb := eqb_text.
Fixpoint keys_eqb (a b : list text) : bool :=
  match a, b with [], [] => true | x :: a', y :: b' => eqb_text x y && keys_eqb a' b' | _, _ => false end.
Fixpoint keys_leb (a b : list text) : bool :=
  match a, b with
  | [], _ => true
  | _ :: _, [] => false
  | x :: a', y :: b' => if eqb_text x y then keys_leb a' b' else text_leb x y
  end.
Fixpoint insert_key (k : list text) (l : list (list text)) : list (list text) :=
  match l with
  | [] => [k]
  | h :: r => if keys_eqb k h then l else if keys_leb k h then k :: l else h :: insert_key k r
  end.
(** DataFrame.groupby: the distinct keys in ascending order, each with its rows
    in their original order. *)
Definition groupby {A} (kf : A -> list text) (l : list A) : list (list text * list A) :=
  map (fun k => (k, filter (fun x => keys_eqb (kf x) k) l)) (fold_right insert_key [] (map kf l)).

(** Series.mean: NaN entries are skipped. *)
Definition mean_skipna (l : list (option Q)) : option Q :=
  let v := flat_map (fun x => match x with Some q => [q] | None => [] end) l in
  match v with [] => None | _ => Some (fold_right Qplus 0%Q v / inject_Z (Z.of_nat (length v)))%Q end.

(** do_parse_results for one score, lines 226-260: a row per configuration. *)
Definition parse_results (rows : list (config * option Q)) : list (config * option Q) :=
  flat_map (fun g => match snd g with [] => [] | (c, _) :: _ => [(c, mean_skipna (map snd (snd g)))] end)
           (groupby (fun r => all_keys (fst r)) rows).

(** Series.max: NaN entries are skipped. *)
Fixpoint max_skipna (l : list (option Q)) : option Q :=
  match l with
  | [] => None
  | None :: r => max_skipna r
  | Some q :: r => match max_skipna r with Some m => Some (if Qle_bool m q then q else m) | None => Some q end
  end.
(** [pdf\[pdf\[col\] == pdf\[col\].max()\]], first row if any:
    _pivot_best_scores, lines 176-197, for one score. *)
Definition best_row {A} (rows : list (A * option Q)) : option (A * Q) :=
  match max_skipna (map snd rows) with
  | None => None
  | Some m =>
      match filter (fun r => match snd r with Some q => Qeq_bool q m | None => false end) rows with
      | (a, Some q) :: _ => Some (a, q)
      | _ => None
      end
  end.

(** model_selection, lines 631-659: best parameters within each pair of
    oversampler and classifier, then the best pair. *)
Definition model_selection (rows : list (config * option Q)) : res config :=
  let table := parse_results rows in
  let pivot := map (fun g => match best_row (snd g) with
                             | Some (c, q) => (Some c, Some q)
                             | None => (None, None)
                             end) (groupby (fun r => pair_keys (fst r)) table) in
  match best_row pivot with
  | Some (Some c, _) => Ok c
  | Some (None, _) => Err ValueError     (* literal_eval(None) *)
  | None => Err IndexError
  end.
