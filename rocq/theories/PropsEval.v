(** Properties C36 to C39 and C47 to C49: folds, sampling jobs, result tables. *)

From Coq Require Import List ZArith QArith Bool Arith Lia Permutation String.
From Verif Require Import Np PyVal BaseModel BaseFacts JsonModel JsonFacts CacheModel FoldModel FoldFacts JobModel JobFacts EvalWitness.
Import ListNotations.
Open Scope nat_scope.

(** [generate … splits = Ok (g, h')]: Folding.fold() run to its end over the splits
    of the validator; [consumed g]: each fold with the descriptor it carries when
    it is yielded. [split_contract]: every split divides the data, and the test
    sets of one repetition together are the data. *)

(** Train and test of every fold together are the data. *)
Theorem C36_split : forall row label (data : list row) (target : list label) a n_splits n_repeats splits h g h',
  List.length target = List.length data ->
  split_contract data n_splits n_repeats splits -> generate row label data target a n_splits h 0 splits = Ok (g, h') ->
  forall df, In df (consumed _ _ g) ->
  Permutation (combine (X_train _ _ (snd df)) (y_train _ _ (snd df)) ++ combine (X_test _ _ (snd df)) (y_test _ _ (snd df))) (combine data target).
Proof. exact fold_split_spec. Qed.

(** The test sets of the folds showing repetition [r] together are the data. *)
Theorem C36_cover : forall row label (data : list row) (target : list label) a n_splits n_repeats splits h g h' r,
  List.length target = List.length data -> n_splits <> 0 ->
  split_contract data n_splits n_repeats splits -> generate row label data target a n_splits h 0 splits = Ok (g, h') -> r < n_repeats ->
  Permutation (flat_map (fun df => combine (X_test _ _ (snd df)) (y_test _ _ (snd df))) (filter (fun df => repeat_idx (fst df) =? r) (consumed _ _ g)))
              (combine data target).
Proof. exact fold_cover_spec. Qed.

(** The folds are generated and named in the order (0, 0), (0, 1), ... *)
Theorem C36_indices : forall row label (data : list row) (target : list label) a n_splits n_repeats splits h g h',
  n_splits <> 0 -> split_contract data n_splits n_repeats splits -> generate row label data target a n_splits h 0 splits = Ok (g, h') ->
  map (fun df => (repeat_idx (fst df), fold_idx (fst df))) (consumed _ _ g) =
  flat_map (fun r => map (fun f => (r, f)) (seq 0 n_splits)) (seq 0 n_repeats).
Proof. exact @fold_indices. Qed.

(** Different folds have different file names, and for less than 10000 folds and
    repetitions the names sort in the order of generation. *)
Theorem C36_names : forall r f r' f' ser,
  (fold_name r f ser = fold_name r' f' ser -> r = r' /\ f = f') /\
  (r < 10 * 10 * 10 * 10 -> f < 10 * 10 * 10 * 10 -> r' < 10 * 10 * 10 * 10 -> f' < 10 * 10 * 10 * 10 -> r < r' \/ (r = r' /\ f < f') ->
   text_leb (fold_name r f ser) (fold_name r' f' ser) = true /\ text_leb (fold_name r' f' ser) (fold_name r f ser) = false).
Proof. exact names_spec. Qed.

(** folding_files() on a directory without fold files lists exactly the folds, in
    the order of generation. *)
Theorem C36_files : forall row label (data : list row) (target : list label) a n_splits n_repeats splits h g h' ser dir,
  n_splits <> 0 -> split_contract data n_splits n_repeats splits -> generate row label data target a n_splits h 0 splits = Ok (g, h') ->
  n_repeats <= 10 * 10 * 10 * 10 -> n_splits <= 10 * 10 * 10 * 10 ->
  (forall s, In s dir -> is_fold_file ser s = false) ->
  folding_files ser dir (cached_names _ _ ser g) =
  flat_map (fun r => map (fun f => fold_name r f ser) (seq 0 n_splits)) (seq 0 n_repeats).
Proof. exact files_spec. Qed.

(** Fold files of an earlier validator setting are listed too: 5 folds were
    cached, now 2 are requested. *)
Theorem C36_stale_refuted : exists dir,
  folding_files t_json dir (names_of 1 2 t_json) <> names_of 1 2 t_json /\
  In (fold_name 0 4 t_json) (folding_files t_json dir (names_of 1 2 t_json)) /\
  forall n, In n dir -> exists f, f < 5 /\ n = fold_name 0 f t_json.
Proof. exact stale_fold. Qed.

(** A fold carries its own indices when it is yielded ... *)
Theorem C37_yielded : forall row label (data : list row) (target : list label) a n_splits splits h g h',
  generate row label data target a n_splits h 0 splits = Ok (g, h') ->
  map fst (consumed _ _ g) =
  map (fun i => {| split_idx := i; repeat_idx := i / n_splits; fold_idx := i - (i / n_splits) * n_splits |}) (seq 0 (List.length splits)).
Proof. exact @consumed_desc. Qed.

(** ... but list(folding.fold()) holds folds all of which show the last indices. *)
Theorem C37_retained_refuted : forall row label (data : list row) (target : list label) a n_splits splits h g,
  generate row label data target a n_splits h 0 splits = Ok g -> splits <> [] ->
  map fst (retained _ _ g) = repeat (describe n_splits (List.length splits - 1)) (List.length splits).
Proof. exact @retained_desc. Qed.

(** When the oversampler fails, training and test data are those of the fold on
    one scale; a timeout gives the same; the labels and the descriptor are those
    of the fold in any case. *)
Theorem C38_failure : forall M Y D P sc (os : oversampler M Y P) co (f : fold M Y D) o e,
  do_oversampling M Y D P sc os co f = Ok o -> o_error _ _ _ _ o = Some e ->
  exists t, (forall s, sc = Some s -> t = s (f_X_train _ _ _ f) (f_y_train _ _ _ f)) /\ (sc = None -> t = fun x => x) /\
  o_X_train _ _ _ _ o = t (f_X_train _ _ _ f) /\ o_X_test _ _ _ _ o = t (f_X_test _ _ _ f) /\
  o_y_train _ _ _ _ o = f_y_train _ _ _ f /\ o_y_test _ _ _ _ o = f_y_test _ _ _ f /\ o_desc _ _ _ _ o = f_desc _ _ _ f /\
  o_X_train _ _ _ _ (timeout M Y D P sc os f) = o_X_train _ _ _ _ o /\ o_X_test _ _ _ _ (timeout M Y D P sc os f) = o_X_test _ _ _ _ o.
Proof. exact failure_scale. Qed.

(** When it succeeds, the training data are what it made of the scaled ones, and
    the test data what its preprocessing makes of the unscaled ones. *)
Theorem C38_success : forall M Y D P sc (os : oversampler M Y P) co (f : fold M Y D) o,
  do_oversampling M Y D P sc os co f = Ok o -> o_error _ _ _ _ o = None ->
  os_sample _ _ _ os (match sc with Some s => s (f_X_train _ _ _ f) (f_y_train _ _ _ f) (f_X_train _ _ _ f) | None => f_X_train _ _ _ f end)
    (f_y_train _ _ _ f) = Ok (o_X_train _ _ _ _ o, o_y_train _ _ _ _ o) /\
  os_prep _ _ _ os (f_X_test _ _ _ f) = Ok (o_X_test _ _ _ _ o) /\
  o_y_test _ _ _ _ o = f_y_test _ _ _ f /\ o_desc _ _ _ _ o = f_desc _ _ _ f.
Proof. exact success_scale. Qed.

(** Every ValueError or RuntimeError is recorded, any other exception passed on. *)
Theorem C38_outcome : forall M Y D P sc (os : oversampler M Y P) co (f : fold M Y D),
  let x := match sc with Some s => s (f_X_train _ _ _ f) (f_y_train _ _ _ f) (f_X_train _ _ _ f) | None => f_X_train _ _ _ f end in
  let job := do_oversampling M Y D P sc os co f in
  (forall xy t, os_sample _ _ _ os x (f_y_train _ _ _ f) = Ok xy -> os_prep _ _ _ os (f_X_test _ _ _ f) = Ok t ->
     exists o, job = Ok o /\ o_error _ _ _ _ o = None /\ o_params _ _ _ _ o = co) /\
  (forall e, os_sample _ _ _ os x (f_y_train _ _ _ f) = Err e \/
       (exists xy, os_sample _ _ _ os x (f_y_train _ _ _ f) = Ok xy /\ os_prep _ _ _ os (f_X_test _ _ _ f) = Err e) ->
     ((e = ValueError \/ e = RuntimeError) -> exists o, job = Ok o /\ o_error _ _ _ _ o = Some e /\ o_params _ _ _ _ o = co) /\
     (e <> ValueError -> e <> RuntimeError -> job = Err e)).
Proof. exact job_outcome. Qed.

(** So with the default preprocessing the classifier is tested on unscaled data. *)
Theorem C38_unscaled_refuted : forall M Y D P sc (os : oversampler M Y P) co (f : fold M Y D) o,
  (forall x, os_prep _ _ _ os x = Ok x) -> do_oversampling M Y D P sc os co f = Ok o -> o_error _ _ _ _ o = None ->
  o_X_test _ _ _ _ o = f_X_test _ _ _ f.
Proof. exact @raw_test. Qed.

(** The table of evaluate_oversamplers: one row per configuration, with the mean
    of the scores of exactly the results with that configuration, NaN left out. *)
Theorem C39_table : forall same rows, (forall a b, same a b = true <-> a = b) ->
  NoDup (map fst (parse_results rows)) /\
  (forall c, In c (map fst rows) <-> In c (map fst (parse_results rows))) /\
  (forall c m, In (c, m) (parse_results rows) -> mean_of (scores_of same c rows) m).
Proof. exact table_spec. Qed.

(** model_selection returns a configuration with the greatest mean, and raises
    IndexError exactly when all means are NaN. *)
Theorem C39_selection : forall rows,
  match model_selection rows with
  | Ok c => exists m, In (c, Some m) (parse_results rows) /\ forall c' m', In (c', Some m') (parse_results rows) -> (m' <= m)%Q
  | Err e => e = IndexError /\ forall c m, ~ In (c, Some m) (parse_results rows)
  end.
Proof. exact selection_spec. Qed.

(** The greatest mean is also selected for scores for which less is better, such
    as log_loss and brier: with losses 1/10 and 9/10 the second is returned. *)
Theorem C39_loss_refuted :
  model_selection [(ex_config [1%Z], Some (1 # 10)%Q); (ex_config [2%Z], Some (9 # 10)%Q)] = Ok (ex_config [2%Z]).
Proof. exact loss_selected. Qed.

(** Class statistics of a fold descriptor for labels 0 and 1. *)
Theorem C47_binary : forall c0 c1, 0 < c0 -> 0 < c1 ->
  label_stats [0%Z; 1%Z] [c0; c1] = Ok (Nat.min c0 c1, Nat.max c0 c1, (Z.of_nat (Nat.max c0 c1) # Pos.of_nat (Nat.min c0 c1))%Q).
Proof. exact stats_binary. Qed.

(** Other labels are used as indices: labels 1, 2 raise IndexError; labels -1, 1
    with 30 and 70 samples are recorded as 70 minority and 70 majority samples. *)
Theorem C47_labels_refuted :
  label_stats [1; 2]%Z [30; 70] = Err IndexError /\ label_stats [-1; 1]%Z [30; 70] = Ok (70, 70, (70 # 70)%Q).
Proof. exact stats_wrong. Qed.

(** Completed folds record coalesce_dict(get_params(), params), timed-out ones
    get_params(): the same entries ... *)
Theorem C48_entries : forall A (g p : list (string * A)) k, NoDup (map fst g) -> incl (map fst p) (map fst g) ->
  dget (coalesce_dict (Some g) p) k = dget g k.
Proof. exact @same_entries. Qed.

(** ... in the same order exactly when the given parameters are the first of
    get_params(). *)
Theorem C48_order_partial : forall A (g p : list (string * A)), NoDup (map fst g) -> NoDup (map fst p) -> incl (map fst p) (map fst g) ->
  (coalesce_dict (Some g) p = g <-> exists rest, map fst g = map fst p ++ rest).
Proof. exact @same_order. Qed.

(** Otherwise completed and timed-out folds of one configuration end up in two
    rows of the table. *)
Theorem C48_timed_out_refuted : exists o,
  do_oversampling nat nat nat _ None ex_os (coalesce_dict (Some (os_params _ _ _ ex_os)) ex_params) ex_fold = Ok o /\
  (forall k, dget (o_params _ _ _ _ o) k = dget (o_params _ _ _ _ (timeout nat nat nat _ None ex_os ex_fold)) k) /\
  (forall show : list (string * Q) -> text, (forall a b, show a = show b -> a = b) -> forall s1 s2,
   List.length (parse_results [(ex_config (show (o_params _ _ _ _ o)), s1);
                               (ex_config (show (o_params _ _ _ _ (timeout nat nat nat _ None ex_os ex_fold))), s2)]) = 2).
Proof. exact timed_out_apart. Qed.

(** Clean-up: 'oversamplings' removes every oversampling file and keeps folds and
    evaluations, 'all' removes the folds too. *)
Theorem C49_clean_up : forall all dir r f h ser,
  (In (evaluation_name r f h ser) dir -> In (evaluation_name r f h ser) (clean_up all dir)) /\
  ~ In (sampling_name r f h ser) (clean_up all dir) /\
  ~ In (fold_name r f ser) (clean_up true dir) /\
  (In (fold_name r f ser) dir -> In (fold_name r f ser) (clean_up false dir)) /\
  incl (clean_up all dir) dir.
Proof. exact clean_up_all. Qed.

(** ** Examples *)

(** Four samples, two folds, one repetition. *)
Example C36_example :
  let splits := [([2; 3], [0; 1]); ([0; 1], [2; 3])] in
  split_contract [10; 20; 30; 40] 2 1 splits /\
  exists g, generate nat nat [10; 20; 30; 40] [0; 1; 0; 1] 0 2 (fun _ => describe 2 0) 0 splits = Ok g /\
    map (fun df => (fold_idx (fst df), X_test _ _ (snd df))) (consumed _ _ (fst g)) = [(0, [10; 20]); (1, [30; 40])] /\
    map (fun df => fold_idx (fst df)) (retained _ _ g) = [1; 1] /\
    folding_files t_json [] (cached_names _ _ t_json (fst g)) = [fold_name 0 0 t_json; fold_name 0 1 t_json].
Proof. exact two_folds. Qed.

(** The scaler subtracts the training value: 4 becomes 0, the test value 6 stays
    6 on success and becomes 2 on failure. *)
Example C38_example :
  (exists o, do_oversampling nat nat nat _ (Some (fun X _ x => x - X)) ex_os [] ex_fold = Ok o /\ o_X_train _ _ _ _ o = 0 /\ o_X_test _ _ _ _ o = 6) /\
  (exists o, do_oversampling nat nat nat (list (string * Q)) (Some (fun X _ x => x - X))
      {| os_params := []; os_sample := fun _ _ => Err ValueError; os_prep := fun X => Ok X |} [] ex_fold = Ok o /\
    o_X_train _ _ _ _ o = 0 /\ o_X_test _ _ _ _ o = 2).
Proof. split; eexists; (split; [reflexivity|split; reflexivity]). Qed.

(** Two folds of one configuration and one of another, which has a NaN. *)
Example C39_example :
  let rows := [(ex_config [1%Z], Some (1 # 2)%Q); (ex_config [2%Z], None); (ex_config [1%Z], Some (1 # 4)%Q); (ex_config [2%Z], Some (3 # 4)%Q)] in
  map (fun cm => (k_oparams (fst cm), option_map Qred (snd cm))) (parse_results rows) = [([1%Z], Some (3 # 8)%Q); ([2%Z], Some (3 # 4)%Q)] /\
  model_selection rows = Ok (ex_config [2%Z]) /\ model_selection [(ex_config [1%Z], None)] = Err IndexError.
Proof. vm_compute. auto. Qed.

Example C48_example : let g := [("proportion"%string, 1); ("n_neighbors"%string, 3)] in
  coalesce_dict (Some g) [("proportion"%string, 1)] = g /\ coalesce_dict (Some g) [("n_neighbors"%string, 3)] <> g.
Proof. split; [reflexivity|discriminate]. Qed.

Example C49_example : clean_up false [fold_name 0 1 t_json; sampling_name 0 1 [97%Z] t_json; evaluation_name 0 1 [98%Z] t_json] =
  [fold_name 0 1 t_json; evaluation_name 0 1 [98%Z] t_json].
Proof. vm_compute. reflexivity. Qed.

Print Assumptions C36_split.
Print Assumptions C36_cover.
Print Assumptions C36_indices.
Print Assumptions C36_names.
Print Assumptions C36_files.
Print Assumptions C36_stale_refuted.
Print Assumptions C37_yielded.
Print Assumptions C37_retained_refuted.
Print Assumptions C38_failure.
Print Assumptions C38_success.
Print Assumptions C38_outcome.
Print Assumptions C38_unscaled_refuted.
Print Assumptions C39_table.
Print Assumptions C39_selection.
Print Assumptions C39_loss_refuted.
Print Assumptions C47_binary.
Print Assumptions C47_labels_refuted.
Print Assumptions C48_entries.
Print Assumptions C48_order_partial.
Print Assumptions C48_timed_out_refuted.
Print Assumptions C49_clean_up.
