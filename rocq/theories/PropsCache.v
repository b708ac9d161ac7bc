(** Properties C31 to C35: cache files and jobs that reuse them.

    [F] is Python's float; [frepr] how json prints one and [fparse] how it reads
    one; [json_ok frepr fparse v] says that the strings of [v] have no lone pair of
    surrogates, its dictionaries no key twice, and that its floats survive
    printing and reading. A text is a list of code points. *)

From Coq Require Import List ZArith Bool Lia Arith.
From Verif Require Import Np JsonModel JsonFacts CacheModel CacheFacts CacheRuns FoldModel FoldFacts JobModel JobFacts CacheWitness.
Import ListNotations.
Open Scope nat_scope.

(** [states]: the contents the file goes through while dump_dict runs. Whenever it
    is stopped, the file is still the old one, or check_if_damaged returns True,
    or load_dict returns the dictionary that was dumped. *)
Theorem C31_interrupted_dump : forall F (frepr : F -> text) fparse of_int old obj keys states out c,
  dump_json frepr of_int old obj keys = (states, out) -> In c states ->
  (forall obj' l, convert of_int keys obj = Ok obj' -> plain obj' = Ok l -> json_ok frepr fparse (JObj l)) ->
  c = old \/
  damaged_json fparse c = Ok true \/
  exists obj', out = Ok obj' /\ load_json fparse c [] = Ok (LDict obj').
Proof. exact @dump_states. Qed.

(** Any proper prefix of the document is reported as damaged, the document is not. *)
Theorem C31_truncated : forall F (frepr : F -> text) fparse l k,
  json_ok frepr fparse (JObj l) ->
  damaged_json fparse (Some (firstn k (print frepr (JObj l)))) = Ok (k <? length (print frepr (JObj l))).
Proof. exact @truncated_spec. Qed.

(** The check never fails for another reason, whatever the file contains. *)
Theorem C31_check_total : forall F (fparse : text -> F) c, exists b, damaged_json fparse c = Ok b.
Proof. exact @check_total. Qed.

(** Round trip. [keys] names the entries holding arrays; arrays of integers come
    back as floats ([floated]). *)
Theorem C32_round_trip : forall F (frepr : F -> text) fparse of_int old obj keys states out,
  NoDup (map fst obj) -> NoDup keys ->
  (forall k, In k keys <-> exists a, In (k, Arr a) obj) ->
  (forall k a, In (k, Arr a) obj -> arr_ok a /\ json_ok frepr fparse (tolist of_int a)) ->
  (forall k v, In (k, Plain v) obj -> json_ok frepr fparse v) -> Forall str_ok (map fst obj) ->
  dump_json frepr of_int old obj keys = (states, out) ->
  (exists obj', out = Ok obj') /\ load_json fparse (last states None) keys = Ok (LDict (floated of_int obj)).
Proof. exact @round_trip. Qed.

(** Without arrays the dictionary comes back as it was. *)
Theorem C32_plain : forall F (frepr : F -> text) fparse of_int old l states out,
  json_ok frepr fparse (JObj l) ->
  dump_json frepr of_int old (map (fun kv => (fst kv, Plain (snd kv))) l) [] = (states, out) ->
  load_json fparse (last states None) [] = Ok (LDict (map (fun kv => (fst kv, Plain (snd kv))) l)).
Proof. exact @plain_round_trip. Qed.

(** A truncated pickle file is never taken for an intact one: given that
    pickle.load raises EOFError or UnpicklingError on a proper prefix ... *)
Theorem C33_truncated : forall O (dumped : O -> text) unpickle old obj c,
  (forall p q, dumped obj = p ++ q -> q <> [] -> unpickle p = Err EOFError \/ unpickle p = Err UnpicklingError) ->
  In c (dump_pickle O dumped old obj) ->
  c = old \/ c = Some (dumped obj) \/ damaged_pickle O unpickle c <> Ok false.
Proof. exact @pickle_not_intact. Qed.

(** ... but the check does not answer True either, it raises. *)
Theorem C33_raises_refuted : forall O (dumped : O -> text) unpickle obj k,
  (forall p q, dumped obj = p ++ q -> q <> [] -> unpickle p = Err EOFError \/ unpickle p = Err UnpicklingError) ->
  k < length (dumped obj) ->
  damaged_pickle O unpickle (Some (firstn k (dumped obj))) = Err EOFError \/
  damaged_pickle O unpickle (Some (firstn k (dumped obj))) = Err UnpicklingError.
Proof. exact @pickle_raises. Qed.

(** Runs over a cache directory: [history w]: starting without result files, any
    number of runs, interrupted anywhere, with any interleaving of the jobs, with
    or without clean-up in between, have led to [w]. [setting]: jobs write
    different files, depend at most on jobs that depend on none, and produce
    JSON-representable results. *)
Theorem C34_complete : forall F (frepr : F -> text) fparse jobs nm dep result,
  setting frepr fparse jobs nm dep result ->
  forall w j, history frepr fparse jobs nm dep result w -> j < jobs -> at_ w j = Done ->
  exists d, doc_of dep result j d /\ files w (nm j) = Some (print frepr (JObj d)).
Proof. exact @done_complete. Qed.

Theorem C34_damaged_or_result : forall F (frepr : F -> text) fparse jobs nm dep result,
  setting frepr fparse jobs nm dep result ->
  forall w j, history frepr fparse jobs nm dep result w -> j < jobs ->
  damaged_json fparse (files w (nm j)) = Ok true \/
  exists d, doc_of dep result j d /\ files w (nm j) = Some (print frepr (JObj d)).
Proof. exact @always_readable. Qed.

Theorem C34_kept : forall F (frepr : F -> text) fparse jobs nm dep result,
  setting frepr fparse jobs nm dep result ->
  forall w w' j, history frepr fparse jobs nm dep result w -> step frepr fparse jobs nm dep result w w' -> j < jobs ->
  damaged_json fparse (files w (nm j)) = Ok false ->
  files w' (nm j) = files w (nm j) \/ (files w' (nm j) = None /\ forall i, at_ w' i = Idle).
Proof. exact @undamaged_kept. Qed.

Theorem C34_other_files : forall F (frepr : F -> text) fparse jobs nm dep result,
  setting frepr fparse jobs nm dep result ->
  forall w w' f, history frepr fparse jobs nm dep result w -> step frepr fparse jobs nm dep result w w' ->
  (forall j, j < jobs -> f <> nm j) ->
  files w' f = files w f \/ (files w' f = None /\ forall i, at_ w' i = Idle).
Proof. exact @others_kept. Qed.

(** After any history the run can be completed ... *)
Theorem C34_completable : forall F (frepr : F -> text) fparse jobs nm dep result,
  setting frepr fparse jobs nm dep result ->
  (forall j o, j < jobs -> exists d, result j o d) ->
  forall w, history frepr fparse jobs nm dep result w ->
  exists w', progress frepr fparse jobs nm dep result w w' /\ forall j, j < jobs -> at_ w' j = Done.
Proof. exact @completable. Qed.

(** ... and any two complete runs leave the same files when the results are
    determined by the jobs. *)
Theorem C34_same_files : forall F (frepr : F -> text) fparse jobs nm dep result w1 w2,
  setting frepr fparse jobs nm dep result ->
  (forall j o d d', result j o d -> result j o d' -> d = d') ->
  history frepr fparse jobs nm dep result w1 -> history frepr fparse jobs nm dep result w2 ->
  (forall j, j < jobs -> at_ w1 j = Done) -> (forall j, j < jobs -> at_ w2 j = Done) ->
  forall j, j < jobs -> files w1 (nm j) = files w2 (nm j).
Proof. exact @same_files. Qed.

(** Two jobs with one file name, e.g. an oversampler listed twice: a finished
    job's file may be gone. *)
Theorem C34_same_name_refuted : exists w,
  history (fun t : text => t) (fun t => t) 2 (fun _ => t_json) (fun _ => None) (fun _ _ d => d = []) w /\
  at_ w 0 = Done /\ files w t_json = None.
Proof. exact same_name_race. Qed.

(** The file of an oversampling is determined by the repetition, the fold, the
    oversampler and its parameters, and determines them, given that md5 does not
    collide and str distinguishes parameter dictionaries. *)
Theorem C35_key : forall Params Scaler Data (show : text -> Params -> text) md5 (q q' : request Params Scaler Data),
  (forall o p o' p', md5 (show o p) = md5 (show o' p') -> o = o' /\ p = p') ->
  (target _ _ _ show md5 q = target _ _ _ show md5 q' <->
   q_repeat _ _ _ q = q_repeat _ _ _ q' /\ q_fold _ _ _ q = q_fold _ _ _ q' /\
   q_oversampler _ _ _ q = q_oversampler _ _ _ q' /\ q_params _ _ _ q = q_params _ _ _ q').
Proof. exact @target_key. Qed.

(** Requests differing in one of these get their own results. *)
Theorem C35_no_mixing : forall F (frepr : F -> text) fparse Params Scaler Data (show : text -> Params -> text) md5 compute
    fs (q q' : request Params Scaler Data) fs' fs'',
  (forall o p o' p', md5 (show o p) = md5 (show o' p') -> o = o' /\ p = p') ->
  json_ok frepr fparse (JObj (compute q')) -> fs (target _ _ _ show md5 q') = None ->
  ~ (q_repeat _ _ _ q = q_repeat _ _ _ q' /\ q_fold _ _ _ q = q_fold _ _ _ q' /\
     q_oversampler _ _ _ q = q_oversampler _ _ _ q' /\ q_params _ _ _ q = q_params _ _ _ q') ->
  run_job frepr fparse _ _ _ show md5 compute false fs q = Ok fs' ->
  run_job frepr fparse _ _ _ show md5 compute false fs' q' = Ok fs'' ->
  read_result fparse _ _ _ show md5 fs'' q' = Ok (LDict (map (fun kv => (fst kv, Plain (snd kv))) (compute q'))) /\
  fs'' (target _ _ _ show md5 q) = fs' (target _ _ _ show md5 q).
Proof. exact @no_mixing. Qed.

(** The same for evaluations: the file determines the fold, the classifier and
    the parameters of the oversampler. *)
Theorem C35_evaluation_key : forall Classifier Params showc showp md5 r f (c : Classifier) (p : Params) r' f' c' p',
  (forall a b, md5 a = md5 b -> a = b) ->
  (forall c p c' p', showc c ++ showp p = showc c' ++ showp p' -> c = c' /\ p = p') ->
  (eval_target _ _ showc showp md5 r f c p = eval_target _ _ showc showp md5 r' f' c' p' <->
   r = r' /\ f = f' /\ c = c' /\ p = p').
Proof. exact @eval_key. Qed.

(** The scaler and the data are not part of the key: a request differing only in
    these is answered with the result of the earlier one. *)
Theorem C35_scaler_refuted : forall F (frepr : F -> text) fparse Params Scaler Data (show : text -> Params -> text) md5 compute
    fs (q : request Params Scaler Data) s d fs',
  json_ok frepr fparse (JObj (compute q)) -> fs (target _ _ _ show md5 q) = None ->
  run_job frepr fparse _ _ _ show md5 compute false fs q = Ok fs' ->
  let q' := {| q_repeat := q_repeat _ _ _ q; q_fold := q_fold _ _ _ q; q_oversampler := q_oversampler _ _ _ q;
               q_params := q_params _ _ _ q; q_scaler := s; q_data := d |} in
  run_job frepr fparse _ _ _ show md5 compute false fs' q' = Ok fs' /\
  read_result fparse _ _ _ show md5 fs' q' = Ok (LDict (map (fun kv => (fst kv, Plain (snd kv))) (compute q))).
Proof. exact @scaler_ignored. Qed.

(** ** Examples *)

(** Floats are represented by their text: 1.5 and the dictionary
    x: [1.5, 1.5], y: an array 1 2, n: "a\n". *)

Example C31_example : exists states,
  dump_json (fun t : text => t) ex_of_int None ex_obj [[121%Z]] = (states, Ok [([120%Z], Plain (JArr [JFloat ex_float; JFloat ex_float]));
    ([121%Z], Plain (JArr [JFloat [49; 46; 48]%Z; JFloat [50; 46; 48]%Z])); ([110%Z], Plain (JStr [97; 10]%Z))]) /\
  length states = 48 /\
  forallb (fun c => match damaged_json (fun t : text => t) c with Ok b => b | _ => false end) (firstn 47 states) = true /\
  damaged_json (fun t : text => t) (last states None) = Ok false.
Proof. eexists. split; [vm_compute; reflexivity|]. vm_compute. auto. Qed.

Example C32_example : let states := fst (dump_json (fun t : text => t) ex_of_int None ex_obj [[121%Z]]) in
  load_json (fun t : text => t) (last states None) [[121%Z]] =
  Ok (LDict [([120%Z], Plain (JArr [JFloat ex_float; JFloat ex_float])); ([121%Z], Arr (FloatVec [[49; 46; 48]; [50; 46; 48]]%Z)); ([110%Z], Plain (JStr [97; 10]%Z))]).
Proof. vm_compute. reflexivity. Qed.

Example C32_hypotheses : NoDup (map fst ex_obj) /\
  (forall k a, In (k, Arr a) ex_obj -> arr_ok a /\ json_ok (fun t : text => t) (fun t => t) (tolist ex_of_int a)) /\
  (forall k v, In (k, Plain v) ex_obj -> json_ok (fun t : text => t) (fun t => t) v) /\ Forall str_ok (map fst ex_obj).
Proof. exact ex_obj_ok. Qed.

(** A length byte followed by the content: a pickle that notices truncation. *)

Example C33_example : (forall p q, ex_dumped 7%Z = p ++ q -> q <> [] -> ex_unpickle p = Err EOFError \/ ex_unpickle p = Err UnpicklingError) /\
  ex_unpickle (ex_dumped 7%Z) = Ok 7%Z /\ damaged_pickle Z ex_unpickle (Some []) = Err EOFError.
Proof. exact ex_pickle_ok. Qed.

(** An oversampling and an evaluation that reads it; a run is killed while the
    first job writes, and a second run completes. *)
Example C34_example : exists w,
  setting (fun t : text => t) (fun t => t) 2 ex_nm ex_dep ex_result /\
  history (fun t : text => t) (fun t => t) 2 ex_nm ex_dep ex_result w /\
  damaged_json (fun t : text => t) (files w (ex_nm 0)) = Ok true /\ files w (ex_nm 0) <> None /\
  exists w', history (fun t : text => t) (fun t => t) 2 ex_nm ex_dep ex_result w' /\
    (forall j, j < 2 -> at_ w' j = Done) /\
    files w' (ex_nm 0) = Some (print (fun t : text => t) (JObj [])) /\
    files w' (ex_nm 1) = Some (print (fun t : text => t) (JObj [([97%Z], JBool true)])).
Proof. exact interrupted_run. Qed.

(** Two scalers with different results: the second request gets the first's. *)
Example C35_scaler_example :
  let run := run_job (fun t : text => t) (fun t => t) _ _ _ (fun o p => o ++ print_int (Z.of_nat p)) (fun t => t) ex_compute false in
  ex_compute (ex_request true) <> ex_compute (ex_request false) /\
  exists fs fs', run (fun _ => None) (ex_request true) = Ok fs /\ run fs (ex_request false) = Ok fs' /\
    read_result (fun t => t) _ _ _ (fun o p => o ++ print_int (Z.of_nat p)) (fun t => t) fs' (ex_request false) = Ok (LDict [([120%Z], Plain (JBool true))]).
Proof. exact scaler_example. Qed.

Print Assumptions C31_interrupted_dump.
Print Assumptions C31_truncated.
Print Assumptions C31_check_total.
Print Assumptions C32_round_trip.
Print Assumptions C32_plain.
Print Assumptions C33_truncated.
Print Assumptions C33_raises_refuted.
Print Assumptions C34_complete.
Print Assumptions C34_damaged_or_result.
Print Assumptions C34_kept.
Print Assumptions C34_other_files.
Print Assumptions C34_completable.
Print Assumptions C34_same_files.
Print Assumptions C34_same_name_refuted.
Print Assumptions C35_key.
Print Assumptions C35_no_mixing.
Print Assumptions C35_evaluation_key.
Print Assumptions C35_scaler_refuted.
