(** Model of the cache files: load_dict, dump_dict and check_if_damaged,
    /repo/smote_variants/base/_base.py lines 197-289, and of the jobs that write
    them, evaluation/_sampling.py lines 80-270 and evaluation/_evaluation.py
    lines 70-193, run by cached_evaluation, evaluation/_functions.py 307-371.

    A file is absent or has a content; what a stopped process leaves behind is
    the content at that moment: the file system is assumed to apply the calls in
    order and to keep a prefix of what was written. *)

From Coq Require Import List ZArith Bool Lia.
From Verif Require Import Np JsonModel.
Import ListNotations.
Open Scope Z_scope.

Section FILES.
Context {F : Type}.
Variable frepr : F -> text.
Variable fparse : text -> F.
Variable of_int : Z -> F.        (* int to float, numpy's astype(float) *)

Notation json := (json F).

(** ** numpy arrays inside a dictionary *)

Inductive arr := IntVec (l : list Z) | FloatVec (l : list F) | FloatMat (l : list (list F)).
Inductive field := Plain (v : json) | Arr (a : arr).
Definition pydict := list (text * field).

(** [a.astype(float).tolist()], _base.py line 251. *)
Definition tolist (a : arr) : json :=
  match a with
  | IntVec l => JArr (map (fun z => JFloat (of_int z)) l)
  | FloatVec l => JArr (map (fun f => JFloat f) l)
  | FloatMat l => JArr (map (fun r => JArr (map (fun f => JFloat f) r)) l)
  end.

Fixpoint floats (l : list json) : option (list F) :=
  match l with
  | [] => Some []
  | JFloat f :: r => match floats r with Some t => Some (f :: t) | None => None end
  | _ => None
  end.
Fixpoint rows (w : nat) (l : list json) : option (list (list F)) :=
  match l with
  | [] => Some []
  | JArr x :: r => match floats x, rows w r with
                   | Some a, Some t => if (length a =? w)%nat then Some (a :: t) else None
                   | _, _ => None
                   end
  | _ => None
  end.
(** [np.array(v)], _base.py line 219, for lists of floats and lists of equally
    long lists of floats; numpy accepts more than that. *)
Definition np_array (v : json) : res arr :=
  match v with
  | JArr l =>
      match floats l with
      | Some t => Ok (FloatVec t)
      | None =>
          match l with
          | JArr x :: _ => match rows (length x) l with Some t => Ok (FloatMat t) | None => Err ValueError end
          | _ => Err ValueError
          end
      end
  | _ => Err ValueError
  end.

Fixpoint lookup {A} (d : list (text * A)) (k : text) : option A :=
  match d with [] => None | (k', v) :: r => if eqb_text k' k then Some v else lookup r k end.
Fixpoint update {A} (d : list (text * A)) (k : text) (v : A) : list (text * A) :=
  match d with
  | [] => [(k, v)]
  | (k', v') :: r => if eqb_text k' k then (k', v) :: r else (k', v') :: update r k v
  end.

(** _base.py lines 250-251: arrays become lists in the caller's dictionary. *)
Fixpoint convert (keys : list text) (obj : pydict) : res pydict :=
  match keys with
  | [] => Ok obj
  | k :: r =>
      match lookup obj k with
      | None => Err KeyError
      | Some (Plain _) => Err AttributeError
      | Some (Arr a) => convert r (update obj k (Plain (tolist a)))
      end
  end.

(** json.dumps raises TypeError on an array. *)
Fixpoint plain (obj : pydict) : res (list (text * json)) :=
  match obj with
  | [] => Ok []
  | (k, Plain v) :: r => do t <- plain r; Ok ((k, v) :: t)
  | (k, Arr _) :: r => Err TypeError
  end.

(** ** dump_dict, JSON branch, lines 249-260

    The contents the file goes through, and the outcome: the caller's dictionary
    as it is afterwards, or an exception. The document is composed after the
    file was opened. *)
Definition dump_json (old : option text) (obj : pydict) (keys : list text) : list (option text) * res pydict :=
  match convert keys obj with
  | Err e => ([old], Err e)
  | Ok obj' =>
      let opened := match old with Some _ => [old; None; Some []] | None => [None; Some []] end in
      match plain obj' with
      | Err e => (opened, Err e)
      | Ok l => let doc := print frepr (JObj l) in
                (opened ++ map (fun k => Some (firstn k doc)) (seq 1 (length doc)), Ok obj')
      end
  end.

(** ** load_dict, JSON branch, lines 214-220 *)
Inductive loaded := LDict (d : pydict) | LOther (v : json).

Fixpoint attach (keys : list text) (d : pydict) : res pydict :=
  match keys with
  | [] => Ok d
  | k :: r =>
      match lookup d k with
      | None => Err KeyError
      | Some (Arr a) => attach r d
      | Some (Plain v) => do a <- np_array v; attach r (update d k (Arr a))
      end
  end.
Definition load_json (content : option text) (keys : list text) : res loaded :=
  match content with
  | None => Err FileNotFoundError
  | Some s =>
      match loads fparse s with
      | PBad => Err JSONDecodeError
      | PFuel => Err OutOfFuel
      | POk (JObj l) _ => do d <- attach keys (map (fun kv => (fst kv, Plain (snd kv))) l); Ok (LDict d)
      | POk v _ => match keys with [] => Ok (LOther v) | _ => Err TypeError end
      end
  end.

(** ** The pickle branches, lines 221-225 and 261-266

    [dumped obj] is what pickle.dump writes, [unpickle] is pickle.load. *)
Variable O : Type.
Variable dumped : O -> text.
Variable unpickle : text -> res O.

Definition dump_pickle (old : option text) (obj : O) : list (option text) :=
  old :: map (fun k => Some (firstn k (dumped obj))) (seq 0 (S (length (dumped obj)))).
Definition load_pickle (content : option text) : res O :=
  match content with None => Err FileNotFoundError | Some s => unpickle s end.

(** ** check_if_damaged, lines 269-289 *)
Definition damaged_of {A} (r : res A) : res bool :=
  match r with
  | Ok _ => Ok false
  | Err FileNotFoundError => Ok true
  | Err JSONDecodeError => Ok true
  | Err e => Err e
  end.
Definition damaged_json (content : option text) : res bool := damaged_of (load_json content []).
Definition damaged_pickle (content : option text) : res bool := damaged_of (load_pickle content).

End FILES.

(** ** Jobs writing cache files

    [nm j] is the file of job [j]; [dep j = Some i]: job [j] reads the file of
    job [i] (an evaluation reads the oversampling it belongs to). [result j o d]:
    the job may produce the document [d] when it has read [o]; run times,
    warnings and randomness make several results possible. One job stands for
    one classifier of an EvaluationJob. *)
Section RUNS.
Context {F : Type}.
Variable frepr : F -> text.
Variable fparse : text -> F.
Variable jobs : nat.
Variable nm : nat -> text.
Variable dep : nat -> option nat.
Definition document := list (text * json F).
Variable result : nat -> option document -> document -> Prop.

Definition disk := text -> option text.
Definition put (d : disk) (f : text) (c : option text) : disk := fun g => if eqb_text g f then c else d g.

(** What a job is doing: not started (in the current run), about to write,
    old file removed, file open with [k] characters written, finished. *)
Inductive phase := Idle | Computed (d : document) | Removed (d : document) | Writing (d : document) (k : nat) | Done.
Record world := { files : disk; at_ : nat -> phase }.
Definition move (w : world) (j : nat) (p : phase) : world :=
  {| files := files w; at_ := fun i => if (i =? j)%nat then p else at_ w i |}.
Definition write (w : world) (j : nat) (c : option text) (p : phase) : world :=
  {| files := put (files w) (nm j) c; at_ := fun i => if (i =? j)%nat then p else at_ w i |}.

(** What job [j] reads before it computes, load_dict on the file it depends on. *)
Definition input (w : world) (j : nat) (o : option document) : Prop :=
  match dep j with
  | None => o = None
  | Some i => at_ w i = Done /\ exists s r l, files w (nm i) = Some s /\ loads fparse s = POk (JObj l) r /\ o = Some l
  end.

Inductive step : world -> world -> Prop :=
  (* _sampling.py 133-136, _evaluation.py 121-128: an undamaged file is kept *)
  | s_keep w j : (j < jobs)%nat -> at_ w j = Idle -> damaged_json fparse (files w (nm j)) = Ok false ->
      step w (move w j Done)
  (* otherwise the result is computed ... *)
  | s_compute w j o d : (j < jobs)%nat -> at_ w j = Idle -> damaged_json fparse (files w (nm j)) = Ok true ->
      input w j o -> result j o d -> step w (move w j (Computed d))
  (* ... and dumped, _base.py 252-260 *)
  | s_remove w j d : at_ w j = Computed d -> step w (write w j None (Removed d))
  | s_open w j d : at_ w j = Removed d -> step w (write w j (Some []) (Writing d 0))
  | s_write w j d k : at_ w j = Writing d k -> (k < length (print frepr (JObj d)))%nat ->
      step w (write w j (Some (firstn (S k) (print frepr (JObj d)))) (Writing d (S k)))
  | s_close w j d k : at_ w j = Writing d k -> k = length (print frepr (JObj d)) -> step w (move w j Done)
  (* the process of a job is killed or raises; the job may be tried again, as
     SamplingJob.timeout does *)
  | s_kill w j : step w (move w j Idle)
  (* the whole run stops, a new one begins; or the run ends and do_clean_up,
     _functions.py 142-158, has removed some of the files *)
  | s_restart w (gone : text -> bool) : step w {| files := fun f => if gone f then None else files w f; at_ := fun _ => Idle |}.

Inductive history : world -> Prop :=
  | h_start fs : (forall j, (j < jobs)%nat -> fs (nm j) = None) -> history {| files := fs; at_ := fun _ => Idle |}
  | h_step w w' : history w -> step w w' -> history w'.

(** Steps of a run in which nothing is interrupted. *)
Inductive progress : world -> world -> Prop :=
  | p_refl w : progress w w
  | p_step w w' w'' : step w w' -> (forall j, at_ w j = Done -> at_ w' j = Done) -> progress w' w'' -> progress w w''.

End RUNS.
