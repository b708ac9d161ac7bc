(** Model of /repo/smote_variants/evaluation/_parallelization.py: worker
    threads, manager threads and job processes as an interleaving transition
    system. *)

From Coq Require Import List Arith Bool.
Import ListNotations.

(** Functions updated at one argument. *)
Definition upd {A} (f : nat -> A) (i : nat) (v : A) : nat -> A :=
  fun j => if Nat.eqb j i then v else f j.

(** What [job.execute()] does in the child process; [r] is the value returned. *)
Inductive behaviour (R : Type) := Returns (r : R) | Raises | Hangs.
Arguments Returns {R}. Arguments Raises {R}. Arguments Hangs {R}.

(** Control points of pooling_thread, lines 172-218. *)
Inductive wstate :=
  | WAcquire           (* line 183 *)
  | WCheck             (* line 186 *)
  | WRelExit           (* line 187 *)
  | WCreate            (* lines 190-206 *)
  | WStart (i : nat)   (* line 211, the thread object for job i exists *)
  | WWait (i : nat)    (* lines 213-214 *)
  | WRelease (i : nat) (* line 216 *)
  | WJoin (i : nat)    (* line 218 *)
  | WDone.

(** Control points of process_manager, lines 110-159. *)
Inductive mstate :=
  | MNone              (* thread not started *)
  | MStart             (* line 133 *)
  | MRelease           (* line 135 *)
  | MJoin              (* lines 137-140 *)
  | MCheck             (* line 144 *)
  | MGetDefault        (* line 145 *)
  | MLateLock          (* line 151 *)
  | MLateGet           (* line 152 *)
  | MKill              (* line 158 *)
  | MLateWrite         (* line 159 *)
  | MDone.

(** Control points of execute_job_object, lines 78-89, in the child process. *)
Inductive pstate :=
  | PNone              (* not started *)
  | PRun               (* line 86 *)
  | PAcquire           (* line 87 *)
  | PPut               (* line 88 *)
  | PRelease           (* line 89; the feeder thread of the queue may be writing *)
  | PFlush             (* exit handler waits for the feeder thread *)
  | PDead.

(** The pipe of a queue: nothing in it, a complete message, or the beginning of
    a message larger than the pipe's buffer. *)
Inductive qstate (R : Type) := QEmpty | QFull (r : R) | QPart (r : R).
Arguments QEmpty {R}. Arguments QFull {R}. Arguments QPart {R}.

Inductive label :=
  | LStep               (* an internal step *)
  | LBegin (i : nat)    (* the process of job i is started *)
  | LDeliver (i : nat)  (* the result of job i reaches the pipe *)
  | LTick (i : nat)     (* the timeout of job i expires *)
  | LLate (i : nat)     (* the manager finds process i alive after the timeout *)
  | LCrash (i : nat)    (* process i dies outside the section protected by its queue lock *)
  | LCrashIn (i : nat). (* process i dies holding its queue lock *)

Section POOL.

Context {R : Type}.
Variable n : nat.                       (* len(jobs) *)
Variable n_jobs : nat.                  (* number of worker threads *)
Variable timed : bool.                  (* timeout is not None and timeout > 0, line 137 *)
Variable job : nat -> behaviour R.
Variable on_timeout : nat -> option R.  (* job.timeout(); None: it raises *)
Variable fits : nat -> bool.            (* the pickled result fits into the pipe's buffer *)
Variable start_ok : nat -> bool.        (* process.start() succeeds *)

Record pool := mk_pool {
  p_lock : option nat;         (* pool_object.lock: the worker holding it *)
  p_idx : nat;                 (* pool_object.idx *)
  p_res : nat -> option R;     (* pool_object.results; None: still the initial None *)
  p_wk : nat -> wstate;
  p_mg : nat -> mstate;
  p_pr : nat -> pstate;
  p_psl : nat -> bool;         (* process_start_lock of job i is held *)
  p_ql : nat -> bool;          (* queue_lock of job i is held *)
  p_q : nat -> qstate R;
  p_fl : nat -> bool }.        (* the feeder thread of process i has written everything *)

Definition set_lock v s := mk_pool v (p_idx s) (p_res s) (p_wk s) (p_mg s) (p_pr s) (p_psl s) (p_ql s) (p_q s) (p_fl s).
Definition set_idx v s := mk_pool (p_lock s) v (p_res s) (p_wk s) (p_mg s) (p_pr s) (p_psl s) (p_ql s) (p_q s) (p_fl s).
Definition set_res i v s := mk_pool (p_lock s) (p_idx s) (upd (p_res s) i v) (p_wk s) (p_mg s) (p_pr s) (p_psl s) (p_ql s) (p_q s) (p_fl s).
Definition set_wk i v s := mk_pool (p_lock s) (p_idx s) (p_res s) (upd (p_wk s) i v) (p_mg s) (p_pr s) (p_psl s) (p_ql s) (p_q s) (p_fl s).
Definition set_mg i v s := mk_pool (p_lock s) (p_idx s) (p_res s) (p_wk s) (upd (p_mg s) i v) (p_pr s) (p_psl s) (p_ql s) (p_q s) (p_fl s).
Definition set_pr i v s := mk_pool (p_lock s) (p_idx s) (p_res s) (p_wk s) (p_mg s) (upd (p_pr s) i v) (p_psl s) (p_ql s) (p_q s) (p_fl s).
Definition set_psl i v s := mk_pool (p_lock s) (p_idx s) (p_res s) (p_wk s) (p_mg s) (p_pr s) (upd (p_psl s) i v) (p_ql s) (p_q s) (p_fl s).
Definition set_ql i v s := mk_pool (p_lock s) (p_idx s) (p_res s) (p_wk s) (p_mg s) (p_pr s) (p_psl s) (upd (p_ql s) i v) (p_q s) (p_fl s).
Definition set_q i v s := mk_pool (p_lock s) (p_idx s) (p_res s) (p_wk s) (p_mg s) (p_pr s) (p_psl s) (p_ql s) (upd (p_q s) i v) (p_fl s).
Definition set_fl i v s := mk_pool (p_lock s) (p_idx s) (p_res s) (p_wk s) (p_mg s) (p_pr s) (p_psl s) (p_ql s) (p_q s) (upd (p_fl s) i v).

(** execute, lines 256-270: all workers started. *)
Definition init : pool := mk_pool None 0 (fun _ => None)
  (fun w => if Nat.ltb w n_jobs then WAcquire else WDone) (fun _ => MNone) (fun _ => PNone)
  (fun _ => false) (fun _ => false) (fun _ => QEmpty) (fun _ => false).

(** [results\[idx\] = job.timeout()]: when it raises the slot stays as it is. *)
Definition write_timeout i s :=
  match on_timeout i with Some v => set_res i (Some v) s | None => s end.

Definition put_done (p : pstate) : bool := match p with PRelease | PFlush => true | _ => false end.
Definition alive (p : pstate) : bool := match p with PNone | PDead => false | _ => true end.

Inductive step : label -> pool -> pool -> Prop :=
  (* pooling_thread *)
  | S_acquire w s : w < n_jobs -> p_wk s w = WAcquire -> p_lock s = None ->
      step LStep s (set_wk w WCheck (set_lock (Some w) s))
  | S_check_exit w s : w < n_jobs -> p_wk s w = WCheck -> n <= p_idx s ->
      step LStep s (set_wk w WRelExit s)
  | S_check_go w s : w < n_jobs -> p_wk s w = WCheck -> p_idx s < n ->
      step LStep s (set_wk w WCreate s)
  | S_rel_exit w s : w < n_jobs -> p_wk s w = WRelExit ->
      step LStep s (set_wk w WDone (set_lock None s))
  | S_create w s : w < n_jobs -> p_wk s w = WCreate ->
      step LStep s (set_wk w (WStart (p_idx s)) (set_psl (p_idx s) true (set_idx (p_idx s + 1) s)))
  | S_start w s i : w < n_jobs -> p_wk s w = WStart i ->
      step LStep s (set_wk w (WWait i) (set_mg i MStart s))
  | S_wait w s i : w < n_jobs -> p_wk s w = WWait i -> p_psl s i = false ->
      step LStep s (set_wk w (WRelease i) s)
  | S_release w s i : w < n_jobs -> p_wk s w = WRelease i ->
      step LStep s (set_wk w (WJoin i) (set_lock None s))
  | S_join w s i : w < n_jobs -> p_wk s w = WJoin i -> p_mg s i = MDone ->
      step LStep s (set_wk w WAcquire s)
  (* process_manager *)
  | M_start s i : p_mg s i = MStart -> start_ok i = true ->
      step (LBegin i) s (set_mg i MRelease (set_pr i PRun s))
  | M_start_fails s i : p_mg s i = MStart -> start_ok i = false ->
      step LStep s (set_mg i MDone s)
  | M_release s i : p_mg s i = MRelease ->
      step LStep s (set_mg i MJoin (set_psl i false s))
  | M_join s i : p_mg s i = MJoin -> alive (p_pr s i) = false ->
      step LStep s (set_mg i MCheck s)
  | M_tick s i : p_mg s i = MJoin -> timed = true ->
      step (LTick i) s (set_mg i MCheck s)
  | M_check_dead s i : p_mg s i = MCheck -> alive (p_pr s i) = false ->
      step LStep s (set_mg i MGetDefault s)
  | M_check_alive s i : p_mg s i = MCheck -> alive (p_pr s i) = true ->
      step (LLate i) s (set_mg i MLateLock s)
  | M_get_full s i r : p_mg s i = MGetDefault -> p_q s i = QFull r ->
      step LStep s (set_mg i MDone (set_res i (Some r) (set_q i QEmpty s)))
  | M_get_empty s i : p_mg s i = MGetDefault -> p_q s i = QEmpty ->
      step LStep s (set_mg i MDone (write_timeout i s))
  | M_late_lock s i : p_mg s i = MLateLock -> p_ql s i = false ->
      step LStep s (set_mg i MLateGet (set_ql i true s))
  | M_late_full s i r : p_mg s i = MLateGet -> p_q s i = QFull r ->
      step LStep s (set_mg i MKill (set_res i (Some r) (set_q i QEmpty s)))
  | M_late_part s i r : p_mg s i = MLateGet -> p_q s i = QPart r -> alive (p_pr s i) = true ->
      step LStep s (set_mg i MKill (set_res i (Some r) (set_fl i true (set_q i QEmpty s))))
  | M_late_empty s i : p_mg s i = MLateGet -> p_q s i = QEmpty ->
      step LStep s (set_mg i MKill s)
  | M_kill s i : p_mg s i = MKill ->
      step LStep s (set_mg i MLateWrite (set_pr i PDead s))
  | M_late_write s i : p_mg s i = MLateWrite ->
      step LStep s (set_mg i MDone (write_timeout i s))
  (* execute_job_object *)
  | P_return s i r : p_pr s i = PRun -> job i = Returns r ->
      step LStep s (set_pr i PAcquire s)
  | P_raise s i : p_pr s i = PRun -> job i = Raises ->
      step LStep s (set_pr i PDead s)
  | P_acquire s i : p_pr s i = PAcquire -> p_ql s i = false ->
      step LStep s (set_pr i PPut (set_ql i true s))
  | P_put s i : p_pr s i = PPut ->
      step LStep s (set_pr i PRelease s)
  | P_release s i : p_pr s i = PRelease ->
      step LStep s (set_pr i PFlush (set_ql i false s))
  | P_deliver s i r : put_done (p_pr s i) = true -> p_fl s i = false -> p_q s i = QEmpty -> job i = Returns r ->
      step (LDeliver i) s (if fits i then set_fl i true (set_q i (QFull r) s) else set_q i (QPart r) s)
  | P_exit s i : p_pr s i = PFlush -> p_fl s i = true ->
      step LStep s (set_pr i PDead s)
  (* external death of a process *)
  | P_crash s i : p_pr s i = PRun \/ p_pr s i = PAcquire \/ p_pr s i = PFlush ->
      step (LCrash i) s (set_pr i PDead s)
  | P_crash_in s i : p_pr s i = PPut \/ p_pr s i = PRelease ->
      step (LCrashIn i) s (set_pr i PDead s).

(** Executions with their labels (latest first). *)
Inductive exec : list label -> pool -> Prop :=
  | E_init : exec [] init
  | E_step tr l s s' : exec tr s -> step l s s' -> exec (l :: tr) s'.

(** execute returns when all workers are joined, lines 272-275. *)
Definition finished (s : pool) : Prop := forall w, w < n_jobs -> p_wk s w = WDone.
Definition returned (s : pool) : list (option R) := map (p_res s) (seq 0 n).

(** Processes running at the same time. *)
Definition running (s : pool) : nat := length (filter (fun i => alive (p_pr s i)) (seq 0 n)).

End POOL.
