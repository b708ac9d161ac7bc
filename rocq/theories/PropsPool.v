(** Properties C29 and C30: the pool of jobs executed in processes with timeouts.

    [exec n n_jobs timed job on_timeout fits start_ok tr s]: some interleaving of
    the worker threads, manager threads and job processes, with timeouts and
    deaths of processes, leads from the start of the call to the state [s]; [tr]
    lists its visible events, latest first. *)

From Coq Require Import List Arith Bool Lia.
From Verif Require Import PoolModel PoolFacts PoolLive PoolLive2 PoolStuck PoolExec.
Import ListNotations.

(** No job is started twice, and when the call returns every job whose process
    could be started has been started. *)
Theorem C29_started_once : forall (R : Type) n n_jobs timed (job : nat -> behaviour R) on_timeout fits start_ok tr s,
  exec n n_jobs timed job on_timeout fits start_ok tr s ->
  (forall i tr1 tr2, tr = tr1 ++ LBegin i :: tr2 -> ~ In (LBegin i) tr1 /\ ~ In (LBegin i) tr2 /\ i < n) /\
  (0 < n_jobs -> finished n_jobs s -> forall i, i < n -> start_ok i = true -> In (LBegin i) tr).
Proof. exact started_once_spec. Qed.

(** At no time are there more than [n_jobs] processes. *)
Theorem C29_parallelism : forall (R : Type) n n_jobs timed (job : nat -> behaviour R) on_timeout fits start_ok tr s,
  exec n n_jobs timed job on_timeout fits start_ok tr s ->
  length (filter (fun i => alive (p_pr s i)) (seq 0 n)) <= n_jobs.
Proof. exact @running_bound. Qed.

(** Every execution is finite, whatever the schedule and whatever goes wrong. *)
Theorem C29_finite : forall (R : Type) n n_jobs timed (job : nat -> behaviour R) on_timeout fits start_ok tr s,
  exec n n_jobs timed job on_timeout fits start_ok tr s -> length tr <= 23 * n + 4 * n_jobs.
Proof. exact @exec_bounded. Qed.

(** No execution gets stuck before the call returns: as long as some worker is
    not finished, a thread or a process can take a step. Required of each job:
    its process could be started; there is a timeout, or the job comes to an end
    and its result fits into the pipe; the process did not die while holding the
    queue lock if there is a timeout, nor while writing a result that does not
    fit. *)
Theorem C29_no_deadlock : forall (R : Type) n n_jobs timed (job : nat -> behaviour R) on_timeout fits start_ok tr s,
  exec n n_jobs timed job on_timeout fits start_ok tr s ->
  (forall i, i < n -> start_ok i = true /\ (timed = true \/ (job i <> Hangs /\ fits i = true)) /\
     (In (LCrashIn i) tr -> timed = false) /\ (In (LCrash i) tr -> fits i = true)) ->
  finished n_jobs s \/ exists l s', step n n_jobs timed job on_timeout fits start_ok l s s' /\
    (forall i, l <> LCrash i /\ l <> LCrashIn i).
Proof. exact no_deadlock_spec. Qed.

(** When the call returns, the list has one entry per job, in the order of the
    jobs, and no process is left; the entry of every job that was not late and
    delivered its result is that result. *)
Theorem C29_results : forall (R : Type) n n_jobs timed (job : nat -> behaviour R) on_timeout fits start_ok tr s,
  0 < n_jobs -> exec n n_jobs timed job on_timeout fits start_ok tr s -> finished n_jobs s ->
  length (returned n s) = n /\ (forall i, i < n -> alive (p_pr s i) = false) /\
  forall i r, i < n -> start_ok i = true -> job i = Returns r ->
    ~ In (LLate i) tr -> ~ In (LCrash i) tr -> ~ In (LCrashIn i) tr -> nth_error (returned n s) i = Some (Some r).
Proof. exact results_spec. Qed.

(** So without a timeout, crashes or failures the result is that of calling the
    jobs one after the other. *)
Theorem C29_sequential : forall (R : Type) n n_jobs (f : nat -> R) on_timeout fits tr s,
  0 < n_jobs -> exec n n_jobs false (fun i => Returns (f i)) on_timeout fits (fun _ => true) tr s -> finished n_jobs s ->
  (forall i, ~ In (LCrash i) tr /\ ~ In (LCrashIn i) tr) -> returned n s = map (fun i => Some (f i)) (seq 0 n).
Proof. exact sequential_spec. Qed.

(** A job that was late, or did not deliver anything, gets its timeout value;
    a job that delivered in time gets its result. Nothing else is possible, and
    only the events of the job itself decide. *)
Theorem C30_slot : forall (R : Type) n n_jobs timed (job : nat -> behaviour R) on_timeout fits start_ok tr s,
  0 < n_jobs -> exec n n_jobs timed job on_timeout fits start_ok tr s -> finished n_jobs s ->
  forall i t, i < n -> start_ok i = true -> on_timeout i = Some t ->
    (In (LLate i) tr \/ ~ In (LDeliver i) tr -> nth_error (returned n s) i = Some (Some t)) /\
    (~ In (LLate i) tr -> In (LDeliver i) tr ->
       exists r, job i = Returns r /\ nth_error (returned n s) i = Some (Some r)).
Proof. exact slot_spec. Qed.

(** A job is late only if there is a timeout and it expired; it delivers nothing
    only if it raised, died or was late. *)
Theorem C30_reasons : forall (R : Type) n n_jobs timed (job : nat -> behaviour R) on_timeout fits start_ok tr s,
  0 < n_jobs -> exec n n_jobs timed job on_timeout fits start_ok tr s -> finished n_jobs s ->
  forall i, i < n -> start_ok i = true ->
    (In (LLate i) tr -> timed = true /\ In (LTick i) tr) /\
    (~ In (LDeliver i) tr -> job i = Raises \/ In (LCrash i) tr \/ In (LCrashIn i) tr \/ In (LLate i) tr).
Proof. exact reasons_spec. Qed.

(** A job that raises gets the timeout value. *)
Theorem C30_raises : forall (R : Type) n n_jobs timed (job : nat -> behaviour R) on_timeout fits start_ok tr s,
  0 < n_jobs -> exec n n_jobs timed job on_timeout fits start_ok tr s -> finished n_jobs s ->
  forall i t, i < n -> start_ok i = true -> on_timeout i = Some t -> job i = Raises ->
    nth_error (returned n s) i = Some (Some t).
Proof. exact raises_spec. Qed.

(** Finding: when a process cannot be started, the call never returns. *)
Theorem C29_start_failure_refuted : forall (R : Type) n n_jobs timed (job : nat -> behaviour R) on_timeout fits start_ok tr s i,
  0 < n_jobs -> exec n n_jobs timed job on_timeout fits start_ok tr s -> i < n -> start_ok i = false ->
  ~ finished n_jobs s.
Proof. exact @start_failure_blocks. Qed.

(** Finding: when a result does not fit into the pipe, the call never returns if
    there is no timeout, and with a timeout the job always counts as late. *)
Theorem C29_big_result_refuted : forall (R : Type) n n_jobs timed (job : nat -> behaviour R) on_timeout fits start_ok tr s i r,
  0 < n_jobs -> exec n n_jobs timed job on_timeout fits start_ok tr s -> finished n_jobs s -> i < n -> start_ok i = true ->
  job i = Returns r -> fits i = false -> ~ In (LCrash i) tr -> ~ In (LCrashIn i) tr -> timed = true /\ In (LLate i) tr.
Proof. exact @big_result. Qed.

(** Finding: a process that dies holding the queue lock after its timeout blocks
    the call. *)
Theorem C30_crash_in_lock_refuted : forall (R : Type) n n_jobs timed (job : nat -> behaviour R) on_timeout fits start_ok tr s i,
  0 < n_jobs -> exec n n_jobs timed job on_timeout fits start_ok tr s -> i < n ->
  In (LCrashIn i) tr -> In (LLate i) tr -> ~ finished n_jobs s.
Proof. exact @crash_in_lock_blocks. Qed.

(** Finding: with [n_jobs] zero (or negative) nothing is run and every entry is
    the initial value. *)
Theorem C29_no_workers_refuted : forall (R : Type) n timed (job : nat -> behaviour R) on_timeout fits start_ok tr s,
  exec n 0 timed job on_timeout fits start_ok tr s -> tr = [] /\ finished 0 s /\ returned n s = repeat None n.
Proof. exact no_workers_spec. Qed.

(** Two jobs, two workers, a timeout: job 0 delivers 10, job 1 hangs. *)
Definition ex_job (i : nat) : behaviour nat := if Nat.eqb i 0 then Returns 10 else Hangs.

Example C29_example : exists tr s, exec 2 2 true ex_job (fun _ => Some 99) (fun _ => true) (fun _ => true) tr s /\
  finished 2 s /\ In (LDeliver 0) tr /\ ~ In (LLate 0) tr /\ In (LLate 1) tr /\ returned 2 s = [Some 10; Some 99].
Proof. exact two_jobs. Qed.

(** The conditions of the findings are met by executions. *)
Example C29_big_result_example : exists tr s,
  exec 1 1 true (fun _ => Returns 10) (fun _ => Some 99) (fun _ => false) (fun _ => true) tr s /\ finished 1 s /\
  ~ In (LCrash 0) tr /\ ~ In (LCrashIn 0) tr /\ In (LDeliver 0) tr /\ returned 1 s = [Some 99].
Proof. exact big_late. Qed.

Example C30_crash_in_lock_example : exists tr s,
  exec 1 1 true (fun _ => Returns 10) (fun _ => Some 99) (fun _ => true) (fun _ => true) tr s /\
  In (LCrashIn 0) tr /\ In (LLate 0) tr.
Proof. exact crash_in_lock_happens. Qed.

Example C29_start_failure_example : exists tr s,
  exec 2 2 false (fun _ => Returns 10) (fun _ => Some 99) (fun _ => true) (fun i => Nat.eqb i 1) tr s /\
  p_mg s 0 = MDone /\ (forall l s', ~ step 2 2 false (fun _ => Returns 10) (fun _ => Some 99) (fun _ => true) (fun i => Nat.eqb i 1) l s s').
Proof. exact start_failure_stuck. Qed.

Print Assumptions C29_started_once.
Print Assumptions C29_parallelism.
Print Assumptions C29_finite.
Print Assumptions C29_no_deadlock.
Print Assumptions C29_results.
Print Assumptions C29_sequential.
Print Assumptions C30_slot.
Print Assumptions C30_reasons.
Print Assumptions C30_raises.
Print Assumptions C29_start_failure_refuted.
Print Assumptions C29_big_result_refuted.
Print Assumptions C30_crash_in_lock_refuted.
Print Assumptions C29_no_workers_refuted.
