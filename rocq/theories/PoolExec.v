(** The job pool: statements in the form used by PropsPool, example executions. *)

From Coq Require Import List Arith Bool Lia.
From Verif Require Import PoolModel PoolFacts PoolLive PoolLive2 PoolStuck.
Import ListNotations.

Section SPEC.
Context (R : Type).
Variables (n n_jobs : nat) (timed : bool) (job : nat -> behaviour R) (on_timeout : nat -> option R)
  (fits start_ok : nat -> bool).
Notation stp := (step n n_jobs timed job on_timeout fits start_ok).
Notation run := (exec n n_jobs timed job on_timeout fits start_ok).

Lemma started_once_spec tr s : run tr s ->
  (forall i tr1 tr2, tr = tr1 ++ LBegin i :: tr2 -> ~ In (LBegin i) tr1 /\ ~ In (LBegin i) tr2 /\ i < n) /\
  (0 < n_jobs -> finished n_jobs s -> forall i, i < n -> start_ok i = true -> In (LBegin i) tr).
Proof.
  intros E. split.
  - intros i t1 t2 ->. pose proof (begun_once _ _ _ _ _ _ _ _ _ E) as N. unfold begun in N.
    rewrite flat_map_app in N. cbn [flat_map app] in N. apply NoDup_remove_2 in N. rewrite in_app_iff in N.
    fold (begun t1) in N. fold (begun t2) in N. rewrite !begun_in in N.
    repeat split; [tauto|tauto|].
    pose proof (j_exec _ _ _ _ _ _ _ _ _ E i) as Ji.
    apply (process_below n n_jobs timed job fits start_ok _ s i (inv1_exec _ _ _ _ _ _ _ _ _ E) Ji).
    apply (j_begin _ _ _ _ _ _ _ Ji). apply in_or_app. right. now left.
  - intros N F i L S. now apply (end_state _ _ _ _ _ _ _ tr s N E F i L).
Qed.

Lemma no_deadlock_spec tr s : run tr s ->
  (forall i, i < n -> start_ok i = true /\ (timed = true \/ (job i <> Hangs /\ fits i = true)) /\
     (In (LCrashIn i) tr -> timed = false) /\ (In (LCrash i) tr -> fits i = true)) ->
  finished n_jobs s \/ exists l s', stp l s s' /\ (forall i, l <> LCrash i /\ l <> LCrashIn i).
Proof.
  intros E B. destruct (finished_dec n_jobs s) as [F|F]; [now left|right].
  destruct (progress _ _ _ _ _ _ _ tr s E B F) as (l & s' & St & C). exists l, s'. split; [assumption|].
  intros i. split; intros ->; discriminate C.
Qed.

Lemma returned_nth s i : i < n -> nth_error (returned n s) i = Some (p_res (R := R) s i).
Proof.
  intros L. unfold returned. rewrite nth_error_map.
  rewrite (nth_error_nth' _ 0) by now rewrite seq_length. now rewrite seq_nth.
Qed.

Lemma lab_dec : forall a b : label, {a = b} + {a <> b}.
Proof. decide equality; apply Nat.eq_dec. Qed.

Lemma slot_spec tr s : 0 < n_jobs -> run tr s -> finished n_jobs s ->
  forall i t, i < n -> start_ok i = true -> on_timeout i = Some t ->
    (In (LLate i) tr \/ ~ In (LDeliver i) tr -> nth_error (returned n s) i = Some (Some t)) /\
    (~ In (LLate i) tr -> In (LDeliver i) tr ->
       exists r, job i = Returns r /\ nth_error (returned n s) i = Some (Some r)).
Proof.
  intros N E F i t L S T. rewrite returned_nth by assumption.
  destruct (end_state _ _ _ _ _ _ _ tr s N E F i L) as (_ & _ & O & _).
  destruct O as [O|[O|[O|O]]].
  - destruct O. congruence.
  - destruct O as (_ & Lt & [V|[V _]]); [|congruence]. split; [intros _; congruence|contradiction].
  - destruct O as (_ & Lt & D & r & Jr & V). split; [tauto|intros _ _; exists r; split; congruence].
  - destruct O as (_ & Lt & D & V). split; [intros _; congruence|contradiction].
Qed.

Lemma reasons_spec tr s : 0 < n_jobs -> run tr s -> finished n_jobs s ->
  forall i, i < n -> start_ok i = true ->
    (In (LLate i) tr -> timed = true /\ In (LTick i) tr) /\
    (~ In (LDeliver i) tr -> job i = Raises \/ In (LCrash i) tr \/ In (LCrashIn i) tr \/ In (LLate i) tr).
Proof.
  intros N E F i L S. pose proof (j_exec _ _ _ _ _ _ _ _ _ E i) as Ji. split.
  - intros Lt. pose proof (j_ticked _ _ _ _ _ _ _ Ji Lt) as T. split; [apply (j_tick _ _ _ _ _ _ _ Ji T)|assumption].
  - intros D. destruct (undelivered _ _ _ _ _ _ _ tr s i N E F L S D) as [X|[X|[X|X]]]; auto.
Qed.

Lemma results_spec tr s : 0 < n_jobs -> run tr s -> finished n_jobs s ->
  length (returned n s) = n /\ (forall i, i < n -> alive (p_pr s i) = false) /\
  forall i r, i < n -> start_ok i = true -> job i = Returns r ->
    ~ In (LLate i) tr -> ~ In (LCrash i) tr -> ~ In (LCrashIn i) tr -> nth_error (returned n s) i = Some (Some r).
Proof.
  intros N E F. split; [unfold returned; now rewrite map_length, seq_length|]. split.
  - intros i L. now apply (end_state _ _ _ _ _ _ _ tr s N E F i L).
  - intros i r L S Jr NL C1 C2. rewrite returned_nth by assumption.
    destruct (end_state _ _ _ _ _ _ _ tr s N E F i L) as (_ & _ & O & _).
    destruct O as [O|[O|[O|O]]].
    + destruct O. congruence.
    + tauto.
    + destruct O as (_ & _ & _ & r' & Jr' & ->). congruence.
    + destruct O as (_ & _ & D & _).
      destruct (undelivered _ _ _ _ _ _ _ tr s i N E F L S D) as [X|[X|[X|X]]]; try contradiction. congruence.
Qed.

Lemma raises_spec tr s : 0 < n_jobs -> run tr s -> finished n_jobs s ->
  forall i t, i < n -> start_ok i = true -> on_timeout i = Some t -> job i = Raises ->
    nth_error (returned n s) i = Some (Some t).
Proof.
  intros N E F i t L S T Jr. destruct (slot_spec tr s N E F i t L S T) as [A B].
  destruct (in_dec lab_dec (LLate i) tr) as [X|X]; [apply A; now left|].
  destruct (in_dec lab_dec (LDeliver i) tr) as [Y|Y]; [|apply A; now right].
  destruct (B X Y) as (r & Jr' & _). congruence.
Qed.

End SPEC.

Lemma sequential_spec : forall (R : Type) n n_jobs (f : nat -> R) on_timeout fits tr s,
  0 < n_jobs -> exec n n_jobs false (fun i => Returns (f i)) on_timeout fits (fun _ => true) tr s -> finished n_jobs s ->
  (forall i, ~ In (LCrash i) tr /\ ~ In (LCrashIn i) tr) -> returned n s = map (fun i => Some (f i)) (seq 0 n).
Proof.
  intros R n n_jobs f ot fits tr s N E F C. unfold returned. apply map_ext_in. intros i H. apply in_seq in H.
  assert (L : i < n) by lia.
  destruct (results_spec _ _ _ _ _ _ _ _ tr s N E F) as (_ & _ & Rs).
  destruct (reasons_spec _ _ _ _ _ _ _ _ tr s N E F i L eq_refl) as (Lt & _).
  specialize (Rs i (f i) L eq_refl eq_refl ltac:(intros X; destruct (Lt X); discriminate) (proj1 (C i)) (proj2 (C i))).
  rewrite returned_nth in Rs by assumption. congruence.
Qed.

Lemma no_workers_spec : forall (R : Type) n timed (job : nat -> behaviour R) on_timeout fits start_ok tr s,
  exec n 0 timed job on_timeout fits start_ok tr s -> tr = [] /\ finished 0 s /\ returned n s = repeat None n.
Proof.
  intros R n timed job ot fits st tr s E.
  assert (X : tr = [] /\ s = init 0).
  { induction E as [|tr l s s' E IH H]; [split; reflexivity|exfalso]. destruct IH as [_ ->].
    inversion H; subst; cbn in *; try lia; try discriminate; intuition discriminate. }
  destruct X as [-> ->]. split; [reflexivity|]. split; [intros w L; lia|]. unfold returned, init. cbn.
  assert (G : forall k m, map (fun _ : nat => @None R) (seq k m) = repeat None m).
  { intros k m. revert k. induction m; intros k; cbn; [reflexivity|]. now rewrite IHm. }
  apply G.
Qed.

(** Example executions *)

Section EX.
Context {R : Type} {n n_jobs : nat} {timed : bool} {job : nat -> behaviour R} {on_timeout : nat -> option R}
  {fits start_ok : nat -> bool}.
(** Some execution continuing from [s] (with labels [tr]) satisfies [P]. *)
Inductive leads (P : list label -> pool (R := R) -> Prop) : list label -> pool (R := R) -> Prop :=
  | L_here tr s : P tr s -> leads P tr s
  | L_step tr s l s' : step n n_jobs timed job on_timeout fits start_ok l s s' -> leads P (l :: tr) s' -> leads P tr s.

Lemma exec_then P l tr s s' : step n n_jobs timed job on_timeout fits start_ok l s s' -> leads P (l :: tr) s' -> leads P tr s.
Proof. apply L_step. Qed.

Lemma leads_exec P tr s : leads P tr s -> exec n n_jobs timed job on_timeout fits start_ok tr s ->
  exists tr' s', exec n n_jobs timed job on_timeout fits start_ok tr' s' /\ P tr' s'.
Proof.
  induction 1 as [tr s H|tr s l s' St H IH]; intros E; [exists tr, s; auto|]. apply IH. econstructor; eassumption.
Qed.
End EX.
Arguments leads {R} n n_jobs timed job on_timeout fits start_ok P tr s.

Tactic Notation "fwd" uconstr(c) :=
  eapply exec_then; [eapply c; try reflexivity; try (cbn; lia); try (cbn; tauto)|].

Ltac both := intros w L; destruct w as [|[|w]]; [reflexivity|try reflexivity; lia|lia].
Ltac absent := cbn [In]; intuition discriminate.

Lemma two_jobs : exists tr s,
  exec 2 2 true (fun i => if Nat.eqb i 0 then Returns 10 else Hangs) (fun _ => Some 99) (fun _ => true) (fun _ => true) tr s /\
  finished 2 s /\ In (LDeliver 0) tr /\ ~ In (LLate 0) tr /\ In (LLate 1) tr /\ returned 2 s = [Some 10; Some 99].
Proof.
  eapply leads_exec; [|apply E_init].
  fwd (S_acquire _ _ _ _ _ _ _ 0). fwd (S_check_go _ _ _ _ _ _ _ 0). fwd (S_create _ _ _ _ _ _ _ 0).
  fwd (S_start _ _ _ _ _ _ _ 0). fwd (M_start _ _ _ _ _ _ _ _ 0). fwd (M_release _ _ _ _ _ _ _ _ 0).
  fwd (S_wait _ _ _ _ _ _ _ 0). fwd (S_release _ _ _ _ _ _ _ 0).
  fwd (S_acquire _ _ _ _ _ _ _ 1). fwd (S_check_go _ _ _ _ _ _ _ 1). fwd (S_create _ _ _ _ _ _ _ 1).
  fwd (P_return _ _ _ _ _ _ _ _ 0).
  fwd (S_start _ _ _ _ _ _ _ 1). fwd (M_start _ _ _ _ _ _ _ _ 1). fwd (M_release _ _ _ _ _ _ _ _ 1).
  fwd (S_wait _ _ _ _ _ _ _ 1). fwd (S_release _ _ _ _ _ _ _ 1).
  fwd (P_acquire _ _ _ _ _ _ _ _ 0). fwd (P_put _ _ _ _ _ _ _ _ 0). fwd (M_tick _ _ _ _ _ _ _ _ 1).
  fwd (P_release _ _ _ _ _ _ _ _ 0). fwd (P_deliver _ _ _ _ _ _ _ _ 0). fwd (P_exit _ _ _ _ _ _ _ _ 0).
  fwd (M_check_alive _ _ _ _ _ _ _ _ 1). fwd (M_join _ _ _ _ _ _ _ _ 0). fwd (M_late_lock _ _ _ _ _ _ _ _ 1).
  fwd (M_check_dead _ _ _ _ _ _ _ _ 0). fwd (M_get_full _ _ _ _ _ _ _ _ 0). fwd (M_late_empty _ _ _ _ _ _ _ _ 1).
  fwd (S_join _ _ _ _ _ _ _ 0). fwd (S_acquire _ _ _ _ _ _ _ 0). fwd (S_check_exit _ _ _ _ _ _ _ 0). fwd (S_rel_exit _ _ _ _ _ _ _ 0).
  fwd (M_kill _ _ _ _ _ _ _ _ 1). fwd (M_late_write _ _ _ _ _ _ _ _ 1).
  fwd (S_join _ _ _ _ _ _ _ 1). fwd (S_acquire _ _ _ _ _ _ _ 1). fwd (S_check_exit _ _ _ _ _ _ _ 1). fwd (S_rel_exit _ _ _ _ _ _ _ 1).
  apply L_here. split; [both|]. split; [cbn; tauto|]. split; [absent|]. split; [cbn; tauto|reflexivity].
Qed.

Lemma big_late : exists tr s,
  exec 1 1 true (fun _ => Returns 10) (fun _ => Some 99) (fun _ => false) (fun _ => true) tr s /\ finished 1 s /\
  ~ In (LCrash 0) tr /\ ~ In (LCrashIn 0) tr /\ In (LDeliver 0) tr /\ returned 1 s = [Some 99].
Proof.
  eapply leads_exec; [|apply E_init].
  fwd (S_acquire _ _ _ _ _ _ _ 0). fwd (S_check_go _ _ _ _ _ _ _ 0). fwd (S_create _ _ _ _ _ _ _ 0).
  fwd (S_start _ _ _ _ _ _ _ 0). fwd (M_start _ _ _ _ _ _ _ _ 0). fwd (M_release _ _ _ _ _ _ _ _ 0).
  fwd (S_wait _ _ _ _ _ _ _ 0). fwd (S_release _ _ _ _ _ _ _ 0).
  fwd (P_return _ _ _ _ _ _ _ _ 0). fwd (P_acquire _ _ _ _ _ _ _ _ 0). fwd (P_put _ _ _ _ _ _ _ _ 0).
  fwd (P_release _ _ _ _ _ _ _ _ 0). fwd (P_deliver _ _ _ _ _ _ _ _ 0). fwd (M_tick _ _ _ _ _ _ _ _ 0).
  fwd (M_check_alive _ _ _ _ _ _ _ _ 0). fwd (M_late_lock _ _ _ _ _ _ _ _ 0). fwd (M_late_part _ _ _ _ _ _ _ _ 0).
  fwd (M_kill _ _ _ _ _ _ _ _ 0). fwd (M_late_write _ _ _ _ _ _ _ _ 0).
  fwd (S_join _ _ _ _ _ _ _ 0). fwd (S_acquire _ _ _ _ _ _ _ 0). fwd (S_check_exit _ _ _ _ _ _ _ 0). fwd (S_rel_exit _ _ _ _ _ _ _ 0).
  apply L_here. split; [both|]. split; [absent|]. split; [absent|]. split; [cbn; tauto|reflexivity].
Qed.

Lemma crash_in_lock_happens : exists tr s,
  exec 1 1 true (fun _ => Returns 10) (fun _ => Some 99) (fun _ => true) (fun _ => true) tr s /\
  In (LCrashIn 0) tr /\ In (LLate 0) tr.
Proof.
  eapply leads_exec; [|apply E_init].
  fwd (S_acquire _ _ _ _ _ _ _ 0). fwd (S_check_go _ _ _ _ _ _ _ 0). fwd (S_create _ _ _ _ _ _ _ 0).
  fwd (S_start _ _ _ _ _ _ _ 0). fwd (M_start _ _ _ _ _ _ _ _ 0). fwd (M_release _ _ _ _ _ _ _ _ 0).
  fwd (P_return _ _ _ _ _ _ _ _ 0). fwd (P_acquire _ _ _ _ _ _ _ _ 0). fwd (M_tick _ _ _ _ _ _ _ _ 0).
  fwd (M_check_alive _ _ _ _ _ _ _ _ 0). fwd (P_crash_in _ _ _ _ _ _ _ _ 0).
  apply L_here. cbn. tauto.
Qed.

Lemma start_failure_stuck : exists tr s,
  exec 2 2 false (fun _ => Returns 10) (fun _ => Some 99) (fun _ => true) (fun i => Nat.eqb i 1) tr s /\
  p_mg s 0 = MDone /\
  (forall l s', ~ step 2 2 false (fun _ => Returns 10) (fun _ => Some 99) (fun _ => true) (fun i => Nat.eqb i 1) l s s').
Proof.
  eapply leads_exec; [|apply E_init].
  fwd (S_acquire _ _ _ _ _ _ _ 0). fwd (S_check_go _ _ _ _ _ _ _ 0). fwd (S_create _ _ _ _ _ _ _ 0).
  fwd (S_start _ _ _ _ _ _ _ 0). fwd (M_start_fails _ _ _ _ _ _ _ _ 0).
  apply L_here. split; [reflexivity|]. intros l s' H.
  inversion H; subst; clear H;
  repeat match goal with H : ?w < 2 |- _ => destruct w as [|[|w]]; [clear H|clear H|lia] end; cbn in *; try discriminate;
  repeat match goal with
  | H : WWait _ = WWait ?i |- _ => injection H as <-
  | H : context [upd _ 0 _ ?i] |- _ => destruct i; cbn in H
  end; try discriminate; rewrite ?upd_eq in *; try discriminate;
  intuition discriminate.
Qed.
