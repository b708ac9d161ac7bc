(** The job pool: termination, absence of deadlocks, number of processes. *)

From Coq Require Import List Arith Bool Lia.
From Verif Require Import PoolModel PoolFacts PoolLive.
Import ListNotations.

Section LIVE2.
Context {R : Type}.
Variables (n n_jobs : nat) (timed : bool) (job : nat -> behaviour R) (on_timeout : nat -> option R)
  (fits start_ok : nat -> bool).
Notation stp := (step n n_jobs timed job on_timeout fits start_ok).
Notation run := (exec n n_jobs timed job on_timeout fits start_ok).
Notation Inv1 := (Inv1 (R := R) n n_jobs).
Notation J := (J timed job fits start_ok).
Notation measure := (measure (R := R) n n_jobs).

Ltac simpl_state :=
  unfold write_timeout in *;
  repeat match goal with |- context [match on_timeout ?i with _ => _ end] => destruct (on_timeout i) eqn:? end;
  repeat match goal with |- context [if fits ?i then _ else _] => destruct (fits i) eqn:? end;
  cbn [set_lock set_idx set_res set_wk set_mg set_pr set_psl set_ql set_q set_fl
       p_lock p_idx p_res p_wk p_mg p_pr p_psl p_ql p_q p_fl] in *.

Lemma measure_worker s s' w : w < n_jobs -> p_idx s' <= n ->
  (forall v, v <> w -> p_wk s' v = p_wk s v) -> (forall i, j_rank s' i <= j_rank s i) ->
  7 * (n - p_idx s') + w_rank (p_wk s' w) < 7 * (n - p_idx s) + w_rank (p_wk s w) -> measure s' < measure s.
Proof.
  intros W I E1 E2 L. unfold PoolLive.measure.
  pose proof (total_upd (fun w => w_rank (p_wk s' w)) (fun w => w_rank (p_wk s w)) n_jobs w W) as T.
  cbn beta in T. specialize (T ltac:(intros; now rewrite E1)).
  assert (total (j_rank s') n <= total (j_rank s) n); [|lia].
  clear - E2. induction n; [reflexivity|]. rewrite !total_S. specialize (E2 n0). lia.
Qed.

Lemma measure_job s s' i : i < n -> p_idx s' = p_idx s -> (forall w, p_wk s' w = p_wk s w) ->
  (forall j, j <> i -> j_rank s' j = j_rank s j) -> j_rank s' i < j_rank s i -> measure s' < measure s.
Proof.
  intros W I E1 E2 L. unfold PoolLive.measure. rewrite I.
  rewrite (total_ext (fun w => w_rank (p_wk s' w)) (fun w => w_rank (p_wk s w))) by (intros; now rewrite E1).
  pose proof (total_upd (j_rank s') (j_rank s) n i W E2). lia.
Qed.

Lemma started_below s i : Inv1 s -> p_mg s i <> MNone -> i < n.
Proof.
  intros I M. destruct (Nat.lt_ge_cases i n) as [|G]; [assumption|]. exfalso. apply M, (i_fresh _ _ s I).
  pose proof (i_idx _ _ s I). lia.
Qed.

Lemma process_below tr s i : Inv1 s -> J tr s i -> p_pr s i <> PNone -> i < n.
Proof.
  intros I Ji P. apply (started_below s i I). intros M. apply P, (j_none _ _ _ _ _ _ _ Ji). now left.
Qed.

Lemma full_flushed tr s i r : J tr s i -> before_get (p_mg s i) = true -> p_q s i = QFull r -> p_fl s i = true.
Proof.
  intros Ji B Q. apply (j_fits _ _ _ _ _ _ _ Ji).
  - pose proof (j_q _ _ _ _ _ _ _ Ji) as C. rewrite Q in C. apply C.
  - apply (j_deliver _ _ _ _ _ _ _ Ji B). congruence.
Qed.

Lemma measure_step l tr s s' : Inv1 s -> (forall i, J tr s i) -> stp l s s' -> measure s' < measure s.
Proof.
  intros I1 JJ H. pose proof (i_idx _ _ s I1) as Ix. inversion H; subst; clear H.
  (* workers *)
  1-9: match goal with |- context [set_wk ?w _ _] => apply (measure_worker _ _ w) end; simpl_state; try assumption;
    [..| |]; try (intros v Nv; now rewrite upd_neq by assumption);
    try (intros; apply Nat.le_refl); rewrite ?upd_eq; try (match goal with H : p_wk _ _ = _ |- _ => rewrite H end; cbn [w_rank]; try lia).
  { pose proof (i_create _ _ s I1 _ H1). lia. }
  { pose proof (i_create _ _ s I1 _ H1). lia. }
  { intros j. unfold j_rank. simpl_state. destruct (Nat.eq_dec j i) as [->|N]; [rewrite upd_eq|now rewrite upd_neq].
    rewrite (i_start _ _ s I1 _ _ H1). cbn. lia. }
  { (* managers and processes *)
    apply (measure_job s _ i); try reflexivity; [apply (started_below s i I1); congruence|..];
      unfold j_rank; simpl_state; [intros j N; now rewrite !upd_neq|].
    rewrite !upd_eq, H0, (j_none _ _ _ _ _ _ _ (JJ i)) by auto. cbn. lia. }
  1-14: pose proof (JJ i) as Ji; apply (measure_job s _ i); try reflexivity;
      try (simpl_state; reflexivity); [apply (started_below s i I1); congruence|..];
      unfold j_rank; simpl_state; try (intros j N; now rewrite !upd_neq); rewrite ?upd_eq, ?H0;
      try (rewrite (full_flushed tr s i r Ji) by (assumption || now rewrite H0)); cbn [m_rank q_rank];
      try (destruct (p_pr s i); cbn; lia); try lia.
  all: pose proof (JJ i) as Ji; apply (measure_job s _ i); simpl_state; try reflexivity;
    [apply (process_below tr s i I1 Ji); intros P; repeat match goal with H : _ \/ _ |- _ => destruct H as [H|H] end;
      match goal with H : context [p_pr _ _] |- _ => rewrite P in H; discriminate H end|..];
    unfold j_rank; simpl_state; try (intros j N; now rewrite ?upd_neq); rewrite ?upd_eq;
    repeat match goal with H : p_pr _ _ = _ \/ _ |- _ => destruct H as [H|H] end;
    repeat match goal with H : p_pr _ _ = _ |- _ => rewrite H | H : p_q _ _ = _ |- _ => rewrite H | H : p_fl _ _ = _ |- _ => rewrite H end;
    cbn [p_rank q_rank]; lia.
Qed.

(** Every execution is finite: its length is bounded in terms of the number of
    jobs and of workers. *)
Lemma exec_measure tr s : run tr s -> length tr + measure s <= measure (init n_jobs).
Proof.
  induction 1; [cbn; lia|]. cbn [length].
  pose proof (measure_step _ tr _ _ (inv1_exec _ _ _ _ _ _ _ _ _ H) (j_exec _ _ _ _ _ _ _ _ _ H) H0). lia.
Qed.

Lemma total_const f k c : (forall i, i < k -> f i = c) -> total f k = k * c.
Proof. induction k; intros H; [reflexivity|]. rewrite total_S, IHk, H by (intros; apply H || idtac; lia). lia. Qed.

Lemma measure_init : measure (init n_jobs) = 23 * n + 4 * n_jobs.
Proof.
  unfold PoolLive.measure. rewrite (total_const _ n_jobs 4), (total_const _ n 16).
  - unfold init. cbn [p_idx]. lia.
  - reflexivity.
  - intros i L. unfold init. cbn [p_wk]. apply Nat.ltb_lt in L. now rewrite L.
Qed.

Theorem exec_bounded tr s : run tr s -> length tr <= 23 * n + 4 * n_jobs.
Proof. intros H. apply exec_measure in H. rewrite measure_init in H. lia. Qed.

(** ** No deadlock *)

Definition is_crash (l : label) : bool := match l with LCrash _ | LCrashIn _ => true | _ => false end.
Definition can_go (s : pool (R := R)) : Prop := exists l s', stp l s s' /\ is_crash l = false.

(** What an execution must satisfy for its pool not to be stuck because of job i. *)
Definition benign (tr : list label) (i : nat) : Prop :=
  start_ok i = true /\
  (timed = true \/ (job i <> Hangs /\ fits i = true)) /\
  (In (LCrashIn i) tr -> timed = false) /\
  (In (LCrash i) tr -> fits i = true).

Tactic Notation "go_with" uconstr(c) := eexists; eexists; split; [eapply c; eassumption|reflexivity].

Lemma job_progress tr s i : run tr s -> benign tr i -> p_mg s i <> MNone -> p_mg s i <> MDone -> can_go s.
Proof.
  intros E (B1 & B2 & B3 & B4) N1 N2. pose proof (j_exec _ _ _ _ _ _ _ _ _ E i) as Ji.
  assert (P0 : p_mg s i <> MStart -> p_pr s i <> PNone).
  { intros M P. destruct (j_some _ _ _ _ _ _ _ Ji P) as [X|[X|[X _]]]; contradiction. }
  destruct (p_mg s i) eqn:M; try contradiction.
  - go_with M_start.
  - go_with M_release.
  - destruct B2 as [B2|[B2 B5]]; [go_with M_tick|].
    destruct (p_pr s i) eqn:P.
    + exfalso. apply P0; [discriminate|reflexivity].
    + destruct (job i) eqn:JB; [go_with P_return|go_with P_raise|contradiction].
    + destruct (p_ql s i) eqn:Q; [|go_with P_acquire]. exfalso.
      destruct (j_ql _ _ _ _ _ _ _ Ji Q) as [X|[X|[X|X]]]; try congruence.
      * rewrite M in X. discriminate X.
      * pose proof (j_crash _ _ _ _ _ _ _ Ji (or_intror X)). congruence.
    + go_with P_put.
    + go_with P_release.
    + destruct (p_fl s i) eqn:F; [go_with P_exit|].
      destruct (j_job _ _ _ _ _ _ _ Ji) as [r JB]; [rewrite P; auto|].
      destruct (p_q s i) eqn:Q.
      * eexists; eexists; split; [eapply (P_deliver _ _ _ _ _ _ _ s i r)|reflexivity]; try assumption. now rewrite P.
      * rewrite (j_fits _ _ _ _ _ _ _ Ji B5) in F; [discriminate F|]. apply (j_deliver _ _ _ _ _ _ _ Ji); [now rewrite M|congruence].
      * rewrite (j_fits _ _ _ _ _ _ _ Ji B5) in F; [discriminate F|]. apply (j_deliver _ _ _ _ _ _ _ Ji); [now rewrite M|congruence].
    + eexists; eexists; split; [eapply M_join; [eassumption|now rewrite P]|reflexivity].
  - destruct (alive (p_pr s i)) eqn:A; [go_with M_check_alive|go_with M_check_dead].
  - destruct (p_q s i) eqn:Q; [go_with M_get_empty|go_with M_get_full|exfalso].
    pose proof (j_q _ _ _ _ _ _ _ Ji) as C. rewrite Q in C. destruct C as [C1 C2].
    assert (A : p_pr s i = PDead).
    { pose proof (j_dead _ _ _ _ _ _ _ Ji (or_introl M)) as A. destruct (p_pr s i) eqn:P; try discriminate A; auto.
      exfalso. apply P0; [discriminate|reflexivity]. }
    destruct (j_part _ _ _ _ _ _ _ Ji) as [X|X]; try assumption.
    + now rewrite M.
    + apply (j_deliver _ _ _ _ _ _ _ Ji); [now rewrite M|congruence].
    + rewrite (B4 X) in C2. discriminate C2.
    + destruct B2 as [B2|[_ B2]]; [rewrite (B3 X) in B2|rewrite B2 in C2]; discriminate.
  - destruct (p_ql s i) eqn:Q; [|go_with M_late_lock].
    destruct (j_ql _ _ _ _ _ _ _ Ji Q) as [X|[X|[X|X]]].
    + go_with P_put.
    + go_with P_release.
    + rewrite M in X. discriminate X.
    + exfalso. apply B3 in X. rewrite (j_tick _ _ _ _ _ _ _ Ji) in X; [discriminate X|].
      apply (j_ticked _ _ _ _ _ _ _ Ji), (j_late _ _ _ _ _ _ _ Ji). now rewrite M.
  - destruct (p_q s i) eqn:Q; [go_with M_late_empty|go_with M_late_full|].
    destruct (alive (p_pr s i)) eqn:A; [go_with M_late_part|exfalso].
    assert (P : p_pr s i = PDead).
    { destruct (p_pr s i) eqn:P; try discriminate A; auto. exfalso. apply P0; [discriminate|reflexivity]. }
    pose proof (j_q _ _ _ _ _ _ _ Ji) as C. rewrite Q in C. destruct C as [C1 C2].
    destruct (j_part _ _ _ _ _ _ _ Ji) as [X|X]; try assumption.
    + now rewrite M.
    + apply (j_deliver _ _ _ _ _ _ _ Ji); [now rewrite M|congruence].
    + rewrite (B4 X) in C2. discriminate C2.
    + destruct B2 as [B2|[_ B2]]; [rewrite (B3 X) in B2|rewrite B2 in C2]; discriminate.
  - go_with M_kill.
  - go_with M_late_write.
Qed.

Theorem progress tr s : run tr s -> (forall i, i < n -> benign tr i) -> ~ finished n_jobs s -> can_go s.
Proof.
  intros E B F. pose proof (inv1_exec _ _ _ _ _ _ _ _ _ E) as I1.
  assert (W : exists w, w < n_jobs /\ p_wk s w <> WDone).
  { clear - F. unfold finished in F. induction n_jobs as [|k IH]; [exfalso; apply F; lia|].
    destruct (p_wk s k) eqn:W; try (exists k; split; [lia|congruence]).
    destruct IH as [w [L N]]; [|exists w; split; [lia|assumption]].
    intros H. apply F. intros w L. destruct (Nat.eq_dec w k) as [->|]; [assumption|apply H; lia]. }
  assert (Go : forall w i, owned (p_wk s w) = Some i -> p_mg s i <> MDone -> can_go s).
  { intros w i O D. pose proof (i_owned _ _ s I1 w i O) as M.
    apply (job_progress tr s i E); [|assumption..]. apply B, (started_below s i I1 M). }
  destruct W as [w [L N]].
  destruct (p_lock s) as [v|] eqn:Lk.
  - destruct (i_lock _ _ s I1 v Lk) as [Lv Hv]. destruct (p_wk s v) eqn:W; try discriminate Hv.
    + destruct (Nat.lt_ge_cases (p_idx s) n); [go_with S_check_go|go_with S_check_exit].
    + go_with S_rel_exit.
    + go_with S_create.
    + go_with S_start.
    + destruct (p_psl s i) eqn:P; [|go_with S_wait].
      apply (Go v i); [now rewrite W|]. intros D.
      assert (M : p_mg s i <> MNone) by congruence.
      destruct (j_psl _ _ _ _ _ _ _ (j_exec _ _ _ _ _ _ _ _ _ E i) P) as [X|[X|X]]; try congruence.
      apply B, (started_below s i I1 M).
    + go_with S_release.
  - destruct (p_wk s w) eqn:W; try contradiction;
      try (assert (X : p_lock s = Some w) by (apply (i_hold _ _ s I1 w); now rewrite W); congruence).
    + go_with S_acquire.
    + destruct (p_mg s i) eqn:M; try (apply (Go w i); [now rewrite W|congruence]). go_with S_join.
Qed.

(** ** At most [n_jobs] processes *)

Definition opt_list (o : option nat) : list nat := match o with Some i => [i] | None => [] end.

Theorem running_bound tr s : run tr s -> running n s <= n_jobs.
Proof.
  intros E. pose proof (inv1_exec _ _ _ _ _ _ _ _ _ E) as I1. unfold running.
  set (own := flat_map (fun w => opt_list (taken (p_wk s w))) (seq 0 n_jobs)).
  apply Nat.le_trans with (length own).
  - apply NoDup_incl_length; [apply NoDup_filter, seq_NoDup|].
    intros i H. apply filter_In in H as [H A]. apply in_seq in H. pose proof (j_exec _ _ _ _ _ _ _ _ _ E i) as Ji.
    assert (M1 : p_mg s i <> MNone) by (intros M; rewrite (j_none _ _ _ _ _ _ _ Ji) in A by auto; discriminate A).
    assert (M2 : p_mg s i <> MDone) by (intros M; rewrite (j_dead _ _ _ _ _ _ _ Ji) in A by auto; discriminate A).
    assert (Lt : i < p_idx s) by (destruct (Nat.lt_ge_cases i (p_idx s)) as [|G]; [assumption|apply (i_fresh _ _ s I1) in G; contradiction]).
    destruct (i_done _ _ s I1 i Lt) as [|[w T]]; [contradiction|].
    apply in_flat_map. exists w. split; [|rewrite T; now left].
    apply in_seq. destruct (Nat.lt_ge_cases w n_jobs) as [|G]; [lia|]. apply (i_out _ _ s I1) in G. rewrite G in T. discriminate T.
  - unfold own. assert (X : forall l, length (flat_map (fun w => opt_list (taken (p_wk s w))) l) <= length l).
    { induction l; cbn; [lia|]. rewrite app_length. destruct (taken (p_wk s a)); cbn; lia. }
    specialize (X (seq 0 n_jobs)). now rewrite seq_length in X.
Qed.

(** ** Every job is started once *)

Definition begun (tr : list label) : list nat := flat_map (fun l => match l with LBegin i => [i] | _ => [] end) tr.

Lemma begun_in tr i : In i (begun tr) <-> In (LBegin i) tr.
Proof.
  unfold begun. rewrite in_flat_map. split.
  - intros [l [L H]]. destruct l; try destruct H as [<-|[]]; try destruct H. exact L.
  - intros H. exists (LBegin i). split; [assumption|now left].
Qed.

Theorem begun_once tr s : run tr s -> NoDup (begun tr).
Proof.
  induction 1; [constructor|]. unfold begun. cbn [flat_map]. fold (begun tr).
  destruct l; cbn [app]; try assumption. constructor; [|assumption]. rewrite begun_in. intros B.
  pose proof (j_exec _ _ _ _ _ _ _ _ _ H i) as Ji. apply (j_begin _ _ _ _ _ _ _ Ji) in B. apply B, (j_none _ _ _ _ _ _ _ Ji).
  inversion H0; subst. now right.
Qed.

(** ** The end *)

Theorem end_state tr s : 0 < n_jobs -> run tr s -> finished n_jobs s -> forall i, i < n ->
  p_mg s i = MDone /\ alive (p_pr s i) = false /\ outcome job on_timeout start_ok tr i (p_res s i) /\
  (start_ok i = true -> In (LBegin i) tr).
Proof.
  intros N E F i L. pose proof (inv1_exec _ _ _ _ _ _ _ _ _ E) as I1.
  assert (X : n <= p_idx s) by (apply (i_exit _ _ s I1 0 N); left; now apply F).
  assert (D : p_mg s i = MDone).
  { destruct (i_done _ _ s I1 i ltac:(lia)) as [|[w T]]; [assumption|].
    destruct (Nat.lt_ge_cases w n_jobs) as [G|G]; [rewrite (F w G) in T|rewrite (i_out _ _ s I1 w G) in T]; discriminate T. }
  pose proof (j_exec _ _ _ _ _ _ _ _ _ E i) as Ji. repeat split; [assumption|..].
  - apply (j_dead _ _ _ _ _ _ _ Ji). auto.
  - apply (k_done _ _ _ _ _ _ (k_exec _ _ _ _ _ _ _ _ _ E i) D).
  - intros S. apply (j_begin _ _ _ _ _ _ _ Ji). intros P. destruct (j_some _ _ _ _ _ _ _ Ji P) as [Y|[Y|[_ Y]]]; congruence.
Qed.

(** Why a job's result did not arrive. *)
Theorem undelivered tr s i : 0 < n_jobs -> run tr s -> finished n_jobs s -> i < n -> start_ok i = true ->
  ~ In (LDeliver i) tr -> In (LCrash i) tr \/ In (LCrashIn i) tr \/ job i = Raises \/ In (LLate i) tr.
Proof.
  intros N E F L S D. destruct (end_state tr s N E F i L) as (M & A & _ & B). specialize (B S).
  pose proof (j_exec _ _ _ _ _ _ _ _ _ E i) as Ji. apply (j_begin _ _ _ _ _ _ _ Ji) in B.
  destruct (p_pr s i) eqn:P; try discriminate A; [contradiction|].
  destruct (j_gone _ _ _ _ _ _ _ Ji P) as [X|X]; [contradiction|exact X].
Qed.

End LIVE2.
