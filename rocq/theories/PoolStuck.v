(** The job pool: executions that never end, results that are always lost. *)

From Coq Require Import List Arith Bool Lia.
From Verif Require Import PoolModel PoolFacts PoolLive PoolLive2.
Import ListNotations.

Lemma finished_dec {R} n_jobs (s : pool (R := R)) : finished n_jobs s \/ ~ finished n_jobs s.
Proof.
  assert (D : forall w, p_wk s w = WDone \/ p_wk s w <> WDone) by (intros w; destruct (p_wk s w); auto; right; discriminate).
  unfold finished. induction n_jobs as [|k IH]; [left; intros; lia|].
  destruct IH as [IH|IH]; [|right; intros H; apply IH; intros; apply H; lia].
  destruct (D k) as [Dk|Dk]; [left|right; intros H; apply Dk, H; lia].
  intros w L. destruct (Nat.eq_dec w k) as [->|]; [assumption|apply IH; lia].
Qed.

Section STUCK.
Context {R : Type}.
Variables (n n_jobs : nat) (timed : bool) (job : nat -> behaviour R) (on_timeout : nat -> option R)
  (fits start_ok : nat -> bool).
Notation stp := (step n n_jobs timed job on_timeout fits start_ok).
Notation run := (exec n n_jobs timed job on_timeout fits start_ok).
Notation Inv1 := (Inv1 (R := R) n n_jobs).
Notation J := (J timed job fits start_ok).

Ltac simpl_state :=
  unfold write_timeout in *;
  repeat match goal with |- context [match on_timeout ?i with _ => _ end] => destruct (on_timeout i) eqn:? end;
  repeat match goal with |- context [if fits ?i then _ else _] => destruct (fits i) eqn:? end;
  cbn [set_lock set_idx set_res set_wk set_mg set_pr set_psl set_ql set_q set_fl
       p_lock p_idx p_res p_wk p_mg p_pr p_psl p_ql p_q p_fl] in *.

(** ** process.start() raises *)

Definition held (s : pool (R := R)) (i : nat) : Prop :=
  p_psl s i = true /\ p_mg s i <> MRelease /\ exists w, w < n_jobs /\ (p_wk s w = WStart i \/ p_wk s w = WWait i).

Lemma held_exec tr s : run tr s -> forall i, start_ok i = false -> i < p_idx s -> held s i.
Proof.
  induction 1 as [|tr l s s' E IH H]; [cbn; lia|]. intros i F L.
  pose proof (inv1_exec _ _ _ _ _ _ _ _ _ E) as I1.
  assert (Keep : forall w st, i < p_idx s -> p_wk s w <> WStart i -> p_wk s w <> WWait i ->
     exists v, v < n_jobs /\ (upd (p_wk s) w st v = WStart i \/ upd (p_wk s) w st v = WWait i)).
  { intros w st Li N1 N2. destruct (IH i F Li) as (_ & _ & v & Lv & Hv). exists v. split; [assumption|].
    destruct (Nat.eq_dec v w) as [->|N]; [exfalso; tauto|]. now rewrite upd_neq. }
  inversion H; subst; clear H; unfold held; simpl_state.
  5: { destruct (Nat.eq_dec i (p_idx s)) as [->|N].
       - rewrite upd_eq. repeat split; [rewrite (i_fresh _ _ s I1) by lia; discriminate|].
         exists w. rewrite upd_eq. auto.
       - rewrite upd_neq by assumption. destruct (IH i F ltac:(lia)) as (P & M & _). repeat split; auto.
         apply Keep; [lia|congruence..]. }
  5: { destruct (IH i F L) as (P & M & v & Lv & Hv). split; [assumption|]. split.
       - destruct (Nat.eq_dec i i0) as [->|N]; [rewrite upd_eq; discriminate|now rewrite upd_neq].
       - destruct (Nat.eq_dec i i0) as [->|N]; [exists w; rewrite upd_eq; auto|apply Keep; [assumption|congruence..]]. }
  5: { destruct (IH i F L) as (P & M & v & Lv & Hv). repeat split; auto.
       assert (i <> i0) by congruence. apply Keep; [assumption|congruence..]. }
  all: try (destruct (IH i F L) as (P & M & v & Lv & Hv); repeat split; auto;
       try (apply Keep; [assumption|congruence..]); try (exists v; split; assumption);
       try (destruct (Nat.eq_dec i i0) as [->|N]; [rewrite ?upd_eq; try discriminate; congruence|now rewrite ?upd_neq by assumption]); fail).
Qed.

Theorem start_failure_blocks tr s i : 0 < n_jobs -> run tr s -> i < n -> start_ok i = false -> ~ finished n_jobs s.
Proof.
  intros N E L F Fin. pose proof (inv1_exec _ _ _ _ _ _ _ _ _ E) as I1.
  assert (X : n <= p_idx s) by (apply (i_exit _ _ s I1 0 N); left; now apply Fin).
  destruct (held_exec tr s E i F ltac:(lia)) as (_ & _ & w & Lw & [W|W]); rewrite (Fin w Lw) in W; discriminate W.
Qed.

(** ** Results larger than the pipe *)

Record B (tr : list label) (s : pool (R := R)) (i : nat) : Prop := {
  b_fl : ~ In (LLate i) tr -> fits i = false -> p_fl s i = false;
  b_dead : ~ In (LLate i) tr -> fits i = false -> In (LDeliver i) tr -> p_pr s i = PDead ->
    In (LCrash i) tr \/ In (LCrashIn i) tr;
  b_lock : p_pr s i = PPut \/ p_pr s i = PRelease -> p_ql s i = true /\ locked_by_manager (p_mg s i) = false;
  b_mlock : p_mg s i = MLateGet \/ p_mg s i = MKill \/ p_mg s i = MLateWrite -> p_ql s i = true;
  b_stuck : In (LCrashIn i) tr -> p_ql s i = true /\ (In (LLate i) tr -> p_mg s i = MLateLock) }.

Lemma b_init i : B [] (init n_jobs) i.
Proof. constructor; cbn; intros; intuition (discriminate || auto). Qed.

Lemma b_frame l tr s s' i : about l <> Some i ->
  p_mg s' i = p_mg s i -> p_pr s' i = p_pr s i -> p_ql s' i = p_ql s i ->
  p_fl s' i = p_fl s i -> B tr s i -> B (l :: tr) s' i.
Proof.
  intros L E1 E2 E3 E4 [].
  constructor; rewrite ?E1, ?E2, ?E3, ?E4;
    rewrite ?(in_other l) by (intros ->; apply L; reflexivity); assumption.
Qed.

Lemma b_step l tr s s' i : Inv1 s -> J tr s i -> B tr s i -> stp l s s' -> B (l :: tr) s' i.
Proof.
  intros I1 Ji Bi H. inversion H; subst; clear H;
  try (apply (b_frame _ tr s); [discriminate|reflexivity..|exact Bi]; fail);
  match goal with |- context [set_mg ?k _ _] => destruct (Nat.eq_dec i k) as [->|Ne]
                | |- context [set_pr ?k _ _] => destruct (Nat.eq_dec i k) as [->|Ne]
                | |- context [set_q ?k _ _] => destruct (Nat.eq_dec i k) as [->|Ne]
                | |- context [set_psl ?k _ _] => destruct (Nat.eq_dec i k) as [->|Ne] end;
  try (apply (b_frame _ tr s); [cbn; congruence|simpl_state; rewrite ?upd_neq by assumption; reflexivity..|exact Bi]; fail).
  1: match goal with H : p_wk s _ = _ |- _ => pose proof (i_start _ _ s I1 _ _ H) as M0 end.
  all: pose proof (j_late _ _ _ _ _ _ _ Ji) as J1; pose proof (j_unput _ _ _ _ _ _ _ Ji) as J2;
    pose proof (j_crash _ _ _ _ _ _ _ Ji) as J3; pose proof (j_dead _ _ _ _ _ _ _ Ji) as J4;
    pose proof (j_early _ _ _ _ _ _ _ Ji) as J5;
    pose proof (j_none _ _ _ _ _ _ _ Ji) as J6; clear Ji.
  all: destruct Bi; constructor; simpl_state; rewrite ?upd_eq;
    repeat match goal with H : p_mg _ _ = _ |- _ => progress rewrite H in *
    | H : p_pr _ _ = _ |- _ => progress rewrite H in *
    | H : p_q _ _ = _ |- _ => progress rewrite H in * end; cbn [alive before_get late early locked_by_manager] in *;
    rewrite ?in_self; repeat rewrite in_other by discriminate.
  all: try assumption.
  all: try (no_way; fail).
  all: saturate.
  all: try (intuition congruence; fail).
  - intros [P|P]; rewrite P in J4; discriminate J4.
  - intros [P|P]; rewrite P in J4; discriminate J4.
  - intros [P|P]; rewrite P in J4; discriminate J4.
  - intros _. split; [reflexivity|]. destruct (p_mg s i0) eqn:M; try reflexivity;
      try (rewrite b_mlock0 in H1 by auto; discriminate H1); discriminate (J4 (or_intror (or_intror eq_refl))).
  - intros X. match goal with Q : locked_by_manager _ = false |- _ => destruct X as [X|[X|X]]; rewrite X in Q; discriminate Q end.
  - intros _ _ _ P. rewrite P in H0. discriminate H0.
  - intros _. split; [assumption|]. intros Lt.
    match goal with Q : locked_by_manager _ = false |- _ =>
      destruct (p_mg s i0) eqn:M; try (exfalso; apply (J5 eq_refl Lt)); try reflexivity; discriminate Q end.
Qed.

Lemma b_exec tr s : run tr s -> forall i, B tr s i.
Proof.
  induction 1; intros i; [apply b_init|]. eapply b_step; eauto; [eapply inv1_exec|eapply j_exec]; eassumption.
Qed.

(** A result that does not fit is never delivered in time: without a timeout
    the call never returns, with one the job ends as late. *)
Theorem big_result tr s i r : 0 < n_jobs -> run tr s -> finished n_jobs s -> i < n -> start_ok i = true ->
  job i = Returns r -> fits i = false -> ~ In (LCrash i) tr -> ~ In (LCrashIn i) tr -> timed = true /\ In (LLate i) tr.
Proof.
  intros N E F L S Jb Ft C1 C2. destruct (end_state _ _ _ _ _ _ _ tr s N E F i L) as (M & A & _ & Bg). specialize (Bg S).
  pose proof (j_exec _ _ _ _ _ _ _ _ _ E i) as Ji. pose proof (b_exec tr s E i) as Bi.
  apply (j_begin _ _ _ _ _ _ _ Ji) in Bg.
  destruct (p_pr s i) eqn:P; try discriminate A; [contradiction|].
  assert (X : In (LLate i) tr).
  { assert (Dec : forall a b : label, {a = b} + {a <> b}) by (decide equality; apply Nat.eq_dec).
    destruct (in_dec Dec (LLate i) tr) as [|NL]; [assumption|exfalso].
    destruct (j_gone _ _ _ _ _ _ _ Ji P) as [X|[X|[X|[X|X]]]]; try contradiction; [|congruence].
    destruct (b_dead _ _ _ Bi NL Ft X P); contradiction. }
  split; [|assumption]. apply (j_tick _ _ _ _ _ _ _ Ji), (j_ticked _ _ _ _ _ _ _ Ji), X.
Qed.

(** A process that dies holding its queue lock while the manager waits for that
    lock blocks the call forever. *)
Theorem crash_in_lock_blocks tr s i : 0 < n_jobs -> run tr s -> i < n -> In (LCrashIn i) tr -> In (LLate i) tr ->
  ~ finished n_jobs s.
Proof.
  intros N E L C Lt F. destruct (end_state _ _ _ _ _ _ _ tr s N E F i L) as (M & _).
  destruct (b_stuck _ _ _ (b_exec tr s E i) C) as [_ X]. rewrite (X Lt) in M. discriminate M.
Qed.

(** ** Every execution that satisfies [benign] can be completed *)

Theorem completes tr s : run tr s -> (forall i, i < n -> benign timed job fits start_ok tr i) ->
  exists tr' s', run (tr' ++ tr) s' /\ finished n_jobs s' /\ (forall l, In l tr' -> is_crash l = false).
Proof.
  intros E Bn. remember (measure n n_jobs s) as m eqn:Em. revert tr s E Bn Em.
  induction m as [m IH] using (well_founded_induction lt_wf). intros tr s E Bn ->.
  destruct (finished_dec n_jobs s) as [F|F]; [exists [], s; repeat split; auto; intros l []|].
  destruct (progress _ _ _ _ _ _ _ tr s E Bn F) as (l & s' & St & Cr).
  assert (E' : run (l :: tr) s') by (econstructor; eassumption).
  pose proof (measure_step _ _ _ _ _ _ _ l tr s s' (inv1_exec _ _ _ _ _ _ _ _ _ E) (j_exec _ _ _ _ _ _ _ _ _ E) St) as Lt.
  destruct (IH _ Lt (l :: tr) s' E') as (tr' & s2 & A & B & C).
  - intros i L. destruct (Bn i L) as (B1 & B2 & B3 & B4). repeat split; try assumption.
    + intros [->|X]; [discriminate Cr|auto].
    + intros [->|X]; [discriminate Cr|auto].
  - reflexivity.
  - exists (tr' ++ [l]), s2. rewrite <- app_assoc. repeat split; try assumption.
    intros a Ha. apply in_app_or in Ha as [Ha|[<-|[]]]; auto.
Qed.

End STUCK.
