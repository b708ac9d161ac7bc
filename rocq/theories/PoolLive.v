(** The job pool: results, termination, absence of deadlocks. *)

From Coq Require Import List Arith Bool Lia.
From Verif Require Import PoolModel PoolFacts.
Import ListNotations.

Section LIVE.
Context {R : Type}.
Variables (n n_jobs : nat) (timed : bool) (job : nat -> behaviour R) (on_timeout : nat -> option R)
  (fits start_ok : nat -> bool).
Notation stp := (step n n_jobs timed job on_timeout fits start_ok).
Notation run := (exec n n_jobs timed job on_timeout fits start_ok).
Notation Inv1 := (Inv1 (R := R) n n_jobs).
Notation J := (J timed job fits start_ok).

Ltac simpl_state :=
  unfold write_timeout in *;
  repeat match goal with |- context [match on_timeout ?i with _ => _ end] => destruct (on_timeout i) eqn:? end;
  repeat match goal with |- context [if fits ?i then _ else _] => destruct (fits i) eqn:? end;
  cbn [set_lock set_idx set_res set_wk set_mg set_pr set_psl set_ql set_q set_fl
       p_lock p_idx p_res p_wk p_mg p_pr p_psl p_ql p_q p_fl] in *.

(** ** Results *)

(** The value in slot i once its manager is done. *)
Definition outcome (tr : list label) (i : nat) (v : option R) : Prop :=
  (start_ok i = false /\ v = None) \/
  (start_ok i = true /\ In (LLate i) tr /\
     (v = on_timeout i \/ (on_timeout i = None /\ exists r, job i = Returns r /\ v = Some r))) \/
  (start_ok i = true /\ ~ In (LLate i) tr /\ In (LDeliver i) tr /\ exists r, job i = Returns r /\ v = Some r) \/
  (start_ok i = true /\ ~ In (LLate i) tr /\ ~ In (LDeliver i) tr /\ v = on_timeout i).

Record K (tr : list label) (s : pool (R := R)) (i : nat) : Prop := {
  k_before : before_get (p_mg s i) = true -> p_res s i = None;
  k_late : p_mg s i = MKill \/ p_mg s i = MLateWrite ->
    p_res s i = None \/ exists r, job i = Returns r /\ p_res s i = Some r;
  k_done : p_mg s i = MDone -> outcome tr i (p_res s i) }.

Lemma k_init i : K [] (init n_jobs) i.
Proof. constructor; cbn; intros; try discriminate; auto. Qed.

Lemma k_frame l tr s s' i : p_mg s i <> MDone \/ about l <> Some i ->
  p_mg s' i = p_mg s i -> p_res s' i = p_res s i -> K tr s i -> K (l :: tr) s' i.
Proof.
  intros L E1 E2 [A B C]. constructor; rewrite ?E1, ?E2; try assumption.
  intros D. destruct L as [L|L]; [contradiction|]. specialize (C D). unfold outcome in *.
  rewrite ?(in_other l) by (intros ->; apply L; reflexivity). exact C.
Qed.

Lemma started_ok tr s i : J tr s i -> p_pr s i <> PNone -> run tr s -> start_ok i = true.
Proof.
  intros Ji P H. apply (j_begin _ _ _ _ _ _ _ Ji) in P. clear Ji. induction H; [destruct P|].
  destruct P as [->|P]; [|auto]. inversion H0; subst. assumption.
Qed.

Lemma k_step l tr s s' i : run tr s -> Inv1 s -> J tr s i -> K tr s i -> stp l s s' -> K (l :: tr) s' i.
Proof.
  intros E I1 Ji Ki H. pose proof (started_ok tr s i Ji) as St.
  assert (D : p_mg s i = MDone -> alive (p_pr s i) = false) by (intros; apply (j_dead _ _ _ _ _ _ _ Ji); auto).
  inversion H; subst; clear H;
  try (apply (k_frame _ tr s); [cbn; now right|reflexivity..|exact Ki]; fail);
  match goal with |- context [set_mg ?k _ _] => destruct (Nat.eq_dec i k) as [->|Ne]
                | |- context [set_pr ?k _ _] => destruct (Nat.eq_dec i k) as [->|Ne]
                | |- context [set_q ?k _ _] => destruct (Nat.eq_dec i k) as [->|Ne]
                | |- context [set_psl ?k _ _] => destruct (Nat.eq_dec i k) as [->|Ne] end;
  try (apply (k_frame _ tr s); [right; cbn; congruence|simpl_state; rewrite ?upd_neq by assumption; reflexivity..|exact Ki]; fail);
  try (apply (k_frame _ tr s); [left; intros M; apply D in M; match goal with H : p_pr s _ = _ |- _ => rewrite H in M | H : _ \/ _ |- _ => destruct H as [H|H]; [rewrite H in M|idtac] end; try discriminate M|simpl_state; rewrite ?upd_neq by assumption; reflexivity..|exact Ki]; fail).
  1: match goal with H : p_wk ?s _ = _ |- _ => pose proof (i_start _ _ s I1 _ _ H) as M0 end.
  all: destruct Ki as [A B C]; constructor; simpl_state; rewrite ?upd_eq;
    repeat match goal with H : p_mg _ _ = _ |- _ => progress rewrite H in * end;
    cbn [before_get] in *; intros; try discriminate; try (no_way; fail); auto.
  all: try (match goal with H : p_q _ _ = _ |- _ => pose proof (j_q _ _ _ _ _ _ _ Ji) as Q; rewrite H in Q; try (destruct Q as [Q _]) end).
  all: try (match goal with H : MDone = _ \/ MDone = _ |- _ => destruct H; discriminate end).
  all: try (right; eexists; split; [eassumption|reflexivity]).
  all: try (exfalso; match goal with M : p_mg _ _ = MDone |- _ => pose proof (D M) as D' end;
    repeat match goal with H : _ \/ _ |- _ => destruct H as [H|H] end;
    match goal with H : p_pr _ _ = _ |- _ => rewrite H in D'; discriminate D' end).
  all: try (match goal with M : p_mg _ _ = MDone |- _ => pose proof (D M) as D';
    match goal with H : put_done ?x = true |- _ => exfalso; destruct x; discriminate end end).
  1: left; split; [assumption|auto].

  all: assert (S' : start_ok i0 = true) by (apply St; [|exact E]; intros P;
    destruct (j_some _ _ _ _ _ _ _ Ji P) as [P'|[P'|[P' _]]]; congruence).
  all: unfold outcome; rewrite ?(in_other LStep) by discriminate; right.
  1-3: pose proof (j_early _ _ _ _ _ _ _ Ji) as Y; rewrite H0 in Y; specialize (Y eq_refl);
    pose proof (j_deliver _ _ _ _ _ _ _ Ji) as V; rewrite H0 in V; specialize (V eq_refl).
  - right. left. repeat split; auto; [apply V; congruence|eauto].
  - right. right. repeat split; auto; rewrite V; congruence.
  - right. right. repeat split; auto; [rewrite V; congruence|rewrite A; congruence].
  - left. repeat split; auto. apply (j_late _ _ _ _ _ _ _ Ji). now rewrite H0.
  - left. repeat split; auto; [apply (j_late _ _ _ _ _ _ _ Ji); now rewrite H0|].
    destruct (B (or_intror eq_refl)) as [B'|[r [B1 B2]]]; [left; congruence|right; eauto].
Qed.

Lemma k_exec tr s : run tr s -> forall i, K tr s i.
Proof.
  induction 1; intros i; [apply k_init|]. eapply k_step; eauto; [eapply inv1_exec|eapply j_exec]; eassumption.
Qed.

(** ** Termination *)

Definition w_rank (w : wstate) : nat :=
  match w with
  | WDone => 0 | WRelExit => 1 | WCreate => 2 | WCheck => 3 | WAcquire => 4
  | WJoin _ => 5 | WRelease _ => 6 | WWait _ => 7 | WStart _ => 8 end.
Definition m_rank (m : mstate) : nat :=
  match m with
  | MNone => 9 | MStart => 8 | MRelease => 7 | MJoin => 6 | MCheck => 5 | MLateLock => 4 | MLateGet => 3 | MKill => 2
  | MLateWrite => 1 | MGetDefault => 1 | MDone => 0 end.
Definition p_rank (p : pstate) : nat :=
  match p with PNone => 6 | PRun => 5 | PAcquire => 4 | PPut => 3 | PRelease => 2 | PFlush => 1 | PDead => 0 end.
Definition q_rank (fl : bool) (q : qstate R) : nat :=
  match fl, q with true, _ => 0 | false, QEmpty => 1 | false, _ => 0 end.
Definition j_rank (s : pool (R := R)) (i : nat) : nat :=
  m_rank (p_mg s i) + p_rank (p_pr s i) + q_rank (p_fl s i) (p_q s i).

Definition total (f : nat -> nat) (k : nat) : nat := list_sum (map f (seq 0 k)).
Definition measure (s : pool (R := R)) : nat :=
  7 * (n - p_idx s) + total (fun w => w_rank (p_wk s w)) n_jobs + total (j_rank s) n.

Lemma total_S f k : total f (S k) = total f k + f k.
Proof. unfold total. rewrite seq_S, map_app, list_sum_app. cbn. lia. Qed.

Lemma total_ext f g k : (forall i, i < k -> f i = g i) -> total f k = total g k.
Proof. induction k; intros H; [reflexivity|]. rewrite !total_S, IHk, H by (intros; apply H || idtac; lia). reflexivity. Qed.

Lemma total_upd f g k i : i < k -> (forall j, j <> i -> f j = g j) -> total f k + g i = total g k + f i.
Proof.
  induction k; intros H E; [lia|]. rewrite !total_S. destruct (Nat.eq_dec i k) as [->|N].
  - rewrite (total_ext f g k) by (intros; apply E; lia). lia.
  - rewrite (E k) by auto. assert (i < k) by lia. specialize (IHk H0 E). lia.
Qed.

End LIVE.
