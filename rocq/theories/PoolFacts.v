(** The job pool: invariants of all executions. *)

From Coq Require Import List Arith Bool Lia.
From Verif Require Import PoolModel.
Import ListNotations.

Lemma upd_eq {A} (f : nat -> A) i v : upd f i v i = v.
Proof. unfold upd. now rewrite Nat.eqb_refl. Qed.
Lemma upd_neq {A} (f : nat -> A) i v j : j <> i -> upd f i v j = f j.
Proof. unfold upd. intros H. now apply Nat.eqb_neq in H as ->. Qed.

Ltac split_upd :=
  rewrite ?upd_eq in *;
  repeat (match goal with
  | |- context [upd ?f ?i ?v ?j] =>
      let E := fresh "Ne" in destruct (Nat.eq_dec j i) as [->|E]; [|rewrite (upd_neq f i v j E) in *]
  | H : context [upd ?f ?i ?v ?j] |- _ =>
      let E := fresh "Ne" in destruct (Nat.eq_dec j i) as [->|E]; [|rewrite (upd_neq f i v j E) in *]
  end; rewrite ?upd_eq in * ).

Definition holds (w : wstate) : bool :=
  match w with WCheck | WRelExit | WCreate | WStart _ | WWait _ | WRelease _ => true | _ => false end.
Definition taken (w : wstate) : option nat :=
  match w with WStart i | WWait i | WRelease i | WJoin i => Some i | _ => None end.
Definition owned (w : wstate) : option nat :=
  match w with WWait i | WRelease i | WJoin i => Some i | _ => None end.

Lemma in_other (l a : label) tr : l <> a -> (In a (l :: tr) <-> In a tr).
Proof. cbn. intuition congruence. Qed.

Lemma in_self (a : label) tr : In a (a :: tr) <-> True.
Proof. cbn. tauto. Qed.

Ltac no_way := let K := fresh in intros K; repeat destruct K as [K|K]; (discriminate K || congruence).
Ltac saturate :=
  repeat match goal with
  | H : ?P -> _, K : ?P |- _ => specialize (H K)
  | H : ?a = ?a -> _ |- _ => specialize (H eq_refl)
  | H : ?a = ?b -> _ |- _ => let X := fresh in assert (X : a <> b) by discriminate; clear X H
  | H : ?P \/ ?Q -> _ |- _ => first [let X := fresh in assert (X : ~ (P \/ Q)) by no_way; clear X H
       | let X := fresh in assert (X : P \/ Q) by (auto; fail); specialize (H X); clear X]
  | H : _ /\ _ |- _ => destruct H
  | H : exists _, _ |- _ => destruct H
  | H : True |- _ => clear H
  end.

Section FACTS.
Context {R : Type}.
Variables (n n_jobs : nat) (timed : bool) (job : nat -> behaviour R) (on_timeout : nat -> option R)
  (fits start_ok : nat -> bool).
Notation stp := (step n n_jobs timed job on_timeout fits start_ok).
Notation run := (exec n n_jobs timed job on_timeout fits start_ok).

Ltac simpl_state :=
  unfold write_timeout in *;
  repeat match goal with |- context [match on_timeout ?i with _ => _ end] => destruct (on_timeout i) eqn:? end;
  repeat match goal with |- context [if fits ?i then _ else _] => destruct (fits i) eqn:? end;
  cbn [set_lock set_idx set_res set_wk set_mg set_pr set_psl set_ql set_q set_fl
       p_lock p_idx p_res p_wk p_mg p_pr p_psl p_ql p_q p_fl] in *.

(** ** Workers *)

Record Inv1 (s : pool (R := R)) : Prop := {
  i_hold : forall w, holds (p_wk s w) = true -> p_lock s = Some w;
  i_lock : forall w, p_lock s = Some w -> w < n_jobs /\ holds (p_wk s w) = true;
  i_out : forall w, n_jobs <= w -> p_wk s w = WDone;
  i_idx : p_idx s <= n;
  i_create : forall w, p_wk s w = WCreate -> p_idx s < n;
  i_exit : forall w, w < n_jobs -> p_wk s w = WDone \/ p_wk s w = WRelExit -> n <= p_idx s;
  i_taken : forall w i, taken (p_wk s w) = Some i -> i < p_idx s;
  i_uniq : forall w w' i, taken (p_wk s w) = Some i -> taken (p_wk s w') = Some i -> w = w';
  i_start : forall w i, p_wk s w = WStart i -> p_mg s i = MNone;
  i_owned : forall w i, owned (p_wk s w) = Some i -> p_mg s i <> MNone;
  i_fresh : forall i, p_idx s <= i -> p_mg s i = MNone;
  i_done : forall i, i < p_idx s -> p_mg s i = MDone \/ exists w, taken (p_wk s w) = Some i }.

Lemma inv1_init : Inv1 (init n_jobs).
Proof.
  constructor; unfold init; cbn [p_lock p_idx p_wk p_mg]; intros;
  repeat match goal with
  | H : context [?a <? ?b] |- _ => destruct (Nat.ltb_spec a b)
  | |- context [?a <? ?b] => destruct (Nat.ltb_spec a b)
  end; cbn in *; try discriminate; try lia; try reflexivity; intuition discriminate.
Qed.

Lemma owned_taken w i : owned w = Some i -> taken w = Some i.
Proof. destruct w; cbn; congruence. Qed.

(** A step of a manager or a process leaves the workers alone and never makes a
    started manager look unstarted. *)
Lemma inv1_other s s' : Inv1 s ->
  p_lock s' = p_lock s -> p_idx s' = p_idx s -> (forall w, p_wk s' w = p_wk s w) ->
  (forall i, p_mg s' i = p_mg s i \/ (p_mg s i <> MNone /\ p_mg s i <> MDone /\ p_mg s' i <> MNone)) -> Inv1 s'.
Proof.
  intros I E1 E2 E3 E4. destruct I. constructor; rewrite ?E1, ?E2; intros; rewrite ?E3 in *; eauto.
  - destruct (E4 i) as [E|E]; [rewrite E; eauto|]. destruct E as [E _]. exfalso. apply E. eauto.
  - destruct (E4 i) as [E|E]; [rewrite E; eauto|]. tauto.
  - destruct (E4 i) as [E|E]; [rewrite E; eauto|]. destruct E as [E _]. exfalso. apply E. eauto.
  - destruct (E4 i) as [E|E].
    + rewrite E. destruct (i_done0 i H) as [D|[w D]]; [now left|right; exists w; now rewrite E3].
    + right. destruct (i_done0 i H) as [D|[w D]]; [tauto|exists w; now rewrite E3].
Qed.

Lemma inv1_step l s s' : Inv1 s -> stp l s s' -> Inv1 s'.
Proof.
  intros I H. inversion H; subst; clear H;
  try (eapply inv1_other; [exact I|..]; simpl_state; try reflexivity; intros j; split_upd; auto;
       try (right; repeat split; congruence); fail).
  all: match goal with H : p_wk ?s ?w = _ |- _ => pose proof (i_hold s I w) as L; rewrite H in L; cbn in L; try specialize (L eq_refl) end.
  all: match goal with H : p_wk ?s ?w = _ |- _ => pose proof (i_taken s I w) as T; pose proof (i_uniq s I w) as U;
     pose proof (i_owned s I w) as O; pose proof (i_start s I w) as St; rewrite H in T, U, O, St; cbn in T, U, O; fold @taken in * end.
  all: destruct I.
  all: constructor; simpl_state.
  all: intros.
  all: split_upd.
  all: cbn in *.
  all: try discriminate.
  all: eauto.
  all: try congruence.
  all: try lia.
  all: try (match goal with H : n_jobs <= ?w |- _ => apply i_out0 in H; congruence end).
  all: try (match goal with H : Some _ = Some _ |- _ => injection H as <- end).
  all: try congruence; try lia.
  all: try (intuition (congruence || discriminate); fail).
  all: try (match goal with H : p_lock ?s = Some ?w |- _ => destruct (i_lock0 w H); split; congruence end).
  all: try (match goal with H : ?i < p_idx ?s, K : p_wk ?s ?w = _ |- _ \/ _ => destruct (i_done0 i H) as [D|[w1 D]]; [now left|];
     destruct (Nat.eq_dec w1 w) as [->|N1]; [rewrite K in D; cbn in D; try discriminate D; injection D as D; subst;
       try (right; exists w; now rewrite upd_eq); try (left; assumption)|right; exists w1; now rewrite upd_neq] end; fail).
  all: try (eapply U; [reflexivity|eassumption]).
  all: try (symmetry; eapply U; [reflexivity|eassumption]).
  all: try (apply T; reflexivity).
  all: try (apply O; reflexivity).
  all: try (match goal with H : holds (p_wk _ ?w0) = true |- _ => apply i_hold0 in H; congruence end).
  - specialize (i_create0 w H1). lia.
  - assert (K : holds (p_wk s w0) = true) by (rewrite H; reflexivity). apply i_hold0 in K. congruence.
  - specialize (i_exit0 w0 H H2). lia.
  - apply i_taken0 in H. lia.
  - apply i_taken0 in H. lia.
  - apply i_taken0 in H2. lia.
  - injection H as <-. apply i_fresh0. lia.
  - apply i_fresh0. lia.
  - destruct (Nat.eq_dec i (p_idx s)) as [->|N1]; [right; exists w; now rewrite upd_eq|].
    destruct (i_done0 i ltac:(lia)) as [D|[w1 D]]; [now left|].
    destruct (Nat.eq_dec w1 w) as [->|N2]; [rewrite H1 in D; discriminate D|right; exists w1; now rewrite upd_neq].
  - exfalso. apply Ne. symmetry. apply (U w0 i eq_refl). rewrite H. reflexivity.
  - specialize (T i eq_refl). lia.
  - right. exists w. now rewrite upd_eq.
  - apply i_lock0 in H. rewrite H1 in H. destruct H as [_ H]. discriminate H.
Qed.

Lemma inv1_exec tr s : run tr s -> Inv1 s.
Proof. induction 1; [apply inv1_init|eapply inv1_step; eassumption]. Qed.

(** ** Managers and processes *)

Definition before_get (m : mstate) : bool :=
  match m with MNone | MStart | MRelease | MJoin | MCheck | MGetDefault | MLateLock | MLateGet => true | _ => false end.
Definition late (m : mstate) : bool :=
  match m with MLateLock | MLateGet | MKill | MLateWrite => true | _ => false end.
Definition early (m : mstate) : bool :=
  match m with MNone | MStart | MRelease | MJoin | MCheck | MGetDefault => true | _ => false end.
Definition locked_by_manager (m : mstate) : bool :=
  match m with MLateGet | MKill | MLateWrite | MDone => true | _ => false end.

Definition delivered (tr : list label) i := In (LDeliver i) tr.

Record J (tr : list label) (s : pool (R := R)) (i : nat) : Prop := {
  j_none : p_mg s i = MNone \/ p_mg s i = MStart -> p_pr s i = PNone;
  j_some : p_pr s i = PNone -> p_mg s i = MNone \/ p_mg s i = MStart \/ (p_mg s i = MDone /\ start_ok i = false);
  j_dead : p_mg s i = MGetDefault \/ p_mg s i = MLateWrite \/ p_mg s i = MDone -> alive (p_pr s i) = false;
  j_psl : p_psl s i = true -> start_ok i = true -> p_mg s i = MNone \/ p_mg s i = MStart \/ p_mg s i = MRelease;
  j_ql : p_ql s i = true ->
    p_pr s i = PPut \/ p_pr s i = PRelease \/ locked_by_manager (p_mg s i) = true \/ In (LCrashIn i) tr;
  j_job : p_pr s i = PAcquire \/ p_pr s i = PPut \/ p_pr s i = PRelease \/ p_pr s i = PFlush ->
    exists r, job i = Returns r;
  j_q : match p_q s i with QEmpty => True | QFull r => job i = Returns r /\ fits i = true | QPart r => job i = Returns r /\ fits i = false end;
  j_deliver : before_get (p_mg s i) = true -> (In (LDeliver i) tr <-> p_q s i <> QEmpty);
  j_unput : p_pr s i = PNone \/ p_pr s i = PRun \/ p_pr s i = PAcquire \/ p_pr s i = PPut -> ~ In (LDeliver i) tr /\ p_fl s i = false;
  j_fl : p_fl s i = true -> In (LDeliver i) tr;
  j_fits : fits i = true -> In (LDeliver i) tr -> p_fl s i = true;
  j_gone : p_pr s i = PDead ->
    In (LDeliver i) tr \/ In (LCrash i) tr \/ In (LCrashIn i) tr \/ job i = Raises \/ In (LLate i) tr;
  j_late : late (p_mg s i) = true -> In (LLate i) tr;
  j_early : early (p_mg s i) = true -> ~ In (LLate i) tr;
  j_check : p_mg s i = MCheck -> In (LTick i) tr \/ alive (p_pr s i) = false;
  j_tick : In (LTick i) tr -> timed = true;
  j_ticked : In (LLate i) tr -> In (LTick i) tr;
  j_begin : In (LBegin i) tr <-> p_pr s i <> PNone;
  j_crash : In (LCrash i) tr \/ In (LCrashIn i) tr -> p_pr s i = PDead;
  j_partfl : before_get (p_mg s i) = true -> fits i = false -> p_fl s i = false;
  j_part : before_get (p_mg s i) = true -> fits i = false -> In (LDeliver i) tr -> p_pr s i = PDead ->
    In (LCrash i) tr \/ In (LCrashIn i) tr }.

Lemma j_init i : J [] (init n_jobs) i.
Proof.
  constructor; unfold init; cbn; intros; intuition (discriminate || auto).
Qed.

Definition about (l : label) : option nat :=
  match l with LStep => None | LBegin i | LDeliver i | LTick i | LLate i | LCrash i | LCrashIn i => Some i end.

Lemma j_frame l tr s s' i : about l <> Some i ->
  p_mg s' i = p_mg s i -> p_pr s' i = p_pr s i -> p_psl s' i = p_psl s i -> p_ql s' i = p_ql s i ->
  p_q s' i = p_q s i -> p_fl s' i = p_fl s i -> J tr s i -> J (l :: tr) s' i.
Proof.
  intros L E1 E2 E3 E4 E5 E6 [].
  constructor; rewrite ?E1, ?E2, ?E3, ?E4, ?E5, ?E6;
    rewrite ?(in_other l) by (intros ->; apply L; reflexivity); assumption.
Qed.

Ltac j_crush :=
  match goal with I : J _ _ _ |- _ => destruct I end; constructor; simpl_state; rewrite ?upd_eq;
  repeat match goal with H : p_mg _ _ = _ |- _ => progress rewrite H in *
    | H : p_pr _ _ = _ |- _ => progress rewrite H in *
    | H : p_q _ _ = _ |- _ => progress rewrite H in * end; cbn [alive before_get late early locked_by_manager] in *;
  rewrite ?in_self; repeat rewrite in_other by discriminate.

Lemma j_step l tr s s' i : Inv1 s -> J tr s i -> stp l s s' -> J (l :: tr) s' i.
Proof.
  intros I1 Ji H. inversion H; subst; clear H;
  try (apply (j_frame _ tr s); [discriminate|reflexivity..|exact Ji]; fail);
  match goal with |- context [set_mg ?k _ _] => destruct (Nat.eq_dec i k) as [->|Ne]
                | |- context [set_pr ?k _ _] => destruct (Nat.eq_dec i k) as [->|Ne]
                | |- context [set_q ?k _ _] => destruct (Nat.eq_dec i k) as [->|Ne]
                | |- context [set_psl ?k _ _] => destruct (Nat.eq_dec i k) as [->|Ne] end;
  try (apply (j_frame _ tr s); [cbn; congruence|simpl_state; rewrite ?upd_neq by assumption; reflexivity..|exact Ji]; fail).
  1: pose proof (i_fresh s I1 (p_idx s) (le_n _)) as M0.
  2: match goal with H : p_wk s _ = _ |- _ => pose proof (i_start s I1 _ _ H) as M0 end.
  all: j_crush.
  all: try assumption.
  all: try (no_way; fail).
  all: saturate.
  all: try (intros; congruence).
  all: try (intros; repeat match goal with H : _ \/ _ |- _ => destruct H end; try discriminate; auto 6; fail).
  all: try (intros; repeat match goal with H : _ \/ _ |- _ => destruct H end; try congruence; auto 6; fail).
  all: try (intuition congruence; fail).
  all: try (intros; rewrite j_none0; reflexivity).
  all: try (intros; eauto; fail).
  all: try (intros _ _ _ K).
  all: intros; exfalso; repeat match goal with K : _ \/ _ |- _ => destruct K as [K|K] end; match goal with K : p_pr _ _ = _, H : put_done _ = true |- _ => rewrite K in H; discriminate H end.
Qed.

Lemma j_exec tr s : run tr s -> forall i, J tr s i.
Proof.
  induction 1; intros i; [apply j_init|]. eapply j_step; [eapply inv1_exec; eassumption|apply IHexec|eassumption].
Qed.
End FACTS.
