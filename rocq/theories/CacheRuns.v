(** Interrupted and repeated runs over one cache directory. *)

From Coq Require Import List ZArith Bool Lia Arith.
From Verif Require Import Np JsonModel JsonFacts CacheModel CacheFacts.
Import ListNotations.
Open Scope nat_scope.

Local Opaque print.

Section RUNS.
Context {F : Type}.
Variable frepr : F -> text.
Variable fparse : text -> F.
Variable jobs : nat.
Variable nm : nat -> text.
Variable dep : nat -> option nat.
Variable result : nat -> option (@document F) -> @document F -> Prop.

Notation doc d := (print frepr (JObj d)).
Notation step := (step frepr fparse jobs nm dep result).
Notation history := (history frepr fparse jobs nm dep result).
Notation progress := (progress frepr fparse jobs nm dep result).
Notation damaged := (damaged_json fparse).

(** The documents job [j] may produce. *)
Definition doc_of (j : nat) (d : document) : Prop :=
  match dep j with
  | None => result j None d
  | Some i => exists o, result i None o /\ result j (Some o) d
  end.

(** Distinct jobs write distinct files; a job depends on an independent job;
    every result can be represented in JSON. *)
Record setting : Prop := {
  set_names : forall i j, i < jobs -> j < jobs -> nm i = nm j -> i = j;
  set_dep : forall j i, j < jobs -> dep j = Some i -> i < jobs /\ dep i = None;
  set_json : forall j o d, result j o d -> json_ok frepr fparse (JObj d)
}.
Hypothesis HS : setting.

Lemma doc_ok j d : doc_of j d -> json_ok frepr fparse (JObj d).
Proof. unfold doc_of. destruct (dep j) as [i|]; [intros (o & _ & H)|intros H]; exact (set_json HS _ _ _ H). Qed.

Definition partial (j : nat) (c : option text) : Prop := c = None \/ exists d k, doc_of j d /\ c = Some (firstn k (doc d)).

Definition good (j : nat) (c : option text) (p : phase) : Prop :=
  match p with
  | Idle => partial j c
  | Computed d => doc_of j d /\ partial j c /\ damaged c = Ok true
  | Removed d => doc_of j d /\ c = None
  | Writing d k => doc_of j d /\ c = Some (firstn k (doc d)) /\ k <= length (doc d)
  | Done => exists d, doc_of j d /\ c = Some (doc d)
  end.

Lemma partial_damaged j c : partial j c -> damaged c = Ok true \/ exists d, doc_of j d /\ c = Some (doc d) /\ damaged c = Ok false.
Proof.
  intros [->|(d & k & D & ->)]; [now left|]. destruct (le_lt_dec (length (doc d)) k) as [L|L].
  - right. exists d. rewrite firstn_all2 by assumption. repeat split; auto. apply damaged_full, (doc_ok _ _ D).
  - left. apply damaged_nat; [apply (doc_ok _ _ D)|assumption].
Qed.

Lemma good_partial j c p : good j c p -> partial j c.
Proof.
  destruct p as [|d|d|d k|]; cbn; auto.
  - tauto.
  - intros (_ & ->). now left.
  - intros (D & -> & _). right. eauto.
  - intros (d & D & ->). right. exists d, (length (doc d)). now rewrite firstn_all.
Qed.

Definition Inv (w : @world F) : Prop :=
  (forall j, j < jobs -> good j (files w (nm j)) (at_ w j)) /\ (forall j, jobs <= j -> at_ w j = Idle).

Lemma put_same d f c : put d f c f = c.
Proof. unfold put. now rewrite (proj2 (eqb_text_eq f f) eq_refl). Qed.
Lemma put_other d f c g : g <> f -> put d f c g = d g.
Proof. unfold put. intros N. destruct (eqb_text g f) eqn:E; [apply eqb_text_eq in E; contradiction|reflexivity]. Qed.

Lemma inv_move w j p : Inv w -> j < jobs -> good j (files w (nm j)) p -> Inv (move w j p).
Proof.
  intros [I1 I2] L G. split; cbn; intros i Hi; destruct (Nat.eqb_spec i j) as [->|N]; auto. lia.
Qed.
Lemma inv_write w j c p : Inv w -> j < jobs -> good j c p -> Inv (write nm w j c p).
Proof.
  intros [I1 I2] L G. split; cbn; intros i Hi; destruct (Nat.eqb_spec i j) as [->|N]; auto; [now rewrite put_same| |lia].
  rewrite put_other; auto. intros E. apply N. apply (set_names HS i j); auto.
Qed.

Lemma active w j : Inv w -> at_ w j <> Idle -> j < jobs.
Proof. intros [_ I] N. destruct (le_lt_dec jobs j) as [L|L]; [|assumption]. now apply I in L. Qed.

Lemma inv_step w w' : Inv w -> step w w' -> Inv w'.
Proof.
  intros I S. inversion S; subst.
  - apply inv_move; auto. pose proof (proj1 I _ H) as G. rewrite H0 in G. destruct (partial_damaged _ _ G) as [E|(d & D & E & _)]; [congruence|]. cbn; eauto.
  - apply inv_move; auto. pose proof (proj1 I _ H) as G. rewrite H0 in G. cbn. repeat split; auto.
    unfold input in H2. unfold doc_of. destruct (dep j) as [i|] eqn:Dj; [|now subst o].
    destruct H2 as (Di & s & r & l & Ef & El & ->). destruct (set_dep HS _ _ H Dj) as [Li Ni].
    pose proof (proj1 I _ Li) as Gi. rewrite Di in Gi. destruct Gi as (o & Do & Eo). unfold doc_of in Do. rewrite Ni in Do.
    exists o. split; [exact Do|]. rewrite Eo in Ef. injection Ef as <-. rewrite (loads_print frepr fparse _ (set_json HS _ _ _ Do)) in El.
    now injection El as -> _.
  - assert (L : j < jobs) by (apply (active w); congruence). apply inv_write; auto. pose proof (proj1 I _ L) as G. rewrite H in G. destruct G as (G & _). cbn. auto.
  - assert (L : j < jobs) by (apply (active w); congruence). apply inv_write; auto. pose proof (proj1 I _ L) as G. rewrite H in G. destruct G as (G & _). cbn. repeat split; auto. lia.
  - assert (L : j < jobs) by (apply (active w); congruence). apply inv_write; auto. pose proof (proj1 I _ L) as G. rewrite H in G. destruct G as (G & _). cbn. repeat split; auto.
  - assert (L : j < jobs) by (apply (active w); congruence). apply inv_move; auto. pose proof (proj1 I _ L) as G. rewrite H in G. destruct G as (G & E & _).
    cbn. exists d. split; [assumption|]. rewrite E. now rewrite firstn_all.
  - destruct (le_lt_dec jobs j) as [L|L].
    + destruct I as [I1 I2]. split; cbn; intros i Hi; destruct (Nat.eqb_spec i j) as [->|N]; auto; lia.
    + apply inv_move; auto. exact (good_partial _ _ _ (proj1 I _ L)).
  - split; cbn; [|auto]. intros j L. destruct (gone (nm j)); [now left|]. exact (good_partial _ _ _ (proj1 I _ L)).
Qed.

Lemma inv_history w : history w -> Inv w.
Proof.
  induction 1 as [fs H|w w' _ IH S]; [|exact (inv_step _ _ IH S)]. split; cbn; [|auto]. intros j L. left. auto.
Qed.

(** A job that reports success has its complete document on disk, and looking at
    any job's file never raises. *)
Theorem done_complete w j : history w -> j < jobs -> at_ w j = Done -> exists d, doc_of j d /\ files w (nm j) = Some (doc d).
Proof. intros H L E. pose proof (proj1 (inv_history _ H) _ L) as G. now rewrite E in G. Qed.

Theorem always_readable w j : history w -> j < jobs ->
  damaged (files w (nm j)) = Ok true \/ exists d, doc_of j d /\ files w (nm j) = Some (doc d).
Proof.
  intros H L. destruct (partial_damaged j _ (good_partial _ _ _ (proj1 (inv_history _ H) _ L))) as [E|(d & D & E & _)]; eauto.
Qed.

(** Undamaged results stay as they are; only clean-up removes them. *)
Theorem undamaged_kept w w' j : history w -> step w w' -> j < jobs -> damaged (files w (nm j)) = Ok false ->
  files w' (nm j) = files w (nm j) \/ (files w' (nm j) = None /\ forall i, at_ w' i = Idle).
Proof.
  intros H S L E. pose proof (inv_history _ H) as I. pose proof (proj1 I _ L) as G.
  assert (W : forall i c p, at_ w i <> Idle -> (i = j -> c = files w (nm j)) -> files (write nm w i c p) (nm j) = files w (nm j)).
  { intros i c p N X. cbn. destruct (Nat.eq_dec i j) as [->|Nij]; [rewrite put_same; auto|]. rewrite put_other; [reflexivity|].
    intros Y. apply Nij. symmetry. apply (set_names HS); auto. apply (active w); auto. }
  inversion S; subst; try (left; reflexivity); try (left; apply W; [congruence|]; intros ->; rewrite H0 in G; cbn in G).
  - destruct G as (_ & _ & G). congruence.
  - destruct G as (_ & G). rewrite G in E. discriminate E.
  - destruct G as (D & G & _). rewrite G in E. rewrite (damaged_nat frepr fparse _ _ (doc_ok _ _ D)) in E by assumption. discriminate E.
  - cbn. destruct (gone (nm j)); auto.
Qed.

Theorem others_kept w w' f : history w -> step w w' -> (forall j, j < jobs -> f <> nm j) ->
  files w' f = files w f \/ (files w' f = None /\ forall i, at_ w' i = Idle).
Proof.
  intros H S N. pose proof (inv_history _ H) as I.
  inversion S; subst; cbn; auto; try (left; apply put_other, N; apply (active w); [assumption|congruence]).
  destruct (gone f); auto.
Qed.

(** ** A run can always be completed *)

Lemma progress_trans w1 w2 w3 : progress w1 w2 -> progress w2 w3 -> progress w1 w3.
Proof. induction 1; intros; [assumption|]. econstructor; eauto. Qed.

Lemma progress_inv w w' : progress w w' -> Inv w -> Inv w'.
Proof. induction 1; intros; auto. apply IHprogress. eapply inv_step; eauto. Qed.

Lemma progress_done w w' : progress w w' -> forall j, at_ w j = Done -> at_ w' j = Done.
Proof. induction 1; intros; auto. Qed.

Lemma one w w' : step w w' -> (forall j, at_ w j = Done -> at_ w' j = Done) -> progress w w'.
Proof. intros S D. apply (p_step _ _ _ _ _ _ w w' w' S D). apply p_refl. Qed.

Lemma moved (w : @world F) j (p : phase) : at_ w j <> Done -> forall i, at_ w i = Done -> (if i =? j then p else at_ w i) = Done.
Proof. intros N i E. destruct (Nat.eqb_spec i j) as [->|]; [contradiction|assumption]. Qed.

Lemma moved_at (w : @world F) j (p : phase) : (if j =? j then p else at_ w j) = p.
Proof. now rewrite Nat.eqb_refl. Qed.

Lemma finish_writing n : forall w j d k, at_ w j = Writing d k -> k + n = length (doc d) -> exists w', progress w w' /\ at_ w' j = Done.
Proof.
  induction n as [|n IH]; intros w j d k E L.
  - exists (move w j Done). split; [|cbn; apply moved_at]. apply one; [apply (s_close _ _ _ _ _ _ w j d k); [assumption|lia]|].
    apply moved. congruence.
  - set (w1 := write nm w j (Some (firstn (S k) (doc d))) (Writing d (S k))).
    destruct (IH w1 j d (S k)) as (w' & P & D); [apply moved_at|lia|]. exists w'. split; [|assumption].
    apply (p_step _ _ _ _ _ _ w w1 w'); [apply s_write; [assumption|lia]|apply moved; congruence|assumption].
Qed.

Lemma finish_removed w j d : at_ w j = Removed d -> exists w', progress w w' /\ at_ w' j = Done.
Proof.
  intros E. set (w1 := write nm w j (Some []) (Writing d 0)).
  destruct (finish_writing (length (doc d)) w1 j d 0) as (w' & P & D); [apply moved_at|lia|]. exists w'. split; [|assumption].
  apply (p_step _ _ _ _ _ _ w w1 w'); [now apply s_open|apply moved; congruence|assumption].
Qed.

Lemma finish_computed w j d : at_ w j = Computed d -> exists w', progress w w' /\ at_ w' j = Done.
Proof.
  intros E. set (w1 := write nm w j None (Removed d)).
  destruct (finish_removed w1 j d) as (w' & P & D); [apply moved_at|]. exists w'. split; [|assumption].
  apply (p_step _ _ _ _ _ _ w w1 w'); [now apply s_remove|apply moved; congruence|assumption].
Qed.

Hypothesis total : forall j o, j < jobs -> exists d, result j o d.

Lemma finish_job w j : Inv w -> j < jobs -> (forall i, dep j = Some i -> at_ w i = Done) -> exists w', progress w w' /\ at_ w' j = Done.
Proof.
  intros I L Hd. destruct (at_ w j) as [|d|d|d k|] eqn:E.
  - pose proof (proj1 I _ L) as G. rewrite E in G. destruct (partial_damaged _ _ G) as [Dm|(d & D & Ef & Dm)].
    + assert (In_ : exists o, input fparse nm dep w j o).
      { unfold input. destruct (dep j) as [i|] eqn:Dj; [|eauto]. specialize (Hd i eq_refl). destruct (set_dep HS _ _ L Dj) as [Li Ni].
        pose proof (proj1 I _ Li) as Gi. rewrite Hd in Gi. destruct Gi as (o & Do & Eo).
        exists (Some o). split; [assumption|]. exists (doc o), [], o. repeat split; auto. apply loads_print. apply (doc_ok _ _ Do). }
      destruct In_ as (o & In_). destruct (total j o L) as (d & R).
      destruct (finish_computed (move w j (Computed d)) j d) as (w' & P & D); [apply moved_at|]. exists w'. split; [|assumption].
      apply (p_step _ _ _ _ _ _ w (move w j (Computed d)) w'); [now apply (s_compute _ _ _ _ _ _ w j o d)|apply moved; congruence|assumption].
    + exists (move w j Done). split; [|apply moved_at]. apply one; [now apply s_keep|apply moved; congruence].
  - now apply (finish_computed w j d).
  - now apply (finish_removed w j d).
  - pose proof (proj1 I _ L) as G. rewrite E in G. destruct G as (_ & _ & Lk). apply (finish_writing (length (doc d) - k) w j d k E). lia.
  - exists w. split; [apply p_refl|assumption].
Qed.

Lemma finish_list l : forall w, Inv w -> (forall j, In j l -> j < jobs /\ forall i, dep j = Some i -> at_ w i = Done) ->
  exists w', progress w w' /\ forall j, In j l -> at_ w' j = Done.
Proof.
  induction l as [|j l IH]; intros w I H; [exists w; split; [apply p_refl|contradiction]|].
  destruct (H j (or_introl eq_refl)) as [L Hd]. destruct (finish_job w j I L Hd) as (w1 & P1 & D1).
  destruct (IH w1) as (w2 & P2 & D2).
  - exact (progress_inv _ _ P1 I).
  - intros j' I'. destruct (H j' (or_intror I')) as [L' Hd']. split; [assumption|]. intros i Di. apply (progress_done _ _ P1). auto.
  - exists w2. split; [exact (progress_trans _ _ _ P1 P2)|]. intros j' [<-|I']; [|auto]. now apply (progress_done _ _ P2).
Qed.

Theorem completable w : history w -> exists w', progress w w' /\ forall j, j < jobs -> at_ w' j = Done.
Proof.
  intros H. pose proof (inv_history _ H) as I.
  destruct (finish_list (filter (fun j => match dep j with None => true | _ => false end) (seq 0 jobs)) w I) as (w1 & P1 & D1).
  { intros j Hj. apply filter_In in Hj as [Hj Dj]. apply in_seq in Hj. split; [lia|]. intros i E. rewrite E in Dj. discriminate Dj. }
  destruct (finish_list (seq 0 jobs) w1 (progress_inv _ _ P1 I)) as (w2 & P2 & D2).
  { intros j Hj. apply in_seq in Hj. split; [lia|]. intros i E. destruct (set_dep HS j i ltac:(lia) E) as [Li Ni]. apply D1.
    apply filter_In. split; [apply in_seq; lia|]. now rewrite Ni. }
  exists w2. split; [exact (progress_trans _ _ _ P1 P2)|]. intros j L. apply D2, in_seq. lia.
Qed.

Lemma progress_history w w' : progress w w' -> history w -> history w'.
Proof. induction 1; intros; auto. apply IHprogress. econstructor; eauto. Qed.

End RUNS.

(** With reproducible jobs the final files do not depend on the history. *)
Theorem same_files {F} (frepr : F -> text) fparse jobs nm dep result w1 w2 :
  setting frepr fparse jobs nm dep result ->
  (forall j o d d', result j o d -> result j o d' -> d = d') ->
  history frepr fparse jobs nm dep result w1 -> history frepr fparse jobs nm dep result w2 ->
  (forall j, j < jobs -> at_ w1 j = Done) -> (forall j, j < jobs -> at_ w2 j = Done) ->
  forall j, j < jobs -> files w1 (nm j) = files w2 (nm j).
Proof.
  intros HS Det H1 H2 D1 D2 j L.
  destruct (done_complete _ _ _ _ _ _ HS w1 j H1 L (D1 j L)) as (d1 & E1 & ->).
  destruct (done_complete _ _ _ _ _ _ HS w2 j H2 L (D2 j L)) as (d2 & E2 & ->).
  do 3 f_equal. unfold doc_of in *. destruct (dep j) as [i|]; [|eauto].
  destruct E1 as (o1 & A1 & B1), E2 as (o2 & A2 & B2). rewrite (Det _ _ _ _ A1 A2) in B1. eauto.
Qed.
