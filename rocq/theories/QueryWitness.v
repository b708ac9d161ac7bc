(** The registered oversamplers (QueryData.v). *)

From Coq Require Import String List ZArith QArith Bool Arith Lia.
From Verif Require Import Np NpFacts QueryModel QueryData SpecQuery QueryFacts.
Import ListNotations.
Open Scope nat_scope.
Open Scope list_scope.

Lemma registry_all (f : cls -> bool) : forallb f registry = true -> forall o, In o registry -> f o = true.
Proof. intros H. now apply forallb_forall. Qed.

Lemma registry_runtimes : forall o, In o registry -> exists t, runtime runtimes o t.
Proof.
  intros o H. pose proof (registry_all (fun o => match lookup runtimes (c_name o) with Some _ => true | None => false end)) as K.
  specialize (K ltac:(vm_compute; reflexivity) o H). cbv beta in K. unfold runtime. destruct (lookup runtimes (c_name o)); [eauto|discriminate].
Qed.

Lemma registry_ss : forall o, In o registry -> In "ss_params"%string (c_sig o) -> c_ss o <> None.
Proof.
  intros o H I E. pose proof (registry_all (fun o => negb (has "ss_params" (c_sig o)) || match c_ss o with Some _ => true | None => false end)) as K.
  specialize (K ltac:(vm_compute; reflexivity) o H). cbv beta in K. rewrite E, orb_false_r in K. apply has_In in I. rewrite I in K. discriminate.
Qed.

Fixpoint nodupb (l : list string) : bool := match l with [] => true | x :: r => negb (has x r) && nodupb r end.
Lemma nodupb_spec l : nodupb l = true -> NoDup l.
Proof.
  induction l as [|x r IH]; cbn; intros H; [constructor|]. apply andb_true_iff in H as [H1 H2]. constructor; [|auto].
  intros C. apply has_In in C. now rewrite C in H1.
Qed.
Lemma registry_names : NoDup (map c_name registry) /\ length registry = 91.
Proof. split; [apply nodupb_spec; vm_compute; reflexivity|reflexivity]. Qed.

Lemma selects_total reg rt (query : Z -> res (list cls)) P :
  (forall o, In o reg -> exists t, runtime rt o t) ->
  (exists l, sub l reg /\ (forall o, In o l <-> In o reg /\ P o) /\ forall n, query n = n_quickest rt l n) ->
  forall n, exists l, query n = Ok l.
Proof.
  intros H (l & _ & I & E) n. rewrite E. apply n_quickest_total. intros o Ho. apply H. now apply I.
Qed.

Lemma queries_total n :
  (exists l, get_all registry runtimes n = Ok l) /\
  (exists l, get_proportion registry runtimes n = Ok l) /\
  (exists l, get_metric_learning registry runtimes n = Ok l) /\
  (forall w e g d, exists l, get_simplex registry runtimes w e g d n = Ok l) /\
  (forall s, exists l, get_multiclass registry runtimes s n = Ok l).
Proof.
  pose proof registry_runtimes as R. split; [|split; [|split; [|split]]].
  - apply (selects_total registry runtimes _ _ R (all_selects registry runtimes)).
  - apply (selects_total registry runtimes _ _ R (proportion_selects registry runtimes)).
  - apply (selects_total registry runtimes _ _ R (metric_selects registry runtimes)).
  - intros w e g d. apply (selects_total registry runtimes _ _ R (simplex_selects registry runtimes w e g d registry_ss)).
  - intros s. destruct (in_dec string_dec s ["eq_1_vs_many_successive"; "equalize_1_vs_many"]%string) as [I|I].
    + apply (selects_total registry runtimes _ _ R (multiclass_selects registry runtimes s I)).
    + rewrite (multiclass_unknown registry runtimes s n I). apply (selects_total registry runtimes _ _ R (all_selects registry runtimes)).
Qed.

Lemma class_names : forall o, In o registry -> ~ In "class_name"%string (c_keys o) <-> c_name o = "SMOTE_AMSR"%string.
Proof.
  intros o H. pose proof (registry_all (fun o => eqb (negb (has "class_name" (c_keys o))) (String.eqb (c_name o) "SMOTE_AMSR"))) as K.
  specialize (K ltac:(vm_compute; reflexivity) o H). cbv beta in K. apply eqb_prop in K.
  rewrite <- has_In, not_true_iff_false, <- negb_true_iff, K. apply String.eqb_eq.
Qed.

Definition lossy : list (string * string) :=
  [("DEAGO", "nn_params"); ("PDFOS", "metric_learning"); ("SOMO", "nn_params"); ("SPY", "n_jobs"); ("SYMPROD", "n_jobs"); ("SMOTEWB", "n_jobs")]%string.

Lemma rebuild_keys : forall o p, In o registry -> In p (c_sig o) ->
  ~ In p (c_keys o) <-> In (c_name o, p) lossy.
Proof.
  intros o p H Hp.
  pose proof (registry_all (fun o => forallb (fun p => eqb (negb (has p (c_keys o)))
     (existsb (fun q => String.eqb (fst q) (c_name o) && String.eqb (snd q) p) lossy)) (c_sig o))) as K.
  specialize (K ltac:(vm_compute; reflexivity) o H). cbv beta in K. rewrite forallb_forall in K. specialize (K p Hp). apply eqb_prop in K.
  rewrite <- has_In, not_true_iff_false, <- negb_true_iff, K, existsb_exists. split.
  - intros ([a b] & Hq & E). cbn in E. apply andb_true_iff in E as [E1 E2]. apply String.eqb_eq in E1, E2. now subst.
  - intros Hq. exists (c_name o, p). split; [assumption|]. cbn. now rewrite !String.eqb_refl.
Qed.

Lemma rebuild_accepts : forall o k, In o registry -> In k (c_keys o) -> c_kwargs o = true \/ In k (c_sig o).
Proof.
  intros o k H Hk. pose proof (registry_all (fun o => c_kwargs o || forallb (fun k => has k (c_sig o)) (c_keys o))) as K.
  specialize (K ltac:(vm_compute; reflexivity) o H). cbv beta in K. apply orb_true_iff in K as [K|K]; [now left|right].
  rewrite forallb_forall in K. apply has_In. auto.
Qed.

Lemma extra_lossy : forall q, In q lossy -> exists o, In o registry /\ c_name o = fst q /\ In (snd q) (c_sig o) /\ ~ In (snd q) (c_keys o).
Proof.
  intros q H. pose proof (fun f => proj1 (forallb_forall f lossy)) as K.
  specialize (K (fun q => existsb (fun o => String.eqb (c_name o) (fst q) && has (snd q) (c_sig o) && negb (has (snd q) (c_keys o))) registry)).
  specialize (K ltac:(vm_compute; reflexivity) q H). cbv beta in K. apply existsb_exists in K as (o & Ho & E).
  apply andb_true_iff in E as [E E3]. apply andb_true_iff in E as [E1 E2]. exists o. split; [assumption|].
  apply String.eqb_eq in E1. split; [assumption|]. split; [now apply has_In|]. intros C. apply has_In in C. now rewrite C in E3.
Qed.
