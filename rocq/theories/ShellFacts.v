(** The classifier wrappers and the configuration. *)

From Coq Require Import String List ZArith QArith Bool Arith Lia Permutation Reals.
From Flocq Require Import Core IEEE754.BinarySingleNaN.
From Verif Require Import Np NpFacts PyVal Float64 SimplexModel SamplerModel SamplerFacts CompModel ShellModel SpecShell.
Import ListNotations.
Open Scope nat_scope.

(** ** Attributes *)

Section Attr.
Context {O C : Type}.

Lemma dget_set (self : list (string * attr O C)) n v m :
  dget (setattr self n v) m = if String.eqb n m then Some v else dget self m.
Proof.
  induction self as [|[k w] self IH]; cbn [setattr dget]; [reflexivity|].
  destruct (String.eqb_spec k n); cbn [dget].
  - subst k. now destruct (String.eqb_spec n m).
  - rewrite IH. destruct (String.eqb_spec k m), (String.eqb_spec n m); congruence.
Qed.

Lemma get_set (self : list (string * attr O C)) n v m :
  getattr (setattr self n v) m = if String.eqb n m then Ok v else getattr self m.
Proof. unfold getattr. rewrite dget_set. now destruct (String.eqb n m). Qed.

End Attr.

Section OC.
Variables O C : Type.
Variable make : string * string * list (string * pyval) -> res (attr O C).
Variable sample : O -> list row -> list Z -> res (list row * list Z) * O.
Variable fit : C -> list row -> list Z -> res unit * C.
Variable predict : C -> list row -> res (list Z).
Variable predict_proba : C -> list row -> res (list (list Q)).
Variable classes : C -> res (list Z).

Local Open Scope string_scope.
Local Notation init := (oc_init O C make).
Local Notation ofit := (oc_fit O C sample fit classes).
Local Notation opredict := (oc_predict O C predict).
Local Notation oproba := (oc_predict_proba O C predict_proba).
Local Notation params := (oc_get_params O C).
Local Notation set_params := (oc_set_params O C make).

Lemma oc_init_ok d1 d2 self : init (ADesc d1) (ADesc d2) = Ok self ->
  exists o c, make d1 = Ok o /\ make d2 = Ok c /\ params self = Ok [("oversampler", ADesc d1); ("classifier", ADesc d2)] /\
    getattr self "oversampler_obj" = Ok o /\ getattr self "classifier_obj" = Ok c /\ getattr self "classes_" = Ok ANone.
Proof.
  unfold oc_init. cbn [instantiate]. destruct (make d1) as [o|]; [|discriminate]. cbn [bind]. destruct (make d2) as [c|]; [|discriminate].
  cbn [bind]. intros H. injection H as <-. exists o, c. repeat split; reflexivity.
Qed.

Lemma oc_fit_ok self X y self' u : ofit self X y = (Ok u, self') ->
  exists o o' c c' X_samp y_samp v l,
    getattr self "oversampler_obj" = Ok (ASampler o) /\ getattr self "classifier_obj" = Ok (AClassifier c) /\
    sample o X y = (Ok (X_samp, y_samp), o') /\ fit c X_samp y_samp = (Ok v, c') /\ classes c' = Ok l /\
    (forall Z, opredict self' Z = predict c' Z) /\ (forall Z, oproba self' Z = predict_proba c' Z) /\
    getattr self' "classes_" = Ok (ALabels l) /\ params self' = params self.
Proof.
  unfold oc_fit. destruct (getattr self "oversampler_obj") as [[|o| | | |]|] eqn:Eo; try discriminate.
  destruct (sample o X y) as [[[Xs ys]|] o'] eqn:Es; [|discriminate]. rewrite get_set. cbn [String.eqb Ascii.eqb Bool.eqb].
  destruct (getattr self "classifier_obj") as [[| |c| | |]|] eqn:Ec; try discriminate.
  destruct (fit c Xs ys) as [[v|] c'] eqn:Ef; [|discriminate]. destruct (classes c') as [l|] eqn:El; [|discriminate].
  intros H. injection H as _ <-. exists o, o', c, c', Xs, ys, v, l. repeat (split; [assumption || reflexivity|]).
  unfold oc_predict, oc_predict_proba, oc_get_params. split; [intros; now rewrite !get_set|]. split; [intros; now rewrite !get_set|].
  split; [now rewrite get_set|]. now rewrite !get_set.
Qed.

Lemma oc_fit_err self X y self' e : ofit self X y = (Err e, self') ->
  params self' = params self /\ getattr self' "classes_" = getattr self "classes_".
Proof.
  unfold oc_fit. destruct (getattr self "oversampler_obj") as [[|o| | | |]|] eqn:Eo; try (intros H; injection H as <- <-; auto).
  destruct (sample o X y) as [[[Xs ys]|] o'] eqn:Es.
  - rewrite get_set. cbn [String.eqb Ascii.eqb Bool.eqb].
    destruct (getattr self "classifier_obj") as [[| |c| | |]|] eqn:Ec; try (intros H; injection H as <- <-; unfold oc_get_params; now rewrite !get_set).
    destruct (fit c Xs ys) as [[v|] c'] eqn:Ef; [|intros H; injection H as <- <-; unfold oc_get_params; now rewrite !get_set].
    destruct (classes c') as [l|] eqn:El; [discriminate|]. intros H; injection H as <- <-; unfold oc_get_params; now rewrite !get_set.
  - intros H; injection H as <- <-; unfold oc_get_params; now rewrite !get_set.
Qed.

(** What a call of [fit] does depends on the two inner objects only. *)
Definition alike (a b : object O C) : Prop :=
  getattr a "oversampler_obj" = getattr b "oversampler_obj" /\ getattr a "classifier_obj" = getattr b "classifier_obj".

Lemma alike_fit a b X y : alike a b -> fst (ofit a X y) = fst (ofit b X y) /\ alike (snd (ofit a X y)) (snd (ofit b X y)) /\
  (fst (ofit a X y) = Ok tt -> getattr (snd (ofit a X y)) "classes_" = getattr (snd (ofit b X y)) "classes_").
Proof.
  intros [H1 H2]. unfold oc_fit. rewrite <- H1. destruct (getattr a "oversampler_obj") as [[|o| | | |]|] eqn:Eo;
    try (cbn; unfold alike; split; [reflexivity|]; split; [split; congruence|discriminate]).
  destruct (sample o X y) as [[[Xs ys]|] o']; cbn.
  - rewrite !get_set. cbn [String.eqb Ascii.eqb Bool.eqb]. rewrite <- H2.
    destruct (getattr a "classifier_obj") as [[| |c| | |]|] eqn:Ec;
      try (cbn; unfold alike; rewrite !get_set; cbn [String.eqb Ascii.eqb Bool.eqb]; rewrite <- H2; auto; split; [reflexivity|]; split; [split; congruence|discriminate]).
    destruct (fit c Xs ys) as [[v|] c'] eqn:Ef; [|cbn; unfold alike; rewrite !get_set; cbn; split; [reflexivity|]; split; [split; reflexivity|discriminate]].
    destruct (classes c') as [l|] eqn:El; cbn; unfold alike; rewrite !get_set; cbn; split; [reflexivity| |reflexivity|]; split; auto; discriminate.
  - unfold alike. rewrite !get_set. cbn. split; [reflexivity|]. split; [split; congruence|discriminate].
Qed.

Lemma alike_predict a b : alike a b -> forall X, opredict a X = opredict b X /\ oproba a X = oproba b X.
Proof. intros [_ H] X. unfold oc_predict, oc_predict_proba. now rewrite H. Qed.

Lemma fold_set (ps : list (string * attr O C)) : forall (self : object O C) name,
  getattr (fold_left (fun s p => setattr s (fst p) (snd p)) ps self) name = (do v <- getattr self name; Ok (updated ps name v)) \/
  (exists w, getattr (fold_left (fun s p => setattr s (fst p) (snd p)) ps self) name = Ok w /\ exists e, getattr self name = Err e).
Proof.
  induction ps as [|[k w] ps IH]; intros self name; cbn [fold_left updated fst snd].
  - left. now destruct (getattr self name).
  - destruct (IH (setattr self k w) name) as [E|(v & E & e & E')].
    + rewrite E, get_set. destruct (String.eqb k name); [|now left]. cbn [bind].
      destruct (getattr self name) as [a|e] eqn:G; [now left|]. right. eauto.
    + rewrite get_set in E'. destruct (String.eqb k name); [discriminate|]. right. eauto.
Qed.

Lemma oc_set_params_ok self ps self' u d1 d2 : params self = Ok [("oversampler", d1); ("classifier", d2)] ->
  set_params self ps = (Ok u, self') ->
  let d1' := updated ps "oversampler" d1 in let d2' := updated ps "classifier" d2 in
  params self' = Ok [("oversampler", d1'); ("classifier", d2')] /\
  exists fresh, init d1' d2' = Ok fresh /\ alike self' fresh.
Proof.
  intros HP HS d1' d2'. unfold oc_get_params in HP.
  destruct (getattr self "oversampler") as [a|] eqn:Ga; [|discriminate]. cbn [bind] in HP. destruct (getattr self "classifier") as [b|] eqn:Gb; [|discriminate].
  cbn [bind] in HP. injection HP as -> ->. unfold oc_set_params in HS. set (s1 := fold_left _ ps self) in HS.
  assert (G1 : getattr s1 "oversampler" = Ok d1').
  { unfold s1. destruct (fold_set ps self "oversampler") as [E|(v & _ & e & E)]; [|congruence]. rewrite E, Ga. reflexivity. }
  assert (G2 : getattr s1 "classifier" = Ok d2').
  { unfold s1. destruct (fold_set ps self "classifier") as [E|(v & _ & e & E)]; [|congruence]. rewrite E, Gb. reflexivity. }
  rewrite G1 in HS. cbn [bind] in HS. destruct (instantiate O C make d1') as [o|] eqn:I1; [|discriminate].
  rewrite get_set in HS. cbn [String.eqb Ascii.eqb Bool.eqb] in HS. rewrite G2 in HS. cbn [bind] in HS.
  destruct (instantiate O C make d2') as [c|] eqn:I2; [|discriminate]. injection HS as _ <-.
  split; [unfold oc_get_params; rewrite !get_set; cbn [String.eqb Ascii.eqb Bool.eqb]; rewrite G1; cbn [bind]; now rewrite G2|].
  unfold oc_init. rewrite I1. cbn [bind]. rewrite I2. cbn [bind]. eexists. split; [reflexivity|]. unfold alike. now rewrite !get_set.
Qed.

(** Setting parameters and then fitting is the same as building a new object. *)
Lemma oc_set_like_new self ps self' u d1 d2 : params self = Ok [("oversampler", d1); ("classifier", d2)] ->
  set_params self ps = (Ok u, self') ->
  let d1' := updated ps "oversampler" d1 in let d2' := updated ps "classifier" d2 in
  params self' = Ok [("oversampler", d1'); ("classifier", d2')] /\
  exists fresh, init d1' d2' = Ok fresh /\
    (forall Z, opredict self' Z = opredict fresh Z) /\
    forall X y, fst (ofit self' X y) = fst (ofit fresh X y) /\
      (forall Z, opredict (snd (ofit self' X y)) Z = opredict (snd (ofit fresh X y)) Z /\
                 oproba (snd (ofit self' X y)) Z = oproba (snd (ofit fresh X y)) Z) /\
      (fst (ofit self' X y) = Ok tt -> getattr (snd (ofit self' X y)) "classes_" = getattr (snd (ofit fresh X y)) "classes_").
Proof.
  intros HP HS d1' d2'. destruct (oc_set_params_ok self ps self' u d1 d2 HP HS) as (E & fresh & F & A).
  split; [exact E|]. exists fresh. split; [exact F|]. split; [intros; apply alike_predict, A|]. intros X y.
  destruct (alike_fit _ _ X y A) as (B1 & B2 & B3). split; [exact B1|]. split; [|exact B3]. intros Z. now apply alike_predict.
Qed.

End OC.

(** ** MLPClassifierWrapper *)

Lemma hidden_sqrt ios p n : ml_fraction p = FStr "sqrt" -> exists h, hidden_size ios p n = Ok h /\ 1 <= h /\
  (1 <= n -> h * h <= n < (h + 1) * (h + 1)).
Proof.
  intros E. unfold hidden_size. rewrite E. cbn [String.eqb Ascii.eqb Bool.eqb]. eexists. split; [reflexivity|]. split; [lia|]. intros H.
  pose proof (Nat.sqrt_spec n ltac:(lia)) as [S1 S2].
  assert (1 <= Nat.sqrt n) by (destruct (Nat.sqrt n); [cbn in S2; lia|lia]).
  rewrite Nat.max_r by assumption. rewrite Nat.add_1_r. auto.
Qed.

(** A number between 0 and 1 gives between one and as many neurons as columns. *)
Lemma hidden_share ios p n x : ml_fraction p = FNum x -> is_finite x = true -> (0 <= B2R x <= 1)%R -> (Z.of_nat n <= 2 ^ 53)%Z ->
  let h := Nat.max 1 (Z.to_nat (Ztrunc (rnd64 (IZR (Z.of_nat n) * B2R x)))) in
  hidden_size ios p n = Ok h /\ 1 <= h <= Nat.max 1 n.
Proof.
  intros E Hf [H0 H1] Hn h. unfold hidden_size. rewrite E.
  assert (Hz : (Z.abs (Z.of_nat n) <= 2 ^ 53)%Z) by lia. destruct (f_of_Z_exact _ Hz) as [E1 E2].
  assert (Hp : (0 <= IZR (Z.of_nat n))%R) by (apply IZR_le; lia).
  assert (U : (rnd64 (IZR (Z.of_nat n) * B2R x) <= IZR (Z.of_nat n))%R).
  { rewrite <- (rnd64_IZR (Z.of_nat n) Hz) at 2. apply rnd64_le. rewrite <- (Rmult_1_r (IZR (Z.of_nat n))) at 2. now apply Rmult_le_compat_l. }
  assert (L : (0 <= rnd64 (IZR (Z.of_nat n) * B2R x))%R).
  { rewrite <- (rnd64_IZR 0) by (cbn; lia). apply rnd64_le. now apply Rmult_le_pos. }
  destruct (f_mul_spec (f_of_Z (Z.of_nat n)) x E2 Hf) as [(F1 & F2 & F3)|(s & F1 & F2 & _)]; rewrite E1 in *.
  - rewrite int_of_f64_finite by assumption. cbn [bind]. rewrite F2. split; [reflexivity|].
    pose proof (Ztrunc_le _ _ U) as T. rewrite Ztrunc_IZR in T. unfold h. lia.
  - exfalso. pose proof (bpow_1024_large _ Hz) as B. rewrite Rabs_pos_eq in F2 by exact L. rewrite Rabs_pos_eq in B by exact Hp.
    apply (Rlt_irrefl (bpow radix2 1024)). eapply Rle_lt_trans; [exact F2|]. eapply Rle_lt_trans; [exact U|exact B].
Qed.

Lemma mlp_fit_fresh ios M train mpredict (a b : mlp_state M) n X y : fst a = fst b ->
  fst (mlp_fit ios M train a n X y) = fst (mlp_fit ios M train b n X y) /\
  (fst (mlp_fit ios M train a n X y) = Ok tt ->
     snd (mlp_fit ios M train a n X y) = snd (mlp_fit ios M train b n X y) /\
     fst (snd (mlp_fit ios M train a n X y)) = fst a /\
     exists h m, hidden_size ios (fst a) n = Ok h /\ train (fst a) h X y = Ok m /\
       forall Z, mlp_predict M mpredict (snd (mlp_fit ios M train a n X y)) Z = mpredict m Z) /\
  (forall e, fst (mlp_fit ios M train a n X y) = Err e -> snd (mlp_fit ios M train a n X y) = a).
Proof.
  intros E. unfold mlp_fit. rewrite <- E. destruct (hidden_size ios (fst a) n) as [h|] eqn:Eh; cbn [bind].
  - destruct (train (fst a) h X y) as [m|] eqn:Et; cbn.
    + split; [reflexivity|]. split; [|discriminate]. intros _. split; [reflexivity|]. split; [reflexivity|]. exists h, m. auto.
    + split; [reflexivity|]. split; [discriminate|reflexivity].
  - cbn. split; [reflexivity|]. split; [discriminate|reflexivity].
Qed.

Lemma mlp_copy_ok M (a : mlp_state M) : let b := mlp_copy M a in
  snd b = None /\ ml_activation (fst b) = ml_activation (fst a) /\ ml_fraction (fst b) = ml_fraction (fst a) /\
  ml_alpha (fst b) = ml_alpha (fst a) /\ ml_learning_rate (fst b) = ml_learning_rate (fst a) /\
  ml_random_state (fst b) = ml_random_state (fst a) /\
  (ml_max_iter (fst a) = PInt 10000 -> fst b = fst a).
Proof. cbn. repeat split. intros H. destruct a as [[] m]. cbn in *. now subst. Qed.

(** ** The mock classifier *)

Lemma mock_fit_ok K kfit (self : mock K) X y :
  (mo_value K self = true -> fst (mock_fit K kfit self X y) = Err ValueError) /\
  (mo_value K self = false -> mo_runtime K self = true -> fst (mock_fit K kfit self X y) = Err RuntimeError) /\
  (mo_value K self = false -> mo_runtime K self = false ->
     (forall k, kfit (mo_knn K self) X y = Ok k ->
        fst (mock_fit K kfit self X y) = Ok (if mo_warning K self then 1 else 0) /\ mo_knn K (snd (mock_fit K kfit self X y)) = k) /\
     (forall e, kfit (mo_knn K self) X y = Err e -> fst (mock_fit K kfit self X y) = Err e)) /\
  (forall e, fst (mock_fit K kfit self X y) = Err e -> snd (mock_fit K kfit self X y) = self).
Proof.
  unfold mock_fit. destruct (mo_value K self) eqn:V.
  { repeat split; try discriminate; auto. }
  destruct (mo_runtime K self) eqn:R.
  { repeat split; try discriminate; auto. }
  destruct (kfit (mo_knn K self) X y) as [k|e] eqn:E; cbn; repeat split; try discriminate; try congruence; auto; intros; try congruence.
Qed.

(** ** Flags *)

Lemma flag_call_value f n v : fst (flag_call f n v) = flag_get (snd (flag_call f n v)) n.
Proof. reflexivity. Qed.

Lemma flag_call_step f m v n : flag_get (snd (flag_call f m v)) n =
  match v with PNone => flag_get f n | _ => if name_eqb m n then v else flag_get f n end.
Proof. destruct v, m, n; reflexivity. Qed.

Lemma flags_history calls : forall f n, flag_get (run_calls calls f) n = last_set n calls (flag_get f n).
Proof.
  induction calls as [|[m v] calls IH]; intros f n; [reflexivity|]. cbn [run_calls fold_left]. fold (run_calls calls (snd (flag_call f m v))).
  cbn [fst snd]. rewrite IH, flag_call_step. destruct v; reflexivity.
Qed.

Lemma flags_all calls n : fst (flag_call (run_calls calls flags0) n PNone) = last_set n calls (default_of n).
Proof. cbn [flag_call fst]. rewrite flags_history. now destruct n. Qed.

Lemma flags_set calls n v : v <> PNone -> fst (flag_call (run_calls calls flags0) n v) = v.
Proof. intros H. rewrite flag_call_value, flag_call_step. destruct v; try congruence; now destruct n. Qed.
