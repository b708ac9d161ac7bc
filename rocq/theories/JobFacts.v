(** Facts about sampling jobs and result tables. *)

From Coq Require Import List ZArith QArith Bool Arith Lia Permutation Sorting.Sorted.
From Verif Require Import Np JsonModel JsonFacts CacheModel CacheFacts CacheRuns FoldModel FoldFacts JobModel.
Import ListNotations.
Open Scope nat_scope.
Local Opaque print.

(** ** Scales *)

Section SAMPLING.
Context {M Y D P : Type}.

(** How train and test data relate to the fold: transformed by one and the same
    map, then oversampled on the training side. *)
Theorem sampling_scale sc (os : oversampler M Y P) co f o :
  do_oversampling M Y D P sc os co f = Ok o ->
  match o_error _ _ _ _ o with
  | None => os_sample _ _ _ os (scale _ _ _ sc f (f_X_train _ _ _ f)) (f_y_train _ _ _ f) = Ok (o_X_train _ _ _ _ o, o_y_train _ _ _ _ o) /\
            os_prep _ _ _ os (f_X_test _ _ _ f) = Ok (o_X_test _ _ _ _ o)
  | Some e => o_X_train _ _ _ _ o = scale _ _ _ sc f (f_X_train _ _ _ f) /\ o_y_train _ _ _ _ o = f_y_train _ _ _ f /\
              o_X_test _ _ _ _ o = scale _ _ _ sc f (f_X_test _ _ _ f) /\ (e = ValueError \/ e = RuntimeError)
  end /\ o_y_test _ _ _ _ o = f_y_test _ _ _ f /\ o_desc _ _ _ _ o = f_desc _ _ _ f.
Proof.
  unfold do_oversampling. destruct (os_sample _ _ _ os _ _) as [[xs ys]|e] eqn:E1; cbn [bind].
  - destruct (os_prep _ _ _ os _) as [t|e] eqn:E2; cbn [bind fst snd].
    + intros [= <-]. cbn. auto.
    + destruct e; try discriminate; intros [= <-]; cbn; auto 8.
  - destruct e; try discriminate; intros [= <-]; cbn; auto 8.
Qed.
End SAMPLING.

(** ** Reuse *)

Section REUSE.
Context {F : Type}.
Variable frepr : F -> text.
Variable fparse : text -> F.
Context {Params Scaler Data : Type}.
Variable show : text -> Params -> text.
Variable md5 : text -> text.
Variable compute : request Params Scaler Data -> list (text * json F).
Notation target := (target Params Scaler Data show md5).
Notation run_job := (run_job frepr fparse Params Scaler Data show md5 compute).
Notation read_result := (read_result fparse Params Scaler Data show md5).
Notation request := (request Params Scaler Data).

(** What a request is identified by. *)
Definition same_key (q q' : request) : Prop :=
  q_repeat _ _ _ q = q_repeat _ _ _ q' /\ q_fold _ _ _ q = q_fold _ _ _ q' /\
  q_oversampler _ _ _ q = q_oversampler _ _ _ q' /\ q_params _ _ _ q = q_params _ _ _ q'.

Theorem target_key (q q' : request) :
  (forall o p o' p', md5 (show o p) = md5 (show o' p') -> o = o' /\ p = p') -> (target q = target q' <-> same_key q q').
Proof.
  intros Inj. unfold JobModel.target, same_key. split.
  - intros E. apply sampling_name_inj in E as (-> & -> & E). apply Inj in E as [-> ->]. auto.
  - intros (-> & -> & -> & ->). reflexivity.
Qed.

Lemma run_fresh fs q : fs (target q) = None -> run_job false fs q = Ok (put fs (target q) (Some (print frepr (JObj (compute q))))).
Proof. intros E. unfold JobModel.run_job. rewrite E. reflexivity. Qed.

Lemma read_full fs q d : json_ok frepr fparse (JObj d) -> fs (target q) = Some (print frepr (JObj d)) ->
  read_result fs q = Ok (LDict (map (fun kv => (fst kv, Plain (snd kv))) d)).
Proof. intros W E. unfold JobModel.read_result, load_json. rewrite E. now rewrite (loads_print frepr fparse _ W). Qed.

(** A later request with the same key gets the first one's result, whatever its
    scaler and data. *)
Theorem reuse fs q q' fs' : json_ok frepr fparse (JObj (compute q)) -> fs (target q) = None -> same_key q q' -> run_job false fs q = Ok fs' ->
  run_job false fs' q' = Ok fs' /\ read_result fs' q' = Ok (LDict (map (fun kv => (fst kv, Plain (snd kv))) (compute q))).
Proof.
  intros W N K E. rewrite (run_fresh _ _ N) in E. injection E as <-.
  assert (T : target q' = target q) by (destruct K as (K1 & K2 & K3 & K4); unfold JobModel.target; now rewrite K1, K2, K3, K4).
  split.
  - unfold JobModel.run_job. rewrite T, put_same, (damaged_full frepr fparse (compute q) W). reflexivity.
  - apply read_full; [assumption|]. now rewrite T, put_same.
Qed.

(** A request with another key is computed afresh and leaves the first result alone. *)
Theorem no_mixing fs q q' fs' fs'' :
  (forall o p o' p', md5 (show o p) = md5 (show o' p') -> o = o' /\ p = p') ->
  json_ok frepr fparse (JObj (compute q')) -> fs (target q') = None -> ~ same_key q q' ->
  run_job false fs q = Ok fs' -> run_job false fs' q' = Ok fs'' ->
  read_result fs'' q' = Ok (LDict (map (fun kv => (fst kv, Plain (snd kv))) (compute q'))) /\ fs'' (target q) = fs' (target q).
Proof.
  intros Inj W N K E1 E2.
  assert (T : target q' <> target q) by (intros E; apply K; apply (target_key q q' Inj); auto).
  assert (N' : fs' (target q') = None).
  { unfold JobModel.run_job in E1. destruct (damaged_json fparse (fs (target q))) as [b|]; [|discriminate E1]. cbn in E1.
    destruct (negb b && true); injection E1 as <-; [assumption|]. now rewrite put_other. }
  rewrite (run_fresh _ _ N') in E2. injection E2 as <-. split; [apply read_full; [assumption|apply put_same]|]. apply put_other. auto.
Qed.

End REUSE.

(** ** Tables *)

Lemma keys_eqb_eq a b : keys_eqb a b = true <-> a = b.
Proof.
  revert b. induction a as [|x a IH]; intros [|y b]; cbn; [split; auto|split; discriminate|split; discriminate|].
  rewrite andb_true_iff, eqb_text_eq, IH. split; [now intros [-> ->]|now intros [= -> ->]].
Qed.

Lemma insert_key_In k l x : In x (insert_key k l) <-> x = k \/ In x l.
Proof.
  induction l as [|h r IH]; cbn; [intuition|]. destruct (keys_eqb k h) eqn:E.
  - apply keys_eqb_eq in E. subst. cbn. intuition.
  - destruct (keys_leb k h); cbn; [intuition|]. rewrite IH. intuition.
Qed.

Lemma distinct_keys_In l x : In x (fold_right insert_key [] l) <-> In x l.
Proof. induction l as [|k l IH]; cbn; [reflexivity|]. rewrite insert_key_In, IH. intuition. Qed.

Lemma text_leb_antisym a b : text_leb a b = true -> text_leb b a = true -> a = b.
Proof.
  revert b. induction a as [|x a IH]; intros [|y b]; cbn; try discriminate; [reflexivity|].
  destruct (Z.ltb_spec x y), (Z.ltb_spec y x); try lia; destruct (Z.eqb_spec x y), (Z.eqb_spec y x); try discriminate; try lia.
  intros A B. subst. f_equal. auto.
Qed.

Lemma text_leb_total a b : text_leb a b = true \/ text_leb b a = true.
Proof.
  revert b. induction a as [|x a IH]; intros [|y b]; cbn; auto.
  destruct (Z.ltb_spec x y); auto. destruct (Z.ltb_spec y x); auto. assert (x = y) as -> by lia. rewrite Z.eqb_refl. apply IH.
Qed.

Lemma text_leb_trans a b c : text_leb a b = true -> text_leb b c = true -> text_leb a c = true.
Proof.
  revert b c. induction a as [|x a IH]; intros [|y b] [|z c]; cbn; try discriminate; auto.
  destruct (Z.ltb_spec x y), (Z.ltb_spec y z), (Z.ltb_spec x z); auto; try (destruct (Z.eqb_spec y z); try discriminate; lia); try (destruct (Z.eqb_spec x y); try discriminate; lia).
  destruct (Z.eqb_spec x y); [|discriminate]. destruct (Z.eqb_spec y z); [|discriminate]. subst. rewrite Z.eqb_refl. eauto.
Qed.

Lemma keys_leb_total a b : keys_leb a b = true \/ keys_leb b a = true.
Proof.
  revert b. induction a as [|x a IH]; intros [|y b]; cbn; auto. rewrite (CacheFacts.eqb_text_sym y x). destruct (eqb_text x y); auto. apply text_leb_total.
Qed.

Lemma keys_leb_trans a b c : keys_leb a b = true -> keys_leb b c = true -> keys_leb a c = true.
Proof.
  revert b c. induction a as [|x a IH]; intros [|y b] [|z c]; cbn; try discriminate; auto.
  assert (R : forall t, eqb_text t t = true) by (intros; now apply eqb_text_eq).
  destruct (eqb_text x y) eqn:E1.
  - apply eqb_text_eq in E1. subst. destruct (eqb_text y z); eauto.
  - destruct (eqb_text y z) eqn:E2; [apply eqb_text_eq in E2; subst; now rewrite E1|].
    destruct (eqb_text x z) eqn:E3; [|eauto using text_leb_trans].
    apply eqb_text_eq in E3. subst. intros A B. pose proof (text_leb_antisym _ _ A B). subst. now rewrite R in E1.
Qed.

Lemma keys_leb_antisym a b : keys_leb a b = true -> keys_leb b a = true -> a = b.
Proof.
  revert b. induction a as [|x a IH]; intros [|y b]; cbn; try discriminate; [reflexivity|]. rewrite (CacheFacts.eqb_text_sym y x).
  destruct (eqb_text x y) eqn:E; [apply eqb_text_eq in E; subst; intros; f_equal; auto|].
  intros A B. pose proof (text_leb_antisym _ _ A B). subst. rewrite (proj2 (eqb_text_eq y y) eq_refl) in E. discriminate.
Qed.

(** Keys come once each, in ascending order. *)
Definition asc (l : list (list text)) : Prop := Sorted.StronglySorted (fun a b => keys_leb a b = true /\ a <> b) l.

Lemma insert_key_asc k l : asc l -> asc (insert_key k l).
Proof.
  unfold asc. induction 1 as [|h r S IH Fh]; cbn; [repeat constructor|]. destruct (keys_eqb k h) eqn:E; [now constructor|].
  assert (N : k <> h) by (intros ->; rewrite (proj2 (keys_eqb_eq h h) eq_refl) in E; discriminate).
  destruct (keys_leb k h) eqn:L.
  - constructor; [now constructor|]. constructor; [auto|]. rewrite Forall_forall in *. intros x Hx. destruct (Fh x Hx) as [L' N']. split; [eapply keys_leb_trans; eauto|].
    intros <-. apply N. now apply keys_leb_antisym.
  - constructor; [assumption|]. rewrite Forall_forall in *. intros x Hx. apply insert_key_In in Hx as [->|Hx]; [|auto].
    destruct (keys_leb_total k h); [congruence|auto].
Qed.

Lemma keys_asc l : asc (fold_right insert_key [] l).
Proof. induction l as [|k l IH]; cbn; [constructor|]. now apply insert_key_asc. Qed.

Lemma keys_nodup l : NoDup (fold_right insert_key [] l).
Proof. apply (strongly_nodup _ _ (fun x y H => proj2 H) (keys_asc l)). Qed.

(** groupby: every group is the rows having its key, every row is in a group,
    no key occurs twice. *)
Theorem groupby_spec {A} (kf : A -> list text) l :
  NoDup (map fst (groupby kf l)) /\
  (forall k g, In (k, g) (groupby kf l) -> g = filter (fun x => keys_eqb (kf x) k) l /\ g <> []) /\
  (forall x, In x l -> exists g, In (kf x, g) (groupby kf l)).
Proof.
  unfold groupby. repeat split.
  - rewrite map_map. cbn [fst]. rewrite map_id. apply keys_nodup.
  - apply in_map_iff in H as (k' & [= <- <-] & _). reflexivity.
  - apply in_map_iff in H as (k' & [= <- <-] & Hk). apply distinct_keys_In, in_map_iff in Hk as (x & <- & Hx). intros E.
    assert (I : In x (filter (fun y => keys_eqb (kf y) (kf x)) l)) by (apply filter_In; split; [assumption|now apply keys_eqb_eq]). rewrite E in I. destruct I.
  - intros x Hx. eexists. apply in_map_iff. exists (kf x). split; [reflexivity|]. apply distinct_keys_In, in_map_iff. eauto.
Qed.

Lemma all_keys_inj c c' : all_keys c = all_keys c' -> c = c'.
Proof. destruct c, c'. unfold all_keys. cbn. now intros [= -> -> -> -> -> -> ->]. Qed.

(** The averaged table: one row per configuration, the mean over exactly the
    rows with that configuration. *)
Theorem parse_spec rows :
  NoDup (map fst (parse_results rows)) /\
  (forall c m, In (c, m) (parse_results rows) <->
     In c (map fst rows) /\ m = mean_skipna (map snd (filter (fun r => keys_eqb (all_keys (fst r)) (all_keys c)) rows))).
Proof.
  set (kf := fun r : config * option Q => all_keys (fst r)).
  destruct (groupby_spec kf rows) as (Nd & Gs & Gx).
  assert (One : forall k g, In (k, g) (groupby kf rows) -> exists c r g', g = (c, r) :: g' /\ all_keys c = k).
  { intros k g H. destruct (Gs _ _ H) as [E Ne]. destruct g as [|[c r] g']; [congruence|]. exists c, r, g'. split; [reflexivity|].
    assert (I : In (c, r) (filter (fun x => keys_eqb (kf x) k) rows)) by (rewrite <- E; now left). apply filter_In in I as [_ I]. now apply keys_eqb_eq in I. }
  split.
  - assert (Em : map (fun cm => all_keys (fst cm)) (parse_results rows) = map fst (groupby kf rows)).
    { unfold parse_results. fold kf. revert One. generalize (groupby kf rows). clear. induction l as [|[k g] l IH]; intros One; [reflexivity|].
      cbn [flat_map snd]. destruct (One k g (or_introl eq_refl)) as (c & r & g' & -> & <-). cbn. f_equal. apply IH. intros. apply One. now right. }
    rewrite <- Em in Nd. rewrite <- (map_map fst all_keys) in Nd. now apply NoDup_map_inv in Nd.
  - intros c m. unfold parse_results. fold kf. rewrite in_flat_map. split.
    + intros ([k g] & H & I). destruct (One k g H) as (c' & r & g' & Eg & Ek). assert (X : m = mean_skipna (map snd g) /\ c = c') by (cbn [snd] in I; rewrite Eg in I; destruct I as [[= <- <-]|[]]; rewrite Eg; auto).
      destruct X as [-> ->]. destruct (Gs _ _ H) as [E _]. split; [|rewrite E, <- Ek; reflexivity].
      assert (I' : In (c', r) (filter (fun x => keys_eqb (kf x) k) rows)) by (rewrite <- E, Eg; now left). apply filter_In in I' as [I' _].
      apply in_map_iff. now exists (c', r).
    + intros [Hc ->]. apply in_map_iff in Hc as ([c' r] & <- & Hc). destruct (Gx _ Hc) as (g & H). exists (kf (c', r), g). split; [assumption|].
      destruct (One _ _ H) as (c2 & r2 & g2 & Eg & Ek). cbn [snd]. rewrite Eg. left. unfold kf in Ek. cbn [fst] in Ek. apply all_keys_inj in Ek as ->. cbn [fst].
      destruct (Gs _ _ H) as [E _]. rewrite <- Eg, E. reflexivity.
Qed.

(** ** Best rows *)

Lemma max_skipna_spec l : match max_skipna l with
  | None => forall q, ~ In (Some q) l
  | Some m => In (Some m) l /\ forall q, In (Some q) l -> (q <= m)%Q
  end.
Proof.
  induction l as [|[q|] l IH]; cbn; [auto| |].
  - destruct (max_skipna l) as [m|].
    + destruct IH as [I H]. destruct (Qle_bool m q) eqn:E.
      * apply Qle_bool_iff in E. split; [now left|]. intros q' [[= <-]|Hq]; [apply Qle_refl|]. eapply Qle_trans; eauto.
      * assert (E' : (q <= m)%Q). { destruct (Qlt_le_dec m q) as [G|G]; [|assumption]. apply Qlt_le_weak, Qle_bool_iff in G. congruence. }
        split; [now right|]. intros q' [[= <-]|Hq]; auto.
    + split; [now left|]. intros q' [[= <-]|Hq]; [apply Qle_refl|]. now apply IH in Hq.
  - destruct (max_skipna l) as [m|].
    + destruct IH as [I H]. split; [now right|]. intros q [E|Hq]; [discriminate|auto].
    + intros q [E|Hq]; [discriminate|]. now apply IH in Hq.
Qed.

Lemma best_row_spec {A} (rows : list (A * option Q)) : match best_row rows with
  | None => forall a q, ~ In (a, Some q) rows
  | Some (a, m) => In (a, Some m) rows /\ forall a' q, In (a', Some q) rows -> (q <= m)%Q
  end.
Proof.
  unfold best_row. pose proof (max_skipna_spec (map snd rows)) as H. destruct (max_skipna (map snd rows)) as [m|].
  2: { intros a q I. apply (H q). apply in_map_iff. now exists (a, Some q). }
  destruct H as [I H]. apply in_map_iff in I as ([a0 q0] & E & I). cbn in E. subst q0.
  set (p := fun r : A * option Q => match snd r with Some q => Qeq_bool q m | None => false end).
  destruct (filter p rows) as [|[a [q|]] t] eqn:Ef.
  - exfalso. assert (X : In (a0, Some m) (filter p rows)) by (apply filter_In; split; [assumption|cbn; apply Qeq_bool_refl]). rewrite Ef in X. destruct X.
  - assert (X : In (a, Some q) (filter p rows)) by (rewrite Ef; now left). apply filter_In in X as [X Y]. cbn in Y. apply Qeq_bool_iff in Y.
    split; [assumption|]. intros a' q' I'. rewrite Y. apply H. apply in_map_iff. now exists (a', Some q').
  - exfalso. assert (X : In (a, None) (filter p rows)) by (rewrite Ef; now left). apply filter_In in X as [_ X]. discriminate X.
Qed.

(** model_selection: the configuration with the greatest mean; IndexError when
    every mean is NaN. *)
Theorem selection_spec rows :
  match model_selection rows with
  | Ok c => exists m, In (c, Some m) (parse_results rows) /\ forall c' m', In (c', Some m') (parse_results rows) -> (m' <= m)%Q
  | Err e => e = IndexError /\ forall c m, ~ In (c, Some m) (parse_results rows)
  end.
Proof.
  unfold model_selection. set (table := parse_results rows). set (kf := fun r : config * option Q => pair_keys (fst r)).
  set (f := fun g : list text * list (config * option Q) => match best_row (snd g) with Some (c, q) => (Some c, Some q) | None => (None, None) end).
  destruct (groupby_spec kf table) as (_ & Gs & Gx).
  pose proof (best_row_spec (map f (groupby kf table))) as H. destruct (best_row (map f (groupby kf table))) as [[[c|] m]|].
  - destruct H as [I H]. apply in_map_iff in I as ([k g] & E & I). unfold f in E. cbn [snd] in E. pose proof (best_row_spec g) as B.
    destruct (best_row g) as [[c0 q0]|]; [|discriminate E]. injection E as -> ->. destruct B as [B1 B2]. exists m. split.
    + destruct (Gs _ _ I) as [-> _]. now apply filter_In in B1.
    + intros c' m' I'. destruct (Gx _ I') as (g' & Hg). pose proof (best_row_spec g') as B'. assert (Ig : In (c', Some m') g').
      { destruct (Gs _ _ Hg) as [-> _]. apply filter_In. split; [assumption|]. now apply keys_eqb_eq. }
      destruct (best_row g') as [[c1 q1]|] eqn:Eb.
      * destruct B' as [_ B']. eapply Qle_trans; [apply (B' _ _ Ig)|]. apply (H (Some c1) q1). apply in_map_iff. exists (kf (c', Some m'), g'). split; [|assumption].
        unfold f. cbn [snd]. now rewrite Eb.
      * exfalso. now apply (B' _ _ Ig).
  - destruct H as [I _]. apply in_map_iff in I as ([k g] & E & _). unfold f in E. cbn [snd] in E. destruct (best_row g) as [[]|]; discriminate E.
  - split; [reflexivity|]. intros c m I. destruct (Gx _ I) as (g & Hg). pose proof (best_row_spec g) as B. assert (Ig : In (c, Some m) g).
    { destruct (Gs _ _ Hg) as [-> _]. apply filter_In. split; [assumption|]. now apply keys_eqb_eq. }
    destruct (best_row g) as [[c1 q1]|] eqn:Eb; [|now apply (B _ _ Ig)]. apply (H (Some c1) q1). apply in_map_iff. exists (kf (c, Some m), g). split; [|assumption].
    unfold f. cbn [snd]. now rewrite Eb.
Qed.
