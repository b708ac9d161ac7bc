(** Facts about the oversampler queries (QueryModel.v). *)

From Coq Require Import String List ZArith QArith Bool Arith Lia Permutation Sorted.
From Verif Require Import Np NpFacts QueryModel SpecQuery.
Import ListNotations.
Open Scope nat_scope.
Open Scope list_scope.

Lemma has_In s l : has s l = true <-> In s l.
Proof.
  unfold has. rewrite existsb_exists. split.
  - intros (x & Hx & E). apply String.eqb_eq in E. now subst.
  - intros H. exists s. split; [assumption|]. apply String.eqb_refl.
Qed.

Lemma filter_sub {A} (f : A -> bool) l : sub (filter f l) l.
Proof. induction l as [|x l IH]; cbn; [constructor|]. destruct (f x); now constructor. Qed.

(** *** Runtimes *)

Lemma timed_ok rt os ps : timed rt os = Ok ps -> map fst ps = os /\ Forall (fun p => runtime rt (fst p) (snd p)) ps.
Proof.
  revert ps. induction os as [|o r IH]; cbn; intros ps H.
  - inversion H. now split.
  - destruct (lookup rt (c_name o)) as [t|] eqn:E; [|discriminate]. destruct (timed rt r) as [qs|] eqn:T; cbn in H; [|discriminate].
    injection H as <-. destruct (IH qs eq_refl) as [E1 F]. cbn. split; [now rewrite E1|]. constructor; [exact E|assumption].
Qed.

Lemma timed_total rt os : (forall o, In o os -> exists t, runtime rt o t) -> exists ps, timed rt os = Ok ps.
Proof.
  induction os as [|o r IH]; cbn; intros H; [eauto|]. destruct (H o (or_introl eq_refl)) as [t E]. unfold runtime in E. rewrite E.
  destruct IH as [ps ->]; [intros; apply H; now right|]. cbn. eauto.
Qed.

Lemma timed_err rt os e : timed rt os = Err e -> e = KeyError /\ exists o, In o os /\ lookup rt (c_name o) = None.
Proof.
  induction os as [|o r IH]; cbn; intros H; [discriminate|]. destruct (lookup rt (c_name o)) as [t|] eqn:E.
  - destruct (timed rt r) as [ps|e']; cbn in H; [discriminate|]. injection H as ->. destruct (IH eq_refl) as (-> & o' & Ho & E').
    split; [reflexivity|]. exists o'. auto.
  - injection H as <-. split; [reflexivity|]. exists o. auto.
Qed.

(** *** Sorting *)

Definition faster (p q : cls * Q) : Prop := (snd p <= snd q)%Q.

Lemma insert_perm p l : Permutation (insert_pair p l) (p :: l).
Proof. induction l as [|q r IH]; cbn; [reflexivity|]. destruct (Qle_bool _ _); [reflexivity|]. rewrite IH. apply perm_swap. Qed.

Lemma sort_perm l : Permutation (sort_pairs l) l.
Proof. induction l as [|p l IH]; cbn; [reflexivity|]. rewrite insert_perm. now rewrite IH. Qed.

Lemma insert_sorted p l : StronglySorted faster l -> StronglySorted faster (insert_pair p l).
Proof.
  induction l as [|q r IH]; cbn; intros H; [repeat constructor|]. inversion H as [|? ? S Fa]; subst.
  destruct (Qle_bool (snd p) (snd q)) eqn:E.
  - apply Qle_bool_iff in E. constructor; [assumption|]. constructor; [exact E|]. eapply Forall_impl; [|exact Fa].
    intros a Ha. unfold faster in *. eapply Qle_trans; eauto.
  - assert (L : (snd q < snd p)%Q).
    { apply Qnot_le_lt. intros C. apply Qle_bool_iff in C. congruence. }
    constructor; [auto|]. rewrite Forall_forall in *. intros a Ha. apply (Permutation_in _ (insert_perm p r)) in Ha as [<-|Ha].
    + unfold faster. now apply Qlt_le_weak.
    + now apply Fa.
Qed.

Lemma sort_sorted l : StronglySorted faster (sort_pairs l).
Proof. induction l as [|p l IH]; cbn; [constructor|]. now apply insert_sorted. Qed.

(** Stability: the pairs of one runtime keep their order. *)
Lemma insert_stable t p l :
  filter (fun a => Qeq_bool (snd a) t) (insert_pair p l) = filter (fun a => Qeq_bool (snd a) t) (p :: l).
Proof.
  induction l as [|q r IH]; [reflexivity|]. cbn [insert_pair]. destruct (Qle_bool (snd p) (snd q)) eqn:E; [reflexivity|].
  cbn [filter] in *. rewrite IH. destruct (Qeq_bool (snd q) t) eqn:Eq, (Qeq_bool (snd p) t) eqn:Ep; try reflexivity.
  exfalso. apply Qeq_bool_iff in Eq, Ep. assert ((snd p <= snd q)%Q) by (rewrite Eq, Ep; apply Qle_refl).
  apply Qle_bool_iff in H. congruence.
Qed.
Lemma sort_stable t l :
  filter (fun a => Qeq_bool (snd a) t) (sort_pairs l) = filter (fun a => Qeq_bool (snd a) t) l.
Proof. induction l as [|p l IH]; [reflexivity|]. cbn [sort_pairs fold_right]. rewrite insert_stable. cbn. fold (sort_pairs l). now rewrite IH. Qed.

Lemma sorted_split {A} (R : A -> A -> Prop) l n a b : StronglySorted R l -> In a (firstn n l) -> In b (skipn n l) -> R a b.
Proof.
  revert n. induction l as [|x l IH]; intros n H Ha Hb.
  - now rewrite firstn_nil in Ha.
  - inversion H as [|? ? S Fa]; subst. destruct n; [now cbn in Ha|]. cbn in Ha, Hb. destruct Ha as [<-|Ha].
    + rewrite Forall_forall in Fa. apply Fa. rewrite <- (firstn_skipn n l). apply in_or_app. now right.
    + eapply IH; eauto.
Qed.

(** *** The n quickest *)

Lemma n_quickest_all rt os : n_quickest rt os (-1) = Ok os.
Proof. reflexivity. Qed.

Lemma n_quickest_spec rt os n l : (0 <= n)%Z -> n_quickest rt os n = Ok l ->
  exists rest, Permutation (l ++ rest) os /\ length l = Nat.min (Z.to_nat n) (length os) /\
    (forall o, In o os -> exists t, runtime rt o t) /\
    StronglySorted (fun a b => forall ta tb, runtime rt a ta -> runtime rt b tb -> (ta <= tb)%Q) l /\
    (forall a b ta tb, In a l -> In b rest -> runtime rt a ta -> runtime rt b tb -> (ta <= tb)%Q).
Proof.
  intros N H. unfold n_quickest in H. destruct (Z.eqb_spec n (-1)); [lia|]. destruct (timed rt os) as [ps|] eqn:T; cbn in H; [|discriminate].
  injection H as <-. destruct (timed_ok _ _ _ T) as [E F]. unfold slice_to. destruct (Z.ltb_spec (Z.min n (Z.of_nat (length os))) 0); [lia|].
  set (k := Z.to_nat (Z.min n (Z.of_nat (length os)))). assert (Hk : k = Nat.min (Z.to_nat n) (length os)) by (unfold k; lia).
  assert (Fs : Forall (fun p => runtime rt (fst p) (snd p)) (sort_pairs ps)).
  { rewrite Forall_forall in *. intros p Hp. apply F. eapply Permutation_in; [apply sort_perm|exact Hp]. }
  assert (Det : forall a b p, runtime rt a b -> In p (sort_pairs ps) -> fst p = a -> snd p = b).
  { intros a b p Ha Hp <-. rewrite Forall_forall in Fs. specialize (Fs p Hp). unfold runtime in *. congruence. }
  exists (map fst (skipn k (sort_pairs ps))). repeat split.
  - rewrite <- map_app, firstn_skipn, <- E. apply Permutation_map, sort_perm.
  - rewrite map_length, firstn_length, (Permutation_length (sort_perm ps)), <- (map_length fst), E. lia.
  - intros o Ho. rewrite <- E in Ho. apply in_map_iff in Ho as (p & <- & Hp). rewrite Forall_forall in F. eauto.
  - assert (S : StronglySorted faster (firstn k (sort_pairs ps)) /\ (forall p, In p (firstn k (sort_pairs ps)) -> In p (sort_pairs ps))).
    { split; [|intros p Hp; rewrite <- (firstn_skipn k); apply in_or_app; now left].
      pose proof (sort_sorted ps) as SS. rewrite <- (firstn_skipn k (sort_pairs ps)) in SS. revert SS.
      generalize (firstn k (sort_pairs ps)) as u, (skipn k (sort_pairs ps)) as v. induction u as [|x u IH]; intros v SS; [constructor|].
      cbn in SS. inversion SS as [|? ? S Fa]; subst. constructor; [eapply IH; eauto|]. rewrite Forall_forall in *. intros y Hy. apply Fa, in_or_app. now left. }
    destruct S as [S I]. revert S I. generalize (firstn k (sort_pairs ps)) as u. induction u as [|x u IH]; intros S I; cbn; [constructor|].
    inversion S as [|? ? S' Fa]; subst. constructor.
    + apply IH; [assumption|]. intros; apply I; now right.
    + rewrite Forall_forall in *. intros b Hb ta tb Ha Hb'. apply in_map_iff in Hb as (p & <- & Hp).
      rewrite <- (Det _ _ x Ha (I x (or_introl eq_refl)) eq_refl), <- (Det _ _ p Hb' (I p (or_intror Hp)) eq_refl). exact (Fa p Hp).
  - intros a b ta tb Ha Hb Ra Rb. apply in_map_iff in Ha as (p & Ep & Hp), Hb as (q & Eq & Hq).
    assert (Hpq : faster p q) by (eapply sorted_split; [apply sort_sorted|exact Hp|exact Hq]).
    unfold faster in Hpq. rewrite (Det _ _ p Ra) in Hpq; auto; [rewrite (Det _ _ q Rb) in Hpq; auto|].
    + rewrite <- (firstn_skipn k). apply in_or_app. now right.
    + rewrite <- (firstn_skipn k). apply in_or_app. now left.
Qed.

Lemma sub_firstn_filter {A} (f : A -> bool) n l : exists r, filter f l = filter f (firstn n l) ++ r.
Proof. exists (filter f (skipn n l)). now rewrite <- filter_app, firstn_skipn. Qed.

(** Those of one runtime are in the order of the list, and the first ones of them
    are taken. *)
Lemma n_quickest_stable rt os n l t : (0 <= n)%Z -> n_quickest rt os n = Ok l ->
  let same o := match lookup rt (c_name o) with Some u => Qeq_bool u t | None => false end in
  exists r, filter same os = filter same l ++ r.
Proof.
  intros N H same. unfold n_quickest in H. destruct (Z.eqb_spec n (-1)); [lia|]. destruct (timed rt os) as [ps|] eqn:T; cbn in H; [|discriminate].
  injection H as <-. destruct (timed_ok _ _ _ T) as [E F]. unfold slice_to. destruct (Z.ltb_spec (Z.min n (Z.of_nat (length os))) 0); [lia|].
  set (k := Z.to_nat _).
  assert (M : forall qs, Forall (fun p => runtime rt (fst p) (snd p)) qs ->
            filter same (map fst qs) = map fst (filter (fun a => Qeq_bool (snd a) t) qs)).
  { induction 1 as [|[o u] qs R _ IH]; [reflexivity|]. cbn in *. unfold same at 1. unfold runtime in R. rewrite R.
    destruct (Qeq_bool u t); cbn; now rewrite IH. }
  assert (Fs : Forall (fun p => runtime rt (fst p) (snd p)) (sort_pairs ps)).
  { rewrite Forall_forall in *. intros p Hp. apply F. eapply Permutation_in; [apply sort_perm|exact Hp]. }
  assert (Ff : Forall (fun p => runtime rt (fst p) (snd p)) (firstn k (sort_pairs ps))).
  { rewrite Forall_forall in *. intros p Hp. apply Fs. rewrite <- (firstn_skipn k). apply in_or_app. now left. }
  rewrite <- E, (M ps F), (M _ Ff). rewrite <- (sort_stable t ps).
  destruct (sub_firstn_filter (fun a => Qeq_bool (snd a) t) k (sort_pairs ps)) as [r ->]. rewrite map_app. eauto.
Qed.

Lemma n_quickest_total rt os n : (forall o, In o os -> exists t, runtime rt o t) -> exists l, n_quickest rt os n = Ok l.
Proof.
  intros H. unfold n_quickest. destruct (n =? -1)%Z; [eauto|]. destruct (timed_total rt os H) as [ps ->]. cbn. eauto.
Qed.

(** A number below -1 leaves out the slowest ones. *)
Lemma n_quickest_negative rt os n ps : (n < -1)%Z -> timed rt os = Ok ps ->
  n_quickest rt os n = Ok (map fst (firstn (length os - Z.to_nat (- n)) (sort_pairs ps))).
Proof.
  intros N T. unfold n_quickest. destruct (Z.eqb_spec n (-1)); [lia|]. rewrite T. cbn. do 2 f_equal. unfold slice_to.
  destruct (Z.ltb_spec (Z.min n (Z.of_nat (length os))) 0); [|lia]. f_equal.
  destruct (timed_ok _ _ _ T) as [E _]. rewrite (Permutation_length (sort_perm ps)), <- (map_length fst ps), E. lia.
Qed.

(** *** The filters *)

Lemma filter_spec {A} (f : A -> bool) (P : A -> Prop) l : (forall o, f o = true <-> P o) ->
  sub (filter f l) l /\ (forall o, In o (filter f l) <-> In o l /\ P o).
Proof.
  intros H. split; [apply filter_sub|]. intros o. rewrite filter_In, H. tauto.
Qed.

Lemma check_within_spec s w : check_within s w = true <-> meets (ss_within s) w.
Proof. destruct w; cbn; [apply String.eqb_eq|apply has_In]. Qed.
Lemma check_dim_spec s d : check_dim s d = true <-> meets (ss_dim s) d.
Proof.
  destruct d; cbn; [apply Z.eqb_eq|]. rewrite existsb_exists. split.
  - intros (x & Hx & E). apply Z.eqb_eq in E. now subst.
  - intros H. exists (ss_dim s). split; [assumption|apply Z.eqb_refl].
Qed.
Lemma check_gauss_spec s g : check_gauss s g = true <-> (g = true <-> exists n, ss_gauss s = Some n /\ 0 < n).
Proof.
  unfold check_gauss. destruct (ss_gauss s) as [n|]; [destruct (Nat.ltb_spec 0 n)|]; destruct g; cbn; split; intros H'; try tauto; try discriminate.
  - split; eauto.
  - exfalso. assert (false = true) by (apply H'; eauto). discriminate.
  - destruct H' as [H' _]. destruct (H' eq_refl) as (m & E & ?). injection E as <-. lia.
  - split; [discriminate|]. intros (m & E & ?). injection E as <-. lia.
  - destruct H' as [H' _]. destruct (H' eq_refl) as (m & E & ?). discriminate.
  - split; [discriminate|]. now intros (m & E & ?).
Qed.

Lemma opt_check_spec {A} (f : A -> bool) (P : A -> Prop) o : (forall a, f a = true <-> P a) ->
  forallb (fun b => b) (opt_check f o) = true <-> asked o P.
Proof. intros H. destruct o; cbn; [rewrite andb_true_r; apply H|tauto]. Qed.

Lemma checks_spec within exclude gauss dim s :
  let checks := opt_check (check_within s) within ++ opt_check (fun e => negb (check_within s e)) exclude
                ++ opt_check (check_gauss s) gauss ++ opt_check (check_dim s) dim in
  (length checks =? 0) || forallb (fun b => b) checks = true <->
  asked within (meets (ss_within s)) /\ asked exclude (fun e => ~ meets (ss_within s) e) /\
    asked gauss (fun g => g = true <-> exists n, ss_gauss s = Some n /\ 0 < n) /\ asked dim (meets (ss_dim s)).
Proof.
  intros checks. assert (E : (length checks =? 0) || forallb (fun b => b) checks = forallb (fun b => b) checks).
  { destruct checks; reflexivity. }
  rewrite E. unfold checks. rewrite !forallb_app, !andb_true_iff.
  rewrite (opt_check_spec _ _ within (check_within_spec s)), (opt_check_spec _ _ gauss (check_gauss_spec s)),
    (opt_check_spec _ _ dim (check_dim_spec s)).
  rewrite (opt_check_spec _ (fun e => ~ meets (ss_within s) e)); [tauto|].
  intros e. rewrite negb_true_iff, <- not_true_iff_false, check_within_spec. tauto.
Qed.

Lemma simplex_loop_spec within exclude gauss dim os l : simplex_loop within exclude gauss dim os = Ok l ->
  sub l os /\ (forall o, In o l <-> In o os /\ simplex_ok within exclude gauss dim o).
Proof.
  revert l. induction os as [|o r IH]; intros l H.
  - cbn in H. injection H as <-. split; [constructor|]. cbn. tauto.
  - cbn [simplex_loop] in H. destruct (has "ss_params" (c_sig o)) eqn:Hs; cbn [negb] in H.
    + destruct (c_ss o) as [s|] eqn:Es; [|discriminate].
      destruct (simplex_loop within exclude gauss dim r) as [rest|] eqn:L; cbn [bind] in H; [|discriminate].
      destruct (IH rest eq_refl) as [S I]. pose proof (checks_spec within exclude gauss dim s) as C. cbv zeta in C.
      destruct (_ || _) eqn:E in H; injection H as <-.
      * apply C in E. split; [now constructor|]. intros x. cbn. rewrite I. split.
        -- intros [<-|[? ?]]; [|tauto]. split; [now left|]. split; [now apply has_In|]. exists s. split; [assumption|tauto].
        -- tauto.
      * split; [now constructor|]. intros x. cbn. rewrite I. split; [tauto|]. intros [[<-|Hx] Hok]; [|tauto].
        exfalso. destruct Hok as (_ & s' & Es' & Hc). rewrite Es in Es'. injection Es' as <-. apply C in Hc. congruence.
    + destruct (IH l H) as [S I]. split; [now constructor|]. intros x. cbn. rewrite I. split; [tauto|].
      intros [[<-|Hx] Hok]; [|tauto]. destruct Hok as [Hin _]. apply has_In in Hin. congruence.
Qed.

Lemma simplex_loop_total within exclude gauss dim os :
  (forall o, In o os -> In "ss_params"%string (c_sig o) -> c_ss o <> None) ->
  exists l, simplex_loop within exclude gauss dim os = Ok l.
Proof.
  induction os as [|o r IH]; intros H; [cbn; eauto|]. cbn [simplex_loop].
  destruct IH as [l L]; [intros; apply H; [now right|assumption]|].
  destruct (has "ss_params" (c_sig o)) eqn:Hs; cbn [negb]; [|eauto].
  destruct (c_ss o) eqn:E; [|exfalso; apply (H o); [now left|now apply has_In|assumption]].
  rewrite L. cbn [bind]. eauto.
Qed.

(** *** The query functions *)

Section SPEC.
Variable reg : list cls.
Variable rt : list (string * Q).

(** Every query is the n quickest of a sublist of the registry. *)
Definition selects (P : cls -> Prop) (query : Z -> res (list cls)) : Prop :=
  exists l, sub l reg /\ (forall o, In o l <-> In o reg /\ P o) /\ forall n, query n = n_quickest rt l n.

Lemma all_selects : selects (fun _ => True) (get_all reg rt).
Proof.
  exists reg. split; [|split; [tauto|reflexivity]]. clear. induction reg; now constructor.
Qed.

Lemma proportion_selects : selects (fun o => In "proportion"%string (c_keys o)) (get_proportion reg rt).
Proof.
  exists (filter (fun o => has "proportion" (c_keys o)) reg).
  destruct (filter_spec (fun o => has "proportion" (c_keys o)) (fun o => In "proportion"%string (c_keys o)) reg) as [S I]; [intros; apply has_In|].
  split; [exact S|]. split; [exact I|reflexivity].
Qed.

Lemma metric_selects : selects (fun o => In "CD"%string (c_cats o)) (get_metric_learning reg rt).
Proof.
  exists (filter (fun o => has "CD" (c_cats o)) reg).
  destruct (filter_spec (fun o => has "CD" (c_cats o)) (fun o => In "CD"%string (c_cats o)) reg) as [S I]; [intros; apply has_In|].
  split; [exact S|]. split; [exact I|reflexivity].
Qed.

Lemma simplex_selects within exclude gauss dim :
  (forall o, In o reg -> In "ss_params"%string (c_sig o) -> c_ss o <> None) ->
  selects (simplex_ok within exclude gauss dim) (get_simplex reg rt within exclude gauss dim).
Proof.
  intros H. destruct (simplex_loop_total within exclude gauss dim reg H) as [l L]. exists l.
  destruct (simplex_loop_spec _ _ _ _ _ _ L) as [S I]. split; [exact S|]. split; [exact I|].
  intros n. unfold get_simplex. change (get_all reg rt (-1)) with (Ok reg). cbn [bind]. rewrite L. reflexivity.
Qed.

Lemma multiclass_selects strategy : In strategy ["eq_1_vs_many_successive"; "equalize_1_vs_many"]%string ->
  selects (fun o => ~ In "CM"%string (c_cats o) /\ ~ In "DR"%string (c_cats o) /\ In "proportion"%string (c_keys o))
          (get_multiclass reg rt strategy).
Proof.
  intros H. exists (filter multiclass_filter reg).
  destruct (filter_spec multiclass_filter
    (fun o => ~ In "CM"%string (c_cats o) /\ ~ In "DR"%string (c_cats o) /\ In "proportion"%string (c_keys o)) reg) as [S I].
  { intros o. unfold multiclass_filter. rewrite !andb_true_iff, !negb_true_iff, <- !not_true_iff_false, !has_In. tauto. }
  split; [exact S|]. split; [exact I|]. intros n. unfold get_multiclass. change (get_all reg rt (-1)) with (Ok reg). cbn [bind].
  apply has_In in H. now rewrite H.
Qed.

Lemma multiclass_unknown strategy n : ~ In strategy ["eq_1_vs_many_successive"; "equalize_1_vs_many"]%string ->
  get_multiclass reg rt strategy n = get_all reg rt n.
Proof.
  intros H. unfold get_multiclass, get_all. change (n_quickest rt reg (-1)) with (Ok reg). cbn [bind].
  destruct (has strategy _) eqn:E; [|reflexivity]. apply has_In in E. contradiction.
Qed.
End SPEC.

(** *** Parameter combinations *)

Section COMB.
Variables P D : Type.
Variable class_name : D -> option string.
Variable shuffle : nat -> list P -> list P.
Hypothesis shuffles : forall i l, Permutation (shuffle i l) l.

Lemma comb_spec i n_max classes : (0 <= n_max)%Z ->
  exists parts, comb_loop P D shuffle i n_max classes = concat parts /\
    Forall2 (fun c part => length part = Nat.min (Z.to_nat n_max) (length (fst c)) /\
                           exists rest, Permutation (part ++ rest) (map (snd c) (fst c))) classes parts.
Proof.
  intros N. revert i. induction classes as [|[combs rebuild] r IH]; intros i; cbn.
  - exists []. split; [reflexivity|constructor].
  - destruct (IH (S i)) as (parts & E & F). set (cs := shuffle i combs).
    pose proof (Permutation_length (shuffles i combs)) as Hl. fold cs in Hl.
    set (k := Z.min (Z.of_nat (length cs)) n_max).
    exists (map rebuild (slice_to k cs) :: parts). cbn. rewrite E. split; [reflexivity|]. constructor; [|assumption].
    unfold slice_to. destruct (Z.ltb_spec k 0); [lia|]. cbn. split.
    + rewrite map_length, firstn_length. lia.
    + exists (map rebuild (skipn (Z.to_nat k) cs)). rewrite <- map_app, firstn_skipn. apply Permutation_map, shuffles.
Qed.

Lemma tuples_spec l ts : tuples D class_name l = Ok ts <->
  Forall2 (fun d t => exists c, class_name d = Some c /\ t = ("smote_variants"%string, c, d)) l ts.
Proof.
  revert ts. induction l as [|d l IH]; intros ts; cbn.
  - split; [intros H; injection H as <-; constructor|]. intros H. now inversion H.
  - destruct (class_name d) as [c|] eqn:E.
    + destruct (tuples D class_name l) as [us|] eqn:T; cbn.
      * split.
        -- intros H. injection H as <-. constructor; [eauto|]. now apply IH.
        -- intros H. inversion H as [|? ? ? ? (c' & Ec & ->) F]; subst. apply IH in F. injection F as ->. rewrite E in Ec. now injection Ec as ->.
      * split; [discriminate|]. intros H. inversion H as [|? ? ? ? _ F]; subst. apply IH in F. discriminate.
    + split; [discriminate|]. intros H. inversion H as [|? ? ? ? (c' & Ec & ->) F]; subst. congruence.
Qed.

Lemma tuples_fail l d : In d l -> class_name d = None -> tuples D class_name l = Err KeyError.
Proof.
  induction l as [|x l IH]; intros H E; [destruct H|]. cbn. destruct H as [->|H].
  - now rewrite E.
  - destruct (class_name x); [|reflexivity]. now rewrite IH.
Qed.

(** One class without "class_name" among its parameters makes the call fail. *)
Lemma combinations_fail classes n_max combs rebuild : (0 < n_max)%Z -> In (combs, rebuild) classes -> combs <> [] ->
  (forall p, class_name (rebuild p) = None) ->
  combinations P D class_name shuffle classes n_max = Err KeyError.
Proof.
  intros N H Hc E. unfold combinations. generalize 0 as i.
  assert (K : forall i, exists d, In d (comb_loop P D shuffle i n_max classes) /\ class_name d = None).
  { induction classes as [|[cs rb] r IH]; [destruct H|]. intros i. cbn. destruct H as [H|H].
    - injection H as -> ->. pose proof (Permutation_length (shuffles i combs)) as Hl.
      destruct (shuffle i combs) as [|p ps] eqn:Es; [destruct combs; [congruence|discriminate]|].
      exists (rebuild p). split; [|apply E]. apply in_or_app. left. apply in_map. unfold slice_to.
      destruct (Z.ltb_spec (Z.min (Z.of_nat (length (p :: ps))) n_max) 0); [lia|].
      destruct (Z.to_nat (Z.min (Z.of_nat (length (p :: ps))) n_max)) eqn:Ek; [cbn in Ek; lia|]. now left.
    - destruct (IH H (S i)) as (d & Hd & Ed). exists d. split; [|assumption]. apply in_or_app. now right. }
  intros i. destruct (K i) as (d & Hd & Ed). eapply tuples_fail; eauto.
Qed.
End COMB.
