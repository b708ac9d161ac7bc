(** Proofs about the neurons of DSRBF. *)

From Coq Require Import List Reals Bool Arith Lia Lra.
From Verif Require Import Np ScoreModel ScoreFacts NeuronModel SpecNeuron.
Import ListNotations.
Open Scope nat_scope.

Lemma filter_none {A} (l : list A) (P : nat -> bool) s : (forall j, s <= j -> P j = true) -> map snd (filter (fun p => P (fst p)) (combine (seq s (length l)) l)) = l.
Proof.
  revert s. induction l as [|x l IH]; intros s H; [reflexivity|]. cbn [length seq combine filter fst]. rewrite (H s (le_n s)). cbn [map snd]. rewrite IH; [reflexivity|]. intros j Hj. apply H. lia.
Qed.
Lemma delete_one_from {A} (l : list A) i k (P : nat -> bool) : (forall j, P j = negb (j =? k + i)) ->
  map snd (filter (fun p => P (fst p)) (combine (seq k (length l)) l)) = firstn i l ++ skipn (S i) l.
Proof.
  revert i k. induction l as [|x l IH]; intros i k H; [now rewrite firstn_nil, skipn_nil|]. cbn [length seq combine filter fst].
  rewrite H. destruct i as [|i].
  - rewrite Nat.add_0_r in *. rewrite Nat.eqb_refl. cbn [negb firstn skipn app]. apply filter_none.
    intros j Hj. rewrite H. destruct (Nat.eqb_spec j k); [lia|reflexivity].
  - destruct (Nat.eqb_spec k (k + S i)); [lia|]. cbn [negb map snd firstn app]. rewrite (IH i (S k)); [reflexivity|].
    intros j. rewrite H. do 2 f_equal. lia.
Qed.
Lemma delete_one {A} (l : list A) i : delete_idx l [i] = firstn i l ++ skipn (S i) l.
Proof.
  unfold delete_idx. apply (delete_one_from l i 0 (fun j => negb (existsb (Nat.eqb j) [i]))). intros j. cbn. now rewrite orb_false_r.
Qed.

Lemma delete_length {A} (l : list A) i : i < length l -> length (delete_idx l [i]) = length l - 1.
Proof. intros H. rewrite delete_one, app_length, firstn_length, skipn_length. lia. Qed.

Lemma delete_Forall {A} (P : A -> Prop) l i : Forall P l -> Forall P (delete_idx l [i]).
Proof.
  intros F. rewrite delete_one. rewrite <- (firstn_skipn i l) in F. apply Forall_app in F as [F1 F2]. apply Forall_app. split; [assumption|].
  rewrite Forall_forall in F2 |- *. intros x Hx. apply F2. revert Hx. clear. revert i. induction l as [|y l IH]; intros [|i]; cbn; auto; try tauto.
Qed.

Definition sound (dim : nat) (n : neuron) : Prop :=
  length (n_center n) = dim /\ length (n_weights n) = length (n_mask n) /\ Forall (fun j => j < dim) (n_mask n) /\
  length (p_weights n) = length (p_mask n) /\ Forall (fun j => j < dim) (p_mask n) /\ p_beta n = None /\ p_input n = None.

Lemma free_column (mask : list nat) dim : length mask < dim -> filter (fun j => negb (existsb (Nat.eqb j) mask)) (seq 0 dim) <> [].
Proof.
  intros H E. assert (I : incl (seq 0 dim) mask).
  { intros j Hj. destruct (existsb (Nat.eqb j) mask) eqn:B.
    - apply existsb_exists in B as (a & Ha & Ea). apply Nat.eqb_eq in Ea. now subst.
    - assert (X : In j []) by (rewrite <- E; apply filter_In; split; [assumption|now rewrite B]). destruct X. }
  pose proof (NoDup_incl_length (seq_NoDup dim 0) I) as L. rewrite seq_length in L. lia.
Qed.

Lemma add_ok pick u n : pick_ok pick -> exists n', add_connection pick u n = Ok n' /\
  (n' = n \/ exists a, a < length (n_center n) /\ ~ In a (n_mask n) /\ n' = with_connections n (n_mask n ++ [a]) (n_weights n ++ [((u - 1 / 2) * p_i_b n)%R])).
Proof.
  intros Hp. unfold add_connection. cbv zeta. destruct (Nat.ltb_spec (length (n_mask n)) (length (n_center n))) as [H|H]; [|eauto].
  destruct (Hp _ (free_column _ _ H)) as (a & -> & Ha). cbn [bind]. eexists. split; [reflexivity|]. right. exists a.
  apply filter_In in Ha as [Ha Hb]. apply in_seq in Ha. split; [lia|]. split; [|reflexivity].
  intros I. apply negb_true_iff in Hb. rewrite <- not_true_iff_false in Hb. apply Hb. apply existsb_exists. exists a. split; [assumption|apply Nat.eqb_refl].
Qed.

Lemma made_sound dim n : made dim n -> sound dim n.
Proof.
  induction 1 as [n (c & ib & ob & im & iw & u1 & u2 & -> & L1 & L2 & F)|n u1 u2 _ (A & B & C & D & E & G & K)|n d _ (A & B & C & D & E & G & K) L1 L2|n c _ (A & B & C & D & E & G & K) L|n pick u n' _ (A & B & C & D & E & G & K) Hp Ea|n at_ _ (A & B & C & D & E & G & K) Ha].
  - unfold sound, new_neuron. cbn. auto 10.
  - unfold sound, n_clone, new_neuron. cbn. rewrite K. cbn. auto 10.
  - unfold mutate. repeat destruct (Rlt_dec _ _); unfold sound, with_center, with_radius, with_beta; cbn; auto 10.
  - unfold sound, with_center; cbn; auto 10.
  - destruct (add_ok pick u n Hp) as (n2 & E2 & [->|(a & La & _ & ->)]); rewrite Ea in E2; injection E2 as ->; [unfold sound; auto 10|].
    unfold sound, with_connections. cbn. rewrite !app_length. cbn. repeat split; auto; try lia. apply Forall_app. split; [assumption|]. constructor; [lia|constructor].
  - unfold delete_connection. destruct (Nat.ltb_spec 1 (length (n_mask n))) as [H|H]; [|unfold sound; auto 10]. cbv zeta. pose proof (Ha (length (n_mask n)) ltac:(lia)) as Hi.
    unfold sound, with_connections. cbn. repeat split; auto; try (rewrite !delete_length by lia; lia). now apply delete_Forall.
Qed.

Lemma gather_nth (x : rrow) idx : Forall (fun j => j < length x) idx -> gather x idx = Ok (map (fun j => nth j x 0%R) idx).
Proof.
  unfold gather. induction 1 as [|j idx H _ IH]; [reflexivity|]. cbn [mapM map]. unfold get at 1. rewrite (nth_error_nth' x 0%R H). cbn [bind]. now rewrite IH.
Qed.

Lemma evaluate_is dim n x : sound dim n -> length x = dim -> n_evaluate n x = Ok (response n x).
Proof.
  intros (A & B & C & _) L. unfold n_evaluate. rewrite !gather_nth by (rewrite ?A, ?L; assumption). cbn [bind]. rewrite map_length, B, Nat.eqb_refl. cbv zeta.
  do 2 f_equal. unfold response. f_equal. f_equal. f_equal. f_equal. rewrite len2_sqr. f_equal. revert B. generalize (n_weights n). clear. induction (n_mask n) as [|j l IH]; intros [|w ws] B; try discriminate; [reflexivity|].
  cbn [map map2]. rewrite IH by now injection B. reflexivity.
Qed.

Lemma response_bound n x : n_radius n <> 0%R -> (Rabs (response n x) <= Rabs (n_beta n))%R.
Proof.
  intros Hr. unfold response. rewrite Rabs_mult. set (t := tot _). assert (0 <= t)%R.
  { unfold t. clear. generalize (n_weights n). induction (n_mask n) as [|j l IH]; intros [|w ws]; cbn [map2]; rewrite ?tot_nil, ?tot_cons; try lra.
    specialize (IH ws). unfold sqr at 1. pose proof (Rle_0_sqr (nth j x 0 * w - nth j (n_center n) 0)%R) as Q. unfold Rsqr in Q. lra. }
  assert (0 < sqr (n_radius n))%R by (unfold sqr; nra).
  assert (X : (Rabs (exp (- t / sqr (n_radius n))) <= 1)%R).
  { rewrite Rabs_pos_eq by (left; apply exp_pos). rewrite <- exp_0. assert (- t / sqr (n_radius n) <= 0)%R.
    { unfold Rdiv. assert (0 < / sqr (n_radius n))%R by now apply Rinv_0_lt_compat. nra. }
    destruct (Rle_lt_or_eq_dec _ _ H1) as [L|E]; [left; now apply exp_increasing|rewrite E; lra]. }
  pose proof (Rabs_pos (n_beta n)). pose proof (Rabs_pos (exp (- t / sqr (n_radius n)))). nra.
Qed.

Lemma made_works dim n : made dim n ->
  length (n_weights n) = length (n_mask n) /\ Forall (fun j => j < dim) (n_mask n) /\
  (forall pick u, pick_ok pick -> exists n', add_connection pick u n = Ok n') /\
  (forall x, length x = dim -> n_evaluate n x = Ok (response n x)) /\
  (forall x, n_radius n <> 0%R -> (Rabs (response n x) <= Rabs (n_beta n))%R).
Proof.
  intros M. pose proof (made_sound dim n M) as S. destruct S as (A & B & C & D). split; [exact B|]. split; [exact C|]. split; [|split].
  - intros pick u Hp. destruct (add_ok pick u n Hp) as (n' & E & _). eauto.
  - intros x L. apply (evaluate_is dim); [unfold sound; auto|exact L].
  - intros x. apply response_bound.
Qed.

Lemma clone_is dim n u1 u2 : made dim n -> let c := n_clone n u1 u2 in
  n_center c = n_center n /\ n_radius c = n_radius n /\ n_mask c = p_mask n /\ n_weights c = p_weights n /\
  n_beta c = ((u1 - 1 / 2) * p_o_b n)%R /\ p_mask c = p_mask n /\ p_weights c = p_weights n.
Proof.
  intros M. destruct (made_sound dim n M) as (_ & _ & _ & _ & _ & G & K). unfold n_clone, new_neuron. cbn. rewrite G, K. cbn. auto 10.
Qed.

(** ** Networks *)

Lemma net_clone_in us net n : In n (net_clone us net) -> exists m u1 u2, In m net /\ n = n_clone m u1 u2.
Proof.
  intros H. apply in_map_iff in H as ((i & m) & <- & Hm). apply in_combine_r in Hm. eexists m, _, _. split; [exact Hm|reflexivity].
Qed.

Lemma update_in {A} (f : A -> res A) l i l' : update_at f l i = Ok l' -> exists x y, In x l /\ f x = Ok y /\ length l' = length l /\ forall z, In z l' -> z = y \/ In z l.
Proof.
  revert i l'. induction l as [|x l IH]; intros i l'; [discriminate|]. destruct i as [|i]; cbn [update_at].
  - destruct (f x) as [y|] eqn:E; [|discriminate]. cbn [bind]. intros H. injection H as <-. exists x, y. split; [now left|]. split; [assumption|]. split; [reflexivity|].
    intros z [<-|Hz]; [now left|right; now right].
  - destruct (update_at f l i) as [l2|] eqn:E; [|discriminate]. cbn [bind]. intros H. injection H as <-. destruct (IH i l2 E) as (a & b & Ha & Eb & L & Hz).
    exists a, b. split; [now right|]. split; [assumption|]. split; [cbn; congruence|]. intros z [<-|H]; [right; now left|]. destruct (Hz z H); [now left|right; now right].
Qed.

Lemma change_none im : one_change im im.
Proof. exists im, []. split; [now left|]. split; [cbn; lia|now rewrite app_nil_r]. Qed.

Definition mild (dim : nat) (n : neuron) : Prop := made dim n /\ one_change (p_mask n) (n_mask n).

Lemma clone_mild dim n u1 u2 : made dim n -> mild dim (n_clone n u1 u2) /\ n_mask (n_clone n u1 u2) = p_mask (n_clone n u1 u2).
Proof.
  intros M. destruct (clone_is dim n u1 u2 M) as (_ & _ & A & _ & _ & B & _). split; [split; [now constructor|rewrite A, B; apply change_none]|congruence].
Qed.

Lemma fresh_mild dim n : fresh dim n -> mild dim n.
Proof. intros F. split; [now constructor|]. destruct F as (c & ib & ob & im & iw & u1 & u2 & -> & _). apply change_none. Qed.

Lemma mutate_mask n d : n_mask (mutate n d) = n_mask n /\ p_mask (mutate n d) = p_mask n.
Proof. unfold mutate. repeat destruct (Rlt_dec _ _); cbn; auto. Qed.

Lemma delete_mask at_ n : at_ok at_ -> p_mask (delete_connection at_ n) = p_mask n /\
  (n_mask (delete_connection at_ n) = n_mask n \/ exists i, i < length (n_mask n) /\ n_mask (delete_connection at_ n) = firstn i (n_mask n) ++ skipn (S i) (n_mask n)).
Proof.
  intros Ha. unfold delete_connection. destruct (Nat.ltb_spec 1 (length (n_mask n))) as [H|H]; [|auto]. cbv zeta. cbn [p_mask n_mask with_connections].
  split; [reflexivity|]. right. eexists. split; [apply Ha; lia|]. apply delete_one.
Qed.

Lemma evolved_mild dim net : evolved dim net -> Forall (mild dim) net.
Proof.
  induction 1 as [net F|net net' l _ IH1 _ IH2 F|net us n _ IH Hn|net us ds _ IH Hd|net us i j at_ pick u net' _ IH Ha Hp E|net cs _ IH L F].
  - eapply Forall_impl; [apply fresh_mild|exact F].
  - rewrite Forall_forall in *. intros n Hn. destruct (F n Hn) as (m & u1 & u2 & Hm & ->). apply clone_mild. apply in_app_or in Hm as [Hm|Hm]; [now apply IH1|now apply IH2].
  - apply Forall_app. split; [|constructor; [now apply fresh_mild|constructor]]. rewrite Forall_forall in *. intros m Hm. destruct (net_clone_in _ _ _ Hm) as (k & u1 & u2 & Hk & ->). apply clone_mild. now apply IH.
  - rewrite Forall_forall in *. intros m Hm. apply in_map_iff in Hm as ((k & c) & <- & Hc). apply in_combine_r in Hc. cbn [fst snd].
    destruct (net_clone_in _ _ _ Hc) as (m & u1 & u2 & Hm & ->). destruct (IH m Hm) as [Mm _]. destruct (clone_mild dim m u1 u2 Mm) as [[Mc Oc] _].
    split; [apply made_mutate; [assumption|apply Hd|apply Hd]|]. destruct (mutate_mask (n_clone m u1 u2) (ds k)) as [-> ->]. exact Oc.
  - unfold net_connections in E. destruct (update_at _ (net_clone us net) i) as [l|] eqn:E1; [|discriminate]. cbn [bind] in E.
    destruct (update_in _ _ _ _ E1) as (x & y & Hx & Ey & _ & Hl). injection Ey as <-. destruct (update_in _ _ _ _ E) as (x2 & y2 & Hx2 & Ey2 & _ & Hl2).
    assert (Cl : forall c, In c (net_clone us net) -> mild dim c /\ n_mask c = p_mask c).
    { intros c Hc. destruct (net_clone_in _ _ _ Hc) as (m & u1 & u2 & Hm & ->). apply clone_mild. rewrite Forall_forall in IH. now apply IH. }
    assert (Md : forall c, In c l -> made dim c /\ exists base, (base = p_mask c \/ exists i, i < length (p_mask c) /\ base = firstn i (p_mask c) ++ skipn (S i) (p_mask c)) /\ n_mask c = base).
    { intros c Hc. destruct (Hl c Hc) as [->|Hc'].
      - destruct (Cl x Hx) as [[Mx _] Ex]. split; [now apply made_delete|]. destruct (delete_mask at_ x Ha) as [-> D]. rewrite Ex in D. eexists. split; [exact D|reflexivity].
      - destruct (Cl c Hc') as [[Mc _] Ec]. split; [assumption|]. exists (p_mask c). auto. }
    rewrite Forall_forall. intros z Hz. destruct (Hl2 z Hz) as [->|Hz'].
    + destruct (Md x2 Hx2) as (M2 & base & B & E2). split; [exact (made_add dim x2 pick u y2 M2 Hp Ey2)|].
      destruct (add_ok pick u x2 Hp) as (n' & En & O). rewrite Ey2 in En. injection En as <-. destruct O as [->|(a & _ & _ & ->)].
      * exists base, []. split; [exact B|]. split; [cbn; lia|]. now rewrite app_nil_r.
      * exists base, [a]. cbn [p_mask n_mask with_connections]. split; [exact B|]. split; [cbn; lia|]. now rewrite E2.
    + destruct (Md z Hz') as (M2 & base & B & E2). split; [assumption|]. exists base, []. split; [exact B|]. split; [cbn; lia|]. now rewrite app_nil_r.
  - revert cs L F. induction IH as [|n net [Mn On] _ IHn]; intros [|c cs] L F; try discriminate; cbn [map2]; [constructor|]. inversion F; subst.
    constructor; [|apply IHn; [now injection L|assumption]]. split; [now apply made_center|exact On].
Qed.

Lemma mutation_resets dim us ds net : evolved dim net -> Forall (fun n => n_mask n = p_mask n) (net_mutation us ds net).
Proof.
  intros E. pose proof (evolved_mild dim net E) as IH. rewrite Forall_forall in *. intros m Hm. apply in_map_iff in Hm as ((k & c) & <- & Hc). apply in_combine_r in Hc. cbn [fst snd].
  destruct (net_clone_in _ _ _ Hc) as (m & u1 & u2 & Hm & ->). destruct (mutate_mask (n_clone m u1 u2) (ds k)) as [-> ->]. apply (clone_mild dim), IH, Hm.
Qed.

(** ** A clone that is not identical *)

Definition plain : neuron := new_neuron [0; 0]%R 2 2 [0] [1]%R None None None None 1 (1 / 2).
Definition last_of (l : list nat) : res nat := match rev l with [] => Err ValueError | a :: _ => Ok a end.
Lemma last_of_ok : pick_ok last_of.
Proof.
  intros l H. unfold last_of. destruct (rev l) as [|a r] eqn:E; [|exists a; split; [reflexivity|]; apply in_rev; rewrite E; now left].
  exfalso. apply H. rewrite <- (rev_involutive l), E. reflexivity.
Qed.
Lemma plain_fresh : fresh 2 plain.
Proof. exists [0; 0]%R, 2%R, 2%R, [0], [1]%R, 1%R, (1 / 2)%R. repeat split; repeat constructor. Qed.
Definition wider : neuron := with_connections plain [0; 1] [1; (1 - 1 / 2) * 2]%R.
Lemma wider_is : add_connection last_of 1 plain = Ok wider.
Proof. reflexivity. Qed.
Lemma wider_made : made 2 wider.
Proof. exact (made_add 2 plain last_of 1 wider (made_new 2 plain plain_fresh) last_of_ok wider_is). Qed.

Lemma clone_differs : n_evaluate (n_clone wider 1 (1 / 2)) [0; 1]%R <> n_evaluate wider [0; 1]%R.
Proof.
  rewrite (evaluate_is 2 wider) by (try reflexivity; apply made_sound, wider_made).
  rewrite (evaluate_is 2 (n_clone wider 1 (1 / 2))) by (try reflexivity; apply made_sound, made_clone, wider_made).
  unfold response, wider, plain, n_clone, with_connections, new_neuron. cbn [n_beta n_mask n_weights n_center n_radius p_mask p_weights p_beta p_input p_o_b p_i_b coalesce map2 nth].
  rewrite !tot_cons, !tot_nil. intros E. injection E as E.
  replace (- (sqr (0 * 1 - 0) + 0) / sqr (1 / 2))%R with 0%R in E by (unfold sqr, Rdiv; ring). rewrite exp_0 in E.
  replace (- (sqr (0 * 1 - 0) + (sqr (1 * ((1 - 1 / 2) * 2) - 0) + 0)) / sqr (1 / 2))%R with (- (4))%R in E by (unfold sqr; field).
  assert (exp (- (4)) < exp 0)%R by (apply exp_increasing; lra). rewrite exp_0 in H. nra.
Qed.

Lemma add_is pick u n : pick_ok pick -> exists n', add_connection pick u n = Ok n' /\
  (n' = n /\ length (n_center n) <= length (n_mask n) \/ exists a, a < length (n_center n) /\ ~ In a (n_mask n) /\
    n' = mk_neuron (n_center n) (n_beta n) (n_mask n ++ [a]) (n_weights n ++ [((u - 1 / 2) * p_i_b n)%R]) (n_radius n)
           (p_i_b n) (p_o_b n) (p_mask n) (p_weights n) (p_beta n) (p_input n)).
Proof.
  intros Hp. destruct (Nat.lt_ge_cases (length (n_mask n)) (length (n_center n))) as [H|H].
  - destruct (add_ok pick u n Hp) as (n' & E & [->|O]); [|eauto].
    exfalso. unfold add_connection in E. cbv zeta in E. destruct (Nat.ltb_spec (length (n_mask n)) (length (n_center n))); [|lia].
    destruct (Hp _ (free_column _ _ H)) as (a & Ea & _). rewrite Ea in E. cbn [bind] in E. injection E as E. apply (f_equal (fun k => length (n_mask k))) in E.
    cbn in E. rewrite app_length in E. cbn in E. lia.
  - exists n. split; [|auto]. unfold add_connection. destruct (Nat.ltb_spec (length (n_mask n)) (length (n_center n))); [lia|reflexivity].
Qed.

Lemma delete_is at_ n : at_ok at_ -> let n' := delete_connection at_ n in
  n' = n /\ length (n_mask n) <= 1 \/ 1 < length (n_mask n) /\ exists i, i < length (n_mask n) /\
    n_mask n' = firstn i (n_mask n) ++ skipn (S i) (n_mask n) /\ n_weights n' = firstn i (n_weights n) ++ skipn (S i) (n_weights n) /\
    n_center n' = n_center n /\ n_beta n' = n_beta n /\ n_radius n' = n_radius n.
Proof.
  intros Ha. cbv zeta. unfold delete_connection. destruct (Nat.ltb_spec 1 (length (n_mask n))) as [H|H]; [|auto]. right. split; [assumption|].
  exists (at_ (length (n_mask n))). split; [apply Ha; lia|]. cbv zeta. cbn [n_mask n_weights n_center n_beta n_radius with_connections]. rewrite !delete_one. auto 10.
Qed.

Lemma mutate_is n d : let n' := mutate n d in
  let r := d_rand d in
  n_mask n' = n_mask n /\ n_weights n' = n_weights n /\
  n_center n' = (if Rlt_dec r (1 / 5) then d_center d else if Rle_dec (2 / 5) r then if Rlt_dec r (3 / 5) then d_new_center d else n_center n else n_center n) /\
  (n_beta n' = n_beta n \/ (4 / 5 <= r)%R /\ n_beta n' = d_beta d) /\ ((4 / 5 <= r)%R -> n_beta n' = d_beta d) /\
  (n_radius n' <> n_radius n -> (1 / 5 <= r < 2 / 5)%R /\ n_radius n' = d_radius d /\ (0 < d_radius d)%R \/ (3 / 5 <= r < 4 / 5)%R /\ n_radius n' = d_new_radius d) /\
  ((1 / 5 <= r < 2 / 5)%R -> (0 < d_radius d)%R -> n_radius n' = d_radius d) /\ ((3 / 5 <= r < 4 / 5)%R -> n_radius n' = d_new_radius d) /\
  ((0 < n_radius n)%R -> (0 < d_new_radius d)%R -> (0 < n_radius n')%R).
Proof.
  cbv zeta. unfold mutate. repeat (destruct (Rlt_dec _ _) || destruct (Rle_dec _ _)); cbn; repeat split; intros; auto; try lra; try tauto; try (right; split; [lra|reflexivity]); try (left; split; [lra|split; [reflexivity|assumption]]).
Qed.

Lemma evolved_structure dim net : evolved dim net -> Forall (fun n => one_change (p_mask n) (n_mask n)) net.
Proof. intros E. eapply Forall_impl; [|exact (evolved_mild dim net E)]. intros n [_ H]. exact H. Qed.

Lemma identical_refuted : ~ (forall dim n u1 u2 x, made dim n -> length x = dim -> n_beta (n_clone n u1 u2) = n_beta n ->
  n_evaluate (n_clone n u1 u2) x = n_evaluate n x).
Proof. intros H. apply clone_differs. exact (H 2 wider 1%R (1 / 2)%R [0; 1]%R wider_made eq_refl eq_refl). Qed.

Lemma radius_not_0 : n_radius wider <> 0%R.
Proof. cbn. lra. Qed.

Lemma evolved_case : exists net, evolved 2 net /\ exists n, In n net /\ n_mask n <> p_mask n.
Proof.
  exists [with_connections (n_clone plain 1 (1 / 2)) [0; 1] [1; (1 - 1 / 2) * 2]%R]. split.
  - apply (ev_connections 2 [plain] (fun _ => (1, 1 / 2)%R) 0 0 (fun l => l - 1) last_of 1).
    + apply ev_start. constructor; [exact plain_fresh|constructor].
    + intros l H. lia.
    + exact last_of_ok.
    + reflexivity.
  - eexists. split; [now left|]. discriminate.
Qed.
