(** Facts about the Bellman-Ford algorithm of GraphModel.v. *)

From Coq Require Import List ZArith QArith Qabs Qminmax Bool Arith Lia Lqa.
From Verif Require Import Np PyVal NpFacts BaseFacts SimplexModel Spec SpecNoise SpecComp SpecNear OversGen CompFacts ClusterFacts DirModel SpecDir SearchModel GraphModel SpecGraph.
Import ListNotations.
Open Scope nat_scope.

Lemma set_at_len {A} i (v : A) l : length (set_at i v l) = length l.
Proof. revert i; induction l as [|a l IH]; intros [|i]; cbn; auto. Qed.
Lemma set_at_same {A} i (v : A) l d : i < length l -> nth i (set_at i v l) d = v.
Proof. revert i; induction l as [|a l IH]; intros [|i] H; cbn in *; [lia|lia|reflexivity|apply IH; lia]. Qed.
Lemma set_at_other {A} i j (v : A) l d : i <> j -> nth j (set_at i v l) d = nth j l d.
Proof. revert i j; induction l as [|a l IH]; intros [|i] [|j] H; cbn; auto; try lia. Qed.

Lemma Qlt_b_iff' a b : Qlt_b a b = true <-> (a < b)%Q.
Proof.
  unfold Qlt_b. rewrite negb_true_iff. split; intros H.
  - apply Qnot_le_lt. intros G. apply Qle_bool_iff in G. congruence.
  - destruct (Qle_bool b a) eqn:E; [|reflexivity]. apply Qle_bool_iff in E. Lqa.lra.
Qed.

(** ** Walks *)

Section Graph.
Variables (g : graph) (s : nat).
Hypothesis Hg : graph_ok g.
Hypothesis Hs : s < length g.

Lemma edges_in u v w : In (u, (v, w)) (edges g) <-> edge g u v w.
Proof.
  unfold edges, edge. rewrite in_flat_map. split.
  - intros ([u' a] & H1 & H2). cbn in H2. apply in_map_iff in H2. destruct H2 as ([v' w'] & E & H2). injection E as -> -> ->.
    apply (In_nth _ _ (0, [])) in H1. rewrite combine_length, seq_length, Nat.min_id in H1. destruct H1 as (i & Hi & E).
    rewrite combine_nth in E by apply seq_length. rewrite seq_nth in E by assumption. injection E as E1 E2. cbn in E1. subst i. now rewrite E2.
  - intros H. assert (Hu : u < length g).
    { destruct (le_lt_dec (length g) u); [|assumption]. rewrite nth_overflow in H by assumption. destruct H. }
    exists (u, nth u g []). split.
    + replace (u, nth u g []) with (nth u (combine (seq 0 (length g)) g) (0, [])).
      * apply nth_In. rewrite combine_length, seq_length. lia.
      * rewrite combine_nth by apply seq_length. now rewrite seq_nth.
    + cbn. apply in_map_iff. exists (v, w). auto.
Qed.

Lemma walk_bound v l L : walk g s v l L -> Forall (fun i => i < length g) l /\ v < length g /\ (0 <= L)%Q /\ In v l.
Proof.
  induction 1 as [|u v w l L W (I1 & I2 & I3 & I4) E].
  - repeat split; auto; [Lqa.lra|now left].
  - destruct (Hg _ _ _ E) as (_ & Hv & Hw). repeat split; auto; [Lqa.lra|now left].
Qed.

(** The part of a walk up to a node on it. *)
Lemma walk_cut v l L x : walk g s v l L -> In x l ->
  exists l' L', walk g s x l' L' /\ (L' <= L)%Q /\ (NoDup l -> NoDup l').
Proof.
  induction 1 as [|u v w l L W IH E]; intros Hx.
  - destruct Hx as [->|[]]. exists [x], 0%Q. repeat split; [constructor|Lqa.lra|auto].
  - destruct (Nat.eq_dec v x) as [->|Hne].
    + exists (x :: l), (L + w)%Q. repeat split; [econstructor; eauto|Lqa.lra|auto].
    + destruct Hx as [Hx|Hx]; [congruence|]. destruct (IH Hx) as (l' & L' & W' & Hle & Hnd).
      destruct (Hg _ _ _ E) as (_ & _ & Hw).
      exists l', L'. repeat split; [assumption|Lqa.lra|]. intros H. apply Hnd. now inversion H.
Qed.

(** Every walk is at least as long as one that visits no node twice. *)
Lemma walk_simple v l L : walk g s v l L -> exists l' L', walk g s v l' L' /\ (L' <= L)%Q /\ NoDup l'.
Proof.
  induction 1 as [|u v w l L W (l' & L' & W' & Hle & Hnd) E].
  - exists [s], 0%Q. repeat split; [constructor|Lqa.lra|]. constructor; [intros []|constructor].
  - destruct (in_dec Nat.eq_dec v l') as [Hin|Hin].
    + destruct (walk_cut _ _ _ _ W' Hin) as (l2 & L2 & W2 & Hle2 & Hnd2). destruct (Hg _ _ _ E) as (_ & _ & Hw).
      exists l2, L2. repeat split; auto. Lqa.lra.
    + exists (v :: l'), (L' + w)%Q. repeat split; [econstructor; eauto|Lqa.lra|now constructor].
Qed.

Lemma simple_short v l L : walk g s v l L -> NoDup l -> length l <= length g.
Proof.
  intros W Hnd. destruct (walk_bound _ _ _ W) as (Hb & _). rewrite <- (seq_length (length g) 0).
  apply NoDup_incl_length; [assumption|]. intros i Hi. rewrite Forall_forall in Hb. apply in_seq. specialize (Hb i Hi). lia.
Qed.

(** ** The state of the algorithm *)

Definition dist_of (st : distances * parents) v := nth v (fst st) None.
Definition path_of (st : distances * parents) v := nth v (snd st) None.

(** [rooted st v c]: following the parents from [v] visits [c] and ends in [s]. *)
Inductive rooted (st : distances * parents) : nat -> list nat -> Prop :=
| rooted_here : path_of st s = None -> rooted st s [s]
| rooted_step v u c : path_of st v = Some u -> rooted st u c -> rooted st v (v :: c).

Record inv (st : distances * parents) : Prop := {
  i_len1 : length (fst st) = length g;
  i_len2 : length (snd st) = length g;
  i_src : dist_of st s = Some 0%Q;
  i_srcp : path_of st s = None;
  i_walk : forall v d, dist_of st v = Some d -> exists l, walk g s v l d;
  i_none : forall v, dist_of st v = None -> path_of st v = None;
  i_par : forall v u, path_of st v = Some u -> exists w du dv, edge g u v w /\ dist_of st u = Some du /\ dist_of st v = Some dv /\ (du + w <= dv)%Q;
  i_root : forall v d, dist_of st v = Some d -> exists c, rooted st v c }.

Lemma rooted_le st : inv st -> forall v c, rooted st v c -> forall x, In x c ->
  forall dv, dist_of st v = Some dv -> exists dx, dist_of st x = Some dx /\ (dx <= dv)%Q.
Proof.
  intros I v c R. induction R as [|v u c Hp R IH]; intros x Hx dv Hd.
  - destruct Hx as [<-|[]]. exists dv. split; [assumption|Lqa.lra].
  - destruct Hx as [<-|Hx]; [exists dv; split; [assumption|Lqa.lra]|].
    destruct (i_par _ I _ _ Hp) as (w & du & dv' & E & H1 & H2 & H3). destruct (IH x Hx du H1) as (dx & Hdx & Hle).
    destruct (Hg _ _ _ E) as (_ & _ & Hw). exists dx. split; [assumption|]. rewrite Hd in H2. injection H2 as <-. Lqa.lra.
Qed.

(** Changing the parent of [v] does not touch chains without [v]. *)
Lemma rooted_frame st st' v : (forall x, x <> v -> path_of st' x = path_of st x) ->
  forall x c, rooted st x c -> ~ In v c -> rooted st' x c.
Proof.
  intros Hf x c R. induction R as [Hp|x u c Hp R IH]; intros Hn.
  - constructor. rewrite Hf; [assumption|]. intros ->. apply Hn. now left.
  - apply (rooted_step _ _ u).
    + rewrite Hf; [assumption|]. intros ->. apply Hn. now left.
    + apply IH. intros H. apply Hn. now right.
Qed.

Lemma rooted_redirect st st' v c' : (forall x, x <> v -> path_of st' x = path_of st x) -> rooted st' v c' ->
  forall x c, rooted st x c -> exists c2, rooted st' x c2.
Proof.
  intros Hf Rv x c R. induction R as [Hp|x u c Hp R [c2 IH]].
  - destruct (Nat.eq_dec s v) as [E|Hne]; [rewrite E; eauto|]. exists [s]. constructor. now rewrite Hf.
  - destruct (Nat.eq_dec x v) as [->|Hne]; [eauto|]. exists (x :: c2). apply (rooted_step _ _ u); [now rewrite Hf|assumption].
Qed.

Lemma inv_init : inv (initialize g s).
Proof.
  assert (D : forall v, v <> s -> dist_of (initialize g s) v = None).
  { intros v Hv. unfold dist_of, initialize. cbn [fst]. rewrite set_at_other by congruence. apply nth_repeat. }
  assert (P : forall v, path_of (initialize g s) v = None).
  { intros v. unfold path_of, initialize. cbn [snd]. apply nth_repeat. }
  assert (D0 : dist_of (initialize g s) s = Some 0%Q).
  { unfold dist_of, initialize. cbn [fst]. apply set_at_same. now rewrite repeat_length. }
  split; auto.
  - cbn. now rewrite set_at_len, repeat_length.
  - cbn. now rewrite repeat_length.
  - intros v d H. destruct (Nat.eq_dec v s) as [->|Hne]; [|rewrite D in H by assumption; discriminate].
    rewrite D0 in H. injection H as <-. exists [s]. constructor.
  - intros v u H. rewrite P in H. discriminate.
  - intros v d H. destruct (Nat.eq_dec v s) as [->|Hne]; [|rewrite D in H by assumption; discriminate].
    exists [s]. now constructor.
Qed.

(** What one relaxation does to the distances: they never grow, and the edge is satisfied. *)
Definition no_more (a b : option Q) : Prop := forall d, b = Some d -> exists d', a = Some d' /\ (d' <= d)%Q.

Lemma longer_spec dv du w : longer dv du w = true <->
  exists a, du = Some a /\ match dv with None => True | Some b => (a + w < b)%Q end.
Proof.
  destruct du as [a|], dv as [b|]; cbn; rewrite ?Qlt_b_iff'; split; intros H; try discriminate; eauto;
    destruct H as (x & E & K); try discriminate; now injection E as <-.
Qed.

Lemma relax_step st u v w : inv st -> edge g u v w ->
  inv (relax st (u, (v, w))) /\ (forall x, no_more (dist_of (relax st (u, (v, w))) x) (dist_of st x)) /\
  (forall du, dist_of st u = Some du -> exists dv, dist_of (relax st (u, (v, w))) v = Some dv /\ (dv <= du + w)%Q).
Proof.
  intros I E. destruct (Hg _ _ _ E) as (Hu & Hv & Hw). unfold relax. fold (dist_of st v). fold (dist_of st u).
  destruct (longer (dist_of st v) (dist_of st u) w) eqn:B.
  2: { split; [assumption|]. split.
    - intros x d H. exists d. split; [assumption|Lqa.lra].
    - intros du Hdu. rewrite Hdu in B. destruct (dist_of st v) as [dv|] eqn:Hdv; cbn in B; [|discriminate].
      exists dv. split; [reflexivity|]. apply Qnot_lt_le. intros G. apply Qlt_b_iff' in G. congruence. }
  apply longer_spec in B. destruct B as (a & Ha & Hb). rewrite Ha. cbn [option_map].
  set (st' := (set_at v (Some (a + w)%Q) (fst st), set_at v (Some u) (snd st))).
  assert (L1 : v < length (fst st)) by (rewrite (i_len1 _ I); assumption).
  assert (L2 : v < length (snd st)) by (rewrite (i_len2 _ I); assumption).
  assert (Dv : dist_of st' v = Some (a + w)%Q) by (unfold dist_of, st'; cbn [fst]; now apply set_at_same).
  assert (Dx : forall x, x <> v -> dist_of st' x = dist_of st x) by (intros x Hx; unfold dist_of, st'; cbn [fst]; apply set_at_other; congruence).
  assert (Pv : path_of st' v = Some u) by (unfold path_of, st'; cbn [snd]; now apply set_at_same).
  assert (Px : forall x, x <> v -> path_of st' x = path_of st x) by (intros x Hx; unfold path_of, st'; cbn [snd]; apply set_at_other; congruence).
  destruct (i_walk _ I u a Ha) as (lu & Wu). destruct (walk_bound _ _ _ Wu) as (_ & _ & Ha0 & _).
  assert (Hvs : v <> s). { intros ->. rewrite (i_src _ I) in Hb. Lqa.lra. }
  destruct (i_root _ I u a Ha) as (cu & Ru).
  assert (Hnot : ~ In v cu).
  { intros Hin. destruct (rooted_le _ I _ _ Ru v Hin a Ha) as (dx & Hdx & Hle). rewrite Hdx in Hb. Lqa.lra. }
  assert (Huv : u <> v). { intros ->. rewrite Ha in Hb. Lqa.lra. }
  assert (Ru' : rooted st' u cu) by (apply (rooted_frame st st' v); assumption).
  assert (Rv' : rooted st' v (v :: cu)) by (apply (rooted_step _ _ u); assumption).
  assert (Hmono : forall x, no_more (dist_of st' x) (dist_of st x)).
  { intros x d H. destruct (Nat.eq_dec x v) as [->|Hne].
    - rewrite H in Hb. exists (a + w)%Q. split; [assumption|Lqa.lra].
    - rewrite Dx by assumption. exists d. split; [assumption|Lqa.lra]. }
  split; [|split; [assumption|]].
  2: { intros du H. injection H as <-. exists (a + w)%Q. split; [assumption|Lqa.lra]. }
  split.
  - unfold st'. cbn [fst]. rewrite set_at_len. apply (i_len1 _ I).
  - unfold st'. cbn [snd]. rewrite set_at_len. apply (i_len2 _ I).
  - rewrite Dx by congruence. apply (i_src _ I).
  - rewrite Px by congruence. apply (i_srcp _ I).
  - intros x d H. destruct (Nat.eq_dec x v) as [->|Hne].
    + rewrite Dv in H. injection H as <-. exists (v :: lu). econstructor; eauto.
    + rewrite Dx in H by assumption. now apply (i_walk _ I).
  - intros x H. destruct (Nat.eq_dec x v) as [->|Hne]; [congruence|].
    rewrite Dx in H by assumption. rewrite Px by assumption. now apply (i_none _ I).
  - intros x y H. destruct (Nat.eq_dec x v) as [->|Hne].
    + rewrite Pv in H. injection H as <-. exists w, a, (a + w)%Q. rewrite Dx by assumption. repeat split; auto. Lqa.lra.
    + rewrite Px in H by assumption. destruct (i_par _ I _ _ H) as (w' & du & dv & E' & H1 & H2 & H3).
      destruct (Hmono y du H1) as (du' & H1' & Hle). exists w', du', dv. rewrite (Dx x) by assumption. repeat split; auto. Lqa.lra.
  - intros x d H. destruct (Nat.eq_dec x v) as [->|Hne]; [eauto|].
    rewrite Dx in H by assumption. destruct (i_root _ I x d H) as (c & R). eapply rooted_redirect; eauto.
Qed.

Lemma no_more_trans a b c : no_more a b -> no_more b c -> no_more a c.
Proof. intros H1 H2 d H. destruct (H2 d H) as (d' & E & Hle). destruct (H1 d' E) as (d2 & E2 & Hle2). exists d2. split; [assumption|Lqa.lra]. Qed.
Lemma no_more_refl a : no_more a a.
Proof. intros d H. exists d. split; [assumption|Lqa.lra]. Qed.

(** One round relaxes every edge. *)
Lemma round_step es st : inv st -> (forall u v w, In (u, (v, w)) es -> edge g u v w) ->
  inv (fold_left relax es st) /\ (forall x, no_more (dist_of (fold_left relax es st) x) (dist_of st x)) /\
  (forall u v w, In (u, (v, w)) es -> forall du, dist_of st u = Some du ->
     exists dv, dist_of (fold_left relax es st) v = Some dv /\ (dv <= du + w)%Q).
Proof.
  revert st; induction es as [|[u [v w]] es IH]; intros st I He; cbn [fold_left].
  - split; [assumption|]. split; [intros x; apply no_more_refl|]. intros u v w [].
  - destruct (relax_step st u v w I) as (I' & M & S); [apply He; now left|].
    destruct (IH (relax st (u, (v, w))) I') as (I2 & M2 & S2); [intros; apply He; now right|].
    split; [assumption|]. split; [intros x; eapply no_more_trans; eauto|].
    intros u' v' w' [E|Hin] du Hdu.
    + injection E as -> -> ->. destruct (S du Hdu) as (dv & Hdv & Hle). destruct (M2 v' dv Hdv) as (d2 & Hd2 & Hle2).
      exists d2. split; [assumption|Lqa.lra].
    + destruct (M u' du Hdu) as (du' & Hdu' & Hle). destruct (S2 u' v' w' Hin du' Hdu') as (dv & Hdv & Hle2).
      exists dv. split; [assumption|Lqa.lra].
Qed.

(** After [k] rounds no walk of at most [k] edges is shorter. *)
Lemma rounds k : forall a, let st := fold_left (fun st (_ : nat) => fold_left relax (edges g) st) (seq a k) (initialize g s) in
  inv st /\ forall v l L, walk g s v l L -> length l <= S k -> exists d, dist_of st v = Some d /\ (d <= L)%Q.
Proof.
  induction k as [|k IH]; intros a.
  - cbn [seq fold_left]. cbv zeta. split; [apply inv_init|]. intros v l L W Hl. destruct W as [|u v w l L W E].
    + exists 0%Q. split; [apply (i_src _ inv_init)|Lqa.lra].
    + destruct W; cbn in Hl; lia.
  - rewrite seq_S, fold_left_app. cbn [fold_left]. cbv zeta. destruct (IH a) as (I & H). cbv zeta in I, H.
    set (st := fold_left (fun st (_ : nat) => fold_left relax (edges g) st) (seq a k) (initialize g s)) in *.
    destruct (round_step (edges g) st I) as (I' & M & S1); [intros; now apply edges_in|]. split; [assumption|].
    intros v l L W Hl. destruct W as [|u v w l L W E].
    + exists 0%Q. split; [apply (i_src _ I')|Lqa.lra].
    + cbn in Hl. destruct (H u l L W) as (du & Hdu & Hle); [lia|].
      destruct (S1 u v w) with (du := du) as (dv & Hdv & Hle2); [now apply edges_in|assumption|].
      exists dv. split; [assumption|Lqa.lra].
Qed.

Lemma rooted_head st v c : rooted st v c -> hd_error c = Some v /\ last c v = s.
Proof.
  induction 1 as [|v u c Hp R [IH1 IH2]]; [auto|]. split; [reflexivity|].
  destruct c as [|x c]; [discriminate|]. cbn [last] in *. injection IH1 as ->.
  destruct c; [assumption|]. rewrite <- IH2. clear. revert n. induction c as [|y c IH]; intros n; [reflexivity|]. apply (IH y).
Qed.

Lemma rooted_det st v c : rooted st v c -> forall c', rooted st v c' -> c = c'.
Proof.
  induction 1 as [Hp|v u c Hp R IH]; intros c' R'; inversion R' as [Hp'|v' u' c2 Hp' R2]; subst; try congruence.
  rewrite Hp in Hp'. injection Hp' as <-. f_equal. now apply IH.
Qed.

Lemma rooted_in st v c x : rooted st v c -> In x c -> exists c', rooted st x c' /\ length c' <= length c.
Proof.
  induction 1 as [Hp|v u c Hp R IH]; intros Hx.
  - destruct Hx as [<-|[]]. exists [s]. split; [now constructor|apply le_n].
  - destruct Hx as [<-|Hx]; [exists (v :: c); split; [econstructor; eauto|apply le_n]|].
    destruct (IH Hx) as (c' & R' & Hl). exists c'. split; [assumption|]. cbn. lia.
Qed.

Lemma rooted_nodup st v c : rooted st v c -> NoDup c.
Proof.
  induction 1 as [Hp|v u c Hp R IH]; [constructor; [intros []|constructor]|].
  constructor; [|assumption]. intros Hin. destruct (rooted_in _ _ _ _ R Hin) as (c' & R' & Hl).
  assert (E : v :: c = c') by (apply (rooted_det st v); [econstructor; eauto|assumption]). subst c'. cbn in Hl. lia.
Qed.

Lemma rooted_bound st v c : inv st -> rooted st v c -> v < length g -> Forall (fun i => i < length g) c.
Proof.
  intros I. induction 1 as [Hp|v u c Hp R IH]; intros Hv; constructor; auto.
  apply IH. destruct (i_par _ I _ _ Hp) as (w & du & dv & E & _). now destruct (Hg _ _ _ E).
Qed.

Lemma follow_rooted st v c : inv st -> rooted st v c -> v < length g -> forall fuel, length c <= S fuel -> follow fuel (snd st) v = Ok c.
Proof.
  intros I. induction 1 as [Hp|v u c Hp R IH]; intros Hv fuel Hl.
  - destruct fuel; cbn [follow]; rewrite (get_nth None) by (rewrite (i_len2 _ I); assumption); cbn [bind];
      fold (path_of st s); rewrite Hp; reflexivity.
  - assert (Hc : 0 < length c) by (destruct R; cbn; lia). cbn [length] in Hl. destruct fuel as [|fuel]; [lia|].
    cbn [follow]. rewrite (get_nth None) by (rewrite (i_len2 _ I); assumption). cbn [bind].
    fold (path_of st v). rewrite Hp. rewrite IH; [reflexivity| |lia].
    destruct (i_par _ I _ _ Hp) as (w & du & dv & E & _). now destruct (Hg _ _ _ E).
Qed.

Theorem bellman_ford_ok : exists distance path, bellman_ford g s = Ok (distance, path) /\ bellman_ford_spec g s distance path.
Proof.
  destruct (rounds (length g - 1) 0) as (I & H). cbv zeta in I, H.
  set (st := fold_left (fun st (_ : nat) => fold_left relax (edges g) st) (seq 0 (length g - 1)) (initialize g s)) in *.
  assert (Hbest : forall v l L, walk g s v l L -> exists d, dist_of st v = Some d /\ (d <= L)%Q).
  { intros v l L W. destruct (walk_simple _ _ _ W) as (l' & L' & W' & Hle & Hnd).
    pose proof (simple_short _ _ _ W' Hnd). destruct (H _ _ _ W') as (d & Hd & Hle'); [lia|].
    exists d. split; [assumption|Lqa.lra]. }
  assert (Hshort : forall v d, dist_of st v = Some d -> shortest g s v d).
  { intros v d Hd. split.
    - destruct (i_walk _ I v d Hd) as (l & W). exists l, d. split; [assumption|Lqa.lra].
    - intros l L W. destruct (Hbest v l L W) as (d' & Hd' & Hle). rewrite Hd in Hd'. now injection Hd' as ->. }
  exists (fst st), (snd st). split.
  - unfold bellman_ford. fold st. destruct (forallb _ (edges g)) eqn:B; [now rewrite <- surjective_pairing|]. exfalso.
    apply not_true_iff_false in B. apply B. rewrite forallb_forall. intros [u [v w]] Hin. rewrite negb_true_iff.
    apply not_true_iff_false. intros G. apply longer_spec in G. destruct G as (a & Ha & Hb). fold (dist_of st u) in Ha. fold (dist_of st v) in Hb.
    apply edges_in in Hin. destruct (i_walk _ I u a Ha) as (l & W).
    destruct (Hbest v (v :: l) (a + w)%Q) as (d & Hd & Hle); [econstructor; eauto|]. rewrite Hd in Hb. Lqa.lra.
  - split; [apply (i_len1 _ I)|]. split; [apply (i_len2 _ I)|]. intros v Hv. fold (dist_of st v). fold (path_of st v).
    assert (Hnone : dist_of st v = None -> ~ reachable g s v).
    { intros Hd (l & L & W). destruct (Hbest v l L W) as (d & Hd' & _). congruence. }
    split; [destruct (dist_of st v) as [d|] eqn:Hd; auto|]. split.
    + destruct (path_of st v) as [u|] eqn:Hp.
      * split; [intros ->; rewrite (i_srcp _ I) in Hp; discriminate|].
        destruct (i_par _ I _ _ Hp) as (w & du & dv & E & H1 & H2 & H3). exists w, du.
        split; [assumption|]. split; [now apply Hshort|]. destruct (Hshort v dv H2) as ((l & L & W & HL) & Hall).
        destruct (i_walk _ I u du H1) as (lu & Wu). split.
        -- exists (v :: lu), (du + w)%Q. split; [econstructor; eauto|Lqa.lra].
        -- intros l' L' W'. specialize (Hall _ _ W'). Lqa.lra.
      * destruct (dist_of st v) as [d|] eqn:Hd; [|right; now apply Hnone].
        left. destruct (i_root _ I v d Hd) as (c & R). inversion R; subst; [reflexivity|congruence].
    + destruct (dist_of st v) as [d|] eqn:Hd.
      * destruct (i_root _ I v d Hd) as (c & R). exists c. destruct (rooted_head _ _ _ R) as (E1 & E2).
        pose proof (rooted_nodup _ _ _ R) as Hnd. split.
        -- apply follow_rooted; auto.
           pose proof (rooted_bound _ _ _ I R Hv) as Hb. rewrite Forall_forall in Hb.
           assert (length c <= length g); [|lia]. rewrite <- (seq_length (length g) 0).
           apply NoDup_incl_length; [assumption|]. intros i Hi. apply in_seq. specialize (Hb i Hi). lia.
        -- repeat split; auto. intros Hn. exfalso. apply Hn. destruct (i_walk _ I v d Hd) as (l & W). exists l, d. exact W.
      * exists [v]. split.
        -- pose proof (i_none _ I v Hd) as Hp. assert (G : get (snd st) v = Ok (path_of st v)).
           { apply (get_nth None). rewrite (i_len2 _ I). assumption. }
           destruct (length g); cbn [follow]; rewrite G; cbn [bind]; now rewrite Hp.
        -- repeat split; [constructor; [intros []|constructor]|]. intros Hr. exfalso. now apply (Hnone eq_refl).
Qed.

End Graph.
