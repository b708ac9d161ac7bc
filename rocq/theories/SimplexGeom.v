(** Geometry of the generated samples: convexity, counting, evenly spaced points. *)

From Coq Require Import List ZArith QArith Qround Bool Arith Lia Sorted Permutation Lqa.
From Verif Require Import Np NpFacts SimplexModel Spec SimplexFacts.
Import ListNotations.


Lemma vadd_length x y : length (vadd x y) = Nat.min (length x) (length y).
Proof. apply map2_length. Qed.
Lemma vsub_length x y : length (vsub x y) = Nat.min (length x) (length y).
Proof. apply map2_length. Qed.
Lemma vscale_length c x : length (vscale c x) = length x.
Proof. apply map_length. Qed.

Lemma vadd_nth x y j : (j < length x)%nat -> (j < length y)%nat ->
  nth j (vadd x y) 0 = nth j x 0 + nth j y 0.
Proof. intros. unfold vadd. now rewrite (map2_nth _ _ _ _ 0 0). Qed.
Lemma vsub_nth x y j : (j < length x)%nat -> (j < length y)%nat ->
  nth j (vsub x y) 0 = nth j x 0 - nth j y 0.
Proof. intros. unfold vsub. now rewrite (map2_nth _ _ _ _ 0 0). Qed.
Lemma vscale_nth c x j : (j < length x)%nat -> nth j (vscale c x) 0 = c * nth j x 0.
Proof.
  intros. unfold vscale. rewrite (nth_indep _ 0 (c * 0)) by now rewrite map_length.
  apply map_nth.
Qed.

Lemma nth_repeat0 j d : nth j (repeat 0 d) 0 = 0.
Proof. revert j; induction d; destruct j; cbn; auto. Qed.

Lemma weighted_sum_length d ws pts : rect d pts -> length (weighted_sum d ws pts) = d.
Proof.
  unfold weighted_sum. intros H; revert ws; induction H as [|p pts Hp H IH]; intros [|w ws];
    cbn; rewrite ?repeat_length; auto.
  rewrite vadd_length, vscale_length, IH. lia.
Qed.

Lemma weighted_sum_nth d ws pts j : rect d pts -> (j < d)%nat ->
  nth j (weighted_sum d ws pts) 0 == qsum (map2 (fun w p => w * nth j p 0) ws pts).
Proof.
  intros H Hj; revert ws; induction H as [|p pts Hp H IH]; intros [|w ws];
    cbn [weighted_sum map2 fold_right qsum];
    try (rewrite nth_repeat0; reflexivity).
  fold (weighted_sum d ws pts).
  rewrite vadd_nth.
  - rewrite vscale_nth by lia. now rewrite IH.
  - rewrite vscale_length; lia.
  - rewrite weighted_sum_length by assumption. assumption.
Qed.

Lemma weighted_sum_convex d ws pts :
  rect d pts -> length ws = length pts -> Forall (Qle 0) ws -> qsum ws == 1 ->
  convex_comb d pts (weighted_sum d ws pts).
Proof.
  intros Hr Hl Hp Hs. split; [now apply weighted_sum_length|].
  exists ws. repeat split; auto. intros j Hj. now apply weighted_sum_nth.
Qed.

Lemma Qdiv_nonneg a b : 0 <= a -> 0 < b -> 0 <= a / b.
Proof. intros Ha Hb. apply Qle_shift_div_l; [assumption|]. lra. Qed.

Lemma normalize_ok u ws :
  Forall (Qle 0) u -> normalize u = Ok ws ->
  length ws = length u /\ Forall (Qle 0) ws /\ qsum ws == 1.
Proof.
  unfold normalize. intros Hu H. destruct (Qeq_bool (qsum u) 0) eqn:E; [discriminate|].
  injection H as <-. apply Qeq_bool_neq in E.
  pose proof (qsum_nonneg _ Hu).
  assert (0 < qsum u) by (destruct (Qlt_le_dec 0 (qsum u)); [assumption|exfalso; apply E; lra]).
  split; [now rewrite map_length|]. split.
  - rewrite Forall_map. eapply Forall_impl; [|exact Hu]. intros a Ha. now apply Qdiv_nonneg.
  - rewrite qsum_div by assumption. field. assumption.
Qed.

(** Pulling the vertices toward the base point keeps the combination convex. *)
Lemma sum_reweight (bj : Q) (al ws : list Q) (vs : list row) j :
  length al = length ws -> length ws = length vs ->
  qsum (map2 (fun a r => a * r) al (map2 (fun w v => bj + w * (nth j v 0 - bj)) ws vs))
  == qsum (map2 (fun c v => c * nth j v 0) (map2 Qmult al ws) vs)
     + (qsum al - qsum (map2 Qmult al ws)) * bj.
Proof.
  revert ws vs; induction al as [|a al IH]; intros [|w ws] [|v vs] H1 H2; cbn in *; try discriminate.
  - ring.
  - rewrite IH by lia. ring.
Qed.

Lemma map2_mult_bounds al ws : Forall (Qle 0) al -> Forall (fun w => 0 <= w /\ w <= 1) ws ->
  length al = length ws ->
  Forall (Qle 0) (map2 Qmult al ws) /\ qsum (map2 Qmult al ws) <= qsum al.
Proof.
  intros Ha; revert ws; induction Ha as [|a al Ha _ IH]; intros [|w ws] Hw Hl; cbn in *; try discriminate.
  - split; [constructor|lra].
  - inversion Hw; subst. destruct (IH ws H2 ltac:(lia)) as [I1 I2]. destruct H1.
    split; [constructor; [nra|assumption]|]. nra.
Qed.

Lemma convex_comb_reweight d b vs ws x :
  length b = d -> rect d vs -> length ws = length vs ->
  Forall (fun w => 0 <= w /\ w <= 1) ws ->
  convex_comb d (b :: map2 (fun w v => vadd (vscale w (vsub v b)) b) ws vs) x ->
  convex_comb d (b :: vs) x.
Proof.
  intros Hb Hv Hl Hw (Hx & al & Hal & Hpos & Hsum & Hc).
  destruct al as [|a0 al]; [discriminate|]. cbn in Hal. rewrite map2_length in Hal.
  inversion Hpos as [|? ? H1 H2]; subst. cbn in Hsum.
  assert (Hlen : length al = length ws) by lia.
  destruct (map2_mult_bounds al ws H2 Hw Hlen) as [B1 B2].
  split; [assumption|].
  exists ((1 - qsum (map2 Qmult al ws)) :: map2 Qmult al ws).
  split; [cbn; rewrite map2_length; lia|].
  split.
  { constructor; [lra|assumption]. }
  split; [cbn; ring|].
  intros j Hj. rewrite (Hc j Hj). cbn [map2 qsum].
  assert (E : qsum (map2 (fun w p => w * nth j p 0) al
                (map2 (fun w v => vadd (vscale w (vsub v b)) b) ws vs))
          == qsum (map2 (fun a r => a * r) al
                (map2 (fun w v => nth j b 0 + w * (nth j v 0 - nth j b 0)) ws vs))).
  { clear - Hv Hj. revert al ws. induction Hv as [|v vs Hv0 Hv IH]; intros [|a al] [|w ws];
      cbn; try reflexivity.
    rewrite IH. rewrite vadd_nth, vscale_nth, vsub_nth; rewrite ?vscale_length, ?vsub_length; try lia.
    ring. }
  rewrite E, sum_reweight by lia.
  assert (a0 == 1 - qsum al) by lra. rewrite H. ring.
Qed.

Lemma convex_comb_edge d b v t :
  length b = d -> length v = d -> 0 <= t -> t <= 1 ->
  forall x, length x = d ->
  (forall j, (j < d)%nat -> nth j x 0 == nth j b 0 + t * (nth j v 0 - nth j b 0)) ->
  convex_comb d [b; v] x.
Proof.
  intros Hb Hv H0 H1 x Hx H. split; [assumption|]. exists [1 - t; t].
  split; [reflexivity|]. split; [repeat constructor; lra|]. split; [cbn; ring|].
  intros j Hj. rewrite (H j Hj). cbn. ring.
Qed.

(** * Random within-simplex sampling *)

Lemma Forall2_nth_error {A B} (R : A -> B -> Prop) l1 l2 i a b :
  Forall2 R l1 l2 -> nth_error l1 i = Some a -> nth_error l2 i = Some b -> R a b.
Proof.
  intros H; revert i; induction H; intros [|i]; cbn; try discriminate.
  - intros [= <-] [= <-]. assumption.
  - apply IHForall2.
Qed.

Lemma shift_unshift k ss : unshift_simplices k (shift_simplices k ss) = ss.
Proof.
  unfold unshift_simplices, shift_simplices. rewrite map_map.
  rewrite <- (map_id ss) at 2. apply map_ext. intros [b vs]. cbn. f_equal.
  rewrite map_map. rewrite <- (map_id vs) at 2. apply map_ext. intros v. lia.
Qed.

Lemma simplex_coordinates_restored X ss Xv vw pts :
  fst (simplex_coordinates X ss Xv vw) = Ok pts ->
  snd (simplex_coordinates X ss Xv vw) = ss.
Proof.
  unfold simplex_coordinates. destruct Xv as [V|], vw as [w|]; cbn; try reflexivity.
  destruct (mapM _ _); cbn; [|discriminate]. intros _. apply shift_unshift.
Qed.

(** Point list of a simplex: its base point in X and its vertices in V. *)
Definition simplex_vertices (X V : list row) (s : simplex) : list row :=
  nth (fst s) X [] :: map (fun v => nth v V []) (snd s).

Definition vertex_set (X : list row) (Xv : option (list row)) : list row :=
  match Xv with Some V => V | None => X end.

Lemma gather_nth {A} (d : A) l idx r : gather l idx = Ok r -> r = map (fun i => nth i l d) idx.
Proof.
  intros H. pose proof (gather_bound _ _ _ H) as Hb. rewrite (gather_map d _ _ Hb) in H. congruence.
Qed.

Lemma rect_nth {A} d (X : list (list A)) i : rect d X -> (i < length X)%nat -> length (nth i X []) = d.
Proof. intros H Hi. unfold rect in H. rewrite Forall_forall in H. apply H, nth_In, Hi. Qed.

(** Every coordinate list [simplex_coordinates] produces is either the vertex
    list itself or that list with vertices pulled toward the base point. *)
Definition coord_ok (d : nat) (X V : list row) (s : simplex) (p : list row) : Prop :=
  rect d p /\ length p = S (length (snd s)) /\
  Forall (fun v => v < length V)%nat (snd s) /\
  forall x, convex_comb d p x -> convex_comb d (simplex_vertices X V s) x.

Lemma reweight_spec d X V w ss pts :
  rect d X -> rect d V -> Forall (fun x => 0 <= x /\ x <= 1) w ->
  reweight_simplex_vertices X ss V w = Ok pts ->
  Forall2 (coord_ok d X V) ss pts.
Proof.
  intros HX HV Hw H. unfold reweight_simplex_vertices in H.
  rewrite mapM_ok_iff in H. eapply Forall2_impl; [|exact H]. clear H.
  intros [b vs] p H. unfold reweight_simplex in H. cbn [fst snd] in *.
  inv_bind H. inv_bind H. inv_bind H. injection H as <-.
  pose proof (gather_bound _ _ _ E1) as Hb1. pose proof (get_bound _ _ _ E0) as Hb0.
  assert (Hwa : Forall (fun x => 0 <= x /\ x <= 1) a).
  { rewrite Forall_forall in *. intros x Hx. apply Hw. eapply gather_incl; eassumption. }
  rewrite (get_nth ([] : row)) in E0 by assumption. injection E0 as <-.
  pose proof (rect_nth d X b HX Hb0) as Hlb.
  pose proof (gather_length _ _ _ E) as L1. pose proof (gather_length _ _ _ E1) as L2.
  assert (Hra : rect d a1).
  { unfold rect in *. rewrite Forall_forall in *. intros x Hx. apply HV. eapply gather_incl; eassumption. }
  assert (Hrm : rect d (map2 (fun w0 v => vadd (vscale w0 (vsub v (nth b X []))) (nth b X [])) a a1)).
  { unfold rect in *. rewrite Forall_forall in *. intros x Hx.
    apply map2_in in Hx as [w0 [v [Hin ->]]]. apply in_combine_r in Hin.
    rewrite vadd_length, vscale_length, vsub_length, (Hra v Hin). lia. }
  split; [constructor; assumption|]. split; [cbn; rewrite map2_length; lia|].
  split; [assumption|].
  intros x Hx. unfold simplex_vertices. cbn [fst snd].
  rewrite <- (gather_nth [] _ _ _ E1).
  eapply convex_comb_reweight; [exact Hlb|exact Hra| |exact Hwa|exact Hx]. lia.
Qed.

Lemma simplex_coordinates_spec d X ss Xv vw pts :
  rect d X -> rect d (vertex_set X Xv) ->
  Forall (fun s => fst s < length X)%nat ss ->
  match vw with Some w => Forall (fun x => 0 <= x /\ x <= 1) w | None => True end ->
  fst (simplex_coordinates X ss Xv vw) = Ok pts ->
  Forall2 (coord_ok d X (vertex_set X Xv)) ss pts.
Proof.
  intros HX HV Hs Hw H.
  unfold simplex_coordinates in H. destruct Xv as [V|], vw as [w|]; cbn [fst snd vertex_set] in *.
  - now apply (reweight_spec d X V w).
  - (* joint array *)
    destruct (mapM _ _) eqn:E; cbn in H; [|discriminate]. injection H as ->.
    unfold shift_simplices in E. rewrite mapM_map in E. rewrite mapM_ok_iff in E.
    revert Hs. induction E as [|[b vs] p ss pts H E IH]; intros Hs; constructor;
      [|now apply IH; inversion Hs]. clear E IH.
    unfold simplex_points in H. cbn [fst snd] in *.
    pose proof (gather_bound _ _ _ H) as Hb. pose proof (gather_length _ _ _ H) as Hl.
    cbn in Hl. rewrite map_length in Hl.
    assert (Hr : rect d p).
    { unfold rect in *. rewrite Forall_forall in *. intros x Hx.
      apply (gather_incl _ _ _ H) in Hx. apply in_app_iff in Hx as [Hx|Hx]; auto. }
    apply (gather_nth []) in H. inversion Hb as [|? ? Hb1 Hb2]; subst.
    inversion Hs as [|? ? Hs1 Hs2]; subst. cbn in Hs1.
    assert (Hvs : Forall (fun v => v < length V)%nat vs).
    { rewrite Forall_map in Hb2. eapply Forall_impl; [|exact Hb2]. cbn.
      intros v Hv. rewrite app_length in Hv. lia. }
    split; [assumption|]. split; [assumption|]. split; [assumption|].
    intros x Hx. unfold simplex_vertices; cbn [fst snd].
    cbn [map] in Hx. rewrite app_nth1 in Hx by assumption. rewrite map_map in Hx.
    erewrite map_ext_in in Hx; [exact Hx|]. intros v Hv. cbn.
    rewrite app_nth2 by lia. f_equal. lia.
  - now apply (reweight_spec d X X w).
  - rewrite mapM_ok_iff in H. eapply Forall2_impl; [|exact H]. clear H.
    intros [b vs] p H. unfold simplex_points in H. cbn [fst snd] in *.
    pose proof (gather_bound _ _ _ H) as Hb. pose proof (gather_length _ _ _ H) as Hl.
    assert (Hr : rect d p).
    { unfold rect in *. rewrite Forall_forall in *. intros x Hx.
      apply HX. eapply gather_incl; eassumption. }
    apply (gather_nth []) in H. inversion Hb as [|? ? Hb1 Hb2]; subst.
    split; [assumption|]. split; [assumption|]. split; [assumption|].
    intros x Hx. exact Hx.
Qed.

Lemma random_samples_spec d X ss Xv vw u n_dim samples :
  rect d X -> rect d (vertex_set X Xv) ->
  Forall (fun s => fst s < length X /\ S (length (snd s)) = n_dim)%nat ss ->
  match vw with Some w => Forall (fun x => 0 <= x /\ x <= 1) w | None => True end ->
  length u = length ss ->
  Forall (fun v => length v = n_dim /\ Forall (fun x => 0 <= x /\ x < 1) v) u ->
  fst (random_samples_from_simplices d X ss Xv vw u) = Ok samples ->
  Forall2 (fun s x => Forall (fun v => v < length (vertex_set X Xv))%nat (snd s) /\
                      convex_comb d (simplex_vertices X (vertex_set X Xv) s) x) ss samples.
Proof.
  intros HX HV Hs Hw Hlu Hu H. unfold random_samples_from_simplices in H.
  destruct (simplex_coordinates X ss Xv vw) as [coords after] eqn:Ec. cbn [fst] in H.
  inv_bind H. inv_bind H. injection H as <-.
  assert (Hc : Forall2 (coord_ok d X (vertex_set X Xv)) ss a0).
  { eapply simplex_coordinates_spec; try eassumption.
    - eapply Forall_impl; [|exact Hs]. cbn; tauto.
    - rewrite Ec. exact E0. }
  rewrite mapM_ok_iff in E. clear Ec E0 Hw.
  revert u a Hlu Hu E Hs. induction Hc as [|s p ss pts Hc _ IH]; intros u a Hlu Hu E Hs.
  - destruct u; [|discriminate]. inversion E; subst. constructor.
  - destruct u as [|u0 u]; [discriminate|]. inversion E as [|? w ? ws Hn E']; subst.
    inversion Hu as [|? ? [Hu1 Hu2] Hu']; subst. inversion Hs as [|? ? [Hs1 Hs2] Hs']; subst.
    cbn. constructor.
    + destruct Hc as (C1 & C2 & C3 & C4). split; [assumption|]. apply C4.
      apply normalize_ok in Hn as (N1 & N2 & N3).
      * apply weighted_sum_convex; auto. lia.
      * eapply Forall_impl; [|exact Hu2]. cbn; tauto.
    + eapply IH; eauto. 
Qed.

(** * Deterministic within-simplex sampling *)

Lemma flat_map_ext_in {A B} (f g : A -> list B) l :
  (forall x, In x l -> f x = g x) -> flat_map f l = flat_map g l.
Proof. induction l; cbn; intros H; [reflexivity|]. rewrite H, IHl; auto. Qed.

Lemma flat_map_swap {A B C} (f : A -> B -> C) (xs : list A) (ks : list B) :
  Permutation (flat_map (fun k => map (fun x => f x k) xs) ks)
              (flat_map (fun x => map (fun k => f x k) ks) xs).
Proof.
  induction ks as [|k ks IH]; cbn.
  - induction xs; cbn; auto.
  - rewrite IH. clear IH. induction xs as [|x xs IH]; cbn; [constructor|].
    constructor. rewrite <- IH.
    rewrite !app_assoc. apply Permutation_app_tail. apply Permutation_app_comm.
Qed.

Lemma flat_map_split {A B} (f g : A -> list B) l :
  Permutation (flat_map (fun x => f x ++ g x) l) (flat_map f l ++ flat_map g l).
Proof.
  induction l as [|x l IH]; cbn; [constructor|]. rewrite IH.
  rewrite <- !app_assoc. apply Permutation_app_head. rewrite !app_assoc.
  apply Permutation_app_tail. apply Permutation_app_comm.
Qed.

Lemma flat_map_single {B} (k : nat) (a : list B) cs : NoDup cs -> In k cs ->
  flat_map (fun c => if (k =? c)%nat then a else []) cs = a.
Proof.
  induction 1 as [|c cs Hn Hd IH]; cbn; [tauto|]. intros [->|Hin].
  - rewrite Nat.eqb_refl.
    enough (flat_map (fun c => if (k =? c)%nat then a else []) cs = []) as -> by apply app_nil_r.
    clear IH. induction cs as [|c cs IH]; cbn; [reflexivity|].
    destruct (Nat.eqb_spec k c); [subst; cbn in Hn; tauto|]. cbn. apply IH.
    + cbn in Hn; tauto.
    + now inversion Hd.
  - destruct (Nat.eqb_spec k c); [subst; tauto|]. cbn. auto.
Qed.

Lemma flat_map_partition {A B} (key : A -> nat) (f : A -> list B) l cs :
  NoDup cs -> (forall x, In x l -> In (key x) cs) ->
  Permutation (flat_map (fun c => flat_map f (filter (fun x => key x =? c)%nat l)) cs)
              (flat_map f l).
Proof.
  intros Hc. induction l as [|x l IH]; intros Hk; cbn.
  - induction cs; cbn; [constructor|]. apply IHcs; [now inversion Hc|intros ? []].
  - rewrite <- IH by (intros; apply Hk; cbn; auto).
    rewrite <- (flat_map_single (key x) (f x) cs Hc) by (apply Hk; cbn; auto).
    rewrite <- flat_map_split.
    erewrite flat_map_ext; [reflexivity|]. intros c. cbn.
    destruct (key x =? c)%nat; cbn; reflexivity.
Qed.

Lemma concat_map_flat {A B} (f : A -> list B) l : concat (map f l) = flat_map f l.
Proof. now rewrite flat_map_concat_map. Qed.

Lemma mapM_ok_map {A B} (d : B) (f : A -> res B) l r : mapM f l = Ok r ->
  r = map (fun x => match f x with Ok y => y | Err _ => d end) l.
Proof.
  rewrite mapM_ok_iff. induction 1; cbn; [reflexivity|]. now rewrite H, IHForall2.
Qed.

(** Weight of the vertex [v]. *)
Definition vweight (vw : option (list Q)) (v : nat) : Q :=
  match vw with Some w => nth v w 0 | None => 1 end.

Definition fraction (k c : nat) : Q :=
  1 / inject_Z (Z.of_nat (c + 1)) * inject_Z (Z.of_nat k).

Lemma fraction_bounds k c : (1 <= k <= c)%nat -> 0 < fraction k c /\ fraction k c < 1.
Proof.
  intros H. unfold fraction.
  assert (Hc : 0 < inject_Z (Z.of_nat (c + 1))) by (change 0 with (inject_Z 0); rewrite <- Zlt_Qlt; lia).
  assert (Hk : 0 < inject_Z (Z.of_nat k)) by (change 0 with (inject_Z 0); rewrite <- Zlt_Qlt; lia).
  assert (Hkc : inject_Z (Z.of_nat k) < inject_Z (Z.of_nat (c + 1))) by (rewrite <- Zlt_Qlt; lia).
  setoid_replace (1 / inject_Z (Z.of_nat (c + 1)) * inject_Z (Z.of_nat k))
    with (inject_Z (Z.of_nat k) / inject_Z (Z.of_nat (c + 1))) by (field; lra).
  split.
  - apply Qlt_shift_div_l; lra.
  - apply Qlt_shift_div_r; lra.
Qed.

Lemma map2_map_both {A B C D} (f : A -> B -> C) (g : D -> A) (h : D -> B) l :
  map2 f (map g l) (map h l) = map (fun x => f (g x) (h x)) l.
Proof. induction l; cbn; congruence. Qed.

Lemma add_samples_eq pairs c X V vw r :
  add_samples pairs c X V vw = Ok r ->
  r = flat_map (fun k => map (fun pc => toward (nth (fst (fst pc)) X []) (nth (snd (fst pc)) V [])
                                 (vweight vw (snd (fst pc))) (fraction k (snd pc)))
                             (filter (fun p => (snd p =? c)%nat) pairs)) (seq 1 c)
  /\ Forall (fun pc => (fst (fst pc) < length X)%nat /\ (snd (fst pc) < length V)%nat /\
       match vw with Some w => (snd (fst pc) < length w)%nat | None => True end)
            (filter (fun p => (snd p =? c)%nat) pairs).
Proof.
  unfold add_samples. set (F := filter (fun p => (snd p =? c)%nat) pairs).
  intros H. inv_bind H. inv_bind H. inv_bind H. injection H as <-.
  pose proof (gather_bound _ _ _ E) as B1. pose proof (gather_bound _ _ _ E0) as B2.
  apply (gather_nth []) in E, E0. rewrite map_map in E, E0. rewrite map_map in E, E0.
  assert (Hw : a1 = map (fun pc : nat * nat * nat => vweight vw (snd (fst pc))) F /\
     match vw with Some w => Forall (fun pc : nat * nat * nat => (snd (fst pc) < length w)%nat) F | None => True end).
  { destruct vw as [w|].
    - pose proof (gather_bound _ _ _ E1) as B3. apply (gather_nth 0) in E1.
      rewrite !map_map in E1. split; [exact E1|]. now rewrite !Forall_map in B3.
    - injection E1 as <-. split; [|exact I]. rewrite map_length. cbn.
      now rewrite (map_const_repeat 1 F). }
  destruct Hw as [-> Hw]. subst a a0. split.
  - rewrite flat_map_concat_map, map_map, <- flat_map_concat_map.
    apply flat_map_ext. intros k. rewrite !map2_map_both.
    apply map_ext_in. intros [[b v] c'] Hin. cbn [fst snd].
    apply filter_In in Hin as [_ Hc]. cbn in Hc. apply Nat.eqb_eq in Hc as ->. reflexivity.
  - rewrite !Forall_map in B1, B2. rewrite Forall_forall in *. intros pc Hpc.
    split; [now apply B1|]. split; [now apply B2|]. destruct vw; [|exact I].
    rewrite Forall_forall in Hw. now apply Hw.
Qed.

Lemma pair_dec : forall a b : nat * nat, {a = b} + {a <> b}.
Proof. decide equality; apply Nat.eq_dec. Defined.

Lemma pair_eqb_eq a b : pair_eqb a b = true <-> a = b.
Proof.
  destruct a, b; unfold pair_eqb; cbn. rewrite andb_true_iff, !Nat.eqb_eq.
  split; [intros []|intros [=]]; subst; auto.
Qed.
Lemma pair_ltb_spec a b : pair_ltb a b = true <-> (fst a < fst b \/ (fst a = fst b /\ snd a < snd b))%nat.
Proof.
  unfold pair_ltb. rewrite orb_true_iff, andb_true_iff, !Nat.ltb_lt, Nat.eqb_eq. reflexivity.
Qed.
Lemma pair_ltb_trans a b c : pair_ltb a b = true -> pair_ltb b c = true -> pair_ltb a c = true.
Proof. rewrite !pair_ltb_spec. lia. Qed.
Lemma pair_ltb_irrefl a : pair_ltb a a = false.
Proof. destruct (pair_ltb a a) eqn:E; [|reflexivity]. apply pair_ltb_spec in E. lia. Qed.
Lemma pair_ltb_total a b : a <> b -> pair_ltb a b = false -> pair_ltb b a = true.
Proof.
  intros Hn H. apply pair_ltb_spec. destruct a as [a1 a2], b as [b1 b2]; cbn.
  destruct (Nat.lt_trichotomy a1 b1) as [|[]]; subst.
  - exfalso. enough (pair_ltb (a1,a2) (b1,b2) = true) by congruence. apply pair_ltb_spec; cbn; lia.
  - destruct (Nat.lt_trichotomy a2 b2) as [|[]]; subst; [|congruence|lia].
    exfalso. enough (pair_ltb (b1,a2) (b1,b2) = true) by congruence. apply pair_ltb_spec; cbn; lia.
  - lia.
Qed.

Lemma unique_pairs_in ps x c :
  In (x, c) (unique_pairs ps) <-> (0 < c)%nat /\ c = count_occ pair_dec ps x.
Proof.
  apply unique_in; [apply pair_eqb_eq|apply pair_ltb_trans|apply pair_ltb_irrefl|apply pair_ltb_total].
Qed.
Lemma unique_pairs_NoDup ps : NoDup (map fst (unique_pairs ps)).
Proof.
  apply unique_NoDup; [apply pair_eqb_eq|apply pair_ltb_trans|apply pair_ltb_irrefl|apply pair_ltb_total].
Qed.

Lemma count_insert_total {A} eqb ltb (z : A) l :
  nsum (map snd (count_insert eqb ltb z l)) = S (nsum (map snd l)).
Proof.
  unfold nsum. induction l as [|[z' c] l IH]; cbn; [reflexivity|].
  destruct (eqb z z'); [reflexivity|]. destruct (ltb z z'); [reflexivity|]. cbn. rewrite IH. lia.
Qed.
Lemma unique_total {A} eqb ltb (y : list A) : nsum (map snd (unique_by eqb ltb y)) = length y.
Proof.
  induction y; [reflexivity|]. cbn [unique_by fold_right length]. rewrite count_insert_total.
  fold (unique_by eqb ltb y). now rewrite IHy.
Qed.

Lemma list_max_in_le l x : In x l -> (x <= list_max l)%nat.
Proof.
  intros H. pose proof (proj1 (list_max_le l (list_max l)) (le_n _)) as F.
  rewrite Forall_forall in F. auto.
Qed.

(** The pairs a deterministic run looks at and the table their second member
    indexes. *)
Definition dim2_pairs (Xv : option (list row)) (same : bool) (ss : list simplex) : list (nat * nat) :=
  let p0 := map (fun s => (fst s, nth 0 (snd s) 0%nat)) ss in
  match Xv with
  | None => map sort_pair p0
  | Some _ => if same then map sort_pair p0 else p0
  end.
Definition dim2_table (X : list row) (Xv : option (list row)) (same : bool) : list row :=
  match Xv with None => X | Some V => if same then X else V end.

Lemma deterministic_dim_2_spec X ss Xv same vw r :
  deterministic_samples_dim_2 X ss Xv same vw = Ok r ->
  let V := dim2_table X Xv same in
  let pairs := dim2_pairs Xv same ss in
  Permutation r
    (flat_map (fun pc => map (fun k => toward (nth (fst (fst pc)) X []) (nth (snd (fst pc)) V [])
                                  (vweight vw (snd (fst pc))) (fraction k (snd pc)))
                             (seq 1 (snd pc)))
              (unique_pairs pairs))
  /\ Forall (fun p => (fst p < length X)%nat /\ (snd p < length V)%nat /\
       match vw with Some w => (snd p < length w)%nat | None => True end) pairs.
Proof.
  unfold deterministic_samples_dim_2. intros H. inv_bind H.
  assert (Hp : combine (map fst ss) a = map (fun s => (fst s, nth 0 (snd s) 0%nat)) ss).
  { rewrite mapM_ok_iff in E. clear H. induction E as [|[b vs] v ss a Hv E IH]; cbn; [reflexivity|].
    rewrite IH. unfold second_column in Hv. cbn in Hv. destruct vs; [discriminate|].
    cbn in Hv. injection Hv as ->. reflexivity. }
  rewrite Hp in H. clear Hp E.
  set (V := dim2_table X Xv same). set (pairs := dim2_pairs Xv same ss).
  assert (H' : match unique_pairs pairs with
       | [] => Err ValueError
       | _ => let counts := map snd (unique_pairs pairs) in
              do blocks <- mapM (fun c => add_samples (unique_pairs pairs) c X V vw)
                 (filter (fun c => existsb (Nat.eqb c) counts) (seq 1 (list_max counts)));
              Ok (concat blocks)
       end = Ok r).
  { unfold pairs, V, dim2_pairs, dim2_table. destruct Xv as [V0|]; [destruct same|];
      cbn [fst snd] in H; destruct (unique_pairs _) eqn:EE; exact H. }
  clear H. destruct (unique_pairs pairs) as [|v0 vs0] eqn:EU; [discriminate|].
  rewrite <- EU in *. cbn [bind] in H'. cbv zeta in H'. inv_bind H'. injection H' as <-.
  set (counts := map snd (unique_pairs pairs)) in *.
  set (cs := filter (fun c => existsb (Nat.eqb c) counts) (seq 1 (list_max counts))) in *.
  assert (Hcs : NoDup cs) by (apply NoDup_filter, seq_NoDup).
  assert (Hkey : forall x, In x (unique_pairs pairs) -> In (snd x) cs).
  { intros [p c] Hin. apply filter_In. cbn [snd].
    assert (In c counts) by (apply in_map_iff; exists (p, c); auto).
    split; [|now apply existsb_eqb_In].
    apply in_seq. apply unique_pairs_in in Hin as [Hc _].
    pose proof (list_max_in_le _ _ H). lia. }
  rewrite mapM_ok_iff in E. split.
  - rewrite <- (flat_map_partition snd _ _ cs Hcs Hkey).
    clear Hkey Hcs. induction E as [|c b cs0 bs Hb E IH]; cbn; [constructor|].
    apply Permutation_app; [|exact IH]. apply add_samples_eq in Hb as [-> _].
    rewrite flat_map_swap.
    erewrite flat_map_ext_in; [reflexivity|]. intros [p c'] Hin.
    apply filter_In in Hin as [_ Hc]. cbn in Hc. apply Nat.eqb_eq in Hc as ->. reflexivity.
  - rewrite Forall_forall. intros p Hp.
    assert (Hin : In (p, count_occ pair_dec pairs p) (unique_pairs pairs)).
    { apply unique_pairs_in. split; [|reflexivity]. now apply count_occ_In. }
    pose proof (Hkey _ Hin) as Hk. cbn in Hk. clear Hkey Hcs.
    induction E as [|c b cs0 bs Hb E IH]; [destruct Hk|].
    destruct Hk as [->|Hk]; [|auto].
    apply add_samples_eq in Hb as [_ F]. rewrite Forall_forall in F.
    specialize (F (p, count_occ pair_dec pairs p)). cbn in F. apply F.
    apply filter_In. split; [assumption|]. cbn. apply Nat.eqb_refl.
Qed.

Lemma flat_map_length_sum {A B} (f : A -> list B) (g : A -> nat) l :
  (forall x, In x l -> length (f x) = g x) -> length (flat_map f l) = nsum (map g l).
Proof.
  induction l; cbn; intros H; [reflexivity|]. rewrite app_length, H, IHl; auto.
Qed.

Lemma deterministic_dim_2_length X ss Xv same vw r :
  deterministic_samples_dim_2 X ss Xv same vw = Ok r -> length r = length ss.
Proof.
  intros H. apply deterministic_dim_2_spec in H as [H _]. apply Permutation_length in H. rewrite H.
  rewrite (flat_map_length_sum _ snd) by (intros; now rewrite map_length, seq_length).
  unfold unique_pairs. rewrite unique_total. unfold dim2_pairs.
  destruct Xv as [V|]; [destruct same|]; now rewrite ?map_length.
Qed.

Lemma toward_length d b v w t : length b = d -> length v = d -> length (toward b v w t) = d.
Proof. intros. unfold toward. rewrite vadd_length, !vscale_length, vsub_length. lia. Qed.

Lemma toward_nth d b v w t j : length b = d -> length v = d -> (j < d)%nat ->
  nth j (toward b v w t) 0 == nth j b 0 + t * w * (nth j v 0 - nth j b 0).
Proof.
  intros. unfold toward. rewrite vadd_nth, !vscale_nth, vsub_nth;
    rewrite ?vscale_length, ?vsub_length; try lia. ring.
Qed.

Lemma toward_convex d b v w t : length b = d -> length v = d ->
  0 <= w <= 1 -> 0 <= t <= 1 -> convex_comb d [b; v] (toward b v w t).
Proof.
  intros Hb Hv Hw Ht. apply (convex_comb_edge d b v (t * w)); auto; try nra.
  - now apply toward_length.
  - intros j Hj. now rewrite (toward_nth d).
Qed.

Lemma convex_comb_swap d a b x : convex_comb d [a; b] x -> convex_comb d [b; a] x.
Proof.
  intros (Hx & ws & Hl & Hp & Hs & Hc). split; [assumption|].
  destruct ws as [|u [|v [|]]]; try discriminate. exists [v; u].
  inversion Hp as [|? ? H1 Hp']; subst. inversion Hp' as [|? ? H2 _]; subst.
  cbn in Hs. split; [reflexivity|]. split; [auto|]. split; [cbn; lra|].
  intros j Hj. rewrite (Hc j Hj). cbn. ring.
Qed.

Lemma in_flat_map_perm {A B} (f : A -> list B) l r x : Permutation r (flat_map f l) -> In x r ->
  exists a, In a l /\ In x (f a).
Proof. intros H Hx. apply (Permutation_in _ H), in_flat_map in Hx. exact Hx. Qed.

(** A deterministic sample lies on the segment of one of the given simplices. *)
Lemma deterministic_dim_2_convex d X ss Xv same vw r x :
  rect d X -> rect d (vertex_set X Xv) -> (same = true -> Xv = Some X) ->
  Forall (fun s => length (snd s) = 1%nat) ss ->
  match vw with Some w => Forall (fun y => 0 <= y /\ y <= 1) w | None => True end ->
  deterministic_samples_dim_2 X ss Xv same vw = Ok r -> In x r ->
  exists s, In s ss /\ convex_comb d (simplex_vertices X (vertex_set X Xv) s) x.
Proof.
  intros HX HV Hsame Hs Hw H Hx. apply deterministic_dim_2_spec in H as [Hp Hb].
  destruct (in_flat_map_perm _ _ _ _ Hp Hx) as [[[b v] c] [Hin Hxk]]. clear Hp Hx.
  apply in_map_iff in Hxk as [k [<- Hk]]. apply in_seq in Hk. cbn [fst snd] in *.
  apply unique_pairs_in in Hin as [Hc1 Hc2].
  assert (Hin : In (b, v) (dim2_pairs Xv same ss)) by (apply (count_occ_In pair_dec); lia).
  rewrite Forall_forall in Hb. specialize (Hb _ Hin). cbn [fst snd] in Hb.
  destruct Hb as (Hb1 & Hb2 & Hb3).
  assert (Htab : dim2_table X Xv same = vertex_set X Xv).
  { unfold dim2_table, vertex_set. destruct Xv as [V|]; [|reflexivity].
    destruct same; [|reflexivity]. specialize (Hsame eq_refl). congruence. }
  assert (Hwv : 0 <= vweight vw v <= 1).
  { unfold vweight. destruct vw as [w|]; [|lra]. rewrite Forall_forall in Hw. apply Hw, nth_In, Hb3. }
  destruct (fraction_bounds k c ltac:(lia)) as [F1 F2].
  rewrite Htab in *.
  assert (Cx : convex_comb d [nth b X []; nth v (vertex_set X Xv) []]
     (toward (nth b X []) (nth v (vertex_set X Xv) []) (vweight vw v) (fraction k c))).
  { apply toward_convex; try lra; now apply rect_nth. }
  assert (Hcase : (exists s, In s ss /\ fst s = b /\ nth 0 (snd s) 0%nat = v) \/
     (vertex_set X Xv = X /\ exists s, In s ss /\ fst s = v /\ nth 0 (snd s) 0%nat = b)).
  { assert (Hsort : forall p0, In (b, v) (map sort_pair p0) -> In (b, v) p0 \/ In (v, b) p0).
    { intros p0 Hi. apply in_map_iff in Hi as [[p q] [Heq Hi]]. unfold sort_pair in Heq. cbn in Heq.
      destruct (p <=? q)%nat; injection Heq as <- <-; auto. }
    assert (Hp0 : forall b' v', In (b', v') (map (fun s : simplex => (fst s, nth 0 (snd s) 0%nat)) ss) ->
      exists s, In s ss /\ fst s = b' /\ nth 0 (snd s) 0%nat = v').
    { intros b' v' Hi. apply in_map_iff in Hi as [s [Heq Hi]]. injection Heq as <- <-. eauto. }
    unfold dim2_pairs in Hin. destruct Xv as [V|]; [destruct same|]; cbn [vertex_set] in *.
    - specialize (Hsame eq_refl). injection Hsame as ->.
      apply Hsort in Hin as [Hin|Hin]; apply Hp0 in Hin; auto.
    - apply Hp0 in Hin. auto.
    - apply Hsort in Hin as [Hin|Hin]; apply Hp0 in Hin; auto. }
  rewrite Forall_forall in Hs.
  destruct Hcase as [[[b' vs] [Hi [Hf Hn]]] | [HVX [[b' vs] [Hi [Hf Hn]]]]];
    exists (b', vs); (split; [assumption|]); unfold simplex_vertices; cbn [fst snd] in *;
    pose proof (Hs _ Hi) as Hl; cbn in Hl; destruct vs as [|v' [|]]; try discriminate; cbn in *; subst.
  - exact Cx.
  - apply convex_comb_swap. now rewrite HVX in *.
Qed.

Lemma convex_comb_singleton d p : length p = d -> convex_comb d [p] p.
Proof.
  intros H. split; [assumption|]. exists [1]. split; [reflexivity|].
  split; [repeat constructor; lra|]. split; [cbn; lra|]. intros j Hj. cbn. ring.
Qed.

(** * Selection of simplices *)

Lemma probabilities_ok w p : probabilities w = Ok p ->
  ~ qsum w == 0 /\ p = map (fun x => x / qsum w) w /\ qsum p == 1.
Proof.
  unfold probabilities. destruct (Qeq_bool (qsum w) 0) eqn:E; [discriminate|].
  intros [= <-]. apply Qeq_bool_neq in E. split; [assumption|]. split; [reflexivity|].
  rewrite qsum_div by assumption. field. assumption.
Qed.

Definition opt_nonneg (o : option (list Q)) : Prop :=
  match o with Some l => Forall (Qle 0) l | None => True end.

Definition base_pos (bw : option (list Q)) (b : nat) : Prop :=
  match bw with Some w => 0 < nth b w 0 | None => True end.

Lemma determine_weights_length vol mode X bw Xv ss n w :
  determine_weights vol mode X bw Xv ss n = Ok w -> bw = None -> length w = length ss.
Proof.
  unfold determine_weights. intros H ->.
  assert (G : forall Y t r, determine_simplex_distribution vol mode Y t = Ok r -> length r = length t).
  { clear. intros Y t r. unfold determine_simplex_distribution. destruct mode; intros H; try discriminate.
    - injection H as <-. apply repeat_length.
    - injection H as <-. apply repeat_length.
    - inv_bind H. injection H as <-. rewrite map_length. eapply mapM_length; eassumption. }
  destruct Xv; apply G in H; auto. unfold shift_simplices in H. now rewrite map_length in H.
Qed.

Lemma qprod_nonneg l : Forall (Qle 0) l -> 0 <= qprod l.
Proof. induction 1; cbn; [lra|]. nra. Qed.

Lemma node_weight_nonneg sw s :
  match sw with Some w => Forall (Forall (Qle 0)) w | None => True end -> 0 <= node_weight sw s.
Proof.
  unfold node_weight. destruct sw as [w|]; [|lra]. intros H. apply qprod_nonneg.
  rewrite Forall_map, Forall_forall. intros p _.
  assert (Hr : Forall (Qle 0) (nth (fst s) w [])).
  { destruct (nth_in_or_default (fst s) w []) as [Hi| ->]; [|constructor].
    rewrite Forall_forall in H. auto. }
  destruct (nth_in_or_default p (nth (fst s) w []) 0) as [Hi| ->]; [|lra].
  rewrite Forall_forall in Hr. auto.
Qed.

Lemma np_choice_spec {A} r (choices : list A) n p sel : rng_ok r -> qsum p == 1 ->
  np_choice r choices n p = Ok sel ->
  Forall (Qle 0) p /\ exists idx, gather choices idx = Ok sel /\ length idx = n /\
    Forall (fun i => exists q, nth_error p i = Some q /\ 0 < q) idx.
Proof.
  unfold np_choice. intros Hr Hs H. destruct (forallb _ p) eqn:E; [|discriminate].
  assert (Hp : Forall (Qle 0) p).
  { rewrite forallb_forall in E. rewrite Forall_forall. intros q Hq. apply Qle_bool_iff, E, Hq. }
  split; [assumption|]. destruct (rng_choice r Hr p n Hp Hs). eauto.
Qed.

Lemma deterministic_sample_spec {A} (choices : list A) n p sel : Forall (Qle 0) p -> qsum p == 1 ->
  deterministic_sample choices n p = Ok sel ->
  exists idx, gather choices idx = Ok sel /\ length idx = n /\
    Forall (fun i => exists q, nth_error p i = Some q /\ 0 < q) idx.
Proof.
  intros Hp Hs H. unfold deterministic_sample in H. inv_bind H.
  destruct (deterministic_counts_ok n p Hp Hs) as (cs & E' & Hsum & Hrel).
  rewrite E in E'. injection E' as <-.
  exists (counts_to_vector a). split; [assumption|]. split.
  - rewrite counts_to_vector_length. exact Hsum.
  - rewrite Forall_forall. intros i Hi. apply counts_to_vector_in in Hi as [c [Hc Hpos]].
    assert (Hl : (i < length p)%nat).
    { apply Forall2_length in Hrel. unfold ceil_counts in Hrel. rewrite map_length in Hrel.
      rewrite Hrel. apply nth_error_Some. congruence. }
    destruct (nth_error p i) as [q|] eqn:Eq; [|apply nth_error_None in Eq; lia].
    exists q. split; [reflexivity|].
    destruct (deterministic_counts_fair n p a i q c Hp Hs E Eq Hc) as (_ & _ & H3). auto.
Qed.

Lemma gather_seq_idx n idx sel : gather (seq 0 n) idx = Ok sel -> sel = idx.
Proof.
  intros H. pose proof (gather_bound _ _ _ H) as Hb. rewrite seq_length in Hb.
  apply (gather_nth 0%nat) in H. subst. rewrite <- (map_id idx) at 2. apply map_ext_in.
  intros i Hi. rewrite Forall_forall in Hb. specialize (Hb i Hi). now rewrite seq_nth.
Qed.

Lemma simplices_spec vol mode X n d c indices bw Xv sw r ss :
  (1 <= d <= c)%nat -> rect c indices ->
  match bw with Some w => length w = length indices /\ Forall (Qle 0) w | None => True end ->
  match sw with Some w => length w = length indices /\ rect c w /\ Forall (Forall (Qle 0)) w | None => True end ->
  rng_ok r ->
  simplices_ vol mode X n d c indices bw Xv sw r = Ok ss ->
  exists sel, ss = map (realize indices) sel /\ length sel = n /\
    Forall (fun s => In s (base_idx_neighbor_idx_simplices (length indices) c d) /\
                     base_pos bw (fst s) /\ 0 < node_weight sw s) sel.
Proof.
  intros Hd Hr Hbw Hsw Hrng H. unfold simplices_ in H.
  rewrite node_weights_correct in H; [|assumption|assumption|destruct sw; intuition].
  cbn [bind] in H. set (L := base_idx_neighbor_idx_simplices (length indices) c d) in *.
  inv_bind H. destruct (Nat.eqb_spec (length a) (length (map (node_weight sw) L))) as [Hlen|]; [|discriminate].
  inv_bind H. inv_bind H. apply probabilities_ok in E0 as (Hnz & Hp & Hsum).
  rewrite !map_length in *.
  assert (Hnw : forall s, 0 <= node_weight sw s).
  { intros s. apply node_weight_nonneg. destruct sw; intuition. }
  assert (Hidx : Forall (Qle 0) a0 /\ exists idx, gather (seq 0 (length L)) idx = Ok a1 /\ length idx = n /\
    Forall (fun i => exists q, nth_error a0 i = Some q /\ 0 < q) idx).
  { destruct mode; try (now apply np_choice_spec with (r := r)).
    assert (Hw0 : Forall (Qle 0) a).
    { destruct bw as [w|].
      - unfold determine_weights in E. destruct (Nat.eqb_spec (length w) 0); [discriminate|].
        injection E as <-. rewrite Forall_forall. intros q Hq. unfold repeat_each in Hq.
        apply in_flat_map in Hq as [x [Hx Hq]]. apply repeat_spec in Hq as ->.
        destruct Hbw as [_ Hbw]. rewrite Forall_forall in Hbw. auto.
      - assert (G : forall Y t r, determine_simplex_distribution vol SDeterministic Y t = Ok r -> Forall (Qle 0) r).
        { clear. intros Y t r. cbn. intros [= <-]. rewrite Forall_forall. intros q Hq.
          apply repeat_spec in Hq as ->. destruct t as [|x t]; [cbn; unfold Qle; cbn; lia|].
          apply Qdiv_nonneg; [lra|]. change 0 with (inject_Z 0). rewrite <- Zlt_Qlt. cbn [length]. lia. }
        unfold determine_weights in E. destruct Xv; now apply G in E. }
    assert (Hww : Forall (Qle 0) (map2 Qmult a (map (node_weight sw) L))).
    { rewrite Forall_forall in *. intros q Hq. apply map2_in in Hq as (x & y & Hin & ->).
      pose proof (in_combine_l _ _ _ _ Hin) as H1. pose proof (in_combine_r _ _ _ _ Hin) as H2.
      apply in_map_iff in H2 as [s [<- _]]. specialize (Hw0 _ H1). specialize (Hnw s). nra. }
    assert (Hpp : Forall (Qle 0) a0).
    { rewrite Hp, Forall_map. eapply Forall_impl; [|exact Hww]. intros q Hq. apply Qdiv_nonneg; [assumption|].
      pose proof (qsum_nonneg _ Hww).
      destruct (Qlt_le_dec 0 (qsum (map2 Qmult a (map (node_weight sw) L)))); [assumption|].
      exfalso; apply Hnz; lra. }
    split; [assumption|]. now apply deterministic_sample_spec. }
  destruct Hidx as [Hpp (idx & Hg & Hn & Hpos)].
  apply gather_seq_idx in Hg. subst idx.
  assert (Hbnd : Forall (fun i => i < length L)%nat a1).
  { apply gather_bound in H. now rewrite map_length in H. }
  apply (gather_nth (realize indices (0%nat, []))) in H.
  exists (map (fun i => nth i L (0%nat, [])) a1). rewrite map_length.
  split; [|split; [assumption|]].
  - rewrite H, map_map. apply map_ext. intros i. apply map_nth.
  - rewrite Forall_map, Forall_forall. intros i Hi. rewrite Forall_forall in Hpos, Hbnd.
    destruct (Hpos i Hi) as (q & Hq & Hq0). specialize (Hbnd i Hi).
    set (s := nth i L (0%nat, [])).
    assert (Hs : In s L) by now apply nth_In.
    assert (Hval : q == nth i a 0 * node_weight sw s / qsum (map2 Qmult a (map (node_weight sw) L))).
    { subst a0. rewrite nth_error_map in Hq.
      destruct (nth_error (map2 Qmult a (map (node_weight sw) L)) i) as [t|] eqn:Et; [|discriminate].
      injection Hq as <-. apply nth_error_nth_iff with (d := 0) in Et.
      rewrite (map2_nth _ _ _ _ 0 (node_weight sw (0%nat, []))), map_nth in Et;
        [|lia|now rewrite map_length]. fold s in Et. now subst t. }
    assert (Hne : ~ nth i a 0 * node_weight sw s == 0).
    { intros He. rewrite Hval, He in Hq0. unfold Qdiv in Hq0. rewrite Qmult_0_l in Hq0.
      now apply Qlt_irrefl in Hq0. }
    specialize (Hnw s).
    split; [assumption|]. split.
    + unfold base_pos. destruct bw as [w|]; [|exact I]. destruct Hbw as [Hb1 Hb2].
      assert (0 < length indices)%nat as Hpos0.
      { destruct s as [b ps]. apply base_idx_in in Hs; [|assumption]. lia. }
      pose proof (base_weights_correct vol mode X w Xv d c (length indices) Hpos0 Hb1 (realize indices)
                    (fun _ => eq_refl)) as Hbc.
      fold L in Hbc. cbv zeta in Hbc. rewrite Hbc in E. injection E as <-.
      assert (Hnth : nth i (map (fun s0 : simplex => nth (fst s0) w 0) L) 0 = nth (fst s) w 0).
      { rewrite (nth_indep _ 0 (nth (fst (0%nat, @nil nat)) w 0)) by now rewrite map_length.
        rewrite (map_nth (fun s0 : simplex => nth (fst s0) w 0)). reflexivity. }
      rewrite Hnth in Hne.
      assert (0 <= nth (fst s) w 0).
      { destruct (nth_in_or_default (fst s) w 0) as [Hi'| ->]; [|lra]. rewrite Forall_forall in Hb2. auto. }
      destruct (Qlt_le_dec 0 (nth (fst s) w 0)); [assumption|]. exfalso. apply Hne.
      assert (nth (fst s) w 0 == 0) by lra. rewrite H1. ring.
    + destruct (Qlt_le_dec 0 (node_weight sw s)); [assumption|]. exfalso. apply Hne.
      assert (H1 : node_weight sw s == 0) by lra. rewrite H1. ring.
Qed.

(** * The whole sampling routine *)

Lemma qprod_pos_all l : Forall (Qle 0) l -> 0 < qprod l -> Forall (fun x => 0 < x) l.
Proof.
  induction 1 as [|x l Hx Hl IH]; cbn; intros H; constructor.
  - destruct (Qlt_le_dec 0 x); [assumption|]. assert (x == 0) by lra. rewrite H0 in H. nra.
  - apply IH. pose proof (qprod_nonneg _ Hl).
    destruct (Qlt_le_dec 0 (qprod l)); [assumption|]. assert (qprod l == 0) by lra. rewrite H1 in H. nra.
Qed.

Lemma realized_sample d X V indices c nd bw sw s x : (1 <= nd <= c)%nat ->
  In s (base_idx_neighbor_idx_simplices (length indices) c nd) ->
  base_pos bw (fst s) -> 0 < node_weight sw s ->
  match sw with Some w => Forall (Forall (Qle 0)) w | None => True end ->
  convex_comb d (simplex_vertices X V (realize indices s)) x ->
  neighbour_sample d X V indices c (nd - 1) bw sw x.
Proof.
  intros Hd Hs Hb Hw Hsw Hx. destruct s as [b ps]. apply base_idx_in in Hs as (H1 & H2 & H3 & H4); [|assumption].
  exists b, ps. do 5 (split; [assumption|]). split.
  - destruct sw as [w|]; [|exact I]. cbn in Hw. apply qprod_pos_all in Hw.
    + now rewrite Forall_map in Hw.
    + rewrite Forall_map, Forall_forall. intros p _.
      assert (Hr : Forall (Qle 0) (nth b w [])).
      { destruct (nth_in_or_default b w []) as [Hi| ->]; [|constructor]. rewrite Forall_forall in Hsw. auto. }
      destruct (nth_in_or_default p (nth b w []) 0) as [Hi| ->]; [|lra]. rewrite Forall_forall in Hr. auto.
  - unfold simplex_vertices, realize in Hx. cbn [fst snd] in Hx. now rewrite map_map in Hx.
Qed.

Lemma sample_simplex_spec vol ss a n r S :
  args_ok a -> rng_ok r -> sample_simplex vol ss a n r = Ok S ->
  length S = n /\
  (ss_gauss ss = GNone ->
   Forall (neighbour_sample (a_dim a) (a_X a) (vertex_set (a_X a) (a_X_vertices a)) (a_indices a) (a_ncols a)
      (Nat.min (ss_n_dim ss) (a_ncols a) - 1) (a_base_weights a) (a_simplex_weights a)) S).
Proof.
  intros Ha Hr H. destruct Ha as [HX HV Hsame Hrect Hbase Hrange Hbw Hvw Hsw].
  fold (vertex_set (a_X a) (a_X_vertices a)) in *.
  unfold sample_simplex in H. destruct (Nat.eqb_spec n 0) as [->|Hn].
  { injection H as <-. split; [reflexivity|]. constructor. }
  set (nd := Nat.min (ss_n_dim ss) (a_ncols a)) in *. inv_bind H. rename a0 into sims.
  assert (Hd : (1 <= nd <= a_ncols a)%nat).
  { split; [|lia]. destruct (Nat.eqb_spec nd 0) as [E0|]; [|lia]. exfalso.
    unfold simplices_, all_simplices_node_weights, all_neighbor_simplices_real_idx in E.
    rewrite E0 in E. discriminate. }
  apply simplices_spec in E as (sel & -> & Hlen & Hsel); auto.
  inv_bind H. injection H as <-. rename a0 into samples.
  set (V := vertex_set (a_X a) (a_X_vertices a)) in *.
  assert (Hshape : Forall (fun s => (fst s < length (a_X a))%nat /\ Datatypes.S (length (snd s)) = nd)
                          (map (realize (a_indices a)) sel)).
  { rewrite Forall_map. eapply Forall_impl; [|exact Hsel]. intros [b ps] (Hin & _).
    apply base_idx_in in Hin as (H1 & H2 & _); [|assumption]. cbn. rewrite map_length. lia. }
  assert (Hvw' : match a_vertex_weights a with Some w => Forall (fun x => 0 <= x /\ x <= 1) w | None => True end).
  { destruct (a_vertex_weights a); intuition. }
  assert (Hsw' : match a_simplex_weights a with Some w => Forall (Forall (Qle 0)) w | None => True end).
  { destruct (a_simplex_weights a); intuition. }
  assert (G : length samples = n /\
     forall x, In x samples -> exists s, In s sel /\
        convex_comb (a_dim a) (simplex_vertices (a_X a) V (realize (a_indices a) s)) x).
  { destruct (ss_within ss).
    - destruct (rng_unif r Hr (length (map (realize (a_indices a)) sel)) nd) as [Hu1 Hu2].
      eapply random_samples_spec in E; try eassumption.
      split; [apply Forall2_length in E; rewrite map_length in E; lia|].
      intros x Hx. clear - E Hx. fold V in E.
      remember (map (realize (a_indices a)) sel) as l eqn:El. revert sel El Hx.
      induction E as [|s y l l' [_ Hy] E IH]; intros sel El Hx; [destruct Hx|].
      destruct sel as [|s0 sel]; [discriminate|]. cbn in El. injection El as -> ->.
      destruct Hx as [<-|Hx]; [exists s0; cbn; auto|].
      destruct (IH sel eq_refl Hx) as [s1 [? ?]]. exists s1; cbn; auto.
    - unfold deterministic_samples_from_simplices in E.
      destruct (Nat.eqb_spec nd 2) as [E2|]; [|destruct (Nat.eqb_spec nd 1) as [E1|]; [|discriminate]].
      + pose proof (deterministic_dim_2_length _ _ _ _ _ _ E) as Hl. rewrite map_length in Hl.
        split; [lia|]. intros x Hx.
        eapply deterministic_dim_2_convex in E; try eassumption.
        * destruct E as [s [Hs Hc]]. apply in_map_iff in Hs as [s0 [<- Hs0]]. eauto.
        * eapply Forall_impl; [|exact Hshape]. cbn. intros s [_ Hs]. lia.
      + unfold deterministic_samples_dim_1 in E. pose proof (gather_length _ _ _ E) as Hl.
        rewrite !map_length in Hl. split; [lia|]. intros x Hx.
        pose proof (gather_bound _ _ _ E) as Hb.
        apply (gather_nth []) in E. subst samples. rewrite !map_map in Hx.
        apply in_map_iff in Hx as [s [<- Hs]]. exists s. split; [assumption|].
        rewrite Forall_map, Forall_forall in Hshape. destruct (Hshape s Hs) as [Hs1 Hs2].
        unfold simplex_vertices. assert (Hnil : snd (realize (a_indices a) s) = []).
        { destruct (snd (realize (a_indices a) s)); [reflexivity|]. cbn in Hs2. lia. }
        rewrite Hnil. cbn [map]. apply convex_comb_singleton. now apply rect_nth.
    - discriminate. }
  destruct G as [G1 G2]. split.
  - destruct (rng_normal r Hr (length samples) (a_dim a)) as [Hn1 _].
    unfold add_gaussian_noise. destruct (ss_gauss ss); rewrite ?map2_length; lia.
  - intros ->. cbn. rewrite Forall_forall. intros x Hx. destruct (G2 x Hx) as [s [Hs Hc]].
    rewrite Forall_forall in Hsel. destruct (Hsel s Hs) as (S1 & S2 & S3).
    eapply realized_sample; eassumption.
Qed.

(** * The routine does not fail on well-formed input *)

Lemma qsum_pos_in l x : Forall (Qle 0) l -> In x l -> 0 < x -> 0 < qsum l.
Proof. intros Hl Hin Hx. pose proof (qsum_in_le _ _ Hl Hin). lra. Qed.

Lemma simplices_total vol mode X n d c indices bw Xv sw r s0 :
  (1 <= d <= c)%nat -> rect c indices ->
  match bw with Some w => length w = length indices /\ Forall (Qle 0) w | None => True end ->
  match sw with Some w => length w = length indices /\ rect c w /\ Forall (Forall (Qle 0)) w | None => True end ->
  rng_ok r -> mode = SRandom \/ mode = SDeterministic ->
  In s0 (base_idx_neighbor_idx_simplices (length indices) c d) ->
  base_pos bw (fst s0) -> 0 < node_weight sw s0 ->
  exists ss, simplices_ vol mode X n d c indices bw Xv sw r = Ok ss.
Proof.
  intros Hd Hr Hbw Hsw Hrng Hmode Hs0 Hbp Hnp. unfold simplices_.
  rewrite node_weights_correct; [|assumption|assumption|destruct sw; intuition].
  cbn [bind]. set (L := base_idx_neighbor_idx_simplices (length indices) c d) in *.
  assert (HL : (0 < length L)%nat) by (destruct L; [destruct Hs0|cbn; lia]).
  assert (Hnw : forall s, 0 <= node_weight sw s).
  { intros s. apply node_weight_nonneg. destruct sw; intuition. }
  assert (Hw : exists g : simplex -> Q,
     determine_weights vol mode X bw Xv (map (realize indices) L) (length indices) = Ok (map g L)
     /\ (forall s, 0 <= g s) /\ 0 < g s0).
  { destruct bw as [w|].
    - exists (fun s => nth (fst s) w 0). destruct Hbw as [Hb1 Hb2]. split; [|split].
      + apply base_weights_correct; auto.
        destruct s0 as [b ps]. apply base_idx_in in Hs0; [|assumption]. lia.
      + intros s. destruct (nth_in_or_default (fst s) w 0) as [Hi'| ->]; [|lra].
        rewrite Forall_forall in Hb2. auto.
      + exact Hbp.
    - exists (fun _ => 1 / inject_Z (Z.of_nat (length L))).
      assert (0 < 1 / inject_Z (Z.of_nat (length L))).
      { apply Qlt_shift_div_l; [change 0 with (inject_Z 0); rewrite <- Zlt_Qlt; lia|]. lra. }
      split; [|split; [intros; lra|assumption]].
      rewrite map_const_repeat. unfold determine_weights, determine_simplex_distribution, shift_simplices.
      destruct Hmode as [-> | ->]; destruct Xv; rewrite ?map_length; reflexivity. }
  destruct Hw as (g & -> & Hg & Hg0). cbn [bind]. rewrite !map_length, Nat.eqb_refl.
  rewrite map2_map_both. set (w := map (fun x => g x * node_weight sw x) L).
  assert (Hw0 : Forall (Qle 0) w).
  { unfold w. rewrite Forall_map, Forall_forall. intros s _. specialize (Hg s); specialize (Hnw s). nra. }
  assert (Hpos : 0 < qsum w).
  { apply (qsum_pos_in _ (g s0 * node_weight sw s0)); [assumption| |nra].
    unfold w. now apply (in_map (fun x => g x * node_weight sw x)). }
  unfold probabilities. destruct (Qeq_bool (qsum w) 0) eqn:E; [apply Qeq_bool_iff in E; lra|].
  cbn [bind]. set (p := map (fun x => x / qsum w) w).
  assert (Hp : Forall (Qle 0) p).
  { unfold p. rewrite Forall_map. eapply Forall_impl; [|exact Hw0]. intros q Hq. now apply Qdiv_nonneg. }
  assert (Hps : qsum p == 1).
  { unfold p. rewrite qsum_div by lra. field. lra. }
  assert (Hpl : length p = length L) by (unfold p, w; now rewrite !map_length).
  assert (Hsel : exists idx, (match mode with SDeterministic => deterministic_sample (seq 0 (length L)) n p
        | _ => np_choice r (seq 0 (length L)) n p end) = Ok idx /\ Forall (fun i => i < length L)%nat idx).
  { assert (G : forall idx, Forall (fun i => exists q, nth_error p i = Some q /\ 0 < q) idx ->
       gather (seq 0 (length L)) idx = Ok idx /\ Forall (fun i => i < length L)%nat idx).
    { intros idx Hi. assert (F : Forall (fun i => i < length L)%nat idx).
      { eapply Forall_impl; [|exact Hi]. intros i (q & Hq & _). rewrite <- Hpl.
        apply nth_error_Some. congruence. }
      split; [|assumption]. rewrite (gather_map 0%nat) by now rewrite seq_length.
      f_equal. rewrite <- (map_id idx) at 2. apply map_ext_in. intros i Hin.
      rewrite Forall_forall in F. now rewrite seq_nth by auto. }
    destruct Hmode as [-> | ->].
    - unfold np_choice. assert (forallb (fun q => Qle_bool 0 q) p = true) as ->.
      { rewrite forallb_forall. intros q Hq. apply Qle_bool_iff. rewrite Forall_forall in Hp. auto. }
      exists (r_choice r p n). apply G. now apply rng_choice.
    - destruct (deterministic_counts_ok n p Hp Hps) as (cs & E1 & E2 & E3).
      unfold deterministic_sample. rewrite E1. cbn [bind]. exists (counts_to_vector cs). apply G.
      rewrite Forall_forall. intros i Hi. apply counts_to_vector_in in Hi as [c0 [Hc0 Hc1]].
      assert (Hli : (i < length p)%nat).
      { apply Forall2_length in E3. unfold ceil_counts in E3. rewrite map_length in E3.
        rewrite E3. apply nth_error_Some. congruence. }
      destruct (nth_error p i) as [q|] eqn:Eq; [|apply nth_error_None in Eq; lia].
      exists q. split; [reflexivity|].
      destruct (deterministic_counts_fair n p cs i q c0 Hp Hps E1 Eq Hc0) as (_ & _ & H3). auto. }
  destruct Hsel as (idx & -> & Hidx). cbn [bind]. apply gather_total. now rewrite map_length.
Qed.

Lemma normalize_total u : 0 < qsum u -> exists w, normalize u = Ok w.
Proof.
  intros H. unfold normalize. destruct (Qeq_bool (qsum u) 0) eqn:E; [apply Qeq_bool_iff in E; lra|eauto].
Qed.

Lemma simplex_coordinates_total X ss Xv vw :
  Forall (fun s => fst s < length X /\ Forall (fun v => v < length (vertex_set X Xv)) (snd s))%nat ss ->
  match vw with Some w => length w = length (vertex_set X Xv) | None => True end ->
  exists pts, fst (simplex_coordinates X ss Xv vw) = Ok pts.
Proof.
  intros Hs Hw.
  assert (RW : forall V w, length w = length V ->
     Forall (fun s => fst s < length X /\ Forall (fun v => v < length V) (snd s))%nat ss ->
     exists pts, reweight_simplex_vertices X ss V w = Ok pts).
  { clear. intros V w Hw Hs. apply mapM_total. eapply Forall_impl; [|exact Hs]. intros [b vs] [H1 H2].
    unfold reweight_simplex. cbn [fst snd] in *.
    destruct (gather_total w vs) as [r1 ->]. { rewrite Hw. assumption. }
    destruct (get_lt X b H1) as [r2 ->]. destruct (gather_total V vs H2) as [r3 ->].
    cbn [bind]. eauto. }
  assert (PT : forall Y (t : list simplex), Forall (fun s => fst s < length Y /\ Forall (fun v => v < length Y) (snd s))%nat t ->
     exists pts, mapM (simplex_points Y) t = Ok pts).
  { clear. intros Y t H. apply mapM_total. eapply Forall_impl; [|exact H]. intros [b vs] [H1 H2].
    apply gather_total. constructor; assumption. }
  unfold simplex_coordinates. destruct Xv as [V|], vw as [w|]; cbn [fst vertex_set] in *; auto.
  destruct (PT (X ++ V) (shift_simplices (length X) ss)) as [pts ->]; [|cbn; eauto].
  unfold shift_simplices. rewrite Forall_map. eapply Forall_impl; [|exact Hs].
  intros [b vs] [H1 H2]. cbn [fst snd] in *. rewrite app_length. split; [lia|].
  rewrite Forall_map. eapply Forall_impl; [|exact H2]. cbn. lia.
Qed.

Lemma add_samples_total pairs c X V vw :
  Forall (fun pc : nat * nat * nat => (fst (fst pc) < length X /\ snd (fst pc) < length V)%nat) pairs ->
  match vw with Some w => length w = length V | None => True end ->
  exists r, add_samples pairs c X V vw = Ok r.
Proof.
  intros H Hw. unfold add_samples. set (F := filter (fun p => (snd p =? c)%nat) pairs).
  assert (HF : Forall (fun pc : nat * nat * nat => (fst (fst pc) < length X /\ snd (fst pc) < length V)%nat) F).
  { rewrite Forall_forall in *. intros x Hx. apply H. unfold F in Hx. now apply filter_In in Hx. }
  destruct (gather_total X (map fst (map fst F))) as [r1 ->].
  { rewrite !Forall_map. eapply Forall_impl; [|exact HF]. cbn; tauto. }
  destruct (gather_total V (map snd (map fst F))) as [r2 ->].
  { rewrite !Forall_map. eapply Forall_impl; [|exact HF]. cbn; tauto. }
  cbn [bind]. destruct vw as [w|]; cbn [bind]; [|eauto].
  destruct (gather_total w (map snd (map fst F))) as [r3 ->]; [|cbn; eauto].
  rewrite Hw, !Forall_map. eapply Forall_impl; [|exact HF]. cbn; tauto.
Qed.

Lemma deterministic_dim_2_total X ss Xv same vw :
  ss <> [] -> (same = true -> Xv = Some X) ->
  Forall (fun s => fst s < length X /\ length (snd s) = 1 /\
                   Forall (fun v => v < length (vertex_set X Xv)) (snd s))%nat ss ->
  match vw with Some w => length w = length (vertex_set X Xv) | None => True end ->
  exists r, deterministic_samples_dim_2 X ss Xv same vw = Ok r.
Proof.
  intros Hne Hsame Hs Hw. unfold deterministic_samples_dim_2.
  assert (E : mapM second_column ss = Ok (map (fun s => nth 0 (snd s) 0%nat) ss)).
  { clear - Hs. induction Hs as [|[b vs] ss (H1 & H2 & H3) _ IH]; cbn; [reflexivity|].
    destruct vs; [discriminate|]. cbn. rewrite IH. reflexivity. }
  rewrite E. cbn [bind].
  rewrite combine_map_same.
  assert (Hpairs : Forall (fun p => fst p < length X /\ snd p < length (vertex_set X Xv))%nat
     (map (fun s => (fst s, nth 0 (snd s) 0%nat)) ss)).
  { rewrite Forall_map. eapply Forall_impl; [|exact Hs]. intros [b vs] (H1 & H2 & H3). cbn in *.
    destruct vs; [discriminate|]. inversion H3; subst. cbn. auto. }
  set (p0 := map (fun s : nat * list nat => (fst s, nth 0 (snd s) 0%nat)) ss) in *.
  assert (Hp0 : p0 <> []) by (unfold p0; destruct ss; [congruence|discriminate]).
  assert (G : forall pairs V, pairs <> [] ->
      Forall (fun p => fst p < length X /\ snd p < length V)%nat pairs ->
      match vw with Some w => length w = length V | None => True end ->
      exists r, match unique_pairs pairs with
       | [] => Err ValueError
       | _ => let counts := map snd (unique_pairs pairs) in
              do blocks <- mapM (fun c => add_samples (unique_pairs pairs) c X V vw)
                 (filter (fun c => existsb (Nat.eqb c) counts) (seq 1 (list_max counts)));
              Ok (concat blocks)
       end = Ok r).
  { clear. intros pairs V Hne Hb Hw. destruct (unique_pairs pairs) eqn:EU.
    - exfalso. destruct pairs as [|q pairs]; [congruence|].
      pose proof (unique_total pair_eqb pair_ltb (q :: pairs)) as Ht.
      fold (unique_pairs (q :: pairs)) in Ht. rewrite EU in Ht. discriminate.
    - rewrite <- EU. cbv zeta.
      match goal with |- context [mapM ?f ?l] => destruct (mapM_total f l) as [bs Hbs] end.
      + rewrite Forall_forall. intros c _. apply add_samples_total; [|assumption].
        rewrite Forall_forall in *. intros [q c'] Hin. apply Hb.
        apply unique_pairs_in in Hin as [H1 H2]. apply (count_occ_In pair_dec). cbn. lia.
      + rewrite Hbs. cbn. eauto. }
  assert (Hsorted : forall V, Forall (fun p => fst p < length X /\ snd p < length V)%nat p0 -> V = X ->
     Forall (fun p => fst p < length X /\ snd p < length X)%nat (map sort_pair p0)).
  { intros V Hb ->. rewrite Forall_map. eapply Forall_impl; [|exact Hb]. intros [p q] [H1 H2].
    unfold sort_pair. cbn in *. destruct (p <=? q)%nat; cbn; auto. }
  assert (Hms : map sort_pair p0 <> []) by (destruct p0; [congruence|discriminate]).
  destruct Xv as [V|]; [destruct same|]; cbn [vertex_set] in *.
  - specialize (Hsame eq_refl). injection Hsame as ->.
    destruct (G (map sort_pair p0) X Hms (Hsorted X Hpairs eq_refl) Hw) as [r Hr].
    exists r. destruct (unique_pairs (map sort_pair p0)) eqn:EE; exact Hr.
  - destruct (G p0 V Hp0 Hpairs Hw) as [r Hr].
    exists r. destruct (unique_pairs p0) eqn:EE; exact Hr.
  - destruct (G (map sort_pair p0) X Hms (Hsorted X Hpairs eq_refl) Hw) as [r Hr].
    exists r. destruct (unique_pairs (map sort_pair p0)) eqn:EE; exact Hr.
Qed.

(** Some simplex has positive weight. *)
Definition has_weight (a : ss_args) (nd : nat) : Prop :=
  exists s, In s (base_idx_neighbor_idx_simplices (length (a_indices a)) (a_ncols a) nd) /\
    base_pos (a_base_weights a) (fst s) /\ 0 < node_weight (a_simplex_weights a) s.

Lemma sample_simplex_total vol ss a n r :
  args_ok a -> rng_ok r -> unif_pos r ->
  ss_sampling ss = SRandom \/ ss_sampling ss = SDeterministic ->
  (1 <= ss_n_dim ss)%nat -> (1 <= a_ncols a)%nat ->
  (ss_within ss = WRandom \/ (ss_within ss = WDeterministic /\ ss_n_dim ss <= 2)%nat) ->
  has_weight a (Nat.min (ss_n_dim ss) (a_ncols a)) ->
  exists S, sample_simplex vol ss a n r = Ok S.
Proof.
  intros Ha Hr Hup Hmode Hn1 Hc1 Hwithin (s0 & Hs0 & Hs1 & Hs2).
  destruct Ha as [HX HV Hsame Hrect Hbase Hrange Hbw Hvw Hsw].
  fold (vertex_set (a_X a) (a_X_vertices a)) in *.
  unfold sample_simplex. destruct (Nat.eqb_spec n 0) as [->|Hn]; [eauto|].
  set (nd := Nat.min (ss_n_dim ss) (a_ncols a)) in *.
  assert (Hd : (1 <= nd <= a_ncols a)%nat) by lia.
  destruct (simplices_total vol (ss_sampling ss) (a_X a) n nd (a_ncols a) (a_indices a)
     (a_base_weights a) (a_X_vertices a) (a_simplex_weights a) r s0) as [sims Hsims]; auto.
  rewrite Hsims. cbn [bind].
  apply simplices_spec in Hsims as (sel & -> & Hlen & Hsel); auto.
  assert (Hshape : Forall (fun s => (fst s < length (a_X a))%nat /\ Datatypes.S (length (snd s)) = nd /\
              Forall (fun v => v < length (vertex_set (a_X a) (a_X_vertices a)))%nat (snd s))
                          (map (realize (a_indices a)) sel)).
  { rewrite Forall_map. eapply Forall_impl; [|exact Hsel]. intros [b ps] (Hin & _).
    apply base_idx_in in Hin as (H1 & H2 & _ & H4); [|assumption]. cbn. rewrite map_length.
    split; [lia|]. split; [lia|]. rewrite Forall_map, Forall_forall. intros p Hp.
    rewrite Forall_forall in H4. specialize (H4 p Hp).
    assert (Hrow : In (nth b (a_indices a) []) (a_indices a)) by now apply nth_In.
    rewrite Forall_forall in Hrange. specialize (Hrange _ Hrow). rewrite Forall_forall in Hrange.
    apply Hrange, nth_In. unfold rect in Hrect. rewrite Forall_forall in Hrect.
    rewrite (Hrect _ Hrow). lia. }
  assert (Hvw' : match a_vertex_weights a with
     Some w => length w = length (vertex_set (a_X a) (a_X_vertices a)) | None => True end).
  { destruct (a_vertex_weights a); intuition. }
  enough (exists samples, (match ss_within ss with
      | WRandom => fst (random_samples_from_simplices (a_dim a) (a_X a) (map (realize (a_indices a)) sel)
                          (a_X_vertices a) (a_vertex_weights a)
                          (r_unif r (length (map (realize (a_indices a)) sel)) nd))
      | WDeterministic => deterministic_samples_from_simplices nd (a_X a) (map (realize (a_indices a)) sel)
                          (a_X_vertices a) (a_same_object a) (a_vertex_weights a)
      | WOther => Err ValueError
      end) = Ok samples) as [samples ->] by (cbn; eauto).
  destruct Hwithin as [->|[-> Hw2]].
  - unfold random_samples_from_simplices.
    destruct (simplex_coordinates_total (a_X a) (map (realize (a_indices a)) sel) (a_X_vertices a) (a_vertex_weights a))
      as [pts Hpts].
    { eapply Forall_impl; [|exact Hshape]. cbn; tauto. }
    { assumption. }
    destruct (simplex_coordinates _ _ _ _) as [coords after]. cbn [fst] in Hpts |- *. subst coords.
    destruct (mapM_total normalize (r_unif r (length (map (realize (a_indices a)) sel)) nd)) as [ws ->].
    { eapply Forall_impl; [|apply Hup; lia]. intros u Hu. now apply normalize_total. }
    cbn. eauto.
  - unfold deterministic_samples_from_simplices.
    destruct (Nat.eqb_spec nd 2) as [E2|E2].
    + apply deterministic_dim_2_total; auto.
      * destruct sel; [cbn in Hlen; congruence|discriminate].
      * eapply Forall_impl; [|exact Hshape]. cbn. intros s (? & ? & ?). repeat split; auto. lia.
    + assert (nd = 1%nat) as -> by lia. cbn [Nat.eqb]. unfold deterministic_samples_dim_1.
      apply gather_total. rewrite Forall_map. eapply Forall_impl; [|exact Hshape]. cbn; tauto.
Qed.

(** * Vertex weights *)

Lemma convex_comb_pts_eq d pts pts' x :
  Forall2 (fun p q => forall j, (j < d)%nat -> nth j p 0 == nth j q 0) pts pts' ->
  convex_comb d pts x -> convex_comb d pts' x.
Proof.
  intros HF (Hx & ws & Hl & Hp & Hs & Hc). split; [assumption|]. exists ws.
  split; [rewrite Hl; eapply Forall2_length; eassumption|]. split; [assumption|]. split; [assumption|].
  intros j Hj. rewrite (Hc j Hj). clear - HF Hj.
  revert ws; induction HF as [|p q pts pts' H HF IH]; intros [|w ws]; cbn; try reflexivity.
  rewrite IH, (H j Hj). reflexivity.
Qed.

Lemma random_samples_weighted d X ss V w u n_dim samples :
  rect d X -> rect d V ->
  Forall (fun s => S (length (snd s)) = n_dim)%nat ss ->
  length u = length ss ->
  Forall (fun v => length v = n_dim /\ Forall (fun x => 0 <= x /\ x < 1) v) u ->
  forall Xv, vertex_set X Xv = V ->
  fst (random_samples_from_simplices d X ss Xv (Some w) u) = Ok samples ->
  Forall2 (fun s x =>
     convex_comb d (nth (fst s) X [] ::
        map (fun v => toward (nth (fst s) X []) (nth v V []) (nth v w 0) 1) (snd s)) x) ss samples.
Proof.
  intros HX HV Hs Hlu Hu Xv HXv H. unfold random_samples_from_simplices in H.
  assert (Hco : simplex_coordinates X ss Xv (Some w) = (reweight_simplex_vertices X ss V w, ss)).
  { unfold simplex_coordinates. destruct Xv; cbn in HXv; subst; reflexivity. }
  rewrite Hco in H. cbn [fst] in H. inv_bind H. inv_bind H. injection H as <-.
  unfold reweight_simplex_vertices in E0. apply mapM_ok_iff in E0; apply mapM_ok_iff in E. clear Hco.
  revert u a Hlu Hu E Hs. induction E0 as [|[b vs] p ss pts Hp _ IH]; intros u a Hlu Hu E Hs.
  - destruct u; [|discriminate]. inversion E; subst. constructor.
  - destruct u as [|u0 u]; [discriminate|]. inversion E as [|? nw ? ws Hn E']; subst.
    inversion Hu as [|? ? [Hu1 Hu2] Hu']; subst. inversion Hs as [|? ? Hs1 Hs']; subst.
    cbn [map2]. constructor; [|eapply IH; eauto].
    unfold reweight_simplex in Hp. cbn [fst snd] in *. clear IH E' Hs'.
    inv_bind Hp. inv_bind Hp. inv_bind Hp. injection Hp as <-.
    pose proof (gather_bound _ _ _ E0) as B1. pose proof (gather_bound _ _ _ E2) as B3.
    pose proof (get_bound _ _ _ E1) as B2.
    rewrite (get_nth []) in E1 by assumption. injection E1 as <-.
    apply (gather_nth 0) in E0. apply (gather_nth []) in E2. subst a a1.
    rewrite map2_map_both. pose proof (rect_nth d X b HX B2) as Hlb.
    assert (Hrr : rect d (nth b X [] :: map (fun v => vadd (vscale (nth v w 0) (vsub (nth v (vertex_set X Xv) []) (nth b X []))) (nth b X [])) vs)).
    { constructor; [assumption|]. rewrite Forall_map. rewrite Forall_forall in *. intros v Hv.
      rewrite vadd_length, vscale_length, vsub_length, (rect_nth d _ v HV (B3 v Hv)). lia. }
    apply convex_comb_pts_eq with (pts := nth b X [] :: map (fun v => vadd (vscale (nth v w 0) (vsub (nth v (vertex_set X Xv) []) (nth b X []))) (nth b X [])) vs).
    + constructor; [reflexivity|]. clear - HX HV B3 Hlb.
      induction B3 as [|v vs Hv B3 IH]; cbn; constructor; auto. intros j Hj.
      pose proof (rect_nth d _ v HV Hv) as Hlv. rewrite (toward_nth d) by assumption.
      rewrite vadd_nth, vscale_nth, vsub_nth; rewrite ?vscale_length, ?vsub_length; try lia. ring.
    + apply normalize_ok in Hn as (N1 & N2 & N3).
      * apply weighted_sum_convex; auto. cbn. rewrite map_length. lia.
      * eapply Forall_impl; [|exact Hu2]. cbn; tauto.
Qed.

Lemma deterministic_dim_2_direction X ss V vw r x :
  deterministic_samples_dim_2 X ss (Some V) false vw = Ok r -> In x r ->
  exists b v vs t, In (b, v :: vs) ss /\ 0 < t /\ t < 1 /\
    x = toward (nth b X []) (nth v V []) (vweight vw v) t.
Proof.
  intros H Hx. pose proof H as H0. apply deterministic_dim_2_spec in H as [Hp _].
  destruct (in_flat_map_perm _ _ _ _ Hp Hx) as [[[b v] c] [Hin Hxk]].
  apply in_map_iff in Hxk as [k [<- Hk]]. apply in_seq in Hk. cbn [fst snd] in *.
  apply unique_pairs_in in Hin as [Hc1 Hc2].
  assert (Hin : In (b, v) (dim2_pairs (Some V) false ss)) by (apply (count_occ_In pair_dec); lia).
  cbn in Hin. apply in_map_iff in Hin as [[b' vs] [Heq Hin]]. cbn in Heq. injection Heq as -> <-.
  unfold deterministic_samples_dim_2 in H0. inv_bind H0.
  assert (Hv : exists v' vs', vs = v' :: vs').
  { destruct (In_nth_error _ _ Hin) as [i Hi]. destruct (mapM_nth _ _ _ _ _ E Hi) as (y & _ & Hy).
    unfold second_column in Hy. cbn in Hy. destruct vs; [discriminate|eauto]. }
  destruct Hv as (v' & vs' & ->). exists b, v', vs', (fraction k c).
  destruct (fraction_bounds k c ltac:(lia)). cbn. auto.
Qed.

(** * Statements used by PropsSimplex.v *)

Lemma enumeration_spec d c indices :
  (1 <= d <= c)%nat -> rect c indices ->
  exists L : list (nat * list nat),
    all_neighbor_simplices_real_idx d c indices =
      Ok (map (fun s => (fst s, map (fun p => nth p (nth (fst s) indices []) 0%nat) (snd s))) L) /\
    NoDup L /\
    (forall b ps, In (b, ps) L <->
       (b < length indices)%nat /\ length ps = (d - 1)%nat /\ StronglySorted lt ps /\
       Forall (fun p => 1 <= p < c)%nat ps) /\
    map fst L = flat_map (fun b => repeat b (binom (c - 1) (d - 1))) (seq 0 (length indices)) /\
    length L = (length indices * binom (c - 1) (d - 1))%nat.
Proof.
  intros Hd Hr. exists (base_idx_neighbor_idx_simplices (length indices) c d).
  split; [now apply real_idx_correct|]. split; [apply base_idx_NoDup|].
  split; [intros; now apply base_idx_in|]. split; [|apply base_idx_length].
  rewrite base_idx_flat_map. rewrite !flat_map_concat_map, concat_map, map_map. f_equal.
  apply map_ext. intros b. rewrite map_map. cbn. rewrite map_const_repeat, combinations_length, seq_length.
  reflexivity.
Qed.

Lemma base_weights_aligned vol mode X bw Xv d c indices :
  (1 <= d <= c)%nat -> rect c indices -> length bw = length indices -> (0 < length indices)%nat ->
  exists ss, all_neighbor_simplices_real_idx d c indices = Ok ss /\
    determine_weights vol mode X (Some bw) Xv ss (length indices) =
      Ok (map (fun s => nth (fst s) bw 0) ss).
Proof.
  intros Hd Hr Hl Hp. eexists. split; [now apply real_idx_correct|].
  rewrite base_weights_correct; auto. f_equal. rewrite map_map. reflexivity.
Qed.

Lemma simplices_positive vol mode X n d c indices bw Xv sw r ss :
  (1 <= d <= c)%nat -> rect c indices ->
  match bw with Some w => length w = length indices /\ Forall (Qle 0) w | None => True end ->
  match sw with Some w => length w = length indices /\ rect c w /\ Forall (Forall (Qle 0)) w | None => True end ->
  rng_ok r ->
  simplices_ vol mode X n d c indices bw Xv sw r = Ok ss ->
  length ss = n /\
  Forall (fun s => exists ps, (fst s < length indices)%nat /\ length ps = (d - 1)%nat /\
     StronglySorted lt ps /\ Forall (fun p => 1 <= p < c)%nat ps /\
     snd s = map (fun p => nth p (nth (fst s) indices []) 0%nat) ps /\
     match bw with Some w => 0 < nth (fst s) w 0 | None => True end /\
     match sw with Some w => Forall (fun p => 0 < nth p (nth (fst s) w []) 0) ps | None => True end) ss.
Proof.
  intros Hd Hr Hbw Hsw Hrng H. apply simplices_spec in H as (sel & -> & Hl & Hs); auto.
  rewrite map_length. split; [assumption|]. rewrite Forall_map. eapply Forall_impl; [|exact Hs].
  intros [b ps] (Hin & Hb & Hn). apply base_idx_in in Hin as (H1 & H2 & H3 & H4); [|assumption].
  exists ps. cbn [realize fst snd]. do 4 (split; [assumption|]). split; [reflexivity|]. split; [exact Hb|].
  destruct sw as [w|]; [|exact I]. cbn in Hn. apply qprod_pos_all in Hn.
  - now rewrite Forall_map in Hn.
  - destruct Hsw as (_ & _ & Hsw). rewrite Forall_map, Forall_forall. intros p _.
    assert (Hrow : Forall (Qle 0) (nth b w [])).
    { destruct (nth_in_or_default b w []) as [Hi| ->]; [|constructor]. rewrite Forall_forall in Hsw. auto. }
    destruct (nth_in_or_default p (nth b w []) 0) as [Hi| ->]; [|lra]. rewrite Forall_forall in Hrow. auto.
Qed.

Lemma deterministic_allocation n p :
  Forall (Qle 0) p -> qsum p == 1 ->
  exists sel, deterministic_sample (seq 0 (length p)) n p = Ok sel /\ length sel = n /\
    forall i q, nth_error p i = Some q ->
      inject_Z (Z.of_nat n) * q - 1 <= inject_Z (Z.of_nat (count_occ Nat.eq_dec sel i)) /\
      inject_Z (Z.of_nat (count_occ Nat.eq_dec sel i)) < inject_Z (Z.of_nat n) * q + 1 /\
      (In i sel -> 0 < q).
Proof.
  intros Hp Hs. destruct (deterministic_counts_ok n p Hp Hs) as (cs & E & Hsum & Hrel).
  assert (Hlc : length cs = length p).
  { apply Forall2_length in Hrel. unfold ceil_counts in Hrel. now rewrite map_length in Hrel. }
  exists (counts_to_vector cs). unfold deterministic_sample. rewrite E. cbn [bind].
  assert (Hb : Forall (fun i => i < length p)%nat (counts_to_vector cs)).
  { rewrite Forall_forall. intros i Hi. apply counts_to_vector_in in Hi as [c [Hc _]].
    rewrite <- Hlc. apply nth_error_Some. congruence. }
  split; [|split].
  - rewrite (gather_map 0%nat) by now rewrite seq_length. f_equal.
    rewrite <- (map_id (counts_to_vector cs)) at 2. apply map_ext_in. intros i Hi.
    rewrite Forall_forall in Hb. now rewrite seq_nth by auto.
  - rewrite counts_to_vector_length. exact Hsum.
  - intros i q Hq. rewrite counts_to_vector_count.
    assert (Hi : (i < length cs)%nat) by (rewrite Hlc; apply nth_error_Some; congruence).
    destruct (nth_error cs i) as [c|] eqn:Ec; [|apply nth_error_None in Ec; lia].
    rewrite (nth_error_nth_iff _ _ _ 0%nat Ec).
    destruct (deterministic_counts_fair n p cs i q c Hp Hs E Hq Ec) as (F1 & F2 & F3).
    split; [assumption|]. split; [assumption|]. intros Hin.
    apply counts_to_vector_in in Hin as [c' [Hc' Hpos]]. apply F3. congruence.
Qed.

Lemma less_than_one_refuted : exists n p sel i q,
  Forall (Qle 0) p /\ qsum p == 1 /\ nth_error p i = Some q /\
  deterministic_sample (seq 0 (length p)) n p = Ok sel /\
  inject_Z (Z.of_nat n) * q == 1 /\ ~ In i sel.
Proof.
  exists 2%nat, [1#2; 1#4; 1#4], [1;2]%nat, 0%nat, (1#2).
  repeat split; try reflexivity.
  - repeat constructor; unfold Qle; cbn; lia.
  - cbn; lia.
Qed.

Lemma sort_pair_min_max p : sort_pair p = (Nat.min (fst p) (snd p), Nat.max (fst p) (snd p)).
Proof.
  destruct p as [a b]. unfold sort_pair; cbn. destruct (Nat.leb_spec a b); f_equal; lia.
Qed.

Lemma deterministic_evenly_spaced X ss Xv vw r :
  deterministic_samples_dim_2 X ss Xv false vw = Ok r ->
  let V := match Xv with Some V => V | None => X end in
  let edges := map (fun s => let p := (fst s, nth 0 (snd s) 0%nat) in
                   match Xv with
                   | Some _ => p
                   | None => (Nat.min (fst p) (snd p), Nat.max (fst p) (snd p))
                   end) ss in
  exists groups : list ((nat * nat) * nat),
    NoDup (map fst groups) /\
    (forall e c, In (e, c) groups <-> (0 < c)%nat /\ c = count_occ pair_dec edges e) /\
    Permutation r (flat_map (fun g => map (fun k =>
        toward (nth (fst (fst g)) X []) (nth (snd (fst g)) V [])
               (match vw with Some w => nth (snd (fst g)) w 0 | None => 1 end)
               (1 / inject_Z (Z.of_nat (snd g + 1)) * inject_Z (Z.of_nat k)))
        (seq 1 (snd g))) groups) /\
    length r = length ss.
Proof.
  intros H V edges. pose proof (deterministic_dim_2_length _ _ _ _ _ _ H) as Hl.
  apply deterministic_dim_2_spec in H as [Hp _].
  assert (He : dim2_pairs Xv false ss = edges).
  { unfold edges, dim2_pairs. destruct Xv; [reflexivity|]. rewrite map_map. apply map_ext.
    intros s. apply sort_pair_min_max. }
  rewrite He in Hp. exists (unique_pairs edges). split; [apply unique_pairs_NoDup|].
  split; [intros; apply unique_pairs_in|]. split; [|assumption].
  replace (dim2_table X Xv false) with V in Hp by (unfold V; destruct Xv; reflexivity).
  exact Hp.
Qed.

Lemma deterministic_interior d X ss Xv r x :
  rect d X -> rect d (match Xv with Some V => V | None => X end) ->
  deterministic_samples_dim_2 X ss Xv false None = Ok r -> In x r ->
  exists a b t, In a X /\ In b (match Xv with Some V => V | None => X end) /\
    0 < t /\ t < 1 /\
    forall j, (j < d)%nat -> nth j x 0 == nth j a 0 + t * (nth j b 0 - nth j a 0).
Proof.
  intros HX HV H Hx. apply deterministic_dim_2_spec in H as [Hp Hb].
  destruct (in_flat_map_perm _ _ _ _ Hp Hx) as [[[b v] c] [Hin Hxk]].
  apply in_map_iff in Hxk as [k [<- Hk]]. apply in_seq in Hk. cbn [fst snd] in *.
  apply unique_pairs_in in Hin as [Hc1 Hc2].
  assert (Hin : In (b, v) (dim2_pairs Xv false ss)) by (apply (count_occ_In pair_dec); lia).
  rewrite Forall_forall in Hb. specialize (Hb _ Hin). cbn [fst snd] in Hb. destruct Hb as (B1 & B2 & _).
  assert (Ht : dim2_table X Xv false = match Xv with Some V => V | None => X end) by (destruct Xv; reflexivity).
  rewrite Ht in *. exists (nth b X []), (nth v (match Xv with Some V => V | None => X end) []), (fraction k c).
  destruct (fraction_bounds k c ltac:(lia)) as [F1 F2].
  split; [now apply nth_In|]. split; [now apply nth_In|]. split; [assumption|]. split; [assumption|].
  intros j Hj. rewrite (toward_nth d); [|now apply rect_nth|now apply rect_nth|assumption]. cbn [vweight]. ring.
Qed.

Lemma same_set_refuted : exists X w ss r x,
  rect 1 X /\ length w = length X /\ Forall (fun q => 0 <= q /\ q <= 1) w /\
  deterministic_samples_dim_2 X ss None false (Some w) = Ok r /\ In x r /\
  ss = [(1, [0])]%nat /\ nth 0 w 0 == 0 /\
  ~ exists t, Forall2 Qeq x (toward (nth 1 X []) (nth 0 X []) (nth 0 w 0) t).
Proof.
  exists [[0];[4]], [0;1], [(1,[0])]%nat.
  eexists. exists [0 + 1 / 2 * 1 * (1 * (4 - 0))].
  split; [repeat constructor|]. split; [reflexivity|].
  split; [repeat constructor; unfold Qle; cbn; lia|].
  split; [reflexivity|]. split; [left; reflexivity|].
  split; [reflexivity|]. split; [reflexivity|].
  intros [t Ht]. cbn in Ht. inversion Ht as [|? ? ? ? H _]; subst.
  assert (H' : 4 + t * (0 * (0 - 4)) == 4) by ring. rewrite H' in H. revert H. unfold Qeq; cbn. lia.
Qed.

Lemma random_samples_restored d X ss Xv vw u samples :
  fst (random_samples_from_simplices d X ss Xv vw u) = Ok samples ->
  snd (random_samples_from_simplices d X ss Xv vw u) = ss.
Proof.
  unfold random_samples_from_simplices.
  pose proof (simplex_coordinates_restored X ss Xv vw) as R.
  destruct (simplex_coordinates X ss Xv vw) as [coords after]. cbn [fst snd] in *.
  intros H. inv_bind H. inv_bind H. eauto.
Qed.

Lemma restored_on_error_refuted : exists d X ss V u e,
  fst (random_samples_from_simplices d X ss (Some V) None u) = Err e /\
  snd (random_samples_from_simplices d X ss (Some V) None u) <> ss.
Proof.
  exists 1%nat, [[0]], [(0,[1])]%nat, [[1]], [[1#2;1#2]], IndexError.
  split; [reflexivity|]. cbn. congruence.
Qed.
