(** Facts about NEATER of GraphModel.v. *)

From Coq Require Import List ZArith QArith Qabs Qminmax Bool Arith Lia Lqa Sorting.Sorted.
From Verif Require Import Np PyVal NpFacts BaseFacts SimplexModel Spec SpecDanger SpecNoise SpecComp SimplexFacts SimplexGeom Float64
  SamplerModel SamplerFacts OversFacts BaseModel DangerModel DangerFacts ClusterOversModel OversGen ClusterOversFacts CompModel CompFacts
  NearModel SpecNear NearFacts NearFacts2 RegionModel RegionFacts3 LevelModel LevelFacts4 WrapModel SpecWrap WrapFacts WrapFacts2 DirModel SpecDir SearchModel SearchFacts SearchFacts2 GraphModel SpecGraph GraphFacts GraphFacts2.
Import ListNotations.
Open Scope nat_scope.

Definition chance (p : Q * Q) : Prop := (0 <= fst p)%Q /\ (0 <= snd p)%Q /\ (fst p + snd p == 1)%Q.

Lemma closeness_range alpha d : (0 < alpha)%Q -> (0 <= d)%Q -> (0 < closeness alpha d)%Q /\ (closeness alpha d <= alpha)%Q.
Proof.
  intros Ha Hd. unfold closeness.
  assert (H : (0 < 1 / (if Qeq_bool d 0 then 1 # 100000000 else d))%Q).
  { apply Qlt_shift_div_l; [|lra]. destruct (Qeq_bool d 0) eqn:E; [reflexivity|].
    apply Qeq_bool_neq in E. apply Qle_lteq in Hd. destruct Hd as [Hd|Hd]; [exact Hd|]. exfalso. apply E. now symmetry. }
  destruct (Qlt_b alpha _) eqn:E; [split; lra|]. split; [exact H|]. apply Qnot_lt_le. intros C. apply Qlt_b_iff' in C. congruence.
Qed.

Definition cs_ok (alpha : Q) (cq : Q * (Q * Q)) : Prop := (0 < fst cq)%Q /\ (fst cq <= alpha)%Q /\ chance (snd cq).

Lemma qsum_term_nonneg {A} (f : A -> Q) l : (forall a, In a l -> (0 <= f a)%Q) -> (0 <= qsum (map f l))%Q.
Proof.
  induction l as [|a l IH]; intros H; [cbn; lra|]. cbn [map]. rewrite qsum_cons.
  pose proof (H a (or_introl eq_refl)). pose proof (IH (fun b Hb => H b (or_intror Hb))). lra.
Qed.

Lemma qsum_term_le {A} (f g : A -> Q) l : (forall a, In a l -> (f a <= g a)%Q) -> (qsum (map f l) <= qsum (map g l))%Q.
Proof.
  induction l as [|a l IH]; intros H; [cbn; lra|]. cbn [map]. rewrite !qsum_cons.
  pose proof (H a (or_introl eq_refl)). pose proof (IH (fun b Hb => H b (or_intror Hb))). lra.
Qed.

Lemma qsum_term_lt {A} (f g : A -> Q) l : l <> [] -> (forall a, In a l -> (f a < g a)%Q) -> (qsum (map f l) < qsum (map g l))%Q.
Proof.
  destruct l as [|a l]; intros N H; [congruence|]. cbn [map]. rewrite !qsum_cons.
  pose proof (H a (or_introl eq_refl)). pose proof (qsum_term_le f g l (fun b Hb => Qlt_le_weak _ _ (H b (or_intror Hb)))). lra.
Qed.

(** One row: the weights [alpha + u] the two chances are multiplied with. *)
Lemma evolve_ok alpha p cs : (0 < alpha)%Q -> chance p -> Forall (cs_ok alpha) cs ->
  let umin := qsum (map (fun cq => term_min (fst cq) (snd cq)) cs) in
  let umaj := qsum (map (fun cq => term_maj (fst cq) (snd cq)) cs) in
  (0 <= umin)%Q /\ (0 <= umaj)%Q /\
  exists p', evolve alpha p cs = Ok p' /\ chance p' /\
    ((fst p * (alpha + umaj) < snd p * (alpha + umin))%Q -> (fst p' < snd p')%Q) /\
    ((snd p * (alpha + umin) < fst p * (alpha + umaj))%Q -> (snd p' < fst p')%Q).
Proof.
  intros Ha (P0 & P1 & Ps) Hcs umin umaj. rewrite Forall_forall in Hcs.
  assert (Umin : (0 <= umin)%Q).
  { apply qsum_term_nonneg. intros [c [q0 q1]] Hc. destruct (Hcs _ Hc) as (C1 & C2 & Q0 & Q1 & _). cbn in *. unfold term_min. cbn. nra. }
  assert (Umaj : (0 <= umaj)%Q).
  { apply qsum_term_nonneg. intros [c [q0 q1]] Hc. destruct (Hcs _ Hc) as (C1 & C2 & Q0 & Q1 & _). cbn in *. unfold term_maj. cbn. nra. }
  split; [exact Umin|]. split; [exact Umaj|]. unfold evolve. fold umin umaj.
  set (mixed := qsum (map (fun cq => term_mixed (fst cq) p (snd cq)) cs)).
  assert (Umix : (0 <= mixed)%Q).
  { apply qsum_term_nonneg. intros [c [q0 q1]] Hc. destruct (Hcs _ Hc) as (C1 & C2 & Q0 & Q1 & _). cbn in *. unfold term_mixed. cbn.
    assert (0 <= fst p * q0)%Q by nra. assert (0 <= snd p * q1)%Q by nra. assert (0 <= snd p * q0)%Q by nra. assert (0 <= fst p * q1)%Q by nra.
    assert (0 <= c * (snd p * q0 + fst p * q1))%Q by (apply Qmult_le_0_compat; lra). lra. }
  destruct (Qeq_bool (alpha + mixed) 0) eqn:E1; [apply Qeq_bool_iff in E1; lra|].
  set (a1 := (snd p * (alpha + umin))%Q). set (a0 := (fst p * (alpha + umaj))%Q).
  assert (A1 : (0 <= a1)%Q) by (apply Qmult_le_0_compat; lra). assert (A0 : (0 <= a0)%Q) by (apply Qmult_le_0_compat; lra).
  assert (As : (0 < a0 + a1)%Q).
  { destruct (Qlt_le_dec 0 (fst p)) as [H|H].
    - assert (0 < a0)%Q by (apply Qmult_lt_0_compat; lra). lra.
    - assert (0 < a1)%Q by (apply Qmult_lt_0_compat; lra). lra. }
  assert (Hm : (0 < alpha + mixed)%Q) by lra. clear E1. set (m := (alpha + mixed)%Q) in *. clearbody m.
  assert (Hs : (a0 / m + a1 / m == (a0 + a1) / m)%Q) by (field; lra).
  assert (Hp : (0 < a0 / m + a1 / m)%Q) by (rewrite Hs; apply Qlt_shift_div_l; lra).
  destruct (Qeq_bool (a0 / m + a1 / m) 0) eqn:E2; [apply Qeq_bool_iff in E2; lra|].
  eexists. split; [reflexivity|]. unfold chance. cbn [fst snd].
  assert (D0 : (a0 / m / (a0 / m + a1 / m) == a0 / (a0 + a1))%Q) by (field; repeat split; lra).
  assert (D1 : (a1 / m / (a0 / m + a1 / m) == a1 / (a0 + a1))%Q) by (field; repeat split; lra).
  rewrite D0, D1. repeat split.
  - apply Qle_shift_div_l; lra.
  - apply Qle_shift_div_l; lra.
  - field. lra.
  - intros H. unfold Qdiv. apply Qmult_lt_r; [apply Qinv_lt_0_compat; lra|exact H].
  - intros H. unfold Qdiv. apply Qmult_lt_r; [apply Qinv_lt_0_compat; lra|exact H].
Qed.

(** Among neighbours of one class only the chance of that class grows. *)
Lemma evolve_company alpha p cs p' : (0 < alpha)%Q -> (alpha < 1)%Q -> chance p -> Forall (cs_ok alpha) cs -> cs <> [] ->
  evolve alpha p cs = Ok p' ->
  (Forall (fun cq => snd cq = (0, 1)%Q) cs -> (fst p <= snd p)%Q -> (fst p' < snd p')%Q) /\
  (Forall (fun cq => snd cq = (1, 0)%Q) cs -> (snd p <= fst p)%Q -> (snd p' < fst p')%Q).
Proof.
  intros Ha Ha1 Hp Hcs Hne E. destruct (evolve_ok alpha p cs Ha Hp Hcs) as (U1 & U2 & p'' & E' & _ & H1 & H2).
  rewrite E in E'. injection E' as <-. rewrite Forall_forall in Hcs. destruct Hp as (P0 & P1 & Ps). split.
  - intros Hq Hle. rewrite Forall_forall in Hq. apply H1.
    assert (L : (qsum (map (fun cq => term_maj (fst cq) (snd cq)) cs) < qsum (map (fun cq => term_min (fst cq) (snd cq)) cs))%Q).
    { apply qsum_term_lt; [exact Hne|]. intros [c q] Hc. destruct (Hcs _ Hc) as (C1 & C2 & _). specialize (Hq _ Hc). cbn in Hq, C1, C2 |- *. subst q.
      unfold term_maj, term_min. cbn. lra. }
    set (a := qsum (map (fun cq => term_maj (fst cq) (snd cq)) cs)) in *. set (b := qsum (map (fun cq => term_min (fst cq) (snd cq)) cs)) in *.
    clearbody a b. nra.
  - intros Hq Hle. rewrite Forall_forall in Hq. apply H2.
    assert (L : (qsum (map (fun cq => term_min (fst cq) (snd cq)) cs) < qsum (map (fun cq => term_maj (fst cq) (snd cq)) cs))%Q).
    { apply qsum_term_lt; [exact Hne|]. intros [c q] Hc. destruct (Hcs _ Hc) as (C1 & C2 & _). specialize (Hq _ Hc). cbn in Hq, C1, C2 |- *. subst q.
      unfold term_maj, term_min. cbn. lra. }
    set (a := qsum (map (fun cq => term_maj (fst cq) (snd cq)) cs)) in *. set (b := qsum (map (fun cq => term_min (fst cq) (snd cq)) cs)) in *.
    clearbody a b. nra.
Qed.

Section NEATER.

Variable volume : list row -> Q.
Variable dist : row -> row -> Q.
Variable nn : list row -> list row -> nat -> res (list (list nat)).
Hypothesis Hnn : knn_ok dist nn.
Hypothesis Hdist : forall x y, (0 <= dist x y)%Q.

Variables (alpha : Q) (X_all : list row) (n_orig m k : nat) (T : list (list nat)) (base : list (Q * Q)).
Hypothesis Ha : (0 < alpha)%Q.
Hypothesis HX : length X_all = n_orig + m.
Hypothesis HT : length T = m.
Hypothesis HTr : Forall (Forall (fun j => j < length X_all)) T.
Hypothesis HTk : rect (k + 1) T.
Hypothesis Hbase : length base = n_orig.

Definition prob_ok (prob : list (Q * Q)) : Prop :=
  length prob = n_orig + m /\ firstn n_orig prob = base /\ Forall chance prob.

Lemma neater_round_ok prob g : prob_ok prob ->
  exists prob', neater_round dist alpha X_all n_orig T prob g = Ok prob' /\ prob_ok prob' /\
    forall i, i < m -> (alpha < 1)%Q -> 1 <= k ->
      (Forall (fun j => j < n_orig /\ nth_error base j = Some (0, 1)%Q) (tl (nth i T [])) ->
         forall p p', nth_error prob (n_orig + i) = Some p -> nth_error prob' (n_orig + i) = Some p' ->
         (fst p <= snd p)%Q -> (fst p' < snd p')%Q) /\
      (Forall (fun j => j < n_orig /\ nth_error base j = Some (1, 0)%Q) (tl (nth i T [])) ->
         forall p p', nth_error prob (n_orig + i) = Some p -> nth_error prob' (n_orig + i) = Some p' ->
         (snd p <= fst p)%Q -> (snd p' < fst p')%Q).
Proof.
  intros (L & F & C). unfold neater_round.
  set (f := fun it : nat * list nat => _).
  assert (Hcs : forall i, i < m -> exists p x cs, nth_error prob (n_orig + i) = Some p /\ chance p /\
     mapM (fun j => do y <- get X_all j; do q <- get prob j; Ok (closeness alpha (dist x y), q)) (tl (nth i T [])) = Ok cs /\
     Forall (cs_ok alpha) cs /\ length cs = k /\ f (i, nth i T []) = evolve alpha p cs /\
     forall z, Forall (fun j => j < n_orig /\ nth_error base j = Some z) (tl (nth i T [])) -> Forall (fun cq => snd cq = z) cs).
  { intros i Hi.
    destruct (nth_error prob (n_orig + i)) as [p|] eqn:Ep; [|apply nth_error_None in Ep; lia].
    destruct (nth_error X_all (n_orig + i)) as [x|] eqn:Ex; [|apply nth_error_None in Ex; lia].
    assert (Ht : Forall (fun j => j < length X_all) (tl (nth i T []))).
    { rewrite Forall_forall in HTr. pose proof (HTr (nth i T []) (nth_In T [] (eq_ind_r (fun l => i < l) Hi HT))) as H. destruct (nth i T []); [constructor|]. now inversion H. }
    assert (Hl : length (tl (nth i T [])) = k).
    { unfold rect in HTk. rewrite Forall_forall in HTk. pose proof (HTk (nth i T []) (nth_In T [] (eq_ind_r (fun l => i < l) Hi HT))) as H.
      destruct (nth i T []); cbn in *; lia. }
    rewrite Forall_forall in C.
    assert (E : mapM (fun j => do y <- get X_all j; do q <- get prob j; Ok (closeness alpha (dist x y), q)) (tl (nth i T [])) =
      Ok (map (fun j => (closeness alpha (dist x (nth j X_all [])), nth j prob (0, 0)%Q)) (tl (nth i T [])))).
    { apply mapM_map. intros j Hj. rewrite Forall_forall in Ht. specialize (Ht j Hj).
      rewrite (get_nth []) by lia. cbn [bind]. rewrite (get_nth (0, 0)%Q) by lia. reflexivity. }
    exists p, x, (map (fun j => (closeness alpha (dist x (nth j X_all [])), nth j prob (0, 0)%Q)) (tl (nth i T []))).
    split; [reflexivity|]. split; [apply C; eapply nth_error_In; exact Ep|]. split; [exact E|]. split.
    { apply Forall_forall. intros cq Hc. apply in_map_iff in Hc. destruct Hc as (j & <- & Hj). rewrite Forall_forall in Ht. specialize (Ht j Hj).
      unfold cs_ok. cbn [fst snd]. destruct (closeness_range alpha (dist x (nth j X_all [])) Ha (Hdist _ _)). split; [assumption|]. split; [assumption|].
      apply C, nth_In. lia. }
    split; [now rewrite map_length|]. split.
    { unfold f. cbn [fst snd]. unfold get at 1. rewrite Ep. cbn [bind]. unfold get at 1. rewrite Ex. cbn [bind]. rewrite E. reflexivity. }
    intros z Hz. rewrite Forall_forall in Hz. apply Forall_forall. intros cq Hc. apply in_map_iff in Hc. destruct Hc as (j & <- & Hj). cbn [snd].
    destruct (Hz j Hj) as [J1 J2]. rewrite <- F in J2.
    assert (nth_error prob j = Some z).
    { rewrite <- (firstn_skipn n_orig prob). rewrite nth_error_app1; [exact J2|]. rewrite firstn_length. lia. }
    now apply nth_error_nth. }
  destruct (mapM_total f (combine (seq 0 (length T)) T)) as (new & En).
  { apply Forall_forall. intros [i t] Hit. apply (In_nth _ _ (0, [])) in Hit. destruct Hit as (i' & Hi' & Ei).
    rewrite combine_length, seq_length in Hi'. rewrite combine_nth in Ei by now rewrite seq_length. rewrite seq_nth in Ei by lia.
    injection Ei as <- <-. destruct (Hcs i' ltac:(lia)) as (p & x & cs & _ & Hp & _ & Ok1 & _ & E & _). rewrite E.
    destruct (evolve_ok alpha p cs Ha Hp Ok1) as (_ & _ & p' & E' & _). eauto. }
  rewrite En. cbn [bind]. eexists. split; [reflexivity|].
  assert (Ln : length new = m) by (rewrite (mapM_length _ _ _ En), combine_length, seq_length; lia).
  assert (Lf : length (firstn n_orig prob) = n_orig) by (rewrite firstn_length; lia).
  assert (Hnew : forall i, i < m -> exists p x cs p', nth_error prob (n_orig + i) = Some p /\ chance p /\ Forall (cs_ok alpha) cs /\ length cs = k /\
      evolve alpha p cs = Ok p' /\ nth_error new i = Some p' /\ chance p' /\
      (forall z, Forall (fun j => j < n_orig /\ nth_error base j = Some z) (tl (nth i T [])) -> Forall (fun cq => snd cq = z) cs) /\ x = x :> row).
  { intros i Hi. destruct (Hcs i Hi) as (p & x & cs & E1 & Hp & _ & Ok1 & Lk & E & Hz).
    destruct (NpFacts.mapM_nth f _ new i (i, nth i T []) En) as (p' & N1 & N2).
    { rewrite (nth_error_nth' _ (0, [])) by (rewrite combine_length, seq_length; lia).
      rewrite combine_nth by now rewrite seq_length. rewrite seq_nth by lia. reflexivity. }
    rewrite E in N2. exists p, x, cs, p'. destruct (evolve_ok alpha p cs Ha Hp Ok1) as (_ & _ & p'' & E' & Hc & _).
    rewrite N2 in E'. injection E' as <-. exact (conj E1 (conj Hp (conj Ok1 (conj Lk (conj N2 (conj N1 (conj Hc (conj Hz eq_refl)))))))). }
  split.
  { split; [rewrite app_length; lia|]. split.
    - rewrite firstn_app, Lf, Nat.sub_diag, firstn_O, app_nil_r, firstn_firstn, Nat.min_id. exact F.
    - apply Forall_app. split; [rewrite Forall_forall in C; apply Forall_forall; intros q Hq; apply C; rewrite <- (firstn_skipn n_orig prob); apply in_or_app; now left|]. apply Forall_forall. intros q Hq. apply In_nth_error in Hq. destruct Hq as (i & Hi).
      assert (i < m) by (rewrite <- Ln; apply nth_error_Some; congruence).
      destruct (Hnew i H) as (p & x & cs & p' & _ & _ & _ & _ & _ & N & Hc & _). congruence. }
  intros i Hi Ha1 Hk. destruct (Hnew i Hi) as (p & x & cs & p' & E1 & Hp & Ok1 & Lk & E2 & N & Hc & Hz & _).
  destruct (evolve_company alpha p cs p' Ha Ha1 Hp Ok1 ltac:(destruct cs; cbn in Lk; [lia|discriminate]) E2) as [V1 V2].
  split; intros Hall q q' Hq Hq' Hle; rewrite E1 in Hq; injection Hq as <-;
    rewrite nth_error_app2 in Hq' by lia; rewrite Lf in Hq'; replace (n_orig + i - n_orig) with i in Hq' by lia;
    rewrite N in Hq'; injection Hq' as <-; auto.
Qed.

Lemma neater_rounds_ok h prob : prob_ok prob -> Forall (fun p => p = (1 # 2, 1 # 2)%Q) (skipn n_orig prob) ->
  exists prob', foldM (neater_round dist alpha X_all n_orig T) (seq 0 h) prob = Ok prob' /\ prob_ok prob' /\
    (h = 0 -> prob' = prob) /\
    (1 <= h -> (alpha < 1)%Q -> 1 <= k -> forall i p', i < m -> nth_error prob' (n_orig + i) = Some p' ->
      (Forall (fun j => j < n_orig /\ nth_error base j = Some (0, 1)%Q) (tl (nth i T [])) -> (fst p' < snd p')%Q) /\
      (Forall (fun j => j < n_orig /\ nth_error base j = Some (1, 0)%Q) (tl (nth i T [])) -> (snd p' < fst p')%Q)).
Proof.
  intros Hp Hhalf.
  destruct (foldM_trace (neater_round dist alpha X_all n_orig T) prob_ok h 0 prob) as (kept & K0 & E & K1 & K2).
  { intros a g Pa _. destruct (neater_round_ok a g Pa) as (a' & E & Pa' & _). eauto. }
  { exact Hp. }
  exists (kept h). split; [exact E|]. split; [apply K1; lia|]. split; [intros ->; exact K0|].
  intros Hh Ha1 Hk i p' Hi Hp'.
  assert (St : forall g q, g < h -> nth_error (kept (S g)) (n_orig + i) = Some q -> exists p, nth_error (kept g) (n_orig + i) = Some p /\
    (Forall (fun j => j < n_orig /\ nth_error base j = Some (0, 1)%Q) (tl (nth i T [])) -> (fst p <= snd p)%Q -> (fst q < snd q)%Q) /\
    (Forall (fun j => j < n_orig /\ nth_error base j = Some (1, 0)%Q) (tl (nth i T [])) -> (snd p <= fst p)%Q -> (snd q < fst q)%Q)).
  { intros g q Hg Hq. destruct (neater_round_ok (kept g) (0 + g) (K1 g ltac:(lia))) as (a' & E1 & _ & V).
    rewrite (K2 g Hg) in E1. injection E1 as <-.
    destruct (nth_error (kept g) (n_orig + i)) as [p|] eqn:Ep.
    2: { apply nth_error_None in Ep. destruct (K1 g ltac:(lia)) as (L & _). lia. }
    exists p. split; [reflexivity|]. destruct (V i Hi Ha1 Hk) as [V1 V2]. split; intros Hall Hle; [exact (V1 Hall p q Ep Hq Hle)|exact (V2 Hall p q Ep Hq Hle)]. }
  assert (G : forall g q, 1 <= g <= h -> nth_error (kept g) (n_orig + i) = Some q ->
    (Forall (fun j => j < n_orig /\ nth_error base j = Some (0, 1)%Q) (tl (nth i T [])) -> (fst q < snd q)%Q) /\
    (Forall (fun j => j < n_orig /\ nth_error base j = Some (1, 0)%Q) (tl (nth i T [])) -> (snd q < fst q)%Q)).
  { intros g. induction g as [|g IH]; intros q Hg Hq; [lia|]. destruct (St g q ltac:(lia) Hq) as (p & Ep & V1 & V2).
    destruct g as [|g].
    - rewrite K0 in Ep. assert (p = (1 # 2, 1 # 2)%Q).
      { rewrite Forall_forall in Hhalf. apply Hhalf. rewrite <- (firstn_skipn n_orig prob) in Ep.
        destruct Hp as (L & _). rewrite nth_error_app2 in Ep by (rewrite firstn_length; lia). eapply nth_error_In. exact Ep. }
      subst p. cbn [fst snd] in *. split; intros H; [apply V1|apply V2]; auto; apply Qle_refl.
    - destruct (IH p ltac:(lia) Ep) as [W1 W2]. split; intros H; [apply V1|apply V2]; auto; apply Qlt_le_weak; auto. }
  apply (G h); [lia|exact Hp'].
Qed.

End NEATER.

Lemma adasyn_appends dist vol nn p r D mn mj n : knn_ok dist nn -> rng_ok r -> unif_pos r -> plain_ss (ad_ss p) ->
  wf_data (d_X D) (d_dim D) (d_y D) -> is_minority (d_y D) mn mj ->
  asked (adasyn_beta (ad_proportion p) (ad_beta p)) (d_y D) mn mj = Ok n -> 1 <= ad_n_neighbors p ->
  exists S, adasyn_sample vol nn p r D = Ok (d_X D ++ S, d_y D ++ repeat mn (length S)) /\
    adasyn_spec dist p D mn mj (d_X D ++ S) (d_y D ++ repeat mn (length S)).
Proof.
  intros Hnn Hr Hu (P1 & P2 & P3) Hwf Hmin Hn Hk.
  destruct (adasyn_total dist vol nn p r D mn mj n Hnn Hr Hu Hwf Hmin Hn Hk P1 P2 P3) as ([X' y'] & E).
  pose proof (adasyn_cases dist vol nn p r D mn mj X' y' Hnn Hr Hwf Hmin Hk E) as C.
  assert (exists S, X' = d_X D ++ S /\ y' = d_y D ++ repeat mn (length S)) as (S & -> & ->).
  { destruct C as [(-> & -> & _)|(m & S & T & _ & _ & L & -> & -> & _)].
    - exists []. now rewrite !app_nil_r.
    - exists S. now rewrite L. }
  eauto.
Qed.

Lemma nth_map_label (f : Z -> Q * Q) y j z : nth_error y j = Some z -> nth_error (map f y) j = Some (f z).
Proof. intros H. rewrite nth_error_map, H. reflexivity. Qed.

Lemma neater_ok volume dist nn p r1 r2 D mn mj n m :
  knn_ok dist nn -> (forall x y, (0 <= dist x y)%Q) -> rng_ok r1 -> unif_pos r1 -> rng_ok r2 -> unif_pos r2 ->
  wf_data (d_X D) (d_dim D) (d_y D) -> is_minority (d_y D) mn mj ->
  asked (ng_proportion p) (d_y D) mn mj = Ok n -> asked (StFloat f_one) (d_y D) mn mj = Ok m ->
  1 <= ng_smote_n_neighbors p -> 1 <= ng_b p -> (0 < ng_alpha p)%Q -> plain_ss (ng_ss p) ->
  (count_label (d_y D) mn <= 2 \/ n = 0%Z -> unchanged D (neater_sample volume dist nn p r1 r2 D)) /\
  (2 < count_label (d_y D) mn -> (0 < n)%Z -> neater_result dist p D mn mj n (neater_sample volume dist nn p r1 r2 D)).
Proof.
  intros Hnn Hdist Hr1 Hu1 Hr2 Hu2 Hwf Hmin Hn Hm Hk Hb Ha Hss. unfold neater_sample.
  destruct (sample_default (neater_algorithm volume dist nn p r1 r2) D mn mj Hmin) as (st & Hst & ->).
  destruct (stats_labels _ _ _ _ Hst) as [El1 El2].
  destruct (Nat.leb_spec (count_label (d_y D) mn) 2) as [Hle|Hgt].
  { split; [reflexivity|lia]. }
  unfold neater_algorithm. rewrite (det_st_asked _ _ _ _ _ (proj1 Hmin) Hst), Hn. cbn [bind].
  pose proof (asked_some _ _ _ _ _ Hn). split.
  { intros [H'| ->]; [lia|]. reflexivity. }
  intros _ Hpos. destruct (Nat.eqb_spec (Z.to_nat n) 0) as [H0|H0]; [lia|].
  destruct (smote_result dist volume nn (mk_smote (ng_proportion p) (ng_smote_n_neighbors p) (ng_ss p)) r1 D mn mj n Hnn Hr1 Hu1 Hss Hwf Hmin Hn Hk Hgt)
    as (S1 & E1 & _ & HS1). rewrite E1. cbn [bind].
  destruct (adasyn_appends dist volume nn (mk_adasyn (ng_b p) (StFloat f_one) None tolerated (ng_ss p)) r2 D mn mj m Hnn Hr2 Hu2 Hss Hwf Hmin Hm Hb)
    as (S2 & E2 & HS2). rewrite E2. cbn [bind fst].
  exists S1, S2. split; [auto|]. split; [exact HS2|]. cbv zeta.
  rewrite (skipn_app (length (d_X D)) (d_X D) S2), skipn_all, Nat.sub_diag, skipn_O, app_nil_l, <- app_assoc.
  set (S := S1 ++ S2). rewrite skipn_app, skipn_all, Nat.sub_diag, skipn_O, app_nil_l, app_length.
  destruct (Nat.ltb_spec (length (d_X D) + length S) (ng_b p + 1)) as [Hlt|Hge]; (split; [intros H'|intros H']); try lia; [reflexivity|].
  destruct (Hnn (d_X D ++ S) S (ng_b p + 1)) as (T & ET & HT).
  { rewrite app_length. lia. }
  rewrite ET. cbn [bind]. destruct (nearest_table_shape _ _ _ _ _ HT) as (LT & RT & BT).
  set (f := fun l => if Z.eqb l (min_label st) then (0, 1)%Q else (1, 0)%Q).
  set (prob := map f (d_y D) ++ repeat (1 # 2, 1 # 2)%Q (length S)).
  assert (Ly : length (map f (d_y D)) = length (d_X D)) by (rewrite map_length; symmetry; apply Hwf).
  destruct (neater_rounds_ok dist Hdist (ng_alpha p) (d_X D ++ S) (length (d_X D)) (length S) (ng_b p) T (map f (d_y D)) Ha
    ltac:(now rewrite app_length) LT BT RT Ly (ng_h p) prob) as (prob' & EP & (LP & FP & CP) & Z0 & Z1).
  { split; [unfold prob; rewrite app_length, Ly, repeat_length; reflexivity|]. split.
    - unfold prob. rewrite <- Ly, firstn_app, Nat.sub_diag, firstn_O, app_nil_r. apply firstn_all.
    - apply Forall_app. split.
      + apply Forall_forall. intros q Hq. apply in_map_iff in Hq. destruct Hq as (l & <- & _). unfold f. destruct (Z.eqb l _); repeat split; cbn; lra.
      + apply Forall_forall. intros q Hq. apply repeat_spec in Hq. subst q. repeat split; cbn; lra. }
  { unfold prob. rewrite skipn_app, <- Ly, skipn_all, Nat.sub_diag, skipn_O, app_nil_l. apply Forall_forall. intros q Hq. now apply repeat_spec in Hq. }
  rewrite EP. cbn [bind]. eexists. split; [reflexivity|]. unfold neater_labels.
  rewrite map_length, skipn_length, LP. split; [lia|]. split.
  { apply Forall_forall. intros l Hl. apply in_map_iff in Hl. destruct Hl as (q & <- & _). unfold strategy_label. destruct (Qlt_b _ _); auto. }
  split.
  { intros Hh. rewrite (Z0 Hh). unfold prob. rewrite skipn_app, <- Ly, skipn_all, Nat.sub_diag, skipn_O, app_nil_l.
    apply Forall_forall. intros l Hl. apply in_map_iff in Hl. destruct Hl as (q & <- & Hq). apply repeat_spec in Hq. subst q. reflexivity. }
  exists T. split; [exact HT|]. intros Ha1 Hh _ i Hi.
  destruct (nth_error prob' (length (d_X D) + i)) as [q|] eqn:Eq; [|apply nth_error_None in Eq; lia].
  destruct (Z1 Hh Ha1 Hb i q Hi Eq) as [V1 V2].
  assert (Es : nth_error (map strategy_label (skipn (length (d_X D)) prob')) i = Some (strategy_label q)).
  { rewrite nth_error_map. rewrite <- (firstn_skipn (length (d_X D)) prob') in Eq. rewrite nth_error_app2 in Eq by (rewrite firstn_length; lia).
    rewrite firstn_length, Nat.min_l in Eq by lia. replace (length (d_X D) + i - length (d_X D)) with i in Eq by lia. rewrite Eq. reflexivity. }
  rewrite Es. unfold company_of.
  assert (Lyx : length (d_y D) = length (d_X D)) by (symmetry; apply Hwf).
  split; intros Hc; f_equal; unfold strategy_label.
  - replace (Qlt_b (fst q) (snd q)) with true; [reflexivity|]. symmetry. apply Qlt_b_iff', V1.
    eapply Forall_impl; [|exact Hc]. intros j Hj. cbn in Hj. split; [rewrite <- Lyx; apply nth_error_Some; congruence|].
    rewrite (nth_map_label f _ _ _ Hj). unfold f. rewrite El1, Z.eqb_refl. reflexivity.
  - assert (W : (snd q < fst q)%Q).
    { apply V2. eapply Forall_impl; [|exact Hc]. intros j Hj. cbn in Hj. split; [rewrite <- Lyx; apply nth_error_Some; congruence|].
      rewrite (nth_map_label f _ _ _ Hj). unfold f. rewrite El1. destruct (Z.eqb_spec mj mn) as [->|_]; [|reflexivity].
      destruct Hmin as [[N _] _]. congruence. }
    destruct (Qlt_b (fst q) (snd q)) eqn:Eb; [|reflexivity]. apply Qlt_b_iff' in Eb. lra.
Qed.
