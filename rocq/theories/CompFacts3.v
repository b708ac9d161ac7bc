(** Proofs about CompModel: NDO_sampling, polynom_fit_SMOTE (star, bus), SMOTE_D. *)

From Coq Require Import List ZArith QArith Qabs Bool Arith Lia Lqa Qround Sorting.Sorted Permutation.
From Verif Require Import Np PyVal NpFacts SimplexModel Spec SpecDanger SpecComp SimplexFacts SimplexGeom Float64
  SamplerModel SamplerFacts OversFacts BaseModel BaseFacts KnnFacts DangerModel DangerFacts ClusterOversModel OversGen
  ClusterOversFacts CompModel CompFacts CompFacts2.
Import ListNotations.
Open Scope nat_scope.

Lemma on_segment_hull (share : Q -> Prop) d b v x P : (forall t, share t -> (0 <= t <= 1)%Q) ->
  In b P -> In v P -> on_segment share d b v x -> in_hull d P x.
Proof.
  intros Hs Hb Hv (Hl & t & Ht & H). exists [b; v]. split; [intros q [<-|[<-|[]]]; assumption|].
  split; [assumption|]. exists [1 - t; t]%Q. specialize (Hs _ Ht). split; [reflexivity|].
  split; [repeat constructor; lra|]. split; [cbn; ring|]. intros j Hj. rewrite (H j Hj). cbn. ring.
Qed.

Lemma move_segment (share : Q -> Prop) d b v (f : Q -> Q) t : length b = d -> length v = d -> share t ->
  (forall q, (f q == t * q)%Q) -> on_segment share d b v (vadd b (map f (vsub v b))).
Proof.
  intros Hb Hv Ht Hf. split; [rewrite vadd_length, map_length, vsub_length; lia|]. exists t. split; [assumption|].
  intros j Hj. rewrite vadd_nth by (rewrite ?map_length, ?vsub_length; lia).
  rewrite (nth_indep (map f _) 0%Q (f 0%Q)) by (rewrite map_length, vsub_length; lia). rewrite (map_nth f), Hf.
  rewrite vsub_nth by lia. reflexivity.
Qed.

(** * NDO_sampling *)

Lemma ndo_count dist p D mn n T S : ndo_spec dist p D mn n T S -> Z.to_nat n <= length S <= Z.to_nat n + 1.
Proof.
  intros (gs & -> & [H1 H2] & F). split; [assumption|].
  destruct gs as [|g0 gs0] using rev_ind; [cbn in *; lia|]. clear IHgs0.
  rewrite removelast_last in H1. rewrite concat_app, app_length. cbn [concat]. rewrite app_nil_r.
  apply Forall_app in F as [_ F]. apply Forall_inv in F.
  destruct F as (b & i & _ & [(_ & s & -> & _)|(_ & s1 & s2 & -> & _)]); cbn; lia.
Qed.

Lemma ndo_loop_spec dist draws mn d X y X_min T n k fuel gs :
  nearest_table dist X X_min k T -> length X = length y -> rect d X -> rect d X_min -> draws_ok (length X_min) k draws ->
  n <= length (concat gs) + fuel -> fuel <= n ->
  (gs <> [] -> length (concat (removelast gs)) < n) -> 0 < n ->
  Forall (ndo_group d X X_min y mn T) gs ->
  exists gs', ndo_loop fuel draws mn X y X_min T n (concat gs) = Ok (concat gs') /\
    length (concat (removelast gs')) < n <= length (concat gs') /\ Forall (ndo_group d X X_min y mn T) gs'.
Proof.
  intros HT HL R1 R2 Hd. revert gs. induction fuel as [|f IH]; intros gs Hf Hfn Hlt Hn HF; cbn [ndo_loop].
  - destruct (Nat.ltb_spec (length (concat gs)) n); [lia|]. exists gs. split; [reflexivity|]. split; [|assumption].
    split; [|lia]. apply Hlt. intros ->. cbn in *. lia.
  - destruct (Nat.ltb_spec (length (concat gs)) n) as [G|G].
    2:{ exists gs. split; [reflexivity|]. split; [|assumption]. split; [|lia]. apply Hlt. intros ->. cbn in *. lia. }
    set (dr := draws (n - S f)). destruct (Hd (n - S f)) as (D1 & D2 & D3 & D4). fold dr in D1, D2, D3, D4.
    rewrite (get_nth [] X_min (dr_idx dr)) by assumption. cbn [bind].
    destruct (entry_listed _ _ _ _ _ (dr_idx dr) (S (dr_col dr)) HT D1 ltac:(lia)) as (i & Ei & Li & Bi).
    unfold entry in Ei. destruct (get T (dr_idx dr)) as [t|e] eqn:Et; [|discriminate]. cbn [bind] in Ei. cbn [bind].
    assert (Et' : get (tl t) (dr_col dr) = Ok i) by (destruct t; [destruct (dr_col dr); discriminate|exact Ei]).
    rewrite Et'. cbn [bind]. rewrite (get_nth [] X i) by assumption. cbn [bind].
    rewrite (get_nth 0%Z y i) by lia. cbn [bind].
    set (base := nth (dr_idx dr) X_min []). set (v := nth i X []).
    assert (Lb : length base = d) by (now apply rect_nth). assert (Lv : length v = d) by (now apply rect_nth).
    set (s1 := vadd base _). set (s2 := vadd v _).
    assert (Hs1 : on_segment half_share d base v s1).
    { apply (move_segment _ _ _ _ _ (dr_u1 dr / 2)%Q); auto.
      - destruct D3. split; unfold Qdiv; change (/ 2)%Q with (1 # 2)%Q; lra.
      - intros q. field. }
    assert (Hs2 : on_segment half_share d v base s2).
    { apply (move_segment _ _ _ _ _ (dr_u2 dr / 2)%Q); auto.
      - destruct D4. split; unfold Qdiv; change (/ 2)%Q with (1 # 2)%Q; lra.
      - intros q. field. }
    set (g := s1 :: if (nth i y 0 =? mn)%Z then [s2] else []).
    replace (concat gs ++ g) with (concat (gs ++ [g])) by (rewrite concat_app; cbn; now rewrite app_nil_r).
    apply IH; auto.
    + rewrite concat_app, app_length. unfold g. cbn [concat length app]. lia.
    + lia.
    + intros _. rewrite removelast_last. assumption.
    + apply Forall_app. split; [assumption|]. constructor; [|constructor]. exists (dr_idx dr), i. split; [assumption|].
      unfold g. destruct (Z.eqb_spec (nth i y 0%Z) mn) as [E|E]; [right|left]; (split; [assumption|]); eauto 10.
Qed.

(** alpha. *)
Lemma pick_spec dist X X_min y k T lab : nearest_table dist X X_min k T -> length X = length y ->
  exists ls, mapM (fun t => gather y (tl t)) T = Ok ls /\
    concat (map2 (fun ls ds => select (map (Z.eqb lab) ls) (tl ds)) ls (table_dist dist X X_min T)) =
    label_dists dist X X_min y T lab.
Proof.
  intros HT HL. destruct (nearest_table_shape _ _ _ _ _ HT) as (L & R & F).
  exists (map (fun t => map (fun i => nth i y 0%Z) (tl t)) T). split.
  - rewrite <- mapM_pure. apply mapM_ext_in. intros t Ht. apply gather_map. rewrite Forall_forall in F. specialize (F _ Ht).
    rewrite HL in F. destruct t; [constructor|now inversion F].
  - clear HT R F. unfold label_dists, table_dist.
    assert (G : forall (T : list (list nat)) (Xm : list row) off (X_min : list row) (T0 : list (list nat)), length T = length Xm ->
      (forall b, b < length Xm -> nth (off + b) X_min [] = nth b Xm []) -> (forall b, b < length Xm -> nth (off + b) T0 [] = nth b T []) ->
      concat (map2 (fun ls ds => select (map (Z.eqb lab) ls) (tl ds)) (map (fun t => map (fun i => nth i y 0%Z) (tl t)) T)
        (map2 (fun x t => map (fun i => dist x (nth i X [])) t) Xm T)) =
      flat_map (fun b => map (fun i => dist (nth b X_min []) (nth i X []))
        (filter (fun i => Z.eqb lab (nth i y 0%Z)) (tl (nth b T0 [])))) (seq off (length Xm))).
    { clear. induction T as [|t T IH]; intros [|x Xm] off X_min T0 HL H1 H2; try discriminate; [reflexivity|].
      cbn [map map2 concat length seq flat_map]. f_equal.
      - pose proof (H1 0 ltac:(cbn; lia)) as A. pose proof (H2 0 ltac:(cbn; lia)) as B. rewrite Nat.add_0_r in A, B. rewrite A, B. cbn [nth].
        destruct t as [|i0 t]; [reflexivity|]. cbn [tl map]. clear. induction t as [|i t IHt]; [reflexivity|]. cbn.
        destruct (lab =? nth i y 0)%Z; cbn; now rewrite IHt.
      - apply IH; [now injection HL| |]; intros b Hb.
        + replace (S off + b) with (off + S b) by lia. rewrite H1 by (cbn; lia). reflexivity.
        + replace (S off + b) with (off + S b) by lia. rewrite H2 by (cbn; lia). reflexivity. }
    apply G; auto.
Qed.

Lemma Qlt_b_iff a b : Qlt_b a b = true <-> (a < b)%Q.
Proof.
  unfold Qlt_b. rewrite negb_true_iff. split; intros H.
  - apply Qnot_le_lt. intros G. apply Qle_bool_iff in G. congruence.
  - destruct (Qle_bool b a) eqn:E; [|reflexivity]. apply Qle_bool_iff in E. exfalso. lra.
Qed.

Lemma qmean_average l : l <> [] -> qmean l = Ok (average l).
Proof. destruct l; [congruence|reflexivity]. Qed.

Lemma average_nonneg l : Forall (Qle 0) l -> (0 <= average l)%Q.
Proof.
  intros H. unfold average. destruct l as [|a l]; [unfold Qle; cbn; lia|]. apply Qdiv_nonneg; [now apply qsum_nonneg|].
  apply inj_pos. cbn. lia.
Qed.

Lemma label_dists_nonneg dist X X_min y T lab : (forall a b, (0 <= dist a b)%Q) -> Forall (Qle 0) (label_dists dist X X_min y T lab).
Proof.
  intros Hd. apply Forall_forall. intros q Hq. unfold label_dists in Hq. apply in_flat_map in Hq as (b & _ & Hq).
  apply in_map_iff in Hq as (i & <- & _). apply Hd.
Qed.

Lemma determine_alpha_spec dist X X_min y k T mn mj thr : (forall a b, (0 <= dist a b)%Q) ->
  nearest_table dist X X_min k T -> length X = length y ->
  exists a, determine_alpha mn mj y T (table_dist dist X X_min T) = Ok a /\
    (match a with Some a => Qlt_b a thr | None => false end = true <-> dense_minority dist X X_min y T mn mj thr).
Proof.
  intros Hd HT HL. unfold determine_alpha.
  destruct (pick_spec dist X X_min y k T mn HT HL) as (ls & E & P1). destruct (pick_spec dist X X_min y k T mj HT HL) as (ls' & E' & P2).
  rewrite E in E'. injection E' as <-. rewrite E. cbn [bind]. cbv zeta. rewrite P1, P2. unfold dense_minority.
  pose proof (label_dists_nonneg dist X X_min y T mj Hd) as N2.
  set (intra := label_dists dist X X_min y T mn) in *. set (exter := label_dists dist X X_min y T mj) in *.
  destruct intra as [|i0 intra'] eqn:Ei.
  { eexists. split; [reflexivity|]. rewrite Qlt_b_iff. split; [tauto|]. intros [[_ H]|[H _]]; [assumption|congruence]. }
  rewrite qmean_average by discriminate. cbn [bind].
  destruct exter as [|e0 exter'] eqn:Ee.
  { eexists. split; [reflexivity|]. split; [discriminate|]. intros [[H _]|(_ & H & _)]; congruence. }
  rewrite qmean_average by discriminate. cbn [bind]. rewrite <- Ei, <- Ee in *.
  pose proof (average_nonneg _ N2) as A0.
  destruct (Qeq_bool (average exter) 0) eqn:Ez.
  { apply Qeq_bool_iff in Ez. eexists. split; [reflexivity|]. split; [discriminate|].
    intros [[H _]|(_ & _ & H & _)]; [rewrite Ei in H; discriminate|exfalso; lra]. }
  assert (Hpos : (0 < average exter)%Q).
  { apply Qle_lteq in A0 as [A0|A0]; [assumption|]. symmetry in A0. apply Qeq_bool_iff in A0. congruence. }
  eexists. split; [reflexivity|]. rewrite Qlt_b_iff. split.
  - intros H. right. split; [rewrite Ei; discriminate|]. split; [rewrite Ee; discriminate|]. split; [assumption|].
    apply (Qmult_lt_r _ _ _ Hpos) in H. unfold Qdiv in H. rewrite <- Qmult_assoc, (Qmult_comm (/ _)), Qmult_inv_r, Qmult_1_r in H by lra. assumption.
  - intros [[H _]|(_ & _ & _ & H)]; [rewrite Ei in H; discriminate|]. apply Qlt_shift_div_r; assumption.
Qed.

Lemma ndo_runs dist vol nn p draws r D mn mj n :
  knn_ok dist nn -> (forall a b, (0 <= dist a b)%Q) -> wf_data (d_X D) (d_dim D) (d_y D) -> is_minority (d_y D) mn mj ->
  asked (nd_proportion p) (d_y D) mn mj = Ok n -> 1 <= nd_n_neighbors p ->
  draws_ok (count_label (d_y D) mn) (Nat.min (length (d_X D)) (nd_n_neighbors p + 1)) draws ->
  let X_min := rows_with mn (d_X D) (d_y D) in
  let out := ndo_sample vol dist nn p draws r D in
  (count_label (d_y D) mn <= 2 \/ n = 0%Z -> unchanged D out) /\
  (2 < count_label (d_y D) mn -> (0 < n)%Z ->
   exists T, nearest_table dist (d_X D) X_min (Nat.min (length (d_X D)) (nd_n_neighbors p + 1)) T /\
     (dense_minority dist (d_X D) X_min (d_y D) T mn mj (nd_T p) ->
        out = smote_sample vol nn (mk_smote (nd_proportion p) 5 (nd_ss p)) r D) /\
     (~ dense_minority dist (d_X D) X_min (d_y D) T mn mj (nd_T p) ->
        appends D mn (ndo_spec dist p D mn n T) out)).
Proof.
  intros Hnn Hd0 [Hr Hl] Hmin Ha Hk Hdr X_min out.
  set (body := fun k st D => 
    let X_min := rows_with (min_label st) (d_X D) (d_y D) in
    do ind <- nn (d_X D) X_min (Nat.min (length (d_X D)) (nd_n_neighbors p + 1));
    do alpha <- determine_alpha (min_label st) (maj_label st) (d_y D) ind (table_dist dist (d_X D) X_min ind);
    if match alpha with Some a => Qlt_b a (nd_T p) | None => false end
    then smote_sample vol nn (mk_smote (nd_proportion p) 5 (nd_ss p)) r D
    else
      do samples <- ndo_loop k draws (min_label st) (d_X D) (d_y D) X_min ind k [];
      Ok (extended D st samples)).
  destruct (sample_shape body (nd_proportion p) D mn mj n Hmin Ha) as (st & Hst & E). match type of E with _ = ?rhs => change (out = rhs) in E end.
  assert (HL : length X_min = count_label (d_y D) mn) by now apply rows_with_length.
  split.
  { intros G. unfold unchanged. rewrite E. destruct (Nat.leb_spec (count_label (d_y D) mn) 2); [reflexivity|].
    destruct G as [G| ->]; [lia|reflexivity]. }
  intros H2 Hn. destruct (Nat.leb_spec (count_label (d_y D) mn) 2); [lia|]. destruct (Z.eqb_spec n 0); [lia|]. cbn [orb] in E.
  unfold body in E. destruct Hst as (E1 & E2 & _). rewrite E1, E2 in E. fold X_min in E.
  destruct (Hnn (d_X D) X_min (Nat.min (length (d_X D)) (nd_n_neighbors p + 1))) as (T & ET & HT); [lia|].
  exists T. split; [assumption|]. rewrite ET in E. cbn [bind] in E.
  destruct (determine_alpha_spec dist (d_X D) X_min (d_y D) _ T mn mj (nd_T p) Hd0 HT Hl) as (a & Eal & Hal).
  rewrite Eal in E. cbn [bind] in E.
  destruct (match a with Some a => Qlt_b a (nd_T p) | None => false end) eqn:Eb.
  - split; [intros _; assumption|]. intros G. exfalso. apply G, Hal. reflexivity.
  - split; [intros G; apply Hal in G; discriminate|]. intros _.
    destruct (ndo_loop_spec dist draws mn (d_dim D) (d_X D) (d_y D) X_min T (Z.to_nat n) _ (Z.to_nat n) [] HT Hl Hr) as (gs & Eg & C & F); auto;
      try (now apply rows_with_rect); try (rewrite HL; assumption); try (cbn; lia); try congruence.
    cbn [concat] in Eg. rewrite Eg in E. cbn [bind] in E. exists (concat gs). unfold extended in E. rewrite E1 in E.
    split; [assumption|]. exists gs. auto.
Qed.

(** * polynom_fit_SMOTE *)

Lemma rint_ratio n m : 0 < m -> rounded_ratio n m (poly_kdx n m).
Proof.
  intros Hm. unfold poly_kdx. set (q := (inject_Z (Z.of_nat n) / inject_Z (Z.of_nat m))%Q).
  assert (Hmq : (0 < inject_Z (Z.of_nat m))%Q) by now apply inj_pos.
  assert (Hq : (0 <= q)%Q) by (apply Qdiv_nonneg; [change 0%Q with (inject_Z 0); rewrite <- Zle_Qle; lia|assumption]).
  assert (Eq : (q * inject_Z (Z.of_nat m) == inject_Z (Z.of_nat n))%Q) by (unfold q; field; lra).
  pose proof (Qfloor_le q) as F1. pose proof (Qlt_floor q) as F2.
  assert (F0 : (0 <= Qfloor q)%Z) by (apply Z.le_trans with (Qfloor 0); [reflexivity|]; now apply Qfloor_resp_le).
  set (f := Qfloor q) in *.
  assert (G1 : (f * Z.of_nat m <= Z.of_nat n)%Z).
  { rewrite Zle_Qle, inject_Z_mult, <- Eq. apply Qmult_le_compat_r; [assumption|lra]. }
  assert (G2 : (Z.of_nat n < (f + 1) * Z.of_nat m)%Z).
  { rewrite Zlt_Qlt, inject_Z_mult, <- Eq. apply Qmult_lt_r; assumption. }
  assert (C : match (q - inject_Z f ?= 1 # 2)%Q with
     | Lt => (2 * (Z.of_nat n - f * Z.of_nat m) < Z.of_nat m)%Z
     | Eq => (2 * (Z.of_nat n - f * Z.of_nat m) = Z.of_nat m)%Z
     | Gt => (2 * (Z.of_nat n - f * Z.of_nat m) > Z.of_nat m)%Z end).
  { assert (K : forall a b : Z, (inject_Z a < inject_Z b)%Q -> (a < b)%Z) by (intros a b; now rewrite <- Zlt_Qlt).
    assert (E2 : (inject_Z (2 * (Z.of_nat n - f * Z.of_nat m)) == 2 * (q - inject_Z f) * inject_Z (Z.of_nat m))%Q).
    { rewrite inject_Z_mult. unfold Z.sub. rewrite inject_Z_plus, inject_Z_opp, inject_Z_mult, <- Eq. change (inject_Z 2) with 2%Q. ring. }
    destruct (q - inject_Z f ?= 1 # 2)%Q eqn:E.
    - apply Qeq_alt in E. rewrite E in E2. assert (E3 : (inject_Z (2 * (Z.of_nat n - f * Z.of_nat m)) == inject_Z (Z.of_nat m))%Q) by (rewrite E2; ring).
      apply inject_Z_injective. exact E3.
    - apply Qlt_alt in E. apply K. rewrite E2. nra.
    - apply Qgt_alt in E. apply Z.lt_gt, K. rewrite E2. nra. }
  exists (Z.to_nat (rint q)). unfold rint. fold f.
  assert (P : forall z : Z, (0 <= z)%Z -> Z.to_nat (Z.max 1 z) = Nat.max 1 (Z.to_nat z)) by (intros; lia).
  assert (Ev : forall z : Z, (0 <= z)%Z -> Z.even z = true -> Nat.Even (Z.to_nat z)).
  { intros z Hz He. apply Z.even_spec in He as (w & ->). exists (Z.to_nat w). lia. }
  destruct (q - inject_Z f ?= 1 # 2)%Q eqn:E.
  - destruct (Z.even f) eqn:Ef.
    + split; [apply P; lia|]. rewrite Z2Nat.id by lia. split; [lia|]. intros _. now apply Ev.
    + split; [apply P; lia|]. rewrite Z2Nat.id by lia. split; [lia|]. intros _. apply Ev; [lia|].
      rewrite Z.even_add, Ef. reflexivity.
  - split; [apply P; lia|]. rewrite Z2Nat.id by lia. split; lia.
  - split; [apply P; lia|]. rewrite Z2Nat.id by lia. split; lia.
Qed.

Lemma concat_block {A} (d : A) k (ls : list (list A)) a i : Forall (fun l => length l = k) ls -> a < length ls -> i < k ->
  nth (a * k + i) (concat ls) d = nth i (nth a ls []) d.
Proof.
  revert a. induction ls as [|l ls IH]; intros a H Ha Hi; [cbn in Ha; lia|]. inversion H; subst. cbn [concat].
  destruct a as [|a]; cbn [nth].
  - rewrite app_nth1 by lia. f_equal.
  - rewrite app_nth2 by (cbn; lia). replace (S a * length l + i - length l) with (a * length l + i) by (cbn; lia).
    apply IH; auto. cbn in Ha. lia.
Qed.

Lemma poly_points_spec d k bases diffs target : length diffs = length bases ->
  (forall a, a < length bases -> length (nth a bases []) = d /\ length (target a) = d /\ nth a diffs [] = vsub (target a) (nth a bases [])) ->
  divides d k bases target (poly_points (poly_splits k) bases diffs).
Proof.
  intros HL H. unfold divides, poly_points.
  set (f := fun b dd => map (fun s => vadd (map (fun t => t * s)%Q dd) b) (poly_splits k)).
  assert (Lk : length (poly_splits k) = k) by (unfold poly_splits; now rewrite map_length, seq_length).
  assert (Hf : Forall (fun l : list row => length l = k) (map2 f bases diffs)).
  { apply Forall_forall. intros l Hl. apply map2_in in Hl as (a & b & _ & ->). unfold f. now rewrite map_length. }
  assert (Lm : length (map2 f bases diffs) = length bases) by (rewrite map2_length; lia).
  split.
  - clear - Hf Lm. rewrite <- Lm. clear Lm. induction Hf; cbn; [lia|]. rewrite app_length. lia.
  - intros a i Ha Hi. rewrite (concat_block [] k) by (auto; lia). rewrite (map2_nth _ _ _ _ [] [] []) by lia.
    destruct (H a Ha) as (H1 & H2 & H3). rewrite H3. unfold f.
    set (g := fun s => vadd (map (fun t => t * s)%Q (vsub (target a) (nth a bases []))) (nth a bases [])).
    rewrite (nth_indep (map g _) [] (g 0%Q)) by (rewrite map_length; lia). rewrite (map_nth g). unfold g.
    unfold poly_splits. rewrite (nth_indep (map _ (seq 1 k)) 0%Q ((fun i => inject_Z (Z.of_nat i) / inject_Z (Z.of_nat (k + 1)))%Q 0)) by (rewrite map_length, seq_length; lia).
    rewrite (map_nth (fun i => inject_Z (Z.of_nat i) / inject_Z (Z.of_nat (k + 1)))%Q), seq_nth by lia.
    replace (1 + i) with (i + 1) by lia. set (t := (inject_Z (Z.of_nat (i + 1)) / inject_Z (Z.of_nat (k + 1)))%Q).
    split; [rewrite vadd_length, map_length, vsub_length; lia|]. exists t. split; [reflexivity|]. intros j Hj.
    rewrite vadd_nth by (rewrite ?map_length, ?vsub_length; lia).
    rewrite (nth_indep (map _ _) 0%Q ((fun q => q * t)%Q 0%Q)) by (rewrite map_length, vsub_length; lia). rewrite (map_nth (fun q => q * t)%Q).
    rewrite vsub_nth by lia. ring.
Qed.

Lemma removelast_firstn' {A} (l : list A) : removelast l = firstn (length l - 1) l.
Proof.
  destruct l as [|a l]; [reflexivity|]. cbn [length]. rewrite Nat.sub_succ, Nat.sub_0_r.
  apply (removelast_firstn_len (a :: l)).
Qed.

Lemma nested_default alg D : forall mn mj, is_minority (d_y D) mn mj ->
  sample_with checks_default (fun _ D' => sample_with checks_default alg D') D = sample_with checks_default alg D.
Proof.
  intros mn mj Hmin.
  destruct (sample_default (fun _ D' => sample_with checks_default alg D') D mn mj Hmin) as (st & _ & ->).
  destruct (sample_default alg D mn mj Hmin) as (st' & _ & ->). destruct (_ <=? 2); reflexivity.
Qed.

Lemma polynom_runs prop top D mn mj n :
  wf_data (d_X D) (d_dim D) (d_y D) -> is_minority (d_y D) mn mj -> asked prop (d_y D) mn mj = Ok n ->
  runs D mn n (poly_spec top D mn n) (polynom_sample prop top D).
Proof.
  intros [Hr Hl] Hmin Ha. unfold polynom_sample. rewrite (nested_default _ _ _ _ Hmin). unfold polynom_algorithm.
  apply (runs_intro _ _ _ _ _ _ _ Hmin Ha). intros st (E1 & E2 & _) H2 Hn. rewrite E1.
  set (X_min := rows_with mn (d_X D) (d_y D)).
  assert (HL : length X_min = count_label (d_y D) mn) by now apply rows_with_length.
  assert (HR : rect (d_dim D) X_min) by now apply rows_with_rect.
  set (k := poly_kdx (Z.to_nat n) (length X_min)).
  assert (HK : rounded_ratio (Z.to_nat n) (length X_min) k) by (apply rint_ratio; lia).
  assert (Hk1 : 1 <= k) by (destruct HK as (r & -> & _); lia).
  destruct top; cbn [bind].
  - destruct (mean_row_spec (d_dim D) X_min) as (c & Ec & Lc & _); [apply nonempty_length; lia|assumption|].
    rewrite Ec. cbn [bind]. set (S := poly_points _ _ _).
    assert (HS : divides (d_dim D) k X_min (fun _ => c) S).
    { apply poly_points_spec; [apply map_length|]. intros a Hb. split; [now apply rect_nth|]. split; [assumption|].
      rewrite (nth_indep _ [] (vsub c [])) by (rewrite map_length; lia). apply (map_nth (fun x => vsub c x)). }
    destruct S as [|s0 S'] eqn:ES.
    { exfalso. destruct HS as [HS _]. cbn in HS. nia. }
    rewrite <- ES in *. exists S. split; [reflexivity|]. exists k. split; [assumption|]. exists c. split; [assumption|]. split; [|assumption].
    intros j Hj. unfold mean_row in Ec.
    pose proof (ClusterOversFacts.mapM_nth _ _ _ 0 0%Q j Ec) as Q. cbv beta in Q. rewrite seq_length in Q. specialize (Q Hj).
    rewrite seq_nth in Q by assumption. cbn [Nat.add] in Q. unfold qmean in Q.
    assert (Lcol : length (column j X_min) = length X_min) by apply map_length.
    destruct (column j X_min) as [|q0 col] eqn:Ecol; [discriminate|]. rewrite <- Ecol in *. rewrite Lcol in Q.
    assert (Q' : nth j c 0%Q = (qsum (column j X_min) / inject_Z (Z.of_nat (length X_min)))%Q) by congruence.
    rewrite Q'. reflexivity.
  - set (S := poly_points _ _ _).
    assert (HS : divides (d_dim D) k (firstn (length X_min - 1) X_min) (fun a => nth (a + 1) X_min []) S).
    { unfold S. rewrite removelast_firstn'. apply poly_points_spec.
      - rewrite map2_length, firstn_length. destruct X_min; cbn [tl length]; lia.
      - rewrite firstn_length. intros a Hb.
        assert (En : nth a (firstn (length X_min - 1) X_min) [] = nth a X_min []).
        { rewrite <- (firstn_skipn (length X_min - 1) X_min) at 3. rewrite app_nth1 by (rewrite firstn_length; lia). reflexivity. }
        rewrite En. split; [apply rect_nth; [assumption|lia]|]. split; [apply rect_nth; [assumption|lia]|].
        rewrite (map2_nth _ _ _ _ [] [] []) by (destruct X_min; cbn [tl length] in *; lia).
        destruct X_min as [|x0 X']; [cbn in *; lia|]. cbn [tl]. replace (a + 1) with (Datatypes.S a) by lia. reflexivity. }
    destruct S as [|s0 S'] eqn:ES.
    { exfalso. destruct HS as [HS _]. rewrite firstn_length in HS. cbn [length] in HS. nia. }
    rewrite <- ES in *. exists S. split; [reflexivity|]. exists k. split; assumption.
Qed.
