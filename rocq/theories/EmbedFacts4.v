(** Proofs about MOT2LD. *)

From Coq Require Import List ZArith QArith Qabs Qminmax Qround Qpower Bool Arith Lia Lqa Sorting.Sorted Permutation.
From Verif Require Import Np PyVal NpFacts BaseFacts SimplexModel Spec SpecDanger SpecNoise SpecComp SimplexFacts SimplexGeom Float64
  SamplerModel SamplerFacts OversFacts BaseModel KnnFacts DangerModel DangerFacts BorderFacts ClusterModel NearModel ClusterOversModel OversGen
  ClusterOversFacts ClusterFacts NoiseModel NoiseFacts NoiseFacts2 CompModel CompFacts CompFacts2 CompFacts3 CompFacts4 EditModel SpecEdit EditFacts EditFacts3 EditFacts4 EditFacts5
  SpecNear NearFacts NearFacts2 LevelModel SpecLevel LevelFacts LevelFacts3 LevelFacts4 SpecGroup GroupFacts GroupFacts2 GroupFacts4 WrapModel SpecWrap WrapFacts WrapFacts2 WrapFacts3 DirModel SpecDir DirFacts DirFacts3 RegionModel SpecRegion RegionFacts RegionFacts2 RegionFacts3 RegionFacts4 SearchModel SpecSearch SearchFacts2 GraphModel SpecGraph GraphFacts GraphFacts2 GraphFacts4 GraphFacts5 GraphFacts6 GraphFacts8 MixModel SpecMix MixFacts MixFacts3 MixFacts4 EmbedModel SpecEmbed EmbedFacts EmbedFacts2 EmbedFacts3.
Import ListNotations.
Open Scope nat_scope.

(** ** Lists *)

Lemma mapM_val {A B} (g : A -> res B) h l : (forall x, In x l -> g x = Ok (h x)) -> mapM g l = Ok (map h l).
Proof. intros H. rewrite (mapM_ext_in _ _ _ H). apply mapM_pure. Qed.

Lemma combine_by_seq {A B} a b (l1 : list A) : forall (l2 : list B), length l1 = length l2 ->
  combine l1 l2 = map (fun i => (nth i l1 a, nth i l2 b)) (seq 0 (length l1)).
Proof.
  induction l1 as [|x l1 IH]; intros [|z l2] H; try discriminate; [reflexivity|]. cbn [combine length seq map nth]. f_equal.
  rewrite <- seq_shift, map_map. apply IH. now injection H.
Qed.

Lemma find_first (r : nat) l : forall s,
  match find (fun jr => r <? snd jr) (combine (seq s (length l)) l) with
  | Some (j, v) => exists i, j = s + i /\ i < length l /\ v = nth i l 0 /\ r < nth i l 0 /\ forall i', i' < i -> nth i' l 0 <= r
  | None => forall i, i < length l -> nth i l 0 <= r
  end.
Proof.
  induction l as [|x l IH]; intros s; cbn [length seq combine find]; [cbn; lia|]. cbn [snd].
  destruct (Nat.ltb_spec r x) as [H|H].
  - exists 0. cbn. repeat split; try lia.
  - specialize (IH (S s)). destruct (find _ _) as [[j v]|].
    + destruct IH as (i & -> & I1 & I2 & I3 & I4). exists (S i). cbn. repeat split; try lia; auto. intros [|i'] Hi; [lia|]. apply I4. lia.
    + intros [|i] Hi; cbn; [lia|]. apply IH. lia.
Qed.

Lemma sorted_pairs {A} (R : A -> A -> Prop) a l : StronglySorted R l -> forall i j, i < j -> j < length l -> R (nth i l a) (nth j l a).
Proof.
  induction 1 as [|x l H IH F]; intros i j Hi Hj; cbn in Hj; [lia|]. destruct j as [|j]; [lia|]. destruct i as [|i]; cbn.
  - rewrite Forall_forall in F. apply F, nth_In. lia.
  - apply IH; lia.
Qed.

Lemma sorted_weaken {A} (R R' : A -> A -> Prop) l : (forall x z, In x l -> In z l -> R x z -> R' x z) -> StronglySorted R l -> StronglySorted R' l.
Proof.
  intros H S. induction S as [|x l S IH F]; constructor.
  - apply IH. intros u v Hu Hv. apply H; now right.
  - rewrite Forall_forall in *. intros z Hz. apply H; [now left|now right|now apply F].
Qed.

(** ** The peaks *)

Section Peaks.

Variable dist : row -> row -> Q.

Lemma density_peaks_ok P (f : row -> nat) I : P <> [] -> nearest_table dist P P (length P) I ->
  exists delta idx, density_peaks dist P (map f P) I = Ok (delta, idx) /\ mot_profile dist P (fun i => f (nth i P [])) idx delta.
Proof.
  intros Hne HI. destruct (nearest_table_shape _ _ _ _ _ HI) as (I1 & I2 & I3). set (m := length P) in *.
  unfold density_peaks. set (drow := fun xt : row * list nat => map (dist (fst xt)) (rows_at P (snd xt))).
  rewrite (mapM_val _ drow).
  2:{ intros [x t] Hx. apply in_combine_r in Hx. rewrite Forall_forall in I3. cbn [fst snd]. rewrite gather_rows_at by now apply I3. reflexivity. }
  cbn [bind]. set (dists := map drow (combine P I)).
  assert (Eds : dists = map (fun i => map (fun j => dist (nth i P []) (nth j P [])) (nth i I [])) (seq 0 m)).
  { unfold dists. rewrite (combine_by_seq [] []) by lia. rewrite map_map. apply map_ext. intros i. unfold drow, rows_at. cbn [fst snd]. now rewrite map_map. }
  assert (Hperm : forall i, i < m -> Permutation (nth i I []) (seq 0 m)) by (intros i Hi; now apply (table_perm dist P P)).
  assert (Hm : 0 < m) by (unfold m; destruct P; [congruence|cbn; lia]).
  assert (Hin : forall q, In q (concat dists) <-> exists a b, In a P /\ In b P /\ q = dist a b).
  { intros q. rewrite in_concat. split.
    - intros (l & Hl & Hq). rewrite Eds in Hl. apply in_map_iff in Hl. destruct Hl as (i & <- & Hi). apply in_seq in Hi. apply in_map_iff in Hq. destruct Hq as (j & <- & Hj).
      eapply Permutation_in in Hj; [|apply Hperm; lia]. apply in_seq in Hj. exists (nth i P []), (nth j P []). split; [apply nth_In; unfold m in *; lia|]. split; [apply nth_In; unfold m in *; lia|reflexivity].
    - intros (a & b & Ha & Hb & ->). apply (In_nth _ _ []) in Ha, Hb. destruct Ha as (i & Hi & <-), Hb as (j & Hj & <-).
      exists (map (fun j => dist (nth i P []) (nth j P [])) (nth i I [])). split.
      + rewrite Eds. apply in_map_iff. exists i. split; [reflexivity|]. apply in_seq. unfold m. lia.
      + apply in_map_iff. exists j. split; [reflexivity|]. eapply Permutation_in; [symmetry; apply Hperm; exact Hi|]. apply in_seq. unfold m. lia. }
  destruct (max_of_spec (concat dists)) as (top & -> & Htop1 & Htop2).
  { intros E. destruct P as [|x P']; [congruence|]. assert (In (dist x x) (concat dists)) by (apply Hin; exists x, x; cbn; auto). rewrite E in H. destruct H. }
  cbn [bind]. set (g := fun (rtd : nat * (list nat * list Q)) => let '(r, (t, ds)) := rtd in
     match find (fun jr => r <? snd jr) (combine (seq 0 (length (map (fun i => nth i (map f P) 0) t))) (map (fun i => nth i (map f P) 0) t)) with
     | Some (j, _) => nth j ds 0%Q | None => top end).
  assert (Ld : length dists = m) by (rewrite Eds, map_length, seq_length; reflexivity).
  rewrite (mapM_val _ g).
  2:{ intros [r [t ds]] Hx. rewrite (combine_by_seq 0 ([], [])) in Hx by (rewrite map_length, combine_length; unfold m in *; lia). rewrite map_length in Hx.
      apply in_map_iff in Hx. destruct Hx as (i & Hx & Hi). apply in_seq in Hi. fold m in Hi. rewrite combine_nth in Hx by lia. injection Hx as Er Et Ed.
      assert (Ft : Forall (fun j => j < length (map f P)) t).
      { rewrite map_length, <- Et. rewrite Forall_forall in I3. apply I3, nth_In. lia. }
      rewrite (gather_map 0) by exact Ft. cbn [bind g]. set (rs := map (fun i0 => nth i0 (map f P) 0) t). pose proof (find_first r rs 0) as F.
      destruct (find _ _) as [[j v]|]; [|reflexivity]. destruct F as (i' & -> & F1 & _). apply get_nth. cbn [Nat.add].
      rewrite <- Ed, Eds. rewrite (nth_map_in _ 0) by (rewrite seq_length; lia). rewrite seq_nth by lia. rewrite map_length. cbn [Nat.add]. rewrite Et. unfold rs in F1. now rewrite map_length in F1. }
  cbn [bind]. set (delta := map g _). set (idx := argsort_nat (map f P)).
  assert (Ldel : length delta = m) by (unfold delta; rewrite map_length, combine_length, map_length, combine_length; unfold m in *; lia).
  assert (Pidx : Permutation idx (seq 0 m)) by (unfold idx, m; rewrite <- (map_length f P); apply argsort_nat_perm).
  assert (Fidx : forall i, In i idx -> i < m) by (intros i Hi; eapply Permutation_in in Hi; [|exact Pidx]; apply in_seq in Hi; lia).
  rewrite (gather_map 0%Q) by (apply Forall_forall; intros i Hi; rewrite Ldel; now apply Fidx). cbn [bind]. do 2 eexists. split; [reflexivity|].
  split; [exact Pidx|]. split.
  { eapply sorted_weaken; [|apply argsort_nat_sorted]. intros a b Ha Hb. cbn beta. rewrite !(nth_map_in f []) by (now apply Fidx). auto. }
  split; [now rewrite map_length|]. intros t Ht. rewrite (nth_map_in _ 0) by exact Ht. set (i := nth t idx 0).
  assert (Hi : i < m) by (apply Fidx, nth_In; exact Ht).
  unfold delta. rewrite (nth_map_in _ (0, ([], []))) by (rewrite combine_length, map_length, combine_length; unfold m in *; lia).
  rewrite combine_nth by (rewrite map_length, combine_length; unfold m in *; lia). rewrite combine_nth by lia. cbn [g].
  rewrite (nth_map_in f []) by exact Hi. set (ti := nth i I []). set (rs := map (fun i0 => nth i0 (map f P) 0) ti).
  assert (Lrs : length rs = m) by (unfold rs; rewrite map_length; unfold ti; rewrite (Permutation_length (Hperm i Hi)); apply seq_length).
  assert (Lti : length ti = m) by (unfold rs in Lrs; now rewrite map_length in Lrs).
  assert (Hti : forall j, j < m -> nth j ti 0 < m) by (intros j Hj; assert (G : In (nth j ti 0) ti) by (apply nth_In; lia); eapply Permutation_in in G; [|apply Hperm; exact Hi]; apply in_seq in G; lia).
  assert (Hrs : forall j, j < m -> nth j rs 0 = f (nth (nth j ti 0) P [])).
  { intros j Hj. unfold rs. rewrite (nth_map_in _ 0) by lia. apply nth_map_in. fold m. now apply Hti. }
  assert (Ed : nth i dists [] = map (fun j => dist (nth i P []) (nth j P [])) ti) by (rewrite Eds, (nth_map_in _ 0) by (now rewrite seq_length); now rewrite seq_nth).
  assert (Hcov : forall l, l < m -> exists j, j < m /\ nth j ti 0 = l).
  { intros l Hl. assert (G : In l ti) by (eapply Permutation_in; [symmetry; apply Hperm; exact Hi|apply in_seq; lia]).
    apply (In_nth _ _ 0) in G. destruct G as (j & Hj & E). exists j. split; [lia|exact E]. }
  assert (Hsort : forall j j', j < j' -> j' < m -> (dist (nth i P []) (nth (nth j ti 0%nat) P []) <= dist (nth i P []) (nth (nth j' ti 0%nat) P []))%Q).
  { pose proof (Forall2_nth' _ _ _ [] [] i HI Hi) as (_ & _ & _ & SS & _). intros j j' H1 H2. apply (sorted_pairs _ 0 _ SS); [exact H1|]. fold ti. lia. }
  pose proof (find_first (f (nth i P [])) rs 0) as F. destruct (find _ _) as [[j v]|].
  - destruct F as (j0 & -> & F1 & _ & F3 & F4). cbn [Nat.add]. rewrite Lrs in F1. left. exists (nth j0 ti 0). rewrite Ed. rewrite (nth_map_in _ 0) by lia.
    split; [now apply Hti|]. split; [rewrite <- Hrs by exact F1; exact F3|]. split; [reflexivity|]. intros l Hl Hr. destruct (Hcov l Hl) as (j' & Hj' & <-).
    rewrite <- Hrs in Hr by exact Hj'. destruct (lt_eq_lt_dec j' j0) as [[C|C]|C].
    + specialize (F4 j' C). lia.
    + subst. lra.
    + now apply Hsort.
  - right. split; [|split].
    + intros l Hl. destruct (Hcov l Hl) as (j' & Hj' & <-). rewrite <- Hrs by exact Hj'. apply F. lia.
    + now apply Hin.
    + intros a b Ha Hb. apply Htop2, Hin. eauto.
Qed.

End Peaks.

(** ** Clearing *)

Lemma clear_length N v : length (clear N v) = length v.
Proof. unfold clear. rewrite map_length, combine_length, seq_length. lia. Qed.

Lemma clear_nth N v i : i < length v -> nth i (clear N v) 0%Q = if existsb (Nat.eqb i) N then 0%Q else nth i v 0%Q.
Proof.
  intros H. unfold clear. rewrite (nth_map_in _ (0, 0%Q)) by (rewrite combine_length, seq_length; lia).
  rewrite combine_nth by now rewrite seq_length. rewrite seq_nth by exact H. reflexivity.
Qed.

Lemma listed_iff i N : existsb (Nat.eqb i) N = true <-> In i N.
Proof. rewrite existsb_exists. split; [intros (x & Hx & E); apply Nat.eqb_eq in E; now subst|intros H; exists i; split; [exact H|apply Nat.eqb_refl]]. Qed.

Lemma nonneg_nth (v : list Q) : (forall i, i < length v -> (0 <= nth i v 0)%Q) -> Forall (Qle 0) v.
Proof. intros H. apply Forall_forall. intros q Hq. apply (In_nth _ _ 0%Q) in Hq. destruct Hq as (i & Hi & <-). now apply H. Qed.

Section Mot.

Variable dist : row -> row -> Q.
Variable volume : list row -> Q.
Variable nn : list row -> list row -> nat -> res (list (list nat)).
Variable find_peaks : list Q -> nat -> res (list nat).
Variable listing : list nat -> list nat.

Hypothesis Hnn : knn_ok dist nn.
Hypothesis Hnonneg : forall x z, (0 <= dist x z)%Q.
Hypothesis Hself : forall x, (dist x x == 0)%Q.
Hypothesis Hpeaks : peaks_ok find_peaks.
Hypothesis Hlist : listing_ok listing.

Lemma company_self E cut x : In x E -> (0 <= cut)%Q -> 1 <= company dist E cut x.
Proof.
  intros Hx Hc. unfold company. assert (G : In x (filter (fun z => Qle_bool (dist x z) cut) E)) by (apply filter_In; split; [exact Hx|]; apply Qle_bool_iff; rewrite Hself; exact Hc).
  destruct (filter _ E); [destruct G|cbn; lia].
Qed.

Lemma mot_clusters_ok p mn E y : length E = length y -> 2 < count_label y mn -> 1 <= mo_k p -> (forall q, mo_d_cut p = Some q -> (0 < q)%Q) ->
  let E_min := rows_with mn E y in
  let m := length E_min in
  exists T cut idx delta, nearest_table dist E E_min (Nat.min m (mo_k p + 1)) T /\ mot_cut dist p E E_min T cut /\
    mot_profile dist E_min (fun i => company dist E cut (nth i E_min [])) idx delta /\
    exists w, half_of m w /\
    match find_peaks delta w with
    | Err e => mot_clusters nn dist find_peaks p mn E y E_min = Err e
    | Ok [] => mot_clusters nn dist find_peaks p mn E y E_min = Err ValueError
    | Ok peaks => exists N imp, mot_clusters nn dist find_peaks p mn E y E_min = Ok (map (fun t => nth (nth t idx 0) E_min []) peaks, N, imp) /\
        (forall i, In i N <-> i < m /\ mot_noise dist E E_min y mn cut T i) /\ length imp = m /\
        forall i, i < m -> ~ In i N -> (0 < nth i imp 0)%Q
    end.
Proof.
  intros HE H2 Hk Hcut. cbv zeta. set (E_min := rows_with mn E y). set (m := length E_min).
  assert (Hm : 3 <= m) by (unfold m, E_min; rewrite rows_with_length by exact HE; exact H2).
  assert (HLE : m <= length E) by (unfold m, E_min; rewrite rows_with_length, HE by exact HE; apply count_label_le).
  assert (Hin : forall i, i < m -> In (nth i E_min []) E) by (intros i Hi; apply (in_combine_l _ y _ mn), rows_with_in, nth_In; exact Hi).
  unfold mot_clusters. fold m. destruct (Hnn E E_min (Nat.min m (mo_k p + 1))) as (T & -> & HT); [lia|]. cbn [bind].
  destruct (nearest_table_shape _ _ _ _ _ HT) as (T1 & T2 & T3).
  destruct (Hnn E_min E_min m) as (I & -> & HI); [unfold m; lia|]. cbn [bind].
  assert (Hd : exists cut, (match mo_d_cut p with Some q => Ok q | None => do second <- mapM (fun xt => do j <- get (snd xt) 1; do z <- get E j; Ok (dist (fst xt) z)) (combine E_min T); max_of second end) = Ok cut
     /\ mot_cut dist p E E_min T cut /\ (0 <= cut)%Q).
  { unfold mot_cut. destruct (mo_d_cut p) as [q|] eqn:Eq.
    - exists q. repeat split; auto. specialize (Hcut q eq_refl). lra.
    - rewrite (mapM_val _ (fun xt => dist (fst xt) (nth (nth 1 (snd xt) 0) E []))).
      2:{ intros [x t] Hx. apply in_combine_r in Hx. unfold rect in T2. rewrite Forall_forall in T2, T3. specialize (T2 t Hx). specialize (T3 t Hx). cbn [fst snd].
          rewrite (get_nth 0) by lia. cbn [bind]. rewrite (get_nth []); [reflexivity|]. rewrite Forall_forall in T3. apply T3, nth_In. lia. }
      cbn [bind]. rewrite <- (map2_combine (fun x t => dist x (nth (nth 1 t 0) E []))). destruct (max_of_spec (map2 (fun x t => dist x (nth (nth 1 t 0) E [])) E_min T)) as (cut & E1 & E2).
      { intros C. apply (f_equal (@length Q)) in C. rewrite map2_length in C. cbn in C. fold m in T1, C. lia. }
      exists cut. split; [exact E1|]. split; [exact E2|]. destruct E2 as [E2 _]. apply (In_nth _ _ 0%Q) in E2. destruct E2 as (i & Hi & <-). rewrite map2_length in Hi.
      rewrite (map2_nth _ _ _ _ [] []) by lia. apply Hnonneg. }
  destruct Hd as (cut & -> & Hc1 & Hc2). cbn [bind].
  change (map (within dist E cut) E_min) with (map (company dist E cut) E_min).
  destruct (density_peaks_ok dist E_min (company dist E cut) I) as (delta & idx & EP & HP); [intros C; unfold m in Hm; rewrite C in Hm; cbn in Hm; lia|exact HI|].
  exists T, cut, idx, delta. split; [exact HT|]. split; [exact Hc1|]. split; [exact HP|].
  destruct HP as (P1 & P2 & P3 & P4). assert (Li : length idx = m) by (rewrite (Permutation_length P1); apply seq_length).
  exists (Z.to_nat (rint (inject_Z (Z.of_nat m) / 2))). split; [apply half_of_rint; lia|].
  unfold mot_centers. rewrite EP. cbn [bind]. destruct (Nat.ltb_spec (length delta) 3) as [C|_]; [lia|]. rewrite P3, Li. set (w := Z.to_nat _).
  destruct (find_peaks delta w) as [peaks|e] eqn:EF; [|reflexivity]. cbn [bind]. specialize (Hpeaks _ _ _ EF).
  destruct peaks as [|t0 pk] eqn:Epk; [reflexivity|]. rewrite <- Epk in *. clear EF.
  destruct (Nat.eqb_spec (length peaks) 0) as [C|_]; [rewrite Epk in C; discriminate|].
  assert (Fp : Forall (fun i => i < length idx) peaks) by (rewrite <- P3; exact Hpeaks).
  rewrite (gather_map 0) by exact Fp. cbn [bind].
  rewrite gather_rows_at.
  2:{ apply Forall_forall. intros i Hi. apply in_map_iff in Hi. destruct Hi as (t & <- & Ht). rewrite Forall_forall in Fp.
      assert (G : In (nth t idx 0) idx) by (apply nth_In; now apply Fp). eapply Permutation_in in G; [|exact P1]. apply in_seq in G. fold m. lia. }
  cbn [bind]. change (mapM (fun t => do ls <- gather y (tl t); Ok (length (filter (Z.eqb mn) ls))) T) with (mapM (count_neighbours y mn) T).
  rewrite foreign_ok by (rewrite <- HE; exact T3). cbn [bind]. do 2 eexists. split; [unfold rows_at; rewrite map_map; reflexivity|].
  set (rho := map (company dist E cut) E_min). set (local := map (foreign y mn) T).
  assert (Lr : length rho = m) by (unfold rho; now rewrite map_length). assert (Ll : length local = m) by (unfold local; rewrite map_length; exact T1).
  assert (Hiff : forall i, In i (where_ (map2 (fun r l => (r =? 1) || (l =? 0)) rho local)) <-> i < m /\ mot_noise dist E E_min y mn cut T i).
  { intros i. rewrite NoiseFacts2.where_in, map2_length, Lr, Ll, Nat.min_id. split; intros [Hi G]; (split; [exact Hi|]).
    - rewrite (map2_nth _ _ _ _ 0 0) in G by lia. unfold rho, local in G. rewrite (nth_map_in _ []), (nth_map_in _ []) in G by (fold m; lia).
      apply orb_true_iff in G. unfold mot_noise. destruct G as [G|G]; apply Nat.eqb_eq in G; [left|right]; exact G.
    - rewrite (map2_nth _ _ _ _ 0 0) by lia. unfold rho, local. rewrite (nth_map_in _ []), (nth_map_in _ []) by (fold m; lia).
      apply orb_true_iff. destruct G as [G|G]; [left|right]; apply Nat.eqb_eq; exact G. }
  split; [exact Hiff|]. split; [rewrite map2_length; lia|]. intros i Hi Hno. rewrite Hiff in Hno.
  rewrite (map2_nth _ _ _ _ 0 0) by lia. unfold local, rho. rewrite (nth_map_in _ []), (nth_map_in _ []) by (fold m; lia).
  pose proof (company_self E cut (nth i E_min []) (Hin i Hi) Hc2) as C1.
  assert (C2 : 0 < foreign y mn (nth i T [])).
  { destruct (Nat.eq_dec (foreign y mn (nth i T [])) 0) as [Z|]; [|lia]. exfalso. apply Hno. split; [exact Hi|]. now right. }
  apply Qlt_shift_div_l; [apply inj_pos; lia|]. rewrite Qmult_0_l. apply inj_pos. exact C2.
Qed.

(** ** The new rows *)

Lemma mot_generate_ok ss rs dim X_min clusters prob n (P : nat -> nat -> Prop) :
  rngs_ok rs -> rngs_pos rs -> plain_ss ss -> rect dim X_min -> length prob = length X_min ->
  (forall i, i < length prob -> (0 <= nth i prob 0)%Q) ->
  (forall c, c < length clusters -> NoDup (nth c clusters []) /\ forall i, In i (nth c clusters []) <-> P c i) ->
  (forall c i, c < length clusters -> P c i -> i < length X_min /\ (0 < nth i prob 0)%Q) ->
  (exists c i, c < length clusters /\ P c i) ->
  exists S, mot_generate volume ss rs dim X_min clusters prob n = Ok S /\ length S = n /\
    (ss_gauss ss = GNone -> Forall (fun x => exists c ps, NoDup ps /\ ps <> [] /\ length ps <= ss_n_dim ss /\ Forall (P c) ps /\
       ((forall i, P c i -> In i ps) \/ length ps = ss_n_dim ss) /\ convex_comb dim (rows_at X_min ps) x) S).
Proof.
  intros Hr Hu Hss HX Lp Hp0 Hcl HP (c0 & i0 & Hc0 & Hi0). unfold mot_generate.
  assert (Hran : forall c, In c clusters -> Forall (fun i => i < length prob) c).
  { intros c Hc. apply (In_nth _ _ []) in Hc. destruct Hc as (k & Hk & <-). apply Forall_forall. intros i Hi. rewrite Lp. apply (HP k i Hk). now apply Hcl. }
  set (part := fun c => map (fun i => nth i prob 0%Q) c).
  rewrite (mapM_val _ (fun c => qsum (part c))) by (intros c Hc; rewrite (gather_map 0%Q) by (now apply Hran); reflexivity).
  cbn [bind]. set (sums := map (fun c => qsum (part c)) clusters).
  assert (Hpart : forall c, In c clusters -> Forall (Qle 0) (part c)).
  { intros c Hc. unfold part. rewrite Forall_map. eapply Forall_impl; [|apply Hran; exact Hc]. intros i Hi. now apply Hp0. }
  assert (Hs0 : Forall (Qle 0) sums).
  { unfold sums. rewrite Forall_map. apply Forall_forall. intros c Hc. now apply qsum_nonneg, Hpart. }
  assert (Hspos : (0 < qsum sums)%Q).
  { apply (qsum_pos_in _ (qsum (part (nth c0 clusters [])))); [exact Hs0|unfold sums; apply in_map_iff; exists (nth c0 clusters []); split; [reflexivity|now apply nth_In]|].
    apply (qsum_pos_in _ (nth i0 prob 0%Q)); [apply Hpart; now apply nth_In|unfold part; apply in_map_iff; exists i0; split; [reflexivity|now apply Hcl]|]. now apply (HP c0 i0). }
  destruct (SimplexGeom.normalize_total sums Hspos) as (cp & Ecp). rewrite Ecp. cbn [bind].
  destruct (normalize_props sums cp Hs0 Ecp) as (C1 & C2 & C3 & C4). assert (Lc : length cp = length clusters) by (rewrite C3; unfold sums; apply map_length).
  destruct (choose_cells (rs 0) n cp (length clusters) (Hr 0) Lc C1 C2) as (chosen & Ech & Lch & Fch). rewrite Ech. cbn [bind].
  assert (Hpos : forall c, In c chosen -> exists i, P c i).
  { intros c Hc. destruct (np_choice_spec (rs 0) _ _ _ _ (Hr 0) C2 Ech) as (_ & is & Eg & _ & Fi).
    assert (Fi' : Forall (fun i => i < length (seq 0 (length clusters))) is).
    { eapply Forall_impl; [|exact Fi]. intros i (q & Hq & _). rewrite seq_length, <- Lc. apply nth_error_Some. congruence. }
    rewrite (gather_map 0) in Eg by exact Fi'. injection Eg as Eg. rewrite <- Eg in Hc. apply in_map_iff in Hc. destruct Hc as (i & Ei & Hi).
    rewrite Forall_forall in Fi, Fi'. specialize (Fi i Hi). specialize (Fi' i Hi). rewrite seq_length in Fi'. rewrite seq_nth in Ei by exact Fi'. cbn [Nat.add] in Ei. subst c.
    destruct Fi as (q & Hq & Q0). apply (nth_error_nth _ _ 0%Q) in Hq. rewrite <- Hq in Q0. apply C4 in Q0. unfold sums in Q0. rewrite (nth_map_in _ []) in Q0 by exact Fi'.
    destruct (nth i clusters []) as [|j l] eqn:E; [cbn in Q0; lra|]. exists j. apply (Hcl i Fi'). rewrite E. now left. }
  rewrite <- Lch.
  destruct (by_cell_ok (fun x => ss_gauss ss = GNone -> exists c ps, NoDup ps /\ ps <> [] /\ length ps <= ss_n_dim ss /\ Forall (P c) ps /\
       ((forall i, P c i -> In i ps) \/ length ps = ss_n_dim ss) /\ convex_comb dim (rows_at X_min ps) x)
     (fun i k => do c <- get clusters i; do V <- gather X_min c; do ps <- gather prob c; do within_prob <- normalize ps;
        sample_simplex volume ss (mk_args V dim (circulant (length V)) (length V) (Some within_prob) None None false None) k (rs (1 + i))) chosen) as (S & ES & LS & FS).
  2:{ exists S. split; [exact ES|]. split; [exact LS|]. intros G. eapply Forall_impl; [|exact FS]. intros x Hx. now apply Hx. }
  intros c k Hc. destruct (Hpos c Hc) as (j & Hj). rewrite Forall_forall in Fch. specialize (Fch c Hc). rewrite (get_nth []) by exact Fch. cbn [bind].
  set (C := nth c clusters []). destruct (Hcl c Fch) as [HN Hiff]. fold C in HN, Hiff.
  assert (HinC : In C clusters) by now apply nth_In.
  assert (Fx : Forall (fun i => i < length X_min) C) by (rewrite <- Lp; now apply Hran).
  rewrite gather_rows_at by exact Fx. cbn [bind]. rewrite (gather_map 0%Q) by now apply Hran. cbn [bind]. fold (part C).
  assert (Hw : (0 < qsum (part C))%Q).
  { apply (qsum_pos_in _ (nth j prob 0%Q)); [now apply Hpart|unfold part; apply in_map_iff; exists j; split; [reflexivity|now apply Hiff]|]. now apply (HP c j). }
  destruct (SimplexGeom.normalize_total _ Hw) as (w & Ew). rewrite Ew. cbn [bind]. destruct (normalize_props _ w (Hpart C HinC) Ew) as (W1 & W2 & W3 & _).
  set (V := rows_at X_min C). assert (LV : length V = length C) by (unfold V, rows_at; apply map_length).
  assert (LC : 1 <= length C) by (destruct C as [|? ?]; [apply Hiff in Hj; destruct Hj|cbn; lia]).
  assert (Lw : length w = length V) by (rewrite W3, LV; unfold part; apply map_length).
  assert (RV : rect dim V). { unfold V, rows_at, rect. rewrite Forall_map. eapply Forall_impl; [|exact Fx]. intros i Hi. now apply rect_nth. }
  assert (Hargs : args_ok (mk_args V dim (circulant (length V)) (length V) (Some w) None None false None)).
  { constructor; cbn; auto; try discriminate.
    - apply Forall_forall. intros r Hin. apply (In_nth _ _ []) in Hin. destruct Hin as (b & Hb & <-). rewrite circulant_length in Hb. now apply circulant_row.
    - rewrite circulant_length. lia.
    - apply Forall_forall. intros r Hin. apply (In_nth _ _ []) in Hin. destruct Hin as (b & Hb & <-). rewrite circulant_length in Hb. now apply circulant_row.
    - rewrite circulant_length. auto. }
  assert (Hb0 : exists b, b < length w /\ (0 < nth b w 0)%Q) by (apply qsum_pos_ex; [exact W1|lra]). destruct Hb0 as (b0 & Hb0 & Hwb).
  destruct (ss_call volume ss _ k (rs (1 + c)) b0 Hargs (Hr _) (Hu _) Hss) as (S & ES & LS & FS); cbn; auto; [lia|rewrite circulant_length; lia|].
  exists S. split; [exact ES|]. split; [exact LS|]. apply Forall_forall. intros x Hx G. specialize (FS G). rewrite Forall_forall in FS.
  destruct (FS x Hx) as (b & ps & B1 & B2 & B3 & B4 & _ & _ & B5). cbn [a_dim a_X a_X_vertices vertex_set a_indices a_ncols] in *. rewrite circulant_length in B1.
  destruct (circulant_row (length V) b B1) as (R1 & R2 & R3 & R4). set (rr := nth b (circulant (length V)) []) in *.
  rewrite Forall_forall in B4, R4. set (qs := b :: map (fun p => nth p rr 0) ps).
  assert (EL : qs = map (fun p => nth p rr 0) (0 :: ps)) by (unfold qs; cbn [map]; now rewrite R2).
  assert (Hlt : forall q, In q (0 :: ps) -> q < length rr) by (intros q [<-|Hq]; [lia|specialize (B4 q Hq); lia]).
  assert (Nq : NoDup qs).
  { rewrite EL. apply NoDup_map_in.
    + intros a a' Ha Ha' E'. apply (proj1 (NoDup_nth rr 0) R3); auto.
    + constructor; [intros D0; specialize (B4 0 D0); lia|now apply sorted_lt_NoDup]. }
  assert (Fq : forall q, In q qs -> q < length C).
  { intros q Hq. rewrite EL in Hq. apply in_map_iff in Hq. destruct Hq as (a & <- & Ha). rewrite <- LV. apply R4, nth_In. now apply Hlt. }
  destruct Hss as [Hd _]. assert (Lq : length qs = Nat.min (ss_n_dim ss) (length C)) by (unfold qs; cbn [length]; rewrite map_length, B2; lia).
  set (us := map (fun q => nth q C 0) qs).
  assert (Nu : NoDup us) by (unfold us; apply NoDup_map_in; [intros a a' Ha Ha' E'; apply (proj1 (NoDup_nth C 0) HN); auto|exact Nq]).
  assert (Fu : forall i, In i us -> In i C) by (intros i Hi; unfold us in Hi; apply in_map_iff in Hi; destruct Hi as (q & <- & Hq); now apply nth_In, Fq).
  assert (Lu : length us = Nat.min (ss_n_dim ss) (length C)) by (unfold us; now rewrite map_length).
  exists c, us. split; [exact Nu|]. split; [intros D0; rewrite D0 in Lu; cbn in Lu; lia|]. split; [lia|]. split; [apply Forall_forall; intros i Hi; now apply Hiff, Fu|]. split.
  - destruct (le_lt_dec (ss_n_dim ss) (length C)); [right; lia|left]. intros i Hi. apply Hiff in Hi.
    apply (NoDup_length_incl Nu (l' := C)); [lia|exact Fu|exact Hi].
  - assert (ER : rows_at X_min us = nth b V [] :: map (fun p => nth (nth p rr 0) V []) ps).
    { unfold us, qs, rows_at. cbn [map]. f_equal.
      - unfold V, rows_at. rewrite (nth_map_in _ 0) by lia. reflexivity.
      - rewrite !map_map. apply map_ext_in. intros q Hq. unfold V, rows_at. rewrite (nth_map_in _ 0); [reflexivity|]. rewrite <- LV. apply R4, nth_In, Hlt. now right. }
    rewrite ER. exact B5.
Qed.

End Mot.
