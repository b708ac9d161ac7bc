(** IPADE_ID: the leaves, and the result. *)

From Coq Require Import List ZArith QArith Qabs Qminmax Qround Qpower Bool Arith Lia Lqa Sorting.Sorted Permutation.
From Verif Require Import Np PyVal NpFacts BaseFacts SimplexModel Spec SpecDanger SpecNoise SpecComp SimplexFacts SimplexGeom Float64
  SamplerModel SamplerFacts OversFacts BaseModel KnnFacts DangerModel DangerFacts BorderFacts ClusterModel NearModel ClusterOversModel OversGen
  ClusterOversFacts ClusterFacts NoiseModel NoiseFacts NoiseFacts2 CompModel CompFacts CompFacts2 CompFacts3 CompFacts4 EditModel SpecEdit EditFacts EditFacts3 EditFacts4 EditFacts5
  SpecNear NearFacts NearFacts2 LevelModel SpecLevel LevelFacts LevelFacts3 LevelFacts4 SpecGroup GroupFacts GroupFacts2 GroupFacts4 WrapModel SpecWrap WrapFacts WrapFacts2 WrapFacts3 DirModel SpecDir DirFacts DirFacts3 RegionModel SpecRegion RegionFacts RegionFacts2 RegionFacts3 RegionFacts4 SearchModel SpecSearch SearchFacts2 GraphModel SpecGraph GraphFacts GraphFacts2 GraphFacts4 GraphFacts5 GraphFacts6 GraphFacts8 MixModel SpecMix MixFacts MixFacts3 MixFacts4 MixFacts6 SwarmModel SpecSwarm SwarmFacts.
From Verif Require DistFacts.
Import ListNotations.
Open Scope nat_scope.

Lemma leaf_where lv leaf : where_ (map (Nat.eqb leaf) lv) = leaf_rows lv leaf.
Proof.
  rewrite where_filter, map_length. apply filter_ext_in. intros i Hi. apply in_seq in Hi.
  rewrite (nth_indep _ false (leaf =? 0)) by (rewrite map_length; lia). rewrite (map_nth (Nat.eqb leaf)). apply Nat.eqb_sym.
Qed.

Lemma leaf_size lv leaf : length (filter (Nat.eqb leaf) lv) = length (leaf_rows lv leaf).
Proof.
  rewrite <- leaf_where. unfold where_. rewrite map_length, DistFacts.select_count by (now rewrite map_length, seq_length).
  induction lv as [|a lv IH]; [reflexivity|]. cbn. destruct (leaf =? a); cbn; now rewrite IH.
Qed.

Lemma shared_where lv : where_ (map (fun l => negb (length (filter (Nat.eqb l) lv) =? 1)) lv) = shared_rows lv.
Proof.
  rewrite where_filter, map_length. apply filter_ext_in. intros i Hi. apply in_seq in Hi.
  rewrite (nth_indep _ false (negb (length (filter (Nat.eqb 0) lv) =? 1))) by (rewrite map_length; lia).
  rewrite (map_nth (fun l => negb (length (filter (Nat.eqb l) lv) =? 1))). now rewrite leaf_size.
Qed.

Lemma leaf_bound lv leaf : Forall (fun i => i < length lv) (leaf_rows lv leaf).
Proof. apply Forall_forall. intros i Hi. apply filter_In in Hi. destruct Hi as [Hi _]. apply in_seq in Hi. lia. Qed.

Lemma leaf_nonempty lv leaf : In leaf lv -> leaf_rows lv leaf <> [].
Proof.
  intros H E. destruct (In_nth _ _ 0 H) as (i & Hi & Ei). assert (In i (leaf_rows lv leaf)); [|rewrite E in *; contradiction].
  apply filter_In. split; [apply in_seq; lia|]. now apply Nat.eqb_eq.
Qed.

Section Leaves.

Variable X : list row.
Variable y : list Z.
Variable d : nat.
Variable lv : list nat.
Variables mn mj : Z.
Hypothesis HX : rect d X.
Hypothesis HL : length X = length y.
Hypothesis Hlv : length lv = length X.
Hypothesis H2 : two_labels y mn mj.

Lemma leaf_element_ok leaf : In leaf lv -> exists m l, leaf_element X y d lv leaf = Ok (m, l) /\
  mean_of d (rows_at X (leaf_rows lv leaf)) m /\ most_frequent (labels_at y (leaf_rows lv leaf)) l.
Proof.
  intros H. unfold leaf_element. rewrite leaf_where. set (is := leaf_rows lv leaf).
  assert (B : Forall (fun i => i < length y) is) by (rewrite <- HL, <- Hlv; apply leaf_bound).
  assert (Hne : is <> []) by (now apply leaf_nonempty).
  rewrite rows_of_ok by assumption. cbn [bind set_at fst snd].
  destruct (mean_row_of d (rows_at X is)) as (m & -> & Hm).
  { unfold rows_at. intros E. now apply map_eq_nil in E. }
  { unfold rect, rows_at. rewrite Forall_map. eapply Forall_impl; [|exact B]. intros i Hi. apply (Forall_nth (fun r => length r = d)); [exact HX|rewrite HL; exact Hi]. }
  destruct (mode_spec (labels_at y is)) as (l & -> & Hl). { unfold labels_at. intros E. now apply map_eq_nil in E. }
  cbn [bind]. exists m, l. split; [reflexivity|]. split; [exact Hm|]. exact Hl.
Qed.

Lemma leaf_elements_ok : exists es, mapM (leaf_element X y d lv) (map fst (unique_by Nat.eqb Nat.ltb lv)) = Ok es /\
  one_per_leaf d lv X y (map fst es) (map snd es).
Proof.
  set (us := map fst (unique_by Nat.eqb Nat.ltb lv)).
  assert (Hin : forall u, In u us <-> In u lv) by apply nat_unique_in.
  assert (G : forall l, incl l us -> exists es, mapM (leaf_element X y d lv) l = Ok es /\
    Forall2 (fun u r => mean_of d (rows_at X (leaf_rows lv u)) r) l (map fst es) /\
    Forall2 (fun u l => most_frequent (labels_at y (leaf_rows lv u)) l) l (map snd es)).
  { induction l as [|u l IH]; intros Hl; [exists []; repeat constructor|].
    destruct IH as (es & E & F1 & F2); [intros z Hz; apply Hl; now right|].
    destruct (leaf_element_ok u) as (m & b & E1 & E2 & E3); [apply Hin, Hl; now left|].
    exists ((m, b) :: es). cbn [mapM]. rewrite E1. cbn [bind]. rewrite E. cbn [bind map fst snd]. repeat split; constructor; assumption. }
  destruct (G us (incl_refl _)) as (es & E & F1 & F2). exists es. split; [exact E|]. exists us. split; [apply nat_unique_sorted|]. auto.
Qed.

Lemma leaf_labels R ls : one_per_leaf d lv X y R ls -> (forall l, In l ls -> l = mn \/ l = mj) /\ length R = length ls /\ rect d R /\ (X <> [] -> ls <> []).
Proof.
  intros (us & U1 & U2 & F1 & F2). split; [|split; [|split]].
  - intros l Hl. destruct (In_nth _ _ 0%Z Hl) as (i & Hi & Ei).
    assert (Fi : most_frequent (labels_at y (leaf_rows lv (nth i us 0))) (nth i ls 0%Z)) by (apply (EditFacts4.Forall2_nth' _ us ls 0 0%Z i F2); rewrite (Forall2_length _ _ _ F2); exact Hi).
    rewrite Ei in Fi. destruct Fi as [Fi _]. unfold labels_at in Fi. apply in_map_iff in Fi. destruct Fi as (k & <- & Hk).
    apply H2, nth_In. rewrite <- HL, <- Hlv. pose proof (leaf_bound lv (nth i us 0)) as B. rewrite Forall_forall in B. now apply B.
  - rewrite <- (Forall2_length _ _ _ F1), <- (Forall2_length _ _ _ F2). reflexivity.
  - clear - F1. unfold rect. induction F1 as [|u r us R Hu F1 IH]; constructor; [apply Hu|exact IH].
  - intros Hx ->. inversion F2; subst us. destruct lv as [|u lv']; [destruct X; [congruence|discriminate]|]. apply (U2 u). now left.
Qed.

Lemma two_kinds ls : ls <> [] -> (forall l, In l ls -> l = mn \/ l = mj) -> length (unique_counts ls) <> 1 -> both mn mj ls.
Proof.
  intros Hne Hl Hu.
  assert (G : forall a, (forall l, In l ls -> l = a) -> False).
  { intros a Ha. apply Hu. pose proof (unique_counts_keys ls) as K. pose proof (unique_counts_sorted ls) as SS.
    destruct (unique_counts ls) as [|[z c] [|[z' c'] rest]]; [|reflexivity|].
    - exfalso. destruct ls as [|l ls']; [congruence|]. apply (K l). now left.
    - exfalso. inversion SS as [|? ? S1 S2]; subst. inversion S2 as [|? ? S3 _]; subst. cbn in *.
      assert (z = a) by (apply Ha, K; now left). assert (z' = a) by (apply Ha, K; right; now left). lia. }
  split.
  - destruct (in_dec Z.eq_dec mn ls); [assumption|]. exfalso. apply (G mj). intros l Hl'. destruct (Hl l Hl'); congruence.
  - destruct (in_dec Z.eq_dec mj ls); [assumption|]. exfalso. apply (G mn). intros l Hl'. destruct (Hl l Hl'); congruence.
Qed.

End Leaves.

(** ** Ranges *)

Section Ranges.

Variable d : nat.
Variable X0 : list row.
Variable f : row -> row.
Hypothesis HX0 : rect d X0.
Hypothesis Hne : X0 <> [].
Hypothesis Hf : min_max_scaled d X0 f.

(** The largest scaled value. *)
Definition inside (j : nat) (q : Q) : Prop := (0 <= q <= 1)%Q /\ (forall c, attr_range X0 j c c -> (q == 0)%Q).

Lemma scaled_inside x j : In x X0 -> j < d -> inside j (nth j (f x) 0%Q).
Proof.
  intros Hx Hj. pose proof (column_range X0 j Hne) as HR. unfold rect in HX0. rewrite Forall_forall in HX0.
  destruct (Hf x (HX0 x Hx)) as [_ Hfx]. destruct (Hfx j _ _ Hj HR) as [F1 F2]. pose proof (proj1 HR x Hx) as B.
  set (lo := col_min (column j X0)) in *. set (hi := col_max (column j X0)) in *.
  destruct (Qeq_dec hi lo) as [E|N].
  - pose proof (F1 E) as F3. split; [lra|]. intros c _. lra.
  - assert (L : (lo < hi)%Q) by lra. split.
    + specialize (F2 L). rewrite F2. split; [apply Qle_shift_div_l; lra|apply Qle_shift_div_r; lra].
    + intros c Hc. destruct (attr_range_unique _ _ _ _ _ _ HR Hc). lra.
Qed.

Lemma mean_inside (P : list row) m j : P <> [] -> j < d -> mean_of d P m -> (forall x, In x P -> inside j (nth j x 0%Q)) -> inside j (nth j m 0%Q).
Proof.
  intros HP Hj [_ Hm] Hx. specialize (Hm j Hj).
  assert (HL : (0 < inject_Z (Z.of_nat (length P)))%Q).
  { change 0%Q with (inject_Z 0). rewrite <- Zlt_Qlt. destruct P; [congruence|cbn [length]; lia]. }
  assert (G : forall c, (forall x, In x P -> (0 <= nth j x 0 <= c)%Q) -> (0 <= nth j m 0 <= c)%Q).
  { intros c Hc. assert (S1 : (0 <= qsum (map (fun x => nth j x 0) P) <= c * inject_Z (Z.of_nat (length P)))%Q).
    { clear - Hc. induction P as [|x P IH]; [unfold qsum; cbn [map fold_right length Z.of_nat]; change (inject_Z 0) with 0%Q; lra|]. cbn [map length]. rewrite qsum_cons, Nat2Z.inj_succ. unfold Z.succ. rewrite inject_Z_plus. change (inject_Z 1) with 1%Q.
      specialize (IH (fun z Hz => Hc z (or_intror Hz))). pose proof (Hc x (or_introl eq_refl)). lra. }
    rewrite Hm. split; [apply Qle_shift_div_l|apply Qle_shift_div_r]; lra. }
  split; [apply G; intros x H; apply Hx; exact H|]. intros c Hc. assert ((0 <= nth j m 0 <= 0)%Q); [|lra]. apply G. intros x H.
  rewrite (proj2 (Hx x H) c Hc). lra.
Qed.

Lemma unit_part_comp a b : (a == b)%Q -> (unit_part a == unit_part b)%Q.
Proof. intros E. unfold unit_part. now rewrite E. Qed.

Lemma stirred_inside F G y l r r' j : length X0 = length y -> j < d -> stirred F G d (map f X0) y l r r' -> inside j (nth j r 0%Q) -> inside j (nth j r' 0%Q).
Proof.
  intros HL Hj (_ & a & b & c & u & _ & H2 & _ & H) Hr. specialize (H j Hj).
  split; [rewrite H; apply unit_part_range|]. intros v Hv.
  assert (Z : forall i, In i [a; b; c] -> (nth j (nth i (map f X0) []) 0 == 0)%Q).
  { intros i Hi. destruct (H2 i Hi) as [Hi' _]. rewrite (nth_indep _ [] (f [])) by (rewrite map_length; lia). rewrite map_nth.
    apply (proj2 (scaled_inside (nth i X0 []) j ltac:(apply nth_In; lia) Hj) v Hv). }
  rewrite H. transitivity (unit_part 0); [apply unit_part_comp|reflexivity]. rewrite (Z a), (Z b), (Z c), (proj2 Hr v Hv) by (cbn; auto). ring.
Qed.

Lemma evolves_inside auc F G y V ls R0 R : length X0 = length y -> length R0 = length ls ->
  (forall i j, i < length ls -> j < d -> inside j (nth j (nth i R0 []) 0%Q)) ->
  evolves auc F G d (map f X0) y V ls R0 R ->
  length R = length ls /\ forall i j, i < length ls -> j < d -> inside j (nth j (nth i R []) 0%Q).
Proof.
  intros HL L0 H0 H. induction H as [|R1 R2 W a b H [IH1 IH2] L St _ _ _ _]; [auto|]. split; [lia|]. intros i j Hi Hj.
  eapply stirred_inside; eauto.
Qed.

Lemma back_within S R : same_rows (map f S) R -> rect d S -> (forall i j, i < length R -> j < d -> inside j (nth j (nth i R []) 0%Q)) -> within_ranges d X0 S.
Proof.
  intros HS HR Hin. unfold within_ranges. apply Forall_nth. intros i x0 Hi. rewrite (nth_indep _ x0 []) by exact Hi.
  assert (Lx : length (nth i S []) = d) by (apply (Forall_nth (fun r => length r = d)); [exact HR|exact Hi]).
  split; [exact Lx|]. intros j lo hi Hj Hr.
  assert (LR : length R = length S) by (rewrite <- (Forall2_length _ _ _ HS), map_length; reflexivity).
  assert (E : (nth j (f (nth i S [])) 0 == nth j (nth i R []) 0)%Q).
  { pose proof (EditFacts4.Forall2_nth' _ _ _ (f []) [] i HS ltac:(rewrite map_length; exact Hi)) as Hs. rewrite (map_nth f) in Hs.
    apply (EditFacts4.Forall2_nth' _ _ _ 0%Q 0%Q j Hs). rewrite (proj1 (Hf _ Lx)). exact Hj. }
  destruct (Hin i j ltac:(lia) Hj) as [[B1 B2] B3]. rewrite <- E in B1, B2. destruct (proj2 (Hf _ Lx) j lo hi Hj Hr) as [F1 F2].
  destruct (Hr) as (_ & (x1 & I1 & E1) & _). pose proof (proj1 Hr x1 I1) as Hlh.
  destruct (Qeq_dec hi lo) as [Eh|N].
  - assert (HR' : attr_range X0 j lo lo).
    { destruct Hr as (A & B & C). split; [intros x Hx; specialize (A x Hx); lra|]. split; [exact B|exact B]. }
    specialize (B3 lo HR'). specialize (F1 Eh). lra.
  - assert (L : (lo < hi)%Q) by lra. rewrite (F2 L) in B1, B2. 
    assert (Hd : (nth j (nth i S []) 0 - lo == (nth j (nth i S []) 0 - lo) / (hi - lo) * (hi - lo))%Q) by (field; lra).
    set (q := ((nth j (nth i S []) 0 - lo) / (hi - lo))%Q) in *.
    assert (0 <= q * (hi - lo))%Q by (apply Qmult_le_0_compat; lra).
    assert (q * (hi - lo) <= 1 * (hi - lo))%Q by (apply Qmult_le_compat_r; lra). lra.
Qed.

End Ranges.

Lemma ip_algorithm_ok leaves auc accuracy fuel p ds sub D mn mj st N :
  leaves_ok leaves -> auc_ok auc mn mj -> accuracy_ok accuracy mn mj -> (forall c t, draws_ok (ds c t)) -> (forall c t, subsets_ok (sub c t)) ->
  wf_data (d_X D) (d_dim D) (d_y D) -> two_labels (d_y D) mn mj -> 3 <= count_label (d_y D) mn -> 3 <= count_label (d_y D) mj ->
  min_label st = mn -> maj_label st = mj ->
  let f := mm_transform (mm_fit (d_dim D) (d_X D)) in
  in_steps auc (map f (d_X D)) (d_y D) N -> N * (ip_OT p + 1) + ip_OT p + 2 <= fuel ->
  ip_result leaves auc p f D mn mj (ip_algorithm leaves auc accuracy fuel p ds sub st D).
Proof.
  intros Hlv Hauc Hacc Hds Hsub [HX HL] H2 C1 C2 Emn Emj f HN Hfuel. unfold ip_algorithm. fold f. rewrite Emn, Emj.
  set (d := d_dim D) in *. set (y := d_y D) in *. set (mm := mm_fit d (d_X D)) in *. set (X := map f (d_X D)) in *.
  assert (Lmm : length mm = d) by apply mm_fit_length.
  assert (HX' : rect d X).
  { unfold X, rect. rewrite Forall_map. eapply Forall_impl; [|exact HX]. intros x Hx. now apply mm_transform_length. }
  assert (HL' : length X = length y) by (unfold X; now rewrite map_length).
  assert (Hne0 : d_X D <> []). { intros E. rewrite E in HL. destruct H2 as (_ & Hin & _). fold y in HL. destruct y; [contradiction|discriminate]. }
  assert (Hne : X <> []) by (unfold X; intros E; now apply map_eq_nil in E).
  set (lv := leaves X y) in *. assert (Llv : length lv = length X) by apply Hlv.
  unfold phase_1. fold lv. rewrite shared_where. set (V := shared_rows lv) in *.
  destruct (leaf_elements_ok X y d lv HX' HL' Llv) as (es & -> & Hone). cbn [bind snd]. set (R0 := map fst es) in *. set (ls := map snd es) in *.
  destruct (leaf_labels X y d lv mn mj HX' HL' Llv H2 R0 ls Hone) as (Hls & Lr & Hr & Hlsne). specialize (Hlsne Hne).
  unfold ip_result. fold d y X lv V. exists R0, ls. split; [exact Hone|].
  assert (BV : NoDup V /\ Forall (fun i => i < length y) V).
  { split; [apply NoDup_filter, seq_NoDup|]. apply Forall_forall. intros i Hi. apply filter_In in Hi. destruct Hi as [Hi _]. apply in_seq in Hi. lia. }
  destruct BV as [NV BV].
  destruct (Nat.eq_dec (length (unique_counts ls)) 1) as [E1|N1].
  { left. unfold configuration_checks. rewrite gather_labels_at by exact BV. cbn [bind]. rewrite E1, orb_true_r. cbn [bind].
    split; [reflexivity|]. left. now apply (one_label y mn mj H2). }
  pose proof (two_kinds X y lv mn mj HL' Llv ls Hlsne Hls N1) as Hboth.
  assert (GV : good_val y V V) by (split; [apply incl_refl|auto]).
  assert (GR : good_set auc p X y d V R0 ls (R0, ls)) by (exists R0; split; [reflexivity|]; split; [constructor|auto]).
  assert (Lost : lost y mn mj V -> ~ both mn mj ls \/ exists W, incl W V /\ ~ both mn mj (labels_at y W)) by (intros F; right; exact F).
  destruct (checks_val y mn mj H2 V ls Hboth V GV) as [->|[-> F]]; cbn [bind]; [|left; split; [reflexivity|now apply Lost]].
  destruct (de_opt_ok auc p X y d ds sub mn mj Hds Hsub HX' HL' C1 C2 Hauc V R0 ls Hboth Hls 0 (R0, ls) V GR GV) as [[-> F]|(GS & a & b & -> & G1 & G2 & G3 & G4)];
    cbn [bind]; [left; split; [reflexivity|now apply Lost]|].
  rewrite rows_of_ok by assumption. cbn [bind]. rewrite G3. cbn [bind].
  set (s := mk_ip_state b GS V None true true 0).
  assert (Gs : good_state auc p X y d V R0 ls a s).
  { split; [exact G1|]. split; [exact GV|]. split; [exact G3|]. split; [exact G4|]. split; [reflexivity|]. split; [discriminate|]. cbn. lia. }
  destruct (step_of auc X y HL' V N HN GS V b GV G3) as (k & Hk & Ek).
  destruct (phase_2_ok auc accuracy p X y d ds sub mn mj Hds Hsub HX' HL' H2 C1 C2 Hauc Hacc V R0 ls Hboth Hls N HN a fuel 1 s k Gs Hk Ek) as [[-> F]|(GS' & W & c & -> & K1 & K2 & K3 & K4)].
  { unfold left_over, s. cbn [is_min is_maj is_count]. assert ((N - k) * (ip_OT p + 1) <= N * (ip_OT p + 1)) by (apply Nat.mul_le_mono_r; lia). lia. }
  { left. split; [reflexivity|now apply Lost]. }
  right. destruct K1 as (R & -> & K5 & K6 & K7). cbn [fst snd].
  assert (Hsame : same_rows (map f (map (mm_inverse mm) R)) R).
  { clear - K6 Lmm. induction K6 as [|r R Hr K6 IH]; constructor; [|exact IH]. apply (mm_forth d); [exact Lmm|apply mm_fit_range|exact Hr]. }
  exists R, (map (mm_inverse mm) R), W, a, c. split; [reflexivity|]. split; [exact K5|]. split; [exact Hsame|]. split.
  - assert (Hf : min_max_scaled d (d_X D) f) by apply mm_scaled.
    apply (back_within d (d_X D) f Hf _ R Hsame).
    + unfold rect. rewrite Forall_map. eapply Forall_impl; [|exact K6]. intros x Hx. now apply mm_inverse_length.
    + destruct (evolves_inside d (d_X D) f HX Hne0 Hf auc (ip_F p) (ip_G p) y V ls R0 R HL Lr) as [_ Hin]; [|exact K5|intros i j Hi; apply Hin; lia].
      intros i j Hi Hj. destruct Hone as (us & U1 & U2 & F1 & F2).
      assert (Li : i < length us) by (rewrite (Forall2_length _ _ _ F2); exact Hi).
      pose proof (EditFacts4.Forall2_nth' _ _ _ 0 [] i F1 Li) as Fi.
      eapply (mean_inside d (d_X D)); [|exact Hj|exact Fi|].
      * intros E. unfold rows_at in E. apply map_eq_nil in E. revert E. apply leaf_nonempty, U2, nth_In, Li.
      * intros x Hx. unfold rows_at in Hx. apply in_map_iff in Hx. destruct Hx as (q & <- & Hq).
        pose proof (leaf_bound lv (nth i us 0)) as B. rewrite Forall_forall in B. specialize (B q Hq). rewrite Llv in B. unfold X in B. rewrite map_length in B.
        unfold X. rewrite (nth_indep _ [] (f [])) by (rewrite map_length; lia). rewrite map_nth. apply scaled_inside with (d := d); auto. apply nth_In. lia.
  - split; [exact Hboth|]. split; [apply K2|]. split; [exact G2|]. split; [exact K3|exact K4].
Qed.

Lemma ip_sample_ok leaves auc accuracy fuel p ds sub D mn mj N :
  leaves_ok leaves -> auc_ok auc mn mj -> accuracy_ok accuracy mn mj -> (forall c t, draws_ok (ds c t)) -> (forall c t, subsets_ok (sub c t)) ->
  wf_data (d_X D) (d_dim D) (d_y D) -> is_minority (d_y D) mn mj ->
  let f := mm_transform (mm_fit (d_dim D) (d_X D)) in
  in_steps auc (map f (d_X D)) (d_y D) N -> N * (ip_OT p + 1) + ip_OT p + 2 <= fuel ->
  let out := ip_sample leaves auc accuracy fuel p ds sub D in
  (count_label (d_y D) mn <= 4 -> unchanged D out) /\
  (4 < count_label (d_y D) mn -> ip_result leaves auc p f D mn mj out).
Proof.
  intros H1 H3 H4 H5 H6 Hwf Hmin f HN Hf out. unfold out, ip_sample. split; intros Hc.
  - unfold unchanged. eapply too_small_copies; [exact Hmin|]. left. exists 4. split; [now left|exact Hc].
  - edestruct (large_enough_runs [CMinNMin 4; COther] (ip_algorithm leaves auc accuracy fuel p ds sub) D mn mj Hmin) as (st & _ & E1 & E2 & ->).
    { repeat constructor. exact Hc. }
    assert (count_label (d_y D) mn <= count_label (d_y D) mj) by (destruct Hmin as [_ [Hm|[Hm _]]]; lia).
    apply (ip_algorithm_ok leaves auc accuracy fuel p ds sub D mn mj st N); auto; try lia. apply Hmin.
Qed.
