(** AMSCO: the settings of SMOTE, the choice of majority rows, and the result. *)

From Coq Require Import List ZArith QArith Qabs Qminmax Qround Qpower Bool Arith Lia Lqa Sorting.Sorted Permutation.
From Verif Require Import Np PyVal NpFacts BaseFacts SimplexModel Spec SpecDanger SpecNoise SpecComp SimplexFacts SimplexGeom Float64
  SamplerModel SamplerFacts OversFacts BaseModel KnnFacts DangerModel DangerFacts BorderFacts ClusterModel NearModel ClusterOversModel OversGen
  ClusterOversFacts ClusterFacts NoiseModel NoiseFacts NoiseFacts2 CompModel CompFacts CompFacts2 CompFacts3 CompFacts4 EditModel SpecEdit EditFacts EditFacts3 EditFacts4 EditFacts5
  SpecNear NearFacts NearFacts2 LevelModel SpecLevel LevelFacts LevelFacts3 LevelFacts4 SpecGroup GroupFacts GroupFacts2 GroupFacts4 WrapModel SpecWrap WrapFacts WrapFacts2 WrapFacts3 DirModel SpecDir DirFacts DirFacts3 RegionModel SpecRegion RegionFacts RegionFacts2 RegionFacts3 RegionFacts4 SearchModel SpecSearch SearchFacts2 GraphModel SpecGraph GraphFacts GraphFacts2 GraphFacts4 GraphFacts5 GraphFacts6 GraphFacts8 MixModel SpecMix MixFacts MixFacts3 MixFacts4 MixFacts6 SwarmModel SpecSwarm SwarmFacts4 FuseModel SpecFuse.
Import ListNotations.
Open Scope nat_scope.

Lemma skipn_exact' {A} (l r : list A) : skipn (length l) (l ++ r) = r.
Proof. rewrite skipn_app, skipn_all, Nat.sub_diag. reflexivity. Qed.
Lemma firstn_exact' {A} (l r : list A) : firstn (length l) (l ++ r) = l.
Proof. rewrite firstn_app, firstn_all, Nat.sub_diag, firstn_O, app_nil_r. reflexivity. Qed.

Lemma rint_between q a b : (inject_Z a <= q <= inject_Z b)%Q -> (a <= rint q <= b)%Z.
Proof.
  intros [H1 H2]. unfold rint. pose proof (Qfloor_le q) as F1. pose proof (Qlt_floor q) as F2.
  assert (G1 : (a <= Qfloor q)%Z) by (rewrite <- (Qfloor_Z a); now apply Qfloor_resp_le).
  assert (G2 : (Qfloor q <= b)%Z) by (rewrite <- (Qfloor_Z b); now apply Qfloor_resp_le).
  assert (G3 : ~ (q - inject_Z (Qfloor q) == 0)%Q -> (Qfloor q < b)%Z).
  { intros N. destruct (Z.eq_dec (Qfloor q) b) as [E|E]; [exfalso|lia]. apply N. rewrite E in *. lra. }
  destruct (_ ?= _)%Q eqn:E.
  - apply Qeq_alt in E. assert (Qfloor q < b)%Z by (apply G3; intros Z; lra). destruct (Z.even _); lia.
  - lia.
  - apply Qgt_alt in E. assert (Qfloor q < b)%Z by (apply G3; intros Z; lra). lia.
Qed.

Lemma delete_length {A} (l : list A) idx : length l - length idx <= length (delete_idx l idx) <= length l.
Proof.
  unfold delete_idx. rewrite map_length. set (c := combine (seq 0 (length l)) l).
  assert (Lc : length c = length l) by (unfold c; rewrite combine_length, seq_length; lia).
  pose proof (EditFacts4.filter_partition (fun q : nat * A => existsb (Nat.eqb (fst q)) idx) c) as FP.
  assert (length (filter (fun q : nat * A => existsb (Nat.eqb (fst q)) idx) c) <= length idx).
  { rewrite <- (map_length fst). apply NoDup_incl_length.
    - assert (N : NoDup (map fst c)). { unfold c. rewrite map_fst_combine by now rewrite seq_length. apply seq_NoDup. }
      clear - N. induction c as [|[i a] c IH]; [constructor|]. cbn [map fst] in N. inversion N as [|? ? N1 N2]; subst. cbn [filter fst].
      destruct (existsb _ _); [|now apply IH]. cbn [map fst]. constructor; [|now apply IH]. intros H. apply N1. apply in_map_iff in H as (q & <- & Hq). apply filter_In in Hq. now apply in_map, Hq.
    - intros i Hi. apply in_map_iff in Hi as (q & <- & Hq). apply filter_In in Hq as [_ Hq]. now apply existsb_eqb. }
  lia.
Qed.

Section Amsco.

Variable dist : row -> row -> Q.
Variable volume : list row -> Q.
Variable nn : list row -> list row -> nat -> res (list (list nat)).
Variable to_f : Q -> f64.
Variable fitness : list row -> list row -> (Q * Q)%type.
Hypothesis Hnn : knn_ok dist nn.

Variable p : am_params.
Hypothesis Hss : plain_ss (am_ss p).
Hypothesis Hpop : 1 <= am_n_pop p.
Hypothesis Hiter : 1 <= am_n_iter p.

Variable D : dataset.
Variables mn mj : Z.
Hypothesis Hwf : wf_data (d_X D) (d_dim D) (d_y D).
Hypothesis Hmin : is_minority (d_y D) mn mj.
Hypothesis Hcount : 4 < count_label (d_y D) mn.

Let X_min := rows_with mn (d_X D) (d_y D).
Let X_maj := rows_with mj (d_X D) (d_y D).
Let bound := am_bound p D mj.
Hypothesis Hnum : numbers_ok to_f bound.

Let maj M := am_majority D mj bound M.
Let min A := am_minority dist to_f (am_ss p) D mn mj bound A.

Lemma am_lens : length X_min = count_label (d_y D) mn /\ length X_maj = count_label (d_y D) mj /\ length X_min <= length X_maj <= bound.
Proof.
  assert (L1 : length X_min = count_label (d_y D) mn) by (apply rows_with_length, Hwf).
  assert (L2 : length X_maj = count_label (d_y D) mj) by (apply rows_with_length, Hwf).
  pose proof (minority_size _ _ _ Hmin). unfold bound, am_bound. repeat split; lia.
Qed.

Lemma stacked_ok M : maj M -> wf_data (d_X (stacked D mn mj M)) (d_dim D) (d_y (stacked D mn mj M)) /\ two_labels (d_y (stacked D mn mj M)) mn mj /\
  count_label (d_y (stacked D mn mj M)) mn = length X_min /\ count_label (d_y (stacked D mn mj M)) mj = length M.
Proof.
  intros [M1 M2]. destruct am_lens as (L1 & L2 & L3). destruct Hwf as [HX HL]. assert (N : mn <> mj) by apply Hmin.
  unfold stacked. cbn [d_X d_y]. fold X_min. repeat split.
  - apply Forall_app. split; [|now apply rows_with_rect]. apply Forall_forall. intros x Hx. apply M1 in Hx. assert (R : rect (d_dim D) X_maj) by now apply rows_with_rect.
    unfold rect in R. rewrite Forall_forall in R. now apply R.
  - rewrite !app_length, !repeat_length. reflexivity.
  - exact N.
  - apply in_or_app. right. destruct X_min; [cbn in *; lia|now left].
  - apply in_or_app. left. destruct M; [cbn in *; lia|now left].
  - intros z Hz. apply in_app_or in Hz. destruct Hz as [Hz|Hz]; apply repeat_spec in Hz; auto.
  - unfold count_label. rewrite count_occ_app, EditFacts4.count_repeat_same, EditFacts4.count_repeat_other by congruence. reflexivity.
  - unfold count_label. rewrite count_occ_app, EditFacts4.count_repeat_same, EditFacts4.count_repeat_other by congruence. lia.
Qed.

(** ** OSMOTE *)

Definition in_range (c : Q * Q) : Prop := (1 # 4 <= fst c <= 4)%Q /\ (3 <= snd c <= 10)%Q.

Lemma os_move_range g s : in_range (se_at (os_move p g s)).
Proof. unfold os_move, in_range. cbn [se_at fst snd]. split; apply clip_bounds; lra. Qed.

Lemma am_smote_runs M r c : maj M -> rng_ok r -> unif_pos r -> in_range c ->
  exists S y', smote_sample volume nn (am_smote to_f p c) r (stacked D mn mj M) = Ok (M ++ X_min ++ S, y') /\ am_new dist to_f (am_ss p) D mn mj M S.
Proof.
  intros HM Hr Hu [C1 C2]. destruct (stacked_ok M HM) as (W & T & N1 & N2). destruct am_lens as (L1 & L2 & L3). set (D' := stacked D mn mj M) in *.
  destruct (statistics_spec _ _ _ T) as (st & _ & Hm & _). set (small := min_label st) in *. set (large := maj_label st) in *.
  assert (HS : 4 <= count_label (d_y D') small /\ count_label (d_y D') small <= count_label (d_y D') large <= bound).
  { pose proof (minority_size _ _ _ Hm) as Z. destruct HM as [M1 M2]. destruct Hm as ((N & I1 & I2 & _) & _). apply T in I1, I2.
    destruct I1 as [-> | ->], I2 as [-> | ->]; try congruence; rewrite ?N1, ?N2 in *; lia. }
  destruct (Hnum (fst c) (count_label (d_y D') large) (count_label (d_y D') small) C1 (proj2 HS)) as (n & En).
  assert (K : 3 <= Z.to_nat (rint (snd c)) <= 10). { pose proof (rint_between (snd c) 3 10 C2). lia. }
  destruct (smote_runs dist volume nn (am_smote to_f p c) r D' small large n Hnn Hr Hu) as [R1 R2]; [exact Hss|exact W|exact Hm|exact En|cbn; lia|].
  pose proof (asked_some _ _ _ _ _ En) as Hn.
  assert (G : exists S, smote_sample volume nn (am_smote to_f p c) r D' = Ok (d_X D' ++ S, d_y D' ++ repeat small (length S)) /\
    ((n = 0%Z /\ S = []) \/ smote_spec dist (am_smote to_f p c) D' small n S)).
  { destruct (Z.eq_dec n 0) as [->|N].
    - exists []. split; [|now left]. cbn [length repeat]. rewrite !app_nil_r. apply R1. now right.
    - destruct (R2 ltac:(lia) ltac:(lia)) as (S & E & HS'). exists S. split; [exact E|now right]. }
  destruct G as (S & E & G). exists S, (d_y D' ++ repeat small (length S)). split.
  { rewrite E. unfold D', stacked. cbn [d_X]. fold X_min. now rewrite app_assoc. }
  exists (Z.to_nat (rint (snd c))), (fst c), n, small, large. split; [exact K|]. split; [exact C1|]. split; [exact Hm|]. split; [exact En|]. exact G.
Qed.

Lemma joint_zero : (joint (0, 0)%Q == 0)%Q.
Proof. reflexivity. Qed.

(** Nothing found yet, or minority rows. *)
Definition found_ok (M : list row) (g : found) : Prop :=
  match fo_rows g with None => (joint (fo_score g) == 0)%Q | Some new => exists S, new = X_min ++ S /\ am_new dist to_f (am_ss p) D mn mj M S end.

Definition failing (M : list row) : Prop := exists S, am_new dist to_f (am_ss p) D mn mj M S /\ (joint (fitness (X_min ++ S) M) <= 0)%Q.

Lemma os_evaluate_ok M rs : maj M -> (forall i, rng_ok (rs i) /\ unif_pos (rs i)) -> forall swarm i g,
  Forall (fun s => in_range (se_at s)) swarm -> found_ok M g ->
  exists swarm' g', os_evaluate volume nn to_f fitness p (stacked D mn mj M) (length M) rs i swarm g = Ok (swarm', g') /\ length swarm' = length swarm /\
    found_ok M g' /\ (fo_rows g' = None -> fo_rows g = None /\ (swarm <> [] -> failing M)).
Proof.
  intros HM Hrs. induction swarm as [|s swarm IH]; intros i g HF Hg.
  { exists [], g. split; [reflexivity|]. split; [reflexivity|]. split; [exact Hg|]. intros E. split; [exact E|congruence]. }
  inversion HF as [|? ? HF1 HF2]; subst. destruct (Hrs i) as [G1 G2].
  destruct (am_smote_runs M (rs i) (se_at s) HM G1 G2 HF1) as (S & y' & E & HS).
  cbn [os_evaluate]. rewrite E. cbn [bind fst snd]. rewrite skipn_exact', firstn_exact'. set (score := fitness (X_min ++ S) M).
  set (g1 := if Qlt_b (joint (fo_score g)) (joint score) then _ else g).
  assert (Hg1 : found_ok M g1 /\ (fo_rows g1 = None -> fo_rows g = None /\ (joint score <= 0)%Q)).
  { unfold g1. destruct (Qlt_b _ _) eqn:EQ.
    - split; [exists S; now split|]. discriminate.
    - split; [exact Hg|]. intros EN. split; [exact EN|]. unfold found_ok in Hg. rewrite EN in Hg.
      assert (N : ~ (joint (fo_score g) < joint score)%Q) by (intros L; apply Qlt_b_iff' in L; congruence). lra. }
  destruct Hg1 as [K1 K2]. destruct (IH (Datatypes.S i) g1 HF2 K1) as (swarm' & g' & E' & L' & F' & N'). rewrite E'. cbn [bind fst snd].
  eexists _, g'. split; [reflexivity|]. split; [cbn; lia|]. split; [exact F'|]. intros EN. destruct (N' EN) as [N1 _]. destruct (K2 N1) as [N2 N3].
  split; [exact N2|]. intros _. exists S. now split.
Qed.

Lemma os_loop_ok M rs : maj M -> (forall t i, rng_ok (rs t i) /\ unif_pos (rs t i)) -> forall more t swarm g,
  swarm <> [] -> found_ok M g ->
  exists g', os_loop volume nn to_f fitness more t p (stacked D mn mj M) (length M) rs swarm g = Ok g' /\ found_ok M g' /\
    (fo_rows g' = None -> fo_rows g = None /\ (1 <= more -> failing M)).
Proof.
  intros HM Hrs. induction more as [|more IH]; intros t swarm g Hs Hg.
  { exists g. split; [reflexivity|]. split; [exact Hg|]. intros E. split; [exact E|lia]. }
  cbn [os_loop]. destruct (os_evaluate_ok M (rs t) HM (Hrs t) (map (os_move p (fo_at g)) swarm) 0 g) as (swarm' & g1 & E & L & F & N); [|exact Hg|].
  { rewrite Forall_map. apply Forall_forall. intros s _. apply os_move_range. }
  rewrite E. cbn [bind fst snd]. rewrite map_length in L.
  destruct (IH (Datatypes.S t) swarm' g1) as (g' & E' & F' & N'); [|exact F|].
  { intros ->. destruct swarm; [congruence|discriminate]. }
  exists g'. split; [exact E'|]. split; [exact F'|]. intros EN. destruct (N' EN) as [N1 _]. destruct (N N1) as [N2 N3]. split; [exact N2|]. intros _. apply N3.
  intros EQ. apply map_eq_nil in EQ. congruence.
Qed.

Lemma osmote_ok M d rs : maj M -> draws_ok d -> (forall t i, rng_ok (rs t i) /\ unif_pos (rs t i)) ->
  (exists A, osmote volume nn to_f fitness p d rs (d_dim D) mn mj X_min M = Ok A /\ min A) \/
  (osmote volume nn to_f fitness p d rs (d_dim D) mn mj X_min M = Err TypeError /\ exists A, min A /\ (joint (fitness A M) <= 0)%Q).
Proof.
  intros HM Hd Hrs. unfold osmote. destruct (mapM_total (os_init d) (seq 0 (am_n_pop p))) as (swarm & E).
  { apply Forall_forall. intros i _. unfold os_init. destruct (randint_ok d i 1 7 Hd) as (k & -> & _); [lia|]. cbn [bind]. eexists. reflexivity. }
  rewrite E. cbn [bind]. apply mapM_length in E. rewrite seq_length in E. destruct swarm as [|first swarm]; [cbn in E; lia|]. cbn [get nth_error bind].
  change (mk_data (M ++ X_min) (d_dim D) (repeat mj (length M) ++ repeat mn (length X_min))) with (stacked D mn mj M).
  destruct (os_loop_ok M rs HM Hrs (am_n_iter p) 0 (first :: swarm) (mk_found (se_at first) (0, 0)%Q None)) as (g & Eg & F & N); [discriminate|reflexivity|].
  rewrite Eg. cbn [bind]. unfold found_ok in F. destruct (fo_rows g) as [new|] eqn:EN.
  - left. destruct F as (S & -> & HS). exists (X_min ++ S). split; [reflexivity|]. right. exists M, S. auto.
  - right. split; [reflexivity|]. destruct (N eq_refl) as [_ N1]. destruct (N1 Hiter) as (S & S1 & S2). exists (X_min ++ S). split; [|exact S2]. right. exists M, S. auto.
Qed.

(** ** SIS *)

Let n_maj := length X_maj.

(** A particle leaves a row out, and is not too short or too long. *)
Definition part_ok (size : nat) (part : list nat) : Prop :=
  Forall (fun i => i < n_maj) part /\ (exists v, v < n_maj /\ ~ In v part) /\ 4 <= length part <= n_maj + size.


Lemma si_init_ok d lo hi i : draws_ok d -> lo < hi -> hi = n_maj -> 4 <= lo -> exists part, si_init d lo hi i = Ok part /\ part_ok 0 part.
Proof.
  intros Hd Hlt Hhi Hlo. unfold si_init. destruct (randint_ok d i 0 (hi - lo) Hd) as (num & -> & Hnum'); [lia|]. cbn [bind].
  destruct (mapM_total (fun k => randint d i (S k) hi) (seq 0 (lo + num))) as (part & E).
  { apply Forall_forall. intros k _. destruct (randint_ok d i (S k) hi Hd) as (v & -> & _); [lia|]. eexists. reflexivity. }
  exists part. split; [exact E|]. assert (L := mapM_length _ _ _ E). rewrite seq_length in L. split; [|split; [|lia]].
  - apply Forall_forall. intros v Hv. destruct (mapM_in _ _ _ _ E Hv) as (k & _ & Ek). destruct (randint_ok d i (S k) hi Hd) as (v' & Ev & Bv); [lia|]. rewrite Ek in Ev. injection Ev as ->. lia.
  - destruct (Forall_Exists_dec (fun v => In v part) (fun v => In_dec Nat.eq_dec v part) (seq 0 n_maj)) as [F|F].
    + exfalso. assert (length (seq 0 n_maj) <= length part) by (apply NoDup_incl_length; [apply seq_NoDup|intros v Hv; rewrite Forall_forall in F; now apply F]). rewrite seq_length in *. lia.
    + apply Exists_exists in F as (v & Hv & Nv). exists v. apply in_seq in Hv. split; [lia|exact Nv].
Qed.

Lemma si_mutant_ok d size part : draws_ok d -> part_ok size part -> exists mutant mutant', si_remove d part = Ok mutant /\ si_add d part mutant n_maj = Ok mutant' /\ part_ok (size + 9) mutant'.
Proof.
  intros Hd (P1 & (v & V1 & V2) & P3). unfold si_remove.
  destruct (randint_ok d 0 0 (Nat.sqrt (length part)) Hd) as (n & -> & Hn).
  { pose proof (Nat.sqrt_le_mono 4 (length part) ltac:(lia)). cbn in *. lia. }
  cbn [bind].
  assert (G : exists mutant, (if length part - n <? 4 then Ok part else do gone <- mapM (fun k => randint d 1 k (length part)) (seq 0 n); Ok (delete_idx part gone)) = Ok mutant /\
    incl mutant part /\ 4 <= length mutant <= length part).
  { destruct (Nat.ltb_spec (length part - n) 4); [exists part; split; [reflexivity|]; split; [apply incl_refl|lia]|].
    destruct (mapM_total (fun k => randint d 1 k (length part)) (seq 0 n)) as (gone & E).
    { apply Forall_forall. intros k _. destruct (randint_ok d 1 k (length part) Hd) as (w & -> & _); [lia|]. eexists. reflexivity. }
    rewrite E. cbn [bind]. apply mapM_length in E. rewrite seq_length in E. exists (delete_idx part gone). split; [reflexivity|]. split; [apply delete_idx_incl|].
    pose proof (delete_length part gone). lia. }
  destruct G as (mutant & -> & I1 & I2). exists mutant. unfold si_add. set (unused := filter _ (seq 0 n_maj)).
  assert (HU : forall w, In w unused <-> w < n_maj /\ ~ In w part).
  { intros w. unfold unused. rewrite filter_In, in_seq, negb_true_iff. split; intros [A B]; split; try lia.
    - intros H. apply existsb_eqb in H. congruence.
    - destruct (existsb _ _) eqn:E; [|reflexivity]. apply existsb_eqb in E. contradiction. }
  assert (NU : NoDup unused) by apply NoDup_filter, seq_NoDup.
  assert (LU : 1 <= length unused). { assert (In v unused) by (apply HU; auto). destruct unused; [contradiction|cbn; lia]. }
  destruct (randint_ok d 2 0 (Nat.min 10 (length unused)) Hd) as (m & -> & Hm); [lia|]. cbn [bind].
  destruct (mapM_total (fun k => randint d 3 k (length unused)) (seq 0 m)) as (which & E).
  { apply Forall_forall. intros k _. destruct (randint_ok d 3 k (length unused) Hd) as (w & -> & _); [lia|]. eexists. reflexivity. }
  rewrite E. cbn [bind]. assert (Lw := mapM_length _ _ _ E). rewrite seq_length in Lw.
  destruct (mapM_total (get unused) which) as (new & En).
  { apply Forall_forall. intros w Hw. destruct (mapM_in _ _ _ _ E Hw) as (k & _ & Ek). destruct (randint_ok d 3 k (length unused) Hd) as (w' & Ew & Bw); [lia|]. rewrite Ek in Ew. injection Ew as ->.
    destruct (nth_error unused w') as [a|] eqn:Ea; [exists a; now apply get_ok|apply nth_error_None in Ea; lia]. }
  unfold gather. rewrite En. cbn [bind]. assert (Ln := mapM_length _ _ _ En).
  assert (IN : incl new unused). { intros a Ha. destruct (mapM_in _ _ _ _ En Ha) as (k & _ & Ek). apply get_ok, nth_error_In in Ek. exact Ek. }
  exists (mutant ++ new). split; [reflexivity|]. split; [reflexivity|]. split; [|split].
  - apply Forall_app. split; apply Forall_forall; intros a Ha; [apply I1 in Ha; rewrite Forall_forall in P1; now apply P1|]. now apply IN, HU in Ha.
  - destruct (Forall_Exists_dec (fun w => In w new) (fun w => In_dec Nat.eq_dec w new) unused) as [F|F].
    + exfalso. assert (length unused <= length new) by (apply NoDup_incl_length; [exact NU|intros w Hw; rewrite Forall_forall in F; now apply F]). lia.
    + apply Exists_exists in F as (w & Hw & Nw). exists w. apply HU in Hw as [W1 W2]. split; [exact W1|]. intros H. apply in_app_or in H as [H|H]; [now apply W2, I1|contradiction].
  - rewrite app_length. lia.
Qed.

Lemma gather_maj part : Forall (fun i => i < n_maj) part -> exists R, gather X_maj part = Ok R /\ incl R X_maj /\ length R = length part.
Proof.
  intros HF. rewrite gather_rows_at by exact HF. eexists. split; [reflexivity|]. unfold rows_at. rewrite map_length. split; [|reflexivity].
  intros x Hx. apply in_map_iff in Hx as (i & <- & Hi). rewrite Forall_forall in HF. apply nth_In. now apply HF.
Qed.

Definition best_ok (size : nat) (b : Q * option (list nat)) : Prop :=
  match snd b with None => (fst b == 0)%Q | Some part => part_ok size part end.

Definition inaccurate (A : list row) : Prop := exists M, maj M /\ (snd (fitness A M) <= 0)%Q.

Lemma part_more size size' part : size <= size' -> part_ok size part -> part_ok size' part.
Proof. intros H (P1 & P2 & P3). split; [exact P1|]. split; [exact P2|lia]. Qed.
Lemma best_more size size' b : size <= size' -> best_ok size b -> best_ok size' b.
Proof. intros H. unfold best_ok. destruct (snd b); [now apply part_more|auto]. Qed.

Lemma part_maj size part R : size <= 9 * am_n_iter p -> part_ok size part -> gather X_maj part = Ok R -> maj R.
Proof.
  intros Hs (P1 & _ & P3) E. destruct (gather_maj part P1) as (R' & E' & I & L). rewrite E in E'. injection E' as ->. split; [exact I|].
  destruct am_lens as (L1 & L2 & L3). unfold bound, am_bound. fold n_maj in L2. rewrite L, <- L2. lia.
Qed.

Lemma si_round_ok A ds size : (forall i, draws_ok (ds i)) -> size + 9 <= 9 * am_n_iter p -> forall parts i best,
  Forall (fun ps => part_ok size (fst ps)) parts -> best_ok (size + 9) best ->
  exists parts' best', si_round fitness A X_maj ds i parts best = Ok (parts', best') /\ length parts' = length parts /\
    Forall (fun ps => part_ok (size + 9) (fst ps)) parts' /\ best_ok (size + 9) best' /\
    (snd best' = None -> snd best = None /\ (parts <> [] -> inaccurate A)).
Proof.
  intros Hds Hs. induction parts as [|[part score] parts IH]; intros i best HF Hb.
  { exists [], best. split; [reflexivity|]. split; [reflexivity|]. split; [constructor|]. split; [exact Hb|]. intros E. split; [exact E|congruence]. }
  inversion HF as [|? ? HF1 HF2]; subst. cbn [fst] in HF1. destruct (si_mutant_ok (ds i) size part (Hds i) HF1) as (m1 & m2 & E1 & E2 & P2).
  cbn [si_round]. rewrite E1. cbn [bind]. fold n_maj. rewrite E2. cbn [bind]. destruct (gather_maj m2 (proj1 P2)) as (R & ER & IR & LR). rewrite ER. cbn [bind].
  set (s := snd (fitness A R)). set (b1 := if Qlt_b (fst best) s then _ else best).
  assert (Hb1 : best_ok (size + 9) b1 /\ (snd b1 = None -> snd best = None /\ (s <= 0)%Q)).
  { unfold b1. destruct (Qlt_b (fst best) s) eqn:EQ; [split; [exact P2|discriminate]|]. split; [exact Hb|]. intros EN. split; [exact EN|].
    unfold best_ok in Hb. rewrite EN in Hb. assert (N : ~ (fst best < s)%Q) by (intros L; apply Qlt_b_iff' in L; congruence). lra. }
  destruct Hb1 as [K1 K2]. destruct (IH (S i) b1 HF2 K1) as (parts' & best' & E' & L' & F' & B' & N'). rewrite E'. cbn [bind fst snd].
  eexists _, best'. split; [reflexivity|]. split; [cbn; lia|]. split.
  { constructor; [|exact F']. destruct (Qlt_b score s); cbn [fst]; [exact P2|apply (part_more size); [lia|exact HF1]]. }
  split; [exact B'|]. intros EN. destruct (N' EN) as [N1 _]. destruct (K2 N1) as [N2 N3]. split; [exact N2|]. intros _. exists R. split; [|exact N3].
  apply (part_maj (size + 9) m2); assumption.
Qed.

Lemma si_loop_ok A ds : (forall t i, draws_ok (ds t i)) -> forall more t size parts best,
  size + 9 * more <= 9 * am_n_iter p -> parts <> [] -> Forall (fun ps => part_ok size (fst ps)) parts -> best_ok size best ->
  exists best', si_loop fitness more t A X_maj ds parts best = Ok best' /\ best_ok (size + 9 * more) best' /\
    (snd best' = None -> snd best = None /\ (1 <= more -> inaccurate A)).
Proof.
  intros Hds. induction more as [|more IH]; intros t size parts best Hs Hne HF Hb.
  { exists best. split; [reflexivity|]. split; [rewrite Nat.mul_0_r, Nat.add_0_r; exact Hb|]. intros E. split; [exact E|lia]. }
  cbn [si_loop]. destruct (si_round_ok A (ds t) size (Hds t) ltac:(lia) parts 0 best HF (best_more size (size + 9) _ ltac:(lia) Hb)) as (parts' & b1 & E & L & F & B & N).
  rewrite E. cbn [bind fst snd]. destruct (IH (S t) (size + 9) parts' b1 ltac:(lia)) as (b' & E' & B' & N'); [|exact F|exact B|].
  { intros ->. destruct parts; [congruence|discriminate]. }
  exists b'. split; [exact E'|]. split; [replace (size + 9 * S more) with (size + 9 + 9 * more) by lia; exact B'|]. intros EN. destruct (N' EN) as [N1 _]. destruct (N N1) as [N2 N3].
  split; [exact N2|]. intros _. now apply N3.
Qed.

Lemma sis_ok A d ds : min A -> draws_ok d -> (forall t i, draws_ok (ds t i)) ->
  (exists M, sis fitness p d ds A X_maj = Ok M /\ maj M) \/ (sis fitness p d ds A X_maj = Err ValueError /\ inaccurate A).
Proof.
  intros HA Hd Hds. destruct am_lens as (L1 & L2 & L3). assert (LA : length X_min <= length A) by (destruct HA as [->|(M & S & _ & -> & _)]; fold X_min; [lia|rewrite app_length; lia]).
  unfold sis. fold n_maj in L2, L3 |- *. destruct (Nat.leb_spec n_maj (length A)).
  { left. exists X_maj. split; [reflexivity|]. split; [apply incl_refl|]. fold n_maj. fold n_maj in L3. lia. }
  destruct (mapM_total (si_init d (length A) n_maj) (seq 0 (am_n_pop p))) as (parts & E).
  { apply Forall_forall. intros i _. destruct (si_init_ok d (length A) n_maj i Hd) as (part & Ep & _); [lia|reflexivity|lia|]. eexists. exact Ep. }
  rewrite E. cbn [bind]. assert (Lp := mapM_length _ _ _ E). rewrite seq_length in Lp.
  assert (Fp : Forall (part_ok 0) parts).
  { apply Forall_forall. intros part Hp. destruct (mapM_in _ _ _ _ E Hp) as (i & _ & Ei). destruct (si_init_ok d (length A) n_maj i Hd) as (part' & Ep & P); [lia|reflexivity|lia|]. rewrite Ei in Ep. now injection Ep as ->. }
  assert (G : exists sc, mapM (fun part => do rows <- gather X_maj part; Ok (part, snd (fitness A rows))) parts = Ok sc /\ length sc = length parts /\ Forall (fun ps => part_ok 0 (fst ps)) sc).
  { clear - Fp. induction Fp as [|part parts P Fp (sc & E & L & F)]; [exists []; repeat constructor|]. cbn [mapM].
    destruct (gather_maj part (proj1 P)) as (R & -> & _). cbn [bind]. rewrite E. cbn [bind]. eexists. split; [reflexivity|]. split; [cbn; lia|]. now constructor. }
  destruct G as (sc & -> & Ls & Fs). cbn [bind].
  destruct (si_loop_ok A ds Hds (am_n_iter p) 0 0 sc (0%Q, None)) as (b & -> & B & N); [lia| |exact Fs|reflexivity|].
  { intros ->. cbn in Ls. lia. }
  cbn [bind]. unfold best_ok in B. destruct (snd b) as [part|] eqn:EN.
  - left. destruct (gather_maj part (proj1 B)) as (R & ER & _). exists R. split; [exact ER|]. apply (part_maj (0 + 9 * am_n_iter p) part); [lia|exact B|exact ER].
  - right. split; [reflexivity|]. now apply N.
Qed.

(** ** The result *)

Lemma am_evaluate_ok cur A M : maj M -> min A -> maj (snd cur) -> min (fst cur) -> maj (snd (am_evaluate fitness cur A M)) /\ min (fst (am_evaluate fitness cur A M)).
Proof.
  intros H1 H2 H3 H4. unfold am_evaluate. destruct (Qeq_bool _ _ || Qeq_bool _ _); destruct (Qeq_bool _ _ || Qeq_bool _ _); cbn [fst snd]; auto.
Qed.

Lemma am_loop_ok ads : (forall t, am_draws_ok (ads t)) -> forall more t cur, maj (snd cur) -> min (fst cur) ->
  (exists cur', am_loop volume nn to_f fitness more t p ads (d_dim D) mn mj X_min X_maj cur = Ok cur' /\ maj (snd cur') /\ min (fst cur')) \/
  (am_loop volume nn to_f fitness more t p ads (d_dim D) mn mj X_min X_maj cur = Err TypeError /\ exists M A, maj M /\ min A /\ (joint (fitness A M) <= 0)%Q) \/
  (am_loop volume nn to_f fitness more t p ads (d_dim D) mn mj X_min X_maj cur = Err ValueError /\ exists M A, maj M /\ min A /\ (snd (fitness A M) <= 0)%Q).
Proof.
  intros Hads. induction more as [|more IH]; intros t cur H1 H2; [left; exists cur; auto|]. cbn [am_loop]. destruct (Hads t) as (A1 & A2 & A3 & A4).
  destruct (osmote_ok (snd cur) _ _ H1 A1 A2) as [(A & -> & HA)|(-> & A & HA & HF)]; cbn [bind].
  2: { right. left. split; [reflexivity|]. exists (snd cur), A. auto. }
  destruct (sis_ok (fst cur) _ _ H2 A3 A4) as [(M & -> & HM)|(-> & M & HM & HF)]; cbn [bind].
  2: { right. right. split; [reflexivity|]. exists M, (fst cur). auto. }
  destruct (am_evaluate_ok cur A M HM HA H1 H2) as [G1 G2]. apply IH; assumption.
Qed.

Lemma am_sample_large ads : (forall t, am_draws_ok (ads t)) -> am_result dist to_f fitness p D mn mj (am_sample volume nn to_f fitness p ads D).
Proof.
  intros Hads. unfold am_sample.
  edestruct (large_enough_runs [CMinNMin 4; COther] (am_algorithm volume nn to_f fitness p ads) D mn mj Hmin) as (st & _ & E1 & E2 & ->).
  { repeat constructor. exact Hcount. }
  unfold am_algorithm. rewrite E1, E2. fold X_min. fold X_maj.
  destruct am_lens as (L1 & L2 & L3).
  destruct (am_loop_ok ads Hads (am_n_iter p) 0 (X_min, X_maj)) as [(cur & -> & G1 & G2)|[(-> & G)|(-> & G)]]; cbn [bind fst snd].
  - split; [apply incl_refl|]. fold X_maj. lia.
  - now left.
  - left. exists (snd cur), (fst cur). auto.
  - right. left. split; [reflexivity|exact G].
  - right. right. split; [reflexivity|exact G].
Qed.

End Amsco.

Lemma am_sample_ok dist volume nn to_f fitness p ads D mn mj :
  knn_ok dist nn -> plain_ss (am_ss p) -> 1 <= am_n_pop p -> 1 <= am_n_iter p -> (forall t, am_draws_ok (ads t)) ->
  wf_data (d_X D) (d_dim D) (d_y D) -> is_minority (d_y D) mn mj -> numbers_ok to_f (am_bound p D mj) ->
  let out := am_sample volume nn to_f fitness p ads D in
  (count_label (d_y D) mn <= 4 -> unchanged D out) /\
  (4 < count_label (d_y D) mn -> am_result dist to_f fitness p D mn mj out).
Proof.
  intros Hnn Hss Hp Hi Hads Hwf Hmin Hnum out. unfold out. split; intros Hc.
  - unfold unchanged. eapply too_small_copies; [exact Hmin|]. left. exists 4. split; [now left|exact Hc].
  - now apply am_sample_large.
Qed.
