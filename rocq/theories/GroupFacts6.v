(** Consequences of C82 to C86. *)

From Coq Require Import List ZArith QArith Qpower Bool Arith Lia Lqa Sorting.Sorted Permutation.
From Verif Require Import Np PyVal NpFacts BaseFacts SimplexModel Spec SpecDanger SpecNoise SpecComp SimplexFacts SimplexGeom Float64
  SamplerModel SamplerFacts OversFacts BaseModel KnnFacts DangerModel DangerFacts ClusterOversModel OversGen
  ClusterOversFacts ClusterFacts NoiseModel NoiseFacts NoiseFacts2 CompModel CompFacts CompFacts2 CompFacts3 CompFacts4 EditModel SpecEdit EditFacts4 EditFacts5
  SpecNear NearFacts NearFacts2 LevelModel SpecLevel LevelFacts LevelFacts3 LevelFacts4 GroupModel SpecGroup GroupFacts GroupFacts2 GroupFacts4 GroupFacts5.
Import ListNotations.
Open Scope nat_scope.

(** With one neighbour only copies are made. *)
Lemma cluster_smote_copies dist draw labels p D mn n S :
  gp_n_neighbors p = 1 -> ss_gauss (gp_ss p) = GNone -> length labels = length (rows_with mn (d_X D) (d_y D)) ->
  cluster_smote_spec dist draw labels p D mn n S ->
  Forall (fun x => exists z, In z (rows_with mn (d_X D) (d_y D)) /\ length x = d_dim D /\
    forall j, j < d_dim D -> (nth j x 0 == nth j z 0)%Q) S.
Proof.
  intros Hk HG HL [H1 H2]. set (X_min := rows_with mn (d_X D) (d_y D)) in *.
  destruct (ListDec.NoDup_dec Nat.eq_dec labels) as [ND|ND]; [rewrite (H1 ND); constructor|].
  destruct (H2 ND) as (names & groups & Ts & cls & _ & Hg & _ & _ & _ & HF).
  apply Forall_forall. intros x Hx. apply (In_nth _ _ []) in Hx as (i & Hi & Ei).
  assert (Lc := Forall2_length _ _ _ HF).
  assert (Hq := Forall2_nth' _ _ _ 0 [] i HF ltac:(lia)). cbv beta zeta in Hq. rewrite Ei in Hq. destruct Hq as [Hq [HT Hs]].
  fold X_min in HT, Hs. set (V := rows_at X_min (nth (nth i cls 0) groups [])) in *.
  destruct (Hs HG) as (b & ps & Hb & Lps & _ & _ & _ & _ & Hx).
  assert (E0 : Nat.min (ss_n_dim (gp_ss p)) (Nat.min (gp_n_neighbors p) (length V)) - 1 = 0) by lia. rewrite E0 in Lps.
  apply length_zero_iff_nil in Lps. subst ps. cbn [map] in Hx. destruct Hx as (Lx & ws & Lw & Wn & W1 & Wx).
  destruct (nearest_table_shape _ _ _ _ _ HT) as (L1 & _). rewrite L1 in Hb.
  exists (nth b V []). split.
  - unfold V, rows_at. rewrite (nth_map' _ 0) by (unfold V, rows_at in Hb; rewrite map_length in Hb; assumption). apply nth_In.
    assert (Lg := Forall2_length _ _ _ Hg).
    assert (Hp := Forall2_nth' _ _ _ 0 [] (nth i cls 0) Hg ltac:(lia)). cbv beta in Hp. rewrite <- HL.
    eapply (in_cluster_lt labels). apply Hp. apply nth_In. unfold V, rows_at in Hb. now rewrite map_length in Hb.
  - split; [assumption|]. intros j Hj. rewrite (Wx j Hj). destruct ws as [|w [|? ?]]; try discriminate. cbn in *. rewrite Qplus_0_r in W1 |- *. rewrite W1. ring.
Qed.

(** * NRSBoundary_SMOTE *)

Lemma kept_rows_in P l l' x : kept_rows P l l' -> In x l' -> In x l /\ P x.
Proof. induction 1; cbn; [tauto| |]; intros H'; [destruct H' as [->|H']|]; tauto. Qed.

Lemma turns_in cand far n last : forall t m S, turns cand far n last t m S ->
  forall x, In x S -> cand x /\ exists t', t <= t' < last /\ far t' x.
Proof.
  induction 1 as [|t m batch A S Hm Ht Lb Fb Hk H IH]; intros x Hx; [destruct Hx|]. apply in_app_or in Hx as [Hx|Hx].
  - apply (kept_rows_in _ _ _ _ Hk) in Hx as [Hx Hf]. rewrite Forall_forall in Fb. split; [now apply Fb|]. exists t. split; [lia|assumption].
  - destruct (IH x Hx) as (Hc & t' & Ht' & Hf). split; [assumption|]. exists t'. split; [lia|assumption].
Qed.

Lemma firstn_In {A} (x : A) k l : In x (firstn k l) -> In x l.
Proof. intros H. rewrite <- (firstn_skipn k l). apply in_or_app. now left. Qed.

(** What comes back, at most [n] rows are new, and they keep a distance. *)
Lemma nrs_guarantee dist p D mn mj n X' y' :
  wf_data (d_X D) (d_dim D) (d_y D) -> nrs_spec dist p D mn mj n (Ok (X', y')) ->
  exists S, X' = d_X D ++ S /\ y' = d_y D ++ repeat mn (length S) /\ length S <= Z.to_nat n /\
    Forall (fun x => exists delta pos, length delta = length (d_X D) /\
      (forall i, i < length (d_X D) -> nrs_radius dist (nr_w p) (d_X D) i (nth i delta 0%Q)) /\
      positions (fun i => i < length (d_X D) /\ nth i (d_y D) 0%Z = mj /\
        forall j, j < length (d_X D) -> (dist (nth i (d_X D) []) (nth j (d_X D) []) <= nth i delta 0)%Q -> nth j (d_y D) 0%Z = mj) pos /\
      pos <> [] /\
      forall i, In i pos -> (nth i delta 0 * (1 # 10) <= dist x (nth i (d_X D) []))%Q /\ (0 < nth i delta 0)%Q) S.
Proof.
  intros _ (delta & bound & pos & Ld & Hd & Hb & Hp & Hu & Hrun). cbv zeta in *.
  assert (Same : Ok (X', y') = Ok (d_X D, d_y D) ->
    exists S, X' = d_X D ++ S /\ y' = d_y D ++ repeat mn (length S) /\ length S <= Z.to_nat n /\
    Forall (fun x => exists delta pos, length delta = length (d_X D) /\
      (forall i, i < length (d_X D) -> nrs_radius dist (nr_w p) (d_X D) i (nth i delta 0%Q)) /\
      positions (fun i => i < length (d_X D) /\ nth i (d_y D) 0%Z = mj /\
        forall j, j < length (d_X D) -> (dist (nth i (d_X D) []) (nth j (d_X D) []) <= nth i delta 0)%Q -> nth j (d_y D) 0%Z = mj) pos /\
      pos <> [] /\
      forall i, In i pos -> (nth i delta 0 * (1 # 10) <= dist x (nth i (d_X D) []))%Q /\ (0 < nth i delta 0)%Q) S).
  { intros [= -> ->]. exists []. cbn. rewrite !app_nil_r. repeat split; try lia. constructor. }
  destruct bound as [|b bs] eqn:Eb; [apply Same, Hu; now left|]. destruct pos as [|q qs] eqn:Ep; [apply Same, Hu; now right|].
  rewrite <- Eb, <- Ep in *. clear Same.
  destruct Hrun as (T & S & last & HT & Hl0 & Hl & Htu & Ho1 & Ho2); [rewrite Eb; discriminate|rewrite Ep; discriminate|].
  assert (SN : S <> []) by (intros E; specialize (Ho1 E); discriminate).
  specialize (Ho2 SN). injection Ho2 as -> ->. exists (firstn (Z.to_nat n) S). split; [reflexivity|]. split; [reflexivity|].
  split; [rewrite firstn_length; lia|]. apply Forall_forall. intros x Hx. apply firstn_In in Hx.
  destruct (turns_in _ _ _ _ _ _ _ Htu x Hx) as (_ & t & Ht & Hf).
  assert (Hpos : forall i, In i pos -> (0 < nth i delta 0)%Q).
  { intros i Hi. destruct (Qlt_le_dec 0 (nth i delta 0%Q)) as [|Hle]; [assumption|]. exfalso. rewrite Hl0 in Ht by eauto. lia. }
  rewrite (Hl Hpos) in Ht. exists delta, pos. split; [assumption|]. split; [assumption|]. split.
  { eapply positions_ext; [|exact Hp]. intros i. cbn beta. split; intros (A1 & A2 & A3); (split; [assumption|]; split; [assumption|]).
    - intros j H1 H2. apply A3. now split.
    - intros j [H1 H2]. now apply A3. }
  split; [rewrite Ep; discriminate|]. intros i Hi. split; [|now apply Hpos]. specialize (Hf i Hi). specialize (Hpos i Hi).
  assert (Ht9 : t <= 9) by lia. apply qn_le in Ht9. apply Qlt_le_weak. eapply Qle_lt_trans; [|exact Hf].
  rewrite Qmult_comm. apply Qmult_le_compat_r; [|now apply Qlt_le_weak]. change (qn 9) with (9 # 1)%Q in Ht9. Lqa.lra.
Qed.

(** * ANS *)

Lemma ans_zero dist vol nn radius prop ss r D mn mj n :
  is_minority (d_y D) mn mj -> asked prop (d_y D) mn mj = Ok n ->
  runs D mn n (ans_spec dist ss D mn mj n) (ans_sample vol dist nn radius prop ss r D) ->
  (forall S, ans_spec dist ss D mn mj n S -> S = []) -> unchanged D (ans_sample vol dist nn radius prop ss r D).
Proof.
  intros Hmin Ha [R1 R2] H. pose proof (asked_some _ _ _ _ _ Ha) as Hn.
  destruct (Nat.le_gt_cases (count_label (d_y D) mn) 2) as [Hc|Hc]; [apply R1; now left|].
  destruct (Z.eq_dec n 0) as [E|E]; [apply R1; now right|]. destruct (R2 Hc ltac:(lia)) as (S & ES & HS).
  apply H in HS. subst S. unfold unchanged. rewrite ES. cbn. now rewrite !app_nil_r.
Qed.

Lemma ans_none_used dist ss D mn mj n S :
  (forall ob C, length ob = length (rows_with mn (d_X D) (d_y D)) ->
     (forall i, i < length ob -> exists r, (exists T, nearest_table dist (rows_with mn (d_X D) (d_y D)) (rows_with mn (d_X D) (d_y D)) 2 T /\
         r = dist (nth i (rows_with mn (d_X D) (d_y D)) []) (nth (nth 1 (nth i T []) 0) (rows_with mn (d_X D) (d_y D)) [])) /\
       majority_within dist D mj (nth i (rows_with mn (d_X D) (d_y D)) []) r (nth i ob 0)) ->
     ans_cut ob (length (d_X D) / 4) C -> C = 0) ->
  ans_spec dist ss D mn mj n S -> S = [].
Proof.
  intros H (T & first & ob & C & used & HT & Lf & Hf & Lo & Ho & HC & Hu & H1 & _).
  apply H1. assert (E : C = 0).
  { apply (H ob C); auto. intros i Hi. rewrite Lo in Hi. exists (nth i first 0%Q). split; [|now apply Ho]. exists T. split; [assumption|]. now apply Hf. }
  destruct used as [|i us]; [reflexivity|]. destruct (proj1 (proj2 Hu i)) as [_ Hlt]; [now left|]. lia.
Qed.

Lemma ans_small dist vol nn radius prop ss r D mn mj n :
  is_minority (d_y D) mn mj -> asked prop (d_y D) mn mj = Ok n ->
  runs D mn n (ans_spec dist ss D mn mj n) (ans_sample vol dist nn radius prop ss r D) ->
  length (d_X D) < 8 -> unchanged D (ans_sample vol dist nn radius prop ss r D).
Proof.
  intros Hmin Ha R H8. apply (ans_zero dist vol nn radius prop ss r D mn mj n Hmin Ha R). intros S HS.
  apply (ans_none_used dist ss D mn mj n S); [|assumption]. intros ob C _ _ [H _]. apply H.
  assert (length (d_X D) / 4 < 2); [|lia]. apply Nat.div_lt_upper_bound; lia.
Qed.

Lemma second_nearest dist (X : list row) T i j :
  (forall x, (dist x x == 0)%Q) -> (forall x z, (0 <= dist x z)%Q) -> nearest_table dist X X 2 T -> i < length X -> j < length X -> j <> i ->
  (dist (nth i X []) (nth (nth 1 (nth i T []) 0%nat) X []) <= dist (nth i X []) (nth j X []))%Q.
Proof.
  intros H0 Hn HT Hi Hj N. destruct (Forall2_nth' _ _ _ [] [] i HT Hi) as (L & ND & F & S & Out). set (x := nth i X []) in *.
  destruct (nth i T []) as [|a [|b [|c l]]]; try discriminate. cbn [nth].
  assert (Hab : (dist x (nth a X []) <= dist x (nth b X []))%Q).
  { inversion S as [|? ? _ Fa]; subst. inversion Fa; subst. assumption. }
  destruct (in_dec Nat.eq_dec j [a; b]) as [Hin|Hin]; [|apply Out; [right; now left|assumption|assumption]].
  destruct Hin as [<-|[<-|[]]]; [|apply Qle_refl].
  assert (E : (dist x (nth b X []) <= 0)%Q); [|eapply Qle_trans; [exact E|apply Hn]].
  destruct (Nat.eq_dec b i) as [->|Nb]; [fold x; setoid_rewrite (H0 x); apply Qle_refl|].
  setoid_rewrite <- (H0 x). apply (Out b i); [right; now left| |assumption]. intros [->|[->|[]]]; congruence.
Qed.

Lemma ans_separated dist vol nn radius prop ss r D mn mj n :
  (forall x, (dist x x == 0)%Q) -> (forall x z, (0 <= dist x z)%Q) -> wf_data (d_X D) (d_dim D) (d_y D) ->
  is_minority (d_y D) mn mj -> asked prop (d_y D) mn mj = Ok n ->
  runs D mn n (ans_spec dist ss D mn mj n) (ans_sample vol dist nn radius prop ss r D) ->
  (forall i, i < length (rows_with mn (d_X D) (d_y D)) -> exists j, j < length (rows_with mn (d_X D) (d_y D)) /\ j <> i /\
     forall z, In z (rows_with mj (d_X D) (d_y D)) ->
       (dist (nth i (rows_with mn (d_X D) (d_y D)) []) (nth j (rows_with mn (d_X D) (d_y D)) []) < dist (nth i (rows_with mn (d_X D) (d_y D)) []) z)%Q) ->
  unchanged D (ans_sample vol dist nn radius prop ss r D).
Proof.
  intros H0 Hn [_ Hl] Hmin Ha R Hsep. apply (ans_zero dist vol nn radius prop ss r D mn mj n Hmin Ha R). intros R' HS.
  apply (ans_none_used dist ss D mn mj n R'); [|assumption]. set (X_min := rows_with mn (d_X D) (d_y D)) in *.
  intros ob C Lo Ho [Hc1 Hc2]. destruct (Nat.le_gt_cases (length (d_X D) / 4) 1) as [Ht|Ht]; [now apply Hc1|].
  destruct (Hc2 Ht) as (c & Hc & HC & _). unfold outcasts_at in HC. destruct c as [|c]; [lia|].
  assert (E : filter (fun o => Datatypes.S c <=? o) ob = []); [|rewrite E in HC; cbn in HC; lia].
  assert (Z0 : forall i, i < length ob -> nth i ob 0 = 0).
  { intros i Hi. destruct (Ho i Hi) as (q & (T & HT & Eq) & t & Ht' & Eo). rewrite Eo. unfold votes.
    assert (Ef : filter (fun j => Z.eqb (nth j (d_y D) 0%Z) mj) t = []); [|now rewrite Ef].
    destruct (filter _ t) as [|j l] eqn:Ef; [reflexivity|]. exfalso.
    assert (Hj : In j (filter (fun j => Z.eqb (nth j (d_y D) 0%Z) mj) t)) by (rewrite Ef; now left).
    apply filter_In in Hj as [Hj1 Hj2]. apply Z.eqb_eq in Hj2. apply Ht' in Hj1 as [Hj1 Hj3].
    rewrite Lo in Hi. destruct (Hsep i Hi) as (j' & Hj' & N & Hz).
    assert (Hin : In (nth j (d_X D) []) (rows_with mj (d_X D) (d_y D))).
    { apply rows_with_in. rewrite <- Hj2, <- combine_nth by assumption. apply nth_In. rewrite combine_length. lia. }
    apply (Qlt_not_le _ _ (Hz _ Hin)). eapply Qle_trans; [exact Hj3|]. rewrite Eq. now apply second_nearest. }
  clear - Z0. induction ob as [|o ob IH]; [reflexivity|]. cbn [filter]. specialize (Z0 0) as Z1. cbn in Z1. rewrite Z1 by lia. cbn.
  apply IH. intros i Hi. apply (Z0 (S i)). cbn. lia.
Qed.
