(** Lemmas about ADASYN and the borderline methods. *)

From Coq Require Import List ZArith QArith Bool Arith Lia Lqa Sorting.Sorted Permutation.
From Verif Require Import Np NpFacts SimplexModel Spec SpecDanger SimplexFacts SimplexGeom Float64
  SamplerModel SamplerFacts OversFacts BaseModel BaseFacts NoiseFacts DangerModel.
Import ListNotations.
Open Scope nat_scope.

Lemma filter_eqb_count l lab : length (filter (Z.eqb lab) l) = count_label l lab.
Proof.
  unfold count_label. induction l as [|z l IH]; [reflexivity|]. cbn.
  destruct (Z.eq_dec z lab) as [->|N]; [rewrite Z.eqb_refl; cbn; auto|].
  replace (lab =? z)%Z with false by (symmetry; apply Z.eqb_neq; congruence). exact IH.
Qed.

Lemma tl_bound {A} (P : A -> Prop) l : Forall P l -> Forall P (tl l).
Proof. destruct 1; cbn; auto. Qed.

Lemma gather_labels y row_ : Forall (fun i => i < length y) row_ ->
  gather y (tl row_) = Ok (other_labels y row_).
Proof. intros H. apply gather_map. now apply tl_bound. Qed.

Lemma count_neighbours_ok y lab row_ : Forall (fun i => i < length y) row_ ->
  count_neighbours y lab row_ = Ok (neighbours_of y lab row_).
Proof. intros H. unfold count_neighbours. rewrite gather_labels by assumption. cbn. now rewrite filter_eqb_count. Qed.

Lemma neighbours_of_le y lab row_ : neighbours_of y lab row_ <= length (tl row_).
Proof.
  unfold neighbours_of, count_label, other_labels.
  eapply Nat.le_trans; [apply count_occ_bound|]. now rewrite map_length.
Qed.

Lemma neighbours_of_pos y lab row_ : Forall (fun i => i < length y) row_ ->
  0 < neighbours_of y lab row_ ->
  exists p, 1 <= p < length row_ /\ nth_error y (nth p row_ 0) = Some lab.
Proof.
  intros Hr H. unfold neighbours_of, count_label in H. apply count_occ_In in H.
  unfold other_labels in H. apply in_map_iff in H as [i [Hi Hin]].
  destruct row_ as [|a l]; [destruct Hin|]. cbn [tl] in Hin.
  apply In_nth with (d := 0) in Hin as [q [Hq Hn]]. exists (S q). cbn. split; [lia|].
  rewrite Hn. inversion Hr as [|? ? _ Hr']; subst. rewrite Forall_forall in Hr'.
  rewrite <- (nth_error_nth' y 0%Z (Hr' _ (nth_In _ 0 Hq))). reflexivity.
Qed.

Lemma neighbours_of_pos' y lab row_ p : 1 <= p < length row_ ->
  nth_error y (nth p row_ 0) = Some lab -> 0 < neighbours_of y lab row_.
Proof.
  intros [H1 H2] H. unfold neighbours_of, count_label. apply count_occ_In.
  unfold other_labels. apply in_map_iff. exists (nth p row_ 0). split; [now apply nth_error_nth|].
  destruct row_ as [|a l]; [cbn in H2; lia|]. destruct p; [lia|]. cbn. apply nth_In. cbn in H2. lia.
Qed.

(** * ADASYN *)

Lemma Qinj_pos n : (0 < n) -> (0 < inject_Z (Z.of_nat n))%Q.
Proof. intros H. unfold Qlt. cbn. lia. Qed.

Lemma Qinj_nonneg n : (0 <= inject_Z (Z.of_nat n))%Q.
Proof. unfold Qle. cbn. lia. Qed.

Lemma Qdiv_pos_iff a b : (0 < b -> (0 < a / b <-> 0 < a))%Q.
Proof.
  intros Hb. split; intros H.
  - assert (E : a == (a / b) * b) by (field; lra). rewrite E. nra.
  - apply Qlt_shift_div_l; [assumption|]. lra.
Qed.

Lemma Qdiv_nonneg' a b : (0 < b -> 0 <= a -> 0 <= a / b)%Q.
Proof. intros Hb H. apply Qle_shift_div_l; [assumption|]. lra. Qed.

Lemma qsum_zero_all l : Forall (Qle 0) l -> (qsum l == 0)%Q -> Forall (fun x => x == 0)%Q l.
Proof.
  induction 1 as [|x l Hx Hl IH]; cbn; intros H; constructor.
  - pose proof (qsum_nonneg _ Hl). lra.
  - apply IH. pose proof (qsum_nonneg _ Hl). lra.
Qed.

Definition adasyn_spec (dist : list Q -> list Q -> Q) (p : adasyn_params) (D : dataset) (mn mj : Z)
    (X' : list row) (y' : list Z) : Prop :=
  let X_min := rows_with mn (d_X D) (d_y D) in
  let k := Nat.min (count_label (d_y D) mn) (ad_n_neighbors p + 1) in
  let s := adasyn_beta (ad_proportion p) (ad_beta p) in
  (X' = d_X D /\ y' = d_y D /\
    (count_label (d_y D) mn <= 2 \/ asked s (d_y D) mn mj = Ok 0%Z \/
     f_gtb (f_div (f_of_Z (Z.of_nat (count_label (d_y D) mn)))
                  (f_of_Z (Z.of_nat (count_label (d_y D) mj)))) (ad_d_th p) = true \/
     exists T, nearest_table dist (d_X D) X_min k T /\
       Forall (fun t => neighbours_of (d_y D) mj t = 0) T)) \/
  exists n S T,
    asked s (d_y D) mn mj = Ok (Z.of_nat n) /\ 0 < n /\ length S = n /\
    X' = d_X D ++ S /\ y' = d_y D ++ repeat mn n /\
    nearest_table dist (d_X D) X_min k T /\
    (ss_gauss (ad_ss p) = GNone -> forall x, In x S ->
      exists b t tm ps,
        nth_error X_min b = Some t /\
        (exists q, 1 <= q < k /\ nth_error (d_y D) (nth q (nth b T []) 0) = Some mj) /\
        nearest_table dist X_min [t] k [tm] /\
        length ps = Nat.min (ss_n_dim (ad_ss p)) k - 1 /\ StronglySorted lt ps /\
        Forall (fun q => 1 <= q < k) ps /\
        convex_comb (d_dim D) (t :: map (fun q => nth (nth q tm 0) X_min []) ps) x).

Lemma two_labels_count y a b : two_labels y a b -> count_label y a + count_label y b = length y.
Proof.
  intros (Hne & _ & _ & Hall). unfold count_label. induction y as [|z y IH]; [reflexivity|].
  assert (Hz : z = a \/ z = b) by (apply Hall; left; reflexivity).
  cbn. rewrite <- IH by (intros; apply Hall; now right).
  destruct (Z.eq_dec z a), (Z.eq_dec z b); try congruence; try lia; destruct Hz; congruence.
Qed.

Lemma nth_error_map_nth {A B} (f : A -> B) l i : nth_error (map f l) i = option_map f (nth_error l i).
Proof. apply nth_error_map. Qed.

Lemma adasyn_cases dist vol nn p r D mn mj X' y' :
  knn_ok dist nn -> rng_ok r -> wf_data (d_X D) (d_dim D) (d_y D) ->
  is_minority (d_y D) mn mj -> 1 <= ad_n_neighbors p ->
  adasyn_sample vol nn p r D = Ok (X', y') ->
  adasyn_spec dist p D mn mj X' y'.
Proof.
  intros Hnn Hr [Hrect Hlen] Hmin Hk H. unfold adasyn_spec.
  set (X_min := rows_with mn (d_X D) (d_y D)).
  set (k := Nat.min (count_label (d_y D) mn) (ad_n_neighbors p + 1)).
  set (s := adasyn_beta (ad_proportion p) (ad_beta p)).
  unfold adasyn_sample in H.
  destruct (sample_default (adasyn_algorithm vol nn p r) D mn mj Hmin) as (st & Hst & E).
  rewrite E in H. clear E.
  destruct (Nat.leb_spec (count_label (d_y D) mn) 2) as [Hle|Hgt].
  { injection H as <- <-. left. auto 10. }
  unfold adasyn_algorithm in H. fold s in H. inv_bind H. rename a into n.
  pose proof (det_st_inv _ _ _ _ _ _ (proj1 Hmin) Hst E) as Hn. clear E.
  destruct Hst as (Emn & Emj & _). rewrite Emn, Emj in H.
  destruct (Nat.eqb_spec n 0) as [Hn0|Hn0].
  { injection H as <- <-. left. rewrite Hn0 in Hn. auto 10. }
  fold X_min in H.
  assert (HL : length X_min = count_label (d_y D) mn) by now apply rows_with_length.
  pose proof (two_labels_count _ _ _ (proj1 Hmin)) as Htot.
  rewrite HL in H. replace (length (d_X D) - count_label (d_y D) mn) with (count_label (d_y D) mj) in H by lia.
  destruct (Nat.eqb_spec (count_label (d_y D) mj) 0) as [Hz|_]; [discriminate|].
  destruct (f_gtb _ _) eqn:Ef.
  { injection H as <- <-. left. auto 10. }
  fold k in H.
  inv_bind H. rename a into T. destruct (Hnn (d_X D) X_min k) as (T' & E1 & HT).
  { unfold k. lia. }
  rewrite E in E1. injection E1 as <-. clear E.
  destruct (nearest_table_shape _ _ _ _ _ HT) as (S1 & S2 & S3).
  assert (Hcnt : mapM (count_neighbours (d_y D) mj) T = Ok (map (neighbours_of (d_y D) mj) T)).
  { rewrite <- mapM_pure. apply mapM_ext_in. intros t Ht. apply count_neighbours_ok.
    rewrite Forall_forall in S3. rewrite <- Hlen. now apply S3. }
  rewrite Hcnt in H. cbn [bind] in H. rewrite map_map in H.
  set (rr := map (fun t => (inject_Z (Z.of_nat (neighbours_of (d_y D) mj t)) / inject_Z (Z.of_nat (ad_n_neighbors p)))%Q) T) in *.
  pose proof (Qinj_pos _ Hk) as Hkp.
  assert (Hrr : Forall (Qle 0) rr).
  { unfold rr. rewrite Forall_map, Forall_forall. intros t _. apply Qdiv_nonneg'; [assumption|apply Qinj_nonneg]. }
  destruct (Qeq_bool (qsum rr) 0) eqn:Eq.
  { injection H as <- <-. left. split; [reflexivity|]. split; [reflexivity|]. right; right; right.
    exists T. split; [assumption|]. apply Qeq_bool_iff in Eq. apply qsum_zero_all in Eq; [|assumption].
    unfold rr in Eq. rewrite Forall_map in Eq. eapply Forall_impl; [|exact Eq].
    intros t Ht. cbv beta in Ht. destruct (neighbours_of (d_y D) mj t) as [|c] eqn:Ec; [reflexivity|exfalso].
    assert (0 < inject_Z (Z.of_nat (S c)) / inject_Z (Z.of_nat (ad_n_neighbors p)))%Q.
    { apply Qdiv_pos_iff; [assumption|]. apply Qinj_pos. lia. }
    lra. }
  apply Qeq_bool_neq in Eq.
  assert (Hpos : (0 < qsum rr)%Q).
  { pose proof (qsum_nonneg _ Hrr). destruct (Qlt_le_dec 0 (qsum rr)); [assumption|]. exfalso; apply Eq; lra. }
  inv_bind H. rename a into Tm. destruct (Hnn X_min X_min k) as (T' & E1 & HTm); [lia|].
  rewrite E in E1. injection E1 as <-. clear E.
  destruct (nearest_table_shape _ _ _ _ _ HTm) as (M1 & M2 & M3).
  inv_bind H. rename a into S. injection H as <- <-. right. exists n, S, T.
  set (rn := map (fun x => (x / qsum rr)%Q) rr) in *.
  assert (Hrn : Forall (Qle 0) rn).
  { unfold rn. rewrite Forall_map. eapply Forall_impl; [|exact Hrr]. intros z Hz. now apply Qdiv_nonneg'. }
  assert (Ha : args_ok (mk_args X_min (d_dim D) Tm k (Some rn) None None false None)).
  { constructor; cbn; auto; try discriminate.
    - now apply rows_with_rect.
    - now apply rows_with_rect.
    - lia.
    - split; [|assumption]. unfold rn, rr. rewrite !map_length. lia. }
  destruct (sample_simplex_spec _ _ _ _ _ _ Ha Hr E) as [Q1 Q2]. cbn in Q2.
  split; [assumption|]. split; [lia|]. split; [assumption|]. split; [reflexivity|]. split; [reflexivity|].
  split; [assumption|]. intros Hg x Hx. specialize (Q2 Hg). rewrite Forall_forall in Q2.
  destruct (Q2 x Hx) as (b & ps & B1 & B2 & B3 & B4 & B5 & _ & B6).
  rewrite M1 in B1.
  exists b, (nth b X_min []), (nth b Tm []), ps.
  split; [now apply nth_error_nth'|].
  split.
  { assert (HbT : b < length T) by lia.
    assert (Hrow : In (nth b T []) T) by now apply nth_In.
    assert (Hc : 0 < neighbours_of (d_y D) mj (nth b T [])).
    { destruct (neighbours_of (d_y D) mj (nth b T [])) as [|c] eqn:Ec; [exfalso|lia].
      assert (E0 : nth b rn 0%Q = ((inject_Z (Z.of_nat (neighbours_of (d_y D) mj (nth b T []))) / inject_Z (Z.of_nat (ad_n_neighbors p))) / qsum rr)%Q).
      { unfold rn. rewrite (nth_indep _ _ (0 / qsum rr)%Q) by (unfold rr; rewrite !map_length; lia).
        rewrite map_nth with (f := fun x => (x / qsum rr)%Q). f_equal. unfold rr.
        set (g := fun t => (inject_Z (Z.of_nat (neighbours_of (d_y D) mj t)) / inject_Z (Z.of_nat (ad_n_neighbors p)))%Q).
        rewrite (nth_indep _ _ (g [])) by (rewrite map_length; lia). rewrite map_nth. reflexivity. }
      rewrite E0, Ec in B5. apply Qdiv_pos_iff in B5; [|assumption].
      apply Qdiv_pos_iff in B5; [|assumption]. unfold Qlt in B5. cbn in B5. lia. }
    rewrite Forall_forall in S3. unfold rect in S2. rewrite Forall_forall in S2.
    destruct (neighbours_of_pos (d_y D) mj (nth b T [])) as (q & Hq & Hqy); [rewrite <- Hlen; now apply S3|assumption|].
    exists q. rewrite (S2 _ Hrow) in Hq. auto. }
  split.
  { eapply nearest_table_nth; [exact HTm| |]; apply nth_error_nth'; lia. }
  auto.
Qed.

Lemma adasyn_total dist vol nn p r D mn mj n :
  knn_ok dist nn -> rng_ok r -> unif_pos r -> wf_data (d_X D) (d_dim D) (d_y D) ->
  is_minority (d_y D) mn mj ->
  asked (adasyn_beta (ad_proportion p) (ad_beta p)) (d_y D) mn mj = Ok n ->
  1 <= ad_n_neighbors p -> 1 <= ss_n_dim (ad_ss p) ->
  ss_sampling (ad_ss p) = SRandom \/ ss_sampling (ad_ss p) = SDeterministic ->
  (ss_within (ad_ss p) = WRandom \/ (ss_within (ad_ss p) = WDeterministic /\ ss_n_dim (ad_ss p) <= 2)) ->
  exists out, adasyn_sample vol nn p r D = Ok out.
Proof.
  intros Hnn Hr Hu [Hrect Hlen] Hmin Hn Hk Hd Hm Hw. unfold adasyn_sample.
  destruct (sample_default (adasyn_algorithm vol nn p r) D mn mj Hmin) as (st & Hst & ->).
  destruct (Nat.leb_spec (count_label (d_y D) mn) 2) as [Hle|Hgt]; [eauto|].
  unfold adasyn_algorithm. rewrite (det_st_asked _ _ _ _ _ (proj1 Hmin) Hst), Hn. cbn [bind].
  destruct Hst as (-> & -> & _).
  destruct (Nat.eqb_spec (Z.to_nat n) 0) as [Hz|Hz]; [eauto|].
  set (X_min := rows_with mn (d_X D) (d_y D)).
  assert (HL : length X_min = count_label (d_y D) mn) by now apply rows_with_length.
  pose proof (two_labels_count _ _ _ (proj1 Hmin)) as Htot.
  pose proof (two_labels_pos _ _ _ (proj1 Hmin)) as [_ Hmjpos].
  destruct (Nat.eqb_spec (length (d_X D) - length X_min) 0) as [Hz'|_]; [lia|].
  destruct (f_gtb _ _); [eauto|]. set (k := Nat.min (length X_min) (ad_n_neighbors p + 1)).
  destruct (Hnn (d_X D) X_min k) as (T & -> & HT); [unfold k; lia|]. cbn [bind].
  destruct (nearest_table_shape _ _ _ _ _ HT) as (S1 & S2 & S3).
  assert (Hcnt : mapM (count_neighbours (d_y D) mj) T = Ok (map (neighbours_of (d_y D) mj) T)).
  { rewrite <- mapM_pure. apply mapM_ext_in. intros t Ht. apply count_neighbours_ok.
    rewrite Forall_forall in S3. rewrite <- Hlen. now apply S3. }
  rewrite Hcnt. cbn [bind]. rewrite map_map.
  set (rr := map (fun t => (inject_Z (Z.of_nat (neighbours_of (d_y D) mj t)) / inject_Z (Z.of_nat (ad_n_neighbors p)))%Q) T) in *.
  pose proof (Qinj_pos _ Hk) as Hkp.
  assert (Hrr : Forall (Qle 0) rr).
  { unfold rr. rewrite Forall_map, Forall_forall. intros t _. apply Qdiv_nonneg'; [assumption|apply Qinj_nonneg]. }
  destruct (Qeq_bool (qsum rr) 0) eqn:Eq; [eauto|].
  apply Qeq_bool_neq in Eq.
  assert (Hpos : (0 < qsum rr)%Q).
  { pose proof (qsum_nonneg _ Hrr). destruct (Qlt_le_dec 0 (qsum rr)); [assumption|]. exfalso; apply Eq; lra. }
  destruct (Hnn X_min X_min k) as (Tm & -> & HTm); [lia|]. cbn [bind].
  destruct (nearest_table_shape _ _ _ _ _ HTm) as (M1 & M2 & M3).
  set (rn := map (fun x => (x / qsum rr)%Q) rr) in *.
  assert (Hrn : Forall (Qle 0) rn).
  { unfold rn. rewrite Forall_map. eapply Forall_impl; [|exact Hrr]. intros z Hz'. now apply Qdiv_nonneg'. }
  assert (Ha : args_ok (mk_args X_min (d_dim D) Tm k (Some rn) None None false None)).
  { constructor; cbn; auto; try discriminate.
    - now apply rows_with_rect.
    - now apply rows_with_rect.
    - lia.
    - split; [|assumption]. unfold rn, rr. rewrite !map_length. lia. }
  destruct (sample_simplex_total vol (ad_ss p) _ (Z.to_nat n) r Ha Hr Hu Hm Hd) as [S HS].
  - cbn. unfold k. lia.
  - assumption.
  - cbn [a_ncols]. set (nd := Nat.min (ss_n_dim (ad_ss p)) k).
    assert (Hex : exists b, b < length rn /\ (0 < nth b rn 0)%Q).
    { assert (Hsn : (qsum rn == 1)%Q).
      { unfold rn. rewrite qsum_div by assumption. field. assumption. }
      clear - Hsn Hrn.
      assert (G : forall l, Forall (Qle 0) l -> (0 < qsum l)%Q -> exists b, b < length l /\ (0 < nth b l 0)%Q).
      { induction 1 as [|x l Hx Hl IH]; cbn; intros H; [lra|].
        destruct (Qlt_le_dec 0 x).
        - exists 0. split; [lia|assumption].
        - destruct IH as (b & B1 & B2); [lra|]. exists (S b). split; [lia|assumption]. }
      apply G; [assumption|lra]. }
    destruct Hex as (b & Hb & Hbp).
    assert (Hb' : b < length Tm) by (unfold rn, rr in Hb; rewrite !map_length in Hb; lia).
    exists (b, seq 1 (nd - 1)). cbn [a_indices a_base_weights a_simplex_weights a_ncols].
    split; [|split; cbn; [exact Hbp|Lqa.lra]].
    apply base_idx_in; [unfold nd, k; lia|]. split; [assumption|]. split; [apply seq_length|]. split; [apply seq_sorted|].
    rewrite Forall_forall. intros q Hq. apply in_seq in Hq. lia.
  - rewrite HS. cbn. eauto.
Qed.
