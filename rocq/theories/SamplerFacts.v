(** Proofs about SamplerModel.v. *)

From Coq Require Import List ZArith QArith Bool Arith Lia Sorted Permutation Lqa Reals Lra.
From Flocq Require Import Core IEEE754.BinarySingleNaN.
From Verif Require Import Np NpFacts SimplexModel Spec SimplexFacts SimplexGeom Float64 SamplerModel.
Import ListNotations.
Open Scope nat_scope.

Lemma sorted_two a b (l : list Z) : (a < b)%Z -> StronglySorted Z.lt l ->
  (forall z, In z l <-> z = a \/ z = b) -> l = [a; b].
Proof.
  intros Hab Hs Hin. destruct l as [|x [|y [|z l]]].
  - destruct (proj2 (Hin a)); auto.
  - pose proof (proj2 (Hin a) (or_introl eq_refl)) as [<-|[]].
    pose proof (proj2 (Hin b) (or_intror eq_refl)) as [<-|[]]. lia.
  - inversion Hs as [|? ? H1 H2]; subst. inversion H2; subst.
    destruct (proj1 (Hin x)) as [->| ->]; cbn; auto; destruct (proj1 (Hin y)) as [->| ->]; cbn; auto; lia.
  - inversion Hs as [|? ? H1 H2]; subst. inversion H2 as [|? ? H3 H4]; subst.
    inversion H1 as [|? ? H5 H6]; subst. inversion H6 as [|? ? H7 H8]; subst. inversion H4; subst.
    destruct (proj1 (Hin x)) as [->| ->]; cbn; auto;
    destruct (proj1 (Hin y)) as [->| ->]; cbn; auto;
    destruct (proj1 (Hin z)) as [->| ->]; cbn; auto; lia.
Qed.

Lemma unique_two y a b : two_labels y a b -> (a < b)%Z ->
  unique_counts y = [(a, count_label y a); (b, count_label y b)].
Proof.
  intros (Hne & Ha & Hb & Hall) Hab.
  assert (Hk : map fst (unique_counts y) = [a; b]).
  { apply sorted_two; [assumption|apply unique_counts_sorted|].
    intros z. rewrite unique_counts_keys. split; [apply Hall|intros [->| ->]; auto]. }
  assert (Hv : forall z c, In (z, c) (unique_counts y) -> c = count_label y z).
  { intros z c H. apply unique_counts_in in H as [_ H]. exact H. }
  destruct (unique_counts y) as [|[k1 c1] [|[k2 c2] [|]]]; try discriminate.
  cbn in Hk. injection Hk as -> ->.
  rewrite (Hv a c1), (Hv b c2); cbn; auto.
Qed.

Lemma two_labels_sym y a b : two_labels y a b -> two_labels y b a.
Proof. intros (H1 & H2 & H3 & H4). repeat split; auto. intros z Hz. destruct (H4 z Hz); auto. Qed.

Lemma two_labels_pos y a b : two_labels y a b -> 0 < count_label y a /\ 0 < count_label y b.
Proof. intros (_ & Ha & Hb & _). split; now apply count_occ_In. Qed.

(** The labels and counts recorded for a two-class vector. *)
Lemma statistics_spec y a b : two_labels y a b ->
  exists st, class_label_statistics y = Ok st /\
    is_minority y (min_label st) (maj_label st) /\
    (forall z, In z y -> class_size st z = Ok (count_label y z)).
Proof.
  assert (G : forall a b, two_labels y a b -> (a < b)%Z ->
    exists st, class_label_statistics y = Ok st /\
    is_minority y (min_label st) (maj_label st) /\
    (forall z, In z y -> class_size st z = Ok (count_label y z))).
  { clear a b. intros a b H Hab. unfold class_label_statistics. rewrite (unique_two y a b H Hab).
    eexists. split; [reflexivity|]. cbn [min_label maj_label class_stats]. split.
    - destruct (Nat.ltb_spec (count_label y a) (count_label y b)).
      + split; [assumption|]. left; assumption.
      + split; [now apply two_labels_sym|]. lia.
    - intros z Hz. unfold class_size. cbn [class_stats find fst].
      destruct H as (Hne & _ & _ & Hall). destruct (Hall z Hz) as [->| ->].
      + rewrite Z.eqb_refl. reflexivity.
      + destruct (Z.eqb_spec a b); [lia|]. rewrite Z.eqb_refl. reflexivity. }
  intros H. destruct (Z.lt_trichotomy a b) as [Hlt|[Heq|Hgt]].
  - exact (G a b H Hlt).
  - destruct H as [Hne _]. congruence.
  - exact (G b a (two_labels_sym _ _ _ H) Hgt).
Qed.

(** Fewer than two labels. *)
Lemma statistics_one_label y : (exists a, forall z, In z y -> z = a) ->
  class_label_statistics y = Err IndexError.
Proof.
  intros [a Ha]. unfold class_label_statistics.
  pose proof (unique_counts_keys y) as Hk. pose proof (unique_counts_sorted y) as Hs.
  destruct (unique_counts y) as [|[k1 c1] [|[k2 c2] l]]; try reflexivity. exfalso.
  cbn in Hk, Hs. inversion Hs as [|? ? H1 H2]; subst. inversion H2; subst.
  assert (k1 = a) by (apply Ha, Hk; auto). assert (k2 = a) by (apply Ha, Hk; auto). lia.
Qed.

Lemma is_minority_unique y a b a' b' : is_minority y a b -> is_minority y a' b' -> a = a' /\ b = b'.
Proof.
  intros [(H1 & H2 & H3 & H4) H5] [(G1 & G2 & G3 & G4) G5].
  destruct (G4 a H2) as [->| ->], (G4 b H3) as [->| ->]; try congruence; auto. lia.
Qed.

(** * det_n_to_sample *)

Open Scope R_scope.

Lemma det_float_spec f a b : (Z.abs (a - b) <= 2^53)%Z -> is_finite f = true ->
  (Rabs (rnd64 (IZR (a - b) * B2R f)) < bpow radix2 1024 /\
   det_n_to_sample (StFloat f) a b = Ok (Z.max 0 (Ztrunc (rnd64 (IZR (a - b) * B2R f)))))
  \/ (bpow radix2 1024 <= Rabs (rnd64 (IZR (a - b) * B2R f)) /\
      det_n_to_sample (StFloat f) a b = Err OverflowError).
Proof.
  intros Hz Hf. destruct (f_of_Z_exact _ Hz) as [E1 E2].
  destruct (f_mul_spec (f_of_Z (a - b)) f E2 Hf) as [(F1 & F2 & F3)|(s & F1 & F2 & _)]; rewrite E1 in *.
  - left. split; [assumption|]. unfold det_n_to_sample. rewrite int_of_f64_finite by assumption.
    cbn [bind]. now rewrite F2.
  - right. split; [assumption|]. unfold det_n_to_sample. now rewrite F1.
Qed.

Lemma rnd64_IZR z : (Z.abs z <= 2^53)%Z -> rnd64 (IZR z) = IZR z.
Proof. intros H. apply round_generic; [apply valid_rnd_N|now apply format_IZR]. Qed.

Lemma det_one a b : (Z.abs (a - b) <= 2^53)%Z ->
  det_n_to_sample (StFloat f_one) a b = Ok (Z.max 0 (a - b)).
Proof.
  intros H. destruct (det_float_spec f_one a b H) as [[_ E]|[E _]].
  - apply is_finite_Bone.
  - rewrite E. unfold f_one. rewrite Bone_correct, Rmult_1_r, rnd64_IZR, Ztrunc_IZR by assumption. reflexivity.
  - exfalso. unfold f_one in E. rewrite Bone_correct, Rmult_1_r, rnd64_IZR in E by assumption.
    pose proof (bpow_1024_large _ H). lra.
Qed.

Lemma det_nonneg s a b k : det_n_to_sample s a b = Ok k -> (0 <= k)%Z.
Proof.
  unfold det_n_to_sample. destruct s; intros H; [injection H as <-; lia| |discriminate].
  inv_bind H. injection H as <-. lia.
Qed.

Lemma det_monotone f g a b k l : (0 <= a - b <= 2^53)%Z -> is_finite f = true -> is_finite g = true ->
  B2R f <= B2R g ->
  det_n_to_sample (StFloat f) a b = Ok k -> det_n_to_sample (StFloat g) a b = Ok l -> (k <= l)%Z.
Proof.
  intros Hz Hf Hg Hfg Hk Hl.
  destruct (det_float_spec f a b ltac:(lia) Hf) as [[_ E]|[_ E]]; rewrite E in Hk; [|discriminate].
  destruct (det_float_spec g a b ltac:(lia) Hg) as [[_ E']|[_ E']]; rewrite E' in Hl; [|discriminate].
  injection Hk as <-. injection Hl as <-.
  apply Z.max_le_compat_l. apply Ztrunc_le. apply rnd64_le.
  apply Rmult_le_compat_l; [|assumption]. apply IZR_le. lia.
Qed.

Lemma det_unit_bound f a b : (0 <= a - b <= 2^53)%Z -> is_finite f = true -> B2R f <= 1 ->
  0 <= B2R f -> exists k, det_n_to_sample (StFloat f) a b = Ok k /\ (0 <= k <= a - b)%Z.
Proof.
  intros Hz Hf H1 H0.
  assert (0 <= IZR (a - b)) by (apply IZR_le; lia).
  assert (B : 0 <= rnd64 (IZR (a - b) * B2R f) <= IZR (a - b)).
  { split.
    - rewrite <- (rnd64_IZR 0) by (cbn; lia). apply rnd64_le. cbn. nra.
    - rewrite <- (rnd64_IZR (a - b)) at 2 by lia. apply rnd64_le. nra. }
  destruct (det_float_spec f a b ltac:(lia) Hf) as [[_ E]|[E _]].
  - eexists; split; [exact E|]. rewrite Z.max_r.
    + split.
      * rewrite <- (Ztrunc_IZR 0). apply Ztrunc_le. lra.
      * rewrite <- (Ztrunc_IZR (a - b)) at 2. apply Ztrunc_le. lra.
    + rewrite <- (Ztrunc_IZR 0). apply Ztrunc_le. lra.
  - exfalso. rewrite Rabs_pos_eq in E by lra.
    pose proof (bpow_1024_large (a - b) ltac:(lia)) as L. rewrite Rabs_pos_eq in L by lra. lra.
Qed.

Open Scope nat_scope.

(** * sample *)

Lemma checks_copy_min checks st dim n k :
  class_size st (min_label st) = Ok n -> In (CMinNMin k) checks -> n <= k ->
  checks_fail checks st dim = Ok true.
Proof.
  intros Hn. induction checks as [|c checks IH]; cbn [checks_fail In]; [tauto|].
  intros [->|Hin] Hk.
  - rewrite Hn. cbn [bind]. destruct (Nat.leb_spec n k); [reflexivity|lia].
  - destruct c.
    + rewrite Hn. cbn [bind]. destruct (n <=? n0); [reflexivity|now apply IH].
    + destruct (dim <? n0); [reflexivity|now apply IH].
    + now apply IH.
Qed.

Lemma checks_copy_dim checks st dim n k :
  class_size st (min_label st) = Ok n -> In (CMinNDim k) checks -> dim < k ->
  checks_fail checks st dim = Ok true.
Proof.
  intros Hn. induction checks as [|c checks IH]; cbn [checks_fail In]; [tauto|].
  intros [->|Hin] Hk.
  - destruct (Nat.ltb_spec dim k); [reflexivity|lia].
  - destruct c.
    + rewrite Hn. cbn [bind]. destruct (n <=? n0); [reflexivity|now apply IH].
    + destruct (dim <? n0); [reflexivity|now apply IH].
    + now apply IH.
Qed.

(** * SMOTE *)

Definition smote_ok_spec (p : smote_params) (D : dataset) (mn mj : Z) (T : list (list nat)) (S : list row) :=
  neighbour_sample (d_dim D) (rows_with mn (d_X D) (d_y D)) (rows_with mn (d_X D) (d_y D)) T
     (Nat.min (count_label (d_y D) mn) (sm_n_neighbors p + 1))
     (Nat.min (ss_n_dim (sm_ss p)) (Nat.min (count_label (d_y D) mn) (sm_n_neighbors p + 1)) - 1) None None.

Lemma rows_with_rect {A} d lab (X : list (list A)) y : rect d X -> rect d (rows_with lab X y).
Proof.
  unfold rect. rewrite !Forall_forall. intros H x Hx. apply H. unfold rows_with in Hx. now apply select_incl in Hx.
Qed.

Lemma nearest_table_shape dist Xf Xq k T : nearest_table dist Xf Xq k T ->
  length T = length Xq /\ rect k T /\ Forall (Forall (fun i => i < length Xf)) T.
Proof.
  intros H. split; [symmetry; eapply Forall2_length; exact H|].
  unfold rect. split; induction H; constructor; intuition.
Qed.

Lemma smote_args_ok dist nn D mn k T :
  knn_ok dist nn -> wf_data (d_X D) (d_dim D) (d_y D) ->
  let X_min := rows_with mn (d_X D) (d_y D) in
  k <= length X_min -> nn X_min X_min k = Ok T ->
  nearest_table dist X_min X_min k T /\
  args_ok (mk_args X_min (d_dim D) T k None None None false None).
Proof.
  intros Hnn [Hr Hl] X_min Hk HT. destruct (Hnn X_min X_min k Hk) as (T' & E & Ht).
  rewrite HT in E. injection E as <-. split; [assumption|].
  destruct (nearest_table_shape _ _ _ _ _ Ht) as (S1 & S2 & S3).
  constructor; cbn; auto; try discriminate; try (now apply rows_with_rect). lia.
Qed.

Lemma smote_cases dist vol nn p r D mn mj X' y' :
  knn_ok dist nn -> rng_ok r -> wf_data (d_X D) (d_dim D) (d_y D) ->
  is_minority (d_y D) mn mj ->
  smote_sample vol nn p r D = Ok (X', y') ->
  (X' = d_X D /\ y' = d_y D /\ (count_label (d_y D) mn <= 2 \/
      det_n_to_sample (sm_proportion p) (Z.of_nat (count_label (d_y D) mj)) (Z.of_nat (count_label (d_y D) mn)) = Ok 0%Z))
  \/ exists n T S,
      2 < count_label (d_y D) mn /\
      det_n_to_sample (sm_proportion p) (Z.of_nat (count_label (d_y D) mj)) (Z.of_nat (count_label (d_y D) mn)) = Ok (Z.of_nat n) /\
      0 < n /\ length S = n /\ X' = d_X D ++ S /\ y' = d_y D ++ repeat mn n /\
      nearest_table dist (rows_with mn (d_X D) (d_y D)) (rows_with mn (d_X D) (d_y D))
         (Nat.min (count_label (d_y D) mn) (sm_n_neighbors p + 1)) T /\
      (ss_gauss (sm_ss p) = GNone -> Forall (neighbour_sample (d_dim D) (rows_with mn (d_X D) (d_y D)) (rows_with mn (d_X D) (d_y D)) T
     (Nat.min (count_label (d_y D) mn) (sm_n_neighbors p + 1))
     (Nat.min (ss_n_dim (sm_ss p)) (Nat.min (count_label (d_y D) mn) (sm_n_neighbors p + 1)) - 1) None None) S).
Proof.
  intros Hnn Hr Hwf Hmin H. unfold smote_sample, sample_with in H.
  destruct (statistics_spec (d_y D) mn mj (proj1 Hmin)) as (st & Hst & Hm & Hsz).
  destruct (is_minority_unique _ _ _ _ _ Hmin Hm) as [-> ->].
  rewrite Hst in H. cbn [bind] in H.
  destruct Hm as [(Hne & Hin1 & Hin2 & Hall) Hcnt].
  unfold checks_default in H. cbn [checks_fail] in H. rewrite (Hsz _ Hin1) in H. cbn [bind] in H.
  destruct (Nat.leb_spec (count_label (d_y D) (min_label st)) 2) as [Hle|Hgt]; cbn [bind] in H.
  { injection H as <- <-. left. auto. }
  unfold smote_algorithm, det_n_to_sample_st in H. rewrite (Hsz _ Hin1), (Hsz _ Hin2) in H. cbn [bind] in H.
  inv_bind H. inv_bind E. injection E as <-.
  pose proof (det_nonneg _ _ _ _ E0) as Hnn0.
  destruct (Nat.eqb_spec (Z.to_nat a0) 0) as [Hz|Hz].
  { injection H as <- <-. left. repeat split; auto. right. rewrite E0. f_equal. lia. }
  right. destruct Hwf as [Hrect Hlen].
  inv_bind H. inv_bind H. injection H as <- <-.
  assert (HL : length (rows_with (min_label st) (d_X D) (d_y D)) = count_label (d_y D) (min_label st))
    by now apply rows_with_length.
  destruct (smote_args_ok dist nn D (min_label st) _ a Hnn (conj Hrect Hlen) (Nat.le_min_l _ _) E)
    as [Ht Ha].
  destruct (sample_simplex_spec _ _ _ _ _ _ Ha Hr E1) as [S1 S2]. cbn in S2.
  rewrite HL in *.
  exists (Z.to_nat a0), a, a1. rewrite Z2Nat.id by assumption.
  repeat split; auto; try lia.
Qed.

Lemma seq_sorted a n : StronglySorted lt (seq a n).
Proof.
  revert a; induction n; intros a; cbn; constructor; auto.
  rewrite Forall_forall. intros x Hx. apply in_seq in Hx. lia.
Qed.

Lemma smote_total dist vol nn p r D mn mj n :
  knn_ok dist nn -> rng_ok r -> unif_pos r -> wf_data (d_X D) (d_dim D) (d_y D) ->
  is_minority (d_y D) mn mj ->
  det_n_to_sample (sm_proportion p) (Z.of_nat (count_label (d_y D) mj)) (Z.of_nat (count_label (d_y D) mn)) = Ok n ->
  1 <= sm_n_neighbors p -> 1 <= ss_n_dim (sm_ss p) ->
  ss_sampling (sm_ss p) = SRandom \/ ss_sampling (sm_ss p) = SDeterministic ->
  (ss_within (sm_ss p) = WRandom \/ (ss_within (sm_ss p) = WDeterministic /\ ss_n_dim (sm_ss p) <= 2)) ->
  exists out, smote_sample vol nn p r D = Ok out.
Proof.
  intros Hnn Hr Hu Hwf Hmin Hn Hk Hd Hm Hw. unfold smote_sample, sample_with.
  destruct (statistics_spec (d_y D) mn mj (proj1 Hmin)) as (st & Hst & Hmst & Hsz).
  destruct (is_minority_unique _ _ _ _ _ Hmin Hmst) as [-> ->].
  rewrite Hst. cbn [bind].
  destruct Hmst as [(Hne & Hin1 & Hin2 & Hall) Hcnt].
  unfold checks_default. cbn [checks_fail]. rewrite (Hsz _ Hin1). cbn [bind].
  destruct (Nat.leb_spec (count_label (d_y D) (min_label st)) 2) as [Hle|Hgt]; cbn [bind]; [eauto|].
  unfold smote_algorithm, det_n_to_sample_st. rewrite (Hsz _ Hin1), (Hsz _ Hin2). cbn [bind].
  rewrite Hn. cbn [bind].
  destruct (Nat.eqb_spec (Z.to_nat n) 0) as [Hz|Hz]; [eauto|].
  set (X_min := rows_with (min_label st) (d_X D) (d_y D)).
  assert (HL : length X_min = count_label (d_y D) (min_label st)) by (apply rows_with_length; apply Hwf).
  set (k := Nat.min (length X_min) (sm_n_neighbors p + 1)).
  destruct (Hnn X_min X_min k (Nat.le_min_l _ _)) as (T & HT & Hnt). rewrite HT. cbn [bind].
  destruct (smote_args_ok dist nn D (min_label st) k T Hnn Hwf (Nat.le_min_l _ _) HT) as [_ Ha].
  fold X_min in Ha.
  destruct (nearest_table_shape _ _ _ _ _ Hnt) as (S1 & _ & _).
  destruct (sample_simplex_total vol (sm_ss p) _ (Z.to_nat n) r Ha Hr Hu Hm Hd) as [S HS].
  - cbn. lia.
  - assumption.
  - cbn [a_ncols]. set (nd := Nat.min (ss_n_dim (sm_ss p)) k).
    exists (0, seq 1 (nd - 1)). cbn [a_indices a_base_weights a_simplex_weights a_ncols].
    split; [|split; cbn; [exact I|Lqa.lra]].
    apply base_idx_in; [lia|]. split; [lia|]. split; [apply seq_length|]. split; [apply seq_sorted|].
    rewrite Forall_forall. intros q Hq. apply in_seq in Hq. lia.
  - rewrite HS. cbn. eauto.
Qed.

Lemma convex_comb_bound d pts x lo hi j : convex_comb d pts x -> j < d ->
  (forall p, In p pts -> (lo <= nth j p 0 /\ nth j p 0 <= hi)%Q) ->
  (lo <= nth j x 0 /\ nth j x 0 <= hi)%Q.
Proof.
  intros (_ & ws & Hl & Hp & Hs & Hc) Hj Hb. rewrite (Hc j Hj).
  assert (G : forall ws pts, length ws = length pts -> Forall (Qle 0) ws ->
    (forall p, In p pts -> lo <= nth j p 0 /\ nth j p 0 <= hi)%Q ->
    (lo * qsum ws <= qsum (map2 (fun w p => w * nth j p 0) ws pts) /\
     qsum (map2 (fun w p => w * nth j p 0) ws pts) <= hi * qsum ws)%Q).
  { clear. induction ws as [|w ws IH]; intros [|p pts] Hl Hp Hb; try discriminate; cbn.
    - split; Lqa.lra.
    - inversion Hp; subst. destruct (IH pts) as [I1 I2]; auto.
      + intros q Hq; apply Hb; cbn; auto.
      + destruct (Hb p) as [B1 B2]; [cbn; auto|]. split; Lqa.nra. }
  destruct (G ws pts Hl Hp Hb) as [G1 G2]. rewrite Hs in G1, G2. split; Lqa.lra.
Qed.

Lemma neighbour_sample_hull d X T c k bw sw x : rect c T -> length T <= length X ->
  Forall (Forall (fun i => i < length X)) T ->
  neighbour_sample d X X T c k bw sw x -> in_hull d X x.
Proof.
  intros Hr Hl Hin (b & ps & H1 & H2 & H3 & H4 & _ & _ & Hx). eexists; split; [|exact Hx].
  intros q [<-|Hq]; [apply nth_In; lia|].
  apply in_map_iff in Hq as [p [<- Hp]]. apply nth_In.
  assert (Hrow : In (nth b T []) T) by now apply nth_In.
  rewrite Forall_forall in Hin, H4. specialize (Hin _ Hrow). rewrite Forall_forall in Hin.
  apply Hin, nth_In. unfold rect in Hr. rewrite Forall_forall in Hr. rewrite (Hr _ Hrow).
  specialize (H4 p Hp). lia.
Qed.

Lemma count_label_app y z n l : count_label (y ++ repeat z n) l = count_label y l + (if Z.eq_dec z l then n else 0).
Proof.
  unfold count_label. rewrite count_occ_app. f_equal. destruct (Z.eq_dec z l) as [->|Hne].
  - now rewrite count_occ_repeat_eq by reflexivity.
  - rewrite count_occ_repeat_neq by congruence; reflexivity.
Qed.

(** * Statements used by PropsSmote.v *)

Lemma smote_prefix dist vol nn p r D mn mj X' y' :
  knn_ok dist nn -> rng_ok r -> wf_data (d_X D) (d_dim D) (d_y D) ->
  is_minority (d_y D) mn mj ->
  smote_sample vol nn p r D = Ok (X', y') ->
  exists S n, X' = d_X D ++ S /\ y' = d_y D ++ repeat mn n /\ length S = n /\
    (n = 0 \/ (2 < count_label (d_y D) mn /\
       det_n_to_sample (sm_proportion p) (Z.of_nat (count_label (d_y D) mj))
                       (Z.of_nat (count_label (d_y D) mn)) = Ok (Z.of_nat n))).
Proof.
  intros Hnn Hr Hwf Hmin H.
  destruct (smote_cases dist vol nn p r D mn mj X' y' Hnn Hr Hwf Hmin H)
    as [(-> & -> & _)|(n & T & S & H1 & H2 & H3 & H4 & H5 & H6 & _)].
  - exists [], 0. cbn. rewrite !app_nil_r. auto.
  - exists S, n. auto 6.
Qed.

Lemma smote_balanced dist vol nn p r D mn mj :
  knn_ok dist nn -> rng_ok r -> unif_pos r -> wf_data (d_X D) (d_dim D) (d_y D) ->
  is_minority (d_y D) mn mj -> 2 < count_label (d_y D) mn ->
  (Z.of_nat (count_label (d_y D) mj) <= 2 ^ 53)%Z ->
  sm_proportion p = StFloat f_one ->
  1 <= sm_n_neighbors p -> 1 <= ss_n_dim (sm_ss p) ->
  ss_sampling (sm_ss p) = SRandom \/ ss_sampling (sm_ss p) = SDeterministic ->
  (ss_within (sm_ss p) = WRandom \/ (ss_within (sm_ss p) = WDeterministic /\ ss_n_dim (sm_ss p) <= 2)) ->
  exists X' y', smote_sample vol nn p r D = Ok (X', y') /\
    count_label y' mn = count_label (d_y D) mj /\ count_label y' mj = count_label (d_y D) mj /\
    length X' = length y'.
Proof.
  intros Hnn Hr Hu Hwf Hmin Hgt Hbig Hp Hk Hd Hm Hw.
  assert (Hle : count_label (d_y D) mn <= count_label (d_y D) mj) by (destruct Hmin as [_ Hc]; lia).
  assert (Hdet : det_n_to_sample (sm_proportion p) (Z.of_nat (count_label (d_y D) mj))
                       (Z.of_nat (count_label (d_y D) mn)) =
     Ok (Z.of_nat (count_label (d_y D) mj - count_label (d_y D) mn))).
  { rewrite Hp, det_one by lia. f_equal. lia. }
  destruct (smote_total dist vol nn p r D mn mj _ Hnn Hr Hu Hwf Hmin Hdet Hk Hd Hm Hw) as [[X' y'] H].
  exists X', y'. split; [assumption|].
  assert (Hne : mn <> mj) by apply Hmin.
  destruct Hwf as [Hrect Hlen].
  destruct (smote_cases dist vol nn p r D mn mj X' y' Hnn Hr (conj Hrect Hlen) Hmin H)
    as [(-> & -> & [Hc|Hc])|(n & T & S & H1 & H2 & H3 & H4 & -> & -> & _)].
  - lia.
  - rewrite Hdet in Hc. injection Hc as Hc. split; [lia|]. split; [reflexivity|assumption].
  - rewrite Hdet in H2. injection H2 as H2. rewrite !count_label_app.
    destruct (Z.eq_dec mn mn); [|congruence]. destruct (Z.eq_dec mn mj); [congruence|].
    rewrite !app_length, repeat_length. lia.
Qed.

Lemma smote_hull dist vol nn p r D mn mj X' y' :
  knn_ok dist nn -> rng_ok r -> wf_data (d_X D) (d_dim D) (d_y D) ->
  is_minority (d_y D) mn mj -> ss_gauss (sm_ss p) = GNone ->
  smote_sample vol nn p r D = Ok (X', y') ->
  let X_min := rows_with mn (d_X D) (d_y D) in
  let k := Nat.min (count_label (d_y D) mn) (sm_n_neighbors p + 1) in
  forall x, In x (skipn (length (d_X D)) X') ->
    (exists T, nearest_table dist X_min X_min k T /\
       neighbour_sample (d_dim D) X_min X_min T k (Nat.min (ss_n_dim (sm_ss p)) k - 1) None None x) /\
    in_hull (d_dim D) X_min x /\
    (forall j lo hi, j < d_dim D -> (forall q, In q X_min -> (lo <= nth j q 0 /\ nth j q 0 <= hi)%Q) ->
       (lo <= nth j x 0 /\ nth j x 0 <= hi)%Q).
Proof.
  intros Hnn Hr Hwf Hmin Hg H X_min k x Hx.
  destruct (smote_cases dist vol nn p r D mn mj X' y' Hnn Hr Hwf Hmin H)
    as [(-> & -> & _)|(n & T & S & H1 & H2 & H3 & H4 & -> & -> & HT & HS)].
  - rewrite skipn_all in Hx. destruct Hx.
  - rewrite skipn_app, Nat.sub_diag, skipn_all in Hx. cbn in Hx.
    specialize (HS Hg). rewrite Forall_forall in HS. specialize (HS x Hx).
    fold X_min k in HT, HS.
    assert (Hh : in_hull (d_dim D) X_min x).
    { destruct (nearest_table_shape _ _ _ _ _ HT) as (S1 & S2 & S3).
      eapply neighbour_sample_hull; try eassumption. lia. }
    split; [eauto|]. split; [assumption|].
    intros j lo hi Hj Hb. destruct Hh as (pts & Hi & Hc).
    eapply convex_comb_bound; try eassumption. intros q Hq. auto.
Qed.

Lemma too_small_copies checks alg D mn mj :
  is_minority (d_y D) mn mj ->
  (exists k, In (CMinNMin k) checks /\ count_label (d_y D) mn <= k) \/
  (exists k, In (CMinNDim k) checks /\ d_dim D < k) ->
  sample_with checks alg D = Ok (d_X D, d_y D).
Proof.
  intros Hmin H. unfold sample_with.
  destruct (statistics_spec (d_y D) mn mj (proj1 Hmin)) as (st & Hst & Hm & Hsz).
  destruct (is_minority_unique _ _ _ _ _ Hmin Hm) as [-> ->].
  rewrite Hst. cbn [bind].
  assert (Hin : In (min_label st) (d_y D)) by apply Hm.
  destruct H as [(k & Hk & Hle)|(k & Hk & Hlt)].
  - rewrite (checks_copy_min checks st (d_dim D) _ k (Hsz _ Hin) Hk Hle). reflexivity.
  - rewrite (checks_copy_dim checks st (d_dim D) _ k (Hsz _ Hin) Hk Hlt). reflexivity.
Qed.

Lemma checks_pass checks st dim n : class_size st (min_label st) = Ok n ->
  Forall (fun c => match c with CMinNMin k => k < n | CMinNDim k => k <= dim | COther => True end) checks ->
  checks_fail checks st dim = Ok false.
Proof.
  intros Hn. induction 1 as [|c checks Hc _ IH]; [reflexivity|]. destruct c; cbn [checks_fail].
  - rewrite Hn. cbn [bind]. destruct (Nat.leb_spec n n0); [lia|assumption].
  - destruct (Nat.ltb_spec dim n0); [lia|assumption].
  - assumption.
Qed.

Lemma large_enough_runs checks alg D mn mj :
  is_minority (d_y D) mn mj ->
  Forall (fun c => match c with CMinNMin k => k < count_label (d_y D) mn
                              | CMinNDim k => k <= d_dim D | COther => True end) checks ->
  exists st, class_label_statistics (d_y D) = Ok st /\ min_label st = mn /\ maj_label st = mj /\
    sample_with checks alg D = alg st D.
Proof.
  intros Hmin H. unfold sample_with.
  destruct (statistics_spec (d_y D) mn mj (proj1 Hmin)) as (st & Hst & Hm & Hsz).
  destruct (is_minority_unique _ _ _ _ _ Hmin Hm) as [-> ->].
  exists st. rewrite Hst. cbn [bind].
  assert (Hin : In (min_label st) (d_y D)) by apply Hm.
  rewrite (checks_pass _ _ _ _ (Hsz _ Hin) H). auto.
Qed.
