(** Proofs about ISOMAP_Hybrid, SL_graph_SMOTE and SVM_balance. *)

From Coq Require Import List ZArith QArith Qpower Bool Arith Lia Lqa Sorting.Sorted Permutation.
From Verif Require Import Np PyVal NpFacts BaseFacts SimplexModel Spec SpecDanger SpecNoise SpecComp SimplexFacts SimplexGeom Float64
  SamplerModel SamplerFacts OversFacts BaseModel KnnFacts DangerModel DangerFacts BorderFacts ClusterOversModel OversGen
  ClusterOversFacts ClusterFacts NoiseModel NoiseFacts NoiseFacts2 CompModel CompFacts CompFacts2 CompFacts3 CompFacts4 EditModel SpecEdit EditFacts EditFacts4 EditFacts5
  SpecNear NearFacts NearFacts2 LevelModel SpecLevel LevelFacts LevelFacts3 LevelFacts4 SpecGroup GroupFacts GroupFacts2 WrapModel SpecWrap.
Import ListNotations.
Open Scope nat_scope.

Lemma smote_runs dist vol nn p r D mn mj n :
  knn_ok dist nn -> rng_ok r -> unif_pos r -> plain_ss (sm_ss p) -> wf_data (d_X D) (d_dim D) (d_y D) -> is_minority (d_y D) mn mj ->
  asked (sm_proportion p) (d_y D) mn mj = Ok n -> 1 <= sm_n_neighbors p ->
  runs D mn n (smote_spec dist p D mn n) (smote_sample vol nn p r D).
Proof.
  intros Hnn Hr Hu (P1 & P2 & P3) Hwf Hmin Ha Hk.
  destruct (smote_total dist vol nn p r D mn mj n Hnn Hr Hu Hwf Hmin Ha Hk P1 P2 P3) as ([X' y'] & E). rewrite E.
  destruct (smote_cases dist vol nn p r D mn mj X' y' Hnn Hr Hwf Hmin E)
    as [(-> & -> & G)|(m & T & S & G1 & G2 & G3 & G4 & -> & -> & G5 & G6)].
  - split; [intros _; reflexivity|]. intros H2 Hn. exfalso. destruct G as [G|G]; [lia|].
    unfold asked in Ha. rewrite G in Ha. injection Ha as Ha. lia.
  - assert (n = Z.of_nat m) by (unfold asked in Ha; rewrite G2 in Ha; now injection Ha as Ha). subst n.
    split; [intros [H|H]; lia|]. intros _ _. exists S. rewrite G4. split; [reflexivity|].
    unfold smote_spec. rewrite rows_with_length by apply Hwf. split; [lia|]. exists T. auto.
Qed.

Lemma stats_labels y mn mj st : stats_of y mn mj st -> min_label st = mn /\ maj_label st = mj.
Proof. intros (H1 & H2 & _). auto. Qed.

Lemma two_labels_minority y a b : two_labels y a b -> exists mn mj, is_minority y mn mj.
Proof.
  intros T. destruct (lt_eq_lt_dec (count_label y a) (count_label y b)) as [[C|C]|C].
  - exists a, b. split; [exact T|left; exact C].
  - destruct (Z_lt_le_dec b a) as [H|H].
    + exists a, b. split; [exact T|right; split; [exact C|exact H]].
    + exists b, a. split; [apply two_labels_sym, T|right; split; [symmetry; exact C|]]. destruct T as [N _]. lia.
  - exists b, a. split; [apply two_labels_sym, T|left; exact C].
Qed.

(** SMOTE's result, whatever is asked for. *)
Lemma smote_result dist vol nn p r D mn mj n :
  knn_ok dist nn -> rng_ok r -> unif_pos r -> plain_ss (sm_ss p) -> wf_data (d_X D) (d_dim D) (d_y D) -> is_minority (d_y D) mn mj ->
  asked (sm_proportion p) (d_y D) mn mj = Ok n -> 1 <= sm_n_neighbors p -> 2 < count_label (d_y D) mn ->
  exists S, smote_sample vol nn p r D = Ok (d_X D ++ S, d_y D ++ repeat mn (length S)) /\
    (n = 0%Z -> S = []) /\ ((0 < n)%Z -> smote_spec dist p D mn n S).
Proof.
  intros Hnn Hr Hu Hp Hwf Hmin Ha Hk H2. destruct (smote_runs dist vol nn p r D mn mj n Hnn Hr Hu Hp Hwf Hmin Ha Hk) as [R1 R2].
  pose proof (asked_some _ _ _ _ _ Ha). destruct (Z.eq_dec n 0) as [->|N].
  - exists []. rewrite !app_nil_r. split; [apply R1; auto|]. split; [reflexivity|lia].
  - destruct (R2 H2 ltac:(lia)) as (S & E & HS). exists S. split; [exact E|]. split; [lia|auto].
Qed.

Lemma filter_count z y : length (filter (Z.eqb z) y) = count_label y z.
Proof.
  unfold count_label. induction y as [|a y IH]; [reflexivity|]. cbn [filter count_occ].
  destruct (Z.eqb_spec z a), (Z.eq_dec a z); cbn [length]; congruence.
Qed.

Lemma minority_size y mn mj : is_minority y mn mj -> count_label y mn <= count_label y mj.
Proof. intros (_ & [H|[H _]]); lia. Qed.

Lemma two_counts y mn mj : two_labels y mn mj -> count_label y mn + count_label y mj = length y.
Proof.
  intros (N & _ & _ & A). unfold count_label. clear -N A. induction y as [|a y IH]; [reflexivity|].
  cbn [count_occ length]. assert (IHy := IH (fun z Hz => A z (or_intror Hz))).
  destruct (A a (or_introl eq_refl)) as [->| ->]; destruct (Z.eq_dec mn mn), (Z.eq_dec mj mj), (Z.eq_dec mn mj), (Z.eq_dec mj mn); congruence || lia.
Qed.

Lemma too_few_spec y : ih_too_few y = true <-> ((zsum y <= 2)%Z \/ count_label y 0 <= 2).
Proof. unfold ih_too_few. rewrite filter_count, orb_true_iff, Z.leb_le, Nat.leb_le. reflexivity. Qed.

Lemma isomap_main dist vol nn iso nc p r D mn mj n X_trans :
  knn_ok dist nn -> rng_ok r -> unif_pos r -> plain_ss (sm_ss p) -> wf_data (d_X D) (d_dim D) (d_y D) -> is_minority (d_y D) mn mj ->
  asked (sm_proportion p) (d_y D) mn mj = Ok n -> 1 <= sm_n_neighbors p ->
  iso (d_X D) (d_y D) = Ok X_trans -> wf_data X_trans nc (d_y D) ->
  let out := isomap_sample vol nn iso nc p r D in
  (count_label (d_y D) mn <= 2 -> unchanged D out) /\
  (2 < count_label (d_y D) mn -> isomap_spec dist nc p X_trans (d_y D) mn n out).
Proof.
  intros Hnn Hr Hu Hp Hwf Hmin Ha Hk Hiso Hwt out. unfold out, isomap_sample.
  destruct (sample_default (isomap_algorithm vol nn iso nc p r) D mn mj Hmin) as (st & Hst & ->). split; intros H2.
  { apply Nat.leb_le in H2. rewrite H2. reflexivity. }
  destruct (Nat.leb_spec (count_label (d_y D) mn) 2); [lia|].
  unfold isomap_algorithm. rewrite Hiso. cbn [bind].
  destruct (smote_result dist vol nn p r (mk_data X_trans nc (d_y D)) mn mj n Hnn Hr Hu Hp Hwt Hmin Ha Hk H2)
    as (S & E & S1 & S2). cbn [d_X d_y] in E. rewrite E. cbn [bind fst snd].
  assert (T : two_labels (d_y D ++ repeat mn (length S)) mn mj).
  { destruct Hmin as ((N & I1 & I2 & A) & _). repeat split; auto using in_or_app.
    intros z Hz. apply in_app_or in Hz. destruct Hz as [Hz|Hz]; [auto|]. apply repeat_spec in Hz. auto. }
  destruct (two_labels_minority _ _ _ T) as (a & b & M).
  assert (L : length (X_trans ++ S) = length (d_y D ++ repeat mn (length S))).
  { rewrite !app_length, repeat_length. f_equal. apply Hwt. }
  assert (L4 : 4 <= length (X_trans ++ S)).
  { rewrite app_length. destruct Hwt as [_ ->]. pose proof (two_counts _ _ _ (proj1 Hmin)). pose proof (minority_size _ _ _ Hmin). lia. }
  destruct (ncr_spec dist nn _ _ a b Hnn L M L4) as (T' & X' & y' & _ & HT & EN & Dr). rewrite EN. cbn [bind snd].
  exists S, X', y'. cbn zeta. split; [exact S1|]. split; [exact S2|]. split; [exists a, b, T'; auto|].
  split; intros H'.
  - apply too_few_spec in H'. rewrite H'. reflexivity.
  - intros H''. destruct (ih_too_few y') eqn:E'; [|reflexivity]. apply too_few_spec in E'. lia.
Qed.

Lemma zsum_nonpos l : Forall (fun z => z <= 0)%Z l -> (zsum l <= 0)%Z.
Proof. induction 1; [reflexivity|]. cbn [zsum fold_right]. unfold zsum in *. lia. Qed.

(** Without the label 0, or without positive labels, nothing is cleaned. *)
Lemma isomap_uncleaned dist nc p X_trans y mn n r :
  length X_trans = length y -> In mn y -> isomap_spec dist nc p X_trans y mn n r ->
  ~ In 0%Z y \/ Forall (fun z => z <= 0)%Z y ->
  exists S, (n = 0%Z -> S = []) /\ ((0 < n)%Z -> smote_spec dist p (mk_data X_trans nc y) mn n S) /\
    r = Ok (X_trans ++ S, y ++ repeat mn (length S)).
Proof.
  intros L Hin (S & X' & y' & S1 & S2 & Hc & E1 & _) Hz. exists S. split; [assumption|]. split; [assumption|]. apply E1.
  destruct Hc as (a & b & T & _ & _ & keep & _ & Hk & _ & Ey).
  assert (Sub : forall z, In z y' -> In z y).
  { intros z Hz'. subst y'. apply in_map_iff in Hz'. destruct Hz' as (i & <- & Hi). apply Hk in Hi. destruct Hi as [Hi _].
    rewrite app_length in Hi. destruct (Nat.lt_ge_cases i (length y)) as [Hl|Hl].
    - rewrite app_nth1 by assumption. now apply nth_In.
    - rewrite app_nth2 by assumption. rewrite nth_indep with (d' := mn) by (rewrite repeat_length; lia). now rewrite nth_repeat. }
  destruct Hz as [Hz|Hz].
  - right. unfold count_label. rewrite (proj1 (count_occ_not_In Z.eq_dec y' 0%Z)); [lia|]. intros H. auto.
  - left. etransitivity; [apply zsum_nonpos|lia]. rewrite Forall_forall in *. auto.
Qed.

(** ** SL_graph_SMOTE *)

Lemma third_moment_cubes v m : v <> [] -> (m * qn (length v) == qsum v)%Q -> (third_moment v == cubes v m)%Q.
Proof.
  intros Hv Hm. unfold third_moment, cubes. cbv zeta. apply qsum_map_ext. intros x _.
  assert (E : (qsum v / inject_Z (Z.of_nat (length v)) == m)%Q).
  { fold (qn (length v)). rewrite <- Hm. field. apply qn_nz. destruct v; [congruence|cbn; lia]. }
  rewrite E. ring.
Qed.

Lemma mean_exists v : v <> [] -> exists m, (m * qn (length v) == qsum v)%Q.
Proof.
  intros Hv. exists (qsum v / qn (length v))%Q. field. apply qn_nz. destruct v; [congruence|cbn; lia].
Qed.

Lemma left_skewed_moment v : v <> [] -> (left_skewed v <-> (third_moment v < 0)%Q).
Proof.
  intros Hv. split.
  - intros (m & Hm & H). now rewrite (third_moment_cubes v m Hv Hm).
  - intros H. destruct (mean_exists v Hv) as (m & Hm). exists m. split; [assumption|]. now rewrite <- (third_moment_cubes v m Hv Hm).
Qed.

Lemma zsum_map_nth y T : Forall (Forall (fun i => i < length y)) T ->
  mapM (fun t => do l <- gather y t; Ok (inject_Z (zsum l))) T = Ok (label_sums y T).
Proof.
  intros H. unfold label_sums. induction H as [|t T Ht _ IH]; [reflexivity|]. cbn [mapM map].
  rewrite (gather_map 0%Z) by assumption. cbn [bind]. rewrite IH. reflexivity.
Qed.

Lemma sl_graph_main dist vol nn p rs r D mn mj n :
  knn_ok dist nn -> rngs_ok rs -> rng_ok r -> unif_pos r -> plain_ss (sm_ss p) -> wf_data (d_X D) (d_dim D) (d_y D) -> is_minority (d_y D) mn mj ->
  asked (sm_proportion p) (d_y D) mn mj = Ok n ->
  let out := sl_graph_sample vol nn p rs r D in
  (count_label (d_y D) mn <= 2 \/ n = 0%Z -> unchanged D out) /\
  (2 < count_label (d_y D) mn -> (0 < n)%Z ->
   exists T, nearest_table dist (d_X D) (rows_with mn (d_X D) (d_y D)) (Nat.min (length (d_X D)) (sm_n_neighbors p)) T /\
     (left_skewed (label_sums (d_y D) T) ->
        appends D mn (safe_level_spec dist (mk_comp (sm_proportion p) (sm_n_neighbors p)) D mn n) out) /\
     (~ left_skewed (label_sums (d_y D) T) -> exists X' y', out = Ok (X', y') /\
        border1_spec dist (mk_border (sm_proportion p) (sm_n_neighbors p) 5 (sm_ss p)) D mn mj X' y')).
Proof.
  intros Hnn Hrs Hr Hu Hp Hwf Hmin Ha out. unfold out, sl_graph_sample, sl_graph_algorithm.
  pose proof (sample_shape (fun k st D => do levels <- sl_levels nn (sm_n_neighbors p) st D;
    if Qlt_b (third_moment levels) 0
    then safe_level_sample nn (mk_comp (sm_proportion p) (sm_n_neighbors p)) rs D
    else border1_sample vol nn (mk_border (sm_proportion p) (sm_n_neighbors p) 5 (sm_ss p)) r D) (sm_proportion p) D mn mj n Hmin Ha)
    as (st & Hst & E). cbv beta in E. rewrite E. clear E. destruct (stats_labels _ _ _ _ Hst) as [E1 E2]. split.
  - intros [H|H]; [apply Nat.leb_le in H; now rewrite H|]. subst n. rewrite orb_true_r. reflexivity.
  - intros H2 Hn. destruct (Nat.leb_spec (count_label (d_y D) mn) 2); [lia|]. destruct (Z.eqb_spec n 0); [lia|]. cbn [orb].
    unfold sl_levels. rewrite E1.
    destruct (Hnn (d_X D) (rows_with mn (d_X D) (d_y D)) (Nat.min (length (d_X D)) (sm_n_neighbors p)) ltac:(lia)) as (T & ET & HT).
    rewrite ET. cbn [bind]. destruct (nearest_table_shape _ _ _ _ _ HT) as (L1 & L2 & L3).
    destruct Hwf as [W1 W2]. rewrite zsum_map_nth by now rewrite <- W2. cbn [bind]. exists T. split; [exact HT|].
    assert (Hne : label_sums (d_y D) T <> []).
    { intros H0. apply (f_equal (@length Q)) in H0. unfold label_sums in H0. rewrite map_length, L1, rows_with_length in H0 by assumption. cbn [length] in H0. unfold count_label in H2. lia. }
    split; intros HS; rewrite (left_skewed_moment _ Hne) in HS.
    + assert (Qlt_b (third_moment (label_sums (d_y D) T)) 0 = true) as -> by now apply Qlt_b_iff.
      exact (proj2 (safe_level_runs dist nn (mk_comp (sm_proportion p) (sm_n_neighbors p)) rs D mn mj n Hnn Hrs (conj W1 W2) Hmin Ha) H2 Hn).
    + destruct (Qlt_b (third_moment (label_sums (d_y D) T)) 0) eqn:EB; [apply Qlt_b_iff in EB; contradiction|].
      destruct Hp as (P1 & P2 & P3).
      destruct (border1_total dist vol nn (mk_border (sm_proportion p) (sm_n_neighbors p) 5 (sm_ss p)) r D mn mj n Hnn Hr Hu (conj W1 W2) Hmin Ha)
        as ([X' y'] & E); cbn; auto; try lia. exists X', y'. split; [exact E|]. eapply border1_cases; eauto. split; assumption.
Qed.

(** Renaming the classes by z -> a z + b. *)
Lemma label_sums_affine a b k y T : rect k T -> Forall (Forall (fun i => i < length y)) T ->
  Forall2 Qeq (label_sums (map (fun z => a * z + b)%Z y) T)
              (map (fun s => inject_Z a * s + inject_Z (Z.of_nat k * b))%Q (label_sums y T)).
Proof.
  intros R F. unfold label_sums. rewrite map_map. induction T as [|t T IH]; [constructor|].
  inversion R as [|? ? Ht R']; subst. inversion F as [|? ? Ft F']; subst. cbn [map]. apply Forall2_cons; [|now apply IH].
  rewrite <- inject_Z_mult, <- inject_Z_plus.
  enough (E : zsum (map (fun i => nth i (map (fun z => a * z + b)%Z y) 0%Z) t) = (a * zsum (map (fun i => nth i y 0%Z) t) + Z.of_nat (length t) * b)%Z) by now rewrite E.
  clear -Ft. induction Ft as [|i t Hi _ IH]; [cbn; lia|]. cbn [map length].
  rewrite (nth_indep _ 0%Z (a * 0 + b)%Z) by (rewrite map_length; assumption). rewrite (map_nth (fun z => a * z + b)%Z).
  cbn [zsum fold_right] in *. unfold zsum in IH. rewrite IH. rewrite Nat2Z.inj_succ. ring.
Qed.

Lemma cubes_affine a c v w m : Forall2 Qeq w (map (fun s => a * s + c)%Q v) ->
  (cubes w (a * m + c) == a * (a * a) * cubes v m)%Q.
Proof.
  intros H. remember (map (fun s => a * s + c)%Q v) as u eqn:E. revert v E. unfold cubes.
  induction H as [|x u' w' l Hx _ IH]; intros v E; destruct v as [|s v]; try discriminate; [cbn; ring|].
  injection E as -> E'. cbn [map]. rewrite !qsum_cons. rewrite (IH v E'). rewrite Hx. ring.
Qed.

Lemma mean_affine a c v w m : Forall2 Qeq w (map (fun s => a * s + c)%Q v) -> (m * qn (length v) == qsum v)%Q ->
  ((a * m + c) * qn (length w) == qsum w)%Q.
Proof.
  intros H Hm. assert (L : length w = length v) by (apply Forall2_length in H; now rewrite H, map_length).
  rewrite (qsum_eq _ _ H), L.
  assert (G : (qsum (map (fun s => a * s + c)%Q v) == a * qsum v + c * qn (length v))%Q).
  { clear. induction v as [|x v IH]; [cbn; unfold qn; cbn; ring|]. cbn [map length]. rewrite !qsum_cons, IH.
    unfold qn. rewrite Nat2Z.inj_succ, <- Z.add_1_r, inject_Z_plus. ring. }
  rewrite G, <- Hm. ring.
Qed.

Lemma cube_pos a : (0 < a)%Q -> (0 < a * (a * a))%Q.
Proof. intros H. apply Qmult_lt_0_compat; [assumption|]. now apply Qmult_lt_0_compat. Qed.
Lemma cube_neg a : (a < 0)%Q -> (a * (a * a) < 0)%Q.
Proof. intros H. assert (0 < (-a) * ((-a) * (-a)))%Q by (apply cube_pos; Lqa.lra). Lqa.nra. Qed.

Lemma skew_affine a c v w : v <> [] -> Forall2 Qeq w (map (fun s => a * s + c)%Q v) ->
  ((0 < a)%Q -> (left_skewed w <-> left_skewed v)) /\ ((a < 0)%Q -> (left_skewed w <-> right_skewed v)).
Proof.
  intros Hv H. destruct (mean_exists v Hv) as (m & Hm). pose proof (mean_affine a c v w m H Hm) as Hm'.
  pose proof (cubes_affine a c v w m H) as HC.
  assert (Hw : w <> []) by (intros ->; inversion H; destruct v; [congruence|discriminate]).
  assert (LW : left_skewed w <-> (cubes w (a * m + c) < 0)%Q).
  { rewrite left_skewed_moment by assumption. now rewrite (third_moment_cubes w _ Hw Hm'). }
  assert (LV : left_skewed v <-> (cubes v m < 0)%Q).
  { rewrite left_skewed_moment by assumption. now rewrite (third_moment_cubes v _ Hv Hm). }
  assert (RV : right_skewed v <-> (0 < cubes v m)%Q).
  { split; [|intros; exists m; auto]. intros (m' & Hm2 & Hc). now rewrite <- (third_moment_cubes v m Hv Hm), (third_moment_cubes v m' Hv Hm2). }
  rewrite LW, LV, RV, HC. split; intros Ha.
  - pose proof (cube_pos a Ha) as P. split; intros; Lqa.nra.
  - pose proof (cube_neg a Ha) as P. split; intros; Lqa.nra.
Qed.

Lemma skew_renaming a b k y T : T <> [] -> rect k T -> Forall (Forall (fun i => i < length y)) T ->
  let y' := map (fun z => a * z + b)%Z y in
  ((0 < a)%Z -> (left_skewed (label_sums y' T) <-> left_skewed (label_sums y T))) /\
  ((a < 0)%Z -> (left_skewed (label_sums y' T) <-> right_skewed (label_sums y T))).
Proof.
  intros HT HR HF y'. assert (Hv : label_sums y T <> []) by (destruct T; [congruence|discriminate]).
  destruct (skew_affine (inject_Z a) (inject_Z (Z.of_nat k * b)) _ _ Hv (label_sums_affine a b k y T HR HF)) as [H1 H2].
  split; intros Ha; [apply H1|apply H2]; change 0%Q with (inject_Z 0); now rewrite <- Zlt_Qlt.
Qed.

(** ** SVM_balance *)


(** What the loop knows after the candidates [seen]. *)
Definition svm_inv (score : Q -> Q) (seen : list Q) (b : Q * Q) : Prop :=
  ((forall c, In c seen -> (score c <= 0)%Q) -> b = (0, 1 # 100)%Q) /\
  ((exists c, In c seen /\ (0 < score c)%Q) ->
     In (snd b) seen /\ fst b = score (snd b) /\ (0 < fst b)%Q /\
     (forall c, In c seen -> (score c <= score (snd b))%Q) /\
     (forall c, In c seen -> (c < snd b)%Q -> (score c < score (snd b))%Q)).

Lemma positive_or_not (score : Q -> Q) seen :
  (forall c, In c seen -> (score c <= 0)%Q) \/ (exists c, In c seen /\ (0 < score c)%Q).
Proof.
  induction seen as [|a seen IH]; [left; intros c []|].
  destruct (Qlt_le_dec 0 (score a)) as [H|H]; [right; exists a; split; [now left|assumption]|].
  destruct IH as [IH|(c & Hc & Hp)]; [left|right; exists c; split; [now right|assumption]].
  intros c [<-|Hc]; auto.
Qed.

Lemma svm_inv_step score seen b c : (forall a, In a seen -> (a < c)%Q) -> svm_inv score seen b ->
  svm_inv score (seen ++ [c]) (if Qlt_b (fst b) (score c) then (score c, c) else b).
Proof.
  intros Hs (I1 & I2).
  assert (Hin : forall a, In a (seen ++ [c]) <-> In a seen \/ a = c).
  { intros a. rewrite in_app_iff. cbn. intuition. }
  destruct (Qlt_b (fst b) (score c)) eqn:E.
  - apply Qlt_b_iff in E. destruct (positive_or_not score seen) as [N|P].
    + rewrite (I1 N) in E. cbn [fst] in E. split.
      * intros A. exfalso. apply (Qlt_not_le _ _ E). apply A, Hin. now right.
      * intros _. cbn [fst snd]. split; [apply Hin; now right|]. split; [reflexivity|]. split; [assumption|].
        assert (G : forall a, In a seen -> (score a < score c)%Q) by (intros a Ha; specialize (N a Ha); Lqa.lra).
        split; intros a Ha; apply Hin in Ha; destruct Ha as [Ha| ->].
        -- apply Qlt_le_weak, G, Ha.
        -- apply Qle_refl.
        -- intros _. apply G, Ha.
        -- intros H. exfalso. revert H. apply Qlt_irrefl.
    + destruct (I2 P) as (J1 & J2 & J3 & J4 & J5). split.
      * intros A. exfalso. destruct P as (a & Ha & Hp). specialize (A a (proj2 (Hin a) (or_introl Ha))). Lqa.lra.
      * intros _. cbn [fst snd]. split; [apply Hin; now right|]. split; [reflexivity|]. split; [Lqa.lra|].
        assert (G : forall a, In a seen -> (score a < score c)%Q).
        { intros a Ha. specialize (J4 a Ha). rewrite J2 in E. eapply Qle_lt_trans; eassumption. }
        split; intros a Ha; apply Hin in Ha; destruct Ha as [Ha| ->].
        -- apply Qlt_le_weak, G, Ha.
        -- apply Qle_refl.
        -- intros _. apply G, Ha.
        -- intros H. exfalso. revert H. apply Qlt_irrefl.
  - assert (E' : (score c <= fst b)%Q).
    { apply Qnot_lt_le. intros H. apply Qlt_b_iff in H. congruence. }
    split.
    + intros A. apply I1. intros a Ha. apply A, Hin. now left.
    + intros (a & Ha & Hp). assert (P : exists a, In a seen /\ (0 < score a)%Q).
      { destruct (positive_or_not score seen) as [N|P]; [exfalso|exact P]. rewrite (I1 N) in E'. cbn [fst] in E'.
        apply Hin in Ha. destruct Ha as [Ha| ->]; [specialize (N a Ha)|]; Lqa.lra. }
      destruct (I2 P) as (J1 & J2 & J3 & J4 & J5). split; [apply Hin; now left|]. split; [assumption|]. split; [assumption|].
      split; intros q Hq; apply Hin in Hq; destruct Hq as [Hq| ->]; auto.
      * now rewrite <- J2.
      * intros H. exfalso. specialize (Hs _ J1). apply (Qlt_irrefl c). eapply Qlt_trans; eassumption.
Qed.

Lemma svm_best_spec score : best_candidate score (snd (svm_best score)).
Proof.
  assert (I : svm_inv score svm_candidates (svm_best score)).
  { unfold svm_best, svm_candidates, svm_C_params. cbn [fold_left].
    set (f := fun (best : Q * Q) (c : Q) => if Qlt_b (fst best) (score c) then (score c, c) else best).
    assert (I0 : svm_inv score [] (0, 1 # 100)%Q) by (split; [reflexivity|intros (c & [] & _)]).
    apply (svm_inv_step score _ _ (1 # 100)%Q) in I0; [|intros a []].
    apply (svm_inv_step score _ _ (1 # 10)%Q) in I0; [|intros a [<-|[]]; reflexivity].
    apply (svm_inv_step score _ _ 1%Q) in I0; [|intros a [<-|[<-|[]]]; reflexivity].
    apply (svm_inv_step score _ _ 10%Q) in I0; [|intros a [<-|[<-|[<-|[]]]]; reflexivity].
    exact I0. }
  destruct I as (I1 & I2). split.
  - intros H. now rewrite (I1 H).
  - intros H. destruct (I2 H) as (J1 & _ & _ & J4 & J5). auto.
Qed.

Lemma svm_main dist vol nn score predict p r D mn mj n :
  knn_ok dist nn -> rng_ok r -> unif_pos r -> plain_ss (sm_ss p) -> wf_data (d_X D) (d_dim D) (d_y D) -> is_minority (d_y D) mn mj ->
  asked (sm_proportion p) (d_y D) mn mj = Ok n -> 1 <= sm_n_neighbors p ->
  let out := svm_sample vol nn score predict p r D in
  (count_label (d_y D) mn <= 2 -> unchanged D out) /\
  (2 < count_label (d_y D) mn -> exists S C,
    let XS := d_X D ++ S in
    let yS := d_y D ++ repeat mn (length S) in
    (n = 0%Z -> S = []) /\ ((0 < n)%Z -> smote_spec dist p D mn n S) /\
    best_candidate (score XS yS (Nat.min 5 (count_label yS mn))) C /\
    out = Ok (XS, predict XS yS C)).
Proof.
  intros Hnn Hr Hu Hp Hwf Hmin Ha Hk out. unfold out, svm_sample.
  destruct (sample_default (svm_algorithm vol nn score predict p r) D mn mj Hmin) as (st & Hst & ->). split; intros H2.
  { apply Nat.leb_le in H2. rewrite H2. reflexivity. }
  destruct (Nat.leb_spec (count_label (d_y D) mn) 2); [lia|].
  destruct (stats_labels _ _ _ _ Hst) as [E1 _].
  destruct (smote_result dist vol nn p r D mn mj n Hnn Hr Hu Hp Hwf Hmin Ha Hk H2) as (S & E & S1 & S2).
  unfold svm_algorithm. rewrite E. cbn [bind]. rewrite E1, filter_count. exists S. eexists. cbv zeta.
  split; [exact S1|]. split; [exact S2|]. split; [|reflexivity]. apply svm_best_spec.
Qed.
