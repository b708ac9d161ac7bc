(** Proofs about G_SMOTE with a Gaussian kernel. *)

From Coq Require Import Ascii String List ZArith QArith Qabs Qminmax Bool Arith Lia Lqa Sorting.Sorted Permutation Reals Lra.
From Flocq Require Import Core IEEE754.BinarySingleNaN.
From Verif Require Import Np PyVal NpFacts BaseFacts SimplexModel Spec SpecDanger SpecNoise SpecComp SimplexFacts SimplexGeom Float64
  SamplerModel SamplerFacts OversFacts BaseModel KnnFacts DangerModel DangerFacts BorderFacts ClusterModel ClusterOversModel OversGen
  ClusterOversFacts ClusterFacts NoiseModel NoiseFacts NoiseFacts2 CompModel CompFacts CompFacts2 CompFacts3 CompFacts4 EditModel SpecEdit EditFacts EditFacts3 EditFacts4 EditFacts5
  SpecNear NearFacts NearFacts2 LevelModel SpecLevel LevelFacts LevelFacts3 LevelFacts4 SpecGroup GroupFacts GroupFacts2 GroupFacts4 WrapModel SpecWrap WrapFacts WrapFacts2 WrapFacts3 UnderModel DirModel SpecDir DirFacts DirFacts3
  KernelModel SpecKernel.
Import ListNotations.
Open Scope nat_scope.

(** ** Sorting with NaN *)

Lemma filter_split {A} (f : A -> bool) l : Permutation (filter f l ++ filter (fun x => negb (f x)) l) l.
Proof.
  induction l as [|x l IH]; [constructor|]. cbn [filter]. destruct (f x); cbn [negb app].
  - now constructor.
  - rewrite <- Permutation_middle. now constructor.
Qed.

Lemma argsort_nan_perm l : Permutation (argsort_nan l) (seq 0 (length l)).
Proof.
  unfold argsort_nan. set (nums := filter (is_num l) (seq 0 (length l))).
  rewrite argsort_perm, map_length, CompFacts4.map_nth_seq. apply filter_split.
Qed.

Lemma argsort_nan_first l a q : nth a l None = Some q -> a < length l ->
  exists z zs q0, argsort_nan l = z :: zs /\ nth z l None = Some q0 /\ (q0 <= q)%Q.
Proof.
  intros Ea La. unfold argsort_nan. set (nums := filter (is_num l) (seq 0 (length l))). set (vals := map (num_at l) nums).
  assert (Ha : In a nums). { apply filter_In. split; [apply in_seq; lia|]. unfold is_num. now rewrite Ea. }
  destruct (In_nth _ _ 0 Ha) as (k & Lk & Ek).
  assert (LV : length vals = length nums) by apply map_length.
  pose proof (argsort_sorted vals) as HS. pose proof (argsort_length vals) as LA.
  destruct (argsort vals) as [|z zs] eqn:EA; [cbn in LA; lia|].
  assert (Hz : In z (argsort vals)) by (rewrite EA; now left). apply argsort_in in Hz. rewrite LV in Hz.
  assert (Hk : In k (argsort vals)) by (apply argsort_in; lia). rewrite EA in Hk.
  assert (G : (nth z vals 0%Q <= nth k vals 0%Q)%Q).
  { destruct Hk as [->|Hk]; [apply Qle_refl|]. inversion HS as [|? ? _ F]; subst. rewrite Forall_forall in F. auto. }
  unfold vals in G. rewrite !(nth_map' _ 0%nat) in G by lia. rewrite Ek in G. unfold num_at at 2 in G. rewrite Ea in G.
  pose proof (nth_In nums 0 Hz) as Hn. apply filter_In in Hn as [_ Hn]. unfold is_num in Hn. unfold num_at in G.
  cbn [map app]. destruct (nth (nth z nums 0) l None) as [q0|] eqn:E0; [|discriminate]. eauto 6.
Qed.

(** ** Cosines *)

Lemma sq_apart_sub x z : sq (vsub x z) = sq_apart x z.
Proof.
  unfold sq, dot, sq_apart, vsub. f_equal. revert z. induction x as [|a x IH]; intros [|b z]; cbn [map2]; try reflexivity. now rewrite IH.
Qed.

Definition k_gram (sigma : Q) (X : list row) (b i : nat) : row :=
  map (fun z => (- sq (vsub (vsub (nth i X []) (nth b X [])) z) / (2 * (sigma * sigma)))%Q) X.
Definition k_theta (norm : row -> Q) (arccos : Q -> Q) (sigma : Q) (X : list row) (H : row) (b i : nat) : option Q :=
  let norms := (norm H * norm (k_gram sigma X b i))%Q in
  if Qeq_bool norms 0 then None else Some (arccos (Qabs (dot (k_gram sigma X b i) H) / norms)%Q).

Lemma k_angle_ok norm arccos sigma X H b i : b < length X -> i < length X ->
  k_angle norm arccos sigma X H b i = Ok (k_theta norm arccos sigma X H b i).
Proof. intros Hb Hi. unfold k_angle. rewrite (get_nth [] X b), (get_nth [] X i) by assumption. reflexivity. Qed.

Definition k_share (norm : row -> Q) (sigma : Q) (X : list row) (H : row) (b i : nat) : Q :=
  (Qabs (dot (k_gram sigma X b i) H) / (norm H * norm (k_gram sigma X b i)))%Q.

Lemma dot_scale c s g H : Forall2 Qeq g (map (Qmult c) s) -> (dot g H == c * dot s H)%Q.
Proof.
  unfold dot, qsum. revert g H. induction s as [|a s IH]; intros g H F.
  - inversion F; subst. cbn. ring.
  - cbn in F. inversion F as [|x ? g' ? E F']; subst. destruct H as [|h H]; cbn [map2 fold_right]; [ring|].
    rewrite (IH g' H F'), E. ring.
Qed.

Lemma k_gram_scaled sigma X b i : ~ (sigma == 0)%Q ->
  Forall2 Qeq (k_gram sigma X b i)
    (map (Qmult (- (1) / (2 * (sigma * sigma)))%Q) (map (sq_apart (map2 (fun a b => a - b)%Q (nth i X []) (nth b X []))) X)).
Proof.
  intros Hs. unfold k_gram. change (fun a b => (a - b)%Q) with Qminus. fold (vsub (nth i X []) (nth b X [])).
  set (d := vsub (nth i X []) (nth b X [])).
  rewrite map_map. clearbody d. induction X as [|x X IH]; cbn [map]; [constructor|]. constructor; [|exact IH].
  rewrite sq_apart_sub. field. exact Hs.
Qed.

Lemma k_share_cosine norm sigma X H b i : norm_ok norm -> ~ (sigma == 0)%Q ->
  let s := map (sq_apart (map2 (fun a b => a - b)%Q (nth i X []) (nth b X []))) X in
  ((norm H * norm (k_gram sigma X b i) == 0)%Q <-> (norm H * norm s == 0)%Q) /\
  (~ (norm H * norm s == 0)%Q -> (k_share norm sigma X H b i == Qabs (qsum (map2 Qmult s H)) / (norm H * norm s))%Q) .
Proof.
  intros [N1 N2 N3] Hs s. set (c := (- (1) / (2 * (sigma * sigma)))%Q).
  pose proof (k_gram_scaled sigma X b i Hs) as G. fold s c in G.
  assert (Hc : ~ (Qabs c == 0)%Q).
  { intros E.
    assert (E0 : (c == 0)%Q). { pose proof (Qle_Qabs c). pose proof (Qle_Qabs (- c)). rewrite Qabs_opp in *. Lqa.lra. }
    assert (c * (2 * (sigma * sigma)) == - (1))%Q by (unfold c; field; exact Hs). rewrite E0 in *. Lqa.lra. }
  assert (EN : (norm (k_gram sigma X b i) == Qabs c * norm s)%Q) by (rewrite (N2 _ _ G); apply N3).
  assert (ED : (Qabs (dot (k_gram sigma X b i) H) == Qabs c * Qabs (qsum (map2 Qmult s H)))%Q).
  { rewrite (dot_scale c s _ H G), Qabs_Qmult. reflexivity. }
  split.
  - rewrite EN. setoid_replace (norm H * (Qabs c * norm s))%Q with (Qabs c * (norm H * norm s))%Q by ring. split; intros E.
    + apply Qmult_integral in E as [E|E]; [contradiction|assumption].
    + rewrite E. ring.
  - intros E. unfold k_share. rewrite EN, ED. set (u := norm s) in *. set (v := norm H) in *. field.
    repeat split; try assumption; intros Z; apply E; rewrite Z; ring.
Qed.

Lemma kernel_rect exp sigma X : rect (length X) (kernel_matrix exp sigma X).
Proof. apply Forall_forall. intros x Hx. apply in_map_iff in Hx as (z & <- & _). apply map_length. Qed.

Lemma kernel_entry exp sigma X a b : a < length X -> b < length X ->
  exists q, (q == sq_apart (nth a X []) (nth b X []) / (2 * (sigma * sigma)))%Q /\ nth b (nth a (kernel_matrix exp sigma X) []) 0%Q = exp q.
Proof.
  intros La Lb. unfold kernel_matrix. rewrite (nth_map' _ []) by assumption. rewrite (nth_map' _ []) by assumption.
  eexists. split; [|reflexivity]. rewrite sq_apart_sub. reflexivity.
Qed.

Definition k_best norm arccos sigma X H base (others ord : list nat) : Prop :=
  forall o q', In o others -> k_theta norm arccos sigma X H base o = Some q' ->
    exists q, k_theta norm arccos sigma X H base (nth 0 ord 0) = Some q /\ (q <= q')%Q.

Lemma k_row_spec norm arccos sigma n_dim X H i base others : base < length X -> Forall (fun v => v < length X) others ->
  exists ord, k_row norm arccos sigma n_dim X H i (base :: others) = Ok (i :: firstn (n_dim - 1) ord) /\
    Permutation ord others /\ k_best norm arccos sigma X H base others ord.
Proof.
  intros Hb Ho. unfold k_row. rewrite Forall_forall in Ho.
  rewrite (WrapFacts2.mapM_map _ (k_theta norm arccos sigma X H base)) by (intros o Hi; apply k_angle_ok; auto).
  cbn [bind]. set (th := map (k_theta norm arccos sigma X H base) others).
  assert (Lth : length th = length others) by apply map_length.
  rewrite (gather_map 0%nat).
  2: { apply Forall_forall. intros a Ha. apply (Permutation_in _ (argsort_nan_perm th)) in Ha. apply in_seq in Ha. lia. }
  cbn [bind]. eexists. split; [reflexivity|]. split.
  - rewrite (argsort_nan_perm th), Lth. rewrite CompFacts4.map_nth_seq. reflexivity.
  - intros o q' Hin Hq. destruct (In_nth _ _ 0 Hin) as (a & La & Ea).
    assert (Na : nth a th None = Some q').
    { unfold th. rewrite (nth_map' _ 0%nat) by lia. now rewrite Ea. }
    destruct (argsort_nan_first th a q' Na ltac:(lia)) as (z & zs & q0 & Ez & E0 & Le).
    assert (Hz : z < length others).
    { assert (G : In z (argsort_nan th)) by (rewrite Ez; now left). apply (Permutation_in _ (argsort_nan_perm th)) in G. apply in_seq in G. lia. }
    rewrite Ez. cbn [map nth]. unfold th in E0. rewrite (nth_map' _ 0%nat) in E0 by assumption. eauto.
Qed.

Lemma k_theta_cosine norm arccos sigma X H b i : norm_ok norm -> ~ (sigma == 0)%Q ->
  (forall q, k_cosine norm X H b i q ->
     k_theta norm arccos sigma X H b i = Some (arccos (k_share norm sigma X H b i)) /\ (q == k_share norm sigma X H b i)%Q) /\
  (forall t, k_theta norm arccos sigma X H b i = Some t ->
     k_cosine norm X H b i (k_share norm sigma X H b i) /\ t = arccos (k_share norm sigma X H b i)).
Proof.
  intros Hn Hs. destruct (k_share_cosine norm sigma X H b i Hn Hs) as [Z V]. cbv zeta in Z, V.
  unfold k_theta, k_cosine. cbv zeta. split.
  - intros q [N E]. split; [|rewrite (V N); exact E].
    destruct (Qeq_bool (norm H * norm (k_gram sigma X b i)) 0) eqn:B; [|reflexivity].
    apply Qeq_bool_iff in B. now apply Z in B.
  - intros t. destruct (Qeq_bool (norm H * norm (k_gram sigma X b i)) 0) eqn:B; [discriminate|]. intros E. injection E as <-.
    assert (N : ~ (norm H * norm (map (sq_apart (map2 (fun a b => a - b)%Q (nth i X []) (nth b X []))) X) == 0)%Q).
    { intros G. apply Z in G. apply Qeq_bool_iff in G. congruence. }
    split; [|reflexivity]. split; [assumption|]. now apply V.
Qed.

Lemma k_share_nonneg norm sigma X H b i : norm_ok norm -> (0 <= k_share norm sigma X H b i)%Q.
Proof.
  intros [N _ _]. unfold k_share. set (d := (norm H * norm (k_gram sigma X b i))%Q).
  assert (0 <= d)%Q by (apply Qmult_le_0_compat; apply N). unfold Qdiv. apply Qmult_le_0_compat; [apply Qabs_nonneg|].
  now apply Qinv_le_0_compat.
Qed.

Lemma k_best_cosine norm arccos sigma X H base others o ord i' q' : norm_ok norm -> ~ (sigma == 0)%Q -> arccos_ok arccos ->
  k_best norm arccos sigma X H base others (o :: ord) -> In i' others -> k_cosine norm X H base i' q' ->
  exists q, k_cosine norm X H base o q /\ (q' <= q)%Q.
Proof.
  intros Hn Hs Hac B Hi Hq. destruct (proj1 (k_theta_cosine norm arccos sigma X H base i' Hn Hs) q' Hq) as [Et Eq].
  destruct (B i' _ Hi Et) as (t & E0 & Le). cbn [nth] in E0.
  destruct (proj2 (k_theta_cosine norm arccos sigma X H base o Hn Hs) t E0) as [C ->].
  eexists. split; [exact C|]. rewrite Eq. apply Qnot_lt_le. intros G.
  exact (Qlt_not_le _ _ (Hac _ _ (k_share_nonneg norm sigma X H base o Hn) G) Le).
Qed.

(** ** The call *)

Lemma k_smote_runs dist vol nn norm exp eig arccos sigma p r D mn mj n :
  knn_ok dist nn -> rng_ok r -> unif_pos r -> plain_ss (sm_ss p) -> eig_square eig -> norm_ok norm -> ~ (sigma == 0)%Q -> arccos_ok arccos ->
  wf_data (d_X D) (d_dim D) (d_y D) -> is_minority (d_y D) mn mj ->
  asked (sm_proportion p) (d_y D) mn mj = Ok n -> 1 <= sm_n_neighbors p ->
  (d_dim D < 2 -> unchanged D (k_smote_sample nn norm vol exp arccos eig sigma p r D)) /\
  (2 <= d_dim D -> runs D mn n (k_smote_spec dist norm exp eig sigma p D mn n) (k_smote_sample nn norm vol exp arccos eig sigma p r D)).
Proof.
  intros Hnn Hr Hu Hp He Hnorm Hs Hac [Hrect Hl] Hmin Ha Hk. unfold k_smote_sample. split; [|intros Hdim; split].
  - intros Hdim. apply (too_small_copies _ _ _ mn mj Hmin). right. exists 2. split; [cbn; tauto|assumption].
  - intros G. destruct (le_lt_dec (count_label (d_y D) mn) 2) as [L|L].
    { apply (too_small_copies _ _ _ mn mj Hmin). left. exists 2. split; [cbn; tauto|assumption]. }
    destruct G as [G|G]; [lia|]. subst n.
    destruct (large_enough_runs g_smote_checks (k_smote_algorithm nn norm vol exp arccos eig sigma p r) D mn mj Hmin) as (st & Est & Em & Ej & E).
    { repeat constructor; assumption. }
    unfold unchanged. rewrite E. unfold k_smote_algorithm.
    rewrite (det_st_asked _ _ _ _ _ (proj1 Hmin) (stats_of_label _ _ _ _ Hmin Est Em Ej)), Ha. reflexivity.
  - intros L Hn.
    destruct (large_enough_runs g_smote_checks (k_smote_algorithm nn norm vol exp arccos eig sigma p r) D mn mj Hmin) as (st & Est & Em & Ej & E).
    { repeat constructor; assumption. }
    rewrite E. unfold k_smote_algorithm.
    rewrite (det_st_asked _ _ _ _ _ (proj1 Hmin) (stats_of_label _ _ _ _ Hmin Est Em Ej)), Ha. cbn [bind].
    destruct (Nat.eqb_spec (Z.to_nat n) 0); [lia|]. rewrite Em. set (X_min := rows_with mn (d_X D) (d_y D)).
    assert (HL : length X_min = count_label (d_y D) mn) by now apply rows_with_length.
    assert (HR : rect (d_dim D) X_min) by now apply rows_with_rect.
    set (k := Nat.min (length X_min) (sm_n_neighbors p + 1)).
    destruct (Hnn X_min X_min k) as (T & ET & HT); [unfold k; lia|]. rewrite ET. cbn [bind].
    destruct (He (kernel_matrix exp sigma X_min)) as (W1 & W2 & W3). unfold k_direction. cbv zeta.
    set (K := kernel_matrix exp sigma X_min) in *. assert (LK : length K = length X_min) by apply map_length.
    destruct (argmax_spec (fst (eig K))) as (a & -> & La & Ma). { intros G. rewrite G in W1. cbn in W1. lia. }
    cbn [bind]. rewrite (get_nth [] (snd (eig K)) a) by lia. cbn [bind]. set (H := nth a (snd (eig K)) []).
    assert (HA : k_axis exp eig sigma X_min H).
    { exists K, a. split; [assumption|]. split; [apply kernel_rect|]. split; [apply kernel_entry|]. split; [lia|]. split; [reflexivity|].
      intros j Lj. apply Ma. lia. }
    destruct (nearest_table_shape _ _ _ _ _ HT) as (LT & _ & _).
    set (nd := ss_n_dim (sm_ss p)). set (f := fun it : nat * list nat => k_row norm arccos sigma nd X_min H (fst it) (snd it)).
    assert (HF : forall i, i < length T -> exists base others ord, nth i T [] = base :: others /\ f (i, nth i T []) = Ok (i :: firstn (nd - 1) ord) /\
       Permutation ord others /\ Forall (fun v => v < length X_min) others /\ length others = k - 1 /\
       k_best norm arccos sigma X_min H base others ord).
    { intros i Hi. rewrite LT in Hi. destruct (NearFacts.table_row _ _ _ _ _ i HT Hi) as [R1 R2].
      destruct (nth i T []) as [|base others] eqn:Ei; [cbn in R1; unfold k in R1; lia|].
      inversion R2 as [|? ? B1 B2]; subst. destruct (k_row_spec norm arccos sigma nd X_min H i base others B1 B2) as (ord & E1 & P1 & M1).
      exists base, others, ord. cbn in R1. repeat split; auto. lia. }
    destruct (mapM_total f (combine (seq 0 (length T)) T)) as [I EI].
    { apply Forall_forall. intros [i t] Hin. apply (In_nth _ _ (0, [])) in Hin as (b & Hb & Eb).
      rewrite combine_length, seq_length, Nat.min_id in Hb. rewrite combine_nth in Eb by apply seq_length.
      rewrite seq_nth in Eb by assumption. injection Eb as <- <-. destruct (HF b Hb) as (? & ? & ? & _ & Ef & _). eauto. }
    rewrite EI. cbn [bind]. apply mapM_ok_iff in EI. pose proof (Forall2_length _ _ _ EI) as LI.
    rewrite combine_length, seq_length, Nat.min_id in LI.
    assert (HI : forall i, i < length T -> exists base others ord, nth i T [] = base :: others /\ nth i I [] = i :: firstn (nd - 1) ord /\
       Permutation ord others /\ Forall (fun v => v < length X_min) others /\ length others = k - 1 /\
       k_best norm arccos sigma X_min H base others ord).
    { intros i Hi. pose proof (Forall2_nth' _ _ _ (0, []) [] i EI ltac:(rewrite combine_length, seq_length; lia)) as G. cbn beta in G.
      rewrite combine_nth in G by apply seq_length. rewrite seq_nth in G by assumption. cbn [plus] in G.
      destruct (HF i Hi) as (base & others & ord & F1 & F2 & F3). rewrite F2 in G. injection G as G. exists base, others, ord. auto. }
    set (nc := 1 + Nat.min (nd - 1) (k - 1)).
    assert (HIrect : rect nc I /\ Forall (Forall (fun v => v < length X_min)) I).
    { split; apply Forall_forall; intros t Hin; apply (In_nth _ _ []) in Hin as (i & Hi & <-); rewrite <- LI in Hi;
        destruct (HI i Hi) as (base & others & ord & F1 & F2 & F3 & F4 & F5 & _); rewrite F2.
      - cbn. rewrite firstn_length, (Permutation_length F3). unfold nc. lia.
      - constructor; [lia|]. apply Forall_forall. intros v Hv. rewrite Forall_forall in F4. apply F4.
        apply (Permutation_in _ F3). apply (firstn_sub _ _ _ Hv). }
    destruct HIrect as [I1 I2].
    set (args := mk_args X_min (d_dim D) I nc None None None false None).
    assert (Hargs : args_ok args).
    { constructor; cbn; auto; try discriminate. lia. }
    destruct (ss_call vol (sm_ss p) args (Z.to_nat n) r 0 Hargs Hr Hu Hp) as (S & ES & LS & FS); cbn; try (unfold nc; lia); auto.
    rewrite ES. cbn [bind]. exists S. split; [reflexivity|]. split; [assumption|].
    exists T, H. split; [assumption|]. split; [assumption|]. intros N2 Ng. specialize (FS Ng). cbn in FS.
    eapply Forall_impl; [|exact FS]. intros x (b & ps & Hb & Lps & Sps & Fps & _ & _ & Hc). fold nd in N2, Lps.
    assert (Enc : nc = 2) by (unfold nc, k; lia). change (length ps = Nat.min nd nc - 1) in Lps. rewrite N2, Enc in Lps. cbn in Lps.
    destruct ps as [|pp [|]]; cbn in Lps; try lia. inversion Fps as [|? ? Hpp _]; subst. change (1 <= pp < nc) in Hpp.
    assert (pp = 1) by lia. subst pp. cbn [map] in Hc. rewrite <- LI in Hb.
    destruct (HI b Hb) as (base & others & ord & F1 & F2 & F3 & F4 & F5 & F6).
    assert (Ne : others <> []) by (intros ->; cbn in F5; unfold k in F5; lia). rewrite F2 in Hc. rewrite N2 in Hc. cbn in Hc.
    destruct ord as [|o ord]; [apply Permutation_nil in F3; congruence|]. cbn [firstn nth] in Hc. cbn [nth] in F6.
    exists b, o. rewrite F1. cbn [nth tl].
    assert (Ho : In o others) by (apply (Permutation_in _ F3); now left).
    split; [split; [assumption|rewrite F1; assumption]|]. split; [|exact Hc].
    intros i' q' [_ Hi'] Hq. rewrite F1 in Hi'. cbn in Hi'. exact (k_best_cosine _ _ _ _ _ _ _ _ _ _ _ Hnorm Hs Hac F6 Hi' Hq).
Qed.

(** ** The parameter method *)

Lemma prefix_iff p s : String.prefix p s = true <-> exists r, s = append p r.
Proof.
  revert s. induction p as [|c p IH]; intros s; cbn [String.prefix append].
  - split; [intros _; now exists s|destruct s; reflexivity].
  - destruct s as [|d s]; [split; [discriminate|intros (r & E); discriminate E]|].
    cbn [String.prefix]. destruct (ascii_dec c d) as [->|N].
    + rewrite IH. split; intros (r & E); exists r; [now rewrite E|now injection E].
    + split; [discriminate|]. intros (r & E). injection E as E _. congruence.
Qed.

Lemma append_assoc' a b c : append (append a b) c = append a (append b c).
Proof. induction a as [|x a IH]; cbn; [reflexivity|now rewrite IH]. Qed.
Lemma append_nil a : append a EmptyString = a.
Proof. induction a as [|x a IH]; cbn; [reflexivity|now rewrite IH]. Qed.

Lemma last_segment_plain s acc : (forall a b, s <> append a (append "_" b)) -> last_segment s acc = append acc s.
Proof.
  revert acc. induction s as [|c s IH]; intros acc H; cbn [last_segment]; [now rewrite append_nil|].
  destruct (Ascii.eqb_spec c "_"%char) as [->|N]; [now destruct (H EmptyString s)|].
  rewrite IH; [apply append_assoc'|]. intros a b ->. now apply (H (String c a) b).
Qed.

Lemma last_segment_after pre s acc : last_segment (append pre (append "_" s)) acc = last_segment s EmptyString.
Proof.
  revert acc. induction pre as [|c pre IH]; intros acc; [reflexivity|]. cbn [append last_segment].
  destruct (Ascii.eqb c "_"%char); apply IH.
Qed.

Lemma last_segment_part m seg : last_part m seg -> last_segment m EmptyString = seg.
Proof.
  intros [N [->|(pre & ->)]]; [|rewrite last_segment_after]; rewrite (last_segment_plain _ _ N); reflexivity.
Qed.

Lemma last_segment_cut s acc :
  (forall a b, last_segment s EmptyString <> append a (append "_" b)) /\
  ((forall a b, s <> append a (append "_" b)) \/ exists pre, s = append pre (append "_" (last_segment s acc))).
Proof.
  revert acc. induction s as [|c s IH]; intros acc.
  - split; [intros [|] ?; discriminate|]. left. intros [|] ?; discriminate.
  - destruct (IH (append acc (String c EmptyString))) as [N [P|(pre & E)]].
    + destruct (Ascii.eqb_spec c "_"%char) as [->|D].
      * cbn [last_segment]. rewrite Ascii.eqb_refl. rewrite (last_segment_plain s EmptyString P). split; [exact P|]. right. now exists EmptyString.
      * assert (Q : forall a b, String c s <> append a (append "_" b)).
        { intros [|x a] b E; injection E as E1 E2; [congruence|]. now apply (P a b). }
        rewrite (last_segment_plain _ EmptyString Q). split; [exact Q|now left].
    + cbn [last_segment]. assert (G : forall acc', last_segment s acc' = last_segment s EmptyString).
      { intros acc'. rewrite E, !last_segment_after. reflexivity. }
      split.
      * destruct (Ascii.eqb c "_"%char); [exact N|]. rewrite G. exact N.
      * right. exists (String c pre). cbn [append]. f_equal. rewrite E at 1. rewrite !G. destruct (Ascii.eqb c "_"%char); rewrite ?G; reflexivity.
Qed.

Lemma last_part_exists m : last_part m (last_segment m EmptyString).
Proof.
  destruct (last_segment_cut m EmptyString) as [N [P|(pre & E)]].
  - rewrite (last_segment_plain _ _ P). split; [exact P|now left].
  - split; [exact N|]. right. now exists pre.
Qed.

Lemma not_positive_iff x : not_positive x = true <-> f_nonpos x.
Proof.
  unfold not_positive, f_nonpos. change (f_of_Z 0) with (B754_zero false : f64). destruct (is_finite x) eqn:F.
  - rewrite (Bcompare_correct 53 1024 x (B754_zero false) F eq_refl). cbn [B2R].
    destruct (Rcompare_spec (B2R x) 0%R) as [C|C|C]; split; intros G; try discriminate; try reflexivity;
      try (left; split; [reflexivity|]; Lra.lra).
    destruct G as [[_ G]| ->]; [Lra.lra|discriminate].
  - destruct x as [s|s| |s m e B]; try discriminate; cbn.
    + destruct s; cbn; split; intros G; try reflexivity; try discriminate; auto. destruct G as [[G _]|G]; discriminate.
    + split; [discriminate|]. intros [[G _]|G]; discriminate.
Qed.

Lemma sigma_of_cases py_float m :
  (sigma_of py_float m = Ok None <-> m = "linear"%string) /\
  (forall x, sigma_of py_float m = Ok (Some x) <->
     exists rest seg, m = append "non-linear" rest /\ last_part m seg /\ py_float seg = Ok x /\ ~ f_nonpos x) /\
  (forall e, sigma_of py_float m = Err e <->
     (e = ValueError /\ m <> "linear"%string /\ (forall rest, m <> append "non-linear" rest)) \/
     (exists rest seg, m = append "non-linear" rest /\ last_part m seg /\
        (py_float seg = Err e \/ e = ValueError /\ exists x, py_float seg = Ok x /\ f_nonpos x))).
Proof.
  unfold sigma_of. destruct (String.eqb_spec m "linear"%string) as [->|L].
  - split; [tauto|]. split.
    + intros x. split; [discriminate|]. intros (rest & ? & E & _). discriminate E.
    + intros e. split; [discriminate|]. intros [(_ & G & _)|(rest & ? & E & _)]; [congruence|discriminate E].
  - destruct (String.prefix "non-linear" m) eqn:P.
    + apply prefix_iff in P as (rest & E). pose proof (last_part_exists m) as HP. set (seg := last_segment m EmptyString) in *.
      assert (U : forall s, last_part m s -> s = seg) by (intros s Hs; symmetry; now apply last_segment_part).
      destruct (py_float seg) as [x|ex] eqn:EF; cbn [bind].
      * destruct (not_positive x) eqn:B.
        -- apply not_positive_iff in B. split; [split; [discriminate|congruence]|]. split.
           ++ intros z. split; [discriminate|]. intros (? & s & _ & Hs & Es & N). rewrite (U s Hs), EF in Es. injection Es as <-. contradiction.
           ++ intros e. split.
              ** intros G. injection G as <-. right. exists rest, seg. split; [assumption|]. split; [assumption|]. right. eauto.
              ** intros [(-> & _)|(? & s & _ & Hs & [Es|(-> & _)])]; try reflexivity. rewrite (U s Hs), EF in Es. discriminate.
        -- assert (N : ~ f_nonpos x) by (intros G; apply not_positive_iff in G; congruence).
           split; [split; [discriminate|congruence]|]. split.
           ++ intros z. split.
              ** intros G. injection G as <-. exists rest, seg. auto.
              ** intros (? & s & _ & Hs & Es & _). rewrite (U s Hs), EF in Es. now injection Es as <-.
           ++ intros e. split; [discriminate|].
              intros [(_ & _ & G)|(? & s & _ & Hs & [Es|(_ & z & Es & Nz)])].
              ** now destruct (G rest).
              ** rewrite (U s Hs), EF in Es. discriminate.
              ** rewrite (U s Hs), EF in Es. injection Es as <-. contradiction.
      * split; [split; [discriminate|congruence]|]. split.
        -- intros z. split; [discriminate|]. intros (? & s & _ & Hs & Es & _). rewrite (U s Hs), EF in Es. discriminate.
        -- intros e. split.
           ++ intros G. injection G as <-. right. exists rest, seg. auto.
           ++ intros [(_ & _ & G)|(? & s & _ & Hs & [Es|(_ & z & Es & _)])].
              ** now destruct (G rest).
              ** rewrite (U s Hs), EF in Es. now injection Es as <-.
              ** rewrite (U s Hs), EF in Es. discriminate.
    + assert (N : forall rest, m <> append "non-linear" rest).
      { intros rest E. assert (String.prefix "non-linear" m = true) by (apply prefix_iff; eauto). congruence. }
      split; [split; [discriminate|congruence]|]. split.
      * intros z. split; [discriminate|]. intros (rest & ? & E & _). now destruct (N rest).
      * intros e. split.
        -- intros G. injection G as <-. left. auto.
        -- intros [(-> & _)|(rest & ? & E & _)]; [reflexivity|now destruct (N rest)].
Qed.

(** ** The kernel matrix *)

Lemma kernel_grows exp sigma X a b c : (forall u v, u < v -> exp u < exp v)%Q -> ~ (sigma == 0)%Q ->
  a < length X -> b < length X -> c < length X ->
  (sq_apart (nth a X []) (nth b X []) < sq_apart (nth a X []) (nth c X []))%Q ->
  (nth b (nth a (kernel_matrix exp sigma X) []) 0 < nth c (nth a (kernel_matrix exp sigma X) []) 0)%Q.
Proof.
  intros He Hs La Lb Lc Hd. destruct (kernel_entry exp sigma X a b La Lb) as (u & Eu & ->). destruct (kernel_entry exp sigma X a c La Lc) as (v & Ev & ->).
  apply He. rewrite Eu, Ev. unfold Qdiv. apply Qmult_lt_compat_r; [|exact Hd]. apply Qinv_lt_0_compat.
  assert (P : (0 < sigma * sigma)%Q).
  { destruct (Qlt_le_dec 0 sigma) as [P|P]; [apply Qmult_lt_0_compat; assumption|].
    apply Qle_lteq in P as [P|P]; [|contradiction]. setoid_replace (sigma * sigma)%Q with ((- sigma) * (- sigma))%Q by ring. apply Qmult_lt_0_compat; Lqa.lra. }
  Lqa.lra.
Qed.
