(** Proofs about DE_oversampling and LVQ_SMOTE. *)

From Coq Require Import List ZArith QArith Qpower Bool Arith Lia Lqa Sorting.Sorted Permutation.
From Verif Require Import Np PyVal NpFacts BaseFacts SimplexModel Spec SpecDanger SpecNoise SpecComp SimplexFacts SimplexGeom Float64
  SamplerModel SamplerFacts OversFacts BaseModel KnnFacts DangerModel DangerFacts BorderFacts ClusterModel ClusterOversModel OversGen
  ClusterOversFacts ClusterFacts NoiseModel NoiseFacts NoiseFacts2 CompModel CompFacts CompFacts2 CompFacts3 CompFacts4 EditModel SpecEdit EditFacts EditFacts3 EditFacts4 EditFacts5
  SpecNear NearFacts NearFacts2 LevelModel SpecLevel LevelFacts LevelFacts3 LevelFacts4 SpecGroup GroupFacts GroupFacts2 GroupFacts4 WrapModel SpecWrap WrapFacts WrapFacts2 WrapFacts3 DirModel SpecDir DirFacts.
Import ListNotations.
Import ListNotations.
Open Scope nat_scope.

(** ** Cleansing *)

Lemma mates_where labels l i : In i (where_ (map (Nat.eqb l) labels)) <-> i < length labels /\ nth i labels 0 = l.
Proof.
  rewrite (proj2 (positions_where _) i). split.
  - intros H. assert (L : i < length labels).
    { rewrite <- (map_length (Nat.eqb l) labels). apply nth_error_Some. congruence. }
    split; [assumption|]. rewrite nth_error_map in H. rewrite (nth_error_nth' labels 0 L) in H. cbn in H.
    injection H as H. apply Nat.eqb_eq in H. auto.
  - intros [L <-]. rewrite nth_error_map, (nth_error_nth' labels 0 L). cbn. now rewrite Nat.eqb_refl.
Qed.

Lemma one_label_iff y C : C <> [] ->
  one_label y C = true <-> forall i j, In i C -> In j C -> nth i y 0%Z = nth j y 0%Z.
Proof.
  destruct C as [|a C]; [congruence|]. intros _. unfold one_label. rewrite forallb_forall. split.
  - intros H i j Hi Hj. apply H in Hi, Hj. apply Z.eqb_eq in Hi, Hj. congruence.
  - intros H j Hj. apply Z.eqb_eq. apply H; [assumption|now left].
Qed.

(** The row a cluster is represented by. *)
Definition center_like (norm : row -> Q) (labels : list nat) (centers X : list row) (l c : nat) : Prop :=
  (c < length X /\ nth c labels 0 = l) /\
  forall j, j < length X /\ nth j labels 0 = l ->
    (norm (vsub (nth c X []) (nth l centers [])) <= norm (vsub (nth j X []) (nth l centers [])))%Q /\
    (j < c -> (norm (vsub (nth c X []) (nth l centers [])) < norm (vsub (nth j X []) (nth l centers [])))%Q).

Lemma center_like_unique norm labels centers X l c c' :
  center_like norm labels centers X l c -> center_like norm labels centers X l c' -> c = c'.
Proof.
  intros [M H] [M' H']. destruct (H c' M') as [A B]. destruct (H' c M) as [A' B'].
  destruct (Nat.lt_trichotomy c c') as [L|[E|L]]; [specialize (B' L); Lqa.lra|assumption|specialize (B L); Lqa.lra].
Qed.

Lemma de_cluster_spec norm p labels centers X l : length labels = length X -> l < length centers ->
  where_ (map (Nat.eqb l) labels) <> [] ->
  exists R c, de_cluster norm p X centers l (where_ (map (Nat.eqb l) labels)) = Ok R /\
    center_like norm labels centers X l c /\
    forall i, In i R <-> (i < length X /\ nth i labels 0 = l) /\ i <> c /\
      let denom := (norm (nth i X []) * norm (nth c X []))%Q in
      ((denom == 0)%Q \/ (de_similarity p < dot (nth i X []) (nth c X []) / denom)%Q).
Proof.
  intros LL Hl HC. set (C := where_ _) in *.
  assert (HIn : forall i, In i C <-> i < length X /\ nth i labels 0 = l) by (intros; unfold C; rewrite mates_where, LL; reflexivity).
  assert (HS : StronglySorted lt C) by apply (positions_where (map (Nat.eqb l) labels)).
  unfold de_cluster. rewrite (get_nth [] centers l) by assumption. cbn [bind].
  rewrite (gather_map []) by (apply Forall_forall; intros i Hi; now apply HIn). cbn [bind]. rewrite map_map.
  edestruct (argmin_spec (map (fun i => norm (vsub (nth i X []) (nth l centers []))) C)) as (r & Er & Lr & M1 & M2).
  { destruct C; [congruence|discriminate]. }
  rewrite Er. cbn [bind]. rewrite map_length in *. rewrite (get_nth 0 C r) by assumption. cbn [bind].
  set (c := nth r C 0). assert (Hc : In c C) by now apply nth_In. pose proof (proj1 (HIn c) Hc) as [Lc Ec].
  rewrite (get_nth [] X c) by assumption. cbn [bind].
  rewrite (WrapFacts2.mapM_map _ (fun i => negb (i =? c) &&
     (Qeq_bool (norm (nth i X []) * norm (nth c X [])) 0 || Qlt_b (de_similarity p) (dot (nth i X []) (nth c X []) / (norm (nth i X []) * norm (nth c X [])))))).
  2: { intros i Hi. apply HIn in Hi as [Li _]. rewrite (get_nth [] X i) by assumption. reflexivity. }
  cbn [bind]. rewrite select_map_filter. eexists. exists c. split; [reflexivity|]. split.
  - split; [auto|]. intros j Hj. apply HIn in Hj. apply (In_nth _ _ 0) in Hj as (a & La & <-).
    split.
    + specialize (M1 a La). rewrite !(nth_map' _ 0) in M1 by assumption. exact M1.
    + intros Lt. destruct (le_lt_dec r a) as [G|G].
      * exfalso. destruct (Nat.eq_dec r a) as [->|N]; [unfold c in Lt; lia|].
        pose proof (sorted_nth_lt C r a HS ltac:(lia) La). unfold c in Lt. lia.
      * specialize (M2 a G). rewrite !(nth_map' _ 0) in M2 by assumption. exact M2.
  - intros i. rewrite filter_In, HIn, andb_true_iff, negb_true_iff, orb_true_iff, Nat.eqb_neq.
    cbv zeta. rewrite Qeq_bool_iff, Qlt_b_spec. tauto.
Qed.

Lemma de_cleansing_spec norm kmeans dim p X y : kmeans_ok dim kmeans -> length X = length y -> 0 < length X -> 1 <= de_n_clusters p ->
  let km := kmeans X (Nat.min (length X) (de_n_clusters p)) in
  exists R, de_cleansing norm kmeans p X y = Ok R /\
    forall i, i < length X -> (In i R <-> de_redundant norm p (fst km) (snd km) X y i).
Proof.
  intros Hkm Hl HX Hp km. set (K := Nat.min (length X) (de_n_clusters p)) in *.
  destruct (Hkm X K) as (L1 & L2 & L3 & L4); [unfold K; lia|]. fold km in L1, L2, L3, L4.
  unfold de_cleansing. cbv zeta. fold K. fold km. set (cluster := fun l => where_ (map (Nat.eqb l) (fst km))).
  set (one := filter (fun label => one_label y (cluster label)) (seq 0 (length (snd km)))).
  change (exists R, bind (mapM (fun l => de_cluster norm p X (snd km) l (cluster l)) one) (fun rem => Ok (concat rem)) = Ok R /\ forall i, i < length X -> (In i R <-> de_redundant norm p (fst km) (snd km) X y i)).
  assert (HC : forall l, cluster l <> [] -> exists i, In i (cluster l)).
  { intros l. destruct (cluster l) as [|i t]; [congruence|]. intros _. exists i. now left. }
  assert (HO : forall l, In l one -> l < length (snd km) /\ cluster l <> [] /\ one_label y (cluster l) = true).
  { intros l H. apply filter_In in H as [H1 H2]. apply in_seq in H1. split; [lia|]. split; [|assumption].
    intros E. change (where_ (map (Nat.eqb l) (fst km))) with (cluster l) in H2. rewrite E in H2. discriminate. }
  destruct (mapM_total (fun l => de_cluster norm p X (snd km) l (cluster l)) one) as [RR ER].
  { apply Forall_forall. intros l H. destruct (HO l H) as (B1 & B2 & _).
    destruct (de_cluster_spec norm p (fst km) (snd km) X l L3 B1 B2) as (R & c & E & _). exists R. exact E. }
  rewrite ER. cbn [bind]. exists (concat RR). split; [reflexivity|]. intros i Hi.
  apply mapM_ok_iff in ER. rewrite in_concat. split.
  - intros (R & HR & HiR). destruct (In_nth _ _ [] HR) as (a & La & Ea).
    pose proof (Forall2_length _ _ _ ER) as LR.
    pose proof (Forall2_nth' _ _ _ 0 [] a ER ltac:(lia)) as G. rewrite Ea in G. cbn beta in G. set (l := nth a one 0) in *.
    assert (Hlo : In l one) by (apply nth_In; lia). destruct (HO l Hlo) as (B1 & B2 & B3).
    destruct (de_cluster_spec norm p (fst km) (snd km) X l L3 B1 B2) as (R' & c & E & HCl & HI).
    unfold cluster in G. rewrite E in G. injection G as G. rewrite <- G in HiR. destruct (proj1 (HI i) HiR) as ([_ Eil] & Nc & HD).
    split; [assumption|]. rewrite Eil. cbv zeta. split.
    + pose proof (proj1 (one_label_iff y (cluster l) B2) B3) as B4.
      intros j [Lj Ej]. apply B4; unfold cluster; rewrite mates_where; split; auto; lia.
    + exists c. destruct HCl as [M H]. split; [assumption|]. split; [assumption|]. split; [exact H|]. exact HD.
  - intros (_ & Hpure & c & Mc & Nc & Hcl & HD). set (l := nth i (fst km) 0) in *. cbv zeta in *.
    assert (Bl : l < length (snd km)).
    { rewrite L1. rewrite Forall_forall in L4. apply L4. apply nth_In. lia. }
    assert (Hne : cluster l <> []).
    { intros E. assert (In i (cluster l)) by (unfold cluster; rewrite mates_where; split; [lia|reflexivity]). rewrite E in H. destruct H. }
    assert (Hlo : In l one).
    { apply filter_In. split; [apply in_seq; lia|]. fold (cluster l). apply (one_label_iff y (cluster l) Hne).
      intros a b Ha Hb. unfold cluster in Ha, Hb. rewrite mates_where in Ha, Hb. destruct Ha, Hb.
      rewrite (Hpure a), (Hpure b); auto; split; auto; lia. }
    destruct (In_nth _ _ 0 Hlo) as (a & La & Ea). pose proof (Forall2_length _ _ _ ER) as LR.
    pose proof (Forall2_nth' _ _ _ 0 [] a ER La) as G. rewrite Ea in G. cbn beta in G.
    destruct (de_cluster_spec norm p (fst km) (snd km) X l L3 Bl Hne) as (R' & c' & E & HCl & HI).
    unfold cluster in G. rewrite E in G. injection G as G.
    exists (nth a RR []). split; [apply nth_In; lia|]. rewrite <- G. apply HI.
    assert (c = c') by (eapply center_like_unique; [split; [exact Mc|exact Hcl]|exact HCl]). subst c'.
    split; [split; [assumption|reflexivity]|]. split; assumption.
Qed.

(** Every label survives the cleansing. *)
Lemma de_labels_survive norm kmeans dim p X y X' y' : kmeans_ok dim kmeans -> length X = length y -> 0 < length X -> 1 <= de_n_clusters p ->
  let km := kmeans X (Nat.min (length X) (de_n_clusters p)) in
  drops_exactly X y (de_redundant norm p (fst km) (snd km) X y) X' y' ->
  forall i, i < length X -> exists j, j < length X /\ nth j (fst km) 0 = nth i (fst km) 0 /\
    ~ de_redundant norm p (fst km) (snd km) X y j /\ (de_redundant norm p (fst km) (snd km) X y i -> nth j y 0%Z = nth i y 0%Z).
Proof.
  intros Hkm Hl HX Hp km _ i Hi. set (K := Nat.min (length X) (de_n_clusters p)) in *.
  destruct (Hkm X K) as (L1 & L2 & L3 & L4); [unfold K; lia|]. fold km in L1, L2, L3, L4. set (l := nth i (fst km) 0).
  assert (Bl : l < length (snd km)).
  { rewrite L1. rewrite Forall_forall in L4. apply L4. apply nth_In. lia. }
  assert (Hne : where_ (map (Nat.eqb l) (fst km)) <> []).
  { intros E. assert (H : In i (where_ (map (Nat.eqb l) (fst km)))) by (rewrite mates_where; split; [lia|reflexivity]). rewrite E in H. destruct H. }
  destruct (de_cluster_spec norm p (fst km) (snd km) X l L3 Bl Hne) as (R & c & _ & HC & _).
  exists c. destruct HC as [[Lc Ec] HC]. split; [assumption|]. split; [assumption|]. split.
  - intros (_ & _ & c' & Mc' & Nc & HC' & _). rewrite Ec in *. apply Nc.
    apply (center_like_unique norm (fst km) (snd km) X l); split; auto.
  - intros (_ & Hpure & _). apply Hpure. split; assumption.
Qed.

Definition de_outcome (dist : row -> row -> Q) (norm : row -> Q) (kmeans : list row -> nat -> list nat * list row) (p : de_params)
    (D : dataset) (mn n : Z) (r : res (list row * list Z)) : Prop :=
  exists S X' y', de_spec dist p D mn n S /\ r = Ok (X', y') /\
    let X1 := d_X D ++ S in let y1 := d_y D ++ repeat mn (length S) in
    let km := kmeans X1 (Nat.min (length X1) (de_n_clusters p)) in
    drops_exactly X1 y1 (de_redundant norm p (fst km) (snd km) X1 y1) X' y' /\
    (forall z, In z y1 -> In z y').

Lemma de_runs dist nn norm kmeans p d D mn mj n :
  knn_ok dist nn -> draws_ok d -> kmeans_ok (d_dim D) kmeans -> wf_data (d_X D) (d_dim D) (d_y D) -> is_minority (d_y D) mn mj ->
  asked (de_proportion p) (d_y D) mn mj = Ok n -> 2 <= de_n_neighbors p -> 1 <= de_n_clusters p -> 1 <= d_dim D ->
  (count_label (d_y D) mn <= 2 \/ n = 0%Z -> unchanged D (de_sample nn norm kmeans p d D)) /\
  (2 < count_label (d_y D) mn -> (0 < n)%Z -> de_outcome dist norm kmeans p D mn n (de_sample nn norm kmeans p d D)).
Proof.
  intros Hnn Hd Hkm [Hr Hl] Hmin Ha Hk Hc Hdim.
  destruct (sample_shape (fun n st D =>
    let X_min := rows_with (min_label st) (d_X D) (d_y D) in
    do ind <- nn X_min X_min (Nat.min (length X_min) (de_n_neighbors p + 1));
    do samples <- mapM (de_row p d (d_dim D) X_min ind) (seq 0 n);
    let '(X, y) := extended D st samples in
    do to_remove <- de_cleansing norm kmeans p X y;
    Ok (delete_idx X to_remove, delete_idx y to_remove)) (de_proportion p) D mn mj n Hmin Ha) as (st & (E1 & _) & E).
  match type of E with _ = ?R => assert (E' : de_sample nn norm kmeans p d D = R) by exact E end. rewrite E'. clear E E'. split.
  - intros G. unfold unchanged. destruct (Nat.leb_spec (count_label (d_y D) mn) 2); [reflexivity|].
    destruct G as [G| ->]; [lia|reflexivity].
  - intros H2 Hn. destruct (Nat.leb_spec (count_label (d_y D) mn) 2); [lia|].
    destruct (Z.eqb_spec n 0); [lia|]. cbn [orb]. rewrite E1.
    set (X_min := rows_with mn (d_X D) (d_y D)).
    assert (HL : length X_min = count_label (d_y D) mn) by now apply rows_with_length.
    assert (HR : rect (d_dim D) X_min) by now apply rows_with_rect. cbv zeta.
    destruct (Hnn X_min X_min (Nat.min (length X_min) (de_n_neighbors p + 1))) as (T & ET & HT); [lia|]. rewrite ET. cbn [bind].
    destruct (de_rows dist p d (d_dim D) X_min T (Z.to_nat n) Hd HR Hdim ltac:(lia) HT ltac:(lia)) as (S & ES & LS & FS).
    rewrite ES. cbn [bind]. unfold extended. rewrite E1.
    set (X1 := d_X D ++ S). set (y1 := d_y D ++ repeat mn (length S)).
    assert (L1 : length X1 = length y1) by (unfold X1, y1; rewrite !app_length, repeat_length; lia).
    assert (P1 : 0 < length X1) by (unfold X1; rewrite app_length; lia).
    destruct (de_cleansing_spec norm kmeans (d_dim D) p X1 y1 Hkm L1 P1 Hc) as (R & ER & HI).
    rewrite ER. cbn [bind]. exists S, (delete_idx X1 R), (delete_idx y1 R).
    assert (HD : drops_exactly X1 y1 (de_redundant norm p (fst (kmeans X1 (Nat.min (length X1) (de_n_clusters p))))
        (snd (kmeans X1 (Nat.min (length X1) (de_n_clusters p)))) X1 y1) (delete_idx X1 R) (delete_idx y1 R)).
    { apply delete_both; assumption. }
    split; [split; [assumption|]; exists T; split; assumption|]. split; [reflexivity|]. cbv zeta. fold X1. fold y1.
    split; [exact HD|].
    intros z Hz. destruct (In_nth _ _ 0%Z Hz) as (i & Li & Ez). rewrite <- L1 in Li.
    destruct (de_labels_survive norm kmeans (d_dim D) p X1 y1 _ _ Hkm L1 P1 Hc HD i Li) as (j & Lj & Ej & Nj & Hj).
    destruct HD as (keep & KS & KI & KX & KY). rewrite KY. apply in_map_iff.
    destruct (in_dec Nat.eq_dec i keep) as [Hik|Hik]; [exists i; auto|].
    exists j. split; [|apply KI; auto]. rewrite <- Ez. apply Hj. apply HI; [assumption|].
    destruct (in_dec Nat.eq_dec i R) as [G|G]; [assumption|]. exfalso. apply Hik, KI. split; [assumption|]. intros G'. apply G, HI; assumption.
Qed.

(** ** LVQ_SMOTE *)

Lemma lvq_pairs_in m i j : In (i, j) (lvq_pairs m) <-> i < m /\ j < m.
Proof.
  unfold lvq_pairs. rewrite in_flat_map. split.
  - intros (a & Ha & H). apply in_map_iff in H as (b & E & Hb). injection E as <- <-. apply in_seq in Ha, Hb. lia.
  - intros [Hi Hj]. exists i. split; [apply in_seq; lia|]. apply in_map. apply in_seq. lia.
Qed.

Definition other (c0 c1 : nat) (ij : nat * nat) : Prop := fst ij <> c0 /\ fst ij <> c1 /\ snd ij <> c0 /\ snd ij <> c1.

Lemma lvq_fold norm d t codebook c0 c1 diff l :
  let dd := fun ij : nat * nat => norm (vsub diff (vsub (nth (fst ij) codebook []) (nth (snd ij) codebook []))) in
  match fold_left (lvq_step norm d t codebook c0 c1 diff) l None with
  | None => forall ij, In ij l -> ~ other c0 c1 ij
  | Some (best, o) => exists ij, In ij l /\ other c0 c1 ij /\ best = dd ij /\ (o = fst ij \/ o = snd ij) /\
      forall ij', In ij' l -> other c0 c1 ij' -> (best <= dd ij')%Q
  end.
Proof.
  intros dd. induction l as [|ij l IH] using rev_ind; [cbn; tauto|].
  rewrite fold_left_app. cbn [fold_left]. set (opt := fold_left _ l None) in *. destruct ij as [i j]. unfold lvq_step.
  destruct ((i =? c0) || (j =? c0) || (i =? c1) || (j =? c1)) eqn:E.
  - assert (NO : ~ other c0 c1 (i, j)).
    { intros (A & B & C & F). cbn in *. rewrite !orb_true_iff, !Nat.eqb_eq in E. tauto. }
    destruct opt as [[best o]|].
    + destruct IH as (ij & I1 & I2 & I3 & I4 & I5). exists ij. split; [apply in_or_app; now left|]. split; [assumption|]. split; [assumption|].
      split; [assumption|]. intros ij' H H'. apply in_app_or in H as [H|[<-|[]]]; [auto|contradiction].
    + intros ij H. apply in_app_or in H as [H|[<-|[]]]; [auto|assumption].
  - assert (YO : other c0 c1 (i, j)).
    { rewrite !orb_false_iff, !Nat.eqb_neq in E. unfold other; cbn; tauto. }
    set (pick := if _ =? 0 then i else j). assert (HP : pick = i \/ pick = j) by (unfold pick; destruct (_ =? 0); auto).
    change (norm (vsub diff (vsub (nth i codebook []) (nth j codebook [])))) with (dd (i, j)).
    destruct opt as [[best o]|].
    + destruct IH as (ij & I1 & I2 & I3 & I4 & I5). destruct (Qlt_b (dd (i, j)) best) eqn:L.
      * apply Qlt_b_spec in L. exists (i, j). split; [apply in_or_app; right; now left|]. split; [assumption|]. split; [reflexivity|].
        split; [assumption|]. intros ij' H H'. apply in_app_or in H as [H|[<-|[]]]; [|apply Qle_refl].
        specialize (I5 _ H H'). Lqa.lra.
      * assert (L' : (best <= dd (i, j))%Q) by (apply Qnot_lt_le; intro G; apply Qlt_b_spec in G; congruence).
        exists ij. split; [apply in_or_app; now left|]. split; [assumption|]. split; [assumption|].
        split; [assumption|]. intros ij' H H'. apply in_app_or in H as [H|[<-|[]]]; auto.
    + exists (i, j). split; [apply in_or_app; right; now left|]. split; [assumption|]. split; [reflexivity|].
      split; [assumption|]. intros ij' H H'. apply in_app_or in H as [H|[<-|[]]]; [|apply Qle_refl]. exfalso. eapply IH; eauto.
Qed.

Lemma a_third m c0 c1 : 3 <= m -> exists k, k < m /\ k <> c0 /\ k <> c1.
Proof.
  intros H. destruct (Nat.eq_dec 0 c0), (Nat.eq_dec 0 c1), (Nat.eq_dec 1 c0), (Nat.eq_dec 1 c1);
    try (exists 0; lia); try (exists 1; lia); exists 2; lia.
Qed.

Lemma lvq_runs dist nn norm kmeans p d D mn mj n :
  knn_ok dist nn -> draws_ok d -> kmeans_ok (d_dim D) kmeans -> wf_data (d_X D) (d_dim D) (d_y D) -> is_minority (d_y D) mn mj ->
  asked (lvq_proportion p) (d_y D) mn mj = Ok n -> 1 <= lvq_n_neighbors p -> 3 <= lvq_n_clusters p ->
  let X_min := rows_with mn (d_X D) (d_y D) in
  let codebook := snd (kmeans X_min (Nat.min (length X_min) (lvq_n_clusters p))) in
  runs D mn n (lvq_spec dist norm codebook p D mn n) (lvq_sample nn norm kmeans p d D).
Proof.
  intros Hnn Hd Hkm [Hr Hl] Hmin Ha Hk Hc X_min codebook. unfold lvq_sample, lvq_algorithm.
  apply (runs_intro _ _ _ _ _ _ _ Hmin Ha). intros st (E1 & E2 & _) H2 Hn. rewrite E1. fold X_min. fold codebook. cbv zeta.
  assert (HL : length X_min = count_label (d_y D) mn) by now apply rows_with_length.
  assert (HR : rect (d_dim D) X_min) by now apply rows_with_rect.
  destruct (Hkm X_min (Nat.min (length X_min) (lvq_n_clusters p))) as (K1 & K2 & _); [lia|]. fold codebook in K1, K2.
  set (k := Nat.min (length X_min) (lvq_n_neighbors p)).
  destruct (Hnn X_min codebook k) as (T & ET & HT); [unfold k; lia|]. rewrite ET. cbn [bind].
  destruct (nearest_table_shape _ _ _ _ _ HT) as (LT & _ & _).
  set (w := fun i => nth i codebook []).
  edestruct (mapM_draws (lvq_row norm d codebook X_min T) (seq 0 (Z.to_nat n)) (Z.to_nat n)
    (fun x => exists c0 c1 i j o s,
      c0 < length codebook /\ c1 < length codebook /\ c0 <> c1 /\
      let other := fun a => a < length codebook /\ a <> c0 /\ a <> c1 in
      other i /\ other j /\ (o = i \/ o = j) /\
      (forall i' j', other i' -> other j' ->
        (norm (vsub (vsub (w c0) (w c1)) (vsub (w i) (w j))) <= norm (vsub (vsub (w c0) (w c1)) (vsub (w i') (w j'))))%Q) /\
      In s (nth o T []) /\ length x = d_dim D /\
      forall k, k < d_dim D -> (nth k x 0 == nth k (w c0) 0 + (nth k (nth s X_min []) 0 - nth k (w o) 0))%Q)) as (S & ES & LS & FS).
  { apply seq_length. }
  { intros t _. unfold lvq_row.
    destruct (choice_two_ok d t (length codebook) Hd) as (c0 & c1 & -> & A1 & A2 & A3); [lia|]. cbn [bind fst snd].
    rewrite (get_nth [] codebook c0), (get_nth [] codebook c1) by assumption. cbn [bind].
    pose proof (lvq_fold norm d t codebook c0 c1 (vsub (nth c0 codebook []) (nth c1 codebook [])) (lvq_pairs (length codebook))) as HF.
    cbv zeta in HF. destruct (fold_left _ _ _) as [[best o]|].
    2: { exfalso. destruct (a_third (length codebook) c0 c1) as (z & Z1 & Z2 & Z3); [lia|].
         apply (HF (z, z)); [apply lvq_pairs_in; auto|unfold other; cbn; auto]. }
    destruct HF as ([i j] & I1 & (O1 & O2 & O3 & O4) & -> & Io & Imin). cbn [fst snd] in *. apply lvq_pairs_in in I1 as [Li Lj].
    assert (Lo : o < length codebook) by (destruct Io; lia).
    destruct (NearFacts.table_row _ _ _ _ _ o HT Lo) as [R1 R2].
    rewrite (get_nth [] T o) by lia. cbn [bind]. rewrite R1.
    destruct (randint_ok d t 0 k Hd) as (q & -> & Hq); [unfold k; lia|]. cbn [bind].
    rewrite (get_nth 0 _ q) by lia. cbn [bind]. set (s := nth q (nth o T []) 0).
    assert (Is : In s (nth o T [])) by (apply nth_In; lia).
    assert (Ls : s < length X_min) by (rewrite Forall_forall in R2; auto).
    rewrite (get_nth [] X_min s) by assumption. cbn [bind]. rewrite (get_nth [] codebook o) by assumption. cbn [bind].
    eexists. split; [reflexivity|]. exists c0, c1, i, j, o, s. cbv zeta.
    split; [assumption|]. split; [assumption|]. split; [assumption|]. split; [auto|]. split; [auto|]. split; [assumption|].
    split. { intros i' j' (B1 & B2 & B3) (B4 & B5 & B6). apply (Imin (i', j')); [apply lvq_pairs_in; auto|unfold other; cbn; auto]. }
    split; [assumption|].
    assert (Lw : forall a, a < length codebook -> length (nth a codebook []) = d_dim D) by (intros; now apply rect_nth).
    assert (Lx : length (nth s X_min []) = d_dim D) by now apply rect_nth.
    pose proof (Lw c0 A1). pose proof (Lw o Lo).
    split; [rewrite vadd_length, vsub_length; lia|].
    intros a Ha'. rewrite vadd_nth by (rewrite ?vsub_length; lia). rewrite vsub_nth by lia. reflexivity. }
  rewrite ES. cbn [bind]. exists S. split; [reflexivity|]. split; [assumption|]. exists T. split; assumption.
Qed.
