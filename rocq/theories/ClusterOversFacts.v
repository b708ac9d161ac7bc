(** Proofs about CBSO, CURE_SMOTE, Assembled_SMOTE and A_SUWO. *)

From Coq Require Import List ZArith QArith Bool Arith Lia Lqa Sorting.Sorted Permutation.
From Verif Require Import Np NpFacts PyVal SimplexModel Spec SpecDanger SimplexFacts SimplexGeom Float64
  SamplerModel SamplerFacts OversFacts BaseModel BaseFacts DangerModel DangerFacts BorderFacts
  NoiseModel NoiseFacts KnnFacts ClusterModel ClusterFacts ClusterOversModel OversGen.
Import ListNotations.
Open Scope nat_scope.

(** * Small facts *)

Lemma qsum_pos_ex l : Forall (Qle 0) l -> (0 < qsum l)%Q -> exists i, i < length l /\ (0 < nth i l 0)%Q.
Proof.
  induction l as [|x l IH]; intros H Hs; cbn in Hs; [Lqa.lra|]. inversion H; subst.
  destruct (Qlt_le_dec 0 x) as [Hx|Hx]; [exists 0; cbn; split; [lia|assumption]|].
  destruct IH as (i & Hi & Hp); [assumption|Lqa.lra|]. exists (S i). cbn. split; [lia|assumption].
Qed.

Lemma normalize_props u p : Forall (Qle 0) u -> normalize u = Ok p ->
  Forall (Qle 0) p /\ (qsum p == 1)%Q /\ length p = length u /\
  forall i, (0 < nth i p 0)%Q -> (0 < nth i u 0)%Q.
Proof.
  intros Hu H. unfold normalize in H. destruct (Qeq_bool (qsum u) 0) eqn:E; [discriminate|]. injection H as <-.
  assert (Hne : ~ (qsum u == 0)%Q) by (intros E'; apply Qeq_bool_iff in E'; congruence).
  assert (Hpos : (0 < qsum u)%Q) by (pose proof (qsum_nonneg u Hu); destruct (Qle_lt_or_eq _ _ H) as [G|G]; [assumption|]; symmetry in G; contradiction).
  split; [|split; [|split]].
  - rewrite Forall_map. eapply Forall_impl; [|exact Hu]. intros x Hx. now apply Qdiv_nonneg.
  - rewrite qsum_div by assumption. field. assumption.
  - apply map_length.
  - intros i Hi. destruct (Nat.lt_ge_cases i (length u)) as [Hl|Hl].
    + rewrite (nth_indep _ _ (0 / qsum u)%Q) in Hi by now rewrite map_length.
      rewrite (map_nth (fun x => x / qsum u)%Q) in Hi. apply Qdiv_pos_iff in Hi; assumption.
    + rewrite nth_overflow in Hi by (rewrite map_length; lia). exfalso. revert Hi. apply Qlt_irrefl.
Qed.

Lemma circulant_length n : length (circulant n) = n.
Proof. unfold circulant. now rewrite map_length, seq_length. Qed.
Lemma circulant_rect n : rect n (circulant n).
Proof. unfold rect, circulant. rewrite Forall_map, Forall_forall. intros i _. now rewrite map_length, seq_length. Qed.
Lemma circulant_range n : 1 <= n -> Forall (Forall (fun v => v < n)) (circulant n).
Proof.
  intros Hn. unfold circulant. rewrite Forall_map, Forall_forall. intros i _. rewrite Forall_map, Forall_forall.
  intros j _. apply Nat.mod_upper_bound. lia.
Qed.

(** Row [i] of the circulant lists every position once, beginning with [i]. *)
Lemma circulant_row n i : i < n -> nth i (circulant n) [] = map (fun j => (i + n - j) mod n) (seq 0 n).
Proof.
  intros H. unfold circulant.
  rewrite (nth_indep _ [] (map (fun j => (0 + n - j) mod n) (seq 0 n))) by now rewrite map_length, seq_length.
  rewrite (map_nth (fun i => map (fun j => (i + n - j) mod n) (seq 0 n))). now rewrite seq_nth.
Qed.

Lemma finite_at dist A B i j : i < length A -> j < length B ->
  at_ (finite (dist_matrix dist A B)) i j = Some (dist (nth i A []) (nth j B [])).
Proof.
  intros Hi Hj. unfold at_, finite, dist_matrix. rewrite map_map.
  rewrite (nth_indep _ [] (map Some (map (dist []) B))) by now rewrite map_length.
  rewrite (map_nth (fun a => map Some (map (dist a) B))). rewrite map_map.
  rewrite (nth_indep _ None (Some (dist (nth i A []) []))) by now rewrite map_length.
  now rewrite (map_nth (fun b => Some (dist (nth i A []) b))).
Qed.

Lemma finite_square dist A : square (length A) (finite (dist_matrix dist A A)).
Proof.
  split.
  - unfold finite, dist_matrix. now rewrite !map_length.
  - unfold finite, dist_matrix. rewrite map_map, Forall_map, Forall_forall. intros x _. now rewrite !map_length.
Qed.

Definition members (X : list row) (c : list nat) : list row := map (fun i => nth i X []) c.

Lemma gather_members X c : (forall i, In i c -> i < length X) -> gather X c = Ok (members X c).
Proof. intros H. apply gather_map. rewrite Forall_forall. exact H. Qed.

Lemma members_rect d X c : rect d X -> (forall i, In i c -> i < length X) -> rect d (members X c).
Proof.
  intros H Hc. unfold rect, members in *. rewrite Forall_map, Forall_forall. intros i Hi.
  rewrite Forall_forall in H. apply H, nth_In. auto.
Qed.

Lemma in_cluster n cl c i : (forall i, In i (concat cl) -> i < n) -> In c cl -> In i c -> i < n.
Proof. intros H Hc Hi. apply H, in_concat. eauto. Qed.

Definition rngs_ok (rs : nat -> rng) : Prop := forall i, rng_ok (rs i).
Definition rngs_pos (rs : nat -> rng) : Prop := forall i, unif_pos (rs i).

(** * CBSO *)

Definition cbso_spec (dist : row -> row -> Q) (p : cbso_params) (D : dataset) (mn mj : Z)
    (X' : list row) (y' : list Z) : Prop :=
  let X_min := rows_with mn (d_X D) (d_y D) in
  let N := length X_min in
  (X' = d_X D /\ y' = d_y D /\
    (count_label (d_y D) mn <= 2 \/ asked (cb_proportion p) (d_y D) mn mj = Ok 0%Z)) \/
  exists n S T T2 th cl,
    asked (cb_proportion p) (d_y D) mn mj = Ok (Z.of_nat n) /\ 0 < n /\ length S = n /\
    X' = d_X D ++ S /\ y' = d_y D ++ repeat mn n /\
    nearest_table dist (d_X D) X_min (cb_n_neighbors p + 1) T /\
    nearest_table dist X_min X_min 2 T2 /\
    (th == cb_C_p p * qsum (map2 (fun x t => dist x (nth (nth 1 t 0%nat) X_min [])) X_min T2)
             / inject_Z (Z.of_nat N))%Q /\
    partition_of N cl /\
    (forall i j, i < N -> j < N ->
       (together cl i j <-> chained (fun i j => dist (nth i X_min []) (nth j X_min [])) th N i j)) /\
    (ss_gauss (cb_ss p) = GNone -> forall x, In x S ->
      exists c b V, In c cl /\ In b c /\ incl V (members X_min c) /\
        convex_comb (d_dim D) (nth b X_min [] :: V) x /\
        (0 < neighbours_of (d_y D) mj (nth b T []) \/
         forall t, In t T -> neighbours_of (d_y D) mj t = 0)).

(** The number of majority neighbours, as model and as specification. *)
Lemma counts_ok dist X y X_min k T lab : length X = length y -> nearest_table dist X X_min k T ->
  mapM (count_neighbours y lab) T = Ok (map (neighbours_of y lab) T).
Proof.
  intros Hl H. destruct (nearest_table_shape _ _ _ _ _ H) as (M1 & M2 & M3).
  rewrite <- (mapM_pure (neighbours_of y lab)). apply mapM_ext_in. intros t Ht. apply count_neighbours_ok.
  rewrite Forall_forall in M3. specialize (M3 t Ht). rewrite Hl in M3. exact M3.
Qed.

Lemma fix_counts (cs : list nat) : let w := fix_density (map (fun c => Fin (inject_Z (Z.of_nat c))) cs) in
  length w = length cs /\ Forall (Qle 0) w /\ (cs <> [] -> qsum w == 1)%Q /\
  forall i, i < length cs -> (0 < nth i w 0)%Q -> 0 < nth i cs 0 \/ forall c, In c cs -> c = 0.
Proof.
  intros w. unfold w.
  assert (Hnn : Forall (fun x => 0 <= nan_to_num x)%Q (map (fun c => Fin (inject_Z (Z.of_nat c))) cs)).
  { rewrite Forall_map, Forall_forall. intros c _. cbn. change 0%Q with (inject_Z 0). rewrite <- Zle_Qle. lia. }
  split; [rewrite fix_density_length; apply map_length|].
  split; [now apply fix_density_nonneg|]. split.
  { intros Hne. apply fix_density_sum. destruct cs; [congruence|discriminate]. }
  intros i Hi Hp. set (l := map (fun c => Fin (inject_Z (Z.of_nat c))) cs) in *.
  assert (El : map nan_to_num l = map (fun c => inject_Z (Z.of_nat c)) cs) by (unfold l; now rewrite map_map).
  destruct (Qeq_dec (qsum (map nan_to_num l)) 0) as [E0|E0].
  - right. intros c Hc. rewrite El in E0.
    assert (G : Forall (Qle 0) (map (fun c => inject_Z (Z.of_nat c)) cs)).
    { rewrite <- El, Forall_map. exact Hnn. }
    pose proof (qsum_zero_all _ G E0) as Z0. rewrite Forall_map, Forall_forall in Z0.
    specialize (Z0 c Hc). cbn in Z0. unfold Qeq in Z0. cbn in Z0. lia.
  - left. rewrite fix_density_nonzero in Hp by assumption. rewrite El in Hp, E0.
    rewrite map_map in Hp. set (s := qsum _) in *.
    rewrite (nth_indep _ _ (inject_Z (Z.of_nat 0) / s)%Q) in Hp by now rewrite map_length.
    rewrite (map_nth (fun c => inject_Z (Z.of_nat c) / s)%Q) in Hp.
    destruct (Nat.eq_dec (nth i cs 0) 0) as [Ez|]; [|lia]. rewrite Ez in Hp. exfalso. revert Hp.
    unfold Qdiv. rewrite Qmult_0_l. apply Qlt_irrefl.
Qed.

Section Cbso.
Variable dist : row -> row -> Q.
Variable vol : list row -> Q.
Variable nn : list row -> list row -> nat -> res (list (list nat)).
Hypothesis Hnn : knn_ok dist nn.
Hypothesis Hsym : forall a b, (dist a b == dist b a)%Q.

Lemma cbso_threshold_ok p X_min : 2 <= length X_min ->
  exists T2 th, cbso_threshold dist nn p X_min = Ok th /\ nearest_table dist X_min X_min 2 T2 /\
    (th == cb_C_p p * qsum (map2 (fun x t => dist x (nth (nth 1 t 0%nat) X_min [])) X_min T2)
             / inject_Z (Z.of_nat (length X_min)))%Q.
Proof.
  intros Hl. unfold cbso_threshold. destruct (Hnn X_min X_min 2 Hl) as (T2 & -> & HT). cbn [bind].
  destruct (nearest_table_shape _ _ _ _ _ HT) as (M1 & M2 & M3).
  assert (E : mapM (fun xt : row * list nat => do i <- get (snd xt) 1; do z <- get X_min i; Ok (dist (fst xt) z)) (combine X_min T2)
     = Ok (map2 (fun x t => dist x (nth (nth 1 t 0) X_min [])) X_min T2)).
  { rewrite map2_combine. rewrite <- (mapM_pure (fun p => dist (fst p) (nth (nth 1 (snd p) 0) X_min []))).
    apply mapM_ext_in. intros [x t] Hxt. apply in_combine_r in Hxt. cbn [fst snd].
    unfold rect in M2. rewrite Forall_forall in M2, M3. specialize (M2 t Hxt). specialize (M3 t Hxt).
    rewrite (get_nth 0) by lia. cbn [bind]. rewrite (get_nth []); [reflexivity|].
    rewrite Forall_forall in M3. apply M3, nth_In. lia. }
  rewrite E. cbn [bind]. clear E.
  set (ds := map2 (fun x t => dist x (nth (nth 1 t 0) X_min [])) X_min T2) in *.
  assert (Ld : length ds = length X_min) by (unfold ds; rewrite map2_length; lia).
  assert (Em : qmean ds = Ok (qsum ds / inject_Z (Z.of_nat (length ds)))%Q) by (destruct ds; [cbn in Ld; lia|reflexivity]).
  rewrite Em. cbn [bind]. exists T2. eexists. split; [reflexivity|]. split; [assumption|]. fold ds. rewrite Ld.
  unfold Qdiv. ring.
Qed.

Lemma cbso_call_args X_min d c w : rect d X_min -> c <> [] -> (forall i, In i c -> i < length X_min) ->
  length w = length c -> Forall (Qle 0) w ->
  args_ok (mk_args (members X_min c) d (circulant (length (members X_min c))) (length (members X_min c))
             (Some (fix_density (map Fin w))) None None false None).
Proof.
  intros Hr Hne Hc Hw Hp. assert (L : length (members X_min c) = length c) by apply map_length.
  assert (1 <= length c) by (destruct c; [congruence|cbn; lia]).
  constructor; cbn; auto; try discriminate.
  - now apply members_rect.
  - now apply members_rect.
  - apply circulant_rect.
  - rewrite circulant_length. lia.
  - apply circulant_range. lia.
  - rewrite circulant_length, fix_density_length, map_length. split; [lia|].
    apply fix_density_nonneg. rewrite Forall_map. exact Hp.
Qed.

Lemma cbso_cases p rs D mn mj X' y' :
  rngs_ok rs -> wf_data (d_X D) (d_dim D) (d_y D) -> is_minority (d_y D) mn mj ->
  cb_n_neighbors p + 1 <= length (d_X D) ->
  cbso_sample vol dist nn p rs D = Ok (X', y') -> cbso_spec dist p D mn mj X' y'.
Proof.
  intros Hr Hwf Hmin Hk H. unfold cbso_spec. set (X_min := rows_with mn (d_X D) (d_y D)). cbv zeta.
  unfold cbso_sample in H.
  destruct (sample_default (cbso_algorithm vol dist nn p rs) D mn mj Hmin) as (st & Hst & E).
  rewrite E in H. clear E. destruct Hwf as [HXr Hlen].
  destruct (Nat.leb_spec (count_label (d_y D) mn) 2) as [Hle|Hgt].
  { injection H as <- <-. left. auto. }
  unfold cbso_algorithm in H. inv_bind H. rename a into n.
  pose proof (det_st_inv _ _ _ _ _ _ (proj1 Hmin) Hst E) as Hn. clear E.
  destruct Hst as (Emn & Emj & _). rewrite Emn, Emj in H. clear Emn Emj st.
  destruct (Nat.eqb_spec n 0) as [Hn0|Hn0].
  { injection H as <- <-. left. rewrite Hn0 in Hn. auto. }
  fold X_min in H.
  assert (HL : length X_min = count_label (d_y D) mn) by now apply rows_with_length.
  assert (Hr' : rect (d_dim D) X_min) by now apply rows_with_rect.
  destruct (Hnn (d_X D) X_min (cb_n_neighbors p + 1) Hk) as (T & ET & HT). rewrite ET in H. cbn [bind] in H. clear ET.
  destruct (nearest_table_shape _ _ _ _ _ HT) as (M1 & M2 & M3).
  rewrite (counts_ok _ _ _ _ _ _ _ Hlen HT) in H. cbn [bind] in H.
  set (cs := map (neighbours_of (d_y D) mj) T) in *.
  assert (Lcs : length cs = length X_min) by (unfold cs; now rewrite map_length).
  destruct (fix_counts cs) as (W1 & W2 & W3 & W4).
  set (w := fix_density _) in *. cbv zeta in H. fold w in H.
  destruct (cbso_threshold_ok p X_min ltac:(lia)) as (T2 & th & Eth & HT2 & Hth). rewrite Eth in H. cbn [bind] in H. clear Eth.
  set (dm := fun i j => dist (nth i X_min []) (nth j X_min [])).
  destruct (cbso_clusters_spec dm th (length X_min) (finite (dist_matrix dist X_min X_min))) as (cl & Ecl & Hpart & Htog).
  { intros i j. apply Hsym. } { lia. } { apply finite_square. }
  { intros i j Hi Hj. rewrite finite_at by assumption. eexists. split; [reflexivity|]. reflexivity. }
  rewrite Ecl in H. cbn [bind] in H. clear Ecl.
  inv_bind H. rename a into S. injection H as <- <-.
  pose proof Hpart as (P1 & P2 & P3). rewrite Forall_forall in P1.
  assert (Hlt : forall c i, In c cl -> In i c -> i < length X_min).
  { intros c i Hc Hi. apply P3, in_concat. eauto. }
  unfold cbso_generate in E. inv_bind E. rename a into sums. rename E0 into Esum. inv_bind E.
  rename a into cw. rename E0 into Ecw. unfold over_sum in Ecw.
  assert (Es : sums = map (fun c => qsum (map (fun i => nth i w 0%Q) c)) cl).
  { rewrite (mapM_ext_in _ (fun c => Ok (qsum (map (fun i => nth i w 0%Q) c)))) in Esum.
    - rewrite mapM_pure in Esum. now injection Esum as <-.
    - intros c Hc. rewrite (gather_map 0%Q); [reflexivity|]. rewrite Forall_forall. intros i Hi.
      rewrite W1, Lcs. eauto. }
  assert (Hsn : Forall (Qle 0) sums).
  { rewrite Es, Forall_map, Forall_forall. intros c Hc. apply qsum_nonneg. rewrite Forall_map, Forall_forall.
    intros i Hi. rewrite Forall_forall in W2. apply W2, nth_In. rewrite W1, Lcs. eauto. }
  destruct (normalize_props sums cw Hsn Ecw) as (C1 & C2 & C3 & C4).
  destruct (rng_choice _ (Hr 0) cw n C1 C2) as [R1 R2].
  set (P := fun (ci : nat) (x : row) => ss_gauss (cb_ss p) = GNone ->
      exists c b V, In c cl /\ In b c /\ incl V (members X_min c) /\
        convex_comb (d_dim D) (nth b X_min [] :: V) x /\
        (0 < neighbours_of (d_y D) mj (nth b T []) \/ forall t, In t T -> neighbours_of (d_y D) mj t = 0)).
  apply (by_cluster_spec P) in E.
  - destruct E as [E1 E2]. right. exists n, S, T, T2, th, cl. rewrite R1 in E1.
    split; [assumption|]. split; [lia|]. split; [assumption|]. split; [reflexivity|]. split; [now rewrite E1|].
    do 5 (split; [assumption|]). intros Hg x Hx. destruct (E2 x Hx) as (c & _ & HP). exact (HP Hg).
  - intros ci k S' Hci HS'. rewrite Forall_forall in R2. destruct (R2 ci Hci) as (q & Eq & Hq).
    assert (Hcl : ci < length cl).
    { assert (Hq' : ci < length cw) by (apply nth_error_Some; congruence). rewrite C3, Es, map_length in Hq'. exact Hq'. }
    rewrite (get_nth []) in HS' by assumption. cbn [bind] in HS'.
    set (c := nth ci cl []) in *. assert (Hc : In c cl) by now apply nth_In.
    rewrite gather_members in HS' by (intros i Hi; eauto). cbn [bind] in HS'.
    rewrite (gather_map 0%Q) in HS' by (rewrite Forall_forall; intros i Hi; rewrite W1, Lcs; eauto).
    cbn [bind] in HS'. set (wc := map (fun i => nth i w 0%Q) c) in *.
    assert (Hwc : Forall (Qle 0) wc).
    { unfold wc. rewrite Forall_map, Forall_forall. intros i Hi. rewrite Forall_forall in W2. apply W2, nth_In.
      rewrite W1, Lcs. eauto. }
    assert (Ha : args_ok (mk_args (members X_min c) (d_dim D) (circulant (length (members X_min c))) (length (members X_min c))
             (Some (fix_density (map Fin wc))) None None false None)).
    { apply cbso_call_args; auto.
      - intros i Hi. eauto.
      - unfold wc. apply map_length. }
    destruct (sample_simplex_spec _ _ _ _ _ _ Ha (Hr _) HS') as [L1 L2]. split; [assumption|].
    intros x Hx Hg. specialize (L2 Hg). rewrite Forall_forall in L2.
    destruct (L2 x Hx) as (b & ps & B1 & _ & _ & B4 & B5 & _ & B6). cbn [a_indices a_base_weights a_X a_X_vertices vertex_set a_dim a_ncols] in *.
    rewrite circulant_length in B1. assert (Lm : length (members X_min c) = length c) by apply map_length.
    exists c, (nth b c 0). eexists. split; [assumption|]. split; [apply nth_In; lia|]. split; [|split].
    2:{ assert (Eb : nth b (members X_min c) [] = nth (nth b c 0) X_min []).
        { unfold members. rewrite (nth_indep _ [] (nth 0 X_min [])) by (rewrite map_length; lia).
          now rewrite (map_nth (fun i => nth i X_min [])). }
        rewrite Eb in B6. exact B6. }
    + intros z Hz. apply in_map_iff in Hz as (q0 & <- & Hq0). apply nth_In.
      rewrite Forall_forall in B4. specialize (B4 q0 Hq0).
      pose proof (circulant_range (length (members X_min c)) ltac:(lia)) as CR. rewrite Forall_forall in CR.
      assert (Hin : In (nth b (circulant (length (members X_min c))) []) (circulant (length (members X_min c)))).
      { apply nth_In. rewrite circulant_length. assumption. }
      specialize (CR _ Hin). rewrite Forall_forall in CR. apply CR, nth_In.
      pose proof (circulant_rect (length (members X_min c))) as RR. unfold rect in RR. rewrite Forall_forall in RR.
      rewrite (RR _ Hin). lia.
    + (* the base row has a majority neighbour *)
      assert (Hs0 : ~ (qsum wc == 0)%Q).
      { assert (Hp : (0 < nth ci cw 0)%Q) by (rewrite (nth_error_nth _ _ _ Eq); assumption).
        apply C4 in Hp. rewrite Es in Hp.
        rewrite (nth_indep _ _ (qsum (map (fun i => nth i w 0%Q) []))) in Hp by now rewrite map_length.
        rewrite (map_nth (fun c => qsum (map (fun i => nth i w 0%Q) c))) in Hp. fold c in Hp. fold wc in Hp. intros E0.
        rewrite E0 in Hp. revert Hp. apply Qlt_irrefl. }
      assert (El : map nan_to_num (map Fin wc) = wc) by (rewrite map_map; cbn; apply map_id).
      rewrite fix_density_nonzero in B5 by (rewrite El; assumption). rewrite El in B5.
      assert (Lw : length wc = length c) by (unfold wc; apply map_length).
      rewrite (nth_indep _ _ (0 / qsum wc)%Q) in B5 by (rewrite map_length; lia).
      rewrite (map_nth (fun x => x / qsum wc)%Q) in B5.
      assert (Hpos : (0 < qsum wc)%Q).
      { pose proof (qsum_nonneg wc Hwc) as G. destruct (Qle_lt_or_eq _ _ G) as [G'|G']; [assumption|]. symmetry in G'. contradiction. }
      apply Qdiv_pos_iff in B5; [|assumption]. unfold wc in B5.
      rewrite (nth_indep _ _ (nth 0 w 0%Q)) in B5 by (rewrite map_length; lia).
      rewrite (map_nth (fun i => nth i w 0%Q)) in B5.
      assert (Hb : nth b c 0 < length cs) by (rewrite Lcs; apply (Hlt c); [assumption|]; apply nth_In; lia).
      destruct (W4 _ Hb B5) as [G|G].
      * left. unfold cs in G. rewrite (nth_indep _ 0 (neighbours_of (d_y D) mj [])) in G by (unfold cs in Hb; lia).
        rewrite (map_nth (neighbours_of (d_y D) mj)) in G. exact G.
      * right. intros t Ht. apply G. unfold cs. now apply in_map.
Qed.

End Cbso.

(** ** CBSO does not fail *)

Lemma partition_permutation n cl : partition_of n cl -> Permutation (concat cl) (seq 0 n).
Proof.
  intros (_ & H & G). apply NoDup_Permutation; [assumption|apply seq_NoDup|].
  intros i. rewrite G, in_seq. lia.
Qed.

Lemma qsum_perm l l' : Permutation l l' -> (qsum l == qsum l')%Q.
Proof. induction 1; cbn; try reflexivity; try Lqa.lra. Qed.

Lemma map_nth_seq (w : list Q) : map (fun i => nth i w 0%Q) (seq 0 (length w)) = w.
Proof.
  apply nth_ext with (d := 0%Q) (d' := 0%Q); [now rewrite map_length, seq_length|].
  intros i Hi. rewrite map_length, seq_length in Hi.
  rewrite (nth_indep _ 0%Q (nth 0 w 0%Q)) by now rewrite map_length, seq_length.
  rewrite (map_nth (fun i => nth i w 0%Q)). now rewrite seq_nth.
Qed.

Lemma partition_sum n cl (w : list Q) : partition_of n cl -> length w = n ->
  (qsum (map (fun c => qsum (map (fun i => nth i w 0%Q) c)) cl) == qsum w)%Q.
Proof.
  intros Hp Hl. transitivity (qsum (map (fun i => nth i w 0%Q) (seq 0 n))).
  2:{ rewrite <- Hl, map_nth_seq. reflexivity. }
  rewrite <- (qsum_perm _ _ (Permutation_map (fun i => nth i w 0%Q) (partition_permutation n cl Hp))).
  rewrite <- (map_map (fun c => map (fun i => nth i w 0%Q) c) qsum). rewrite <- qsum_concat.
  rewrite concat_map. reflexivity.
Qed.

Lemma normalize_total u : ~ (qsum u == 0)%Q -> exists p, normalize u = Ok p.
Proof.
  intros H. unfold normalize. destruct (Qeq_bool (qsum u) 0) eqn:E; [apply Qeq_bool_iff in E; contradiction|]. eauto.
Qed.

Lemma choice_nonempty r p n : rng_ok r -> Forall (Qle 0) p -> (qsum p == 1)%Q -> 0 < n -> r_choice r p n <> [].
Proof. intros H H1 H2 Hn E. destruct (rng_choice _ H p n H1 H2) as [L _]. rewrite E in L. cbn in L. lia. Qed.

Lemma cbso_total dist vol nn p rs D mn mj n :
  knn_ok dist nn -> (forall a b, (dist a b == dist b a)%Q) ->
  rngs_ok rs -> rngs_pos rs -> plain_ss (cb_ss p) ->
  wf_data (d_X D) (d_dim D) (d_y D) -> is_minority (d_y D) mn mj ->
  cb_n_neighbors p + 1 <= length (d_X D) ->
  asked (cb_proportion p) (d_y D) mn mj = Ok n ->
  exists X' y', cbso_sample vol dist nn p rs D = Ok (X', y').
Proof.
  intros Hnn Hsym Hr Hu Hpl Hwf Hmin Hk Hask. unfold cbso_sample.
  destruct (sample_default (cbso_algorithm vol dist nn p rs) D mn mj Hmin) as (st & Hst & E).
  rewrite E. clear E. destruct Hwf as [HXr Hlen].
  destruct (Nat.leb_spec (count_label (d_y D) mn) 2) as [Hle|Hgt]; [eauto|].
  unfold cbso_algorithm. rewrite (det_st_asked _ _ _ _ _ (proj1 Hmin) Hst), Hask. cbn [bind].
  destruct (Nat.eqb_spec (Z.to_nat n) 0) as [Hn0|Hn0]; [eauto|].
  destruct Hst as (Emn & Emj & _). rewrite Emn, Emj. clear Emn Emj st.
  set (X_min := rows_with mn (d_X D) (d_y D)).
  assert (HL : length X_min = count_label (d_y D) mn) by now apply rows_with_length.
  assert (Hr' : rect (d_dim D) X_min) by now apply rows_with_rect.
  destruct (Hnn (d_X D) X_min (cb_n_neighbors p + 1) Hk) as (T & -> & HT). cbn [bind].
  destruct (nearest_table_shape _ _ _ _ _ HT) as (M1 & M2 & M3).
  rewrite (counts_ok _ _ _ _ _ _ _ Hlen HT). cbn [bind].
  set (cs := map (neighbours_of (d_y D) mj) T) in *.
  assert (Lcs : length cs = length X_min) by (unfold cs; now rewrite map_length).
  destruct (fix_counts cs) as (W1 & W2 & W3 & W4).
  set (w := fix_density _) in *. cbv zeta. fold w.
  destruct (cbso_threshold_ok dist nn Hnn p X_min ltac:(lia)) as (T2 & th & -> & HT2 & Hth). cbn [bind].
  set (dm := fun i j => dist (nth i X_min []) (nth j X_min [])).
  destruct (cbso_clusters_spec dm th (length X_min) (finite (dist_matrix dist X_min X_min))) as (cl & Ecl & Hpart & Htog).
  { intros i j. apply Hsym. } { lia. } { apply finite_square. }
  { intros i j Hi Hj. rewrite finite_at by assumption. eexists. split; [reflexivity|]. reflexivity. }
  rewrite Ecl. cbn [bind]. clear Ecl.
  pose proof Hpart as (P1 & P2 & P3). rewrite Forall_forall in P1.
  assert (Hlt : forall c i, In c cl -> In i c -> i < length X_min).
  { intros c i Hc Hi. apply P3, in_concat. eauto. }
  enough (G : exists S, cbso_generate vol p rs (d_dim D) cl X_min (Z.to_nat n) w = Ok S)
    by (destruct G as [S ->]; cbn [bind]; eauto).
  unfold cbso_generate. set (sums := map (fun c => qsum (map (fun i => nth i w 0%Q) c)) cl).
  assert (Esum : mapM (fun c => do w0 <- gather w c; Ok (qsum w0)) cl = Ok sums).
  { unfold sums. rewrite <- (mapM_pure (fun c => qsum (map (fun i => nth i w 0%Q) c))). apply mapM_ext_in.
    intros c Hc. rewrite (gather_map 0%Q); [reflexivity|]. rewrite Forall_forall. intros i Hi. rewrite W1, Lcs. eauto. }
  rewrite Esum. cbn [bind].
  assert (Hsn : Forall (Qle 0) sums).
  { unfold sums. rewrite Forall_map, Forall_forall. intros c Hc. apply qsum_nonneg. rewrite Forall_map, Forall_forall.
    intros i Hi. rewrite Forall_forall in W2. apply W2, nth_In. rewrite W1, Lcs. eauto. }
  assert (Hs1 : (qsum sums == 1)%Q).
  { unfold sums. rewrite (partition_sum (length X_min)); [|assumption|lia]. apply W3. intros E0. rewrite E0 in Lcs. cbn in Lcs. lia. }
  destruct (normalize_total sums) as [cw Ecw]; [rewrite Hs1; discriminate|].
  unfold over_sum. rewrite Ecw. cbn [bind].
  destruct (normalize_props sums cw Hsn Ecw) as (C1 & C2 & C3 & C4).
  destruct (rng_choice _ (Hr 0) cw (Z.to_nat n) C1 C2) as [R1 R2].
  apply by_cluster_total; [apply choice_nonempty; auto; lia|].
  intros ci k Hci. rewrite Forall_forall in R2. destruct (R2 ci Hci) as (q & Eq & Hq).
  assert (Hcl : ci < length cl).
  { assert (Hq' : ci < length cw) by (apply nth_error_Some; congruence). rewrite C3 in Hq'. unfold sums in Hq'.
    rewrite map_length in Hq'. exact Hq'. }
  rewrite (get_nth []) by assumption. cbn [bind].
  set (c := nth ci cl []) in *. assert (Hc : In c cl) by now apply nth_In.
  rewrite gather_members by (intros i Hi; eauto). cbn [bind].
  rewrite (gather_map 0%Q) by (rewrite Forall_forall; intros i Hi; rewrite W1, Lcs; eauto).
  cbn [bind]. set (wc := map (fun i => nth i w 0%Q) c) in *.
  assert (Hwc : Forall (Qle 0) wc).
  { unfold wc. rewrite Forall_map, Forall_forall. intros i Hi. rewrite Forall_forall in W2. apply W2, nth_In.
    rewrite W1, Lcs. eauto. }
  assert (Lw : length wc = length c) by (unfold wc; apply map_length).
  assert (Hc1 : 1 <= length c) by (specialize (P1 c Hc); destruct c; [congruence|cbn; lia]).
  assert (Hfn : Forall (Qle 0) (fix_density (map Fin wc))).
  { apply fix_density_nonneg. rewrite Forall_map. exact Hwc. }
  destruct (qsum_pos_ex (fix_density (map Fin wc)) Hfn) as (b & Hb & Hbp).
  { rewrite fix_density_sum; [reflexivity|]. destruct wc; [cbn in Lw; lia|discriminate]. }
  rewrite fix_density_length, map_length in Hb.
  apply (ss_total _ _ _ _ _ b); auto; cbn.
  - apply cbso_call_args; auto. intros i Hi. eauto.
  - unfold members. rewrite map_length. lia.
  - rewrite circulant_length. unfold members. rewrite map_length. lia.
Qed.

(** * CURE_SMOTE *)

(** The scaling is affine with a non-zero factor in every column. *)
Lemma mm_fit_length d X : length (mm_fit d X) = d.
Proof. unfold mm_fit. now rewrite map_length, seq_length. Qed.

Lemma mm_fit_range d X : Forall (fun lr => ~ (snd lr == 0)%Q) (mm_fit d X).
Proof.
  unfold mm_fit. rewrite Forall_map, Forall_forall. intros j _. cbn [snd].
  destruct (Qeq_bool (col_max (column j X) - col_min (column j X)) 0) eqn:E; [discriminate|].
  intros G. apply Qeq_bool_iff in G. congruence.
Qed.

Lemma mm_inverse_nth mm x j : length x = length mm -> j < length mm ->
  nth j (mm_inverse mm x) 0%Q = (nth j x 0 * snd (nth j mm (0, 0)) + fst (nth j mm (0, 0)))%Q.
Proof. intros Hl Hj. unfold mm_inverse. rewrite (map2_nth _ _ _ _ (0, 0)%Q 0%Q 0%Q) by lia. reflexivity. Qed.
Lemma mm_transform_nth mm x j : length x = length mm -> j < length mm ->
  nth j (mm_transform mm x) 0%Q = ((nth j x 0 - fst (nth j mm (0, 0))) / snd (nth j mm (0, 0)))%Q.
Proof. intros Hl Hj. unfold mm_transform. rewrite (map2_nth _ _ _ _ (0, 0)%Q 0%Q 0%Q) by lia. reflexivity. Qed.

Lemma affine_sum (l r : Q) ws (vs : list Q) : length ws = length vs -> ~ (r == 0)%Q ->
  (qsum (map2 (fun w v => w * ((v - l) / r)) ws vs) * r + l * qsum ws == qsum (map2 (fun w v => w * v) ws vs))%Q.
Proof.
  intros Hl Hr. revert vs Hl. induction ws as [|w ws IH]; intros [|v vs] Hl; try discriminate; cbn; [Lqa.lra|].
  rewrite <- (IH vs) by (now injection Hl). field. assumption.
Qed.

Lemma map2_map_r {A B C D} (f : A -> C -> D) (g : B -> C) l1 l2 : map2 f l1 (map g l2) = map2 (fun a b => f a (g b)) l1 l2.
Proof. revert l2; induction l1; intros [|b l2]; cbn; auto. now rewrite IHl1. Qed.

Lemma mm_convex d mm P s : length mm = d -> Forall (fun lr => ~ (snd lr == 0)%Q) mm -> rect d P ->
  convex_comb d (map (mm_transform mm) P) s -> convex_comb d P (mm_inverse mm s).
Proof.
  intros Hm Hr HP (Hs & ws & W1 & W2 & W3 & W4). rewrite map_length in W1. split.
  - unfold mm_inverse. rewrite map2_length. lia.
  - exists ws. split; [assumption|]. split; [assumption|]. split; [assumption|]. intros j Hj.
    rewrite mm_inverse_nth by lia. rewrite W4 by assumption. set (lr := nth j mm (0, 0)%Q).
    assert (Hne : ~ (snd lr == 0)%Q) by (rewrite Forall_forall in Hr; apply Hr, nth_In; lia).
    rewrite map2_map_r.
    assert (E : map2 (fun w x => w * nth j (mm_transform mm x) 0)%Q ws P =
                map2 (fun w v => w * ((v - fst lr) / snd lr))%Q ws (map (fun x => nth j x 0%Q) P)).
    { clear W3 W4 W2. rewrite map2_map_r. revert ws W1. induction P as [|x P IH]; intros [|w ws] W1; try discriminate; cbn; [reflexivity|].
      inversion HP; subst. rewrite mm_transform_nth by congruence. fold lr. f_equal. apply IH; [assumption|]. now injection W1. }
    rewrite E. rewrite <- (map2_map_r (fun w v => w * v)%Q (fun x => nth j x 0%Q)).
    rewrite <- (affine_sum (fst lr) (snd lr)) by (rewrite ?map_length; assumption). rewrite W3. ring.
Qed.

Lemma incl_map_ex {A B} (f : A -> B) P pts : incl pts (map f P) -> exists P', incl P' P /\ pts = map f P'.
Proof.
  induction pts as [|x pts IH]; intros H; [exists []; split; [intros z []|reflexivity]|].
  destruct IH as (P' & H1 & ->); [intros z Hz; apply H; now right|].
  destruct (proj1 (in_map_iff f P x) (H x (or_introl eq_refl))) as (z & <- & Hz).
  exists (z :: P'). split; [intros u [<-|Hu]; auto|reflexivity].
Qed.

Lemma mm_hull d mm P s : length mm = d -> Forall (fun lr => ~ (snd lr == 0)%Q) mm -> rect d P ->
  in_hull d (map (mm_transform mm) P) s -> in_hull d P (mm_inverse mm s).
Proof.
  intros Hm Hr HP (pts & H1 & H2). destruct (incl_map_ex _ _ _ H1) as (P' & H3 & ->).
  exists P'. split; [assumption|]. apply mm_convex; auto. unfold rect in *. rewrite Forall_forall in *. auto.
Qed.

Lemma rows_with_map (f : row -> row) mn X y : length X = length y ->
  rows_with mn (map f X) y = map f (rows_with mn X y).
Proof.
  unfold rows_with. revert y. induction X as [|x X IH]; intros [|z y] H; try discriminate; cbn; [reflexivity|].
  injection H as H. cbn in IH. rewrite IH by assumption. now destruct (Z.eqb _ _).
Qed.

Lemma members_map (f : row -> row) X c : (forall i, In i c -> i < length X) ->
  members (map f X) c = map f (members X c).
Proof.
  intros H. unfold members. rewrite map_map. apply map_ext_in. intros i Hi.
  rewrite (nth_indep _ [] (f [])) by (rewrite map_length; auto). apply map_nth.
Qed.

(** The mean of rows is a convex combination of them. *)
Lemma mean_row_spec d V : V <> [] -> rect d V -> exists m, mean_row d V = Ok m /\ convex_comb d V m.
Proof.
  intros Hne HV. unfold mean_row.
  assert (E : mapM (fun j => qmean (column j V)) (seq 0 d) =
     Ok (map (fun j => (qsum (column j V) / inject_Z (Z.of_nat (length V)))%Q) (seq 0 d))).
  { rewrite <- (mapM_pure (fun j => (qsum (column j V) / inject_Z (Z.of_nat (length V)))%Q)). apply mapM_ext_in.
    intros j _. unfold qmean. assert (L : length (column j V) = length V) by apply map_length.
    destruct (column j V) eqn:Ec; [destruct V; [congruence|discriminate]|]. now rewrite L. }
  rewrite E. eexists. split; [reflexivity|]. split; [now rewrite map_length, seq_length|].
  set (q := (1 / inject_Z (Z.of_nat (length V)))%Q).
  assert (Hn : (0 < inject_Z (Z.of_nat (length V)))%Q).
  { change 0%Q with (inject_Z 0). rewrite <- Zlt_Qlt. destruct V; [congruence|cbn; lia]. }
  assert (Hn' : ~ (inject_Z (Z.of_nat (length V)) == 0)%Q) by (intros G; rewrite G in Hn; revert Hn; apply Qlt_irrefl).
  exists (repeat q (length V)). split; [apply repeat_length|]. split; [|split].
  - apply Forall_forall. intros x Hx. apply repeat_spec in Hx. subst x. unfold q. apply Qdiv_nonneg; [Lqa.lra|assumption].
  - rewrite qsum_repeat. unfold q. field. assumption.
  - intros j Hj. rewrite (nth_indep _ 0%Q ((fun j => (qsum (column j V) / inject_Z (Z.of_nat (length V)))%Q) 0)) by now rewrite map_length, seq_length.
    rewrite (map_nth (fun j => (qsum (column j V) / inject_Z (Z.of_nat (length V)))%Q)). rewrite seq_nth by assumption. cbn [Nat.add].
    assert (G : forall U : list row, (qsum (map2 (fun w p => w * nth j p 0) (repeat q (length U)) U) == q * qsum (column j U))%Q).
    { induction U as [|u U IH]; cbn; [Lqa.lra|]. rewrite IH. unfold column. ring. }
    rewrite G. unfold q. field. assumption.
Qed.

Definition cure_spec (p : cure_params) (D : dataset) (mn mj : Z) (X' : list row) (y' : list Z) : Prop :=
  let X_min := rows_with mn (d_X D) (d_y D) in
  let N := length X_min in
  exists cl,
    sub_partition N cl /\ Nat.min N (cu_n_clusters p - 1) <= length cl <= cu_n_clusters p /\
    (N <= cu_n_clusters p -> cl = map (fun i => [i]) (seq 0 N)) /\
    ((X' = d_X D /\ y' = d_y D /\
      (count_label (d_y D) mn <= 2 \/ asked (cu_proportion p) (d_y D) mn mj = Ok 0%Z \/
       forall c, In c cl -> length c < cu_noise_th p)) \/
     exists n S,
       asked (cu_proportion p) (d_y D) mn mj = Ok (Z.of_nat n) /\ 0 < n /\ length S = n /\
       X' = d_X D ++ S /\ y' = d_y D ++ repeat mn n /\
       (exists c, In c cl /\ cu_noise_th p <= length c) /\
       (ss_gauss (cu_ss p) = GNone -> forall x, In x S ->
          exists c, In c cl /\ cu_noise_th p <= length c /\ in_hull (d_dim D) (members X_min c) x)).

Section Cure.
Variable dist : row -> row -> Q.
Variable vol : list row -> Q.

Lemma cure_call_args d V m : rect d V -> V <> [] -> length m = d ->
  args_ok (mk_args [m] d [0 :: seq 0 (length V)] (S (length V)) None None (Some V) false None).
Proof.
  intros HV Hne Hm. constructor; cbn; auto; try discriminate.
  - constructor; [assumption|constructor].
  - constructor; [cbn; now rewrite seq_length|constructor].
  - constructor; [|constructor]. constructor; [destruct V; [congruence|cbn; lia]|].
    apply Forall_forall. intros i Hi. apply in_seq in Hi. lia.
Qed.

Lemma uniform_props k : 0 < k -> Forall (Qle 0) (repeat (1 / inject_Z (Z.of_nat k))%Q k) /\
  (qsum (repeat (1 / inject_Z (Z.of_nat k))%Q k) == 1)%Q.
Proof.
  intros Hk. assert (H : (0 < inject_Z (Z.of_nat k))%Q) by (change 0%Q with (inject_Z 0); rewrite <- Zlt_Qlt; lia).
  split.
  - apply Forall_forall. intros x Hx. apply repeat_spec in Hx. subst x. apply Qdiv_nonneg; [Lqa.lra|assumption].
  - rewrite qsum_repeat. field. intros G. rewrite G in H. revert H. apply Qlt_irrefl.
Qed.

(** One cluster, in the scaled coordinates. *)
Lemma cure_call_ok p d V r n m S' : rect d V -> V <> [] -> rng_ok r -> mean_row d V = Ok m -> convex_comb d V m ->
  sample_simplex vol (cu_ss p) (mk_args [m] d [0 :: seq 0 (length V)] (S (length V)) None None (Some V) false None) n r = Ok S' ->
  length S' = n /\ (ss_gauss (cu_ss p) = GNone -> forall x, In x S' -> in_hull d V x).
Proof.
  intros HV Hne Hr Em Hm H. assert (Ha := cure_call_args d V m HV Hne (proj1 Hm)).
  destruct (ss_hull _ _ _ _ _ _ Ha Hr H) as [L1 L2]. split; [assumption|]. intros Hg x Hx.
  assert (Hh := L2 Hg (m :: V) ltac:(cbn; intros z [<-|[]]; now left) ltac:(cbn; intros z Hz; now right) x Hx).
  cbn [a_dim] in Hh. destruct Hh as (pts & P1 & P2). apply (in_hull_trans d V pts); [|assumption].
  intros q Hq. destruct (P1 q Hq) as [<-|HqV]; [exists V; split; [apply incl_refl|assumption]|].
  apply in_hull_base; [assumption|]. unfold rect in HV. rewrite Forall_forall in HV. auto.
Qed.

Lemma cure_generate_ok p rs d X_min cl n S : rngs_ok rs -> rect d X_min -> 0 < length cl ->
  Forall (fun c => c <> []) cl -> (forall c i, In c cl -> In i c -> i < length X_min) ->
  cure_generate vol p rs d X_min cl n = Ok S ->
  length S = n /\ (ss_gauss (cu_ss p) = GNone -> forall x, In x S -> exists c, In c cl /\ in_hull d (members X_min c) x).
Proof.
  intros Hr HX Hcl Hne Hlt H. unfold cure_generate in H.
  destruct (uniform_props (length cl) Hcl) as [U1 U2].
  destruct (rng_choice _ (Hr 0) _ n U1 U2) as [R1 R2].
  apply (by_cluster_spec (fun ci x => ss_gauss (cu_ss p) = GNone -> exists c, In c cl /\ in_hull d (members X_min c) x)) in H.
  - destruct H as [H1 H2]. split; [congruence|]. intros Hg x Hx. destruct (H2 x Hx) as (c & _ & G). exact (G Hg).
  - intros ci k S' Hci HS'. rewrite Forall_forall in R2. destruct (R2 ci Hci) as (q & Eq & _).
    assert (Hi : ci < length cl).
    { assert (G : ci < length (repeat (1 / inject_Z (Z.of_nat (length cl)))%Q (length cl))) by (apply nth_error_Some; congruence).
      now rewrite repeat_length in G. }
    rewrite (get_nth []) in HS' by assumption. cbn [bind] in HS'.
    set (c := nth ci cl []) in *. assert (Hc : In c cl) by now apply nth_In.
    rewrite gather_members in HS' by (intros i Hii; eauto). cbn [bind] in HS'.
    assert (HV : rect d (members X_min c)) by (apply members_rect; eauto).
    assert (HVn : members X_min c <> []).
    { rewrite Forall_forall in Hne. specialize (Hne c Hc). destruct c; [congruence|discriminate]. }
    destruct (mean_row_spec d _ HVn HV) as (m & Em & Hm). rewrite Em in HS'. cbn [bind] in HS'.
    destruct (cure_call_ok _ _ _ _ _ _ _ HV HVn (Hr _) Em Hm HS') as [L1 L2]. split; [assumption|].
    intros x Hx Hg. exists c. auto.
Qed.

Lemma cure_generate_total p rs d X_min cl n : rngs_ok rs -> rngs_pos rs -> plain_ss (cu_ss p) ->
  rect d X_min -> 0 < length cl -> 0 < n ->
  Forall (fun c => c <> []) cl -> (forall c i, In c cl -> In i c -> i < length X_min) ->
  exists S, cure_generate vol p rs d X_min cl n = Ok S.
Proof.
  intros Hr Hu Hpl HX Hcl Hn Hne Hlt. unfold cure_generate.
  destruct (uniform_props (length cl) Hcl) as [U1 U2].
  destruct (rng_choice _ (Hr 0) _ n U1 U2) as [R1 R2].
  apply by_cluster_total; [now apply choice_nonempty|].
  intros ci k Hci. rewrite Forall_forall in R2. destruct (R2 ci Hci) as (q & Eq & _).
  assert (Hi : ci < length cl).
  { assert (G : ci < length (repeat (1 / inject_Z (Z.of_nat (length cl)))%Q (length cl))) by (apply nth_error_Some; congruence).
    now rewrite repeat_length in G. }
  rewrite (get_nth []) by assumption. cbn [bind].
  set (c := nth ci cl []) in *. assert (Hc : In c cl) by now apply nth_In.
  rewrite gather_members by (intros i Hii; eauto). cbn [bind].
  assert (HV : rect d (members X_min c)) by (apply members_rect; eauto).
  assert (HVn : members X_min c <> []).
  { rewrite Forall_forall in Hne. specialize (Hne c Hc). destruct c; [congruence|discriminate]. }
  destruct (mean_row_spec d _ HVn HV) as (m & Em & Hm). rewrite Em. cbn [bind].
  apply (ss_total _ _ _ _ _ 0); auto; cbn; try lia.
  apply cure_call_args; auto. apply Hm.
Qed.

Lemma cure_run p pick rs D mn mj :
  pick_ok pick -> rngs_ok rs -> 2 <= cu_n_clusters p ->
  wf_data (d_X D) (d_dim D) (d_y D) -> is_minority (d_y D) mn mj ->
  (forall X' y', cure_sample vol dist p pick rs D = Ok (X', y') -> cure_spec p D mn mj X' y') /\
  (rngs_pos rs -> plain_ss (cu_ss p) -> forall n, asked (cu_proportion p) (d_y D) mn mj = Ok n ->
    exists X' y', cure_sample vol dist p pick rs D = Ok (X', y')).
Proof.
  intros Hpk Hr Hk [HXr Hlen] Hmin. set (X_min := rows_with mn (d_X D) (d_y D)).
  assert (HL : length X_min = count_label (d_y D) mn) by now apply rows_with_length.
  assert (HL1 : 1 <= length X_min).
  { rewrite HL. unfold count_label. destruct Hmin as [(_ & Hin & _) _]. apply (proj1 (count_occ_In Z.eq_dec _ _)) in Hin. lia. }
  assert (Hr' : rect (d_dim D) X_min) by now apply rows_with_rect.
  set (mm := mm_fit (d_dim D) (d_X D)).
  set (Z_min := rows_with mn (map (mm_transform mm) (d_X D)) (d_y D)).
  assert (EZ : Z_min = map (mm_transform mm) X_min) by (apply rows_with_map; assumption).
  assert (LZ : length Z_min = length X_min) by (rewrite EZ; apply map_length).
  assert (Lmm : length mm = d_dim D) by apply mm_fit_length.
  assert (Rmm : Forall (fun lr => ~ (snd lr == 0)%Q) mm) by apply mm_fit_range.
  assert (HZ : rect (d_dim D) Z_min).
  { rewrite EZ. unfold rect in *. rewrite Forall_map. eapply Forall_impl; [|exact Hr']. intros x Hx.
    unfold mm_transform. rewrite map2_length, Lmm, Hx. apply Nat.min_id. }
  destruct (cure_clusters_spec pick (cu_n_clusters p) (cu_noise_th p) (length X_min)
     (finite (dist_matrix dist Z_min Z_min)) Hpk Hk HL1) as (cl & _ & Hsub & Hcl & Hsing & Ef).
  { rewrite <- LZ. apply finite_square. }
  { intros i j Hi Hj _. rewrite finite_at by lia. eauto. }
  pose proof Hsub as (P1 & P2 & P3).
  set (big := filter (fun c => negb (length c <? cu_noise_th p)) cl) in *.
  assert (Hbig : forall c, In c big <-> In c cl /\ cu_noise_th p <= length c).
  { intros c. unfold big. rewrite filter_In, negb_true_iff, Nat.ltb_ge. tauto. }
  assert (Hbne : Forall (fun c => c <> []) big).
  { apply Forall_forall. intros c Hc. apply Hbig in Hc as [Hc _]. rewrite Forall_forall in P1. auto. }
  assert (Hblt : forall c i, In c big -> In i c -> i < length Z_min).
  { intros c i Hc Hi. apply Hbig in Hc as [Hc _]. rewrite LZ. apply P3, in_concat. eauto. }
  unfold cure_sample.
  destruct (sample_default (cure_algorithm vol dist p pick rs) D mn mj Hmin) as (st & Hst & E). rewrite E. clear E.
  split.
  - intros X' y' H. unfold cure_spec. fold X_min. cbv zeta. exists cl. split; [assumption|]. split; [assumption|].
    split; [assumption|].
    destruct (Nat.leb_spec (count_label (d_y D) mn) 2) as [Hle|Hgt].
    { injection H as <- <-. left. auto. }
    unfold cure_algorithm in H. inv_bind H. rename a into n.
    pose proof (det_st_inv _ _ _ _ _ _ (proj1 Hmin) Hst E) as Hn. clear E.
    destruct Hst as (Emn & Emj & _). rewrite Emn in H. clear Emn Emj st.
    destruct (Nat.eqb_spec n 0) as [Hn0|Hn0].
    { injection H as <- <-. left. rewrite Hn0 in Hn. auto. }
    cbv zeta in H. fold mm in H. fold Z_min in H. rewrite Ef in H. cbn [bind] in H.
    destruct (Nat.eqb_spec (length big) 0) as [Hb|Hb].
    { injection H as <- <-. left. split; [reflexivity|]. split; [reflexivity|]. right. right. intros c Hc.
      destruct (Nat.lt_ge_cases (length c) (cu_noise_th p)) as [G|G]; [assumption|]. exfalso.
      assert (Hin : In c big) by (apply Hbig; auto). apply length_zero_iff_nil in Hb. rewrite Hb in Hin. destruct Hin. }
    inv_bind H. rename a into S. injection H as <- <-. right.
    assert (Hb0 : 0 < length big) by lia.
    destruct (cure_generate_ok _ _ _ _ _ _ _ Hr HZ Hb0 Hbne Hblt E) as [G1 G2].
    exists n, (map (mm_inverse mm) S). rewrite map_length. split; [assumption|]. split; [lia|]. split; [assumption|].
    split; [reflexivity|]. split; [now rewrite G1|]. split.
    + clear - Hb Hbig. destruct big as [|c big']; [cbn in Hb; lia|]. exists c. apply Hbig. now left.
    + intros Hg x Hx. apply in_map_iff in Hx as (s & <- & Hs). destruct (G2 Hg s Hs) as (c & Hc & Hh).
      apply Hbig in Hc as Hc'. exists c. split; [tauto|]. split; [tauto|].
      assert (Hcx : forall i, In i c -> i < length X_min) by (intros i Hi; rewrite <- LZ; eauto).
      apply mm_hull; auto; [now apply members_rect|]. rewrite <- members_map by assumption. rewrite <- EZ. exact Hh.
  - intros Hu Hpl n Hask.
    destruct (Nat.leb_spec (count_label (d_y D) mn) 2) as [Hle|Hgt]; [eauto|].
    unfold cure_algorithm. rewrite (det_st_asked _ _ _ _ _ (proj1 Hmin) Hst), Hask. cbn [bind].
    destruct (Nat.eqb_spec (Z.to_nat n) 0) as [Hn0|Hn0]; [eauto|].
    destruct Hst as (Emn & Emj & _). rewrite Emn. cbv zeta. fold mm. fold Z_min. rewrite Ef. cbn [bind].
    destruct (Nat.eqb_spec (length big) 0) as [Hb|Hb]; [eauto|].
    destruct (cure_generate_total p rs (d_dim D) Z_min big (Z.to_nat n) Hr Hu Hpl HZ ltac:(lia) ltac:(lia) Hbne Hblt) as [S ->].
    cbn [bind]. eauto.
Qed.

(** With a single cluster and an even number of minority rows nothing is ever
    generated: the smallest cluster is dropped and two are merged in every
    iteration. *)
Lemma cure_one_copies p pick rs D mn mj n :
  pick_ok pick -> wf_data (d_X D) (d_dim D) (d_y D) -> is_minority (d_y D) mn mj ->
  cu_n_clusters p = 1 -> Nat.even (count_label (d_y D) mn) = true ->
  asked (cu_proportion p) (d_y D) mn mj = Ok n ->
  cure_sample vol dist p pick rs D = Ok (d_X D, d_y D).
Proof.
  intros Hpk [HXr Hlen] Hmin Hk Hev Hask. set (X_min := rows_with mn (d_X D) (d_y D)).
  assert (HL : length X_min = count_label (d_y D) mn) by now apply rows_with_length.
  assert (HL1 : 1 <= length X_min).
  { rewrite HL. unfold count_label. destruct Hmin as [(_ & Hin & _) _]. apply (proj1 (count_occ_In Z.eq_dec _ _)) in Hin. lia. }
  set (mm := mm_fit (d_dim D) (d_X D)).
  set (Z_min := rows_with mn (map (mm_transform mm) (d_X D)) (d_y D)).
  assert (LZ : length Z_min = length X_min) by (unfold Z_min; rewrite rows_with_map by assumption; apply map_length).
  unfold cure_sample.
  destruct (sample_default (cure_algorithm vol dist p pick rs) D mn mj Hmin) as (st & Hst & E). rewrite E. clear E.
  destruct (Nat.leb_spec (count_label (d_y D) mn) 2) as [Hle|Hgt]; [reflexivity|].
  unfold cure_algorithm. rewrite (det_st_asked _ _ _ _ _ (proj1 Hmin) Hst), Hask. cbn [bind].
  destruct (Nat.eqb_spec (Z.to_nat n) 0) as [Hn0|Hn0]; [reflexivity|].
  destruct Hst as (Emn & Emj & _). rewrite Emn. cbv zeta. fold mm. fold Z_min. rewrite Hk.
  destruct (cure_one_spec pick (cu_noise_th p) (length X_min) (finite (dist_matrix dist Z_min Z_min)) Hpk HL1) as (cl & -> & _ & Hl).
  { rewrite <- LZ. apply finite_square. }
  { intros i j Hi Hj _. rewrite finite_at by lia. eauto. }
  cbn [bind]. assert (E0 : length X_min mod 2 = 0).
  { apply Nat.even_spec in Hev as [q Hq]. rewrite HL, Hq. rewrite Nat.mul_comm. now apply Nat.mod_mul. }
  rewrite E0 in Hl. replace (length cl =? 0) with true; [reflexivity|]. symmetry. apply Nat.eqb_eq. lia.
Qed.

End Cure.

(** * Assembled_SMOTE *)

(** Some listed row (the row itself included) has another label. *)
Definition borderline (y : list Z) (mn : Z) (t : list nat) : bool :=
  existsb (fun i => negb (nth i y 0 =? mn)%Z) t.
(** The rows whose table entry satisfies [f]. *)
Definition rows_where (f : list nat -> bool) (X : list row) (T : list (list nat)) : list row :=
  map fst (filter (fun xt => f (snd xt)) (combine X T)).

Definition assembled_spec (dist : row -> row -> Q) (p : assembled_params) (D : dataset) (mn mj : Z)
    (X' : list row) (y' : list Z) : Prop :=
  let X_min := rows_with mn (d_X D) (d_y D) in
  exists T,
    nearest_table dist (d_X D) X_min (Nat.min (length (d_X D)) (as_n_neighbors p + 1)) T /\
    let B := rows_where (borderline (d_y D) mn) X_min T in
    let I := rows_where (fun t => negb (borderline (d_y D) mn t)) X_min T in
    ((X' = d_X D /\ y' = d_y D /\
      (count_label (d_y D) mn <= 2 \/ asked (as_proportion p) (d_y D) mn mj = Ok 0%Z \/ B = [])) \/
     exists n S cl,
       asked (as_proportion p) (d_y D) mn mj = Ok (Z.of_nat n) /\ 0 < n /\ length S = n /\
       X' = d_X D ++ S /\ y' = d_y D ++ repeat mn n /\ partition_of (length B) cl /\
       (ss_gauss (as_ss p) = GNone -> forall x, In x S ->
          in_hull (d_dim D) I x \/ exists c, In c cl /\ in_hull (d_dim D) (members B c) x)).

Lemma select_rows_where (f : list nat -> bool) X T : length X = length T ->
  select (map f T) X = rows_where f X T.
Proof.
  unfold rows_where. revert T. induction X as [|x X IH]; intros [|t T] H; try discriminate; cbn; [reflexivity|].
  injection H as H. cbn in IH. rewrite IH by assumption. now destruct (f t).
Qed.

Lemma rows_where_in f X T x : In x (rows_where f X T) -> In x X.
Proof.
  unfold rows_where. rewrite in_map_iff. intros ((x' & t) & <- & H). apply filter_In in H as [H _].
  now apply in_combine_l in H.
Qed.

Lemma rows_where_rect d f X T : rect d X -> rect d (rows_where f X T).
Proof.
  unfold rect. rewrite !Forall_forall. intros H x Hx. apply H. now apply rows_where_in in Hx.
Qed.

Lemma count_all_border y mn t k : Forall (fun i => i < length y) t -> length t = k ->
  exists c, count_all y mn t = Ok c /\ negb (c =? k) = borderline y mn t.
Proof.
  intros H <-. unfold count_all. rewrite (gather_map 0%Z) by assumption. cbn [bind]. eexists. split; [reflexivity|].
  assert (L : forall l : list nat, length (filter (Z.eqb mn) (map (fun i => nth i y 0%Z) l)) <= length l).
  { induction l as [|i l IH]; cbn; [lia|]. destruct (mn =? nth i y 0)%Z; cbn; lia. }
  induction t as [|i t IH]; [reflexivity|]. inversion H; subst. cbn [map filter borderline existsb].
  rewrite (Z.eqb_sym (nth i y 0%Z) mn). destruct (mn =? nth i y 0)%Z eqn:E; cbn [length negb orb].
  - specialize (IH H3). unfold borderline in IH. rewrite <- IH. reflexivity.
  - specialize (L t). destruct (Nat.eqb_spec (length (filter (Z.eqb mn) (map (fun j => nth j y 0%Z) t))) (S (length t))); [lia|reflexivity].
Qed.

Section Assembled.
Variable dist : row -> row -> Q.
Variable vol : list row -> Q.
Variable nn : list row -> list row -> nat -> res (list (list nat)).
Hypothesis Hnn : knn_ok dist nn.

Lemma assembled_border_ok p X y mn X_min : length X = length y ->
  exists T, nearest_table dist X X_min (Nat.min (length X) (as_n_neighbors p + 1)) T /\
    assembled_border nn p X y mn X_min = Ok (rows_where (borderline y mn) X_min T,
                                          rows_where (fun t => negb (borderline y mn t)) X_min T).
Proof.
  intros Hl. unfold assembled_border. set (k := Nat.min (length X) (as_n_neighbors p + 1)).
  destruct (Hnn X X_min k ltac:(lia)) as (T & -> & HT). exists T. split; [assumption|]. cbn [bind].
  destruct (nearest_table_shape _ _ _ _ _ HT) as (M1 & M2 & M3).
  assert (G : forall T, Forall (fun t => length t = k) T -> Forall (Forall (fun v => v < length X)) T ->
     exists cs, mapM (count_all y mn) T = Ok cs /\ map (fun c => negb (c =? k)) cs = map (borderline y mn) T).
  { clear - Hl. induction T as [|t T IH]; intros H1 H2; [exists []; auto|]. inversion H1 as [|? ? Ht1 Ht2]; inversion H2 as [|? ? Ht3 Ht4]; subst.
    rewrite Hl in Ht3. destruct (count_all_border y mn t k Ht3 Ht1) as (c & Ec & Eb).
    destruct IH as (cs & E1 & E2); auto. cbn [mapM]. rewrite Ec. cbn [bind]. rewrite E1. cbn [bind].
    exists (c :: cs). split; [reflexivity|]. cbn [map]. now rewrite Eb, E2. }
  destruct (G T M2 M3) as (cs & -> & E2). cbn [bind]. rewrite E2. rewrite map_map.
  rewrite !select_rows_where by lia. reflexivity.
Qed.

Lemma nn_self_args d v k T : rect d v -> nearest_table dist v v k T ->
  args_ok (mk_args v d T k None None None false None).
Proof.
  intros Hv HT. destruct (nearest_table_shape _ _ _ _ _ HT) as (M1 & M2 & M3).
  constructor; cbn; auto; try discriminate. lia.
Qed.

Lemma lengths_props (vs : list (list row)) : vs <> [] -> Forall (fun v => v <> []) vs ->
  exists dens, over_sum (map (fun v => inject_Z (Z.of_nat (length v))) vs) = Ok dens /\
    Forall (Qle 0) dens /\ (qsum dens == 1)%Q /\ length dens = length vs.
Proof.
  intros Hne Hall. unfold over_sum. set (u := map _ vs).
  assert (Hu : Forall (Qle 0) u).
  { unfold u. rewrite Forall_map, Forall_forall. intros v _. change 0%Q with (inject_Z 0). rewrite <- Zle_Qle. lia. }
  destruct (normalize_total u) as [p Ep].
  { intros E0. pose proof (qsum_zero_all _ Hu E0) as Z0. destruct vs as [|v vs]; [congruence|].
    inversion Hall; subst. inversion Z0; subst. destruct v; [congruence|]. cbn in H3. unfold Qeq in H3. cbn in H3. lia. }
  exists p. split; [assumption|]. destruct (normalize_props u p Hu Ep) as (C1 & C2 & C3 & _).
  split; [assumption|]. split; [assumption|]. rewrite C3. unfold u. apply map_length.
Qed.

Lemma assembled_generate_run p rs d vs n : rngs_ok rs -> vs <> [] -> Forall (fun v => v <> []) vs ->
  Forall (rect d) vs ->
  (forall S, assembled_generate vol nn p rs d vs n = Ok S ->
    length S = n /\ (ss_gauss (as_ss p) = GNone -> forall x, In x S -> exists v, In v vs /\ in_hull d v x)) /\
  (rngs_pos rs -> plain_ss (as_ss p) -> 0 < n -> exists S, assembled_generate vol nn p rs d vs n = Ok S).
Proof.
  intros Hr Hne Hall Hrect. unfold assembled_generate.
  destruct (lengths_props vs Hne Hall) as (dens & -> & D1 & D2 & D3). cbn [bind].
  destruct (rng_choice _ (Hr 0) dens n D1 D2) as [R1 R2]. rewrite Forall_forall in R2.
  assert (Hidx : forall ci, In ci (r_choice (rs 0) dens n) -> ci < length vs).
  { intros ci Hci. destruct (R2 ci Hci) as (q & Eq & _). rewrite <- D3. apply nth_error_Some. congruence. }
  assert (Hv : forall ci, ci < length vs -> rect d (nth ci vs []) /\ 1 <= length (nth ci vs [])).
  { intros ci Hci. assert (Hin := nth_In vs [] Hci). rewrite Forall_forall in Hall, Hrect. split; auto.
    specialize (Hall _ Hin). destruct (nth ci vs []); [congruence|cbn; lia]. }
  split.
  - intros S H.
    apply (by_cluster_spec (fun ci x => ss_gauss (as_ss p) = GNone -> exists v, In v vs /\ in_hull d v x)) in H.
    + destruct H as [H1 H2]. split; [congruence|]. intros Hg x Hx. destruct (H2 x Hx) as (c & _ & G). exact (G Hg).
    + intros ci k S' Hci HS'. apply Hidx in Hci. destruct (Hv ci Hci) as [V1 V2].
      rewrite (get_nth []) in HS' by assumption. cbn [bind] in HS'. set (v := nth ci vs []) in *.
      cbv zeta in HS'. set (kk := Nat.min (as_n_neighbors p + 1) (length v)) in *.
      destruct (Hnn v v kk ltac:(lia)) as (T & ET & HT). rewrite ET in HS'. cbn [bind] in HS'.
      destruct (ss_hull _ _ _ _ _ _ (nn_self_args _ _ _ _ V1 HT) (Hr _) HS') as [L1 L2].
      split; [assumption|]. intros x Hx Hg. exists v. split; [now apply nth_In|].
      exact (L2 Hg v (incl_refl _) (incl_refl _) x Hx).
  - intros Hu Hpl Hn. apply by_cluster_total; [now apply choice_nonempty|].
    intros ci k Hci. apply Hidx in Hci. destruct (Hv ci Hci) as [V1 V2].
    rewrite (get_nth []) by assumption. cbn [bind]. set (v := nth ci vs []) in *.
    cbv zeta. set (kk := Nat.min (as_n_neighbors p + 1) (length v)) in *.
    destruct (Hnn v v kk ltac:(lia)) as (T & ET & HT). rewrite ET. cbn [bind].
    destruct (nearest_table_shape _ _ _ _ _ HT) as (M1 & _).
    apply (ss_total _ _ _ _ _ 0); auto; cbn; try lia. now apply nn_self_args.
Qed.

Lemma filter_id {A} (f : A -> bool) l : (forall x, In x l -> f x = true) -> filter f l = l.
Proof.
  induction l as [|x l IH]; intros H; cbn; [reflexivity|]. rewrite (H x (or_introl eq_refl)).
  f_equal. apply IH. intros y Hy. apply H. now right.
Qed.

Lemma assembled_run p similar rs D mn mj :
  rngs_ok rs -> wf_data (d_X D) (d_dim D) (d_y D) -> is_minority (d_y D) mn mj ->
  (forall X' y', assembled_sample vol dist nn p similar rs D = Ok (X', y') -> assembled_spec dist p D mn mj X' y') /\
  (rngs_pos rs -> plain_ss (as_ss p) -> forall n, asked (as_proportion p) (d_y D) mn mj = Ok n ->
    exists X' y', assembled_sample vol dist nn p similar rs D = Ok (X', y')).
Proof.
  intros Hr [HXr Hlen] Hmin. set (X_min := rows_with mn (d_X D) (d_y D)).
  assert (Hr' : rect (d_dim D) X_min) by now apply rows_with_rect.
  destruct (assembled_border_ok p (d_X D) (d_y D) mn X_min Hlen) as (T & HT & Eb).
  set (B := rows_where (borderline (d_y D) mn) X_min T) in *.
  set (I := rows_where (fun t => negb (borderline (d_y D) mn t)) X_min T) in *.
  assert (HB : rect (d_dim D) B) by now apply rows_where_rect.
  assert (HI : rect (d_dim D) I) by now apply rows_where_rect.
  unfold assembled_sample.
  destruct (sample_default (assembled_algorithm vol dist nn p similar rs) D mn mj Hmin) as (st & Hst & E). rewrite E. clear E.
  set (tail := if length I =? 0 then [] else [I]).
  assert (Htail : forall v, In v tail -> v = I /\ v <> []).
  { intros v Hv. unfold tail in Hv. destruct (Nat.eqb_spec (length I) 0) as [|G]; [destruct Hv|].
    destruct Hv as [<-|[]]. split; [reflexivity|]. intros E0. rewrite E0 in G. cbn in G. lia. }
  assert (Hcl : B <> [] -> exists cl, assembled_clusters (as_pop p)
          (fun a b => similar (map (fun i => nth i B []) a) (map (fun i => nth i B []) b))
          (finite (dist_matrix dist B B)) = Ok cl /\ partition_of (length B) cl /\
       mapM (gather B) (filter (fun c => negb (length c =? 0)) cl) = Ok (map (members B) cl) /\
       map (members B) cl ++ tail <> [] /\ Forall (fun v => v <> []) (map (members B) cl ++ tail) /\
       Forall (rect (d_dim D)) (map (members B) cl ++ tail)).
  { intros HBn. assert (L1 : 1 <= length B) by (destruct B; [congruence|cbn; lia]).
    destruct (assembled_clusters_spec (as_pop p)
        (fun a b => similar (map (fun i => nth i B []) a) (map (fun i => nth i B []) b)) (length B)
        (finite (dist_matrix dist B B)) L1 (finite_square dist B)) as (cl & Ecl & Hp).
    exists cl. split; [assumption|]. split; [assumption|]. destruct Hp as (P1 & P2 & P3).
    rewrite Forall_forall in P1.
    assert (Hlt : forall c i, In c cl -> In i c -> i < length B) by (intros c i Hc Hi; apply P3, in_concat; eauto).
    split; [|split; [|split]].
    - rewrite filter_id.
      + rewrite <- mapM_pure. apply mapM_ext_in. intros c Hc. apply gather_members. eauto.
      + intros c Hc. specialize (P1 c Hc). destruct c; [congruence|reflexivity].
    - destruct cl as [|c cl]; [|discriminate]. exfalso. destruct (proj2 (P3 0)); lia.
    - apply Forall_app. split.
      + rewrite Forall_map, Forall_forall. intros c Hc. specialize (P1 c Hc). destruct c; [congruence|discriminate].
      + apply Forall_forall. intros v Hv. now apply Htail.
    - apply Forall_app. split.
      + rewrite Forall_map, Forall_forall. intros c Hc. apply members_rect; eauto.
      + apply Forall_forall. intros v Hv. apply Htail in Hv as [-> _]. assumption. }
  split.
  - intros X' y' H. unfold assembled_spec. fold X_min. cbv zeta. exists T. split; [assumption|]. fold B I.
    destruct (Nat.leb_spec (count_label (d_y D) mn) 2) as [Hle|Hgt].
    { injection H as <- <-. left. auto. }
    unfold assembled_algorithm in H. inv_bind H. rename a into n.
    pose proof (det_st_inv _ _ _ _ _ _ (proj1 Hmin) Hst E) as Hn. clear E.
    destruct Hst as (Emn & Emj & _). rewrite Emn in H. clear Emn Emj st.
    destruct (Nat.eqb_spec n 0) as [Hn0|Hn0].
    { injection H as <- <-. left. rewrite Hn0 in Hn. auto. }
    fold X_min in H. rewrite Eb in H. cbn [bind] in H.
    destruct (Nat.eqb_spec (length B) 0) as [HB0|HB0].
    { injection H as <- <-. apply length_zero_iff_nil in HB0. left. auto. }
    destruct Hcl as (cl & Ecl & Hp & Ev & V1 & V2 & V3); [intros E0; rewrite E0 in HB0; cbn in HB0; lia|].
    rewrite Ecl in H. cbn [bind] in H. rewrite Ev in H. cbn [bind] in H. cbv zeta in H. fold tail in H.
    inv_bind H. rename a into S. injection H as <- <-. right.
    destruct (proj1 (assembled_generate_run p rs (d_dim D) _ n Hr V1 V2 V3) S E) as [G1 G2].
    exists n, S, cl. split; [assumption|]. split; [lia|]. split; [assumption|]. split; [reflexivity|].
    split; [now rewrite G1|]. split; [assumption|]. intros Hg x Hx. destruct (G2 Hg x Hx) as (v & Hv & Hh).
    apply in_app_or in Hv as [Hv|Hv].
    + right. apply in_map_iff in Hv as (c & <- & Hc). eauto.
    + left. apply Htail in Hv as [-> _]. assumption.
  - intros Hu Hpl n Hask.
    destruct (Nat.leb_spec (count_label (d_y D) mn) 2) as [Hle|Hgt]; [eauto|].
    unfold assembled_algorithm. rewrite (det_st_asked _ _ _ _ _ (proj1 Hmin) Hst), Hask. cbn [bind].
    destruct (Nat.eqb_spec (Z.to_nat n) 0) as [Hn0|Hn0]; [eauto|].
    destruct Hst as (Emn & Emj & _). rewrite Emn. fold X_min. rewrite Eb. cbn [bind].
    destruct (Nat.eqb_spec (length B) 0) as [HB0|HB0]; [eauto|].
    destruct Hcl as (cl & Ecl & Hp & Ev & V1 & V2 & V3); [intros E0; rewrite E0 in HB0; cbn in HB0; lia|].
    rewrite Ecl. cbn [bind]. rewrite Ev. cbn [bind]. cbv zeta. fold tail.
    destruct (proj2 (assembled_generate_run p rs (d_dim D) _ (Z.to_nat n) Hr V1 V2 V3) Hu Hpl ltac:(lia)) as [S ->].
    cbn [bind]. eauto.
Qed.

End Assembled.

(** * A_SUWO *)

(** [m] is the median of [l]. *)
Definition is_median (l : list Q) (m : Q) : Prop :=
  exists s, Permutation s l /\ StronglySorted Qle s /\ l <> [] /\
    (m == (nth ((length l - 1) / 2) s 0 + nth (length l / 2) s 0) / 2)%Q.

(** The rows that have at least one neighbour of their own label. *)
Definition supported (y : list Z) (T : list (list nat)) : list nat :=
  filter (fun i => 0 <? neighbours_of y (nth i y 0%Z) (nth i T [])) (seq 0 (length y)).

Definition suwo_spec (dist : row -> row -> Q) (p : suwo_params) (D : dataset) (mn mj : Z)
    (X' : list row) (y' : list Z) : Prop :=
  exists T,
    nearest_table dist (d_X D) (d_X D) (Nat.min (length (d_X D)) (su_n_neighbors p + 1)) T /\
    let K := supported (d_y D) T in
    let X := members (d_X D) K in
    let y := map (fun i => nth i (d_y D) 0%Z) K in
    let X_min := rows_with mn X y in
    let N := length X_min in
    ((X' = d_X D /\ y' = d_y D /\
      (count_label (d_y D) mn <= 2 \/ asked (su_proportion p) (d_y D) mn mj = Ok 0%Z \/ X_min = [])) \/
     exists n S meds th cl,
       asked (su_proportion p) (d_y D) mn mj = Ok (Z.of_nat n) /\ 0 < n /\ length S = n /\
       X' = X ++ S /\ y' = y ++ repeat mn n /\
       Forall2 (fun x m => is_median (map (dist x) X_min) m) X_min meds /\
       (th == su_c_thres p * qsum meds / inject_Z (Z.of_nat N))%Q /\
       partition_of N cl /\
       (forall i j, together cl i j ->
          chained (fun i j => dist (nth i X_min []) (nth j X_min [])) th N i j) /\
       (ss_gauss (su_ss p) = GNone -> forall x, In x S ->
          exists c, In c cl /\ in_hull (d_dim D) (members X_min c) x)).

Lemma sorted_map_nth (v : list Q) l : StronglySorted (fun i j => nth i v 0 <= nth j v 0)%Q l ->
  StronglySorted Qle (map (fun i => nth i v 0%Q) l).
Proof.
  induction 1 as [|i l H IH Hi]; cbn; constructor; auto. rewrite Forall_map. exact Hi.
Qed.

Lemma median_spec l : l <> [] -> exists m, median l = Ok m /\ is_median l m.
Proof.
  intros Hne. unfold median. set (s := map (fun i => nth i l 0%Q) (argsort l)).
  assert (L : length s = length l) by (unfold s; now rewrite map_length, argsort_length).
  cbv zeta. rewrite L. destruct (length l) eqn:E; [apply length_zero_iff_nil in E; contradiction|].
  rewrite <- E. eexists. split; [reflexivity|]. exists s. split; [|split; [|split]].
  - transitivity (map (fun i => nth i l 0%Q) (seq 0 (length l))); [|now rewrite map_nth_seq].
    unfold s. apply Permutation_map, argsort_perm.
  - unfold s. apply sorted_map_nth, argsort_sorted.
  - assumption.
  - reflexivity.
Qed.

Lemma existsb_where (f : nat -> bool) n i : i < n -> existsb (Nat.eqb i) (where_ (map f (seq 0 n))) = f i.
Proof.
  intros Hi. destruct (f i) eqn:E.
  - apply existsb_exists. exists i. split; [|apply Nat.eqb_refl]. apply where_in; [now rewrite map_length, seq_length|].
    rewrite (nth_indep _ false (f 0)) by now rewrite map_length, seq_length. rewrite map_nth, seq_nth by assumption. exact E.
  - destruct (existsb _ _) eqn:G; [|reflexivity]. apply existsb_exists in G as (j & Hj & Ej). apply Nat.eqb_eq in Ej. subst j.
    exfalso. unfold where_ in Hj. rewrite map_length, seq_length in Hj.
    assert (Hs : forall s m, In i (select (map f (seq s m)) (seq s m)) -> f i = true).
    { clear. intros s m. revert s. induction m as [|m IH]; intros s H; cbn in H; [destruct H|].
      destruct (f s) eqn:Ef; [destruct H as [<-|H]; [assumption|]|]; eauto. }
    apply Hs in Hj. congruence.
Qed.

Section Suwo.
Variable dist : row -> row -> Q.
Variable vol : list row -> Q.
Variable nn : list row -> list row -> nat -> res (list (list nat)).
Hypothesis Hnn : knn_ok dist nn.
Hypothesis Hsym : forall a b, (dist a b == dist b a)%Q.
Hypothesis Hpos : forall a b, (0 <= dist a b)%Q.

Lemma suwo_noise_ok y T : Forall (Forall (fun v => v < length y)) T -> length T = length y ->
  suwo_noise y T = Ok (where_ (map (fun i => neighbours_of y (nth i y 0%Z) (nth i T []) =? 0) (seq 0 (length y)))).
Proof.
  intros H Hl. unfold suwo_noise.
  assert (E : mapM (fun yt : Z * list nat => do c <- count_neighbours y (fst yt) (snd yt); Ok (c =? 0)) (combine y T) =
     Ok (map (fun yt => neighbours_of y (fst yt) (snd yt) =? 0) (combine y T))).
  { rewrite <- mapM_pure. apply mapM_ext_in. intros [z t] Hzt. apply in_combine_r in Hzt. cbn [fst snd].
    rewrite Forall_forall in H. rewrite count_neighbours_ok by auto. reflexivity. }
  rewrite E. cbn [bind]. f_equal. f_equal.
  apply nth_ext with (d := false) (d' := false); [rewrite !map_length, combine_length, seq_length; lia|].
  intros i Hi. rewrite map_length, combine_length in Hi.
  rewrite (nth_indep _ false ((fun yt => neighbours_of y (fst yt) (snd yt) =? 0) (0%Z, []))) by (rewrite map_length, combine_length; lia).
  rewrite (map_nth (fun yt => neighbours_of y (fst yt) (snd yt) =? 0)). rewrite combine_nth by lia. cbn [fst snd].
  rewrite (nth_indep _ false ((fun i => neighbours_of y (nth i y 0%Z) (nth i T []) =? 0) 0)) by (rewrite map_length, seq_length; lia).
  rewrite (map_nth (fun i => neighbours_of y (nth i y 0%Z) (nth i T []) =? 0)). now rewrite seq_nth by lia.
Qed.

Lemma suwo_remove_ok p X y : length X = length y ->
  exists T, nearest_table dist X X (Nat.min (length X) (su_n_neighbors p + 1)) T /\
    suwo_remove_noise nn p X y = Ok (members X (supported y T), map (fun i => nth i y 0%Z) (supported y T)).
Proof.
  intros Hl. unfold suwo_remove_noise. set (k := Nat.min (length X) (su_n_neighbors p + 1)).
  destruct (Hnn X X k ltac:(lia)) as (T & -> & HT). exists T. split; [assumption|]. cbn [bind].
  destruct (nearest_table_shape _ _ _ _ _ HT) as (M1 & M2 & M3). rewrite Hl in M3.
  rewrite suwo_noise_ok by (assumption || lia). cbn [bind].
  rewrite (delete_idx_kept []), (delete_idx_kept 0%Z). rewrite Hl.
  assert (E : kept (length y) (where_ (map (fun i => neighbours_of y (nth i y 0%Z) (nth i T []) =? 0) (seq 0 (length y)))) = supported y T).
  { unfold kept, supported. apply filter_ext_in. intros i Hi. apply in_seq in Hi.
    rewrite (existsb_where (fun i => neighbours_of y (nth i y 0%Z) (nth i T []) =? 0)) by lia.
    destruct (neighbours_of y (nth i y 0%Z) (nth i T [])); reflexivity. }
  rewrite E. reflexivity.
Qed.

Lemma suwo_threshold_ok p X_min : X_min <> [] ->
  exists meds th, suwo_threshold dist p X_min = Ok th /\
    Forall2 (fun x m => is_median (map (dist x) X_min) m) X_min meds /\
    (th == su_c_thres p * qsum meds / inject_Z (Z.of_nat (length X_min)))%Q.
Proof.
  intros Hne. unfold suwo_threshold.
  assert (G : forall l, exists meds, mapM (fun x => median (map (dist x) X_min)) l = Ok meds /\
    Forall2 (fun x m => is_median (map (dist x) X_min) m) l meds).
  { induction l as [|x l (meds & E & H)]; [exists []; auto|].
    destruct (median_spec (map (dist x) X_min)) as (m & Em & Hm); [destruct X_min; [congruence|discriminate]|].
    exists (m :: meds). cbn [mapM]. rewrite Em. cbn [bind]. rewrite E. split; [reflexivity|now constructor]. }
  destruct (G X_min) as (meds & -> & Hm). cbn [bind]. pose proof (Forall2_length _ _ _ Hm) as L.
  assert (Em : qmean meds = Ok (qsum meds / inject_Z (Z.of_nat (length meds)))%Q) by (destruct meds, X_min; try discriminate; [congruence|reflexivity]).
  rewrite Em. cbn [bind]. exists meds. eexists. split; [reflexivity|]. split; [assumption|]. rewrite <- L.
  unfold Qdiv. ring.
Qed.

Lemma fix_distribution_props d : Forall (Qle 0) d -> Forall (Qle 0) (fix_distribution d) /\
  length (fix_distribution d) = length d.
Proof.
  intros H. unfold fix_distribution. destruct (Qeq_bool (qsum d) 0); [|auto]. split; [|apply repeat_length].
  apply Forall_forall. intros x Hx. apply repeat_spec in Hx. subst. discriminate.
Qed.

Lemma suwo_sizing_ok lda cl X_min cd : (forall V q, lda V = Ok q -> (0 <= q)%Q) ->
  suwo_sizing lda cl X_min = Ok cd -> Forall (Qle 0) cd /\ (qsum cd == 1)%Q /\ length cd = length cl.
Proof.
  intros Hlda H. unfold suwo_sizing in H. inv_bind H. rename a into eps.
  pose proof (mapM_length _ _ _ E) as L.
  assert (He : Forall (Qle 0) eps).
  { revert E. clear - Hlda. revert eps. induction cl as [|c cl IH]; intros eps E; cbn [mapM] in E.
    - injection E as <-. constructor.
    - inv_bind E. rename a into e. inv_bind E. rename a into es. injection E as <-. constructor; [|now apply IH].
      destruct (1 <? length c); [|injection E0 as <-; discriminate]. inv_bind E0. eapply Hlda. exact E0. }
  destruct (fix_distribution_props eps He) as [F1 F2].
  destruct (normalize_props _ _ F1 H) as (C1 & C2 & C3 & _). split; [assumption|]. split; [assumption|]. congruence.
Qed.

Lemma q_min_nonneg l q : (0 <= q)%Q -> Forall (Qle 0) l -> (0 <= fold_left q_min l q)%Q.
Proof.
  revert q. induction l as [|x l IH]; intros q Hq H; cbn; [assumption|]. inversion H; subst.
  apply IH; [|assumption]. unfold q_min. destruct (Qle_bool q x); assumption.
Qed.

Lemma recip_nonneg q d : (0 <= q -> 0 <= 1 / (q / inject_Z (Z.of_nat d)))%Q.
Proof.
  intros H. assert (G : (0 <= q / inject_Z (Z.of_nat d))%Q).
  { unfold Qdiv. apply Qmult_le_0_compat; [assumption|]. apply Qinv_le_0_compat. change 0%Q with (inject_Z 0).
    rewrite <- Zle_Qle. lia. }
  unfold Qdiv at 1. apply Qmult_le_0_compat; [discriminate|]. now apply Qinv_le_0_compat.
Qed.

Lemma suwo_inverse_ok d X_maj X_min inv : suwo_inverse dist nn d X_maj X_min = Ok inv ->
  Forall (Qle 0) inv.
Proof.
  intros H. unfold suwo_inverse in H. inv_bind H. rename a into t. inv_bind H. rename a into d0. injection H as <-.
  assert (Hd : Forall (Qle 0) d0).
  { revert E0. clear - Hpos. generalize (combine X_min t). intros l. revert d0. induction l as [|[x tt] l IH]; intros d0 E; cbn [mapM] in E.
    - injection E as <-. constructor.
    - inv_bind E. rename a into e. inv_bind E. rename a into es. injection E as <-. constructor; [|now apply IH].
      cbn [fst snd] in E0. inv_bind E0. inv_bind E0. injection E0 as <-. apply Hpos. }
  rewrite Forall_map. set (nz := filter _ d0).
  assert (Hnz : Forall (Qle 0) nz).
  { unfold nz. apply Forall_forall. intros x Hx. apply filter_In in Hx as [Hx _]. rewrite Forall_forall in Hd. auto. }
  destruct nz as [|q0 l].
  - rewrite Forall_map. apply Forall_forall. intros x _. apply recip_nonneg. discriminate.
  - inversion Hnz; subst. rewrite Forall_map. apply Forall_forall. intros x Hx. rewrite Forall_forall in Hd.
    apply recip_nonneg. destruct (Qeq_bool x 0); [now apply q_min_nonneg|auto].
Qed.

Lemma mapM_nth {A B} (f : A -> res B) l r da db i : mapM f l = Ok r -> i < length l -> f (nth i l da) = Ok (nth i r db).
Proof.
  revert r i. induction l as [|x l IH]; intros r i H Hi; [cbn in Hi; lia|]. cbn [mapM] in H.
  inv_bind H. inv_bind H. injection H as <-. destruct i; cbn; [assumption|]. apply IH; [assumption|]. cbn in Hi. lia.
Qed.

Lemma gather_nonneg l c g : Forall (Qle 0) l -> gather l c = Ok g -> Forall (Qle 0) g /\ length g = length c.
Proof.
  intros Hl H. split; [|now apply gather_length in H].
  apply Forall_forall. intros x Hx. apply gather_incl in H. rewrite Forall_forall in Hl. apply Hl, H, Hx.
Qed.

Lemma suwo_call p rs d X_maj X_min cl cd w nb n S :
  rngs_ok rs -> rect d X_min -> Forall (fun c => c <> []) cl -> (forall c i, In c cl -> In i c -> i < length X_min) ->
  Forall (Qle 0) cd -> (qsum cd == 1)%Q -> length cd = length cl ->
  suwo_within dist nn p d X_maj X_min cl = Ok (w, nb) ->
  suwo_generate vol p rs d X_min cl cd w nb n = Ok S ->
  length S = n /\ (ss_gauss (su_ss p) = GNone -> forall x, In x S -> exists c, In c cl /\ in_hull d (members X_min c) x).
Proof.
  intros Hr HX Hne Hlt D1 D2 D3 Hw H.
  unfold suwo_within in Hw. inv_bind Hw. rename a into inv. rename E into Einv. apply suwo_inverse_ok in Einv.
  inv_bind Hw. rename a into ds. rename E into Eds. inv_bind Hw. rename a into nbs. rename E into Enb.
  injection Hw as <- <-. unfold suwo_generate in H. inv_bind H. rename a into w'. rename E into Ew'.
  pose proof (mapM_length _ _ _ Eds) as Lds. pose proof (mapM_length _ _ _ Enb) as Lnb. pose proof (mapM_length _ _ _ Ew') as Lw'.
  destruct (rng_choice _ (Hr 0) cd n D1 D2) as [R1 R2]. rewrite Forall_forall in R2.
  apply (by_cluster_spec (fun ci x => ss_gauss (su_ss p) = GNone -> exists c, In c cl /\ in_hull d (members X_min c) x)) in H.
  { destruct H as [H1 H2]. split; [congruence|]. intros Hg x Hx. destruct (H2 x Hx) as (c & _ & G). exact (G Hg). }
  intros ci k S' Hci HS'. assert (Hi : ci < length cl).
  { destruct (R2 ci Hci) as (q & Eq & _). rewrite <- D3. apply nth_error_Some. congruence. }
  rewrite (get_nth []) in HS' by assumption. cbn [bind] in HS'. set (c := nth ci cl []) in *.
  assert (Hc : In c cl) by now apply nth_In.
  rewrite gather_members in HS' by eauto. cbn [bind] in HS'.
  rewrite (get_nth []) in HS' by lia. cbn [bind] in HS'. rewrite (get_nth []) in HS' by lia. cbn [bind] in HS'.
  (* the neighbour table *)
  pose proof (mapM_nth _ _ _ [] [] ci Enb Hi) as En. cbv beta in En. fold c in En. rewrite gather_members in En by eauto. cbn [bind] in En.
  assert (Lm : length (members X_min c) = length c) by apply map_length.
  destruct (Hnn (members X_min c) (members X_min c) (Nat.min (length c) (su_n_neighbors p)) ltac:(lia)) as (T & ET & HT).
  rewrite ET in En. injection En as En. rewrite <- En in HS'. clear En ET.
  destruct (nearest_table_shape _ _ _ _ _ HT) as (M1 & M2 & M3).
  (* the weights *)
  pose proof (mapM_nth _ _ _ [] [] ci Eds Hi) as Ed. cbv beta in Ed. fold c in Ed. inv_bind Ed. rename a into g. inv_bind Ed. rename a into thr.
  destruct (gather_nonneg _ _ _ Einv E) as [G1 G2].
  assert (Hq : Forall (Qle 0) (map (fun q => q_min q thr) g)).
  { assert (Ht : (0 <= thr)%Q).
    { assert (Et : thr = (qsum g / inject_Z (Z.of_nat (length g)))%Q) by (unfold qmean in E0; destruct g; [discriminate|congruence]).
      rewrite Et. unfold Qdiv. apply Qmult_le_0_compat; [now apply qsum_nonneg|].
      apply Qinv_le_0_compat. change 0%Q with (inject_Z 0). rewrite <- Zle_Qle. lia. }
    rewrite Forall_map. eapply Forall_impl; [|exact G1]. intros q Hq. unfold q_min. destruct (Qle_bool q thr); assumption. }
  destruct (normalize_props _ _ Hq Ed) as (N1 & _ & N3 & _). rewrite map_length in N3.
  pose proof (mapM_nth _ _ _ [] [] ci Ew' ltac:(lia)) as Ew. cbv beta in Ew.
  destruct (fix_distribution_props _ N1) as [F1 F2]. destruct (normalize_props _ _ F1 Ew) as (O1 & _ & O3 & _).
  assert (HV : rect d (members X_min c)) by (apply members_rect; eauto).
  assert (Ha : args_ok (mk_args (members X_min c) d T (Nat.min (length c) (su_n_neighbors p)) (Some (nth ci w' [])) None None false None)).
  { constructor; cbn; auto; try discriminate; [lia|]. split; [lia|assumption]. }
  destruct (ss_hull _ _ _ _ _ _ Ha (Hr _) HS') as [L1 L2]. split; [assumption|]. intros x Hx Hg. exists c. split; [assumption|].
  exact (L2 Hg _ (incl_refl _) (incl_refl _) x Hx).
Qed.

Lemma supported_lt y T i : In i (supported y T) -> i < length y.
Proof. unfold supported. intros H. apply filter_In in H as [H _]. apply in_seq in H. lia. Qed.

Lemma suwo_cases p agg lda rs D mn mj X' y' :
  rngs_ok rs -> (forall V q, lda V = Ok q -> (0 <= q)%Q) ->
  wf_data (d_X D) (d_dim D) (d_y D) -> is_minority (d_y D) mn mj ->
  suwo_sample vol dist nn p agg lda rs D = Ok (X', y') -> suwo_spec dist p D mn mj X' y'.
Proof.
  intros Hr Hlda [HXr Hlen] Hmin H.
  destruct (suwo_remove_ok p (d_X D) (d_y D) Hlen) as (T & HT & Erm).
  exists T. split; [assumption|]. cbv zeta. set (K := supported (d_y D) T) in *.
  set (X := members (d_X D) K) in *. set (y := map (fun i => nth i (d_y D) 0%Z) K) in *. set (X_min := rows_with mn X y).
  assert (HX : rect (d_dim D) X).
  { apply members_rect; [assumption|]. intros i Hi. rewrite Hlen. now apply supported_lt in Hi. }
  assert (Lxy : length X = length y) by (unfold X, y, members; now rewrite !map_length).
  assert (Hr' : rect (d_dim D) X_min) by now apply rows_with_rect.
  unfold suwo_sample in H.
  destruct (sample_default (suwo_algorithm vol dist nn p agg lda rs) D mn mj Hmin) as (st & Hst & E). rewrite E in H. clear E.
  destruct (Nat.leb_spec (count_label (d_y D) mn) 2) as [Hle|Hgt].
  { injection H as <- <-. left. auto. }
  unfold suwo_algorithm in H. inv_bind H. rename a into n.
  pose proof (det_st_inv _ _ _ _ _ _ (proj1 Hmin) Hst E) as Hn. clear E.
  destruct Hst as (Emn & Emj & _). rewrite Emn, Emj in H. clear Emn Emj st.
  destruct (Nat.eqb_spec n 0) as [Hn0|Hn0].
  { injection H as <- <-. left. rewrite Hn0 in Hn. auto. }
  rewrite Erm in H. cbn [bind] in H. cbv zeta in H. fold X_min in H.
  destruct (Nat.eqb_spec (length X_min) 0) as [H0|H0].
  { injection H as <- <-. apply length_zero_iff_nil in H0. left. auto. }
  right. set (X_maj := rows_with mj X y) in *.
  inv_bind H. destruct a as [dm_maj dm_min]. rename E into Edm.
  assert (Hdm : dm_min = finite (dist_matrix dist X_min X_min) /\ length dm_maj = length X_min).
  { unfold suwo_distances in Edm. inv_bind Edm. cbv zeta in Edm. inv_bind Edm. rename a0 into dmm. injection Edm as <- <-.
    split; [reflexivity|]. now apply mapM_length in E0. }
  destruct Hdm as [-> Lmaj]. clear Edm.
  destruct (suwo_threshold_ok p X_min) as (meds & th & Eth & Hmed & Hth); [intros E0; rewrite E0 in H0; cbn in H0; lia|].
  rewrite Eth in H. cbn [bind] in H. clear Eth.
  destruct (suwo_clusters_spec (fun i j => dist (nth i X_min []) (nth j X_min [])) th (length X_min) dm_maj
     (finite (dist_matrix dist X_min X_min))) as (cl & Ecl & Hp & Htog).
  { intros i j. apply Hsym. } { lia. } { apply finite_square. } { assumption. }
  { intros i j Hi Hj. rewrite finite_at by assumption. eexists. split; [reflexivity|]. reflexivity. }
  rewrite Ecl in H. cbn [bind] in H. clear Ecl.
  inv_bind H. rename a into cd. rename E into Ecd. destruct (suwo_sizing_ok _ _ _ _ Hlda Ecd) as (D1 & D2 & D3).
  inv_bind H. destruct a as [w nb]. rename E into Ew. inv_bind H. rename a into S. injection H as <- <-.
  pose proof Hp as (P1 & P2 & P3).
  destruct (suwo_call _ _ _ _ _ _ _ _ _ _ _ Hr Hr' P1 ltac:(intros c i Hc Hi; apply P3, in_concat; eauto) D1 D2 D3 Ew E) as [G1 G2].
  exists n, S, meds, th, cl. split; [assumption|]. split; [lia|]. split; [assumption|]. split; [reflexivity|]. split; [reflexivity|].
  split; [assumption|]. split; [assumption|]. split; [assumption|]. split; [assumption|]. exact G2.
Qed.

End Suwo.
