(** Proofs about NearModel: SN_SMOTE, SMMO. *)

From Coq Require Import List ZArith QArith Bool Arith Lia Lqa Sorting.Sorted Permutation.
From Verif Require Import Np NpFacts BaseFacts SimplexModel Spec SpecDanger SpecNoise SpecComp SimplexFacts SimplexGeom Float64
  SamplerModel SamplerFacts OversFacts BaseModel KnnFacts DangerModel DangerFacts ClusterOversModel OversGen
  ClusterOversFacts ClusterFacts NoiseModel NoiseFacts NoiseFacts2 CompModel CompFacts CompFacts2 EditModel SpecEdit EditFacts4 EditFacts5
  NearModel SpecNear NearFacts NearFacts2.
Import ListNotations.
Open Scope nat_scope.

(** One base, one vertex. *)
Lemma pair_call vol ss d x v n r : rng_ok r -> unif_pos r -> plain_ss ss -> ss_gauss ss = GNone -> length x = d -> length v = d ->
  exists S, sample_simplex vol ss (mk_args [x] d [[0; 0]] 2 None None (Some [v]) false None) n r = Ok S /\
    length S = n /\ forall z, In z S -> convex_comb d (firstn (ss_n_dim ss) [x; v]) z.
Proof.
  intros Hr Hu Hss Hg Hx Hv. set (args := mk_args [x] d [[0; 0]] 2 None None (Some [v]) false None).
  assert (Hargs : args_ok args).
  { constructor; cbn; auto; try discriminate; repeat constructor; auto. }
  destruct (ss_call vol ss args n r 0 Hargs Hr Hu Hss) as (S & ES & LS & FS); cbn; auto.
  exists S. split; [assumption|]. split; [assumption|]. intros z Hz. specialize (FS Hg). rewrite Forall_forall in FS. specialize (FS z Hz).
  destruct Hss as (Hnd & _). cbn [args a_dim a_X a_X_vertices a_indices a_ncols vertex_set] in FS.
  destruct (Nat.eq_dec (ss_n_dim ss) 1) as [E|E].
  - rewrite E in FS |- *. change (Nat.min 1 2 - 1) with 0 in FS. apply sample_no_column in FS as (b & Hb & FS). cbn in Hb.
    assert (b = 0) by lia. subst b. exact FS.
  - replace (Nat.min (ss_n_dim ss) 2) with 2 in FS by lia. apply sample_all_columns in FS as (b & Hb & _ & FS); [|repeat constructor].
    cbn in Hb. assert (b = 0) by lia. subst b. destruct (ss_n_dim ss) as [|[|nd]]; try lia. cbn [firstn]. rewrite firstn_nil. exact FS.
Qed.

(** * SN_SMOTE *)

Lemma sn_improved_total dist X_min x t : 3 <= length t -> Forall (fun i => i < length X_min) t ->
  exists b, sn_improved dist X_min x t = Ok b.
Proof.
  intros Ht F. unfold sn_improved. rewrite Forall_forall in F.
  rewrite (get_nth 0 t 1) by lia. cbn [bind]. rewrite (get_nth [] X_min) by (apply F, nth_In; lia). cbn [bind].
  rewrite (get_nth 0 t 2) by lia. cbn [bind]. rewrite (get_nth [] X_min) by (apply F, nth_In; lia). cbn [bind]. eauto.
Qed.

Lemma sn_neighbours_ok dist X_min k T q : nearest_table dist X_min X_min k T -> 3 <= k -> q <> 1 ->
  sn_neighbours dist q X_min T = Ok (map (fun t => nth 1 t 0) T).
Proof.
  intros HT Hk Hq. destruct (nearest_table_shape _ _ _ _ _ HT) as (L & R & F). unfold sn_neighbours.
  assert (E : mapM (fun t => get t 1) T = Ok (map (fun t => nth 1 t 0) T)).
  { rewrite <- (mapM_pure (fun t => nth 1 t 0)). apply mapM_ext_in. intros t Ht. apply get_nth.
    unfold rect in R. rewrite Forall_forall in R. rewrite (R t Ht). lia. }
  rewrite E. cbn [bind].
  destruct (mapM_total (fun xt => sn_improved dist X_min (fst xt) (snd xt)) (combine X_min T)) as [im Ei].
  { apply Forall_forall. intros [x t] Hxt. cbn. apply in_combine_r in Hxt. unfold rect in R. rewrite Forall_forall in R, F.
    apply sn_improved_total; [rewrite (R t Hxt); lia|now apply F]. }
  rewrite Ei. cbn [bind]. destruct (Nat.eqb_spec q 1); [congruence|reflexivity].
Qed.

Lemma sn_smote_runs dist vol nn p rs D mn mj n :
  knn_ok dist nn -> rngs_ok rs -> rngs_pos rs -> wf_data (d_X D) (d_dim D) (d_y D) -> is_minority (d_y D) mn mj ->
  asked (ne_proportion p) (d_y D) mn mj = Ok n -> 2 <= ne_n_neighbors p -> plain_ss (ne_ss p) -> ss_gauss (ne_ss p) = GNone ->
  runs D mn n (sn_smote_spec dist p D mn n) (sn_smote_sample vol dist nn p rs D).
Proof.
  intros Hnn Hr Hu [HX Hl] Hmin Ha Hk Hss Hg. unfold sn_smote_sample, sn_smote_algorithm.
  apply (runs_intro _ _ _ _ _ _ _ Hmin Ha). intros st (E1 & E2 & _) H2 Hn. rewrite E1.
  set (X_min := rows_with mn (d_X D) (d_y D)).
  assert (HL : length X_min = count_label (d_y D) mn) by now apply rows_with_length.
  assert (HR : rect (d_dim D) X_min) by now apply rows_with_rect.
  set (k := Nat.min (ne_n_neighbors p * 10) (length X_min)).
  destruct (Hnn X_min X_min k) as (T & ET & HT); [unfold k; lia|]. rewrite ET. cbn [bind].
  assert (Hk3 : 3 <= k) by (unfold k; lia).
  rewrite (sn_neighbours_ok dist X_min k T) by (auto; lia). cbn [bind].
  destruct (nearest_table_shape _ _ _ _ _ HT) as (L & R & F).
  destruct (choice_range_ok (rs 0) (length X_min) (Z.to_nat n) (Hr 0)) as (base & -> & B1 & B2); [lia|]. cbn [bind].
  set (call := fun b count => _).
  assert (Hcall : forall b c, In b base -> exists S, call b c = Ok S /\ length S = c /\
     forall z, In z S -> convex_comb (d_dim D) (firstn (ss_n_dim (ne_ss p)) [nth b X_min []; nth (nth 1 (nth b T []) 0) X_min []]) z).
  { intros b c Hb. rewrite Forall_forall in B2. specialize (B2 b Hb). unfold call. rewrite (get_nth [] X_min) by assumption. cbn [bind].
    rewrite (get_nth 0) by (rewrite map_length; lia). cbn [bind].
    rewrite (nth_indep _ 0 ((fun t => nth 1 t 0) [])) by (rewrite map_length; lia). rewrite (map_nth (fun t => nth 1 t 0)).
    destruct (table_row _ _ _ _ _ b HT) as [T1 T2]; [assumption|].
    assert (Hv : nth 1 (nth b T []) 0 < length X_min) by (rewrite Forall_forall in T2; apply T2, nth_In; lia).
    rewrite (get_nth [] X_min) by assumption. cbn [bind]. apply pair_call; auto; now apply rect_nth. }
  destruct (by_cluster_total call base) as [S ES].
  { intros H0. subst base. cbn in B1. lia. }
  { intros b c Hb. destruct (Hcall b c Hb) as (S & ES & _). eauto. }
  rewrite ES. cbn [bind]. exists S. split; [reflexivity|].
  destruct (by_cluster_spec (fun b z => convex_comb (d_dim D) (firstn (ss_n_dim (ne_ss p)) [nth b X_min []; nth (nth 1 (nth b T []) 0) X_min []]) z) call base S) as [S1 S2].
  { intros b c S' Hb E. destruct (Hcall b c Hb) as (S'' & E' & G). rewrite E in E'. injection E' as <-. exact G. }
  { assumption. }
  split; [lia|]. exists T. split; [exact HT|]. apply Forall_forall. intros x Hx. destruct (S2 x Hx) as (b & Hb & G).
  exists b. split; [rewrite Forall_forall in B2; now apply B2|exact G].
Qed.

(** * SMMO *)

Lemma smmo_selected_where mn preds y sel : sel = where_ (smmo_selected mn preds y) ->
  StronglySorted lt sel /\
  (forall i, In i sel <-> i < length y /\ nth i y 0%Z = mn /\ outvoted Majority 0 preds y i).
Proof.
  intros ->. assert (L : length (smmo_selected mn preds y) = length y).
  { unfold smmo_selected. rewrite map_length, combine_length, seq_length. lia. }
  split; [rewrite where_filter; apply filter_seq_sorted|]. intros i. rewrite NoiseFacts2.where_in, L.
  split; intros [Hi G]; (split; [assumption|]).
  - unfold smmo_selected in G. set (g := fun p => _) in G. rewrite (nth_indep _ false (g (0, 0%Z))) in G by (rewrite map_length, combine_length, seq_length; lia).
    rewrite map_nth, nth_combine_seq in G by assumption. unfold g in G. cbn [fst snd] in G. apply andb_true_iff in G as [G1 G2].
    apply Z.eqb_eq in G2. split; [assumption|]. unfold outvoted. set (s := zsum _) in *. split; [|discriminate].
    apply negb_true_iff, Z.eqb_neq in G1. destruct (Z.ltb_spec (Z.of_nat (length preds)) (2 * s)); [left|right]; split; auto.
  - destruct G as [G1 [G2 _]]. unfold smmo_selected. set (g := fun p => _). rewrite (nth_indep _ false (g (0, 0%Z))) by (rewrite map_length, combine_length, seq_length; lia).
    rewrite map_nth, nth_combine_seq by assumption. unfold g. cbn [fst snd]. set (s := zsum _) in *. rewrite G1, Z.eqb_refl, andb_true_r.
    apply negb_true_iff, Z.eqb_neq. rewrite G1 in G2. destruct (Z.ltb_spec (Z.of_nat (length preds)) (2 * s)); intuition lia.
Qed.

Lemma smmo_runs dist vol nn ensemble p rs D mn mj n :
  knn_ok dist nn -> rngs_ok rs -> rngs_pos rs -> wf_data (d_X D) (d_dim D) (d_y D) -> is_minority (d_y D) mn mj ->
  asked (ne_proportion p) (d_y D) mn mj = Ok n -> 1 <= ne_n_neighbors p -> plain_ss (ne_ss p) -> ss_gauss (ne_ss p) = GNone ->
  ensemble (d_X D) (d_y D) <> [] ->
  runs D mn n (smmo_spec dist (ensemble (d_X D) (d_y D)) p D mn n) (smmo_sample vol nn ensemble p rs D).
Proof.
  intros Hnn Hr Hu [HX Hl] Hmin Ha Hk Hss Hg He. unfold smmo_sample, smmo_algorithm.
  apply (runs_intro _ _ _ _ _ _ _ Hmin Ha). intros st (E1 & E2 & _) H2 Hn. rewrite E1.
  set (preds := ensemble (d_X D) (d_y D)) in *.
  replace (match preds with [] => Err ValueError | _ :: _ => _ end) with
    (let mask := smmo_selected mn preds (d_y D) in
      let X_sel := select mask (d_X D) in
      if length X_sel <? 2 then Ok (d_X D, d_y D)
      else
        let X_min := rows_with mn (d_X D) (d_y D) in
        let k := Nat.min (length X_min) (ne_n_neighbors p + 1) in
        do ind <- nn X_min X_sel k;
        do samples <- smmo_generate vol (ne_ss p) rs (d_dim D) X_min ind (Z.to_nat n);
        Ok (extended D st samples)) by (destruct preds; [congruence|reflexivity]).
  cbv zeta. set (sel := where_ (smmo_selected mn preds (d_y D))).
  destruct (smmo_selected_where mn preds (d_y D) sel eq_refl) as [Hs1 Hs2].
  assert (Lm : length (smmo_selected mn preds (d_y D)) = length (d_y D)).
  { unfold smmo_selected. rewrite map_length, combine_length, seq_length. lia. }
  assert (EX : select (smmo_selected mn preds (d_y D)) (d_X D) = rows_at (d_X D) sel).
  { rewrite (select_nth []) by lia. unfold sel. rewrite where_filter. unfold rows_at. rewrite Lm, Hl. reflexivity. }
  rewrite EX, rows_at_length. clear EX.
  set (X_min := rows_with mn (d_X D) (d_y D)).
  assert (HL : length X_min = count_label (d_y D) mn) by now apply rows_with_length.
  assert (HR : rect (d_dim D) X_min) by now apply rows_with_rect.
  set (k := Nat.min (length X_min) (ne_n_neighbors p + 1)).
  assert (Hk2 : 2 <= k) by (unfold k; lia).
  destruct (Hnn X_min (rows_at (d_X D) sel) k) as (T & ET & HT); [unfold k; lia|]. rewrite ET. cbn [bind].
  destruct (nearest_table_shape _ _ _ _ _ HT) as (L & R & F). rewrite rows_at_length in L.
  destruct (Nat.ltb_spec (length sel) 2).
  { exists []. split; [unfold extended; cbn; now rewrite !app_nil_r|]. exists sel, T. split; [assumption|]. split; [assumption|].
    split; [exact HT|]. split; [reflexivity|]. split; [lia|constructor]. }
  unfold smmo_generate. destruct (neighbour_means_ok _ _ _ _ _ _ HT HR Hk2) as (means & -> & M1 & M2 & M3). cbn [bind].
  rewrite rows_at_length in M1, M3.
  destruct (choice_range_ok (rs 0) (length means) (Z.to_nat n) (Hr 0)) as (base & -> & B1 & B2); [lia|]. cbn [bind].
  set (call := fun b count => _).
  set (P := fun b z => convex_comb (d_dim D) (firstn (ss_n_dim (ne_ss p)) [nth b means []; nth (nth 0 (nth b T []) 0) X_min []]) z).
  assert (Hcall : forall b c, In b base -> exists S, call b c = Ok S /\ length S = c /\ forall z, In z S -> P b z).
  { intros b c Hb. rewrite Forall_forall in B2. specialize (B2 b Hb). unfold call. rewrite (get_nth [] means) by assumption. cbn [bind].
    rewrite (get_nth [] T) by lia. cbn [bind]. destruct (table_row _ _ _ _ _ b HT) as [T1 T2]; [rewrite rows_at_length; lia|].
    rewrite (get_nth 0 (nth b T [])) by lia. cbn [bind].
    assert (Hv : nth 0 (nth b T []) 0 < length X_min) by (rewrite Forall_forall in T2; apply T2, nth_In; lia).
    rewrite (get_nth [] X_min) by assumption. cbn [bind]. apply pair_call; auto; now apply rect_nth. }
  destruct (by_cluster_total call base) as [S ES].
  { intros H0. subst base. cbn in B1. lia. }
  { intros b c Hb. destruct (Hcall b c Hb) as (S & ES & _). eauto. }
  rewrite ES. cbn [bind]. exists S. split; [reflexivity|].
  destruct (by_cluster_spec P call base S) as [S1 S2].
  { intros b c S' Hb E. destruct (Hcall b c Hb) as (S'' & E' & G). rewrite E in E'. injection E' as <-. exact G. }
  { assumption. }
  exists sel, T. split; [assumption|]. split; [assumption|]. split; [exact HT|]. split; [lia|]. split; [lia|].
  apply Forall_forall. intros x Hx. destruct (S2 x Hx) as (b & Hb & G). rewrite Forall_forall in B2. specialize (B2 b Hb).
  exists b, (nth b means []). split; [lia|]. split; [apply M3; lia|exact G].
Qed.

(** Labels other than 0 and 1: every minority row is selected. *)
Lemma smmo_other_label preds y i mn : nth i y 0%Z = mn -> mn <> 0%Z -> mn <> 1%Z -> outvoted Majority 0 preds y i.
Proof.
  intros E H0 H1. unfold outvoted. cbv zeta. rewrite E. split; [|discriminate].
  destruct (Z.ltb_spec (Z.of_nat (length preds)) (2 * zsum (map (fun p => nth i p 0%Z) preds))); [left|right]; split; auto; lia.
Qed.
