(** Proofs about OUPS. *)

From Coq Require Import List ZArith QArith Qabs Qminmax Qround Qpower Bool Arith Lia Lqa Sorting.Sorted Permutation.
From Verif Require Import Np PyVal NpFacts BaseFacts SimplexModel Spec SpecDanger SpecNoise SpecComp SimplexFacts SimplexGeom Float64
  SamplerModel SamplerFacts OversFacts BaseModel KnnFacts DangerModel DangerFacts BorderFacts ClusterModel ClusterOversModel OversGen
  ClusterOversFacts ClusterFacts NoiseModel NoiseFacts NoiseFacts2 CompModel CompFacts CompFacts2 CompFacts3 CompFacts4 EditModel SpecEdit EditFacts EditFacts3 EditFacts4 EditFacts5
  SpecNear NearFacts NearFacts2 LevelModel SpecLevel LevelFacts LevelFacts3 LevelFacts4 SpecGroup GroupFacts GroupFacts2 GroupFacts4 WrapModel SpecWrap WrapFacts WrapFacts2 WrapFacts3 DirModel SpecDir DirFacts DirFacts3 RegionModel SpecRegion.
Import ListNotations.
Open Scope nat_scope.

Lemma qprod_positive l : Forall (Qlt 0) l -> (0 < qprod l)%Q.
Proof.
  induction 1 as [|q l Hq Hl IH]; [reflexivity|]. change (qprod (q :: l)) with (q * qprod l)%Q. now apply Qmult_lt_0_compat.
Qed.

Lemma ss_weighted vol ss a n r b sw : args_ok a -> rng_ok r -> unif_pos r -> plain_ss ss ->
  1 <= a_ncols a -> b < length (a_indices a) -> a_simplex_weights a = Some sw ->
  match a_base_weights a with Some w => (0 < nth b w 0)%Q | None => True end ->
  (forall q, 1 <= q < Nat.min (ss_n_dim ss) (a_ncols a) -> (0 < nth q (nth b sw []) 0)%Q) ->
  exists S, sample_simplex vol ss a n r = Ok S /\ length S = n /\
  (ss_gauss ss = GNone ->
   Forall (neighbour_sample (a_dim a) (a_X a) (vertex_set (a_X a) (a_X_vertices a)) (a_indices a) (a_ncols a)
      (Nat.min (ss_n_dim ss) (a_ncols a) - 1) (a_base_weights a) (a_simplex_weights a)) S).
Proof.
  intros Ha Hr Hu (Hd & Hm & Hw) Hc Hb Hs Hbw Hq. set (nd := Nat.min (ss_n_dim ss) (a_ncols a)) in *.
  destruct (sample_simplex_total vol ss a n r Ha Hr Hu Hm Hd Hc) as [S ES]; auto.
  { exists (b, seq 1 (nd - 1)). fold nd. rewrite Hs. cbn [fst]. split; [|split].
    - apply base_idx_in; [unfold nd; lia|]. split; [assumption|]. split; [apply seq_length|]. split; [apply seq_sorted|].
      rewrite Forall_forall. intros q H. apply in_seq in H. unfold nd in H. lia.
    - unfold base_pos. destruct (a_base_weights a); auto.
    - cbn [node_weight fst snd]. apply qprod_positive. apply Forall_map, Forall_forall. intros q H. apply in_seq in H. apply Hq. lia. }
  exists S. split; [exact ES|]. exact (sample_simplex_spec _ _ _ _ _ _ Ha Hr ES).
Qed.

Lemma gather_firstn {A} (l : list A) m idx : Forall (fun i => i < m) idx -> gather (firstn m l) idx = gather l idx.
Proof.
  intros H. unfold gather. apply mapM_ext_in. intros i Hi. rewrite Forall_forall in H. specialize (H i Hi).
  unfold get. replace (nth_error (firstn m l) i) with (nth_error l i); [reflexivity|].
  clear idx Hi. revert m i H; induction l as [|a l IH]; intros [|m] [|i] H; cbn; auto; try lia. apply IH. lia.
Qed.

(** Weights of rows that are not there are never looked at. *)
Lemma sample_simplex_prefix vol ss X dim ind c bw vw V so sw n r :
  sample_simplex vol ss (mk_args X dim ind c bw vw V so (Some sw)) n r =
  sample_simplex vol ss (mk_args X dim ind c bw vw V so (Some (firstn (length ind) sw))) n r.
Proof.
  unfold sample_simplex. cbn [a_X a_dim a_indices a_ncols a_base_weights a_vertex_weights a_X_vertices a_same_object a_simplex_weights].
  destruct (n =? 0); [reflexivity|]. set (nd := Nat.min _ _).
  assert (E : all_simplices_node_weights nd c ind (Some sw) = all_simplices_node_weights nd c ind (Some (firstn (length ind) sw))).
  { unfold all_simplices_node_weights. destruct (all_neighbor_simplices_real_idx nd c ind); [|reflexivity]. cbn [bind].
    rewrite gather_firstn; [reflexivity|]. apply Forall_map, Forall_forall. intros [b ps] H. cbn [fst].
    rewrite base_idx_flat_map in H. apply in_flat_map in H as (b' & Hb & H). apply in_map_iff in H as (ps' & [= -> _] & _). apply in_seq in Hb. lia. }
  unfold simplices_. now rewrite E.
Qed.

Lemma ceiling_ratio a b : 0 < b -> let c := oups_columns (inject_Z (Z.of_nat a) / inject_Z (Z.of_nat b)) in
  a <= c * b < a + b.
Proof.
  intros Hb c. unfold c, oups_columns. set (p := (inject_Z (Z.of_nat a) / inject_Z (Z.of_nat b))%Q).
  assert (Hp : (p * inject_Z (Z.of_nat b) == inject_Z (Z.of_nat a))%Q).
  { unfold p. rewrite Qmult_comm. apply Qmult_div_r. change 0%Q with (inject_Z 0). rewrite inject_Z_injective. lia. }
  assert (Hbq : (0 < inject_Z (Z.of_nat b))%Q) by (change 0%Q with (inject_Z 0); rewrite <- Zlt_Qlt; lia).
  pose proof (Qle_ceiling p) as H1. pose proof (Qceiling_lt p) as H2. set (z := Qceiling p) in *.
  assert (G1 : (Z.of_nat a <= z * Z.of_nat b)%Z).
  { rewrite Zle_Qle, inject_Z_mult. rewrite <- Hp. apply Qmult_le_compat_r; [assumption|lra]. }
  assert (G2 : ((z - 1) * Z.of_nat b < Z.of_nat a)%Z).
  { rewrite Zlt_Qlt, inject_Z_mult. rewrite <- Hp. apply Qmult_lt_compat_r; assumption. }
  assert (0 <= z)%Z by nia. nia.
Qed.

Lemma oups_weight_pos p j : j < oups_columns p -> (0 < oups_weight p j)%Q.
Proof.
  unfold oups_columns, oups_weight, q_min. intros H. pose proof (Qceiling_lt p) as H2.
  assert (G : (inject_Z (Z.of_nat j) < p)%Q).
  { eapply Qle_lt_trans; [|exact H2]. rewrite <- Zle_Qle. lia. }
  destruct (Qle_bool 1 _); lra.
Qed.

Lemma filter_filter' {A} (f g : A -> bool) l : filter f (filter g l) = filter (fun x => f x && g x) l.
Proof.
  induction l as [|a l IH]; [reflexivity|]. cbn. destruct (g a) eqn:G; cbn; destruct (f a) eqn:F; cbn; now rewrite IH.
Qed.

Lemma oups_runs vol sorting q r D mn mj n :
  sorting_ok sorting -> rng_ok r -> unif_pos r -> wf_data (d_X D) (d_dim D) (d_y D) -> is_minority (d_y D) mn mj ->
  asked (ou_proportion q) (d_y D) mn mj = Ok n -> plain_ss (ou_ss q) -> ss_gauss (ou_ss q) = GNone ->
  runs D mn n (oups_spec sorting q D mn mj n) (oups_sample vol sorting q r D).
Proof.
  intros Hs Hr Hu [HX Hl] Hmin Ha Hss Hg. unfold oups_sample, oups_algorithm.
  apply (runs_intro _ _ _ _ _ _ _ Hmin Ha). intros st (E1 & E2 & _) H2 Hn. rewrite E1, E2.
  set (order := sorting (d_X D) (d_y D)). set (N := length (d_X D)).
  assert (HP : Permutation order (seq 0 N)) by now apply Hs.
  assert (LO : length order = N) by (rewrite (Permutation_length HP); apply seq_length).
  assert (HB : Forall (fun i => i < N) order).
  { rewrite Forall_forall. intros i Hi. apply (Permutation_in _ HP) in Hi. apply in_seq in Hi. lia. }
  rewrite (gather_map [] (d_X D)), (gather_map 0%Z (d_y D)) by (try rewrite <- Hl; assumption). cbn [bind].
  set (ranked := map (fun i => nth i (d_X D) []) order). set (ys := map (fun i => nth i (d_y D) 0%Z) order).
  set (n_min := count_label (d_y D) mn) in *. set (n_maj := count_label (d_y D) mj).
  change (count_occ Z.eq_dec (d_y D) mn) with n_min. change (count_occ Z.eq_dec (d_y D) mj) with n_maj.
  assert (Htot : n_min + n_maj = N) by (unfold N; rewrite Hl; apply two_labels_count, Hmin).
  assert (Hmaj : 0 < n_maj). { destruct Hmin as [(_ & _ & B & _) _]. apply (count_occ_In Z.eq_dec) in B. exact B. }
  set (p := (inject_Z (Z.of_nat n_maj) / inject_Z (Z.of_nat n_min))%Q).
  pose proof (ceiling_ratio n_maj n_min ltac:(lia)) as Hc. cbv zeta in Hc. fold p in Hc. set (c := oups_columns p) in *.
  assert (Hc1 : 1 <= c) by (destruct c; lia). assert (Hc2 : c <= n_maj) by nia.
  set (is_base := fun i => (i + 1 <? N) && Z.eqb (nth (nth i order 0) (d_y D) 0%Z) mn).
  assert (LR : length ranked = N) by (unfold ranked; now rewrite map_length).
  assert (RR : rect (d_dim D) ranked).
  { unfold ranked, rect. apply Forall_map. eapply Forall_impl; [|exact HB]. cbv beta. intros i Hi. apply rect_nth; auto. }
  assert (EK : filter (fun i => i + 1 <? N) (where_ (map (Z.eqb mn) ys)) = filter is_base (seq 0 N)).
  { rewrite where_filter, filter_filter'. unfold ys at 2. rewrite !map_length, LO. apply filter_ext_in'. intros i Hi. apply in_seq in Hi.
    unfold is_base. f_equal. rewrite (nth_map' _ 0%Z) by (unfold ys; rewrite map_length; lia). unfold ys. rewrite (nth_map' _ 0) by lia.
    apply Z.eqb_sym. }
  cbv zeta. rewrite EK. set (kept := filter is_base (seq 0 N)).
  assert (HK : Forall (fun i => i < length ranked) kept).
  { rewrite Forall_forall. intros i Hi. apply filter_In in Hi as [Hi _]. apply in_seq in Hi. lia. }
  rewrite (gather_map [] ranked kept HK). cbn [bind]. set (bases := map (fun i => nth i ranked []) kept).
  set (V := ranked ++ map (oups_past (ss_within (ou_ss q)) ranked bases) (seq 1 c)).
  set (I := map (fun i => seq (i + 1) c) kept).
  set (sw := map _ (seq 0 N)). rewrite sample_simplex_prefix.
  assert (RB : rect (d_dim D) bases).
  { unfold bases, rect. apply Forall_map. eapply Forall_impl; [|exact HK]. cbv beta. intros i Hi. apply rect_nth; auto. }
  assert (LI : length I = length kept) by (unfold I; apply map_length).
  assert (LB : length bases = length kept) by (unfold bases; apply map_length).
  assert (LW : length (where_ (map (Z.eqb mn) ys)) = n_min).
  { assert (Ly : length (map (Z.eqb mn) ys) = length ranked) by (unfold ys; now rewrite !map_length, LO, LR).
    assert (G : length (rows_with mn ranked ys) = length (where_ (map (Z.eqb mn) ys))).
    { unfold rows_with. rewrite (select_where [] _ _ Ly). apply map_length. }
    rewrite <- G. rewrite rows_with_length by (rewrite map_length in Ly; symmetry; exact Ly).
    assert (PY : Permutation ys (d_y D)).
    { eapply BaseFacts.gather_perm; [rewrite <- Hl; exact HP|]. apply (gather_map 0%Z (d_y D)). rewrite <- Hl. exact HB. }
    unfold n_min, count_label. rewrite (Permutation_count_occ Z.eq_dec) in PY. now rewrite PY. }
  assert (Lk : length kept <= n_min) by (unfold kept; rewrite <- EK, <- LW; apply filter_len).
  assert (Ex : exists b, b < length kept).
  { exists 0. destruct (where_ (map (Z.eqb mn) ys)) as [|a [|b w]] eqn:EW; cbn [length] in LW; try lia.
    assert (Bd : forall i, In i (a :: b :: w) -> i < N).
    { intros i Hi. rewrite <- EW in Hi. apply NoiseFacts2.where_in in Hi as [Hi _]. unfold ys in Hi. now rewrite !map_length, LO in Hi. }
    assert (ND : NoDup (a :: b :: w)).
    { rewrite <- EW, where_filter. apply NoDup_filter, seq_NoDup. }
    assert (Hi : exists i, In i kept).
    { unfold kept. rewrite <- EK. destruct (Nat.ltb_spec (a + 1) N) as [Hlt|].
      - exists a. apply filter_In. split; [now left|now apply Nat.ltb_lt].
      - exists b. apply filter_In. split; [right; now left|]. apply Nat.ltb_lt. pose proof (Bd a (or_introl eq_refl)). pose proof (Bd b (or_intror (or_introl eq_refl))).
        inversion ND as [|? ? Ni _]; subst. assert (a <> b) by (intros ->; apply Ni; now left). lia. }
    destruct Hi as [i Hi]. destruct kept; [destruct Hi|cbn; lia]. }
  destruct Ex as [b0 Hb0].
  set (args := mk_args bases (d_dim D) I c None None (Some V) false (Some (firstn (length I) sw))).
  assert (Lsw : length sw = N) by (unfold sw; now rewrite map_length, seq_length).
  assert (Hsw : forall b j, b < length kept -> j < c -> (nth j (nth b sw []) 0 = oups_weight p j)%Q).
  { intros b j Hb Hj. unfold sw. rewrite (nth_map' _ 0) by (rewrite seq_length; lia). rewrite seq_nth by lia.
    rewrite (nth_map' _ 0) by (now rewrite seq_length). rewrite seq_nth by lia. cbn [Nat.add].
    destruct (Nat.ltb_spec (b + 1 + j) N); [reflexivity|lia]. }
  assert (AO : args_ok args).
  { constructor; cbn; auto; try discriminate.
    - unfold V, rect. apply Forall_app. split; [exact RR|]. apply Forall_map, Forall_forall. intros k Hk. apply in_seq in Hk.
      unfold oups_past. rewrite LR. destruct (ss_within _); [destruct (Nat.leb_spec k (length bases))| |]; apply rect_nth; auto; lia.
    - unfold I, rect. apply Forall_map, Forall_forall. intros. apply seq_length.
    - lia.
    - unfold I, V. apply Forall_map, Forall_forall. intros i Hi. apply filter_In in Hi as [_ Hi]. unfold is_base in Hi. apply andb_prop in Hi as [Hi _]. apply Nat.ltb_lt in Hi.
      apply Forall_forall. intros v Hv. apply in_seq in Hv. rewrite app_length, map_length, seq_length. lia.
    - split; [rewrite firstn_length; lia|]. split.
      + unfold rect. apply Forall_forall. intros x Hx. apply firstn_sub in Hx. unfold sw in Hx. apply in_map_iff in Hx as (i & <- & _). now rewrite map_length, seq_length.
      + apply Forall_forall. intros x Hx. apply firstn_sub in Hx. unfold sw in Hx. apply in_map_iff in Hx as (i & <- & _). apply Forall_map, Forall_forall.
        intros j Hj. apply in_seq in Hj. destruct (_ <? N); [|lra]. apply Qlt_le_weak, oups_weight_pos. fold c. lia. }
  assert (Hf : forall b, b < length kept -> nth b (firstn (length I) sw) [] = nth b sw []).
  { intros b Hb. rewrite <- (firstn_skipn (length I) sw) at 2. rewrite app_nth1; [reflexivity|]. rewrite firstn_length. lia. }
  destruct (ss_weighted vol (ou_ss q) args (Z.to_nat n) r b0 (firstn (length I) sw) AO Hr Hu Hss Hc1) as (S & ES & LS & FS); cbn [args a_indices a_simplex_weights a_base_weights a_ncols]; auto; try lia.
  { intros k Hk. rewrite Hf by assumption. rewrite Hsw by lia. apply oups_weight_pos. fold c. lia. }
  lazymatch goal with |- context [sample_simplex vol ?a ?b ?c ?d] => replace (sample_simplex vol a b c d) with (Ok S) by (symmetry; exact ES) end. cbn [bind]. exists S. split; [reflexivity|].
  unfold oups_spec. cbv zeta. fold order. fold N. fold ranked. fold is_base. fold kept. fold bases. fold n_min. fold n_maj. split; [exact LS|].
  exists c. split; [exact Hc|]. specialize (FS Hg). eapply Forall_impl; [|exact FS]. intros x (b & ps & Hb & Lps & Sps & Fps & _ & _ & Hx).
  cbn [args a_dim a_X a_X_vertices a_indices a_ncols a_base_weights a_simplex_weights vertex_set] in *. rewrite LI in Hb.
  assert (Hin : In (nth b kept 0) kept) by now apply nth_In. pose proof Hin as Hin'.
  apply filter_In in Hin' as [Hi1 Hi2]. apply in_seq in Hi1. unfold is_base in Hi2. apply andb_prop in Hi2 as [Hi2 Hi3].
  apply Nat.ltb_lt in Hi2. apply Z.eqb_eq in Hi3.
  exists (nth b kept 0), (map Datatypes.S ps). split; [exact Hi2|]. split; [exact Hi3|]. split; [now rewrite map_length|]. split; [|split].
  - clear - Sps. induction Sps as [|a l _ IH F]; cbn; constructor; auto. apply Forall_map. eapply Forall_impl; [|exact F]. cbv beta; intros; lia.
  - apply Forall_map. eapply Forall_impl; [|exact Fps]. cbv beta; intros; lia.
  - unfold bases in Hx at 1. rewrite (nth_map' _ 0) in Hx by assumption. rewrite map_map. erewrite map_ext_in; [exact Hx|].
    intros o Ho. cbv beta. rewrite Forall_forall in Fps. specialize (Fps o Ho).
    unfold I. rewrite (nth_map' _ 0) by assumption. rewrite seq_nth by lia. unfold V.
    replace (nth b kept 0 + 1 + o) with (nth b kept 0 + Datatypes.S o) by lia.
    destruct (Nat.ltb_spec (nth b kept 0 + Datatypes.S o) N) as [Hlt|Hge]; [now rewrite app_nth1 by lia|].
    rewrite app_nth2 by lia. rewrite LR, (nth_map' _ 0) by (rewrite seq_length; lia). rewrite seq_nth by lia.
    unfold oups_past, last_but. rewrite LR. destruct (ss_within (ou_ss q)).
    + rewrite app_length, LR. destruct (Nat.leb_spec (1 + (nth b kept 0 + Datatypes.S o - N)) (length bases)).
      * rewrite app_nth2 by lia. f_equal. rewrite LR. lia.
      * rewrite app_nth1 by lia. f_equal. lia.
    + rewrite LR. f_equal. lia.
    + rewrite LR. f_equal. lia.
Qed.
