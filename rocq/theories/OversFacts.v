(** Lemmas shared by the proofs about individual oversamplers. *)

From Coq Require Import List ZArith QArith Bool Arith Lia Lqa Sorting.Sorted Permutation.
From Verif Require Import Np NpFacts SimplexModel Spec SimplexFacts SimplexGeom Float64
  SamplerModel SamplerFacts.
Import ListNotations.
Open Scope nat_scope.

(** Number of rows the proportion [s] asks for. *)
Definition asked (s : strategy) (y : list Z) (mn mj : Z) : res Z :=
  det_n_to_sample s (Z.of_nat (count_label y mj)) (Z.of_nat (count_label y mn)).

(** The state the base class records for a two-class vector. *)
Definition stats_of (y : list Z) (mn mj : Z) (st : stats) : Prop :=
  min_label st = mn /\ maj_label st = mj /\
  (forall z, In z y -> class_size st z = Ok (count_label y z)).

Lemma checks_default_pass st dim n : class_size st (min_label st) = Ok n ->
  checks_fail checks_default st dim = Ok (n <=? 2).
Proof. intros H. cbn [checks_default checks_fail]. rewrite H. cbn [bind]. destruct (n <=? 2); reflexivity. Qed.

Lemma sample_default alg D mn mj : is_minority (d_y D) mn mj ->
  exists st, stats_of (d_y D) mn mj st /\
    sample_with checks_default alg D =
    if count_label (d_y D) mn <=? 2 then Ok (d_X D, d_y D) else alg st D.
Proof.
  intros Hmin. destruct (statistics_spec (d_y D) mn mj (proj1 Hmin)) as (st & Hst & Hm & Hsz).
  destruct (is_minority_unique _ _ _ _ _ Hmin Hm) as [E1 E2].
  exists st. split; [repeat split; auto|]. unfold sample_with. rewrite Hst. cbn [bind].
  assert (Hin : In (min_label st) (d_y D)) by apply Hm.
  rewrite (checks_default_pass _ _ _ (Hsz _ Hin)). cbn [bind]. now rewrite E1.
Qed.

Lemma det_st_asked s y mn mj st : two_labels y mn mj -> stats_of y mn mj st ->
  det_n_to_sample_st s st = do k <- asked s y mn mj; Ok (Z.to_nat k).
Proof.
  intros (_ & H1 & H2 & _) (<- & <- & H). unfold det_n_to_sample_st, asked.
  rewrite (H _ H1), (H _ H2). reflexivity.
Qed.

Lemma det_st_inv s y mn mj st n : two_labels y mn mj -> stats_of y mn mj st ->
  det_n_to_sample_st s st = Ok n -> asked s y mn mj = Ok (Z.of_nat n).
Proof.
  intros H1 H2 H. rewrite (det_st_asked _ _ _ _ _ H1 H2) in H.
  inv_bind H. injection H as <-. rewrite Z2Nat.id; [assumption|]. eapply det_nonneg. exact E.
Qed.

Lemma asked_some s y mn mj n : asked s y mn mj = Ok n -> (0 <= n)%Z.
Proof. apply det_nonneg. Qed.

(** A sample of base points in X and vertices in V lies in the hull of any set
    containing both. *)
Lemma neighbour_sample_hull2 d X V P T c k bw sw x : rect c T -> length T <= length X ->
  Forall (Forall (fun i => i < length V)) T -> incl X P -> incl V P ->
  neighbour_sample d X V T c k bw sw x -> in_hull d P x.
Proof.
  intros Hr Hl Hin HX HV (b & ps & H1 & H2 & H3 & H4 & _ & _ & Hx). eexists; split; [|exact Hx].
  intros q [<-|Hq]; [apply HX, nth_In; lia|].
  apply in_map_iff in Hq as [p [<- Hp]]. apply HV, nth_In.
  assert (Hrow : In (nth b T []) T) by now apply nth_In.
  rewrite Forall_forall in Hin, H4. specialize (Hin _ Hrow). rewrite Forall_forall in Hin.
  apply Hin, nth_In. unfold rect in Hr. rewrite Forall_forall in Hr. rewrite (Hr _ Hrow).
  apply H4, Hp.
Qed.

Lemma in_hull_incl d P Q x : incl P Q -> in_hull d P x -> in_hull d Q x.
Proof. intros H (pts & H1 & H2). exists pts. split; [|assumption]. intros z Hz. auto. Qed.

Lemma in_hull_bound d P x lo hi j : in_hull d P x -> j < d ->
  (forall p, In p P -> (lo <= nth j p 0 /\ nth j p 0 <= hi)%Q) ->
  (lo <= nth j x 0 /\ nth j x 0 <= hi)%Q.
Proof. intros (pts & Hi & Hc) Hj H. eapply convex_comb_bound; eauto. Qed.

Lemma nearest_table_nth dist Xf Xq k T i x t : nearest_table dist Xf Xq k T ->
  nth_error Xq i = Some x -> nth_error T i = Some t -> nearest_table dist Xf [x] k [t].
Proof.
  intros H H1 H2. constructor; [|constructor].
  exact (Forall2_nth_error _ _ _ _ _ _ H H1 H2).
Qed.

(** [sample_simplex] with vertex weights and a separate vertex set: every
    vertex is first pulled toward the base point by its weight. *)
Lemma sample_simplex_weighted vol ss a n r S V w :
  args_ok a -> rng_ok r -> sample_simplex vol ss a n r = Ok S ->
  a_X_vertices a = Some V -> a_vertex_weights a = Some w -> a_same_object a = false ->
  ss_gauss ss = GNone -> forall x, In x S ->
  exists b ps, b < length (a_indices a) /\
    length ps = Nat.min (ss_n_dim ss) (a_ncols a) - 1 /\
    StronglySorted lt ps /\ Forall (fun p => 1 <= p < a_ncols a) ps /\
    convex_comb (a_dim a) (nth b (a_X a) [] ::
      map (fun p => let v := nth p (nth b (a_indices a) []) 0 in
                    toward (nth b (a_X a) []) (nth v V []) (nth v w 0%Q) 1) ps) x.
Proof.
  intros Ha Hr H HV Hw Hso Hg x Hx. destruct Ha as [HX HVr Hsame Hrect Hbase Hrange Hbw Hvw Hsw].
  unfold sample_simplex in H. destruct (Nat.eqb_spec n 0) as [->|Hn].
  { injection H as <-. destruct Hx. }
  set (nd := Nat.min (ss_n_dim ss) (a_ncols a)) in *. inv_bind H. rename a0 into sims.
  assert (Hd : 1 <= nd <= a_ncols a).
  { split; [|lia]. destruct (Nat.eqb_spec nd 0) as [E0|]; [|lia]. exfalso.
    unfold simplices_, all_simplices_node_weights, all_neighbor_simplices_real_idx in E.
    rewrite E0 in E. discriminate. }
  fold (vertex_set (a_X a) (a_X_vertices a)) in *.
  apply simplices_spec in E as (sel & -> & Hlen & Hsel); auto.
  inv_bind H. injection H as <-. rename a0 into samples. rewrite Hg in Hx. cbn in Hx.
  assert (Hshape : Forall (fun s => fst s < length (a_X a) /\ Datatypes.S (length (snd s)) = nd)
                          (map (realize (a_indices a)) sel)).
  { rewrite Forall_map. eapply Forall_impl; [|exact Hsel]. intros [b ps] (Hin & _).
    apply base_idx_in in Hin as (H1 & H2 & _); [|assumption]. cbn. rewrite map_length. lia. }
  rewrite HV, Hw, Hso in *. cbn [vertex_set] in *. destruct Hvw as [Hw1 Hw2].
  assert (G : exists s, In s sel /\ convex_comb (a_dim a) (nth (fst s) (a_X a) [] ::
      map (fun v => toward (nth (fst s) (a_X a) []) (nth v V []) (nth v w 0%Q) 1)
          (snd (realize (a_indices a) s))) x).
  { destruct (ss_within ss).
    - destruct (rng_unif r Hr (length (map (realize (a_indices a)) sel)) nd) as [Hu1 Hu2].
      eapply random_samples_weighted with (V := V) (n_dim := nd) in E; auto.
      + clear - E Hx. remember (map (realize (a_indices a)) sel) as l eqn:El. revert sel El Hx.
        induction E as [|s y l l' Hy E IH]; intros sel El Hx; [destruct Hx|].
        destruct sel as [|s0 sel]; [discriminate|]. cbn in El. injection El as -> ->.
        destruct Hx as [<-|Hx]; [exists s0; split; [left; reflexivity|exact Hy]|].
        destruct (IH sel eq_refl Hx) as [s1 [? ?]]. exists s1; cbn; auto.
      + eapply Forall_impl; [|exact Hshape]. cbn. tauto.
    - unfold deterministic_samples_from_simplices in E.
      destruct (Nat.eqb_spec nd 2) as [E2|]; [|destruct (Nat.eqb_spec nd 1) as [E1|]; [|discriminate]].
      + destruct (deterministic_dim_2_direction _ _ _ _ _ _ E Hx) as (b & v & vs & t & Hin & Ht0 & Ht1 & ->).
        apply in_map_iff in Hin as [s0 [Es0 Hs0]]. exists s0. split; [assumption|].
        rewrite Forall_map, Forall_forall in Hshape. destruct (Hshape s0 Hs0) as [B1 B2].
        assert (fst s0 = b) by (destruct s0; unfold realize in Es0; injection Es0 as E0 _; exact E0).
        rewrite Es0 in B1, B2 |- *. cbn [fst snd] in B1, B2 |- *.
        destruct vs; [|cbn in B2; lia]. cbn [map]. rewrite H.
        assert (Hv : v < length V).
        { rewrite Forall_forall in Hsel. destruct (Hsel s0 Hs0) as (Hin & _).
          destruct s0 as [b0 ps0]. apply base_idx_in in Hin as (I1 & I2 & I3 & I4); [|assumption].
          unfold realize in Es0. cbn in Es0. injection Es0 as -> Eps. destruct ps0 as [|p0 ps0]; [discriminate|].
          cbn in Eps. injection Eps as Ev _. inversion I4 as [|? ? [J1 J2] _]; subst.
          assert (Hrow : In (nth b (a_indices a) []) (a_indices a)) by now apply nth_In.
          unfold rect in Hrect. rewrite Forall_forall in Hrect, Hrange.
          specialize (Hrange _ Hrow). rewrite Forall_forall in Hrange. apply Hrange, nth_In.
          rewrite (Hrect _ Hrow). exact J2. }
        pose proof (rect_nth _ _ _ HX B1) as L1. pose proof (rect_nth _ _ _ HVr Hv) as L2.
        apply (convex_comb_edge _ _ _ t); try Lqa.lra; try assumption.
        * now apply toward_length.
        * now apply toward_length.
        * intros j Hj. rewrite !(toward_nth (a_dim a)) by assumption. cbn [vweight]. ring.
      + unfold deterministic_samples_dim_1 in E. pose proof (gather_length _ _ _ E) as Hl.
        apply (gather_nth []) in E. subst samples. rewrite !map_map in Hx.
        apply in_map_iff in Hx as [s [<- Hs]]. exists s. split; [assumption|].
        rewrite Forall_map, Forall_forall in Hshape. destruct (Hshape s Hs) as [Hs1 Hs2].
        assert (Hnil : snd (realize (a_indices a) s) = []).
        { destruct (snd (realize (a_indices a) s)); [reflexivity|]. cbn in Hs2. lia. }
        rewrite Hnil. cbn [map]. apply convex_comb_singleton. now apply rect_nth.
    - discriminate. }
  destruct G as (s & Hs & Hc). rewrite Forall_forall in Hsel. destruct (Hsel s Hs) as (Hin & _).
  destruct s as [b ps]. apply base_idx_in in Hin as (H1 & H2 & H3 & H4); [|assumption].
  exists b, ps. do 4 (split; [assumption|]). unfold realize in Hc. cbn [fst snd] in Hc.
  rewrite map_map in Hc. exact Hc.
Qed.
