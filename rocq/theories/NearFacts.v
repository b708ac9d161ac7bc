(** Proofs about NearModel: shared lemmas, distance_SMOTE, NT_SMOTE, RWO_sampling,
    ROSE, Gaussian_SMOTE, SDSMOTE. *)

From Coq Require Import List ZArith QArith Bool Arith Lia Lqa Sorting.Sorted Permutation.
From Verif Require Import Np NpFacts PyVal BaseFacts SimplexModel Spec SpecDanger SpecComp SimplexFacts SimplexGeom Float64
  SamplerModel SamplerFacts OversFacts BaseModel KnnFacts DangerModel DangerFacts ClusterOversModel OversGen
  ClusterOversFacts ClusterFacts NoiseFacts2 CompModel CompFacts CompFacts2 EditModel SpecEdit NearModel SpecNear.
Import ListNotations.
Open Scope nat_scope.

(** * Shared *)

Lemma ss_call vol ss a n r b : args_ok a -> rng_ok r -> unif_pos r -> plain_ss ss ->
  1 <= a_ncols a -> b < length (a_indices a) -> a_simplex_weights a = None ->
  match a_base_weights a with Some w => (0 < nth b w 0)%Q | None => True end ->
  exists S, sample_simplex vol ss a n r = Ok S /\ length S = n /\
  (ss_gauss ss = GNone ->
   Forall (neighbour_sample (a_dim a) (a_X a) (vertex_set (a_X a) (a_X_vertices a)) (a_indices a) (a_ncols a)
      (Nat.min (ss_n_dim ss) (a_ncols a) - 1) (a_base_weights a) (a_simplex_weights a)) S).
Proof.
  intros Ha Hr Hu Hp Hc Hb Hs Hw. destruct (ss_total vol ss a n r b Ha Hr Hu Hp Hc Hb Hs Hw) as [S E].
  exists S. split; [assumption|]. exact (sample_simplex_spec _ _ _ _ _ _ Ha Hr E).
Qed.

Definition without_gauss (ss : ss_params) : ss_params :=
  mk_ss (ss_n_dim ss) (ss_sampling ss) (ss_within ss) GNone.

Lemma without_gauss_plain ss : plain_ss ss -> plain_ss (without_gauss ss).
Proof. exact (fun H => H). Qed.

Lemma ss_noise vol ss a n r S0 : sample_simplex vol (without_gauss ss) a n r = Ok S0 -> length S0 = n ->
  sample_simplex vol ss a n r = Ok (if n =? 0 then [] else add_gaussian_noise (ss_gauss ss) (r_normal r n (a_dim a)) S0).
Proof.
  unfold sample_simplex. cbn [without_gauss ss_n_dim ss_sampling ss_within ss_gauss]. intros E L.
  destruct (n =? 0); [reflexivity|]. destruct (simplices_ _ _ _ _ _ _ _ _ _ _ _) as [sx|e]; [|discriminate].
  cbn [bind] in E |- *. destruct (match ss_within ss with WRandom => _ | _ => _ end) as [sm|e]; [|discriminate].
  cbn [bind] in E |- *. injection E as <-. cbn [add_gaussian_noise] in L. now rewrite L.
Qed.

Lemma sorted_is_seq ps a n : StronglySorted lt ps -> Forall (fun p => a <= p < a + n) ps -> length ps = n -> ps = seq a n.
Proof.
  revert a n; induction ps as [|p ps IH]; intros a n Hs Hf Hl.
  - subst n. reflexivity.
  - destruct n as [|n]; [discriminate|]. inversion Hs as [|? ? Hs' Hp]; subst. inversion Hf as [|? ? Hp1 Hf']; subst.
    assert (Hn : forall q ps, StronglySorted lt (q :: ps) -> Forall (fun p => p < a + S n) (q :: ps) -> q + length ps < a + S n).
    { clear. intros q ps; revert q; induction ps as [|r ps IH]; intros q H F.
      - inversion F; subst. cbn. lia.
      - inversion H as [|? ? H' Hq]; subst. inversion Hq; subst. inversion F; subst. specialize (IH r H' H5). cbn in *. lia. }
    assert (p = a).
    { specialize (Hn p ps Hs). cbn in Hl. assert (p + length ps < a + S n) by (apply Hn; eapply Forall_impl; [|exact Hf]; cbn; lia). lia. }
    subst p. cbn. f_equal. apply IH; [assumption| |now injection Hl].
    rewrite Forall_forall in *. intros q Hq. specialize (Hp q Hq). specialize (Hf' q Hq). cbn in *. lia.
Qed.

(** All columns are used. *)
Lemma sample_all_columns d X V T c bw sw x : rect c T ->
  neighbour_sample d X V T c (c - 1) bw sw x ->
  exists b, b < length T /\ match bw with Some w => (0 < nth b w 0)%Q | None => True end /\
    convex_comb d (nth b X [] :: rows_at V (tl (nth b T []))) x.
Proof.
  intros HT (b & ps & H1 & H2 & H3 & H4 & H5 & _ & H7). exists b. split; [assumption|]. split; [assumption|].
  assert (Hps : ps = seq 1 (c - 1)).
  { apply sorted_is_seq; auto. eapply Forall_impl; [|exact H4]. cbn. lia. }
  assert (Hl : length (nth b T []) = c) by (now apply rect_nth).
  assert (E : map (fun p => nth (nth p (nth b T []) 0) V []) ps = rows_at V (tl (nth b T []))).
  { rewrite Hps. unfold rows_at. rewrite <- (map_map (fun p => nth p (nth b T []) 0) (fun i => nth i V [])).
    f_equal. destruct (nth b T []) as [|t0 t]; [cbn in Hl; subst c; reflexivity|]. cbn in Hl. subst c.
    cbn [tl]. replace (S (length t) - 1) with (length t) by lia.
    rewrite <- seq_shift, map_map. cbn [nth].
    clear. induction t as [|a t IH]; [reflexivity|]. cbn. f_equal. rewrite <- seq_shift, map_map. exact IH. }
  rewrite <- E. exact H7.
Qed.

(** Only the base. *)
Lemma sample_no_column d X V T c bw sw x : neighbour_sample d X V T c 0 bw sw x ->
  exists b, b < length T /\ convex_comb d [nth b X []] x.
Proof.
  intros (b & ps & H1 & H2 & _ & _ & _ & _ & H7). destruct ps; [|discriminate]. now exists b.
Qed.

Lemma rows_at_length X is : length (rows_at X is) = length is.
Proof. apply map_length. Qed.

Lemma rows_at_rect d X is : rect d X -> Forall (fun i => i < length X) is -> rect d (rows_at X is).
Proof.
  intros HX H. unfold rect, rows_at. rewrite Forall_map. eapply Forall_impl; [|exact H]. cbn. intros i Hi. now apply rect_nth.
Qed.

Lemma gather_rows_at X is : Forall (fun i => i < length X) is -> gather X is = Ok (rows_at X is).
Proof.
  induction is as [|i is IH]; intros H; [reflexivity|]. inversion H; subst. unfold gather in *. cbn [mapM].
  rewrite (get_nth [] X i) by assumption. cbn [bind]. rewrite IH by assumption. reflexivity.
Qed.

Lemma Forall_tl {A} (P : A -> Prop) l : Forall P l -> Forall P (tl l).
Proof. destruct 1; [constructor|assumption]. Qed.

Lemma table_row dist Xf Xq k T b : nearest_table dist Xf Xq k T -> b < length Xq ->
  length (nth b T []) = k /\ Forall (fun i => i < length Xf) (nth b T []).
Proof.
  intros HT Hb. destruct (nearest_table_shape _ _ _ _ _ HT) as (L & R & F). rewrite <- L in Hb.
  split; [now apply rect_nth|]. rewrite Forall_forall in F. apply F. now apply nth_In.
Qed.

Lemma mean_row_of d V : V <> [] -> rect d V -> exists m, mean_row d V = Ok m /\ mean_of d V m.
Proof.
  intros Hne HV. unfold mean_row.
  assert (E : mapM (fun j => qmean (column j V)) (seq 0 d) =
     Ok (map (fun j => (qsum (column j V) / inject_Z (Z.of_nat (length V)))%Q) (seq 0 d))).
  { rewrite <- (mapM_pure (fun j => (qsum (column j V) / inject_Z (Z.of_nat (length V)))%Q)). apply mapM_ext_in.
    intros j _. unfold qmean. assert (L : length (column j V) = length V) by apply map_length.
    destruct (column j V) eqn:Ec; [destruct V; [congruence|discriminate]|]. now rewrite L. }
  rewrite E. eexists. split; [reflexivity|]. split; [now rewrite map_length, seq_length|]. intros j Hj.
  rewrite (nth_indep _ _ ((fun j => (qsum (column j V) / inject_Z (Z.of_nat (length V)))%Q) 0)) by (now rewrite map_length, seq_length).
  rewrite (map_nth (fun j => (qsum (column j V) / inject_Z (Z.of_nat (length V)))%Q)), seq_nth by assumption. reflexivity.
Qed.

Lemma neighbour_means_ok dist d X_min Xq k T : nearest_table dist X_min Xq k T -> rect d X_min -> 2 <= k ->
  exists means, neighbour_means d X_min T = Ok means /\ length means = length Xq /\ rect d means /\
    forall b, b < length Xq -> mean_of d (rows_at X_min (tl (nth b T []))) (nth b means []).
Proof.
  intros HT HR Hk. destruct (nearest_table_shape _ _ _ _ _ HT) as (L & R & F). unfold neighbour_means.
  assert (G : forall t, In t T -> exists m, (do v <- gather X_min (tl t); mean_row d v) = Ok m /\ mean_of d (rows_at X_min (tl t)) m).
  { intros t Ht. unfold rect in R. rewrite Forall_forall in R, F. specialize (R t Ht). specialize (F t Ht).
    rewrite gather_rows_at by now apply Forall_tl. cbn [bind]. apply mean_row_of; [|apply rows_at_rect; auto using Forall_tl].
    destruct t as [|a [|b t]]; cbn in R; try lia. discriminate. }
  rewrite <- L. clear HT R F L. induction T as [|t T IH].
  - exists []. split; [reflexivity|]. split; [reflexivity|]. split; [constructor|]. intros b Hb. cbn in Hb. lia.
  - destruct (G t (or_introl eq_refl)) as (m & Em & Hm). destruct IH as (ms & Ems & L1 & R1 & H1); [intros; apply G; now right|].
    exists (m :: ms). cbn [mapM]. rewrite Em. cbn [bind]. rewrite Ems. cbn [bind]. split; [reflexivity|].
    split; [cbn; now rewrite L1|]. split; [constructor; [apply Hm|assumption]|].
    intros [|b] Hb; [exact Hm|]. cbn in Hb |- *. apply H1. lia.
Qed.

(** * distance_SMOTE *)

Lemma nth_combine_seq {A} (l : list A) d b : b < length l -> nth b (combine (seq 0 (length l)) l) (0, d) = (b, nth b l d).
Proof. intros Hb. rewrite combine_nth by apply seq_length. now rewrite seq_nth. Qed.

Lemma distance_smote_runs dist vol nn p r D mn mj n :
  knn_ok dist nn -> rng_ok r -> unif_pos r -> wf_data (d_X D) (d_dim D) (d_y D) -> is_minority (d_y D) mn mj ->
  asked (ne_proportion p) (d_y D) mn mj = Ok n -> 1 <= ne_n_neighbors p -> plain_ss (ne_ss p) -> ss_gauss (ne_ss p) = GNone ->
  runs D mn n (distance_smote_spec dist p D mn n) (distance_smote_sample vol nn p r D).
Proof.
  intros Hnn Hr Hu [HX Hl] Hmin Ha Hk Hss Hg. unfold distance_smote_sample, distance_smote_algorithm.
  apply (runs_intro _ _ _ _ _ _ _ Hmin Ha). intros st (E1 & E2 & _) H2 Hn. rewrite E1.
  set (X_min := rows_with mn (d_X D) (d_y D)).
  assert (HL : length X_min = count_label (d_y D) mn) by now apply rows_with_length.
  assert (HR : rect (d_dim D) X_min) by now apply rows_with_rect.
  set (k := Nat.min (length X_min) (ne_n_neighbors p + 1)).
  assert (Hk2 : 2 <= k) by (unfold k; lia).
  destruct (Hnn X_min X_min k) as (T & ET & HT); [unfold k; lia|]. rewrite ET. cbn [bind].
  destruct (neighbour_means_ok _ _ _ _ _ _ HT HR Hk2) as (means & -> & M1 & M2 & M3). cbn [bind].
  destruct (nearest_table_shape _ _ _ _ _ HT) as (L & R & F).
  set (nd := ss_n_dim (ne_ss p)). set (c := 2 + Nat.min (nd - 2) (k - 1)).
  set (I := distance_indices nd T).
  assert (LI : length I = length X_min).
  { unfold I, distance_indices. rewrite map_length, combine_length, seq_length. lia. }
  assert (NI : forall b, b < length X_min -> nth b I [] = b :: b :: firstn (nd - 2) (tl (nth b T []))).
  { intros b Hb. unfold I, distance_indices. set (f := fun p : nat * list nat => fst p :: fst p :: firstn (nd - 2) (tl (snd p))).
    rewrite (nth_indep _ [] (f (0, []))) by (rewrite map_length, combine_length, seq_length; lia).
    rewrite map_nth, nth_combine_seq by lia. reflexivity. }
  assert (HI : forall t, In t I -> length t = c /\ Forall (fun v => v < length X_min) t).
  { intros t Ht. apply (In_nth _ _ []) in Ht as (b & Hb & <-). rewrite LI in Hb. rewrite NI by assumption.
    destruct (table_row _ _ _ _ _ _ HT Hb) as [R1 F1]. split.
    - cbn [length]. rewrite firstn_length. destruct (nth b T []) as [|t0 t]; cbn in *; unfold c; lia.
    - constructor; [assumption|]. constructor; [assumption|]. apply Forall_forall. intros v Hv.
      rewrite Forall_forall in F1. apply F1. assert (incl (firstn (nd - 2) (tl (nth b T []))) (nth b T [])).
      { intros z Hz. assert (In z (tl (nth b T []))) by (rewrite <- (firstn_skipn (nd - 2)); apply in_or_app; now left).
        destruct (nth b T []); [destruct H|now right]. }
      now apply H. }
  set (args := mk_args means (d_dim D) I c None None (Some X_min) false None).
  assert (Hargs : args_ok args).
  { constructor; cbn; auto; try discriminate.
    - apply Forall_forall. intros t Ht. now apply HI.
    - lia.
    - apply Forall_forall. intros t Ht. now apply HI. }
  destruct (ss_call vol (ne_ss p) args (Z.to_nat n) r 0 Hargs Hr Hu Hss) as (S & ES & LS & FS); cbn; [unfold c; lia|lia|reflexivity|trivial|].
  exists S. rewrite ES. cbn [bind]. split; [reflexivity|]. split; [assumption|]. exists T. split; [assumption|].
  specialize (FS Hg). cbn in FS. eapply Forall_impl; [|exact FS]. intros x Hx. fold nd in Hx |- *.
  change (Datatypes.S (Datatypes.S (Nat.min (nd - 2) (k - 1)))) with c in Hx.
  destruct Hss as (Hnd & _). fold nd in Hnd.
  destruct (Nat.eq_dec nd 1) as [E|E].
  - replace (Nat.min nd c - 1) with 0 in Hx by (unfold c; lia).
    apply sample_no_column in Hx as (b & Hb & Hx). rewrite LI in Hb.
    exists b, (nth b means []). split; [assumption|]. split; [now apply M3|]. rewrite E. exact Hx.
  - replace (Nat.min nd c - 1) with (c - 1) in Hx by (unfold c; lia).
    apply sample_all_columns in Hx as (b & Hb & _ & Hx); [|apply Forall_forall; intros t Ht; now apply HI].
    rewrite LI in Hb. exists b, (nth b means []). split; [assumption|]. split; [now apply M3|].
    rewrite NI in Hx by assumption. cbn [tl] in Hx. unfold rows_at in Hx |- *. cbn [map] in Hx.
    destruct nd as [|[|nd']]; try lia. cbn [firstn]. rewrite <- firstn_map in Hx.
    replace (Datatypes.S (Datatypes.S nd') - 2) with nd' in Hx by lia. exact Hx.
Qed.

(** * NT_SMOTE *)

Lemma dim_sampling dist vol nn ss d X_min n r :
  knn_ok dist nn -> rng_ok r -> unif_pos r -> rect d X_min -> 1 <= length X_min -> ss_n_dim ss <= length X_min -> plain_ss ss -> ss_gauss ss = GNone ->
  exists T S, dim_neighbours nn ss X_min = Ok T /\ nearest_table dist X_min X_min (ss_n_dim ss) T /\
    sample_simplex vol ss (mk_args X_min d T (ss_n_dim ss) None None None false None) n r = Ok S /\ length S = n /\
    Forall (around X_min d T) S.
Proof.
  intros Hnn Hr Hu HR Hne Hd Hss Hg. unfold dim_neighbours. destruct (Nat.ltb_spec (length X_min) (ss_n_dim ss)); [lia|].
  destruct (Hnn X_min X_min (ss_n_dim ss)) as (T & ET & HT); [assumption|]. exists T.
  destruct (nearest_table_shape _ _ _ _ _ HT) as (L & R & F).
  set (args := mk_args X_min d T (ss_n_dim ss) None None None false None).
  assert (Hargs : args_ok args) by (constructor; cbn; auto; try discriminate; lia).
  destruct (ss_call vol ss args n r 0 Hargs Hr Hu Hss) as (S & ES & LS & FS); cbn; try lia; auto; [apply Hss|].
  exists S. split; [assumption|]. split; [assumption|]. split; [assumption|]. split; [assumption|].
  eapply Forall_impl; [|exact (FS Hg)]. cbn. intros x Hx. rewrite Nat.min_id in Hx.
  apply sample_all_columns in Hx as (b & Hb & _ & Hx); [|assumption]. exists b. split; [lia|assumption].
Qed.

Lemma nt_smote_runs dist vol nn p r D mn mj n :
  knn_ok dist nn -> rng_ok r -> unif_pos r -> wf_data (d_X D) (d_dim D) (d_y D) -> is_minority (d_y D) mn mj ->
  asked (ne_proportion p) (d_y D) mn mj = Ok n -> plain_ss (ne_ss p) -> ss_gauss (ne_ss p) = GNone ->
  ss_n_dim (ne_ss p) <= count_label (d_y D) mn ->
  runs D mn n (nt_smote_spec dist p D mn n) (nt_smote_sample vol nn p r D).
Proof.
  intros Hnn Hr Hu [HX Hl] Hmin Ha Hss Hg Hd. unfold nt_smote_sample, nt_smote_algorithm.
  apply (runs_intro _ _ _ _ _ _ _ Hmin Ha). intros st (E1 & E2 & _) H2 Hn. rewrite E1.
  assert (HL : length (rows_with mn (d_X D) (d_y D)) = count_label (d_y D) mn) by now apply rows_with_length.
  assert (HR : rect (d_dim D) (rows_with mn (d_X D) (d_y D))) by now apply rows_with_rect.
  destruct (dim_sampling dist vol nn (ne_ss p) (d_dim D) _ (Z.to_nat n) r Hnn Hr Hu HR) as (T & S & -> & HT & ES & LS & FS); auto; try lia.
  cbn [bind]. rewrite ES. cbn [bind]. exists S. split; [reflexivity|]. split; [assumption|]. now exists T.
Qed.

(** More vertices than minority rows. *)
Lemma nt_smote_fails vol nn p r D mn mj n :
  length (d_X D) = length (d_y D) -> is_minority (d_y D) mn mj ->
  asked (ne_proportion p) (d_y D) mn mj = Ok n -> (0 < n)%Z -> 2 < count_label (d_y D) mn ->
  count_label (d_y D) mn < ss_n_dim (ne_ss p) ->
  nt_smote_sample vol nn p r D = Err ValueError.
Proof.
  intros Hl Hmin Ha Hn H2 Hd. unfold nt_smote_sample, nt_smote_algorithm.
  edestruct (sample_shape (fun n st D => let X_min := rows_with (min_label st) (d_X D) (d_y D) in
    do ind <- dim_neighbours nn (ne_ss p) X_min;
    do samples <- sample_simplex vol (ne_ss p)
      (mk_args X_min (d_dim D) ind (ss_n_dim (ne_ss p)) None None None false None) n r;
    Ok (extended D st samples)) _ D mn mj n Hmin Ha) as (st & (E1 & _) & E). cbv zeta in E |- *. rewrite E.
  destruct (Nat.leb_spec (count_label (d_y D) mn) 2); [lia|]. destruct (Z.eqb_spec n 0); [lia|]. cbn [orb].
  unfold dim_neighbours. rewrite E1, rows_with_length by assumption. fold (count_label (d_y D) mn).
  destruct (Nat.ltb_spec (count_label (d_y D) mn) (ss_n_dim (ne_ss p))); [reflexivity|lia].
Qed.

(** * RWO_sampling and ROSE *)

Lemma jitter_intro d (sds : nat -> Q) G (P : row -> Prop) S0 :
  length G = length S0 -> rect d G -> Forall P S0 -> rect d S0 ->
  jittered d sds G P (map2 (fun s z => vadd s (map2 Qmult z (map sds (seq 0 d)))) S0 G).
Proof.
  intros HG RG HP HS i Hi. rewrite map2_length in Hi. exists (nth i S0 []).
  assert (L1 : length (nth i S0 []) = d) by (apply rect_nth; [assumption|lia]).
  assert (L2 : length (nth i G []) = d) by (apply rect_nth; [assumption|lia]).
  split; [rewrite Forall_forall in HP; apply HP, nth_In; lia|].
  rewrite (map2_nth _ _ _ _ [] [] []) by lia. split.
  - rewrite vadd_length, map2_length, map_length, seq_length. lia.
  - intros j Hj. rewrite vadd_nth by (rewrite ?map2_length, ?map_length, ?seq_length; lia).
    rewrite (map2_nth _ _ _ _ 0%Q 0%Q 0%Q) by (rewrite ?map_length, ?seq_length; lia).
    rewrite (nth_indep (map sds _) _ (sds 0)) by (rewrite map_length, seq_length; lia). rewrite map_nth, seq_nth by assumption. reflexivity.
Qed.

Lemma around_length X d T x : around X d T x -> length x = d.
Proof. intros (b & _ & H & _). exact H. Qed.

Lemma rwo_runs dist vol nn sd p rs D mn mj n :
  knn_ok dist nn -> rngs_ok rs -> unif_pos (rs 0) -> wf_data (d_X D) (d_dim D) (d_y D) -> is_minority (d_y D) mn mj ->
  asked (ne_proportion p) (d_y D) mn mj = Ok n -> plain_ss (ne_ss p) -> ss_gauss (ne_ss p) = GNone ->
  ss_n_dim (ne_ss p) <= count_label (d_y D) mn ->
  runs D mn n (rwo_spec dist sd (r_normal (rs 1) (Z.to_nat n) (d_dim D)) p D mn n) (rwo_sample vol nn sd p rs D).
Proof.
  intros Hnn Hr Hu [HX Hl] Hmin Ha Hss Hg Hd. unfold rwo_sample, rwo_algorithm.
  apply (runs_intro _ _ _ _ _ _ _ Hmin Ha). intros st (E1 & E2 & _) H2 Hn. rewrite E1.
  assert (HL : length (rows_with mn (d_X D) (d_y D)) = count_label (d_y D) mn) by now apply rows_with_length.
  assert (HR : rect (d_dim D) (rows_with mn (d_X D) (d_y D))) by now apply rows_with_rect.
  destruct (dim_sampling dist vol nn (ne_ss p) (d_dim D) _ (Z.to_nat n) (rs 0) Hnn (Hr 0) Hu HR) as (T & S & -> & HT & ES & LS & FS); auto; try lia.
  cbn [bind]. rewrite ES. cbn [bind]. eexists. split; [reflexivity|]. rewrite LS.
  destruct (rng_normal _ (Hr 1) (Z.to_nat n) (d_dim D)) as [N1 N2].
  split; [rewrite map2_length; lia|]. exists T. split; [assumption|]. apply jitter_intro; auto; [lia|].
  eapply Forall_impl; [|exact FS]. apply around_length.
Qed.

Lemma rose_runs sd h prop rs D mn mj n :
  rngs_ok rs -> wf_data (d_X D) (d_dim D) (d_y D) -> is_minority (d_y D) mn mj ->
  asked prop (d_y D) mn mj = Ok n ->
  runs D mn n (rose_spec sd h (r_normal (rs 1) (Z.to_nat n) (d_dim D)) D mn n) (rose_sample sd h prop rs D).
Proof.
  intros Hr [HX Hl] Hmin Ha. unfold rose_sample, rose_algorithm.
  apply (runs_intro _ _ _ _ _ _ _ Hmin Ha). intros st (E1 & E2 & _) H2 Hn. rewrite E1.
  set (X_min := rows_with mn (d_X D) (d_y D)).
  assert (HL : length X_min = count_label (d_y D) mn) by now apply rows_with_length.
  assert (HR : rect (d_dim D) X_min) by now apply rows_with_rect.
  destruct (choice_range_ok (rs 0) (length X_min) (Z.to_nat n) (Hr 0)) as (base & -> & B1 & B2); [lia|]. cbn [bind].
  rewrite gather_rows_at by assumption. cbn [bind]. eexists. split; [reflexivity|]. rewrite rows_at_length, B1.
  destruct (rng_normal _ (Hr 1) (Z.to_nat n) (d_dim D)) as [N1 N2].
  split; [rewrite map2_length, rows_at_length; lia|]. apply jitter_intro; auto.
  - rewrite rows_at_length. lia.
  - unfold rows_at. rewrite Forall_map. eapply Forall_impl; [|exact B2]. cbn. intros i Hi. now apply nth_In.
  - now apply rows_at_rect.
Qed.

(** * Gaussian_SMOTE *)

Lemma std_fit_length sd d X : length (std_fit sd d X) = d.
Proof. unfold std_fit. now rewrite map_length, seq_length. Qed.

Lemma std_fit_nth sd d X j : j < d -> nth j (std_fit sd d X) (0, 0)%Q =
  ((qsum (column j X) / inject_Z (Z.of_nat (length X)))%Q, if Qeq_bool (sd (column j X)) 0 then 1%Q else sd (column j X)).
Proof.
  intros Hj. unfold std_fit. set (f := fun j => (_, _)). rewrite (nth_indep _ _ (f 0)) by (now rewrite map_length, seq_length).
  rewrite map_nth, seq_nth by assumption. unfold f. cbn [plus]. unfold column at 2. now rewrite map_length.
Qed.

Lemma std_fit_range sd d X : Forall (fun lr => ~ (snd lr == 0)%Q) (std_fit sd d X).
Proof.
  unfold std_fit. rewrite Forall_map, Forall_forall. intros j _. cbn [snd].
  destruct (Qeq_bool (sd (column j X)) 0) eqn:E; [discriminate|]. intros G. apply Qeq_bool_iff in G. congruence.
Qed.

Lemma transform_rect d mm X : length mm = d -> rect d X -> rect d (map (mm_transform mm) X).
Proof.
  intros Hm HX. unfold rect in *. rewrite Forall_map. eapply Forall_impl; [|exact HX]. cbn. intros x Hx.
  unfold mm_transform. rewrite map2_length. lia.
Qed.

(** Samples of transformed rows, transformed back. *)
Lemma neighbour_sample_inverse d mm X V T c k bw sw s : length mm = d -> Forall (fun lr => ~ (snd lr == 0)%Q) mm ->
  rect d X -> rect d V -> length T <= length X -> rect c T -> Forall (Forall (fun i => i < length V)) T ->
  neighbour_sample d (map (mm_transform mm) X) (map (mm_transform mm) V) T c k bw sw s ->
  neighbour_sample d X V T c k bw sw (mm_inverse mm s).
Proof.
  intros Hm Hmr HX HV HTl HT HF (b & ps & H1 & H2 & H3 & H4 & H5 & H6 & H7). exists b, ps. repeat (split; [assumption|]).
  assert (Hv : forall p, In p ps -> nth p (nth b T []) 0 < length V).
  { intros p Hp. rewrite Forall_forall in HF, H4. assert (Hrow : In (nth b T []) T) by now apply nth_In.
    specialize (HF _ Hrow). rewrite Forall_forall in HF. apply HF, nth_In. unfold rect in HT. rewrite Forall_forall in HT.
    rewrite (HT _ Hrow). now apply H4. }
  apply mm_convex; auto.
  - constructor; [apply rect_nth; [assumption|lia]|]. rewrite Forall_map, Forall_forall. intros p Hp. apply rect_nth; auto.
  - cbn [map]. rewrite map_map.
    replace (mm_transform mm (nth b X [])) with (nth b (map (mm_transform mm) X) [])
      by (rewrite (nth_indep _ [] (mm_transform mm [])) by (rewrite map_length; lia); apply map_nth).
    replace (map (fun p => mm_transform mm (nth (nth p (nth b T []) 0) V [])) ps)
      with (map (fun p => nth (nth p (nth b T []) 0) (map (mm_transform mm) V) []) ps); [assumption|].
    apply map_ext_in. intros p Hp. rewrite (nth_indep _ [] (mm_transform mm [])) by (rewrite map_length; auto). apply map_nth.
Qed.

Lemma gaussian_smote_runs dist vol nn sd sigma p r D mn mj n :
  knn_ok dist nn -> rng_ok r -> unif_pos r -> wf_data (d_X D) (d_dim D) (d_y D) -> is_minority (d_y D) mn mj ->
  asked (ne_proportion p) (d_y D) mn mj = Ok n -> 1 <= ne_n_neighbors p -> plain_ss (ne_ss p) -> ss_gauss (ne_ss p) = GSigma sigma ->
  runs D mn n (gaussian_smote_spec dist sd sigma (r_normal r (Z.to_nat n) (d_dim D)) p D mn n) (gaussian_smote_sample vol nn sd p r D).
Proof.
  intros Hnn Hr Hu [HX Hl] Hmin Ha Hk Hss Hg. unfold gaussian_smote_sample, gaussian_smote_algorithm.
  apply (runs_intro _ _ _ _ _ _ _ Hmin Ha). intros st (E1 & E2 & _) H2 Hn. rewrite E1.
  set (mm := std_fit sd (d_dim D) (d_X D)). set (f := mm_transform mm).
  assert (Lmm : length mm = d_dim D) by apply std_fit_length.
  assert (Rmm : Forall (fun lr => ~ (snd lr == 0)%Q) mm) by apply std_fit_range.
  rewrite rows_with_map by assumption. set (X_min := rows_with mn (d_X D) (d_y D)).
  assert (HL : length X_min = count_label (d_y D) mn) by now apply rows_with_length.
  assert (HR : rect (d_dim D) X_min) by now apply rows_with_rect.
  rewrite map_length. set (k := Nat.min (length X_min) (ne_n_neighbors p + 1)).
  destruct (Hnn (map f X_min) (map f X_min) k) as (T & ET & HT); [rewrite map_length; unfold k; lia|]. rewrite ET. cbn [bind].
  destruct (nearest_table_shape _ _ _ _ _ HT) as (L & R & F). rewrite map_length in L, F.
  set (args := mk_args (map f X_min) (d_dim D) T k None None None false None).
  assert (Hargs : args_ok args).
  { constructor; cbn; auto; try discriminate; rewrite ?map_length; auto; try lia; now apply transform_rect. }
  destruct (ss_call vol (without_gauss (ne_ss p)) args (Z.to_nat n) r 0 Hargs Hr Hu Hss) as (S & ES & LS & FS); cbn; [unfold k; lia|lia|reflexivity|trivial|].
  specialize (FS eq_refl). cbn in FS.
  rewrite (ss_noise _ _ _ _ _ _ ES LS). cbn [bind]. destruct (Nat.eqb_spec (Z.to_nat n) 0); [lia|]. cbn [args a_dim].
  rewrite Hg. cbn [add_gaussian_noise]. set (G := r_normal r (Z.to_nat n) (d_dim D)).
  destruct (rng_normal _ Hr (Z.to_nat n) (d_dim D)) as [N1 N2]. fold G in N1, N2.
  eexists. split; [reflexivity|]. split; [rewrite map_length, map2_length; lia|].
  set (w := fun j => snd (nth j mm (0, 0)%Q)). exists w, f, T. split; [|split; [|split; [assumption|]]].
  - intros j Hj. unfold w, mm. rewrite std_fit_nth by assumption. cbn [snd]. unfold std_scale. fold (column j (d_X D)).
    destruct (Qeq_bool (sd (column j (d_X D))) 0) eqn:Eq.
    + apply Qeq_bool_iff in Eq. split; [intros H; contradiction|reflexivity].
    + split; [reflexivity|]. intros H. apply Qeq_bool_iff in H. congruence.
  - intros x Hx. split; [unfold f, mm_transform; rewrite map2_length; lia|]. intros j Hj. unfold f.
    rewrite mm_transform_nth by lia. unfold w, mm. rewrite std_fit_nth by assumption. reflexivity.
  - intros i Hi. rewrite map_length, map2_length in Hi. exists (mm_inverse mm (nth i S [])).
    assert (Si : In (nth i S []) S) by (apply nth_In; lia). rewrite Forall_forall in FS. specialize (FS _ Si).
    assert (Ls : length (nth i S []) = d_dim D).
    { destruct FS as (b & ps & _ & _ & _ & _ & _ & _ & (Hls & _)). exact Hls. }
    assert (Lg : length (nth i G []) = d_dim D) by (apply rect_nth; [assumption|lia]).
    split; [|].
    { apply neighbour_sample_inverse; auto. fold X_min. lia. }
    rewrite (nth_indep _ [] (mm_inverse mm [])) by (rewrite map_length, map2_length; lia). rewrite map_nth.
    rewrite (map2_nth _ _ _ _ [] [] []) by lia.
    assert (Lv : length (vadd (nth i S []) (vscale sigma (nth i G []))) = d_dim D) by (rewrite vadd_length, vscale_length; lia).
    split; [unfold mm_inverse; rewrite map2_length; lia|]. intros j Hj.
    rewrite !mm_inverse_nth by lia. rewrite vadd_nth by (rewrite ?vscale_length; lia). rewrite vscale_nth by lia. unfold w. ring.
Qed.

(** * SDSMOTE *)

Lemma sdsmote_density_eq dist radius X_min X_maj : radius_ok radius ->
  sdsmote_density dist radius X_min X_maj =
  fix_density (map (fun _ => Fin (1 / inject_Z (Z.of_nat (length X_min)))) X_min).
Proof.
  intros Hrad. unfold sdsmote_density. set (S := qsum _). set (q := (S / _)%Q). clearbody q.
  assert (E : map (fun x => length (radius X_maj [x] q)) X_min = map (fun _ => 1) X_min).
  { apply map_ext. intros x. now rewrite Hrad. }
  rewrite E. clear E.
  assert (E : nsum (map (fun _ : row => 1) X_min) = length X_min).
  { clear. induction X_min as [|x X IH]; [reflexivity|]. cbn. unfold nsum in IH. now rewrite IH. }
  rewrite E, map_map. reflexivity.
Qed.

Lemma uniform_density (X : list row) : X <> [] ->
  let w := fix_density (map (fun _ => Fin (1 / inject_Z (Z.of_nat (length X)))) X) in
  length w = length X /\ Forall (fun q => (0 < q)%Q) w.
Proof.
  intros Hne. cbv zeta. split; [rewrite fix_density_length; apply map_length|].
  set (q := (1 / inject_Z (Z.of_nat (length X)))%Q).
  assert (Hq : (0 < q)%Q).
  { unfold q, Qdiv. rewrite Qmult_1_l. apply Qinv_lt_0_compat. change 0%Q with (inject_Z 0). rewrite <- Zlt_Qlt. destruct X; [congruence|]. cbn [length]. lia. }
  clearbody q. assert (Hs : forall Y : list row, Y <> [] -> (0 < qsum (map nan_to_num (map (fun _ => Fin q) Y)))%Q).
  { clear - Hq. intros Y HY. destruct Y as [|y Y]; [congruence|]. clear HY. revert y; induction Y as [|z Y IH]; intros y; cbn in *; [lra|].
    specialize (IH z). lra. }
  specialize (Hs X Hne). rewrite fix_density_nonzero by lra. rewrite !Forall_map. apply Forall_forall. intros x _. cbn [nan_to_num].
  apply Qlt_shift_div_l; [assumption|lra].
Qed.

Lemma sdsmote_runs dist vol nn radius p r D mn mj n :
  knn_ok dist nn -> radius_ok radius -> rng_ok r -> unif_pos r -> wf_data (d_X D) (d_dim D) (d_y D) -> is_minority (d_y D) mn mj ->
  asked (ne_proportion p) (d_y D) mn mj = Ok n -> 1 <= ne_n_neighbors p -> plain_ss (ne_ss p) -> ss_gauss (ne_ss p) = GNone ->
  runs D mn n (sdsmote_spec dist p D mn n) (sdsmote_sample vol dist nn radius p r D).
Proof.
  intros Hnn Hrad Hr Hu [HX Hl] Hmin Ha Hk Hss Hg. unfold sdsmote_sample, sdsmote_algorithm.
  apply (runs_intro _ _ _ _ _ _ _ Hmin Ha). intros st (E1 & E2 & _) H2 Hn. rewrite E1, E2.
  rewrite sdsmote_density_eq by assumption. set (X_min := rows_with mn (d_X D) (d_y D)).
  assert (HL : length X_min = count_label (d_y D) mn) by now apply rows_with_length.
  assert (HR : rect (d_dim D) X_min) by now apply rows_with_rect.
  assert (Hne : X_min <> []) by (intros H; rewrite H in HL; cbn in HL; lia).
  set (k := Nat.min (length X_min) (ne_n_neighbors p + 1)).
  destruct (Hnn X_min X_min k) as (T & ET & HT); [unfold k; lia|]. rewrite ET. cbn [bind].
  destruct (nearest_table_shape _ _ _ _ _ HT) as (L & R & F).
  destruct (uniform_density X_min Hne) as [W1 W2]. set (w := fix_density _) in *.
  set (args := mk_args X_min (d_dim D) T k (Some w) None None false None).
  assert (Hargs : args_ok args).
  { constructor; cbn; auto; try discriminate; try lia. split; [lia|]. eapply Forall_impl; [|exact W2]. cbn. intros; lra. }
  destruct (ss_call vol (ne_ss p) args (Z.to_nat n) r 0 Hargs Hr Hu Hss) as (S & ES & LS & FS); cbn; [unfold k; lia|lia|reflexivity| |].
  { rewrite Forall_forall in W2. apply W2, nth_In. lia. }
  exists S. rewrite ES. cbn [bind]. split; [reflexivity|]. split; [assumption|]. exists T. split; [assumption|].
  eapply Forall_impl; [|exact (FS Hg)]. cbn. intros x (b & ps & G1 & G2 & G3 & G4 & _ & G5). exists b, ps.
  repeat (split; [assumption || exact I|]). apply G5.
Qed.

(** Neither the distances nor the majority rows matter. *)
Lemma sdsmote_blind dist dist' vol nn radius radius' p r D D' mn mj n :
  radius_ok radius -> radius_ok radius' -> is_minority (d_y D) mn mj ->
  asked (ne_proportion p) (d_y D) mn mj = Ok n ->
  d_y D' = d_y D -> d_dim D' = d_dim D ->
  rows_with mn (d_X D') (d_y D') = rows_with mn (d_X D) (d_y D) ->
  forall S y', sdsmote_sample vol dist nn radius p r D = Ok (d_X D ++ S, y') ->
  sdsmote_sample vol dist' nn radius' p r D' = Ok (d_X D' ++ S, y').
Proof.
  intros Hrad Hrad' Hmin Ha Ey Ed EX S y'.
  assert (Hmin' : is_minority (d_y D') mn mj) by now rewrite Ey.
  assert (Ha' : asked (ne_proportion p) (d_y D') mn mj = Ok n) by now rewrite Ey.
  assert (G : forall dist radius D, radius_ok radius -> is_minority (d_y D) mn mj -> asked (ne_proportion p) (d_y D) mn mj = Ok n ->
    sdsmote_sample vol dist nn radius p r D =
    if (count_label (d_y D) mn <=? 2) || (n =? 0)%Z then Ok (d_X D, d_y D)
    else let X_min := rows_with mn (d_X D) (d_y D) in
      let k := Nat.min (length X_min) (ne_n_neighbors p + 1) in
      do ind <- nn X_min X_min k;
      do samples <- sample_simplex vol (ne_ss p)
        (mk_args X_min (d_dim D) ind k
           (Some (fix_density (map (fun _ => Fin (1 / inject_Z (Z.of_nat (length X_min)))) X_min))) None None false None) (Z.to_nat n) r;
      Ok (d_X D ++ samples, d_y D ++ repeat mn (length samples))).
  { clear. intros dist radius D Hrad Hmin Ha. unfold sdsmote_sample, sdsmote_algorithm.
    edestruct (sample_shape (fun n st D =>
      let X_min := rows_with (min_label st) (d_X D) (d_y D) in
      let X_maj := rows_with (maj_label st) (d_X D) (d_y D) in
      let density := sdsmote_density dist radius X_min X_maj in
      let k := Nat.min (length X_min) (ne_n_neighbors p + 1) in
      do ind <- nn X_min X_min k;
      do samples <- sample_simplex vol (ne_ss p)
        (mk_args X_min (d_dim D) ind k (Some density) None None false None) n r;
      Ok (extended D st samples)) _ D mn mj n Hmin Ha) as (st & (E1 & E2 & _) & E). cbv zeta in E |- *. rewrite E.
    destruct ((_ <=? _) || _); [reflexivity|]. rewrite E1, sdsmote_density_eq by assumption. unfold extended. now rewrite E1. }
  rewrite !G by assumption. cbv zeta. rewrite EX, Ed, Ey. clear G.
  destruct ((_ <=? _) || _).
  - intros H. injection H as H <-. rewrite <- (app_nil_r (d_X D)) in H at 1. apply app_inv_head in H. subst S. now rewrite app_nil_r.
  - destruct (nn _ _ _) as [T|e]; [|discriminate]. cbn [bind]. destruct (sample_simplex _ _ _ _ _) as [S0|e]; [|discriminate]. cbn [bind].
    intros H. injection H as H <-. apply app_inv_head in H. now subst S0.
Qed.
