(** Facts about GASMOTE. *)

From Coq Require Import List ZArith QArith Qabs Qminmax Qround Qpower Bool Arith Lia Lqa Sorting.Sorted Permutation.
From Verif Require Import Np PyVal NpFacts BaseFacts SimplexModel Spec SpecDanger SpecNoise SpecComp SimplexFacts SimplexGeom Float64
  SamplerModel SamplerFacts OversFacts BaseModel KnnFacts DangerModel DangerFacts BorderFacts ClusterModel ClusterOversModel OversGen
  ClusterOversFacts ClusterFacts NoiseModel NoiseFacts NoiseFacts2 CompModel CompFacts CompFacts2 CompFacts3 CompFacts4 EditModel SpecEdit EditFacts EditFacts3 EditFacts4 EditFacts5
  SpecNear NearFacts NearFacts2 LevelModel SpecLevel LevelFacts LevelFacts3 LevelFacts4 SpecGroup GroupFacts GroupFacts2 GroupFacts4 WrapModel SpecWrap WrapFacts WrapFacts2 WrapFacts3 DirModel SpecDir DirFacts DirFacts3 RegionModel SpecRegion RegionFacts RegionFacts2 RegionFacts4 SearchModel SpecSearch SearchFacts.
Import ListNotations.
Open Scope nat_scope.

Lemma mapM_Forall_ok {A B} (P : B -> Prop) (f : A -> res B) l : (forall a, In a l -> exists b, f a = Ok b /\ P b) ->
  exists r, mapM f l = Ok r /\ Forall P r.
Proof.
  induction l as [|a l IH]; intros H; [exists []; split; [reflexivity|constructor]|].
  destruct (H a (or_introl eq_refl)) as (b & Eb & Pb). destruct IH as (r & Er & Fr); [intros c Hc; apply H; now right|].
  exists (b :: r). cbn. rewrite Eb. cbn. rewrite Er. split; [reflexivity|]. now constructor.
Qed.

Definition conf_ok (p : ga_params) (N : nat) (conf : list nat) : Prop := length conf = N /\ Forall (fun c => c < ga_maxn p) conf.

Lemma cut_ok p N k a b : conf_ok p N a -> conf_ok p N b -> k <= N -> conf_ok p N (firstn k a ++ skipn k b).
Proof.
  intros [La Fa] [Lb Fb] Hk. split.
  - rewrite app_length, firstn_length, skipn_length. lia.
  - apply Forall_app. split.
    + rewrite Forall_forall in *. intros x Hx. apply Fa. rewrite <- (firstn_skipn k a). apply in_or_app. now left.
    + rewrite Forall_forall in *. intros x Hx. apply Fb. rewrite <- (firstn_skipn k b). apply in_or_app. now right.
Qed.

Lemma crossover_ok p N ks : Forall (fun k => k <= N) ks -> forall a b, conf_ok p N a -> conf_ok p N b ->
  conf_ok p N (fst (ga_crossover ks a b)) /\ conf_ok p N (snd (ga_crossover ks a b)).
Proof.
  induction 1 as [|k ks Hk _ IH]; intros a b Ha Hb; [split; assumption|]. cbn [ga_crossover].
  apply IH; repeat apply cut_ok; auto.
Qed.

(** The second child is the second parent. *)
Lemma crossover_second ks : forall a b, length a = length b -> Forall (fun k => k <= length b) ks ->
  snd (ga_crossover ks a b) = b.
Proof.
  induction ks as [|k ks IH]; intros a b H F; [reflexivity|]. cbn [ga_crossover]. inversion F as [|? ? Hk F']; subst.
  assert (E : firstn k b ++ skipn k (firstn k a ++ skipn k b) = b).
  { rewrite skipn_app, skipn_all2 by (rewrite firstn_length; lia). rewrite firstn_length, Nat.min_l, Nat.sub_diag by lia.
    cbn. apply firstn_skipn. }
  rewrite E. apply IH; [|assumption]. rewrite app_length, firstn_length, skipn_length. lia.
Qed.

Lemma mutation_ok power p d ge t N conf : power_ok power -> SpecDir.draws_ok d -> conf_ok p N conf ->
  conf_ok p N (ga_mutation power p d ge t conf).
Proof.
  intros Hp Hd [L F]. unfold ga_mutation. destruct (Qle_bool (ga_pm p) (dr_unif d t 0)); [|split; assumption].
  split; [now rewrite map_length, seq_length|]. rewrite Forall_map, Forall_forall. intros i Hi. apply in_seq in Hi.
  set (c := inject_Z (Z.of_nat (nth i conf 0))). set (M := inject_Z (Z.of_nat (ga_maxn p))).
  set (r := power ge (dr_unif d t (i + 1))).
  assert (Hr : unit_share r) by (apply Hp, (ok_unif d Hd)). destruct Hr as [R0 R1].
  assert (Hc : nth i conf 0 < ga_maxn p) by (rewrite Forall_forall in F; apply F, nth_In; lia).
  assert (HcM : (c < M)%Q) by (unfold c, M; rewrite <- Zlt_Qlt; lia).
  assert (Hc0 : (0 <= c)%Q) by (unfold c; change 0%Q with (inject_Z 0); rewrite <- Zle_Qle; lia).
  assert (G : forall q, (q < M)%Q -> Z.to_nat (Qfloor q) < ga_maxn p).
  { intros q Hq. pose proof (Qfloor_le q) as Hfl. assert (inject_Z (Qfloor q) < M)%Q as Hz by (eapply Qle_lt_trans; eassumption).
    unfold M in Hz. rewrite <- Zlt_Qlt in Hz. lia. }
  destruct (dr_int d t (i + 1) 2 =? 0); apply G.
  - assert (0 < (M - c) * (1 - r))%Q by (apply Qmult_lt_0_compat; lra). nra.
  - assert (0 <= c * r)%Q by (now apply Qmult_le_0_compat). lra.
Qed.

Section Genetic.
Variable power : nat -> Q -> Q.
Variable p : ga_params.
Variable d : draws.
Variable fitness : nat -> list nat -> res Q.
Variable N : nat.
Hypothesis Hpow : power_ok power.
Hypothesis Hd : SpecDir.draws_ok d.
Hypothesis Hmax : 1 <= ga_maxn p.
Hypothesis Hpop : 1 <= ga_n_pop p.
Hypothesis Hpr : (0 <= ga_pr p /\ ga_pr p <= 1)%Q.
Hypothesis HN : 1 <= N.
Hypothesis Hfit : forall e conf, conf_ok p N conf -> exists q, fitness e conf = Ok q.

Definition initial (t : nat) : list nat := map (fun i => dr_int d t i (ga_maxn p)) (seq 0 N).

Definition member_ok (a : list nat * Q) : Prop := conf_ok p N (fst a) /\ exists e, fitness e (fst a) = Ok (snd a).
Definition population_ok (pop : list (list nat * Q)) : Prop :=
  ga_n_pop p <= length pop /\ Forall member_ok pop /\
  forall t, t < ga_n_pop p -> exists q a, fitness t (initial t) = Ok q /\ In a pop /\ (q <= snd a)%Q.

Lemma initial_ok t : conf_ok p N (initial t).
Proof.
  split; [unfold initial; now rewrite map_length, seq_length|]. unfold initial. rewrite Forall_map, Forall_forall. intros i _.
  apply (ok_int d Hd). lia.
Qed.

Lemma start_ok : exists pop, mapM (fun t =>
      do conf <- mapM (fun i => randint d t i (ga_maxn p)) (seq 0 N);
      do f <- fitness t conf;
      Ok (conf, f)) (seq 0 (ga_n_pop p)) = Ok pop /\ population_ok pop.
Proof.
  set (val := fun t => match fitness t (initial t) with Ok q => q | Err _ => 0%Q end).
  assert (Ev : forall t, fitness t (initial t) = Ok (val t)).
  { intros t. unfold val. destruct (Hfit t (initial t) (initial_ok t)) as [q ->]. reflexivity. }
  exists (map (fun t => (initial t, val t)) (seq 0 (ga_n_pop p))). split.
  - rewrite <- (mapM_pure (fun t => (initial t, val t))). apply mapM_ext_in. intros t _.
    rewrite (mapM_ext_in _ (fun i => Ok (dr_int d t i (ga_maxn p)))).
    + rewrite mapM_pure. cbn [bind]. fold (initial t). now rewrite Ev.
    + intros i _. unfold randint. destruct (Nat.eqb_spec (ga_maxn p) 0); [lia|reflexivity].
  - split; [now rewrite map_length, seq_length|]. split.
    + rewrite Forall_map, Forall_forall. intros t _. split; [apply initial_ok|]. exists t. apply Ev.
    + intros t Ht. exists (val t), (initial t, val t). split; [apply Ev|]. split; [|apply Qle_refl].
      apply in_map_iff. exists t. split; [reflexivity|]. apply in_seq. lia.
Qed.

Lemma keep_bound : Z.to_nat (Qfloor (inject_Z (Z.of_nat (ga_n_pop p)) * ga_pr p)) <= ga_n_pop p.
Proof.
  set (M := inject_Z (Z.of_nat (ga_n_pop p))). pose proof (Qfloor_le (M * ga_pr p)) as H.
  assert (HM : (0 <= M)%Q) by (unfold M; change 0%Q with (inject_Z 0); rewrite <- Zle_Qle; lia).
  assert (H2 : (M * ga_pr p <= M)%Q) by (destruct Hpr as [P0 P1]; nra).
  assert (H3 : (inject_Z (Qfloor (M * ga_pr p)) <= M)%Q) by (eapply Qle_trans; eassumption).
  unfold M in H3 at 2. rewrite <- Zle_Qle in H3. lia.
Qed.

Lemma generation_step pop ge : population_ok pop ->
  exists pop', ga_generation power p d fitness pop ge = Ok pop' /\ population_ok pop'.
Proof.
  intros (L & F & B). unfold ga_generation. set (sorted := best_first snd pop).
  set (n_keep := Z.to_nat _). cbv zeta. pose proof keep_bound as Hk. fold n_keep in Hk. clearbody n_keep.
  set (selected := firstn n_keep sorted ++ firstn (ga_n_pop p - n_keep) sorted).
  assert (Ls : length sorted = length pop) by (symmetry; apply Permutation_length, best_first_perm).
  assert (Lsel : length selected = ga_n_pop p) by (unfold selected; rewrite app_length, !firstn_length; lia).
  assert (Fs : Forall member_ok sorted) by (eapply Permutation_Forall; [apply best_first_perm|exact F]).
  assert (Fsel : Forall member_ok selected).
  { unfold selected. rewrite Forall_forall in *. intros a Ha. apply Fs.
    apply in_app_or in Ha as [Ha|Ha]; [rewrite <- (firstn_skipn n_keep sorted)|rewrite <- (firstn_skipn (ga_n_pop p - n_keep) sorted)]; apply in_or_app; now left. }
  assert (Bsel : forall t, t < ga_n_pop p -> exists q a, fitness t (initial t) = Ok q /\ In a selected /\ (q <= snd a)%Q).
  { intros t Ht. destruct (B t Ht) as (q & a & Eq & Ha & Hq). destruct sorted as [|b l] eqn:Es; [cbn in Ls; lia|].
    exists q, b. split; [assumption|]. split.
    - unfold selected. destruct n_keep as [|n']; [|apply in_or_app; left; now left]. cbn [firstn app].
      rewrite Nat.sub_0_r. destruct (ga_n_pop p); [lia|]. now left.
    - apply Qle_trans with (snd a); [assumption|]. apply (Permutation_in _ (best_first_perm snd pop)) in Ha. fold sorted in Ha.
      pose proof (best_first_sorted snd pop) as Hs. fold sorted in Hs. rewrite Es in Ha, Hs. destruct Ha as [<-|Ha]; [apply Qle_refl|].
      inversion Hs as [|? ? _ G]; subst. rewrite Forall_forall in G. auto. }
  assert (Member : forall e s, exists a, get selected (dr_int d e s (ga_n_pop p)) = Ok a /\ member_ok a).
  { intros e s. pose proof (ok_int d Hd e s (ga_n_pop p) ltac:(lia)) as Hi. exists (nth (dr_int d e s (ga_n_pop p)) selected ([], 0%Q)).
    rewrite (get_nth ([], 0%Q)) by lia. split; [reflexivity|]. rewrite Forall_forall in Fsel. apply Fsel, nth_In. lia. }
  set (half := ga_n_pop p / 2). set (e0 := ga_n_pop p + ge * (3 * half)).
  match goal with |- exists pop', (do crossed <- mapM ?g _; _) = _ /\ _ =>
    assert (C : exists crossed, mapM g (seq 0 half) = Ok crossed /\ Forall (Forall member_ok) crossed) end.
  { apply (mapM_Forall_ok (Forall member_ok)). intros c _. cbv zeta. destruct (Member (e0 + 2 * c) 0) as (a & -> & Ca & _).
    destruct (Member (e0 + 2 * c) 1) as (b & -> & Cb & _). cbn [bind].
    rewrite (mapM_ext_in _ (fun k => Ok (dr_int d (e0 + 2 * c) (2 + k) N))).
    2:{ intros k _. unfold randint. rewrite (proj1 Ca). destruct (Nat.eqb_spec N 0); [lia|reflexivity]. }
    rewrite mapM_pure. cbn [bind]. set (ks := map _ _).
    assert (Hks : Forall (fun k => k <= N) ks).
    { unfold ks. rewrite Forall_map, Forall_forall. intros k _. apply Nat.lt_le_incl, (ok_int d Hd). lia. }
    destruct (crossover_ok p N ks Hks (fst a) (fst b) Ca Cb) as [C1 C2].
    destruct (ga_crossover ks (fst a) (fst b)) as [ca cb]. cbn [fst snd] in C1, C2.
    destruct (Hfit (e0 + 2 * c) ca C1) as [fa Ea]. destruct (Hfit (e0 + 2 * c + 1) cb C2) as [fb Eb].
    rewrite Ea. cbn [bind]. rewrite Eb. cbn [bind]. eexists. split; [reflexivity|].
    repeat constructor; cbn; eauto; try apply C1; try apply C2. }
  destruct C as (crossed & -> & Fc). cbn [bind].
  match goal with |- exists pop', (do mutated <- mapM ?g _; _) = _ /\ _ =>
    assert (C : exists mutated, mapM g (seq 0 half) = Ok mutated /\ Forall member_ok mutated) end.
  { apply (mapM_Forall_ok member_ok). intros m _. cbv zeta. destruct (Member (e0 + 2 * half + m) 0) as (a & -> & Ca & _). cbn [bind].
    pose proof (mutation_ok power p d ge (e0 + 2 * half + m) N (fst a) Hpow Hd Ca) as Cm.
    destruct (Hfit (e0 + 2 * half + m) _ Cm) as [fm Em]. rewrite Em. cbn [bind]. eexists. split; [reflexivity|].
    split; cbn; eauto. }
  destruct C as (mutated & -> & Fm). cbn [bind]. eexists. split; [reflexivity|]. split; [|split].
  - rewrite app_length. lia.
  - apply Forall_app. split; [assumption|]. apply Forall_app. split; [|assumption]. rewrite Forall_concat. assumption.
  - intros t Ht. destruct (Bsel t Ht) as (q & a & E & Ha & Hq). exists q, a. split; [assumption|]. split; [|assumption].
    apply in_or_app. now left.
Qed.

Theorem genetic_ok : exists conf, genetic_algorithm power p d fitness N = Ok conf /\ conf_ok p N conf /\
  exists e q, fitness e conf = Ok q /\
    forall t, t < ga_n_pop p -> exists q', fitness t (map (fun i => dr_int d t i (ga_maxn p)) (seq 0 N)) = Ok q' /\ (q' <= q)%Q.
Proof.
  unfold genetic_algorithm. destruct start_ok as (pop & -> & P0). cbn [bind].
  destruct (foldM_trace (ga_generation power p d fitness) population_ok (ga_Ge p) 0 pop) as (kept & _ & E & K & _); auto.
  { intros a g Pa _. now apply generation_step. }
  rewrite E. cbn [bind]. destruct (K (ga_Ge p) (le_n _)) as (L & F & B). set (last_pop := kept (ga_Ge p)) in *.
  pose proof (best_first_perm snd last_pop) as Hp. pose proof (best_first_sorted snd last_pop) as Hs.
  destruct (best_first snd last_pop) as [|b l] eqn:Eb.
  { apply Permutation_length in Hp. cbn in Hp. lia. }
  rewrite (get_nth ([], 0%Q)) by (cbn; lia). cbn [bind nth]. exists (fst b). split; [reflexivity|].
  assert (Mb : member_ok b).
  { rewrite Forall_forall in F. apply F. apply (Permutation_in _ (Permutation_sym Hp)). now left. }
  destruct Mb as [Cb [e Ee]]. split; [assumption|]. exists e, (snd b). split; [assumption|]. intros t Ht.
  destruct (B t Ht) as (q & a & Eq & Ha & Hq). exists q. split; [exact Eq|]. apply Qle_trans with (snd a); [assumption|].
  apply (Permutation_in _ Hp) in Ha. destruct Ha as [<-|Ha]; [apply Qle_refl|].
  inversion Hs as [|? ? _ G]; subst. rewrite Forall_forall in G. auto.
Qed.

End Genetic.

(** ** The rows of a configuration *)

Definition conf_rows (dim k n_dim : nat) (X_min : list row) (T : list (list nat)) (i c : nat) (S : list row) : Prop :=
  length S = c /\
  Forall (fun x => exists ps, length ps = Nat.min n_dim k - 1 /\ StronglySorted lt ps /\ Forall (fun q => 1 <= q < k) ps /\
    convex_comb dim (nth i X_min [] :: map (fun q => nth (nth q (nth i T []) 0) X_min []) ps) x) S.

Lemma samples_from_conf_ok dist vol p rs dim X_min T conf : (forall i, rng_ok (rs i)) -> (forall i, unif_pos (rs i)) ->
  plain_ss (ga_ss p) -> ss_gauss (ga_ss p) = GNone -> rect dim X_min ->
  nearest_table dist X_min X_min (Nat.min (ga_n_neighbors p + 1) (length X_min)) T ->
  length conf = length X_min ->
  exists blocks, samples_from_conf vol p rs dim X_min T conf = Ok (concat blocks) /\ length blocks = length X_min /\
    forall i, i < length X_min ->
      conf_rows dim (Nat.min (ga_n_neighbors p + 1) (length X_min)) (ss_n_dim (ga_ss p)) X_min T i (nth i conf 0) (nth i blocks []).
Proof.
  intros Hr Hu Hp Hg HX HT Lc. set (k := Nat.min _ _) in *. destruct (nearest_table_shape _ _ _ _ _ HT) as (M1 & M2 & M3).
  unfold samples_from_conf. fold k.
  match goal with |- context [mapM ?f ?l] => set (call := f); set (jobs := l) end.
  assert (Lj : length jobs = length X_min) by (unfold jobs; rewrite combine_length, seq_length; lia).
  assert (Ej : forall i, i < length X_min -> nth i jobs (0, 0) = (i, nth i conf 0)).
  { intros i Hi. unfold jobs. rewrite combine_nth by now rewrite seq_length. rewrite seq_nth by lia. reflexivity. }
  assert (C : forall i, i < length X_min -> exists S, call (i, nth i conf 0) = Ok S /\ conf_rows dim k (ss_n_dim (ga_ss p)) X_min T i (nth i conf 0) S).
  { intros i Hi. unfold call. cbn [fst snd]. rewrite (get_nth []) by lia. cbn [bind]. rewrite (get_nth []) by lia. cbn [bind].
    assert (HiT : In (nth i T []) T) by (apply nth_In; lia).
    assert (Ha : args_ok (mk_args [nth i X_min []] dim [nth i T []] k None None (Some X_min) false None)).
    { constructor; cbn; auto; try discriminate; try lia.
      - constructor; [|constructor]. unfold rect in HX. rewrite Forall_forall in HX. apply HX, nth_In. lia.
      - constructor; [|constructor]. unfold rect in M2. rewrite Forall_forall in M2. now apply M2.
      - constructor; [|constructor]. rewrite Forall_forall in M3. now apply M3. }
    assert (Hk1 : 1 <= k) by (unfold k; lia).
    destruct (ss_call vol (ga_ss p) _ (nth i conf 0) (rs i) 0 Ha (Hr i) (Hu i) Hp Hk1 ltac:(cbn; lia) eq_refl I) as (S & ES & LS & FS).
    exists S. split; [exact ES|]. split; [assumption|]. specialize (FS Hg). eapply Forall_impl; [|exact FS].
    intros x (b & ps & B1 & B2 & B3 & B4 & _ & _ & B7). cbn [a_indices a_X a_X_vertices vertex_set a_dim a_ncols] in *.
    assert (b = 0) as -> by (cbn in B1; lia). exists ps. cbn [nth] in B7. auto. }
  assert (Q : exists blocks, mapM call jobs = Ok blocks /\ length blocks = length jobs /\
     forall i, i < length jobs -> call (nth i jobs (0, 0)) = Ok (nth i blocks [])).
  { destruct (mapM_total call jobs) as [blocks Eb].
    - rewrite Forall_forall. intros a Ha. apply (In_nth _ _ (0, 0)) in Ha as (i & Hi & <-). rewrite Lj in Hi.
      rewrite Ej by assumption. destruct (C i Hi) as (S & ES & _). eauto.
    - exists blocks. split; [assumption|]. split; [eapply mapM_length; eassumption|]. intros i Hi.
      eapply ClusterOversFacts.mapM_nth; eassumption. }
  destruct Q as (blocks & Eb & Lb & Nb). rewrite Eb. cbn [bind]. exists blocks. split; [reflexivity|]. split; [lia|].
  intros i Hi. specialize (Nb i ltac:(lia)). rewrite Ej in Nb by assumption. destruct (C i Hi) as (S & ES & HS).
  rewrite ES in Nb. injection Nb as <-. exact HS.
Qed.

Theorem gasmote_ok dist vol nn predictions power p d rs D mn mj :
  knn_ok dist nn -> (forall e i, rng_ok (rs e i)) -> (forall e i, unif_pos (rs e i)) -> SpecDir.draws_ok d -> power_ok power ->
  wf_data (d_X D) (d_dim D) (d_y D) -> is_minority (d_y D) mn mj ->
  1 <= ga_maxn p -> 1 <= ga_n_pop p -> (0 <= ga_pr p /\ ga_pr p <= 1)%Q -> plain_ss (ga_ss p) -> ss_gauss (ga_ss p) = GNone ->
  let out := gasmote_sample vol nn predictions power p d rs D in
  (count_label (d_y D) mn <= 2 -> unchanged D out) /\
  (2 < count_label (d_y D) mn -> appends D mn (gasmote_spec dist p D mn) out).
Proof.
  intros Hnn Hr Hu Hd Hpow Hwf Hmin Hmax Hpop Hpr Hp Hg out. unfold out, gasmote_sample.
  destruct (sample_default (gasmote_algorithm vol nn predictions power p d rs) D mn mj Hmin) as (st & Hst & E). rewrite E. clear E. split.
  - intros G. unfold unchanged. destruct (Nat.leb_spec (count_label (d_y D) mn) 2); [reflexivity|lia].
  - intros G. destruct (Nat.leb_spec (count_label (d_y D) mn) 2); [lia|].
    unfold gasmote_algorithm. destruct Hst as (Emn & Emj & _). unfold extended. rewrite Emn, Emj. clear Emn Emj.
    destruct Hwf as [HX HL]. set (X_min := rows_with mn (d_X D) (d_y D)).
    assert (LX : length X_min = count_label (d_y D) mn) by now apply rows_with_length.
    assert (RX : rect (d_dim D) X_min) by now apply rows_with_rect.
    destruct (Hnn X_min X_min (Nat.min (ga_n_neighbors p + 1) (length X_min)) ltac:(lia)) as (T & -> & HT). cbn [bind].
    destruct (genetic_ok power p d (ga_fitness vol predictions p rs mn mj D X_min T) (length X_min)) as (conf & -> & [Lc Fc] & _); auto.
    { lia. }
    { intros e conf [Lc _]. unfold ga_fitness.
      destruct (samples_from_conf_ok dist vol p (rs e) (d_dim D) X_min T conf) as (blocks & -> & _); auto. cbn [bind]. eauto. }
    cbn [bind]. set (e := ga_n_pop p + _).
    destruct (samples_from_conf_ok dist vol p (rs e) (d_dim D) X_min T conf) as (blocks & -> & Lb & Hb); auto. cbn [bind].
    exists (concat blocks). split; [reflexivity|]. exists T, blocks. split; [exact HT|]. split; [reflexivity|].
    split; [exact Lb|]. fold X_min. intros i Hi. destruct (Hb i Hi) as [L F]. rewrite L. split; [|exact F].
    rewrite Forall_forall in Fc. apply Fc, nth_In. lia.
Qed.

Theorem gasmote_one dist vol nn predictions power p d rs D mn mj :
  knn_ok dist nn -> (forall e i, rng_ok (rs e i)) -> (forall e i, unif_pos (rs e i)) -> SpecDir.draws_ok d -> power_ok power ->
  wf_data (d_X D) (d_dim D) (d_y D) -> is_minority (d_y D) mn mj ->
  ga_maxn p = 1 -> 1 <= ga_n_pop p -> (0 <= ga_pr p /\ ga_pr p <= 1)%Q -> plain_ss (ga_ss p) -> ss_gauss (ga_ss p) = GNone ->
  unchanged D (gasmote_sample vol nn predictions power p d rs D).
Proof.
  intros Hnn Hr Hu Hd Hpow Hwf Hmin Hmax Hpop Hpr Hp Hg.
  destruct (gasmote_ok dist vol nn predictions power p d rs D mn mj Hnn Hr Hu Hd Hpow Hwf Hmin ltac:(lia) Hpop Hpr Hp Hg) as [H1 H2].
  destruct (Nat.le_gt_cases (count_label (d_y D) mn) 2) as [G|G]; [auto|].
  destruct (H2 G) as (S & ES & T & blocks & _ & Es & Lb & Hb). rewrite ES. unfold unchanged.
  assert (S = []) as ->.
  { rewrite Es. apply concat_nil_Forall. rewrite Forall_forall. intros b Hin. apply (In_nth _ _ []) in Hin as (i & Hi & <-).
    destruct (Hb i ltac:(lia)) as [L _]. destruct (nth i blocks []); [reflexivity|cbn in L; lia]. }
  cbn. now rewrite !app_nil_r.
Qed.
