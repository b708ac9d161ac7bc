(** Proofs about LevelModel: Lee. *)

From Coq Require Import List ZArith QArith Bool Arith Lia Lqa Sorting.Sorted Permutation.
From Verif Require Import Np NpFacts BaseFacts SimplexModel Spec SpecDanger SpecNoise SpecComp SimplexFacts SimplexGeom Float64
  SamplerModel SamplerFacts OversFacts BaseModel KnnFacts DangerModel DangerFacts ClusterOversModel OversGen
  ClusterOversFacts ClusterFacts NoiseModel NoiseFacts NoiseFacts2 CompModel CompFacts CompFacts2 EditModel SpecEdit EditFacts4 EditFacts5
  SpecNear NearFacts NearFacts2 LevelModel SpecLevel LevelFacts EditFacts2.
Import ListNotations.
Open Scope nat_scope.

Section Lee.
Variables (dist : row -> row -> Q) (vol : list row -> Q) (nn : list row -> list row -> nat -> res (list (list nat))).
Variables (p : lee_params) (rs : nat -> rng) (mj : Z) (D : dataset) (X_min : list row) (T : list (list nat)) (c n : nat) (P : row -> Prop).

Let k' := Nat.min (length X_min) (le_n_neighbors p).
Let batch i m := sample_simplex vol (le_ss p) (mk_args X_min (d_dim D) T c None None None false None) m (rs i).
Let fr (t : list nat) : Q := (qn (votes (d_y D) t mj) / qn (le_n_neighbors p))%Q.

Hypothesis Hnn : knn_ok dist nn.
Hypothesis Hl : length (d_X D) = length (d_y D).
Hypothesis HX : length X_min <= length (d_X D).
Hypothesis Hk : 1 <= le_n_neighbors p.
Hypothesis Bat : forall i m, exists S, batch i m = Ok S /\ length S = m /\ Forall P S.

Definition lee_good (lv : Q) (x : row) : Prop :=
  P x /\ exists t, nearest_rows dist (d_X D) x k' t /\ (fr t < lv)%Q.

Lemma lee_turn i m : exists new ind, batch i m = Ok new /\ nn (d_X D) new k' = Ok ind /\
  length new = m /\ length ind = m /\
  mapM (maj_frac p mj (d_y D)) ind = Ok (map fr ind) /\ (forall t, In t ind -> (fr t <= 1)%Q) /\
  forall lv lv', (lv == lv')%Q -> Forall (lee_good lv') (select (map (fun q => Qlt_b q lv) (map fr ind)) new).
Proof.
  destruct (Bat i m) as (new & En & Ln & Fn). destruct (Hnn (d_X D) new k') as (ind & Ei & Hi); [unfold k'; lia|].
  destruct (nearest_table_shape _ _ _ _ _ Hi) as (Li & Ri & Fi). rewrite Hl in Fi.
  exists new, ind. split; [assumption|]. split; [assumption|]. split; [assumption|]. split; [lia|]. split; [|split].
  - rewrite <- mapM_pure. apply mapM_ext_in. intros t Ht. unfold maj_frac.
    rewrite count_at_ok by (rewrite Forall_forall in Fi; now apply Fi). reflexivity.
  - intros t Ht. unfold fr. assert (H : votes (d_y D) t mj <= le_n_neighbors p).
    { pose proof (votes_le (d_y D) t mj). unfold rect in Ri. rewrite Forall_forall in Ri. rewrite (Ri t Ht) in H. unfold k' in H. lia. }
    apply Qle_shift_div_r; [apply qn_pos; lia|]. rewrite Qmult_1_l. now apply qn_le.
  - intros lv lv' El. clear En Ei Ln Li Ri. unfold nearest_table in Hi. revert Fn Fi. induction Hi as [|x t new' ind' Hh Ht IH]; intros Fn Fi; [constructor|].
    inversion Fn; subst. inversion Fi; subst. cbn [map select]. specialize (IH H2 H4). destruct (Qlt_b (fr t) lv) eqn:Eq; [|exact IH].
    constructor; [|exact IH]. split; [assumption|]. exists t. split; [now repeat constructor|]. apply BaseFacts.Qlt_b_spec in Eq. now rewrite <- El.
Qed.

Definition lee_state (steps w : nat) (samples : list row) : Prop :=
  exists ws, StronglySorted le ws /\ Forall (fun v => v <= w) ws /\
    Forall2 (fun x v => v <= steps /\ P x /\ exists t, nearest_rows dist (d_X D) x k' t /\ (fr t < lee_level p v)%Q) samples ws.

Lemma sorted_repeat_end ws w m : StronglySorted le ws -> Forall (fun v => v <= w) ws -> StronglySorted le (ws ++ repeat w m).
Proof.
  intros S F. induction S as [|v l S IH Fv]; cbn.
  - induction m as [|m IH]; cbn; constructor; [assumption|]. apply Forall_forall. intros x Hx. apply repeat_spec in Hx. lia.
  - inversion F; subst. constructor; [auto|]. apply Forall_app. split; [assumption|].
    apply Forall_forall. intros x Hx. apply repeat_spec in Hx. lia.
Qed.

Lemma lee_state_app steps w w' samples new : w <= w' -> w' <= steps -> lee_state steps w samples -> Forall (lee_good (lee_level p w')) new ->
  lee_state steps w' (samples ++ new).
Proof.
  intros Hw Hs (ws & S1 & S2 & S3) H. assert (S2' : Forall (fun v => v <= w') ws) by (eapply Forall_impl; [|exact S2]; cbn; intros; lia).
  exists (ws ++ repeat w' (length new)). split; [now apply sorted_repeat_end|]. split.
  - apply Forall_app. split; [assumption|]. apply Forall_forall. intros x Hx. apply repeat_spec in Hx. lia.
  - apply Forall2_app; [assumption|]. clear - H Hs. induction H as [|x l [Hx1 Hx2] Hl IH]; cbn; constructor; auto.
Qed.

(** Every batch has an acceptable row. *)
Definition lee_easy : Prop := forall i m new ind, 20 <= m -> batch i m = Ok new -> nn (d_X D) new k' = Ok ind ->
  exists t, In t ind /\ (fr t < le_rejection_level p)%Q.

Lemma lee_level_S w : (lee_level p (S w) == lee_level p w + (1 # 10))%Q.
Proof. unfold lee_level, qn. rewrite Nat2Z.inj_succ. unfold Z.succ. rewrite inject_Z_plus. change (inject_Z 1) with 1%Q. ring. Qed.

Lemma lee_loop_S f i level tries samples : length samples < n ->
  lee_loop vol nn (S f) p rs i mj D X_min T c n level tries samples =
  (do new <- batch i (Nat.max (n - length samples) 20);
   do ind_new <- nn (d_X D) new k';
   do frac <- mapM (maj_frac p mj (d_y D)) ind_new;
   let tries := if existsb (fun q => Qlt_b q level) frac then tries else tries + 1 in
   let level' := if 5 <? tries then (level + (1 # 10))%Q else level in
   let tries' := if 5 <? tries then 0 else tries in
   lee_loop vol nn f p rs (S i) mj D X_min T c n level' tries' (samples ++ select (map (fun q => Qlt_b q level') frac) new)).
Proof. intro H. apply Nat.ltb_lt in H. cbn [lee_loop]. rewrite H. reflexivity. Qed.

Lemma lee_loop_done f i level tries samples : n <= length samples ->
  lee_loop vol nn f p rs i mj D X_min T c n level tries samples = Ok samples.
Proof. intro H. apply Nat.ltb_ge in H. destruct f; cbn [lee_loop]; rewrite H; reflexivity. Qed.

Lemma select_some {A} (ms : list bool) (l : list A) : length ms = length l -> existsb (fun b => b) ms = true -> 1 <= length (select ms l).
Proof.
  clear. revert l. induction ms as [|b ms IH]; intros [|x l] H E; try discriminate. cbn in *. destruct b; cbn; [lia|]. apply IH; [lia|assumption].
Qed.

Lemma lee_loop_ok steps : (steps = 11 /\ (0 <= le_rejection_level p)%Q) \/ lee_easy ->
  forall fuel w t i level samples, w <= steps -> t <= 5 -> (level == lee_level p w)%Q -> (lee_easy -> w = 0 /\ t = 0) ->
  lee_state steps w samples ->
  (n - length samples) + 6 * (11 - w) + (5 - t) <= fuel ->
  exists S, lee_loop vol nn fuel p rs i mj D X_min T c n level t samples = Ok S /\ n <= length S /\ lee_state steps steps S.
Proof.
  intros Hs. induction fuel as [|fuel IH]; intros w t i level samples W Tr El Ee St Fu.
  all: destruct (Nat.lt_ge_cases (length samples) n) as [C|C];
    [|exists samples; split; [apply lee_loop_done, C|split; [exact C|]];
      destruct St as (ws & S1 & S2 & S3); exists ws; split; [assumption|split; [|assumption]]; eapply Forall_impl; [|exact S2]; cbn; intros; lia].
  - exfalso. lia.
  - rewrite lee_loop_S by exact C. set (m := Nat.max (n - length samples) 20).
    destruct (lee_turn i m) as (new & ind & En & Ei & Ln & Li & Em & Le & G). rewrite En. cbn [bind]. rewrite Ei. cbn [bind]. rewrite Em. cbn [bind].
    cbv zeta. destruct (existsb (fun q => Qlt_b q level) (map fr ind)) eqn:Ex.
    + destruct (Nat.ltb_spec 5 t); [lia|]. apply (IH w t); auto.
      * apply (lee_state_app steps w w); auto.
      * rewrite app_length. assert (1 <= length (select (map (fun q => Qlt_b q level) (map fr ind)) new)); [|lia].
        apply select_some; [rewrite !map_length; lia|]. apply existsb_exists in Ex as (q & Q1 & Q2). apply existsb_exists. exists true.
        split; [|reflexivity]. rewrite <- Q2. apply in_map_iff. exists q. split; [reflexivity|assumption].
    + assert (Hne : exists t0, In t0 ind) by (destruct ind as [|t0 ?]; [cbn in Li; lia|exists t0; now left]).
      assert (Hnone : forall t0, In t0 ind -> (level <= fr t0)%Q).
      { intros t0 H0. destruct (Qlt_le_dec (fr t0) level) as [Q|Q]; [|exact Q]. exfalso.
        assert (existsb (fun q => Qlt_b q level) (map fr ind) = true); [|congruence]. apply existsb_exists. exists (fr t0).
        split; [now apply in_map|]. now apply BaseFacts.Qlt_b_spec. }
      assert (NE : ~ lee_easy).
      { intros E. destruct (Ee E) as [-> _]. destruct (E i m new ind) as (t0 & H0 & H0'); try assumption; [lia|].
        specialize (Hnone t0 H0). rewrite El in Hnone. unfold lee_level, qn in Hnone. change (inject_Z (Z.of_nat 0)) with 0%Q in Hnone. Lqa.lra. }
      destruct Hs as [[-> Hrej]|Hs]; [|contradiction].
      assert (Hw : w <= 10).
      { destruct Hne as (t0 & H0). specialize (Hnone t0 H0). specialize (Le t0 H0). rewrite El in Hnone.
        destruct (Nat.le_gt_cases w 10) as [H|H]; [assumption|]. exfalso.
        assert (qn 11 <= qn w)%Q by (apply qn_le; lia). unfold lee_level in Hnone. change (qn 11) with 11%Q in H1. Lqa.lra. }
      destruct (Nat.ltb_spec 5 (t + 1)) as [Ht|Ht].
      * apply (IH (S w) 0); try lia; [rewrite lee_level_S, El; reflexivity|contradiction| |rewrite app_length; lia].
        apply (lee_state_app 11 w (S w)); try lia; [assumption|]. apply G. rewrite lee_level_S, El. reflexivity.
      * apply (IH w (t + 1)); try lia; [assumption|contradiction| |rewrite app_length; lia].
        apply (lee_state_app 11 w w); auto.
Qed.

End Lee.

Lemma lee_runs_gen dist vol nn steps fuel p rs D mn mj n :
  knn_ok dist nn -> rngs_ok rs -> rngs_pos rs -> plain_ss (le_ss p) -> wf_data (d_X D) (d_dim D) (d_y D) -> is_minority (d_y D) mn mj ->
  asked (le_proportion p) (d_y D) mn mj = Ok n -> 1 <= le_n_neighbors p ->
  let X_min := rows_with mn (d_X D) (d_y D) in
  let c := Nat.min (length X_min) (le_n_neighbors p + 1) in
  (steps = 11 /\ (0 <= le_rejection_level p)%Q \/
   forall T, nn X_min X_min c = Ok T -> lee_easy vol nn p rs mj D X_min T c) ->
  Z.to_nat n + 71 <= fuel ->
  runs D mn n (lee_spec dist p steps D mn mj n) (lee_sample vol nn fuel p rs D).
Proof.
  intros Hnn R RP PS [WR WL] M A Hk X_min c Hs F. unfold lee_sample, lee_algorithm.
  apply (runs_intro _ _ _ _ _ _ _ M A). intros st (E1 & E2 & _) H2 Hn. rewrite E1, E2. fold X_min. fold c.
  assert (L1 : length X_min = count_label (d_y D) mn) by now apply rows_with_length.
  assert (RM : rect (d_dim D) X_min) by now apply rows_with_rect.
  assert (LX : length X_min <= length (d_X D)).
  { rewrite L1, WL. apply count_occ_bound. }
  destruct (Hnn X_min X_min c) as (T & ET & HT); [unfold c; lia|]. rewrite ET. cbn [bind].
  destruct (nearest_table_shape _ _ _ _ _ HT) as (L & RT & FT).
  set (P := fun x => ss_gauss (le_ss p) = GNone -> neighbour_sample (d_dim D) X_min X_min T c (Nat.min (ss_n_dim (le_ss p)) c - 1) None None x).
  set (args := mk_args X_min (d_dim D) T c None None None false None).
  assert (AO : args_ok args) by (constructor; cbn; auto; try discriminate; try lia).
  destruct (lee_loop_ok dist vol nn p rs mj D X_min T c (Z.to_nat n) P Hnn WL LX Hk) with (steps := steps) (fuel := fuel) (w := 0) (t := 0) (i := 0)
    (level := le_rejection_level p) (samples := @nil row) as (S & ES & LS & ws & S1 & S2 & S3); try lia.
  - intros i m. destruct (ss_call vol (le_ss p) args m (rs i) 0 AO (R i) (RP i) PS) as (S & ES & LS & FS); cbn; try lia; auto.
    exists S. split; [assumption|]. split; [assumption|]. apply Forall_forall. intros x Hx G. specialize (FS G). rewrite Forall_forall in FS. now apply FS.
  - destruct Hs as [Hs|Hs]; [left; assumption|right; now apply Hs].
  - unfold lee_level, qn. change (inject_Z (Z.of_nat 0)) with 0%Q. ring.
  - exists []. repeat constructor.
  - rewrite ES. cbn [bind]. exists (firstn (Z.to_nat n) S). split; [reflexivity|]. split; [rewrite firstn_length; lia|].
    exists T, (firstn (Z.to_nat n) ws). split; [assumption|]. split; [now apply (EditFacts2.sorted_firstn)|]. now apply Forall2_firstn'.
Qed.
