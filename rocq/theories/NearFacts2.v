(** Proofs about NearModel: ISMOTE, NRAS. *)

From Coq Require Import List ZArith QArith Bool Arith Lia Lqa Sorting.Sorted Permutation.
From Verif Require Import Np NpFacts BaseFacts SimplexModel Spec SpecDanger SpecNoise SpecComp SimplexFacts SimplexGeom Float64
  SamplerModel SamplerFacts OversFacts BaseModel KnnFacts DangerModel DangerFacts ClusterOversModel OversGen
  ClusterOversFacts ClusterFacts NoiseModel NoiseFacts NoiseFacts2 CompModel CompFacts CompFacts2 EditModel SpecEdit EditFacts4 EditFacts5
  NearModel SpecNear NearFacts.
Import ListNotations.
Open Scope nat_scope.

(** * ISMOTE *)

Lemma qmean_ok l : l <> [] -> qmean l = Ok (qsum l / inject_Z (Z.of_nat (length l)))%Q.
Proof. destruct l; [congruence|reflexivity]. Qed.

Lemma sorted_nth_map {A} (f : A -> Q) d l is : Forall (fun i => i < length l) is ->
  StronglySorted (fun i j => (nth i (map f l) 0 <= nth j (map f l) 0)%Q) is ->
  StronglySorted (fun i j => (f (nth i l d) <= f (nth j l d))%Q) is.
Proof.
  intros HF H. induction H as [|i is H IH Hi]; constructor.
  - apply IH. now inversion HF.
  - inversion HF as [|? ? H1 H2]; subst. rewrite Forall_forall in *. intros j Hj. specialize (Hi j Hj). specialize (H2 j Hj).
    rewrite (nth_indep (map f l) 0%Q (f d)), map_nth in Hi by (now rewrite map_length).
    rewrite (nth_indep (map f l) 0%Q (f d)), map_nth in Hi by (now rewrite map_length). exact Hi.
Qed.

Lemma nth_tl {A} (d : A) l q : nth q (tl l) d = nth (S q) l d.
Proof. destruct l; [now destruct q|reflexivity]. Qed.

Lemma skipn_Forall {A} (P : A -> Prop) n l : Forall P l -> Forall P (skipn n l).
Proof. intros H. rewrite <- (firstn_skipn n l) in H. now apply Forall_app in H. Qed.

Lemma weights_nth (mn mj : Z) (w : Q) a b v : mn <> mj -> v < a + b ->
  nth v (map (fun z => if Z.eqb mn z then w else (1 - w)%Q) (repeat mj a ++ repeat mn b)) 0%Q =
  if v <? a then (1 - w)%Q else w.
Proof.
  intros Hd Hv. set (f := fun z => _).
  rewrite (nth_indep _ 0%Q (f 0%Z)) by (rewrite map_length, app_length, !repeat_length; lia). rewrite map_nth. unfold f.
  destruct (Nat.ltb_spec v a).
  - rewrite app_nth1 by (rewrite repeat_length; lia).
    rewrite (nth_indep _ 0%Z mj), nth_repeat by (rewrite repeat_length; lia). destruct (Z.eqb_spec mn mj); [congruence|reflexivity].
  - rewrite app_nth2 by (rewrite repeat_length; lia). rewrite repeat_length.
    rewrite (nth_indep _ 0%Z mn), nth_repeat by (rewrite repeat_length; lia). now rewrite Z.eqb_refl.
Qed.

Lemma ismote_spec_ok dist vol nn p r D mn mj :
  knn_ok dist nn -> rng_ok r -> unif_pos r -> wf_data (d_X D) (d_dim D) (d_y D) -> is_minority (d_y D) mn mj ->
  (0 <= is_minority_weight p <= 1)%Q -> 1 <= is_n_neighbors p -> plain_ss (is_ss p) -> ss_gauss (is_ss p) = GNone ->
  (count_label (d_y D) mn <= 2 \/ count_label (d_y D) mn = count_label (d_y D) mj -> unchanged D (ismote_sample vol dist nn p r D)) /\
  (2 < count_label (d_y D) mn < count_label (d_y D) mj -> ismote_spec dist p D mn mj (ismote_sample vol dist nn p r D)).
Proof.
  intros Hnn Hr Hu [HX Hl] Hmin Hw Hk Hss Hg.
  destruct (sample_default (ismote_algorithm vol dist nn p r) D mn mj Hmin) as (st & (E1 & E2 & _) & E).
  unfold ismote_sample, unchanged. rewrite E. clear E.
  set (X_min := rows_with mn (d_X D) (d_y D)). set (X_maj := rows_with mj (d_X D) (d_y D)).
  assert (HL : length X_min = count_label (d_y D) mn) by now apply rows_with_length.
  assert (HLj : length X_maj = count_label (d_y D) mj) by now apply rows_with_length.
  assert (HR : rect (d_dim D) X_min) by now apply rows_with_rect.
  assert (HRj : rect (d_dim D) X_maj) by now apply rows_with_rect.
  unfold ismote_algorithm. rewrite E1, E2. fold X_min X_maj. rewrite HL, HLj.
  set (N := (count_label (d_y D) mj - count_label (d_y D) mn + 1) / 2).
  split.
  { intros H. destruct (Nat.leb_spec (count_label (d_y D) mn) 2); [reflexivity|]. destruct H as [H|H]; [lia|].
    replace N with 0; [reflexivity|]. unfold N. rewrite H, Nat.sub_diag. reflexivity. }
  intros [H2 Hlt]. destruct (Nat.leb_spec (count_label (d_y D) mn) 2); [lia|].
  assert (HN : 1 <= N /\ N <= length X_maj).
  { unfold N. split.
    - apply Nat.div_le_lower_bound; lia.
    - rewrite HLj. apply Nat.div_le_upper_bound; lia. }
  destruct (Nat.eqb_spec N 0); [lia|].
  assert (Hne : X_min <> []) by (intros H0; rewrite H0 in HL; cbn in HL; lia).
  assert (EM : mapM (fun x => qmean (map (dist x) X_min)) X_maj = Ok (map (mean_dist dist X_min) X_maj)).
  { rewrite <- (mapM_pure (mean_dist dist X_min)). apply mapM_ext_in. intros x _. rewrite qmean_ok.
    - rewrite map_length. reflexivity.
    - destruct X_min; [congruence|discriminate]. }
  rewrite EM. cbn [bind]. set (order := argsort (map Qopp (map (mean_dist dist X_min) X_maj))).
  assert (Ho : Permutation order (seq 0 (length X_maj))).
  { unfold order. eapply Permutation_trans; [apply argsort_perm|]. now rewrite !map_length. }
  assert (Hof : Forall (fun i => i < length X_maj) order).
  { apply Forall_forall. intros i Hi. apply (Permutation_in _ Ho), in_seq in Hi. lia. }
  rewrite gather_rows_at by now apply skipn_Forall. cbn [bind].
  set (M := rows_at X_maj (skipn N order)).
  assert (LM : length M = length X_maj - N).
  { unfold M. rewrite rows_at_length, skipn_length, (Permutation_length Ho), seq_length. reflexivity. }
  assert (RM : rect (d_dim D) M) by (apply rows_at_rect; [assumption|now apply skipn_Forall]).
  set (k := Nat.min (length (M ++ X_min)) (is_n_neighbors p + 1)).
  assert (Hk2 : 2 <= k) by (unfold k; rewrite app_length; lia).
  assert (RX : rect (d_dim D) (M ++ X_min)) by (apply Forall_app; split; assumption).
  destruct (Hnn (M ++ X_min) X_min k) as (T & ET & HT); [unfold k; lia|]. rewrite ET. cbn [bind].
  destruct (nearest_table_shape _ _ _ _ _ HT) as (L & R & F).
  assert (Hmm : mn <> mj) by apply Hmin.
  rewrite <- HL.
  set (w := map _ (repeat mj (length M) ++ repeat mn (length X_min))).
  set (args := mk_args X_min (d_dim D) (map (tl (A:=nat)) T) (k - 1) None (Some w) (Some (M ++ X_min)) false None).
  assert (Hargs : args_ok args).
  { constructor; cbn; auto; try discriminate.
    - unfold rect in *. rewrite Forall_map. eapply Forall_impl; [|exact R]. cbn. intros t Ht. destruct t; cbn in *; lia.
    - rewrite map_length. lia.
    - rewrite Forall_map. eapply Forall_impl; [|exact F]. cbn. intros t Ht. now apply Forall_tl.
    - unfold w. rewrite map_length, !app_length, !repeat_length. split; [reflexivity|]. rewrite Forall_map. apply Forall_forall.
      destruct Hw. intros z _. destruct (Z.eqb mn z); split; lra. }
  destruct (ss_total vol (is_ss p) args N r 0 Hargs Hr Hu Hss) as (S & ES); [change (1 <= k - 1); lia|cbn; rewrite map_length; lia|reflexivity|exact I|].
  rewrite ES. cbn [bind].
  assert (LS : length S = N) by (exact (proj1 (sample_simplex_spec _ _ _ _ _ _ Hargs Hr ES))).
  exists M, S, T. split; [|split; [|split; [|split; [|split]]]].
  - exists order. split; [assumption|]. split; [|fold X_maj; fold X_min; rewrite HL, HLj; reflexivity].
    assert (Hs : StronglySorted (fun i j => (- mean_dist dist X_min (nth i X_maj []) <= - mean_dist dist X_min (nth j X_maj []))%Q) order).
    { apply (sorted_nth_map (fun x => - mean_dist dist X_min x)%Q); [assumption|]. unfold order. rewrite map_map. apply argsort_sorted. }
    clear - Hs. fold X_maj X_min. induction Hs as [|i is Hs IH Hi]; constructor; [assumption|]. eapply Forall_impl; [|exact Hi]. cbn. intros. lra.
  - rewrite LM. fold X_maj X_min. rewrite HL, HLj. reflexivity.
  - rewrite LS. fold X_maj X_min. rewrite HL, HLj. reflexivity.
  - exact HT.
  - apply Forall_forall. intros x Hx.
    destruct (sample_simplex_weighted _ _ _ _ _ _ (M ++ X_min) w Hargs Hr ES eq_refl eq_refl eq_refl Hg x Hx) as (b & ps & B1 & B2 & B3 & B4 & B5).
    cbn in B1, B2, B4, B5. rewrite map_length in B1. fold X_min. fold k. exists b, (map Datatypes.S ps).
    split; [lia|]. split; [rewrite map_length; exact B2|]. split; [|split].
    + clear - B3. induction B3 as [|q ps H IH Hq]; cbn; constructor; [assumption|]. rewrite Forall_map. eapply Forall_impl; [|exact Hq]. cbn. lia.
    + rewrite Forall_map. eapply Forall_impl; [|exact B4]. cbn. lia.
    + rewrite map_map.
      assert (Hrow : nth b (map (tl (A:=nat)) T) [] = tl (nth b T [])) by (change (@nil nat) with (tl (@nil nat)) at 1; apply map_nth).
      rewrite Hrow in B5.
      match goal with |- convex_comb _ (_ :: ?l) _ => match type of B5 with convex_comb _ (_ :: ?l') _ => replace l with l'; [exact B5|] end end.
      apply map_ext_in. intros q Hq. cbv zeta. rewrite nth_tl.
      assert (Hv : nth (Datatypes.S q) (nth b T []) 0 < length M + length X_min).
      { rewrite <- app_length. destruct (table_row _ _ _ _ _ b HT) as [T1 T2]; [lia|]. rewrite Forall_forall in T2, B4.
        apply T2, nth_In. specialize (B4 q Hq). cbv beta in B4. change (1 <= q < k - 1) in B4. lia. }
      unfold w. rewrite weights_nth by assumption. reflexivity.
  - cbn zeta. fold X_min. rewrite LS. fold X_maj. rewrite HL, HLj. fold N. rewrite repeat_app, <- !app_assoc. reflexivity.
Qed.

(** * NRAS *)

Lemma neighbours_votes y lab t : neighbours_of y lab t = votes y (tl t) lab.
Proof.
  unfold neighbours_of, votes, other_labels. rewrite <- filter_eqb_count. induction (tl t) as [|i l IH]; [reflexivity|].
  cbn [map filter]. rewrite (Z.eqb_sym lab). destruct (Z.eqb (nth i y 0%Z) lab); cbn [length]; now rewrite IH.
Qed.

Lemma Forall2_nth_intro {A B} (R : A -> B -> Prop) da db l l' : length l = length l' ->
  (forall i, i < length l -> R (nth i l da) (nth i l' db)) -> Forall2 R l l'.
Proof.
  revert l'; induction l as [|a l IH]; intros [|b l'] H G; try discriminate; constructor.
  - apply (G 0). cbn. lia.
  - apply IH; [now injection H|]. intros i Hi. apply (G (S i)). cbn. lia.
Qed.

Lemma mm_back d mm x : length mm = d -> Forall (fun lr => ~ (snd lr == 0)%Q) mm -> length x = d ->
  same_row (mm_inverse mm (mm_transform mm x)) x.
Proof.
  intros Hm Hr Hx. assert (L1 : length (mm_transform mm x) = d) by (unfold mm_transform; rewrite map2_length; lia).
  assert (L2 : length (mm_inverse mm (mm_transform mm x)) = d) by (unfold mm_inverse; rewrite map2_length; lia).
  apply (Forall2_nth_intro _ 0%Q 0%Q); [lia|]. intros j Hj.
  rewrite mm_inverse_nth, mm_transform_nth by lia. rewrite Forall_forall in Hr.
  assert (Hs : ~ (snd (nth j mm (0, 0)) == 0)%Q) by (apply Hr, nth_In; lia). field. exact Hs.
Qed.

Lemma mm_back_rows d mm X : length mm = d -> Forall (fun lr => ~ (snd lr == 0)%Q) mm -> rect d X ->
  same_rows (map (mm_inverse mm) (map (mm_transform mm) X)) X.
Proof.
  intros Hm Hr HX. induction HX as [|x X Hx HX IH]; constructor; [now apply (mm_back d)|assumption].
Qed.

Lemma filter_seq_sorted (f : nat -> bool) a n : StronglySorted lt (filter f (seq a n)).
Proof. apply filter_StronglySorted. apply seq_sorted. Qed.

Lemma delete_len {A} (X : list A) m : length m = length X -> length (delete_idx X (where_ m)) = length X - length (where_ m).
Proof.
  intros L. rewrite delete_where by assumption. unfold where_. generalize 0.
  revert X L; induction m as [|b m IH]; intros [|x X] L n; try discriminate; [reflexivity|].
  injection L as L. specialize (IH X L (S n)). assert (length (select m (seq (S n) (length m))) <= length X).
  { rewrite <- L. clear. generalize (S n). induction m as [|b m IH]; intros a; [apply le_n|]. specialize (IH (S a)). destruct b; cbn; lia. }
  destruct b; cbn [map negb select length seq] in *; lia.
Qed.

Lemma nras_ok dist vol nn propensity p r D mn mj n :
  knn_ok dist nn -> rng_ok r -> unif_pos r -> wf_data (d_X D) (d_dim D) (d_y D) -> is_minority (d_y D) mn mj ->
  asked (nr_proportion p) (d_y D) mn mj = Ok n -> (0 < n)%Z -> 2 < count_label (d_y D) mn ->
  1 <= nr_n_neighbors p -> plain_ss (nr_ss p) -> ss_gauss (nr_ss p) = GNone ->
  (forall X y, length (propensity X y) = length X) ->
  exists f, unit_scaled (d_dim D) (d_X D) f /\
    nras_spec dist (propensity (map f (d_X D)) (d_y D)) p D mn mj n (nras_sample vol nn propensity p r D).
Proof.
  intros Hnn Hr Hu [HX Hl] Hmin Ha Hn H2 Hk Hss Hg Hprop.
  unfold nras_sample, nras_algorithm.
  edestruct (sample_shape (fun n st D =>
    let mn := min_label st in let mj := maj_label st in
    let y := d_y D in
    let mm := mm_fit (d_dim D) (d_X D) in
    let X_trans := map (mm_transform mm) (d_X D) in
    let X_min := rows_with mn X_trans y in
    let X_new := map2 (fun x q => x ++ [q]) X_trans (propensity X_trans y) in
    let X_min_new := rows_with mn X_new y in
    let k := Nat.min (length X_new) (nr_n_neighbors p + 1) in
    do ind <- nn X_new X_min_new k;
    do t_hat <- mapM (count_neighbours y mn) ind;
    let noisy := map (fun c => Qlt_b (inject_Z (Z.of_nat c)) (nr_t p * inject_Z (Z.of_nat k))) t_hat in
    let to_remove := where_ noisy in
    if length X_min - 1 <=? length to_remove then Ok (d_X D, d_y D)
    else
      let base_weights := map (fun b : bool => if b then 0%Q else 1%Q) noisy in
      do samples <- sample_simplex vol (nr_ss p)
        (mk_args X_min (d_dim D) ind k (Some base_weights) (Some (repeat 1%Q (length X_trans)))
                 (Some X_trans) false None) (n + length to_remove) r;
      let X_maj := rows_with mj X_trans y in
      let kept := delete_idx X_min to_remove in
      Ok (map (mm_inverse mm) (X_maj ++ kept ++ samples),
          repeat mj (length X_maj) ++ repeat mn (length kept) ++ repeat mn (length samples))) _ D mn mj n Hmin Ha)
    as (st & (E1 & E2 & _) & E).
  cbv zeta in E |- *. rewrite E. clear E. rewrite E1, E2. clear E1 E2 st.
  destruct (Nat.leb_spec (count_label (d_y D) mn) 2); [lia|]. destruct (Z.eqb_spec n 0); [lia|]. cbn [orb].
  set (mm := mm_fit (d_dim D) (d_X D)). set (f := mm_transform mm).
  assert (Lmm : length mm = d_dim D) by apply mm_fit_length.
  assert (Rmm : Forall (fun lr => ~ (snd lr == 0)%Q) mm) by apply mm_fit_range.
  assert (Hne : d_X D <> []).
  { intros H0. rewrite H0 in Hl. cbn in Hl. destruct (d_y D); [cbn in H2; lia|discriminate]. }
  assert (Hf : unit_scaled (d_dim D) (d_X D) f) by now apply unit_scaled_mm.
  exists f. split; [assumption|]. set (Xt := map f (d_X D)). set (sc := propensity Xt (d_y D)).
  assert (LXt : length Xt = length (d_X D)) by apply map_length.
  assert (Lsc : length sc = length (d_X D)) by (unfold sc; now rewrite Hprop).
  set (X' := map2 (fun x q => x ++ [q]) Xt sc).
  assert (LX' : length X' = length (d_X D)) by (unfold X'; rewrite map2_length; lia).
  assert (EX' : X' = map (fun i => f (nth i (d_X D) []) ++ [nth i sc 0%Q]) (seq 0 (length (d_X D)))).
  { apply (nth_ext _ _ [] []); [now rewrite LX', map_length, seq_length|]. intros i Hi. rewrite LX' in Hi. unfold X'.
    rewrite (map2_nth _ _ _ _ [] 0%Q []) by lia.
    rewrite (nth_indep (map _ (seq 0 _)) [] ((fun i => f (nth i (d_X D) []) ++ [nth i sc 0%Q]) 0)) by (now rewrite map_length, seq_length).
    rewrite (map_nth (fun i => f (nth i (d_X D) []) ++ [nth i sc 0%Q])), seq_nth by assumption. cbn [plus].
    unfold Xt. rewrite (nth_indep (map f _) [] (f [])), map_nth by (rewrite map_length; lia). reflexivity. }
  assert (EXm : rows_with mn Xt (d_y D) = map f (rows_with mn (d_X D) (d_y D))) by (now apply rows_with_map).
  assert (EXj : rows_with mj Xt (d_y D) = map f (rows_with mj (d_X D) (d_y D))) by (now apply rows_with_map).
  rewrite EXm, EXj. set (X_min := rows_with mn (d_X D) (d_y D)).
  assert (HL : length X_min = count_label (d_y D) mn) by now apply rows_with_length.
  assert (HR : rect (d_dim D) X_min) by now apply rows_with_rect.
  assert (HLn : length (rows_with mn X' (d_y D)) = count_label (d_y D) mn) by (apply rows_with_length; lia).
  rewrite LX'. set (k := Nat.min (length (d_X D)) (nr_n_neighbors p + 1)).
  assert (Hcount : count_label (d_y D) mn <= length (d_X D)).
  { rewrite Hl. unfold count_label. apply count_occ_bound || apply filter_len. }
  destruct (Hnn X' (rows_with mn X' (d_y D)) k) as (T & ET & HT); [unfold k; lia|]. rewrite ET. cbn [bind].
  destruct (nearest_table_shape _ _ _ _ _ HT) as (L & R & F). rewrite HLn in L. rewrite LX' in F.
  assert (EC : mapM (count_neighbours (d_y D) mn) T = Ok (map (fun t => votes (d_y D) (tl t) mn) T)).
  { rewrite <- (mapM_pure (fun t => votes (d_y D) (tl t) mn)). apply mapM_ext_in. intros t Ht.
    rewrite count_neighbours_ok, neighbours_votes; [reflexivity|]. rewrite <- Hl. rewrite Forall_forall in F. now apply F. }
  rewrite EC. cbn [bind]. rewrite map_map.
  set (noisy := map _ T).
  assert (Ln : length noisy = length X_min) by (unfold noisy; rewrite map_length; lia).
  assert (Hnoisy : forall b, b < length X_min -> nth b noisy false = true <-> nras_noisy p (d_y D) mn T k b).
  { intros b Hb. unfold noisy. set (g := fun t => Qlt_b _ _). rewrite (nth_indep _ false (g [])) by (rewrite map_length; lia).
    rewrite map_nth. unfold g, nras_noisy. apply BaseFacts.Qlt_b_spec. }
  set (out := if _ <=? _ then _ else _).
  exists X', T, (where_ noisy), (kept (length X_min) (where_ noisy)).
  split; [exists f; split; assumption|]. split; [exact HT|].
  split; [rewrite where_filter; apply filter_seq_sorted|].
  split. { intros b. rewrite NoiseFacts2.where_in, Ln. fold X_min k. split; intros [G1 G2]; (split; [assumption|]); now apply Hnoisy. }
  split; [apply filter_seq_sorted|].
  split. { intros b. rewrite kept_in, NoiseFacts2.where_in, Ln. fold X_min k. split; intros [G1 G2]; (split; [assumption|]).
    - intros G. apply G2. split; [assumption|]. now apply Hnoisy.
    - intros [_ G]. apply G2. now apply Hnoisy. }
  unfold out. rewrite map_length. fold X_min. split.
  { intros G. destruct (Nat.leb_spec (length X_min - 1) (length (where_ noisy))); [reflexivity|lia]. }
  intros G. destruct (Nat.leb_spec (length X_min - 1) (length (where_ noisy))); [lia|].
  set (bw := map (fun b : bool => if b then 0%Q else 1%Q) noisy).
  assert (RXt : rect (d_dim D) Xt) by (apply transform_rect; assumption).
  set (args := mk_args (map f X_min) (d_dim D) T k (Some bw) (Some (repeat 1%Q (length Xt))) (Some Xt) false None).
  assert (Hargs : args_ok args).
  { constructor; cbn; auto; try discriminate.
    - now apply transform_rect.
    - rewrite map_length. lia.
    - rewrite LXt. exact F.
    - split; [unfold bw; rewrite map_length; lia|]. unfold bw. rewrite Forall_map. apply Forall_forall. intros [|] _; lra.
    - split; [apply repeat_length|]. apply Forall_forall. intros q Hq. apply repeat_spec in Hq. subst q. split; lra. }
  assert (Hb : exists b, In b (kept (length X_min) (where_ noisy))).
  { assert (Lk : length (delete_idx X_min (where_ noisy)) = length X_min - length (where_ noisy)) by (apply delete_len; exact Ln).
    rewrite (delete_idx_kept []), map_length in Lk. destruct (kept _ _) as [|b l]; [cbn in Lk; lia|]. exists b. now left. }
  destruct Hb as (b & Hb). apply kept_in in Hb as [Hb Hb'].
  assert (Hbw : forall b, b < length X_min -> (0 < nth b bw 0)%Q <-> ~ In b (where_ noisy)).
  { intros c Hc. unfold bw. set (g := fun b : bool => if b then 0%Q else 1%Q). rewrite (nth_indep _ 0%Q (g false)) by (rewrite map_length; lia).
    rewrite map_nth. unfold g. rewrite NoiseFacts2.where_in, Ln. destruct (nth c noisy false); split; intros G0.
    - lra.
    - exfalso. apply G0. auto.
    - intros [_ G1]. discriminate.
    - lra. }
  destruct (ss_call vol (nr_ss p) args (Z.to_nat n + length (where_ noisy)) r b Hargs Hr Hu Hss) as (S & ES & LS & FS).
  { cbn. unfold k. lia. } { cbn. lia. } { reflexivity. } { cbn. now apply Hbw. }
  specialize (FS Hg). cbn in FS. rewrite ES. cbn [bind].
  exists (map (mm_inverse mm) (map f (rows_with mj (d_X D) (d_y D)))), (map (mm_inverse mm) (delete_idx (map f X_min) (where_ noisy))), (map (mm_inverse mm) S).
  split; [|split; [|split; [|split]]].
  - rewrite !map_app, !map_length, repeat_app. reflexivity.
  - apply (mm_back_rows (d_dim D)); auto. now apply rows_with_rect.
  - rewrite (delete_idx_kept []), map_length. unfold rows_at. 
    assert (RK : rect (d_dim D) (map (fun i => nth i X_min []) (kept (length X_min) (where_ noisy)))).
    { apply rows_at_rect; [assumption|]. apply Forall_forall. intros i Hi. now apply kept_in in Hi. }
    replace (map (fun i => nth i (map f X_min) []) (kept (length X_min) (where_ noisy)))
      with (map f (map (fun i => nth i X_min []) (kept (length X_min) (where_ noisy)))).
    + now apply (mm_back_rows (d_dim D)).
    + rewrite map_map. apply map_ext_in. intros i Hi. apply kept_in in Hi as [Hi _].
      rewrite (nth_indep (map f X_min) [] (f [])), map_nth by (now rewrite map_length). reflexivity.
  - rewrite map_length. exact LS.
  - rewrite Forall_map. eapply Forall_impl; [|exact FS]. cbn. intros s Hs.
    apply neighbour_sample_inverse in Hs; auto.
    + destruct Hs as (c & ps & S1 & S2 & S3 & S4 & S5 & _ & S7). exists c, ps. split; [apply kept_in|].
      * rewrite L, <- HL in S1. split; [assumption|]. now apply Hbw.
      * fold X_min k. auto.
    + fold X_min. lia.
Qed.

Lemma nras_unchanged vol nn propensity p r D mn mj n :
  is_minority (d_y D) mn mj -> asked (nr_proportion p) (d_y D) mn mj = Ok n ->
  count_label (d_y D) mn <= 2 \/ n = 0%Z -> unchanged D (nras_sample vol nn propensity p r D).
Proof.
  intros Hmin Ha H. unfold nras_sample, unchanged.
  destruct (sample_default (nras_algorithm vol nn propensity p r) D mn mj Hmin) as (st & Hst & ->).
  destruct (Nat.leb_spec (count_label (d_y D) mn) 2); [reflexivity|]. destruct H as [H| ->]; [lia|].
  unfold nras_algorithm. rewrite (det_st_asked _ _ _ _ _ (proj1 Hmin) Hst), Ha. reflexivity.
Qed.

Lemma votes_le y t z : votes y t z <= length t.
Proof. unfold votes. induction t as [|i t IH]; [apply le_n|]. cbn. destruct (Z.eqb _ _); cbn; lia. Qed.

(** Only [k - 1] neighbours are counted. *)
Lemma nras_t_one dist score p D mn mj n out : (1 <= nr_t p)%Q -> 1 <= length (rows_with mn (d_X D) (d_y D)) ->
  length (d_X D) = length (d_y D) ->
  nras_spec dist score p D mn mj n out -> unchanged D out.
Proof.
  intros Ht Hn Hl (X' & T & noisy & kept & HX & HT & Hs & Hin & _ & _ & H & _). apply H.
  assert (E : noisy = seq 0 (length (rows_with mn (d_X D) (d_y D)))).
  { apply sorted_ext; [assumption|apply seq_sorted|]. intros b. rewrite Hin, in_seq. split; [intros [G _]; lia|]. intros [_ G]. split; [lia|].
    destruct (nearest_table_shape _ _ _ _ _ HT) as (L & R & _). unfold nras_noisy.
    assert (Lb : length (nth b T []) = Nat.min (length (d_X D)) (nr_n_neighbors p + 1)).
    { apply rect_nth; [assumption|]. rewrite L.
      assert (LX : length X' = length (d_y D)) by (destruct HX as (f & _ & ->); now rewrite map_length, seq_length).
      rewrite (rows_with_length mn X') by assumption. rewrite rows_with_length in G by assumption. lia. }
    set (k := Nat.min _ _) in *. pose proof (votes_le (d_y D) (tl (nth b T [])) mn) as V.
    assert (Hk : 1 <= k).
    { assert (length (d_X D) <> 0); [|unfold k; lia]. intros E0. rewrite rows_with_length in Hn by assumption.
      rewrite Hl in E0. destruct (d_y D); [cbn in Hn; lia|discriminate]. }
    assert (V' : votes (d_y D) (tl (nth b T [])) mn < k) by (destruct (nth b T []); cbn in *; lia).
    assert (Q1 : (inject_Z (Z.of_nat (votes (d_y D) (tl (nth b T [])) mn)) < inject_Z (Z.of_nat k))%Q) by (rewrite <- Zlt_Qlt; lia).
    assert (Q2 : (0 < inject_Z (Z.of_nat k))%Q) by (change 0%Q with (inject_Z 0); rewrite <- Zlt_Qlt; lia).
    apply (Qlt_le_trans _ _ _ Q1). setoid_replace (inject_Z (Z.of_nat k)) with (1 * inject_Z (Z.of_nat k))%Q at 1 by ring.
    apply Qmult_le_compat_r; [assumption|lra]. }
  rewrite E, seq_length. lia.
Qed.

(** One neighbour: only copies. *)
Lemma ismote_copies dist p D mn mj X1 y1 : is_n_neighbors p = 1 -> length (d_X D) = length (d_y D) -> 2 < count_label (d_y D) mn -> rect (d_dim D) (d_X D) ->
  ismote_spec dist p D mn mj (Ok (X1, y1)) ->
  forall x, In x X1 -> exists z, In z (d_X D) /\ same_row x z.
Proof.
  intros Hk Hl H2 HR (M & S & T & (order & Ho & _ & EM) & _ & _ & HT & HF & E) x Hx. injection E as -> ->.
  assert (Hself : forall z, same_row z z) by (intros z; unfold same_row; induction z; constructor; [reflexivity|assumption]).
  set (X_maj := rows_with mj (d_X D) (d_y D)) in *.
  apply in_app_iff in Hx as [Hx|Hx]; [|apply in_app_iff in Hx as [Hx|Hx]].
  - exists x. split; [|apply Hself]. rewrite EM in Hx. apply in_map_iff in Hx as (i & <- & Hi).
    assert (Hi' : In i order) by (rewrite <- (firstn_skipn ((length X_maj - length (rows_with mn (d_X D) (d_y D)) + 1) / 2) order); apply in_app_iff; now right).
    apply (Permutation_in _ Ho), in_seq in Hi'.
    apply (in_combine_l _ (d_y D) _ mj), rows_with_in, nth_In. fold X_maj. lia.
  - exists x. split; [|apply Hself]. now apply (in_combine_l _ (d_y D) _ mn), rows_with_in.
  - rewrite Forall_forall in HF. destruct (HF x Hx) as (b & ps & Hb & Hps & _ & _ & Hc).
    rewrite Hk in Hps. destruct ps; [|cbn in Hps; lia]. exists (nth b (rows_with mn (d_X D) (d_y D)) []).
    assert (Hin : In (nth b (rows_with mn (d_X D) (d_y D)) []) (d_X D)) by (now apply (in_combine_l _ (d_y D) _ mn), rows_with_in, nth_In).
    split; [assumption|]. unfold rect in HR. rewrite Forall_forall in HR. specialize (HR _ Hin).
    destruct Hc as (Lx & ws & W1 & W2 & W3 & W4). destruct ws as [|w [|]]; try discriminate.
    apply (Forall2_nth_intro _ 0%Q 0%Q); [cbn in HR; congruence|]. intros j Hj. rewrite W4 by lia. cbn in W3 |- *.
    assert (Hw : (w == 1)%Q) by lra. rewrite Hw. ring.
Qed.
