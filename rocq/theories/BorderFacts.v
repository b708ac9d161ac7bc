(** Lemmas about the borderline methods. *)

From Coq Require Import List ZArith QArith Bool Arith Lia Lqa Sorting.Sorted Permutation.
From Verif Require Import Np NpFacts SimplexModel Spec SpecDanger SimplexFacts SimplexGeom Float64
  SamplerModel SamplerFacts OversFacts BaseModel BaseFacts NoiseFacts DangerModel DangerFacts.
Import ListNotations.
Open Scope nat_scope.

Definition noisyb (y : list Z) (mj : Z) (t : list nat) : bool :=
  length (tl t) =? neighbours_of y mj t.

Definition dangerb (y : list Z) (mn mj : Z) (t : list nat) : bool :=
  negb (noisyb y mj t) &&
  (let c := neighbours_of y mj t in
   ((length (tl t) - c <? c) || ((length (tl t) - c =? c) && (mj <? mn)%Z))).

Lemma noisyb_iff y mj t : noisyb y mj t = true <-> noisy y mj t.
Proof. unfold noisyb, noisy. rewrite Nat.eqb_eq. intuition. Qed.

Lemma dangerb_iff y mn mj t : dangerb y mn mj t = true <-> in_danger y mn mj t.
Proof.
  unfold dangerb, noisyb, in_danger. pose proof (neighbours_of_le y mj t).
  destruct (Nat.eqb_spec (length (tl t)) (neighbours_of y mj t)); cbn [negb andb].
  - split; [discriminate|lia].
  - rewrite orb_true_iff, andb_true_iff, Nat.ltb_lt, Nat.eqb_eq, Z.ltb_lt. intuition lia.
Qed.

Lemma labels_in y t mn mj : two_labels y mn mj -> Forall (fun i => i < length y) t ->
  forall z, In z (other_labels y t) -> z = mn \/ z = mj.
Proof.
  intros (_ & _ & _ & Hall) Ht z Hz. unfold other_labels in Hz. apply in_map_iff in Hz as [i [<- Hi]].
  apply Hall, nth_In. apply tl_bound in Ht. rewrite Forall_forall in Ht. auto.
Qed.

Lemma labels_count l mn mj : mn <> mj -> (forall z, In z l -> z = mn \/ z = mj) ->
  count_label l mn + count_label l mj = length l.
Proof.
  intros Hne Hall. unfold count_label. induction l as [|z l IH]; [reflexivity|].
  assert (Hz : z = mn \/ z = mj) by (apply Hall; left; reflexivity).
  cbn. rewrite <- IH by (intros; apply Hall; now right).
  destruct (Z.eq_dec z mn), (Z.eq_dec z mj); try congruence; try lia; destruct Hz; congruence.
Qed.

Lemma mode_majority y mn mj t : two_labels y mn mj -> Forall (fun i => i < length y) t ->
  noisyb y mj t = false ->
  exists m, mode (other_labels y t) = Ok m /\ (m =? mj)%Z = dangerb y mn mj t.
Proof.
  intros H2 Ht Hn. pose proof (labels_in _ _ _ _ H2 Ht) as Hall.
  assert (Hne : mn <> mj) by apply H2.
  pose proof (labels_count _ _ _ Hne Hall) as Hc.
  assert (Hlen : length (other_labels y t) = length (tl t)) by apply map_length.
  assert (Hnil : other_labels y t <> []).
  { intros E. unfold noisyb, neighbours_of in Hn. rewrite E in *. cbn in *. rewrite <- Hlen in Hn. discriminate. }
  destruct (mode_spec _ Hnil) as (m & Hm & Hin & Hmax & Htie). exists m. split; [assumption|].
  unfold dangerb. rewrite Hn. cbn [negb andb]. unfold neighbours_of.
  fold (count_label (other_labels y t) m) in *. unfold count_label in Hmax, Htie, Hc |- *. rewrite Hlen in Hc.
  pose proof (Hmax mn) as M1. pose proof (Hmax mj) as M2.
  pose proof (Htie mn) as T1. pose proof (Htie mj) as T2.
  destruct (Hall m Hin) as [->| ->].
  - (* the mode is the minority label *)
    destruct (Z.eqb_spec mn mj) as [E|_]; [congruence|]. symmetry.
    apply orb_false_iff. rewrite Nat.ltb_ge. split; [lia|]. apply andb_false_iff.
    rewrite Nat.eqb_neq. destruct (Nat.eq_dec (length (tl t) - count_occ Z.eq_dec (other_labels y t) mj) (count_occ Z.eq_dec (other_labels y t) mj)) as [Ee|]; [right|left; assumption].
    apply Z.ltb_ge. apply T2. lia.
  - rewrite Z.eqb_refl. symmetry. apply orb_true_iff. rewrite Nat.ltb_lt.
    destruct (Nat.eq_dec (count_occ Z.eq_dec (other_labels y t) mn) (count_occ Z.eq_dec (other_labels y t) mj)) as [Ee|]; [right|left; lia].
    apply andb_true_iff. rewrite Nat.eqb_eq. split; [lia|]. apply Z.ltb_lt. specialize (T1 Ee). lia.
Qed.

Lemma danger_loop_spec y mn mj k T : two_labels y mn mj -> rect k T ->
  Forall (Forall (fun i => i < length y)) T -> forall i0,
  danger_loop y mj k i0 T =
    Ok (filter (fun i => noisyb y mj (nth (i - i0) T [])) (seq i0 (length T)),
        filter (fun i => dangerb y mn mj (nth (i - i0) T [])) (seq i0 (length T))).
Proof.
  intros H2 Hr Hb. induction T as [|t T IH]; intros i0; [reflexivity|].
  inversion Hr as [|? ? Hk Hr']; subst. inversion Hb as [|? ? Hb1 Hb']; subst.
  cbn [danger_loop]. rewrite gather_labels by assumption. cbn [bind].
  rewrite (IH Hr' Hb' (S i0)). cbn [bind].
  assert (Hsh : forall f : list nat -> bool,
    filter (fun i => f (nth (i - i0) (t :: T) [])) (seq (S i0) (length T)) =
    filter (fun i => f (nth (i - S i0) T [])) (seq (S i0) (length T))).
  { intros f. apply filter_ext_in. intros i Hi. apply in_seq in Hi.
    replace (i - i0) with (S (i - S i0)) by lia. reflexivity. }
  cbn [length seq filter]. rewrite Nat.sub_diag. cbn [nth]. rewrite !Hsh.
  rewrite filter_eqb_count. fold (neighbours_of y mj t).
  assert (Hlt : length t - 1 = length (tl t)) by (destruct t; cbn; lia).
  rewrite Hlt. fold (noisyb y mj t).
  destruct (noisyb y mj t) eqn:En.
  - assert (Ed : dangerb y mn mj t = false) by (unfold dangerb; rewrite En; reflexivity).
    rewrite Ed. reflexivity.
  - destruct (mode_majority y mn mj t H2 Hb1 En) as (m & -> & Hm). cbn [bind]. rewrite Hm.
    destruct (dangerb y mn mj t); reflexivity.
Qed.

Definition noise_rows (y : list Z) (mj : Z) (T : list (list nat)) : list nat :=
  filter (fun i => noisyb y mj (nth i T [])) (seq 0 (length T)).
Definition danger_rows (y : list Z) (mn mj : Z) (T : list (list nat)) : list nat :=
  filter (fun i => dangerb y mn mj (nth i T [])) (seq 0 (length T)).

Lemma filter_seq_in f n i : In i (filter f (seq 0 n)) <-> i < n /\ f i = true.
Proof. rewrite filter_In, in_seq. intuition lia. Qed.

Lemma determine_danger_spec dist nn D mn mj n0 :
  knn_ok dist nn -> wf_data (d_X D) (d_dim D) (d_y D) -> two_labels (d_y D) mn mj ->
  let X_min := rows_with mn (d_X D) (d_y D) in
  let k := Nat.min (length (d_X D)) (n0 + 1) in
  exists T safe danger,
    determine_danger_remove_noise nn (d_X D) (d_y D) X_min n0 mj = Ok (safe, danger) /\
    nearest_table dist (d_X D) X_min k T /\
    filtered X_min (fun i => ~ noisy (d_y D) mj (nth i T [])) safe /\
    filtered X_min (fun i => in_danger (d_y D) mn mj (nth i T [])) danger.
Proof.
  intros Hnn [Hr Hl] H2 X_min k. unfold determine_danger_remove_noise. fold k.
  destruct (Hnn (d_X D) X_min k) as (T & -> & HT); [unfold k; lia|]. cbn [bind].
  destruct (nearest_table_shape _ _ _ _ _ HT) as (S1 & S2 & S3). rewrite Hl in S3.
  rewrite (danger_loop_spec _ mn _ _ _ H2 S2 S3 0). cbn [bind].
  assert (E1 : filter (fun i => noisyb (d_y D) mj (nth (i - 0) T [])) (seq 0 (length T)) = noise_rows (d_y D) mj T).
  { apply filter_ext. intros i. now rewrite Nat.sub_0_r. }
  assert (E2 : filter (fun i => dangerb (d_y D) mn mj (nth (i - 0) T [])) (seq 0 (length T)) = danger_rows (d_y D) mn mj T).
  { apply filter_ext. intros i. now rewrite Nat.sub_0_r. }
  rewrite E1, E2. clear E1 E2.
  assert (Hg : gather X_min (danger_rows (d_y D) mn mj T) = Ok (map (fun i => nth i X_min []) (danger_rows (d_y D) mn mj T))).
  { apply gather_map. rewrite Forall_forall. intros i Hi. apply filter_seq_in in Hi. lia. }
  rewrite Hg. cbn [bind]. exists T. eexists. eexists. split; [reflexivity|]. split; [assumption|]. split.
  - exists (kept (length X_min) (noise_rows (d_y D) mj T)). split.
    { apply filter_StronglySorted, seq_StronglySorted. }
    split.
    + intros i. rewrite kept_in. unfold noise_rows. rewrite filter_seq_in, S1, noisyb_iff. intuition.
    + intros d. apply delete_idx_kept.
  - exists (danger_rows (d_y D) mn mj T). split.
    { apply filter_StronglySorted, seq_StronglySorted. }
    split.
    + intros i. unfold danger_rows. rewrite filter_seq_in, S1, dangerb_iff. reflexivity.
    + intros d. apply map_ext_in. intros i Hi. apply filter_seq_in in Hi. apply nth_indep. lia.
Qed.

Lemma filtered_nth {A} (l : list A) P kept b x : filtered l P kept -> nth_error kept b = Some x ->
  exists i, nth_error l i = Some x /\ P i.
Proof.
  intros (idx & _ & Hin & Hk) Hb. rewrite (Hk x) in Hb. rewrite nth_error_map in Hb.
  destruct (nth_error idx b) as [i|] eqn:Ei; [|discriminate]. cbn in Hb. injection Hb as Hb.
  apply nth_error_In in Ei. apply Hin in Ei as [Hlt HP]. exists i. split; [|assumption].
  rewrite <- Hb. now apply nth_error_nth'.
Qed.

Lemma filtered_incl {A} (l : list A) P kept : filtered l P kept -> incl kept l.
Proof.
  intros H x Hx. apply In_nth_error in Hx as [b Hb]. destruct (filtered_nth _ _ _ _ _ H Hb) as (i & Hi & _).
  now apply nth_error_In in Hi.
Qed.

Lemma filtered_rect d (l : list row) P kept : rect d l -> filtered l P kept -> rect d kept.
Proof.
  unfold rect. rewrite !Forall_forall. intros H Hf x Hx. apply H. now apply (filtered_incl _ _ _ Hf).
Qed.

Lemma tl_rect {A} k (T : list (list A)) : rect k T -> rect (k - 1) (map (@tl A) T).
Proof.
  unfold rect. rewrite Forall_map. intros H. eapply Forall_impl; [|exact H]. cbn. intros t <-. destruct t; cbn; lia.
Qed.

Lemma tl_range n (T : list (list nat)) : Forall (Forall (fun i => i < n)) T -> Forall (Forall (fun i => i < n)) (map (@tl nat) T).
Proof. rewrite Forall_map. intros H. eapply Forall_impl; [|exact H]. intros t. apply tl_bound. Qed.

Lemma nth_map_tl (T : list (list nat)) b q : nth q (nth b (map (@tl nat) T) []) 0 = nth (S q) (nth b T []) 0.
Proof.
  change (@nil nat) with (tl (@nil nat)) at 1. rewrite map_nth. destruct (nth b T []); cbn; [destruct q; reflexivity|reflexivity].
Qed.

Definition border1_spec (dist : list Q -> list Q -> Q) (p : border_params) (D : dataset) (mn mj : Z)
    (X' : list row) (y' : list Z) : Prop :=
  let X_min := rows_with mn (d_X D) (d_y D) in
  let k := Nat.min (length (d_X D)) (bo_n_neighbors p + 1) in
  (X' = d_X D /\ y' = d_y D /\
    (count_label (d_y D) mn <= 2 \/ asked (bo_proportion p) (d_y D) mn mj = Ok 0%Z \/
     exists T safe danger,
       nearest_table dist (d_X D) X_min k T /\
       filtered X_min (fun i => ~ noisy (d_y D) mj (nth i T [])) safe /\
       filtered X_min (fun i => in_danger (d_y D) mn mj (nth i T [])) danger /\
       (length safe < 2 \/ danger = []))) \/
  exists n S T safe,
    asked (bo_proportion p) (d_y D) mn mj = Ok (Z.of_nat n) /\ 0 < n /\ length S = n /\
    X' = d_X D ++ S /\ y' = d_y D ++ repeat mn n /\
    nearest_table dist (d_X D) X_min k T /\
    filtered X_min (fun i => ~ noisy (d_y D) mj (nth i T [])) safe /\ 2 <= length safe /\
    let k2 := Nat.min (length safe) (bo_k_neighbors p + 1) in
    (ss_gauss (bo_ss p) = GNone -> forall x, In x S ->
      exists i b t ps,
        nth_error X_min i = Some b /\ in_danger (d_y D) mn mj (nth i T []) /\
        nearest_table dist safe [b] k2 [t] /\
        length ps = Nat.min (ss_n_dim (bo_ss p)) (k2 - 1) - 1 /\ StronglySorted lt ps /\
        Forall (fun q => 2 <= q < k2) ps /\
        convex_comb (d_dim D) (b :: map (fun q => nth (nth q t 0) safe []) ps) x).

Lemma border1_cases dist vol nn p r D mn mj X' y' :
  knn_ok dist nn -> rng_ok r -> wf_data (d_X D) (d_dim D) (d_y D) ->
  is_minority (d_y D) mn mj ->
  border1_sample vol nn p r D = Ok (X', y') ->
  border1_spec dist p D mn mj X' y'.
Proof.
  intros Hnn Hr Hwf Hmin H. unfold border1_spec.
  set (X_min := rows_with mn (d_X D) (d_y D)).
  set (k := Nat.min (length (d_X D)) (bo_n_neighbors p + 1)).
  unfold border1_sample in H.
  destruct (sample_default (border1_algorithm vol nn p r) D mn mj Hmin) as (st & Hst & E).
  rewrite E in H. clear E.
  destruct (Nat.leb_spec (count_label (d_y D) mn) 2) as [Hle|Hgt].
  { injection H as <- <-. left. auto. }
  unfold border1_algorithm in H. inv_bind H. rename a into n.
  pose proof (det_st_inv _ _ _ _ _ _ (proj1 Hmin) Hst E) as Hn. clear E.
  destruct Hst as (Emn & Emj & _). rewrite Emn, Emj in H. clear Emn Emj st.
  destruct (Nat.eqb_spec n 0) as [Hn0|Hn0].
  { injection H as <- <-. left. rewrite Hn0 in Hn. auto. }
  destruct (determine_danger_spec dist nn D mn mj (bo_n_neighbors p) Hnn Hwf (proj1 Hmin))
    as (T & safe & danger & E & HT & Hs & Hd).
  rewrite E in H. cbn [bind] in H. clear E. fold k in HT. fold X_min in HT, Hs, Hd.
  assert (HXr : rect (d_dim D) X_min) by (apply rows_with_rect, Hwf).
  destruct (_ || _) eqn:Eb in H.
  { injection H as <- <-. left. split; [reflexivity|]. split; [reflexivity|]. right; right.
    exists T, safe, danger. split; [assumption|]. split; [assumption|]. split; [assumption|].
    apply orb_true_iff in Eb as [Eb|Eb].
    - left. now apply Nat.ltb_lt.
    - right. apply Nat.eqb_eq in Eb. now apply length_zero_iff_nil. }
  apply orb_false_iff in Eb as [Eb1 Eb2]. apply Nat.ltb_ge in Eb1.
  set (k2 := Nat.min (length safe) (bo_k_neighbors p + 1)) in *.
  inv_bind H. rename a into T2. destruct (Hnn safe danger k2) as (T' & E1 & HT2); [unfold k2; lia|].
  rewrite E in E1. injection E1 as <-. clear E.
  destruct (nearest_table_shape _ _ _ _ _ HT2) as (M1 & M2 & M3).
  inv_bind H. rename a into S. injection H as <- <-. right. exists n, S, T, safe.
  assert (Ha : args_ok (mk_args danger (d_dim D) (map (@tl nat) T2) (k2 - 1) None None (Some safe) false None)).
  { constructor; cbn; auto; try discriminate.
    - eapply filtered_rect; eassumption.
    - eapply filtered_rect; eassumption.
    - now apply tl_rect.
    - rewrite map_length. lia.
    - now apply tl_range. }
  destruct (sample_simplex_spec _ _ _ _ _ _ Ha Hr E) as [Q1 Q2]. cbn in Q2.
  split; [assumption|]. split; [lia|]. split; [assumption|]. split; [reflexivity|]. split; [reflexivity|].
  split; [assumption|]. split; [assumption|]. split; [assumption|].
  cbv zeta. fold k2. intros Hg x Hx. specialize (Q2 Hg). rewrite Forall_forall in Q2.
  destruct (Q2 x Hx) as (b & ps & B1 & B2 & B3 & B4 & _ & _ & B6). rewrite map_length, M1 in B1.
  assert (Hb : nth_error danger b = Some (nth b danger [])) by now apply nth_error_nth'.
  destruct (filtered_nth _ _ _ _ _ Hd Hb) as (i & Hi & Hdan).
  exists i, (nth b danger []), (nth b T2 []), (map Datatypes.S ps).
  split; [assumption|]. split; [assumption|].
  split. { apply (nearest_table_nth _ _ _ _ _ b _ _ HT2 Hb). apply nth_error_nth'. lia. }
  split; [now rewrite map_length|].
  split. { clear - B3. induction B3 as [|q ps B3 IH Hq]; cbn; constructor; auto. rewrite Forall_map.
    eapply Forall_impl; [|exact Hq]. cbn. lia. }
  split. { rewrite Forall_map. eapply Forall_impl; [|exact B4]. cbn. lia. }
  rewrite map_map. erewrite map_ext; [exact B6|]. intros q. cbn. now rewrite nth_map_tl.
Qed.

Definition border2_spec (dist : list Q -> list Q -> Q) (p : border_params) (D : dataset) (mn mj : Z)
    (X' : list row) (y' : list Z) : Prop :=
  let X_min := rows_with mn (d_X D) (d_y D) in
  let k := Nat.min (length (d_X D)) (bo_n_neighbors p + 1) in
  let k2 := Nat.min (bo_k_neighbors p + 1) (length (d_X D)) in
  (X' = d_X D /\ y' = d_y D /\
    (count_label (d_y D) mn <= 2 \/ asked (bo_proportion p) (d_y D) mn mj = Ok 0%Z \/
     exists T safe danger,
       nearest_table dist (d_X D) X_min k T /\
       filtered X_min (fun i => ~ noisy (d_y D) mj (nth i T [])) safe /\
       filtered X_min (fun i => in_danger (d_y D) mn mj (nth i T [])) danger /\
       (length safe < 2 \/ danger = []))) \/
  exists n S T,
    asked (bo_proportion p) (d_y D) mn mj = Ok (Z.of_nat n) /\ 0 < n /\ length S = n /\
    X' = d_X D ++ S /\ y' = d_y D ++ repeat mn n /\
    nearest_table dist (d_X D) X_min k T /\
    (ss_gauss (bo_ss p) = GNone -> forall x, In x S ->
      exists i b t ps,
        nth_error X_min i = Some b /\ in_danger (d_y D) mn mj (nth i T []) /\
        nearest_table dist (d_X D) [b] k2 [t] /\
        length ps = Nat.min (ss_n_dim (bo_ss p)) (k2 - 1) - 1 /\ StronglySorted lt ps /\
        Forall (fun q => 2 <= q < k2) ps /\
        convex_comb (d_dim D) (b :: map (fun q =>
            toward b (nth (nth q t 0) (d_X D) [])
                   (if Z.eq_dec (nth (nth q t 0) (d_y D) 0%Z) mj then (1 # 2)%Q else 1%Q) 1) ps) x).

Lemma border2_cases dist vol nn p r D mn mj X' y' :
  knn_ok dist nn -> rng_ok r -> wf_data (d_X D) (d_dim D) (d_y D) ->
  is_minority (d_y D) mn mj ->
  border2_sample vol nn p r D = Ok (X', y') ->
  border2_spec dist p D mn mj X' y'.
Proof.
  intros Hnn Hr Hwf Hmin H. unfold border2_spec.
  set (X_min := rows_with mn (d_X D) (d_y D)).
  set (k := Nat.min (length (d_X D)) (bo_n_neighbors p + 1)).
  set (k2 := Nat.min (bo_k_neighbors p + 1) (length (d_X D))).
  unfold border2_sample in H.
  destruct (sample_default (border2_algorithm vol nn p r) D mn mj Hmin) as (st & Hst & E).
  rewrite E in H. clear E.
  destruct (Nat.leb_spec (count_label (d_y D) mn) 2) as [Hle|Hgt].
  { injection H as <- <-. left. auto. }
  unfold border2_algorithm in H. inv_bind H. rename a into n.
  pose proof (det_st_inv _ _ _ _ _ _ (proj1 Hmin) Hst E) as Hn. clear E.
  destruct Hst as (Emn & Emj & _). rewrite Emn, Emj in H. clear Emn Emj st.
  destruct (Nat.eqb_spec n 0) as [Hn0|Hn0].
  { injection H as <- <-. left. rewrite Hn0 in Hn. auto. }
  destruct (determine_danger_spec dist nn D mn mj (bo_n_neighbors p) Hnn Hwf (proj1 Hmin))
    as (T & safe & danger & E & HT & Hs & Hd).
  rewrite E in H. cbn [bind] in H. clear E. fold k in HT. fold X_min in HT, Hs, Hd.
  assert (HXr : rect (d_dim D) X_min) by (apply rows_with_rect, Hwf).
  destruct (_ || _) eqn:Eb in H.
  { injection H as <- <-. left. split; [reflexivity|]. split; [reflexivity|]. right; right.
    exists T, safe, danger. split; [assumption|]. split; [assumption|]. split; [assumption|].
    apply orb_true_iff in Eb as [Eb|Eb].
    - left. now apply Nat.ltb_lt.
    - right. apply Nat.eqb_eq in Eb. now apply length_zero_iff_nil. }
  fold k2 in H. destruct Hwf as [HXr' Hlen].
  inv_bind H. rename a into T2. destruct (Hnn (d_X D) danger k2) as (T' & E1 & HT2); [unfold k2; lia|].
  rewrite E in E1. injection E1 as <-. clear E.
  destruct (nearest_table_shape _ _ _ _ _ HT2) as (M1 & M2 & M3).
  inv_bind H. rename a into S. injection H as <- <-. right. exists n, S, T.
  set (w := map (fun l => if (l =? mj)%Z then (1 # 2)%Q else 1%Q) (d_y D)) in *.
  assert (Ha : args_ok (mk_args danger (d_dim D) (map (@tl nat) T2) (k2 - 1) None (Some w) (Some (d_X D)) false None)).
  { constructor; cbn; auto; try discriminate.
    - eapply filtered_rect; eassumption.
    - now apply tl_rect.
    - rewrite map_length. lia.
    - now apply tl_range.
    - unfold w. rewrite map_length. split; [congruence|]. rewrite Forall_map, Forall_forall. intros l _.
      destruct (l =? mj)%Z; split; Lqa.lra. }
  destruct (sample_simplex_spec _ _ _ _ _ _ Ha Hr E) as [Q1 _].
  split; [assumption|]. split; [lia|]. split; [assumption|]. split; [reflexivity|]. split; [reflexivity|].
  split; [assumption|]. intros Hg x Hx.
  destruct (sample_simplex_weighted _ _ _ _ _ _ (d_X D) w Ha Hr E eq_refl eq_refl eq_refl Hg x Hx)
    as (b & ps & B1 & B2 & B3 & B4 & B6). cbn in B1, B2, B4, B6. rewrite map_length, M1 in B1.
  assert (Hb : nth_error danger b = Some (nth b danger [])) by now apply nth_error_nth'.
  destruct (filtered_nth _ _ _ _ _ Hd Hb) as (i & Hi & Hdan).
  exists i, (nth b danger []), (nth b T2 []), (map Datatypes.S ps).
  split; [assumption|]. split; [assumption|].
  split. { apply (nearest_table_nth _ _ _ _ _ b _ _ HT2 Hb). apply nth_error_nth'. lia. }
  split; [now rewrite map_length|].
  split. { clear - B3. induction B3 as [|q ps B3 IH Hq]; cbn; constructor; auto. rewrite Forall_map.
    eapply Forall_impl; [|exact Hq]. cbn. lia. }
  split. { rewrite Forall_map. eapply Forall_impl; [|exact B4]. cbn. lia. }
  rewrite map_map. erewrite map_ext_in; [exact B6|]. intros q Hq. cbn beta zeta.
  rewrite nth_map_tl. f_equal. rewrite Forall_forall in B4. specialize (B4 q Hq).
  assert (Hrow : In (nth b T2 []) T2) by (apply nth_In; lia).
  assert (Hv : nth (Datatypes.S q) (nth b T2 []) 0 < length (d_y D)).
  { rewrite Forall_forall in M3. specialize (M3 _ Hrow). rewrite Forall_forall in M3. rewrite <- Hlen.
    apply M3, nth_In. unfold rect in M2. rewrite Forall_forall in M2. rewrite (M2 _ Hrow). lia. }
  unfold w. set (g := fun l => if (l =? mj)%Z then (1 # 2)%Q else 1%Q).
  rewrite (nth_indep _ 0%Q (g 0%Z)) by (rewrite map_length; exact Hv). rewrite map_nth. unfold g.
  destruct (Z.eq_dec _ mj) as [->|N]; [now rewrite Z.eqb_refl|].
  apply Z.eqb_neq in N. now rewrite N.
Qed.

(** * The methods do not fail *)

Lemma border1_total dist vol nn p r D mn mj n :
  knn_ok dist nn -> rng_ok r -> unif_pos r -> wf_data (d_X D) (d_dim D) (d_y D) ->
  is_minority (d_y D) mn mj -> asked (bo_proportion p) (d_y D) mn mj = Ok n ->
  1 <= bo_k_neighbors p -> 1 <= ss_n_dim (bo_ss p) ->
  ss_sampling (bo_ss p) = SRandom \/ ss_sampling (bo_ss p) = SDeterministic ->
  (ss_within (bo_ss p) = WRandom \/ (ss_within (bo_ss p) = WDeterministic /\ ss_n_dim (bo_ss p) <= 2)) ->
  exists out, border1_sample vol nn p r D = Ok out.
Proof.
  intros Hnn Hr Hu Hwf Hmin Hn Hk Hd Hm Hw. unfold border1_sample.
  destruct (sample_default (border1_algorithm vol nn p r) D mn mj Hmin) as (st & Hst & ->).
  destruct (Nat.leb_spec (count_label (d_y D) mn) 2) as [Hle|Hgt]; [eauto|].
  unfold border1_algorithm. rewrite (det_st_asked _ _ _ _ _ (proj1 Hmin) Hst), Hn. cbn [bind].
  destruct Hst as (-> & -> & _).
  destruct (Nat.eqb_spec (Z.to_nat n) 0) as [Hz|Hz]; [eauto|].
  destruct (determine_danger_spec dist nn D mn mj (bo_n_neighbors p) Hnn Hwf (proj1 Hmin))
    as (T & safe & danger & -> & HT & Hs & Hdg). cbn [bind].
  assert (HXr : rect (d_dim D) (rows_with mn (d_X D) (d_y D))) by (apply rows_with_rect, Hwf).
  destruct (_ || _) eqn:Eb; [eauto|]. apply orb_false_iff in Eb as [Eb1 Eb2]. apply Nat.ltb_ge in Eb1.
  apply Nat.eqb_neq in Eb2.
  set (k2 := Nat.min (length safe) (bo_k_neighbors p + 1)) in *.
  destruct (Hnn safe danger k2) as (T2 & -> & HT2); [unfold k2; lia|]. cbn [bind].
  destruct (nearest_table_shape _ _ _ _ _ HT2) as (M1 & M2 & M3).
  assert (Ha : args_ok (mk_args danger (d_dim D) (map (@tl nat) T2) (k2 - 1) None None (Some safe) false None)).
  { constructor; cbn; auto; try discriminate.
    - eapply filtered_rect; eassumption.
    - eapply filtered_rect; eassumption.
    - now apply tl_rect.
    - rewrite map_length. lia.
    - now apply tl_range. }
  destruct (sample_simplex_total vol (bo_ss p) _ (Z.to_nat n) r Ha Hr Hu Hm Hd) as [S HS].
  - cbn. unfold k2. lia.
  - assumption.
  - cbn [a_ncols]. set (nd := Nat.min (ss_n_dim (bo_ss p)) (k2 - 1)).
    exists (0, seq 1 (nd - 1)). cbn [a_indices a_base_weights a_simplex_weights a_ncols].
    split; [|split; cbn; [exact I|Lqa.lra]].
    apply base_idx_in; [unfold nd, k2; lia|]. rewrite map_length. split; [lia|]. split; [apply seq_length|]. split; [apply seq_sorted|].
    rewrite Forall_forall. intros q Hq. apply in_seq in Hq. lia.
  - rewrite HS. cbn. eauto.
Qed.

Lemma border2_total dist vol nn p r D mn mj n :
  knn_ok dist nn -> rng_ok r -> unif_pos r -> wf_data (d_X D) (d_dim D) (d_y D) ->
  is_minority (d_y D) mn mj -> asked (bo_proportion p) (d_y D) mn mj = Ok n ->
  1 <= bo_k_neighbors p -> 1 <= ss_n_dim (bo_ss p) ->
  ss_sampling (bo_ss p) = SRandom \/ ss_sampling (bo_ss p) = SDeterministic ->
  (ss_within (bo_ss p) = WRandom \/ (ss_within (bo_ss p) = WDeterministic /\ ss_n_dim (bo_ss p) <= 2)) ->
  exists out, border2_sample vol nn p r D = Ok out.
Proof.
  intros Hnn Hr Hu Hwf Hmin Hn Hk Hd Hm Hw. unfold border2_sample.
  destruct (sample_default (border2_algorithm vol nn p r) D mn mj Hmin) as (st & Hst & ->).
  destruct (Nat.leb_spec (count_label (d_y D) mn) 2) as [Hle|Hgt]; [eauto|].
  unfold border2_algorithm. rewrite (det_st_asked _ _ _ _ _ (proj1 Hmin) Hst), Hn. cbn [bind].
  destruct Hst as (-> & -> & _).
  destruct (Nat.eqb_spec (Z.to_nat n) 0) as [Hz|Hz]; [eauto|].
  destruct (determine_danger_spec dist nn D mn mj (bo_n_neighbors p) Hnn Hwf (proj1 Hmin))
    as (T & safe & danger & -> & HT & Hs & Hdg). cbn [bind].
  assert (HXr : rect (d_dim D) (rows_with mn (d_X D) (d_y D))) by (apply rows_with_rect, Hwf).
  destruct (_ || _) eqn:Eb; [eauto|]. apply orb_false_iff in Eb as [Eb1 Eb2]. apply Nat.ltb_ge in Eb1.
  apply Nat.eqb_neq in Eb2. destruct Hwf as [HXr' Hlen].
  pose proof (two_labels_count _ _ _ (proj1 Hmin)) as Htot.
  set (k2 := Nat.min (bo_k_neighbors p + 1) (length (d_X D))) in *.
  destruct (Hnn (d_X D) danger k2) as (T2 & -> & HT2); [unfold k2; lia|]. cbn [bind].
  destruct (nearest_table_shape _ _ _ _ _ HT2) as (M1 & M2 & M3).
  set (w := map (fun l => if (l =? mj)%Z then (1 # 2)%Q else 1%Q) (d_y D)) in *.
  assert (Ha : args_ok (mk_args danger (d_dim D) (map (@tl nat) T2) (k2 - 1) None (Some w) (Some (d_X D)) false None)).
  { constructor; cbn; auto; try discriminate.
    - eapply filtered_rect; eassumption.
    - now apply tl_rect.
    - rewrite map_length. lia.
    - now apply tl_range.
    - unfold w. rewrite map_length. split; [congruence|]. rewrite Forall_map, Forall_forall. intros l _.
      destruct (l =? mj)%Z; split; Lqa.lra. }
  destruct (sample_simplex_total vol (bo_ss p) _ (Z.to_nat n) r Ha Hr Hu Hm Hd) as [S HS].
  - cbn. unfold k2. lia.
  - assumption.
  - cbn [a_ncols]. set (nd := Nat.min (ss_n_dim (bo_ss p)) (k2 - 1)).
    exists (0, seq 1 (nd - 1)). cbn [a_indices a_base_weights a_simplex_weights a_ncols].
    split; [|split; cbn; [exact I|Lqa.lra]].
    apply base_idx_in; [unfold nd, k2; lia|]. rewrite map_length. split; [lia|]. split; [apply seq_length|]. split; [apply seq_sorted|].
    rewrite Forall_forall. intros q Hq. apply in_seq in Hq. lia.
  - rewrite HS. cbn. eauto.
Qed.

Lemma convex_comb_single d b x : convex_comb d [b] x -> forall j, j < d -> (nth j x 0 == nth j b 0)%Q.
Proof.
  intros (_ & ws & W1 & W2 & W3 & W4) j Hj. rewrite (W4 j Hj). destruct ws as [|w [|]]; try discriminate.
  cbn in W3 |- *. rewrite Qplus_0_r in W3. rewrite W3. ring.
Qed.

Lemma border1_duplicates dist vol nn p r D mn mj X' y' :
  knn_ok dist nn -> rng_ok r -> wf_data (d_X D) (d_dim D) (d_y D) ->
  is_minority (d_y D) mn mj -> bo_k_neighbors p = 1 -> ss_gauss (bo_ss p) = GNone ->
  border1_sample vol nn p r D = Ok (X', y') ->
  exists S, X' = d_X D ++ S /\
    forall x, In x S -> exists b, In b (rows_with mn (d_X D) (d_y D)) /\
      forall j, j < d_dim D -> (nth j x 0 == nth j b 0)%Q.
Proof.
  intros Hnn Hr Hwf Hmin Hk Hg H. pose proof (border1_cases _ _ _ _ _ _ _ _ _ _ Hnn Hr Hwf Hmin H) as C.
  destruct C as [(-> & _)|(n & S & T & safe & _ & _ & _ & -> & _ & _ & _ & Hs & C)].
  - exists []. rewrite app_nil_r. split; [reflexivity|]. intros x [].
  - exists S. split; [reflexivity|]. intros x Hx. cbv zeta in C.
    destruct (C Hg x Hx) as (i & b & t & ps & Hb & _ & _ & _ & _ & Hps & Hc).
    exists b. split; [eapply nth_error_In; eassumption|].
    destruct ps as [|q ps]; [now apply convex_comb_single|].
    exfalso. inversion Hps; subst. rewrite Hk in *. lia.
Qed.
