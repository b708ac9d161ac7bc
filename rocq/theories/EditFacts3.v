(** Facts about EditModel.v: SPY and Stefanowski. *)

From Coq Require Import List ZArith QArith Qabs Bool Arith Lia Sorting.Sorted Permutation Lqa.
From Verif Require Import Np NpFacts SimplexModel SimplexGeom SamplerModel SamplerFacts Spec SpecNoise SpecComp BaseModel
  BaseFacts NoiseModel NoiseFacts NoiseFacts2 ClusterOversModel CompModel CompFacts CompFacts2 CompFacts3 OversFacts EditModel SpecEdit
  EditFacts.
Import ListNotations.
Open Scope nat_scope.

Lemma assign_length {A} (y : list A) idx z : length (assign_at y idx z) = length y.
Proof. unfold assign_at. rewrite map_length, combine_length, seq_length. lia. Qed.

Lemma assign_nth {A} (y : list A) idx z i d : i < length y ->
  nth i (assign_at y idx z) d = if existsb (Nat.eqb i) idx then z else nth i y d.
Proof.
  intro H. unfold assign_at. rewrite (combine_seq_map d), map_map.
  set (f := fun j => _). rewrite (nth_indep (map f _) d (f 0)) by (rewrite map_length, seq_length; exact H).
  rewrite map_nth, seq_nth by exact H. unfold f. cbn [fst snd plus]. rewrite Nat.sub_0_r. reflexivity.
Qed.

Lemma filter_map_length {A B} (f : B -> bool) (g : A -> B) l : length (filter f (map g l)) = length (filter (fun x => f (g x)) l).
Proof. induction l as [|a l IH]; [reflexivity|]. cbn. destruct (f (g a)); cbn; rewrite IH; reflexivity. Qed.

Lemma votes_eqb y t z : length (filter (fun b => b) (map (Z.eqb z) (map (fun i => nth i y 0%Z) t))) = votes y t z.
Proof.
  rewrite map_map, filter_map_length. unfold votes. f_equal. apply filter_ext_in'. intros i _. apply Z.eqb_sym.
Qed.

Lemma Forall_tl {A} (P : A -> Prop) l : Forall P l -> Forall P (tl l).
Proof. intro H. destruct l; [constructor|]. inversion H; assumption. Qed.

Lemma filter_len {A} (f : A -> bool) l : length (filter f l) <= length l.
Proof. induction l as [|a l IH]; [reflexivity|]. cbn. destruct (f a); cbn; lia. Qed.

(** ** SPY *)

Lemma spy_runs dist nn p D mn mj :
  knn_ok dist nn -> wf_data (d_X D) (d_dim D) (d_y D) -> is_minority (d_y D) mn mj ->
  let X_min := rows_with mn (d_X D) (d_y D) in
  let k := Nat.min (length (d_X D)) (sp_n_neighbors p + 1) in
  (count_label (d_y D) mn <= 2 -> unchanged D (spy_sample nn p D)) /\
  (2 < count_label (d_y D) mn -> exists T y', nearest_table dist (d_X D) X_min k T /\
     spy_sample nn p D = Ok (d_X D, y') /\
     relabels (d_y D) (spy_hit (d_y D) mj T (sp_threshold p) k) mn y').
Proof.
  intros K W M X_min k.
  destruct (sample_default (spy_algorithm nn p) D mn mj M) as [st [[S1 [S2 _]] E]].
  fold (spy_sample nn p D) in E.
  split.
  { intro C. unfold unchanged. rewrite E. apply Nat.leb_le in C. rewrite C. reflexivity. }
  intro C. apply Nat.leb_gt in C. rewrite C in E.
  destruct W as [WR WL].
  destruct (K (d_X D) X_min k ltac:(unfold k; lia)) as [T [ET NT]].
  pose proof (nearest_table_shape _ _ _ _ _ NT) as [TL [TR TB]].
  unfold spy_algorithm in E. rewrite S1, S2 in E. fold X_min in E. fold k in E. rewrite ET in E. cbn [bind] in E.
  set (z := (sp_threshold p * inject_Z (Z.of_nat k))%Q) in *.
  set (hit := fun t => if Qlt_b (inject_Z (Z.of_nat (votes (d_y D) (tl t) mj))) z
                       then filter (fun i => Z.eqb mj (nth i (d_y D) 0%Z)) (tl t) else []).
  match type of E with context [mapM ?f T] => assert (EM : mapM f T = Ok (map hit T)) end.
  { rewrite <- mapM_pure. apply mapM_ext_in. intros t Ht.
    rewrite Forall_forall in TB. pose proof (TB t Ht) as B. apply Forall_tl in B. rewrite WL in B.
    rewrite (gather_map 0%Z) by exact B. cbn [bind]. rewrite votes_eqb. unfold hit. f_equal.
    destruct (Qlt_b _ z); [|reflexivity]. rewrite map_map. apply (select_map_filter (fun i => Z.eqb mj (nth i (d_y D) 0%Z))). }
  rewrite EM in E. cbn [bind] in E.
  exists T. eexists. split; [exact NT|]. split; [exact E|]. split; [apply assign_length|].
  intros i Hi. rewrite assign_nth by exact Hi.
  assert (EQ : existsb (Nat.eqb i) (concat (map hit T)) = true <-> spy_hit (d_y D) mj T (sp_threshold p) k i).
  { rewrite existsb_eqb, in_concat. split.
    - intros [l [Hl Il]]. apply in_map_iff in Hl. destruct Hl as [t [<- Ht]]. unfold hit in Il.
      destruct (Qlt_b _ z) eqn:Q; [|destruct Il]. apply filter_In in Il. destruct Il as [I1 I2].
      destruct (In_nth _ _ [] Ht) as [b [Hb Eb]]. exists b. rewrite <- Eb in *. split; [split; [exact Hb|exact I1]|].
      split; [apply Z.eqb_eq in I2; congruence|apply Qlt_b_iff, Q].
    - intros [b [[Hb Ib] [L V]]]. exists (hit (nth b T [])). split; [apply in_map, nth_In, Hb|].
      unfold hit. apply Qlt_b_iff in V. fold z in V. rewrite V. apply filter_In. split; [exact Ib|]. rewrite L. apply Z.eqb_refl. }
  split.
  - intro Hh. apply EQ in Hh. rewrite Hh. reflexivity.
  - intro Hn. destruct (existsb _ _); [exfalso; apply Hn, EQ; reflexivity|reflexivity].
Qed.

(** Rows only ever change from majority to minority. *)
Lemma spy_only_majority (y : list Z) mj T th k mn y' i : relabels y (spy_hit y mj T th k) mn y' -> i < length y ->
  nth i y' 0%Z = nth i y 0%Z \/ (nth i y 0%Z = mj /\ nth i y' 0%Z = mn).
Proof.
  intros [L R] H. destruct (R i H) as [R1 R2].
  destruct (Z.eq_dec (nth i y' 0%Z) (nth i y 0%Z)) as [E|E]; [left; exact E|right].
  assert (~ ~ spy_hit y mj T th k i) by (intro N; apply E, R2, N).
  destruct (Z.eq_dec (nth i y 0%Z) mj) as [Q|Q].
  - split; [exact Q|]. destruct (Z.eq_dec (nth i y' 0%Z) mn) as [Q'|Q']; [exact Q'|]. exfalso. apply H0. intro S. apply Q', R1, S.
  - exfalso. apply H0. intros [b [_ [N _]]]. contradiction.
Qed.

(** With threshold 1 every listed majority row is relabelled. *)
Lemma spy_threshold_one dist nn p D mn mj X' y' :
  knn_ok dist nn -> wf_data (d_X D) (d_dim D) (d_y D) -> is_minority (d_y D) mn mj -> 2 < count_label (d_y D) mn ->
  (1 <= sp_threshold p)%Q -> spy_sample nn p D = Ok (X', y') ->
  exists T, nearest_table dist (d_X D) (rows_with mn (d_X D) (d_y D)) (Nat.min (length (d_X D)) (sp_n_neighbors p + 1)) T /\
    forall b i, listed T b i -> nth i y' 0%Z = mn.
Proof.
  intros K W M C TH E.
  destruct (spy_runs dist nn p D mn mj K W M) as [_ R]. destruct (R C) as [T [y'' [NT [E' [RL RR]]]]].
  rewrite E in E'. injection E' as -> ->. exists T. split; [exact NT|]. intros b i [Hb Hi].
  pose proof (nearest_table_shape _ _ _ _ _ NT) as [TL [TR TB]].
  assert (Li : i < length (d_y D)).
  { destruct W as [_ WL]. rewrite <- WL. rewrite Forall_forall in TB. pose proof (TB _ (nth_In _ [] Hb)) as B. apply Forall_tl in B.
    rewrite Forall_forall in B. apply B, Hi. }
  destruct (RR i Li) as [R1 R2].
  destruct (Z.eq_dec (nth i (d_y D) 0%Z) mj) as [Q|Q].
  - apply R1. exists b. split; [split; assumption|]. split; [exact Q|].
    set (k := Nat.min (length (d_X D)) (sp_n_neighbors p + 1)) in *.
    assert (V : votes (d_y D) (tl (nth b T [])) mj < k).
    { pose proof (rect_nth k T b TR Hb) as Lk. unfold votes. eapply Nat.le_lt_trans; [apply filter_len|].
      destruct (nth b T []) as [|a t]; [destruct Hi|]. cbn in *. lia. }
    assert (VQ : (inject_Z (Z.of_nat (votes (d_y D) (tl (nth b T [])) mj)) < inject_Z (Z.of_nat k))%Q) by (rewrite <- Zlt_Qlt; lia).
    assert (KP : (0 <= inject_Z (Z.of_nat k))%Q) by (change 0%Q with (inject_Z 0); rewrite <- Zle_Qle; lia).
    clear -VQ KP TH. nra.
  - rewrite R2 by (intros [b' [_ [N _]]]; contradiction). destruct M as [[_ [_ [_ A]]] _].
    destruct (A (nth i (d_y D) 0%Z) (nth_In _ _ Li)); congruence.
Qed.

(** ** Stefanowski *)

Section Stef.
Variables (dist : row -> row -> Q) (X : list row) (y : list Z) (mn mj : Z) (T : list (list nat)).
Hypothesis L : length X = length y.
Hypothesis Two : two_labels y mn mj.
Hypothesis NT : nearest_table dist X X 4 T.

Let n := length y.
Definition safeb (i : nat) : bool := 2 <=? votes y (tl (nth i T [])) (nth i y 0%Z).
Definition safes : list bool := map safeb (seq 0 n).

Lemma row_tl k N i : nearest_table dist X X k N -> i < n ->
  get N i = Ok (nth i N []) /\ Forall (fun j => j < n) (tl (nth i N [])) /\ length (nth i N []) = k /\ NoDup (tl (nth i N [])).
Proof.
  intros H Hi. pose proof (nearest_table_shape _ _ _ _ _ H) as [TL [TR TB]].
  destruct (table_row _ _ _ _ _ i H ltac:(unfold n in Hi; lia)) as [A [B [C _]]].
  split; [apply get_nth; rewrite TL, L; exact Hi|]. split.
  - apply Forall_tl. rewrite L in C. exact C.
  - split; [exact A|]. destruct (nth i N []); [constructor|]. inversion B; assumption.
Qed.

Lemma modes_ok : exists modes, mapM (fun t => do l <- gather y (tl t); mode l) T = Ok modes /\ map2 Z.eqb modes y = safes.
Proof.
  pose proof (nearest_table_shape _ _ _ _ _ NT) as [TL [TR TB]].
  destruct Two as [N [_ [_ A]]].
  assert (G : forall i, i < n -> exists m, (do l <- gather y (tl (nth i T [])); mode l) = Ok m /\ Z.eqb m (nth i y 0%Z) = safeb i).
  { intros i Hi. destruct (row_tl 4 T i NT Hi) as [_ [B [Lt _]]].
    assert (L3 : length (tl (nth i T [])) = 3) by (destruct (nth i T []); cbn in *; lia).
    destruct (mode_three y _ mn mj L3 B N A) as [vs [m [E1 [_ [E2 [_ [I1 [I2 V]]]]]]]].
    exists m. rewrite E1. cbn [bind]. split; [exact E2|]. unfold safeb.
    destruct (A (nth i y 0%Z) (nth_In _ _ Hi)) as [Q|Q]; rewrite Q.
    - destruct (Z.eqb_spec m mn) as [E|E]; symmetry; [apply Nat.leb_le, I1, E|apply Nat.leb_gt; destruct (le_lt_dec 2 (votes y (tl (nth i T [])) mn)); [exfalso; apply E, I1; assumption|assumption]].
    - destruct (Z.eqb_spec m mj) as [E|E]; symmetry; [apply Nat.leb_le, I2, E|apply Nat.leb_gt; destruct (le_lt_dec 2 (votes y (tl (nth i T [])) mj)); [exfalso; apply E, I2; assumption|assumption]]. }
  destruct (mapM_total (fun t => do l <- gather y (tl t); mode l) T) as [modes E].
  { apply Forall_forall. intros t Ht. destruct (In_nth _ _ [] Ht) as [i [Hi <-]]. destruct (G i) as [m [Em _]]; [unfold n; lia|]. eauto. }
  exists modes. split; [exact E|]. pose proof (mapM_length _ _ _ E) as LM.
  apply (nth_ext _ _ false false).
  - unfold safes. rewrite map2_length, map_length, seq_length. unfold n. lia.
  - intros i Hi. rewrite map2_length in Hi. assert (Hn : i < n) by (unfold n; lia).
    rewrite (map2_nth _ _ _ i 0%Z 0%Z) by lia. unfold safes.
    rewrite (nth_indep (map safeb _) false (safeb 0)) by (rewrite map_length, seq_length; exact Hn).
    rewrite map_nth, seq_nth by exact Hn. cbn [plus].
    destruct (G i Hn) as [m [Em Eb]].
    destruct (mapM_nth _ _ _ i (nth i T []) E) as [m' [E1 E2]]; [apply nth_error_nth'; lia|]. cbv beta in E2.
    rewrite (nth_error_nth _ _ 0%Z E1). rewrite Em in E2. injection E2 as <-. exact Eb.
Qed.

Lemma safes_gather t : Forall (fun j => j < n) t -> gather safes t = Ok (map safeb t).
Proof.
  intro H. rewrite (gather_map false).
  - f_equal. apply map_ext_in. intros j Hj. rewrite Forall_forall in H. specialize (H j Hj). unfold safes.
    rewrite (nth_indep (map safeb _) false (safeb 0)) by (rewrite map_length, seq_length; exact H).
    rewrite map_nth, seq_nth by exact H. reflexivity.
  - unfold safes. rewrite map_length, seq_length. exact H.
Qed.

Definition near_safe (N : list (list nat)) (i : nat) : list nat :=
  filter (fun j => Z.eqb mj (nth j y 0%Z) && safeb j) (tl (nth i N [])).

Lemma multiples_ok k N rows : nearest_table dist X X k N -> Forall (fun i => i < n) rows ->
  multiples mj X y safes N rows = Ok (flat_map (fun i => repeat (nth i X []) (length (near_safe N i))) rows).
Proof.
  intros H R. unfold multiples.
  match goal with |- context [mapM ?f rows] => assert (E : mapM f rows = Ok (map (fun i => repeat (nth i X []) (length (near_safe N i))) rows)) end.
  { rewrite <- mapM_pure. apply mapM_ext_in. intros i Hi. rewrite Forall_forall in R. pose proof (R i Hi) as Hn.
    destruct (row_tl k N i H Hn) as [E1 [B _]]. rewrite E1. cbn [bind]. unfold safe_majority.
    rewrite (gather_map 0%Z) by exact B. cbn [bind]. rewrite safes_gather by exact B. cbn [bind].
    rewrite (get_nth []) by (rewrite L; exact Hn). cbn [bind]. f_equal. f_equal.
    rewrite map2_map_both, filter_map_length. reflexivity. }
  rewrite E. cbn [bind]. rewrite concat_map_flat. reflexivity.
Qed.

Lemma safeb_row i : safeb i = true <-> safe_row y T i.
Proof. unfold safeb, safe_row. apply Nat.leb_le. Qed.

Lemma multiples_copied k N rows : nearest_table dist X X k N -> Forall (fun i => i < n) rows ->
  exists S, multiples mj X y safes N rows = Ok S /\ copied X y mj T N rows S.
Proof.
  intros H R. eexists. split; [eapply multiples_ok; eassumption|].
  exists (fun i => length (near_safe N i)). split; [reflexivity|]. intros i Hi. exists (near_safe N i). split; [reflexivity|].
  rewrite Forall_forall in R. destruct (row_tl k N i H (R i Hi)) as [_ [_ [_ ND]]]. split; [apply NoDup_filter', ND|].
  intro j. unfold near_safe. rewrite filter_In, andb_true_iff, Z.eqb_eq, safeb_row. intuition congruence.
Qed.

Definition minority_ : list nat := filter (fun i => Z.eqb mn (nth i y 0%Z)) (seq 0 n).

Lemma minority_where_eq : where_ (map (Z.eqb mn) y) = minority_.
Proof.
  rewrite where_filter, map_length. fold n. unfold minority_. apply filter_ext_in'. intros i Hi. apply in_seq in Hi.
  rewrite (nth_indep (map _ y) false (Z.eqb mn 0%Z)) by (rewrite map_length; fold n; lia). rewrite map_nth. reflexivity.
Qed.

Lemma minority_range : Forall (fun i => i < n) minority_.
Proof. apply Forall_forall. intros i Hi. apply filter_In in Hi. destruct Hi as [Hi _]. apply in_seq in Hi. lia. Qed.

Lemma minority_filter (f : nat -> bool) (P : nat -> Prop) : (forall i, f i = true <-> P i) ->
  minority_where y mn P (filter f minority_).
Proof.
  intro H. split; [do 2 apply filter_StronglySorted; apply seq_StronglySorted|].
  intro i. unfold minority_. rewrite !filter_In, in_seq, Z.eqb_eq, H. fold n. intuition (try lia; congruence).
Qed.

Lemma noisy_ok noisy : Forall (fun i => i < n) noisy ->
  noisy_neighbours mj y safes T noisy =
  Ok (flat_map (fun i => filter (fun j => Z.eqb mj (nth j y 0%Z) && negb (safeb j)) (tl (nth i T []))) noisy).
Proof.
  intro R. unfold noisy_neighbours.
  match goal with |- context [mapM ?f noisy] => assert (E : mapM f noisy = Ok (map (fun i => filter (fun j => Z.eqb mj (nth j y 0%Z) && negb (safeb j)) (tl (nth i T []))) noisy)) end.
  { rewrite <- mapM_pure. apply mapM_ext_in. intros i Hi. rewrite Forall_forall in R. pose proof (R i Hi) as Hn.
    destruct (row_tl 4 T i NT Hn) as [E1 [B _]]. rewrite E1. cbn [bind].
    rewrite (gather_map 0%Z) by exact B. cbn [bind]. rewrite safes_gather by exact B. cbn [bind].
    rewrite map2_map_both. rewrite (select_map_filter (fun j => Z.eqb mj (nth j y 0%Z) && negb (safeb j))). reflexivity. }
  rewrite E. cbn [bind]. rewrite concat_map_flat. reflexivity.
Qed.

(** The label of the first listed neighbour (after the row itself) that most of
    the rows have; the smaller one on ties. *)
Lemma firsts_mode N rows : nearest_table dist X X 6 N -> Forall (fun i => i < n) rows -> rows <> [] ->
  let fs := map (fun i => nth 1 (nth i N []) 0) rows in
  exists firsts m, mapM (fun i => do j <- entry N i 1; get y j) rows = Ok firsts /\ mode firsts = Ok m /\
    (m = mn <-> votes y fs mj < votes y fs mn \/ (votes y fs mj = votes y fs mn /\ (mn < mj)%Z)).
Proof.
  intros H R NE fs. destruct Two as [N0 [_ [_ A]]].
  assert (Fr : Forall (fun j => j < n) fs).
  { apply Forall_forall. intros j Hj. apply in_map_iff in Hj. destruct Hj as [i [<- Hi]]. rewrite Forall_forall in R.
    destruct (row_tl 6 N i H (R i Hi)) as [_ [B [Lk _]]]. destruct (nth i N []) as [|a [|b t]]; cbn in *; try lia.
    inversion B; assumption. }
  exists (map (fun j => nth j y 0%Z) fs).
  assert (E : mapM (fun i => do j <- entry N i 1; get y j) rows = Ok (map (fun j => nth j y 0%Z) fs)).
  { unfold fs. rewrite map_map, <- mapM_pure. apply mapM_ext_in. intros i Hi. rewrite Forall_forall in R.
    destruct (row_tl 6 N i H (R i Hi)) as [E1 [B [Lk _]]]. unfold entry. rewrite E1. cbn [bind].
    rewrite (get_nth 0) by lia. cbn [bind]. apply get_nth.
    rewrite Forall_forall in Fr. apply Fr. unfold fs. apply in_map_iff. exists i. split; [reflexivity|exact Hi]. }
  assert (NE' : map (fun j => nth j y 0%Z) fs <> []) by (unfold fs; destruct rows; [congruence|discriminate]).
  destruct (mode_spec _ NE') as [m [Em [Im [Mx Ml]]]]. exists m. split; [exact E|]. split; [exact Em|].
  rewrite !votes_count by exact Fr. set (l := map (fun j => nth j y 0%Z) fs) in *.
  assert (Al : forall z, In z l -> z = mn \/ z = mj).
  { intros z Hz. apply in_map_iff in Hz. destruct Hz as [j [<- Hj]]. apply A, nth_In. rewrite Forall_forall in Fr. apply Fr, Hj. }
  pose proof (Mx mn) as M1. pose proof (Mx mj) as M2. pose proof (Ml mn) as M3. pose proof (Ml mj) as M4.
  destruct (Al m Im) as [->| ->]; split; intro Q; try congruence.
  - destruct (Nat.eq_dec (count_occ Z.eq_dec l mj) (count_occ Z.eq_dec l mn)) as [E'|E']; [right; split; [exact E'|]|left; lia].
    specialize (M4 E'). lia.
  - destruct Q as [Q|[Q1 Q2]]; [lia|]. symmetry in Q1. specialize (M3 Q1). lia.
Qed.
End Stef.

Lemma reflect_iff' (b : bool) P : (b = true <-> P) -> (P \/ ~ P).
Proof. intros [A B]. destruct b; [left; auto|right; intro H; specialize (B H); discriminate]. Qed.

Lemma relabelled_dec s y mn mj T j : relabelled s y mn mj T j \/ ~ relabelled s y mn mj T j.
Proof.
  apply (reflect_iff' ((match s with WeakAmpRelabel => true | _ => false end) && (Z.eqb (nth j y 0%Z) mj) && negb (safeb y T j) &&
    existsb (fun i => Z.eqb (nth i y 0%Z) mn && negb (safeb y T i) && existsb (Nat.eqb j) (tl (nth i T []))) (seq 0 (length y)))).
  unfold relabelled. rewrite !andb_true_iff, existsb_exists, negb_true_iff, Z.eqb_eq.
  pose proof (safeb_row y T) as SR.
  assert (SN : forall i, safeb y T i = false <-> ~ safe_row y T i).
  { intro i. rewrite <- SR. destruct (safeb y T i); split; congruence. }
  rewrite SN. split.
  - intros [[[A B] C] [i [Hi Q]]]. rewrite !andb_true_iff, negb_true_iff, Z.eqb_eq, existsb_eqb, SN in Q. apply in_seq in Hi.
    split; [destruct s; congruence|]. split; [exact B|]. split; [exact C|]. exists i. repeat split; try apply Q. lia.
  - intros [A [B [C [i [H1 [H2 [H3 H4]]]]]]]. repeat split; try assumption; [rewrite A; reflexivity|].
    exists i. rewrite !andb_true_iff, negb_true_iff, Z.eqb_eq, existsb_eqb, SN. split; [apply in_seq; lia|auto].
Qed.

Lemma stefanowski_runs dist nn s D mn mj :
  knn_ok dist nn -> wf_data (d_X D) (d_dim D) (d_y D) -> is_minority (d_y D) mn mj ->
  (count_label (d_y D) mn <= 6 -> unchanged D (stefanowski_sample nn s D)) /\
  (6 < count_label (d_y D) mn -> stefanowski_spec dist s D mn mj (stefanowski_sample nn s D)).
Proof.
  intros K W M. split.
  { intro C. unfold unchanged, stefanowski_sample. eapply too_small_copies; [exact M|]. left. exists 6. split; [left; reflexivity|exact C]. }
  intro C.
  destruct (large_enough_runs [CMinNMin 6; COther] (stefanowski_algorithm nn s) D mn mj M) as [st [_ [S1 [S2 E]]]].
  { repeat constructor. exact C. }
  unfold stefanowski_sample. rewrite E. clear E.
  destruct W as [WR WL]. pose proof (proj1 M) as Two. pose proof Two as [N0 [_ [_ A]]].
  set (X := d_X D) in *. set (y := d_y D) in *.
  assert (LX : 14 <= length X).
  { pose proof (count_two y mn mj N0 A) as CT. rewrite WL. destruct M as [_ MM]. unfold count_label in *. lia. }
  unfold stefanowski_algorithm. fold X. fold y. rewrite S1, S2.
  rewrite (Nat.min_l 4), (Nat.min_l 6) by lia.
  destruct (K X X 4 ltac:(lia)) as [T [ET NT]]. destruct (K X X 6 ltac:(lia)) as [N [EN NN]].
  rewrite ET, EN. cbn [bind].
  destruct (modes_ok dist X y mn mj T WL Two NT) as [modes [EM ES]]. rewrite EM. cbn [bind]. rewrite ES.
  rewrite (minority_where_eq X y mn WL).
  pose proof (minority_range X y mn WL) as MR.
  rewrite (safes_gather y T) by exact MR. cbn [bind].
  rewrite (select_map_filter (safeb y T)). rewrite map_map, (select_map_filter (fun x => negb (safeb y T x))).
  set (noisy := filter (fun x => negb (safeb y T x)) (minority_ y mn)).
  set (safe := filter (safeb y T) (minority_ y mn)).
  assert (SN : forall i, negb (safeb y T i) = true <-> ~ safe_row y T i).
  { intro i. rewrite negb_true_iff, <- safeb_row. destruct (safeb y T i); split; congruence. }
  pose proof (minority_filter X y mn WL _ _ SN) as MN. fold noisy in MN.
  pose proof (minority_filter X y mn WL _ _ (safeb_row y T)) as MS. fold safe in MS.
  assert (RN : Forall (fun i => i < length y) noisy).
  { apply Forall_forall. intros i Hi. apply (proj2 MN) in Hi. lia. }
  assert (RS : Forall (fun i => i < length y) safe).
  { apply Forall_forall. intros i Hi. apply (proj2 MS) in Hi. lia. }
  (* the samples *)
  assert (AMP : exists S, match s with
    | WeakAmp | WeakAmpRelabel => multiples mj X y (safes y T) T noisy
    | StrongAmp => strong_amp st X y (safes y T) T N safe noisy
    end = Ok S /\ amplified s X y mn mj T N S).
  { destruct (multiples_copied dist X y mj T WL 4 T noisy NT RN) as [Sn [En Cn]].
    destruct (multiples_copied dist X y mj T WL 4 T safe NT RS) as [Ss [Es Cs]].
    destruct (multiples_copied dist X y mj T WL 6 N noisy NN RN) as [S5 [E5 C5]].
    destruct s.
    - exists Sn. split; [exact En|]. exists noisy, safe. auto.
    - exists Sn. split; [exact En|]. exists noisy, safe. auto.
    - unfold strong_amp. rewrite S1, S2, Es. cbn [bind]. destruct noisy as [|i0 noisy'] eqn:EQ.
      + exists Ss. split; [reflexivity|]. exists [], safe. split; [exact MN|]. split; [exact MS|].
        exists Ss, []. split; [symmetry; apply app_nil_r|]. split; [exact Cs|].
        split; intros _; exists (fun _ => 0); (split; [reflexivity|intros i []]).
      + rewrite <- EQ in *. assert (NE : noisy <> []) by (rewrite EQ; discriminate).
        destruct (firsts_mode dist X y mn mj WL Two N noisy NN RN NE) as [firsts [m [Ef [Em Hm]]]].
        rewrite Ef. cbn [bind]. rewrite Em. cbn [bind].
        destruct (Z.eqb_spec m mn) as [Q|Q].
        * rewrite En. cbn [bind]. exists (Ss ++ Sn). split; [reflexivity|]. exists noisy, safe. split; [exact MN|]. split; [exact MS|].
          exists Ss, Sn. split; [reflexivity|]. split; [exact Cs|]. split; [intros _; exact Cn|]. intro NA. exfalso. apply NA, Hm, Q.
        * rewrite E5. cbn [bind]. exists (Ss ++ S5). split; [reflexivity|]. exists noisy, safe. split; [exact MN|]. split; [exact MS|].
          exists Ss, S5. split; [reflexivity|]. split; [exact Cs|]. split; [intro NA; exfalso; apply Q, Hm, NA|]. intros _; exact C5. }
  destruct AMP as [S [ES' AMP]]. rewrite ES'. cbn [bind].
  (* the relabelled rows *)
  assert (REL : exists R, match s with
    | WeakAmpRelabel => noisy_neighbours mj y (safes y T) T noisy
    | _ => Ok []
    end = Ok R /\ forall j, existsb (Nat.eqb j) R = true <-> relabelled s y mn mj T j).
  { destruct s.
    - exists []. split; [reflexivity|]. intro j. cbn. split; [discriminate|]. intros [Q _]. discriminate.
    - eexists. split; [eapply noisy_ok; eassumption|]. intro j. rewrite existsb_eqb, in_flat_map. unfold relabelled. split.
      + intros [i [Hi Hj]]. apply filter_In in Hj. destruct Hj as [Hj Q]. apply andb_prop in Q. destruct Q as [Q1 Q2].
        apply (proj2 MN) in Hi. split; [reflexivity|]. split; [apply Z.eqb_eq in Q1; congruence|]. split; [apply SN, Q2|].
        exists i. intuition.
      + intros [_ [Q1 [Q2 [i [Hi [Hm [Hs Hj]]]]]]]. exists i. split; [apply (proj2 MN); auto|]. apply filter_In. split; [exact Hj|].
        rewrite Q1, Z.eqb_refl. cbn. apply SN, Q2.
    - exists []. split; [reflexivity|]. intro j. cbn. split; [discriminate|]. intros [Q _]. discriminate. }
  destruct REL as [R [ER REL]]. rewrite ER. cbn [bind].
  set (y1 := assign_at y R mn).
  set (D0 := map2 (fun l f => (mj =? l)%Z && negb f) y (safes y T)).
  set (D1 := assign_at D0 R false).
  assert (LD0 : length D0 = length y) by (unfold D0, safes; rewrite map2_length, map_length, seq_length; lia).
  assert (LD : length D1 = length y) by (unfold D1; rewrite assign_length; exact LD0).
  assert (Ly1 : length y1 = length y) by apply assign_length.
  assert (HD : forall i, i < length X -> (In i (where_ D1) <-> nth i y 0%Z = mj /\ ~ safe_row y T i /\ ~ relabelled s y mn mj T i)).
  { intros i Hi. rewrite WL in Hi. rewrite where_in, LD. unfold D1. rewrite assign_nth by (rewrite LD0; exact Hi).
    rewrite <- REL. destruct (existsb (Nat.eqb i) R) eqn:Q; [intuition congruence|].
    unfold D0. rewrite (map2_nth _ _ _ i 0%Z false) by (unfold safes; try rewrite map_length, seq_length; exact Hi).
    unfold safes. rewrite (nth_indep (map (safeb y T) _) false (safeb y T 0)) by (rewrite map_length, seq_length; exact Hi).
    rewrite map_nth, seq_nth by exact Hi. cbn [plus]. rewrite andb_true_iff, Z.eqb_eq, SN. intuition congruence. }
  pose proof (delete_both X y1 (where_ D1) _ ltac:(lia) HD) as Dr.
  exists T, N, y1, (delete_idx X (where_ D1)), (delete_idx y1 (where_ D1)), S.
  split; [exact NT|]. split; [exact NN|]. split.
  { split; [exact Ly1|]. intros i Hi. unfold y1. rewrite assign_nth by exact Hi. split; intro Q.
    - apply REL in Q. rewrite Q. reflexivity.
    - destruct (existsb _ R) eqn:Z0; [exfalso; apply Q, REL, Z0|reflexivity]. }
  split; [exact Dr|]. split; [exact AMP|].
  set (y2 := delete_idx y1 (where_ D1)) in *.
  assert (I2 : In mn y2).
  { destruct Two as [_ [I _]]. destruct (In_nth _ _ 0%Z I) as [i [Hi Ei]].
    unfold y2. rewrite (delete_idx_kept 0%Z). apply in_map_iff. exists i. split.
    - unfold y1. rewrite assign_nth by exact Hi. rewrite Ei. destruct (existsb _ R); reflexivity.
    - apply kept_in. split; [lia|]. intro Q. apply HD in Q; [|lia]. rewrite Ei in Q. apply N0, Q. }
  assert (A2 : forall z, In z y2 -> z = mn \/ z = mj).
  { intros z Hz. unfold y2 in Hz. rewrite (delete_idx_kept 0%Z) in Hz. apply in_map_iff in Hz. destruct Hz as [i [<- Hi]].
    apply kept_in in Hi. unfold y1. rewrite assign_nth by lia. destruct (existsb _ R); [left; reflexivity|]. apply A, nth_In. lia. }
  split; intro Q.
  - destruct (length (unique_counts y2) <? 2) eqn:U; [|reflexivity]. exfalso. apply Nat.ltb_lt in U.
    apply N0. apply (proj1 (unique_one y2) U); assumption.
  - unfold unchanged. assert (U : length (unique_counts y2) < 2).
    { apply unique_one. intros a b Ha Hb. destruct (A2 a Ha), (A2 b Hb); congruence. }
    apply Nat.ltb_lt in U. rewrite U. reflexivity.
Qed.

(** Every minority row is still there, and no row is new. *)
Lemma stefanowski_keeps dist s D mn mj X' y' :
  wf_data (d_X D) (d_dim D) (d_y D) -> is_minority (d_y D) mn mj ->
  stefanowski_spec dist s D mn mj (Ok (X', y')) ->
  two_labels y' mn mj /\ incl X' (d_X D) /\ incl (rows_with mn (d_X D) (d_y D)) (rows_with mn X' y') /\
  incl (rows_with mj X' y') (rows_with mj (d_X D) (d_y D)).
Proof.
  intros [WR WL] M (T & N & y1 & X2 & y2 & S & NT & NN & [L1 Rel] & Dr & Amp & O1 & O2).
  pose proof (proj1 M) as Two. pose proof Two as [N0 [_ [Ij A]]].
  destruct (in_dec Z.eq_dec mj y2) as [I|I].
  2: { specialize (O2 I). unfold unchanged in O2. injection O2 as -> ->.
       split; [exact Two|]. split; [apply incl_refl|]. split; apply incl_refl. }
  specialize (O1 I). injection O1 as -> ->.
  pose proof (drops_length _ _ _ _ _ Dr) as L2.
  destruct Dr as [keep [_ [Hk [E1 E2]]]].
  assert (MIN : incl (rows_with mn (d_X D) (d_y D)) (rows_with mn X2 y2)).
  { intros x Hx. apply rows_with_in in Hx. destruct (In_nth _ _ ([], 0%Z) Hx) as [i [Hi Ei]].
    rewrite combine_length, WL, Nat.min_id in Hi. rewrite combine_nth in Ei by exact WL. injection Ei as Ex Ey.
    apply rows_with_in. subst X2 y2. rewrite combine_map_same. apply in_map_iff. exists i. split.
    - f_equal; [exact Ex|]. destruct (Rel i Hi) as [_ R2]. rewrite R2; [exact Ey|]. intros [_ [Q _]]. congruence.
    - apply Hk. split; [lia|]. intros [Q _]. congruence. }
  assert (SX : incl S (d_X D)).
  { destruct Amp as [noisy [safe [MN [MS Amp]]]].
    assert (CP : forall N' rows S', (forall i, In i rows -> i < length (d_y D)) -> copied (d_X D) (d_y D) mj T N' rows S' -> incl S' (d_X D)).
    { intros N' rows S' Hr [c [-> _]] x Hx. apply in_flat_map in Hx. destruct Hx as [i [Hi Hx]]. apply repeat_spec in Hx. subst x.
      apply nth_In. rewrite WL. apply Hr, Hi. }
    assert (Rn : forall i, In i noisy -> i < length (d_y D)) by (intros i Hi; apply (proj2 MN) in Hi; lia).
    assert (Rs : forall i, In i safe -> i < length (d_y D)) by (intros i Hi; apply (proj2 MS) in Hi; lia).
    destruct s; [exact (CP _ _ _ Rn Amp)|exact (CP _ _ _ Rn Amp)|].
    destruct Amp as [Sa [Sb [-> [Ca [Cb1 Cb2]]]]]. apply incl_app; [exact (CP _ _ _ Rs Ca)|].
    cbv zeta in Cb1, Cb2. set (fs := map (fun i => nth 1 (nth i N []) 0) noisy) in *.
    clear - CP Rn Cb1 Cb2.
    destruct (Z_lt_le_dec mn mj) as [G|G]; destruct (lt_eq_lt_dec (votes (d_y D) fs mj) (votes (d_y D) fs mn)) as [[V|V]|V];
      first [eapply CP; [exact Rn|apply Cb1; lia]|eapply CP; [exact Rn|apply Cb2; lia]]. }
  assert (X2X : incl X2 (d_X D)).
  { subst X2. intros x Hx. apply in_map_iff in Hx. destruct Hx as [i [<- Hi]]. apply Hk in Hi. apply nth_In. lia. }
  split; [|split; [|split]].
  - split; [exact N0|]. split; [|split].
    + apply in_or_app. left. destruct Two as [_ [Im _]].
      destruct (rows_with mn (d_X D) (d_y D)) as [|x0 l] eqn:Q.
      * exfalso. pose proof (rows_with_length mn (d_X D) (d_y D) WL) as RL. rewrite Q in RL. apply (count_occ_In Z.eq_dec) in Im. cbn in RL. lia.
      * assert (In x0 (rows_with mn X2 y2)) by (apply MIN; left; reflexivity). apply rows_with_in in H. eapply in_combine_r, H.
    + apply in_or_app. left. exact I.
    + intros z Hz. apply in_app_or in Hz. destruct Hz as [Hz|Hz]; [|left; apply repeat_spec in Hz; exact Hz].
      subst y2. apply in_map_iff in Hz. destruct Hz as [i [<- Hi]]. apply Hk in Hi. destruct Hi as [Hi _].
      destruct (Rel i ltac:(lia)) as [R1 R2].
      destruct (relabelled_dec s (d_y D) mn mj T i) as [Q|Q]; [left; apply R1, Q|rewrite (R2 Q); apply A, nth_In; lia].
  - apply incl_app; assumption.
  - rewrite rows_with_app by exact L2. intros x Hx. apply in_or_app. left. apply MIN, Hx.
  - rewrite rows_with_app by exact L2. apply incl_app.
    + intros x Hx. apply rows_with_in in Hx. subst X2 y2. rewrite combine_map_same in Hx. apply in_map_iff in Hx.
      destruct Hx as [i [Ei Hi]]. injection Ei as Ex Ey. apply Hk in Hi. destruct Hi as [Hi _].
      destruct (Rel i ltac:(lia)) as [R1 R2].
      destruct (relabelled_dec s (d_y D) mn mj T i) as [Q|Q]; [rewrite (R1 Q) in Ey; congruence|]. rewrite (R2 Q) in Ey.
      apply rows_with_in. subst x. rewrite <- Ey. rewrite <- (combine_nth _ _ _ _ _ WL). apply nth_In. rewrite combine_length. lia.
    + rewrite rows_with_repeat_other by congruence. intros x [].
Qed.
