(** Facts about EditModel.v: SUNDO. *)

From Coq Require Import List ZArith QArith Qabs Qround Bool Arith Lia Sorting.Sorted Permutation Lqa.
From Verif Require Import Np NpFacts KnnFacts SimplexModel SimplexGeom SamplerModel SamplerFacts Spec SpecNoise SpecComp
  NoiseModel NoiseFacts NoiseFacts2 ClusterOversModel ClusterOversFacts CompModel CompFacts CompFacts2 CompFacts3 OversFacts EditModel SpecEdit
  EditFacts EditFacts3.
Import ListNotations.
Open Scope nat_scope.

Lemma Forall2_nth' {A B} (R : A -> B -> Prop) l l' da db i : Forall2 R l l' -> i < length l -> R (nth i l da) (nth i l' db).
Proof. intro H. revert i. induction H; intros i Hi; cbn in Hi; [lia|]. destruct i; cbn; [assumption|]. apply IHForall2. lia. Qed.

Lemma filter_none {A} (f : A -> bool) l : (forall x, In x l -> f x = false) -> filter f l = [].
Proof.
  induction l as [|x l IH]; intro H; [reflexivity|]. cbn. rewrite (H x (or_introl eq_refl)). apply IH. intros z Hz. apply H. right. exact Hz.
Qed.

Lemma nth_skip {A} (d : A) k : forall l i, nth i (skipn k l) d = nth (k + i) l d.
Proof. induction k as [|k IH]; intros l i; [reflexivity|]. destruct l; cbn; [destruct i; reflexivity|apply IH]. Qed.

Lemma sorted_le_nth l : StronglySorted Qle l -> forall i j, i < j -> j < length l -> (nth i l 0 <= nth j l 0)%Q.
Proof.
  induction 1 as [|x l S IH F]; intros i j Hij Hj; cbn in Hj; [lia|]. destruct j; [lia|]. destruct i; cbn.
  - rewrite Forall_forall in F. apply F, nth_In. lia.
  - apply IH; lia.
Qed.

Lemma argmax_from_spec l : forall best bv i,
  let k := argmax_from best bv i l in
  (k = best /\ Forall (fun x => (x <= bv)%Q) l) \/
  (i <= k < i + length l /\ (bv <= nth (k - i) l 0)%Q /\ Forall (fun x => (x <= nth (k - i) l 0)%Q) l).
Proof.
  induction l as [|x l IH]; intros best bv i; cbn [argmax_from length]; [left; auto|].
  destruct (Qlt_b bv x) eqn:E.
  - apply Qlt_b_iff in E. destruct (IH i x (S i)) as [[-> H]|[H1 [H2 H3]]]; right.
    + rewrite Nat.sub_diag. cbn [nth]. split; [lia|]. split; [lra|]. constructor; [lra|exact H].
    + set (k := argmax_from i x (S i) l) in *. split; [lia|].
      replace (k - i) with (S (k - S i)) by lia. cbn [nth]. split; [lra|]. constructor; [exact H2|exact H3].
  - assert (L : (x <= bv)%Q). { apply Qnot_lt_le. intro G. apply Qlt_b_iff in G. congruence. }
    destruct (IH best bv (S i)) as [[-> H]|[H1 [H2 H3]]]; [left; split; [reflexivity|constructor; assumption]|right].
    set (k := argmax_from best bv (S i) l) in *. split; [lia|].
    replace (k - i) with (S (k - S i)) by lia. cbn [nth]. split; [lra|]. constructor; [lra|exact H3].
Qed.

Lemma argmax_spec l : l <> [] -> argmax l < length l /\ forall x, In x l -> (x <= nth (argmax l) l 0)%Q.
Proof.
  destruct l as [|x l]; [congruence|]. intros _. unfold argmax.
  destruct (argmax_from_spec l 0 x 1) as [[-> H]|[H1 [H2 H3]]]; cbn [length].
  - split; [lia|]. rewrite Forall_forall in H. intros z [<-|Hz]; cbn [nth]; [lra|auto].
  - set (k := argmax_from 0 x 1 l) in *. split; [lia|]. replace (nth k (x :: l) 0%Q) with (nth (k - 1) l 0%Q).
    + rewrite Forall_forall in H3. intros z [<-|Hz]; [exact H2|auto].
    + destruct k; [lia|]. cbn. now rewrite Nat.sub_0_r.
Qed.

Lemma by3_Forall2 {A B} (R : A -> B -> Prop) (L : list (list A)) : Forall (fun l => length l = 3) L ->
  forall ds, Forall2 R (concat L) ds -> Forall2 (Forall2 R) L (by3 (length L) ds).
Proof.
  induction 1 as [|l L Hl _ IH]; intros ds H; cbn [concat length by3] in *; [constructor|].
  apply Forall2_app_inv_l in H. destruct H as [d1 [d2 [H1 [H2 ->]]]].
  assert (L1 : length d1 = 3) by (rewrite <- (Forall2_length _ _ _ H1); exact Hl).
  rewrite firstn_app, L1, Nat.sub_diag, firstn_O, app_nil_r, <- L1, firstn_all.
  rewrite skipn_app, skipn_all, Nat.sub_diag, skipn_O. cbn [app].
  constructor; [exact H1|apply IH, H2].
Qed.

Lemma by3_shape {A} n : forall l : list A, length l = n * 3 ->
  length (by3 n l) = n /\ Forall (fun t => length t = 3 /\ incl t l) (by3 n l).
Proof.
  induction n as [|n IH]; intros l Hl; cbn [by3 length]; [split; [reflexivity|constructor]|].
  destruct (IH (skipn 3 l)) as [I1 I2]; [rewrite skipn_length; lia|]. split; [now rewrite I1|].
  constructor.
  - split; [rewrite firstn_length; lia|]. intros x Hx. rewrite <- (firstn_skipn 3 l). apply in_or_app. auto.
  - eapply Forall_impl; [|exact I2]. cbv beta. intros t [T1 T2]. split; [exact T1|]. intros x Hx. rewrite <- (firstn_skipn 3 l). apply in_or_app. auto.
Qed.

Lemma generate_ok dist nn std rs dim X_min X_maj n :
  knn_ok dist nn -> (forall i, rng_ok (rs i)) -> rect dim X_min -> X_min <> [] -> X_maj <> [] ->
  exists S, sundo_generate dist nn std rs dim X_min X_maj n = Ok S /\ length S = n /\
    Forall (best_trial dist X_min X_maj dim (fun j => std (column j X_min)) (r_normal (rs 1) (n * 3) dim)) S.
Proof.
  intros K R Hr NE1 NE2. unfold sundo_generate.
  set (stds := map (fun j => std (column j X_min)) (seq 0 dim)).
  assert (Ls : length stds = dim) by (unfold stds; rewrite map_length, seq_length; reflexivity).
  destruct (choice_range_ok (rs 0) (length X_min) n (R 0)) as [base [-> [Lb Rb]]]; [destruct X_min; [congruence|cbn; lia]|].
  cbn [bind]. rewrite (gather_map []) by exact Rb. cbn [bind].
  set (bases := map (fun i => nth i X_min []) base).
  destruct (rng_normal (rs 1) (R 1) (n * 3) dim) as [N1 N2].
  set (O := r_normal (rs 1) (n * 3) dim) in *. destruct (by3_shape n O N1) as [B1 B2].
  set (offs := by3 n O) in *.
  set (samples := map2 (fun b os => map (fun o => vadd b (map2 Qmult o stds)) os) bases offs).
  assert (Lbs : length bases = n) by (unfold bases; rewrite map_length; exact Lb).
  assert (LS : length samples = n) by (unfold samples; rewrite map2_length; lia).
  assert (SP : Forall (fun tr => exists b, In b X_min /\ length tr = 3 /\
     Forall (fun t => length t = dim /\ exists o, In o O /\ forall j, j < dim -> (nth j t 0 == nth j b 0 + nth j o 0 * std (column j X_min))%Q) tr) samples).
  { apply Forall_forall. intros tr Htr. destruct (In_nth _ _ [] Htr) as [i [Hi <-]]. rewrite LS in Hi.
    unfold samples. rewrite (map2_nth _ _ _ i [] []) by lia.
    rewrite Forall_forall in B2. destruct (B2 (nth i offs [])) as [O1 O2]; [apply nth_In; lia|].
    set (b := nth i bases []).
    assert (Ib : In b X_min).
    { assert (In b bases) by (apply nth_In; lia). unfold bases in H. apply in_map_iff in H. destruct H as [k [<- Hk]].
      apply nth_In. rewrite Forall_forall in Rb. apply Rb, Hk. }
    exists b. split; [exact Ib|]. split; [rewrite map_length; exact O1|].
    assert (Lb' : length b = dim) by (unfold rect in Hr; rewrite Forall_forall in Hr; apply Hr, Ib).
    rewrite Forall_map. apply Forall_forall. intros o Ho. apply O2 in Ho.
    assert (Lo : length o = dim) by (unfold rect in N2; rewrite Forall_forall in N2; apply N2, Ho).
    assert (Lm : length (map2 Qmult o stds) = dim) by (rewrite map2_length; lia).
    split; [rewrite vadd_length; lia|]. exists o. split; [exact Ho|]. intros j Hj.
    rewrite vadd_nth by lia. rewrite (map2_nth _ _ _ j 0%Q 0%Q) by lia.
    unfold stds. set (f := fun j => std _). rewrite (nth_indep (map f _) 0%Q (f 0)) by (rewrite map_length, seq_length; exact Hj).
    rewrite map_nth, seq_nth by exact Hj. reflexivity. }
  destruct (K X_maj (concat samples) 1) as [ind [-> NT]]; [destruct X_maj; [congruence|cbn; lia]|]. cbn [bind].
  (* distances *)
  assert (DS : exists ds, mapM (fun st => do i <- get (snd st) 0; do m <- get X_maj i; Ok (dist (fst st) m)) (combine (concat samples) ind) = Ok ds /\
    Forall2 (fun t d => exists m, In m X_maj /\ d = dist t m /\ forall m', In m' X_maj -> (dist t m <= dist t m')%Q) (concat samples) ds).
  { clear -NT. unfold nearest_table in NT. induction NT as [|x t Xs T [Lt [_ [Rt [_ Far]]]] _ IH]; [exists []; split; [reflexivity|constructor]|].
    destruct IH as [ds [E F]]. destruct t as [|i [|]]; try discriminate. inversion Rt as [|? ? Hi _]; subst.
    exists (dist x (nth i X_maj []) :: ds). cbn [combine mapM fst snd].
    change (get [i] 0) with (Ok i : res nat). cbn [bind]. rewrite (get_nth []) by exact Hi. cbn [bind].
    rewrite E. cbn [bind]. split; [reflexivity|]. constructor; [|exact F].
    exists (nth i X_maj []). split; [apply nth_In, Hi|]. split; [reflexivity|]. intros m' Hm.
    destruct (In_nth _ _ [] Hm) as [j [Hj <-]]. destruct (Nat.eq_dec j i) as [->|Q]; [apply Qle_refl|].
    apply Far; [left; reflexivity| |exact Hj]. intros [G|[]]. congruence. }
  destruct DS as [ds [-> F]]. cbn [bind].
  assert (S3 : Forall (fun l => length l = 3) samples).
  { eapply Forall_impl; [|exact SP]. cbv beta. intros tr [b [_ [H _]]]. exact H. }
  pose proof (by3_Forall2 _ _ S3 ds F) as F3. rewrite LS in F3.
  clear F NT ind. set (D3 := by3 n ds) in *. clearbody D3. rewrite <- LS.
  clear - F3 SP. induction F3 as [|tr d3 samples D3 H3 _ IH]; [exists []; repeat split; constructor|].
  inversion SP as [|? ? HS HSP]; subst. destruct (IH HSP) as [S [E [LS FS]]]. destruct HS as [b [Hb [L3 FT]]].
  assert (Ld : length d3 = 3) by (rewrite <- (Forall2_length _ _ _ H3); exact L3).
  destruct (argmax_spec d3) as [A1 A2]; [destruct d3; discriminate|].
  exists (nth (argmax d3) tr [] :: S). cbn [combine mapM fst snd]. rewrite (get_nth []) by lia. cbn [bind].
  rewrite E. cbn [bind length]. split; [reflexivity|]. split; [now rewrite LS|]. constructor; [|exact FS].
  set (x := nth (argmax d3) tr []). exists b, tr. split; [exact Hb|]. split; [exact L3|]. split; [apply nth_In; lia|]. split; [exact FT|].
  assert (P2 : forall i, i < 3 -> exists m, In m X_maj /\ nth i d3 0%Q = dist (nth i tr []) m /\ forall m', In m' X_maj -> (dist (nth i tr []) m <= dist (nth i tr []) m')%Q).
  { intros i Hi. apply (Forall2_nth' _ _ _ [] 0%Q i H3). lia. }
  destruct (P2 (argmax d3) ltac:(lia)) as [mx [M1 [M2 M3]]]. fold x in M2, M3.
  intros t Ht. destruct (In_nth _ _ [] Ht) as [i [Hi <-]]. destruct (P2 i ltac:(lia)) as [m [Q1 [Q2 Q3]]].
  exists m. split; [exact Q1|]. split; [exact Q3|]. intros m' Hm'.
  rewrite <- Q2. apply Qle_trans with (nth (argmax d3) d3 0%Q); [apply A2, nth_In; lia|]. rewrite M2. apply M3, Hm'.
Qed.

(** ** The majority rows removed *)

Lemma filter_perm {A} (f : A -> bool) l l' : Permutation l l' -> length (filter f l) = length (filter f l').
Proof.
  induction 1; cbn; auto.
  - destruct (f x); cbn; congruence.
  - destruct (f x), (f y); reflexivity.
  - congruence.
Qed.

Lemma below_rank l k th : of_rank l k th -> length (filter (fun x => Qlt_b x th) l) <= k.
Proof.
  intros [s [P [Ss [Hk E]]]]. rewrite <- (filter_perm _ _ _ P).
  rewrite <- (firstn_skipn k s), filter_app, app_length.
  assert (Z0 : filter (fun x => Qlt_b x th) (skipn k s) = []).
  { apply filter_none. intros x Hx. unfold Qlt_b. apply negb_false_iff, Qle_bool_iff. rewrite <- E.
    destruct (In_nth _ _ 0%Q Hx) as [i [Hi <-]]. rewrite skipn_length in Hi. rewrite nth_skip.
    destruct (Nat.eq_dec i 0) as [->|N]; [rewrite Nat.add_0_r; apply Qle_refl|].
    apply sorted_le_nth; [exact Ss|lia|lia]. }
  rewrite Z0. cbn. rewrite Nat.add_0_r.
  pose proof (firstn_le_length k s). rewrite <- (firstn_length_le s (n := k)) at 2 by lia. apply filter_len.
Qed.

Lemma map_by_index {A B} (d : A) (g : A -> B) l : map g l = map (fun i => g (nth i l d)) (seq 0 (length l)).
Proof. rewrite <- (NoiseFacts.map_nth_seq d l) at 1. rewrite map_map. reflexivity. Qed.

Lemma crowds_bound dist f X k th rem : (forall a b, (0 <= dist a b)%Q) -> (forall a, (dist a a == 0)%Q) ->
  of_rank (flat_map (fun a => map (fun b => dist (f a) (f b)) X) X) k th -> length X <= k ->
  NoDup rem -> (forall i, In i rem -> i < length X /\ crowds dist f X th i) -> length X + length rem <= k.
Proof.
  intros Pos Zero Rk LX ND HR. pose proof (below_rank _ _ _ Rk) as B.
  destruct rem as [|i0 rem'] eqn:ER; [cbn; lia|]. rewrite <- ER in *.
  assert (Tp : (0 < th)%Q).
  { destruct (HR i0) as [_ [j [_ [_ H]]]]; [rewrite ER; left; reflexivity|]. pose proof (Pos (f (nth i0 X [])) (f (nth j X []))). lra. }
  clear ER i0 rem'.
  set (d := fun i j => dist (f (nth i X [])) (f (nth j X []))).
  assert (E : flat_map (fun a => map (fun b => dist (f a) (f b)) X) X = flat_map (fun i => map (d i) (seq 0 (length X))) (seq 0 (length X))).
  { rewrite !flat_map_concat_map. f_equal. rewrite (map_by_index []). apply map_ext. intro i. exact (map_by_index [] (fun b => dist (f (nth i X [])) (f b)) X). }
  rewrite E in B.
  assert (G : forall I, (forall i, In i I -> i < length X) -> NoDup I ->
     length I + length (filter (fun i => existsb (Nat.eqb i) rem) I) <=
     length (filter (fun x => Qlt_b x th) (flat_map (fun i => map (d i) (seq 0 (length X))) I))).
  { induction I as [|i I IH]; intros HI NI; [cbn; lia|]. inversion NI as [|? ? NI1 NI2]; subst.
    cbn [flat_map]. rewrite filter_app, app_length.
    specialize (IH (fun j Hj => HI j (or_intror Hj)) NI2).
    assert (Hi : i < length X) by (apply HI; left; reflexivity).
    assert (One : 1 + (if existsb (Nat.eqb i) rem then 1 else 0) <= length (filter (fun x => Qlt_b x th) (map (d i) (seq 0 (length X))))).
    { rewrite filter_map_length. set (c := filter _ _).
      assert (Ci : In i c). { apply filter_In. split; [apply in_seq; lia|]. apply Qlt_b_iff. unfold d. rewrite Zero. exact Tp. }
      destruct (existsb (Nat.eqb i) rem) eqn:Q.
      - apply existsb_eqb in Q. destruct (HR i Q) as [_ [j [Hj [Nj Dj]]]].
        assert (Cj : In j c) by (apply filter_In; split; [apply in_seq; lia|]; apply Qlt_b_iff; exact Dj).
        apply (NoDup_incl_length (l := [i; j])).
        + constructor; [intros [Q'|[]]; congruence|]. constructor; [intros []|constructor].
        + intros z [<-|[<-|[]]]; assumption.
      - destruct c; [destruct Ci|cbn; lia]. }
    cbn [filter length]. destruct (existsb (Nat.eqb i) rem); cbn [length]; lia. }
  specialize (G (seq 0 (length X)) ltac:(intros i Hi; apply in_seq in Hi; lia) (seq_NoDup _ _)).
  rewrite seq_length in G.
  assert (LR : length rem <= length (filter (fun i => existsb (Nat.eqb i) rem) (seq 0 (length X)))).
  { apply NoDup_incl_length; [exact ND|]. intros i Hi. apply filter_In. split; [apply in_seq; destruct (HR i Hi); lia|]. apply existsb_eqb, Hi. }
  lia.
Qed.

(** ** The whole *)

Lemma unit_scaled_mm d X : X <> [] -> unit_scaled d X (mm_transform (mm_fit d X)).
Proof.
  intro NE. set (mm := mm_fit d X). assert (Lm : length mm = d) by apply mm_fit_length.
  exists (fun j => fst (nth j mm (0, 0)%Q)), (fun j => snd (nth j mm (0, 0)%Q)). split.
  - intros j Hj. exists (col_max (column j X)).
    assert (E : nth j mm (0, 0)%Q = (col_min (column j X), if Qeq_bool (col_max (column j X) - col_min (column j X)) 0 then 1%Q else (col_max (column j X) - col_min (column j X))%Q)).
    { unfold mm, mm_fit. set (g := fun j => _). rewrite (nth_indep (map g _) _ (g 0)) by (rewrite map_length, seq_length; exact Hj).
      rewrite map_nth, seq_nth by exact Hj. reflexivity. }
    rewrite E. cbn [fst snd]. split; [apply column_range, NE|].
    destruct (Qeq_bool _ 0) eqn:Q.
    + apply Qeq_bool_eq in Q. split; [intro N; exfalso; apply N; lra|reflexivity].
    + apply Qeq_bool_neq in Q. split; [reflexivity|intro N; exfalso; apply Q; lra].
  - intros x Lx. split; [unfold mm_transform; rewrite map2_length; lia|]. intros j Hj.
    rewrite mm_transform_nth by lia. reflexivity.
Qed.

Lemma flat_map_const {A B} c (f : A -> list B) l : (forall x, In x l -> length (f x) = c) -> length (flat_map f l) = length l * c.
Proof.
  induction l as [|x l IH]; intro H; [reflexivity|]. cbn. rewrite app_length, (H x (or_introl eq_refl)), IH; [reflexivity|].
  intros z Hz. apply H. right. exact Hz.
Qed.

Lemma removal_ok dist d X n : X <> [] -> 0 < n ->
  let f := mm_transform (mm_fit d X) in
  exists th idx, sundo_removal dist d X n = Ok idx /\
    of_rank (flat_map (fun a => map (fun b => dist (f a) (f b)) X) X) (Nat.min (length X + 2 * n) (length X * length X - 1)) th /\
    forall i, In i idx <-> i < length X /\ crowds dist f X th i.
Proof.
  intros NE Hn f. unfold sundo_removal. fold f. set (m := length X).
  assert (Hm : 0 < m) by (unfold m; destruct X; [congruence|cbn; lia]).
  set (distm := map (fun a => map (dist a) (map f X)) (map f X)).
  set (k := Nat.min (m + 2 * n) (m * m - 1)).
  assert (EC : concat distm = flat_map (fun a => map (fun b => dist (f a) (f b)) X) X).
  { unfold distm. rewrite map_map, <- flat_map_concat_map. apply flat_map_ext. intro a. apply map_map. }
  assert (LC : length (concat distm) = m * m).
  { rewrite EC. unfold m. apply flat_map_const. intros a _. apply map_length. }
  assert (LK : k < length (sort_by Qle_bool (concat distm))) by (rewrite sort_by_length, LC; unfold k; nia).
  rewrite (get_nth 0%Q) by exact LK. cbn [bind].
  set (th := nth k (sort_by Qle_bool (concat distm)) 0%Q).
  exists th. eexists. split; [reflexivity|]. split.
  - exists (sort_by Qle_bool (concat distm)). split; [rewrite <- EC; symmetry; apply sort_by_perm|]. split; [apply sorted_Q|]. split; [exact LK|reflexivity].
  - set (g := fun it : nat * list Q => existsb _ _). intro i. rewrite where_in.
    assert (Ld : length distm = m) by (unfold distm; rewrite !map_length; reflexivity).
    rewrite map_length, combine_length, seq_length, Ld, Nat.min_id.
    split.
    + intros [Hi H]. split; [exact Hi|].
      rewrite (nth_indep (map g _) false (g (0, []))) in H
        by (rewrite map_length, combine_length, seq_length, Ld, Nat.min_id; exact Hi).
      rewrite map_nth, combine_nth in H by (rewrite seq_length, Ld; reflexivity). unfold g in H. cbn [fst snd] in H. rewrite seq_nth in H by exact Hi. cbn [plus] in H.
      apply existsb_exists in H. destruct H as [[j v] [Hj H]]. cbn [fst snd] in H. apply andb_prop in H. destruct H as [H1 H2].
      apply negb_true_iff, Nat.eqb_neq in H1. apply Qlt_b_iff in H2. 
      destruct (In_nth _ _ (0, 0%Q) Hj) as [q [Hq Eq]].
      assert (Lr : length (nth i distm []) = m).
      { unfold distm. rewrite (nth_indep _ [] (map (dist (f [])) (map f X))) by (rewrite !map_length; exact Hi).
        rewrite (map_nth (fun a => map (dist a) (map f X))). rewrite !map_length. reflexivity. }
      rewrite combine_length, seq_length, Lr, Nat.min_id in Hq. rewrite combine_nth in Eq by (rewrite seq_length, Lr; reflexivity).
      rewrite seq_nth in Eq by exact Hq. injection Eq as <- <-. exists q. split; [exact Hq|]. split; [exact H1|].
      unfold distm in H2. rewrite (nth_indep _ [] (map (dist (f [])) (map f X))) in H2 by (rewrite !map_length; exact Hi).
      rewrite (map_nth (fun a => map (dist a) (map f X))) in H2. rewrite map_nth in H2. rewrite map_map in H2.
      rewrite (nth_indep _ 0%Q (dist (f (nth i X [])) (f []))) in H2 by (rewrite map_length; exact Hq).
      rewrite (map_nth (fun b => dist (f (nth i X [])) (f b))) in H2. exact H2.
    + intros [Hi [j [Hj [Nj Dj]]]]. split; [exact Hi|].
      rewrite (nth_indep (map g _) false (g (0, [])))
        by (rewrite map_length, combine_length, seq_length, Ld, Nat.min_id; exact Hi).
      rewrite map_nth, combine_nth by (rewrite seq_length, Ld; reflexivity). unfold g. cbn [fst snd]. rewrite seq_nth by exact Hi. cbn [plus].
      apply existsb_exists. exists (j, dist (f (nth i X [])) (f (nth j X []))). cbn [fst snd]. split.
      * assert (E : nth i distm [] = map (dist (f (nth i X []))) (map f X)).
        { unfold distm. rewrite (nth_indep _ [] (map (dist (f [])) (map f X))) by (rewrite !map_length; exact Hi).
          rewrite (map_nth (fun a => map (dist a) (map f X))). rewrite map_nth. reflexivity. }
        rewrite E. replace (j, dist (f (nth i X [])) (f (nth j X []))) with (nth j (combine (seq 0 m) (map (dist (f (nth i X []))) (map f X))) (0, dist (f (nth i X [])) (f []))).
        -- apply nth_In. rewrite combine_length, seq_length, !map_length. fold m. lia.
        -- rewrite combine_nth by (rewrite seq_length, !map_length; reflexivity). rewrite seq_nth by exact Hj. rewrite !map_nth. reflexivity.
      * apply andb_true_intro. split; [apply negb_true_iff, Nat.eqb_neq; exact Nj|apply Qlt_b_iff; exact Dj].
Qed.

Lemma rint_half a b (q : Q) : a <= b -> (q == (1 # 2) * inject_Z (Z.of_nat b) - (1 # 2) * inject_Z (Z.of_nat a) + (1 # 2))%Q ->
  (0 <= rint q)%Z /\ sundo_number b a (Z.to_nat (rint q)).
Proof.
  intros H E. pose proof (Qfloor_le q) as F1. pose proof (Qlt_floor q) as F2. rewrite inject_Z_plus in F2.
  change (inject_Z 1) with 1%Q in F2.
  assert (E2 : (2 * q == inject_Z (Z.of_nat (b - a) + 1))%Q).
  { rewrite E, Nat2Z.inj_sub by exact H. unfold Z.sub. rewrite !inject_Z_plus, inject_Z_opp. change (inject_Z 1) with 1%Q. field. }
  set (f := Qfloor q) in *.
  assert (Z1 : (2 * f <= Z.of_nat (b - a) + 1 < 2 * f + 2)%Z).
  { rewrite Zle_Qle, Zlt_Qlt. rewrite inject_Z_plus with (x := (2 * f)%Z), inject_Z_mult, <- E2. change (inject_Z 2) with 2%Q. lra. }
  unfold rint. fold f.
  assert (C : (q - inject_Z f ?= 1 # 2)%Q = if Z.eqb (2 * f) (Z.of_nat (b - a) + 1) then Lt else Eq).
  { destruct (Z.eqb_spec (2 * f) (Z.of_nat (b - a) + 1)) as [Q|Q].
    - rewrite <- Q, inject_Z_mult in E2. change (inject_Z 2) with 2%Q in E2. apply (proj1 (Qlt_alt _ _)). lra.
    - assert (Q' : (Z.of_nat (b - a) + 1 = 2 * f + 1)%Z) by lia. rewrite Q', inject_Z_plus, inject_Z_mult in E2.
      change (inject_Z 2) with 2%Q in E2. change (inject_Z 1) with 1%Q in E2. apply (proj1 (Qeq_alt _ _)). lra. }
  rewrite C. destruct (Z.eqb_spec (2 * f) (Z.of_nat (b - a) + 1)) as [Q|Q].
  - split; [lia|]. split; [left; lia|]. intro N. exfalso. apply N. lia.
  - destruct (Z.even f) eqn:Ev.
    + split; [lia|]. split; [right; right; lia|]. intros _. apply Z.even_spec in Ev. destruct Ev as [c ->].
      exists (Z.to_nat c). lia.
    + split; [lia|]. split; [right; left; lia|]. intros _.
      assert (Od : Z.Odd f) by (apply Z.odd_spec; rewrite <- Z.negb_even, Ev; reflexivity). destruct Od as [c ->].
      exists (Z.to_nat (c + 1)). lia.
Qed.

Lemma repeat_of {A} (z : A) l : (forall x, In x l -> x = z) -> l = repeat z (length l).
Proof.
  induction l as [|x l IH]; intro H; [reflexivity|]. cbn. rewrite (H x (or_introl eq_refl)). f_equal. apply IH. intros w Hw. apply H. right. exact Hw.
Qed.

Lemma delete_idx_repeat {A} (z : A) n idx : exists m, delete_idx (repeat z n) idx = repeat z m.
Proof.
  exists (length (delete_idx (repeat z n) idx)). apply repeat_of. intros x Hx.
  rewrite (delete_idx_kept z) in Hx. apply in_map_iff in Hx. destruct Hx as [i [<- _]].
  destruct (Nat.lt_ge_cases i n); [apply nth_repeat|rewrite nth_overflow; [reflexivity|rewrite repeat_length; assumption]].
Qed.

Lemma sundo_runs dist nn std rs D mn mj :
  knn_ok dist nn -> (forall i, rng_ok (rs i)) -> wf_data (d_X D) (d_dim D) (d_y D) -> is_minority (d_y D) mn mj ->
  let out := sundo_sample dist nn std rs D in
  (count_label (d_y D) mn <= 2 \/ count_label (d_y D) mn = count_label (d_y D) mj -> unchanged D out) /\
  (2 < count_label (d_y D) mn < count_label (d_y D) mj ->
   sundo_spec dist (fun j => std (column j (rows_with mn (d_X D) (d_y D)))) (fun n => r_normal (rs 1) n (d_dim D)) D mn mj out).
Proof.
  intros K R [WR WL] M out. unfold out, sundo_sample.
  destruct (sample_default (sundo_algorithm dist nn std rs) D mn mj M) as [st [[S1 [S2 _]] ->]].
  pose proof (proj1 M) as [N0 [_ [_ A]]]. assert (MM : count_label (d_y D) mn <= count_label (d_y D) mj) by (destruct M as [_ [?|[? _]]]; lia).
  set (n1 := count_label (d_y D) mn) in *. set (n0 := count_label (d_y D) mj) in *.
  assert (L1 : length (rows_with mn (d_X D) (d_y D)) = n1) by (apply rows_with_length; exact WL).
  assert (L0 : length (rows_with mj (d_X D) (d_y D)) = n0) by (apply rows_with_length; exact WL).
  assert (LD : length (d_X D) = n1 + n0) by (rewrite WL; unfold n1, n0, count_label; symmetry; apply count_two; assumption).
  destruct (Nat.leb_spec n1 2) as [C|C]; [split; [reflexivity|lia]|].
  unfold sundo_algorithm. rewrite S1, S2.
  set (X_min := rows_with mn (d_X D) (d_y D)) in *. set (X_maj := rows_with mj (d_X D) (d_y D)) in *.
  rewrite L1, LD. replace (n1 + n0 - n1) with n0 by lia.
  set (q := ((1 # 2) * inject_Z (Z.of_nat n0) - (1 # 2) * inject_Z (Z.of_nat n1) + (1 # 2))%Q).
  destruct (rint_half n1 n0 q MM) as [RP SN]; [reflexivity|].
  set (N := rint q) in *. clearbody N. clear q.
  assert (N00 : (N = 0)%Z <-> n1 = n0).
  { destruct SN as [SA SB]. split; intro Q.
    - subst N. cbn in SA. lia.
    - assert (Z.to_nat N = 0 \/ Z.to_nat N = 1) as [Q1|Q1] by lia; [lia|].
      exfalso. destruct (SB ltac:(lia)) as [c Hc]. lia. }
  destruct (Z.eqb_spec N 0) as [Q|Q].
  { split; [reflexivity|]. intro G. apply N00 in Q. lia. }
  assert (NN : n1 <> n0) by (intro G; apply Q, N00, G).
  assert (WM : rect (d_dim D) X_min) by (apply rows_with_rect; assumption).
  split; [lia|]. intros _.
  assert (NE1 : X_min <> []) by (intro G; rewrite G in L1; cbn in L1; lia).
  assert (NE0 : X_maj <> []) by (intro G; rewrite G in L0; cbn in L0; lia).
  destruct (generate_ok dist nn std rs (d_dim D) X_min X_maj (Z.to_nat N) K R WM NE1 NE0) as [S [-> [LS FS]]]. cbn [bind].
  destruct (removal_ok dist (d_dim D) X_maj (Z.to_nat N) NE0 ltac:(lia)) as [th [idx [-> [Rk Hidx]]]]. cbn [bind].
  rewrite L0 in Rk.
  exists (Z.to_nat N), S, (delete_idx X_maj idx), (mm_transform (mm_fit (d_dim D) X_maj)), th.
  fold n1 n0 X_min X_maj. split; [exact SN|]. split; [exact LS|]. split; [exact FS|]. split; [apply unit_scaled_mm, NE0|]. split; [exact Rk|].
  split; [|rewrite LS; reflexivity].
  pose proof (delete_both X_maj (repeat mj n0) idx (crowds dist (mm_transform (mm_fit (d_dim D) X_maj)) X_maj th)) as Dr.
  rewrite repeat_length in Dr. specialize (Dr L0).
  assert (Dr' := Dr ltac:(intros i Hi; rewrite Hidx; intuition)). clear Dr.
  pose proof (drops_length _ _ _ _ _ Dr') as LL. destruct (delete_idx_repeat mj n0 idx) as [m Em]. rewrite Em in *.
  rewrite repeat_length in LL. rewrite LL. exact Dr'.
Qed.

Lemma count_repeat_same z n : count_occ Z.eq_dec (repeat z n) z = n.
Proof. induction n; cbn; [reflexivity|]. destruct (Z.eq_dec z z); congruence. Qed.
Lemma count_repeat_other z w n : z <> w -> count_occ Z.eq_dec (repeat z n) w = 0.
Proof. intro H. induction n; cbn; [reflexivity|]. destruct (Z.eq_dec z w); congruence. Qed.

Lemma filter_partition {A} (f : A -> bool) l : length (filter f l) + length (filter (fun x => negb (f x)) l) = length l.
Proof. induction l as [|x l IH]; [reflexivity|]. cbn. destruct (f x); cbn; lia. Qed.

Lemma crowds_dec dist f X th i : crowds dist f X th i \/ ~ crowds dist f X th i.
Proof.
  apply (reflect_iff' (existsb (fun j => negb (j =? i) && Qlt_b (dist (f (nth i X [])) (f (nth j X []))) th) (seq 0 (length X)))).
  rewrite existsb_exists. split.
  - intros [j [Hj Q]]. apply in_seq in Hj. apply andb_prop in Q. destruct Q as [Q1 Q2]. apply negb_true_iff, Nat.eqb_neq in Q1.
    apply Qlt_b_iff in Q2. exists j. repeat split; try assumption. lia.
  - intros [j [Hj [Nj Dj]]]. exists j. split; [apply in_seq; lia|]. apply andb_true_intro. split; [apply negb_true_iff, Nat.eqb_neq, Nj|apply Qlt_b_iff, Dj].
Qed.

(** At most twice as many majority rows go as minority rows come, so the majority
    class does not vanish. *)
Lemma sundo_bound dist stds normals D mn mj X' y' :
  (forall a b, (0 <= dist a b)%Q) -> (forall a, (dist a a == 0)%Q) ->
  length (d_X D) = length (d_y D) ->
  2 < count_label (d_y D) mn < count_label (d_y D) mj -> mn <> mj ->
  sundo_spec dist stds normals D mn mj (Ok (X', y')) ->
  exists N, sundo_number (count_label (d_y D) mj) (count_label (d_y D) mn) N /\
    count_label y' mn = count_label (d_y D) mn + N /\
    count_label (d_y D) mj <= count_label y' mj + 2 * N /\ 0 < count_label y' mj.
Proof.
  intros Pos Zero WL C N0 (N & S & K & f & th & SN & LS & FS & US & Rk & Dr & E).
  injection E as -> ->. exists N. split; [exact SN|].
  set (n1 := count_label (d_y D) mn) in *. set (n0 := count_label (d_y D) mj) in *.
  set (X_maj := rows_with mj (d_X D) (d_y D)) in *.
  assert (L0 : length X_maj = n0) by (apply rows_with_length; exact WL).
  assert (C1 : count_label (repeat mn (n1 + N) ++ repeat mj (length K)) mn = n1 + N).
  { unfold count_label. rewrite count_occ_app, count_repeat_same, count_repeat_other by congruence. lia. }
  assert (C2 : count_label (repeat mn (n1 + N) ++ repeat mj (length K)) mj = length K).
  { unfold count_label. rewrite count_occ_app, count_repeat_same, count_repeat_other by congruence. lia. }
  rewrite C1, C2. split; [reflexivity|].
  assert (NB : 2 * N <= n0 - n1 + 2) by (destruct SN as [SA _]; lia).
  assert (B : n0 <= length K + 2 * N).
  { destruct Dr as [keep [Sk [Hk [E1 E2]]]]. assert (LK : length K = length keep) by (rewrite E1, map_length; reflexivity).
    set (rem := filter (fun i => negb (existsb (Nat.eqb i) keep)) (seq 0 n0)).
    assert (Lr : length rem + length keep >= n0).
    { pose proof (filter_partition (fun i => existsb (Nat.eqb i) keep) (seq 0 n0)) as FP. rewrite seq_length in FP. fold rem in FP.
      assert (length (filter (fun i => existsb (Nat.eqb i) keep) (seq 0 n0)) <= length keep).
      { apply NoDup_incl_length; [apply NoDup_filter', seq_NoDup|]. intros i Hi. apply filter_In in Hi. apply existsb_eqb, Hi. }
      lia. }
    pose proof (crowds_bound dist f X_maj (Nat.min (n0 + 2 * N) (n0 * n0 - 1)) th rem Pos Zero Rk) as CB.
    rewrite L0 in CB.
    assert (n0 + length rem <= Nat.min (n0 + 2 * N) (n0 * n0 - 1)); [|lia].
    apply CB; [nia|apply NoDup_filter', seq_NoDup|]. intros i Hi. apply filter_In in Hi. destruct Hi as [Hi Q]. apply in_seq in Hi.
    split; [lia|]. apply negb_true_iff in Q.
    assert (NI : ~ In i keep) by (intro G; apply existsb_eqb in G; congruence).
    destruct (crowds_dec dist f X_maj th i) as [Y|Y]; [exact Y|]. exfalso. apply NI, Hk. split; [lia|exact Y]. }
  split; [exact B|]. lia.
Qed.
