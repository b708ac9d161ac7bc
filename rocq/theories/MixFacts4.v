From Coq Require Import List ZArith QArith Qabs Qminmax Qround Qpower Bool Arith Lia Lqa Sorting.Sorted Permutation.
From Verif Require Import Np PyVal NpFacts BaseFacts SimplexModel Spec SpecDanger SpecNoise SpecComp SimplexFacts SimplexGeom Float64
  SamplerModel SamplerFacts OversFacts BaseModel KnnFacts DangerModel DangerFacts BorderFacts ClusterModel ClusterOversModel OversGen
  ClusterOversFacts ClusterFacts NoiseModel NoiseFacts NoiseFacts2 CompModel CompFacts CompFacts2 CompFacts3 CompFacts4 EditModel SpecEdit EditFacts EditFacts3 EditFacts4 EditFacts5
  SpecNear NearFacts NearFacts2 LevelModel SpecLevel LevelFacts LevelFacts3 LevelFacts4 SpecGroup GroupFacts GroupFacts2 GroupFacts4 WrapModel SpecWrap WrapFacts WrapFacts2 WrapFacts3 DirModel SpecDir DirFacts DirFacts3 RegionModel SpecRegion RegionFacts RegionFacts2 RegionFacts3 RegionFacts4 SearchModel SpecSearch SearchFacts2 GraphModel SpecGraph GraphFacts GraphFacts2 GraphFacts4 GraphFacts5 GraphFacts6 GraphFacts8 MixModel SpecMix MixFacts.
Import ListNotations.
Open Scope nat_scope.

(** ** SOMO *)

Lemma filter_combine_seq (g : row -> Z -> bool) X : forall y, length X = length y ->
  map fst (filter (fun xl => g (fst xl) (snd xl)) (combine X y)) = map (fun i => nth i X []) (filter (fun i => g (nth i X []) (nth i y 0%Z)) (seq 0 (length X))).
Proof.
  induction X as [|x X IH]; intros [|l y] H; try discriminate; [reflexivity|]. injection H as H. specialize (IH y H).
  cbn [length seq combine filter fst snd nth]. rewrite <- seq_shift.
  assert (E : map (fun i => nth i (x :: X) []) (filter (fun i => g (nth i (x :: X) []) (nth i (l :: y) 0%Z)) (map S (seq 0 (length X)))) =
              map fst (filter (fun xl => g (fst xl) (snd xl)) (combine X y))).
  { rewrite IH. clear. generalize (seq 0 (length X)). intros s. induction s as [|i s IHs]; [reflexivity|]. cbn [map filter nth].
    destruct (g (nth i X []) (nth i y 0%Z)); cbn [map nth]; [f_equal|]; exact IHs. }
  destruct (g x l); cbn [map nth fst]; [f_equal|]; symmetry; exact E.
Qed.

Lemma cell_members_eq (w : list row -> row -> cell) test test' X y key : length X = length y -> (forall l, test l = test' l) ->
  cell_rows w test X y key = cell_members (w X) test' X y key.
Proof.
  intros HL Ht. unfold cell_rows, cell_members.
  rewrite (filter_combine_seq (fun x l => cell_eqb key (w X x) && test l) X y HL). f_equal. apply filter_ext. intros i.
  unfold cell_eqb. rewrite (Z.eqb_sym (fst key)), (Z.eqb_sym (snd key)), Ht.
  destruct (test' _); cbn; [rewrite andb_true_r; reflexivity|now rewrite andb_false_r].
Qed.

Lemma cell_members_in f test X y c x : In x (cell_members f test X y c) -> In x X /\ f x = c.
Proof.
  unfold cell_members. rewrite in_map_iff. intros (i & <- & Hi). apply filter_In in Hi. destruct Hi as [Hi Ht]. apply in_seq in Hi.
  rewrite !andb_true_iff, !Z.eqb_eq in Ht. split; [apply nth_In; lia|]. destruct (f (nth i X [])), c; cbn in *. f_equal; tauto.
Qed.

Lemma cell_eqb_eq a b : cell_eqb a b = true <-> a = b.
Proof. unfold cell_eqb. rewrite andb_true_iff, !Z.eqb_eq. destruct a, b; cbn. split; [intros [-> ->]; reflexivity|intros E; injection E; auto]. Qed.

Lemma first_seen_in l c : In c l -> In c (first_seen l).
Proof.
  induction l as [|a l IH]; intros H; [destruct H|]. cbn. destruct (cell_eqb a c) eqn:E; [left; now apply cell_eqb_eq|].
  destruct H as [->|H]; [exfalso; rewrite (proj2 (cell_eqb_eq c c) eq_refl) in E; discriminate|]. right. apply filter_In. split; [auto|now rewrite E].
Qed.

Lemma somo_pairs_in keys a b : In (a, b) (somo_pairs keys) <-> In a keys /\ In b keys /\ adjacent a b.
Proof.
  unfold somo_pairs. rewrite in_flat_map. split.
  - intros (k & Hk & H). apply in_flat_map in H. destruct H as (st & Hst & H).
    destruct (existsb _ keys) eqn:E; [|destruct H]. destruct H as [H|[]]. injection H as -> <-.
    apply existsb_exists in E. destruct E as (k' & Hk' & E). apply cell_eqb_eq in E. subst k'. split; [exact Hk|]. split; [exact Hk'|].
    unfold adjacent. cbn [fst snd]. destruct Hst as [<-|[<-|[<-|[<-|[]]]]]; cbn [fst snd]; [left|left|right|right]; lia.
  - intros (Ha & Hb & Hadj). exists a. split; [exact Ha|]. apply in_flat_map.
    exists ((fst b - fst a)%Z, (snd b - snd a)%Z). split.
    + destruct Hadj as [[E1 E2]|[E1 E2]]; rewrite E1, Z.sub_diag.
      * assert (snd b - snd a = 1 \/ snd b - snd a = -1)%Z as [->| ->] by lia; cbn; auto.
      * assert (fst b - fst a = 1 \/ fst b - fst a = -1)%Z as [->| ->] by lia; cbn; auto.
    + cbn [fst snd]. replace ((fst a + (fst b - fst a))%Z, (snd a + (snd b - snd a))%Z) with b by (destruct b; cbn; f_equal; lia).
      assert (E : existsb (cell_eqb b) keys = true) by (apply existsb_exists; exists b; split; [exact Hb|now apply cell_eqb_eq]).
      rewrite E. now left.
Qed.

Lemma somo_density_pos dist c : (0 < somo_density dist c)%Q.
Proof.
  unfold somo_density. cbv zeta. set (m := (_ / _)%Q). destruct (Nat.ltb_spec 1 (length c)) as [H|H]; cbn [andb]; [|reflexivity].
  destruct (Qlt_b 0 m) eqn:E; [|reflexivity]. apply Qlt_b_iff' in E.
  apply Qlt_shift_div_l; [nra|]. rewrite Qmult_0_l. change 0%Q with (inject_Z 0). rewrite <- Zlt_Qlt. lia.
Qed.

Lemma somo_weights_ok l : Forall (fun q => (0 < q)%Q) l ->
  length (somo_weights l) = length l /\ Forall (Qle 0) (somo_weights l) /\ (l <> [] -> (qsum (somo_weights l) == 1)%Q).
Proof.
  intros H. unfold somo_weights. split; [rewrite fix_density_length; apply map_length|]. split.
  - apply fix_density_nonneg. rewrite Forall_map. eapply Forall_impl; [|exact H]. cbn. intros q Hq. apply Qlt_le_weak.
    apply Qlt_shift_div_l; lra.
  - intros Hl. apply fix_density_sum. destruct l; [congruence|discriminate].
Qed.

Lemma choose_cells r n w len : rng_ok r -> length w = len -> Forall (Qle 0) w -> (qsum w == 1)%Q ->
  exists chosen, np_choice r (seq 0 len) n w = Ok chosen /\ length chosen = n /\ Forall (fun c => c < len) chosen.
Proof.
  intros Hr Lw Hw Hs. unfold np_choice.
  assert (E : forallb (fun q => Qle_bool 0 q) w = true).
  { apply forallb_forall. intros q Hq. apply Qle_bool_iff. rewrite Forall_forall in Hw. now apply Hw. }
  rewrite E. destruct (rng_choice _ Hr w n Hw Hs) as [L F].
  assert (F' : Forall (fun i => i < len) (r_choice r w n)).
  { eapply Forall_impl; [|exact F]. intros i (q & Hq & _). rewrite <- Lw. apply nth_error_Some. congruence. }
  rewrite (gather_map 0) by (rewrite seq_length; exact F'). eexists. split; [reflexivity|]. split; [now rewrite map_length|].
  apply Forall_forall. intros c Hc. apply in_map_iff in Hc. destruct Hc as (i & <- & Hi). rewrite Forall_forall in F'. specialize (F' i Hi).
  rewrite seq_nth by exact F'. exact F'.
Qed.

Lemma by_cell_ok (P : row -> Prop) call chosen :
  (forall c m, In c chosen -> exists S, call c m = Ok S /\ length S = m /\ Forall P S) ->
  exists S, by_cell call chosen = Ok S /\ length S = length chosen /\ Forall P S.
Proof.
  intros Hc. destruct chosen as [|c0 l] eqn:Ech; [exists []; repeat split; constructor|]. rewrite <- Ech in *.
  destruct (by_cluster_total call chosen) as (S & ES).
  { rewrite Ech. discriminate. }
  { intros c m H. destruct (Hc c m H) as (S & E & _). eauto. }
  exists S. destruct (by_cluster_spec (fun _ => P) call chosen S) as [LS FS]; [|exact ES|].
  { intros c m S' H E'. destruct (Hc c m H) as (S2 & E1 & E2 & E3). rewrite E1 in E'. injection E' as <-. split; [exact E2|]. now apply Forall_forall. }
  split; [|split; [exact LS|]].
  - unfold by_cluster in ES. unfold by_cell. inv_bind ES. rewrite E. cbn [bind]. destruct a; [discriminate|exact ES].
  - apply Forall_forall. intros x Hx. destruct (FS x Hx) as (_ & _ & H). exact H.
Qed.

Lemma circulant_length n : length (circulant n) = n.
Proof. unfold circulant. now rewrite map_length, seq_length. Qed.
Lemma circulant_nth n i : i < n -> nth i (circulant n) [] = map (fun j => (i + n - j) mod n) (seq 0 n).
Proof. intros H. unfold circulant. rewrite (nth_map_in _ 0) by (now rewrite seq_length). now rewrite seq_nth. Qed.
Lemma circulant_row n i : i < n -> let r := nth i (circulant n) [] in length r = n /\ nth 0 r 0 = i /\ NoDup r /\ Forall (fun v => v < n) r.
Proof.
  intros H. cbv zeta. rewrite circulant_nth by exact H. rewrite map_length, seq_length. split; [reflexivity|]. split.
  { rewrite (nth_map_in _ 0) by (rewrite seq_length; lia). rewrite seq_nth by lia. cbn [Nat.add]. rewrite Nat.sub_0_r.
    rewrite <- (Nat.mul_1_l n) at 1. rewrite Nat.mod_add by lia. now apply Nat.mod_small. }
  split.
  - apply NoDup_map_in; [|apply seq_NoDup]. intros a b Ha Hb E. apply in_seq in Ha, Hb.
    assert (G : forall j, j < n -> (i + n - j) mod n = if j <=? i then i - j else i + n - j).
    { intros j Hj. destruct (Nat.leb_spec j i).
      - replace (i + n - j) with (i - j + 1 * n) by lia. rewrite Nat.mod_add by lia. apply Nat.mod_small. lia.
      - apply Nat.mod_small. lia. }
    rewrite !G in E by lia. destruct (Nat.leb_spec a i), (Nat.leb_spec b i); lia.
  - rewrite Forall_map. apply Forall_forall. intros j _. apply Nat.mod_upper_bound. lia.
Qed.

Section SOMO.

Variable volume : list row -> Q.
Variable dist : row -> row -> Q.
Variable winner : list row -> row -> cell.

Lemma somo_ok proportion ss rs D mn mj n : rngs_ok rs -> rngs_pos rs -> plain_ss ss -> wf_data (d_X D) (d_dim D) (d_y D) -> is_minority (d_y D) mn mj ->
  asked proportion (d_y D) mn mj = Ok n ->
  let out := somo_sample volume dist winner proportion ss rs D in
  (count_label (d_y D) mn <= 2 \/ n = 0%Z -> unchanged D out) /\
  (2 < count_label (d_y D) mn -> (0 < n)%Z -> somo_result (winner (d_X D)) ss D mn n out).
Proof.
  intros Hr Hu Hss Hwf Hmin Hn. cbv zeta. unfold somo_sample.
  destruct (sample_default (somo_algorithm volume dist winner proportion ss rs) D mn mj Hmin) as (st & Hst & ->).
  destruct (stats_labels _ _ _ _ Hst) as [El1 El2].
  destruct (Nat.leb_spec (count_label (d_y D) mn) 2) as [Hle|Hgt].
  { split; [reflexivity|lia]. }
  unfold somo_algorithm. rewrite (det_st_asked _ _ _ _ _ (proj1 Hmin) Hst), Hn. cbn [bind].
  destruct (Nat.eqb_spec (Z.to_nat n) 0) as [E0|N0]; [split; [reflexivity|lia]|]. split; [lia|]. intros _ _.
  rewrite El1. assert (HX : rect (d_dim D) (d_X D)) by apply Hwf. assert (HL : length (d_X D) = length (d_y D)) by apply Hwf.
  set (f := winner (d_X D)).
  set (mins := cell_rows winner (Z.eqb mn) (d_X D) (d_y D)). set (majs := cell_rows winner (fun l => negb (Z.eqb mn l)) (d_X D) (d_y D)).
  set (keys := filter _ _).
  set (inside := cell_members f (fun l => Z.eqb l mn) (d_X D) (d_y D)).
  assert (Emin : forall c, mins c = inside c) by (intros c; apply cell_members_eq; [exact HL|intros l; apply Z.eqb_sym]).
  assert (Emaj : forall c, majs c = cell_members f (fun l => negb (Z.eqb l mn)) (d_X D) (d_y D) c) by (intros c; apply cell_members_eq; [exact HL|intros l; f_equal; apply Z.eqb_sym]).
  assert (Hkeys : forall c, In c keys <-> minority_cell f mn D c).
  { intros c. unfold keys. rewrite filter_In, Nat.ltb_lt, Emin, Emaj. unfold minority_cell. fold inside. split; [intros [_ H]; lia|].
    intros H. split; [|lia]. apply first_seen_in. destruct (inside c) as [|x l] eqn:E; [cbn in H; lia|].
    assert (Hx : In x (inside c)) by (rewrite E; now left). apply cell_members_in in Hx. destruct Hx as [Hx <-]. now apply in_map. }
  split.
  { intros Hno. assert (E : keys = []) by (destruct keys as [|c l]; [reflexivity|]; exfalso; apply (Hno c), Hkeys; now left). rewrite E. reflexivity. }
  intros (c0 & Hc0). apply Hkeys in Hc0.
  destruct (Nat.eqb_spec (length keys) 0) as [E|Nk]; [destruct keys; [destruct Hc0|discriminate]|].
  set (density := fun k => somo_density dist (mins k)). set (pairs := somo_pairs keys).
  set (weights := somo_weights (map density keys)).
  set (pw := somo_weights (map _ pairs)).
  assert (W1 : length weights = length keys /\ Forall (Qle 0) weights /\ (qsum weights == 1)%Q).
  { destruct (somo_weights_ok (map density keys)) as (A1 & A2 & A3); [rewrite Forall_map; apply Forall_forall; intros k _; apply somo_density_pos|].
    rewrite map_length in A1. split; [exact A1|]. split; [exact A2|]. apply A3. destruct keys; [cbn in Nk; lia|discriminate]. }
  assert (W2 : length pw = length pairs /\ Forall (Qle 0) pw /\ (pairs <> [] -> (qsum pw == 1)%Q)).
  { edestruct somo_weights_ok as (A1 & A2 & A3); [|split; [rewrite <- (map_length (fun ab => (density (fst ab) + density (snd ab))%Q) pairs); exact A1|split; [exact A2|]]].
    - rewrite Forall_map. apply Forall_forall. intros [a b] _. cbn. pose proof (somo_density_pos dist (mins a)). pose proof (somo_density_pos dist (mins b)). unfold density. lra.
    - intros H. apply A3. destruct pairs; [congruence|discriminate]. }
  set (n_intra := if 0 <? length pw then _ else _).
  destruct W1 as (L1 & P1 & Q1), W2 as (L2 & P2 & Q2).
  assert (Rin : forall c, rect (d_dim D) (inside c)).
  { intros c. apply Forall_forall. intros x Hx. apply cell_members_in in Hx. unfold rect in HX. rewrite Forall_forall in HX. now apply HX. }
  assert (Hne : forall c, In c keys -> 1 <= length (inside c)).
  { intros c Hc. apply Hkeys in Hc. unfold minority_cell in Hc. fold inside in Hc. lia. }
  assert (Hintra : exists S1, somo_intra volume ss (d_dim D) (map mins keys) weights n_intra rs = Ok S1 /\ length S1 = n_intra /\
    Forall (fun x => ss_gauss ss = GNone -> exists c ps, minority_cell f mn D c /\ NoDup ps /\ Forall (fun i => i < length (inside c)) ps /\
        length ps = Nat.min (ss_n_dim ss) (length (inside c)) /\ convex_comb (d_dim D) (map (fun i => nth i (inside c) []) ps) x) S1).
  { unfold somo_intra. rewrite map_length. destruct (choose_cells (rs 0) n_intra weights (length keys) (Hr 0) L1 P1 Q1) as (ch & Ech & Lch & Fch).
    rewrite Ech. cbn [bind]. rewrite <- Lch. apply by_cell_ok. intros i m Hi. rewrite Forall_forall in Fch. specialize (Fch i Hi).
    rewrite (get_nth [] (map mins keys) i) by (now rewrite map_length). cbn [bind]. rewrite (nth_map_in mins (0, 0)%Z) by exact Fch.
    set (c := nth i keys (0, 0)%Z). assert (Hc : In c keys) by now apply nth_In. rewrite Emin. set (I := inside c). specialize (Hne c Hc). fold I in Hne.
    assert (Hargs : args_ok (mk_args I (d_dim D) (circulant (length I)) (length I) None None None false None)).
    { constructor; cbn; auto; try (apply Rin); try discriminate.
      - apply Forall_forall. intros r Hin. apply (In_nth _ _ []) in Hin. destruct Hin as (j & Hj & <-). rewrite circulant_length in Hj. now apply circulant_row.
      - rewrite circulant_length. lia.
      - apply Forall_forall. intros r Hin. apply (In_nth _ _ []) in Hin. destruct Hin as (j & Hj & <-). rewrite circulant_length in Hj. now apply circulant_row. }
    destruct (ss_call volume ss _ m (rs (2 + i)) 0 Hargs (Hr _) (Hu _) Hss) as (S & ES & LS & FS); cbn; auto; [rewrite circulant_length; lia|].
    cbn in ES. exists S. split; [exact ES|]. split; [exact LS|]. apply Forall_forall. intros x Hx G. specialize (FS G). rewrite Forall_forall in FS.
    destruct (FS x Hx) as (b & ps & B1 & B2 & B3 & B4 & _ & _ & B5). cbn [a_dim a_X a_X_vertices vertex_set a_indices a_ncols] in *. rewrite circulant_length in B1.
    destruct (circulant_row (length I) b B1) as (R1 & R2 & R3 & R4). set (rr := nth b (circulant (length I)) []) in *.
    exists c, (b :: map (fun p => nth p rr 0) ps). fold I. split; [now apply Hkeys|].
    assert (EL : b :: map (fun p => nth p rr 0) ps = map (fun p => nth p rr 0) (0 :: ps)) by (cbn [map]; now rewrite R2).
    rewrite Forall_forall in B4, R4. split; [|split; [|split]].
    - rewrite EL. apply NoDup_map_in.
      + intros a a' Ha Ha' E'. assert (Hlt : forall q, In q (0 :: ps) -> q < length rr) by (intros q [<-|Hq]; [lia|specialize (B4 q Hq); lia]).
        apply (proj1 (NoDup_nth rr 0) R3); auto.
      + constructor; [intros C; specialize (B4 0 C); lia|now apply sorted_lt_NoDup].
    - rewrite EL. rewrite Forall_map. apply Forall_forall. intros q Hq. apply R4, nth_In. destruct Hq as [<-|Hq]; [lia|specialize (B4 q Hq); lia].
    - cbn [length]. rewrite map_length, B2. destruct Hss as [Hd _]. lia.
    - cbn [map]. rewrite map_map. exact B5. }
  destruct Hintra as (S1 & ES1 & LS1 & FS1). rewrite ES1. cbn [bind].
  assert (Hinter : exists S2, somo_inter volume ss (d_dim D) (map (fun ab => (mins (fst ab), mins (snd ab))) pairs) pw (Z.to_nat n - n_intra)
                    (fun i => rs (2 + length keys + i)) = Ok S2 /\ length S2 = Z.to_nat n - n_intra /\
    Forall (fun x => ss_gauss ss = GNone -> exists a b u v, minority_cell f mn D a /\ minority_cell f mn D b /\ adjacent a b /\ In u (inside a) /\ In v (inside b) /\ convex_comb (d_dim D) [u; v] x) S2).
  { unfold somo_inter. rewrite L2. destruct (Nat.eqb_spec (length pairs) 0) as [Ep|Np].
    { exists []. split; [reflexivity|]. split; [|constructor]. unfold n_intra. rewrite L2, Ep. cbn. lia. }
    rewrite map_length. assert (Np' : pairs <> []) by (intros C; rewrite C in Np; cbn in Np; lia).
    destruct (choose_cells (rs (2 + length keys + 1)) (Z.to_nat n - n_intra) pw (length pairs) (Hr _) L2 P2 (Q2 Np')) as (ch & Ech & Lch & Fch).
    rewrite Ech. cbn [bind]. rewrite <- Lch. apply by_cell_ok. intros i m Hi. rewrite Forall_forall in Fch. specialize (Fch i Hi).
    rewrite (get_nth ([], []) _ i) by (now rewrite map_length). cbn [bind]. set (c1 := ((0, 0)%Z, (0, 0)%Z) : cell * cell).
    rewrite (nth_map_in _ c1) by exact Fch. set (ab := nth i pairs c1).
    assert (Hab : In ab pairs) by now apply nth_In. clearbody ab. destruct ab as [a b]. cbn [fst snd].
    apply somo_pairs_in in Hab. destruct Hab as (Ha & Hb & Hadj).
    rewrite !Emin. set (A := inside a). set (B := inside b). pose proof (Hne a Ha) as Na. pose proof (Hne b Hb) as Nb. fold A in Na. fold B in Nb.
    pose (args := mk_args A (d_dim D) (map (fun _ => 0 :: seq 0 (length B)) A) (Datatypes.S (length B)) None None (Some B) false None).
    assert (Hargs : args_ok args).
    { constructor; cbn; auto; try (apply Rin); try discriminate.
      - unfold rect. rewrite Forall_map. apply Forall_forall. intros x _. cbn. now rewrite seq_length.
      - rewrite map_length. lia.
      - rewrite Forall_map. apply Forall_forall. intros x _. constructor; [lia|]. apply Forall_forall. intros v Hv. apply in_seq in Hv. lia. }
    set (ss2 := mk_ss 2 (ss_sampling ss) (ss_within ss) (ss_gauss ss)).
    assert (Hss2 : plain_ss ss2).
    { destruct Hss as (_ & H1 & H2). split; [cbn; lia|]. split; [exact H1|]. cbn. destruct H2 as [H2|[H2 _]]; [now left|right; auto]. }
    destruct (ss_call volume ss2 args m (rs (2 + length keys + (2 + length pairs + i))) 0 Hargs (Hr _) (Hu _) Hss2) as (S & ES & LS & FS); cbn; auto; [rewrite map_length; lia|].
    exists S. split; [exact ES|]. split; [exact LS|]. apply Forall_forall. intros x Hx G. specialize (FS G). rewrite Forall_forall in FS.
    destruct (FS x Hx) as (q & ps & B1 & B2 & B3 & B4 & _ & _ & B5). cbn [args ss2 a_dim a_X a_X_vertices vertex_set a_indices a_ncols ss_n_dim] in *.
    rewrite map_length in B1. replace (Nat.min 2 (Datatypes.S (length B)) - 1) with 1 in B2 by lia.
    destruct ps as [|p1 [|]]; try discriminate. inversion B4 as [|? ? Hp1 _]; subst.
    rewrite (nth_map_in _ []) in B5 by exact B1. cbn [map] in B5.
    exists a, b, (nth q A []), (nth (nth p1 (0 :: seq 0 (length B)) 0) B []). split; [now apply Hkeys|]. split; [now apply Hkeys|]. split; [exact Hadj|].
    split; [now apply nth_In|]. split; [|exact B5]. apply nth_In. destruct p1 as [|p1]; [lia|]. cbn [nth]. rewrite seq_nth by (fold B in Hp1; lia). fold B. lia. }
  destruct Hinter as (S2 & ES2 & LS2 & FS2). rewrite ES2. cbn [bind]. unfold extended. rewrite El1.
  assert (Hle : n_intra <= Z.to_nat n) by (unfold n_intra; destruct (0 <? length pw); [apply Nat.div_le_upper_bound; lia|lia]).
  assert (Hpr : (exists a b, minority_cell f mn D a /\ minority_cell f mn D b /\ adjacent a b) <-> pairs <> []).
  { split.
    - intros (a & b & Ha & Hb & Hadj) E. assert (H : In (a, b) pairs) by (apply somo_pairs_in; rewrite !Hkeys; auto). rewrite E in H. destruct H.
    - intros H. destruct pairs as [|[a b] l] eqn:E; [congruence|]. exists a, b. rewrite <- !Hkeys. apply somo_pairs_in. fold pairs. rewrite E. now left. }
  exists (S1 ++ S2). split; [reflexivity|]. unfold somo_spec. fold inside. exists S1, S2. split; [reflexivity|]. split; [rewrite app_length; lia|]. split; [|split].
  - intros H. apply Hpr in H. rewrite LS1. unfold n_intra. rewrite L2. destruct (Nat.ltb_spec 0 (length pairs)); [reflexivity|]. destruct pairs; [congruence|cbn in *; lia].
  - intros H. rewrite Hpr in H. destruct S2 as [|x S2]; [reflexivity|exfalso]. apply H. intros E. revert LS2. unfold n_intra. rewrite L2, E. cbn. lia.
  - intros G. split; [eapply Forall_impl; [|exact FS1]|eapply Forall_impl; [|exact FS2]]; intros x Hx; apply Hx, G.
Qed.

End SOMO.
