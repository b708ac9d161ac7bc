(** Facts about SYMPROD of GraphModel.v. *)

From Coq Require Import List ZArith QArith Qabs Qminmax Bool Arith Lia Lqa Sorting.Sorted Permutation.
From Verif Require Import Np PyVal NpFacts BaseFacts SimplexModel Spec SpecDanger SpecNoise SpecComp SimplexFacts SimplexGeom Float64
  SamplerModel SamplerFacts OversFacts BaseModel DangerModel DangerFacts ClusterOversModel OversGen ClusterOversFacts NoiseFacts NoiseFacts2 CompModel CompFacts CompFacts2
  NearModel SpecNear NearFacts NearFacts2 RegionModel RegionFacts3 LevelModel LevelFacts4 SpecGroup GroupFacts GroupFacts2 WrapModel SpecWrap WrapFacts WrapFacts2 DirModel SpecDir SearchModel SearchFacts SearchFacts2 DirFacts3 GroupFacts6 EditFacts3 GraphModel SpecGraph GraphFacts GraphFacts2 GraphFacts4.
Import ListNotations.
Open Scope nat_scope.

Lemma qsum_pos_nonzero l : Forall (Qle 0) l -> ~ (qsum l == 0)%Q -> (0 < qsum l)%Q.
Proof. intros H1 H2. pose proof (qsum_nonneg _ H1). lra. Qed.

Lemma nth_map_in {A B} (f : A -> B) (a : A) (b : B) l i : i < length l -> nth i (map f l) b = f (nth i l a).
Proof. intros H. rewrite (nth_indep _ b (f a)) by now rewrite map_length. apply map_nth. Qed.

Lemma NoDup_map_in {A B} (f : A -> B) l : (forall a b, In a l -> In b l -> f a = f b -> a = b) -> NoDup l -> NoDup (map f l).
Proof.
  intros Hf. induction 1 as [|a l Ha _ IH]; cbn; constructor.
  - intros C. apply in_map_iff in C. destruct C as (b & E & Hb). apply Ha. rewrite <- (Hf b a); auto; [now right|now left].
  - apply IH. intros; apply Hf; auto; now right.
Qed.

Section Symprod.

Variable dist : row -> row -> Q.
Variable nn : list row -> list row -> nat -> res (list (list nat)).
Variable sd : list Q -> Q.
Variable dirichlet : nat -> nat -> list Q.
Hypothesis Hnn : knn_ok dist nn.
Hypothesis Hdist : forall x y, (0 <= dist x y)%Q.
Hypothesis Hself : forall x, (dist x x == 0)%Q.
Hypothesis Hdir : dirichlet_ok dirichlet.

Lemma remove_outliers_ok p d X : 0 < d -> rect d X -> not_outlying sd d (sy_std_outliers p) X (remove_outliers sd p d X).
Proof.
  intros Hd HX. destruct (std_standard sd d X) as (w & H1 & H2).
  set (f := mm_transform (std_fit sd d X)) in *.
  exists w, f, (fun x => Qlt_b (max_abs (f x)) (sy_std_outliers p)). split; [exact H1|]. split; [exact H2|]. split; [|reflexivity].
  intros x Hx. unfold rect in HX. rewrite Forall_forall in HX. specialize (HX x Hx). destruct (H2 x HX) as [L _]. rewrite Qlt_b_iff'. unfold max_abs.
  assert (Ne : map Qabs (f x) <> []) by (intros C; apply (f_equal (@length Q)) in C; rewrite map_length, L in C; cbn in C; lia).
  destruct (col_max_spec _ Ne) as [M1 M2]. split.
  - intros H j Hj. eapply Qle_lt_trans; [|exact H]. apply M2. apply in_map. apply nth_In. lia.
  - intros H. apply in_map_iff in M1. destruct M1 as (v & E & Hv). rewrite <- E. apply (In_nth _ _ 0%Q) in Hv. destruct Hv as (j & Hj & <-). apply H. lia.
Qed.

Lemma not_outlying_rect d bound X K : not_outlying sd d bound X K -> rect d X -> rect d K.
Proof. intros (w & f & g & _ & _ & _ & ->) H. unfold rect in *. rewrite Forall_forall in *. intros x Hx. apply filter_In in Hx. now apply H. Qed.

Lemma closeness_ok X : (closeness_factors dist X = Err ValueError /\ degenerate dist X) \/
  (exists cf, closeness_factors dist X = Ok cf /\ ~ degenerate dist X /\ closeness_of dist X cf /\ Forall (Qle 0) cf /\ 2 <= length X).
Proof.
  unfold closeness_factors. destruct X as [|x0 X0] eqn:EX; [left; split; [reflexivity|now left]|]. rewrite <- EX.
  set (s := distance_sum dist X).
  assert (Es : map (fun x => qsum (map (dist x) X)) X = map s (seq 0 (length X))).
  { transitivity (map (fun x => qsum (map (dist x) X)) (map (fun i => nth i X []) (seq 0 (length X)))); [now rewrite CompFacts4.map_nth_seq|]. now rewrite map_map. }
  rewrite Es. destruct (existsb _ _) eqn:E.
  - left. split; [reflexivity|]. right. apply existsb_exists in E. destruct E as (q & Hq & Eq). apply in_map_iff in Hq. destruct Hq as (i & <- & Hi).
    apply in_seq in Hi. exists i. split; [lia|]. now apply Qeq_bool_iff.
  - right. assert (Nz : forall i, i < length X -> ~ (s i == 0)%Q).
    { intros i Hi C. apply Qeq_bool_iff in C. assert (T : existsb (fun s => Qeq_bool s 0) (map s (seq 0 (length X))) = true); [|congruence].
      apply existsb_exists. exists (s i). split; [apply in_map, in_seq; lia|exact C]. }
    eexists. split; [reflexivity|]. split.
    { intros [C|(i & Hi & C)]; [rewrite EX in C; discriminate|]. exact (Nz i Hi C). }
    rewrite map_map. set (f := fun i => (1 / s i)%Q). set (fs := map _ (seq 0 (length X))).
    assert (Hin : forall v, In v fs <-> exists i, i < length X /\ v = f i).
    { intros v. unfold fs. rewrite in_map_iff. split; [intros (i & <- & Hi); apply in_seq in Hi; exists i; split; [lia|reflexivity]|].
      intros (i & Hi & ->). exists i. split; [reflexivity|apply in_seq; lia]. }
    assert (Nf : fs <> []) by (unfold fs; rewrite EX; discriminate).
    assert (Ln : length fs = length X) by (unfold fs; now rewrite map_length, seq_length).
    assert (Hn : forall i, i < length X -> nth i fs 0%Q = f i).
    { intros i Hi. unfold fs. rewrite (nth_map_in _ 0) by now rewrite seq_length. rewrite seq_nth by exact Hi. reflexivity. }
    destruct (col_min_spec fs Nf) as [A1 A2]. destruct (col_max_spec fs Nf) as [B1 B2].
    unfold sym_normalize. set (lo := col_min fs) in *. set (hi := col_max fs) in *.
    assert (Hlh : forall i, i < length X -> (lo <= f i <= hi)%Q) by (intros i Hi; split; [apply A2|apply B2]; apply Hin; eauto).
    split; [|split].
    + split; [destruct (Qlt_b _ _); rewrite map_length; exact Ln|]. exists lo, hi.
      apply Hin in A1, B1. destruct A1 as (a & Ha & Ea). destruct B1 as (b & Hb & Eb).
      split; [exists a; split; [exact Ha|rewrite Ea; reflexivity]|]. split; [exists b; split; [exact Hb|rewrite Eb; reflexivity]|].
      intros i Hi. split; [exact (Hlh i Hi)|]. destruct (Qlt_b (hi - lo) (1 # 10000000000)) eqn:C.
      * split; [intros _; rewrite (nth_map_in _ 0%Q) by lia; reflexivity|]. apply Qlt_b_iff' in C. intros C'. lra.
      * split; [intros C'; apply Qlt_b_iff' in C'; congruence|]. intros _. rewrite (nth_map_in _ 0%Q) by lia. rewrite Hn by exact Hi. reflexivity.
    + destruct (Qlt_b (hi - lo) (1 # 10000000000)) eqn:C; apply Forall_forall; intros v Hv; apply in_map_iff in Hv; destruct Hv as (q & <- & Hq); [lra|].
      assert (C2 : (1 # 10000000000 <= hi - lo)%Q) by (apply Qnot_lt_le; intros C'; apply Qlt_b_iff' in C'; congruence).
      apply Qle_shift_div_l; [lra|]. specialize (A2 q Hq). lra.
    + destruct X0 as [|x1 X1]; [|rewrite EX; cbn; lia]. exfalso. apply (Nz 0); [rewrite EX; cbn; lia|]. unfold s, distance_sum. rewrite EX. cbn. rewrite Hself. reflexivity.
Qed.

Lemma sym_tau_ok X cf x t : length cf = length X -> Forall (Qle 0) cf -> Forall (fun i => i < length X) t -> t <> [] ->
  exists tau, sym_tau dist X cf x t = Ok tau /\ closeness_mean dist X cf x t tau /\ (0 <= tau)%Q.
Proof.
  intros Hl Hp Ht Hne. unfold sym_tau. rewrite (mapM_map _ (fun i => (nth i cf 0 / (dist x (nth i X []) + 1))%Q)).
  2: { intros i Hi. rewrite Forall_forall in Ht. specialize (Ht i Hi). rewrite (get_nth 0%Q cf i) by lia. cbn [bind]. rewrite (get_nth [] X i) by lia. reflexivity. }
  cbn [bind]. unfold qmean. destruct (map _ t) as [|q qs] eqn:E; [destruct t; [congruence|discriminate]|]. rewrite <- E. eexists. split; [reflexivity|].
  rewrite map_length. split; [reflexivity|].
  assert (L : (0 < inject_Z (Z.of_nat (length t)))%Q) by (destruct t; [congruence|unfold Qlt, inject_Z; cbn; lia]).
  apply Qle_shift_div_l; [exact L|]. rewrite Qmult_0_l. apply qsum_nonneg. apply Forall_forall. intros v Hv. apply in_map_iff in Hv. destruct Hv as (i & <- & Hi).
  rewrite Forall_forall in Ht. specialize (Ht i Hi). rewrite Forall_forall in Hp. assert (0 <= nth i cf 0)%Q by (apply Hp, nth_In; lia).
  pose proof (Hdist x (nth i X [])). apply Qle_shift_div_l; lra.
Qed.

(** One mean per row. *)
Lemma taus_ok X cf Y (ts : list (list nat)) (g : list nat -> list nat) : length cf = length X -> Forall (Qle 0) cf -> length ts = length Y ->
  Forall (fun t => Forall (fun i => i < length X) (g t) /\ g t <> []) ts ->
  exists tau, mapM (fun xt => sym_tau dist X cf (fst xt) (g (snd xt))) (combine Y ts) = Ok tau /\ length tau = length Y /\ Forall (Qle 0) tau /\
    forall b, b < length Y -> closeness_mean dist X cf (nth b Y []) (g (nth b ts [])) (nth b tau 0%Q).
Proof.
  intros Hl Hp. revert ts. induction Y as [|x Y IH]; intros [|t ts] L F; try discriminate.
  - exists []. split; [reflexivity|]. split; [reflexivity|]. split; [constructor|]. intros b Hb. cbn in Hb. lia.
  - inversion F as [|? ? [F1 F2] F3]; subst. destruct (IH ts ltac:(now injection L) F3) as (tau & E & L' & P' & H).
    destruct (sym_tau_ok X cf x (g t) Hl Hp F1 F2) as (q & Eq & Hq & Hq0). exists (q :: tau). cbn [combine mapM fst snd]. rewrite Eq. cbn [bind]. rewrite E.
    split; [reflexivity|]. split; [cbn; lia|]. split; [now constructor|]. intros [|b] Hb; [exact Hq|]. cbn in Hb. cbn [nth]. apply H. lia.
Qed.

Lemma n_true_where m : n_true m = length (where_ m).
Proof. symmetry. unfold where_. apply select_true_length. rewrite seq_length. lia. Qed.

Lemma above_pass c tmin tmaj b : length tmin = length tmaj ->
  nth_error (above c tmin tmaj) b = Some true <-> b < length tmin /\ (nth b tmaj 0 * c <= nth b tmin 0)%Q.
Proof.
  intros L. unfold above. split.
  - intros H. assert (Hb : b < length (map2 (fun a b0 => Qle_bool (b0 * c) a) tmin tmaj)) by (apply nth_error_Some; congruence).
    pose proof Hb as Hb'. rewrite map2_length in Hb'. rewrite (nth_error_nth' _ false) in H by exact Hb. injection H as H.
    rewrite (map2_nth _ _ _ b 0%Q 0%Q false) in H by lia. apply Qle_bool_iff in H. split; [lia|exact H].
  - intros [Hb H]. rewrite (nth_error_nth' _ false) by (rewrite map2_length; lia). f_equal. rewrite (map2_nth _ _ _ b 0%Q 0%Q false) by lia. now apply Qle_bool_iff.
Qed.

Lemma positions_above c c' tmin tmaj : length tmin = length tmaj -> (c == c')%Q ->
  positions (fun b => b < length tmin /\ (nth b tmaj 0 * c' <= nth b tmin 0)%Q) (where_ (above c tmin tmaj)).
Proof.
  intros L E. eapply positions_ext; [|apply positions_where]. intros b. rewrite above_pass by exact L. split; intros [H1 H2]; (split; [exact H1|]).
  - rewrite <- E. exact H2.
  - rewrite E. exact H2.
Qed.

Lemma sym_cutoff_ok c0 tmin tmaj : length tmin = length tmaj -> 2 <= length tmin -> Forall (Qle 0) tmin ->
  let passes := fun i b => b < length tmin /\ (nth b tmaj 0 * (c0 * (1 - inject_Z (Z.of_nat i) / 10)) <= nth b tmin 0)%Q in
  forall fuel i c, fuel + i = 10 -> (c == c0 * (1 - inject_Z (Z.of_nat i) / 10))%Q -> (forall i' l, i' < i -> positions (passes i') l -> length l <= 1) ->
  exists c' i', sym_cutoff fuel (c0 / 10) c tmin tmaj = Ok c' /\ i' <= 10 /\ positions (passes i') (where_ (above c' tmin tmaj)) /\ 2 <= length (where_ (above c' tmin tmaj)) /\
    forall j l, j < i' -> positions (passes j) l -> length l <= 1.
Proof.
  intros L L2 P0 passes. induction fuel as [|fuel IH]; intros i c Hi Hc Hb; cbn [sym_cutoff]; rewrite n_true_where.
  - assert (Hall : where_ (above c tmin tmaj) = seq 0 (length tmin)).
    { apply (positions_unique (passes i) (fun b => b < length tmin)).
      - now apply positions_above.
      - split; [apply NoiseFacts.seq_StronglySorted|]. intros b. rewrite in_seq. lia.
      - intros b. unfold passes. split; [tauto|]. intros Hb'. split; [exact Hb'|]. replace i with 10 by lia.
        assert (E : (nth b tmaj 0 * (c0 * (1 - inject_Z (Z.of_nat 10) / 10)) == 0)%Q) by (cbn; field). rewrite E.
        rewrite Forall_forall in P0. apply P0, nth_In, Hb'. }
    destruct (Nat.leb_spec (length (where_ (above c tmin tmaj))) 1) as [C|C]; [rewrite Hall, seq_length in C; lia|].
    exists c, i. split; [reflexivity|]. split; [lia|]. split; [now apply positions_above|]. split; [lia|exact Hb].
  - destruct (Nat.leb_spec (length (where_ (above c tmin tmaj))) 1) as [C|C].
    + apply (IH (S i)); [lia| |].
      * rewrite Hc. rewrite Nat2Z.inj_succ. unfold Z.succ. rewrite inject_Z_plus. field.
      * intros i' l Hi' Hl. destruct (Nat.eq_dec i' i) as [->|N]; [|apply (Hb i'); [lia|exact Hl]].
        assert (l = where_ (above c tmin tmaj)) as ->; [|exact C]. exact (positions_unique (passes i) (passes i) _ _ Hl (positions_above c _ tmin tmaj L Hc) (fun b => iff_refl _)).
    + exists c, i. split; [reflexivity|]. split; [lia|]. split; [now apply positions_above|]. split; [lia|exact Hb].
Qed.

Definition poor (p : sym_params) (Zm Zj : list row) : Prop :=
  degenerate dist Zm \/ degenerate dist Zj \/ length Zj < Nat.min (sy_k_neighbors p) (length Zm - 1).

Lemma sym_taus_ok p Zm Zj : 1 <= sy_k_neighbors p ->
  (sym_taus dist nn p Zm Zj = Err ValueError /\ poor p Zm Zj) \/
  (~ poor p Zm Zj /\ exists tmin tmaj cf cf' T T', sym_taus dist nn p Zm Zj = Ok (tmin, tmaj, cf) /\
     let n := length Zm in let k := Nat.min (sy_k_neighbors p) (n - 1) in
     2 <= n /\ Forall (Qle 0) cf /\ Forall (Qle 0) tmin /\ Forall (Qle 0) tmaj /\
     nearest_table dist Zm Zm n T /\ nearest_table dist Zj Zm k T' /\ closeness_of dist Zm cf /\ closeness_of dist Zj cf' /\
     length tmin = n /\ length tmaj = n /\
     forall b, b < n -> closeness_mean dist Zm cf (nth b Zm []) (firstn k (tl (nth b T []))) (nth b tmin 0)%Q /\
                        closeness_mean dist Zj cf' (nth b Zm []) (nth b T' []) (nth b tmaj 0)%Q).
Proof.
  intros Hk. unfold sym_taus. destruct (closeness_ok Zm) as [[E H]|(cf & E & Nd & Hcf & Pcf & L2)]; rewrite E; cbn [bind]; [left; split; [reflexivity|now left]|].
  destruct (Hnn Zm Zm (length Zm) (le_n _)) as (T & ET & HT). rewrite ET. cbn [bind].
  destruct (closeness_ok Zj) as [[E' H]|(cf' & E' & Nd' & Hcf' & Pcf' & L2')]; rewrite E'; cbn [bind]; [left; split; [reflexivity|right; now left]|].
  set (k := Nat.min (sy_k_neighbors p) (length Zm - 1)).
  destruct (nearest_table_shape _ _ _ _ _ HT) as (LT & RT & BT).
  destruct (taus_ok Zm cf Zm T (fun t => firstn k (tl t))) as (tmin & E1 & L1 & P1 & H1); [apply Hcf|exact Pcf|exact LT| |].
  { unfold rect in RT. rewrite Forall_forall in *. intros t Ht. specialize (RT t Ht). specialize (BT t Ht). split.
    - apply Forall_forall. intros i Hi. apply firstn_In in Hi. rewrite Forall_forall in BT. apply BT. destruct t; [destruct Hi|now right].
    - intros C. apply (f_equal (@length nat)) in C. rewrite firstn_length in C. destruct t as [|a t]; [cbn in RT; lia|]. cbn in RT, C. unfold k in C. lia. }
  cbn beta in E1. rewrite E1. cbn [bind]. destruct (Nat.ltb_spec (length Zj) k) as [Hlt|Hge]; [left; split; [reflexivity|right; right; exact Hlt]|].
  destruct (Hnn Zj Zm k Hge) as (T' & ET' & HT'). rewrite ET'. cbn [bind].
  destruct (nearest_table_shape _ _ _ _ _ HT') as (LT' & RT' & BT').
  destruct (taus_ok Zj cf' Zm T' (fun t => t)) as (tmaj & E2 & L3 & P3 & H3); [apply Hcf'|exact Pcf'|exact LT'| |].
  { unfold rect in RT'. rewrite Forall_forall in *. intros t Ht. specialize (RT' t Ht). specialize (BT' t Ht). split; [exact BT'|].
    intros ->. cbn in RT'. unfold k in RT'. lia. }
  cbn beta in E2. rewrite E2. cbn [bind]. right. split.
  { intros [C|[C|C]]; [contradiction|contradiction|]. fold k in C. lia. }
  exists tmin, tmaj, cf, cf', T, T'. split; [reflexivity|]. cbv zeta. fold k. split; [exact L2|]. split; [exact Pcf|]. split; [exact P1|]. split; [exact P3|]. split; [exact HT|]. split; [exact HT'|].
  split; [exact Hcf|]. split; [exact Hcf'|]. split; [exact L1|]. split; [exact L3|]. intros b Hb. split; [now apply H1|now apply H3].
Qed.

Lemma sym_selection_ok p Zm Zj : 1 <= sy_k_neighbors p ->
  (sym_selection dist nn p Zm Zj = Err ValueError /\ poor p Zm Zj) \/
  (~ poor p Zm Zj /\ exists cf tmin tmaj sel, sym_selected dist p Zm Zj cf tmin tmaj sel /\ Forall (Qle 0) cf /\
     let phi := fun b => ((nth b tmin 0 + 1) / (nth b tmaj 0 + 1))%Q in
     let even := forall a b, In a sel -> In b sel -> (phi a == phi b)%Q in
     (even /\ sym_selection dist nn p Zm Zj = Err ValueError) \/
     (~ even /\ exists prob, sym_selection dist nn p Zm Zj = Ok (prob, map (fun b => nth b cf 0%Q) sel, map (fun b => nth b Zm []) sel) /\
        length prob = length sel /\ Forall (Qle 0) prob /\ (qsum prob == 1)%Q /\
        forall a, a < length sel -> (0 < nth a prob 0)%Q -> exists q, In q sel /\ (phi q < phi (nth a sel 0%nat))%Q)).
Proof.
  intros Hk. unfold sym_selection. destruct (sym_taus_ok p Zm Zj Hk) as [[E H]|(Np & tmin & tmaj & cf & cf' & T & T' & E & H)]; rewrite E; cbn [bind]; [left; auto|].
  right. split; [exact Np|]. cbv zeta in H. destruct H as (L2 & P0 & P1 & P2 & HT & HT' & Hcf & Hcf' & L1 & L3 & Htau).
  destruct (sym_cutoff_ok (sy_cutoff p) tmin tmaj ltac:(lia) ltac:(lia) P1 10 0 (sy_cutoff p)) as (c & i & Ec & Hi & Hpos & Hlen & Hbefore); [reflexivity|cbn; field|lia|].
  rewrite Ec. cbn [bind]. set (mask := above c tmin tmaj) in *. set (sel := where_ mask) in *.
  assert (Lm : length mask = length Zm) by (unfold mask, above; rewrite map2_length; lia).
  exists cf, tmin, tmaj, sel. split.
  { cbv zeta delta [sym_selected] beta. exists T, T', cf', i. rewrite L1 in Hpos, Hbefore. repeat (split; [assumption|]). assumption. }
  split; [exact P0|]. cbv zeta. set (phi := fun b => ((nth b tmin 0 + 1) / (nth b tmaj 0 + 1))%Q).
  assert (Ephi : map2 (fun a b => (a + 1) / (b + 1))%Q (select mask tmin) (select mask tmaj) = map phi sel).
  { rewrite !(select_where 0%Q) by lia. fold sel. clear. induction sel as [|b l IH]; [reflexivity|]. cbn. now rewrite IH. }
  rewrite Ephi. set (lo := col_min (map phi sel)). rewrite map_map.
  assert (Nsel : map phi sel <> []) by (destruct sel; [cbn in Hlen; lia|discriminate]).
  destruct (col_min_spec _ Nsel) as [M1 M2]. fold lo in M1, M2. apply in_map_iff in M1. destruct M1 as (q0 & Eq0 & Hq0).
  set (ex := map (fun x => (phi x - lo)%Q) sel).
  assert (Pex : Forall (Qle 0) ex).
  { apply Forall_forall. intros v Hv. apply in_map_iff in Hv. destruct Hv as (b & <- & Hb). assert (lo <= phi b)%Q by (apply M2, in_map, Hb). lra. }
  destruct (Qeq_bool (qsum ex) 0) eqn:Z.
  - left. split; [|reflexivity]. apply Qeq_bool_iff in Z. pose proof (qsum_zero_all _ Pex Z) as Hz. rewrite Forall_forall in Hz.
    assert (G : forall a, In a sel -> (phi a == lo)%Q).
    { intros a Ha. assert (phi a - lo == 0)%Q by (apply Hz; unfold ex; apply (in_map (fun x => (phi x - lo)%Q)), Ha). lra. }
    intros a b Ha Hb. exact (Qeq_trans _ _ _ (G a Ha) (Qeq_sym _ _ (G b Hb))).
  - right. assert (Z' : ~ (qsum ex == 0)%Q) by (intros C; apply Qeq_bool_iff in C; congruence). pose proof (qsum_pos_nonzero _ Pex Z') as Hs. split.
    + intros G. apply Z'. assert (Hz : Forall (fun v => v == 0)%Q ex).
      { apply Forall_forall. intros v Hv. apply in_map_iff in Hv. destruct Hv as (b & <- & Hb). pose proof (G b q0 Hb Hq0) as Gb. fold (phi b) (phi q0) in Gb. rewrite Eq0 in Gb. change (phi b - lo == 0)%Q. clearbody phi lo. lra. }
      clear - Hz. induction Hz as [|v l Hv _ IH]; [reflexivity|]. rewrite qsum_cons, Hv, IH. reflexivity.
    + eexists. split; [rewrite (select_where 0%Q mask cf) by (rewrite Lm; symmetry; apply Hcf); rewrite (select_where [] mask Zm) by lia; reflexivity|].
      assert (Lex : length ex = length sel) by apply map_length.
      split; [now rewrite map_length|]. split; [apply Forall_forall; intros v Hv; apply in_map_iff in Hv; destruct Hv as (x & <- & Hx); rewrite Forall_forall in Pex; specialize (Pex x Hx); apply Qle_shift_div_l; lra|].
      split; [rewrite qsum_div by exact Z'; field; exact Z'|].
      intros a Ha Hpa. exists q0. split; [exact Hq0|]. change (phi q0 < phi (nth a sel 0%nat))%Q. rewrite Eq0. rewrite (nth_map_in _ 0%Q) in Hpa by lia.
      unfold ex in Hpa at 1. rewrite (nth_map_in _ 0) in Hpa by exact Ha. set (pa := phi (nth a sel 0)) in *.
      destruct (Qlt_le_dec lo pa) as [C|C]; [exact C|]. exfalso.
      assert ((pa - lo) / qsum ex <= 0)%Q by (apply Qle_shift_div_r; [exact Hs|lra]). lra.
Qed.

(** ** The new rows *)

Lemma sym_row_ok dim X cf chosen beta : length cf = length X -> Forall (Qle 0) cf -> Forall (fun i => i < length X) chosen -> length beta = length chosen -> Forall (Qlt 0) beta ->
  let ws := sym_weights cf beta chosen in
  Forall (Qle 0) ws /\
  (((forall i, In i chosen -> (nth i cf 0 == 0)%Q) /\ sym_row dim X cf chosen beta = Err NotANumber) \/
   (~ (forall i, In i chosen -> (nth i cf 0 == 0)%Q) /\ (0 < qsum ws)%Q /\ exists z, sym_row dim X cf chosen beta = Ok z /\ weighted dim (map (fun i => nth i X []) chosen) ws z)).
Proof.
  intros L P0 Hc Lb Pb ws. unfold sym_row. rewrite (gather_map []) by exact Hc. cbn [bind]. rewrite (gather_map 0%Q) by (rewrite L; exact Hc). cbn [bind].
  rewrite map2_map_r. change (map2 (fun a b => (a * nth b cf 0)%Q) beta chosen) with ws.
  assert (Lw : length ws = length chosen) by (unfold ws, sym_weights; rewrite map2_length; lia).
  assert (Nw : forall q, q < length chosen -> nth q ws 0%Q = (nth q beta 0 * nth (nth q chosen 0%nat) cf 0)%Q).
  { intros q Hq. unfold ws, sym_weights. rewrite (map2_nth _ _ _ q 0%Q 0 0%Q) by lia. reflexivity. }
  assert (Pq : forall q, q < length chosen -> (0 < nth q beta 0)%Q /\ (0 <= nth (nth q chosen 0%nat) cf 0)%Q).
  { intros q Hq. rewrite Forall_forall in Pb, P0, Hc. split; [apply Pb, nth_In; lia|]. apply P0, nth_In. rewrite L. apply Hc, nth_In, Hq. }
  assert (Pw : Forall (Qle 0) ws).
  { apply Forall_forall. intros v Hv. apply (In_nth _ _ 0%Q) in Hv. destruct Hv as (q & Hq & <-). rewrite Nw by lia. destruct (Pq q ltac:(lia)). nra. }
  split; [exact Pw|]. destruct (Qeq_bool (qsum ws) 0) eqn:Z.
  - left. split; [|reflexivity]. apply Qeq_bool_iff in Z. pose proof (qsum_zero_all _ Pw Z) as Hz. rewrite Forall_forall in Hz.
    intros i Hi. apply (In_nth _ _ 0) in Hi. destruct Hi as (q & Hq & <-). assert (E : (nth q ws 0 == 0)%Q) by (apply Hz, nth_In; lia).
    rewrite Nw in E by exact Hq. destruct (Pq q Hq) as [H1 _]. apply Qmult_integral in E. destruct E as [E|E]; [lra|exact E].
  - right. assert (Z' : ~ (qsum ws == 0)%Q) by (intros C; apply Qeq_bool_iff in C; congruence). pose proof (qsum_pos_nonzero _ Pw Z') as Hs. split; [|split; [exact Hs|]].
    + intros G. apply Z'. assert (Hz : Forall (fun v => v == 0)%Q ws).
      { apply Forall_forall. intros v Hv. apply (In_nth _ _ 0%Q) in Hv. destruct Hv as (q & Hq & <-). rewrite Nw by lia. rewrite G by (apply nth_In; lia). ring. }
      clear - Hz. induction Hz as [|v l Hv _ IH]; [reflexivity|]. rewrite qsum_cons, Hv, IH. reflexivity.
    + eexists. split; [reflexivity|]. split; [now rewrite map_length, seq_length|]. intros j Hj. rewrite (nth_map_in _ 0) by now rewrite seq_length. rewrite seq_nth by exact Hj. cbn [Nat.add].
      set (S := qsum ws) in *. clearbody ws S. clear - Lw Z'. revert ws Lw. induction chosen as [|i l IH]; intros [|w ws] Lw; try discriminate; cbn [map map2].
      * cbn. field. exact Z'.
      * rewrite !qsum_cons. rewrite (IH ws) by now injection Lw. field. exact Z'.
Qed.

Lemma weighted_back d mm P ws z : length mm = d -> Forall (fun lr => ~ (snd lr == 0)%Q) mm -> rect d P -> length ws = length P -> (0 < qsum ws)%Q ->
  weighted d (map (mm_transform mm) P) ws z -> weighted d P ws (mm_inverse mm z).
Proof.
  intros Hm Hr HP W1 W3 (Hs & W4). split.
  - unfold mm_inverse. rewrite map2_length. lia.
  - intros j Hj. rewrite mm_inverse_nth by lia. rewrite W4 by assumption. set (lr := nth j mm (0, 0)%Q).
    assert (Hne : ~ (snd lr == 0)%Q) by (rewrite Forall_forall in Hr; apply Hr, nth_In; lia).
    rewrite map2_map_r.
    assert (E : map2 (fun w x => w * nth j (mm_transform mm x) 0)%Q ws P =
                map2 (fun w v => w * ((v - fst lr) / snd lr))%Q ws (map (fun x => nth j x 0%Q) P)).
    { clear W3 W4. rewrite map2_map_r. revert ws W1. induction P as [|x P IH]; intros [|w ws] W1; try discriminate; cbn; [reflexivity|].
      inversion HP; subst. rewrite mm_transform_nth by congruence. fold lr. f_equal. apply IH; [assumption|]. now injection W1. }
    rewrite E. rewrite <- (map2_map_r (fun w v => w * v)%Q (fun x => nth j x 0%Q)).
    rewrite <- (affine_sum (fst lr) (snd lr)) by (rewrite ?map_length; assumption). field. lra.
Qed.

(** A [mapM] that fails with one exception only. *)
Lemma mapM_all_or {A B} (bad : A -> Prop) (P : A -> B -> Prop) (f : A -> res B) e l :
  (forall a, In a l -> (bad a /\ f a = Err e) \/ (~ bad a /\ exists b, f a = Ok b /\ P a b)) ->
  ((exists a, In a l /\ bad a) /\ mapM f l = Err e) \/ (~ (exists a, In a l /\ bad a) /\ exists r, mapM f l = Ok r /\ Forall2 P l r).
Proof.
  induction l as [|a l IH]; intros H; [right; split; [intros (? & [] & _)|]; exists []; split; [reflexivity|constructor]|]. cbn [mapM].
  destruct (H a (or_introl eq_refl)) as [[Hb E]|(Hb & b & E & Hp)]; rewrite E; cbn [bind]; [left; split; [exists a; split; [now left|exact Hb]|reflexivity]|].
  destruct (IH (fun a' Ha' => H a' (or_intror Ha'))) as [[(a' & Ha' & Hb') E']|(Hn & r & E' & HF)]; rewrite E'; cbn [bind].
  - left. split; [|reflexivity]. exists a'. split; [now right|exact Hb'].
  - right. split; [intros (a' & [<-|Ha'] & Hb'); [contradiction|apply Hn; eauto]|]. eexists. split; [reflexivity|]. now constructor.
Qed.

Lemma concat_head (T : list (list nat)) t rest k : T = t :: rest -> length t = k -> forall i, i < k -> nth i (concat T) 0 = nth i t 0.
Proof. intros -> L i Hi. cbn. rewrite app_nth1 by lia. reflexivity. Qed.

Lemma sym_synthesis_ok p rs dim (Zm : list row) cf (sel : list nat) prob phi n : rngs_ok rs -> length cf = length Zm -> Forall (Qle 0) cf ->
  NoDup sel -> Forall (fun b => b < length Zm) sel -> 2 <= length sel ->
  length prob = length sel -> Forall (Qle 0) prob -> (qsum prob == 1)%Q ->
  (forall a, a < length sel -> (0 < nth a prob 0)%Q -> exists q, In q sel /\ (phi q < phi (nth a sel 0%nat))%Q) ->
  let m := sy_m_neighbors p in
  let out := sym_synthesis nn dirichlet p rs dim prob (map (fun b => nth b cf 0%Q) sel) (map (fun b => nth b Zm []) sel) n in
  (m < 2 \/ length sel < m + 4 -> out = Err ValueError) /\
  (2 <= m -> m + 4 <= length sel -> exists t Cs, let Zs := map (fun b => nth b Zm []) sel in
     nearest_table dist Zs [nth 0 Zs []] (m + 3) [t] /\ length Cs = n /\ Forall (sym_drawn m phi sel t) Cs /\
     let zero := exists c, In c Cs /\ forall i, In i c -> (nth i cf 0 == 0)%Q in
     (zero /\ out = Err NotANumber) \/
     (~ zero /\ exists S, out = Ok S /\ Forall2 (fun ic z => let ws := sym_weights cf (dirichlet (m + 1) (fst ic)) (snd ic) in
        Forall (Qle 0) ws /\ (0 < qsum ws)%Q /\ length (snd ic) = m + 1 /\ Forall (fun b => b < length Zm) (snd ic) /\ weighted dim (map (fun b => nth b Zm []) (snd ic)) ws z) (combine (seq 0 n) Cs) S)).
Proof.
  intros Hr Lcf P0 Nsel Bsel Lsel Lp Pp Sp Hphi m out. unfold out, sym_synthesis. clear out.
  set (Zs := map (fun b => nth b Zm []) sel). assert (LZ : length Zs = length sel) by apply map_length.
  set (cfs := map (fun b => nth b cf 0%Q) sel).
  assert (Eref : exists reference, np_choice (rs 0) (seq 0 (length prob)) n prob = Ok reference /\ length reference = n /\
     Forall (fun a => a < length sel /\ (0 < nth a prob 0)%Q) reference).
  { unfold np_choice. replace (forallb (fun q => Qle_bool 0 q) prob) with true.
    2: { symmetry. apply forallb_forall. intros q Hq. apply Qle_bool_iff. rewrite Forall_forall in Pp. now apply Pp. }
    destruct (rng_choice _ (Hr 0) prob n Pp Sp) as [L F].
    assert (F' : Forall (fun i => i < length prob) (r_choice (rs 0) prob n)).
    { eapply Forall_impl; [|exact F]. intros i (q & Hq & _). apply nth_error_Some. congruence. }
    rewrite (gather_map 0) by (rewrite seq_length; exact F'). eexists. split; [reflexivity|]. split; [now rewrite map_length|].
    apply Forall_forall. intros c Hc. apply in_map_iff in Hc. destruct Hc as (i & <- & Hi). rewrite Forall_forall in F, F'. specialize (F' i Hi). rewrite seq_nth by exact F'. cbn [Nat.add].
    split; [lia|]. destruct (F i Hi) as (q & Hq & Hq'). rewrite (nth_error_nth _ _ 0%Q Hq). exact Hq'. }
  destruct Eref as (reference & Er & Lr & Fr). rewrite Er. cbn [bind]. rewrite LZ. fold m. set (m' := Nat.min m (length sel - 4)).
  destruct (Nat.ltb_spec m' 2) as [Hlt|Hge]; [split; [reflexivity|unfold m' in Hlt; lia]|].
  assert (Hm3 : m' + 3 <= length Zs) by (unfold m' in *; lia).
  destruct (Hnn Zs Zs (m' + 3) Hm3) as (T & ET & HT). rewrite ET. cbn [bind].
  destruct (nearest_table_shape _ _ _ _ _ HT) as (LT & RT & BT).
  set (nb := combinations m' (seq 0 (m' + 3))).
  assert (Hnb : forall c, In c nb -> length c = m' /\ StronglySorted lt c /\ Forall (fun q => q < m' + 3) c).
  { intros c Hc. apply combinations_seq in Hc. destruct Hc as (C1 & C2 & C3). repeat split; auto. eapply Forall_impl; [|exact C3]. intros q Hq. cbn in Hq. lia. }
  assert (Pnb : 0 < length nb).
  { assert (Hin : In (seq 0 m') nb).
    { apply combinations_seq. split; [apply seq_length|]. split; [apply NoiseFacts.seq_StronglySorted|]. apply Forall_forall. intros q Hq. apply in_seq in Hq. lia. }
    destruct nb; [destruct Hin|cbn; lia]. }
  destruct (choice_range_ok (rs 1) (length nb) n (Hr 1) Pnb) as (which & Ew & Lw & Fw). rewrite Ew. cbn [bind].
  rewrite (gather_map []) by exact Fw. cbn [bind]. set (sets := map _ which).
  assert (Lsets : length sets = n) by (unfold sets; now rewrite map_length).
  assert (Hsets : forall s, In s sets -> In s nb).
  { intros s Hs. apply in_map_iff in Hs. destruct Hs as (i & <- & Hi). rewrite Forall_forall in Fw. apply nth_In, Fw, Hi. }
  destruct T as [|t rest] eqn:EqT; [cbn in LT; lia|]. rewrite <- EqT in *.
  assert (Lt : length t = m' + 3) by (unfold rect in RT; rewrite Forall_forall in RT; apply RT; rewrite EqT; now left).
  assert (Ht : nearest_table dist Zs [nth 0 Zs []] (m' + 3) [t]).
  { apply (nearest_table_nth dist Zs Zs (m' + 3) T 0); [exact HT| |rewrite EqT; reflexivity]. apply nth_error_nth'. lia. }
  assert (Bt : Forall (fun i => i < length sel) t /\ NoDup t).
  { unfold nearest_table in Ht. inversion Ht as [|? ? ? ? (A1 & A2 & A3 & _) _]; subst. rewrite LZ in A3. auto. }
  assert (Echosen : mapM (gather (concat T)) sets = Ok (map (map (fun i => nth i t 0)) sets)).
  { apply WrapFacts2.mapM_map. intros s Hs. apply Hsets, Hnb in Hs. destruct Hs as (_ & _ & Hs).
    assert (Hc : m' + 3 <= length (concat T)) by (rewrite EqT; cbn; rewrite app_length; lia).
    rewrite (gather_map 0); [|eapply Forall_impl; [|exact Hs]; intros i Hi; cbn in Hi; lia]. f_equal. apply map_ext_in. intros i Hi. rewrite Forall_forall in Hs. specialize (Hs i Hi).
    now apply (concat_head T t rest (m' + 3)). }
  rewrite Echosen. cbn [bind]. destruct (Nat.eqb_spec m' m) as [Em|Nm]; cbn [negb]; [|split; [reflexivity|unfold m' in Nm; lia]].
  split; [unfold m' in Em, Hge; lia|]. intros _ _. rewrite Em in *.
  set (chosen := map (map (fun i => nth i t 0)) sets).
  assert (Lch : length chosen = n) by (unfold chosen; now rewrite map_length).
  (* positions among the selected rows, then among all rows *)
  set (raw := fun sr : list nat * nat => fst sr ++ [snd sr]).
  exists t, (map (fun sr => map (fun a => nth a sel 0) (raw sr)) (combine chosen reference)). cbv zeta. split; [exact Ht|].
  split; [rewrite map_length, combine_length; lia|].
  assert (Hraw : forall sr, In sr (combine chosen reference) -> length (fst sr) = m /\ NoDup (fst sr) /\ incl (fst sr) t /\ snd sr < length sel /\ (0 < nth (snd sr) prob 0)%Q).
  { intros [s r] Hsr. cbn [fst snd]. pose proof (in_combine_r _ _ _ _ Hsr) as H1. apply in_combine_l in Hsr.
    apply in_map_iff in Hsr. destruct Hsr as (s0 & <- & Hs0). apply Hsets, Hnb in Hs0. destruct Hs0 as (S1 & S2 & S3).
    split; [rewrite map_length; exact S1|]. rewrite Forall_forall in S3, Fr. split; [|split; [|exact (Fr r H1)]].
    - assert (N0 : NoDup s0) by (clear - S2; induction S2 as [|a l _ IH Hf]; constructor; auto; intros C; rewrite Forall_forall in Hf; specialize (Hf a C); lia).
      apply NoDup_map_in; [|exact N0]. intros a b Ha Hb E. apply (proj1 (NoDup_nth t 0) (proj2 Bt)) in E; [exact E|rewrite Lt; auto|rewrite Lt; auto].
    - intros x Hx. apply in_map_iff in Hx. destruct Hx as (i & <- & Hi). apply nth_In. rewrite Lt. auto. }
  assert (Hrawb : forall sr, In sr (combine chosen reference) -> Forall (fun a => a < length sel) (raw sr)).
  { intros sr Hsr. destruct (Hraw sr Hsr) as (_ & _ & R1 & R2 & _). unfold raw. apply Forall_app. split; [|now constructor].
    apply Forall_forall. intros a Ha. destruct Bt as [Bt _]. rewrite Forall_forall in Bt. apply Bt, R1, Ha. }
  split.
  { apply Forall_forall. intros c Hc. apply in_map_iff in Hc. destruct Hc as (sr & <- & Hsr). destruct (Hraw sr Hsr) as (R1 & R2 & R3 & R4 & R5).
    exists (map (fun a => nth a sel 0) (fst sr)), (nth (snd sr) sel 0). split; [unfold raw; now rewrite map_app|]. split; [now rewrite map_length|].
    split; [|split; [intros x Hx; apply in_map_iff in Hx; destruct Hx as (a & <- & Ha); apply (in_map (fun a => nth a sel 0)), R3, Ha|split; [now apply nth_In|]]].
    - apply NoDup_map_in; [|exact R2]. destruct Bt as [Bt _]. rewrite Forall_forall in Bt.
      intros a b Ha Hb E. apply (proj1 (NoDup_nth sel 0) Nsel) in E; [exact E|apply Bt, R3, Ha|apply Bt, R3, Hb].
    - apply Hphi; assumption. }
  assert (Lcfs : length cfs = length Zs) by (unfold cfs; rewrite map_length; lia).
  assert (Pcfs : Forall (Qle 0) cfs).
  { apply Forall_forall. intros v Hv. apply in_map_iff in Hv. destruct Hv as (b & <- & Hb). rewrite Forall_forall in P0, Bsel. apply P0, nth_In. rewrite Lcf. apply Bsel, Hb. }
  assert (Ncfs : forall a, a < length sel -> nth a cfs 0%Q = nth (nth a sel 0) cf 0%Q) by (intros a Ha; unfold cfs; now rewrite (nth_map_in _ 0) by exact Ha).
  assert (NZs : forall a, a < length sel -> nth a Zs [] = nth (nth a sel 0) Zm []) by (intros a Ha; unfold Zs; now rewrite (nth_map_in _ 0) by exact Ha).
  set (f := fun crb : nat * (list nat * nat) => sym_row dim Zs cfs (fst (snd crb) ++ [snd (snd crb)]) (dirichlet (m + 1) (fst crb))).
  set (bad := fun crb : nat * (list nat * nat) => forall i, In i (map (fun a => nth a sel 0) (raw (snd crb))) -> (nth i cf 0 == 0)%Q).
  set (P := fun (crb : nat * (list nat * nat)) z => let c := map (fun a => nth a sel 0) (raw (snd crb)) in let ws := sym_weights cf (dirichlet (m + 1) (fst crb)) c in
        Forall (Qle 0) ws /\ (0 < qsum ws)%Q /\ length c = m + 1 /\ Forall (fun b => b < length Zm) c /\ weighted dim (map (fun b => nth b Zm []) c) ws z).
  assert (Hf : forall crb, In crb (combine (seq 0 n) (combine chosen reference)) -> (bad crb /\ f crb = Err NotANumber) \/ (~ bad crb /\ exists z, f crb = Ok z /\ P crb z)).
  { intros [i sr] Hin. apply in_combine_r in Hin. unfold f, bad, P. cbn [fst snd]. change (fst sr ++ [snd sr]) with (raw sr).
    pose proof (Hrawb sr Hin) as Hb. destruct (Hraw sr Hin) as (R1 & _). destruct (Hdir (m + 1) i) as [D1 D2].
    assert (Lraw : length (raw sr) = m + 1) by (unfold raw; rewrite app_length, R1; reflexivity).
    pose proof Hb as Hball. rewrite Forall_forall in Hball.
    assert (Ews : sym_weights cfs (dirichlet (m + 1) i) (raw sr) = sym_weights cf (dirichlet (m + 1) i) (map (fun a => nth a sel 0) (raw sr))).
    { unfold sym_weights. rewrite map2_map_r. clear - Hball Ncfs. generalize (dirichlet (m + 1) i). induction (raw sr) as [|a l IH]; intros [|b bs]; try reflexivity.
      cbn [map2]. rewrite Ncfs by (apply Hball; now left). f_equal. apply IH. intros; apply Hball. now right. }
    destruct (sym_row_ok dim Zs cfs (raw sr) (dirichlet (m + 1) i) Lcfs Pcfs) as [Q1 Q2]; [rewrite LZ; exact Hb|lia|exact D2|]. rewrite Ews in Q1, Q2.
    assert (Hbad : (forall a, In a (raw sr) -> (nth a cfs 0 == 0)%Q) <-> (forall i, In i (map (fun a => nth a sel 0) (raw sr)) -> (nth i cf 0 == 0)%Q)).
    { split; intros G.
      - intros b Hb'. apply in_map_iff in Hb'. destruct Hb' as (a & <- & Ha). rewrite <- Ncfs by now apply Hball. now apply G.
      - intros a Ha. rewrite Ncfs by now apply Hball. apply G. apply (in_map (fun a => nth a sel 0)), Ha. }
    destruct Q2 as [[Q2 Q3]|(Q2 & Q3 & z & Q4 & Q5)]; [left; split; [now apply Hbad|exact Q3]|]. right. split; [intros C; apply Q2, Hbad, C|].
    exists z. split; [exact Q4|]. split; [exact Q1|]. split; [exact Q3|]. split; [now rewrite map_length|]. split.
    - apply Forall_forall. intros b Hb'. apply in_map_iff in Hb'. destruct Hb' as (a & <- & Ha). rewrite Forall_forall in Bsel. apply Bsel, nth_In, Hball, Ha.
    - rewrite map_map. rewrite (map_ext_in (fun x => nth (nth x sel 0) Zm []) (fun a => nth a Zs [])); [exact Q5|]. intros a Ha. symmetry. now apply NZs, Hball. }
  assert (Ecomb : forall (A B : Type) (g : A -> B) (l : list A) (s : list nat), combine s (map g l) = map (fun ia => (fst ia, g (snd ia))) (combine s l)).
  { intros A B g l. induction l as [|a l IH]; intros [|s0 s]; cbn; try reflexivity. now rewrite IH. }
  destruct (mapM_all_or bad P f NotANumber _ Hf) as [[(crb & H1 & H2) E]|(H1 & S & E & HF)].
  - left. split; [|exact E]. destruct crb as [i sr]. apply in_combine_r in H1. eexists. split; [apply (in_map (fun sr => map (fun a => nth a sel 0) (raw sr))), H1|exact H2].
  - right. split.
    + intros (c & Hc & Hz). apply in_map_iff in Hc. destruct Hc as (sr & <- & Hsr). apply (In_nth _ _ ([], 0)) in Hsr. destruct Hsr as (q & Hq & Eq).
      apply H1. exists (q, sr). split; [|exact Hz]. rewrite <- Eq. rewrite combine_length in Hq.
      replace (q, nth q (combine chosen reference) ([], 0)) with (nth q (combine (seq 0 n) (combine chosen reference)) (0, ([], 0))).
      * apply nth_In. rewrite !combine_length, seq_length. lia.
      * rewrite combine_nth by (rewrite combine_length, seq_length; lia). rewrite seq_nth by lia. reflexivity.
    + exists S. split; [exact E|]. rewrite Ecomb. clear - HF. induction HF; cbn; constructor; auto.
Qed.

Lemma sorted_NoDup l : StronglySorted lt l -> NoDup l.
Proof. induction 1 as [|a l _ IH Hf]; constructor; auto. intros C. rewrite Forall_forall in Hf. specialize (Hf a C). lia. Qed.

Lemma symprod_ok p rs D mn mj n : rngs_ok rs -> wf_data (d_X D) (d_dim D) (d_y D) -> 0 < d_dim D -> is_minority (d_y D) mn mj ->
  asked (sy_proportion p) (d_y D) mn mj = Ok n -> 1 <= sy_k_neighbors p ->
  let out := symprod_sample dist nn sd dirichlet p rs D in
  (count_label (d_y D) mn <= 2 \/ n = 0%Z -> unchanged D out) /\
  (2 < count_label (d_y D) mn -> (0 < n)%Z -> symprod_result dist sd dirichlet p D mn mj n out).
Proof.
  intros Hr Hwf Hd Hmin Hn Hk out. unfold out, symprod_sample. clear out.
  destruct (sample_default (symprod_algorithm dist nn sd dirichlet p rs) D mn mj Hmin) as (st & Hst & ->).
  destruct (stats_labels _ _ _ _ Hst) as [El1 El2].
  destruct (Nat.leb_spec (count_label (d_y D) mn) 2) as [Hle|Hgt]; [split; [reflexivity|lia]|].
  unfold symprod_algorithm. rewrite (det_st_asked _ _ _ _ _ (proj1 Hmin) Hst), Hn. cbn [bind].
  pose proof (asked_some _ _ _ _ _ Hn). split.
  { intros [H'| ->]; [lia|]. reflexivity. }
  intros _ Hpos. destruct (Nat.eqb_spec (Z.to_nat n) 0) as [H0|H0]; [lia|]. destruct (Nat.eqb_spec (d_dim D) 0) as [H1|H1]; [lia|].
  rewrite El1, El2. destruct Hwf as [HX HL]. unfold sym_rows, symprod_result. set (all := rows_with mn (d_X D) (d_y D)). set (allj := rows_with mj (d_X D) (d_y D)). set (d := d_dim D) in *.
  assert (Ra : rect d all) by now apply rows_with_rect. assert (Rj : rect d allj) by now apply rows_with_rect.
  assert (La : length all = count_label (d_y D) mn) by now apply rows_with_length.
  set (K0 := remove_outliers sd p d all). set (K' := remove_outliers sd p d allj).
  pose proof (remove_outliers_ok p d all Hd Ra) as HK0. fold K0 in HK0. pose proof (remove_outliers_ok p d allj Hd Rj) as HK'. fold K' in HK'.
  set (K := match K0 with [] => all | _ => K0 end).
  assert (NK : K <> []) by (unfold K; destruct K0; [intros C; rewrite C in La; cbn in La; lia|discriminate]).
  assert (RK : rect d K) by (unfold K; pose proof (not_outlying_rect _ _ _ _ HK0 Ra); destruct K0; assumption).
  replace (match K with [] => allj | _ => K' end) with K' by (destruct K; [congruence|reflexivity]).
  set (mm := std_fit sd d (K ++ K')). set (f := mm_transform mm).
  destruct (std_standard sd d (K ++ K')) as (w & Hw & Hf). fold mm f in Hf.
  assert (Lmm : length mm = d) by apply std_fit_length.
  assert (Rmm : Forall (fun lr => ~ (snd lr == 0)%Q) mm) by apply std_fit_range.
  exists K0, K, K', w, f. split; [exact HK0|]. split; [unfold K; destruct K0; congruence|]. split; [unfold K; intros ->; reflexivity|]. split; [exact HK'|]. split; [exact Hw|]. split; [exact Hf|].
  cbv zeta. change (length K') with (length K').
  pose proof (sym_selection_ok p (map f K) (map f K') Hk) as Hsel. unfold poor in Hsel. rewrite !map_length in Hsel.
  destruct Hsel as [[E Hp]|(Np & cf & tmin & tmaj & sel & Hs & Pcf & Hphi)].
  { rewrite E. cbn [bind]. split; [reflexivity|]. intros C. contradiction. }
  split; [intros C; contradiction|]. intros _. exists cf, tmin, tmaj, sel. split; [exact Hs|]. cbv zeta in Hphi |- *.
  set (phi := fun b => ((nth b tmin 0 + 1) / (nth b tmaj 0 + 1))%Q) in *.
  destruct Hs as (T & T' & cf' & i & _ & _ & Hcf & _ & _ & _ & _ & _ & Hpos' & Hl2 & _). rewrite map_length in Hpos'.
  assert (Nsel : NoDup sel) by (apply sorted_NoDup, Hpos').
  assert (Bsel : Forall (fun b => b < length K) sel) by (apply (positions_bound _ _ _ Hpos'); tauto).
  destruct Hphi as [[He E]|(He & prob & E & Lp & Pp & Sp & Hpr)]; rewrite E; cbn [bind].
  { split; [reflexivity|]. intros C. contradiction. }
  destruct (sym_synthesis_ok p rs d (map f K) cf sel prob phi (Z.to_nat n)) as [S1 S2]; try assumption; [apply Hcf|now rewrite map_length|].
  split.
  { intros [C|C]; [contradiction|]. rewrite (S1 C). reflexivity. }
  intros _ G1 G2. destruct (S2 G1 G2) as (t & Cs & A1 & A2 & A3 & A4). exists t, Cs. split; [exact A1|]. split; [exact A2|]. split; [exact A3|].
  destruct A4 as [[Z E']|(Z & S & E' & HF)]; rewrite E'; [split; [reflexivity|contradiction]|]. split; [contradiction|]. intros _.
  exists (map (mm_inverse mm) S). split; [unfold extended; rewrite El1; reflexivity|].
  rewrite map_length in HF. clear - HF Lmm Rmm RK Hdir. induction HF as [|[q c] z l S (W1 & W2 & W3 & W4 & W5) _ IH]; cbn [map]; constructor; [|exact IH].
  cbn [fst snd] in *. split; [exact W1|]. split; [exact W2|]. apply weighted_back; [exact Lmm|exact Rmm| | |exact W2|].
  - unfold rect in *. rewrite Forall_forall in *. intros x Hx. apply in_map_iff in Hx. destruct Hx as (b & <- & Hb). apply RK, nth_In, W4, Hb.
  - unfold sym_weights. rewrite map2_length, map_length. destruct (Hdir (sy_m_neighbors p + 1) q) as [L _]. lia.
  - rewrite map_map. rewrite (map_ext_in (fun x => mm_transform mm (nth x K [])) (fun b => nth b (map f K) [])); [exact W5|].
    intros b Hb. rewrite Forall_forall in W4. symmetry. now apply nth_map_in, W4.
Qed.

End Symprod.
