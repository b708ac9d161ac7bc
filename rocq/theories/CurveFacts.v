(** The mesh and the fitted curve of polynom_fit_SMOTE. *)

From Coq Require Import List ZArith QArith Qabs Bool Arith Lia Lqa Sorting.Sorted Permutation.
From Verif Require Import Np NpFacts SimplexModel Spec SpecComp SimplexFacts SimplexGeom Float64
  SamplerModel SamplerFacts OversFacts OversGen KnnFacts ClusterOversModel ClusterOversFacts CompModel CompFacts CompFacts3 CurveModel SpecCurve.
Import ListNotations.
Open Scope nat_scope.

(** ** The mesh *)

Lemma nth_map_seq {A} (f : nat -> A) n b d : b < n -> nth b (map f (seq 0 n)) d = f b.
Proof. intros H. rewrite (nth_indep _ d (f 0)) by (rewrite map_length, seq_length; lia). rewrite map_nth, seq_nth by lia. reflexivity. Qed.

Lemma mesh_runs vol prop ss pick r D mn mj n :
  rng_ok r -> unif_pos r -> plain_ss ss -> (forall t b, pick t b < count_label (d_y D) mn) ->
  wf_data (d_X D) (d_dim D) (d_y D) -> is_minority (d_y D) mn mj -> asked prop (d_y D) mn mj = Ok n ->
  runs D mn n (mesh_spec ss D mn n) (mesh_sample vol prop ss pick r D).
Proof.
  intros Hr Hu Hss Hp [HR Hl] Hmin Ha. unfold mesh_sample, mesh_algorithm.
  apply (runs_intro _ _ _ _ _ _ _ Hmin Ha). intros st (E1 & E2 & _) H2 Hn. rewrite E1.
  set (X_min := rows_with mn (d_X D) (d_y D)).
  assert (HL : length X_min = count_label (d_y D) mn) by now apply rows_with_length.
  assert (HRm : rect (d_dim D) X_min) by now apply rows_with_rect.
  set (k := poly_kdx (Z.to_nat n) (length X_min)).
  assert (HK : rounded_ratio (Z.to_nat n) (length X_min) k) by (apply rint_ratio; lia).
  set (T := mesh_indices pick (length X_min) k).
  assert (LT : length T = length X_min) by (unfold T, mesh_indices; now rewrite map_length, seq_length).
  assert (Hrow : forall b, b < length X_min -> nth b T [] = b :: map (fun t => pick t b) (seq 0 k)).
  { intros b Hb. unfold T, mesh_indices. now apply (nth_map_seq (fun b => b :: map (fun t => pick t b) (seq 0 k))). }
  assert (Hin : forall x, In x T -> exists b, b < length X_min /\ x = b :: map (fun t => pick t b) (seq 0 k)).
  { intros x Hx. unfold T, mesh_indices in Hx. apply in_map_iff in Hx as (b & <- & Hb). apply in_seq in Hb. exists b. split; [lia|reflexivity]. }
  assert (Aok : args_ok (mk_args X_min (d_dim D) T (k + 1) None None None false None)).
  { constructor; cbn; try exact I; try exact HRm; try discriminate; try lia.
    - apply Forall_forall. intros x Hx. destruct (Hin x Hx) as (b & _ & ->). cbn. rewrite map_length, seq_length. lia.
    - apply Forall_forall. intros x Hx. destruct (Hin x Hx) as (b & Hb & ->). constructor; [assumption|].
      apply Forall_forall. intros i Hi. apply in_map_iff in Hi as (t & <- & _). rewrite HL. apply Hp. }
  destruct (ss_total vol ss _ (Z.to_nat n) r 0 Aok Hr Hu Hss) as [S ES]; cbn; try lia; try exact I; auto.
  rewrite ES. cbn [bind]. exists S. split; [reflexivity|].
  destruct (sample_simplex_spec _ _ _ _ _ _ Aok Hr ES) as [S1 S2]. cbn in S2.
  split; [exact S1|]. exists k, T. split; [exact HK|]. split; [exact LT|]. split; [|exact S2].
  intros b Hb. fold X_min in Hb. rewrite (Hrow b Hb). cbn. rewrite map_length, seq_length. split; [lia|]. split; [reflexivity|].
  intros i [<-|Hi]; [exact Hb|]. apply in_map_iff in Hi as (t & <- & _). fold X_min. rewrite HL. apply Hp.
Qed.

Lemma mesh_hull ss D mn n S : wf_data (d_X D) (d_dim D) (d_y D) -> ss_gauss ss = GNone -> mesh_spec ss D mn n S ->
  Forall (in_hull (d_dim D) (rows_with mn (d_X D) (d_y D))) S.
Proof.
  intros Hwf Hg (_ & k & T & _ & LT & HT & HS). specialize (HS Hg). rewrite Forall_forall in *. intros x Hx.
  destruct (HS x Hx) as (b & ps & Hb & Lp & Sp & Rp & _ & _ & Hc). set (X_min := rows_with mn (d_X D) (d_y D)) in *.
  eexists. split; [|exact Hc]. rewrite LT in Hb. destruct (HT b Hb) as (L1 & _ & L3). rewrite Forall_forall in Rp.
  intros z [<-|Hz]; [now apply nth_In|]. apply in_map_iff in Hz as (p & <- & Hp'). apply nth_In, L3, nth_In. specialize (Rp p Hp'). lia.
Qed.

(** By default a new row lies between a minority row and one of its partners. *)
Lemma mesh_pair ss D mn n S : ss_gauss ss = GNone -> ss_n_dim ss = 2 -> mesh_spec ss D mn n S ->
  let X_min := rows_with mn (d_X D) (d_y D) in
  Forall (fun x => exists b i w, b < length X_min /\ i < length X_min /\ (0 <= w <= 1)%Q /\ length x = d_dim D /\
     forall j, j < d_dim D -> (nth j x 0 == nth j (nth b X_min []) 0 + w * (nth j (nth i X_min []) 0 - nth j (nth b X_min []) 0))%Q) S.
Proof.
  intros Hg H2 (_ & k & T & (r0 & Hk & _) & LT & HT & HS) X_min. specialize (HS Hg). fold X_min in HS, LT, HT. rewrite Forall_forall in *. intros x Hx.
  destruct (HS x Hx) as (b & ps & Hb & Lp & Sp & Rp & _ & _ & (Lx & ws & W1 & W2 & W3 & W4)). rewrite LT in Hb. rewrite H2 in Lp.
  replace (Nat.min 2 (k + 1) - 1) with 1 in Lp by lia.
  destruct ps as [|p [|]]; try discriminate. cbn [map] in *. destruct ws as [|w0 [|w1 [|]]]; try discriminate.
  inversion W2 as [|? ? A0 W2']; subst. inversion W2' as [|? ? A1 _]; subst. cbn [qsum] in W3.
  exists b, (nth p (nth b T []) 0), w1. destruct (HT b Hb) as (L1 & _ & L3). rewrite Forall_forall in Rp. specialize (Rp p (or_introl eq_refl)).
  split; [exact Hb|]. split; [apply L3, nth_In; lia|]. split; [split; [exact A1|lra]|]. split; [exact Lx|].
  intros j Hj. rewrite (W4 j Hj). cbn [map2 qsum]. assert (E : (w0 == 1 - w1)%Q) by lra. rewrite E. ring.
Qed.

(** ** The curve *)

Lemma horner c : forall acc x, (fold_left (fun acc a => acc * x + a) c acc == acc * pow_nat x (length c) + value_at c x)%Q.
Proof.
  induction c as [|a c IH]; intros acc x; cbn [fold_left length pow_nat value_at]; [ring|]. rewrite IH. ring.
Qed.

Lemma poly1d_value c x : (poly1d c x == value_at c x)%Q.
Proof. unfold poly1d. rewrite horner. ring. Qed.

Lemma qmean_row dim x : 1 <= dim -> length x = dim -> qmean x = Ok (row_mean x).
Proof. intros H L. unfold qmean, row_mean. destruct x; [cbn in L; lia|reflexivity]. Qed.

Lemma means_ok dim X : 1 <= dim -> rect dim X -> mapM qmean X = Ok (map row_mean X).
Proof.
  intros Hd. induction X as [|x X IH]; intros HR; [reflexivity|]. cbn [mapM map].
  inversion HR; subst. rewrite (qmean_row (length x) x Hd eq_refl). cbn [bind]. rewrite IH by assumption. reflexivity.
Qed.

Lemma gather_ok {A} (d : A) l idx : (forall i, In i idx -> i < length l) -> gather l idx = Ok (map (fun i => nth i l d) idx).
Proof.
  unfold gather. induction idx as [|i idx IH]; intros H; [reflexivity|]. cbn [mapM map]. unfold get at 1.
  rewrite (nth_error_nth' l d) by (apply H; left; reflexivity). cbn [bind]. rewrite IH by (intros z Hz; apply H; right; exact Hz). reflexivity.
Qed.

Lemma by_mean_ok order dim X : order_ok order -> 1 <= dim -> rect dim X -> exists P, by_mean order X = Ok P /\ arranged X P.
Proof.
  intros Ho Hd HR. unfold by_mean. rewrite (means_ok dim X Hd HR). cbn [bind].
  destruct (Ho (map row_mean X)) as [Hp Hs]. rewrite map_length in Hp. set (o := order (map row_mean X)) in *.
  assert (Hin : forall i, In i o -> i < length X).
  { intros i Hi. apply (Permutation_in _ Hp) in Hi. apply in_seq in Hi. lia. }
  rewrite (gather_ok [] X o Hin). eexists. split; [reflexivity|]. split.
  - apply Permutation_sym. eapply Permutation_trans; [apply Permutation_map, Hp|].
    assert (E : map (fun i => nth i X []) (seq 0 (length X)) = X).
    { clear. apply (nth_ext _ _ [] []); [now rewrite map_length, seq_length|]. intros i Hi. rewrite map_length, seq_length in Hi. now apply (nth_map_seq (fun i => nth i X [])). }
    rewrite E. reflexivity.
  - clear Hp. induction Hs as [|i o' Hs IH Hf]; cbn; [constructor|]. constructor; [apply IH; intros; apply Hin; now right|].
    apply Forall_forall. intros z Hz. apply in_map_iff in Hz as (j & <- & Hj). rewrite Forall_forall in Hf. specialize (Hf j Hj).
    rewrite (nth_indep _ 0%Q (row_mean [])) in Hf by (rewrite map_length; apply Hin; now left). rewrite map_nth in Hf.
    rewrite (nth_indep (map row_mean X) 0%Q (row_mean [])) in Hf by (rewrite map_length; apply Hin; now right). now rewrite map_nth in Hf.
Qed.

Lemma mapM_ok {A B} (f : A -> res B) l : (forall a, In a l -> exists b, f a = Ok b) -> exists bs, mapM f l = Ok bs.
Proof.
  induction l as [|a l IH]; intros H; [eexists; reflexivity|]. destruct (H a (or_introl eq_refl)) as [b E].
  destruct IH as [bs Es]; [intros; apply H; now right|]. exists (b :: bs). cbn. now rewrite E, Es.
Qed.

Lemma curve_rows_ok order polyfit deg dim n u X P :
  by_mean order X = Ok P -> arranged X P -> polyfit_ok polyfit (length X) deg -> (forall j s, unit_share (u j s)) -> 0 < length X ->
  exists S c, curve_rows order polyfit deg dim n u X = Ok S /\ length S = n /\
    (forall j, j < dim -> polyfit (column j P) deg = Ok (nth j c []) /\ least_squares deg (map (fun x => nth j x 0%Q) P) (nth j c [])) /\
    (forall s, s < n -> length (nth s S []) = dim /\
       forall j, j < dim -> (nth j (nth s S []) 0 == value_at (nth j c []) (u j s * inject_Z (Z.of_nat (length X))))%Q).
Proof.
  intros EP HA Hf Hu HX. unfold curve_rows. rewrite EP. cbn [bind].
  assert (LP : length P = length X) by (symmetry; apply Permutation_length, HA).
  assert (Lc : forall j, length (column j P) = length X) by (intros; unfold column; now rewrite map_length).
  destruct (mapM_ok (fun j => polyfit (column j P) deg) (seq 0 dim)) as [c Ec].
  { intros j _. destruct (Hf (column j P) (Lc j)) as (cj & E & _). now exists cj. }
  rewrite Ec. cbn [bind]. eexists. exists c. split; [reflexivity|]. split; [now rewrite map_length, seq_length|]. split.
  - intros j Hj. pose proof (ClusterOversFacts.mapM_nth _ _ _ 0 [] j Ec) as G. rewrite seq_length in G. specialize (G Hj). cbv beta in G.
    rewrite seq_nth in G by assumption. cbn [Nat.add] in G. split; [exact G|].
    destruct (Hf (column j P) (Lc j)) as (cj & E & HL). rewrite G in E. injection E as ->. exact HL.
  - intros s Hs. rewrite (nth_map_seq (fun s => map _ (seq 0 dim)) n s []) by exact Hs.
    split; [now rewrite map_length, seq_length|]. intros j Hj. rewrite (nth_map_seq _ dim j 0%Q Hj).
    rewrite (nth_map_seq (fun j => map _ (seq 0 n)) dim j [] Hj). rewrite (nth_map_seq _ n s 0%Q Hs). apply poly1d_value.
Qed.

Lemma curve_runs order polyfit prop deg u D mn mj n :
  order_ok order -> polyfit_ok polyfit (count_label (d_y D) mn) deg -> (forall j s, unit_share (u j s)) -> 1 <= d_dim D ->
  wf_data (d_X D) (d_dim D) (d_y D) -> is_minority (d_y D) mn mj -> asked prop (d_y D) mn mj = Ok n ->
  runs D mn n (curve_spec deg D mn n) (curve_sample order polyfit prop deg u D).
Proof.
  intros Ho Hf Hu Hd [HR Hl] Hmin Ha. unfold curve_sample. rewrite (nested_default _ _ _ _ Hmin). unfold curve_algorithm.
  apply (runs_intro _ _ _ _ _ _ _ Hmin Ha). intros st (E1 & E2 & _) H2 Hn. rewrite E1.
  set (X_min := rows_with mn (d_X D) (d_y D)).
  assert (HL : length X_min = count_label (d_y D) mn) by now apply rows_with_length.
  assert (HRm : rect (d_dim D) X_min) by now apply rows_with_rect.
  destruct (by_mean_ok order (d_dim D) X_min Ho Hd HRm) as (P & EP & HA). rewrite <- HL in Hf, H2.
  destruct (curve_rows_ok order polyfit deg (d_dim D) (Z.to_nat n) u X_min P EP HA Hf Hu ltac:(lia)) as (S & c & ES & LS & Hc & HS).
  rewrite ES. cbn [bind]. destruct S as [|s0 S']; [cbn in LS; lia|]. set (S := s0 :: S') in *.
  exists S. split; [reflexivity|]. split; [exact LS|]. exists P, c. split; [exact HA|]. split; [intros j Hj; apply Hc, Hj|].
  apply Forall_forall. intros x Hx. destruct (In_nth _ _ [] Hx) as (s & Hs & <-). rewrite LS in Hs. destruct (HS s Hs) as [L1 L2].
  split; [exact L1|]. intros j Hj. exists (u j s * inject_Z (Z.of_nat (length X_min)))%Q.
  assert (Hm : (0 < inject_Z (Z.of_nat (length X_min)))%Q) by (apply inj_pos; lia).
  destruct (Hu j s) as [U1 U2]. split; [nra|]. split; [|apply L2, Hj]. fold X_min. nra.
Qed.

(** Two arrangements of the same rows by distinct means agree. *)
Lemma arranged_unique X P P' : distinct_means X -> arranged X P -> arranged X P' -> P = P'.
Proof.
  intros HD [H1 S1] [H2 S2].
  assert (HI : forall a b, In a X -> In b X -> (row_mean a == row_mean b)%Q -> a = b).
  { intros a b Ha Hb E. destruct (In_nth _ _ [] Ha) as (i & Hi & <-). destruct (In_nth _ _ [] Hb) as (j & Hj & <-). now rewrite (HD i j Hi Hj E). }
  assert (HP : Permutation P P') by (eapply Permutation_trans; [apply Permutation_sym, H1|exact H2]).
  assert (HQ : forall a b, In a P -> In b P -> (row_mean a == row_mean b)%Q -> a = b).
  { intros a b Ha Hb. apply HI; eapply Permutation_in; [apply Permutation_sym, H1|assumption|apply Permutation_sym, H1|assumption]. }
  clear HD HI H1 H2 X. revert P' HP S2 HQ. induction S1 as [|a P S1 IH F1]; intros P' HP S2 HQ.
  - now apply Permutation_nil in HP.
  - destruct P' as [|b P']; [now apply Permutation_sym, Permutation_nil in HP|]. inversion S2 as [|? ? S2' F2]; subst. rewrite Forall_forall in F1, F2.
    assert (E : a = b).
    { pose proof (Permutation_in b (Permutation_sym HP) (or_introl eq_refl)) as Hb. pose proof (Permutation_in a HP (or_introl eq_refl)) as Ha.
      destruct Hb as [Hb|Hb]; [exact Hb|]. destruct Ha as [Ha|Ha]; [now symmetry|]. apply HQ; [now left|now right|].
      apply Qle_antisym; auto. }
    subst b. f_equal. apply IH; [now apply Permutation_cons_inv in HP|exact S2'|]. intros; apply HQ; auto; now right.
Qed.

(** The curve does not depend on the order of minority rows with distinct means. *)
Lemma curve_order order order' polyfit deg dim n u X X' :
  order_ok order -> order_ok order' -> 1 <= dim -> rect dim X -> Permutation X X' -> distinct_means X ->
  curve_rows order polyfit deg dim n u X = curve_rows order' polyfit deg dim n u X'.
Proof.
  intros Ho Ho' Hd HR HP HD.
  assert (HR' : rect dim X') by (unfold rect in *; rewrite Forall_forall in *; intros x Hx; apply HR; eapply Permutation_in; [apply Permutation_sym, HP|exact Hx]).
  destruct (by_mean_ok order dim X Ho Hd HR) as (P & E & A). destruct (by_mean_ok order' dim X' Ho' Hd HR') as (P' & E' & [A1 A2]).
  assert (P = P'). { apply (arranged_unique X); auto. split; [eapply Permutation_trans; eassumption|exact A2]. } subst P'.
  unfold curve_rows. rewrite E, E'. now rewrite (Permutation_length HP).
Qed.

Lemma curve_sample_order order order' polyfit prop deg u D D' mn mj n :
  order_ok order -> order_ok order' -> polyfit_ok polyfit (count_label (d_y D) mn) deg -> (forall j s, unit_share (u j s)) -> 1 <= d_dim D ->
  wf_data (d_X D) (d_dim D) (d_y D) -> wf_data (d_X D') (d_dim D') (d_y D') -> d_y D' = d_y D -> d_dim D' = d_dim D ->
  is_minority (d_y D) mn mj -> asked prop (d_y D) mn mj = Ok n ->
  Permutation (rows_with mn (d_X D) (d_y D)) (rows_with mn (d_X D') (d_y D')) -> distinct_means (rows_with mn (d_X D) (d_y D)) ->
  exists S, curve_sample order polyfit prop deg u D = Ok (d_X D ++ S, d_y D ++ repeat mn (length S)) /\
    curve_sample order' polyfit prop deg u D' = Ok (d_X D' ++ S, d_y D' ++ repeat mn (length S)).
Proof.
  intros Ho Ho' Hf Hu Hd [HR Hl] [HR' Hl'] Ey Ed Hmin Ha HP HD.
  assert (Hmin' : is_minority (d_y D') mn mj) by now rewrite Ey. assert (Ha' : asked prop (d_y D') mn mj = Ok n) by now rewrite Ey.
  assert (Hf' : polyfit_ok polyfit (count_label (d_y D') mn) deg) by now rewrite Ey.
  set (X_min := rows_with mn (d_X D) (d_y D)) in *.
  assert (HL : length X_min = count_label (d_y D) mn) by now apply rows_with_length.
  assert (HRm : rect (d_dim D) X_min) by now apply rows_with_rect.
  pose proof (curve_order order order' polyfit deg (d_dim D) (Z.to_nat n) u X_min _ Ho Ho' Hd HRm HP HD) as EQ.
  unfold curve_sample. rewrite (nested_default _ _ _ _ Hmin), (nested_default _ _ _ _ Hmin'). unfold curve_algorithm.
  destruct (sample_shape (fun k st D => let X_min := rows_with (min_label st) (d_X D) (d_y D) in
    do samples <- curve_rows order polyfit deg (d_dim D) k u X_min;
    match samples with [] => Err ValueError | _ => Ok (extended D st samples) end) prop D mn mj n Hmin Ha) as (st & (E1 & _) & F1).
  destruct (sample_shape (fun k st D => let X_min := rows_with (min_label st) (d_X D) (d_y D) in
    do samples <- curve_rows order' polyfit deg (d_dim D) k u X_min;
    match samples with [] => Err ValueError | _ => Ok (extended D st samples) end) prop D' mn mj n Hmin' Ha') as (st' & (E1' & _) & F2).
  cbv beta zeta in F1, F2 |- *. rewrite F1, F2. clear F1 F2.
  rewrite Ey, E1, E1'. destruct ((count_label (d_y D) mn <=? 2) || (n =? 0)%Z) eqn:B.
  - exists []. cbn. now rewrite !app_nil_r.
  - apply orb_false_iff in B as [B1 B2]. apply Nat.leb_gt in B1. apply Z.eqb_neq in B2. pose proof (asked_some _ _ _ _ _ Ha).
    fold X_min. rewrite Ed, <- Ey, <- EQ. clear EQ.
    destruct (by_mean_ok order (d_dim D) X_min Ho Hd HRm) as (P & EP & HA). rewrite <- HL in Hf, B1.
    destruct (curve_rows_ok order polyfit deg (d_dim D) (Z.to_nat n) u X_min P EP HA Hf Hu ltac:(lia)) as (S & c & ES & LS & _ & _).
    rewrite ES. cbn [bind]. destruct S as [|s0 S']; [cbn in LS; lia|]. exists (s0 :: S'). unfold extended. rewrite E1, E1', ?Ey. auto.
Qed.
