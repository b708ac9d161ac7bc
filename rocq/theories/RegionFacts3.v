(** Proofs about CCR. *)

From Coq Require Import List ZArith QArith Qabs Qminmax Qround Qpower Bool Arith Lia Lqa Sorting.Sorted Permutation.
From Verif Require Import Np PyVal NpFacts BaseFacts SimplexModel Spec SpecDanger SpecNoise SpecComp SimplexFacts SimplexGeom Float64
  SamplerModel SamplerFacts OversFacts BaseModel KnnFacts DangerModel DangerFacts BorderFacts ClusterModel ClusterOversModel OversGen
  ClusterOversFacts ClusterFacts NoiseModel NoiseFacts NoiseFacts2 CompModel CompFacts CompFacts2 CompFacts3 CompFacts4 EditModel SpecEdit EditFacts EditFacts3 EditFacts4 EditFacts5
  SpecNear NearFacts NearFacts2 LevelModel SpecLevel LevelFacts LevelFacts3 LevelFacts4 SpecGroup GroupFacts GroupFacts2 GroupFacts4 WrapModel SpecWrap WrapFacts WrapFacts2 WrapFacts3 DirModel SpecDir DirFacts DirFacts3 RegionModel SpecRegion RegionFacts.
Import ListNotations.
Open Scope nat_scope.

Lemma even_of_nat m : Nat.even m = Z.even (Z.of_nat m).
Proof.
  induction m as [m IH] using lt_wf_ind. destruct m as [|[|n]]; [reflexivity..|].
  replace (Z.of_nat (S (S n))) with (Z.succ (Z.succ (Z.of_nat n))) by lia. rewrite Z.even_succ_succ. change (Nat.even (S (S n))) with (Nat.even n). apply IH. lia.
Qed.

Lemma round_even_spec q : (0 <= q)%Q -> rounded q (Z.to_nat (round_even q)).
Proof.
  intros Hq. unfold round_even. set (f := Qfloor q).
  pose proof (Qfloor_le q) as H1. pose proof (Qlt_floor q) as H2. fold f in H1, H2.
  assert (Hf : (0 <= f)%Z). { unfold f. change 0%Z with (Qfloor 0). now apply Qfloor_resp_le. }
  assert (H2' : (q < inject_Z f + 1)%Q) by (rewrite inject_Z_plus in H2; exact H2). clear H2.
  assert (E0 : inject_Z (Z.of_nat (Z.to_nat f)) = inject_Z f) by (rewrite Z2Nat.id; [reflexivity|assumption]).
  assert (E1 : inject_Z (Z.of_nat (Z.to_nat (f + 1))) = (inject_Z f + 1)%Q) by (rewrite Z2Nat.id, inject_Z_plus by lia; reflexivity).
  destruct (Qlt_b (q - inject_Z f) (1 # 2)) eqn:A.
  { apply Qlt_b_spec in A. split; rewrite E0; [apply Qabs_Qle_condition; split; lra|]. intros G. exfalso. revert G. apply Qabs_case; intros; lra. }
  assert (A' : (1 # 2 <= q - inject_Z f)%Q). { apply Qnot_lt_le. intro G. apply Qlt_b_spec in G. congruence. }
  destruct (Qlt_b (1 # 2) (q - inject_Z f)) eqn:B.
  { apply Qlt_b_spec in B. split; rewrite E1; [apply Qabs_Qle_condition; split; lra|]. intros G. exfalso. revert G. apply Qabs_case; intros; lra. }
  assert (B' : (q - inject_Z f <= 1 # 2)%Q). { apply Qnot_lt_le. intro G. apply Qlt_b_spec in G. congruence. }
  destruct (Z.even f) eqn:C.
  - split; [rewrite E0; apply Qabs_Qle_condition; split; lra|]. intros _. rewrite <- C. rewrite <- (Z2Nat.id f Hf) at 2.
    apply even_of_nat.
  - split; [rewrite E1; apply Qabs_Qle_condition; split; lra|]. intros _.
    rewrite even_of_nat, Z2Nat.id by lia. replace (f + 1)%Z with (Z.succ f) by lia. rewrite Z.even_succ, <- Z.negb_even, C. reflexivity.
Qed.

Lemma rounded_eq q q' c : (q == q')%Q -> rounded q c -> rounded q' c.
Proof. intros E [A B]. unfold rounded. rewrite <- E. split; assumption. Qed.

(** ** The radius *)

Definition ccr_final (ds : list Q) (t : Q * Q * nat) : Q :=
  let '(radius, remaining, cur) := t in
  if cur =? length ds - 1 then (radius + remaining / inject_Z (Z.of_nat (Nat.max 1 cur)))%Q else radius.

Lemma ccr_radius_final e ds : ccr_radius e ds = ccr_final ds (radius_loop ds ds 0 0 e 0).
Proof. reflexivity. Qed.

Lemma qmax_bound d l : (0 <= d)%Q -> (0 <= l)%Q -> (0 <= q_max (d - l) 0 /\ q_max (d - l) 0 <= d)%Q.
Proof.
  intros Hd Hl. unfold q_max. destruct (Qle_bool (d - l) 0) eqn:E; [split; lra|].
  assert (~ (d - l <= 0)%Q) by (intro G; apply Qle_bool_iff in G; congruence). split; lra.
Qed.

Lemma radius_loop_pos ds : Forall (Qle 0) ds -> forall todo cur last rem rad, todo <> [] -> Forall (Qle 0) todo ->
  (0 <= last)%Q -> (0 <= rad)%Q -> (0 < rem \/ 0 < rad)%Q -> cur + length todo = length ds ->
  (0 < ccr_final ds (radius_loop ds todo cur last rem rad))%Q.
Proof.
  intros Hds. induction todo as [|d todo IH]; intros cur last rem rad Hne Ht Hlast Hrad Hor Hlen; [congruence|].
  inversion Ht as [|? ? Hd Ht']; subst. cbn [radius_loop]. cbn [length] in Hlen.
  set (c := inject_Z (Z.of_nat cur)). set (nx := inject_Z (Z.of_nat (cur + 1))).
  assert (Hc : (0 <= c)%Q) by (unfold c; change 0%Q with (inject_Z 0); rewrite <- Zle_Qle; lia).
  assert (Hnx : (nx == c + 1)%Q) by (unfold nx, c; rewrite Nat2Z.inj_add, inject_Z_plus; reflexivity).
  assert (Hnp : (0 < nx)%Q) by lra.
  assert (Hmx : (0 < inject_Z (Z.of_nat (Nat.max 1 cur)))%Q) by (change 0%Q with (inject_Z 0); rewrite <- Zlt_Qlt; lia).
  destruct (Qle_bool rem 0) eqn:A.
  { apply Qle_bool_iff in A. destruct Hor as [Hor|Hor]; [exfalso; lra|]. unfold ccr_final.
    destruct (cur =? length ds - 1); [|assumption]. setoid_replace (rad + 0 / inject_Z (Z.of_nat (Nat.max 1 cur)))%Q with rad; [assumption|]. unfold Qdiv. ring. }
  assert (Hrem : (0 < rem)%Q). { apply Qnot_le_lt. intro G. apply Qle_bool_iff in G. congruence. } clear A.
  assert (Hdiv : (0 < rem / nx)%Q) by (apply Qlt_shift_div_l; lra).
  destruct (Qle_bool (rad + rem / nx) d) eqn:B.
  { unfold ccr_final. destruct (cur =? length ds - 1); [|lra].
    assert (0 < rem / inject_Z (Z.of_nat (Nat.max 1 cur)))%Q by (apply Qlt_shift_div_l; [assumption|lra]). lra. }
  assert (HB : (d < rad + rem / nx)%Q). { apply Qnot_le_lt. intro G. apply Qle_bool_iff in G. congruence. } clear B.
  destruct (qmax_bound d last Hd Hlast) as [G1 G2]. set (ch := q_max (d - last) 0) in *. clearbody ch.
  destruct todo as [|d' todo].
  - cbn [radius_loop]. unfold ccr_final. replace (cur + 1 - 1) with cur by lia. cbn [length] in Hlen.
    destruct (Nat.eqb_spec cur (length ds - 1)) as [_|Hn]; [|lia].
    destruct cur as [|cur'].
    + change (Nat.max 1 0) with 1. change (inject_Z (Z.of_nat 1)) with 1%Q. change c with 0%Q in *. setoid_replace (rad + ch + (rem - ch * nx) / 1)%Q with (rad + rem)%Q; [lra|]. rewrite Hnx. field.
    + assert (Ec : inject_Z (Z.of_nat (Nat.max 1 (S cur'))) = c) by (unfold c; f_equal; f_equal; lia). rewrite Ec in *.
      assert (H1 : (1 <= c)%Q) by (unfold c; change 1%Q with (inject_Z 1); rewrite <- Zle_Qle; lia).
      assert (X : (rem / nx * nx == rem)%Q) by (field; lra).
      assert (Y : (rem / nx <= rem / 2)%Q).
      { apply Qle_shift_div_l; [reflexivity|]. setoid_replace rem with (rem / nx * nx)%Q at 2 by (symmetry; exact X). apply Qmult_le_l; lra. }
      assert (Z : (0 < (rad + ch) * c + (rem - ch * nx))%Q).
      { rewrite Hnx. setoid_replace ((rad + ch) * c + (rem - ch * (c + 1)))%Q with (rad * c + rem - ch)%Q by ring.
        pose proof (Qmult_le_0_compat rad (c - 1) Hrad ltac:(lra)) as W.
        setoid_replace (rad * c + rem - ch)%Q with (rad * (c - 1) + (rad + rem - ch))%Q by ring.
        assert (Y2 : (rem / 2 == rem * (1 # 2))%Q) by reflexivity. rewrite Y2 in Y. set (rn := (rem / nx)%Q) in *. clearbody rn. clear - W Y HB G2 Hrem. lra. }
      setoid_replace (rad + ch + (rem - ch * nx) / c)%Q with (((rad + ch) * c + (rem - ch * nx)) / c)%Q by (field; lra).
      apply Qlt_shift_div_l; [lra|]. lra.
  - apply IH; auto; [discriminate| | | |cbn [length] in *; lia].
    + set (k := if cur =? 0 then _ else _). destruct (Nat.lt_ge_cases k (length ds)) as [Hk|Hk].
      * rewrite Forall_forall in Hds. apply Hds, nth_In, Hk.
      * rewrite nth_overflow by assumption. lra.
    + lra.
    + destruct (Qlt_le_dec 0 (rem - ch * nx)) as [|H]; [now left|right].
      assert (~ (ch == 0)%Q) by (intro E; rewrite E in H; lra). lra.
Qed.

Lemma ccr_radius_pos e ds : (0 < e)%Q -> ds <> [] -> Forall (Qle 0) ds -> (0 < ccr_radius e ds)%Q.
Proof. intros He Hne Hds. rewrite ccr_radius_final. apply radius_loop_pos; auto; try lra. Qed.

Lemma ccr_radius_free e ds : (0 < e)%Q -> 2 <= length ds -> (forall d, In d ds -> (e <= d)%Q) -> (ccr_radius e ds == e)%Q.
Proof.
  intros He Hl Hd. destruct ds as [|d [|d' ds]]; cbn [length] in Hl; try lia. unfold ccr_radius. cbn [radius_loop].
  change (inject_Z (Z.of_nat (0 + 1))) with 1%Q. destruct (Qle_bool e 0) eqn:A; [apply Qle_bool_iff in A; lra|].
  assert (X : (0 + e / 1 == e)%Q) by field.
  destruct (Qle_bool (0 + e / 1) d) eqn:B.
  - cbn [length Nat.eqb]. exact X.
  - exfalso. assert (Qle_bool (0 + e / 1) d = true); [|congruence]. apply Qle_bool_iff. rewrite X. apply Hd. now left.
Qed.

Lemma ccr_radius_zero ds : ds <> [] -> (ccr_radius 0 ds == 0)%Q.
Proof.
  intros H. destruct ds as [|d ds]; [congruence|]. unfold ccr_radius. cbn [radius_loop]. change (Qle_bool 0 0) with true. cbv iota.
  destruct (_ =? _); reflexivity.
Qed.

Lemma sorted_values ds : Permutation (map (fun j => nth j ds 0%Q) (argsort ds)) ds.
Proof.
  rewrite <- (CompFacts4.map_nth_seq 0%Q ds) at 2. apply Permutation_map. apply argsort_perm.
Qed.

Lemma l1_taxi d x z : length x = d -> length z = d -> l1 x z = taxi d x z.
Proof.
  intros Hx Hz. unfold l1, taxi. f_equal. rewrite <- (CompFacts4.map_nth_seq 0%Q (vsub x z)), map_map.
  assert (L : length (vsub x z) = d) by (rewrite vsub_length; lia). rewrite L. apply map_ext_in. intros j Hj. apply in_seq in Hj.
  now rewrite vsub_nth by lia.
Qed.

Lemma taxi_nonneg d x z : (0 <= taxi d x z)%Q.
Proof.
  unfold taxi. apply qsum_nonneg. apply Forall_map, Forall_forall. intros. apply Qabs_nonneg.
Qed.

(** ** The offsets *)

Lemma taxicab_length r us : forall prev, length (taxicab r prev us) = length us.
Proof. induction us; intros; cbn; auto. Qed.

Lemma step_bound r spread u : (0 <= spread <= r)%Q -> unit_share u -> (Qabs (spread * (2 * u - 1)) <= spread)%Q.
Proof.
  intros [H1 H2] [U1 U2]. apply Qabs_Qle_condition.
  pose proof (Qmult_le_0_compat spread u H1 U1) as W1. pose proof (Qmult_le_0_compat spread (1 - u) H1 ltac:(lra)) as W2.
  split; nra.
Qed.

Lemma taxicab_bound r us : (0 <= r)%Q -> Forall unit_share us -> forall prev,
  match prev with None => True | Some s => (Qabs s <= r)%Q end ->
  Forall (fun s => (Qabs s <= r)%Q) (taxicab r prev us).
Proof.
  intros Hr Hus. induction Hus as [|u us Hu Hus IH]; intros prev Hp; [constructor|]. cbn [taxicab].
  set (spread := match prev with None => r | Some s => (r - Qabs s)%Q end).
  assert (Hs : (0 <= spread <= r)%Q) by (unfold spread; destruct prev as [s|]; [pose proof (Qabs_nonneg s)|]; split; lra).
  pose proof (step_bound r spread u Hs Hu) as G.
  assert (G' : (Qabs (spread * (2 * u - 1)) <= r)%Q) by (eapply Qle_trans; [exact G|tauto]).
  constructor; [exact G'|]. apply IH. exact G'.
Qed.

Lemma taxicab_two r us : (0 <= r)%Q -> Forall unit_share us -> length us <= 2 -> (qsum (map Qabs (taxicab r None us)) <= r)%Q.
Proof.
  intros Hr Hus Hl. destruct Hus as [|u us Hu Hus]; [exact Hr|]. pose proof (step_bound r r u ltac:(split; lra) Hu) as G1.
  destruct Hus as [|v us Hv Hus]; cbn [taxicab map]; cbn [length] in Hl.
  - change (qsum [Qabs (r * (2 * u - 1))]) with (Qabs (r * (2 * u - 1)) + 0)%Q. lra.
  - destruct us; [|cbn in Hl; lia]. set (s := (r * (2 * u - 1))%Q) in *. pose proof (Qabs_nonneg s).
    pose proof (step_bound r (r - Qabs s) v ltac:(split; lra) Hv) as G2. cbn [taxicab map].
    change (qsum [Qabs s; Qabs ((r - Qabs s) * (2 * v - 1))]) with (Qabs s + (Qabs ((r - Qabs s) * (2 * v - 1)) + 0))%Q. lra.
Qed.

Lemma blocks_of {A} (f : nat * nat -> A) (L : list (nat * nat)) : forall o,
  exists blocks, map f (combine (seq o (length (flat_map (fun ic => repeat (fst ic) (snd ic)) L))) (flat_map (fun ic => repeat (fst ic) (snd ic)) L)) = concat blocks /\
    Forall2 (fun ic b => length b = snd ic /\ Forall (fun x => exists t, x = f (t, fst ic)) b) L blocks.
Proof.
  induction L as [|[i c] L IH]; intros o; [exists []; split; [reflexivity|constructor]|]. cbn [flat_map fst snd].
  destruct (IH (o + c)) as (bs & E & F). set (rest := flat_map _ L) in *.
  exists (map f (combine (seq o c) (repeat i c)) :: bs). split.
  - rewrite app_length, repeat_length, seq_app. rewrite combine_app by now rewrite seq_length, repeat_length. rewrite map_app, E. reflexivity.
  - constructor; [|exact F]. cbn [fst snd]. split; [rewrite map_length, combine_length, seq_length, repeat_length; lia|].
    apply Forall_map, Forall_forall. intros [t j] H. apply in_combine_r in H. apply repeat_spec in H. subst. now exists t.
Qed.

Lemma combine_seq_Forall2 {A B} (P : nat * A -> B -> Prop) (l : list A) (d : A) (e : B) bs : Forall2 P (combine (seq 0 (length l)) l) bs ->
  length bs = length l /\ forall i, i < length l -> P (i, nth i l d) (nth i bs e).
Proof.
  intros H. assert (L : length bs = length l) by (rewrite <- (Forall2_length _ _ _ H), combine_length, seq_length; lia). split; [exact L|].
  intros i Hi. pose proof (Forall2_nth' _ _ _ (0, d) e i H) as G. rewrite combine_length, seq_length in G. specialize (G ltac:(lia)).
  rewrite combine_nth in G by (now rewrite seq_length). now rewrite seq_nth in G.
Qed.

Lemma ccr_offset shuffle d r t dr base : shuffle_ok shuffle -> draws_ok dr -> (0 <= r)%Q -> length base = d ->
  let x := vadd base (shuffle t (taxicab r None (map (dr_unif dr t) (seq 0 d)))) in
  length x = d /\ (forall j, j < d -> (Qabs (nth j x 0 - nth j base 0) <= r)%Q) /\ (d <= 2 -> (taxi d x base <= r)%Q).
Proof.
  intros Hs Hd Hr Hb x. set (us := map (dr_unif dr t) (seq 0 d)). set (s := shuffle t (taxicab r None us)).
  assert (Lu : length us = d) by (unfold us; now rewrite map_length, seq_length).
  assert (Fu : Forall unit_share us). { unfold us. apply Forall_map, Forall_forall. intros. apply Hd. }
  assert (P : Permutation s (taxicab r None us)) by apply Hs.
  assert (Ls : length s = d) by (rewrite (Permutation_length P), taxicab_length; exact Lu).
  assert (Lx : length x = d) by (unfold x; fold us; fold s; rewrite vadd_length; lia).
  assert (Hx : forall j, j < d -> (nth j x 0 - nth j base 0 == nth j s 0)%Q).
  { intros j Hj. unfold x. fold us. fold s. rewrite vadd_nth by lia. ring. }
  split; [exact Lx|]. split.
  - intros j Hj. rewrite (Hx j Hj). pose proof (taxicab_bound r us Hr Fu None I) as F. rewrite Forall_forall in F. apply F.
    apply (Permutation_in _ P), nth_In. lia.
  - intros H2. unfold taxi. rewrite (CompFacts4.qsum_map_ext _ (fun j => Qabs (nth j s 0%Q))).
    2:{ intros j Hj. apply in_seq in Hj. now rewrite Hx by lia. }
    rewrite <- (map_map (fun j => nth j s 0%Q) Qabs). rewrite <- Ls, CompFacts4.map_nth_seq.
    rewrite (ClusterOversFacts.qsum_perm _ _ (Permutation_map Qabs P)). apply taxicab_two; auto. lia.
Qed.

Lemma qsum_pos_all l : l <> [] -> Forall (Qlt 0) l -> (0 < qsum l)%Q.
Proof.
  intros Hne H. destruct H as [|q l Hq H]; [congruence|]. clear Hne. revert q Hq. induction H as [|q' l Hq' H IH]; intros q Hq.
  - change (qsum [q]) with (q + 0)%Q. lra.
  - change (qsum (q :: q' :: l)) with (q + qsum (q' :: l))%Q. specialize (IH q' Hq'). lra.
Qed.

Lemma ccr_runs shuffle p dr D mn mj n :
  shuffle_ok shuffle -> draws_ok dr -> wf_data (d_X D) (d_dim D) (d_y D) -> is_minority (d_y D) mn mj ->
  asked (cc_proportion p) (d_y D) mn mj = Ok n -> (0 < cc_energy p)%Q ->
  runs D mn n (ccr_spec p D mn mj n) (ccr_sample shuffle p dr D).
Proof.
  intros Hsh Hd [HX Hl] Hmin Ha He. unfold ccr_sample, ccr_algorithm.
  apply (runs_intro _ _ _ _ _ _ _ Hmin Ha). intros st (E1 & E2 & _) H2 Hn. rewrite E1, E2.
  set (X_min := rows_with mn (d_X D) (d_y D)). set (X_maj := rows_with mj (d_X D) (d_y D)).
  assert (HL : length X_min = count_label (d_y D) mn) by now apply rows_with_length.
  assert (HR : rect (d_dim D) X_min) by now apply rows_with_rect.
  assert (HL' : length X_maj = count_label (d_y D) mj) by now apply rows_with_length.
  assert (HR' : rect (d_dim D) X_maj) by now apply rows_with_rect.
  assert (Hm : count_label (d_y D) mn <= count_label (d_y D) mj) by (destruct Hmin as [_ HM]; unfold count_label in *; lia).
  set (radii := ccr_radii (cc_energy p) X_min X_maj).
  assert (LRd : length radii = length X_min) by (unfold radii, ccr_radii; now rewrite map_length).
  assert (Hrad : forall i, i < length X_min -> (0 < nth i radii 0)%Q /\
     ((forall z, In z X_maj -> (cc_energy p <= taxi (d_dim D) (nth i X_min []) z)%Q) -> (nth i radii 0 == cc_energy p)%Q)).
  { intros i Hi. unfold radii, ccr_radii. rewrite (nth_map' _ []) by assumption. set (x := nth i X_min []).
    assert (Lx : length x = d_dim D) by now apply rect_nth.
    set (ds := map (l1 x) X_maj). pose proof (sorted_values ds) as SV. set (sd := map _ (argsort ds)) in *.
    assert (Hin : forall d, In d sd -> exists z, In z X_maj /\ d = taxi (d_dim D) x z).
    { intros d Hdd. apply (Permutation_in _ SV) in Hdd. unfold ds in Hdd. apply in_map_iff in Hdd as (z & <- & Hz). exists z. split; [assumption|].
      apply l1_taxi; [assumption|]. unfold rect in HR'. rewrite Forall_forall in HR'. auto. }
    assert (Lsd : length sd = length X_maj) by (rewrite (Permutation_length SV); apply map_length).
    split.
    - apply ccr_radius_pos; auto.
      + intros E. rewrite E in Lsd. cbn in Lsd. lia.
      + apply Forall_forall. intros d Hdd. destruct (Hin d Hdd) as (z & _ & ->). apply taxi_nonneg.
    - intros G. apply ccr_radius_free; [assumption|lia|]. intros d Hdd. destruct (Hin d Hdd) as (z & Hz & ->). now apply G. }
  assert (Hpos : Forall (Qlt 0) radii).
  { apply Forall_forall. intros q Hq. apply (In_nth _ _ 0%Q) in Hq as (i & Hi & <-). apply Hrad. lia. }
  assert (Hsum : (0 < qsum radii)%Q). { apply qsum_pos_all; [|assumption]. intros E. rewrite E in LRd. cbn in LRd. lia. }
  set (cnt := fun r => Z.to_nat (round_even (inject_Z (Z.of_nat (Z.to_nat n)) / inject_Z (Z.of_nat (length radii)) * (1 / r) / (inject_Z (Z.of_nat (length radii)) / qsum radii)))).
  rewrite (WrapFacts2.mapM_map _ cnt).
  2:{ intros q Hq. rewrite Forall_forall in Hpos. specialize (Hpos q Hq). unfold ccr_count.
      destruct (Qeq_bool (qsum radii) 0) eqn:A; [apply Qeq_bool_iff in A; lra|].
      destruct (Qeq_bool q 0) eqn:B; [apply Qeq_bool_iff in B; lra|]. reflexivity. }
  cbn [bind]. set (counts := map cnt radii). assert (LC : length counts = length X_min) by (unfold counts; now rewrite map_length).
  set (L := combine (seq 0 (length X_min)) counts).
  set (f := fun ti : nat * nat => let '(t, i) := ti in vadd (nth i X_min []) (shuffle t (taxicab (nth i radii 0%Q) None (map (dr_unif dr t) (seq 0 (d_dim D)))))).
  destruct (blocks_of f L 0) as (blocks & EB & FB). eexists. split; [reflexivity|].
  unfold L in FB. rewrite <- LC in FB. apply (combine_seq_Forall2 _ _ 0 []) in FB as [LB FB]. rewrite LC in LB, FB.
  exists radii, blocks. fold X_min. fold X_maj. split; [exact LRd|]. split; [exact LB|]. split; [exact EB|].
  intros i Hi. cbv zeta. destruct (Hrad i Hi) as [R1 R2]. destruct (FB i Hi) as [B1 B2]. cbn [fst snd] in B1, B2.
  split; [exact R1|]. split; [exact R2|]. split.
  - rewrite B1. unfold counts. rewrite (nth_map' _ 0%Q) by lia. unfold cnt. rewrite LRd, Z2Nat.id by lia.
    assert (HN : (0 < inject_Z (Z.of_nat (length X_min)))%Q) by (change 0%Q with (inject_Z 0); rewrite <- Zlt_Qlt; lia).
    assert (Hn' : (0 < inject_Z n)%Q) by (change 0%Q with (inject_Z 0); rewrite <- Zlt_Qlt; lia).
    set (N := inject_Z (Z.of_nat (length X_min))) in *. set (r := nth i radii 0%Q) in *. set (s := qsum radii) in *.
    eapply rounded_eq; [|apply round_even_spec].
    + field. repeat split; lra.
    + assert (E : (inject_Z n / N * (1 / r) / (N / s) == inject_Z n * s / (N * N * r))%Q) by (field; repeat split; lra). rewrite E.
      apply Qlt_le_weak. apply Qlt_shift_div_l; [|rewrite Qmult_0_l]; repeat apply Qmult_lt_0_compat; assumption.
  - eapply Forall_impl; [|exact B2]. cbv beta. intros x [t ->]. unfold f. apply ccr_offset; auto; [lra|]. now apply rect_nth.
Qed.

Lemma ccr_no_energy shuffle p dr D mn mj n :
  wf_data (d_X D) (d_dim D) (d_y D) -> is_minority (d_y D) mn mj ->
  asked (cc_proportion p) (d_y D) mn mj = Ok n -> cc_energy p = 0%Q -> 2 < count_label (d_y D) mn -> (0 < n)%Z ->
  ccr_sample shuffle p dr D = Err ValueError.
Proof.
  intros [HX Hl] Hmin Ha He H2 Hn. unfold ccr_sample.
  destruct (sample_shape (fun k st D =>
    let X_min := rows_with (min_label st) (d_X D) (d_y D) in
    let X_maj := rows_with (maj_label st) (d_X D) (d_y D) in
    let radii := ccr_radii (cc_energy p) X_min X_maj in
    do counts <- mapM (ccr_count k radii) radii;
    let turns := flat_map (fun ic => repeat (fst ic) (snd ic)) (combine (seq 0 (length X_min)) counts) in
    Ok (extended D st (map (fun ti =>
        let '(t, i) := ti in
        vadd (nth i X_min []) (shuffle t (taxicab (nth i radii 0%Q) None (map (dr_unif dr t) (seq 0 (d_dim D))))))
      (combine (seq 0 (length turns)) turns)))) (cc_proportion p) D mn mj n Hmin Ha) as (st & (E1 & E2 & _) & E).
  match type of E with _ = ?R => assert (E' : sample_with checks_default (ccr_algorithm shuffle p dr) D = R) by exact E end.
  rewrite E'. clear E E'. destruct (Nat.leb_spec (count_label (d_y D) mn) 2); [lia|]. destruct (Z.eqb_spec n 0); [lia|]. cbn [orb]. cbv zeta. rewrite E1, E2, He.
  set (X_min := rows_with mn (d_X D) (d_y D)). set (X_maj := rows_with mj (d_X D) (d_y D)).
  assert (HL : length X_min = count_label (d_y D) mn) by now apply rows_with_length.
  assert (HL' : length X_maj = count_label (d_y D) mj) by now apply rows_with_length.
  assert (Hm : count_label (d_y D) mn <= count_label (d_y D) mj) by (destruct Hmin as [_ HM]; unfold count_label in *; lia).
  set (radii := ccr_radii 0 X_min X_maj).
  assert (Z : forall q, In q radii -> (q == 0)%Q).
  { intros q Hq. unfold radii, ccr_radii in Hq. apply in_map_iff in Hq as (x & <- & _). apply ccr_radius_zero. intros E.
    apply (f_equal (@length Q)) in E. rewrite map_length, argsort_length, map_length in E. cbn in E. lia. }
  assert (S0 : (qsum radii == 0)%Q). { clear - Z. induction radii as [|q l IH]; [reflexivity|]. change (qsum (q :: l)) with (q + qsum l)%Q. rewrite (Z q) by now left. rewrite IH; [reflexivity|]. intros; apply Z; now right. }
  destruct radii as [|q l] eqn:ER.
  { exfalso. apply (f_equal (@length Q)) in ER. unfold radii, ccr_radii in ER. rewrite map_length in ER. cbn in ER. lia. }
  cbn [mapM]. unfold ccr_count at 1. apply Qeq_bool_iff in S0. rewrite S0. pose proof (Z q (or_introl eq_refl)) as Zq. apply Qeq_bool_iff in Zq. rewrite Zq. reflexivity.
Qed.
