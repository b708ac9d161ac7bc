(** Proofs about KernelADASYN. *)

From Coq Require Import List ZArith QArith Qabs Qminmax Qround Qpower Bool Arith Lia Lqa Sorting.Sorted Permutation.
From Verif Require Import Np PyVal NpFacts BaseFacts SimplexModel Spec SpecDanger SpecNoise SpecComp SimplexFacts SimplexGeom Float64
  SamplerModel SamplerFacts OversFacts BaseModel KnnFacts DangerModel DangerFacts BorderFacts ClusterModel NearModel ClusterOversModel OversGen
  ClusterOversFacts ClusterFacts NoiseModel NoiseFacts NoiseFacts2 CompModel CompFacts CompFacts2 CompFacts3 CompFacts4 EditModel SpecEdit EditFacts EditFacts3 EditFacts4 EditFacts5
  SpecNear NearFacts NearFacts2 LevelModel SpecLevel LevelFacts LevelFacts3 LevelFacts4 SpecGroup GroupFacts GroupFacts2 GroupFacts4 WrapModel SpecWrap WrapFacts WrapFacts2 WrapFacts3 DirModel SpecDir DirFacts DirFacts3 RegionModel SpecRegion RegionFacts RegionFacts2 RegionFacts3 RegionFacts4 SearchModel SpecSearch SearchFacts2 GraphModel SpecGraph GraphFacts GraphFacts2 GraphFacts4 GraphFacts5 GraphFacts6 GraphFacts8 MixModel SpecMix MixFacts MixFacts3 MixFacts4 EmbedModel SpecEmbed EmbedFacts EmbedFacts2 DistFacts.
Import ListNotations.
Open Scope nat_scope.

Lemma count_label_le y z : count_label y z <= length y.
Proof. unfold count_label. induction y as [|a y IH]; cbn [count_occ length]; [lia|]. destruct (Z.eq_dec _ _); lia. Qed.

(** ** The chain *)

Section Chain.

Variables (p : row -> Q) (L : list row) (noise : nat -> nat -> row) (u : nat -> Q) (x0 : row).

Definition metro (i : nat) (x : row) : row :=
  let x' := vadd x (weighted_sum (length x) (noise i (length x)) L) in
  if Qlt_b (u i) (p x' / p x) then x' else x.

Fixpoint walk (i : nat) : row := match i with 0 => x0 | S i => metro i (walk i) end.

Lemma walk_chain d : length x0 = d -> rect d L -> (forall x, 0 <= p x)%Q -> (0 < p x0)%Q -> (forall i, 0 <= u i)%Q ->
  chain d p L (fun i => noise i d) u walk.
Proof.
  intros L0 RL Hp P0 Hu. assert (G : forall i, length (walk i) = d /\ (0 < p (walk i))%Q).
  { induction i as [|i [I1 I2]]; [auto|]. cbn [walk]. unfold metro. rewrite I1. destruct (Qlt_b _ _) eqn:E; [|auto].
    apply Qlt_b_iff' in E. set (x' := vadd _ _) in *. split.
    - unfold x'. rewrite vadd_length, weighted_sum_length by exact RL. lia.
    - specialize (Hu i). assert (0 < p x' / p (walk i))%Q by lra. assert (E2 : (p x' == p x' / p (walk i) * p (walk i))%Q) by (field; lra).
      rewrite E2. now apply Qmult_lt_0_compat. }
  intros i. destruct (G i) as [G1 G2]. split; [exact G1|]. split; [exact G2|].
  exists (vadd (walk i) (weighted_sum d (noise i d) L)). split; [split|].
  - rewrite vadd_length, weighted_sum_length by exact RL. lia.
  - intros j Hj. rewrite vadd_nth by (rewrite ?weighted_sum_length by exact RL; lia). now rewrite weighted_sum_nth.
  - cbn [walk]. unfold metro. rewrite G1. set (x' := vadd _ _).
    assert (E2 : (p x' == p x' / p (walk i) * p (walk i))%Q) by (field; lra). split; intros H.
    + destruct (Qlt_b _ _) eqn:E; [reflexivity|]. exfalso.
      assert (~ (u i < p x' / p (walk i))%Q) by (intros G'; apply Qlt_b_iff' in G'; congruence).
      apply Qnot_lt_le in H0. rewrite E2 in H. apply Qmult_lt_r in H; [|exact G2]. lra.
    + destruct (Qlt_b _ _) eqn:E; [|reflexivity]. exfalso. apply Qlt_b_iff' in E. rewrite E2 in H. apply Qmult_le_r in H; [|exact G2]. lra.
Qed.

Lemma mcmc_loop_reads burn periods : 0 < periods -> forall fuel it need,
  let M := Nat.max (it / periods) (burn / periods) + 1 in
  need = 0 \/ periods * (M + need) <= fuel + it ->
  mcmc_loop fuel burn periods p L noise u it need (walk it) = Ok (map (fun j => walk (periods * (M + j))) (seq 0 need)).
Proof.
  intros Hp. induction fuel as [|fuel IH]; intros it need M HM.
  - destruct need as [|need]; [reflexivity|]. exfalso. destruct HM as [HM|HM]; [discriminate|].
    assert (it < periods * M). { pose proof (Nat.div_mod it periods ltac:(lia)) as E. pose proof (Nat.mod_upper_bound it periods ltac:(lia)). unfold M. nia. }
    nia.
  - destruct need as [|need]; [reflexivity|]. destruct HM as [HM|HM]; [discriminate|]. cbn [mcmc_loop].
    change (if Qlt_b (u it) (p (vadd (walk it) (weighted_sum (length (walk it)) (noise it (length (walk it))) L)) / p (walk it))
      then vadd (walk it) (weighted_sum (length (walk it)) (noise it (length (walk it))) L) else walk it) with (walk (S it)).
    pose proof (Nat.div_mod it periods ltac:(lia)) as Ei. pose proof (Nat.mod_upper_bound it periods ltac:(lia)) as Bi.
    pose proof (Nat.div_mod (S it) periods ltac:(lia)) as Es. pose proof (Nat.mod_upper_bound (S it) periods ltac:(lia)) as Bs.
    pose proof (Nat.div_mod burn periods ltac:(lia)) as Eb. pose proof (Nat.mod_upper_bound burn periods ltac:(lia)) as Bb.
    set (q := it / periods) in *. set (q' := S it / periods) in *. set (qb := burn / periods) in *.
    set (r := it mod periods) in *. set (r' := S it mod periods) in *. set (rb := burn mod periods) in *.
    destruct ((r' =? 0) && (burn <? S it)) eqn:C.
    + apply andb_true_iff in C. destruct C as [C1 C2]. apply Nat.eqb_eq in C1. apply Nat.ltb_lt in C2.
      assert (Q1 : q' = S q) by nia. assert (Q2 : qb <= q) by nia. assert (EM : M = S q) by (unfold M; lia).
      rewrite IH.
      * fold q' qb. cbn [bind seq map]. f_equal. f_equal; [f_equal; nia|]. rewrite <- seq_shift, map_map. apply map_ext. intros j. do 2 f_equal. lia.
      * fold q' qb. right. replace (Nat.max q' qb + 1) with (S M) by lia. nia.
    + assert (Q3 : Nat.max q' qb = Nat.max q qb).
      { apply andb_false_iff in C. destruct C as [C|C].
        - apply Nat.eqb_neq in C. assert (q' = q) by nia. lia.
        - apply Nat.ltb_ge in C. assert (q' <= qb) by nia. assert (q <= q') by nia. lia. }
      rewrite IH; fold q' qb; rewrite Q3; fold M; [reflexivity|]. right. lia.
Qed.

End Chain.

(** ** Shapes *)

Lemma half_of_rint d : 0 < d -> half_of d (Z.to_nat (rint (inject_Z (Z.of_nat d) / 2))).
Proof.
  intros H. destruct (rint_half 0 (d - 1) (inject_Z (Z.of_nat d) / 2)) as [_ [G1 G2]]; [lia| |].
  - rewrite Nat2Z.inj_sub by lia. unfold Z.sub. rewrite inject_Z_plus, inject_Z_opp. change (inject_Z (Z.of_nat 1)) with 1%Q. change (inject_Z (Z.of_nat 0)) with 0%Q. field.
  - set (N := Z.to_nat _) in *. rewrite Nat.sub_0_r in *. unfold half_of. destruct (Nat.eq_dec (2 * N) d) as [E|E]; [now left|right].
    split; [apply G2; lia|lia].
Qed.

Lemma covariance_ok d P : P <> [] -> 2 <= length P -> rect d P -> exists V, covariance d P = Ok V /\ covariance_of d P V.
Proof.
  intros Hne H2 HP. unfold covariance. destruct (mean_row_of d P Hne HP) as (m & -> & Hm). cbn [bind]. eexists. split; [reflexivity|].
  exists m. split; [exact Hm|]. split; [now rewrite map_length, seq_length|]. split.
  - apply Forall_forall. intros v Hv. apply in_map_iff in Hv. destruct Hv as (i & <- & _). now rewrite map_length, seq_length.
  - intros i j Hi Hj. rewrite (nth_map_in _ 0) by now rewrite seq_length. rewrite seq_nth by exact Hi.
    rewrite (nth_map_in _ 0) by now rewrite seq_length. rewrite seq_nth by exact Hj. cbn [Nat.add].
    assert (N0 : ~ (inject_Z (Z.of_nat (length P)) - 1 == 0)%Q).
    { change 1%Q with (inject_Z 1). intros E. assert (inject_Z (Z.of_nat (length P)) == inject_Z 1)%Q by lra. unfold Qeq in H. cbn in H. lia. }
    assert (E : (inject_Z (Z.of_nat (length P) - 1) == inject_Z (Z.of_nat (length P)) - 1)%Q) by (unfold Z.sub; rewrite inject_Z_plus; reflexivity).
    rewrite E. set (q := (inject_Z (Z.of_nat (length P)) - 1)%Q) in *. set (s := qsum _). field. exact N0.
Qed.

Lemma select_combine {A B} (g : A -> bool) : forall (T : list A) (X : list B), length T = length X ->
  select (map g T) X = map snd (filter (fun tx => g (fst tx)) (combine T X)).
Proof.
  induction T as [|t T IH]; intros [|x X] H; try discriminate; [reflexivity|]. cbn [map combine filter fst].
  specialize (IH X ltac:(now injection H)). unfold select in *. cbn [combine filter fst map]. destruct (g t); cbn [map snd]; rewrite IH; reflexivity.
Qed.

Lemma qsum_counts cs : (qsum (map (fun c => inject_Z (Z.of_nat c)) cs) == inject_Z (Z.of_nat (list_sum cs)))%Q.
Proof.
  induction cs as [|c cs IH]; [reflexivity|]. cbn [map list_sum fold_right]. unfold qsum in *. cbn [fold_right].
  rewrite IH. unfold list_sum. rewrite Nat2Z.inj_add, inject_Z_plus. reflexivity.
Qed.

Lemma scores_of y mj T : 0 < list_sum (map (foreign y mj) T) ->
  let r := fix_density (map (fun c => Fin (inject_Z (Z.of_nat c))) (map (foreign y mj) T)) in
  kernel_scores y mj T r /\ Forall (Qle 0) r /\ map (Qlt_b 0) r = map (fun t => 0 <? foreign y mj t) T.
Proof.
  intros H. cbv zeta. set (cs := map (foreign y mj) T) in *. set (total := list_sum cs) in *.
  assert (E1 : map nan_to_num (map (fun c => Fin (inject_Z (Z.of_nat c))) cs) = map (fun c => inject_Z (Z.of_nat c)) cs) by now rewrite map_map.
  assert (Tp : (0 < inject_Z (Z.of_nat total))%Q) by now apply inj_pos.
  assert (ES : (qsum (map (fun c => inject_Z (Z.of_nat c)) cs) == inject_Z (Z.of_nat total))%Q) by apply qsum_counts.
  destruct (fix_counts cs) as (F1 & F2 & _). set (r := fix_density _) in *.
  assert (Er : r = map (fun c => inject_Z (Z.of_nat c) / qsum (map (fun c => inject_Z (Z.of_nat c)) cs))%Q cs).
  { unfold r. rewrite fix_density_nonzero; rewrite E1; [now rewrite map_map|]. rewrite ES. lra. }
  split; [split|split].
  - unfold cs in F1. now rewrite map_length in F1.
  - intros i Hi. fold cs total. rewrite Er. rewrite (nth_map_in _ 0) by (unfold cs; now rewrite map_length). rewrite ES.
    unfold cs. rewrite (nth_map_in _ []) by exact Hi. field. lra.
  - exact F2.
  - rewrite Er. unfold cs at 2. rewrite !map_map. apply map_ext. intros t. set (q := qsum _) in *.
    assert (Q0 : (0 < q)%Q) by lra. destruct (Nat.ltb_spec 0 (foreign y mj t)) as [G|G].
    + apply Qlt_b_iff'. apply Qlt_shift_div_l; [exact Q0|]. rewrite Qmult_0_l. now apply inj_pos.
    + destruct (Qlt_b 0 _) eqn:C; [|reflexivity]. apply Qlt_b_iff' in C. exfalso. replace (foreign y mj t) with 0 in C by lia.
      change (inject_Z (Z.of_nat 0)) with 0%Q in C. unfold Qdiv in C. rewrite Qmult_0_l in C. lra.
Qed.

Lemma filter_map_length {A B} (g : A -> B) (f : B -> bool) l : length (filter f (map g l)) = length (filter (fun x => f (g x)) l).
Proof. induction l as [|x l IH]; [reflexivity|]. cbn [map filter]. destruct (f (g x)); cbn [length]; now rewrite IH. Qed.

Lemma filter_pos_sum cs : 0 < length (filter (Nat.ltb 0) cs) -> 0 < list_sum cs.
Proof.
  unfold list_sum. induction cs as [|c cs IH]; cbn [filter fold_right length]; [lia|]. destruct (Nat.ltb_spec 0 c); cbn [length]; [lia|]. intros G. specialize (IH G). lia.
Qed.

Section KA.

Variable dist : row -> row -> Q.
Variable nn : list row -> list row -> nat -> res (list (list nat)).
Variable p_x : list row -> list Q -> row -> Q.
Variable ill_conditioned : list row -> bool.
Variable cholesky : list row -> res (list row).
Variable normal : nat -> nat -> nat -> row.
Variable pca : nat -> list row -> res pca_fit.
Variable p : ka_params.
Variable ds : nat -> draws.
Variables mn mj n : Z.

Hypothesis Hnn : knn_ok dist nn.
Hypothesis Hpx : kernel_ok p_x.
Hypothesis Hch : cholesky_shapes cholesky.
Hypothesis Hpca : pca_shapes pca.
Hypothesis Hds : forall l, draws_ok (ds l).
Hypothesis Hper : 1 <= ka_periods p.
Hypothesis Hn : (0 < n)%Z.

Lemma mcmc_ok level D X_min r V : rect (d_dim D) X_min -> length r = length X_min -> Forall (Qle 0) r ->
  0 < length (where_ (map (Qlt_b 0) r)) -> length V = d_dim D ->
  match cholesky V with
  | Err e => mcmc p_x cholesky normal p (ds level) level X_min r V (Z.to_nat n) = Err e
  | Ok L => exists S, mcmc p_x cholesky normal p (ds level) level X_min r V (Z.to_nat n) = Ok S /\
      ka_spec p_x normal p (ds level) level D X_min n r L S
  end.
Proof.
  intros HX Hr Hr0 Hs HV. unfold mcmc. set (scored := where_ _) in *. unfold randint.
  destruct (Nat.eqb_spec (length scored) 0) as [E0|_]; [lia|]. cbn [bind]. set (i := dr_int _ _ _ _).
  assert (Hi : i < length scored) by (apply (Hds level); lia). rewrite (get_nth 0) by exact Hi. cbn [bind]. set (b := nth i scored 0).
  assert (Hb : In b scored) by now apply nth_In. apply NoiseFacts2.where_in in Hb. rewrite map_length in Hb. destruct Hb as [Hb1 Hb2].
  rewrite (nth_map_in _ 0%Q) in Hb2 by exact Hb1. apply Qlt_b_iff' in Hb2. rewrite (get_nth []) by lia. cbn [bind].
  destruct (cholesky V) as [L|e] eqn:EC; [|reflexivity]. cbn [bind]. destruct (Hch _ _ EC) as [LL RL]. rewrite HV in *.
  destruct (Hpx X_min r Hr Hr0) as [P1 P2].
  pose proof (mcmc_loop_reads (p_x X_min r) L (normal level) (fun it => dr_unif (ds level) it 0) (nth b X_min []) (ka_burn_in p) (ka_periods p) ltac:(lia)
    (ka_burn_in p + ka_periods p * S (Z.to_nat n)) 0 (Z.to_nat n)) as G. cbv zeta in G. rewrite Nat.div_0_l in G by lia. rewrite Nat.max_0_l in G.
  cbn [walk] in G. eexists. split.
  { apply G. right. pose proof (Nat.mul_div_le (ka_burn_in p) (ka_periods p) ltac:(lia)). nia. }
  split; [now rewrite map_length, seq_length|]. exists (walk (p_x X_min r) L (normal level) (fun it => dr_unif (ds level) it 0) (nth b X_min [])), b.
  split; [lia|]. split; [exact Hb2|]. split; [reflexivity|]. split.
  - apply walk_chain; auto; [apply rect_nth; [exact HX|lia]|apply P2; [lia|exact Hb2]|]. intros it. apply (Hds level).
  - intros j Hj. rewrite (nth_map_in _ 0) by now rewrite seq_length. now rewrite seq_nth.
Qed.

Lemma ka_ok : forall fuel level D st, d_dim D <= fuel -> wf_data (d_X D) (d_dim D) (d_y D) -> is_minority (d_y D) mn mj ->
  asked (ka_proportion p) (d_y D) mn mj = Ok n -> 2 < count_label (d_y D) mn -> stats_of (d_y D) mn mj st ->
  ka_result dist p_x ill_conditioned cholesky normal pca p ds mn mj n level D
    (ka_algorithm nn p_x ill_conditioned cholesky normal pca fuel p ds level st D).
Proof.
  induction fuel as [|fuel IH]; intros level D st Hf [HX Hl] Hmin Ha H2 Hst; cbn [ka_algorithm].
  all: rewrite (det_st_asked _ _ _ _ _ (proj1 Hmin) Hst), Ha; cbn [bind]; destruct (Nat.eqb_spec (Z.to_nat n) 0) as [E0|_]; [lia|].
  all: destruct (stats_labels _ _ _ _ Hst) as [El1 El2]; rewrite El1, El2; set (X_min := rows_with mn (d_X D) (d_y D)).
  all: assert (HL : length X_min = count_label (d_y D) mn) by now apply rows_with_length.
  all: assert (HR : rect (d_dim D) X_min) by now apply rows_with_rect.
  all: assert (HLE : length X_min <= length (d_X D)) by (rewrite HL, Hl; apply count_label_le).
  all: destruct (Hnn (d_X D) X_min (Nat.min (length X_min) (ka_k p + 1))) as (T & -> & HT); [lia|]; cbn [bind].
  all: destruct (nearest_table_shape _ _ _ _ _ HT) as (T1 & T2 & T3).
  all: change (mapM (fun t => do ls <- gather (d_y D) (tl t); Ok (length (filter (Z.eqb mj) ls))) T) with (mapM (count_neighbours (d_y D) mj) T).
  all: rewrite foreign_ok by (rewrite <- Hl; exact T3); cbn [bind]; rewrite filter_map_length.
  all: destruct (Nat.ltb_spec (length (filter (fun t => 0 <? foreign (d_y D) mj t) T)) 2) as [Hfew|Hmany]; [eapply ka_few; [exact HT|exact Hfew]|].
  all: assert (Hsum : 0 < list_sum (map (foreign (d_y D) mj) T)) by (apply filter_pos_sum; rewrite filter_map_length; lia).
  all: destruct (scores_of (d_y D) mj T Hsum) as (S1 & S2 & S3); set (r := fix_density _) in *.
  all: assert (Lr : length r = length X_min) by (destruct S1; lia).
  all: rewrite S3, (select_combine (fun t => 0 <? foreign (d_y D) mj t)) by exact T1.
  all: set (P := map snd _); assert (LP : length P = length (filter (fun t => 0 <? foreign (d_y D) mj t) T)) by
    (unfold P; rewrite <- (select_combine (fun t => 0 <? foreign (d_y D) mj t)) by exact T1; rewrite DistFacts.select_count by (rewrite map_length; exact T1); now rewrite filter_map_length).
  all: assert (HP : rect (d_dim D) P) by (apply Forall_forall; intros x Hx; unfold P in Hx; apply in_map_iff in Hx; destruct Hx as ([t x'] & <- & Hx);
    apply filter_In in Hx; destruct Hx as [Hx _]; apply in_combine_r in Hx; unfold rect in HR; rewrite Forall_forall in HR; now apply HR).
  all: destruct (covariance_ok (d_dim D) P) as (V & EV & HV); [intros EP0; rewrite EP0 in LP; cbn [length] in LP; lia|rewrite LP; exact Hmany|exact HP|]; rewrite EV; cbn [bind].
  all: assert (LV : length V = d_dim D) by (destruct HV as (m & _ & HV & _); exact HV).
  all: assert (HS : ka_setting dist p mn mj D T r V) by (split; [exact HT|split; [exact S1|exact HV]]).
  all: assert (Hnf : ~ few_scored mj (d_y D) T) by (unfold few_scored; lia).
  all: destruct ((1 <? length V) && ill_conditioned V) eqn:EI.
  1: exfalso; apply andb_true_iff in EI; destruct EI as [EI1 _]; apply Nat.ltb_lt in EI1; lia.
  2:{ apply andb_true_iff in EI. destruct EI as [EI1 EI2]. apply Nat.ltb_lt in EI1.
    destruct (Nat.leb_spec (d_dim D) 2) as [D2|D2]; [eapply ka_flat; eauto; lia|].
    pose proof (half_of_rint (length V) ltac:(lia)) as HH. rewrite LV in HH. rewrite LV. set (k := Z.to_nat _) in *.
      assert (Hk : k <= fuel) by (unfold half_of in HH; lia).
      destruct (pca k (d_X D)) as [f|e] eqn:EP; cbn [bind]; [|eapply ka_no_pca; eauto].
      set (D' := mk_data (map (pca_to f) (d_X D)) k (d_y D)).
      destruct (sample_default (ka_algorithm nn p_x ill_conditioned cholesky normal pca fuel p ds (S level)) D' mn mj Hmin) as (st' & Hst' & ->).
      cbn [d_y D']. destruct (Nat.leb_spec (count_label (d_y D) mn) 2) as [|_]; [lia|].
      assert (G : ka_result dist p_x ill_conditioned cholesky normal pca p ds mn mj n (S level) D' (ka_algorithm nn p_x ill_conditioned cholesky normal pca fuel p ds (S level) st' D')).
      { apply IH; auto. split; [|cbn; now rewrite map_length]. apply Forall_forall. intros x Hx. cbn in Hx. apply in_map_iff in Hx. destruct Hx as (x' & <- & Hx).
        now apply (Hpca _ _ _ EP). }
      destruct (ka_algorithm nn p_x ill_conditioned cholesky normal pca fuel p ds (S level) st' D') as [out|e]; cbn [bind].
      - eapply ka_reduced; eauto.
      - eapply ka_reduced_err; eauto. }
  all: assert (HI : 2 <= d_dim D -> ill_conditioned V = false) by (intros G; rewrite LV in EI; destruct (Nat.ltb_spec 1 (d_dim D)); [exact EI|lia]).
  all: pose proof (mcmc_ok level D X_min r V HR Lr S2) as G; rewrite S3 in G.
  all: assert (W : 0 < length (where_ (map (fun t => 0 <? foreign (d_y D) mj t) T))) by (unfold where_; rewrite DistFacts.select_count by (now rewrite seq_length); rewrite filter_map_length; lia).
  all: specialize (G W LV); destruct (cholesky V) as [L|e] eqn:EC.
  all: first [ rewrite G; cbn [bind]; eapply ka_no_factor; eauto; fail
             | destruct G as (S & -> & G); cbn [bind]; unfold extended; rewrite El1; eapply ka_chain; eauto ].
Qed.

End KA.
