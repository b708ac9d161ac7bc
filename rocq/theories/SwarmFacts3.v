(** SMOTE_PSO. *)

From Coq Require Import List ZArith QArith Qabs Qminmax Qround Qpower Bool Arith Lia Lqa Sorting.Sorted Permutation.
From Verif Require Import Np PyVal NpFacts BaseFacts SimplexModel Spec SpecDanger SpecNoise SpecComp SimplexFacts SimplexGeom Float64
  SamplerModel SamplerFacts OversFacts BaseModel KnnFacts DangerModel DangerFacts BorderFacts ClusterModel NearModel ClusterOversModel OversGen
  ClusterOversFacts ClusterFacts NoiseModel NoiseFacts NoiseFacts2 CompModel CompFacts CompFacts2 CompFacts3 CompFacts4 EditModel SpecEdit EditFacts EditFacts3 EditFacts4 EditFacts5
  SpecNear NearFacts NearFacts2 LevelModel SpecLevel LevelFacts LevelFacts3 LevelFacts4 SpecGroup GroupFacts GroupFacts2 GroupFacts4 WrapModel SpecWrap WrapFacts WrapFacts2 WrapFacts3 DirModel SpecDir DirFacts DirFacts3 RegionModel SpecRegion RegionFacts RegionFacts2 RegionFacts3 RegionFacts4 SearchModel SpecSearch SearchFacts2 GraphModel SpecGraph GraphFacts GraphFacts2 GraphFacts4 GraphFacts5 GraphFacts6 GraphFacts8 MixModel SpecMix MixFacts MixFacts3 MixFacts4 MixFacts6 SwarmModel SpecSwarm SwarmFacts.
From Verif Require DistFacts.
Import ListNotations.
Open Scope nat_scope.

Lemma same_vsub_back v c t : length v = length t -> same_row (vsub (vadd v (vscale c t)) v) (vscale c t).
Proof.
  intros L. apply (Forall2_nth_intro _ 0%Q 0%Q); [rewrite vsub_length, vadd_length, vscale_length; lia|].
  rewrite vsub_length, vadd_length, vscale_length. intros i Hi.
  rewrite vsub_nth, vadd_nth by (rewrite ?vadd_length, ?vscale_length; lia). ring.
Qed.

Section PSO.

Variable dist : row -> row -> Q.
Variable nn : list row -> list row -> nat -> res (list (list nat)).
Variable norm : row -> Q.
Variable support : list row -> list Z -> list nat.
Variable score : training -> training -> res Q.
Variable p : pso_params.
Variable d : nat.
Variables mn mj : Z.

Hypothesis Hnn : knn_ok dist nn.
Hypothesis Hnorm : norm_ok norm.
Hypothesis Hsup : support_ok support mn mj.
Hypothesis Hscore : score_ok score mn mj.
Hypothesis Hk : 1 <= ps_k p.
Hypothesis Hpop : 1 <= ps_n_pop p.

Definition place_ok (pl : place) : Prop := length (pl_min pl) = d /\ length (pl_maj pl) = d /\ (0 <= pl_bound pl)%Q.
Definition near_place (pl : place) (x : row) : Prop := (norm (vsub x (pl_min pl)) <= pl_bound pl)%Q.

Lemma new_position_ok pl x v : place_ok pl -> length x = d -> length v = d -> length (new_position norm pl x v) = d /\ near_place pl (new_position norm pl x v).
Proof.
  intros (L1 & L2 & B) Lx Lv. destruct Hnorm as (N1 & N2 & N3). unfold new_position, near_place. set (t := vsub (vadd x v) (pl_min pl)).
  assert (Lt : length t = d) by (unfold t; rewrite vsub_length, vadd_length; lia).
  unfold Qlt_b. destruct (Qle_bool (norm t) (pl_bound pl)) eqn:E; cbn [negb].
  - apply Qle_bool_iff in E. split; [rewrite vadd_length; lia|exact E].
  - assert (Hlt : (pl_bound pl < norm t)%Q) by (apply Qnot_le_lt; intros G; apply Qle_bool_iff in G; congruence).
    split; [rewrite vadd_length, vscale_length; lia|].
    rewrite (N3 _ _ (same_vsub_back (pl_min pl) (pl_bound pl / norm t) t ltac:(lia))), N2.
    rewrite Qabs_pos by (apply Qle_shift_div_l; lra).
    setoid_replace (pl_bound pl / norm t * norm t)%Q with (pl_bound pl) by (field; lra). lra.
Qed.

Lemma new_velocity_length r1 r2 pl x v l g : length x = d -> length v = d -> length l = d -> length g = d -> length (new_velocity norm p r1 r2 pl x v l g) = d.
Proof.
  intros. unfold new_velocity. destruct (Qlt_b _ _); rewrite ?vscale_length, !vadd_length, !vscale_length, !vsub_length; lia.
Qed.

Section Search.

Variable X : list row.
Variable y : list Z.
Hypothesis Hy : both mn mj y.
Variable places : list place.
Hypothesis Hpl : Forall place_ok places.
Let start := map (pl_start p) places.
Variable a : Q.
Hypothesis Ha : particle_score score mn X y start = Ok a.

Definition shape (R : list row) : Prop := rect d R /\ length R = length places.
Definition near_all (R : list row) : Prop := Forall2 near_place places R.
Definition particle_ok (t : nat) (q : particle) : Prop :=
  shape (pa_rows q) /\ shape (pa_vel q) /\ shape (pa_best q) /\ (if t =? 0 then pa_rows q = start else near_all (pa_rows q)).

Lemma start_shape : shape start /\ shape (map (pl_velocity p) places).
Proof.
  split; (split; [|unfold start; now rewrite map_length]); unfold start, rect; rewrite Forall_map; eapply Forall_impl; [|exact Hpl| |exact Hpl];
    intros pl (L1 & L2 & _); unfold pl_start, pl_velocity; rewrite ?vadd_length, ?vscale_length, ?vsub_length; lia.
Qed.

Lemma score_total R : exists q, particle_score score mn X y R = Ok q /\ (0 <= q)%Q.
Proof. apply Hscore; cbn [snd]; [|exact Hy]. destruct Hy. split; apply in_or_app; now left. Qed.

Lemma update_best_ok t s q : particle_ok t q -> particle_ok t (update_best (s, q)).
Proof. intros (A & B & C & E). unfold update_best. destruct (Qlt_b _ _); [|repeat split; try apply A; try apply B; try apply C; exact E]. repeat split; try apply A; try apply B; try apply A; exact E. Qed.

Lemma update_best_rows s q : pa_rows (update_best (s, q)) = pa_rows q.
Proof. unfold update_best. destruct (Qlt_b _ _); reflexivity. Qed.

Lemma shape_nth R i : shape R -> i < length places -> length (nth i R []) = d.
Proof. intros [H L] Hi. apply (Forall_nth (fun r => length r = d)); [exact H|lia]. Qed.

Lemma move_ok t r1 r2 G q : shape G -> particle_ok t q -> particle_ok (S t) (move_particle norm p places r1 r2 G q).
Proof.
  intros HG (A & B & C & _). unfold move_particle.
  set (vel := map2 (fun a b => new_velocity norm p r1 r2 (fst a) (fst (snd a)) (snd (snd a)) (fst b) (snd b)) (combine places (combine (pa_rows q) (pa_vel q))) (combine (pa_best q) G)).
  assert (D0 : place) by (exact (mk_place [] [] 0)).
  assert (Lv : length vel = length places).
  { unfold vel. rewrite map2_length, !combine_length. destruct A as [_ A], B as [_ B], C as [_ C], HG as [_ HG]. lia. }
  assert (Hv : shape vel).
  { split; [|exact Lv]. apply Forall_nth. intros i x0 Hi. rewrite Lv in Hi. unfold vel.
    rewrite (map2_nth _ _ _ _ (D0, ([], [])) ([], []) x0) by (rewrite !combine_length; destruct A as [_ A], B as [_ B], C as [_ C], HG as [_ HG]; lia).
    rewrite !combine_nth by (rewrite ?combine_length; destruct A as [_ A], B as [_ B], C as [_ C], HG as [_ HG]; lia). cbn [fst snd].
    apply new_velocity_length; now apply shape_nth. }
  assert (Lp : length (map2 (fun a v => new_position norm (fst a) (snd a) v) (combine places (pa_rows q)) vel) = length places).
  { rewrite map2_length, combine_length. destruct A as [_ A]. lia. }
  assert (K : forall i, i < length places -> let x := nth i (map2 (fun a v => new_position norm (fst a) (snd a) v) (combine places (pa_rows q)) vel) [] in
    length x = d /\ near_place (nth i places D0) x).
  { intros i Hi. cbv zeta. rewrite (map2_nth _ _ _ _ (D0, []) [] []) by (rewrite ?combine_length; destruct A as [_ A]; lia).
    rewrite combine_nth by (symmetry; apply A). cbn [fst snd]. apply new_position_ok; [|now apply shape_nth|now apply shape_nth].
    apply (Forall_nth place_ok); [exact Hpl|exact Hi]. }
  split; [|split; [exact Hv|split; [exact C|]]]; cbn [pa_rows pa_best].
  - split; [|exact Lp]. apply Forall_nth. intros i x0 Hi. rewrite (nth_indep _ x0 []) by exact Hi. apply K. lia.
  - cbn [Nat.eqb]. apply (Forall2_nth_intro _ D0 []); [lia|]. intros i Hi. apply K, Hi.
Qed.

Definition best_ok (t : nat) (best : Q * list row) : Prop :=
  shape (snd best) /\ (snd best = start \/ near_all (snd best)) /\
  (exists b, particle_score score mn X y (snd best) = Ok b /\ (fst best <= b)%Q) /\
  (if t =? 0 then snd best = start /\ fst best = 0%Q else (a <= fst best)%Q).

Lemma argmax_get (l : list Q) : l <> [] -> exists i s, DirModel.argmax l = Ok i /\ get l i = Ok s /\ i < length l /\ s = nth i l 0%Q.
Proof.
  intros H. destruct (argmax_spec l H) as (i & E & L & _). exists i, (nth i l 0%Q). split; [exact E|]. split; [|auto].
  apply get_ok. now apply nth_error_nth'.
Qed.

Lemma a_nonneg : (0 <= a)%Q.
Proof. destruct (score_total start) as (q & E & Hq). rewrite Ha in E. injection E as <-. exact Hq. Qed.

Lemma update_global_ok t scores swarm best : swarm <> [] -> Forall (particle_ok t) swarm -> Forall2 (fun q s => particle_score score mn X y (pa_rows q) = Ok s) swarm scores -> best_ok t best ->
  exists best', update_global scores swarm best = Ok best' /\ best_ok (S t) best'.
Proof.
  intros Hne Hsw F2 (B1 & B2 & (b & B3 & B4) & B5). unfold update_global.
  pose proof (Forall2_length _ _ _ F2) as L.
  destruct (argmax_get scores) as (i & s & Ei & Eg & Hi & Es). { intros ->. apply Hne. now destruct swarm. }
  rewrite Ei. cbn [bind]. rewrite Eg. cbn [bind]. destruct swarm as [|q0 sw] eqn:Esw; [congruence|]. rewrite <- Esw in *.
  assert (Hi' : i < length swarm) by lia.
  rewrite (proj2 (get_ok swarm i (nth i swarm q0)) (nth_error_nth' swarm q0 Hi')). cbn [bind].
  set (q := nth i swarm q0) in *. assert (Hq : particle_ok t q) by (apply (Forall_nth (particle_ok t)); assumption).
  assert (Hs : particle_score score mn X y (pa_rows q) = Ok s).
  { rewrite Es. apply (EditFacts4.Forall2_nth' _ swarm scores q0 0%Q i F2 Hi'). }
  eexists. split; [reflexivity|]. destruct Hq as (Q1 & _ & _ & Q4). pose proof a_nonneg as Ha0.
  unfold Qlt_b. destruct (Qle_bool s (fst best)) eqn:E; cbn [negb].
  - apply Qle_bool_iff in E. split; [exact B1|]. split; [exact B2|]. split; [exists b; auto|]. cbn [Nat.eqb]. destruct (t =? 0).
    + rewrite Q4 in Hs. rewrite Ha in Hs. injection Hs as <-. exact E.
    + exact B5.
  - assert (Hlt : (fst best < s)%Q) by (apply Qnot_le_lt; intros G; apply Qle_bool_iff in G; congruence).
    split; [exact Q1|]. cbn [fst snd]. split; [destruct (t =? 0); [now left|now right]|]. split; [exists s; split; [exact Hs|lra]|]. cbn [Nat.eqb].
    destruct (t =? 0); [|lra]. rewrite Q4, Ha in Hs. injection Hs as <-. lra.
Qed.

Lemma scores_total swarm : exists scores, mapM (fun q => particle_score score mn X y (pa_rows q)) swarm = Ok scores /\
  Forall2 (fun q s => particle_score score mn X y (pa_rows q) = Ok s) swarm scores.
Proof.
  induction swarm as [|q sw (scores & E & F)]; [exists []; split; [reflexivity|constructor]|].
  destruct (score_total (pa_rows q)) as (s & Es & _). exists (s :: scores). cbn [mapM]. rewrite Es. cbn [bind]. rewrite E. split; [reflexivity|]. constructor; assumption.
Qed.

Lemma pso_loop_ok ds : forall more t swarm best, swarm <> [] -> Forall (particle_ok t) swarm -> best_ok t best ->
  exists G b, pso_loop norm score more t p ds mn X y places swarm best = Ok G /\ shape G /\ (G = start \/ near_all G) /\
    particle_score score mn X y G = Ok b /\ (a <= b)%Q.
Proof.
  induction more as [|more IH]; intros t swarm best Hne Hsw Hb; cbn [pso_loop].
  - destruct Hb as (B1 & B2 & (b & B3 & B4) & B5). exists (snd best), b. split; [reflexivity|]. split; [exact B1|]. split; [exact B2|]. split; [exact B3|].
    destruct (t =? 0); [|lra]. destruct B5 as [B5 _]. rewrite B5, Ha in B3. injection B3 as <-. lra.
  - destruct (scores_total swarm) as (scores & -> & F). cbn [bind]. pose proof (Forall2_length _ _ _ F) as L.
    set (swarm' := map update_best (combine scores swarm)).
    assert (K1 : Forall (particle_ok t) swarm').
    { unfold swarm'. rewrite Forall_map. apply Forall_forall. intros [s q] Hq. apply update_best_ok. apply in_combine_r in Hq. rewrite Forall_forall in Hsw. auto. }
    assert (K2 : Forall2 (fun q s => particle_score score mn X y (pa_rows q) = Ok s) swarm' scores).
    { unfold swarm'. clear - F. induction F as [|q s sw sc Hs F IH]; cbn [combine map]; [constructor|]. constructor; [now rewrite update_best_rows|exact IH]. }
    assert (K3 : swarm' <> []). { intros E. apply Hne. apply length_zero_iff_nil. rewrite L, <- (Forall2_length _ _ _ K2), E. reflexivity. }
    destruct (update_global_ok t scores swarm' best K3 K1 K2 Hb) as (best' & -> & Hb'). cbn [bind].
    apply IH; [|clear IH|exact Hb'].
    + intros E. apply map_eq_nil in E. apply K3. apply length_zero_iff_nil. apply (f_equal (@length _)) in E. rewrite combine_length, seq_length in E. cbn in E. lia.
    + rewrite Forall_map. apply Forall_forall. intros [i q] Hq. apply in_combine_r in Hq. cbn [fst snd]. apply move_ok; [apply Hb'|]. rewrite Forall_forall in K1. auto.
Qed.

End Search.

Lemma select_filter (g : Z -> bool) y is : select (map g (labels_at y is)) is = filter (fun i => g (nth i y 0%Z)) is.
Proof. unfold labels_at. now rewrite map_map, select_map_filter. Qed.

Lemma supports_of X y l : length X = length y -> Forall (fun i => i < length y) (support X y) ->
  gather X (select (map (Z.eqb l) (labels_at y (support X y))) (support X y)) = Ok (supports support X y l).
Proof.
  intros L H. rewrite select_filter. unfold supports.
  rewrite (filter_ext (fun i => (l =? nth i y 0)%Z) (fun i => (nth i y 0 =? l)%Z)) by (intros; apply Z.eqb_sym).
  apply gather_rows_at. apply Forall_forall. intros i Hi. apply filter_In in Hi. rewrite Forall_forall in H. rewrite L. apply H, Hi.
Qed.

Lemma supports_rect X y l : rect d X -> length X = length y -> Forall (fun i => i < length y) (support X y) -> rect d (supports support X y l).
Proof.
  intros HX L H. unfold supports, rect, rows_at. rewrite Forall_map. apply Forall_forall. intros i Hi. apply filter_In in Hi. rewrite Forall_forall in H.
  apply (Forall_nth (fun r => length r = d)); [exact HX|]. rewrite L. apply H, Hi.
Qed.

Lemma supports_nonempty X y l : In l (labels_at y (support X y)) -> supports support X y l <> [].
Proof.
  intros H E. unfold supports, rows_at in E. apply map_eq_nil in E. unfold labels_at in H. apply in_map_iff in H. destruct H as (i & Hi & Hin).
  assert (In i (filter (fun i => (nth i y 0 =? l)%Z) (support X y))); [|rewrite E in *; contradiction]. apply filter_In. split; [exact Hin|]. now apply Z.eqb_eq.
Qed.

Lemma nth_concat_blocks {A} (gs : list (list A)) m da i c : Forall (fun g => length g = m) gs -> i < length gs -> c < m ->
  nth (i * m + c) (concat gs) da = nth c (nth i gs []) da.
Proof.
  intros H. revert i. induction H as [|g gs Hg H IH]; intros i Hi Hc; [cbn in Hi; lia|]. cbn [concat]. destruct i as [|i].
  - cbn. now rewrite app_nth1 by lia.
  - cbn [length] in Hi. rewrite app_nth2 by (cbn; lia). replace (S i * m + c - length g) with (i * m + c) by (cbn; lia). cbn [nth]. apply IH; lia.
Qed.

Lemma concat_blocks_length {A} (gs : list (list A)) m : Forall (fun g => length g = m) gs -> length (concat gs) = length gs * m.
Proof. induction 1 as [|g gs Hg H IH]; [reflexivity|]. cbn [concat length]. rewrite app_length. lia. Qed.

Lemma initialize_ok X y : rect d X -> length X = length y -> both mn mj y ->
  let SV_min := supports support X y mn in
  let SV_maj := supports support X y mj in
  let m := Nat.min (length SV_maj) (ps_k p) in
  exists T places, pso_initialize nn norm support p mn mj X y = Ok places /\ nearest_table dist SV_maj SV_min m T /\
    length places = length SV_min * m /\ 0 < length SV_min /\ 0 < m /\ Forall place_ok places /\
    forall i c, i < length SV_min -> c < m -> nth (i * m + c) places (mk_place [] [] 0) =
      mk_place (nth i SV_min []) (nth (nth c (nth i T []) 0) SV_maj []) (norm (vsub (nth i SV_min []) (nth (nth 0 (nth i T []) 0) SV_maj []))).
Proof.
  intros HX L Hy SV_min SV_maj m. destruct (Hsup X y L Hy) as [HB [I1 I2]]. unfold pso_initialize.
  rewrite gather_labels_at by exact HB. cbn [bind]. rewrite !supports_of by assumption. cbn [bind]. fold SV_min SV_maj.
  assert (N1 : 0 < length SV_min) by (destruct SV_min eqn:E; [exfalso; now apply (supports_nonempty X y mn)|cbn; lia]).
  assert (N2 : 0 < length SV_maj) by (destruct SV_maj eqn:E; [exfalso; now apply (supports_nonempty X y mj)|cbn; lia]).
  destruct (Nat.eqb_spec (length SV_min) 0); [lia|]. destruct (Nat.eqb_spec (length SV_maj) 0); [lia|]. cbn [orb].
  assert (Hm : 0 < m) by (unfold m; lia).
  destruct (Hnn SV_maj SV_min m ltac:(unfold m; lia)) as (T & ET & HT). fold m. rewrite ET. cbn [bind].
  pose proof (supports_rect X y mn HX L HB) as R1. fold SV_min in R1. pose proof (supports_rect X y mj HX L HB) as R2. fold SV_maj in R2.
  set (grp := fun xt : row * list nat => map (fun z => mk_place (fst xt) z (norm (vsub (fst xt) (nth (nth 0 (snd xt) 0) SV_maj [])))) (rows_at SV_maj (snd xt))).
  exists T, (concat (map grp (combine SV_min T))).
  assert (LT : length T = length SV_min) by (symmetry; apply (Forall2_length _ _ _ HT)).
  assert (HTn : forall i, i < length SV_min -> length (nth i T []) = m /\ Forall (fun k => k < length SV_maj) (nth i T [])).
  { intros i Hi. pose proof (EditFacts4.Forall2_nth' _ SV_min T [] [] i HT Hi) as (A & _ & B & _). auto. }
  assert (Hc : forall xt, In xt (combine SV_min T) -> length (snd xt) = m /\ Forall (fun k => k < length SV_maj) (snd xt) /\ length (fst xt) = d).
  { intros [x t] Hxt. pose proof (in_combine_l _ _ _ _ Hxt) as Hx. pose proof (in_combine_r _ _ _ _ Hxt) as Ht. cbn [fst snd].
    destruct (In_nth _ _ [] Ht) as (i & Hi & <-). destruct (HTn i ltac:(lia)) as [A B]. split; [exact A|]. split; [exact B|].
    unfold rect in R1. rewrite Forall_forall in R1. now apply R1. }
  assert (EM : mapM (fun xt => do zs <- gather SV_maj (snd xt); do first <- get zs 0; Ok (map (fun z => mk_place (fst xt) z (norm (vsub (fst xt) first))) zs)) (combine SV_min T) = Ok (map grp (combine SV_min T))).
  { apply DistFacts.mapM_const. intros xt Hxt. destruct (Hc xt Hxt) as (A & B & _). rewrite gather_rows_at by exact B. cbn [bind].
    unfold grp. destruct (snd xt) as [|k ks]; [cbn in A; lia|]. reflexivity. }
  rewrite EM. cbn [bind]. split; [reflexivity|]. split; [exact HT|].
  assert (LG : Forall (fun g => length g = m) (map grp (combine SV_min T))).
  { rewrite Forall_map. apply Forall_forall. intros xt Hxt. unfold grp, rows_at. rewrite !map_length. apply (Hc xt Hxt). }
  split; [rewrite (concat_blocks_length _ m LG), map_length, combine_length; lia|]. split; [exact N1|]. split; [exact Hm|]. split.
  - apply Forall_concat. rewrite Forall_map. apply Forall_forall. intros xt Hxt. destruct (Hc xt Hxt) as (A & B & C).
    unfold grp, rows_at. rewrite map_map, Forall_map. eapply Forall_impl; [|exact B]. intros k Hk'. split; [exact C|]. split; [|apply Hnorm].
    cbn [pl_maj]. apply (Forall_nth (fun r => length r = d)); [exact R2|exact Hk'].
  - intros i c Hi Hci. rewrite (nth_concat_blocks _ m) by (try exact LG; try exact Hci; rewrite map_length, combine_length; lia).
    rewrite (nth_indep _ [] (grp ([], []))) by (rewrite map_length, combine_length; lia). rewrite map_nth, combine_nth by (symmetry; exact LT).
    unfold grp, rows_at. cbn [fst snd]. rewrite map_map. destruct (HTn i Hi) as [A _].
    rewrite (nth_indep _ _ ((fun k => mk_place (nth i SV_min []) (nth k SV_maj []) (norm (vsub (nth i SV_min []) (nth (nth 0 (nth i T []) 0) SV_maj [])))) 0)) by (rewrite map_length; lia).
    now rewrite (map_nth (fun k => mk_place (nth i SV_min []) (nth k SV_maj []) (norm (vsub (nth i SV_min []) (nth (nth 0 (nth i T []) 0) SV_maj []))))).
Qed.

Lemma search_ok ds X y : rect d X -> length X = length y -> both mn mj y ->
  exists G, pso_search nn norm support score p ds mn mj X y = Ok G /\ pso_round dist norm support score p d mn mj X y G /\ 0 < length G.
Proof.
  intros HX L Hy. destruct (initialize_ok X y HX L Hy) as (T & places & E & HT & LP & N1 & N2 & HP & Hat).
  set (SV_min := supports support X y mn) in *. set (SV_maj := supports support X y mj) in *. set (m := Nat.min (length SV_maj) (ps_k p)) in *.
  unfold pso_search. rewrite E. cbn [bind].
  destruct (score_total X y Hy (map (pl_start p) places)) as (a & Ha & _).
  destruct (start_shape places HP) as [S1 S2].
  set (D0 := mk_place [] [] 0) in *.
  destruct (pso_loop_ok X y Hy places HP a Ha ds (ps_num_it p) 0
    (repeat (mk_particle (map (pl_start p) places) (map (pl_velocity p) places) (map (pl_start p) places) 0%Q) (ps_n_pop p)) (0%Q, map (pl_start p) places)) as (G & b & EG & SG & HG & Hb & Hab).
  - destruct (ps_n_pop p); [lia|discriminate].
  - apply Forall_forall. intros q Hq. apply repeat_spec in Hq. subst q. split; [exact S1|]. split; [exact S2|]. split; [exact S1|reflexivity].
  - split; [exact S1|]. split; [now left|]. split; [exists a; split; [exact Ha|]|split; reflexivity]. cbn [fst].
    destruct (score_total X y Hy (map (pl_start p) places)) as (a' & Ha' & H0). congruence.
  - exists G. split; [exact EG|]. split; [|destruct SG as [_ SG]; nia].
    unfold pso_round. fold SV_min SV_maj. fold m. exists T, (map (pl_start p) places), a, b. split; [exact HT|].
    split; [now rewrite map_length|]. split; [destruct SG; lia|]. split; [apply SG|].
    assert (Pl : forall i c, i < length SV_min -> c < m -> i * m + c < length places) by (intros i c Hi Hci; rewrite LP; nia).
    split; [|split; [|split; [exact Ha|split; [exact Hb|exact Hab]]]].
    + intros i c Hi Hci. specialize (Pl i c Hi Hci). rewrite (nth_indep (map (pl_start p) places) [] (pl_start p D0)) by (rewrite map_length; exact Pl). rewrite map_nth, (Hat i c Hi Hci).
      pose proof (Forall_nth place_ok places) as Hp. rewrite Forall_nth in HP. specialize (HP (i * m + c) D0 Pl). rewrite (Hat i c Hi Hci) in HP.
      destruct HP as (L1 & L2 & _). cbn [pl_min pl_maj] in L1, L2. unfold pl_start, pl_velocity. cbn [pl_min pl_maj].
      split; [rewrite vadd_length, vscale_length, vsub_length; lia|]. exists (ps_eps p). split; [reflexivity|]. intros j Hj.
      rewrite vadd_nth, vscale_nth, vsub_nth by (rewrite ?vscale_length, ?vsub_length; lia). reflexivity.
    + destruct HG as [HG|HG]; [left; exact HG|right]. intros i c Hi Hci. pose proof (EditFacts4.Forall2_nth' _ places G D0 [] (i * m + c) HG (Pl i c Hi Hci)) as K.
      unfold near_place in K. rewrite (Hat i c Hi Hci) in K. exact K.
Qed.

Lemma count_more y n : mn <> mj -> count_label (y ++ repeat mn n) mn = count_label y mn + n /\ count_label (y ++ repeat mn n) mj = count_label y mj.
Proof.
  intros Hne. unfold count_label. rewrite !count_occ_app. split.
  - f_equal. induction n as [|n IH]; cbn; [reflexivity|]. destruct (Z.eq_dec mn mn); [lia|congruence].
  - enough (count_occ Z.eq_dec (repeat mn n) mj = 0) by lia. induction n as [|n IH]; cbn; [reflexivity|]. destruct (Z.eq_dec mn mj); [congruence|exact IH].
Qed.

Lemma grow_ok ds : mn <> mj -> forall fuel X y, rect d X -> length X = length y -> both mn mj y -> count_label y mj <= count_label y mn + fuel ->
  exists S, pso_grow nn norm support score fuel p ds mn mj X y = Ok S /\ rect d S /\ count_label y mj <= count_label y mn + length S /\
    pso_rounds dist norm support score p d mn mj X y S.
Proof.
  intros Hne. induction fuel as [|fuel IH]; intros X y HX L Hy Hf; cbn [pso_grow]; unfold EditModel.n_label; fold (count_label y mj); fold (count_label y mn);
    (destruct (Nat.leb_spec (count_label y mj) (count_label y mn)) as [Hle|Hgt];
     [exists []; split; [reflexivity|]; split; [constructor|]; split; [cbn; lia|]; now apply balanced|]).
  - lia.
  - destruct (search_ok (ds fuel) X y HX L Hy) as (G & -> & HG & LG). cbn [bind].
    destruct (count_more y (length G) Hne) as [C1 C2].
    assert (RG : rect d G) by (destruct HG as (? & ? & ? & ? & _ & _ & _ & HG & _); exact HG).
    destruct (IH (X ++ G) (y ++ repeat mn (length G))) as (S' & -> & RS & CS & HS).
    + unfold rect. apply Forall_app. split; assumption.
    + rewrite !app_length, repeat_length. lia.
    + destruct Hy. split; apply in_or_app; now left.
    + lia.
    + cbn [bind]. exists (G ++ S'). split; [reflexivity|]. split; [apply Forall_app; split; assumption|]. split; [rewrite app_length; lia|].
      apply search; [lia|exact HG|exact HS].
Qed.

End PSO.

Lemma pso_sample_ok dist nn sd norm support score p ds D mn mj :
  knn_ok dist nn -> norm_ok norm -> support_ok support mn mj -> score_ok score mn mj -> 1 <= ps_k p -> 1 <= ps_n_pop p ->
  wf_data (d_X D) (d_dim D) (d_y D) -> is_minority (d_y D) mn mj ->
  let out := pso_sample nn sd norm support score p ds D in
  (count_label (d_y D) mn <= 2 \/ count_label (d_y D) mn = count_label (d_y D) mj -> unchanged D out) /\
  (2 < count_label (d_y D) mn < count_label (d_y D) mj -> appends D mn (pso_result dist sd norm support score p D mn mj) out).
Proof.
  intros Hnn Hno Hsu Hsc Hk Hp [HX HL] Hmin. cbv zeta. unfold pso_sample.
  destruct (sample_default (pso_algorithm nn sd norm support score p ds) D mn mj Hmin) as (st & Hst & ->).
  destruct (Nat.leb_spec (count_label (d_y D) mn) 2) as [Hle|Hgt]; [split; [reflexivity|lia]|].
  destruct Hst as (Emn & Emj & _). unfold pso_algorithm. rewrite Emn, Emj. unfold EditModel.n_label.
  fold (count_label (d_y D) mj). fold (count_label (d_y D) mn).
  destruct (Nat.leb_spec (count_label (d_y D) mj) (count_label (d_y D) mn)) as [Hle|Hlt]; [split; [reflexivity|lia]|]. split; [lia|]. intros _.
  set (mm := std_fit sd (d_dim D) (d_X D)).
  assert (Lmm : length mm = d_dim D) by apply std_fit_length.
  assert (Hne : mn <> mj) by apply Hmin.
  destruct (grow_ok dist nn norm support score p (d_dim D) mn mj Hnn Hno Hsu Hsc Hk Hp ds Hne (count_label (d_y D) mj) (map (mm_transform mm) (d_X D)) (d_y D)) as (S' & E & RS & CS & HS).
  - unfold rect. rewrite Forall_map. eapply Forall_impl; [|exact HX]. intros x Hx. now apply mm_transform_length.
  - now rewrite map_length.
  - split; apply Hmin.
  - lia.
  - rewrite E. cbn [bind]. exists (map (mm_inverse mm) S'). unfold extended. rewrite Emn. split; [reflexivity|]. split; [|split].
    + unfold rect. rewrite Forall_map. eapply Forall_impl; [|exact RS]. intros x Hx. now apply mm_inverse_length.
    + now rewrite map_length.
    + destruct (std_standard sd (d_dim D) (d_X D)) as (w & W1 & W2). exists w, (mm_transform mm), S'. split; [exact W1|]. split; [exact W2|]. split; [exact HS|].
      clear - RS Lmm. induction RS as [|r R Hr RS IH]; constructor; [|exact IH]. apply (mm_forth (d_dim D)); [exact Lmm|apply std_fit_range|exact Hr].
Qed.
