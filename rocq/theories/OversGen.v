(** Lemmas for oversamplers that draw from several simplex samplings. *)

From Coq Require Import List ZArith QArith Bool Arith Lia Lqa Sorting.Sorted Permutation.
From Verif Require Import Np NpFacts SimplexModel Spec SimplexFacts SimplexGeom Float64
  SamplerModel SamplerFacts OversFacts ClusterModel ClusterOversModel.
Import ListNotations.
Open Scope nat_scope.

(** Every sample lies in the convex hull of base points and vertices. *)
Lemma ss_hull vol ss a n r S : args_ok a -> rng_ok r -> sample_simplex vol ss a n r = Ok S ->
  length S = n /\
  (ss_gauss ss = GNone -> forall P, incl (a_X a) P -> incl (vertex_set (a_X a) (a_X_vertices a)) P ->
     forall x, In x S -> in_hull (a_dim a) P x).
Proof.
  intros Ha Hr H. destruct (sample_simplex_spec _ _ _ _ _ _ Ha Hr H) as [H1 H2]. split; [assumption|].
  intros Hg P HP1 HP2 x Hx. specialize (H2 Hg). rewrite Forall_forall in H2.
  destruct Ha. eapply neighbour_sample_hull2; [exact ok_rect|exact ok_base| | | |exact (H2 x Hx)]; auto.
Qed.

Definition plain_ss (ss : ss_params) : Prop :=
  1 <= ss_n_dim ss /\
  (ss_sampling ss = SRandom \/ ss_sampling ss = SDeterministic) /\
  (ss_within ss = WRandom \/ (ss_within ss = WDeterministic /\ ss_n_dim ss <= 2)).

(** The sampling does not fail when some base point has a positive weight. *)
Lemma ss_total vol ss a n r b : args_ok a -> rng_ok r -> unif_pos r -> plain_ss ss ->
  1 <= a_ncols a -> b < length (a_indices a) -> a_simplex_weights a = None ->
  match a_base_weights a with Some w => (0 < nth b w 0)%Q | None => True end ->
  exists S, sample_simplex vol ss a n r = Ok S.
Proof.
  intros Ha Hr Hu (Hd & Hm & Hw) Hc Hb Hsw Hbw. apply sample_simplex_total; auto.
  set (nd := Nat.min (ss_n_dim ss) (a_ncols a)).
  exists (b, seq 1 (nd - 1)). split; [|rewrite Hsw; split; cbn; [assumption|Lqa.lra]].
  apply base_idx_in; [unfold nd; lia|]. split; [assumption|]. split; [apply seq_length|]. split; [apply seq_sorted|].
  rewrite Forall_forall. intros q Hq. apply in_seq in Hq. lia.
Qed.

(** Points in the hull of points in the hull. *)
Lemma qsum_concat ls : (qsum (concat ls) == qsum (map qsum ls))%Q.
Proof. induction ls as [|l ls IH]; cbn; [reflexivity|]. now rewrite qsum_app, IH. Qed.

Lemma qsum_map2_scale c (u : list Q) (f : row -> Q) P :
  (qsum (map2 (fun w p => w * f p) (map (Qmult c) u) P) == c * qsum (map2 (fun w p => w * f p) u P))%Q.
Proof.
  revert P; induction u as [|w u IH]; intros [|p P]; cbn; try ring. rewrite IH. ring.
Qed.

Lemma map2_app {A B C} (f : A -> B -> C) l1 l2 m1 m2 : length l1 = length m1 ->
  map2 f (l1 ++ l2) (m1 ++ m2) = map2 f l1 m1 ++ map2 f l2 m2.
Proof. revert m1; induction l1; intros [|y m1] H; try discriminate; cbn; [reflexivity|]. rewrite IHl1; auto. Qed.

Lemma in_hull_trans d P pts x : (forall p, In p pts -> in_hull d P p) -> convex_comb d pts x -> in_hull d P x.
Proof.
  intros Hp (Hl & ws & W1 & W2 & W3 & W4).
  assert (G : forall pts ws, (forall p, In p pts -> in_hull d P p) -> length ws = length pts -> Forall (Qle 0) ws ->
     exists qs us, incl qs P /\ length us = length qs /\ Forall (Qle 0) us /\ (qsum us == qsum ws)%Q /\
       forall j, j < d -> (qsum (map2 (fun w q => w * nth j q 0) us qs) == qsum (map2 (fun w p => w * nth j p 0) ws pts))%Q).
  { clear. induction pts as [|p pts IH]; intros ws Hp Hl Hw.
    - destruct ws; [|discriminate]. exists [], []. repeat split; auto; try reflexivity. intros q [].
    - destruct ws as [|w ws]; [discriminate|]. inversion Hw as [|? ? Hw0 Hw1]; subst.
      destruct (IH ws) as (qs & us & A1 & A2 & A3 & A4 & A5); auto.
      { intros p' Hp'. apply Hp. now right. }
      destruct (Hp p (or_introl eq_refl)) as (ps & Hps & _ & vs & V1 & V2 & V3 & V4).
      exists (ps ++ qs), (map (Qmult w) vs ++ us). split; [|split; [|split; [|split]]].
      + intros z Hz. apply in_app_or in Hz as [Hz|Hz]; auto.
      + rewrite !app_length, map_length. lia.
      + apply Forall_app. split; [|assumption]. rewrite Forall_map. eapply Forall_impl; [|exact V2].
        intros z Hz. now apply Qmult_le_0_compat.
      + rewrite qsum_app, qsum_scale, V3, A4. cbn [qsum]. ring.
      + intros j Hj. rewrite map2_app by (rewrite map_length; assumption). rewrite qsum_app.
        rewrite qsum_map2_scale. rewrite A5 by assumption. cbn [map2 qsum]. rewrite (V4 j Hj). ring. }
  destruct (G pts ws Hp W1 W2) as (qs & us & A1 & A2 & A3 & A4 & A5).
  exists qs. split; [assumption|]. split; [assumption|]. exists us. repeat split; auto.
  - now rewrite A4.
  - intros j Hj. rewrite A5 by assumption. auto.
Qed.

Lemma in_hull_base d P p : In p P -> length p = d -> in_hull d P p.
Proof. intros H Hl. exists [p]. split; [intros q [<-|[]]; assumption|]. now apply convex_comb_singleton. Qed.

(** Sampling cluster by cluster. *)
Lemma by_cluster_spec (P : nat -> row -> Prop) call chosen S :
  (forall c n S', In c chosen -> call c n = Ok S' -> length S' = n /\ forall x, In x S' -> P c x) ->
  by_cluster call chosen = Ok S ->
  length S = length chosen /\ forall x, In x S -> exists c, In c chosen /\ P c x.
Proof.
  intros Hc H. unfold by_cluster in H. inv_bind H. rename a into parts.
  assert (HS : S = concat parts) by (destruct parts; [discriminate|injection H as <-; reflexivity]). subst S. clear H.
  pose proof (unique_total Nat.eqb Nat.ltb chosen) as Ht.
  assert (Hk : forall cc, In cc (unique_by Nat.eqb Nat.ltb chosen) -> In (fst cc) chosen).
  { intros cc Hin. assert (K : In (fst cc) (map fst (unique_by Nat.eqb Nat.ltb chosen))) by now apply in_map.
    apply unique_keys in K; auto; intros; rewrite ?Nat.eqb_eq, ?Nat.ltb_lt in *; try tauto; lia. }
  rewrite <- Ht. clear Ht. set (u := unique_by Nat.eqb Nat.ltb chosen) in *. clearbody u.
  revert parts E Hk. induction u as [|[c n] u IH]; intros parts E Hk; cbn in E.
  - injection E as <-. split; [reflexivity|]. intros x [].
  - inv_bind E. rename a into S'. inv_bind E. rename a into parts'. injection E as <-.
    destruct (IH parts' E1) as [L1 L2]; [intros cc Hcc; apply Hk; now right|].
    pose proof (Hk (c, n) (or_introl eq_refl)) as Hin. cbn in Hin.
    destruct (Hc c n S' Hin E0) as [M1 M2]. cbn [concat map nsum fold_right snd]. split.
    + rewrite app_length, L1, M1. reflexivity.
    + intros x Hx. apply in_app_or in Hx as [Hx|Hx]; [|auto]. exists c. auto.
Qed.

Lemma by_cluster_total call chosen : chosen <> [] -> (forall c n, In c chosen -> exists S, call c n = Ok S) ->
  exists S, by_cluster call chosen = Ok S.
Proof.
  intros Hne Hc. unfold by_cluster.
  assert (Hk : forall cc, In cc (unique_by Nat.eqb Nat.ltb chosen) -> In (fst cc) chosen).
  { intros cc Hin. assert (K : In (fst cc) (map fst (unique_by Nat.eqb Nat.ltb chosen))) by now apply in_map.
    apply unique_keys in K; auto; intros; rewrite ?Nat.eqb_eq, ?Nat.ltb_lt in *; try tauto; lia. }
  destruct (mapM_total (fun cc : nat * nat => call (fst cc) (snd cc)) (unique_by Nat.eqb Nat.ltb chosen)) as [parts Ep].
  { rewrite Forall_forall. intros cc Hcc. apply Hc, Hk, Hcc. }
  rewrite Ep. cbn [bind]. destruct parts as [|S parts]; [|eauto]. exfalso.
  apply mapM_length in Ep. pose proof (unique_total Nat.eqb Nat.ltb chosen) as Ht.
  destruct (unique_by Nat.eqb Nat.ltb chosen); [|discriminate]. cbn in Ht. destruct chosen; [congruence|discriminate].
Qed.
