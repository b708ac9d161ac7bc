From Coq Require Import List ZArith QArith Qabs Qminmax Qround Qpower Bool Arith Lia Lqa Sorting.Sorted Permutation.
From Verif Require Import Np PyVal NpFacts BaseFacts SimplexModel Spec SpecDanger SpecNoise SpecComp SimplexFacts SimplexGeom Float64
  SamplerModel SamplerFacts OversFacts BaseModel KnnFacts DangerModel DangerFacts BorderFacts ClusterModel ClusterOversModel OversGen
  ClusterOversFacts ClusterFacts NoiseModel NoiseFacts NoiseFacts2 CompModel CompFacts CompFacts2 CompFacts3 CompFacts4 EditModel SpecEdit EditFacts EditFacts3 EditFacts4 EditFacts5
  SpecNear NearFacts NearFacts2 LevelModel SpecLevel LevelFacts LevelFacts3 LevelFacts4 SpecGroup GroupFacts GroupFacts2 GroupFacts4 WrapModel SpecWrap WrapFacts WrapFacts2 WrapFacts3 DirModel SpecDir DirFacts DirFacts3 RegionModel SpecRegion RegionFacts RegionFacts2 RegionFacts4 SearchModel SpecSearch SearchFacts2 GraphModel SpecGraph GraphFacts GraphFacts2 GraphFacts4 GraphFacts5 GraphFacts6 GraphFacts8 MixModel SpecMix.
Import ListNotations.
Open Scope nat_scope.

(** ** SMOTEWB *)

Lemma nth_repeat_lt {A} (a b : A) n j : j < n -> nth j (repeat a n) b = a.
Proof. intros H. rewrite (nth_indep _ b a) by (rewrite repeat_length; exact H). apply nth_repeat. Qed.

Lemma noise_limit_eq o n : (wb_threshold o n == noise_limit o n)%Q.
Proof. unfold wb_threshold, noise_limit. cbn [Qpower Qpower_positive]. reflexivity. Qed.

Lemma quiet_select th th' : (th == th')%Q -> forall (w : list Q) (X : list row),
  select (map negb (noise_mask th w)) X = map snd (filter (fun wx => Qle_bool (fst wx) th') (combine w X)).
Proof.
  intros Ht. induction w as [|q w IH]; intros X; [reflexivity|]. destruct X as [|x X]; [reflexivity|]. cbn -[Qle_bool Qlt_b].
  assert (E : negb (Qlt_b th q) = Qle_bool q th').
  { unfold Qlt_b. rewrite negb_involutive. apply eq_true_iff_eq. rewrite !Qle_bool_iff, Ht. reflexivity. }
  rewrite E. destruct (Qle_bool q th'); cbn [map snd]; now rewrite IH.
Qed.

(** The labels of the quiet rows. *)
Lemma first_majority_ok mn mj a b none t : mn <> mj -> Forall (fun j => j < a + b) t ->
  exists r, leading a t r /\
    (do labels <- gather (repeat mn a ++ repeat mj b) t; Ok (first_majority mj labels none)) =
    Ok (if length r =? length t then none else length r).
Proof.
  intros Hne Ht. rewrite (gather_map 0%Z) by (rewrite app_length, !repeat_length; exact Ht). cbn [bind].
  unfold first_majority. rewrite map_map.
  assert (Hn : forall j, j < a + b -> (mj =? nth j (repeat mn a ++ repeat mj b) 0)%Z = (a <=? j)).
  { intros j Hj. destruct (Nat.leb_spec a j) as [H|H].
    - rewrite app_nth2 by (rewrite repeat_length; lia). rewrite repeat_length. rewrite nth_repeat_lt by lia. apply Z.eqb_refl.
    - rewrite app_nth1 by (rewrite repeat_length; lia). rewrite nth_repeat_lt by lia. apply Z.eqb_neq. congruence. }
  assert (G : forall t s, Forall (fun j => j < a + b) t -> exists r, leading a t r /\
    first_true_from s (map (fun x => (mj =? nth x (repeat mn a ++ repeat mj b) 0)%Z) t) = if length r =? length t then None else Some (s + length r)).
  { clear t Ht. induction t as [|j t IH]; intros s Ht.
    - exists []. split; [exists []; repeat split; constructor|reflexivity].
    - inversion Ht as [|? ? Hj Ht']; subst. cbn [map first_true_from]. rewrite Hn by assumption. destruct (Nat.leb_spec a j) as [H|H].
      + exists []. split; [exists (j :: t); repeat split; [constructor|exact H]|]. cbn. f_equal. lia.
      + destruct (IH (S s) Ht') as (r & (rest & E1 & E2 & E3) & E). exists (j :: r). split.
        * exists rest. split; [now rewrite E1|]. split; [constructor; assumption|assumption].
        * rewrite E. cbn [length]. change (S (length r) =? S (length t)) with (length r =? length t).
          destruct (length r =? length t); [reflexivity|]. f_equal. lia. }
  destruct (G t 0 Ht) as (r & H1 & H2). exists r. split; [exact H1|]. rewrite H2. destruct (length r =? length t); reflexivity.
Qed.

(** The neighbours of one row. *)
Definition wb_used (k_max : nat) (noisy : bool) (r : list nat) : list nat := firstn k_max (if noisy then r else tl r).

Lemma leading_length m t r : leading m t r -> length r <= length t.
Proof. intros (rest & -> & _). rewrite app_length. lia. Qed.
Lemma leading_all m t r : leading m t r -> length r = length t -> r = t.
Proof. intros (rest & -> & _) H. rewrite app_length in H. destruct rest; [now rewrite app_nil_r|cbn in H; lia]. Qed.

Lemma wb_near_ok k_max k m t r (noisy : bool) : 1 <= k_max -> 1 <= k -> length t = k -> leading m t r ->
  let first := if length r =? length t then k_max + 1 else length r in
  let ks := wb_reach (Nat.min k k_max) noisy first in
  (if noisy then firstn ks t else firstn ks (skipn 1 t)) = wb_used k_max noisy r /\
  (noisy = true -> (ks = 0 <-> r = [])) /\
  (noisy = false -> (ks = 0 <-> length r < length t /\ length r <= 1)).
Proof.
  intros Hm Hk Hl Hr. pose proof (leading_length _ _ _ Hr) as Hle. cbv zeta. unfold wb_reach, wb_used.
  destruct (Nat.eqb_spec (length r) (length t)) as [E|E].
  - pose proof (leading_all _ _ _ Hr E) as ->. destruct noisy.
    + split; [|split; [intros _|discriminate]].
      * destruct (Nat.le_gt_cases k_max k).
        { f_equal. lia. }
        rewrite !firstn_all2 by lia. reflexivity.
      * split; [lia|]. intros ->. cbn in Hl. lia.
    + split; [|split; [discriminate|intros _; lia]].
      assert (Lt : length (tl t) = k - 1) by (destruct t; cbn in *; lia).
      replace (skipn 1 t) with (tl t) by (destruct t; reflexivity).
      destruct (Nat.le_gt_cases k_max k); [f_equal; lia|]. rewrite !firstn_all2 by lia. reflexivity.
  - destruct Hr as (rest & -> & Hr1 & Hr2). rewrite app_length in *. destruct noisy.
    + split; [|split; [intros _|discriminate]].
      * destruct (Nat.le_gt_cases (length r) k_max).
        { rewrite (firstn_all2 r) by lia. replace (Nat.min (Nat.min k k_max) (length r)) with (length r) by lia.
          rewrite firstn_app, firstn_all, Nat.sub_diag. cbn. now rewrite app_nil_r. }
        rewrite firstn_app. replace (Nat.min (Nat.min k k_max) (length r)) with k_max by lia. replace (k_max - length r) with 0 by lia. cbn. now rewrite app_nil_r.
      * split; [intros H; destruct r; [reflexivity|cbn in H; lia]|]. intros ->. cbn. lia.
    + split; [|split; [discriminate|intros _; lia]].
      destruct r as [|a r]; cbn [tl length] in *.
      * rewrite firstn_nil. cbn. rewrite Nat.min_0_r. reflexivity.
      * cbn [app skipn]. rewrite Nat.sub_succ, Nat.sub_0_r. destruct (Nat.le_gt_cases (length r) k_max).
        { rewrite (firstn_all2 r) by lia. replace (Nat.min (Nat.min k k_max) (length r)) with (length r) by lia.
          rewrite firstn_app, firstn_all, Nat.sub_diag. cbn. now rewrite app_nil_r. }
        rewrite firstn_app. replace (Nat.min (Nat.min k k_max) (length r)) with k_max by lia. replace (k_max - length r) with 0 by lia. cbn. now rewrite app_nil_r.
Qed.

(** Sharing the new rows. *)
Lemma mem_filter_count l m : NoDup l -> Forall (fun i => i < m) l -> length (filter (mem l) (seq 0 m)) = length l.
Proof.
  intros Hn Hl. apply Permutation_length, NoDup_Permutation; [apply NoDup_filter, seq_NoDup|assumption|]. intros x.
  rewrite filter_In, in_seq, mem_in. rewrite Forall_forall in Hl. split; [tauto|]. intros Hx. split; [|exact Hx]. specialize (Hl x Hx). lia.
Qed.

Lemma share_sum (u f : nat -> bool) per l : 1 <= per -> (forall i, f i = true -> u i = true) ->
  list_sum (map (fun i => if u i then if f i then per - 1 else per else 0) l) + length (filter f l) = per * length (filter u l).
Proof.
  intros Hp Hf. induction l as [|i l IH]; [cbn; lia|]. cbn [map list_sum fold_right filter]. fold (list_sum (map (fun i => if u i then if f i then per - 1 else per else 0) l)).
  specialize (Hf i). destruct (u i) eqn:Eu, (f i) eqn:Ef; cbn [length]; try discriminate (Hf eq_refl); lia.
Qed.

Lemma ceil_bounds n u : 0 < u -> 0 < n -> 1 <= (n + u - 1) / u /\ n <= (n + u - 1) / u * u /\ (n + u - 1) / u * u - n < u.
Proof.
  intros Hu Hn. pose proof (Nat.div_mod (n + u - 1) u ltac:(lia)) as E. pose proof (Nat.mod_upper_bound (n + u - 1) u ltac:(lia)).
  set (q := (n + u - 1) / u) in *. rewrite Nat.mul_comm in E. split; [|lia]. destruct q; [lia|lia].
Qed.

Lemma between_segment d u x v : unit_share u -> length x = d -> length v = d -> on_segment unit_share d x v (GraphModel.between u x v).
Proof.
  intros Hu Hx Hv. unfold GraphModel.between. assert (L1 : length (vsub v x) = d) by (unfold vsub; rewrite map2_length; lia).
  assert (L2 : length (vscale u (vsub v x)) = d) by (unfold vscale; rewrite map_length; exact L1). split.
  - unfold vadd. rewrite map2_length. lia.
  - exists u. split; [exact Hu|]. intros j Hj. rewrite vadd_nth, vscale_nth, vsub_nth by lia. reflexivity.
Qed.

Section SMOTEWB.

Variable volume : list row -> Q.
Variable dist : row -> row -> Q.
Variable nn : list row -> list row -> nat -> res (list (list nat)).
Hypothesis Hnn : knn_ok dist nn.
Variable boosted : list row -> list Z -> list Q.
Hypothesis Hboost : forall X y, length (boosted X y) = length X.

Lemma wb_rows_ok dim d G X_min i (noisy : bool) t k c used : draws_ok d -> rect dim G -> rect dim X_min -> i < length X_min ->
  Forall (fun j => j < length G) used -> (if noisy then firstn k t else firstn k (skipn 1 t)) = used ->
  exists B, wb_rows d G X_min i noisy t k c = Ok B /\
    (k = 0 -> noisy = true -> B = []) /\ (k = 0 -> noisy = false -> B = repeat (nth i X_min []) c) /\
    (k <> 0 -> used = [] -> B = []) /\
    (used <> [] -> length B = c /\ Forall (fun z => exists j, In j used /\ on_segment unit_share dim (nth i X_min []) (nth j G []) z) B).
Proof.
  intros Hd HG HX Hi Hu Eu. unfold wb_rows. rewrite (get_nth []) by assumption. cbn [bind]. rewrite Eu. set (x := nth i X_min []).
  destruct (Nat.eqb_spec k 0) as [->|Hk].
  - destruct noisy; eexists; split; try reflexivity; repeat split; try congruence; intros; cbn in Eu; subst used; congruence.
  - destruct (Nat.eqb_spec (length used) 0) as [H0|H0].
    + exists []. split; [reflexivity|]. apply length_zero_iff_nil in H0. split; [congruence|]. split; [congruence|]. split; [reflexivity|congruence].
    + assert (exists B, mapM (fun s => do a <- randint d i s (length used); do j <- get used a; do v <- get G j; Ok (GraphModel.between (dr_unif d i s) x v)) (seq 0 c) = Ok B /\
        Forall (fun z => exists j, In j used /\ on_segment unit_share dim x (nth j G []) z) B) as (B & EB & FB).
      { apply mapM_Forall_ok. intros s _. unfold randint. destruct (Nat.eqb_spec (length used) 0) as [H1|_]; [lia|]. cbn [bind].
        assert (Ha : dr_int d i s (length used) < length used) by (apply (ok_int d Hd); lia).
        rewrite (get_nth 0) by exact Ha. cbn [bind]. set (j := nth _ used 0). assert (Hj : In j used) by now apply nth_In.
        rewrite Forall_forall in Hu. rewrite (get_nth []) by now apply Hu. cbn [bind]. eexists. split; [reflexivity|]. exists j. split; [exact Hj|].
        unfold rect in HG, HX. rewrite Forall_forall in HG, HX. apply between_segment; [apply (ok_unif d Hd)|apply HX, nth_In, Hi|apply HG, nth_In, Hu, Hj]. }
      exists B. rewrite EB. split; [reflexivity|]. split; [congruence|]. split; [congruence|]. split; [intros _ ->; now cbn in H0|].
      intros _. split; [|exact FB]. apply mapM_length in EB. now rewrite seq_length in EB.
Qed.

End SMOTEWB.
