(** Proofs about MSYN. *)

From Coq Require Import List ZArith QArith Qpower Bool Arith Lia Lqa Sorting.Sorted Permutation.
From Verif Require Import Np PyVal NpFacts BaseFacts SimplexModel Spec SpecDanger SpecNoise SpecComp SimplexFacts SimplexGeom Float64
  SamplerModel SamplerFacts OversFacts BaseModel KnnFacts DangerModel DangerFacts BorderFacts ClusterOversModel OversGen
  ClusterOversFacts ClusterFacts NoiseModel NoiseFacts NoiseFacts2 CompModel CompFacts CompFacts2 CompFacts3 CompFacts4 EditModel SpecEdit EditFacts EditFacts3 EditFacts4 EditFacts5
  SpecNear NearFacts NearFacts2 LevelModel SpecLevel LevelFacts LevelFacts3 LevelFacts4 SpecGroup GroupFacts GroupFacts2 WrapModel SpecWrap WrapFacts.
Import ListNotations.
Open Scope nat_scope.

(** ** Stable sorting *)

Definition lex_before (a b : nat * Q) : Prop := (snd a < snd b \/ snd a == snd b /\ (fst a < fst b)%nat)%Q.

Lemma lex_trans a b c : lex_before a b -> lex_before b c -> lex_before a c.
Proof.
  unfold lex_before. intros [H|[H H']] [G|[G G']].
  - left. eapply Qlt_trans; eassumption.
  - left. now rewrite <- G.
  - left. now rewrite H.
  - right. split; [now rewrite H|lia].
Qed.

Lemma insert_stable a l : (forall b, In b l -> fst a < fst b) -> StronglySorted lex_before l ->
  StronglySorted lex_before (insert_by (fun a b => Qle_bool (snd a) (snd b)) a l).
Proof.
  intros Ha Hs. induction Hs as [|b l Hs IH Hb]; [repeat constructor|]. cbn [insert_by].
  destruct (Qle_bool (snd a) (snd b)) eqn:E.
  - apply Qle_bool_iff in E. assert (L : lex_before a b).
    { destruct (Qle_lt_or_eq _ _ E) as [H|H]; [now left|]. right. split; [assumption|]. apply Ha. now left. }
    constructor; [now constructor|]. constructor; [assumption|]. rewrite Forall_forall in *. intros c Hc. eapply lex_trans; eauto.
  - constructor; [apply IH; intros; apply Ha; now right|].
    assert (L : lex_before b a).
    { left. apply Qnot_le_lt. intros H. apply Qle_bool_iff in H. congruence. }
    rewrite Forall_forall in *. intros c Hc.
    apply (Permutation_in _ (Permutation_sym (insert_by_perm (fun a b => Qle_bool (snd a) (snd b)) a l))) in Hc.
    destruct Hc as [<-|Hc]; auto.
Qed.

Lemma sort_pairs_in l x : In x (sort_by (fun a b : nat * Q => Qle_bool (snd a) (snd b)) l) -> In x l.
Proof. apply Permutation_in, Permutation_sym, sort_by_perm. Qed.

Lemma sort_stable l : StronglySorted (fun a b => fst a < fst b) l ->
  StronglySorted lex_before (sort_by (fun a b : nat * Q => Qle_bool (snd a) (snd b)) l).
Proof.
  induction 1 as [|a l Hs IH Ha]; [constructor|]. cbn. fold (sort_by (fun a b : nat * Q => Qle_bool (snd a) (snd b)) l).
  apply insert_stable; [|exact IH]. intros b Hb. apply sort_pairs_in in Hb.
  rewrite Forall_forall in Ha. auto.
Qed.

Lemma combine_seq_sorted {A} s (v : list A) : StronglySorted (fun a b => fst a < fst b) (combine (seq s (length v)) v).
Proof.
  revert s; induction v as [|x v IH]; intros s; [constructor|]. cbn [length seq combine]. constructor; [apply IH|].
  rewrite Forall_forall. intros [i y] H. apply in_combine_l, in_seq in H. cbn. lia.
Qed.

Lemma argsort_stable v : StronglySorted (before v) (argsort v).
Proof.
  unfold argsort. apply StronglySorted_map.
  eapply StronglySorted_impl_in; [|apply sort_stable, combine_seq_sorted].
  intros [i x] [j y] Hi Hj H. cbn [fst snd] in *.
  apply sort_pairs_in in Hi. apply sort_pairs_in in Hj.
  apply (combine_seq_nth 0%Q) in Hi. apply (combine_seq_nth 0%Q) in Hj.
  destruct Hi as [_ ->], Hj as [_ ->]. rewrite !Nat.sub_0_r in H. exact H.
Qed.

Lemma StronglySorted_app_lt {A} (R : A -> A -> Prop) l1 l2 a b : StronglySorted R (l1 ++ l2) -> In a l1 -> In b l2 -> R a b.
Proof.
  induction l1 as [|x l1 IH]; cbn; intros H Ha Hb; [contradiction|]. inversion H as [|? ? H1 H2]; subst.
  destruct Ha as [<-|Ha]; [|auto]. rewrite Forall_forall in H2. apply H2, in_or_app. now right.
Qed.

Lemma StronglySorted_firstn {A} (R : A -> A -> Prop) n l : StronglySorted R l -> StronglySorted R (firstn n l).
Proof.
  intros H. revert n; induction H as [|a l H IH Ha]; intros [|n]; try constructor; auto.
  rewrite Forall_forall in *. intros x Hx. apply Ha. rewrite <- (firstn_skipn n l). apply in_or_app. now left.
Qed.

Lemma argsort_smallest s n : smallest s n (firstn n (argsort s)).
Proof.
  split; [rewrite firstn_length, argsort_length; reflexivity|]. split; [apply StronglySorted_firstn, argsort_stable|]. split.
  - rewrite Forall_forall. intros i Hi. apply argsort_in. rewrite <- (firstn_skipn n (argsort s)). apply in_or_app. now left.
  - intros i j Hi Hj Hl. apply (StronglySorted_app_lt _ (firstn n (argsort s)) (skipn n (argsort s))); auto.
    + rewrite firstn_skipn. apply argsort_stable.
    + apply argsort_in in Hl. rewrite <- (firstn_skipn n (argsort s)) in Hl. apply in_app_or in Hl. tauto.
Qed.

(** ** Hits and misses *)

Lemma first_match {A} (R : A -> A -> Prop) (f : A -> bool) (l : list A) d : (exists x, In x l /\ f x = true) -> StronglySorted R l ->
  exists k, argmax_bool (map f l) = k /\ k < length l /\ In (nth k l d) l /\ f (nth k l d) = true /\
    forall x, In x l -> f x = true -> x = nth k l d \/ R (nth k l d) x.
Proof.
  intros (x & Hx & Hf) Hs. induction Hs as [|a l Hs IH Ha]; [contradiction|].
  unfold argmax_bool in *. cbn [map first_true]. destruct (f a) eqn:Ea.
  - exists 0. cbn. repeat split; auto; try lia. intros z [<-|Hz] _; [now left|]. right. rewrite Forall_forall in Ha. auto.
  - destruct Hx as [<-|Hx]; [congruence|]. destruct (IH Hx) as (k & E & K1 & K2 & K3 & K4).
    destruct (first_true (map f l)) as [i|] eqn:F.
    + subst i. exists (S k). cbn. repeat split; auto; try lia. intros z [<-|Hz] Hfz; [congruence|auto].
    + exfalso. apply first_true_none in F. rewrite Forall_forall in F. specialize (F true). rewrite in_map_iff in F.
      discriminate F. exists x. auto.
Qed.

Lemma self_first dist X T i : nearest_table dist X X (length X) T -> no_duplicates dist X -> i < length X ->
  exists l, nth i T [] = i :: l /\ (forall j, In j l <-> j < length X /\ j <> i) /\
    StronglySorted (fun a b => dist (nth i X []) (nth a X []) <= dist (nth i X []) (nth b X []))%Q l.
Proof.
  intros HT ND Hi. destruct (Forall2_nth' _ _ _ [] [] i HT Hi) as (L & N & F & S & _).
  destruct (nth i T []) as [|a l]; [cbn in L; lia|].
  assert (P : forall j, In j (a :: l) <-> j < length X).
  { intros j. split; [intros Hj; rewrite Forall_forall in F; auto|]. intros Hj.
    apply (NoDup_length_incl N (l' := seq 0 (length X))); [rewrite seq_length; cbn [length] in *; lia| |apply in_seq; lia].
    intros z Hz. rewrite Forall_forall in F. apply in_seq. specialize (F z Hz). lia. }
  inversion S as [|? ? S' Fa]; subst. inversion N as [|? ? Na N']; subst.
  assert (a = i).
  { destruct (Nat.eq_dec a i) as [|Ne]; [assumption|exfalso].
    assert (Ia : a < length X) by (apply P; now left).
    assert (Ii : In i l) by (destruct (proj2 (P i) Hi) as [|]; [congruence|assumption]).
    rewrite Forall_forall in Fa. specialize (Fa i Ii). specialize (ND i a Hi Ia (not_eq_sym Ne)). Lqa.lra. }
  subst a. exists l. split; [reflexivity|]. split; [|assumption]. intros j. split.
  - intros Hj. split; [apply P; now right|intros ->; contradiction].
  - intros [Hj Hn]. destruct (proj2 (P j) Hj); [congruence|assumption].
Qed.

Lemma another_of_class (y : list Z) i : i < length y -> 2 <= count_label y (nth i y 0%Z) ->
  exists j, j < length y /\ j <> i /\ nth j y 0%Z = nth i y 0%Z.
Proof.
  intros Hi H. unfold count_label in H. destruct (nth_split y 0%Z Hi) as (l1 & l2 & E & L).
  set (z := nth i y 0%Z) in *. clearbody z. subst y.
  rewrite count_occ_app in H. cbn [count_occ] in H. destruct (Z.eq_dec z z); [|congruence].
  destruct (in_dec Z.eq_dec z l1) as [I|I].
  - apply (In_nth _ _ 0%Z) in I. destruct I as (j & Hj & Ej). exists j. rewrite app_length. split; [lia|]. split; [lia|].
    rewrite app_nth1 by lia. exact Ej.
  - apply (count_occ_not_In Z.eq_dec) in I. rewrite I in H.
    assert (I2 : In z l2) by (apply (count_occ_In Z.eq_dec); lia).
    apply (In_nth _ _ 0%Z) in I2. destruct I2 as (j & Hj & Ej). exists (S i + j). rewrite app_length. cbn [length]. split; [lia|]. split; [lia|].
    rewrite app_nth2 by lia. rewrite L. replace (S i + j - i) with (S j) by lia. exact Ej.
Qed.

Lemma msyn_hit_miss_ok dist X y T mn mj i : nearest_table dist X X (length X) T -> no_duplicates dist X -> length X = length y ->
  two_labels y mn mj -> 2 <= count_label y mn -> 2 <= count_label y mj -> i < length X ->
  exists h m, msyn_hit_miss dist X y T i = Ok (h, m) /\ nearest_hit dist X y i h /\ nearest_miss dist X y i m.
Proof.
  intros HT ND L (Hne & I1 & I2 & A) C1 C2 Hi.
  destruct (self_first dist X T i HT ND Hi) as (l & El & Hl & Sl).
  assert (LT : i < length T) by (rewrite (proj1 (nearest_table_shape _ _ _ _ _ HT)); assumption).
  unfold msyn_hit_miss. rewrite (get_nth [] T i LT), El. cbn [bind]. rewrite (get_nth [] X i Hi). cbn [bind get nth_error skipn].
  rewrite (get_nth 0%Z y i) by lia. cbn [bind].
  assert (Fl : Forall (fun j => j < length y) l) by (rewrite Forall_forall; intros j Hj; apply Hl in Hj; lia).
  rewrite (gather_map 0%Z) by assumption. cbn [bind]. rewrite !map_map.
  set (x := nth i X []). set (z := nth i y 0%Z).
  edestruct (fun H => first_match _ (fun j => Z.eqb z (nth j y 0%Z)) l 0 H Sl) as (h & Eh & H1 & H2 & H3 & H4).
  { destruct (another_of_class y i ltac:(lia)) as (j & Hj & Nj & Ej).
    - assert (Hi' : i < length y) by lia. destruct (A (nth i y 0%Z) (nth_In y 0%Z Hi')) as [-> | ->]; assumption.
    - exists j. split; [apply Hl; lia|]. apply Z.eqb_eq. auto. }
  edestruct (fun H => first_match _ (fun j => negb (Z.eqb z (nth j y 0%Z))) l 0 H Sl) as (m & Em & M1 & M2 & M3 & M4).
  { assert (exists w, In w y /\ w <> z) as (w & Hw & Nw).
    { destruct (Z.eq_dec z mn) as [E|E]; [exists mj|exists mn]; split; auto; congruence. }
    apply (In_nth _ _ 0%Z) in Hw. destruct Hw as (j & Hj & Ej). exists j. split.
    - apply Hl. split; [lia|]. intros ->. apply Nw. auto.
    - rewrite Ej. apply negb_true_iff, Z.eqb_neq. auto. }
  rewrite Eh, Em. rewrite (get_nth 0 l h H1). cbn [bind].
  rewrite (get_nth [] X) by (apply Hl in H2; lia). cbn [bind]. rewrite (get_nth 0 l m M1). cbn [bind].
  rewrite (get_nth [] X) by (apply Hl in M2; lia). cbn [bind]. do 2 eexists. split; [reflexivity|]. split; split.
  - exists (nth h l 0). apply Hl in H2. apply Z.eqb_eq in H3. repeat split; auto; try tauto.
  - intros j (J1 & J2 & J3). destruct (H4 j) as [-> |Hr]; [apply Hl; auto|apply Z.eqb_eq; auto|apply Qle_refl|exact Hr].
  - exists (nth m l 0). apply Hl in M2. apply negb_true_iff, Z.eqb_neq in M3. repeat split; auto; try tauto.
  - intros j (J1 & J2). destruct (M4 j) as [-> |Hr]; [apply Hl; split; [assumption|intros ->; congruence]|apply negb_true_iff, Z.eqb_neq; auto|apply Qle_refl|exact Hr].
Qed.

(** ** Scores *)

Lemma gain_nonneg m d : (0 <= gain m d)%Q.
Proof. unfold gain. destruct (Qlt_le_dec d m); Lqa.lra. Qed.

Lemma cut_gain a h d : (half * (a - (if Qlt_b h d then h else d)) - half * (a - h) == half * gain h d)%Q.
Proof.
  unfold gain, half. destruct (Qlt_b h d) eqn:E; destruct (Qlt_le_dec d h) as [H|H].
  - apply Qlt_b_iff in E. Lqa.lra.
  - ring.
  - ring.
  - assert (~ (h < d)%Q) by (intros G; apply Qlt_b_iff in G; congruence). assert (h == d)%Q by Lqa.lra. rewrite H1. ring.
Qed.

Lemma cut_loss a m d : (half * ((if Qlt_b m d then m else d) - a) - half * (m - a) == - (half * gain m d))%Q.
Proof.
  unfold gain, half. destruct (Qlt_b m d) eqn:E; destruct (Qlt_le_dec d m) as [H|H].
  - apply Qlt_b_iff in E. Lqa.lra.
  - ring.
  - ring.
  - assert (~ (m < d)%Q) by (intros G; apply Qlt_b_iff in G; congruence). assert (m == d)%Q by Lqa.lra. rewrite H1. ring.
Qed.

Lemma mapM_map {A B} (f : A -> res B) (g : A -> B) l : (forall a, In a l -> f a = Ok (g a)) -> mapM f l = Ok (map g l).
Proof.
  induction l as [|a l IH]; intros H; [reflexivity|]. cbn [mapM map]. rewrite H by now left. cbn [bind].
  rewrite IH by (intros; apply H; now right). reflexivity.
Qed.

Lemma qsum_map_nonneg {A} (f : A -> Q) l : (forall a, In a l -> (0 <= f a)%Q) -> (0 <= qsum (map f l))%Q.
Proof.
  intros H. apply qsum_nonneg. rewrite Forall_forall. intros q Hq. apply in_map_iff in Hq. destruct Hq as (a & <- & Ha). auto.
Qed.

Lemma where_rows y z n : length y = n -> where_ (map (Z.eqb z) y) = filter (fun i => Z.eqb (nth i y 0%Z) z) (seq 0 n).
Proof.
  intros <-. rewrite where_filter, map_length. apply filter_ext_in'. intros i Hi. apply in_seq in Hi.
  rewrite (nth_indep (map _ y) false (Z.eqb z 0%Z)) by (rewrite map_length; lia). rewrite map_nth. apply Z.eqb_sym.
Qed.

Lemma msyn_f3_ok dist X y mn mj hm x : length X = length y -> length hm = length X ->
  exists q, msyn_f3 dist X hm (where_ (map (Z.eqb mn) y)) (where_ (map (Z.eqb mj) y)) x = Ok q /\
    (q == msyn_score dist X y mn mj (fun i => fst (nth i hm (0, 0))) (fun i => snd (nth i hm (0, 0))) x)%Q.
Proof.
  intros L LH. unfold msyn_f3. rewrite !(where_rows y _ (length X)) by auto.
  set (rows := fun z => filter (fun i => Z.eqb (nth i y 0%Z) z) (seq 0 (length X))).
  assert (R : forall z i, In i (rows z) -> i < length X).
  { intros z i H. apply filter_In in H. destruct H as [H _]. apply in_seq in H. lia. }
  fold (rows mn) (rows mj).
  rewrite (mapM_map _ (fun i => (half * (snd (nth i hm (0, 0)) - (if Qlt_b (fst (nth i hm (0, 0))) (dist (nth i X []) x) then fst (nth i hm (0, 0)) else dist (nth i X []) x))
      - half * (snd (nth i hm (0, 0)) - fst (nth i hm (0, 0))))%Q)).
  2:{ intros i Hi. apply R in Hi. rewrite (get_nth (0, 0)%Q) by lia. cbn [bind]. rewrite (get_nth []) by lia. reflexivity. }
  cbn [bind].
  rewrite (mapM_map _ (fun i => (half * ((if Qlt_b (snd (nth i hm (0, 0))) (dist (nth i X []) x) then snd (nth i hm (0, 0)) else dist (nth i X []) x) - fst (nth i hm (0, 0)))
      - half * (snd (nth i hm (0, 0)) - fst (nth i hm (0, 0))))%Q)).
  2:{ intros i Hi. apply R in Hi. rewrite (get_nth (0, 0)%Q) by lia. cbn [bind]. rewrite (get_nth []) by lia. reflexivity. }
  cbn [bind].
  set (P := qsum (map (fun i => gain (fst (nth i hm (0, 0)%Q)) (dist (nth i X []) x)) (rows mn))).
  set (N := qsum (map (fun i => gain (snd (nth i hm (0, 0)%Q)) (dist (nth i X []) x)) (rows mj))).
  match goal with |- context [Qeq_bool (qsum ?a + _) 0] => assert (EP : (qsum a == half * P)%Q) end.
  { unfold P. rewrite <- qsum_map_scale. apply qsum_map_ext. intros i _. rewrite cut_gain. reflexivity. }
  match goal with |- context [(- qsum ?a)%Q] => assert (EN : (qsum a == - half * N)%Q) end.
  { unfold N. rewrite <- qsum_map_scale. apply qsum_map_ext. intros i _. rewrite cut_loss. ring. }
  assert (HP : (0 <= P)%Q) by (apply qsum_map_nonneg; intros; apply gain_nonneg).
  assert (Hne : ~ (half * P + (1 # 100) == 0)%Q) by (unfold half; Lqa.lra).
  destruct (Qeq_bool _ 0) eqn:EB.
  - exfalso. apply Qeq_bool_iff in EB. rewrite EP in EB. contradiction.
  - eexists. split; [reflexivity|]. rewrite EP, EN. unfold msyn_score. cbv beta zeta. fold (rows mn) (rows mj). fold P. fold N. unfold half in *. field. split; Lqa.lra.
Qed.

Lemma msyn_runs dist vol nn p r D mn mj n n3 :
  knn_ok dist nn -> rng_ok r -> unif_pos r -> plain_ss (sm_ss p) -> wf_data (d_X D) (d_dim D) (d_y D) -> is_minority (d_y D) mn mj ->
  asked (sm_proportion p) (d_y D) mn mj = Ok n -> asked (times_three (sm_proportion p)) (d_y D) mn mj = Ok n3 -> (n <= n3)%Z ->
  1 <= sm_n_neighbors p -> no_duplicates dist (d_X D) ->
  runs D mn n (msyn_spec dist p D mn mj n n3) (msyn_sample vol dist nn p r D).
Proof.
  intros Hnn Hr Hu Hp Hwf Hmin Ha Ha3 Hn3 Hk Hnd. unfold msyn_sample, msyn_algorithm.
  apply (runs_intro _ _ _ _ _ _ _ Hmin Ha). intros st Hst H2 Hn. destruct (stats_labels _ _ _ _ Hst) as [E1 E2]. rewrite E1, E2.
  destruct (smote_result dist vol nn (mk_smote (times_three (sm_proportion p)) (sm_n_neighbors p) (sm_ss p)) r D mn mj n3 Hnn Hr Hu Hp Hwf Hmin Ha3 Hk H2)
    as (C & EC & _ & HC). specialize (HC ltac:(lia)). rewrite EC. cbn [bind fst].
  rewrite skipn_app, skipn_all, Nat.sub_diag. cbn [app skipn].
  destruct Hwf as [W1 W2].
  destruct (Hnn (d_X D) (d_X D) (length (d_X D)) ltac:(lia)) as (T & ET & HT). rewrite ET. cbn [bind].
  pose proof (minority_size _ _ _ Hmin) as Hsz.
  assert (G : forall i, i < length (d_X D) -> exists h m, msyn_hit_miss dist (d_X D) (d_y D) T i = Ok (h, m) /\
     nearest_hit dist (d_X D) (d_y D) i h /\ nearest_miss dist (d_X D) (d_y D) i m).
  { intros i Hi. eapply (msyn_hit_miss_ok dist _ _ T mn mj); eauto; try lia. apply Hmin. }
  destruct (mapM_total (msyn_hit_miss dist (d_X D) (d_y D) T) (seq 0 (length (d_X D)))) as (hm & Ehm).
  { rewrite Forall_forall. intros i Hi. apply in_seq in Hi. destruct (G i ltac:(lia)) as (h & m & E & _). eauto. }
  rewrite Ehm. cbn [bind]. apply mapM_ok_iff in Ehm.
  assert (LH : length hm = length (d_X D)) by (apply Forall2_length in Ehm; rewrite seq_length in Ehm; auto).
  destruct (mapM_total (msyn_f3 dist (d_X D) hm (where_ (map (Z.eqb mn) (d_y D))) (where_ (map (Z.eqb mj) (d_y D)))) C) as (f3 & Ef).
  { rewrite Forall_forall. intros x _. destruct (msyn_f3_ok dist (d_X D) (d_y D) mn mj hm x W2 LH) as (q & E & _). eauto. }
  rewrite Ef. cbn [bind]. apply mapM_ok_iff in Ef. assert (LF := Ef). apply Forall2_length in LF.
  assert (LC : length C = Z.to_nat n3) by apply HC.
  destruct (Nat.eqb_spec (length f3) 0); [lia|].
  assert (SM := argsort_smallest f3 (Z.to_nat n)). destruct SM as (S1 & S2 & S3 & S4).
  rewrite gather_rows_at by (rewrite LF; exact S3). cbn [bind].
  eexists. split; [reflexivity|]. split; [unfold rows_at; rewrite map_length, S1; lia|].
  exists C, (fun i => fst (nth i hm (0, 0)%Q)), (fun i => snd (nth i hm (0, 0)%Q)), f3, (firstn (Z.to_nat n) (argsort f3)).
  split; [exact HC|]. split.
  { intros i Hi. destruct (G i Hi) as (h & m & E & Hh & Hm).
    pose proof (Forall2_nth' _ _ _ 0 (0, 0)%Q i Ehm ltac:(rewrite seq_length; assumption)) as E'. cbv beta in E'.
    rewrite seq_nth in E' by assumption. cbn [Nat.add] in E'. rewrite E in E'. injection E' as <-. auto. }
  split; [|split; [repeat split; assumption|reflexivity]].
  eapply Forall2_impl; [|exact Ef]. cbv beta. intros x q E. destruct (msyn_f3_ok dist (d_X D) (d_y D) mn mj hm x W2 LH) as (q' & E' & Hq).
  rewrite E in E'. injection E' as ->. exact Hq.
Qed.
