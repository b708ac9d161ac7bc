(** A_SUWO: majority clusters keep minority clusters apart. *)

From Coq Require Import List ZArith QArith Bool Arith Lia Permutation Relations.
From Verif Require Import Np NpFacts ClusterModel ClusterFacts.
Import ListNotations.
Open Scope nat_scope.

(** The recorded distance of minority row (cluster) [i] to majority cluster [k]
    is below [q]. *)
Definition near_maj (maj : dmat) (q : Q) (k i : nat) : Prop := d_ltb (at_ maj i k) (Some q) = true.

Lemma d_ltb_leb a b c : d_ltb a b = true -> d_leb b c = true -> d_ltb a c = true.
Proof.
  destruct a as [a|], b as [b|], c as [c|]; try (cbn; discriminate); auto.
  unfold d_ltb, d_leb. rewrite !negb_true_iff. intros H1 H2. apply Qle_bool_iff in H2.
  destruct (Qle_bool c a) eqn:E; [|reflexivity]. apply Qle_bool_iff in E.
  assert (Qle_bool b a = true) by (apply Qle_bool_iff; eapply Qle_trans; eassumption). congruence.
Qed.

Lemma d_ltb_min a b c : d_ltb (d_min a b) c = true -> d_ltb a c = true \/ d_ltb b c = true.
Proof. intros H. destruct (d_min_cases a b) as [[E _]|[E _]]; rewrite E in H; auto. Qed.

Lemma stop_chained dm th n cl m : inv (linkage dm) (seq 0 n) cl m -> connected dm th n cl ->
  (forall p q, p < length cl -> q < length cl -> d_leb (at_ m p q) (Some th) = false) ->
  forall i j, i < n -> j < n -> (together cl i j <-> chained dm th n i j).
Proof.
  intros Hi Hc Hstop i j Hin Hjn. pose proof (inv_partition _ _ _ _ Hi) as Hpart. split.
  { intros (c & Hcin & Hic & Hjc). eapply Hc; eassumption. }
  intros Hch.
  assert (Step : forall x y, within dm th n x y -> together cl x y).
  { intros x y (Hx & Hy & Hd). destruct Hpart as (P1 & P2 & P3).
    assert (Hx' := proj2 (P3 x) Hx). assert (Hy' := proj2 (P3 y) Hy).
    apply in_concat in Hx' as (cx & Cx & Ix). apply in_concat in Hy' as (cy & Cy & Iy).
    destruct (In_nth _ _ [] Cx) as (p & Hp & Epx). destruct (In_nth _ _ [] Cy) as (q & Hq & Eqy).
    destruct (Nat.eq_dec p q) as [->|Npq]; [exists cx; repeat split; auto; congruence|].
    exfalso. destruct (inv_entries _ _ _ _ Hi p q Hp Hq Npq) as (d & Ed & _ & Hd2).
    rewrite Epx, Eqy in Hd2. specialize (Hd2 x y Ix Iy). specialize (Hstop p q Hp Hq). rewrite Ed in Hstop. cbn in Hstop.
    assert (Qle_bool d th = true) by (apply Qle_bool_iff; eapply Qle_trans; eassumption). congruence. }
  assert (Tr : forall x y z, together cl x y -> together cl y z -> together cl x z).
  { intros x y z (c & C1 & C2 & C3) (c' & D1 & D2 & D3). exists c. split; [assumption|]. split; [assumption|].
    destruct (In_nth _ _ [] C1) as (p & Hp & <-). destruct (In_nth _ _ [] D1) as (q & Hq & <-).
    rewrite (partition_unique n cl p q y Hpart Hp Hq C3 D2). assumption. }
  assert (G : i = j \/ together cl i j).
  { clear Hin Hjn. induction Hch as [x y Hxy|x|x y z _ IH1 _ IH2]; [right; auto|now left|].
    destruct IH1 as [->|IH1]; [assumption|]. destruct IH2 as [<-|IH2]; [now right|]. right. eapply Tr; eassumption. }
  destruct G as [<-|G]; [|assumption].
  destruct Hpart as (_ & _ & P3). apply P3, in_concat in Hin as (c & C1 & C2). exists c. auto.
Qed.

Lemma nth_min_rows r1 r2 k : length r1 = length r2 -> nth k (min_rows r1 r2) None = d_min (nth k r1 None) (nth k r2 None).
Proof.
  intros L. unfold min_rows. destruct (Nat.lt_ge_cases k (length r1)) as [H|H].
  - now rewrite (map2_nth _ _ _ _ None None None) by lia.
  - rewrite !nth_overflow; [reflexivity|lia|lia|rewrite map2_length; lia].
Qed.

(** A majority cluster is near at most one row. *)
Definition sparse_maj (maj : dmat) (n : nat) (th : Q) : Prop :=
  forall k i j, i < n -> j < n -> near_maj maj th k i -> near_maj maj th k j -> i = j.

Lemma suwo_sparse_loop dm th n w : (forall i j, dm i j == dm j i)%Q ->
  forall fuel cl maj m, inv (linkage dm) (seq 0 n) cl m -> connected dm th n cl ->
  length maj = length cl -> Forall (fun r => length r = w) maj -> sparse_maj maj (length cl) th -> 1 <= length cl -> length cl < fuel ->
  exists cl', suwo_loop fuel th cl maj m = Ok cl' /\ partition_of n cl' /\
    forall i j, i < n -> j < n -> (together cl' i j <-> chained dm th n i j).
Proof.
  intros Hs. induction fuel as [|fuel IH]; intros cl maj m Hi Hc Hmaj Hw Hsp H1 Hf; [lia|].
  pose proof (inv_partition _ _ _ _ Hi) as Hpart. cbn [suwo_loop].
  pose proof (inv_square _ _ _ _ Hi) as Hsq.
  destruct (min_pos (length cl) m Hsq H1) as (v & a & b & -> & Ew & Ha & Hb & Hv & Hmin).
  cbn [bind]. destruct (d_leb v (Some th)) eqn:Estop; cbn [negb].
  2:{ exists cl. split; [reflexivity|]. split; [assumption|]. eapply stop_chained; eauto.
      intros p q Hp Hq. specialize (Hmin p q Hp Hq). destruct (d_leb (at_ m p q) (Some th)) eqn:E; [|reflexivity].
      rewrite (d_leb_trans _ _ _ Hmin E) in Estop. discriminate. }
  rewrite Ew. cbn [bind]. rewrite !(get_nth []) by lia. cbn [bind].
  assert (Eab : exists q, at_ m a b = Some q /\ (q <= th)%Q).
  { destruct (d_eqb_leb _ _ Hv) as [Hv1 _]. pose proof (d_leb_trans _ _ _ Hv1 Estop) as G.
    destruct (at_ m a b) as [q|]; [|discriminate]. exists q. split; [reflexivity|]. now apply Qle_bool_iff. }
  destruct Eab as (q & Eq & Hq).
  assert (Nab : a <> b) by (intros Eab; rewrite Eab, (inv_diag _ _ _ _ Hi b Hb) in Eq; discriminate).
  assert (Wa : length (nth a maj []) = w) by (rewrite Forall_forall in Hw; apply Hw, nth_In; lia).
  assert (Wb : length (nth b maj []) = w) by (rewrite Forall_forall in Hw; apply Hw, nth_In; lia).
  destruct (existsb _ _) eqn:Ex.
  - exfalso. apply existsb_exists in Ex as ([x y] & Hin & Hxy). cbn [fst snd] in Hxy. apply andb_true_iff in Hxy as [Hx Hy].
    apply (In_nth _ _ (None, None)) in Hin as (k & Hk & Ek). rewrite combine_nth in Ek by lia. injection Ek as <- <-.
    apply Nab. apply (Hsp k a b Ha Hb); unfold near_maj, at_; eapply d_ltb_leb; eassumption.
  - destruct (inv_merge _ (linkage_sym dm Hs) (linkage_min dm) _ _ _ a b Hi Ha Hb Nab)
      as (cl' & m' & -> & -> & Lc & Hi' & Nc). cbn [bind].
    assert (Lm : length (del_nth b (set_nth a (min_rows (nth a maj []) (nth b maj [])) maj)) = length cl').
    { rewrite del_nth_length; rewrite set_nth_length; lia. }
    apply IH; auto; try lia.
    + destruct (inv_entries _ _ _ _ Hi a b Ha Hb Nab) as (d & Ed & (x & y & Hx & Hy & Exy) & _).
      eapply (connected_merge dm th n cl cl' a b x y); auto. rewrite Ed in Eq. injection Eq as ->. rewrite Exy. assumption.
    + apply Forall_forall. intros r Hr. apply (In_nth _ _ []) in Hr as (i & Hil & <-).
      rewrite del_nth_nth, set_nth_nth by lia. destruct (skip b i =? a).
      * unfold min_rows. rewrite map2_length. lia.
      * rewrite Forall_forall in Hw. apply Hw, nth_In. pose proof (skip_lt b i (length maj)). lia.
    + intros k i j Hil Hjl. unfold near_maj, at_. rewrite !del_nth_nth, !set_nth_nth by lia.
      pose proof (skip_ne b i) as Ni. pose proof (skip_ne b j) as Nj.
      pose proof (skip_lt b i (length cl) ltac:(lia)) as Li. pose proof (skip_lt b j (length cl) ltac:(lia)) as Lj.
      assert (U : forall x y, x < length cl -> y < length cl -> d_ltb (nth k (nth x maj []) None) (Some th) = true ->
         d_ltb (nth k (nth y maj []) None) (Some th) = true -> x = y) by (intros x y Hx Hy; exact (Hsp k x y Hx Hy)).
      intros G1 G2. apply (skip_inj b).
      destruct (Nat.eqb_spec (skip b i) a) as [E1|E1], (Nat.eqb_spec (skip b j) a) as [E2|E2]; [congruence| | |].
      * rewrite nth_min_rows in G1 by lia. apply d_ltb_min in G1 as [G1|G1]; [rewrite E1; auto|].
        exfalso. apply Nj. symmetry. auto.
      * rewrite nth_min_rows in G2 by lia. apply d_ltb_min in G2 as [G2|G2]; [rewrite E2; auto|].
        exfalso. apply Ni. auto.
      * auto.
Qed.

(** If every majority cluster is near at most one minority row, the clusters are
    the groups of rows connected by chains of distances within the threshold. *)
Theorem suwo_sparse dm th n maj w m : (forall i j, dm i j == dm j i)%Q -> 1 <= n -> square n m ->
  length maj = n -> Forall (fun r => length r = w) maj -> sparse_maj maj n th ->
  (forall i j, i < n -> j < n -> exists q, at_ m i j = Some q /\ (q == dm i j)%Q) ->
  exists cl, suwo_clusters th maj m = Ok cl /\ partition_of n cl /\
    forall i j, i < n -> j < n -> (together cl i j <-> chained dm th n i j).
Proof.
  intros Hs Hn Hsq Hmaj Hw Hsp Hm. unfold suwo_clusters. rewrite (proj1 Hsq).
  apply (suwo_sparse_loop dm th n w Hs); rewrite ?singletons_length; auto.
  - apply inv_start; [assumption|]. intros i j Hi Hj Hij. destruct (Hm i j Hi Hj) as (q & -> & Eq).
    exists q. split; [reflexivity|]. split.
    + exists i, j. repeat split; cbn; auto. now rewrite Eq.
    + intros x y [<-|[]] [<-|[]]. rewrite Eq. apply Qle_refl.
  - apply singletons_connected.
  - unfold suwo_fuel. nia.
Qed.

(** * Blocking *)

(** Entries are the original ones or struck out. *)
Definition original (dm : nat -> nat -> Q) (C D : list nat) (v : option Q) : Prop :=
  forall i j, C = [i] -> D = [j] -> forall q, v = Some q -> (q == dm i j)%Q.

Definition kept_apart (maj : dmat) (dm : nat -> nat -> Q) (th : Q) (n : nat) : Prop :=
  forall i j, i < n -> j < n -> i <> j -> (dm i j <= th)%Q ->
    exists k, near_maj maj (dm i j) k i /\ near_maj maj (dm i j) k j.

Lemma d_ltb_eq a q q' : (q == q')%Q -> d_ltb a (Some q) = true -> d_ltb a (Some q') = true.
Proof.
  intros E H. eapply d_ltb_leb; [exact H|]. cbn. apply Qle_bool_iff. rewrite E. apply Qle_refl.
Qed.

Lemma suwo_apart_loop dm th n w maj : (forall i j, dm i j == dm j i)%Q -> length maj = n -> Forall (fun r => length r = w) maj -> 1 <= n ->
  kept_apart maj dm th n ->
  forall fuel m, square n m -> (forall i, i < n -> at_ m i i = None) ->
  (forall i j q, i < n -> j < n -> at_ m i j = Some q -> (q == dm i j)%Q) -> fin m < fuel ->
  suwo_loop fuel th (singletons n) maj m = Ok (singletons n).
Proof.
  intros Hs Hmaj Hw H1 Hk. induction fuel as [|fuel IH]; intros m Hsq Hd Ho Hf; [lia|]. cbn [suwo_loop].
  destruct (min_pos n m Hsq H1) as (v & a & b & -> & Ew & Ha & Hb & Hv & Hmin).
  cbn [bind]. destruct (d_leb v (Some th)) eqn:Estop; cbn [negb]; [|reflexivity].
  rewrite Ew. cbn [bind]. rewrite !(get_nth []) by lia. cbn [bind].
  destruct (d_eqb_leb _ _ Hv) as [Hv1 Hv2]. pose proof (d_leb_trans _ _ _ Hv1 Estop) as G.
  destruct (at_ m a b) as [q|] eqn:Eq; [|discriminate].
  assert (Hq : (q <= th)%Q) by now apply Qle_bool_iff.
  assert (Nab : a <> b) by (intros E; rewrite E, (Hd b Hb) in Eq; discriminate).
  pose proof (Ho a b q Ha Hb Eq) as Eqd.
  destruct (Hk a b Ha Hb Nab) as (k & K1 & K2); [now rewrite <- Eqd|].
  assert (Wa : length (nth a maj []) = w) by (rewrite Forall_forall in Hw; apply Hw, nth_In; lia).
  assert (Wb : length (nth b maj []) = w) by (rewrite Forall_forall in Hw; apply Hw, nth_In; lia).
  assert (Ex : existsb (fun ab => d_ltb (fst ab) v && d_ltb (snd ab) v) (combine (nth a maj []) (nth b maj [])) = true).
  { apply existsb_exists. exists (nth k (nth a maj []) None, nth k (nth b maj []) None).
    assert (Hkw : k < w).
    { destruct (Nat.lt_ge_cases k w) as [|C]; [assumption|]. unfold near_maj, at_ in K1. rewrite nth_overflow in K1 by lia. discriminate. }
    split.
    - rewrite <- combine_nth by lia. apply nth_In. rewrite combine_length. lia.
    - cbn [fst snd]. symmetry in Eqd. apply andb_true_iff. split; (eapply d_ltb_leb; [|exact Hv1]); eapply d_ltb_eq; eauto. }
  rewrite Ex. destruct Hsq as [Lm Rm]. rewrite (get_nth []) by lia. cbn [bind].
  rewrite (get_nth []) by (rewrite set_nth_length; lia). cbn [bind].
  pose proof (fin_block m a b q ltac:(lia) Eq) as F. cbv zeta in F.
  set (m1 := set_nth a (set_nth b None (nth a m [])) m) in *.
  set (m2 := set_nth b (set_nth a None (nth b m1 [])) m1) in *.
  assert (A1 : forall i, nth i m1 [] = if i =? a then set_nth b None (nth a m []) else nth i m []).
  { intros i. unfold m1. apply set_nth_nth. lia. }
  assert (L1 : length m1 = n) by (unfold m1; now rewrite set_nth_length).
  assert (A2 : forall i, nth i m2 [] = if i =? b then set_nth a None (nth b m1 []) else nth i m1 []).
  { intros i. unfold m2. apply set_nth_nth. lia. }
  assert (Rr : forall i, i < n -> length (nth i m []) = n).
  { intros i Hi. rewrite Forall_forall in Rm. apply Rm, nth_In. lia. }
  assert (R1 : forall i, i < n -> length (nth i m1 []) = n).
  { intros i Hi. rewrite A1. destruct (i =? a); rewrite ?set_nth_length; auto. }
  assert (At1 : forall i j, i < n -> j < n -> nth j (nth i m1 []) None = None \/ nth j (nth i m1 []) None = at_ m i j).
  { intros i j Hi Hj. rewrite A1. destruct (Nat.eqb_spec i a) as [->|]; [|now right].
    rewrite set_nth_nth by (rewrite Rr; lia). destruct (j =? b); auto. }
  assert (At2 : forall i j, i < n -> j < n -> at_ m2 i j = None \/ at_ m2 i j = at_ m i j).
  { intros i j Hi Hj. unfold at_. rewrite A2. destruct (Nat.eqb_spec i b) as [->|]; [|now apply At1].
    rewrite set_nth_nth by (rewrite R1; lia). destruct (j =? a); auto. now apply At1. }
  apply IH.
  - apply square_intro; [unfold m2; now rewrite set_nth_length|]. intros i Hi. rewrite A2. destruct (i =? b); rewrite ?set_nth_length; auto.
  - intros i Hi. destruct (At2 i i Hi Hi) as [->| ->]; auto.
  - intros i j q' Hi Hj Eij. destruct (At2 i j Hi Hj) as [E|E]; rewrite E in Eij; [discriminate|]. now apply Ho.
  - fold m1 m2 in F. lia.
Qed.

(** If a majority cluster lies between any two near rows, no rows are joined. *)
Theorem suwo_apart dm th n maj w m : (forall i j, dm i j == dm j i)%Q -> 1 <= n -> square n m ->
  length maj = n -> Forall (fun r => length r = w) maj -> kept_apart maj dm th n ->
  (forall i j, i < n -> j < n -> exists q, at_ m i j = Some q /\ (q == dm i j)%Q) ->
  suwo_clusters th maj m = Ok (singletons n).
Proof.
  intros Hs Hn Hsq Hmaj Hw Hk Hm. unfold suwo_clusters. rewrite (proj1 Hsq).
  apply (suwo_apart_loop dm th n w); auto.
  - now apply inf_diagonal_square.
  - intros i Hi. rewrite (inf_diagonal_at n) by assumption. now rewrite Nat.eqb_refl.
  - intros i j q Hi Hj E. rewrite (inf_diagonal_at n) in E by assumption. destruct (i =? j); [discriminate|].
    destruct (Hm i j Hi Hj) as (q' & E' & Eq). congruence.
  - pose proof (fin_square n _ (inf_diagonal_square _ _ Hsq)). unfold suwo_fuel. nia.
Qed.
