(** Proofs about SimplexModel.v. *)

From Coq Require Import List ZArith QArith Qround Bool Arith Lia Sorted Permutation Lqa.
From Verif Require Import Np NpFacts SimplexModel Spec.
Import ListNotations.

(** * Enumeration of simplices *)

Lemma combinations_seq k a m c :
  In c (combinations k (seq a m)) <->
  length c = k /\ StronglySorted lt c /\ Forall (fun p => a <= p < a + m)%nat c.
Proof.
  revert k a c; induction m as [|m IH]; intros k a c; cbn [seq].
  - destruct k; cbn.
    + split; [intros [<-|[]]; repeat constructor|].
      intros [H _]. destruct c; [auto|discriminate].
    + split; [tauto|]. intros (H & _ & F). destruct c; [discriminate|].
      inversion F; lia.
  - destruct k as [|k]; cbn [combinations].
    + split; [intros [<-|[]]; repeat constructor|].
      intros [H _]. destruct c; [left; reflexivity|discriminate].
    + rewrite in_app_iff, in_map_iff. split.
      * intros [[c' [<- H]]|H].
        -- apply IH in H as (Hl & Hs & Hf). split; [cbn; lia|]. split.
           ++ constructor; [assumption|]. eapply Forall_impl; [|exact Hf]. cbn; lia.
           ++ constructor; [lia|]. eapply Forall_impl; [|exact Hf]. cbn; lia.
        -- apply IH in H as (Hl & Hs & Hf). split; [assumption|]. split; [assumption|].
           eapply Forall_impl; [|exact Hf]. cbn; lia.
      * intros (Hl & Hs & Hf). destruct c as [|x c]; [discriminate|].
        inversion Hs; subst. inversion Hf; subst.
        destruct (Nat.eq_dec x a) as [->|Hne].
        -- left. exists c. split; [reflexivity|]. apply IH. cbn in Hl.
           split; [lia|]. split; [assumption|].
           rewrite Forall_forall in *. intros p Hp. specialize (H2 p Hp).
           specialize (H4 p Hp). lia.
        -- right. apply IH. split; [assumption|]. split; [assumption|].
           constructor; [lia|]. rewrite Forall_forall in *. intros p Hp.
           specialize (H2 p Hp). specialize (H4 p Hp). lia.
Qed.

Lemma combinations_length {A} k (l : list A) :
  length (combinations k l) = binom (length l) k.
Proof.
  revert k; induction l as [|x l IH]; intros [|k]; cbn [combinations length binom];
    try reflexivity.
  rewrite app_length, map_length, !IH. reflexivity.
Qed.

Lemma NoDup_map_inj {A B} (f : A -> B) l :
  (forall x y, f x = f y -> x = y) -> NoDup l -> NoDup (map f l).
Proof.
  intros Hf. induction 1; cbn; constructor; [|assumption].
  rewrite in_map_iff. intros [y [E Hy]]. apply Hf in E. now subst.
Qed.

Lemma NoDup_app_intro {A} (l1 l2 : list A) :
  NoDup l1 -> NoDup l2 -> (forall x, In x l1 -> In x l2 -> False) -> NoDup (l1 ++ l2).
Proof.
  intros H1 H2 H. induction H1 as [|x l1 Hx H1 IH]; cbn; [assumption|].
  constructor.
  - rewrite in_app_iff. intros [?|Hi]; [contradiction|]. eapply H; [left; reflexivity|exact Hi].
  - apply IH. intros y Hy. apply H. now right.
Qed.

Lemma combinations_incl {A} k (l : list A) c x :
  In c (combinations k l) -> In x c -> In x l.
Proof.
  revert k c; induction l as [|y l IH]; intros [|k] c; cbn [combinations].
  - intros [<-|[]]; cbn; tauto.
  - cbn; tauto.
  - intros [<-|[]]; cbn; tauto.
  - rewrite in_app_iff, in_map_iff. intros [[c' [<- H]]|H]; cbn.
    + intros [->|Hx]; [auto|]. right. eauto.
    + right. eauto.
Qed.

Lemma combinations_NoDup {A} k (l : list A) : NoDup l -> NoDup (combinations k l).
Proof.
  intros H; revert k; induction H as [|x l Hx H IH]; intros [|k]; cbn [combinations];
    try (constructor; [easy|constructor]); [constructor|].
  apply NoDup_app_intro.
  - apply NoDup_map_inj; [congruence|apply IH].
  - apply IH.
  - intros c. rewrite in_map_iff. intros [c' [<- _]] Hc.
    apply Hx. eapply combinations_incl; [exact Hc|now left].
Qed.

Lemma combine_repeat_tile {A B} (l : list A) (c : list B) :
  combine (repeat_each l (length c)) (tile (length l) c)
  = flat_map (fun b => map (pair b) c) l.
Proof.
  induction l as [|x l IH]; cbn; [reflexivity|].
  unfold repeat_each in IH. unfold tile in *. rewrite combine_app.
  - now rewrite combine_repeat_l, IH.
  - apply repeat_length.
Qed.

Lemma base_idx_flat_map n c d :
  base_idx_neighbor_idx_simplices n c d =
  flat_map (fun b => map (pair b) (combinations (d - 1) (seq 1 (c - 1)))) (seq 0 n).
Proof.
  unfold base_idx_neighbor_idx_simplices.
  rewrite <- combine_repeat_tile, seq_length. reflexivity.
Qed.

Lemma base_idx_in n c d b ps : (1 <= d <= c)%nat ->
  In (b, ps) (base_idx_neighbor_idx_simplices n c d) <->
  (b < n)%nat /\ length ps = (d - 1)%nat /\ StronglySorted lt ps /\
  Forall (fun p => 1 <= p < c)%nat ps.
Proof.
  intros Hd. rewrite base_idx_flat_map, in_flat_map. split.
  - intros [b' [Hb H]]. apply in_map_iff in H as [ps' [[= -> ->] H]].
    apply combinations_seq in H as (? & ? & ?). apply in_seq in Hb.
    repeat split; auto; [lia|]. eapply Forall_impl; [|eassumption]. cbn; lia.
  - intros (Hb & Hl & Hs & Hf). exists b. split; [apply in_seq; lia|].
    apply in_map_iff. exists ps. split; [reflexivity|].
    apply combinations_seq. repeat split; auto.
    eapply Forall_impl; [|eassumption]. cbn; lia.
Qed.

Lemma flat_map_const_length {A B} (f : A -> list B) l k :
  (forall x, In x l -> length (f x) = k) -> length (flat_map f l) = (length l * k)%nat.
Proof.
  induction l as [|x l IH]; cbn; intros H; [reflexivity|].
  rewrite app_length, H, IH by auto. reflexivity.
Qed.

Lemma base_idx_length n c d :
  length (base_idx_neighbor_idx_simplices n c d) = (n * binom (c - 1) (d - 1))%nat.
Proof.
  rewrite base_idx_flat_map, (flat_map_const_length _ _ (binom (c-1) (d-1))).
  - now rewrite seq_length.
  - intros x _. now rewrite map_length, combinations_length, seq_length.
Qed.

Lemma base_idx_NoDup n c d : NoDup (base_idx_neighbor_idx_simplices n c d).
Proof.
  rewrite base_idx_flat_map.
  assert (H : NoDup (seq 0 n)) by apply seq_NoDup. revert H.
  induction (seq 0 n) as [|b l IH]; cbn; intros H; [constructor|].
  inversion H; subst. apply NoDup_app_intro.
  - apply NoDup_map_inj; [congruence|]. apply combinations_NoDup, seq_NoDup.
  - auto.
  - intros [b' ps]. rewrite in_map_iff. intros [ps' [[= <- <-] _]] Hin.
    apply in_flat_map in Hin as [b'' [Hb Hin]]. apply in_map_iff in Hin as [? [[= <- <-] _]].
    contradiction.
Qed.

(** Flat indexing of a rectangular table. *)
Lemma nth_error_concat {A} nc (arr : list (list A)) i k r :
  rect nc arr -> nth_error arr i = Some r -> (k < nc)%nat ->
  nth_error (concat arr) (k + i * nc) = nth_error r k.
Proof.
  intros H; revert i; induction H as [|r0 arr Hr H IH]; intros [|i]; cbn; try discriminate.
  - intros [= ->] Hk. rewrite Nat.add_0_r. rewrite nth_error_app1 by lia. reflexivity.
  - intros Hi Hk. rewrite nth_error_app2 by lia.
    replace (k + (nc + i * nc) - length r0)%nat with (k + i * nc)%nat by lia. auto.
Qed.


Lemma array_array_index_correct {A} (dflt : A) ncols icols arr idx :
  rect ncols arr -> length arr = length idx -> rect icols idx ->
  Forall (Forall (fun k => k < ncols)%nat) idx ->
  array_array_index ncols icols arr idx =
  Ok (map2 (fun r ks => map (fun k => nth k r dflt) ks) arr idx).
Proof.
  intros Ha Hl Hi Hb. unfold array_array_index.
  destruct (Nat.eqb_spec icols 1) as [->|Hn].
  - rewrite Hl, Nat.eqb_refl.
    revert idx Hl Hi Hb. induction Ha as [|r arr Hr Ha IH];
      destruct idx as [|ks idx]; cbn; intros; try discriminate; [reflexivity|].
    inversion Hi; subst. inversion Hb; subst.
    destruct ks as [|k [|? ?]]; cbn in *; try discriminate.
    inversion H3; subst.
    rewrite (get_nth dflt) by lia. cbn.
    rewrite IH by (auto; lia). reflexivity.
  - assert (G : forall s arr' idx', length arr' = length idx' ->
       Forall (Forall (fun k => k < ncols)%nat) idx' ->
       (forall i r, nth_error arr' i = Some r -> nth_error arr (s + i) = Some r) ->
       mapM (fun p => mapM (fun k => get (concat arr) (k + fst p * ncols)) (snd p))
         (combine (seq s (length idx')) idx') =
       Ok (map2 (fun r ks => map (fun k => nth k r dflt) ks) arr' idx')).
    { clear Hl Hi Hb idx Hn. intros s arr' idx'. revert s arr'.
      induction idx' as [|ks idx' IH]; intros s [|r arr'] Hl Hb Hn; cbn; try discriminate;
        [reflexivity|].
      inversion Hb; subst.
      assert (E : mapM (fun k => get (concat arr) (k + s * ncols)) ks =
                  Ok (map (fun k => nth k r dflt) ks)).
      { assert (Hr : nth_error arr s = Some r).
        { specialize (Hn 0%nat r eq_refl). now rewrite Nat.add_0_r in Hn. }
        assert (Hlr : length r = ncols).
        { apply nth_error_In in Hr. unfold rect in Ha. rewrite Forall_forall in Ha. auto. }
        rewrite <- mapM_pure. apply mapM_ext_in. intros k Hk.
        rewrite Forall_forall in H1. specialize (H1 k Hk).
        unfold get. rewrite (nth_error_concat ncols arr s k r Ha Hr H1).
        rewrite (nth_error_nth' r dflt) by lia. reflexivity. }
      rewrite E. cbn. rewrite (IH (S s) arr'); [reflexivity|cbn in Hl; lia|assumption|].
      intros i r0 H0. specialize (Hn (S i) r0 H0). now rewrite Nat.add_succ_r in Hn. }
    apply G; auto.
Qed.

Lemma map2_map_l {A B C D} (f : A -> B -> C) (g : D -> A) l1 l2 :
  map2 f (map g l1) l2 = map2 (fun x y => f (g x) y) l1 l2.
Proof. revert l2; induction l1; destruct l2; cbn; auto. now rewrite IHl1. Qed.

Lemma map2_map_same {A B C D} (f : A -> B -> C) (g : D -> A) (h : D -> B) l :
  map2 f (map g l) (map h l) = map (fun x => f (g x) (h x)) l.
Proof. induction l; cbn; auto. now rewrite IHl. Qed.

Lemma combine_map_same {A B D} (g : D -> A) (h : D -> B) l :
  combine (map g l) (map h l) = map (fun x => (g x, h x)) l.
Proof. induction l; cbn; auto. now rewrite IHl. Qed.

Lemma combine_map_map2 {A B C} (g : C -> A) (h : C -> B) l :
  combine (map g l) (map h l) = map (fun x => (g x, h x)) l.
Proof. apply combine_map_same. Qed.

(** The table-level meaning of a positional simplex. *)
Definition realize (indices : list (list nat)) (s : simplex) : simplex :=
  (fst s, map (fun p => nth p (nth (fst s) indices []) 0%nat) (snd s)).

Lemma base_idx_Forall n c d : (1 <= d <= c)%nat ->
  Forall (fun s => (fst s < n)%nat /\ length (snd s) = (d - 1)%nat /\
                   Forall (fun p => p < c)%nat (snd s))
         (base_idx_neighbor_idx_simplices n c d).
Proof.
  intros Hd. rewrite Forall_forall. intros [b ps] H.
  apply base_idx_in in H as (? & ? & ? & ?); [|assumption].
  repeat split; auto. eapply Forall_impl; [|eassumption]. cbn; lia.
Qed.

Lemma real_idx_correct d c indices : (1 <= d <= c)%nat -> rect c indices ->
  all_neighbor_simplices_real_idx d c indices =
  Ok (map (realize indices) (base_idx_neighbor_idx_simplices (length indices) c d)).
Proof.
  intros Hd Hr. unfold all_neighbor_simplices_real_idx.
  destruct (Nat.eqb_spec d 0); [lia|].
  set (L := base_idx_neighbor_idx_simplices (length indices) c d).
  assert (HL : Forall (fun s : simplex => (fst s < length indices)%nat /\ length (snd s) = (d - 1)%nat /\
                   Forall (fun p => p < c)%nat (snd s)) L) by now apply base_idx_Forall.
  clearbody L.
  rewrite (gather_map []).
  2:{ rewrite Forall_map. eapply Forall_impl; [|exact HL]. cbn; tauto. }
  cbn [bind]. rewrite (array_array_index_correct 0%nat).
  - cbn [bind]. f_equal. rewrite map_map, map2_map_same, combine_map_same.
    reflexivity.
  - unfold rect in *. rewrite map_map, Forall_map. eapply Forall_impl; [|exact HL].
    cbn. intros s (Hb & _). rewrite Forall_forall in Hr. apply Hr. now apply nth_In.
  - now rewrite !map_length.
  - unfold rect. rewrite Forall_map. eapply Forall_impl; [|exact HL]. cbn; tauto.
  - rewrite Forall_map. eapply Forall_impl; [|exact HL]. cbn; tauto.
Qed.

(** * Node weights and base weights *)

Definition node_weight (sw : option (list (list Q))) (s : simplex) : Q :=
  match sw with
  | None => 1
  | Some sw => qprod (map (fun p => nth p (nth (fst s) sw []) 0%Q) (snd s))
  end.

Lemma map_const_repeat {A B} (b : B) (l : list A) : map (fun _ => b) l = repeat b (length l).
Proof. induction l; cbn; congruence. Qed.

Lemma node_weights_correct d c indices sw : (1 <= d <= c)%nat -> rect c indices ->
  match sw with None => True | Some w => length w = length indices /\ rect c w end ->
  all_simplices_node_weights d c indices sw =
  let L := base_idx_neighbor_idx_simplices (length indices) c d in
  Ok (map (realize indices) L, map (node_weight sw) L).
Proof.
  intros Hd Hr Hw. unfold all_simplices_node_weights.
  rewrite real_idx_correct by assumption. cbn [bind].
  pose proof (base_idx_Forall (length indices) c d Hd) as HL.
  set (L := base_idx_neighbor_idx_simplices (length indices) c d) in *. clearbody L.
  destruct sw as [w|].
  - destruct Hw as [Hlw Hrw].
    rewrite (gather_map []).
    2:{ rewrite Forall_map. eapply Forall_impl; [|exact HL]. cbn. rewrite Hlw. tauto. }
    cbn [bind]. rewrite (array_array_index_correct 0%Q).
    + cbn [bind]. cbv zeta. f_equal. f_equal. rewrite map_map, map2_map_same, map_map.
      reflexivity.
    + unfold rect in *. rewrite map_map, Forall_map. eapply Forall_impl; [|exact HL].
      cbn. intros s (Hb & _). rewrite Forall_forall in Hrw. apply Hrw. apply nth_In. lia.
    + now rewrite !map_length.
    + unfold rect. rewrite Forall_map. eapply Forall_impl; [|exact HL]. cbn; tauto.
    + rewrite Forall_map. eapply Forall_impl; [|exact HL]. cbn; tauto.
  - cbv zeta. f_equal. f_equal. rewrite map_length.
    unfold node_weight. now rewrite map_const_repeat.
Qed.

Lemma repeat_each_flat_map_fst {B} (bw : list Q) (f : nat -> list B) m n :
  (n <= length bw)%nat -> (forall b, length (f b) = m) ->
  repeat_each (firstn n bw) m = map (fun s => nth (fst s) bw 0%Q) (flat_map (fun b => map (pair b) (f b)) (seq 0 n)).
Proof.
  intros Hn Hf. induction n as [|n IH]; [reflexivity|].
  rewrite seq_S, flat_map_app, map_app, <- IH by lia. cbn [flat_map plus]. rewrite app_nil_r.
  rewrite map_map. cbn [fst].
  rewrite map_const_repeat, Hf.
  assert (E : firstn (S n) bw = firstn n bw ++ [nth n bw 0%Q]).
  { clear IH. revert n Hn. induction bw as [|x bw IHb]; intros [|n] Hn; cbn in *; try lia; [reflexivity|].
    f_equal. rewrite <- IHb by lia. reflexivity. }
  rewrite E. unfold repeat_each. rewrite flat_map_app. cbn. now rewrite app_nil_r.
Qed.

Lemma base_weights_correct vol mode X bw Xv d c n : (0 < n)%nat ->
  length bw = n ->
  let L := base_idx_neighbor_idx_simplices n c d in
  forall f, (forall s, fst (f s) = fst s) ->
  determine_weights vol mode X (Some bw) Xv (map f L) n =
  Ok (map (fun s => nth (fst s) bw 0%Q) L).
Proof.
  intros Hn Hl L f Hf. unfold determine_weights. rewrite Hl.
  destruct (Nat.eqb_spec n 0); [lia|]. f_equal.
  unfold L. rewrite map_length, base_idx_length.
  rewrite Nat.mul_comm, Nat.div_mul by lia.
  rewrite base_idx_flat_map.
  rewrite <- (repeat_each_flat_map_fst bw (fun _ => combinations (d - 1) (seq 1 (c - 1)))
                (binom (c-1) (d-1)) n).
  - rewrite firstn_all2 by lia. reflexivity.
  - lia.
  - intros _. now rewrite combinations_length, seq_length.
Qed.

(** * Deterministic allocation *)

Lemma removal_index_lt K R i : (i < R)%nat -> (R <= K)%nat -> (i * K / R < K)%nat.
Proof.
  intros Hi HR. apply Nat.div_lt_upper_bound; [lia|].
  apply Nat.mul_lt_mono_pos_r; lia.
Qed.

Lemma removal_strict K R i j : (i < j)%nat -> (0 < R)%nat -> (R <= K)%nat ->
  (i * K / R < j * K / R)%nat.
Proof.
  intros Hij HR HK.
  assert (H : (i * K / R + 1 <= (i * K + 1 * R) / R)%nat).
  { rewrite Nat.div_add by lia. lia. }
  assert (H2 : ((i * K + 1 * R) / R <= j * K / R)%nat).
  { apply Nat.div_le_mono; [lia|]. nia. }
  lia.
Qed.

Lemma removal_NoDup K R : (R <= K)%nat -> NoDup (removal_indices K R).
Proof.
  intros H. unfold removal_indices.
  assert (G : forall m s, (s + m <= R)%nat -> NoDup (map (fun i => (i * K / R)%nat) (seq s m))).
  { induction m as [|m IH]; intros s Hs; cbn; constructor.
    - rewrite in_map_iff. intros [j [E Hj]]. apply in_seq in Hj.
      pose proof (removal_strict K R s j). lia.
    - apply IH. lia. }
  apply G. lia.
Qed.

Lemma select_mask_sum (l : list nat) :
  nsum (select (map (fun c => (0 <? c)%nat) l) l) = nsum l.
Proof.
  induction l as [|x l IH]; cbn; [reflexivity|].
  destruct x; cbn in *; [assumption|]. unfold nsum in *. cbn. lia.
Qed.

Lemma put_mask_length {A} m (dst src : list A) : length (put_mask m dst src) = length dst.
Proof.
  revert m src; induction dst as [|d dst IH]; intros [|[] m] src; cbn; try reflexivity.
  - destruct src; cbn; now rewrite IH.
  - now rewrite IH.
Qed.

(** The sum after writing back equals the old sum with the selected part replaced. *)
Lemma put_mask_sum m (dst src : list nat) :
  length m = length dst -> length src = length (select m dst) ->
  (nsum (put_mask m dst src) + nsum (select m dst) = nsum dst + nsum src)%nat.
Proof.
  revert m src; induction dst as [|d dst IH]; intros [|[] m] src Hm Hs; cbn in *; try lia.
  - destruct src; cbn in *; [reflexivity|discriminate].
  - destruct src as [|s src]; cbn in *; [discriminate|].
    specialize (IH m src ltac:(lia) ltac:(lia)). unfold nsum in *. lia.
  - specialize (IH m src ltac:(lia) ltac:(lia)). unfold nsum in *. lia.
Qed.

Lemma decrement_length idx l : length (decrement_at idx l) = length l.
Proof. unfold decrement_at. rewrite map_length, combine_length, seq_length. lia. Qed.

Lemma existsb_eqb_In i l : existsb (Nat.eqb i) l = true <-> In i l.
Proof.
  rewrite existsb_exists. split.
  - intros [x [H E]]. apply Nat.eqb_eq in E. now subst.
  - intros H. exists i. split; [assumption|apply Nat.eqb_refl].
Qed.

(** Removing one from [R] distinct positions of a vector of positive counts. *)
Lemma decrement_sum idx l :
  NoDup idx -> Forall (fun i => i < length l)%nat idx -> Forall (fun c => 0 < c)%nat l ->
  (nsum (decrement_at idx l) + length idx = nsum l)%nat.
Proof.
  intros Hnd Hb Hpos. unfold decrement_at.
  assert (G : forall l s (idx : list nat), Forall (fun c => 0 < c)%nat l ->
    (nsum (map (fun p => if existsb (Nat.eqb (fst p)) idx then (snd p - 1)%nat else snd p)
         (combine (seq s (length l)) l))
    + length (filter (fun i => existsb (Nat.eqb i) idx) (seq s (length l))) = nsum l)%nat).
  { clear. intros l; induction l as [|x l IH]; intros s idx Hp; cbn; [reflexivity|].
    inversion Hp; subst. specialize (IH (S s) idx H2).
    unfold nsum in *.
    destruct (existsb (Nat.eqb s) idx); cbn in *; lia. }
  rewrite <- (G l 0%nat idx Hpos). f_equal.
  apply Permutation_length. apply NoDup_Permutation; [assumption| |].
  - apply NoDup_filter, seq_NoDup.
  - intros x. rewrite filter_In, existsb_eqb_In, in_seq.
    rewrite Forall_forall in Hb. split; [|tauto]. intros H. specialize (Hb x H).
    split; [lia|assumption].
Qed.

Definition ceil_counts (n : nat) (p : list Q) : list nat :=
  map (fun q => Z.to_nat (Qceiling (inject_Z (Z.of_nat n) * q))) p.

Lemma ceil_bounds n q : 0 <= q ->
  inject_Z (Z.of_nat n) * q <= inject_Z (Z.of_nat (Z.to_nat (Qceiling (inject_Z (Z.of_nat n) * q))))
  /\ inject_Z (Z.of_nat (Z.to_nat (Qceiling (inject_Z (Z.of_nat n) * q)))) < inject_Z (Z.of_nat n) * q + 1.
Proof.
  intros Hq.
  assert (Hn : 0 <= inject_Z (Z.of_nat n)).
  { rewrite <- (Zle_Qle 0). lia. }
  set (a := inject_Z (Z.of_nat n) * q).
  assert (Ha : 0 <= a) by (unfold a; nra).
  pose proof (Qle_ceiling a) as H1. pose proof (Qceiling_lt a) as H2.
  assert (Hc : (0 <= Qceiling a)%Z).
  { assert (HH : inject_Z 0 <= inject_Z (Qceiling a)) by (change (inject_Z 0) with 0; lra).
    now rewrite <- Zle_Qle in HH. }
  rewrite Z2Nat.id by assumption. split; [assumption|].
  unfold Z.sub in H2. rewrite inject_Z_plus, inject_Z_opp in H2.
  change (inject_Z 1) with 1 in H2. lra.
Qed.

Lemma ceil_counts_sum n p : Forall (Qle 0) p ->
  inject_Z (Z.of_nat n) * qsum p <= inject_Z (Z.of_nat (nsum (ceil_counts n p))) /\
  (inject_Z (Z.of_nat (nsum (ceil_counts n p))) <=
   inject_Z (Z.of_nat n) * qsum p
   + inject_Z (Z.of_nat (length (filter (fun c => (0 <? c)%nat) (ceil_counts n p))))).
Proof.
  induction 1 as [|q p Hq Hp IH].
  { cbn [ceil_counts map nsum fold_right qsum filter length].
    change (inject_Z (Z.of_nat 0)) with 0. split; lra. }
  cbn [ceil_counts map nsum fold_right qsum filter].
  destruct IH as [I1 I2]. pose proof (ceil_bounds n q Hq) as [B1 B2].
  fold (ceil_counts n p) in *.
  set (c := Z.to_nat (Qceiling (inject_Z (Z.of_nat n) * q))) in *.
  change (fold_right Nat.add 0%nat (ceil_counts n p)) with (nsum (ceil_counts n p)).
  rewrite Nat2Z.inj_add, inject_Z_plus.
  destruct (Nat.ltb_spec 0 c); cbn [length].
  - rewrite Nat2Z.inj_succ. unfold Z.succ. rewrite inject_Z_plus.
    change (inject_Z 1) with 1. split; nra.
  - assert (c = 0%nat) by lia. rewrite H0 in *.
    change (inject_Z (Z.of_nat 0)) with 0 in *.
    assert (0 <= inject_Z (Z.of_nat n)) by (rewrite <- (Zle_Qle 0); lia).
    split; nra.
Qed.

Definition dec_rel (c c' : nat) : Prop := c' = c \/ ((0 < c)%nat /\ c' = (c - 1)%nat).

Lemma decrement_rel idx l :
  Forall (fun c => 0 < c)%nat l -> Forall2 dec_rel l (decrement_at idx l).
Proof.
  intros H. unfold decrement_at.
  enough (G : forall s, Forall2 dec_rel l
    (map (fun p => if existsb (Nat.eqb (fst p)) idx then (snd p - 1)%nat else snd p)
         (combine (seq s (length l)) l))) by apply G.
  induction H as [|x l Hx H IH]; cbn; intros s; constructor.
  - unfold dec_rel. destruct (existsb _ _); [right; split; [assumption|reflexivity]|now left].
  - now apply IH.
Qed.

Lemma put_mask_rel m l src :
  length m = length l -> Forall2 dec_rel (select m l) src -> Forall2 dec_rel l (put_mask m l src).
Proof.
  revert m src; induction l as [|x l IH]; intros [|[] m] src Hm H; cbn in *; try discriminate;
    try constructor.
  { inversion H; subst. constructor; [assumption|]. apply IH; [lia|assumption]. }
  { left; reflexivity. }
  { apply IH; [lia|assumption]. }
Qed.

Lemma filter_select_pos l :
  length (filter (fun c => (0 <? c)%nat) l) = length (select (map (fun c => (0 <? c)%nat) l) l).
Proof. now rewrite select_map_filter. Qed.

Lemma select_pos_Forall l :
  Forall (fun c => 0 < c)%nat (select (map (fun c => (0 <? c)%nat) l) l).
Proof.
  rewrite select_map_filter, Forall_forall. intros x H. apply filter_In in H as [_ H].
  now apply Nat.ltb_lt in H.
Qed.

Lemma removal_length K R : length (removal_indices K R) = R.
Proof. unfold removal_indices. now rewrite map_length, seq_length. Qed.

Lemma removal_bound K R : (R <= K)%nat -> Forall (fun i => i < K)%nat (removal_indices K R).
Proof.
  intros H. unfold removal_indices. rewrite Forall_map, Forall_forall. intros i Hi.
  apply in_seq in Hi. apply removal_index_lt; lia.
Qed.

Lemma inject_Z_le_nat a b : inject_Z (Z.of_nat a) <= inject_Z (Z.of_nat b) <-> (a <= b)%nat.
Proof. rewrite <- Zle_Qle. lia. Qed.

Lemma deterministic_counts_ok n p :
  Forall (Qle 0) p -> qsum p == 1 ->
  exists counts, deterministic_counts n p = Ok counts /\
    nsum counts = n /\ Forall2 dec_rel (ceil_counts n p) counts.
Proof.
  intros Hp Hs. unfold deterministic_counts. fold (ceil_counts n p).
  destruct (ceil_counts_sum n p Hp) as [L U]. rewrite Hs in L, U.
  assert (L' : (n <= nsum (ceil_counts n p))%nat).
  { apply inject_Z_le_nat. lra. }
  assert (U' : (nsum (ceil_counts n p) <=
                n + length (select (map (fun c => (0 <? c)%nat) (ceil_counts n p)) (ceil_counts n p)))%nat).
  { apply inject_Z_le_nat. rewrite Nat2Z.inj_add, inject_Z_plus, <- filter_select_pos. lra. }
  clear L U. set (C := ceil_counts n p) in *.
  destruct (Nat.eqb_spec (nsum C) n) as [E|E].
  - exists C. split; [reflexivity|]. split; [assumption|].
    clearbody C. clear. induction C; constructor; [left; reflexivity|assumption].
  - destruct (Nat.ltb_spec (nsum C) n); [lia|].
    set (mask := map (fun c => (0 <? c)%nat) C) in *.
    set (tmp := select mask C) in *.
    assert (HR : (nsum C - n <= length tmp)%nat) by lia.
    pose proof (removal_bound _ _ HR) as HB.
    pose proof (removal_NoDup _ _ HR) as HN.
    destruct (forallb _ _) eqn:F.
    2:{ exfalso. apply not_true_iff_false in F. apply F. apply forallb_forall.
        intros i Hi. rewrite Forall_forall in HB. apply Nat.ltb_lt. auto. }
    assert (HP : Forall (fun c => 0 < c)%nat tmp) by apply select_pos_Forall.
    pose proof (decrement_sum _ tmp HN HB HP) as HD. rewrite removal_length in HD.
    pose proof (put_mask_sum mask C (decrement_at (removal_indices (length tmp) (nsum C - n)) tmp)) as HM.
    assert (Hm : length mask = length C) by (unfold mask; now rewrite map_length).
    rewrite decrement_length in HM. specialize (HM Hm eq_refl). fold tmp in HM.
    assert (Htmp : nsum tmp = nsum C) by apply select_mask_sum.
    assert (HF : nsum (put_mask mask C (decrement_at (removal_indices (length tmp) (nsum C - n)) tmp)) = n) by lia.
    rewrite HF, Nat.eqb_refl. eexists. split; [reflexivity|]. split; [assumption|].
    apply put_mask_rel; [assumption|]. now apply decrement_rel.
Qed.

Lemma deterministic_counts_fair n p counts i q c :
  Forall (Qle 0) p -> qsum p == 1 -> deterministic_counts n p = Ok counts ->
  nth_error p i = Some q -> nth_error counts i = Some c ->
  inject_Z (Z.of_nat n) * q - 1 <= inject_Z (Z.of_nat c) /\
  inject_Z (Z.of_nat c) < inject_Z (Z.of_nat n) * q + 1 /\
  ((0 < c)%nat -> 0 < q).
Proof.
  intros Hp Hs H Hq Hc. destruct (deterministic_counts_ok n p Hp Hs) as (cs & E & _ & R).
  rewrite H in E. injection E as <-.
  assert (Hq0 : 0 <= q). { rewrite Forall_forall in Hp. apply Hp. eapply nth_error_In; eassumption. }
  assert (G : exists c0, c0 = Z.to_nat (Qceiling (inject_Z (Z.of_nat n) * q)) /\ dec_rel c0 c).
  { clear H Hs Hp. unfold ceil_counts in R. revert i counts R Hq Hc. induction p as [|q0 p IH]; intros [|i] counts R Hq Hc;
      cbn in *; try discriminate; inversion R; subst; cbn in *.
    - injection Hq as <-. injection Hc as <-. eauto.
    - eauto. }
  destruct G as (c0 & Ec & Rc). pose proof (ceil_bounds n q Hq0) as [B1 B2]. rewrite <- Ec in *.
  assert (Hn : 0 <= inject_Z (Z.of_nat n)) by (rewrite <- (Zle_Qle 0); lia).
  destruct Rc as [->|[Hpos ->]].
  - split; [lra|]. split; [assumption|]. intros Hc0.
    destruct (Qlt_le_dec 0 q) as [|Hle]; [assumption|exfalso].
    assert (q == 0) by lra. rewrite H0 in B2.
    assert (inject_Z (Z.of_nat c0) < inject_Z (Z.of_nat 1)) by (change (inject_Z (Z.of_nat 1)) with 1; lra).
    rewrite <- Zlt_Qlt in H1. lia.
  - rewrite Nat2Z.inj_sub, <- Z.add_opp_r, inject_Z_plus by lia.
    change (inject_Z (- Z.of_nat 1)) with (-1). split; [lra|]. split; [lra|].
    intros Hc0. destruct (Qlt_le_dec 0 q) as [|Hle]; [assumption|exfalso].
    assert (q == 0) by lra. rewrite H0 in B2.
    assert (inject_Z (Z.of_nat c0) < inject_Z (Z.of_nat 1)) by (change (inject_Z (Z.of_nat 1)) with 1; lra).
    rewrite <- Zlt_Qlt in H1. lia.
Qed.

Lemma counts_to_vector_in counts i :
  In i (counts_to_vector counts) <-> exists c, nth_error counts i = Some c /\ (0 < c)%nat.
Proof.
  unfold counts_to_vector. rewrite in_flat_map.
  assert (G : forall s, (exists x, In x (combine (seq s (length counts)) counts) /\ In i (repeat (fst x) (snd x)))
    <-> exists c, (s <= i)%nat /\ nth_error counts (i - s) = Some c /\ (0 < c)%nat).
  { induction counts as [|c counts IH]; intros s; cbn [length seq combine].
    - split; [intros [? [[] _]]|]. intros [c [_ [H _]]]. destruct (i - s)%nat; discriminate.
    - split.
      + intros [x [[<-|H] Hi]].
        * cbn in Hi. apply repeat_spec in Hi as E. subst i. exists c.
          rewrite Nat.sub_diag. repeat split; auto. destruct c; [contradiction|lia].
        * destruct (proj1 (IH (S s))) as [c' (Hs & Hn & Hc)]; [eauto|].
          exists c'. split; [lia|]. split; [|assumption].
          replace (i - s)%nat with (S (i - S s)) by lia. assumption.
      + intros [c' (Hs & Hn & Hc)]. destruct (i - s)%nat as [|k] eqn:E.
        * cbn in Hn. injection Hn as <-. exists (s, c). split; [now left|]. cbn.
          assert (i = s) by lia. subst. destruct c; [lia|]. now left.
        * destruct (proj2 (IH (S s))) as [x [Hx Hi]].
          { exists c'. split; [lia|]. split; [|assumption].
            replace (i - S s)%nat with k by lia. assumption. }
          exists x. split; [now right|assumption]. }
  rewrite G. split; intros [c H]; exists c; rewrite Nat.sub_0_r in *; [tauto|].
  split; [lia|assumption].
Qed.

Lemma counts_to_vector_length counts : length (counts_to_vector counts) = nsum counts.
Proof.
  unfold counts_to_vector. generalize 0%nat as s. induction counts as [|c counts IH]; intros s; cbn; [reflexivity|].
  rewrite app_length, repeat_length, IH. reflexivity.
Qed.

Lemma counts_to_vector_count counts i :
  count_occ Nat.eq_dec (counts_to_vector counts) i = nth i counts 0%nat.
Proof.
  unfold counts_to_vector.
  assert (G : forall s, count_occ Nat.eq_dec (flat_map (fun p => repeat (fst p) (snd p)) (combine (seq s (length counts)) counts)) i
    = if (s <=? i)%nat then nth (i - s) counts 0%nat else 0%nat).
  { induction counts as [|c counts IH]; intros s; cbn [length seq combine flat_map fst snd].
    - cbn. destruct (s <=? i)%nat; [|reflexivity]. now destruct (i - s)%nat.
    - rewrite count_occ_app, IH. destruct (Nat.leb_spec s i), (Nat.leb_spec (S s) i); try lia.
      + rewrite count_occ_repeat_neq by lia. replace (i - s)%nat with (S (i - S s)) by lia. reflexivity.
      + assert (s = i) by lia. subst. rewrite count_occ_repeat_eq by reflexivity.
        rewrite Nat.sub_diag. cbn. lia.
      + rewrite count_occ_repeat_neq by lia. reflexivity. }
  rewrite G. cbn. now rewrite Nat.sub_0_r.
Qed.
