(** Proofs about AHC. *)

From Coq Require Import List ZArith QArith Bool Arith Lia Lqa Sorting.Sorted Permutation.
From Verif Require Import Np PyVal NpFacts BaseFacts SimplexModel Spec SpecDanger SpecNoise SpecComp SimplexFacts SimplexGeom Float64
  SamplerModel SamplerFacts OversFacts BaseModel KnnFacts DangerModel DangerFacts BorderFacts ClusterModel ClusterOversModel OversGen
  ClusterOversFacts ClusterFacts NoiseModel NoiseFacts NoiseFacts2 CompModel CompFacts CompFacts2 CompFacts3 CompFacts4 EditModel SpecEdit EditFacts EditFacts3 EditFacts4 EditFacts5
  SpecNear NearFacts NearFacts2 LevelModel SpecLevel LevelFacts LevelFacts3 LevelFacts4 SpecGroup GroupFacts GroupFacts2 GroupFacts4 WrapModel SpecWrap WrapFacts WrapFacts2.
Import ListNotations.
Open Scope nat_scope.

(** ** The rows under the nodes *)

Notation parts := (fun ab : nat * nat => [fst ab; snd ab]).

Definition grow (n : nat) (gs : list (list nat)) (ab : nat * nat) : list (list nat) :=
  gs ++ [node_rows n gs (fst ab) ++ node_rows n gs (snd ab)].
Definition groups_of (n : nat) (ch : list (nat * nat)) : list (list nat) := fold_left (grow n) ch [].

Lemma NoDup_app_disj' {A} (l1 l2 : list A) : NoDup (l1 ++ l2) -> forall x, In x l1 -> In x l2 -> False.
Proof.
  induction l1 as [|a l1 IH]; cbn; intros HN x [] Hx.
  - subst. inversion HN as [|? ? Hn _]; subst. apply Hn, in_app_iff. now right.
  - inversion HN; subst. eapply IH; eassumption.
Qed.

Lemma NoDup_app_remove_r {A} (l1 l2 : list A) : NoDup (l1 ++ l2) -> NoDup l1.
Proof.
  induction l1 as [|a l1 IH]; cbn; intros HN; constructor; inversion HN as [|? ? Hn HN']; subst; [|auto].
  intros Ha. apply Hn, in_app_iff. now left.
Qed.

Lemma groups_snoc n ch ab : groups_of n (ch ++ [ab]) = grow n (groups_of n ch) ab.
Proof. unfold groups_of. now rewrite fold_left_app. Qed.

Lemma groups_length n ch : length (groups_of n ch) = length ch.
Proof.
  induction ch as [|ab ch IH] using rev_ind; [reflexivity|]. rewrite groups_snoc. unfold grow. rewrite !app_length, IH. reflexivity.
Qed.

Lemma node_rows_app n gs more v : v < n + length gs -> node_rows n (gs ++ more) v = node_rows n gs v.
Proof. intros H. unfold node_rows. destruct (Nat.ltb_spec v n); [reflexivity|]. apply app_nth1. lia. Qed.

Definition backward (n : nat) (ch : list (nat * nat)) : Prop :=
  forall i, i < length ch -> fst (nth i ch (0, 0)) < snd (nth i ch (0, 0)) < n + i.

Lemma backward_snoc n ch ab : backward n (ch ++ [ab]) -> backward n ch /\ fst ab < snd ab < n + length ch.
Proof.
  intros H. split.
  - intros i Hi. specialize (H i). rewrite app_length, app_nth1 in H by assumption. apply H. lia.
  - specialize (H (length ch)). rewrite app_length, nth_middle in H. apply H. cbn. lia.
Qed.

Lemma groups_nth n ch : backward n ch -> forall i, i < length ch ->
  nth i (groups_of n ch) [] = node_rows n (groups_of n ch) (fst (nth i ch (0, 0))) ++ node_rows n (groups_of n ch) (snd (nth i ch (0, 0))).
Proof.
  induction ch as [|ab ch IH] using rev_ind; [cbn; lia|]. intros HB i Hi. destruct (backward_snoc _ _ _ HB) as (HB' & Hab).
  rewrite groups_snoc. unfold grow at 1. rewrite app_length in Hi. cbn in Hi.
  assert (E : forall v, v < n + length ch -> node_rows n (grow n (groups_of n ch) ab) v = node_rows n (groups_of n ch) v).
  { intros v Hv. unfold grow. apply node_rows_app. now rewrite groups_length. }
  destruct (Nat.eq_dec i (length ch)) as [->|Ne].
  - rewrite nth_middle, !E by lia. rewrite <- (groups_length n ch) at 1. now rewrite nth_middle.
  - rewrite app_nth1 by (rewrite groups_length; lia). rewrite app_nth1 by lia.
    assert (Hb := HB' i ltac:(lia)). rewrite !E by lia. apply IH; [assumption|lia].
Qed.

(** The nodes not merged yet. *)
Lemma active n ch : backward n ch -> NoDup (flat_map parts ch) ->
  exists A, Permutation (A ++ flat_map parts ch) (seq 0 (n + length ch)) /\
    Permutation (flat_map (node_rows n (groups_of n ch)) A) (seq 0 n).
Proof.
  induction ch as [|ab ch IH] using rev_ind; intros HB HN.
  - exists (seq 0 n). cbn. rewrite app_nil_r, Nat.add_0_r. split; [reflexivity|].
    rewrite flat_map_concat_map. rewrite (map_ext_in _ (fun v => [v])).
    + rewrite <- flat_map_concat_map. clear. induction (seq 0 n); cbn; [reflexivity|]. now constructor.
    + intros v Hv. apply in_seq in Hv. unfold node_rows. destruct (Nat.ltb_spec v n); [reflexivity|lia].
  - destruct (backward_snoc _ _ _ HB) as (HB' & Hab). rewrite flat_map_app in HN. cbn in HN.
    assert (HN1 : NoDup (flat_map parts ch)) by (eapply NoDup_app_remove_r; exact HN).
    destruct (IH HB' HN1) as (A & P1 & P2). destruct ab as [a b]. cbn [fst snd] in *.
    assert (Hout : forall v, v = a \/ v = b -> In v A).
    { intros v Hv. assert (Hin : In v (A ++ flat_map parts ch)).
      { eapply Permutation_in; [symmetry; exact P1|]. apply in_seq. lia. }
      apply in_app_iff in Hin. destruct Hin as [|Hin]; [assumption|exfalso].
      apply (NoDup_app_disj' _ _ HN v); [assumption|]. cbn. destruct Hv; auto. }
    assert (PA : exists A', Permutation A (a :: b :: A')).
    { destruct (in_split a A) as (l1 & l2 & EA); [auto|].
      assert (Hb : In b (l1 ++ l2)).
      { assert (Hb := Hout b (or_intror eq_refl)). rewrite EA in Hb. apply in_app_iff in Hb. apply in_app_iff.
        destruct Hb as [|[Hb|Hb]]; auto. exfalso. lia. }
      destruct (in_split b (l1 ++ l2)) as (l3 & l4 & EB); [assumption|]. exists (l3 ++ l4).
      rewrite EA, <- Permutation_middle, EB, <- Permutation_middle. reflexivity. }
    destruct PA as (A' & PA). exists ((n + length ch) :: A').
    assert (Bound : forall v, In v A -> v < n + length ch).
    { intros v Hv. assert (Hin : In v (seq 0 (n + length ch))) by (eapply Permutation_in; [exact P1|apply in_app_iff; now left]). apply in_seq in Hin. lia. }
    split.
    + rewrite flat_map_app, app_length. cbn [flat_map length app fst snd]. rewrite Nat.add_1_r, <- plus_n_Sm.
      replace (S (n + length ch)) with (n + length ch + 1) by lia. rewrite seq_app. cbn [seq Nat.add].
      rewrite <- Permutation_cons_append. apply perm_skip. rewrite <- P1, PA. cbn [app].
      rewrite app_assoc. rewrite (Permutation_app_comm _ [a; b]). reflexivity.
    + rewrite groups_snoc. cbn [flat_map].
      assert (E : flat_map (node_rows n (grow n (groups_of n ch) (a, b))) A' = flat_map (node_rows n (groups_of n ch)) A').
      { rewrite !flat_map_concat_map. f_equal. apply map_ext_in. intros v Hv. unfold grow. apply node_rows_app. rewrite groups_length.
        apply Bound. eapply Permutation_in; [symmetry; exact PA|]. now right; right. }
      rewrite E. unfold grow at 1, node_rows at 1. destruct (Nat.ltb_spec (n + length ch) n); [lia|].
      replace (n + length ch - n) with (length (groups_of n ch)) by (rewrite groups_length; lia). rewrite nth_middle. cbn [fst snd].
      rewrite <- P2. rewrite (Permutation_flat_map _ PA). cbn [flat_map]. now rewrite app_assoc.
Qed.

Lemma dendrogram_backward n ch : dendrogram n ch -> backward n ch /\ NoDup (flat_map parts ch).
Proof.
  intros (_ & HB & HP). split; [exact HB|]. eapply Permutation_NoDup; [symmetry; exact HP|apply seq_NoDup].
Qed.

Lemma flat_prefix i (ch : list (nat * nat)) : NoDup (flat_map parts ch) -> NoDup (flat_map parts (firstn i ch)).
Proof. intros H. rewrite <- (firstn_skipn i ch), flat_map_app in H. eapply NoDup_app_remove_r; exact H. Qed.

Lemma backward_prefix i n ch : backward n ch -> backward n (firstn i ch).
Proof.
  intros H j Hj. rewrite firstn_length in Hj. assert (E : nth j ch (0, 0) = nth j (firstn i ch) (0, 0)).
  { rewrite <- (firstn_skipn i ch) at 1. apply app_nth1. rewrite firstn_length. lia. }
  rewrite <- E. apply H. lia.
Qed.

Lemma groups_prefix n ch i : i <= length ch -> firstn i (groups_of n ch) = groups_of n (firstn i ch).
Proof.
  induction ch as [|ab ch IH] using rev_ind; intros Hi; [now rewrite !firstn_nil|]. rewrite groups_snoc. unfold grow.
  rewrite app_length in Hi. cbn in Hi. destruct (Nat.eq_dec i (S (length ch))) as [->|].
  - rewrite !firstn_all2 by (rewrite app_length, ?groups_length; cbn; lia). now rewrite groups_snoc.
  - rewrite !firstn_app, groups_length. replace (i - length ch) with 0 by lia. cbn [firstn]. rewrite !app_nil_r. apply IH. lia.
Qed.

(** The last group has all rows. *)
Lemma group_cover n ch i : backward n ch -> NoDup (flat_map parts ch) -> i < length ch ->
  exists rest, Permutation (nth i (groups_of n ch) [] ++ rest) (seq 0 n) /\
    (forall v, In v rest -> exists u, u < n + i /\ ~ In u (flat_map parts (firstn (S i) ch)) /\ In v (node_rows n (groups_of n ch) u)).
Proof.
  intros HB HN Hi. set (c := firstn (S i) ch). assert (Lc : length c = S i) by (unfold c; rewrite firstn_length; lia).
  assert (HBc : backward n c) by now apply backward_prefix. assert (HNc : NoDup (flat_map parts c)) by now apply flat_prefix.
  destruct (active n c HBc HNc) as (A & P1 & P2). rewrite Lc in P1.
  assert (Eg : forall v, v < n + S i -> node_rows n (groups_of n c) v = node_rows n (groups_of n ch) v).
  { intros v Hv. rewrite <- (firstn_skipn (S i) (groups_of n ch)). unfold c. rewrite <- groups_prefix by lia. symmetry. apply node_rows_app.
    rewrite firstn_length, groups_length. lia. }
  assert (Hin : In (n + i) A).
  { assert (Hin : In (n + i) (A ++ flat_map parts c)) by (eapply Permutation_in; [symmetry; exact P1|apply in_seq; lia]).
    apply in_app_iff in Hin. destruct Hin as [|Hin]; [assumption|exfalso]. apply in_flat_map in Hin. destruct Hin as (ab & Hab & Hv).
    apply (In_nth _ _ (0, 0)) in Hab. destruct Hab as (j & Hj & <-). specialize (HBc j Hj). rewrite Lc in Hj. destruct Hv as [Hv|[Hv|[]]]; lia. }
  destruct (in_split _ _ Hin) as (l1 & l2 & EA). exists (flat_map (node_rows n (groups_of n c)) (l1 ++ l2)).
  assert (NA : NoDup (A ++ flat_map parts c)) by (eapply Permutation_NoDup; [symmetry; exact P1|apply seq_NoDup]).
  split.
  - rewrite <- P2, EA. rewrite (Permutation_flat_map _ (Permutation_sym (Permutation_middle l1 l2 (n + i)))). cbn [flat_map].
    apply Permutation_app_tail. rewrite Eg by lia. unfold node_rows. destruct (Nat.ltb_spec (n + i) n); [lia|].
    replace (n + i - n) with i by lia. reflexivity.
  - intros v Hv. apply in_flat_map in Hv. destruct Hv as (u & Hu & Hv). exists u.
    assert (HuA : In u A) by (rewrite EA; apply in_app_iff in Hu; apply in_app_iff; cbn; tauto).
    assert (Hb : u < n + S i).
    { assert (Hs : In u (seq 0 (n + S i))) by (eapply Permutation_in; [exact P1|apply in_app_iff; now left]). apply in_seq in Hs. lia. }
    assert (u <> n + i).
    { intros ->. rewrite EA in NA. apply NoDup_app_remove_r in NA. apply NoDup_remove_2 in NA. contradiction. }
    split; [lia|]. split; [|now rewrite <- Eg]. intros Hf. exact (NoDup_app_disj' _ _ NA u HuA Hf).
Qed.

Lemma node_nonempty n ch v : backward n ch -> v < n + length ch -> 1 <= length (node_rows n (groups_of n ch) v).
Proof.
  intros HB. induction v as [v IH] using lt_wf_ind. intros Hv. unfold node_rows. destruct (Nat.ltb_spec v n); [cbn; lia|].
  rewrite groups_nth by (assumption || lia). specialize (HB (v - n) ltac:(lia)). rewrite app_length.
  assert (1 <= length (node_rows n (groups_of n ch) (fst (nth (v - n) ch (0, 0))))) by (apply IH; lia). lia.
Qed.

Lemma groups_merged n ch : dendrogram n ch -> merged_rows n ch (groups_of n ch).
Proof.
  intros HD. destruct (dendrogram_backward _ _ HD) as (HB & HN). split; [apply groups_length|]. split; [apply groups_nth, HB|].
  rewrite Forall_forall. intros g Hg. apply (In_nth _ _ []) in Hg. destruct Hg as (i & Hi & <-). rewrite groups_length in Hi.
  destruct (group_cover n ch i HB HN Hi) as (rest & HP & _). split; [|split].
  - rewrite groups_nth by assumption. specialize (HB i Hi). rewrite app_length.
    assert (1 <= length (node_rows n (groups_of n ch) (fst (nth i ch (0, 0))))) by (apply node_nonempty; [apply dendrogram_backward, HD|lia]).
    assert (1 <= length (node_rows n (groups_of n ch) (snd (nth i ch (0, 0))))) by (apply node_nonempty; [apply dendrogram_backward, HD|lia]). lia.
  - eapply NoDup_app_remove_r. eapply Permutation_NoDup; [symmetry; exact HP|apply seq_NoDup].
  - rewrite Forall_forall. intros v Hv. assert (Hs : In v (seq 0 n)) by (eapply Permutation_in; [exact HP|apply in_app_iff; now left]).
    apply in_seq in Hs. lia.
Qed.

Lemma last_group n ch : 2 <= n -> dendrogram n ch -> Permutation (nth (n - 2) (groups_of n ch) []) (seq 0 n).
Proof.
  intros Hn HD. destruct (dendrogram_backward _ _ HD) as (HB & HN). destruct HD as (L & _ & HP).
  destruct (group_cover n ch (n - 2) HB HN ltac:(lia)) as (rest & P & Hr).
  assert (rest = []); [|subst; now rewrite app_nil_r in P].
  destruct rest as [|v rest]; [reflexivity|exfalso]. destruct (Hr v (or_introl eq_refl)) as (u & Hu & Hno & _).
  apply Hno. rewrite firstn_all2 by lia. eapply Permutation_in; [symmetry; exact HP|]. apply in_seq. lia.
Qed.

(** ** The recursion *)

Section Walk.
Variables (X : list row) (dim : nat) (ch : list (nat * nat)).
Hypothesis HX : rect dim X.
Let n := length X.
Hypothesis HB : backward n ch.
Let G := node_rows n (groups_of n ch).

Definition value (v : nat) (cw : row * Q) : Prop :=
  length (fst cw) = dim /\ (snd cw == qn (length (G v)))%Q /\
  forall j, j < dim -> (nth j (fst cw) 0 * snd cw == qsum (map (fun i => nth j (nth i X []) 0) (G v)))%Q.

Definition filled (memo : list (option (row * Q))) (c : nat) : Prop := exists cw, nth_error memo c = Some (Some cw).

Definition memo_ok (memo : list (option (row * Q))) : Prop :=
  length memo = length ch /\
  (forall c cw, nth_error memo c = Some (Some cw) -> value (n + c) cw) /\
  (forall c v, filled memo c -> In v (parts (nth c ch (0, 0))) -> n <= v -> filled memo (v - n)).

Lemma row_value i : i < n -> value i (nth i X [], 1%Q).
Proof.
  intros Hi. unfold value, G, node_rows. destruct (Nat.ltb_spec i n); [|lia]. cbn [fst snd]. split; [now apply rect_nth|].
  split; [reflexivity|]. intros j Hj. cbn. ring.
Qed.

Lemma merge_value c a b : c < length ch -> value (fst (nth c ch (0, 0))) a -> value (snd (nth c ch (0, 0))) b ->
  value (n + c) (map (fun q => q / (snd a + snd b))%Q (vadd (vscale (snd a) (fst a)) (vscale (snd b) (fst b))), (snd a + snd b)%Q).
Proof.
  intros Hc (A1 & A2 & A3) (B1 & B2 & B3). cbn [fst snd].
  assert (EG : G (n + c) = G (fst (nth c ch (0, 0))) ++ G (snd (nth c ch (0, 0)))).
  { unfold G at 1, node_rows. destruct (Nat.ltb_spec (n + c) n); [lia|]. replace (n + c - n) with c by lia. now apply groups_nth. }
  assert (Hp : (0 < snd a + snd b)%Q).
  { assert (Hb := HB c Hc). assert (N1 : 1 <= length (G (fst (nth c ch (0, 0))))) by (apply node_nonempty; [assumption|lia]).
    rewrite A2, B2. assert (0 < qn (length (G (fst (nth c ch (0%nat, 0%nat))))))%Q by (apply qn_pos; lia).
    assert (0 <= qn (length (G (snd (nth c ch (0%nat, 0%nat))))))%Q by (unfold qn; change 0%Q with (inject_Z 0); rewrite <- Zle_Qle; lia). Lqa.lra. }
  unfold vadd, vscale. assert (LV : length (map2 Qplus (map (Qmult (snd a)) (fst a)) (map (Qmult (snd b)) (fst b))) = dim).
  { rewrite map2_length, !map_length. lia. }
  split; [cbn [fst]; now rewrite map_length|]. split.
  - cbn [snd]. rewrite A2, B2, EG, app_length. unfold qn. rewrite Nat2Z.inj_add, inject_Z_plus. reflexivity.
  - intros j Hj. cbn [fst snd]. rewrite (nth_map' _ 0%Q) by (rewrite LV; exact Hj).
    rewrite (map2_nth Qplus _ _ j 0%Q 0%Q 0%Q) by (rewrite map_length; lia). rewrite !(nth_map' _ 0%Q) by lia.
    rewrite EG, map_app, qsum_app. specialize (A3 j Hj). specialize (B3 j Hj). rewrite <- A3, <- B3. field. Lqa.lra.
Qed.

Lemma walk limit : forall idx memo, memo_ok memo -> idx < n + length ch -> S (S idx - n) <= limit ->
  exists cw memo', ahc_centers limit X ch idx memo = Ok (cw, memo') /\ value idx cw /\ memo_ok memo' /\
    (forall c, filled memo c -> filled memo' c) /\ (n <= idx -> filled memo' (idx - n)).
Proof.
  induction limit as [|limit IH]; intros idx memo HM Hi HL; [lia|]. cbn [ahc_centers]. fold n. destruct (Nat.ltb_spec idx n) as [H|H].
  - rewrite (get_nth [] X idx) by assumption. cbn [bind]. exists (nth idx X [], 1%Q), memo. split; [reflexivity|].
    split; [now apply row_value|]. split; [assumption|]. split; [auto|lia].
  - assert (M1 := proj1 HM). rewrite (get_nth None memo) by lia. cbn [bind].
    assert (Enc : n + (idx - n) = idx) by lia.
    destruct (nth (idx - n) memo None) as [cw|] eqn:E.
    + assert (E' : nth_error memo (idx - n) = Some (Some cw)) by (rewrite <- E; apply nth_error_nth'; lia).
      exists cw, memo. split; [reflexivity|]. split; [rewrite <- Enc; now apply HM|]. split; [assumption|]. split; [auto|]. intros _. now exists cw.
    + rewrite (get_nth (0, 0) ch) by lia. cbn [bind]. set (c := idx - n) in *. assert (Hc : c < length ch) by lia. assert (Hb := HB c Hc).
      destruct (IH (fst (nth c ch (0, 0))) memo) as ([ca wa] & m1 & E1 & V1 & K1 & F1 & N1); [assumption|lia|lia|]. rewrite E1. cbn [bind].
      destruct (IH (snd (nth c ch (0, 0))) m1) as ([cb wb] & m2 & E2 & V2 & K2 & F2 & N2); [assumption|lia|lia|]. rewrite E2. cbn [bind].
      pose proof (merge_value c _ _ Hc V1 V2) as V. cbn [fst snd] in V. rewrite Enc in V.
      set (cw := (map _ _, (wa + wb)%Q)) in *. exists cw, (set_nth c (Some cw) m2). assert (L2 := proj1 K2).
      assert (NE : forall i, nth_error (set_nth c (Some cw) m2) i = if i =? c then Some (Some cw) else nth_error m2 i).
      { intros i. destruct (lt_dec i (length m2)) as [Hl|Hl].
        - rewrite (nth_error_nth' _ None) by now rewrite set_nth_length. rewrite set_nth_nth by lia. destruct (Nat.eqb_spec i c); [reflexivity|].
          symmetry. now apply nth_error_nth'.
        - destruct (Nat.eqb_spec i c); [lia|]. rewrite (proj2 (nth_error_None _ _)) by (rewrite set_nth_length; lia). symmetry. apply nth_error_None. lia. }
      assert (FE : forall i, filled m2 i -> filled (set_nth c (Some cw) m2) i).
      { intros i (q & Hq). unfold filled. rewrite NE. destruct (i =? c); eauto. }
      split; [reflexivity|]. split; [exact V|]. split; [|split].
      * split; [now rewrite set_nth_length|]. split.
        -- intros i q. rewrite NE. destruct (Nat.eqb_spec i c) as [->|]; [intros Hq; injection Hq as <-; now rewrite Enc|apply K2].
        -- intros i v (q & Hq) Hv Hnv. rewrite NE in Hq. destruct (Nat.eqb_spec i c) as [->|].
           ++ apply FE. destruct Hv as [<-|[<-|[]]]; [apply F2, N1, Hnv|apply N2, Hnv].
           ++ apply FE. eapply (proj2 (proj2 K2)); [exists q; exact Hq|exact Hv|exact Hnv].
      * intros i Hf. apply FE, F2, F1, Hf.
      * intros _. exists cw. rewrite NE, Nat.eqb_refl. reflexivity.
Qed.

End Walk.

Lemma memo_empty X dim ch : memo_ok X dim ch (repeat None (length ch)).
Proof.
  assert (N : forall c cw, nth_error (repeat (@None (row * Q)) (length ch)) c <> Some (Some cw)).
  { intros c cw H. apply nth_error_In, repeat_spec in H. discriminate. }
  split; [apply repeat_length|]. split; [intros c cw H; now apply N in H|]. intros c v (cw & H). now apply N in H.
Qed.

(** The last merge is of the node made before it. *)
Lemma last_merge n ch : 3 <= n -> dendrogram n ch -> snd (nth (n - 2) ch (0, 0)) = n + (n - 3).
Proof.
  intros Hn (L & HB & HP). assert (Hin : In (n + (n - 3)) (flat_map parts ch)).
  { eapply Permutation_in; [symmetry; exact HP|]. apply in_seq. lia. }
  apply in_flat_map in Hin. destruct Hin as (ab & Hab & Hv). apply (In_nth _ _ (0, 0)) in Hab. destruct Hab as (i & Hi & <-).
  specialize (HB i Hi). assert (i = n - 2) by (cbn in Hv; lia). subst i. cbn in Hv. lia.
Qed.

Lemma all_filled X dim ch memo : dendrogram (length X) ch -> memo_ok X dim ch memo -> filled memo (length X - 2) ->
  forall k c, k = length X - 2 - c -> c < length ch -> filled memo c.
Proof.
  intros HD HM HF. destruct HD as (L & HB & HP). intros k. induction k as [k IH] using lt_wf_ind. intros c Hk Hc.
  destruct (Nat.eq_dec c (length X - 2)) as [->|]; [assumption|].
  assert (Hin : In (length X + c) (flat_map parts ch)) by (eapply Permutation_in; [symmetry; exact HP|apply in_seq; lia]).
  apply in_flat_map in Hin. destruct Hin as (ab & Hab & Hv). apply (In_nth _ _ (0, 0)) in Hab. destruct Hab as (i & Hi & <-).
  specialize (HB i Hi). assert (c < i) by (cbn in Hv; lia).
  replace c with (length X + c - length X) by lia. eapply (proj2 (proj2 HM)); [|exact Hv|lia].
  apply (IH (length X - 2 - i)); lia.
Qed.

Lemma value_mean X dim ch c cw : dendrogram (length X) ch -> c < length ch -> value X dim ch (length X + c) cw ->
  mean_of dim (rows_at X (nth c (groups_of (length X) ch) [])) (fst cw).
Proof.
  intros HD Hc (V1 & V2 & V3). unfold node_rows in V2, V3. destruct (Nat.ltb_spec (length X + c) (length X)); [lia|].
  replace (length X + c - length X) with c in * by lia. destruct (groups_merged _ _ HD) as (Lg & _ & Hg).
  rewrite Forall_forall in Hg. set (g := nth c (groups_of (length X) ch) []) in *.
  assert (Hlen : 2 <= length g) by (apply Hg; apply nth_In; lia).
  split; [assumption|]. intros j Hj. specialize (V3 j Hj). unfold rows_at. rewrite map_map, map_length. rewrite <- V3, V2. fold (qn (length g)).
  field. apply qn_nz. lia.
Qed.

Lemma ahc_minority_spec children limit X dim : rect dim X -> 3 <= length X -> dendrogram (length X) (children X) -> length X <= limit ->
  exists new, ahc_minority children limit X = Ok new /\ length new = length X - 1 /\ ahc_rows dim X (children X) new /\
    mean_of dim X (last new []).
Proof.
  intros HX Hn HD HL. unfold ahc_minority. set (ch := children X) in *. destruct (dendrogram_backward _ _ HD) as (HB & HN).
  assert (L := proj1 HD). destruct (rev ch) as [|lst rest] eqn:ER.
  { apply (f_equal (@length _)) in ER. rewrite rev_length in ER. cbn in ER. lia. }
  assert (El : lst = nth (length X - 2) ch (0, 0)).
  { assert (Ech : ch = rev rest ++ [lst]) by (rewrite <- (rev_involutive ch), ER; reflexivity).
    rewrite Ech. rewrite Ech, app_length in L. cbn in L. replace (length X - 2) with (length (rev rest)) by lia. now rewrite nth_middle. }
  rewrite El, last_merge by assumption.
  destruct (walk X dim ch HX HB limit (length X + (length X - 3) + 1) (repeat None (length ch))) as (cw & memo & E & _ & HM & _ & HF);
    [apply memo_empty|lia|lia|]. rewrite E. cbn [bind snd].
  assert (F : forall c, c < length ch -> filled memo c).
  { intros c Hc. eapply all_filled; [exact HD|exact HM| |reflexivity|exact Hc].
    replace (length X - 2) with (length X + (length X - 3) + 1 - length X) by lia. apply HF. lia. }
  set (val := fun m : option (row * Q) => match m with Some cw => Ok (fst cw) | None => Err ValueError end).
  destruct (mapM_total val memo) as (new & En).
  { rewrite Forall_forall. intros m Hm. apply (In_nth_error _ _) in Hm. destruct Hm as (c & Hc).
    destruct (F c) as (q & Hq). { rewrite <- (proj1 HM). apply nth_error_Some. congruence. }
    rewrite Hc in Hq. injection Hq as ->. cbn. eauto. }
  exists new. split; [exact En|]. apply mapM_ok_iff in En. assert (Ln : length memo = length new) by (eapply Forall2_length; exact En).
  assert (LM := proj1 HM). split; [lia|].
  assert (A : Forall2 (fun g x => mean_of dim (rows_at X g) x) (groups_of (length X) ch) new).
  { apply (Forall2_nth_intro _ [] []); [rewrite groups_length; lia|]. intros c Hc. rewrite groups_length in Hc.
    destruct (F c Hc) as (q & Hq). assert (Ec := Forall2_nth' _ _ _ None [] c En ltac:(lia)). cbv beta in Ec.
    rewrite (nth_error_nth _ _ None Hq) in Ec. cbn in Ec. injection Ec as <-. apply value_mean; [assumption|assumption|]. now apply HM. }
  split; [exists (groups_of (length X) ch); split; [now apply groups_merged|exact A]|].
  assert (Hlast : last new [] = nth (length X - 2) new []).
  { destruct new as [|x new] using rev_ind; [cbn in Ln; lia|]. rewrite last_last. rewrite app_length in Ln. cbn in Ln.
    replace (length X - 2) with (length new) by lia. now rewrite nth_middle. }
  rewrite Hlast. assert (M := Forall2_nth' _ _ _ [] [] (length X - 2) A ltac:(rewrite groups_length; lia)). cbv beta in M.
  destruct M as (M1 & M2). split; [assumption|]. intros j Hj. rewrite (M2 j Hj). assert (P := last_group (length X) ch ltac:(lia) HD).
  unfold rows_at. rewrite map_length, map_map. rewrite (Permutation_length P), seq_length.
  rewrite (qsum_perm _ _ (Permutation_map (fun i => nth j (nth i X []) 0%Q) P)).
  rewrite <- (map_map (fun i => nth i X []) (fun x => nth j x 0%Q)). rewrite (NoiseFacts.map_nth_seq []). reflexivity.
Qed.

(** ** The three strategies *)

Definition centers_ok (dim : nat) (centers : nat -> list row -> res (list row)) : Prop :=
  forall k X, 1 <= k <= length X -> rect dim X -> exists C, centers k X = Ok C /\ length C = k /\ rect dim C.

Lemma ahc_main children centers limit s D mn mj :
  wf_data (d_X D) (d_dim D) (d_y D) -> is_minority (d_y D) mn mj -> centers_ok (d_dim D) centers ->
  let X_min := rows_with mn (d_X D) (d_y D) in
  let X_maj := rows_with mj (d_X D) (d_y D) in
  dendrogram (length X_min) (children X_min) -> length X_min <= limit ->
  let out := ahc_sample children centers limit s D in
  (count_label (d_y D) mn <= 2 -> unchanged D out) /\
  (2 < count_label (d_y D) mn -> exists new maj,
    out = Ok (new ++ X_min ++ maj, repeat mn (length new + length X_min) ++ repeat mj (length maj)) /\
    match s with
    | AhcMaj => new = []
    | _ => length new = length X_min - 1 /\ ahc_rows (d_dim D) X_min (children X_min) new /\ mean_of (d_dim D) X_min (last new [])
    end /\
    match s with
    | AhcMin => maj = X_maj
    | AhcMaj => centers (length X_min) X_maj = Ok maj /\ length maj = length X_min
    | AhcMinMaj => let k := Nat.min (length X_maj) (2 * length X_min - 1) in centers k X_maj = Ok maj /\ length maj = k
    end).
Proof.
  intros [W1 W2] Hmin HC X_min X_maj HD HL out. unfold out, ahc_sample.
  destruct (sample_default (ahc_algorithm children centers limit s) D mn mj Hmin) as (st & Hst & ->). split; intros H2.
  { apply Nat.leb_le in H2. rewrite H2. reflexivity. }
  destruct (Nat.leb_spec (count_label (d_y D) mn) 2); [lia|].
  destruct (stats_labels _ _ _ _ Hst) as [E1 E2].
  assert (LX : length X_min = count_label (d_y D) mn) by (apply rows_with_length; assumption).
  assert (LM : length X_maj = count_label (d_y D) mj) by (apply rows_with_length; assumption).
  assert (RX : rect (d_dim D) X_min) by (apply rows_with_rect; assumption).
  assert (RM : rect (d_dim D) X_maj) by (apply rows_with_rect; assumption).
  pose proof (minority_size _ _ _ Hmin) as Hle.
  destruct (ahc_minority_spec children limit X_min (d_dim D) RX ltac:(lia) HD HL) as (new & En & Ln & An & Mn).
  unfold ahc_algorithm. rewrite E1, E2. fold X_min X_maj. destruct s.
  - rewrite En. cbn [bind]. exists new, X_maj. split; [reflexivity|]. auto.
  - destruct (HC (length X_min) X_maj ltac:(lia) RM) as (C & EC & LC & _). rewrite EC. cbn [bind]. exists [], C. auto.
  - rewrite En. cbn [bind]. rewrite Ln. destruct (HC (Nat.min (length X_maj) (length X_min - 1 + length X_min)) X_maj ltac:(lia) RM) as (C & EC & LC & _).
    rewrite EC. cbn [bind]. exists new, C. rewrite Ln. split; [reflexivity|]. split; [auto|]. cbv zeta.
    replace (2 * length X_min - 1) with (length X_min - 1 + length X_min) by lia. auto.
Qed.

(** ** Deep dendrograms *)

Definition chain (n : nat) : list (nat * nat) :=
  (0, 1) :: map (fun i => (i + 1, n + i - 1)) (seq 1 (n - 2)).

Lemma chain_length n : 2 <= n -> length (chain n) = n - 1.
Proof. intros H. cbn. rewrite map_length, seq_length. lia. Qed.

Lemma chain_nth n i : 1 <= i -> i < n - 1 -> nth i (chain n) (0, 0) = (i + 1, n + i - 1).
Proof.
  intros H1 H2. destruct i as [|i]; [lia|]. unfold chain. cbn [nth]. rewrite (nth_map' _ 0) by (rewrite seq_length; lia).
  rewrite seq_nth by lia. reflexivity.
Qed.

Lemma chain_perm n k : k <= n - 2 -> 3 <= n ->
  Permutation (flat_map parts ((0, 1) :: map (fun i => (i + 1, n + i - 1)) (seq 1 k))) (seq 0 (k + 2) ++ seq n k).
Proof.
  intros Hk Hn. induction k as [|k IH]; [cbn; reflexivity|]. rewrite seq_S, map_app. cbn [map].
  rewrite app_comm_cons, flat_map_app, IH by lia. cbn [flat_map fst snd app].
  replace (S k + 2) with ((k + 2) + 1) by lia. rewrite (seq_app (k + 2) 1 0), (seq_S k n). cbn [seq Nat.add].
  replace (n + S k - 1) with (n + k) by lia.
  rewrite <- !app_assoc. apply Permutation_app_head. cbn [app].
  rewrite (Permutation_app_comm (seq n k)). cbn [app]. replace (S (k + 1)) with (k + 2) by lia. apply perm_skip. now rewrite <- Permutation_cons_append.
Qed.

Lemma chain_ok n : 3 <= n -> dendrogram n (chain n).
Proof.
  intros Hn. split; [apply chain_length; lia|]. split.
  - intros i Hi. rewrite chain_length in Hi by lia. destruct i as [|i]; [cbn; lia|]. rewrite chain_nth by lia. cbn [fst snd]. lia.
  - unfold chain. rewrite (chain_perm n (n - 2)) by lia. replace (n - 2 + 2) with n by lia. rewrite <- seq_app. reflexivity.
Qed.

Lemma chain_deep X limit : forall c memo, memo = repeat None (length X - 1) -> 3 <= length X -> c < length X - 1 -> limit <= c + 1 ->
  ahc_centers limit X (chain (length X)) (length X + c) memo = Err RecursionError.
Proof.
  induction limit as [|limit IH]; intros c memo -> Hn Hc HL; [reflexivity|]. cbn [ahc_centers].
  destruct (Nat.ltb_spec (length X + c) (length X)); [lia|]. replace (length X + c - length X) with c by lia.
  rewrite (get_nth None) by (rewrite repeat_length; lia). cbn [bind]. rewrite nth_repeat.
  rewrite (get_nth (0, 0)) by (rewrite chain_length; lia). cbn [bind].
  destruct limit as [|limit]; [reflexivity|]. rewrite chain_nth by lia. cbn [fst snd].
  assert (E : ahc_centers (S limit) X (chain (length X)) (c + 1) (repeat None (length X - 1)) = Ok ((nth (c + 1) X [], 1%Q), repeat None (length X - 1))).
  { cbn [ahc_centers]. destruct (Nat.ltb_spec (c + 1) (length X)); [|lia]. rewrite (get_nth [] X) by lia. reflexivity. }
  rewrite E. cbn [bind]. replace (length X + c - 1) with (length X + (c - 1)) by lia. rewrite IH by (reflexivity || lia). reflexivity.
Qed.

Lemma ahc_deep limit X : 3 <= length X -> limit <= length X - 1 -> ahc_minority (fun X => chain (length X)) limit X = Err RecursionError.
Proof.
  intros Hn HL. unfold ahc_minority.
  assert (ER : exists rest, rev (chain (length X)) = nth (length X - 2) (chain (length X)) (0, 0) :: rest).
  { destruct (chain (length X)) as [|x l] eqn:E using rev_ind; [discriminate|]. exists (rev l). rewrite rev_app_distr. cbn [rev app].
    assert (Ll := chain_length (length X) ltac:(lia)). rewrite E, app_length in Ll. cbn in Ll.
    replace (length X - 2) with (length l) by lia. now rewrite nth_middle. }
  destruct ER as (rest & ER). rewrite ER, chain_nth by lia. cbn [snd]. rewrite chain_length by lia.
  replace (length X + (length X - 2) - 1 + 1) with (length X + (length X - 2)) by lia.
  rewrite chain_deep by (reflexivity || lia). reflexivity.
Qed.
