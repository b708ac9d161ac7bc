(** Facts about BaseModel.v. *)

From Coq Require Import List ZArith QArith Bool Arith String Lia Lqa Permutation Sorted.
From Verif Require Import Np NpFacts PyVal BaseModel SpecBase KnnFacts SimplexModel.
Import ListNotations.
Open Scope list_scope.

(** ** Numbers *)

Lemma Qlt_b_spec a b : Qlt_b a b = true <-> a < b.
Proof.
  unfold Qlt_b. rewrite negb_true_iff. split; intro H.
  - apply Qnot_le_lt. intro H1. apply Qle_bool_iff in H1. congruence.
  - destruct (Qle_bool b a) eqn:E; [|reflexivity]. apply Qle_bool_iff in E.
    exfalso. apply (Qlt_not_le _ _ H E).
Qed.

Lemma xltb_spec x y : not_nan x -> not_nan y -> (xltb x y = true <-> xlt x y).
Proof.
  unfold not_nan, xlt, xle. intros Hx Hy.
  destruct x, y; cbn; try congruence; try (intuition discriminate); try (intuition auto; fail).
  rewrite Qlt_b_spec. split; [intro H; split; [apply Qlt_le_weak|apply Qlt_not_le]; assumption|].
  intros [_ H]. apply Qnot_le_lt, H.
Qed.

Lemma xeqb_spec x y : not_nan x -> not_nan y -> (xeqb x y = true <-> xeq x y).
Proof.
  unfold not_nan, xeq, xle. intros Hx Hy.
  destruct x, y; cbn; try congruence; try (intuition discriminate); try (intuition auto; fail).
  rewrite Qeq_bool_iff. split; [intros ->; split; apply Qle_refl|].
  intros [H1 H2]. apply Qle_antisym; assumption.
Qed.

Lemma xle_total x y : not_nan x -> not_nan y -> xle x y \/ xle y x.
Proof.
  unfold not_nan, xle. destruct x, y; try congruence; auto.
  intros _ _. destruct (Qlt_le_dec q q0); [left; apply Qlt_le_weak|right]; assumption.
Qed.

Lemma xltb_nan_l y : xltb NaN y = false. Proof. reflexivity. Qed.
Lemma xltb_nan_r x : xltb x NaN = false. Proof. destruct x; reflexivity. Qed.
Lemma xeqb_nan_r x : xeqb x NaN = false. Proof. destruct x; reflexivity. Qed.

Lemma xleb_spec x y : not_nan x -> not_nan y -> (xleb x y = true <-> xle x y).
Proof.
  intros Hx Hy. unfold xleb. rewrite orb_true_iff, xltb_spec, xeqb_spec by assumption.
  unfold xlt, xeq. split; [tauto|]. intro H.
  destruct (xltb x y) eqn:E; [apply xltb_spec in E; auto|].
  right. split; [exact H|]. destruct (xle_total x y Hx Hy) as [H1|H1]; [|exact H1].
  assert (~ xlt x y) by (rewrite <- xltb_spec by assumption; congruence).
  unfold xlt in H0. destruct (xeqb x y) eqn:E2; [apply xeqb_spec in E2; auto; apply E2|].
  (* decide xle y x *)
  destruct x, y; cbn in *; try tauto; try (exfalso; apply H0; tauto).
  destruct (Qlt_le_dec q q0) as [L|L]; [|exact L].
  exfalso. apply H0. split; [exact H|]. apply Qlt_not_le, L.
Qed.

Lemma raise_if_ok b : raise_if b = Ok tt <-> b = false.
Proof. destruct b; cbn; split; congruence. Qed.
Lemma raise_if_err b : raise_if b = Err ValueError <-> b = true.
Proof. destruct b; cbn; split; congruence. Qed.
Lemma raise_if_cases b : raise_if b = Ok tt \/ raise_if b = Err ValueError.
Proof. destruct b; cbn; auto. Qed.

Lemma not_xlt x y : not_nan x -> not_nan y -> (xltb x y = false <-> xle y x).
Proof.
  intros Hx Hy. rewrite <- not_true_iff_false, xltb_spec by assumption.
  split.
  - intro H. destruct (xle_total x y Hx Hy) as [H1|H1]; [|exact H1].
    destruct (xleb y x) eqn:E; [apply xleb_spec in E; assumption|].
    exfalso. apply H. split; [exact H1|]. rewrite <- xleb_spec by assumption. congruence.
  - intros H [_ H1]. tauto.
Qed.

Lemma not_xle x y : not_nan x -> not_nan y -> (xleb x y = false <-> xlt y x).
Proof.
  intros Hx Hy. rewrite <- not_true_iff_false, xleb_spec by assumption. unfold xlt.
  split; [|tauto]. intro H. split; [|exact H].
  destruct (xle_total x y Hx Hy); tauto.
Qed.

(** ** fix_density *)

Lemma nan_to_num_length l : List.length (map nan_to_num l) = List.length l.
Proof. apply map_length. Qed.

Lemma fix_density_length l : List.length (fix_density l) = List.length l.
Proof.
  unfold fix_density. rewrite map_length.
  destruct (Qeq_bool _ _); [rewrite repeat_length|]; apply map_length.
Qed.

Lemma qsum_map_div c l : qsum (map (fun x => x / c) l) == qsum l / c.
Proof.
  induction l as [|x l IH]; cbn; [unfold Qdiv; lra|]. rewrite IH. unfold Qdiv. ring.
Qed.

Lemma fix_density_sum l : l <> [] -> qsum (fix_density l) == 1.
Proof.
  intro Hl. unfold fix_density. rewrite qsum_map_div.
  destruct (Qeq_bool (qsum (map nan_to_num l)) 0) eqn:E.
  - rewrite !qsum_repeat, map_length. destruct l as [|x l]; [congruence|].
    unfold Qdiv. apply Qmult_inv_r. cbn [List.length]. intro H.
    rewrite Qmult_1_r in H. unfold Qeq in H. cbn in H. lia.
  - unfold Qdiv. apply Qmult_inv_r. intro H. apply Qeq_bool_iff in H. congruence.
Qed.

Lemma fix_density_zero l :
  qsum (map nan_to_num l) == 0 ->
  Forall (fun x => x == 1 / inject_Z (Z.of_nat (List.length l))) (fix_density l).
Proof.
  intro H. unfold fix_density. apply Qeq_bool_iff in H. rewrite H.
  rewrite Forall_map. rewrite Forall_forall. intros x Hx. apply repeat_spec in Hx. subst x.
  rewrite qsum_repeat, map_length, Qmult_1_r. reflexivity.
Qed.

Lemma fix_density_nonzero l :
  ~ qsum (map nan_to_num l) == 0 ->
  fix_density l = map (fun x => x / qsum (map nan_to_num l)) (map nan_to_num l).
Proof.
  intro H. unfold fix_density. destruct (Qeq_bool _ 0) eqn:E; [|reflexivity].
  apply Qeq_bool_iff in E. contradiction.
Qed.

Lemma fix_density_nonneg l :
  Forall (fun x => 0 <= nan_to_num x) l -> Forall (fun x => 0 <= x) (fix_density l).
Proof.
  intro H.
  assert (Hn : Forall (Qle 0) (map nan_to_num l)) by (rewrite Forall_map; exact H).
  unfold fix_density. rewrite Forall_map.
  destruct (Qeq_bool _ 0) eqn:E.
  - rewrite Forall_forall. intros x Hx. apply repeat_spec in Hx. subst x.
    apply Qmult_le_0_compat; [lra|]. apply Qinv_le_0_compat.
    apply qsum_nonneg. apply Forall_forall. intros x Hx. apply repeat_spec in Hx. subst x. lra.
  - eapply Forall_impl; [|exact Hn]. cbn. intros a Ha.
    apply Qmult_le_0_compat; [exact Ha|]. apply Qinv_le_0_compat, qsum_nonneg, Hn.
Qed.

Lemma fix_density_le_one l :
  Forall (fun x => 0 <= nan_to_num x) l -> Forall (fun x => x <= 1) (fix_density l).
Proof.
  intro H. destruct l as [|a l]; [constructor|].
  rewrite Forall_forall. intros x Hx.
  rewrite <- (fix_density_sum (a :: l)) by discriminate.
  apply qsum_in_le; [apply fix_density_nonneg, H|exact Hx].
Qed.

(** ** vector_choice *)

Lemma cumsum_from_length acc l : List.length (cumsum_from acc l) = List.length l.
Proof. revert acc; induction l; cbn; intros; [|rewrite IHl]; reflexivity. Qed.

Lemma cumsum_from_nth acc l i : (i < List.length l)%nat ->
  nth i (cumsum_from acc l) 0 == acc + qsum (firstn (S i) l).
Proof.
  revert acc i; induction l as [|x l IH]; cbn; intros acc i Hi; [lia|].
  destruct i as [|i]; cbn [nth].
  - destruct l; cbn; ring.
  - rewrite IH by lia. cbn. ring.
Qed.

Lemma first_true_some l i : first_true l = Some i <->
  nth_error l i = Some true /\ forall j, (j < i)%nat -> nth_error l j = Some false.
Proof.
  revert i; induction l as [|b l IH]; intro i; cbn.
  - destruct i; cbn; split; [discriminate|intros [H _]; discriminate|discriminate|intros [H _]; discriminate].
  - destruct b.
    + split.
      * intro H; inversion H; subst. split; [reflexivity|]. intros; lia.
      * intros [H1 H2]. destruct i; [reflexivity|]. specialize (H2 0%nat ltac:(lia)). discriminate.
    + destruct (first_true l) as [k|] eqn:E; cbn.
      * split.
        -- intro H; inversion H; subst. destruct (proj1 (IH k) eq_refl) as [H1 H2].
           split; [exact H1|]. intros [|j] Hj; [reflexivity|]. apply H2. lia.
        -- intros [H1 H2]. destruct i as [|i]; [discriminate|]. f_equal.
           assert (Some k = Some i) as Hki; [|congruence].
           apply IH. split; [exact H1|]. intros j Hj. apply (H2 (S j)). lia.
      * split; [discriminate|]. intros [H1 H2]. destruct i as [|i]; [discriminate|].
        assert (None = Some i) as Hk; [|discriminate].
        apply IH. split; [exact H1|]. intros j Hj. apply (H2 (S j)). lia.
Qed.

Lemma first_true_none l : first_true l = None -> Forall (fun b => b = false) l.
Proof.
  induction l as [|b l IH]; cbn; [constructor|]. destruct b; [discriminate|].
  destruct (first_true l); [discriminate|]. intros _. constructor; auto.
Qed.

Lemma cumsum_last p : p <> [] -> nth (List.length p - 1) (cumsum p) 0 == qsum p.
Proof.
  intro Hp. assert (0 < List.length p)%nat by (destruct p; [congruence|cbn; lia]).
  unfold cumsum. rewrite cumsum_from_nth by lia.
  replace (S (List.length p - 1)) with (List.length p) by lia. rewrite firstn_all. ring.
Qed.

Lemma firstn_S_sum p i : (i < List.length p)%nat ->
  qsum (firstn (S i) p) == qsum (firstn i p) + nth i p 0.
Proof.
  revert i; induction p as [|x p IH]; intros i Hi; cbn in Hi; [lia|].
  destruct i as [|i]; [cbn; ring|]. rewrite !firstn_cons. cbn [qsum nth].
  rewrite IH by lia. ring.
Qed.

Lemma choice_index p u : qsum p == 1 -> 0 <= u -> u < 1 ->
  let i := argmax_bool (map (fun c => Qlt_b u c) (cumsum p)) in
  (i < List.length p)%nat /\ qsum (firstn i p) <= u /\ u < qsum (firstn (S i) p).
Proof.
  intros Hs H0 H1.
  assert (Hp : p <> []) by (intros ->; cbn in Hs; lra).
  assert (Hlp : (0 < List.length p)%nat) by (destruct p; [congruence|cbn; lia]).
  unfold argmax_bool. destruct (first_true _) as [k|] eqn:E.
  - apply first_true_some in E. destruct E as [E1 E2]. cbv zeta.
    assert (Hk : (k < List.length p)%nat).
    { assert (k < List.length (map (fun c => Qlt_b u c) (cumsum p)))%nat
        by (apply nth_error_Some; congruence).
      rewrite map_length in H. unfold cumsum in H. rewrite cumsum_from_length in H. exact H. }
    assert (Hn : forall j, (j < List.length p)%nat ->
        nth_error (map (fun c => Qlt_b u c) (cumsum p)) j = Some (Qlt_b u (nth j (cumsum p) 0))).
    { intros j Hj. rewrite nth_error_map.
      rewrite (nth_error_nth' (cumsum p) 0); [reflexivity|].
      unfold cumsum. rewrite cumsum_from_length. exact Hj. }
    split; [exact Hk|]. split.
    + destruct k as [|k]; [cbn; exact H0|].
      specialize (E2 k ltac:(lia)). rewrite Hn in E2 by lia. injection E2 as E2.
      unfold cumsum in E2. apply Qnot_lt_le. intro Hlt.
      rewrite <- not_true_iff_false, Qlt_b_spec in E2. apply E2.
      rewrite cumsum_from_nth by lia. lra.
    + rewrite Hn in E1 by lia. injection E1 as E1. apply Qlt_b_spec in E1.
      unfold cumsum in E1. rewrite cumsum_from_nth in E1 by lia. lra.
  - apply first_true_none in E. rewrite Forall_map in E.
    assert (Hin : In (nth (List.length p - 1) (cumsum p) 0) (cumsum p)).
    { apply nth_In. unfold cumsum. rewrite cumsum_from_length. lia. }
    rewrite Forall_forall in E. specialize (E _ Hin).
    rewrite <- not_true_iff_false, Qlt_b_spec, cumsum_last, Hs in E by exact Hp. contradiction.
Qed.

Lemma vector_choice_spec {A} (arr : list A) p rands :
  List.length rands = List.length p ->
  Forall (fun u => 0 <= u /\ u < 1) rands ->
  Forall (fun r => qsum r == 1 /\ List.length r = List.length arr) p ->
  exists out, vector_choice arr p rands = Ok out /\ List.length out = List.length p /\
    forall k x, nth_error out k = Some x ->
    exists i, nth_error arr i = Some x /\
      qsum (firstn i (nth k p [])) <= nth k rands 0 /\
      nth k rands 0 < qsum (firstn (S i) (nth k p [])).
Proof.
  intros Hl Hr Hp. unfold vector_choice.
  assert (HF : Forall (fun rp => (0 <= fst rp /\ fst rp < 1) /\
                                 qsum (snd rp) == 1 /\ List.length (snd rp) = List.length arr)
                      (combine rands p)).
  { rewrite Forall_forall in *. intros [u r] Hin. cbn. split.
    - apply Hr. eapply in_combine_l, Hin.
    - apply Hp. eapply in_combine_r, Hin. }
  destruct (mapM_total (fun rp => get arr (argmax_bool
      (map (fun c => Qlt_b (fst rp) c) (cumsum (snd rp))))) (combine rands p)) as [out Hout].
  { apply Forall_forall. intros [u r] Hin. rewrite Forall_forall in HF. destruct (HF _ Hin) as [[? ?] [? ?]]. cbn in *.
    apply get_lt. rewrite <- H2. apply choice_index; assumption. }
  exists out. split; [exact Hout|].
  assert (Hlen := mapM_length _ _ _ Hout). rewrite combine_length, Hl, Nat.min_id in Hlen.
  split; [exact Hlen|]. intros k x Hx.
  assert (Hk : (k < List.length p)%nat).
  { rewrite <- Hlen. apply nth_error_Some. congruence. }
  assert (Hc : nth_error (combine rands p) k = Some (nth k rands 0, nth k p [])).
  { rewrite (nth_error_nth' _ (0, [])) by (rewrite combine_length; lia).
    f_equal. apply combine_nth. exact Hl. }
  destruct (mapM_nth _ _ _ _ _ Hout Hc) as [x' [H2 H1]].
  rewrite Hx in H2. injection H2 as <-. cbn in H1.
  rewrite Forall_forall in HF. destruct (HF _ (nth_error_In _ _ Hc)) as [[? ?] [? ?]]. cbn in *.
  eexists. split; [apply get_ok, H1|].
  apply choice_index; assumption.
Qed.

(** ** mode *)

Lemma fold_max_spec cs c : let m := fold_left Nat.max cs c in
  In m (c :: cs) /\ Forall (fun x => x <= m)%nat (c :: cs).
Proof.
  revert c; induction cs as [|d cs IH]; intro c; cbn.
  - split; [auto|]. repeat constructor.
  - specialize (IH (Nat.max c d)). cbn in IH. destruct IH as [H1 H2].
    inversion H2; subst. split.
    + destruct H1 as [H1|H1]; [|auto]. rewrite <- H1.
      destruct (Nat.max_spec c d) as [[_ ->]|[_ ->]]; auto.
    + constructor; [lia|]. constructor; [lia|]. assumption.
Qed.

Lemma where_first m i : nth_error (where_ m) 0 = Some i -> first_true m = Some i.
Proof.
  unfold where_. assert (G : forall a, nth_error (select m (seq a (List.length m))) 0 = Some i ->
     option_map (fun k => a + k)%nat (first_true m) = Some i).
  { induction m as [|b m IH]; cbn; intros a H; [discriminate|].
    destruct b; cbn in *; [rewrite Nat.add_0_r; exact H|].
    specialize (IH (S a)). specialize (IH H).
    destruct (first_true m); cbn in *; [|discriminate].
    rewrite Nat.add_succ_r. exact IH. }
  intro H. specialize (G 0%nat H). destruct (first_true m); cbn in G; congruence.
Qed.

Lemma where_nonempty m : In true m -> exists i, nth_error (where_ m) 0 = Some i.
Proof.
  unfold where_. generalize 0%nat at 1.
  induction m as [|b m IH]; cbn; intros a H; [contradiction|].
  destruct b; cbn; [eauto|]. destruct H as [H|H]; [discriminate|]. apply IH, H.
Qed.

Lemma mode_spec data : data <> [] ->
  exists m, mode data = Ok m /\ In m data /\
    (forall x, count_occ Z.eq_dec data x <= count_occ Z.eq_dec data m)%nat /\
    (forall x, count_occ Z.eq_dec data x = count_occ Z.eq_dec data m -> (m <= x)%Z).
Proof.
  intro Hd. unfold mode.
  assert (Hu : unique_counts data <> []).
  { destruct data as [|z data]; [congruence|]. intro E.
    assert (In z (map fst (unique_counts (z :: data)))) by (apply unique_counts_keys; left; reflexivity).
    rewrite E in H. contradiction. }
  set (u := unique_counts data) in *.
  destruct (map snd u) as [|c cs] eqn:Ecs; [destruct u; [congruence|discriminate]|].
  destruct (fold_max_spec cs c) as [Hin Hmax].
  set (mx := fold_left Nat.max cs c) in *. rewrite <- Ecs in *.
  destruct (where_nonempty (map (fun k => k =? mx)%nat (map snd u))) as [i Hi].
  { apply in_map_iff. exists mx. split; [apply Nat.eqb_refl|exact Hin]. }
  unfold get at 1. rewrite Hi. cbn [bind].
  apply where_first in Hi. apply first_true_some in Hi. destruct Hi as [Hi1 Hi2].
  rewrite !nth_error_map in Hi1.
  destruct (nth_error u i) as [[v k]|] eqn:Eu; [|discriminate]. cbn in Hi1.
  injection Hi1 as Hi1. apply Nat.eqb_eq in Hi1. subst k.
  assert (Hv : In (v, mx) u) by (eapply nth_error_In, Eu).
  assert (Hcv := proj1 (unique_counts_in data v mx) Hv).
  destruct Hcv as [Hvin Hvc].
  exists v. unfold get. rewrite nth_error_map, Eu. cbn. split; [reflexivity|].
  split.
  - rewrite <- unique_counts_keys. apply in_map_iff. exists (v, mx). auto.
  - assert (Hle : forall x, In x data -> In (x, count_occ Z.eq_dec data x) u).
    { intros x Hx. apply unique_counts_in. split; [|reflexivity].
      apply (count_occ_In Z.eq_dec) in Hx. lia. }
    split.
    + intro x. destruct (in_dec Z.eq_dec x data) as [Hx|Hx].
      * apply Hle in Hx. rewrite Forall_forall in Hmax.
        rewrite <- Hvc. apply Hmax. apply in_map_iff. exists (x, count_occ Z.eq_dec data x). auto.
      * apply (count_occ_not_In Z.eq_dec) in Hx. rewrite Hx. lia.
    + intros x Hx. destruct (Z_lt_le_dec x v) as [Hlt|]; [|assumption]. exfalso.
      assert (Hxin : In x data).
      { apply (count_occ_In Z.eq_dec). rewrite Hx. apply (count_occ_In Z.eq_dec).
        apply unique_counts_keys. apply in_map_iff. exists (v, mx). auto. }
      apply Hle in Hxin. rewrite Hx, <- Hvc in Hxin.
      apply In_nth_error in Hxin. destruct Hxin as [j Hj].
      assert (Hs := unique_counts_sorted data). fold u in Hs.
      assert (Hji : (j < i)%nat).
      { destruct (lt_eq_lt_dec j i) as [[H|H]|H]; [exact H| |].
        - subst j. rewrite Hj in Eu. injection Eu as ->. lia.
        - exfalso.
          assert (H1 : nth_error (map fst u) i = Some v) by (rewrite nth_error_map, Eu; reflexivity).
          assert (H2 : nth_error (map fst u) j = Some x) by (rewrite nth_error_map, Hj; reflexivity).
          assert (v < x)%Z; [|lia].
          clear - Hs H1 H2 H. revert i j H H1 H2.
          induction Hs as [|a l Hs IH HF]; intros i j H H1 H2.
          + destruct i; discriminate.
          + destruct i, j; cbn in *; try lia.
            * injection H1 as ->. rewrite Forall_forall in HF. apply HF. eapply nth_error_In, H2.
            * eapply IH; [|exact H1|exact H2]; lia. }
      specialize (Hi2 j Hji). rewrite !nth_error_map, Hj in Hi2. cbn in Hi2.
      rewrite Nat.eqb_refl in Hi2. discriminate.
Qed.

(** ** dictionaries *)

Lemma dget_dset_same {A} (d : list (string * A)) k v : dget (dset d k v) k = Some v.
Proof.
  induction d as [|[k' w] d IH]; cbn.
  - rewrite String.eqb_refl. reflexivity.
  - destruct (String.eqb k' k) eqn:E; cbn; rewrite E; [reflexivity|exact IH].
Qed.

Lemma dget_dset_other {A} (d : list (string * A)) k k' v :
  k <> k' -> dget (dset d k v) k' = dget d k'.
Proof.
  intro H. induction d as [|[k'' w] d IH]; cbn.
  - destruct (String.eqb k k') eqn:E; [apply String.eqb_eq in E; contradiction|reflexivity].
  - destruct (String.eqb k'' k) eqn:E; cbn.
    + apply String.eqb_eq in E. subst k''.
      destruct (String.eqb k k') eqn:E2; [apply String.eqb_eq in E2; contradiction|reflexivity].
    + rewrite IH. reflexivity.
Qed.

Lemma dget_in {A} (d : list (string * A)) k v : dget d k = Some v -> In (k, v) d.
Proof.
  induction d as [|[k' w] d IH]; cbn; [discriminate|].
  destruct (String.eqb k' k) eqn:E; intro H.
  - apply String.eqb_eq in E. left. congruence.
  - right. auto.
Qed.

Lemma dget_none {A} (d : list (string * A)) k : dget d k = None <-> ~ In k (map fst d).
Proof.
  induction d as [|[k' w] d IH]; cbn; [tauto|].
  destruct (String.eqb k' k) eqn:E.
  - apply String.eqb_eq in E. split; [discriminate|]. tauto.
  - apply String.eqb_neq in E. rewrite IH. tauto.
Qed.

Lemma dget_nodup {A} (d : list (string * A)) k v :
  NoDup (map fst d) -> In (k, v) d -> dget d k = Some v.
Proof.
  induction d as [|[k' w] d IH]; cbn; [tauto|].
  intros Hnd [H|H]; inversion Hnd; subst.
  - injection H as -> ->. rewrite String.eqb_refl. reflexivity.
  - destruct (String.eqb k' k) eqn:E; [|auto].
    apply String.eqb_eq in E. subst. exfalso. apply H2.
    apply in_map_iff. exists (k, v). auto.
Qed.

Lemma dget_app {A} (a b : list (string * A)) k :
  dget (a ++ b) k = match dget a k with Some v => Some v | None => dget b k end.
Proof. induction a as [|[k' w] a IH]; cbn; [reflexivity|]. destruct (String.eqb k' k); auto. Qed.

Lemma coalesce_dict_get {A} (d0 d1 : list (string * A)) k :
  NoDup (map fst d0) ->
  dget (coalesce_dict (Some d0) d1) k =
  match dget d0 k with Some v => Some v | None => dget d1 k end.
Proof.
  cbn. revert d1. induction d0 as [|[k' w] d0 IH]; cbn; intros d1 Hnd; [reflexivity|].
  inversion Hnd; subst. rewrite IH by assumption.
  destruct (String.eqb k' k) eqn:E.
  - apply String.eqb_eq in E. subst. rewrite (proj2 (dget_none d0 k)) by assumption.
    apply dget_dset_same.
  - apply String.eqb_neq in E. rewrite dget_dset_other by assumption. reflexivity.
Qed.

Lemma dset_keys {A} (d : list (string * A)) k v x :
  In x (map fst (dset d k v)) <-> x = k \/ In x (map fst d).
Proof.
  induction d as [|[k' w] d IH]; cbn; [intuition auto|].
  destruct (String.eqb k' k) eqn:E; cbn.
  - apply String.eqb_eq in E. subst. intuition auto.
  - rewrite IH. intuition auto.
Qed.

Lemma dset_nodup {A} (d : list (string * A)) k v :
  NoDup (map fst d) -> NoDup (map fst (dset d k v)).
Proof.
  induction d as [|[k' w] d IH]; cbn; intro H.
  - constructor; [tauto|constructor].
  - inversion H; subst. destruct (String.eqb k' k) eqn:E; cbn; constructor; auto.
    rewrite dset_keys. intros [->|H1]; [apply String.eqb_neq in E; congruence|contradiction].
Qed.

Lemma coalesce_dict_nodup {A} (d0 d1 : list (string * A)) :
  NoDup (map fst d1) -> NoDup (map fst (coalesce_dict (Some d0) d1)).
Proof.
  cbn. revert d1. induction d0 as [|[k' w] d0 IH]; cbn; intros d1 H; [exact H|].
  apply IH, dset_nodup, H.
Qed.

(** ** equal_dicts *)

Definition items_loop (w : pyval) : list (string * pyval) -> res bool :=
  fix go (d : list (string * pyval)) : res bool :=
    match d with
    | [] => Ok true
    | (key, val) :: d' =>
      do other <- py_item w key;
      do b <- eq_val val other;
      if b then go d' else Ok false
    end.

Lemma eq_val_dict d w :
  eq_val (PDict d) w =
  (do n <- py_len w; if negb (List.length d =? n)%nat then Ok false else items_loop w d).
Proof. reflexivity. Qed.

Lemma eq_val_leaf v w : ~ is_dict v -> eq_val v w = Ok (py_eq v w).
Proof. destruct v; try reflexivity. intro H. exfalso. apply H. eexists; reflexivity. Qed.

Lemma items_loop_true w d : items_loop w d = Ok true <->
  Forall (fun kv => exists other, py_item w (fst kv) = Ok other /\ eq_val (snd kv) other = Ok true) d.
Proof.
  induction d as [|[k v] d IH]; cbn.
  - split; [constructor|reflexivity].
  - destruct (py_item w k) as [o|e] eqn:E; cbn.
    + destruct (eq_val v o) as [[|]|e] eqn:E2; cbn.
      * rewrite IH. split.
        -- intro H. constructor; [|exact H]. exists o. auto.
        -- intro H. inversion H; subst. assumption.
      * split; [discriminate|]. intro H. inversion H; subst. destruct H2 as [o' [H2 H4]].
        cbn in *. rewrite E in H2. injection H2 as <-. congruence.
      * split; [discriminate|]. intro H. inversion H; subst. destruct H2 as [o' [H2 H4]].
        cbn in *. rewrite E in H2. injection H2 as <-. congruence.
    + split; [discriminate|]. intro H. inversion H; subst. destruct H2 as [o' [H2 H4]].
      cbn in *. congruence.
Qed.

Lemma keys_distinct_dict d : keys_distinct (PDict d) -> NoDup (map fst d).
Proof. intro H. apply (H [] d). reflexivity. Qed.

Lemma keys_distinct_sub d k v :
  keys_distinct (PDict d) -> dget d k = Some v -> keys_distinct v.
Proof. intros H Hg p e Hp. apply (H (k :: p) e). cbn. rewrite Hg. exact Hp. Qed.

Lemma at_path_leaf v p x : ~ is_dict v -> at_path v p = Some x -> p = [] /\ x = v.
Proof.
  destruct p as [|k p]; cbn; [intros _ H; injection H as <-; auto|].
  destruct v; try discriminate. intros H _. exfalso. apply H. eexists; reflexivity.
Qed.

Lemma is_dict_dec v : is_dict v \/ ~ is_dict v.
Proof. destruct v; try (right; intros [? ?]; discriminate). left; eexists; reflexivity. Qed.

(** What [True] means, at every path. *)
Lemma eq_val_true_paths v : forall w, keys_distinct v -> keys_distinct w ->
  eq_val v w = Ok true ->
  forall p x, at_path v p = Some x ->
  exists z, at_path w p = Some z /\
    (~ is_dict x -> py_eq x z = true) /\
    (is_dict x -> is_dict z \/ (x = PDict [] /\ empty_sequence z)).
Proof.
  induction v as [|b0|z0|f0|s0|l0 IHl|d IH] using pyval_rect';
    intros w Hv Hw He p x Hp.
  1-6: match type of He with eq_val ?v _ = _ =>
         assert (Hl : ~ is_dict v) by (intros [? ?]; discriminate) end;
       destruct (at_path_leaf _ _ _ Hl Hp) as [-> ->];
       rewrite eq_val_leaf in He by exact Hl; injection He as He;
       exists w; split; [reflexivity|split; [intros _; exact He|intro; contradiction]].
  rewrite eq_val_dict in He.
  destruct (py_len w) as [n|e] eqn:En; [|discriminate]. cbn in He.
  destruct (List.length d =? n)%nat eqn:El; [|discriminate]. cbn in He.
  apply Nat.eqb_eq in El. apply items_loop_true in He.
  destruct p as [|k p].
  - cbn in Hp. injection Hp as <-. exists w. split; [reflexivity|]. split.
    + intro H. exfalso. apply H. eexists; reflexivity.
    + intros _. destruct d as [|[k v] d].
      * cbn in El. subst n. destruct w; cbn in En; try discriminate.
        -- injection En as En. destruct s; [|discriminate]. right. split; [reflexivity|right; reflexivity].
        -- injection En as En. destruct l; [|discriminate]. right. split; [reflexivity|left; reflexivity].
        -- left. eexists; reflexivity.
      * inversion He; subst. destruct H1 as [o [H1 _]]. cbn in H1.
        destruct w; cbn in H1; try discriminate. left. eexists; reflexivity.
  - cbn in Hp. destruct (dget d k) as [v|] eqn:Ek; [|discriminate].
    assert (Hin := dget_in _ _ _ Ek).
    rewrite Forall_forall in He, IH. destruct (He _ Hin) as [o [H1 H2]]. cbn in H1, H2.
    destruct w; cbn in H1; try discriminate.
    destruct (dget d0 k) as [o'|] eqn:Ek'; [|discriminate]. injection H1 as ->.
    specialize (IH _ Hin o). cbn in IH.
    destruct (IH (keys_distinct_sub _ _ _ Hv Ek) (keys_distinct_sub _ _ _ Hw Ek') H2 p x Hp)
      as [z [Hz1 Hz2]].
    exists z. split; [cbn; rewrite Ek'; exact Hz1|exact Hz2].
Qed.

(** Equal numbers of distinct keys, one set inside the other. *)
Lemma keys_back (a b : list string) :
  NoDup a -> List.length a = List.length b -> incl a b -> incl b a.
Proof. intros Ha Hl Hi. apply NoDup_length_incl; [exact Ha|lia|exact Hi]. Qed.

Lemma eq_val_true_keys v : forall w, keys_distinct v -> keys_distinct w ->
  eq_val v w = Ok true ->
  forall p e z, at_path v p = Some (PDict e) -> at_path w p = Some (PDict z) ->
  forall k, dget e k = None -> dget z k = None.
Proof.
  induction v as [|b0|z0|f0|s0|l0 IHl|d IH] using pyval_rect'; intros w Hv Hw He p e z Hp Hq k Hk.
  1-6: match type of He with eq_val ?v _ = _ =>
         assert (Hl : ~ is_dict v) by (intros [? ?]; discriminate) end;
       destruct (at_path_leaf _ _ _ Hl Hp) as [-> Hx]; discriminate.
  rewrite eq_val_dict in He.
  destruct (py_len w) as [n|er] eqn:En; [|discriminate]. cbn in He.
  destruct (List.length d =? n)%nat eqn:El; [|discriminate]. cbn in He.
  apply Nat.eqb_eq in El. apply items_loop_true in He. rewrite Forall_forall in He, IH.
  destruct p as [|k' p].
  - cbn in Hp, Hq. injection Hp as ->. injection Hq as ->. cbn in En. injection En as En.
    apply dget_none. apply dget_none in Hk. intro H. apply Hk.
    apply (keys_back (map fst e) (map fst z)); [apply keys_distinct_dict, Hv|rewrite !map_length; lia| |exact H].
    intros x Hx. apply in_map_iff in Hx. destruct Hx as [[x' v] [<- Hx]].
    destruct (He _ Hx) as [o [H1 _]]. cbn in H1.
    destruct (dget z x') eqn:Ez; [|discriminate]. apply dget_in in Ez.
    apply in_map_iff. exists (x', p). auto.
  - cbn in Hp, Hq. destruct (dget d k') as [v|] eqn:Ek; [|discriminate].
    destruct w; try discriminate. destruct (dget d0 k') as [o'|] eqn:Ek'; [|discriminate].
    assert (Hin := dget_in _ _ _ Ek). destruct (He _ Hin) as [o [H1 H2]]. cbn in H1, H2.
    rewrite Ek' in H1. injection H1 as <-.
    eapply (IH _ Hin o'); [eapply keys_distinct_sub, Ek; exact Hv|eapply keys_distinct_sub, Ek'; exact Hw
      |exact H2|exact Hp|exact Hq|exact Hk].
Qed.

(** No exception when the dictionaries have the same keys at every depth. *)
Lemma eq_val_total v : forall w, 
  (forall p e, at_path v p = Some (PDict e) ->
     exists z, at_path w p = Some (PDict z) /\ forall k, dget e k <> None -> dget z k <> None) ->
  keys_distinct v ->
  exists b, eq_val v w = Ok b.
Proof.
  induction v as [|b0|z0|f0|s0|l0 IHl|d IH] using pyval_rect'; intros w H Hnd.
  1-6: eexists; apply eq_val_leaf; intros [? ?]; discriminate.
  destruct (H [] d eq_refl) as [z [Hz Hk]]. cbn in Hz. injection Hz as ->.
  rewrite eq_val_dict. cbn [py_len bind]. destruct (negb _); [eauto|].
  assert (G : forall d', incl d' d -> exists b, items_loop (PDict z) d' = Ok b).
  { induction d' as [|[k v] d' IHd]; cbn; intro Hi; [eauto|].
    assert (Hin : In (k, v) d) by (apply Hi; left; reflexivity).
    assert (Hg : dget d k = Some v) by (apply dget_nodup; [apply keys_distinct_dict, Hnd|exact Hin]).
    destruct (dget z k) as [o|] eqn:Ez.
    - cbn. rewrite Forall_forall in IH. destruct (IH _ Hin o) as [b Hb].
      + intros p e Hp. destruct (H (k :: p) e) as [z' [Hz1 Hz2]]; [cbn; rewrite Hg; exact Hp|].
        exists z'. split; [|exact Hz2]. cbn in Hz1. rewrite Ez in Hz1. exact Hz1.
      + eapply keys_distinct_sub, Hg. exact Hnd.
      + cbn in Hb. rewrite Hb. cbn. destruct b; [|eauto].
        apply IHd. intros x Hx. apply Hi. right. exact Hx.
    - exfalso. apply (Hk k); [congruence|exact Ez]. }
  apply G. apply incl_refl.
Qed.

(** Completeness: dictionaries that agree everywhere are reported equal. *)
Lemma eq_val_complete v : forall w, keys_distinct v ->
  (forall p x, at_path v p = Some x ->
     exists z, at_path w p = Some z /\
       (~ is_dict x -> py_eq x z = true) /\
       (forall e, x = PDict e -> exists z', z = PDict z' /\ List.length z' = List.length e)) ->
  eq_val v w = Ok true.
Proof.
  induction v as [|b0|z0|f0|s0|l0 IHl|d IH] using pyval_rect'; intros w Hnd H.
  1-6: match goal with |- eq_val ?v _ = _ =>
         assert (Hl : ~ is_dict v) by (intros [? ?]; discriminate);
         destruct (H [] v eq_refl) as [z [Hz [Hz2 _]]] end;
       cbn in Hz; injection Hz as <-; rewrite eq_val_leaf by exact Hl; f_equal; auto.
  destruct (H [] _ eq_refl) as [z [Hz [_ Hz2]]]. cbn in Hz. injection Hz as <-.
  destruct (Hz2 d eq_refl) as [z' [-> Hlen]].
  rewrite eq_val_dict. cbn [py_len bind]. rewrite Hlen, Nat.eqb_refl. cbn.
  apply items_loop_true. apply Forall_forall. intros [k v] Hin. cbn.
  assert (Hg : dget d k = Some v) by (apply dget_nodup; [apply keys_distinct_dict, Hnd|exact Hin]).
  destruct (H [k] v) as [z [Hz1 _]]; [cbn; rewrite Hg; reflexivity|].
  cbn in Hz1. destruct (dget z' k) as [o|] eqn:Eo; [|discriminate].
  exists o. split; [reflexivity|]. rewrite Forall_forall in IH. apply (IH _ Hin o).
  - eapply keys_distinct_sub, Hg. exact Hnd.
  - intros p x Hp. destruct (H (k :: p) x) as [y [Hy1 Hy2]]; [cbn; rewrite Hg; exact Hp|].
    exists y. split; [|exact Hy2]. cbn in Hy1. rewrite Eo in Hy1. exact Hy1.
Qed.

(** ** Parameter grids *)

Lemma NoDup_app' {A} (a b : list A) :
  NoDup a -> NoDup b -> (forall x, In x a -> ~ In x b) -> NoDup (a ++ b).
Proof.
  induction 1 as [|x a Hx Ha IH]; cbn; intros Hb H; [exact Hb|]. constructor.
  - rewrite in_app_iff. intros [H1|H1]; [contradiction|]. apply (H x); auto.
  - apply IH; auto.
Qed.

Lemma product_in {A} (ls : list (list A)) p :
  In p (product ls) <-> Forall2 (fun x l => In x l) p ls.
Proof.
  revert p; induction ls as [|l ls IH]; intro p; cbn.
  - split; [intros [<-|[]]; constructor|]. intro H; inversion H; auto.
  - rewrite in_flat_map. split.
    + intros [x [Hx Hp]]. apply in_map_iff in Hp. destruct Hp as [q [<- Hq]].
      constructor; [exact Hx|apply IH, Hq].
    + intro H; inversion H; subst. exists x. split; [assumption|].
      apply in_map, IH. assumption.
Qed.

Lemma product_length {A} (ls : list (list A)) :
  List.length (product ls) = fold_right Nat.mul 1%nat (map (@List.length A) ls).
Proof.
  induction ls as [|l ls IH]; cbn; [reflexivity|]. rewrite <- IH.
  induction l as [|x l IHl]; cbn; [reflexivity|].
  rewrite app_length, map_length, IHl. reflexivity.
Qed.

Lemma product_nodup {A} (ls : list (list A)) :
  Forall (fun l => NoDup l) ls -> NoDup (product ls).
Proof.
  induction 1 as [|l ls Hl Hls IH]; cbn; [constructor; [tauto|constructor]|].
  induction l as [|x l IHl]; cbn; [constructor|]. inversion Hl; subst.
  apply NoDup_app'.
  - apply FinFun.Injective_map_NoDup; [|exact IH]. intros a b E. congruence.
  - apply IHl. assumption.
  - intros q Hq1 Hq2. apply in_map_iff in Hq1. destruct Hq1 as [q1 [<- _]].
    apply in_flat_map in Hq2. destruct Hq2 as [z [Hz Hq2]].
    apply in_map_iff in Hq2. destruct Hq2 as [q2 [E _]]. injection E as -> _. contradiction.
Qed.

Lemma combine_inj {A B} (ks : list A) (a b : list B) :
  List.length a = List.length ks -> List.length b = List.length ks ->
  combine ks a = combine ks b -> a = b.
Proof.
  intros Ha Hb E. rewrite <- (map_snd_combine ks a), <- (map_snd_combine ks b) by lia.
  rewrite E. reflexivity.
Qed.

Lemma dget_combine {A} (ks : list string) (vs : list A) i k v :
  NoDup ks -> nth_error ks i = Some k -> nth_error vs i = Some v ->
  dget (combine ks vs) k = Some v.
Proof.
  revert vs i. induction ks as [|k' ks IH]; intros vs i Hnd H1 H2; [destruct i; discriminate|].
  inversion Hnd; subst. destruct vs as [|w vs]; [destruct i; discriminate|]. cbn.
  destruct i as [|i]; cbn in *.
  - injection H1 as ->. injection H2 as ->. rewrite String.eqb_refl. reflexivity.
  - destruct (String.eqb k' k) eqn:E; [|eapply IH; eauto].
    apply String.eqb_eq in E. subst. exfalso. apply H3. eapply nth_error_In, H1.
Qed.

Section Grid.
Context {A : Type} (dict : list (string * list A)).
Hypothesis Hnd : NoDup (map fst dict).

Let keys := sort_by str_leb (map fst dict).

Lemma keys_perm : Permutation keys (map fst dict).
Proof. symmetry. apply sort_by_perm. Qed.

Lemma keys_nodup : NoDup keys.
Proof. eapply Permutation_NoDup; [symmetry; apply keys_perm|exact Hnd]. Qed.

Lemma values_total : exists values,
  mapM (fun k => match dget dict k with Some v => Ok v | None => Err KeyError end) keys = Ok values /\
  Forall2 (fun k l => dget dict k = Some l) keys values.
Proof.
  destruct (mapM_total (fun k => match dget dict k with Some v => Ok v | None => Err KeyError end) keys)
    as [vs Hvs].
  - apply Forall_forall. intros k Hk. destruct (dget dict k) eqn:E; [eauto|]. apply dget_none in E. exfalso. apply E.
    eapply Permutation_in; [apply keys_perm|exact Hk].
  - exists vs. split; [exact Hvs|]. apply mapM_ok_iff in Hvs.
    eapply Forall2_impl; [|exact Hvs]. cbn. intros k l H. destruct (dget dict k); congruence.
Qed.

Lemma grid_ok : exists combos, generate_parameter_combinations dict = Ok combos /\
  List.length combos = fold_right Nat.mul 1%nat (map (fun kv => List.length (snd kv)) dict) /\
  (forall c, In c combos -> Permutation (map fst c) (map fst dict) /\
     forall k l, In (k, l) dict -> exists x, dget c k = Some x /\ In x l) /\
  (forall f : string -> A, (forall k l, In (k, l) dict -> In (f k) l) ->
     exists c, In c combos /\ forall k l, In (k, l) dict -> dget c k = Some (f k)) /\
  (Forall (fun kv => NoDup (snd kv)) dict -> NoDup combos /\
     forall c c', In c combos -> In c' combos -> (forall k, dget c k = dget c' k) -> c = c').
Proof.
  destruct values_total as [vs [Hvs HF]].
  unfold generate_parameter_combinations. fold keys. rewrite Hvs. cbn.
  eexists. split; [reflexivity|].
  assert (Hlk : List.length keys = List.length vs) by (eapply Forall2_length, HF).
  assert (Hprod : forall q, In q (product vs) -> List.length q = List.length keys).
  { intros q Hq. apply product_in in Hq. apply Forall2_length in Hq. lia. }
  assert (Hpv : Permutation (map (@List.length A) vs) (map (fun kv => List.length (snd kv)) dict)).
  { assert (E : map (@List.length A) vs =
       map (fun k => match dget dict k with Some l => List.length l | None => 0%nat end) keys).
    { clear - HF. induction HF; cbn; [reflexivity|]. rewrite H, IHHF. reflexivity. }
    rewrite E. rewrite (Permutation_map _ keys_perm). rewrite map_map.
    erewrite map_ext_in; [reflexivity|]. intros [k l] Hin. cbn.
    rewrite (dget_nodup dict k l Hnd Hin). reflexivity. }
  split; [|split; [|split]].
  - rewrite map_length, product_length. clear - Hpv.
    induction Hpv; cbn; lia.
  - intros c Hc. apply in_map_iff in Hc. destruct Hc as [q [<- Hq]].
    assert (Hlq := Hprod q Hq). split.
    + rewrite map_fst_combine by lia. apply keys_perm.
    + intros k l Hkl.
      assert (Hk : In k keys).
      { eapply Permutation_in; [symmetry; apply keys_perm|]. apply in_map_iff. exists (k, l). auto. }
      apply In_nth_error in Hk. destruct Hk as [i Hi].
      assert (Hil : (i < List.length keys)%nat) by (apply nth_error_Some; congruence).
      destruct (nth_error q i) as [x|] eqn:Ex; [|apply nth_error_None in Ex; lia].
      destruct (nth_error vs i) as [l'|] eqn:El; [|apply nth_error_None in El; lia].
      exists x. split; [eapply dget_combine; [apply keys_nodup|exact Hi|exact Ex]|].
      assert (dget dict k = Some l').
      { clear - HF Hi El. revert i Hi El. induction HF; intros [|i]; cbn; intros; try discriminate.
        - congruence.
        - eapply IHHF; eauto. }
      rewrite (dget_nodup dict k l Hnd Hkl) in H. injection H as <-.
      apply product_in in Hq. clear - Hq Ex El. revert i Ex El.
      induction Hq; intros [|i]; cbn; intros; try discriminate; [congruence|eauto].
  - intros f Hf. exists (combine keys (map f keys)). split.
    + apply in_map_iff. exists (map f keys). split; [reflexivity|]. apply product_in.
      assert (G : forall ks ls, Forall2 (fun k l => dget dict k = Some l) ks ls ->
                  Forall2 (fun x l => In x l) (map f ks) ls).
      { induction 1; cbn; constructor; auto. apply Hf. apply dget_in. assumption. }
      apply G, HF.
    + intros k l Hkl.
      assert (Hk : In k keys).
      { eapply Permutation_in; [symmetry; apply keys_perm|]. apply in_map_iff. exists (k, l). auto. }
      apply In_nth_error in Hk. destruct Hk as [i Hi].
      eapply dget_combine; [apply keys_nodup|exact Hi|]. rewrite nth_error_map, Hi. reflexivity.
  - intro Hl.
    assert (Hlv : Forall (fun l => NoDup l) vs).
    { rewrite Forall_forall in Hl. clear - HF Hl. induction HF; constructor; auto.
      apply (Hl (x, y)). apply dget_in. assumption. }
    split.
    + assert (G : forall L : list (list A), NoDup L -> (forall q, In q L -> List.length q = List.length keys) ->
                  NoDup (map (fun q => combine keys q) L)).
      { induction 1 as [|q L Hq HL IH]; cbn; intro HLk; constructor.
        - intro H. apply in_map_iff in H. destruct H as [q' [E Hq']]. apply Hq.
          replace q with q'; [exact Hq'|]. eapply combine_inj; [| |exact E]; apply HLk; auto.
        - apply IH. auto. }
      apply G; [apply product_nodup, Hlv|exact Hprod].
    + intros c c' Hc Hc' E. apply in_map_iff in Hc. destruct Hc as [q [<- Hq]].
      apply in_map_iff in Hc'. destruct Hc' as [q' [<- Hq']]. f_equal.
      apply Hprod in Hq. apply Hprod in Hq'.
      assert (G : forall i, nth_error q i = nth_error q' i).
      { intro i. destruct (nth_error keys i) as [k|] eqn:Ek.
        - assert (i < List.length keys)%nat by (apply nth_error_Some; congruence).
          destruct (nth_error q i) as [x|] eqn:E1; [|apply nth_error_None in E1; lia].
          destruct (nth_error q' i) as [x'|] eqn:E2; [|apply nth_error_None in E2; lia].
          rewrite <- (dget_combine keys q i k x keys_nodup Ek E1).
          rewrite <- (dget_combine keys q' i k x' keys_nodup Ek E2). apply E.
        - apply nth_error_None in Ek. rewrite (proj2 (nth_error_None q i)) by lia.
          symmetry. apply nth_error_None. lia. }
      clear - G. revert q' G. induction q as [|a q IH]; intros [|b q'] G.
      * reflexivity.
      * specialize (G 0%nat); discriminate.
      * specialize (G 0%nat); discriminate.
      * f_equal; [specialize (G 0%nat); cbn in G; congruence|]. apply IH. intro i. apply (G (S i)).
Qed.

End Grid.

(** ** Parameters round trip *)

Lemma use_all_gen o ns o' : use_all o ns = Ok o' ->
  smote_get_params o' = smote_get_params o.
Proof.
  revert o; induction ns as [|n ns IH]; intros o H; cbn in H; [congruence|].
  destruct (use_generator o n) as [o1|e] eqn:E; [|discriminate].
  cbn in H. rewrite (IH _ H). unfold use_generator in E. destruct o as [p k nnp nj nd ss ws g i rs ex]; cbn in E.
  destruct rs; [|injection E as <-; reflexivity| |].
  - destruct n; injection E as <-; reflexivity.
  - destruct n; injection E as <-; reflexivity.
  - destruct n; [injection E as <-; reflexivity|discriminate].
Qed.

Lemma inv_bind {A B} (r : res A) (f : A -> res B) b :
  bind r f = Ok b -> exists a, r = Ok a /\ f a = Ok b.
Proof. destruct r; cbn; [eauto|discriminate]. Qed.

Lemma coalesce_idem v d : coalesce (coalesce v (PDict d)) (PDict d) = coalesce v (PDict d).
Proof. destruct v; reflexivity. Qed.

(** A freshly built object is rebuilt by its own parameters. *)
Lemma smote_init_fixpoint d o : smote_init d = Ok o ->
  smote_init (smote_get_params o) = Ok o.
Proof.
  intro H. unfold smote_init in H.
  apply inv_bind in H. destruct H as [p [_ H]].
  apply inv_bind in H. destruct H as [k [_ H]].
  apply inv_bind in H. destruct H as [nnp [_ H]].
  apply inv_bind in H. destruct H as [ssp [_ H]].
  apply inv_bind in H. destruct H as [nj [_ H]].
  apply inv_bind in H. destruct H as [rs [_ H]].
  apply inv_bind in H. destruct H as [ssd [_ H]].
  destruct (negb _); [discriminate|].
  apply inv_bind in H. destruct H as [st [Hst H]].
  apply inv_bind in H. destruct H as [pn [Hpn H]].
  apply inv_bind in H. destruct H as [u1 [Hc1 H]].
  apply inv_bind in H. destruct H as [kn [Hkn H]].
  apply inv_bind in H. destruct H as [u2 [Hc2 H]].
  apply inv_bind in H. destruct H as [u3 [Hc3 H]].
  destruct (dget ssd "n_dim") as [nd|]; [|discriminate].
  destruct (dget ssd "simplex_sampling") as [ss|]; [|discriminate].
  destruct (dget ssd "within_simplex_sampling") as [ws|]; [|discriminate].
  destruct (dget ssd "gaussian_component") as [g|]; [|discriminate].
  injection H as <-.
  unfold smote_init, smote_get_params. cbn -[check_greater_or_equal check_n_jobs coalesce].
  assert (Hr : fst st = rs /\ set_random_state (fst st) = Ok st).
  { destruct rs; cbn in Hst; try discriminate; injection Hst as <-; auto. }
  destruct Hr as [_ Hr]. rewrite Hr. cbn -[check_greater_or_equal check_n_jobs coalesce].
  rewrite Hpn. cbn -[check_greater_or_equal check_n_jobs coalesce].
  rewrite Hc1. cbn -[check_greater_or_equal check_n_jobs coalesce].
  rewrite Hkn. cbn -[check_greater_or_equal check_n_jobs coalesce].
  rewrite Hc2. cbn -[check_greater_or_equal check_n_jobs coalesce].
  rewrite Hc3. cbn -[coalesce].
  rewrite !coalesce_idem. reflexivity.
Qed.

Lemma smote_rebuild d o ns o' : smote_init d = Ok o -> use_all o ns = Ok o' ->
  smote_init (smote_get_params o') = Ok o.
Proof. intros H1 H2. rewrite (use_all_gen _ _ _ H2). eapply smote_init_fixpoint, H1. Qed.

Lemma use_generator_gen o n :
  (forall r, o_gen o <> GBroken r) -> exists o', use_generator o n = Ok o' /\
    (forall r, o_gen o' <> GBroken r) /\ smote_get_params o' = smote_get_params o.
Proof.
  intro H. unfold use_generator. destruct o as [p k nnp nj nd ss ws g i rs ex]; cbn in *.
  destruct rs; [| | |exfalso; eapply H; reflexivity]; destruct n;
    eexists; (split; [reflexivity|]); (split; [intros r E; cbn in E; discriminate|reflexivity]).
Qed.

Lemma use_all_total o ns : (forall r, o_gen o <> GBroken r) -> exists o', use_all o ns = Ok o'.
Proof.
  revert o; induction ns as [|n ns IH]; intros o H; cbn; [eauto|].
  destruct (use_generator_gen o n H) as [o1 [-> [H1 _]]]. cbn. apply IH, H1.
Qed.

Lemma smote_init_gen d o : smote_init d = Ok o -> forall r, o_gen o <> GBroken r.
Proof.
  intros H r. unfold smote_init in H.
  do 6 (apply inv_bind in H; destruct H as [? [_ H]]).
  apply inv_bind in H. destruct H as [ssd [_ H]].
  destruct (negb _); [discriminate|].
  apply inv_bind in H. destruct H as [st [Hst H]].
  do 5 (apply inv_bind in H; destruct H as [? [_ H]]).
  destruct (dget ssd "n_dim") as [nd|]; [|discriminate].
  destruct (dget ssd "simplex_sampling") as [ss|]; [|discriminate].
  destruct (dget ssd "within_simplex_sampling") as [ws|]; [|discriminate].
  destruct (dget ssd "gaussian_component") as [g|]; [|discriminate].
  injection H as <-. cbn.
  match type of Hst with set_random_state ?r = _ => destruct r end;
    cbn in Hst; try discriminate; injection Hst as <-; cbn; discriminate.
Qed.

(** set_params with the result of get_params: everything stays as it was but the generator,
    and the nested simplex parameters become an attribute nobody reads. *)
Lemma set_get o : let o' := smote_set_params o (smote_get_params o) in
  o_proportion o' = o_proportion o /\ o_n_neighbors o' = o_n_neighbors o /\
  o_nn_params o' = o_nn_params o /\ o_n_jobs o' = o_n_jobs o /\
  o_n_dim o' = o_n_dim o /\ o_simplex_sampling o' = o_simplex_sampling o /\
  o_within o' = o_within o /\ o_gaussian o' = o_gaussian o /\ o_init o' = o_init o /\
  o_gen o' = match o_init o with
             | RSModule => GGlobal | RSState s => GShared s | r => GBroken r end.
Proof.
  destruct o as [p k nnp nj nd ss ws g i rs ex]; cbn. repeat split; try reflexivity.
  destruct i; reflexivity.
Qed.

(** ** shuffle_training_set *)

Lemma gather_combine {A B} (X : list A) (y : list B) m X' y' :
  gather X m = Ok X' -> gather y m = Ok y' ->
  List.length X = List.length y ->
  gather (combine X y) m = Ok (combine X' y').
Proof.
  intros HX Hy Hl. apply gather_ok_iff in HX. apply gather_ok_iff in Hy. apply gather_ok_iff.
  revert y' Hy. induction HX as [|i a m X' Ha HX IHX]; intros y' Hy;
    inversion Hy as [|i' b m' y'' Hb Hy' E1 E2]; subst; [constructor|].
  cbn [combine]. constructor; [|apply IHX; assumption].
  match goal with H1 : nth_error X ?i = Some ?a, H2 : nth_error y ?i = Some ?b |- _ =>
    clear - H1 H2 Hl; rename H1 into Ha; rename H2 into Hb; revert y X Hl Ha Hb; induction i as [|i IH]
  end; intros [|y0 ys] [|x0 Xs]; cbn; intros; try discriminate.
  - congruence.
  - eapply IH; eauto.
Qed.

Lemma gather_perm {A} (l : list A) m r :
  Permutation m (seq 0 (List.length l)) -> gather l m = Ok r -> Permutation r l.
Proof.
  intros Hm Hr. assert (Hs := gather_seq l).
  destruct l as [|d l'] eqn:El; [|].
  - cbn in Hm. apply Permutation_sym, Permutation_nil in Hm. subst m. cbn in Hr.
    injection Hr as <-. constructor.
  - rewrite <- El in *. clear El l'.
    assert (Hb : Forall (fun i => i < List.length l)%nat m).
    { apply Forall_forall. intros i Hi. eapply Permutation_in in Hi; [|exact Hm].
      apply in_seq in Hi. lia. }
    assert (Hr' : r = map (fun i => nth i l d) m).
    { rewrite (gather_map d l m Hb) in Hr. congruence. }
    assert (Hs' : l = map (fun i => nth i l d) (seq 0 (List.length l))).
    { assert (Hb' : Forall (fun i => i < List.length l)%nat (seq 0 (List.length l))).
      { apply Forall_forall. intros i Hi. apply in_seq in Hi. lia. }
      rewrite (gather_map d l _ Hb') in Hs. congruence. }
    rewrite Hr'. eapply perm_trans; [apply Permutation_map, Hm|]. rewrite <- Hs'. apply Permutation_refl.
Qed.

Lemma shuffle_spec {A B} (X : list A) (y : list B) m :
  List.length X = List.length y -> Permutation m (seq 0 (List.length X)) ->
  exists X' y', shuffle_training_set X y (Some m) = Ok (X', y') /\
    List.length X' = List.length X /\ List.length y' = List.length y /\
    Permutation (combine X' y') (combine X y).
Proof.
  intros Hl Hm.
  assert (Hb : Forall (fun i => i < List.length X)%nat m).
  { apply Forall_forall. intros i Hi. eapply Permutation_in in Hi; [|exact Hm].
    apply in_seq in Hi. lia. }
  destruct (gather_total X m Hb) as [X' HX].
  destruct (gather_total y m) as [y' Hy]; [rewrite <- Hl; exact Hb|].
  exists X', y'. cbn. rewrite HX. cbn. rewrite Hy. cbn.
  assert (Hlm : List.length m = List.length X)
    by (rewrite (Permutation_length Hm); apply seq_length).
  split; [reflexivity|]. split; [rewrite (gather_length _ _ _ HX); exact Hlm|].
  split; [rewrite (gather_length _ _ _ Hy); lia|].
  eapply gather_perm; [|eapply gather_combine; eassumption].
  rewrite combine_length, <- Hl, Nat.min_id. exact Hm.
Qed.

(** ** Lemmas in the form of the properties *)

Lemma vector_choice_positive {A} (arr : list A) p rands out k x :
  List.length rands = List.length p ->
  Forall (fun u => 0 <= u /\ u < 1) rands ->
  Forall (fun r => qsum r == 1 /\ List.length r = List.length arr) p ->
  vector_choice arr p rands = Ok out -> nth_error out k = Some x ->
  exists i, nth_error arr i = Some x /\ 0 < nth i (nth k p []) 0.
Proof.
  intros H1 H2 H3 Ho Hk.
  destruct (vector_choice_spec arr p rands H1 H2 H3) as [out' [Ho' [Hl HF]]].
  rewrite Ho in Ho'. injection Ho' as <-. destruct (HF k x Hk) as [i [Hi [Ha Hb]]].
  exists i. split; [exact Hi|].
  assert (Hkl : (k < List.length p)%nat) by (rewrite <- Hl; apply nth_error_Some; congruence).
  rewrite Forall_forall in H3. destruct (H3 (nth k p []) (nth_In _ _ Hkl)) as [_ H4].
  assert (Hil : (i < List.length arr)%nat) by (apply nth_error_Some; congruence).
  rewrite firstn_S_sum in Hb by lia. lra.
Qed.

Lemma check_comparisons v a : not_nan v -> not_nan a ->
  (check_less_or_equal v a = Ok tt <-> xle v a) /\
  (check_less v a = Ok tt <-> xlt v a) /\
  (check_greater_or_equal v a = Ok tt <-> xle a v) /\
  (check_greater v a = Ok tt <-> xlt a v) /\
  (check_equal v a = Ok tt <-> ~ xeq v a).
Proof.
  intros Hv Ha. unfold check_less_or_equal, check_less, check_greater_or_equal, check_greater,
    check_equal. rewrite !raise_if_ok, !not_xlt, !not_xle by assumption.
  split; [reflexivity|]. split; [reflexivity|]. split; [reflexivity|]. split; [reflexivity|].
  rewrite <- not_true_iff_false, xeqb_spec by assumption. reflexivity.
Qed.

Lemma check_ranges v a b : not_nan v -> not_nan a -> not_nan b ->
  (check_in_range v a b = Ok tt <-> xle a v /\ xle v b) /\
  (check_out_range v a b = Ok tt <-> xlt v a \/ xlt b v).
Proof.
  intros Hv Ha Hb. unfold check_in_range, check_out_range.
  rewrite !raise_if_ok, orb_false_iff, andb_false_iff, !not_xlt, !not_xle by assumption.
  split; reflexivity.
Qed.

Lemma check_list_jobs v l z b :
  (check_isin v l = Ok tt <-> exists w, In w l /\ py_eq v w = true) /\
  (check_n_jobs (PInt z) = Ok tt <-> (0 < z)%Z) /\
  (check_n_jobs (PBool b) = Ok tt <-> b = true) /\
  check_n_jobs PNone = Err ValueError.
Proof.
  unfold check_isin, check_n_jobs. rewrite !raise_if_ok, negb_false_iff, existsb_exists.
  split; [reflexivity|]. split; [rewrite Z.leb_gt; reflexivity|].
  split; [destruct b; cbn; intuition congruence|reflexivity].
Qed.

Lemma check_only_ValueError v a b w l e :
  In (Err e) [check_in_range v a b; check_out_range v a b; check_less_or_equal v a;
              check_less v a; check_greater_or_equal v a; check_greater v a;
              check_equal v a; check_isin w l; check_n_jobs w] -> e = ValueError.
Proof.
  assert (G : forall c, raise_if c = Err e -> e = ValueError)
    by (intros [|]; cbn; congruence).
  cbn. intros [H|[H|[H|[H|[H|[H|[H|[H|[H|[]]]]]]]]]]; eapply G; exact H.
Qed.

Lemma check_nan a b :
  check_in_range NaN a b = Ok tt /\ check_out_range NaN a b = Ok tt /\
  check_less_or_equal NaN a = Ok tt /\ check_less NaN a = Ok tt /\
  check_greater_or_equal NaN a = Ok tt /\ check_greater NaN a = Ok tt /\
  check_equal NaN a = Ok tt /\ check_n_jobs (PFloat (Fin (-1))) = Ok tt.
Proof.
  unfold check_in_range, check_out_range, check_less_or_equal, check_less,
    check_greater_or_equal, check_greater, check_equal, xleb.
  rewrite !xltb_nan_l, !xltb_nan_r, !xeqb_nan_r. repeat split; reflexivity.
Qed.

Lemma eq_val_dict_len d0 w : eq_val (PDict d0) w = Ok true ->
  exists n, py_len w = Ok n /\ List.length d0 = n.
Proof.
  rewrite eq_val_dict. destruct (py_len w) as [n|]; cbn; [|discriminate].
  destruct (List.length d0 =? n)%nat eqn:E; [|discriminate]. apply Nat.eqb_eq in E. eauto.
Qed.

Lemma equal_dicts_sound d0 d1 :
  keys_distinct (PDict d0) -> keys_distinct (PDict d1) -> equal_dicts d0 d1 = Ok true ->
  forall p x, at_path (PDict d0) p = Some x ->
  exists z, at_path (PDict d1) p = Some z /\
    (~ is_dict x -> py_eq x z = true) /\
    (is_dict x -> is_dict z \/ (x = PDict [] /\ empty_sequence z)) /\
    (forall e e', x = PDict e -> z = PDict e' -> forall k, dget e k = None <-> dget e' k = None).
Proof.
  intros H0 H1 He p x Hp.
  destruct (eq_val_true_paths _ _ H0 H1 He p x Hp) as [z [Hz [Ha Hb]]].
  exists z. split; [exact Hz|]. split; [exact Ha|]. split; [exact Hb|].
  intros e e' -> -> k. split.
  - intro Hk. eapply (eq_val_true_keys _ _ H0 H1 He p e e'); eassumption.
  - intro Hk. destruct (dget e k) as [v|] eqn:E; [|reflexivity]. exfalso.
    assert (Hpk : at_path (PDict d0) (p ++ [k]) = Some v).
    { revert Hp. generalize (PDict d0). clear - E. induction p as [|k' p IH]; intros w Hp.
      - cbn in Hp. injection Hp as ->. cbn. rewrite E. reflexivity.
      - cbn in *. destruct w; try discriminate. destruct (dget d k'); [|discriminate]. apply IH, Hp. }
    destruct (eq_val_true_paths _ _ H0 H1 He _ _ Hpk) as [z [Hz1 _]].
    assert (Hn : at_path (PDict d1) (p ++ [k]) = None).
    { revert Hz. generalize (PDict d1). clear - Hk. induction p as [|k' p IH]; intros w Hp.
      - cbn in Hp. injection Hp as ->. cbn. rewrite Hk. reflexivity.
      - cbn in *. destruct w; try discriminate. destruct (dget d k'); [|discriminate]. apply IH, Hp. }
    congruence.
Qed.

Lemma set_get_broken o n :
  (o_init o = RSNone \/ exists z, o_init o = RSInt z) ->
  use_generator (smote_set_params o (smote_get_params o)) (S n) = Err AttributeError.
Proof.
  intro H. unfold use_generator.
  destruct (set_get o) as [_ [_ [_ [_ [_ [_ [_ [_ [_ Hg]]]]]]]]]. rewrite Hg.
  destruct H as [H|[z H]]; rewrite H; reflexivity.
Qed.

Lemma set_get_shared kwargs o s :
  smote_init kwargs = Ok o -> o_init o = RSState s ->
  smote_get_params (smote_set_params o (smote_get_params o)) = smote_get_params o /\
  o_gen (smote_set_params o (smote_get_params o)) = o_gen o.
Proof.
  intros Ho Hs. destruct (set_get o) as [H1 [H2 [H3 [H4 [H5 [H6 [H7 [H8 [H9 H10]]]]]]]]].
  split.
  - unfold smote_get_params at 1. rewrite H1, H2, H3, H4, H5, H6, H7, H8, H9. reflexivity.
  - rewrite H10, Hs. symmetry.
    assert (Hf := smote_init_fixpoint _ _ Ho).
    unfold smote_init in Hf. unfold smote_get_params in Hf.
    cbn -[check_greater_or_equal check_n_jobs coalesce as_num] in Hf. rewrite Hs in Hf.
    cbn -[check_greater_or_equal check_n_jobs coalesce as_num] in Hf.
    do 5 (apply inv_bind in Hf; destruct Hf as [? [_ Hf]]).
    injection Hf as Hf. rewrite <- Hf. reflexivity.
Qed.

Lemma set_ss_params o v :
  smote_get_params (smote_set_params o [("ss_params"%string, v)]) = smote_get_params o /\
  o_gen (smote_set_params o [("ss_params"%string, v)]) = o_gen o.
Proof. destruct o. split; reflexivity. Qed.

Lemma safe_divide_spec : forall a b v,
  (b == 0 -> safe_divide a b v = v) /\ (~ b == 0 -> exists q, safe_divide a b v = Fin q /\ q * b == a).
Proof.
  intros. unfold safe_divide. split; intros H.
  - apply Qeq_bool_iff in H. now rewrite H.
  - destruct (Qeq_bool b 0) eqn:E; [apply Qeq_bool_iff in E; contradiction|].
    eexists. split; [reflexivity|]. field. exact H.
Qed.
