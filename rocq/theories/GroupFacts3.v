(** Proofs about GroupModel: CE_SMOTE and NRSBoundary_SMOTE. *)

From Coq Require Import List ZArith QArith Bool Arith Lia Lqa Sorting.Sorted Permutation.
From Verif Require Import Np PyVal NpFacts BaseFacts SimplexModel Spec SpecDanger SpecNoise SpecComp SimplexFacts SimplexGeom Float64
  SamplerModel SamplerFacts OversFacts BaseModel KnnFacts DangerModel DangerFacts ClusterOversModel OversGen
  ClusterOversFacts ClusterFacts NoiseModel NoiseFacts NoiseFacts2 CompModel CompFacts CompFacts2 CompFacts3 CompFacts4 EditModel SpecEdit EditFacts4 EditFacts5
  SpecNear NearFacts NearFacts2 LevelModel SpecLevel LevelFacts LevelFacts3 LevelFacts4 GroupModel SpecGroup GroupFacts GroupFacts2.
Import ListNotations.
Open Scope nat_scope.

(** * CE_SMOTE *)

Lemma ce_relabel_id k l : ce_relabel k l = l.
Proof.
  unfold ce_relabel. set (f := fun (a v : nat) => if v =? k - 1 then a else v).
  assert (G : forall js a, fold_left (fun relabeling jdx => map2 (fun l0 r => if l0 =? k - 1 then jdx else r) l relabeling) js (map (f a) l) =
     map (f (last js a)) l).
  { induction js as [|j js IH]; intros a; [reflexivity|]. cbn [fold_left].
    assert (E : map2 (fun l0 r => if l0 =? k - 1 then j else r) l (map (f a) l) = map (f j) l).
    { clear. induction l as [|v l IH]; [reflexivity|]. cbn. rewrite IH. unfold f. now destruct (v =? k - 1). }
    rewrite E, IH. f_equal. clear. revert j. destruct js as [|j' js]; [reflexivity|]. intros j. 
    change (last (j :: j' :: js) a) with (last (j' :: js) a). f_equal. clear. revert j'. induction js; intros; [reflexivity|]. cbn. apply IHjs. }
  assert (I : map (f (k - 1)) l = l).
  { unfold f. clear. induction l as [|v l IH]; [reflexivity|]. cbn. rewrite IH. destruct (Nat.eqb_spec v (k - 1)); congruence. }
  cbv zeta. etransitivity; [|etransitivity; [exact (G (seq 0 k) (k - 1))|]]; [now rewrite I|]. assert (El : last (seq 0 k) (k - 1) = k - 1); [|now rewrite El, I].
  destruct k as [|k]; [reflexivity|]. rewrite seq_S, last_last. lia.
Qed.

Lemma ce_matching_id k ls : ce_matching k ls = ls.
Proof. destruct ls as [|b ls]; [reflexivity|]. cbn. f_equal. rewrite <- (map_id ls) at 2. apply map_ext. apply ce_relabel_id. Qed.

Lemma most_frequent_max l v : occurrences l v <= occurrences l (most_frequent l).
Proof.
  assert (G : forall l' b, occurrences l b <= occurrences l (fold_left (fun best x => if occurrences l best <? occurrences l x then x else best) l' b) /\
     forall x, In x l' -> occurrences l x <= occurrences l (fold_left (fun best x => if occurrences l best <? occurrences l x then x else best) l' b)).
  { induction l' as [|a l' IH]; intros b; [split; [reflexivity|intros ? []]|]. cbn [fold_left].
    destruct (Nat.ltb_spec (occurrences l b) (occurrences l a)) as [H|H].
    - destruct (IH a) as [I1 I2]. split; [lia|]. intros x [->|Hx]; [assumption|now apply I2].
    - destruct (IH b) as [I1 I2]. split; [assumption|]. intros x [->|Hx]; [lia|now apply I2]. }
  unfold most_frequent. destruct (in_dec Nat.eq_dec v l) as [Hv|Hv]; [now apply G|].
  assert (E : occurrences l v = 0); [|lia]. unfold occurrences.
  assert (E : filter (Nat.eqb v) l = []); [|now rewrite E].
  clear - Hv. induction l as [|a l IH]; [reflexivity|]. cbn. destruct (Nat.eqb_spec v a) as [->|N]; [destruct Hv; now left|].
  apply IH. intros H. apply Hv. now right.
Qed.

Lemma occurrences_col ls i v : occurrences (map (fun l => nth i l 0) ls) v = length (filter (fun l => nth i l 0 =? v) ls).
Proof.
  unfold occurrences. induction ls as [|l ls IH]; [reflexivity|]. cbn [map filter]. rewrite Nat.eqb_sym.
  destruct (nth i l 0 =? v); cbn [length]; now rewrite IH.
Qed.

Lemma cci_agreement ls i : agreement ls i (ce_cci ls i).
Proof.
  unfold ce_cci. split.
  - exists (most_frequent (map (fun l => nth i l 0) ls)). symmetry. apply occurrences_col.
  - intros v. rewrite <- occurrences_col. apply most_frequent_max.
Qed.

Lemma agreement_unique ls i c c' : agreement ls i c -> agreement ls i c' -> c = c'.
Proof. intros [(v & E) H] [(v' & E') H']. specialize (H v'). specialize (H' v). cbv zeta in *. lia. Qed.

Lemma ce_runs dist vol nn labelings p r D mn mj n :
  knn_ok dist nn -> rng_ok r -> unif_pos r -> plain_ss (ce_ss p) -> wf_data (d_X D) (d_dim D) (d_y D) -> is_minority (d_y D) mn mj ->
  asked (ce_proportion p) (d_y D) mn mj = Ok n -> 1 <= ce_k p ->
  runs D mn n (ce_spec dist (labelings (d_X D)) p D mn n) (ce_sample vol nn labelings p r D).
Proof.
  intros Hnn Hr Hu Hss [HX Hl] Hmin Ha Hk. unfold ce_sample.
  destruct (sample_default (ce_algorithm vol nn labelings p r) D mn mj Hmin) as (st & Hst & E). rewrite E. clear E.
  pose proof (asked_some _ _ _ _ _ Ha) as Hn.
  assert (B : exists S, ce_algorithm vol nn labelings p r st D = Ok (extended D st S) /\ ce_spec dist (labelings (d_X D)) p D mn n S).
  { unfold ce_algorithm. rewrite (det_st_asked _ _ _ _ _ (proj1 Hmin) Hst), Ha. cbn [bind]. destruct Hst as (E1 & _). rewrite E1.
    rewrite ce_matching_id. set (ls := labelings (d_X D)). set (X := d_X D) in *. set (y := d_y D) in *.
    set (mask := map _ (combine _ _)).
    assert (Lm : length mask = length X) by (unfold mask; rewrite map_length, combine_length, seq_length; lia).
    set (b := where_ mask).
    assert (Hb : positions (fun i => i < length y /\ nth i y 0%Z = mn /\ exists c, agreement ls i c /\ (qn c / qn (ce_h p) <= ce_alpha p)%Q) b).
    { eapply positions_ext; [|apply positions_where]. intros i. cbn beta. unfold mask. rewrite nth_error_map_true. split.
      - intros ([i' z] & E & H). cbn [fst snd] in H. apply andb_true_iff in H as [H H'].
        assert (Hi : i < length y).
        { assert (i < length (combine (seq 0 (length y)) y)) by (apply nth_error_Some; congruence). rewrite combine_length, seq_length in H0. lia. }
        apply (nth_error_nth _ _ (0, 0%Z)) in E. rewrite combine_nth in E by apply seq_length. rewrite seq_nth in E by assumption. cbn in E.
        injection E as <- <-. split; [assumption|]. split; [now apply Z.eqb_eq|]. exists (ce_cci ls i). split; [apply cci_agreement|].
        now apply Qle_bool_iff.
      - intros (Hi & Hy & c & Hc & H). exists (i, nth i y 0%Z). split.
        + rewrite (nth_error_nth' _ (0, 0%Z)) by (rewrite combine_length, seq_length; lia). rewrite combine_nth by apply seq_length.
          rewrite seq_nth by assumption. reflexivity.
        + cbn [fst snd]. apply andb_true_iff. split; [now apply Z.eqb_eq|]. apply Qle_bool_iff.
          now rewrite (agreement_unique _ _ _ _ (cci_agreement ls i) Hc). }
    rewrite (select_rows_at mask X Lm). fold b. rewrite rows_at_length.
    assert (Bb : Forall (fun i => i < length X) b).
    { eapply positions_bound; [exact Hb|]. intros i (Hi & _). unfold X, y in *. lia. }
    destruct Hss as (Hd & Hss'). 
    destruct (Nat.leb_spec (length b) (ss_n_dim (ce_ss p) - 1)) as [Hle|Hgt].
    - exists []. split; [unfold extended; cbn; now rewrite !app_nil_r|]. exists b. split; [assumption|]. split; [reflexivity|]. intros H. lia.
    - set (V := rows_at X b). assert (LV : length V = length b) by apply rows_at_length. set (k := Nat.min (length b) (ce_k p)).
      assert (RV : rect (d_dim D) V) by now apply rows_at_rect.
      destruct (Hnn V V k) as (T & ET & HT); [unfold k; lia|]. rewrite ET. cbn [bind].
      destruct (nearest_table_shape _ _ _ _ _ HT) as (L1 & L2 & L3).
      set (args := mk_args V (d_dim D) T k None None None false None).
      assert (AO : args_ok args) by (constructor; cbn; auto; try discriminate; lia).
      destruct (ss_call vol (ce_ss p) args (Z.to_nat n) r 0 AO Hr Hu (conj Hd Hss')) as (S & ES & LS & FS); cbn; auto; try (unfold k; lia); try lia.
      change (sample_simplex vol (ce_ss p) args (Z.to_nat n) r = Ok S) in ES. rewrite ES. cbn [bind]. exists S. split; [reflexivity|].
      exists b. split; [assumption|]. split; [lia|]. intros _. split; [assumption|]. cbv zeta. change (rows_at (d_X D) b) with V. exists T. rewrite LV. fold k.
      apply Forall_forall. intros x Hx. split; [assumption|]. intros G. specialize (FS G). rewrite Forall_forall in FS. exact (FS x Hx). }
  destruct B as (S & EB & HS). rewrite EB. destruct Hst as (E1 & _). split.
  - intros G. unfold unchanged. destruct (Nat.leb_spec (count_label (d_y D) mn) 2) as [Hc|Hc]; [reflexivity|]. destruct G as [G|G]; [lia|].
    assert (ES : S = []).
    { destruct HS as (b & _ & H1 & H2). destruct (Nat.lt_ge_cases (length b) (ss_n_dim (ce_ss p))) as [Hb|Hb]; [auto|].
      destruct (H2 Hb) as [H2' _]. rewrite G in H2'. cbn in H2'. now apply length_zero_iff_nil. }
    subst S. unfold extended. cbn. now rewrite !app_nil_r.
  - intros Hc _. destruct (Nat.leb_spec (count_label (d_y D) mn) 2); [lia|]. exists S. unfold extended. rewrite E1. split; [reflexivity|assumption].
Qed.
