(** ADG: the rounds, and the projections. *)

From Coq Require Import List ZArith QArith Qabs Qminmax Qround Qpower Bool Arith Lia Lqa Sorting.Sorted Permutation.
From Verif Require Import Np PyVal NpFacts BaseFacts SimplexModel Spec SpecDanger SpecNoise SpecComp SimplexFacts SimplexGeom Float64
  SamplerModel SamplerFacts OversFacts BaseModel KnnFacts DangerModel DangerFacts BorderFacts ClusterModel NearModel ClusterOversModel OversGen
  ClusterOversFacts ClusterFacts NoiseModel NoiseFacts NoiseFacts2 CompModel CompFacts CompFacts2 CompFacts3 CompFacts4 EditModel SpecEdit EditFacts EditFacts3 EditFacts4 EditFacts5
  SpecNear NearFacts NearFacts2 LevelModel SpecLevel LevelFacts LevelFacts3 LevelFacts4 SpecGroup GroupFacts GroupFacts2 GroupFacts4 WrapModel SpecWrap WrapFacts WrapFacts2 WrapFacts3 DirModel SpecDir DirFacts DirFacts3 RegionModel SpecRegion RegionFacts RegionFacts2 RegionFacts3 RegionFacts4 SearchModel SpecSearch SearchFacts2 GraphModel SpecGraph GraphFacts GraphFacts2 GraphFacts4 GraphFacts5 GraphFacts6 GraphFacts8 MixModel SpecMix MixFacts MixFacts3 MixFacts4 MixFacts6 SwarmModel SpecSwarm SwarmFacts4 FuseModel SpecFuse FuseFacts.
Import ListNotations.
Open Scope nat_scope.

Section Adg.

Variable clusters : list row -> option (list nat).
Variable alpha : nat -> list row -> list row -> option row.
Variable kernel : row -> row -> Q.
Variable mixture : list row -> nat -> nat -> list row.
Variables pca_transform pca_inverse : list row -> nat -> row -> row.
Hypothesis Hcl : clusters_ok clusters.
Hypothesis Hmix : mixture_ok mixture.

Local Notation loop := (adg_loop clusters alpha kernel mixture).
Local Notation sample := (adg_sample clusters alpha kernel mixture pca_transform pca_inverse).
Local Notation round := (adg_round alpha kernel mixture).

Section Loop.
Variable n : nat.
Variables Z P : list row.

Definition so_far (rounds : list (list row)) : Prop :=
  forall i, i < length rounds -> 1 <= n / 2 ^ i /\ round n Z P rounds i (nth i rounds []) /\ nth i rounds [] <> [] /\
    length (concat (firstn (S i) rounds)) <= 100 * length (nth i rounds []).

Lemma half k : 2 * n / 2 ^ k / 2 = n / 2 ^ k.
Proof.
  rewrite Nat.div_div by (try apply Nat.pow_nonzero; lia). rewrite (Nat.mul_comm (2 ^ k) 2). apply Nat.div_mul_cancel_l; [apply Nat.pow_nonzero; lia|lia].
Qed.
Lemma half_next k : 2 * n / 2 ^ k / 2 = 2 * n / 2 ^ S k.
Proof. rewrite Nat.div_div by (try apply Nat.pow_nonzero; lia). cbn [Nat.pow]. now rewrite (Nat.mul_comm 2 (2 ^ k)). Qed.

Lemma round_more rounds B i C : i <= length rounds -> round n Z P rounds i C -> round n Z P (rounds ++ [B]) i C.
Proof.
  intros Hi. unfold adg_round. rewrite firstn_app. replace (i - length rounds) with 0 by lia. cbn [firstn]. rewrite app_nil_r. auto.
Qed.

Lemma nth_last (rounds : list (list row)) B : nth (length rounds) (rounds ++ [B]) [] = B.
Proof. rewrite app_nth2, Nat.sub_diag by lia. reflexivity. Qed.

Lemma so_far_next rounds B : so_far rounds -> 1 <= n / 2 ^ length rounds -> round n Z P rounds (length rounds) B -> B <> [] ->
  (forall i, i < length (rounds ++ [B]) -> 1 <= n / 2 ^ i /\ round n Z P (rounds ++ [B]) i (nth i (rounds ++ [B]) []) /\ nth i (rounds ++ [B]) [] <> []) /\
  (forall i, S i < length (rounds ++ [B]) -> length (concat (firstn (S i) (rounds ++ [B]))) <= 100 * length (nth i (rounds ++ [B]) [])).
Proof.
  intros Hs Hn HB HN. rewrite app_length. cbn [length]. split; intros i Hi.
  - destruct (Nat.eq_dec i (length rounds)) as [->|Ni].
    + rewrite nth_last. split; [exact Hn|]. split; [now apply round_more|exact HN].
    + rewrite app_nth1 by lia. destruct (Hs i ltac:(lia)) as (H1 & H2 & H3 & _). split; [exact H1|]. split; [apply round_more; [lia|exact H2]|exact H3].
  - rewrite app_nth1 by lia. rewrite firstn_app. replace (S i - length rounds) with 0 by lia. cbn [firstn]. rewrite app_nil_r. apply Hs. lia.
Qed.

Lemma so_far_rounds rounds : so_far rounds ->
  (forall i, i < length rounds -> 1 <= n / 2 ^ i /\ round n Z P rounds i (nth i rounds []) /\ nth i rounds [] <> []) /\
  (forall i, S i < length rounds -> length (concat (firstn (S i) rounds)) <= 100 * length (nth i rounds [])).
Proof. intros Hs. split; intros i Hi; destruct (Hs i ltac:(lia)) as (H1 & H2 & H3 & H4); auto. Qed.

Hypothesis HZ : Z <> [].
Hypothesis HP : ~ all_same P.

Lemma clusters_some new : exists c, clusters (P ++ new) = Some c.
Proof.
  destruct (clusters (P ++ new)) as [c|] eqn:E; [now exists c|]. exfalso. apply HP. apply Hcl in E. intros a b Ha Hb. apply E; apply in_or_app; now left.
Qed.

Lemma adg_loop_ok fuel : forall rounds, so_far rounds -> 2 * n / 2 ^ length rounds <= fuel ->
  exists rounds' singular, loop fuel (2 * n / 2 ^ length rounds) (length rounds) Z P (concat rounds) = Ok (singular, concat rounds') /\
    adg_rounds alpha kernel mixture n Z P rounds' singular.
Proof.
  induction fuel as [|fuel IH]; intros rounds Hs Hf.
  { cbn [adg_loop]. destruct (Nat.leb_spec (2 * n / 2 ^ length rounds) 1); [|lia]. exists rounds, false. split; [reflexivity|].
    destruct (so_far_rounds _ Hs) as [S1 S2]. split; [exact S1|]. split; [exact S2|]. split; [discriminate|]. intros _. left. rewrite <- half.
    assert (2 * n / 2 ^ length rounds = 0) by lia. rewrite H0. reflexivity. }
  cbn [adg_loop]. destruct (so_far_rounds _ Hs) as [S1 S2]. pose proof (half (length rounds)) as Hh.
  destruct (Nat.leb_spec (2 * n / 2 ^ length rounds) 1) as [L|L].
  { exists rounds, false. split; [reflexivity|]. split; [exact S1|]. split; [exact S2|]. split; [discriminate|]. intros _. left. rewrite <- Hh. apply Nat.div_small. lia. }
  assert (Hn : 1 <= n / 2 ^ length rounds). { rewrite <- Hh. apply Nat.div_le_lower_bound; lia. }
  destruct (clusters_some (concat rounds)) as (c & ->). destruct (Nat.eqb_spec (length Z) 0) as [E|_]; [destruct Z; [congruence|discriminate]|].
  destruct (alpha (length rounds) Z (P ++ concat rounds)) as [a|] eqn:Ea.
  2: { exists rounds, true. split; [reflexivity|]. split; [exact S1|]. split; [exact S2|]. split; [now split|discriminate]. }
  rewrite Hh. set (kept := filter _ _).
  assert (HR : round n Z P rounds (length rounds) kept). { exists a. rewrite firstn_all. split; [exact Ea|reflexivity]. }
  destruct (Nat.eqb_spec (length kept) 0) as [E|E].
  { assert (Ek : kept = []) by now apply length_zero_iff_nil. rewrite Ek in HR. exists rounds, false. split; [reflexivity|]. split; [exact S1|]. split; [exact S2|]. split; [discriminate|]. intros _. right. left. exact HR. }
  assert (Ek : kept <> []) by (intros Ek; rewrite Ek in E; now apply E).
  destruct (so_far_next rounds kept Hs Hn HR Ek) as [N1 N2]. replace (concat rounds ++ kept) with (concat (rounds ++ [kept])) by (rewrite concat_app; cbn; now rewrite app_nil_r).
  destruct (Nat.ltb_spec (100 * length kept) (length (concat (rounds ++ [kept])))) as [Lk|Lk].
  { exists (rounds ++ [kept]), false. split; [reflexivity|]. split; [exact N1|]. split; [exact N2|]. split; [discriminate|]. intros _. right. right.
    exists (length rounds). rewrite app_length. cbn [length]. split; [lia|]. rewrite nth_last. exact Lk. }
  assert (HL : length (rounds ++ [kept]) = S (length rounds)) by (rewrite app_length; cbn [length]; lia).
  destruct (IH (rounds ++ [kept])) as (rounds' & singular & E' & R').
  - intros i Hi. destruct (N1 i Hi) as (K1 & K2 & K3). split; [exact K1|]. split; [exact K2|]. split; [exact K3|].
    destruct (Nat.eq_dec i (length rounds)) as [->|Ni]; [|apply N2; lia]. rewrite <- HL, firstn_all, nth_last. exact Lk.
  - rewrite HL. rewrite <- half_next. 
    assert (2 * n / 2 ^ length rounds / 2 < 2 * n / 2 ^ length rounds) by (apply Nat.div_lt; lia). lia.
  - rewrite HL in E'. rewrite <- half_next, Hh in E'. exists rounds', singular. now split.
Qed.

End Loop.

Lemma round_small n Z P rounds i B : round n Z P rounds i B -> length B <= n / 2 ^ i.
Proof. intros (a & _ & ->). unfold on_positive. etransitivity; [apply filter_le|]. rewrite Hmix. reflexivity. Qed.

Lemma firstn_next {A} (l : list A) d k : k < length l -> firstn (S k) l = firstn k l ++ [nth k l d].
Proof. revert l. induction k as [|k IH]; intros [|a l] H; cbn in *; try lia; [reflexivity|]. f_equal. apply IH. lia. Qed.

Lemma adg_rounds_small n Z P rounds singular : 0 < n -> adg_rounds alpha kernel mixture n Z P rounds singular -> length (concat rounds) < 2 * n.
Proof.
  intros Hn (R & _). assert (G : forall k, k <= length rounds -> length (concat (firstn k rounds)) + 2 * n / 2 ^ k <= 2 * n).
  { induction k as [|k IH]; intros Hk; [cbn [firstn concat length Nat.pow]; rewrite Nat.div_1_r; lia|]. destruct (R k ltac:(lia)) as (_ & Hr & _). apply round_small in Hr.
    rewrite (firstn_next rounds [] k) by lia. rewrite concat_app, app_length. cbn [concat]. rewrite app_nil_r, <- half_next.
    pose proof (IH ltac:(lia)) as I. pose proof (half n k) as Hh. pose proof (Nat.mul_div_le (2 * n / 2 ^ k) 2 ltac:(lia)). lia. }
  specialize (G (length rounds) (le_n _)). rewrite firstn_all in G. destruct (length rounds) as [|k] eqn:E; [apply length_zero_iff_nil in E; subst; cbn [concat length]; lia|].
  destruct (R k ltac:(lia)) as (H1 & _). rewrite <- half_next, half in G. lia.
Qed.

Lemma int_of_no_fuel x : int_of_f64 x <> Err OutOfFuel.
Proof. destruct x; discriminate. Qed.

Lemma det_no_fuel s a b : det_n_to_sample s a b <> Err OutOfFuel.
Proof.
  destruct s; cbn [det_n_to_sample]; try discriminate. pose proof (int_of_no_fuel (f_mul (f_of_Z (a - b)) f)) as H. destruct (int_of_f64 _) as [|e]; cbn [bind]; [discriminate|]. exact H.
Qed.

Lemma rows_with_none z (X : list row) y : count_label y z = 0 -> rows_with z X y = [].
Proof.
  intros H. unfold rows_with. revert X. induction y as [|a y IH]; intros [|x X]; try reflexivity. 
  unfold count_label in *. cbn [count_occ] in H. destruct (Z.eq_dec a z) as [E|E]; [discriminate|]. cbn [map select]. destruct (Z.eqb_spec z a); [congruence|]. now apply IH.
Qed.

Lemma loop_same fuel q Z P : all_same P -> 1 < q -> 0 < fuel -> loop fuel q 0 Z P [] = Err AttributeError.
Proof.
  intros H Hq Hf. destruct fuel as [|fuel]; [lia|]. cbn [adg_loop]. destruct (Nat.leb_spec q 1); [lia|]. rewrite app_nil_r. apply Hcl in H. rewrite H. reflexivity.
Qed.

Lemma loop_no_zero fuel q P : ~ all_same P -> 1 < q -> 0 < fuel -> loop fuel q 0 [] P [] = Ok (false, []).
Proof.
  intros H Hq Hf. destruct fuel as [|fuel]; [lia|]. cbn [adg_loop]. destruct (Nat.leb_spec q 1); [lia|]. destruct (clusters_some P H []) as (c & ->). reflexivity.
Qed.

Lemma half_le k : 2 <= k -> 1 <= k / 2 /\ k / 2 < k.
Proof. intros H. split; [apply Nat.div_le_lower_bound; lia|apply Nat.div_lt; lia]. Qed.

Lemma adg_sample_ok fuel s D mn mj n :
  is_minority (d_y D) mn mj -> asked s (d_y D) mn mj = Ok n -> d_dim D <= fuel ->
  let out := sample fuel s D in
  let Z := rows_with 0 (d_X D) (d_y D) in
  let P := rows_with 1 (d_X D) (d_y D) in
  (count_label (d_y D) mn <= 2 \/ n = 0%Z -> unchanged D out) /\
  (2 < count_label (d_y D) mn -> (0 < n)%Z ->
    (Z = [] -> P = [] -> out = Err ValueError) /\
    (Z ++ P <> [] -> all_same P -> out = Err AttributeError) /\
    (Z = [] -> ~ all_same P -> out = Ok (P, repeat 1%Z (length P))) /\
    (Z <> [] -> ~ all_same P ->
      exists rounds singular, adg_rounds alpha kernel mixture (Z.to_nat n) Z P rounds singular /\
        let S := concat rounds in
        let A := Z ++ P ++ S in
        let yA := repeat 0%Z (length Z) ++ repeat 1%Z (length P) ++ repeat mn (length S) in
        let nc := d_dim D / 2 in
        length S < 2 * Z.to_nat n /\
        (singular = false \/ d_dim D <= 1 -> out = Ok (A, yA)) /\
        (singular = true -> 2 <= d_dim D -> length A < nc -> out = Err ValueError) /\
        (singular = true -> 2 <= d_dim D -> nc <= length A ->
          out = do o <- sample (fuel - 1) s (mk_data (map (pca_transform A nc) A) nc yA); Ok (map (pca_inverse A nc) (fst o), snd o)))).
Proof.
  intros Hmin Ha Hf. cbn zeta. set (out := sample fuel s D). set (Z := rows_with 0 (d_X D) (d_y D)). set (P := rows_with 1 (d_X D) (d_y D)).
  pose proof (asked_some _ _ _ _ _ Ha) as Hn. unfold out. clear out.
  match goal with |- context [sample fuel s D] => set (out := sample fuel s D) end.
  assert (E : exists alg st, out = sample_with checks_default alg D /\ stats_of (d_y D) mn mj st /\
    out = (if count_label (d_y D) mn <=? 2 then Ok (d_X D, d_y D) else alg st D) /\
    alg st D = (if Z.to_nat n =? 0 then Ok (d_X D, d_y D) else if length Z + length P =? 0 then Err ValueError else
      do o <- loop (2 * Z.to_nat n) (2 * Z.to_nat n) 0 Z P [];
      if fst o && (0 <? d_dim D / 2) then
        if length (Z ++ P ++ snd o) <? d_dim D / 2 then Err ValueError
        else match fuel with 0 => Err OutOfFuel | S fuel => do o' <- sample fuel s (mk_data (map (pca_transform (Z ++ P ++ snd o) (d_dim D / 2)) (Z ++ P ++ snd o)) (d_dim D / 2) (repeat 0%Z (length Z) ++ repeat 1%Z (length P) ++ repeat mn (length (snd o)))); Ok (map (pca_inverse (Z ++ P ++ snd o) (d_dim D / 2)) (fst o'), snd o') end
      else Ok (Z ++ P ++ snd o, repeat 0%Z (length Z) ++ repeat 1%Z (length P) ++ repeat mn (length (snd o))))).
  { unfold out. destruct fuel as [|fuel]; cbn [adg_sample];
    match goal with |- exists alg st, sample_with _ ?f _ = _ /\ _ => destruct (sample_default f D mn mj Hmin) as (st & Hst & E); exists f, st; split; [reflexivity|]; split; [exact Hst|]; split; [exact E|] end;
    rewrite (det_st_asked _ _ _ _ _ (proj1 Hmin) Hst), Ha; cbn [bind]; destruct Hst as (-> & _); reflexivity. }
  destruct E as (alg & st & _ & _ & E1 & E2). clearbody out. split.
  { intros [H|H].
    - apply Nat.leb_le in H. rewrite H in E1. exact E1.
    - subst n. cbn [Z.to_nat Nat.eqb] in E2. rewrite E2 in E1. destruct (_ <=? 2); exact E1. }
  intros H2 H3. destruct (Nat.leb_spec (count_label (d_y D) mn) 2); [lia|]. rewrite E1, E2. clear E1 E2 alg. destruct (Nat.eqb_spec (Z.to_nat n) 0); [lia|].
  set (k := Z.to_nat n) in *. split; [|split; [|split]].
  - intros -> ->. reflexivity.
  - intros N S. destruct (Nat.eqb_spec (length Z + length P) 0) as [E|E]; [exfalso; apply N; apply length_zero_iff_nil; rewrite app_length; exact E|].
    rewrite loop_same by (exact S || lia). reflexivity.
  - intros EZ N. rewrite EZ. destruct (Nat.eqb_spec (length (@nil row) + length P) 0) as [E|E].
    { exfalso. apply N. cbn in E. apply length_zero_iff_nil in E. rewrite E. intros a b []. }
    rewrite loop_no_zero by (exact N || lia). cbn [bind fst snd andb app length repeat]. rewrite !app_nil_r. reflexivity.
  - intros NZ NP. destruct (Nat.eqb_spec (length Z + length P) 0) as [E|E]; [destruct Z; [congruence|discriminate]|].
    destruct (adg_loop_ok k Z P NZ NP (2 * k) []) as (rounds & singular & EL & HR).
    { intros i Hi. cbn in Hi. lia. }
    { cbn [length Nat.pow]. rewrite Nat.div_1_r. lia. }
    cbn [length Nat.pow concat] in EL. rewrite Nat.div_1_r in EL. rewrite EL. cbn [bind fst snd]. exists rounds, singular. split; [exact HR|]. split; [apply (adg_rounds_small k Z P rounds singular); [lia|exact HR]|].
    split; [|split].
    + intros [->|Hd]; [reflexivity|]. replace (d_dim D / 2) with 0 by (symmetry; apply Nat.div_small; lia). cbn [Nat.ltb Nat.leb]. rewrite andb_false_r. reflexivity.
    + intros -> Hd HA. destruct (half_le _ Hd) as [Hd1 _]. destruct (Nat.ltb_spec 0 (d_dim D / 2)); [|lia]. cbn [andb]. apply Nat.ltb_lt in HA. rewrite HA. reflexivity.
    + intros -> Hd HA. destruct (half_le _ Hd) as [Hd1 _]. destruct (Nat.ltb_spec 0 (d_dim D / 2)); [|lia]. cbn [andb]. apply Nat.ltb_ge in HA. rewrite HA.
      destruct fuel as [|fuel]; [lia|]. cbn [Nat.sub]. rewrite Nat.sub_0_r. reflexivity.
Qed.

Lemma loop_no_fuel fuel n Z P : 0 < n -> fuel = 2 * n -> loop fuel (2 * n) 0 Z P [] <> Err OutOfFuel.
Proof.
  intros Hn ->. destruct (clusters (P ++ [])) as [c|] eqn:E.
  - rewrite app_nil_r in E. assert (NP : ~ all_same P) by (intros H; apply Hcl in H; congruence). destruct Z as [|z Z'].
    + rewrite loop_no_zero by (exact NP || lia). discriminate.
    + destruct (adg_loop_ok n (z :: Z') P ltac:(discriminate) NP (2 * n) []) as (rounds & singular & EL & _).
      { intros i Hi. cbn in Hi. lia. }
      { cbn [length Nat.pow]. rewrite Nat.div_1_r. lia. }
      cbn [length Nat.pow concat] in EL. rewrite Nat.div_1_r in EL. rewrite EL. discriminate.
  - rewrite app_nil_r in E. apply Hcl in E. rewrite loop_same by (exact E || lia). discriminate.
Qed.

Lemma adg_no_fuel fuel s : forall D mn mj, is_minority (d_y D) mn mj -> d_dim D <= fuel -> sample fuel s D <> Err OutOfFuel.
Proof.
  induction fuel as [|fuel IH]; intros D mn mj Hmin Hf; cbn [adg_sample];
  match goal with |- sample_with _ ?f _ <> _ => destruct (sample_default f D mn mj Hmin) as (st & Hst & ->) end;
  (destruct (_ <=? 2); [discriminate|]); rewrite (det_st_asked _ _ _ _ _ (proj1 Hmin) Hst); unfold asked;
  pose proof (det_no_fuel s (Z.of_nat (count_label (d_y D) mj)) (Z.of_nat (count_label (d_y D) mn))) as Hd;
  (destruct (det_n_to_sample s _ _) as [n|e]; cbn [bind]; [|intros K; apply Hd; congruence]); (destruct (Nat.eqb_spec (Z.to_nat n) 0); [discriminate|]);
  (destruct (Nat.eqb_spec (length (rows_with 0 (d_X D) (d_y D)) + length (rows_with 1 (d_X D) (d_y D))) 0) as [N0|N0]; [discriminate|]);
  match goal with |- bind (loop ?a ?b 0 ?z ?p []) _ <> _ => pose proof (loop_no_fuel a (Z.to_nat n) z p ltac:(lia) eq_refl) as HL; set (Z := z) in *; set (P := p) in * end.
  - destruct (loop _ _ 0 Z P []) as [[b new]|e]; cbn [bind]; [|intros K; apply HL; congruence]. cbn [fst snd]. replace (d_dim D / 2) with 0 by (symmetry; apply Nat.div_small; lia). rewrite andb_false_r. discriminate.
  - destruct (loop (2 * Z.to_nat n) (2 * Z.to_nat n) 0 Z P []) as [[b new]|e] eqn:EL; cbn [bind]; [|intros K; apply HL; congruence]. cbn [fst snd].
    destruct b; [|discriminate]. destruct (Nat.ltb_spec 0 (d_dim D / 2)) as [Hd1|]; [|discriminate]. cbn [andb]. destruct (_ <? _); [discriminate|].
    assert (Hd2 : 2 <= d_dim D) by (destruct (Nat.le_gt_cases 2 (d_dim D)); [assumption|rewrite Nat.div_small in Hd1 by lia; lia]).
    match goal with |- bind (sample fuel s ?D') _ <> _ => assert (G : exists a b, is_minority (d_y D') a b) end.
    { cbn [d_y]. destruct Z as [|z Z'] eqn:EZ.
      - exfalso. destruct (clusters P) eqn:EC.
        + assert (NP : ~ all_same P) by (intros H; apply Hcl in H; congruence). rewrite loop_no_zero in EL by (exact NP || lia). discriminate.
        + apply Hcl in EC. rewrite loop_same in EL by (exact EC || lia). discriminate.
      - destruct P as [|x P'] eqn:EP.
        + exfalso. rewrite loop_same in EL by (lia || intros ? ? []). discriminate.
        + apply (two_labels_minority _ 0%Z 1%Z). repeat split; [discriminate|now left|apply in_or_app; right; now left|].
          assert (I0 : In 0%Z (d_y D)). { destruct (Nat.eq_dec (count_label (d_y D) 0%Z) 0) as [C|C]; [|apply (count_occ_In Z.eq_dec); unfold count_label in C; lia]. pose proof (rows_with_none 0 (d_X D) (d_y D) C). unfold Z in EZ. congruence. }
          assert (I1 : In 1%Z (d_y D)). { destruct (Nat.eq_dec (count_label (d_y D) 1%Z) 0) as [C|C]; [|apply (count_occ_In Z.eq_dec); unfold count_label in C; lia]. pose proof (rows_with_none 1 (d_X D) (d_y D) C). unfold P in EP. congruence. }
          destruct Hst as (Em & _). destruct Hmin as ((Nm & J1 & J2 & A) & _).
          assert (M : min_label st = 0%Z \/ min_label st = 1%Z). { rewrite Em. destruct (A _ I0), (A _ I1); subst; auto; congruence. }
          intros w Hw. apply in_app_or in Hw. destruct Hw as [Hw|Hw]; [left; exact (repeat_spec _ _ _ Hw)|]. apply in_app_or in Hw. destruct Hw as [Hw|Hw]; apply repeat_spec in Hw; [now right|]. rewrite Hw. exact M. }
    destruct G as (a & b & G). match goal with |- bind (sample fuel s ?D') _ <> _ => pose proof (IH D' a b G) as K end.
    cbn [d_dim] in K. destruct (half_le _ Hd2) as [_ Hd3]. destruct (sample fuel s _) as [o|e]; cbn [bind]; [discriminate|]. apply K. lia.
Qed.

End Adg.
