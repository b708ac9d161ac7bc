(** Facts about EditModel.v: SMOTE_TomekLinks, SMOTE_ENN, SMOTE_RSB. *)

From Coq Require Import List ZArith QArith Qabs Bool Arith Lia Sorting.Sorted Permutation Lqa.
From Verif Require Import Np NpFacts SimplexModel SimplexGeom SamplerModel SamplerFacts Spec SpecNoise SpecComp
  NoiseModel NoiseFacts NoiseFacts2 ClusterOversModel CompModel CompFacts CompFacts2 CompFacts3 OversFacts EditModel SpecEdit.
Import ListNotations.
Open Scope nat_scope.

(** ** SMOTE's output *)

Lemma smote_two dist vol nn p r D mn mj X' y' :
  knn_ok dist nn -> rng_ok r -> wf_data (d_X D) (d_dim D) (d_y D) -> is_minority (d_y D) mn mj ->
  smote_sample vol nn p r D = Ok (X', y') ->
  length X' = length y' /\ two_labels y' mn mj /\ length (d_X D) <= length X' /\
  (exists a b, is_minority y' a b).
Proof.
  intros K R W M H. destruct (smote_prefix _ _ _ _ _ _ _ _ _ _ K R W M H) as [S [n [EX [Ey [L _]]]]].
  destruct W as [_ WL]. destruct M as [[N [Ia [Ib A]]] M].
  assert (T : two_labels y' mn mj).
  { subst y'. repeat split; [exact N|apply in_or_app; auto|apply in_or_app; auto|].
    intros z Hz. apply in_app_or in Hz. destruct Hz as [Hz|Hz]; [apply A, Hz|].
    left. apply repeat_spec in Hz. exact Hz. }
  repeat split; try apply T.
  - subst. rewrite !app_length, repeat_length. lia.
  - subst. rewrite app_length. lia.
  - destruct (lt_eq_lt_dec (count_label y' mn) (count_label y' mj)) as [[C|C]|C].
    + exists mn, mj. split; [exact T|left; exact C].
    + destruct (Z_lt_le_dec mj mn) as [Q|Q].
      * exists mn, mj. split; [exact T|right; split; [exact C|exact Q]].
      * exists mj, mn. split; [apply two_labels_sym, T|right; split; [symmetry; exact C|lia]].
    + exists mj, mn. split; [apply two_labels_sym, T|left; exact C].
Qed.

Lemma drops_length X y drop X' y' : drops_exactly X y drop X' y' -> length X' = length y'.
Proof. intros [k [_ [_ [-> ->]]]]. rewrite !map_length. reflexivity. Qed.

(** ** SMOTE_TomekLinks *)

Lemma smote_tomek_spec dist vol nn p r D mn mj X1 y1 :
  knn_ok dist nn -> rng_ok r -> wf_data (d_X D) (d_dim D) (d_y D) -> is_minority (d_y D) mn mj ->
  smote_sample vol nn p r D = Ok (X1, y1) ->
  let out := smote_tomek_sample vol nn p r D in
  (count_label (d_y D) mn <= 2 -> unchanged D out) /\
  (2 < count_label (d_y D) mn -> no_duplicates dist X1 ->
   exists X2 y2 drop, drops_exactly X1 y1 drop X2 y2 /\
    (forall i, i < length X1 -> drop i ->
       exists j, nearest_other dist X1 i j /\ nearest_other dist X1 j i /\ nth j y1 0%Z <> nth i y1 0%Z) /\
    (forall i j, i < length X1 -> strictly_nearest dist X1 i j -> strictly_nearest dist X1 j i ->
       nth j y1 0%Z <> nth i y1 0%Z -> drop i) /\
    (X2 = [] -> unchanged D out) /\ (X2 <> [] -> out = Ok (X2, y2))).
Proof.
  intros K R W M H out.
  destruct (sample_default (smote_tomek_algorithm vol nn p r) D mn mj M) as [st [_ E]].
  fold (smote_tomek_sample vol nn p r D) in E. fold out in E.
  split.
  - intro C. unfold unchanged. rewrite E. apply Nat.leb_le in C. rewrite C. reflexivity.
  - intros C ND. apply Nat.leb_gt in C. rewrite C in E.
    destruct (smote_two _ _ _ _ _ _ _ _ _ _ K R W M H) as [L1 [_ [_ [a [b M1]]]]].
    destruct (tomek_spec dist nn RemoveBoth X1 y1 a b K L1 M1 ND) as [X2 [y2 [drop [T [Dr [A B]]]]]].
    unfold smote_tomek_algorithm in E. rewrite H in E. cbn [bind fst snd] in E. rewrite T in E. cbn [bind fst] in E.
    exists X2, y2, drop. split; [exact Dr|]. split; [|split; [|split]].
    + intros i Hi Hd. apply (A i Hi Hd).
    + intros i j Hi S1 S2 N. apply (B i j Hi S1 S2 N). left. reflexivity.
    + intros ->. exact E.
    + intro N. destruct X2; [congruence|]. exact E.
Qed.

Lemma smote_tomek_sub dist vol nn p r D mn mj X1 y1 :
  knn_ok dist nn -> rng_ok r -> wf_data (d_X D) (d_dim D) (d_y D) -> is_minority (d_y D) mn mj ->
  smote_sample vol nn p r D = Ok (X1, y1) ->
  exists X' y', smote_tomek_sample vol nn p r D = Ok (X', y') /\ X' <> [] /\
    ((X' = d_X D /\ y' = d_y D) \/ sub_data X1 y1 X' y').
Proof.
  intros K R W M H.
  assert (NE : d_X D <> []).
  { destruct W as [_ WL]. destruct M as [[_ [I _]] _]. intro Q. rewrite Q in WL. destruct (d_y D); [destruct I|discriminate]. }
  destruct (sample_default (smote_tomek_algorithm vol nn p r) D mn mj M) as [st [_ E]].
  unfold smote_tomek_sample. rewrite E.
  destruct (count_label (d_y D) mn <=? 2); [exists (d_X D), (d_y D); split; [reflexivity|split; [exact NE|left; split; reflexivity]]|].
  destruct (smote_two _ _ _ _ _ _ _ _ _ _ K R W M H) as [L1 [_ [_ [a [b M1]]]]].
  destruct (tomek_exact dist nn RemoveBoth X1 y1 a b K L1 M1) as [T [X2 [y2 [_ [_ [Tm Dr]]]]]].
  unfold smote_tomek_algorithm. rewrite H. cbn [bind fst snd]. rewrite Tm. cbn [bind fst].
  destruct X2 as [|x X2].
  - exists (d_X D), (d_y D). split; [reflexivity|split; [exact NE|left; split; reflexivity]].
  - exists (x :: X2), y2. split; [reflexivity|split; [discriminate|right; exact (drops_sub _ _ _ _ _ L1 Dr)]].
Qed.

(** ** SMOTE_ENN *)

Lemma unique_one y : length (unique_counts y) < 2 <-> forall a b, In a y -> In b y -> a = b.
Proof.
  pose proof (unique_counts_keys y) as K. pose proof (unique_counts_sorted y) as S.
  destruct (unique_counts y) as [|[a ca] [|[b cb] u]] eqn:E; cbn [map fst length] in *.
  - split; [|lia]. intros _ a b Ha. apply K in Ha. destruct Ha.
  - split; [|lia]. intros _ x z Hx Hz. apply K in Hx. apply K in Hz. destruct Hx as [<-|[]], Hz as [<-|[]]. reflexivity.
  - split; [lia|]. intro H. exfalso. assert (a = b) by (apply H; apply K; [left|right; left]; reflexivity). subst.
    apply StronglySorted_inv in S. destruct S as [_ S]. apply Forall_inv in S. lia.
Qed.

Lemma sub_in X y X' y' z : length X = length y -> sub_data X y X' y' -> In z y' -> In z y.
Proof.
  intros L [L' [rest P]] H.
  assert (In z (map snd (combine X' y'))) by (rewrite map_snd_combine by exact L'; exact H).
  apply in_map_iff in H0. destruct H0 as [[x z'] [<- Hz]]. cbn.
  assert (In (x, z') (combine X y)) by (eapply Permutation_in; [apply Permutation_sym, P|apply in_or_app; auto]).
  eapply in_combine_r. exact H0.
Qed.

Lemma in_count y z : In z y <-> 0 < count_label y z.
Proof. unfold count_label. apply (count_occ_In Z.eq_dec). Qed.

Lemma enn_run dist vol nn p r D mn mj X1 y1 X2 y2 :
  knn_ok dist nn -> rng_ok r -> wf_data (d_X D) (d_dim D) (d_y D) -> is_minority (d_y D) mn mj ->
  smote_sample vol nn p r D = Ok (X1, y1) -> enn_remove_noise nn EnnBoth X1 y1 = Ok (X2, y2) ->
  let out := smote_enn_sample vol nn p r D in
  let ok := In mn y2 /\ In mj y2 /\ count_label y2 mn <= count_label y2 mj in
  (count_label (d_y D) mn <= 2 -> unchanged D out) /\
  (2 < count_label (d_y D) mn -> (ok -> out = Ok (X2, y2)) /\ (~ ok -> unchanged D out)).
Proof.
  intros K R W M H E2 out ok.
  destruct (sample_default (smote_enn_algorithm vol nn p r) D mn mj M) as [st [[S1 [S2 _]] E]].
  fold (smote_enn_sample vol nn p r D) in E. fold out in E.
  destruct (smote_two _ _ _ _ _ _ _ _ _ _ K R W M H) as [L1 [T1 [_ [a [b M1]]]]].
  destruct (enn_keeps _ _ _ _ _ _ _ _ _ K L1 M1 E2) as [Sub _].
  split.
  - intro C. unfold unchanged. rewrite E. apply Nat.leb_le in C. rewrite C. reflexivity.
  - intros C. apply Nat.leb_gt in C. rewrite C in E.
    unfold smote_enn_algorithm in E. rewrite H in E. cbn [bind fst snd] in E. rewrite E2 in E. cbn [bind snd] in E.
    rewrite S1, S2 in E. change (n_label y2 mj) with (count_label y2 mj) in E. change (n_label y2 mn) with (count_label y2 mn) in E.
    split.
    + intros [O1 [O2 O3]]. apply Nat.ltb_ge in O3. rewrite O3 in E. cbn [orb] in E.
      destruct (length (unique_counts y2) <? 2) eqn:U; [|exact E]. exfalso.
      apply Nat.ltb_lt in U. apply (proj1 (unique_one y2)) with (a := mn) (b := mj) in U; auto.
      destruct M as [[N _] _]. congruence.
    + intro NO. unfold unchanged. rewrite E. destruct (count_label y2 mj <? count_label y2 mn) eqn:C1; [reflexivity|]. cbn [orb].
      destruct (length (unique_counts y2) <? 2) eqn:U; [reflexivity|]. exfalso. apply NO.
      apply Nat.ltb_ge in C1. apply Nat.ltb_ge in U.
      destruct (in_dec Z.eq_dec mn y2) as [I1|I1]; [destruct (in_dec Z.eq_dec mj y2) as [I2|I2]|].
      * repeat split; assumption.
      * exfalso. apply (count_occ_not_In Z.eq_dec) in I2. apply (count_occ_In Z.eq_dec) in I1. unfold count_label in C1. lia.
      * exfalso. assert (length (unique_counts y2) < 2); [|lia]. apply unique_one. intros x z Hx Hz.
        assert (forall w, In w y2 -> w = mj).
        { intros w Hw. destruct (proj2 (proj2 (proj2 T1)) w (sub_in _ _ _ _ _ L1 Sub Hw)); [subst; contradiction|assumption]. }
        rewrite (H0 x Hx), (H0 z Hz). reflexivity.
Qed.

Lemma smote_enn_spec dist vol nn p r D mn mj X1 y1 :
  knn_ok dist nn -> rng_ok r -> wf_data (d_X D) (d_dim D) (d_y D) -> is_minority (d_y D) mn mj ->
  smote_sample vol nn p r D = Ok (X1, y1) ->
  let out := smote_enn_sample vol nn p r D in
  (count_label (d_y D) mn <= 2 -> unchanged D out) /\
  (2 < count_label (d_y D) mn -> no_duplicates dist X1 ->
   exists N X2 y2, (forall i, i < length X1 -> nearest_others dist X1 i 3 (N i)) /\
     drops_exactly X1 y1 (fun i => votes y1 (N i) (nth i y1 0%Z) <= 1) X2 y2 /\
     let ok := In mn y2 /\ In mj y2 /\ count_label y2 mn <= count_label y2 mj in
     (ok -> out = Ok (X2, y2)) /\ (~ ok -> unchanged D out)).
Proof.
  intros K R W M H out.
  destruct (smote_two _ _ _ _ _ _ _ _ _ _ K R W M H) as [L1 [T1 [LL [a [b M1]]]]].
  split.
  - intro C. destruct (sample_default (smote_enn_algorithm vol nn p r) D mn mj M) as [st [_ E]].
    unfold out, smote_enn_sample, unchanged. rewrite E. apply Nat.leb_le in C. rewrite C. reflexivity.
  - intros C ND.
    assert (G : 4 <= length X1).
    { destruct W as [_ WL]. destruct M as [[N [_ [_ A]]] M].
      pose proof (count_two (d_y D) mn mj N A). unfold count_label in *. lia. }
    destruct (enn_geo dist nn EnnBoth X1 y1 a b K L1 M1 G ND) as [N [X2 [y2 [NN [E2 Dr]]]]].
    exists N, X2, y2. split; [exact NN|]. split.
    + eapply drops_ext; [|exact Dr]. intros i _. cbn. tauto.
    + apply (enn_run dist vol nn p r D mn mj X1 y1 X2 y2 K R W M H E2). exact C.
Qed.

Lemma smote_enn_sub dist vol nn p r D mn mj X1 y1 :
  knn_ok dist nn -> rng_ok r -> wf_data (d_X D) (d_dim D) (d_y D) -> is_minority (d_y D) mn mj ->
  smote_sample vol nn p r D = Ok (X1, y1) ->
  exists X' y', smote_enn_sample vol nn p r D = Ok (X', y') /\ two_labels y' mn mj /\
    count_label y' mn <= count_label y' mj /\
    ((X' = d_X D /\ y' = d_y D) \/ sub_data X1 y1 X' y').
Proof.
  intros K R W M H.
  destruct (smote_two _ _ _ _ _ _ _ _ _ _ K R W M H) as [L1 [T1 [LL [a [b M1]]]]].
  assert (E2 : exists X2 y2, enn_remove_noise nn EnnBoth X1 y1 = Ok (X2, y2)).
  { destruct (le_lt_dec 4 (length X1)) as [G|G].
    - destruct (enn_spec dist nn EnnBoth X1 y1 a b K L1 M1 G) as [T [X2 [y2 [_ [_ [E _]]]]]]. eauto.
    - exists X1, y1. eapply enn_small; eassumption. }
  destruct E2 as [X2 [y2 E2]].
  destruct (enn_keeps _ _ _ _ _ _ _ _ _ K L1 M1 E2) as [Sub _].
  assert (U : exists X' y', unchanged D (Ok (X', y')) /\ two_labels y' mn mj /\
    count_label y' mn <= count_label y' mj /\ ((X' = d_X D /\ y' = d_y D) \/ sub_data X1 y1 X' y')).
  { exists (d_X D), (d_y D). split; [reflexivity|]. destruct M as [T M]. split; [exact T|]. split; [lia|]. left. split; reflexivity. }
  destruct (enn_run dist vol nn p r D mn mj X1 y1 X2 y2 K R W M H E2) as [A B]. cbv zeta in B.
  destruct U as [X' [y' [U V]]]. unfold unchanged in *.
  destruct (le_lt_dec (count_label (d_y D) mn) 2) as [C|C].
  - exists X', y'. split; [rewrite U; exact (A C)|exact V].
  - destruct (B C) as [B1 B2].
    destruct (in_dec Z.eq_dec mn y2) as [I1|I1]; [destruct (in_dec Z.eq_dec mj y2) as [I2|I2];
      [destruct (le_lt_dec (count_label y2 mn) (count_label y2 mj)) as [I3|I3]|]|];
      try (exists X', y'; split; [rewrite U; apply B2; intros [? [? ?]]; try contradiction; lia|exact V]).
    exists X2, y2. split; [apply B1; auto|]. split; [|split; [exact I3|right; exact Sub]].
    split; [apply T1|]. split; [exact I1|]. split; [exact I2|].
    intros z Hz. apply T1. exact (sub_in _ _ _ _ _ L1 Sub Hz).
Qed.
