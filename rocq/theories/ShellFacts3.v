(** The tables behind the plots. *)

From Coq Require Import String List ZArith QArith Bool Arith Lia Permutation Sorting.Sorted.
From Verif Require Import Np NpFacts PyVal SimplexModel Spec CompModel ShellModel SpecShell ShellFacts2.
Import ListNotations.
Open Scope nat_scope.

Lemma map2_combine {A B C} (f : A -> B -> C) l : forall m, map2 f l m = map (fun p => f (fst p) (snd p)) (combine l m).
Proof. induction l as [|a l IH]; intros [|b m]; cbn; try reflexivity. now rewrite IH. Qed.

Lemma count_map {A B} (dec : forall a b : B, {a = b} + {a <> b}) (f : A -> B) l r :
  count_occ dec (map f l) r = length (filter (fun p => if dec (f p) r then true else false) l).
Proof. induction l as [|a l IH]; [reflexivity|]. cbn. destruct (dec (f a) r); cbn; congruence. Qed.

Lemma NoDup_via {A B C} (f : A -> B) (g : A -> C) l : NoDup (map f l) -> (forall a b, In a l -> In b l -> g a = g b -> f a = f b) -> NoDup (map g l).
Proof.
  induction l as [|a l IH]; cbn; intros H G; [constructor|]. inversion H as [|? ? H1 H2]; subst. constructor.
  - intros Hin. apply in_map_iff in Hin as (b & E & Hb). apply H1. rewrite (G a b (or_introl eq_refl) (or_intror Hb) (eq_sym E)). now apply in_map.
  - apply IH; [assumption|]. intros; apply G; auto.
Qed.

Lemma filter_pos {A} (f : A -> bool) l : 0 < length (filter f l) <-> exists a, In a l /\ f a = true.
Proof.
  split.
  - destruct (filter f l) as [|a l'] eqn:E; cbn; [lia|]. intros _. exists a. apply filter_In. rewrite E. now left.
  - intros (a & H). apply filter_In in H. destruct (filter f l); [destruct H|cbn; lia].
Qed.

Section Entries.
Variables (dim : nat) (coordinates : list nat) (X : list row) (y : list Z).
Hypothesis Hc : coordinates_ok dim coordinates.
Hypothesis HX : rect dim X.
Hypothesis HL : length X = length y.

Local Notation unify := (fun p : row * Z => map round4 (fst p) ++ [snd p]).
Local Notation U := (map unify (combine X y)).
Local Notation at_coords := (fun r => map (fun c => nth c (removelast r) 0%Z) coordinates).
Local Notation entry_of := (fun rc : list Z * nat => mk_entry (at_coords (fst rc)) (last (fst rc) 0%Z) (snd rc)).

Lemma unique_data_ok : unique_data dim X y coordinates = Ok (map entry_of (unique_by zs_eqb zs_ltb U)).
Proof.
  destruct Hc as [N B]. unfold unique_data. rewrite HL, Nat.eqb_refl. cbn [negb].
  assert (F : forallb (fun c => c <? dim) coordinates = true) by (apply forallb_forall; intros c H; now apply Nat.ltb_lt, B). rewrite F. cbn [negb].
  rewrite nodup_fixed_point by assumption. rewrite Nat.eqb_refl. cbn [negb]. now rewrite map2_combine.
Qed.

Lemma combine_dim p : In p (combine X y) -> length (fst p) = dim.
Proof. intros H. destruct p as [x l]. apply in_combine_l in H. unfold rect in HX. rewrite Forall_forall in HX. now apply HX. Qed.

Lemma unify_coords p : In p (combine X y) -> at_coords (unify p) = coords_of coordinates (fst p) /\ last (unify p) 0%Z = snd p.
Proof.
  intros H. cbv beta. rewrite removelast_last, last_last. split; [|reflexivity]. unfold coords_of. apply map_ext_in. intros c Hin.
  assert (B : c < length (fst p)) by (rewrite (combine_dim p H); now apply Hc).
  rewrite (nth_indep _ 0%Z (round4 0)) by now rewrite map_length. now rewrite map_nth.
Qed.

Lemma entries_in e : In e (map entry_of (unique_by zs_eqb zs_ltb U)) ->
  exists p, In p (combine X y) /\ en_coords e = coords_of coordinates (fst p) /\ en_y e = snd p /\
    en_count e = count_occ zs_dec U (unify p) /\ 0 < en_count e.
Proof.
  intros H. apply in_map_iff in H as ([r c] & <- & H). apply unique_rows_in in H as [H1 H2]. cbn [fst snd en_coords en_y en_count].
  assert (I : In r U) by (apply (count_occ_In zs_dec); lia). apply in_map_iff in I as (p & E & Hp). exists p.
  destruct (unify_coords p Hp) as [A1 A2]. rewrite <- E. repeat (split; [assumption|]). split; [now rewrite E|exact H1].
Qed.

Lemma entries_for p : In p (combine X y) ->
  exists e, In e (map entry_of (unique_by zs_eqb zs_ltb U)) /\ en_coords e = coords_of coordinates (fst p) /\ en_y e = snd p.
Proof.
  intros Hp. exists (entry_of (unify p, count_occ zs_dec U (unify p))). split.
  - apply (in_map entry_of). apply unique_rows_in. split; [|reflexivity]. apply (count_occ_In zs_dec). now apply (in_map unify).
  - cbn [en_coords en_y fst snd]. now apply unify_coords.
Qed.

Lemma seen_pos cs l : 0 < seen coordinates X y cs l <-> exists e, In e (map entry_of (unique_by zs_eqb zs_ltb U)) /\ en_coords e = cs /\ en_y e = l.
Proof.
  unfold seen. rewrite filter_pos. split.
  - intros (p & Hp & H). destruct (list_eq_dec Z.eq_dec (coords_of coordinates (fst p)) cs) as [<-|]; [|discriminate]. apply Z.eqb_eq in H as <-.
    now apply entries_for.
  - intros (e & He & <- & <-). destruct (entries_in e He) as (p & Hp & -> & -> & _). exists p. split; [exact Hp|].
    destruct (list_eq_dec _ _ _) as [_|N]; [now apply Z.eqb_refl|congruence].
Qed.

(** ** All columns are shown *)

Hypothesis Hall : Permutation coordinates (seq 0 dim).

Lemma coords_inj p q : In p (combine X y) -> In q (combine X y) ->
  coords_of coordinates (fst p) = coords_of coordinates (fst q) -> map round4 (fst p) = map round4 (fst q).
Proof.
  intros Hp Hq E. pose proof (combine_dim p Hp) as L1. pose proof (combine_dim q Hq) as L2.
  apply (nth_ext _ _ (round4 0) (round4 0)); [now rewrite !map_length, L1, L2|]. intros c Hlt. rewrite map_length, L1 in Hlt. rewrite !map_nth.
  assert (I : In c coordinates) by (apply (Permutation_in _ (Permutation_sym Hall)), in_seq; lia).
  unfold coords_of in E. revert I E. generalize coordinates. induction coordinates0 as [|d l IH]; [intros []|]. cbn. intros [->|I] E; injection E; auto.
Qed.

Lemma seen_count p : In p (combine X y) -> seen coordinates X y (coords_of coordinates (fst p)) (snd p) = count_occ zs_dec U (unify p).
Proof.
  intros Hp. unfold seen. rewrite (count_map zs_dec unify). f_equal. apply filter_ext_in. intros q Hq. cbv beta.
  destruct (list_eq_dec Z.eq_dec (coords_of coordinates (fst q)) (coords_of coordinates (fst p))) as [E|E].
  - apply coords_inj in E; [|assumption|assumption]. rewrite E. destruct (Z.eqb_spec (snd q) (snd p)) as [->|N].
    + destruct (zs_dec _ _); congruence.
    + destruct (zs_dec _ _) as [F|]; [|reflexivity]. apply app_inj_tail in F as [_ F]. congruence.
  - destruct (zs_dec _ _) as [F|]; [|reflexivity]. apply app_inj_tail in F as [F G]. exfalso. apply E. unfold coords_of. apply map_ext_in. intros c Hin.
    rewrite <- !(map_nth round4). now rewrite F.
Qed.

Lemma entries_count e : In e (map entry_of (unique_by zs_eqb zs_ltb U)) -> en_count e = seen coordinates X y (en_coords e) (en_y e).
Proof. intros H. destruct (entries_in e H) as (p & Hp & -> & -> & -> & _). symmetry. now apply seen_count. Qed.

Lemma entries_nodup : NoDup (map (fun e => (en_coords e, en_y e)) (map entry_of (unique_by zs_eqb zs_ltb U))).
Proof.
  rewrite map_map. apply (NoDup_via fst); [apply unique_rows_nodup|]. intros [r c] [r' c'] H H' E.
  cbn [fst snd en_coords en_y] in *. apply unique_rows_in in H as [H1 H2]. apply unique_rows_in in H' as [H1' H2'].
  assert (I : In r U) by (apply (count_occ_In zs_dec); lia). assert (I' : In r' U) by (apply (count_occ_In zs_dec); lia).
  apply in_map_iff in I as (p & <- & Hp). apply in_map_iff in I' as (q & <- & Hq).
  destruct (unify_coords p Hp) as [A1 A2]. destruct (unify_coords q Hq) as [B1 B2]. cbv beta in A1, A2, B1, B2.
  injection E as E1 E2. rewrite A2, B2 in E2. rewrite E2. f_equal. apply coords_inj; auto. now rewrite <- A1, <- B1.
Qed.

End Entries.

Lemma same_key_iff a b : same_key a b = true <-> en_coords a = en_coords b /\ en_y a = en_y b.
Proof. unfold same_key. rewrite andb_true_iff, zs_eqb_spec, Z.eqb_eq. reflexivity. Qed.

(** Rows of the merged table. *)
Lemma merge_in new orig m : In m (merge new orig) ->
  (exists e o, In e new /\ In o orig /\ en_coords e = en_coords o /\ en_y e = en_y o /\
     m = mk_merged (en_coords e) (en_y e) (Some (en_count e)) (Some (en_count o))) \/
  (exists e, In e new /\ (forall o, In o orig -> ~ (en_coords e = en_coords o /\ en_y e = en_y o)) /\
     m = mk_merged (en_coords e) (en_y e) (Some (en_count e)) None) \/
  (exists o, In o orig /\ (forall e, In e new -> ~ (en_coords o = en_coords e /\ en_y o = en_y e)) /\
     m = mk_merged (en_coords o) (en_y o) None (Some (en_count o))).
Proof.
  unfold merge. intros H. apply in_app_iff in H as [H|H].
  - apply in_flat_map in H as (e & He & H). destruct (filter (same_key e) orig) as [|o0 os] eqn:E.
    + destruct H as [<-|[]]. right; left. exists e. split; [exact He|]. split; [|reflexivity]. intros o Ho K. apply same_key_iff in K.
      assert (In o (filter (same_key e) orig)) as G by now apply filter_In. now rewrite E in G.
    + apply in_map_iff in H as (o & <- & Ho). rewrite <- E in Ho. apply filter_In in Ho as [H1 H2]. apply same_key_iff in H2 as [K1 K2].
      left. exists e, o. auto.
  - apply in_flat_map in H as (o & Ho & H). destruct (existsb (same_key o) new) eqn:E; [destruct H|]. destruct H as [<-|[]].
    right; right. exists o. split; [exact Ho|]. split; [|reflexivity]. intros e He K. apply same_key_iff in K.
    assert (G : existsb (same_key o) new = true) by (apply existsb_exists; eauto). congruence.
Qed.

Lemma merge_new new orig e : In e new -> exists m, In m (merge new orig) /\ mg_coords m = en_coords e /\ mg_y m = en_y e.
Proof.
  intros He. destruct (filter (same_key e) orig) as [|o os] eqn:E.
  - exists (mk_merged (en_coords e) (en_y e) (Some (en_count e)) None). split; [|split; reflexivity]. unfold merge. apply in_app_iff. left.
    apply in_flat_map. exists e. split; [exact He|]. rewrite E. now left.
  - exists (mk_merged (en_coords e) (en_y e) (Some (en_count e)) (Some (en_count o))). split; [|split; reflexivity]. unfold merge. apply in_app_iff. left.
    apply in_flat_map. exists e. split; [exact He|]. rewrite E. now left.
Qed.

Lemma merge_old new orig o : In o orig -> exists m, In m (merge new orig) /\ mg_coords m = en_coords o /\ mg_y m = en_y o.
Proof.
  intros Ho. destruct (existsb (same_key o) new) eqn:E.
  - apply existsb_exists in E as (e & He & K). apply same_key_iff in K as [K1 K2]. destruct (merge_new new orig e He) as (m & M1 & M2 & M3). exists m. split; [exact M1|]. split; congruence.
  - exists (mk_merged (en_coords o) (en_y o) None (Some (en_count o))). split; [|split; reflexivity]. unfold merge. apply in_app_iff. right.
    apply in_flat_map. exists o. split; [exact Ho|]. rewrite E. now left.
Qed.

Local Notation key := (fun e => (en_coords e, en_y e)).

Lemma merge_keys new orig : NoDup (map key new) -> NoDup (map key orig) -> NoDup (map (fun m => (mg_coords m, mg_y m)) (merge new orig)).
Proof.
  intros N1 N2. unfold merge. rewrite map_app.
  set (f := fun e => match filter (same_key e) orig with [] => _ | _ => _ end).
  assert (A : forall l, map (fun m => (mg_coords m, mg_y m)) (flat_map f l) = map key l).
  { induction l as [|e l IH]; [reflexivity|]. change (flat_map f (e :: l)) with (f e ++ flat_map f l). rewrite map_app, IH. unfold f.
    assert (L : length (filter (same_key e) orig) <= 1).
    { clear -N2. assert (G : forall l, NoDup (map key l) -> length (filter (same_key e) l) <= 1); [|now apply G].
      induction l as [|o l IH]; intros N; [cbn; lia|]. inversion N as [|? ? N1 N3]; subst. cbn [filter]. destruct (same_key e o) eqn:K; [|now apply IH].
      cbn [length]. assert (Z : filter (same_key e) l = []); [|rewrite Z; cbn; lia].
      apply same_key_iff in K as [K1 K2]. destruct (filter (same_key e) l) as [|o' os] eqn:F; [reflexivity|]. exfalso. apply N1.
      assert (I : In o' (filter (same_key e) l)) by (rewrite F; now left). apply filter_In in I as [I1 I2]. apply same_key_iff in I2 as [J1 J2].
      apply in_map_iff. exists o'. split; [congruence|exact I1]. }
    destruct (filter (same_key e) orig) as [|o [|]]; cbn in *; try reflexivity. lia. }
  rewrite A. clear A f.
  set (rest := flat_map _ orig).
  assert (R : forall k, In k (map (fun m => (mg_coords m, mg_y m)) rest) -> ~ In k (map key new) /\ In k (map key orig)).
  { intros k Hk. apply in_map_iff in Hk as (m & <- & Hm). unfold rest in Hm. apply in_flat_map in Hm as (o & Ho & Hm).
    destruct (existsb (same_key o) new) eqn:E; [destruct Hm|]. destruct Hm as [<-|[]]. cbn. split; [|apply in_map_iff; eauto].
    intros H. apply in_map_iff in H as (e & K & He). injection K as K1 K2.
    assert (existsb (same_key o) new = true); [|congruence]. apply existsb_exists. exists e. split; [exact He|]. apply same_key_iff. auto. }
  assert (NR : NoDup (map (fun m => (mg_coords m, mg_y m)) rest)).
  { clear R. unfold rest. clear rest. induction orig as [|o l IH]; [constructor|]. inversion N2 as [|? ? M1 M2]; subst. cbn [flat_map].
    destruct (existsb (same_key o) new); [now apply IH|]. cbn [app map mg_coords mg_y]. constructor; [|now apply IH].
    intros H. apply M1. apply in_map_iff in H as (m & E & Hm). apply in_flat_map in Hm as (o' & Ho' & Hm).
    destruct (existsb (same_key o') new); [destruct Hm|]. destruct Hm as [<-|[]]. cbn in E. apply in_map_iff. eauto. }
  clearbody rest. clear N2. induction new as [|e l IH]; [exact NR|]. cbn [map app]. inversion N1 as [|? ? M1 M2]; subst. constructor.
  - intros H. apply in_app_iff in H as [H|H]; [now apply M1|]. apply R in H as [H _]. apply H. now left.
  - apply IH; [exact M2|]. intros k Hk. destruct (R k Hk) as [R1 R2]. split; [|exact R2]. intros G. apply R1. now right.
Qed.

Lemma labeling_table dim coordinates X y X' y' :
  coordinates_ok dim coordinates -> wf_data X dim y -> wf_data X' dim y' ->
  exists ms, vector_labeling dim X y X' y' coordinates = Ok ms /\ table_of coordinates X y X' y' ms /\
    (Permutation coordinates (seq 0 dim) -> exact_table coordinates X y X' y' ms).
Proof.
  intros Hc [HR HL] [HR' HL']. unfold vector_labeling. rewrite (unique_data_ok dim coordinates X y Hc HL), (unique_data_ok dim coordinates X' y' Hc HL').
  cbn [bind]. eexists. split; [reflexivity|].
  set (orig := map _ (unique_by zs_eqb zs_ltb (map _ (combine X y)))). set (new := map _ (unique_by zs_eqb zs_ltb (map _ (combine X' y')))).
  pose proof (seen_pos dim coordinates X y Hc HR HL) as SO. pose proof (seen_pos dim coordinates X' y' Hc HR' HL') as SN. cbv beta in SO, SN. fold orig in SO. fold new in SN.
  split.
  - split.
    + intros m Hm. apply merge_in in Hm as [(e & o & He & Ho & K1 & K2 & ->)|[(e & He & N & ->)|(o & Ho & N & ->)]]; cbn [mg_old mg_new mg_coords mg_y].
      * assert (0 < seen coordinates X y (en_coords e) (en_y e)) by (apply (proj2 (SO _ _)); exists o; repeat split; congruence || assumption). assert (0 < seen coordinates X' y' (en_coords e) (en_y e)) by (apply (proj2 (SN _ _)); exists e; auto).
        split; [split; [discriminate|lia]|]. split; [split; [discriminate|lia]|left; discriminate].
      * assert (0 < seen coordinates X' y' (en_coords e) (en_y e)) by (apply (proj2 (SN _ _)); exists e; auto).
        assert (~ 0 < seen coordinates X y (en_coords e) (en_y e)) by (rewrite SO; intros (o & Ho & K1 & K2); apply (N o Ho); auto).
        split; [split; [lia|reflexivity]|]. split; [split; [discriminate|lia]|right; discriminate].
      * assert (0 < seen coordinates X y (en_coords o) (en_y o)) by (apply (proj2 (SO _ _)); exists o; repeat split; congruence || assumption).
        assert (~ 0 < seen coordinates X' y' (en_coords o) (en_y o)) by (rewrite SN; intros (e & He & K1 & K2); apply (N e He); auto).
        split; [split; [discriminate|lia]|]. split; [split; [lia|reflexivity]|left; discriminate].
    + intros cs l [H|H].
      * apply (proj1 (SO _ _)) in H as (o & Ho & <- & <-). now apply merge_old.
      * apply (proj1 (SN _ _)) in H as (e & He & <- & <-). now apply merge_new.
  - intros Hall.
    pose proof (entries_count dim coordinates X y Hc HR HL Hall) as CO. pose proof (entries_count dim coordinates X' y' Hc HR' HL' Hall) as CN. cbv beta in CO, CN. fold orig in CO. fold new in CN.
    split.
    + intros m Hm. apply merge_in in Hm as [(e & o & He & Ho & K1 & K2 & ->)|[(e & He & N & ->)|(o & Ho & N & ->)]]; cbn [mg_old mg_new mg_coords mg_y].
      * split; intros c H; injection H as <-; [rewrite (CO o Ho); congruence|now apply CN].
      * split; intros c H; [discriminate|injection H as <-; now apply CN].
      * split; intros c H; [injection H as <-; now apply CO|discriminate].
    + apply merge_keys; apply (entries_nodup dim); assumption.
Qed.

Lemma flags_right coordinates X y X' y' ms m : table_of coordinates X y X' y' ms -> exact_table coordinates X y X' y' ms -> In m ms ->
  flag_right (seen coordinates X y (mg_coords m) (mg_y m)) (seen coordinates X' y' (mg_coords m) (mg_y m)) (flag_of m).
Proof.
  intros [T _] [E _] Hm. destruct (T m Hm) as (T1 & T2 & T3). destruct (E m Hm) as (E1 & E2). unfold flag_of.
  destruct (mg_new m) as [c|], (mg_old m) as [o|].
  - assert (o <> 0) by (intros ->; destruct T1 as [_ T1]; rewrite <- (E1 _ eq_refl) in T1; discriminate T1; reflexivity).
    assert (c <> 0) by (intros ->; destruct T2 as [_ T2]; rewrite <- (E2 _ eq_refl) in T2; discriminate T2; reflexivity).
    rewrite <- (E1 _ eq_refl), <- (E2 _ eq_refl). destruct (Nat.eqb_spec o c); repeat split; try discriminate; try lia; intros; try discriminate; intuition lia.
  - rewrite (proj1 T1 eq_refl). assert (0 < seen coordinates X' y' (mg_coords m) (mg_y m)).
    { destruct (seen coordinates X' y' (mg_coords m) (mg_y m)); [|lia]. destruct T2 as [_ T2]. discriminate T2. reflexivity. }
    repeat split; try discriminate; try lia.
  - rewrite (proj1 T2 eq_refl). assert (0 < seen coordinates X y (mg_coords m) (mg_y m)).
    { destruct (seen coordinates X y (mg_coords m) (mg_y m)); [|lia]. destruct T1 as [_ T1]. discriminate T1. reflexivity. }
    repeat split; try discriminate; try lia.
  - destruct T3; congruence.
Qed.

(** With any coordinates: the flags New and Removed are right about the chosen coordinates. *)
Lemma flags_any coordinates X y X' y' ms m : table_of coordinates X y X' y' ms -> In m ms ->
  flag_of m <> None /\
  (flag_of m = Some New <-> seen coordinates X y (mg_coords m) (mg_y m) = 0) /\
  (flag_of m = Some Removed <-> seen coordinates X' y' (mg_coords m) (mg_y m) = 0) /\
  (original_flag m = true <-> 0 < seen coordinates X y (mg_coords m) (mg_y m)).
Proof.
  intros [T _] Hm. destruct (T m Hm) as (T1 & T2 & T3). rewrite <- T1, <- T2. unfold flag_of, original_flag.
  assert (P : mg_old m <> None <-> 0 < seen coordinates X y (mg_coords m) (mg_y m)) by (rewrite T1; lia).
  rewrite <- P. destruct (mg_new m) as [c|], (mg_old m) as [o|]; try (destruct (o =? c)); repeat split; try discriminate; try congruence; intuition congruence.
Qed.
