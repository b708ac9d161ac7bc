(** Proofs about the agglomerative clustering loops. *)

From Coq Require Import List ZArith QArith Bool Arith Lia Lqa Permutation Relations.
From Verif Require Import Np NpFacts Spec ClusterModel.
Import ListNotations.
Open Scope nat_scope.

(** * Lists with one entry replaced or dropped *)

Lemma set_nth_length {A} i (v : A) l : length (set_nth i v l) = length l.
Proof. revert i; induction l as [|x l IH]; intros [|i]; cbn; auto. Qed.

Lemma set_nth_nth {A} i (v : A) l j d : i < length l ->
  nth j (set_nth i v l) d = if j =? i then v else nth j l d.
Proof.
  revert i j; induction l as [|x l IH]; intros [|i] [|j] H; cbn in *; try lia; auto.
  apply IH. lia.
Qed.

Definition skip (b i : nat) : nat := if i <? b then i else S i.

Lemma skip_ne b i : skip b i <> b.
Proof. unfold skip. destruct (Nat.ltb_spec i b); lia. Qed.
Lemma skip_inj b i j : skip b i = skip b j -> i = j.
Proof. unfold skip. destruct (Nat.ltb_spec i b), (Nat.ltb_spec j b); lia. Qed.
Lemma skip_lt b i n : i < n - 1 -> skip b i < n.
Proof. unfold skip. destruct (Nat.ltb_spec i b); lia. Qed.
Lemma skip_onto b j n : b < n -> j < n -> j <> b -> exists i, i < n - 1 /\ skip b i = j.
Proof.
  intros H1 H2 H3. destruct (Nat.lt_ge_cases j b).
  - exists j. unfold skip. destruct (Nat.ltb_spec j b); lia.
  - exists (j - 1). unfold skip. destruct (Nat.ltb_spec (j - 1) b); lia.
Qed.

Lemma del_nth_length {A} b (l : list A) : b < length l -> length (del_nth b l) = length l - 1.
Proof.
  revert b; induction l as [|x l IH]; intros [|b] H; cbn in *; try lia.
  rewrite IH by lia. lia.
Qed.

Lemma del_nth_nth {A} b (l : list A) i d : nth i (del_nth b l) d = nth (skip b i) l d.
Proof.
  revert b i; induction l as [|x l IH]; intros b i.
  - destruct b; destruct i; cbn [del_nth]; destruct (skip _ _); reflexivity.
  - destruct b as [|b]; [reflexivity|]. destruct i as [|i]; [reflexivity|]. cbn [nth del_nth].
    rewrite IH. unfold skip. change (S i <? S b) with (i <? b). now destruct (i <? b).
Qed.

Lemma del_nth_perm {A} b (l : list A) d : b < length l -> Permutation l (nth b l d :: del_nth b l).
Proof.
  revert b; induction l as [|x l IH]; intros [|b] H; cbn in *; try lia; [reflexivity|].
  rewrite perm_swap. constructor. apply IH. lia.
Qed.

Lemma set_nth_perm {A} a (v : A) l : a < length l -> Permutation (set_nth a v l) (v :: del_nth a l).
Proof.
  revert a; induction l as [|x l IH]; intros [|b] H; cbn in *; try lia; [reflexivity|].
  rewrite perm_swap. constructor. apply IH. lia.
Qed.

Lemma concat_perm {A} (l1 l2 : list (list A)) : Permutation l1 l2 -> Permutation (concat l1) (concat l2).
Proof.
  induction 1; cbn; auto.
  - now apply Permutation_app_head.
  - rewrite !app_assoc. apply Permutation_app_tail, Permutation_app_comm.
  - etransitivity; eassumption.
Qed.

(** * Square matrices of distances *)

Definition at_ (m : dmat) (i j : nat) : option Q := nth j (nth i m []) None.
Definition square (n : nat) (m : dmat) : Prop := length m = n /\ Forall (fun r => length r = n) m.

Lemma square_row n m i : square n m -> i < n -> length (nth i m []) = n.
Proof. intros [H1 H2] H. rewrite Forall_forall in H2. apply H2, nth_In. lia. Qed.

Lemma square_intro n m : length m = n -> (forall i, i < n -> length (nth i m []) = n) -> square n m.
Proof.
  intros H1 H2. split; [assumption|]. rewrite Forall_forall. intros r Hr.
  destruct (In_nth _ _ [] Hr) as (i & Hi & <-). apply H2. lia.
Qed.

Lemma m_get_at n m i j : square n m -> i < n -> j < n -> m_get m i j = Ok (at_ m i j).
Proof.
  intros H Hi Hj. unfold m_get. rewrite (get_nth []) by (destruct H; lia). cbn [bind].
  rewrite (get_nth None); [reflexivity|]. now rewrite (square_row n).
Qed.

Lemma nth_combine_seq_map {A B} (f : nat * A -> B) (l : list A) i d0 d : i < length l ->
  nth i (map f (combine (seq 0 (length l)) l)) d = f (i, nth i l d0).
Proof.
  intros H. rewrite (nth_indep _ d (f (0, d0))) by (rewrite map_length, combine_length, seq_length; lia).
  rewrite map_nth, combine_nth by apply seq_length. now rewrite seq_nth.
Qed.

Lemma inf_diagonal_square n m : square n m -> square n (inf_diagonal m).
Proof.
  intros H. pose proof H as [H1 H2]. apply square_intro.
  - unfold inf_diagonal. rewrite map_length, combine_length, seq_length. lia.
  - intros i Hi. unfold inf_diagonal. rewrite (nth_combine_seq_map _ _ _ []) by lia.
    cbn [fst snd]. rewrite set_nth_length. now apply square_row.
Qed.

Lemma inf_diagonal_at n m i j : square n m -> i < n -> j < n ->
  at_ (inf_diagonal m) i j = if i =? j then None else at_ m i j.
Proof.
  intros H Hi Hj. pose proof H as [H1 H2]. unfold at_ at 1, inf_diagonal.
  rewrite (nth_combine_seq_map _ _ _ []) by lia. cbn [fst snd].
  rewrite set_nth_nth by (rewrite (square_row n); auto). rewrite Nat.eqb_sym. reflexivity.
Qed.

Lemma del_row_col_square n m b : square n m -> b < n -> square (n - 1) (del_row_col b m).
Proof.
  intros H Hb. pose proof H as [H1 H2]. apply square_intro.
  - unfold del_row_col. rewrite map_length, del_nth_length; lia.
  - intros i Hi. unfold del_row_col. rewrite (nth_indep _ [] (del_nth b [])) by (rewrite map_length, del_nth_length; lia).
    rewrite map_nth, del_nth_nth. pose proof (skip_lt b i n Hi).
    rewrite del_nth_length; rewrite (square_row n) by auto; lia.
Qed.

Lemma del_row_col_at n m b i j : square n m -> b < n -> i < n - 1 -> j < n - 1 ->
  at_ (del_row_col b m) i j = at_ m (skip b i) (skip b j).
Proof.
  intros H Hb Hi Hj. pose proof H as [H1 H2]. unfold at_, del_row_col.
  rewrite (nth_indep _ [] (del_nth b [])) by (rewrite map_length, del_nth_length; lia).
  now rewrite map_nth, !del_nth_nth.
Qed.

Lemma map2_length_eq {A B C} (f : A -> B -> C) l1 l2 n : length l1 = n -> length l2 = n ->
  length (map2 f l1 l2) = n.
Proof. intros. rewrite map2_length. lia. Qed.

Lemma merge_distances_ok n m a b : square n m -> a < n -> b < n -> a <> b ->
  exists m', merge_distances a b m = Ok m' /\ square (n - 1) m' /\
    forall i j, i < n - 1 -> j < n - 1 ->
      at_ m' i j =
        if i =? j then None
        else if skip b i =? a then d_min (at_ m a (skip b j)) (at_ m b (skip b j))
        else if skip b j =? a then d_min (at_ m a (skip b i)) (at_ m b (skip b i))
        else at_ m (skip b i) (skip b j).
Proof.
  intros H Ha Hb Hab. pose proof H as [H1 H2]. unfold merge_distances.
  rewrite !(get_nth []) by lia. cbn [bind].
  pose proof (square_row n m a H Ha) as La. pose proof (square_row n m b H Hb) as Lb.
  set (r := map2 d_min (nth a m []) (nth b m [])).
  assert (Lr : length r = n) by (apply map2_length_eq; assumption).
  set (m1 := set_nth a r m).
  set (m2 := map2 (fun row_ v => set_nth a v row_) m1 r).
  assert (L1 : length m1 = n) by (unfold m1; rewrite set_nth_length; assumption).
  assert (R1 : forall i, i < n -> nth i m1 [] = if i =? a then r else nth i m []).
  { intros i Hi. unfold m1. apply set_nth_nth. lia. }
  assert (R2 : forall i, i < n -> nth i m2 [] = set_nth a (nth i r None) (nth i m1 [])).
  { intros i Hi. unfold m2. apply (map2_nth (fun row_ v => set_nth a v row_) m1 r i [] None []); lia. }
  assert (Hr : forall j, j < n -> nth j r None = d_min (at_ m a j) (at_ m b j)).
  { intros j Hj. unfold r. apply (map2_nth d_min _ _ j None None None); lia. }
  assert (S2 : square n m2).
  { apply square_intro; [unfold m2; now apply map2_length_eq|].
    intros i Hi. rewrite R2, set_nth_length, R1 by assumption. destruct (i =? a); [assumption|].
    now apply square_row. }
  assert (A2 : forall i j, i < n -> j < n -> at_ m2 i j =
     if j =? a then nth i r None else if i =? a then nth j r None else at_ m i j).
  { intros i j Hi Hj. unfold at_ at 1. rewrite R2, R1 by assumption.
    rewrite set_nth_nth by (destruct (i =? a); [lia|rewrite (square_row n); assumption]).
    destruct (j =? a); [reflexivity|]. now destruct (i =? a). }
  eexists. split; [reflexivity|]. pose proof (del_row_col_square n m2 b S2 Hb) as S3.
  split; [now apply inf_diagonal_square|]. intros i j Hi Hj.
  rewrite (inf_diagonal_at (n - 1)) by assumption.
  destruct (Nat.eqb_spec i j) as [Eij|Nij]; [reflexivity|].
  rewrite (del_row_col_at n) by assumption. rewrite A2 by now apply skip_lt.
  rewrite !Hr by now apply skip_lt.
  destruct (Nat.eqb_spec (skip b j) a) as [Ej|Nj], (Nat.eqb_spec (skip b i) a) as [Ei|Ni]; try reflexivity.
  exfalso. apply Nij, (skip_inj b). congruence.
Qed.

(** * The smallest entry and where it is *)

Lemma d_leb_refl a : d_leb a a = true.
Proof. destruct a; cbn; [apply Qle_bool_iff; apply Qle_refl|reflexivity]. Qed.
Lemma d_leb_trans a b c : d_leb a b = true -> d_leb b c = true -> d_leb a c = true.
Proof.
  destruct a, b, c; cbn; try discriminate; auto. rewrite !Qle_bool_iff. intros; eapply Qle_trans; eassumption.
Qed.
Lemma d_leb_total a b : d_leb a b = true \/ d_leb b a = true.
Proof.
  destruct a as [x|], b as [y|]; cbn; auto. rewrite !Qle_bool_iff.
  destruct (Qlt_le_dec x y); [left; now apply Qlt_le_weak|now right].
Qed.
Lemma d_min_cases a b : (d_min a b = a /\ d_leb a b = true) \/ (d_min a b = b /\ d_leb b a = true).
Proof.
  unfold d_min. destruct (d_leb a b) eqn:E; [now left|]. right. split; [reflexivity|].
  destruct (d_leb_total a b); congruence.
Qed.
Lemma d_min_l a b : d_leb (d_min a b) a = true.
Proof. destruct (d_min_cases a b) as [[-> H]|[-> H]]; [apply d_leb_refl|assumption]. Qed.
Lemma d_min_r a b : d_leb (d_min a b) b = true.
Proof. destruct (d_min_cases a b) as [[-> H]|[-> H]]; [assumption|apply d_leb_refl]. Qed.
Lemma d_eqb_refl a : d_eqb a a = true.
Proof. destruct a; cbn; [now apply Qeq_bool_iff|reflexivity]. Qed.
Lemma d_eqb_leb a b : d_eqb a b = true -> d_leb a b = true /\ d_leb b a = true.
Proof.
  destruct a as [x|], b as [y|]; cbn; try discriminate; auto.
  rewrite Qeq_bool_iff, !Qle_bool_iff. intros E. rewrite E. split; apply Qle_refl.
Qed.

Lemma fold_min_spec l : forall x, (In (fold_left d_min l x) (x :: l)) /\
  forall y, In y (x :: l) -> d_leb (fold_left d_min l x) y = true.
Proof.
  induction l as [|z l IH]; intros x; cbn [fold_left].
  - split; [now left|]. intros y [<-|[]]. apply d_leb_refl.
  - destruct (IH (d_min x z)) as [I1 I2]. split.
    + destruct I1 as [E|I1]; [|now right; right].
      rewrite <- E. destruct (d_min_cases x z) as [[-> _]|[-> _]]; cbn; auto.
    + intros y Hy. pose proof (I2 _ (or_introl eq_refl)) as I3. destruct Hy as [<-|[<-|Hy]].
      * eapply d_leb_trans; [exact I3|apply d_min_l].
      * eapply d_leb_trans; [exact I3|apply d_min_r].
      * apply I2. now right.
Qed.

Lemma in_concat_at n m v : square n m -> In v (concat m) <-> exists i j, i < n /\ j < n /\ at_ m i j = v.
Proof.
  intros H. pose proof H as [H1 H2]. rewrite in_concat. split.
  - intros (r & Hr & Hv). destruct (In_nth _ _ [] Hr) as (i & Hi & <-).
    destruct (In_nth _ _ None Hv) as (j & Hj & <-). exists i, j.
    rewrite (square_row n) in Hj by (auto; lia). repeat split; lia.
  - intros (i & j & Hi & Hj & <-). exists (nth i m []). split; [apply nth_In; lia|].
    apply nth_In. now rewrite (square_row n).
Qed.

Lemma mat_min_ok n m : square n m -> 1 <= n -> exists v, mat_min m = Ok v /\
  (exists i j, i < n /\ j < n /\ at_ m i j = v) /\
  forall i j, i < n -> j < n -> d_leb v (at_ m i j) = true.
Proof.
  intros H Hn. unfold mat_min. pose proof (in_concat_at n m) as Hc.
  destruct (concat m) as [|x l] eqn:E.
  - exfalso. assert (In (at_ m 0 0) []) by (apply (Hc (at_ m 0 0) H); exists 0, 0; repeat split; lia). contradiction.
  - exists (fold_left d_min l x). destruct (fold_min_spec l x) as [F1 F2]. split; [reflexivity|]. split.
    + now apply Hc in F1.
    + intros i j Hi Hj. apply F2. apply Hc; [assumption|]. now exists i, j.
Qed.

Lemma in_combine_seq {A} (l : list A) i x d : In (i, x) (combine (seq 0 (length l)) l) <-> i < length l /\ nth i l d = x.
Proof.
  split.
  - intros H. destruct (In_nth _ _ (0, d) H) as (k & Hk & E). rewrite combine_length, seq_length in Hk.
    rewrite combine_nth in E by apply seq_length. rewrite seq_nth in E by lia. injection E as <- <-. split; [lia|reflexivity].
  - intros [H <-]. replace (i, nth i l d) with (nth i (combine (seq 0 (length l)) l) (0, d)).
    + apply nth_In. rewrite combine_length, seq_length. lia.
    + rewrite combine_nth by apply seq_length. now rewrite seq_nth.
Qed.

Lemma where_eq_in n m v i j : square n m ->
  In (i, j) (where_eq m v) <-> i < n /\ j < n /\ d_eqb (at_ m i j) v = true.
Proof.
  intros H. pose proof H as [H1 H2]. unfold where_eq. rewrite in_flat_map. split.
  - intros ([i' r] & Hr & Hin). apply (in_combine_seq m i' r []) in Hr as [Hi' <-].
    apply in_map_iff in Hin as ([j' x] & E & Hf). cbn in E. injection E as -> ->.
    apply filter_In in Hf as [Hf1 Hf2]. cbn in Hf1, Hf2.
    apply (in_combine_seq _ j x None) in Hf1 as [Hj <-]. rewrite (square_row n) in Hj by (auto; lia).
    split; [lia|]. split; [assumption|exact Hf2].
  - intros (Hi & Hj & E). exists (i, nth i m []). split; [apply (in_combine_seq m i _ []); split; [lia|reflexivity]|].
    apply in_map_iff. exists (j, at_ m i j). split; [reflexivity|]. apply filter_In. split; [|exact E].
    cbn. apply (in_combine_seq _ j _ None). rewrite (square_row n) by assumption. split; [assumption|reflexivity].
Qed.

Lemma first_of_in {A} (l : list A) : l <> [] -> exists x, first_of l = Ok x /\ In x l.
Proof. destruct l as [|x l]; [congruence|]. intros _. exists x. cbn. auto. Qed.

Lemma min_pos n m : square n m -> 1 <= n -> exists v a b, mat_min m = Ok v /\
  first_of (where_eq m v) = Ok (a, b) /\ a < n /\ b < n /\ d_eqb (at_ m a b) v = true /\
  (forall i j, i < n -> j < n -> d_leb v (at_ m i j) = true).
Proof.
  intros H Hn. destruct (mat_min_ok n m H Hn) as (v & Ev & (i & j & Hi & Hj & Eij) & Hmin).
  destruct (first_of_in (where_eq m v)) as ([a b] & Ef & Hab).
  - intros E. assert (In (i, j) (where_eq m v)) by (apply (where_eq_in n m v i j H); rewrite Eij; auto using d_eqb_refl).
    now rewrite E in *.
  - apply (where_eq_in n m v a b H) in Hab as (Ha & Hb & E). exists v, a, b. auto 10.
Qed.

(** * The loop invariant *)

Section Inv.

(** What is known about the recorded distance of two clusters. *)
Variable E : list nat -> list nat -> option Q -> Prop.
Hypothesis E_sym : forall C D v, E C D v -> E D C v.
Hypothesis E_min : forall A B C v w, E A C v -> E B C w -> E (A ++ B) C (d_min v w).

Record inv (rows : list nat) (cl : list (list nat)) (m : dmat) : Prop := {
  inv_square : square (length cl) m;
  inv_diag : forall i, i < length cl -> at_ m i i = None;
  inv_perm : Permutation (concat cl) rows;
  inv_nonempty : Forall (fun c => c <> []) cl;
  inv_entries : forall p q, p < length cl -> q < length cl -> p <> q -> E (nth p cl []) (nth q cl []) (at_ m p q) }.

Lemma merge_clusters_ok a b (cl : list (list nat)) : a < length cl -> b < length cl -> a <> b ->
  exists cl', merge_clusters a b cl = Ok cl' /\ length cl' = length cl - 1 /\
    Permutation (concat cl') (concat cl) /\
    (forall i, i < length cl - 1 ->
       nth i cl' [] = if skip b i =? a then nth a cl [] ++ nth b cl [] else nth (skip b i) cl []).
Proof.
  intros Ha Hb Hab. unfold merge_clusters. rewrite !(get_nth []) by assumption. cbn [bind].
  set (ca := nth a cl []). set (cb := nth b cl []). eexists. split; [reflexivity|].
  set (l1 := set_nth a (ca ++ cb) cl).
  assert (L1 : length l1 = length cl) by apply set_nth_length.
  split; [rewrite del_nth_length; lia|]. split.
  - pose proof (concat_perm _ _ (del_nth_perm b l1 [] ltac:(lia))) as P1.
    pose proof (concat_perm _ _ (set_nth_perm a (ca ++ cb) cl Ha)) as P2. fold l1 in P2.
    pose proof (concat_perm _ _ (del_nth_perm a cl [] Ha)) as P3. fold ca in P3.
    cbn [concat] in P1, P2, P3.
    replace (nth b l1 []) with cb in P1.
    2:{ unfold l1. rewrite set_nth_nth by assumption. destruct (Nat.eqb_spec b a); [congruence|reflexivity]. }
    apply (Permutation_app_inv_l cb). rewrite <- P1, P2, P3. rewrite app_assoc.
    apply Permutation_app_tail, Permutation_app_comm.
  - intros i Hi. rewrite del_nth_nth. unfold l1. now apply set_nth_nth.
Qed.

Lemma inv_merge rows cl m a b : inv rows cl m -> a < length cl -> b < length cl -> a <> b ->
  exists cl' m', merge_clusters a b cl = Ok cl' /\ merge_distances a b m = Ok m' /\
    length cl' = length cl - 1 /\ inv rows cl' m' /\
    (forall i, i < length cl - 1 ->
       nth i cl' [] = if skip b i =? a then nth a cl [] ++ nth b cl [] else nth (skip b i) cl []).
Proof.
  intros [I1 I2 I3 I4 I5] Ha Hb Hab.
  destruct (merge_clusters_ok a b cl Ha Hb Hab) as (cl' & Ec & Lc & Pc & Nc).
  destruct (merge_distances_ok _ m a b I1 Ha Hb Hab) as (m' & Em & Sm & Am).
  exists cl', m'. do 3 (split; [assumption|]). split; [|assumption]. constructor.
  - now rewrite Lc.
  - intros i Hi. rewrite Lc in Hi. rewrite Am by assumption. now rewrite Nat.eqb_refl.
  - now rewrite Pc.
  - rewrite Forall_forall. intros c Hc. destruct (In_nth _ _ [] Hc) as (i & Hi & <-). rewrite Lc in Hi.
    rewrite Nc by assumption. rewrite Forall_forall in I4. destruct (skip b i =? a).
    + intros E0. apply app_eq_nil in E0 as [E0 _]. apply (I4 (nth a cl [])); [now apply nth_In|assumption].
    + apply I4, nth_In. now apply skip_lt.
  - intros p q Hp Hq Hpq. rewrite Lc in Hp, Hq. rewrite Am, !Nc by assumption.
    destruct (Nat.eqb_spec p q); [congruence|].
    assert (Hs : skip b p <> skip b q) by (intros E0; apply Hpq, (skip_inj b); assumption).
    pose proof (skip_ne b p) as Np. pose proof (skip_ne b q) as Nq.
    pose proof (skip_lt b p _ Hp) as Lp. pose proof (skip_lt b q _ Hq) as Lq.
    destruct (Nat.eqb_spec (skip b p) a) as [Ep|Ep], (Nat.eqb_spec (skip b q) a) as [Eq|Eq]; try congruence.
    + apply E_min; apply I5; auto; congruence.
    + apply E_sym, E_min; apply I5; auto; congruence.
    + apply I5; auto.
Qed.

Lemma inv_start n m : square n m -> (forall i j, i < n -> j < n -> i <> j -> E [i] [j] (at_ m i j)) ->
  inv (seq 0 n) (singletons n) (inf_diagonal m).
Proof.
  intros H HE. assert (L : length (singletons n) = n) by (unfold singletons; now rewrite map_length, seq_length).
  assert (N : forall i, i < n -> nth i (singletons n) [] = [i]).
  { intros i Hi. unfold singletons. rewrite (nth_indep _ [] [0]) by (rewrite map_length, seq_length; lia).
    rewrite (map_nth (fun i => [i])). now rewrite seq_nth. }
  constructor; rewrite ?L.
  - now apply inf_diagonal_square.
  - intros i Hi. rewrite (inf_diagonal_at n) by assumption. now rewrite Nat.eqb_refl.
  - unfold singletons. rewrite <- flat_map_concat_map. rewrite flat_map_concat_map.
    assert (G : forall l : list nat, concat (map (fun i => [i]) l) = l) by (induction l; cbn; congruence).
    now rewrite G.
  - unfold singletons. rewrite Forall_map, Forall_forall. intros i _. discriminate.
  - intros p q Hp Hq Hpq. rewrite !N by assumption. rewrite (inf_diagonal_at n) by assumption.
    destruct (Nat.eqb_spec p q); [congruence|]. now apply HE.
Qed.

(** Two different clusters declared unmergeable. *)
Lemma inv_block rows cl m a b row_a m1 row_b : inv rows cl m -> a < length cl -> b < length cl -> a <> b ->
  (forall C D, E C D None) ->
  row_a = nth a m [] -> m1 = set_nth a (set_nth b None row_a) m -> row_b = nth b m1 [] ->
  let m2 := set_nth b (set_nth a None row_b) m1 in
  inv rows cl m2 /\
  forall i j, i < length cl -> j < length cl ->
    at_ m2 i j = if ((i =? a) && (j =? b)) || ((i =? b) && (j =? a)) then None else at_ m i j.
Proof.
  intros [I1 I2 I3 I4 I5] Ha Hb Hab HN -> -> ->. set (n := length cl) in *.
  pose proof I1 as [L1 L2].
  set (m1 := set_nth a (set_nth b None (nth a m [])) m). intros m2.
  assert (R1 : forall i, nth i m1 [] = if i =? a then set_nth b None (nth a m []) else nth i m []).
  { intros i. unfold m1. apply set_nth_nth. lia. }
  assert (R2 : forall i, nth i m2 [] = if i =? b then set_nth a None (nth b m1 []) else nth i m1 []).
  { intros i. unfold m2. apply set_nth_nth. unfold m1. rewrite set_nth_length. lia. }
  assert (A2 : forall i j, i < n -> j < n ->
    at_ m2 i j = if ((i =? a) && (j =? b)) || ((i =? b) && (j =? a)) then None else at_ m i j).
  { intros i j Hi Hj. unfold at_ at 1. rewrite R2.
    destruct (Nat.eqb_spec i b) as [->|Nb].
    - rewrite set_nth_nth.
      2:{ rewrite R1. destruct (Nat.eqb_spec b a); [congruence|]. now rewrite (square_row n). }
      rewrite R1. destruct (Nat.eqb_spec b a); [congruence|]. cbn [andb orb]. now destruct (j =? a).
    - rewrite R1. destruct (Nat.eqb_spec i a) as [->|Na]; cbn [andb orb].
      + rewrite set_nth_nth by now rewrite (square_row n). rewrite orb_false_r. now destruct (j =? b).
      + reflexivity. }
  split; [|exact A2]. constructor; auto.
  - apply square_intro.
    + unfold m2, m1. rewrite !set_nth_length. assumption.
    + intros i Hi. rewrite R2. destruct (Nat.eqb_spec i b) as [->|Nb].
      * rewrite set_nth_length, R1. destruct (Nat.eqb_spec b a); [congruence|]. now apply square_row.
      * rewrite R1. destruct (Nat.eqb_spec i a) as [->|Na]; [rewrite set_nth_length|]; now apply square_row.
  - intros i Hi. fold n in Hi. rewrite A2 by assumption. destruct (_ || _); [reflexivity|]. now apply I2.
  - intros p q Hp Hq Hpq. fold n in Hp, Hq. rewrite A2 by assumption. destruct (_ || _); [apply HN|]. now apply I5.
Qed.

(** One cluster removed together with its row and column. *)
Lemma inv_delete rows cl m b : inv rows cl m -> b < length cl ->
  exists rows', Permutation rows (nth b cl [] ++ rows') /\
    inv rows' (del_nth b cl) (del_row_col b m) /\ length (del_nth b cl) = length cl - 1.
Proof.
  intros [I1 I2 I3 I4 I5] Hb. exists (concat (del_nth b cl)).
  pose proof (concat_perm _ _ (del_nth_perm b cl [] Hb)) as P. cbn [concat] in P.
  split; [now rewrite <- I3|]. assert (L : length (del_nth b cl) = length cl - 1) by now apply del_nth_length.
  split; [|assumption]. constructor; rewrite ?L.
  - now apply del_row_col_square.
  - intros i Hi. rewrite (del_row_col_at (length cl)) by assumption. apply I2. now apply skip_lt.
  - reflexivity.
  - rewrite Forall_forall in I4 |- *. intros c Hc. apply I4.
    eapply Permutation_in; [symmetry; apply (del_nth_perm b cl [] Hb)|]. now right.
  - intros p q Hp Hq Hpq. rewrite (del_row_col_at (length cl)), !del_nth_nth by assumption.
    apply I5; try now apply skip_lt. intros E0. apply Hpq, (skip_inj b). assumption.
Qed.

End Inv.

(** * Partitions *)

(** The clusters are pairwise disjoint, non-empty and contain exactly the
    numbers below [n]. *)
Definition partition_of (n : nat) (cl : list (list nat)) : Prop :=
  Forall (fun c => c <> []) cl /\ NoDup (concat cl) /\ forall i, In i (concat cl) <-> i < n.

Lemma inv_partition E n cl m : inv E (seq 0 n) cl m -> partition_of n cl.
Proof.
  intros [I1 I2 I3 I4 I5]. split; [assumption|]. split.
  - eapply Permutation_NoDup; [symmetry; exact I3|]. apply seq_NoDup.
  - intros i. rewrite (Permutation_in' eq_refl I3), in_seq. lia.
Qed.

(** Two rows in a common cluster. *)
Definition together (cl : list (list nat)) (i j : nat) : Prop :=
  exists c, In c cl /\ In i c /\ In j c.

Lemma partition_unique n cl p q i : partition_of n cl -> p < length cl -> q < length cl ->
  In i (nth p cl []) -> In i (nth q cl []) -> p = q.
Proof.
  intros (_ & H & _). revert p q. induction cl as [|c cl IH]; intros p q Hp Hq Hi Hj; [cbn in Hp; lia|].
  cbn [concat] in H. assert (H1 : NoDup (concat cl)) by (clear - H; induction c; cbn in H; [assumption|inversion H; auto]).
  assert (D : forall x, In x c -> In x (concat cl) -> False).
  { clear - H. induction c as [|y c IHc]; [intros x []|]. cbn in H. inversion H as [|? ? H2 H3]; subst.
    intros x [<-|Hx] Hx2; [apply H2, in_or_app; now right|]. eapply IHc; eassumption. }
  destruct p as [|p], q as [|q]; cbn in *; auto.
  - exfalso. apply (D i Hi). apply in_concat. exists (nth q cl []). split; [apply nth_In; lia|assumption].
  - exfalso. apply (D i Hj). apply in_concat. exists (nth p cl []). split; [apply nth_In; lia|assumption].
  - f_equal. apply IH; auto; lia.
Qed.

(** * CBSO: single linkage up to a threshold *)

Definition within (dm : nat -> nat -> Q) (th : Q) (n : nat) (i j : nat) : Prop :=
  i < n /\ j < n /\ (dm i j <= th)%Q.

(** Rows joined by a chain of steps not longer than [th]. *)
Definition chained (dm : nat -> nat -> Q) (th : Q) (n : nat) : nat -> nat -> Prop :=
  clos_refl_trans nat (within dm th n).

(** The entry is the smallest distance between members. *)
Definition linkage (dm : nat -> nat -> Q) (C D : list nat) (v : option Q) : Prop :=
  exists q, v = Some q /\ (exists i j, In i C /\ In j D /\ (dm i j == q)%Q) /\
    forall i j, In i C -> In j D -> (q <= dm i j)%Q.

Lemma linkage_sym dm : (forall i j, dm i j == dm j i)%Q -> forall C D v, linkage dm C D v -> linkage dm D C v.
Proof.
  intros Hs C D v (q & -> & (i & j & Hi & Hj & E) & Hm). exists q. split; [reflexivity|]. split.
  - exists j, i. rewrite Hs. auto.
  - intros x y Hx Hy. rewrite Hs. auto.
Qed.

Lemma linkage_min dm : forall A B C v w, linkage dm A C v -> linkage dm B C w -> linkage dm (A ++ B) C (d_min v w).
Proof.
  intros A B C v w (q & -> & (i & j & Hi & Hj & E) & Hm) (q' & -> & (i' & j' & Hi' & Hj' & E') & Hm').
  unfold d_min, d_leb. destruct (Qle_bool q q') eqn:El.
  - apply Qle_bool_iff in El. exists q. split; [reflexivity|]. split.
    + exists i, j. split; [apply in_or_app; now left|auto].
    + intros x y Hx Hy. apply in_app_or in Hx as [Hx|Hx]; [auto|]. eapply Qle_trans; [exact El|auto].
  - assert (El' : (q' <= q)%Q).
    { destruct (Qlt_le_dec q q') as [Hl|]; [|assumption]. apply Qlt_le_weak, Qle_bool_iff in Hl. congruence. }
    exists q'. split; [reflexivity|]. split.
    + exists i', j'. split; [apply in_or_app; now right|auto].
    + intros x y Hx Hy. apply in_app_or in Hx as [Hx|Hx]; [|auto]. eapply Qle_trans; [exact El'|auto].
Qed.

Definition connected (dm : nat -> nat -> Q) (th : Q) (n : nat) (cl : list (list nat)) : Prop :=
  forall c, In c cl -> forall i j, In i c -> In j c -> chained dm th n i j.

Lemma connected_merge dm th n cl cl' a b x y : (forall i j, dm i j == dm j i)%Q ->
  partition_of n cl -> connected dm th n cl ->
  a < length cl -> b < length cl -> length cl' = length cl - 1 ->
  In x (nth a cl []) -> In y (nth b cl []) -> (dm x y <= th)%Q ->
  (forall i, i < length cl - 1 ->
       nth i cl' [] = if skip b i =? a then nth a cl [] ++ nth b cl [] else nth (skip b i) cl []) ->
  connected dm th n cl'.
Proof.
  intros Hs Hp Hc Ha Hb Hl Hx Hy Hd Hn c Hin i j Hi Hj.
  destruct (In_nth _ _ [] Hin) as (p & Hpl & <-). rewrite Hl in Hpl. rewrite Hn in Hi, Hj by assumption.
  pose proof (nth_In cl [] Ha) as Ia. pose proof (nth_In cl [] Hb) as Ib.
  destruct (skip b p =? a).
  - assert (Hx' : x < n) by (apply Hp; apply in_concat; eauto).
    assert (Hy' : y < n) by (apply Hp; apply in_concat; eauto).
    assert (S1 : chained dm th n x y) by (apply rt_step; repeat split; auto).
    assert (S2 : chained dm th n y x) by (apply rt_step; repeat split; auto; rewrite Hs; auto).
    apply in_app_or in Hi as [Hi|Hi]; apply in_app_or in Hj as [Hj|Hj].
    + exact (Hc _ Ia i j Hi Hj).
    + eapply rt_trans; [exact (Hc _ Ia i x Hi Hx)|]. eapply rt_trans; [exact S1|exact (Hc _ Ib y j Hy Hj)].
    + eapply rt_trans; [exact (Hc _ Ib i y Hi Hy)|]. eapply rt_trans; [exact S2|exact (Hc _ Ia x j Hx Hj)].
    + exact (Hc _ Ib i j Hi Hj).
  - refine (Hc _ _ i j Hi Hj). apply nth_In. now apply skip_lt.
Qed.

Lemma cbso_loop_spec dm th n : (forall i j, dm i j == dm j i)%Q ->
  forall fuel cl m, inv (linkage dm) (seq 0 n) cl m -> connected dm th n cl ->
  1 <= length cl -> length cl <= fuel ->
  exists cl', cbso_loop fuel th cl m = Ok cl' /\ partition_of n cl' /\
    forall i j, i < n -> j < n -> (together cl' i j <-> chained dm th n i j).
Proof.
  intros Hs. induction fuel as [|fuel IH]; intros cl m Hi Hc H1 Hf; [lia|].
  pose proof (inv_partition _ _ _ _ Hi) as Hpart. cbn [cbso_loop].
  destruct (min_pos (length cl) m (inv_square _ _ _ _ Hi) H1) as (v & a & b & -> & Ew & Ha & Hb & Hv & Hmin).
  cbn [bind]. rewrite Ew. cbn [bind]. rewrite (m_get_at _ _ _ _ (inv_square _ _ _ _ Hi) Ha Hb). cbn [bind].
  rewrite (proj1 (inv_square _ _ _ _ Hi)).
  destruct (d_eqb_leb _ _ Hv) as [Hv1 Hv2].
  destruct (negb (d_leb (at_ m a b) (Some th)) || (length cl =? 1)) eqn:Estop.
  - exists cl. split; [reflexivity|]. split; [assumption|]. intros i j Hin Hjn. split.
    + intros (c & Hcin & Hic & Hjc). eapply Hc; eassumption.
    + intros Hch.
      (* every step stays inside one cluster *)
      assert (Step : forall x y, within dm th n x y -> together cl x y).
      { intros x y (Hx & Hy & Hd). destruct Hpart as (P1 & P2 & P3).
        assert (Hx' := proj2 (P3 x) Hx). assert (Hy' := proj2 (P3 y) Hy).
        apply in_concat in Hx' as (cx & Cx & Ix). apply in_concat in Hy' as (cy & Cy & Iy).
        destruct (In_nth _ _ [] Cx) as (p & Hp & Epx). destruct (In_nth _ _ [] Cy) as (q & Hq & Eqy).
        destruct (Nat.eq_dec p q) as [->|Npq].
        - exists cx. repeat split; auto. congruence.
        - exfalso. apply orb_true_iff in Estop as [Est|Est].
          + destruct (inv_entries _ _ _ _ Hi p q Hp Hq Npq) as (d & Ed & _ & Hd2).
            rewrite Epx, Eqy in Hd2. specialize (Hd2 x y Ix Iy).
            specialize (Hmin p q Hp Hq). rewrite Ed in Hmin. apply negb_true_iff in Est.
            assert (G : d_leb (at_ m a b) (Some th) = true).
            { eapply d_leb_trans; [exact Hv1|]. eapply d_leb_trans; [exact Hmin|]. cbn. apply Qle_bool_iff.
              eapply Qle_trans; eassumption. }
            congruence.
          + apply Nat.eqb_eq in Est. lia. }
      assert (Tr : forall x y z, together cl x y -> together cl y z -> together cl x z).
      { intros x y z (c & C1 & C2 & C3) (c' & D1 & D2 & D3). exists c. split; [assumption|]. split; [assumption|].
        destruct (In_nth _ _ [] C1) as (p & Hp & <-). destruct (In_nth _ _ [] D1) as (q & Hq & <-).
        rewrite (partition_unique n cl p q y Hpart Hp Hq C3 D2). assumption. }
      assert (G : i = j \/ together cl i j).
      { clear Hin Hjn. induction Hch as [x y Hxy|x|x y z _ IH1 _ IH2]; [right; auto|now left|].
        destruct IH1 as [->|IH1]; [assumption|]. destruct IH2 as [<-|IH2]; [now right|]. right. eapply Tr; eassumption. }
      destruct G as [<-|G]; [|assumption].
      destruct Hpart as (_ & _ & P3). apply P3, in_concat in Hin as (c & C1 & C2). exists c. auto.
  - apply orb_false_iff in Estop as [Es1 Es2]. apply negb_false_iff in Es1. apply Nat.eqb_neq in Es2.
    assert (Nab : a <> b).
    { intros ->. rewrite (inv_diag _ _ _ _ Hi b Hb) in Es1. discriminate. }
    destruct (inv_merge _ (linkage_sym dm Hs) (linkage_min dm) _ _ _ a b Hi Ha Hb Nab)
      as (cl' & m' & -> & -> & Lc & Hi' & Nc). cbn [bind].
    apply IH; auto; try lia.
    destruct (inv_entries _ _ _ _ Hi a b Ha Hb Nab) as (d & Ed & (x & y & Hx & Hy & Exy) & _).
    eapply (connected_merge dm th n cl cl' a b x y); auto. rewrite Ed in Es1. cbn in Es1.
    apply Qle_bool_iff in Es1. rewrite Exy. assumption.
Qed.

Theorem cbso_clusters_spec dm th n m : (forall i j, dm i j == dm j i)%Q -> 1 <= n -> square n m ->
  (forall i j, i < n -> j < n -> exists q, at_ m i j = Some q /\ (q == dm i j)%Q) ->
  exists cl, cbso_clusters th m = Ok cl /\ partition_of n cl /\
    forall i j, i < n -> j < n -> (together cl i j <-> chained dm th n i j).
Proof.
  intros Hs Hn Hsq Hm. unfold cbso_clusters. rewrite (proj1 Hsq).
  assert (L : length (singletons n) = n) by (unfold singletons; now rewrite map_length, seq_length).
  apply cbso_loop_spec; auto; try lia.
  - apply inv_start; [assumption|]. intros i j Hi Hj Hij. destruct (Hm i j Hi Hj) as (q & -> & Eq).
    exists q. split; [reflexivity|]. split.
    + exists i, j. repeat split; cbn; auto. now rewrite Eq.
    + intros x y [<-|[]] [<-|[]]. rewrite Eq. apply Qle_refl.
  - intros c Hc i j Hi Hj. unfold singletons in Hc. apply in_map_iff in Hc as (k & <- & _).
    destruct Hi as [<-|[]]. destruct Hj as [<-|[]]. apply rt_refl.
Qed.

(** * A_SUWO and Assembled_SMOTE: merges may be forbidden *)

Definition cnt (r : list (option Q)) : nat := length (filter (fun v => match v with Some _ => true | None => false end) r).
Definition fin (m : dmat) : nat := nsum (map cnt m).

Lemma cnt_le r : cnt r <= length r.
Proof. induction r as [|[q|] r IH]; cbn; unfold cnt in *; cbn; lia. Qed.

Lemma cnt_set_none j : forall r, cnt (set_nth j None r) <= cnt r.
Proof. induction j as [|j IH]; intros [|[q|] r]; unfold cnt in *; cbn; try lia; specialize (IH r); lia. Qed.

Lemma cnt_set_lt j : forall r q, nth j r None = Some q -> cnt (set_nth j None r) < cnt r.
Proof.
  induction j as [|j IH]; intros [|[x|] r] q H; cbn in H; try discriminate; unfold cnt in *; cbn; try lia;
    specialize (IH r q H); lia.
Qed.

Lemma nsum_set_le (m : dmat) i r : cnt r <= cnt (nth i m []) -> fin (set_nth i r m) <= fin m.
Proof.
  unfold fin. revert i; induction m as [|x m IH]; intros i H; [destruct i; cbn; lia|].
  destruct i as [|i]; unfold nsum in *; cbn [set_nth map fold_right nth] in *; [lia|]. specialize (IH i H). lia.
Qed.

Lemma nsum_set_lt (m : dmat) i r : i < length m -> cnt r < cnt (nth i m []) -> fin (set_nth i r m) < fin m.
Proof.
  unfold fin. revert i; induction m as [|x m IH]; intros i Hl H; [cbn in Hl; lia|].
  destruct i as [|i]; unfold nsum in *; cbn [set_nth map fold_right nth length] in *; [lia|].
  assert (Hl' : i < length m) by lia. specialize (IH i Hl' H). lia.
Qed.

Lemma fin_square n m : square n m -> fin m <= n * n.
Proof.
  intros [H1 H2]. rewrite <- H1 at 1. clear H1. unfold fin. induction H2 as [|r m Hr Hm IH]; cbn; [lia|].
  pose proof (cnt_le r). unfold nsum in *. lia.
Qed.

Lemma fin_block m a b q : a < length m -> at_ m a b = Some q ->
  let m1 := set_nth a (set_nth b None (nth a m [])) m in
  fin (set_nth b (set_nth a None (nth b m1 [])) m1) < fin m.
Proof.
  intros Ha E m1. assert (H1 : fin m1 < fin m) by (apply nsum_set_lt; [assumption|]; now apply (cnt_set_lt _ _ q)).
  assert (H2 : fin (set_nth b (set_nth a None (nth b m1 [])) m1) <= fin m1) by (apply nsum_set_le, cnt_set_none). lia.
Qed.

Definition measure (n : nat) (cl : list (list nat)) (m : dmat) : nat := (length cl - 1) * (n * n + 1) + fin m.

Lemma measure_merge n cl m cl' m' : 2 <= length cl -> length cl <= n -> length cl' = length cl - 1 ->
  square (length cl') m' -> measure n cl' m' < measure n cl m.
Proof.
  intros H2 Hn Hl Hs. unfold measure. apply fin_square in Hs.
  assert (length cl' * length cl' <= n * n) by (apply Nat.mul_le_mono; lia).
  replace (length cl - 1) with (S (length cl' - 1)) by lia. lia.
Qed.

Definition attained (dm : nat -> nat -> Q) (C D : list nat) (v : option Q) : Prop :=
  forall q, v = Some q -> exists i j, In i C /\ In j D /\ (dm i j == q)%Q.

Lemma attained_sym dm : (forall i j, dm i j == dm j i)%Q -> forall C D v, attained dm C D v -> attained dm D C v.
Proof.
  intros Hs C D v H q Hq. destruct (H q Hq) as (i & j & Hi & Hj & E). exists j, i. rewrite Hs. auto.
Qed.
Lemma attained_min dm : forall A B C v w, attained dm A C v -> attained dm B C w -> attained dm (A ++ B) C (d_min v w).
Proof.
  intros A B C v w H1 H2 q Hq. unfold d_min in Hq. destruct (d_leb v w).
  - destruct (H1 q Hq) as (i & j & Hi & Hj & E). exists i, j. split; [apply in_or_app; now left|auto].
  - destruct (H2 q Hq) as (i & j & Hi & Hj & E). exists i, j. split; [apply in_or_app; now right|auto].
Qed.

Lemma suwo_loop_spec dm th n : (forall i j, dm i j == dm j i)%Q ->
  forall fuel cl maj m, inv (attained dm) (seq 0 n) cl m -> connected dm th n cl ->
  length maj = length cl -> 1 <= length cl <= n -> measure n cl m < fuel ->
  exists cl', suwo_loop fuel th cl maj m = Ok cl' /\ partition_of n cl' /\ connected dm th n cl'.
Proof.
  intros Hs. induction fuel as [|fuel IH]; intros cl maj m Hi Hc Hmaj [H1 Hn] Hf; [lia|].
  pose proof (inv_partition _ _ _ _ Hi) as Hpart. cbn [suwo_loop].
  pose proof (inv_square _ _ _ _ Hi) as Hsq.
  destruct (min_pos (length cl) m Hsq H1) as (v & a & b & -> & Ew & Ha & Hb & Hv & Hmin).
  cbn [bind]. destruct (d_leb v (Some th)) eqn:Estop; cbn [negb]; [|eauto].
  rewrite Ew. cbn [bind]. rewrite !(get_nth []) by lia. cbn [bind].
  assert (Eab : exists q, at_ m a b = Some q /\ (q <= th)%Q).
  { destruct (d_eqb_leb _ _ Hv) as [Hv1 _]. pose proof (d_leb_trans _ _ _ Hv1 Estop) as G.
    destruct (at_ m a b) as [q|]; [|discriminate]. exists q. split; [reflexivity|]. now apply Qle_bool_iff. }
  destruct Eab as (q & Eq & Hq).
  assert (Nab : a <> b) by (intros Eab; rewrite Eab, (inv_diag _ _ _ _ Hi b Hb) in Eq; discriminate).
  destruct (existsb _ _).
  - rewrite (get_nth []) by (destruct Hsq; lia). cbn [bind].
    rewrite (get_nth []) by (rewrite set_nth_length; destruct Hsq; lia). cbn [bind].
    assert (HN : forall C D, attained dm C D None) by (intros C D q' Hq'; discriminate).
    destruct (inv_block (attained dm) (seq 0 n) cl m a b _ _ _ Hi Ha Hb Nab HN
         (eq_refl (nth a m [])) (eq_refl (set_nth a (set_nth b None (nth a m [])) m)) (eq_refl _))
      as [Hi' _].
    apply IH; auto. pose proof (fin_block m a b q ltac:(destruct Hsq; lia) Eq) as F. cbv zeta in F.
    unfold measure in *. lia.
  - destruct (inv_merge _ (attained_sym dm Hs) (attained_min dm) _ _ _ a b Hi Ha Hb Nab)
      as (cl' & m' & -> & -> & Lc & Hi' & Nc). cbn [bind].
    apply IH; auto; try lia.
    + destruct (inv_entries _ _ _ _ Hi a b Ha Hb Nab q Eq) as (x & y & Hx & Hy & Exy).
      eapply (connected_merge dm th n cl cl' a b x y); auto. rewrite Exy. assumption.
    + rewrite del_nth_length; rewrite set_nth_length; lia.
    + pose proof (measure_merge n cl m cl' m' ltac:(lia) Hn Lc (inv_square _ _ _ _ Hi')). lia.
Qed.

Lemma singletons_length n : length (singletons n) = n.
Proof. unfold singletons. now rewrite map_length, seq_length. Qed.

Lemma measure_start n m : 1 <= n -> square n m -> measure n (singletons n) m < suwo_fuel n.
Proof.
  intros Hn H. unfold measure, suwo_fuel. rewrite singletons_length. apply fin_square in H.
  destruct n as [|n]; [lia|]. replace (S n - 1) with n by lia. 
  set (q := S n * S n) in *. replace (S n * (q + 1)) with (n * (q + 1) + (q + 1)) by ring. lia.
Qed.

Lemma singletons_connected dm th n : connected dm th n (singletons n).
Proof.
  intros c Hc i j Hi Hj. unfold singletons in Hc. apply in_map_iff in Hc as (k & <- & _).
  destruct Hi as [<-|[]]. destruct Hj as [<-|[]]. apply rt_refl.
Qed.

Theorem suwo_clusters_spec dm th n maj m : (forall i j, dm i j == dm j i)%Q -> 1 <= n -> square n m ->
  length maj = n ->
  (forall i j, i < n -> j < n -> exists q, at_ m i j = Some q /\ (q == dm i j)%Q) ->
  exists cl, suwo_clusters th maj m = Ok cl /\ partition_of n cl /\
    forall i j, together cl i j -> chained dm th n i j.
Proof.
  intros Hs Hn Hsq Hmaj Hm. unfold suwo_clusters. rewrite (proj1 Hsq).
  destruct (suwo_loop_spec dm th n Hs (suwo_fuel n) (singletons n) maj (inf_diagonal m)) as (cl & E & Hp & Hc).
  - apply inv_start; [assumption|]. intros i j Hi Hj Hij. destruct (Hm i j Hi Hj) as (q & -> & Eq).
    intros q' E. injection E as <-. exists i, j. repeat split; cbn; auto. now rewrite Eq.
  - apply singletons_connected.
  - now rewrite singletons_length.
  - rewrite singletons_length. lia.
  - apply measure_start; [assumption|]. now apply inf_diagonal_square.
  - exists cl. split; [assumption|]. split; [assumption|]. intros i j (c & H1 & H2 & H3). eapply Hc; eassumption.
Qed.

Lemma assembled_loop_spec pop similar n : forall fuel cl m, inv (fun _ _ _ => True) (seq 0 n) cl m ->
  length cl <= n -> measure n cl m <= fuel ->
  exists cl', assembled_loop fuel pop similar cl m = Ok cl' /\ partition_of n cl' /\ (cl <> [] -> cl' <> []).
Proof.
  induction fuel as [|fuel IH]; intros cl m Hi Hn Hf;
    pose proof (inv_partition _ _ _ _ Hi) as Hpart; pose proof (inv_square _ _ _ _ Hi) as Hsq;
    cbn [assembled_loop]; rewrite (proj1 Hsq);
    (destruct (Nat.leb_spec (length cl) 1) as [Hle|Hgt]; [eauto|]);
    destruct (min_pos (length cl) m Hsq ltac:(lia)) as (v & a & b & -> & Ew & Ha & Hb & Hv & Hmin);
    cbn [bind]; (destruct (d_ltb v None) eqn:Estop; cbn [negb]; [|eauto]).
  - exfalso. unfold measure in Hf. nia.
  - rewrite Ew. cbn [bind]. rewrite !(get_nth []) by lia. cbn [bind].
    assert (Eab : exists q, at_ m a b = Some q).
    { destruct (at_ m a b) as [q|]; [eauto|]. destruct v; [discriminate|]. discriminate. }
    destruct Eab as (q & Eq).
    assert (Nab : a <> b) by (intros Eab; rewrite Eab, (inv_diag _ _ _ _ Hi b Hb) in Eq; discriminate).
    destruct (_ || _ || _).
    + destruct (inv_merge (fun _ _ _ => True) (fun _ _ _ _ => I) (fun _ _ _ _ _ _ _ => I) _ _ _ a b Hi Ha Hb Nab)
        as (cl' & m' & -> & -> & Lc & Hi' & Nc). cbn [bind].
      destruct (IH cl' m' Hi') as (cl'' & E & P & Q); try lia.
      * pose proof (measure_merge n cl m cl' m' ltac:(lia) Hn Lc (inv_square _ _ _ _ Hi')). lia.
      * exists cl''. split; [assumption|]. split; [assumption|]. intros _. apply Q. intros ->. cbn in Lc. lia.
    + rewrite (get_nth []) by (destruct Hsq; lia). cbn [bind].
      rewrite (get_nth []) by (rewrite set_nth_length; destruct Hsq; lia). cbn [bind].
      destruct (inv_block (fun _ _ _ => True) (seq 0 n) cl m a b _ _ _ Hi Ha Hb Nab (fun _ _ => I)
         (eq_refl (nth a m [])) (eq_refl (set_nth a (set_nth b None (nth a m [])) m)) (eq_refl _)) as [Hi' _].
      apply IH; auto. pose proof (fin_block m a b q ltac:(destruct Hsq; lia) Eq) as F. cbv zeta in F.
      unfold measure in *. lia.
Qed.

Theorem assembled_clusters_spec pop similar n m : 1 <= n -> square n m ->
  exists cl, assembled_clusters pop similar m = Ok cl /\ partition_of n cl.
Proof.
  intros Hn Hsq. unfold assembled_clusters. rewrite (proj1 Hsq).
  destruct (assembled_loop_spec pop similar n (suwo_fuel n) (singletons n) (inf_diagonal m)) as (cl & E & Hp & _).
  - now apply inv_start.
  - rewrite singletons_length. lia.
  - apply Nat.lt_le_incl, measure_start; [assumption|]. now apply inf_diagonal_square.
  - eauto.
Qed.

(** * CURE_SMOTE *)

Definition finite_ (C D : list nat) (v : option Q) : Prop := exists q, v = Some q.
Lemma finite_sym : forall C D v, finite_ C D v -> finite_ D C v.
Proof. auto. Qed.
Lemma finite_min : forall A B C v w, finite_ A C v -> finite_ B C w -> finite_ (A ++ B) C (d_min v w).
Proof. intros A B C v w [q ->] [q' ->]. unfold d_min. destruct (d_leb _ _); eexists; reflexivity. Qed.

Definition pick_ok (pick : nat -> list nat -> nat) : Prop := forall it l, l <> [] -> In (pick it l) l.

Lemma where_bound mask i : In i (where_ mask) -> i < length mask.
Proof. intros H. unfold where_ in H. apply select_incl in H. apply in_seq in H. lia. Qed.

Lemma where_in mask i : i < length mask -> nth i mask false = true -> In i (where_ mask).
Proof.
  unfold where_. intros H. assert (G : forall s, nth i mask false = true -> In (i + s) (select mask (seq s (length mask)))).
  { revert i H. induction mask as [|b mask IH]; intros i H s Hi; [cbn in H; lia|]. cbn.
    destruct i as [|i]; cbn in Hi.
    - subst b. now left.
    - cbn in H. assert (Hr : In (i + S s) (select mask (seq (S s) (length mask)))) by (apply IH; [lia|assumption]).
      replace (S i + s) with (i + S s) by lia. destruct b; [right|]; assumption. }
  intros Hi. specialize (G 0 Hi). now rewrite Nat.add_0_r in G.
Qed.

Lemma fold_natmin_in l : forall x, In (fold_left Nat.min l x) (x :: l).
Proof.
  induction l as [|y l IH]; intros x; cbn [fold_left]; [now left|].
  destruct (IH (Nat.min x y)) as [E|H]; [|now right; right]. rewrite <- E.
  destruct (Nat.min_spec x y) as [[_ ->]|[_ ->]]; cbn; auto.
Qed.

Lemma smallest_exists (sizes : list nat) : sizes <> [] ->
  where_ (map (Nat.eqb (fold_left Nat.min sizes (hd 0 sizes))) sizes) <> [].
Proof.
  intros H. destruct sizes as [|s sizes]; [congruence|]. set (v := fold_left _ _ _).
  assert (Hin : In v (s :: sizes)).
  { unfold v. destruct (fold_natmin_in (s :: sizes) (hd 0 (s :: sizes))) as [E|E]; [rewrite <- E; cbn; now left|assumption]. }
  destruct (In_nth _ _ 0 Hin) as (i & Hi & E). intros Hw.
  assert (G : In i (where_ (map (Nat.eqb v) (s :: sizes)))).
  { apply where_in; [now rewrite map_length|]. rewrite (nth_indep _ false (v =? 0)) by now rewrite map_length.
    rewrite map_nth, E. apply Nat.eqb_refl. }
  rewrite Hw in G. destruct G.
Qed.

Lemma cure_remove_spec pick k it rows cl m cl1 m1 : pick_ok pick -> inv finite_ rows cl m -> 1 <= length cl ->
  cure_remove pick k it cl m = (cl1, m1) ->
  exists rows', incl rows' rows /\ (NoDup rows -> NoDup rows') /\ inv finite_ rows' cl1 m1 /\
    length cl1 = if it mod k =? 0 then length cl - 1 else length cl.
Proof.
  intros Hp Hi Hl H. unfold cure_remove in H. destruct (it mod k =? 0).
  - set (sizes := map (@length nat) cl) in *.
    assert (Hs : sizes <> []) by (unfold sizes; destruct cl; [cbn in Hl; lia|discriminate]).
    pose proof (Hp it _ (smallest_exists sizes Hs)) as Hin. apply where_bound in Hin.
    rewrite map_length in Hin. unfold sizes in Hin at 4. rewrite map_length in Hin.
    injection H as <- <-. destruct (inv_delete _ _ _ _ _ Hi Hin) as (rows' & P & Hi' & Lc).
    exists rows'. split; [|split; [|split; assumption]].
    + intros x Hx. eapply Permutation_in; [symmetry; exact P|]. apply in_or_app. now right.
    + intros Hn. pose proof (Permutation_NoDup P Hn) as Hn'. clear - Hn'. induction (nth _ cl []); cbn in Hn'; [assumption|].
      inversion Hn'; auto.
  - injection H as <- <-. exists rows. split; [apply incl_refl|]. auto.
Qed.

(** At least two clusters: the smallest distance belongs to different ones. *)
Lemma finite_min_pos rows cl m : inv finite_ rows cl m -> 2 <= length cl ->
  exists v a b, mat_min m = Ok v /\ first_of (where_eq m v) = Ok (a, b) /\
    a < length cl /\ b < length cl /\ a <> b.
Proof.
  intros Hi Hl. destruct (min_pos (length cl) m (inv_square _ _ _ _ Hi) ltac:(lia)) as (v & a & b & Ev & Ew & Ha & Hb & Hv & Hmin).
  exists v, a, b. do 4 (split; [assumption|]). intros ->. rewrite (inv_diag _ _ _ _ Hi b Hb) in Hv.
  destruct v; [discriminate|]. destruct (inv_entries _ _ _ _ Hi 0 1) as [q Eq]; try lia.
  specialize (Hmin 0 1 ltac:(lia) ltac:(lia)). rewrite Eq in Hmin. discriminate.
Qed.

Definition sub_partition (n : nat) (cl : list (list nat)) : Prop :=
  Forall (fun c => c <> []) cl /\ NoDup (concat cl) /\ forall i, In i (concat cl) -> i < n.

Lemma inv_sub_partition n rows cl m : inv finite_ rows cl m -> NoDup rows -> incl rows (seq 0 n) -> sub_partition n cl.
Proof.
  intros [I1 I2 I3 I4 I5] Hn Hin. split; [assumption|]. split.
  - eapply Permutation_NoDup; [symmetry; exact I3|assumption].
  - intros i Hi. rewrite (Permutation_in' eq_refl I3) in Hi. apply Hin, in_seq in Hi. lia.
Qed.

Lemma cure_loop_spec pick k n : pick_ok pick -> 2 <= k ->
  forall fuel it rows cl m, inv finite_ rows cl m -> NoDup rows -> incl rows (seq 0 n) -> length cl <= fuel ->
  exists cl', cure_loop fuel pick k it cl m = Ok cl' /\ sub_partition n cl' /\
    (length cl <= k -> cl' = cl) /\ (k < length cl -> k - 1 <= length cl' <= k).
Proof.
  intros Hp Hk. induction fuel as [|fuel IH]; intros it rows cl m Hi Hnd Hinc Hf; cbn [cure_loop];
    (destruct (Nat.leb_spec (length cl) k) as [Hle|Hgt];
      [exists cl; split; [reflexivity|]; split; [eapply inv_sub_partition; eassumption|]; split; [auto|lia]|]).
  - lia.
  - destruct (cure_remove pick k (S it) cl m) as [cl1 m1] eqn:Er.
    destruct (cure_remove_spec pick k (S it) rows cl m cl1 m1 Hp Hi ltac:(lia) Er) as (rows' & Hinc' & Hnd' & Hi1 & L1).
    assert (L1' : length cl - 1 <= length cl1 <= length cl) by (destruct (_ =? 0) in L1; lia).
    destruct (finite_min_pos rows' cl1 m1 Hi1 ltac:(lia)) as (v & a & b & -> & Ew & Ha & Hb & Nab).
    cbn [bind]. rewrite Ew. cbn [bind].
    destruct (inv_merge _ finite_sym finite_min _ _ _ a b Hi1 Ha Hb Nab) as (cl2 & m2 & -> & -> & L2 & Hi2 & _).
    cbn [bind]. destruct (IH (S it) rows' cl2 m2) as (cl' & E & P & Q1 & Q2); auto.
    + eapply incl_tran; eassumption.
    + lia.
    + exists cl'. split; [assumption|]. split; [assumption|]. split; [lia|]. intros _.
      destruct (Nat.le_gt_cases (length cl2) k) as [C|C]; [rewrite (Q1 C); lia|auto].
Qed.

(** With one cluster asked for, an even number of rows loses all clusters. *)
Lemma cure_loop_one pick n : pick_ok pick ->
  forall fuel it rows cl m, inv finite_ rows cl m -> NoDup rows -> incl rows (seq 0 n) -> length cl <= fuel ->
  exists cl', cure_loop fuel pick 1 it cl m = Ok cl' /\ sub_partition n cl' /\ length cl' = length cl mod 2.
Proof.
  intros Hp. induction fuel as [fuel IH] using lt_wf_ind. intros it rows cl m Hi Hnd Hinc Hf.
  destruct fuel as [|fuel]; cbn [cure_loop];
    (destruct (Nat.leb_spec (length cl) 1) as [Hle|Hgt];
      [exists cl; split; [reflexivity|]; split; [eapply inv_sub_partition; eassumption|];
       rewrite Nat.mod_small; lia|]).
  - lia.
  - destruct (cure_remove pick 1 (S it) cl m) as [cl1 m1] eqn:Er.
    destruct (cure_remove_spec pick 1 (S it) rows cl m cl1 m1 Hp Hi ltac:(lia) Er) as (rows' & Hinc' & Hnd' & Hi1 & L1).
    rewrite Nat.mod_1_r in L1. cbn in L1.
    destruct (Nat.eq_dec (length cl) 2) as [E2|N2].
    + (* a single cluster is left and merged with itself *)
      rewrite E2 in *. clear IH. destruct cl1 as [|c [|]]; try discriminate.
      destruct (inv_square _ _ _ _ Hi1) as [S1 S2]. cbn in S1, S2.
      destruct m1 as [|r [|]]; try discriminate. inversion S2 as [|? ? Hr _]; subst. destruct r as [|v [|]]; try discriminate.
      unfold mat_min. cbn [concat app fold_left bind].
      unfold where_eq. cbn [length seq combine flat_map map filter fst snd app]. rewrite d_eqb_refl. cbn [map app first_of bind fst].
      cbn [merge_clusters get nth_error bind merge_distances set_nth map2 del_nth del_row_col map].
      unfold inf_diagonal. cbn [length seq combine map].
      exists []. split; [destruct fuel; reflexivity|]. split; [|reflexivity].
      split; [constructor|]. split; [constructor|]. intros i [].
    + destruct (finite_min_pos rows' cl1 m1 Hi1 ltac:(lia)) as (v & a & b & -> & Ew & Ha & Hb & Nab).
      cbn [bind]. rewrite Ew. cbn [bind].
      destruct (inv_merge _ finite_sym finite_min _ _ _ a b Hi1 Ha Hb Nab) as (cl2 & m2 & -> & -> & L2 & Hi2 & _).
      cbn [bind]. destruct (IH fuel ltac:(lia) (S it) rows' cl2 m2) as (cl' & E & P & Q); auto.
      * eapply incl_tran; eassumption.
      * lia.
      * exists cl'. split; [assumption|]. split; [assumption|]. rewrite Q.
        replace (length cl) with (length cl2 + 1 * 2) by lia. now rewrite Nat.mod_add.
Qed.

Lemma filter_sub_partition f n cl : sub_partition n cl -> sub_partition n (filter f cl).
Proof.
  intros (H1 & H2 & H3). split; [|split].
  - rewrite Forall_forall in *. intros c Hc. apply filter_In in Hc as [Hc _]. auto.
  - clear H1 H3. induction cl as [|c cl IH]; cbn; [constructor|]. cbn in H2.
    assert (N1 : NoDup (concat cl)) by (clear - H2; induction c; cbn in H2; [assumption|inversion H2; auto]).
    destruct (f c); [|auto]. cbn.
    assert (D : forall x, In x (concat (filter f cl)) -> In x (concat cl)).
    { intros x Hx. apply in_concat in Hx as (c' & Hc' & Hx). apply filter_In in Hc' as [Hc' _]. apply in_concat. eauto. }
    specialize (IH N1). clear - H2 D IH. induction c as [|x c IHc]; cbn in *; [assumption|].
    inversion H2 as [|? ? A B]; subst. constructor; [|now apply IHc]. intros Hin. apply A.
    apply in_app_or in Hin as [Hin|Hin]; apply in_or_app; auto.
  - intros i Hi. apply H3. apply in_concat in Hi as (c & Hc & Hi). apply filter_In in Hc as [Hc _]. apply in_concat. eauto.
Qed.

(** The clusters before the noise is removed: the last argument 0 keeps all. *)
Theorem cure_clusters_spec pick k th n m : pick_ok pick -> 2 <= k -> 1 <= n -> square n m ->
  (forall i j, i < n -> j < n -> i <> j -> exists q, at_ m i j = Some q) ->
  exists cl, cure_clusters pick k 0 m = Ok cl /\ sub_partition n cl /\
    Nat.min n (k - 1) <= length cl <= k /\
    (n <= k -> cl = singletons n) /\
    cure_clusters pick k th m = Ok (filter (fun c => negb (length c <? th)) cl).
Proof.
  intros Hp Hk Hn Hsq Hm. unfold cure_clusters. rewrite (proj1 Hsq).
  destruct (cure_loop_spec pick k n Hp Hk n 0 (seq 0 n) (singletons n) (inf_diagonal m)) as (cl & E & P & Q1 & Q2).
  - apply inv_start; [assumption|]. intros i j Hi Hj Hij. now apply Hm.
  - apply seq_NoDup.
  - apply incl_refl.
  - now rewrite singletons_length.
  - rewrite E. cbn [bind].
    assert (F : filter (fun c : list nat => negb (length c <? 0)) cl = cl).
    { clear. induction cl as [|c cl IH]; [reflexivity|]. cbn [filter]. destruct (Nat.ltb_spec (length c) 0); [lia|]. cbn [negb]. now rewrite IH. }
    exists cl. rewrite F. split; [reflexivity|]. split; [assumption|].
    rewrite singletons_length in Q1, Q2. split; [|split; [assumption|reflexivity]].
    destruct (Nat.le_gt_cases n k) as [C|C].
    + rewrite (Q1 C), singletons_length. lia.
    + specialize (Q2 C). lia.
Qed.

Theorem cure_one_spec pick th n m : pick_ok pick -> 1 <= n -> square n m ->
  (forall i j, i < n -> j < n -> i <> j -> exists q, at_ m i j = Some q) ->
  exists cl, cure_clusters pick 1 th m = Ok cl /\ sub_partition n cl /\ length cl <= n mod 2.
Proof.
  intros Hp Hn Hsq Hm. unfold cure_clusters. rewrite (proj1 Hsq).
  destruct (cure_loop_one pick n Hp n 0 (seq 0 n) (singletons n) (inf_diagonal m)) as (cl & E & P & Q).
  - apply inv_start; [assumption|]. intros i j Hi Hj Hij. now apply Hm.
  - apply seq_NoDup.
  - apply incl_refl.
  - now rewrite singletons_length.
  - rewrite E. cbn [bind]. eexists. split; [reflexivity|]. split; [now apply filter_sub_partition|].
    rewrite singletons_length in Q. rewrite <- Q. clear. induction cl as [|c cl IH]; cbn [filter length]; [lia|].
    destruct (negb _); cbn [length]; lia.
Qed.
