(** Facts about the distance computations. *)

From Coq Require Import List ZArith QArith Qabs Bool Arith Lia Permutation Sorted.
From Verif Require Import Np NpFacts NoiseFacts2 DistModel.
Import ListNotations.
Open Scope nat_scope.

(** ** Blocks *)

Lemma chunks_concat {A} fuel size (X : list A) : 0 < size -> length X <= fuel -> concat (chunks fuel size X) = X.
Proof.
  intros P. revert X. induction fuel as [|k IH]; intros X L; [destruct X; [reflexivity|cbn in L; lia]|].
  destruct X as [|x X]; [reflexivity|]. cbn [chunks concat]. rewrite IH; [apply firstn_skipn|]. rewrite skipn_length. cbn [length] in *. lia.
Qed.

Lemma chunks_bound {A} fuel size (X : list A) B : In B (chunks fuel size X) -> length B <= size.
Proof.
  revert X. induction fuel as [|k IH]; intros X H; [destruct H|]. destruct X as [|x X]; [destruct H|].
  destruct H as [<-|H]; [rewrite firstn_length; lia|eauto].
Qed.

Lemma block_fits max_mem n c m : 0 < max_mem -> c * m <= max_mem -> max_mem < n * c * m -> block_size max_mem n c m * c * m <= max_mem.
Proof.
  intros P F G. unfold block_size. set (q := ceil_div (n * c * m) max_mem).
  assert (Q1 : n * c * m <= max_mem * q).
  { unfold q, ceil_div. set (a := n * c * m). pose proof (Nat.div_mod (a + max_mem - 1) max_mem ltac:(lia)). pose proof (Nat.mod_upper_bound (a + max_mem - 1) max_mem ltac:(lia)). lia. }
  assert (Q0 : 0 < q) by (destruct q; [lia|lia]).
  destruct (le_lt_dec 1 (n / q)) as [L|L].
  - rewrite Nat.max_l by assumption. pose proof (Nat.mul_div_le n q ltac:(lia)) as D.
    assert (E : n / q * c * m * q <= max_mem * q); [|apply Nat.mul_le_mono_pos_r in E; lia].
    replace (n / q * c * m * q) with (q * (n / q) * (c * m)) by ring. transitivity (n * (c * m)); [apply Nat.mul_le_mono_r; assumption|]. lia.
  - rewrite Nat.max_r by lia. lia.
Qed.

Lemma mapM_const {A B} (f : A -> res B) (g : A -> B) l : (forall x, In x l -> f x = Ok (g x)) -> mapM f l = Ok (map g l).
Proof. induction l as [|x l IH]; intros H; [reflexivity|]. cbn. rewrite (H x) by now left. cbn. rewrite IH by (intros; apply H; now right). reflexivity. Qed.

(** One row of the matrix fits: the result is exact, at most two calls deep. *)
Theorem pairwise_exact depth max_mem c tensor opt X Y : 2 <= depth -> c * length Y <= max_mem ->
  pairwise depth max_mem c tensor opt X Y = Ok (direct c tensor opt X Y).
Proof.
  intros D F. destruct depth as [|[|k]]; try lia. cbn [pairwise]. destruct (Nat.ltb_spec max_mem (length X * c * length Y)) as [G|G]; [|reflexivity].
  destruct (Nat.eqb_spec max_mem 0) as [->|N]. { nia. }
  set (s := block_size max_mem (length X) c (length Y)).
  rewrite (mapM_const _ (fun B => direct c tensor opt B Y)).
  - cbn [bind]. f_equal. unfold direct. rewrite <- (concat_map (fun x => map (entry c tensor opt x) Y)). f_equal. apply chunks_concat; [apply Nat.le_max_r|apply le_n].
  - intros B H. apply chunks_bound in H. cbn [pairwise]. destruct (Nat.ltb_spec max_mem (length B * c * length Y)) as [G'|G']; [|reflexivity]. exfalso.
    pose proof (block_fits max_mem (length X) c (length Y) ltac:(lia) F G). fold s in H0.
    assert (length B * c * length Y <= s * c * length Y) by (apply Nat.mul_le_mono_r, Nat.mul_le_mono_r; assumption). lia.
Qed.

(** One row does not fit: the recursion does not end, whatever the depth. *)
Theorem pairwise_diverges max_mem c tensor opt Y : 0 < max_mem -> max_mem < c * length Y ->
  forall depth X, X <> [] -> pairwise depth max_mem c tensor opt X Y = Err RecursionError.
Proof.
  intros P G depth. induction depth as [|k IH]; intros X Ne; [reflexivity|]. cbn [pairwise].
  destruct X as [|x X]; [congruence|]. assert (L : max_mem < length (x :: X) * c * length Y) by (cbn [length]; nia).
  rewrite (proj2 (Nat.ltb_lt _ _) L). destruct (Nat.eqb_spec max_mem 0); [lia|].
  cbn [length chunks mapM]. rewrite IH; [reflexivity|]. unfold block_size.
  destruct (Nat.max (S (length X) / ceil_div (S (length X) * c * length Y) max_mem) 1) eqn:E; [lia|discriminate].
Qed.

(** ** Entries *)

Lemma squares_nonneg t : (0 <= squares t)%Q.
Proof.
  unfold squares. induction t as [|a t IH]; cbn; [apply Qle_refl|].
  assert (0 <= a * a)%Q. { destruct a as [p q]. unfold Qle, Qmult. cbn. nia. }
  rewrite <- (Qplus_0_r 0). now apply Qplus_le_compat.
Qed.

Lemma squares_map2 x y : squares (map2 Qminus x y) = qsum (map2 (fun a b => (a - b) * (a - b))%Q x y).
Proof. unfold squares. revert y. induction x as [|a x IH]; intros [|b y]; cbn; try reflexivity. now rewrite IH. Qed.

Lemma eye_row i s c t : length t = c -> (qsum (map2 Qmult (map (fun j => if i =? j then 1%Q else 0%Q) (seq s c)) t) == (if (s <=? i) && (i <? s + c) then nth (i - s) t 0 else 0))%Q.
Proof.
  revert s t. induction c as [|c IH]; intros s t L; cbn [seq map map2 qsum].
  - destruct (Nat.leb_spec s i), (Nat.ltb_spec i (s + 0)); try lia; reflexivity.
  - destruct t as [|a t]; [discriminate|]. cbn [map2 qsum]. rewrite (IH (S s) t) by (cbn in L; lia).
    destruct (Nat.eqb_spec i s) as [->|N].
    + rewrite Nat.sub_diag. rewrite Nat.leb_refl. destruct (Nat.ltb_spec s (s + S c)); [|lia]. destruct (Nat.leb_spec (S s) s); [lia|]. cbn. ring.
    + destruct (Nat.leb_spec s i), (Nat.leb_spec (S s) i); try lia; cbn [andb]; [|ring].
      replace (i - s) with (S (i - S s)) by lia. replace (s + S c) with (S s + c) by lia.
      destruct (i <? S s + c); cbn [nth]; ring.
Qed.

Lemma quad_eye c t : length t = c -> (quad (eye c) t == squares t)%Q.
Proof.
  intros L. unfold quad, eye, squares.
  assert (G : forall s k u, length u = k -> s + k <= c -> (forall i, i < k -> nth (s + i) t 0%Q = nth i u 0%Q) ->
    (qsum (map2 (fun tk row => tk * qsum (map2 Qmult row t)) u (map (fun i => map (fun j => if (i =? j)%nat then 1 else 0) (seq 0 c)) (seq s k))) == qsum (map (fun x => x * x) u))%Q).
  { intros s k. revert s. induction k as [|k IH]; intros s u Lu Hs H; destruct u as [|a u]; try discriminate; cbn; [reflexivity|].
    rewrite eye_row by assumption. rewrite (IH (S s) u).
    - rewrite (proj2 (Nat.leb_le 0 s)), (proj2 (Nat.ltb_lt s (0 + c))) by lia. cbn [andb]. rewrite Nat.sub_0_r.
      pose proof (H 0 ltac:(lia)) as H0. rewrite Nat.add_0_r in H0. rewrite H0. reflexivity.
    - now injection Lu.
    - lia.
    - intros i Hi. replace (S s + i) with (s + S i) by lia. apply (H (S i)). lia. }
  apply (G 0 c t L); [lia|reflexivity].
Qed.

Lemma sqrt_nonneg q : (0 <= q)%Q -> sqrt_of q = Sqrt q.
Proof. intros H. unfold sqrt_of. apply Qle_bool_iff in H. now rewrite H. Qed.

Lemma map2_length {A B C} (f : A -> B -> C) x y : length x = length y -> length (map2 f x y) = length x.
Proof. revert y. induction x as [|a x IH]; intros [|b y] L; cbn in *; try lia. now rewrite IH by lia. Qed.

Theorem entry_euclid c tensor opt x y : length x = c -> length y = c ->
  tensor = None \/ (exists T, tensor = Some T /\ all_close T (eye c) = true) ->
  exists q, entry c tensor opt x y = Sqrt q /\ (q == qsum (map2 (fun a b => (a - b) * (a - b)) x y))%Q.
Proof.
  intros Lx Ly H. rewrite <- squares_map2. set (t := map2 Qminus x y).
  assert (Lt : length t = c) by (unfold t; rewrite map2_length; congruence).
  assert (E : entry c tensor opt x y = if opt then sqrt_of (squares t) else sqrt_of (quad (eye c) t)).
  { unfold entry. destruct H as [->|(T & -> & C)]; [reflexivity|]. now rewrite C. }
  rewrite E. pose proof (squares_nonneg t) as P. pose proof (quad_eye c t Lt) as Q1. destruct opt.
  - exists (squares t). split; [now apply sqrt_nonneg|reflexivity].
  - exists (quad (eye c) t). split; [apply sqrt_nonneg; now rewrite Q1|assumption].
Qed.

Theorem entry_tensor c T opt x y : all_close T (eye c) = false -> entry c (Some T) opt x y = sqrt_of (quad T (map2 Qminus x y)).
Proof. intros H. unfold entry. now rewrite H. Qed.

(** ** Neighbours *)

Definition at_ (l : list dist) (i : nat) : dist := nth i l NaN.
(** What np.argsort promises. *)
Definition argsort_ok (argsort : list dist -> list nat) : Prop := forall l,
  Permutation (argsort l) (seq 0 (length l)) /\ StronglySorted dist_le (map (at_ l) (argsort l)).

Lemma ss_app {A} (R : A -> A -> Prop) l1 l2 : StronglySorted R (l1 ++ l2) -> StronglySorted R l1 /\ forall x y, In x l1 -> In y l2 -> R x y.
Proof.
  induction l1 as [|a l1 IH]; cbn; intros H; [split; [constructor|intros x y []]|]. inversion H as [|? ? S Fa]; subst.
  destruct (IH S) as [S1 H1]. rewrite Forall_forall in Fa. split.
  - constructor; [assumption|]. apply Forall_forall. intros x Hx. apply Fa, in_app_iff. now left.
  - intros x y [<-|Hx] Hy; [apply Fa, in_app_iff; now right|auto].
Qed.

Lemma nodup_app_l {A} (l1 l2 : list A) : NoDup (l1 ++ l2) -> NoDup l1.
Proof.
  induction l1 as [|a l1 IH]; cbn; intros H; [constructor|]. inversion H as [|? ? Ni Nd]; subst. constructor; auto.
  intros I. apply Ni, in_app_iff. now left.
Qed.

Lemma mapM_nth {A B} (f : A -> res B) l r : mapM f l = Ok r -> length r = length l /\ forall i x y, nth_error l i = Some x -> nth_error r i = Some y -> f x = Ok y.
Proof.
  revert r. induction l as [|a l IH]; intros r H; cbn in H; [injection H as <-; split; [reflexivity|]; intros [|i] x y E; discriminate E|].
  destruct (f a) as [b|] eqn:Ea; [|discriminate]. cbn in H. destruct (mapM f l) as [bs|] eqn:El; [|discriminate]. injection H as <-.
  destruct (IH _ eq_refl) as [L N]. split; [cbn; now rewrite L|]. intros [|i] x y E1 E2; cbn in *; [congruence|eauto].
Qed.

Section NEIGHBORS.
Variable argsort : list dist -> list nat.
Hypothesis sorts : argsort_ok argsort.
Variables depth max_mem c : nat.
Hypothesis deep : 2 <= depth.
Variable sk : mat -> mat -> nat -> res (list (list nat * list dist)).
Variable skr : mat -> mat -> Q -> res (list (list nat * list dist)).

Lemma gather_at (row : list dist) ind : (forall i, In i ind -> i < length row) -> gather row ind = Ok (map (at_ row) ind).
Proof.
  intros H. unfold gather. apply mapM_const. intros i Hi. unfold get, at_. rewrite (nth_error_nth' row NaN) by auto. reflexivity.
Qed.

Theorem kneighbors_spec T Xf k X : c * length Xf <= max_mem ->
  exists r, kneighbors argsort depth max_mem c sk true (Some T) Xf k X = Ok r /\ length r = length X /\
  forall i x ind ds, nth_error X i = Some x -> nth_error r i = Some (ind, ds) ->
    let d a := entry c (Some T) true x (nth a Xf []) in
    length ind = Nat.min k (length Xf) /\ NoDup ind /\ (forall a, In a ind -> a < length Xf) /\
    ds = map d ind /\ StronglySorted dist_le ds /\
    (forall a b, In a ind -> b < length Xf -> ~ In b ind -> dist_le (d a) (d b)).
Proof.
  intros F. unfold kneighbors, n_neighbors_func. rewrite pairwise_exact by assumption. cbn [bind].
  set (f := fun row : list dist => let ind := firstn k (argsort row) in do ds <- gather row ind; Ok (ind, ds)).
  assert (Ef : forall row, f row = Ok (firstn k (argsort row), map (at_ row) (firstn k (argsort row)))).
  { intros row. unfold f. rewrite gather_at; [reflexivity|]. intros i Hi. destruct (sorts row) as [P _].
    assert (Hi' : In i (argsort row)) by (rewrite <- (firstn_skipn k); apply in_app_iff; now left).
    apply (Permutation_in _ P) in Hi'. apply in_seq in Hi'. lia. }
  exists (map (fun row => (firstn k (argsort row), map (at_ row) (firstn k (argsort row)))) (direct c (Some T) true X Xf)).
  split; [apply (mapM_const f); intros; apply Ef|]. split; [unfold direct; now rewrite !map_length|].
  intros i x ind ds Hx Hr. unfold direct in Hr. rewrite map_map, nth_error_map, Hx in Hr. cbn in Hr. injection Hr as <- <-.
  set (row := map (entry c (Some T) true x) Xf). destruct (sorts row) as [P S]. assert (Lr : length row = length Xf) by apply map_length.
  assert (Nd : NoDup (argsort row)) by (eapply Permutation_NoDup; [symmetry; exact P|apply seq_NoDup]).
  assert (Ma : forall a, In a (argsort row) <-> a < length Xf).
  { intros a. rewrite <- Lr. split; intros H; [apply (Permutation_in _ P), in_seq in H; lia|]. apply (Permutation_in _ (Permutation_sym P)), in_seq. lia. }
  assert (At : forall a, a < length Xf -> at_ row a = entry c (Some T) true x (nth a Xf [])).
  { intros a L. unfold at_, row. rewrite (nth_indep _ NaN (entry c (Some T) true x [])) by (rewrite map_length; assumption). apply map_nth. }
  assert (Spl : argsort row = firstn k (argsort row) ++ skipn k (argsort row)) by (symmetry; apply firstn_skipn).
  assert (Inf : forall a, In a (firstn k (argsort row)) -> a < length Xf) by (intros a H; apply Ma; rewrite Spl; apply in_app_iff; now left).
  rewrite Spl, map_app in S. apply ss_app in S as [S1 S2].
  repeat split.
  - rewrite firstn_length, (Permutation_length P), seq_length, Lr. reflexivity.
  - rewrite Spl in Nd. now apply nodup_app_l in Nd.
  - assumption.
  - apply map_ext_in. intros a H. apply At. auto.
  - assumption.
  - intros a b Ha Hb Nb. rewrite <- (At a), <- (At b) by auto. apply S2; apply in_map; [assumption|].
    apply Ma in Hb. rewrite Spl in Hb. apply in_app_iff in Hb as [Hb|Hb]; [contradiction|assumption].
Qed.

Theorem radius_spec T Xf r X : c * length Xf <= max_mem ->
  exists rs, radius_neighbors depth max_mem c skr true (Some T) Xf r X = Ok rs /\ length rs = length X /\
  forall i x ind ds, nth_error X i = Some x -> nth_error rs i = Some (ind, ds) ->
    let d a := entry c (Some T) true x (nth a Xf []) in
    NoDup ind /\ ds = map d ind /\
    (forall a, In a ind <-> a < length Xf /\ (0 <= r)%Q /\ exists q, d a = Sqrt q /\ (q <= r * r)%Q).
Proof.
  intros F. unfold radius_neighbors. rewrite pairwise_exact by assumption. cbn [bind].
  set (f := fun row : list dist => let ind := where_ (map (within r) row) in do ds <- gather row ind; Ok (ind, ds)).
  assert (Ef : forall row, f row = Ok (where_ (map (within r) row), map (at_ row) (where_ (map (within r) row)))).
  { intros row. unfold f. rewrite gather_at; [reflexivity|]. intros i Hi. apply where_in in Hi as [Hi _]. now rewrite map_length in Hi. }
  exists (map (fun row => (where_ (map (within r) row), map (at_ row) (where_ (map (within r) row)))) (direct c (Some T) true X Xf)).
  split; [apply (mapM_const f); intros; apply Ef|]. split; [unfold direct; now rewrite !map_length|].
  intros i x ind ds Hx Hr. unfold direct in Hr. rewrite map_map, nth_error_map, Hx in Hr. cbn in Hr. injection Hr as <- <-.
  set (row := map (entry c (Some T) true x) Xf). assert (Lr : length row = length Xf) by apply map_length.
  assert (At : forall a, a < length Xf -> at_ row a = entry c (Some T) true x (nth a Xf [])).
  { intros a L. unfold at_, row. rewrite (nth_indep _ NaN (entry c (Some T) true x [])) by (rewrite map_length; assumption). apply map_nth. }
  repeat split.
  - rewrite where_filter. apply NoDup_filter, seq_NoDup.
  - apply map_ext_in. intros a H. apply where_in in H as [H _]. rewrite map_length, Lr in H. auto.
  - apply where_in in H as [H _]. now rewrite map_length, Lr in H.
  - apply where_in in H as [H1 H2]. rewrite map_length, Lr in H1. rewrite (nth_indep _ false (within r NaN)) in H2 by (rewrite map_length; lia). rewrite map_nth in H2.
    fold (at_ row a) in H2. rewrite At in H2 by assumption. destruct (entry c (Some T) true x (nth a Xf [])); cbn in H2; [|discriminate]. apply andb_prop in H2 as [H2 _]. now apply Qle_bool_iff.
  - apply where_in in H as [H1 H2]. rewrite map_length, Lr in H1. rewrite (nth_indep _ false (within r NaN)) in H2 by (rewrite map_length; lia). rewrite map_nth in H2.
    fold (at_ row a) in H2. rewrite At in H2 by assumption. destruct (entry c (Some T) true x (nth a Xf [])) as [q|]; cbn in H2; [|discriminate]. apply andb_prop in H2 as [_ H2]. exists q. split; [reflexivity|now apply Qle_bool_iff].
  - intros (H1 & H2 & q & H3 & H4). apply where_in. rewrite map_length, Lr. split; [assumption|].
    rewrite (nth_indep _ false (within r NaN)) by (rewrite map_length; lia). rewrite map_nth. fold (at_ row a). rewrite At by assumption. rewrite H3. cbn.
    apply andb_true_intro. split; now apply Qle_bool_iff.
Qed.

End NEIGHBORS.

(** A tensor is used only with metric 'precomputed'. *)
Theorem tensor_ignored argsort depth max_mem c sk skr T Xf k r X :
  kneighbors argsort depth max_mem c sk false (Some T) Xf k X = sk Xf X k /\
  radius_neighbors depth max_mem c skr false (Some T) Xf r X = skr Xf X r.
Proof. split; reflexivity. Qed.

(** ** Border points *)

Lemma select_count {A} m (l : list A) : length m = length l -> length (select m l) = length (filter (fun b : bool => b) m).
Proof. revert l. induction m as [|b m IH]; intros [|x l] L; cbn in *; try lia. destruct b; cbn; rewrite IH by lia; reflexivity. Qed.

Lemma count_negb m : length (filter (fun b : bool => b) (map negb m)) + length (filter (fun b : bool => b) m) = length m.
Proof. induction m as [|b m IH]; cbn; [reflexivity|]. destruct b; cbn; lia. Qed.

(** The rows returned are those with a neighbour of the other class, the labels
    are as many as rows without. *)
Theorem border_lengths X y ind_min ind_maj Xf yf :
  length ind_min = length (select (map (Z.eqb 1) y) X) -> length ind_maj = length (select (map (Z.eqb 0) y) X) ->
  closest_in_classes X y ind_min ind_maj = Ok (Xf, yf) ->
  length Xf + length yf = length (select (map (Z.eqb 1) y) X) + length (select (map (Z.eqb 0) y) X).
Proof.
  intros L1 L2. unfold closest_in_classes. destruct (mapM _ ind_min) as [lm|] eqn:E1; [|discriminate]. cbn [bind].
  destruct (mapM _ ind_maj) as [lj|] eqn:E2; [|discriminate]. cbn [bind]. intros [= <- <-].
  apply mapM_nth in E1 as [E1 _]. apply mapM_nth in E2 as [E2 _]. rewrite !app_length, !repeat_length.
  rewrite !select_count by (rewrite map_length; congruence). unfold id.
  pose proof (count_negb lm). pose proof (count_negb lj). rewrite <- L1, <- L2, <- E1, <- E2. lia.
Qed.

(** ** Correlated columns *)

Theorem columns_spec th corr i : i < length corr -> (forall r, In r corr -> length r = length corr) ->
  nth i (remove_mask th corr) false = true <->
  (forall j q, i < j < length corr -> nth j (nth i corr []) None = Some q -> (Qabs q <= th)%Q).
Proof.
  intros L Sq. unfold remove_mask.
  assert (N : nth i (map (fun ir => negb (existsb (fun jc => (fst ir <? fst jc) && match snd jc with Some q => negb (Qle_bool (Qabs q) th) | None => false end)
      (combine (seq 0 (length (snd ir))) (snd ir)))) (combine (seq 0 (length corr)) corr)) false =
    negb (existsb (fun jc => (i <? fst jc) && match snd jc with Some q => negb (Qle_bool (Qabs q) th) | None => false end)
      (combine (seq 0 (length (nth i corr []))) (nth i corr [])))).
  { set (f := fun ir => negb _). rewrite (nth_indep _ false (f (0, []))) by (rewrite map_length, combine_length, seq_length; lia).
    rewrite map_nth, combine_nth by apply seq_length. rewrite seq_nth by assumption. reflexivity. }
  rewrite N. set (row := nth i corr []). assert (Lr : length row = length corr) by (apply Sq, nth_In; assumption).
  rewrite negb_true_iff. split.
  - intros E j q [H1 H2] Hj. destruct (Qle_bool (Qabs q) th) eqn:Eq; [now apply Qle_bool_iff|]. exfalso.
    assert (X : existsb (fun jc => (i <? fst jc) && match snd jc with Some q => negb (Qle_bool (Qabs q) th) | None => false end) (combine (seq 0 (length row)) row) = true); [|congruence].
    apply existsb_exists. exists (j, Some q). cbn [fst snd]. rewrite Eq, (proj2 (Nat.ltb_lt i j) H1). split; [|reflexivity].
    rewrite <- Hj. replace j with (nth j (seq 0 (length row)) 0) at 1 by (rewrite seq_nth; lia).
    rewrite <- combine_nth by apply seq_length. apply nth_In. rewrite combine_length, seq_length. lia.
  - intros H. destruct (existsb _ _) eqn:E; [|reflexivity]. exfalso. apply existsb_exists in E as ([j q] & I & E). cbn [fst snd] in E.
    apply andb_prop in E as [E1 E2]. apply Nat.ltb_lt in E1. destruct q as [q|]; [|discriminate]. apply negb_true_iff in E2.
    apply (In_nth _ _ (0, None)) in I as (k & Lk & I). rewrite combine_length, seq_length, Nat.min_id in Lk. rewrite combine_nth in I by apply seq_length.
    rewrite seq_nth in I by assumption. injection I as I1 I2. cbn [plus] in I1. subst k. assert (B : i < j < length corr) by (rewrite <- Lr; auto). specialize (H j q B I2). apply Qle_bool_iff in H. congruence.
Qed.
