(** Facts about metric tensors. *)

From Coq Require Import List ZArith Reals Bool Arith Lia Lra Permutation.
From Verif Require Import Np TensorModel SpecTensor.
Import ListNotations.
Open Scope nat_scope.

(** ** Sums *)

Lemma rsum_ext n f g : (forall k, k < n -> f k = g k) -> rsum n f = rsum n g.
Proof. induction n as [|n IH]; intros H; [reflexivity|]. cbn. rewrite IH, H by (intros; try apply H; lia). reflexivity. Qed.

Lemma rsum_plus n f g : rsum n (fun k => (f k + g k)%R) = (rsum n f + rsum n g)%R.
Proof. induction n as [|n IH]; cbn; [lra|]. rewrite IH. lra. Qed.

Lemma rsum_scale n a f : rsum n (fun k => (a * f k)%R) = (a * rsum n f)%R.
Proof. induction n as [|n IH]; cbn; [lra|]. rewrite IH. lra. Qed.

Lemma rsum_scale_r n a f : rsum n (fun k => (f k * a)%R) = (rsum n f * a)%R.
Proof. induction n as [|n IH]; cbn; [lra|]. rewrite IH. lra. Qed.

Lemma rsum_zero n : rsum n (fun _ => 0%R) = 0%R.
Proof. induction n as [|n IH]; cbn; [lra|]. rewrite IH. lra. Qed.

Lemma rsum_le n f g : (forall k, k < n -> (f k <= g k)%R) -> (rsum n f <= rsum n g)%R.
Proof. induction n as [|n IH]; intros H; cbn; [lra|]. pose proof (H n ltac:(lia)). assert (rsum n f <= rsum n g)%R by (apply IH; intros; apply H; lia). lra. Qed.

Lemma rsum_nonneg n f : (forall k, k < n -> (0 <= f k)%R) -> (0 <= rsum n f)%R.
Proof. intros H. rewrite <- (rsum_zero n). now apply rsum_le. Qed.

Lemma rsum_swap n m f : rsum n (fun i => rsum m (fun j => f i j)) = rsum m (fun j => rsum n (fun i => f i j)).
Proof.
  induction n as [|n IH]; cbn; [now rewrite rsum_zero|]. rewrite IH, <- rsum_plus. apply rsum_ext. reflexivity.
Qed.

Lemma rsum_delta n i f : i < n -> rsum n (fun k => (delta i k * f k)%R) = f i.
Proof.
  induction n as [|n IH]; intros H; [lia|]. cbn. unfold delta at 2. destruct (Nat.eqb_spec i n) as [->|N].
  - assert (E : rsum n (fun k => (delta n k * f k)%R) = 0%R); [|rewrite E; lra]. rewrite <- (rsum_zero n). apply rsum_ext. intros k Hk. unfold delta.
    destruct (Nat.eqb_spec n k); [lia|lra].
  - rewrite IH by lia. lra.
Qed.

Lemma rsum_mult n m f g : (rsum n f * rsum m g)%R = rsum n (fun i => rsum m (fun j => (f i * g j)%R)).
Proof. rewrite <- rsum_scale_r. apply rsum_ext. intros. now rewrite rsum_scale. Qed.

Lemma delta_sym i j : delta i j = delta j i.
Proof. unfold delta. now rewrite Nat.eqb_sym. Qed.

(** ** The form of a composed matrix *)

Definition coord (n : nat) (V : rmat) (x : rvec) (k : nat) : R := rsum n (fun i => (V i k * x i)%R).

Lemma form_compose n w V x : form n (compose n w V) x = rsum n (fun k => (w k * (coord n V x k * coord n V x k))%R).
Proof.
  unfold form, compose, coord.
  transitivity (rsum n (fun i => rsum n (fun j => rsum n (fun k => (x i * (V i k * w k * V j k) * x j)%R)))).
  { apply rsum_ext. intros i _. apply rsum_ext. intros j _. rewrite <- rsum_scale, <- rsum_scale_r. apply rsum_ext. reflexivity. }
  transitivity (rsum n (fun k => rsum n (fun i => rsum n (fun j => (x i * (V i k * w k * V j k) * x j)%R)))).
  { transitivity (rsum n (fun i => rsum n (fun k => rsum n (fun j => (x i * (V i k * w k * V j k) * x j)%R)))).
    - apply rsum_ext. intros i _. apply (rsum_swap n n (fun j k => (x i * (V i k * w k * V j k) * x j)%R)).
    - apply (rsum_swap n n (fun i k => rsum n (fun j => (x i * (V i k * w k * V j k) * x j)%R))). }
  apply rsum_ext. intros k _. rewrite rsum_mult, <- rsum_scale. apply rsum_ext. intros i _. rewrite <- rsum_scale. apply rsum_ext. intros. lra.
Qed.

Lemma square_coord n V x : (forall i j, i < n -> j < n -> rsum n (fun k => (V i k * V j k)%R) = delta i j) ->
  square n x = rsum n (fun k => (coord n V x k * coord n V x k)%R).
Proof.
  intros H. transitivity (form n (compose n (fun _ => 1%R) V) x).
  - unfold square, form, compose. apply rsum_ext. intros i Hi. rewrite <- (rsum_delta n i (fun j => (x i * x j)%R)) by assumption.
    apply rsum_ext. intros j Hj. rewrite <- H by assumption. rewrite (rsum_ext n (fun k => (V i k * 1 * V j k)%R) (fun k => (V i k * V j k)%R)) by (intros; lra). lra.
  - rewrite form_compose. apply rsum_ext. intros. lra.
Qed.

Lemma form_ext n A B x : same_matrix n A B -> form n A x = form n B x.
Proof. intros H. apply rsum_ext. intros i Hi. apply rsum_ext. intros j Hj. now rewrite H. Qed.

Lemma compose_sym n w V : symmetric n (compose n w V).
Proof. intros i j _ _. apply rsum_ext. intros. lra. Qed.

Lemma compose_eigenvector n w V : (forall k l, k < n -> l < n -> rsum n (fun i => (V i k * V i l)%R) = delta k l) ->
  forall k, k < n -> eigenvector n (compose n w V) (w k) (fun i => V i k).
Proof.
  intros H k Hk i Hi. unfold compose.
  transitivity (rsum n (fun j => rsum n (fun l => (V i l * w l * (V j l * V j k))%R))).
  { apply rsum_ext. intros j _. rewrite <- rsum_scale_r. apply rsum_ext. intros; lra. }
  rewrite rsum_swap. transitivity (rsum n (fun l => (delta k l * (V i l * w l))%R)).
  { apply rsum_ext. intros l Hl. rewrite rsum_scale, H, delta_sym by assumption. lra. }
  rewrite rsum_delta by assumption. lra.
Qed.

(** ** fix_pd_matrix *)

Lemma clip_ge eps x : (eps <= clip eps x)%R /\ (x <= clip eps x)%R.
Proof. unfold clip. destruct (Rle_dec x eps); lra. Qed.

Lemma coord_column n V l : (forall k l, k < n -> l < n -> rsum n (fun i => (V i k * V i l)%R) = delta k l) ->
  l < n -> forall k, k < n -> coord n V (fun i => V i l) k = delta k l.
Proof. intros H Hl k Hk. unfold coord. now apply H. Qed.

Lemma square_column n V l : (forall k l, k < n -> l < n -> rsum n (fun i => (V i k * V i l)%R) = delta k l) -> l < n -> square n (fun i => V i l) = 1%R.
Proof. intros H Hl. unfold square. rewrite H by assumption. unfold delta. now rewrite Nat.eqb_refl. Qed.

Lemma form_column n M w V l : eigen n M (w, V) -> l < n -> form n M (fun i => V i l) = w l.
Proof.
  intros (H1 & H2 & H3 & _) Hl. rewrite (form_ext n M (compose n w V)) by exact H1. rewrite form_compose.
  rewrite <- (rsum_delta n l w) by assumption. apply rsum_ext. intros k Hk. rewrite coord_column by assumption. unfold delta.
  rewrite (Nat.eqb_sym l k). destruct (k =? l); lra.
Qed.

Lemma fix_lifts eigh n eps M : eigen n M (eigh n M) -> lifts n eps M (fix_pd_matrix eigh n eps M).
Proof.
  unfold fix_pd_matrix. destruct (eigh n M) as [w V]. intros HE. pose proof HE as (H1 & H2 & H3 & _).
  split; [apply compose_sym|]. split; [|split].
  - intros x. rewrite form_compose, (square_coord n V) by assumption. rewrite <- rsum_scale. apply rsum_le. intros k Hk.
    apply Rmult_le_compat_r; [nra|]. apply clip_ge.
  - intros x. rewrite (form_ext n M (compose n w V)) by exact H1. rewrite !form_compose. apply rsum_le. intros k Hk.
    apply Rmult_le_compat_r; [nra|]. apply clip_ge.
  - intros H i j Hi Hj. rewrite (H1 i j) by assumption. apply rsum_ext. intros k Hk.
    assert (G : (eps < w k)%R). { rewrite <- (form_column n M w V k HE Hk). pose proof (square_column n V k H3 Hk) as S. rewrite <- (Rmult_1_r eps), <- S. apply H. rewrite S. lra. }
    unfold clip. destruct (Rle_dec (w k) eps); lra.
Qed.

(** Same eigenvectors, eigenvalues raised to [eps]. *)
Lemma fix_eigenvectors eigh n eps M w V : eigen n M (w, V) -> eigh n M = (w, V) ->
  forall k, k < n -> eigenvector n M (w k) (fun i => V i k) /\ eigenvector n (fix_pd_matrix eigh n eps M) (Rmax eps (w k)) (fun i => V i k).
Proof.
  intros (H1 & H2 & H3 & _) E k Hk. split.
  - intros i Hi. rewrite <- (compose_eigenvector n w V H3 k Hk i Hi). apply rsum_ext. intros j Hj. now rewrite H1.
  - unfold fix_pd_matrix. rewrite E. assert (C : Rmax eps (w k) = clip eps (w k)) by (unfold Rmax, clip; destruct (Rle_dec eps (w k)), (Rle_dec (w k) eps); lra).
    rewrite C. now apply (compose_eigenvector n (fun k => clip eps (w k)) V).
Qed.

(** ** Inverses *)

Lemma inverse_unique n w V T : (forall i j, i < n -> j < n -> rsum n (fun k => (V i k * V j k)%R) = delta i j) ->
  (forall k l, k < n -> l < n -> rsum n (fun i => (V i k * V i l)%R) = delta k l) -> (forall k, k < n -> w k <> 0%R) ->
  same_matrix n (product n T (compose n w V)) identity -> same_matrix n T (compose n (fun k => (/ w k)%R) V).
Proof.
  intros H2 H3 Hw HI i j Hi Hj.
  set (C := compose n (fun k => (/ w k)%R) V).
  (* compose w * C = 1 *)
  assert (P : same_matrix n (product n (compose n w V) C) identity).
  { intros a b Ha Hb. unfold product, compose, identity, C.
    transitivity (rsum n (fun k => rsum n (fun l => (V a l * w l * (V k l * compose n (fun m => (/ w m)%R) V k b))%R))).
    { apply rsum_ext. intros k _. rewrite <- rsum_scale_r. apply rsum_ext. intros. lra. }
    rewrite rsum_swap. rewrite <- H2 by assumption. apply rsum_ext. intros l Hl. rewrite rsum_scale.
    assert (E : rsum n (fun k => (V k l * compose n (fun m => (/ w m)%R) V k b)%R) = (/ w l * V b l)%R).
    { rewrite <- (compose_eigenvector n (fun m => (/ w m)%R) V H3 l Hl b Hb). apply rsum_ext. intros k Hk. rewrite (compose_sym n _ V k b) by assumption. lra. }
    rewrite E. field. now apply Hw. }
  (* T = T (compose w * C) = (T compose w) C = C *)
  transitivity (product n T (product n (compose n w V) C) i j).
  { unfold product at 1. rewrite <- (rsum_delta n j (fun k => T i k)) by assumption. apply rsum_ext. intros k Hk. rewrite (P k j Hk Hj). unfold identity. rewrite (delta_sym k j). lra. }
  transitivity (product n (product n T (compose n w V)) C i j).
  { unfold product. transitivity (rsum n (fun k => rsum n (fun l => (T i k * (compose n w V k l * C l j))%R))).
    - apply rsum_ext. intros k _. now rewrite rsum_scale.
    - rewrite rsum_swap. apply rsum_ext. intros l _. rewrite <- rsum_scale_r. apply rsum_ext. intros; lra. }
  unfold product at 1. rewrite (rsum_ext n _ (fun k => (delta i k * C k j)%R)); [now rewrite rsum_delta|].
  intros k Hk. now rewrite (HI i k Hi Hk).
Qed.

Lemma inverse_fixed eigh inv n eps M T : (0 < eps)%R -> eigen n M (eigh n M) ->
  inverse_of_fixed eigh inv n eps M = Ok T -> same_matrix n (product n T (fix_pd_matrix eigh n eps M)) identity ->
  symmetric n T /\ (forall x, (0 < square n x -> 0 < form n T x)%R) /\ (forall x, (0 <= form n T x <= / eps * square n x)%R).
Proof.
  unfold inverse_of_fixed, fix_pd_matrix. intros He HE _ HI. destruct (eigh n M) as [w V]. destruct HE as (H1 & H2 & H3 & _).
  assert (P : forall k, k < n -> (0 < clip eps (w k))%R) by (intros; pose proof (clip_ge eps (w k)); lra).
  assert (S : same_matrix n T (compose n (fun k => (/ clip eps (w k))%R) V)) by (apply inverse_unique; try assumption; intros k Hk; specialize (P k Hk); lra).
  assert (F : forall x, form n T x = rsum n (fun k => (/ clip eps (w k) * (coord n V x k * coord n V x k))%R)) by (intros; now rewrite (form_ext n T _ x S), form_compose).
  assert (B : forall x, (0 <= form n T x <= / eps * square n x)%R).
  { intros x. rewrite F. split.
    - apply rsum_nonneg. intros k Hk. pose proof (Rinv_0_lt_compat _ (P k Hk)). nra.
    - rewrite (square_coord n V) by assumption. rewrite <- rsum_scale. apply rsum_le. intros k Hk. apply Rmult_le_compat_r; [nra|]. apply Rinv_le_contravar; [assumption|apply clip_ge]. }
  split; [|split; [|exact B]].
  - intros i j Hi Hj. rewrite !S by assumption. now apply compose_sym.
  - intros x Hx. rewrite F. rewrite (square_coord n V) in Hx by assumption.
    assert (G : forall m, m <= n -> (0 < rsum m (fun k => coord n V x k * coord n V x k) -> 0 < rsum m (fun k => / clip eps (w k) * (coord n V x k * coord n V x k)))%R); [|now apply G].
    induction m as [|m IH]; intros Hm; cbn; [lra|]. intros H. pose proof (Rinv_0_lt_compat _ (P m ltac:(lia))) as I.
    assert (N : (0 <= rsum m (fun k => / clip eps (w k) * (coord n V x k * coord n V x k)))%R) by (apply rsum_nonneg; intros k Hk; pose proof (Rinv_0_lt_compat _ (P k ltac:(lia))); nra).
    destruct (Req_dec (coord n V x m) 0) as [Z|Z].
    + rewrite Z in *. assert (0 < rsum m (fun k => coord n V x k * coord n V x k))%R by lra. specialize (IH ltac:(lia) H0). lra.
    + assert (0 < coord n V x m * coord n V x m)%R by nra. assert (0 < / clip eps (w m) * (coord n V x m * coord n V x m))%R by nra. lra.
Qed.

(** ** reverse_matrix *)

Lemma filter_id {A} (f : A -> bool) l : (forall a, In a l -> f a = true) -> filter f l = l.
Proof. induction l as [|a l IH]; intros H; [reflexivity|]. cbn. rewrite (H a (or_introl eq_refl)), IH; [reflexivity|]. intros; apply H; now right. Qed.

Lemma filter_less n i : i <= n -> length (filter (fun j => j <? i) (seq 0 n)) = i.
Proof.
  intros H. replace n with (i + (n - i)) by lia. rewrite seq_app, filter_app, app_length.
  assert (A : filter (fun j => j <? i) (seq 0 i) = seq 0 i).
  { apply filter_id. intros j Hj. apply in_seq in Hj. apply Nat.ltb_lt. lia. }
  assert (B : filter (fun j => j <? i) (seq (0 + i) (n - i)) = []).
  { generalize (n - i). intros m. assert (G : forall s, i <= s -> filter (fun j => j <? i) (seq s m) = []); [|apply G; lia].
    induction m as [|m IH]; intros s Hs; [reflexivity|]. cbn [seq filter]. destruct (Nat.ltb_spec s i); [lia|]. apply IH. lia. }
  rewrite A, B, seq_length. cbn [length]. lia.
Qed.

Lemma filter_equal n i : i < n -> length (filter (fun j => j =? i) (seq 0 n)) = 1.
Proof.
  intros H. assert (G : forall m s, s <= i < s + m -> length (filter (fun j => j =? i) (seq s m)) = 1); [|apply G; lia].
  assert (Z : forall m s, i < s -> filter (fun j => j =? i) (seq s m) = []).
  { induction m as [|m IH]; intros s Hs; [reflexivity|]. cbn. destruct (Nat.eqb_spec s i); [lia|]. apply IH. lia. }
  induction m as [|m IH]; intros s Hs; [lia|]. cbn. destruct (Nat.eqb_spec s i) as [->|]; [cbn; now rewrite Z by lia|apply IH; lia].
Qed.

Lemma int_rank_increasing n v i : (forall a b, a < b -> b < n -> (v a < v b)%R) -> i < n -> int_rank n v i = i + 1.
Proof.
  intros H Hi. unfold int_rank.
  assert (A : length (filter (fun j => if Rlt_dec (v j) (v i) then true else false) (seq 0 n)) = i).
  { rewrite (filter_ext_in _ (fun j => j <? i)); [apply filter_less; lia|]. intros j Hj. apply in_seq in Hj.
    destruct (Nat.ltb_spec j i) as [L|L], (Rlt_dec (v j) (v i)) as [K|K]; try reflexivity; [specialize (H j i L Hi); lra|].
    destruct (Nat.eq_dec i j) as [->|]; [lra|]. specialize (H i j ltac:(lia) ltac:(lia)). lra. }
  assert (B : length (filter (fun j => if Req_EM_T (v j) (v i) then true else false) (seq 0 n)) = 1).
  { rewrite (filter_ext_in _ (fun j => j =? i)); [now apply filter_equal|]. intros j Hj. apply in_seq in Hj.
    destruct (Req_EM_T (v j) (v i)) as [K|K], (Nat.eqb_spec j i) as [E|N]; try reflexivity; try congruence.
    destruct (Nat.lt_gt_cases j i) as [G _]. destruct (G N) as [L|L]; [specialize (H j i L Hi); lra|specialize (H i j L ltac:(lia)); lra]. }
  rewrite A, B. reflexivity.
Qed.

Lemma reverse_ok eigh n M w V : eigen n M (w, V) -> eigh n M = (w, V) -> (forall a b, a < b -> b < n -> (w a < w b)%R) ->
  symmetric n (reverse_matrix eigh n M) /\
  forall k, k < n -> eigenvector n M (w k) (fun i => V i k) /\ eigenvector n (reverse_matrix eigh n M) (w (n - 1 - k)) (fun i => V i k).
Proof.
  intros (H1 & H2 & H3 & _) E HW. unfold reverse_matrix. rewrite E. split; [apply compose_sym|]. intros k Hk. split.
  - intros i Hi. rewrite <- (compose_eigenvector n w V H3 k Hk i Hi). apply rsum_ext. intros j Hj. now rewrite H1.
  - intros i Hi. rewrite (compose_eigenvector n (fun k => w (n - int_rank n w k)) V H3 k Hk i Hi). cbv beta.
    rewrite int_rank_increasing by assumption. do 2 f_equal. lia.
Qed.

(** ** psd_mean *)

Lemma form_scale_sum n (Ms : list rmat) c x :
  form n (fun i j => (fold_right (fun M s => (M i j + s)%R) 0%R Ms / c)%R) x = (fold_right (fun M s => (form n M x + s)%R) 0%R Ms / c)%R.
Proof.
  induction Ms as [|M Ms IH]; cbn [fold_right].
  - unfold form. rewrite (rsum_ext n _ (fun _ => 0%R)); [rewrite rsum_zero; unfold Rdiv; ring|]. intros i _. transitivity (rsum n (fun _ => 0%R)); [|apply rsum_zero]. apply rsum_ext. intros. unfold Rdiv. ring.
  - unfold Rdiv in *. rewrite Rmult_plus_distr_r. rewrite <- IH. unfold form. rewrite <- rsum_scale_r, <- rsum_plus. apply rsum_ext. intros i _.
    rewrite <- rsum_scale_r, <- rsum_plus. apply rsum_ext. intros j _. ring.
Qed.

Definition mean_matrix (Ms : list rmat) : rmat := fun i j => (fold_right (fun M s => (M i j + s)%R) 0%R Ms / INR (length Ms))%R.

Lemma psd_mean_ok eigh n eps Ms T : psd_mean eigh n eps Ms = Some T -> eigen n (mean_matrix Ms) (eigh n (mean_matrix Ms)) ->
  lifts n eps (mean_matrix Ms) T /\ forall x, (fold_right (fun M s => (form n M x + s)%R) 0%R Ms / INR (length Ms) <= form n T x)%R.
Proof.
  unfold psd_mean. intros H HE.
  assert (L : lifts n eps (mean_matrix Ms) T) by (destruct Ms as [|M0 Ms]; [discriminate|]; injection H as <-; now apply fix_lifts).
  split; [exact L|]. intros x. rewrite <- form_scale_sum. apply L.
Qed.

(** ** Upper triangles *)

Lemma triu_in n k i j : In (i, j) (triu n k) <-> i < n /\ i + k <= j /\ j < n.
Proof.
  unfold triu. rewrite in_flat_map. split.
  - intros (a & Ha & H). apply in_map_iff in H as (b & E & Hb). injection E as -> ->. apply in_seq in Ha. apply in_seq in Hb. lia.
  - intros (H1 & H2 & H3). exists i. split; [apply in_seq; lia|]. apply in_map_iff. exists j. split; [reflexivity|]. apply in_seq. lia.
Qed.

Lemma triu_nodup n k : NoDup (triu n k).
Proof.
  unfold triu. generalize (seq_NoDup n 0). generalize (seq 0 n). induction l as [|a l IH]; intros H; [constructor|]. inversion H as [|? ? H1 H2]; subst. cbn [flat_map].
  assert (A : NoDup (map (fun j => (a, j)) (seq (a + k) (n - (a + k))))).
  { apply FinFun.Injective_map_NoDup; [intros x z E; congruence|apply seq_NoDup]. }
  specialize (IH H2). revert A. generalize (seq (a + k) (n - (a + k))). induction l0 as [|b l0 IHl]; intros A; [exact IH|]. cbn [map app]. inversion A as [|? ? A1 A2]; subst.
  constructor; [|now apply IHl]. intros Hin. apply in_app_iff in Hin as [Hin|Hin]; [now apply A1|]. apply in_flat_map in Hin as (c & Hc & Hd).
  apply in_map_iff in Hd as (d & E & _). injection E as -> ->. now apply H1.
Qed.

Lemma all_pairs_triu m : all_pairs m (triu m 0).
Proof. split; [apply triu_nodup|]. intros i j. rewrite triu_in. lia. Qed.

Lemma set_all_other ps : forall vs M i j, ~ In (i, j) ps -> set_all M ps vs i j = M i j.
Proof.
  induction ps as [|p ps IH]; intros [|v vs] M i j H; try reflexivity. unfold set_all. cbn [combine fold_left fst snd]. fold (set_all (set_at M p v) ps vs).
  rewrite IH by (intros G; apply H; now right). unfold set_at. destruct p as [a b]. cbn [fst snd].
  destruct (Nat.eqb_spec i a), (Nat.eqb_spec j b); try reflexivity. subst. elim H. now left.
Qed.

Lemma set_all_at ps : forall vs M t, NoDup ps -> length ps = length vs -> t < length ps ->
  set_all M ps vs (fst (nth t ps (0, 0))) (snd (nth t ps (0, 0))) = nth t vs 0%R.
Proof.
  induction ps as [|p ps IH]; intros [|v vs] M t N L H; cbn in L, H; try lia. inversion N as [|? ? N1 N2]; subst.
  unfold set_all. cbn [combine fold_left fst snd]. fold (set_all (set_at M p v) ps vs). destruct t as [|t]; cbn [nth].
  - rewrite set_all_other by (destruct p; exact N1). unfold set_at. now rewrite !Nat.eqb_refl.
  - apply IH; auto; lia.
Qed.

(** The elements of the upper triangle of a matrix. *)
Definition upper_of (n : nat) (M : rmat) : list R := map (fun p => M (fst p) (snd p)) (triu n 0).

Lemma from_upper_ok n c : length c = length (triu n 0) ->
  exists S, from_upper n c = Ok S /\ symmetric n S /\ upper_of n S = c.
Proof.
  intros L. unfold from_upper. rewrite L, Nat.eqb_refl. eexists. split; [reflexivity|]. set (d := set_all _ _ _).
  assert (Z : forall i j, j < i -> d i j = 0%R). { intros i j H. unfold d. rewrite set_all_other; [reflexivity|]. rewrite triu_in. lia. }
  split.
  - intros i j _ _. destruct (Nat.eqb_spec i j) as [->|N]; [now rewrite Nat.eqb_refl|]. destruct (Nat.eqb_spec j i); [congruence|]. lra.
  - apply (nth_ext _ _ 0%R 0%R); [unfold upper_of; now rewrite map_length|]. unfold upper_of. rewrite map_length. intros t Ht.
    set (g := fun p : nat * nat => _). rewrite (nth_indep _ 0%R (g (0, 0))) by now rewrite map_length. rewrite map_nth. unfold g.
    pose proof (set_all_at (triu n 0) c (fun _ _ => 0%R) t (triu_nodup n 0) (eq_sym L) Ht) as E. fold d in E.
    pose proof (nth_In (triu n 0) (0, 0) Ht) as I. destruct (nth t (triu n 0) (0, 0)) as [a b]. cbn [fst snd] in *. apply triu_in in I.
    destruct (Nat.eqb_spec a b) as [->|N]; [|rewrite (Z b a) by lia]; lra.
Qed.

Lemma upper_of_length n M : length (upper_of n M) = length (triu n 0).
Proof. apply map_length. Qed.

(** ** The form in terms of the upper triangle *)

Definition lsum {A} (f : A -> R) (l : list A) : R := fold_right (fun a s => (f a + s)%R) 0%R l.

Lemma lsum_app {A} (f : A -> R) l l' : lsum f (l ++ l') = (lsum f l + lsum f l')%R.
Proof. unfold lsum. induction l as [|a l IH]; cbn; [lra|]. rewrite IH. lra. Qed.

Lemma lsum_ext {A} (f g : A -> R) l : (forall a, f a = g a) -> lsum f l = lsum g l.
Proof. intros H. unfold lsum. induction l as [|a l IH]; cbn; [reflexivity|]. now rewrite H, IH. Qed.

Lemma lsum_flat_map {A B} (f : B -> R) (g : A -> list B) l : lsum f (flat_map g l) = lsum (fun a => lsum f (g a)) l.
Proof. induction l as [|a l IH]; [reflexivity|]. cbn [flat_map]. rewrite lsum_app, IH. reflexivity. Qed.

Lemma lsum_map {A B} (f : B -> R) (g : A -> B) l : lsum f (map g l) = lsum (fun a => f (g a)) l.
Proof. induction l as [|a l IH]; [reflexivity|]. cbn. unfold lsum in *. now rewrite IH. Qed.

Lemma lsum_seq f n : lsum f (seq 0 n) = rsum n f.
Proof. induction n as [|n IH]; [reflexivity|]. rewrite seq_S, lsum_app, IH. cbn. lra. Qed.

Lemma lsum_seq_from f n i : i <= n -> lsum f (seq i (n - i)) = rsum n (fun j => if i <=? j then f j else 0%R).
Proof.
  intros H. rewrite <- lsum_seq. replace (seq 0 n) with (seq 0 i ++ seq i (n - i)).
  2:{ rewrite <- seq_app. f_equal. lia. }
  rewrite lsum_app. assert (A : lsum (fun j => if i <=? j then f j else 0%R) (seq 0 i) = 0%R).
  { rewrite lsum_seq. transitivity (rsum i (fun _ => 0%R)); [|apply rsum_zero]. apply rsum_ext. intros k Hk. destruct (Nat.leb_spec i k); [lia|reflexivity]. }
  rewrite A, Rplus_0_l. assert (G : forall m s, i <= s -> lsum f (seq s m) = lsum (fun j => if i <=? j then f j else 0%R) (seq s m)); [|apply G; lia].
  induction m as [|m IH]; intros s Hs; [reflexivity|]. cbn [seq]. unfold lsum in *. cbn [fold_right]. rewrite IH by lia. destruct (Nat.leb_spec i s); [reflexivity|lia].
Qed.

Lemma rdot_map {A} (f g : A -> R) l : rdot (map f l) (map g l) = lsum (fun a => (f a * g a)%R) l.
Proof. induction l as [|a l IH]; [reflexivity|]. cbn. unfold lsum in *. now rewrite IH. Qed.

Lemma products_form n S d : symmetric n S -> rdot (products n d) (upper_of n S) = form n S d.
Proof.
  intros HS. unfold products, upper_of. rewrite rdot_map.
  set (h := fun i j => (d i * S i j * d j)%R).
  assert (Hs : forall i j, i < n -> j < n -> h i j = h j i) by (intros i j Hi Hj; unfold h; rewrite (HS i j) by assumption; lra).
  transitivity (rsum n (fun i => rsum n (fun j => if i <=? j then (if i <? j then 2 * h i j else h i j)%R else 0%R))).
  - unfold triu. rewrite lsum_flat_map, lsum_seq. apply rsum_ext. intros i Hi. rewrite lsum_map, Nat.add_0_r.
    rewrite <- (lsum_seq_from (fun j => if i <? j then (2 * h i j)%R else h i j) n i) by lia.
    apply lsum_ext. intros j. cbn [fst snd]. unfold h. destruct (i <? j); lra.
  - change (form n S d) with (rsum n (fun i => rsum n (fun j => h i j))).
    set (lo := fun i j => if j <? i then h i j else 0%R). set (up := fun i j => if i <? j then h i j else 0%R). set (di := fun i j => if i =? j then h i j else 0%R).
    transitivity (rsum n (fun i => rsum n (fun j => up i j)) + rsum n (fun i => rsum n (fun j => up i j)) + rsum n (fun i => rsum n (fun j => di i j)))%R.
    + rewrite <- !rsum_plus. apply rsum_ext. intros i Hi. rewrite <- !rsum_plus. apply rsum_ext. intros j Hj. unfold up, di.
      destruct (Nat.leb_spec i j), (Nat.ltb_spec i j), (Nat.eqb_spec i j); try lia; lra.
    + transitivity (rsum n (fun i => rsum n (fun j => lo i j)) + rsum n (fun i => rsum n (fun j => up i j)) + rsum n (fun i => rsum n (fun j => di i j)))%R.
      * f_equal. f_equal. rewrite (rsum_swap n n lo). apply rsum_ext. intros i Hi. apply rsum_ext. intros j Hj. unfold up, lo. destruct (i <? j); [now apply Hs|reflexivity].
      * rewrite <- !rsum_plus. apply rsum_ext. intros i Hi. rewrite <- !rsum_plus. apply rsum_ext. intros j Hj. unfold up, di, lo.
        destruct (Nat.ltb_spec j i), (Nat.ltb_spec i j), (Nat.eqb_spec i j); try lia; lra.
Qed.

Lemma error_same n X dissim pairs S : symmetric n S ->
  regression_error (map (fun ij => products n (fun a => (X (fst ij) a - X (snd ij) a)%R)) pairs)
    (map (fun ij => (dissim (fst ij) (snd ij) ^ 2)%R) pairs) (upper_of n S) = fit_error n X dissim pairs S.
Proof.
  intros HS. unfold regression_error, fit_error. induction pairs as [|p pairs IH]; [reflexivity|]. cbn [map combine fold_right fst snd]. rewrite IH.
  now rewrite (products_form n S) by assumption.
Qed.

(** ** The pairs used *)

Lemma kept_count {A} (l : list A) out : NoDup out -> (forall i, In i out -> i < length l) ->
  forall s, length (map snd (filter (fun ip => negb (existsb (Nat.eqb (fst ip)) (map (Nat.add s) out))) (combine (seq s (length l)) l))) + length out = length l.
Proof.
  intros N B s. rewrite map_length.
  assert (G : length (filter (fun i => negb (existsb (Nat.eqb i) (map (Nat.add s) out))) (seq s (length l))) + length out = length l).
  { assert (P : Permutation (map (Nat.add s) out ++ filter (fun i => negb (existsb (Nat.eqb i) (map (Nat.add s) out))) (seq s (length l))) (seq s (length l))).
    { apply NoDup_Permutation.
      - assert (N1 : NoDup (map (Nat.add s) out)) by (apply FinFun.Injective_map_NoDup; [intros x z E; lia|exact N]).
        assert (N2 : NoDup (filter (fun i => negb (existsb (Nat.eqb i) (map (Nat.add s) out))) (seq s (length l)))) by (apply NoDup_filter, seq_NoDup).
        assert (D : forall i, In i (map (Nat.add s) out) -> ~ In i (filter (fun i => negb (existsb (Nat.eqb i) (map (Nat.add s) out))) (seq s (length l)))).
        { intros i Hi Hf. apply filter_In in Hf as [_ Hf]. assert (E : existsb (Nat.eqb i) (map (Nat.add s) out) = true) by (apply existsb_exists; exists i; split; [exact Hi|apply Nat.eqb_refl]).
          rewrite E in Hf. discriminate. }
        revert N1 D. generalize (map (Nat.add s) out) at 1 2 4. induction l0 as [|a l0 IH]; intros N1 D; [exact N2|]. inversion N1; subst. cbn [app]. constructor.
        + intros Hin. apply in_app_iff in Hin as [Hin|Hin]; [contradiction|]. now apply (D a (or_introl eq_refl)).
        + apply IH; [assumption|]. intros i Hi. apply D. now right.
      - apply seq_NoDup.
      - intros i. rewrite in_app_iff, filter_In. split.
        + intros [Hi|[Hi _]]; [|exact Hi]. apply in_map_iff in Hi as (x & <- & Hx). apply B in Hx. apply in_seq. lia.
        + intros Hi. destruct (existsb (Nat.eqb i) (map (Nat.add s) out)) eqn:E; [left|right; split; [exact Hi|reflexivity]].
          apply existsb_exists in E as (x & Hx & E). apply Nat.eqb_eq in E as ->. exact Hx. }
    apply Permutation_length in P. rewrite app_length, map_length, seq_length in P. lia. }
  rewrite <- G at 2. f_equal. clear G N B. generalize (map (Nat.add s) out). intros o. revert s. induction l as [|a l IH]; intros s; [reflexivity|].
  cbn [length seq combine filter fst]. destruct (negb (existsb (Nat.eqb s) o)); cbn [length]; now rewrite IH.
Qed.

Lemma sub_nodup {A} (f : nat * A -> bool) (l : list A) : forall s, NoDup l -> NoDup (map snd (filter f (combine (seq s (length l)) l))) /\ (forall a, In a (map snd (filter f (combine (seq s (length l)) l))) -> In a l).
Proof.
  induction l as [|a l IH]; intros s N; [split; [constructor|intros a []]|]. inversion N as [|? ? N1 N2]; subst. destruct (IH (S s) N2) as [I1 I2].
  cbn [length seq combine filter]. destruct (f (s, a)); cbn [map snd].
  - split; [constructor; [intros H; apply N1, I2, H|exact I1]|]. intros b [<-|H]; [now left|right; now apply I2].
  - split; [exact I1|]. intros b H. right. now apply I2.
Qed.

Lemma pairs_used_ok permutation m n : Permutation (permutation (length (triu m 0))) (seq 0 (length (triu m 0))) ->
  NoDup (pairs_used permutation m n) /\ (forall i j, In (i, j) (pairs_used permutation m n) -> i <= j /\ j < m) /\ length (pairs_used permutation m n) = Nat.min (length (triu m 0)) (100 * length (triu n 0)).
Proof.
  intros HP. unfold pairs_used. destruct (Nat.ltb_spec (length (triu n 0) * 100) (length (triu m 0))) as [H|H].
  - set (f := fun ip : nat * (nat * nat) => _). destruct (sub_nodup f (triu m 0) 0 (triu_nodup m 0)) as [I1 I2].
    split; [exact I1|]. split; [intros i j Hin; apply I2, triu_in in Hin; lia|].
    set (out := skipn (length (triu n 0) * 100) (permutation (length (triu m 0)))).
    assert (N : NoDup (permutation (length (triu m 0)))) by (apply (Permutation_NoDup (Permutation_sym HP)), seq_NoDup).
    assert (No : NoDup out).
    { unfold out. rewrite <- (firstn_skipn (length (triu n 0) * 100) (permutation (length (triu m 0)))) in N. clear -N. induction (firstn (length (triu n 0) * 100) (permutation (length (triu m 0)))) as [|a l IH]; [exact N|]. inversion N; auto. }
    assert (Bo : forall i, In i out -> i < length (triu m 0)).
    { intros i Hi. assert (In i (permutation (length (triu m 0)))) by (rewrite <- (firstn_skipn (length (triu n 0) * 100) (permutation (length (triu m 0)))); apply in_app_iff; now right).
      apply (Permutation_in _ HP) in H0. apply in_seq in H0. lia. }
    pose proof (kept_count (triu m 0) out No Bo 0) as K. rewrite (map_ext (Nat.add 0) (fun x => x)), map_id in K by reflexivity.
    assert (Lo : length out = length (triu m 0) - length (triu n 0) * 100) by (unfold out; rewrite skipn_length, (Permutation_length HP), seq_length; reflexivity).
    unfold f. fold out. lia.
  - split; [apply triu_nodup|]. split; [intros i j Hin; apply triu_in in Hin; lia|]. lia.
Qed.

Lemma construct_ok eigh permutation regress m n eps X dissim :
  (forall M, symmetric n M -> eigen n M (eigh n M)) ->
  Permutation (permutation (length (triu m 0))) (seq 0 (length (triu m 0))) ->
  (forall F t, Forall (fun f => length f = length (triu n 0)) F -> length F = length t -> least (length (triu n 0)) F t (regress F t)) ->
  exists T S pairs, construct_tensor eigh permutation regress m n eps X dissim = Ok T /\   NoDup pairs /\ (forall i j, In (i, j) pairs -> i <= j /\ j < m) /\   length pairs = Nat.min (length (triu m 0)) (100 * length (triu n 0)) /\   symmetric n S /\ (forall S', symmetric n S' -> (fit_error n X dissim pairs S <= fit_error n X dissim pairs S')%R) /\   lifts n eps S T.
Proof.
  intros HE HP HR. unfold construct_tensor. set (pairs := pairs_used permutation m n).
  set (F := map _ pairs). set (t := map _ pairs).
  destruct (HR F t) as [L M].
  { unfold F. apply Forall_forall. intros f Hf. apply in_map_iff in Hf as (p & <- & _). unfold products. now rewrite map_length. }
  { unfold F, t. now rewrite !map_length. }
  destruct (from_upper_ok n (regress F t) L) as (S & E & HS & U). unfold create_metric_tensor. rewrite E. cbn [bind].
  exists (fix_pd_matrix eigh n eps S), S, pairs. split; [reflexivity|]. destruct (pairs_used_ok permutation m n HP) as (P1 & P2 & P3). fold pairs in P1, P2, P3.
  repeat (split; [assumption|]). split; [|now apply fix_lifts, HE]. intros S' HS'.
  rewrite <- (error_same n X dissim pairs S HS), <- (error_same n X dissim pairs S' HS'). fold F. fold t. rewrite U. apply M. apply upper_of_length.
Qed.

Lemma fit_error_nonneg n X dissim pairs S : (0 <= fit_error n X dissim pairs S)%R.
Proof. unfold fit_error. induction pairs as [|p pairs IH]; cbn [fold_right]; [lra|]. pose proof (pow2_ge_0 (form n S (fun a => (X (fst p) a - X (snd p) a)%R) - dissim (fst p) (snd p) ^ 2)). lra. Qed.

Lemma fit_error_zero n X dissim pairs S : fit_error n X dissim pairs S = 0%R <->
  forall i j, In (i, j) pairs -> form n S (fun a => (X i a - X j a)%R) = (dissim i j ^ 2)%R.
Proof.
  induction pairs as [|p pairs IH]; [split; [intros _ i j []|reflexivity]|].
  change (fit_error n X dissim (p :: pairs) S) with ((form n S (fun a => (X (fst p) a - X (snd p) a)%R) - dissim (fst p) (snd p) ^ 2) ^ 2 + fit_error n X dissim pairs S)%R.
  pose proof (pow2_ge_0 (form n S (fun a => (X (fst p) a - X (snd p) a)%R) - dissim (fst p) (snd p) ^ 2)) as A. pose proof (fit_error_nonneg n X dissim pairs S) as B. split.
  - intros H i j [->|Hin]; [|apply IH; [lra|exact Hin]]. cbn [fst snd] in *. assert (E : ((form n S (fun a => (X i a - X j a)%R) - dissim i j ^ 2) ^ 2 = 0)%R) by lra.
    rewrite <- Rsqr_pow2 in E. apply Rsqr_0_uniq in E. lra.
  - intros H. rewrite (proj2 IH) by (intros; apply H; now right). destruct p as [i j]. cbn [fst snd]. rewrite (H i j (or_introl eq_refl)). ring.
Qed.

(** If some metric explains the dissimilarities, the tensor explains them too,
    unless it had to be lifted. *)
Lemma construct_exact n X dissim pairs S M : symmetric n M ->
  (forall i j, In (i, j) pairs -> form n M (fun a => (X i a - X j a)%R) = (dissim i j ^ 2)%R) ->
  (forall S', symmetric n S' -> (fit_error n X dissim pairs S <= fit_error n X dissim pairs S')%R) ->
  forall i j, In (i, j) pairs -> form n S (fun a => (X i a - X j a)%R) = (dissim i j ^ 2)%R.
Proof.
  intros HM HX HS. apply fit_error_zero. apply fit_error_zero in HX. specialize (HS M HM). pose proof (fit_error_nonneg n X dissim pairs S). lra.
Qed.
