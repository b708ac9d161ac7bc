(** Proofs about the score of DSMOTE. *)

From Coq Require Import List Reals Bool Arith Lia Lra.
From Verif Require Import Np ScoreModel SpecScore.
Import ListNotations.
Open Scope nat_scope.

(** ** Sums *)

Lemma tot_cons x l : tot (x :: l) = (x + tot l)%R.
Proof. reflexivity. Qed.
Lemma tot_nil : tot [] = 0%R.
Proof. reflexivity. Qed.
Lemma tot_app a b : tot (a ++ b) = (tot a + tot b)%R.
Proof. induction a as [|x a IH]; cbn [app]; rewrite ?tot_nil, ?tot_cons; [ring|]. rewrite IH. ring. Qed.
Lemma tot_plus {A} (f g : A -> R) l : tot (map (fun x => (f x + g x)%R) l) = (tot (map f l) + tot (map g l))%R.
Proof. induction l as [|x l IH]; cbn [map]; rewrite ?tot_nil, ?tot_cons; [ring|]. rewrite IH. ring. Qed.
Lemma tot_scale {A} c (f : A -> R) l : tot (map (fun x => (c * f x)%R) l) = (c * tot (map f l))%R.
Proof. induction l as [|x l IH]; cbn [map]; rewrite ?tot_nil, ?tot_cons; [ring|]. rewrite IH. ring. Qed.
Lemma tot_const {A} c (l : list A) : tot (map (fun _ => c) l) = (INR (length l) * c)%R.
Proof. induction l as [|x l IH]; [cbn [map length]; rewrite tot_nil; change (INR 0) with 0%R; ring|]. cbn [length map]. rewrite S_INR, tot_cons, IH. ring. Qed.
Lemma tot_le {A} (f g : A -> R) l : (forall x, In x l -> (f x <= g x)%R) -> (tot (map f l) <= tot (map g l))%R.
Proof.
  induction l as [|x l IH]; intros H; cbn [map]; rewrite ?tot_nil, ?tot_cons; [lra|]. pose proof (H x (or_introl eq_refl)).
  specialize (IH (fun y Hy => H y (or_intror Hy))). lra.
Qed.
Lemma tot_nonneg {A} (f : A -> R) l : (forall x, In x l -> (0 <= f x)%R) -> (0 <= tot (map f l))%R.
Proof. intros H. pose proof (tot_le (fun _ => 0%R) f l H) as G. rewrite tot_const in G. lra. Qed.
Lemma tot_member {A} (f : A -> R) l x : (forall y, In y l -> (0 <= f y)%R) -> In x l -> (f x <= tot (map f l))%R.
Proof.
  intros H Hx. induction l as [|y l IH]; [destruct Hx|]. cbn [map]. rewrite tot_cons.
  pose proof (tot_nonneg f l (fun z Hz => H z (or_intror Hz))). destruct Hx as [->|Hx].
  - lra.
  - specialize (IH (fun z Hz => H z (or_intror Hz)) Hx). pose proof (H y (or_introl eq_refl)). lra.
Qed.
Lemma sqr_nonneg x : (0 <= sqr x)%R.
Proof. unfold sqr. nra. Qed.
Lemma INR_pos {A} (l : list A) : l <> [] -> (0 < INR (length l))%R.
Proof. intros H. apply lt_0_INR. destruct l; [congruence|cbn; lia]. Qed.
Lemma avg_nonneg l : Forall (Rle 0) l -> (0 <= avg l)%R.
Proof.
  intros F. unfold avg. destruct l as [|x l]; [cbn; unfold Rdiv; rewrite Rmult_0_l; lra|].
  apply Rmult_le_pos; [|left; apply Rinv_0_lt_compat, INR_pos; discriminate].
  rewrite <- (map_id (x :: l)). apply tot_nonneg. now apply Forall_forall.
Qed.
Lemma avg_pos l x : Forall (Rle 0) l -> In x l -> (0 < x)%R -> (0 < avg l)%R.
Proof.
  intros F Hx P. rewrite Forall_forall in F. unfold avg. apply Rmult_lt_0_compat; [|apply Rinv_0_lt_compat, INR_pos; intros ->; destruct Hx].
  pose proof (tot_member (fun y => y) l x F Hx) as G. rewrite map_id in G. lra.
Qed.
Lemma avg_le {A} (f g : A -> R) l : (forall x, In x l -> (f x <= g x)%R) -> (avg (map f l) <= avg (map g l))%R.
Proof.
  intros H. unfold avg. rewrite !map_length. destruct l as [|x l]; [cbn; lra|].
  apply Rmult_le_compat_r; [left; apply Rinv_0_lt_compat, INR_pos; discriminate|]. now apply tot_le.
Qed.

Lemma map2_map {A B C D} (f : B -> C -> D) (a : A -> B) (b : A -> C) l : map2 f (map a l) (map b l) = map (fun x => f (a x) (b x)) l.
Proof. induction l as [|x l IH]; cbn; [reflexivity|now rewrite IH]. Qed.

Lemma row_seq dim (g : rrow) : length g = dim -> g = map (fun j => nth j g 0%R) (seq 0 dim).
Proof.
  intros <-. induction g as [|x g IH]; [reflexivity|]. cbn [length seq map nth]. f_equal. rewrite IH at 1. rewrite <- seq_shift, map_map. reflexivity.
Qed.

Lemma column_app j X g : column j (X ++ [g]) = column j X ++ [nth j g 0%R].
Proof. unfold column. now rewrite map_app. Qed.

(** ** The partial results *)

Definition psum (dim : nat) (X : list rrow) (r : R) : partial :=
  mk_partial (log_sum (partial_of dim X)) (sum1 (partial_of dim X)) (sum2 (partial_of dim X)) (all_sum (partial_of dim X)) r.

Lemma partial_add_psum dim X r g : length g = dim -> partial_add (psum dim X r) g = psum dim (X ++ [g]) (r + len2 g).
Proof.
  intros L. unfold partial_add, psum. cbn [log_sum sum1 sum2 all_sum norm2 partial_of].
  f_equal.
  - rewrite (row_seq dim g L) at 1. rewrite map_map, map2_map. apply map_ext. intros j. rewrite column_app, map_app, tot_app. cbn [map]. rewrite tot_cons, tot_nil. ring.
  - rewrite (row_seq dim g L) at 1. rewrite map2_map. apply map_ext. intros j. rewrite column_app, tot_app, tot_cons, tot_nil. ring.
  - rewrite (row_seq dim g L) at 1. rewrite map_map, map2_map. apply map_ext. intros j. rewrite column_app, map_app, tot_app. cbn [map]. rewrite tot_cons, tot_nil. ring.
  - rewrite concat_app, tot_app. cbn [concat]. now rewrite app_nil_r.
Qed.

Definition spread_of (kept gs : list rrow) : R := (tot (map sqr (concat kept)) + tot (map len2 gs))%R.

Lemma len2_sqr a : sqr (len2 a) = tot (map sqr a).
Proof. unfold len2, sqr at 1. apply sqrt_sqrt. apply tot_nonneg. intros x _. apply sqr_nonneg. Qed.

Lemma partials dim kept gs : Forall (fun g => length g = dim) gs ->
  fold_left partial_add gs (partial_of dim kept) = psum dim (kept ++ gs) (spread_of kept gs).
Proof.
  intros F. assert (E : partial_of dim kept = psum dim kept (spread_of kept [])).
  { unfold psum, spread_of, partial_of. cbn [log_sum sum1 sum2 all_sum]. f_equal. rewrite len2_sqr. cbn [map]. rewrite tot_nil. ring. }
  rewrite E. clear E. assert (G : forall a b, Forall (fun g : rrow => length g = dim) b ->
     fold_left partial_add b (psum dim (kept ++ a) (spread_of kept a)) = psum dim (kept ++ a ++ b) (spread_of kept (a ++ b))).
  { intros a b. revert a. induction b as [|g b IH]; intros a Fb; cbn [fold_left]; [now rewrite !app_nil_r|].
    inversion Fb; subst. rewrite partial_add_psum by reflexivity. rewrite <- app_assoc.
    replace (spread_of kept a + len2 g)%R with (spread_of kept (a ++ [g])).
    - rewrite IH by assumption. now rewrite <- !app_assoc.
    - unfold spread_of. rewrite map_app, tot_app. cbn [map]. rewrite tot_cons, tot_nil. ring. }
  specialize (G [] gs F). rewrite app_nil_r in G. exact G.
Qed.

(** ** The score *)

Lemma var_identity l : l <> [] -> var l = (tot (map sqr l) / INR (length l) - sqr (tot l / INR (length l)))%R.
Proof.
  intros Ne. pose proof (INR_pos l Ne) as P. unfold var. set (m := avg l). unfold avg at 1. rewrite map_length.
  assert (E : tot (map (fun x => sqr (x - m)) l) = (tot (map sqr l) + (-2 * m) * tot l + INR (length l) * sqr m)%R).
  { rewrite <- (tot_const (sqr m) l). rewrite <- (map_id l) at 3. rewrite <- (tot_scale (-2 * m)%R (fun x => x) l).
    rewrite <- tot_plus, <- tot_plus. f_equal. apply map_ext. intros x. unfold sqr. ring. }
  rewrite E. unfold m, avg, sqr. field. lra.
Qed.

Lemma concat_length_rect dim X : Forall (fun x : rrow => length x = dim) X -> length (concat X) = length X * dim.
Proof. induction 1 as [|x X L F IH]; [reflexivity|]. cbn. rewrite app_length, IH, L. reflexivity. Qed.

Lemma objective_psum dim X r mm vm : Forall (fun x => length x = dim) X -> X <> [] ->
  objective dim X (psum dim X r) mm vm = num_add (gdiv X (gmean dim X) (psum dim X r)) (fisher_of dim X mm vm).
Proof.
  intros F Ne. unfold objective. cbn [psum log_sum sum1 sum2 all_sum partial_of].
  f_equal.
  - unfold gmean. rewrite map_map. f_equal. apply map_ext. intros j. unfold avg, column. now rewrite !map_length.
  - unfold fisher, fisher_of. rewrite map_map, map2_map. 
    assert (EA : avg (concat X) = (tot (concat X) / (INR (length X) * INR dim))%R) by (unfold avg; now rewrite (concat_length_rect dim X F), mult_INR).
    rewrite EA.
    assert (EV : vars dim X = map (fun x => (tot (map sqr (column x X)) / INR (length X) - sqr (tot (column x X) / INR (length X)))%R) (seq 0 dim)).
    { unfold vars. apply map_ext. intros j. rewrite var_identity by (unfold column; destruct X; [congruence|discriminate]).
      unfold column. now rewrite !map_length. }
    rewrite EV. reflexivity.
Qed.

Lemma score_is dim kept gs mm vm : kept <> [] -> Forall (fun x => length x = dim) (kept ++ gs) ->
  objective dim (kept ++ gs) (fold_left partial_add gs (partial_of dim kept)) mm vm = score_of dim kept gs mm vm.
Proof.
  intros Ne F. assert (Fg : Forall (fun x : rrow => length x = dim) gs) by (apply Forall_app in F; tauto).
  rewrite (partials dim kept gs Fg), objective_psum; [reflexivity|assumption|]. destruct kept; [congruence|discriminate].
Qed.

(** ** Comparison with the documented objective *)

Lemma apart_expand a b : length a = length b ->
  tot (map2 (fun x y => sqr (x - y)) a b) = (tot (map sqr a) - 2 * inner a b + tot (map sqr b))%R.
Proof.
  revert b. induction a as [|x a IH]; intros [|y b] L; try discriminate; [unfold inner; cbn [map map2]; rewrite tot_nil; ring|]. injection L as L. specialize (IH b L).
  unfold inner in *. cbn [map map2]. rewrite !tot_cons, IH. unfold sqr. ring.
Qed.

Lemma apart_sum_nonneg a b : (0 <= tot (map2 (fun x y => sqr (x - y)) a b))%R.
Proof.
  revert b. induction a as [|x a IH]; intros [|y b]; cbn [map2]; rewrite ?tot_nil, ?tot_cons; try lra. specialize (IH b). pose proof (sqr_nonneg (x - y)). lra.
Qed.

Lemma squares_by_column dim X : Forall (fun x : rrow => length x = dim) X ->
  tot (map sqr (concat X)) = tot (map (fun j => tot (map sqr (column j X))) (seq 0 dim)).
Proof.
  induction 1 as [|x X L F IH].
  - cbn [concat column map]. rewrite tot_nil, tot_const. ring.
  - cbn [concat]. rewrite map_app, tot_app, IH. rewrite (row_seq dim x L) at 1. rewrite map_map, <- tot_plus. reflexivity.
Qed.

Lemma gmean_length dim X : length (gmean dim X) = dim.
Proof. unfold gmean. now rewrite map_length, seq_length. Qed.

Lemma concat_squares X : tot (map sqr (concat X)) = tot (map (fun x => tot (map sqr x)) X).
Proof. induction X as [|x X IH]; [reflexivity|]. cbn [concat map]. rewrite map_app, tot_app, IH. reflexivity. Qed.

Lemma squares_nonneg x : (0 <= tot (map sqr x))%R.
Proof. apply tot_nonneg. intros a _. apply sqr_nonneg. Qed.

Lemma squares_bound dim kept gs x : positive_rows dim kept -> positive_rows dim gs -> Forall (below_some dim kept) gs ->
  In x (kept ++ gs) -> (tot (map sqr x) <= tot (map sqr (concat kept)))%R.
Proof.
  intros P1 P2 B Hx.
  assert (R1 : Forall (fun x : rrow => length x = dim) kept) by (eapply Forall_impl; [|exact P1]; cbn; tauto).
  unfold positive_rows in P1, P2. rewrite Forall_forall in P1, P2, B. apply in_app_or in Hx as [Hx|Hx].
  - rewrite concat_squares. exact (tot_member (fun x => tot (map sqr x)) kept x (fun y _ => squares_nonneg y) Hx).
  - rewrite (squares_by_column dim kept R1).
    destruct (P2 x Hx) as [L Px]. rewrite (row_seq dim x L) at 1. rewrite map_map. apply tot_le. intros j Hj. apply in_seq in Hj.
    destruct (B x Hx j ltac:(lia)) as (z & Hz & Le).
    assert (P : (0 < nth j x 0)%R). { rewrite Forall_forall in Px. apply Px. apply nth_In. lia. }
    apply Rle_trans with (sqr (nth j z 0%R)); [unfold sqr; nra|].
    unfold column. rewrite map_map. exact (tot_member (fun y => sqr (nth j y 0%R)) kept z (fun y _ => sqr_nonneg _) Hz).
Qed.

Lemma spread_bound dim kept gs x : positive_rows dim kept -> positive_rows dim gs -> Forall (below_some dim kept) gs ->
  In x (kept ++ gs) -> (tot (map sqr x) <= spread_of kept gs)%R.
Proof.
  intros P1 P2 B Hx. pose proof (squares_bound dim kept gs x P1 P2 B Hx).
  unfold spread_of. assert (N : (0 <= tot (map len2 gs))%R) by (apply tot_nonneg; intros; apply sqrt_pos). lra.
Qed.

Lemma spread_strict dim kept gs x : 1 <= dim -> gs <> [] -> positive_rows dim kept -> positive_rows dim gs -> Forall (below_some dim kept) gs ->
  In x (kept ++ gs) -> (tot (map sqr x) < spread_of kept gs)%R.
Proof.
  intros Hd Ne P1 P2 B Hx. pose proof (squares_bound dim kept gs x P1 P2 B Hx). unfold spread_of.
  destruct gs as [|g gs]; [congruence|]. cbn [map]. rewrite tot_cons.
  assert (N : (0 <= tot (map len2 gs))%R) by (apply tot_nonneg; intros; apply sqrt_pos).
  assert (0 < len2 g)%R; [|lra]. inversion P2 as [|? ? [Lg Pg] _]; subst. destruct g as [|a g]; [cbn in Hd; lia|].
  inversion Pg; subst. apply sqrt_lt_R0. cbn [map]. rewrite tot_cons. pose proof (squares_nonneg g). unfold sqr at 1. nra.
Qed.

Lemma avg_lt {A} (f g : A -> R) l : l <> [] -> (forall x, In x l -> (f x < g x)%R) -> (avg (map f l) < avg (map g l))%R.
Proof.
  intros Ne H. unfold avg. rewrite !map_length. apply Rmult_lt_compat_r; [apply Rinv_0_lt_compat; now apply INR_pos|].
  destruct l as [|x l]; [congruence|]. cbn [map]. rewrite !tot_cons. pose proof (H x (or_introl eq_refl)).
  pose proof (tot_le f g l (fun y Hy => Rlt_le _ _ (H y (or_intror Hy)))). lra.
Qed.

Lemma term_bound dim kept gs x : positive_rows dim kept -> positive_rows dim gs -> Forall (below_some dim kept) gs ->
  In x (kept ++ gs) -> let G := gmean dim (kept ++ gs) in
  (tot (map2 (fun x y => sqr (x - y)) x G) <= spread_of kept gs - 2 * inner x G + sqr (len2 G))%R.
Proof.
  intros P1 P2 B Hx G. pose proof (spread_bound dim kept gs x P1 P2 B Hx). rewrite apart_expand, len2_sqr; [lra|].
  unfold G. rewrite gmean_length. unfold positive_rows in *. rewrite Forall_forall in P1, P2.
  apply in_app_or in Hx as [Hx|Hx]; [apply P1|apply P2]; assumption.
Qed.

Lemma terms_ok dim kept gs : positive_rows dim kept -> positive_rows dim gs -> Forall (below_some dim kept) gs ->
  let G := gmean dim (kept ++ gs) in
  forallb (fun t => if Rle_dec 0 t then true else false) (map (fun x => (spread_of kept gs - 2 * inner x G + sqr (len2 G))%R) (kept ++ gs)) = true.
Proof.
  intros P1 P2 B G. apply forallb_forall. intros t Ht. apply in_map_iff in Ht as (x & <- & Hx).
  pose proof (term_bound dim kept gs x P1 P2 B Hx) as T. fold G in T. cbv zeta in T. pose proof (apart_sum_nonneg x G).
  destruct (Rle_dec _ _) as [_|N]; [reflexivity|lra].
Qed.

Lemma score_above dim kept gs mm vm : kept <> [] -> 1 <= dim -> gs <> [] -> positive_rows dim kept -> positive_rows dim gs -> Forall (below_some dim kept) gs ->
  num_exceeds (objective dim (kept ++ gs) (fold_left partial_add gs (partial_of dim kept)) mm vm) (documented dim (kept ++ gs) mm vm).
Proof.
  intros Ne Hd Ng P1 P2 B. rewrite score_is; [|assumption|].
  2: { apply Forall_app. split; [eapply Forall_impl; [|exact P1]|eapply Forall_impl; [|exact P2]]; cbn; tauto. }
  unfold score_of, documented. cbv zeta. pose proof (terms_ok dim kept gs P1 P2 B) as T. cbv zeta in T. unfold spread_of in T. rewrite T.
  rewrite map_map. set (G := gmean dim (kept ++ gs)).
  destruct (fisher_of dim (kept ++ gs) mm vm); cbn; auto. apply Rplus_lt_compat_r. apply avg_lt; [destruct kept; [congruence|discriminate]|].
  intros y Hy. unfold apart. apply sqrt_lt_1_alt. split; [apply apart_sum_nonneg|].
  pose proof (spread_strict dim kept gs y Hd Ng P1 P2 B Hy) as SS. unfold spread_of in SS. rewrite apart_expand, len2_sqr; [lra|].
  unfold G. rewrite gmean_length. unfold positive_rows in *. rewrite Forall_forall in P1, P2.
  apply in_app_or in Hy as [Hy|Hy]; [apply P1|apply P2]; assumption.
Qed.

(** ** The loop *)

Lemma largest l : l <> [] -> exists a : R, In a l /\ forall b, In b l -> (b <= a)%R.
Proof.
  induction l as [|x l IH]; intros Ne; [congruence|]. destruct l as [|y l].
  - exists x. split; [now left|]. intros b [<-|[]]. lra.
  - destruct (IH ltac:(discriminate)) as (a & Ha & M). destruct (Rle_dec x a) as [Le|Gt].
    + exists a. split; [now right|]. intros b [<-|Hb]; [assumption|auto].
    + exists x. split; [now left|]. intros b [<-|Hb]; [lra|]. specialize (M b Hb). lra.
Qed.

Lemma ln_mono a b : (0 < a)%R -> (a <= b)%R -> (ln a <= ln b)%R.
Proof. intros P [L|<-]; [left; now apply ln_increasing|lra]. Qed.

Lemma exp_mono a b : (a <= b)%R -> (exp a <= exp b)%R.
Proof. intros [L| ->]; [left; now apply exp_increasing|lra]. Qed.

Lemma gmean_below dim X : X <> [] -> positive_rows dim X -> below_some dim X (gmean dim X).
Proof.
  intros Ne P j Hj. unfold positive_rows in P. rewrite Forall_forall in P.
  assert (PC : forall b, In b (column j X) -> (0 < b)%R).
  { intros b Hb. apply in_map_iff in Hb as (x & <- & Hx). destruct (P x Hx) as [L F]. rewrite Forall_forall in F. apply F, nth_In. lia. }
  destruct (largest (column j X)) as (a & Ha & M). { unfold column. destruct X; [congruence|discriminate]. }
  pose proof Ha as Hin. apply in_map_iff in Hin as (x & Ex & Hx). exists x. split; [assumption|]. rewrite Ex.
  unfold gmean. rewrite (nth_indep _ 0%R ((fun j => exp (avg (map ln (column j X)))) 0)) by (now rewrite map_length, seq_length).
  rewrite (map_nth (fun j => exp (avg (map ln (column j X))))), seq_nth by assumption. cbn [plus].
  rewrite <- (exp_ln a) by auto. apply exp_mono. unfold avg. rewrite map_length.
  assert (PI : (0 < INR (length (column j X)))%R) by (apply INR_pos; intros E; rewrite E in Ha; destruct Ha).
  apply (Rmult_le_reg_r (INR (length (column j X)))); [assumption|]. unfold Rdiv. rewrite Rmult_assoc, Rinv_l, Rmult_1_r by lra.
  rewrite (Rmult_comm (ln a)), <- (tot_const (ln a) (column j X)). apply tot_le. intros b Hb. apply ln_mono; auto.
Qed.

Lemma gmean_positive dim X : length (gmean dim X) = dim /\ Forall (fun a => 0 < a)%R (gmean dim X).
Proof.
  split; [apply gmean_length|]. apply Forall_forall. intros a Ha. apply in_map_iff in Ha as (j & <- & _). apply exp_pos.
Qed.

Lemma below_trans dim kept X g : Forall (below_some dim kept) X -> below_some dim X g -> below_some dim kept g.
Proof.
  intros F B j Hj. destruct (B j Hj) as (x & Hx & L). rewrite Forall_forall in F. destruct (F x Hx j Hj) as (z & Hz & L2). exists z. split; [assumption|lra].
Qed.

Lemma below_self dim X : Forall (below_some dim X) X.
Proof. apply Forall_forall. intros x Hx j _. exists x. split; [assumption|lra]. Qed.

Lemma var_nonneg l : (0 <= var l)%R.
Proof. apply avg_nonneg. apply Forall_forall. intros x Hx. apply in_map_iff in Hx as (y & <- & _). apply sqr_nonneg. Qed.

Lemma vars_nonneg dim X : Forall (Rle 0) (vars dim X).
Proof. apply Forall_forall. intros x Hx. apply in_map_iff in Hx as (j & <- & _). apply var_nonneg. Qed.

Lemma varied_pos dim X : Forall (fun x : rrow => length x = dim) X -> varied X -> (0 < avg (vars dim X))%R.
Proof.
  intros F (x & z & Hx & Hz & D). rewrite Forall_forall in F.
  assert (E : exists j, j < dim /\ nth j x 0%R <> nth j z 0%R).
  { destruct (List.Exists_dec (fun j => nth j x 0%R <> nth j z 0%R) (seq 0 dim)) as [E|E].
    - intros j. destruct (Req_EM_T (nth j x 0%R) (nth j z 0%R)); [right; tauto|now left].
    - apply Exists_exists in E as (j & Hj & E). apply in_seq in Hj. exists j. split; [lia|assumption].
    - destruct D. rewrite (row_seq dim x (F x Hx)), (row_seq dim z (F z Hz)). apply map_ext_in. intros j Hj.
      destruct (Req_EM_T (nth j x 0%R) (nth j z 0%R)) as [G|G]; [assumption|]. destruct E. apply Exists_exists. exists j. auto. }
  destruct E as (j & Hj & E). apply (avg_pos _ (var (column j X))); [apply vars_nonneg| |].
  - apply in_map_iff. exists j. split; [reflexivity|]. apply in_seq. lia.
  - assert (G : forall y, In y X -> nth j y 0%R <> avg (column j X) -> (0 < var (column j X))%R).
    { intros y Hy N. unfold var. apply (avg_pos _ (sqr (nth j y 0%R - avg (column j X)))).
      - apply Forall_forall. intros t Ht. apply in_map_iff in Ht as (q & <- & _). apply sqr_nonneg.
      - apply in_map_iff. exists (nth j y 0%R). split; [reflexivity|]. apply in_map_iff. eauto.
      - unfold sqr. nra. }
    destruct (Req_EM_T (nth j x 0%R) (avg (column j X))) as [A|A]; [|eauto]. apply (G z Hz). congruence.
Qed.

Lemma fisher_number dim X mm vm : (0 < avg (vars dim X) + vm)%R -> exists q, fisher_of dim X mm vm = Fin q /\ (0 <= q)%R.
Proof.
  intros P. unfold fisher_of. destruct (Req_EM_T _ 0) as [E|_]; [lra|]. eexists. split; [reflexivity|].
  apply Rmult_le_pos; [apply sqr_nonneg|]. left. now apply Rinv_0_lt_compat.
Qed.

Lemma score_positive dim kept gs mm vm : 1 <= dim -> 2 <= length kept -> positive_rows dim kept -> positive_rows dim gs -> Forall (below_some dim kept) gs ->
  (0 < avg (vars dim (kept ++ gs)) + vm)%R -> exists q, score_of dim kept gs mm vm = Fin q /\ (0 < q)%R.
Proof.
  intros Hd L P1 P2 B V. unfold score_of. cbv zeta. pose proof (terms_ok dim kept gs P1 P2 B) as T. cbv zeta in T. unfold spread_of in T. rewrite T.
  destruct (fisher_number dim (kept ++ gs) mm vm V) as (f & -> & Hf). cbn [num_add]. eexists. split; [reflexivity|].
  enough (0 < avg (map sqrt (map (fun x => (tot (map sqr (concat kept)) + tot (map len2 gs) - 2 * inner x (gmean dim (kept ++ gs)) + sqr (len2 (gmean dim (kept ++ gs))))%R) (kept ++ gs))))%R by lra.
  rewrite map_map. destruct kept as [|x [|z kept]]; try (cbn in L; lia). set (K := x :: z :: kept) in *. set (G := gmean dim (K ++ gs)).
  set (f0 := fun x0 => sqrt (tot (map sqr (concat K)) + tot (map len2 gs) - 2 * inner x0 G + sqr (len2 G))).
  apply (avg_pos _ (f0 x)).
  - apply Forall_forall. intros t Ht. apply in_map_iff in Ht as (y & <- & _). apply sqrt_pos.
  - apply in_map_iff. exists x. split; [reflexivity|]. apply in_or_app. left. now left.
  - unfold f0. apply sqrt_lt_R0. pose proof (apart_sum_nonneg x G) as A.
    unfold positive_rows in P1. inversion P1 as [|? ? [Lx Px] P1']; subst. inversion P1' as [|? ? [Lz Pz] _]; subst.
    rewrite apart_expand in A by (unfold G; rewrite gmean_length; lia). rewrite len2_sqr.
    assert (N : (0 <= tot (map len2 gs))%R) by (apply tot_nonneg; intros; apply sqrt_pos).
    rewrite concat_squares. unfold K. cbn [map]. rewrite !tot_cons.
    pose proof (tot_nonneg (fun x => tot (map sqr x)) kept (fun y _ => squares_nonneg y)).
    assert (0 < tot (map sqr z))%R.
    { destruct z as [|a z]; [cbn in Lz; lia|]. inversion Pz; subst. cbn [map]. rewrite tot_cons. pose proof (squares_nonneg z). unfold sqr at 1. nra. }
    lra.
Qed.

Definition three_of (draw : nat -> nat -> nat -> list nat) (dim : nat) (X : list rrow) (a : nat) (g : rrow) : Prop :=
  exists s, g = gmean dim (map (fun i => nth i X []) (draw a s (length X))).

Lemma one_sample_ok draw n_step dim X mm vm p a (score : rrow -> num) : 3 <= length X -> 1 <= n_step ->
  (forall g, three_of draw dim X a g -> objective dim (X ++ [g]) (partial_add p g) mm vm = score g) ->
  (forall g, three_of draw dim X a g -> exists q, score g = Fin q /\ (0 < q)%R) ->
  exists g, one_sample draw n_step dim X mm vm p a = Some (g, partial_add p g) /\ three_of draw dim X a g.
Proof.
  intros L Hn HS HP. unfold one_sample. cbv zeta. set (m := length X) in *.
  assert (G : forall ss b, (exists g, snd b = Some (g, partial_add p g) /\ three_of draw dim X a g) ->
     exists g, snd (fold_left (one_try draw dim X mm vm p a) ss b) = Some (g, partial_add p g) /\ three_of draw dim X a g).
  { induction ss as [|s ss IH]; intros b Hb; [exact Hb|]. cbn [fold_left]. apply IH. unfold one_try. cbv zeta.
    destruct (num_gt _ _); [|exact Hb]. eexists. split; [reflexivity|]. now exists s. }
  destruct (Nat.min (m * (m - 1) * (m - 2)) n_step) as [|k] eqn:E.
  { assert (1 <= m * (m - 1) * (m - 2)). { destruct m as [|[|[|m]]]; try lia. } lia. }
  cbn [seq fold_left]. apply G. unfold one_try. cbv zeta. fold m. set (g := gmean dim (map (fun i => nth i X []) (draw a 0 m))).
  assert (Hg : three_of draw dim X a g) by now exists 0.
  rewrite (HS g Hg). destruct (HP g Hg) as (q & -> & Hq). cbn [fst num_gt]. destruct (Rlt_dec 0 q) as [_|N]; [|lra].
  exists g. split; [reflexivity|assumption].
Qed.

Lemma num_gt_trans t b n : num_gt t b = false -> num_gt n b = true -> num_gt t n = false.
Proof.
  destruct t as [t| |], b as [b| |], n as [n| |]; cbn; try reflexivity; try discriminate.
  destruct (Rlt_dec b t); [discriminate|]. destruct (Rlt_dec b n); [|discriminate]. destruct (Rlt_dec n t); [lra|reflexivity].
Qed.
Lemma num_gt_self t : num_gt t t = false.
Proof. destruct t as [t| |]; cbn; try reflexivity. destruct (Rlt_dec t t); [lra|reflexivity]. Qed.

Lemma one_sample_best draw n_step dim X mm vm p a g p' :
  let m := length X in
  let cand s := gmean dim (map (fun i => nth i X []) (draw a s m)) in
  let tries := Nat.min (m * (m - 1) * (m - 2)) n_step in
  let score g := objective dim (X ++ [g]) (partial_add p g) mm vm in
  one_sample draw n_step dim X mm vm p a = Some (g, p') ->
  (exists s, s < tries /\ g = cand s) /\ forall s, s < tries -> num_gt (score (cand s)) (score g) = false.
Proof.
  intros m cand tries score E0.
  assert (E : snd (fold_left (one_try draw dim X mm vm p a) (seq 0 tries) (Fin 0, None)) = Some (g, p')) by exact E0.
  assert (G : forall n, let b := fold_left (one_try draw dim X mm vm p a) (seq 0 n) (Fin 0, None) in
    (b = (Fin 0, None) /\ forall s, s < n -> num_gt (score (cand s)) (Fin 0) = false) \/
    (exists s, s < n /\ b = (score (cand s), Some (cand s, partial_add p (cand s))) /\ forall s', s' < n -> num_gt (score (cand s')) (score (cand s)) = false)).
  { intros n. induction n as [|n IH]; cbv zeta; [left; split; [reflexivity|lia]|].
    rewrite seq_S, fold_left_app. cbn [fold_left Nat.add]. cbv zeta in IH. set (b := fold_left _ (seq 0 n) _) in *.
    assert (Eo : one_try draw dim X mm vm p a b n = if num_gt (score (cand n)) (fst b) then (score (cand n), Some (cand n, partial_add p (cand n))) else b) by reflexivity.
    rewrite Eo. clear Eo.
    destruct (num_gt (score (cand n)) (fst b)) eqn:Gt.
    - right. exists n. split; [lia|]. split; [reflexivity|]. intros s Hs. destruct (Nat.eq_dec s n) as [->|Ns]; [apply num_gt_self|].
      destruct IH as [[Eb IH]|(s0 & Hs0 & Eb & IH)]; rewrite Eb in Gt; cbn [fst] in Gt; eapply num_gt_trans; try exact Gt; apply IH; lia.
    - destruct IH as [[Eb IH]|(s0 & Hs0 & Eb & IH)]; rewrite Eb in Gt |- *; cbn [fst] in Gt.
      + left. split; [reflexivity|]. intros s Hs. destruct (Nat.eq_dec s n) as [->|Ns]; [exact Gt|apply IH; lia].
      + right. exists s0. split; [lia|]. split; [reflexivity|]. intros s Hs. destruct (Nat.eq_dec s n) as [->|Ns]; [exact Gt|apply IH; lia]. }
  destruct (G tries) as [[Eb _]|(s & Hs & Eb & M)]; rewrite Eb in E; [discriminate E|]. cbn [snd] in E. injection E as <- _.
  split; [now exists s|exact M].
Qed.

Lemma varied_app X Y : varied X -> varied (X ++ Y).
Proof. intros (x & z & Hx & Hz & D). exists x, z. repeat split; auto; apply in_or_app; now left. Qed.

Lemma grow_ok draw n_step dim kept mm vm : draw_ok draw -> 1 <= dim -> 3 <= length kept -> 1 <= n_step -> positive_rows dim kept ->
  (varied kept /\ (0 <= vm)%R \/ (0 < vm)%R) ->
  forall more gs, positive_rows dim gs -> Forall (below_some dim kept) gs -> means_of_three dim kept gs ->
  exists new, grow draw n_step dim mm vm more (length gs) (kept ++ gs) (psum dim (kept ++ gs) (spread_of kept gs)) = Ok (kept ++ gs ++ new) /\
    length new = more /\ means_of_three dim kept (gs ++ new) /\ best_tries draw n_step dim kept mm vm (length gs) (gs ++ new).
Proof.
  intros Hdr Hd L Hn P1 HV. induction more as [|more IH]; intros gs P2 B M.
  - exists []. rewrite !app_nil_r. split; [reflexivity|]. split; [reflexivity|]. split; [exact M|]. intros k Hk. lia.
  - cbn [grow]. set (X := kept ++ gs). set (p := psum dim X (spread_of kept gs)).
    assert (PX : positive_rows dim X) by (apply Forall_app; split; assumption).
    assert (LX : 3 <= length X) by (unfold X; rewrite app_length; lia).
    assert (BX : Forall (below_some dim kept) X) by (apply Forall_app; split; [apply below_self|assumption]).
    assert (Hg : forall g, three_of draw dim X (length gs) g -> (length g = dim /\ Forall (fun a => 0 < a)%R g) /\ below_some dim kept g /\
       exists i j l, NoDup [i; j; l] /\ Forall (fun i => i < length X) [i; j; l] /\ g = gmean dim [nth i X []; nth j X []; nth l X []]).
    { intros g (s & ->). split; [apply gmean_positive|]. destruct (Hdr (length gs) s (length X) LX) as (D1 & D2 & D3).
      set (ids := draw (length gs) s (length X)) in *. split.
      - apply (below_trans dim kept X); [assumption|]. intros j Hj.
        destruct (gmean_below dim (map (fun i => nth i X []) ids)) with (j := j) as (x & Hx & Le); [|  |assumption|].
        + destruct ids; [discriminate D1|discriminate].
        + apply Forall_forall. intros x Hx. apply in_map_iff in Hx as (i & <- & Hi). rewrite Forall_forall in D3.
          unfold positive_rows in PX. rewrite Forall_forall in PX. apply PX, nth_In. auto.
        + exists x. split; [|assumption]. apply in_map_iff in Hx as (i & <- & Hi). rewrite Forall_forall in D3. apply nth_In. auto.
      - destruct ids as [|i [|j [|l [|]]]]; try discriminate D1. exists i, j, l. auto. }
    assert (HS : forall g, three_of draw dim X (length gs) g -> objective dim (X ++ [g]) (partial_add p g) mm vm = score_of dim kept (gs ++ [g]) mm vm).
    { intros g Tg. destruct (Hg g Tg) as ([Lg _] & _). rewrite <- score_is.
      * rewrite partials.
        2: { apply Forall_app. split; [eapply Forall_impl; [|exact P2]; cbn; tauto|]. now constructor. }
        unfold p. rewrite partial_add_psum by assumption. unfold X. rewrite <- !app_assoc. f_equal. f_equal. unfold spread_of. rewrite map_app, tot_app. cbn [map]. rewrite tot_cons, tot_nil. ring.
      * destruct kept; [cbn in L; lia|discriminate].
      * rewrite app_assoc. apply Forall_app. split; [eapply Forall_impl; [|exact PX]; cbn; tauto|]. now constructor. }
    assert (HP : forall g, three_of draw dim X (length gs) g -> exists q, score_of dim kept (gs ++ [g]) mm vm = Fin q /\ (0 < q)%R).
    { intros g Tg. destruct (Hg g Tg) as (Pg & Bg & _). apply score_positive; try assumption; try lia.
      * apply Forall_app. split; [assumption|]. now constructor.
      * apply Forall_app. split; [assumption|]. now constructor.
      * pose proof (avg_nonneg _ (vars_nonneg dim (kept ++ gs ++ [g]))). destruct HV as [[V N]|V]; [|lra].
        assert (0 < avg (vars dim (kept ++ gs ++ [g])))%R; [|lra]. apply varied_pos; [|now apply varied_app].
        rewrite app_assoc. apply Forall_app. split; [eapply Forall_impl; [|exact PX]; cbn; tauto|]. constructor; [apply Pg|constructor]. }
    destruct (one_sample_ok draw n_step dim X mm vm p (length gs) (fun g => score_of dim kept (gs ++ [g]) mm vm) LX Hn HS HP) as (g & Eg & Tg).
    pose proof (one_sample_best draw n_step dim X mm vm p (length gs) g _ Eg) as [Bt1 Bt2].
    { rewrite Eg. destruct (Hg g Tg) as (Pg & Bg & Mg).
      destruct (IH (gs ++ [g])) as (new & En & Ln & Mn & Bn).
      * apply Forall_app. split; [assumption|]. now constructor.
      * apply Forall_app. split; [assumption|]. now constructor.
      * intros k Hk. rewrite app_length in Hk. cbn in Hk. destruct (Nat.eq_dec k (length gs)) as [->|Nk].
        -- destruct Mg as (i & j & l & N & F & ->). exists i, j, l. split; [assumption|].
           unfold X in F. rewrite app_length in F. split; [assumption|]. rewrite app_nth2, Nat.sub_diag by lia. cbn [nth].
           inversion F as [|? ? F1 F']; subst. inversion F' as [|? ? F2 F'']; subst. inversion F'' as [|? ? F3 _]; subst.
           rewrite !app_assoc. fold X. rewrite !(app_nth1 X) by (unfold X; rewrite app_length; assumption). reflexivity.
        -- destruct (M k ltac:(lia)) as (i & j & l & N & F & E). exists i, j, l. split; [assumption|]. split; [assumption|].
           rewrite app_nth1 by lia. rewrite E.
           inversion F as [|? ? F1 F']; subst. inversion F' as [|? ? F2 F'']; subst. inversion F'' as [|? ? F3 _]; subst.
           rewrite !app_assoc. rewrite !(app_nth1 (kept ++ gs)) by (rewrite app_length; lia). reflexivity.
      * exists (g :: new). rewrite app_length in En. cbn in En. rewrite Nat.add_1_r in En.
        rewrite <- app_assoc in En, Mn, Bn. cbn [app] in En, Mn, Bn.
        split; [|split; [cbn; lia|split; [exact Mn|]]].
        2: { intros k Hk. destruct (Nat.eq_dec k (length gs)) as [->|Nk]; [|apply Bn; rewrite app_length; cbn; lia].
          cbv zeta. rewrite firstn_app, Nat.sub_diag, firstn_all, firstn_O, app_nil_r. fold X.
          rewrite app_nth2, Nat.sub_diag by lia. cbn [nth]. split; [exact Bt1|]. intros s Hs. specialize (Bt2 s Hs).
          set (c := gmean dim (map (fun i => nth i X []) (draw (length gs) s (length X)))) in *.
          assert (Tc : three_of draw dim X (length gs) c) by now exists s.
          assert (Bt3 : num_gt (objective dim (X ++ [c]) (partial_add p c) mm vm) (objective dim (X ++ [g]) (partial_add p g) mm vm) = false) by exact Bt2.
          rewrite (HS c Tc), (HS g Tg) in Bt3. destruct (HP c Tc) as (qc & Ec & _). destruct (HP g Tg) as (qg & Eqg & _).
          clear Bt2. rewrite Ec, Eqg in Bt3 |- *. cbn in Bt3 |- *. destruct (Rlt_dec qg qc); [discriminate|lra]. }
        unfold p. rewrite partial_add_psum by apply Pg. unfold X. rewrite <- app_assoc.
        replace (spread_of kept gs + len2 g)%R with (spread_of kept (gs ++ [g])); [rewrite <- ?app_assoc; exact En|].
        unfold spread_of. rewrite map_app, tot_app. cbn [map]. rewrite tot_cons, tot_nil. ring. }
Qed.

Lemma sampling_total draw n_step dim X_maj X_min n : draw_ok draw -> 1 <= dim -> 3 <= length X_min -> 1 <= n_step -> positive_rows dim X_min ->
  Forall (fun x => length x = dim) X_maj -> varied X_min \/ varied X_maj ->
  exists new, ds_sampling draw n_step dim X_maj X_min n = Ok (X_min ++ new) /\ length new = n /\ means_of_three dim X_min new /\
    best_tries draw n_step dim X_min (avg (concat X_maj)) (avg (vars dim X_maj)) 0 new.
Proof.
  intros Hdr Hd L Hn P RM HV. unfold ds_sampling. pose proof (avg_nonneg _ (vars_nonneg dim X_maj)) as NV.
  destruct (grow_ok draw n_step dim X_min (avg (concat X_maj)) (avg (vars dim X_maj)) Hdr Hd L Hn P) with (more := n) (gs := @nil rrow) as (new & E & Ln & M & B).
  - destruct HV as [V|V]; [left; auto|right; now apply varied_pos].
  - constructor.
  - constructor.
  - intros k Hk. cbn in Hk. lia.
  - exists new. cbn [length] in E. rewrite app_nil_r in E. cbn [app] in *. rewrite <- E. split; [|split; [exact Ln|split; [exact M|exact B]]]. f_equal.
    change (partial_of dim X_min) with (fold_left partial_add [] (partial_of dim X_min)). rewrite partials by constructor. now rewrite app_nil_r.
Qed.

(** ** Equal rows *)

Lemma avg_const {A} c (l : list A) : l <> [] -> avg (map (fun _ => c) l) = c.
Proof. intros Ne. unfold avg. rewrite tot_const, map_length. pose proof (INR_pos l Ne). field. lra. Qed.

Lemma gmean_equal a b : (0 < a)%R -> (0 < b)%R -> gmean 2 [[a; b]; [a; b]; [a; b]] = [a; b].
Proof.
  intros Ha Hb. unfold gmean. cbn [seq map column nth].
  change [ln a; ln a; ln a] with (map (fun _ : nat => ln a) [0; 1; 2]). change [ln b; ln b; ln b] with (map (fun _ : nat => ln b) [0; 1; 2]).
  rewrite !avg_const, !exp_ln by (assumption || discriminate). reflexivity.
Qed.

Lemma var_const c : var [c; c; c; c] = 0%R.
Proof.
  unfold var. change [c; c; c; c] with (map (fun _ : nat => c) [0; 1; 2; 3]). rewrite avg_const by discriminate. rewrite map_map.
  rewrite avg_const by discriminate. unfold sqr. ring.
Qed.

Lemma equal_rows_fail : ds_sampling (fun _ _ _ => [0; 1; 2]) 1 2 [[2; 1]]%R [[1; 2]; [1; 2]; [1; 2]]%R 1 = Err ValueError.
Proof.
  unfold ds_sampling. cbn [grow]. unfold one_sample. cbn [length Nat.mul Nat.sub Nat.add Nat.min seq fold_left]. unfold one_try. cbn [map nth].
  rewrite gmean_equal by lra. set (kept := [[1; 2]; [1; 2]; [1; 2]]%R). set (mm := avg (concat [[2; 1]]%R)). set (vm := avg (vars 2 [[2; 1]]%R)).
  set (o := objective _ _ _ _ _).
  assert (E : o = score_of 2 kept [[1; 2]]%R mm vm) by exact (score_is 2 kept [[1; 2]]%R mm vm ltac:(discriminate) ltac:(repeat constructor)).
  clearbody o. subst o.
  assert (EF : fisher_of 2 (kept ++ [[1; 2]]%R) mm vm = NaN).
  { unfold fisher_of. assert (E1 : avg (concat (kept ++ [[1; 2]]%R)) = mm).
    { unfold mm, avg, tot. cbn. lra. }
    assert (E2 : avg (vars 2 (kept ++ [[1; 2]]%R)) = 0%R).
    { unfold vars, kept. cbn [seq map column app nth]. rewrite !var_const. unfold avg, tot. cbn. lra. }
    assert (E3 : vm = 0%R).
    { unfold vm, vars, var, avg, tot, sqr. cbn. lra. }
    rewrite E1, E2, E3. destruct (Req_EM_T (0 + 0) 0) as [_|N]; [|lra]. destruct (Req_EM_T _ 0) as [_|N]; [reflexivity|]. unfold sqr in N. lra. }
  unfold score_of. cbv zeta. set (f := fisher_of _ _ _ _). assert (Ef : f = NaN) by exact EF. rewrite Ef. destruct (if forallb _ _ then _ else _); reflexivity.
Qed.
