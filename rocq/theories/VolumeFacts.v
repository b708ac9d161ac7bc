(** Proofs about the volumes of simplices. *)

From mathcomp Require Import ssreflect ssrfun ssrbool eqtype ssrnat seq choice fintype finfun bigop order binomial fingroup perm ssralg zmodp ssrnum matrix mxalgebra.
From Verif Require Import VolumeModel SpecVolume.
Import Order.TTheory GRing.Theory Num.Theory.
Local Open Scope ring_scope.

Section FACTS.
Variable F : rcfType.

Lemma sq_ge0 n (u : 'rV[F]_n) : 0 <= (u *m u^T) 0 0.
Proof. rewrite mxE. apply: sumr_ge0 => j _. by rewrite mxE -expr2 sqr_ge0. Qed.

Lemma sq_zero n (u : 'rV[F]_n) : (u *m u^T) 0 0 = 0 -> u = 0.
Proof.
  rewrite mxE => /eqP. rewrite psumr_eq0; last by move=> j _; rewrite mxE -expr2 sqr_ge0.
  move=> /allP H. apply/rowP => j. rewrite mxE. have := H j (mem_index_enum _). by rewrite /= mxE mulf_eq0 orbb => /eqP.
Qed.

(** A Gram determinant is not negative. *)
Lemma gram_ge0 m c (A : 'M[F]_(m, c)) : 0 <= \det (A *m A^T).
Proof.
  elim: m A => [|m IH] A; first by rewrite det_mx00 ler01.
  pose u : 'rV_c := usubmx (A : 'M_(1 + m, c)). pose M : 'M_(m, c) := dsubmx (A : 'M_(1 + m, c)).
  have EA : A = col_mx u M by rewrite vsubmxK.
  pose a := (u *m u^T) 0 0. have Ea : u *m u^T = a%:M by rewrite [LHS]mx11_scalar.
  have a0 : 0 <= a := sq_ge0 _ u.
  pose k : 'M_(m, 1) := a^-1 *: (M *m u^T). pose L : 'M_(1 + m) := block_mx 1%:M 0 (- k) 1%:M.
  have dL : \det L = 1 by rewrite det_lblock !det1 mulr1.
  have LA : L *m A = col_mx u (M - k *m u) :> 'M_(1 + m, c).
    by rewrite EA mul_block_col mul1mx mul0mx addr0 mul1mx mulNmx addrC.
  have -> : \det (A *m A^T) = \det ((L *m A) *m (L *m A)^T).
    by rewrite trmx_mul mulmxA -(mulmxA L) !det_mulmx det_tr dL mul1r mulr1.
  rewrite LA tr_col_mx mul_col_row.
  have K : (M - k *m u) *m u^T = 0.
    rewrite mulmxBl -mulmxA Ea mul_mx_scalar scalerA.
    have [az|an] := eqVneq a 0; last by rewrite mulfV // scale1r subrr.
    by rewrite (sq_zero _ u az) trmx0 mulmx0 scaler0 subrr.
  rewrite K det_ublock Ea det_scalar1. by apply: mulr_ge0.
Qed.

(** It is 0 exactly if the rows are dependent. *)
Lemma gram_eq0 m c (A : 'M[F]_(m, c)) : \det (A *m A^T) = 0 <-> exists2 v : 'rV_m, v != 0 & v *m A = 0.
Proof.
  split.
  - move=> /eqP /det0P [v v0 E]. exists v => //. apply: sq_zero. by rewrite trmx_mul mulmxA -(mulmxA v) E mul0mx mxE.
  - move=> [v v0 E]. apply/eqP/det0P. exists v => //. by rewrite mulmxA E mul0mx.
Qed.

Lemma volume_defined n c (s : 'M[F]_(n.+1, c)) : simplex_volume s = Some (Num.sqrt (\det (edges s *m (edges s)^T)) / (n`!)%:R).
Proof. by rewrite /simplex_volume gram_ge0. Qed.

Lemma fact_gt0F n : 0 < (n`!)%:R :> F.
Proof. by rewrite ltr0n fact_gt0. Qed.

Lemma volume_ge0 n c (s : 'M[F]_(n.+1, c)) : exists2 v, simplex_volume s = Some v & 0 <= v.
Proof. rewrite volume_defined. eexists; first by []. apply: divr_ge0; [exact: sqrtr_ge0|exact/ltW/fact_gt0F]. Qed.

Lemma volume_zero n c (s : 'M[F]_(n.+1, c)) : simplex_volume s = Some 0 <-> \det (edges s *m (edges s)^T) = 0.
Proof.
  rewrite volume_defined. split=> [[E]|->]; last by rewrite sqrtr0 mul0r.
  have := gram_ge0 _ _ (edges s). move: E => /eqP. rewrite mulf_eq0 invr_eq0 (gt_eqF (fact_gt0F n)) orbF sqrtr_eq0 => H1 H2.
  by apply/eqP; rewrite eq_le H1 H2.
Qed.

Lemma edges_mul n c (s : 'M[F]_(n.+1, c)) (v : 'rV[F]_n) j : (v *m edges s) 0 j = \sum_i v 0 i * s (widen_ord (leqnSn n) i) j - (\sum_i v 0 i) * s ord_max j.
Proof. rewrite mxE mulr_suml -sumrB. apply: eq_bigr => i _. by rewrite mxE mulrBr. Qed.

Lemma widen_lift n (i : 'I_n) : widen_ord (leqnSn n) i = lift ord_max i.
Proof. by apply: val_inj; rewrite /= /bump leqNgt ltn_ord. Qed.

Lemma volume_dependent n c (s : 'M[F]_(n.+1, c)) : simplex_volume s = Some 0 <-> dependent s.
Proof.
  rewrite volume_zero gram_eq0. split.
  - move=> [v v0 E]. exists (fun i => if unlift ord_max i is Some k then v 0 k else - \sum_k v 0 k). split.
    + have [k vk] : exists k, v 0 k != 0.
        apply/existsP. apply: contraR v0. rewrite negb_exists => /forallP H. apply/eqP/rowP => k. rewrite mxE. apply/eqP. by rewrite -[_ == _]negbK; apply: H.
      exists (lift ord_max k). by rewrite liftK.
    + rewrite big_ord_recr /= unlift_none. rewrite (eq_bigr (fun i => v 0 i)) ?subrr // => i _.
      by rewrite widen_lift liftK.
    + move=> j. rewrite big_ord_recr /= unlift_none mulNr. rewrite (eq_bigr (fun i => v 0 i * s (widen_ord (leqnSn n) i) j)); last first.
        move=> i _. by rewrite widen_lift liftK.
      by rewrite -edges_mul E mxE.
  - move=> [w [[i wi] S C]]. exists (\row_k w (widen_ord (leqnSn n) k)).
    + apply: contraNneq wi => V. have H k : w (widen_ord (leqnSn n) k) = 0 by move/rowP/(_ k): V; rewrite !mxE.
      move: S. rewrite big_ord_recr /= big1 ?add0r => [W|k _]; last exact: H.
      case: (unliftP ord_max i) => [k|] ->; last by rewrite W.
      by rewrite -widen_lift H.
    + apply/rowP => j. rewrite edges_mul mxE. move: (S) (C j). rewrite !big_ord_recr /= => S1 C1.
      rewrite (eq_bigr (fun k => w (widen_ord (leqnSn n) k) * s (widen_ord (leqnSn n) k) j)); last by move=> k _; rewrite mxE.
      rewrite [X in _ - X * _](eq_bigr (fun k => w (widen_ord (leqnSn n) k))); last by move=> k _; rewrite mxE.
      move/eqP: S1. rewrite addr_eq0 => /eqP ->. by rewrite mulNr opprK.
Qed.

(** More vertices than columns allow. *)
Lemma volume_thin n c (s : 'M[F]_(n.+1, c)) : (c < n)%N -> simplex_volume s = Some 0.
Proof.
  move=> L. apply/volume_zero/gram_eq0. have : ~~ row_free (edges s).
    rewrite /row_free. apply/negP => /eqP E. have := rank_leq_col (edges s). by rewrite E leqNgt L.
  rewrite -kermx_eq0 => /rowV0Pn [v /sub_kermxP E v0]. by exists v.
Qed.

(** Affine maps. *)
Lemma volume_affine n c (s : 'M[F]_(n.+1, c)) (a : F) (t : 'rV[F]_c) (Q : 'M[F]_c) v : Q *m Q^T = 1%:M -> simplex_volume s = Some v ->
  simplex_volume (a *: (s *m Q) + \matrix_(i, j) t 0 j) = Some (`|a| ^+ n * v).
Proof.
  move=> O. rewrite !volume_defined => -[<-]. congr Some.
  have -> : edges (a *: (s *m Q) + \matrix_(i, j) t 0 j) = a *: (edges s *m Q).
    apply/matrixP => i j. rewrite !mxE opprD addrACA subrr addr0 -mulrBr -sumrB. congr (_ * _). apply: eq_bigr => k _. by rewrite mxE mulrBl.
  rewrite linearZ /= -scalemxAl -scalemxAr scalerA trmx_mul mulmxA -(mulmxA (edges s)) O mulmx1 detZ -expr2.
  by rewrite exprAC sqrtrM ?sqr_ge0 // sqrtr_sqr normrX mulrA.
Qed.

(** Two vertices. *)
Lemma volume_edge c (s : 'M[F]_(2, c)) : simplex_volume s = Some (Num.sqrt (\sum_j (s (inord 0) j - s (inord 1) j) ^+ 2)).
Proof.
  rewrite volume_defined; have -> : (1`! = 1)%N by []. rewrite divr1. congr (Some (Num.sqrt _)). rewrite [X in \det X]mx11_scalar det_scalar1 mxE. apply: eq_bigr => j _.
  rewrite !mxE -expr2. congr ((s _ _ - s _ _) ^+ 2); apply: val_inj; by rewrite /= inordK.
Qed.

Lemma volumes_map n c (ss : seq 'M[F]_(n.+1, c)) : simplex_volumes ss = [seq simplex_volume s | s <- ss].
Proof.
  rewrite /simplex_volumes. case: eqP => // E. subst n. apply: eq_map => s. by rewrite volume_edge.
Qed.

(** ** The order of the vertices *)

(** The matrix that takes the vertices to the edges, and the first [n] columns. *)
Definition diffs n : 'M[F]_(n, n.+1) := \matrix_(i, j) ((widen_ord (leqnSn n) i == j)%:R - (j == ord_max)%:R).
Definition first n : 'M[F]_(n.+1, n) := \matrix_(i, j) (i == widen_ord (leqnSn n) j)%:R.

Lemma widen_last n (i : 'I_n) : (widen_ord (leqnSn n) i == ord_max) = false.
Proof. apply/negbTE. by rewrite -val_eqE /= neq_ltn ltn_ord. Qed.

Lemma edges_diffs n c (s : 'M[F]_(n.+1, c)) : edges s = diffs n *m s.
Proof.
  apply/matrixP => i j. rewrite !mxE. under eq_bigr do rewrite mxE mulrBl. rewrite sumrB.
  rewrite (bigD1 (widen_ord (leqnSn n) i)) //= eqxx mul1r big1 ?addr0; last by move=> k; rewrite eq_sym => /negbTE ->; rewrite mul0r.
  by rewrite (bigD1 ord_max) //= eqxx mul1r big1 ?addr0 // => k /negbTE ->; rewrite mul0r.
Qed.

Lemma diffs_first n : diffs n *m first n = 1%:M.
Proof.
  apply/matrixP => i j. rewrite !mxE (bigD1 (widen_ord (leqnSn n) j)) //= big1 ?addr0; last by move=> k /negbTE H; rewrite [first _ _ _]mxE H mulr0.
  rewrite !mxE eqxx mulr1 widen_last subr0. by rewrite -val_eqE.
Qed.

(** A matrix whose rows sum up to 0 comes from the edges. *)
Lemma from_edges n m (Z : 'M[F]_(m, n.+1)) : (forall i, \sum_j Z i j = 0) -> Z *m first n *m diffs n = Z.
Proof.
  move=> H. have E i (k : 'I_n) : (Z *m first n) i k = Z i (widen_ord (leqnSn n) k).
    rewrite mxE (bigD1 (widen_ord (leqnSn n) k)) //= big1 ?addr0; last by move=> l /negbTE Hl; rewrite [first _ _ _]mxE Hl mulr0.
    by rewrite mxE eqxx mulr1.
  apply/matrixP => i j. rewrite mxE. under eq_bigr do rewrite E mxE mulrBr. rewrite sumrB.
  case: (unliftP ord_max j) => [k|] ->.
  - rewrite -widen_lift.
    rewrite (bigD1 k) //= eqxx mulr1 [X in _ + X - _]big1 ?addr0; last first.
      by move=> l Hl; rewrite -val_eqE /= val_eqE (negbTE Hl) mulr0.
    by rewrite big1 ?subr0 // => l _; rewrite widen_last mulr0.
  - rewrite big1 ?sub0r; last by move=> l _; rewrite widen_last mulr0.
    under eq_bigr do rewrite eqxx mulr1. have := H i. rewrite big_ord_recr /= addrC => /eqP. by rewrite addr_eq0 => /eqP ->.
Qed.

Definition turn n (p : 'S_n.+1) : 'M[F]_n := diffs n *m perm_mx p *m first n.

Lemma diffs_sum n i : \sum_j diffs n i j = 0.
Proof.
  under eq_bigr do rewrite mxE. rewrite sumrB (bigD1 (widen_ord (leqnSn n) i)) //= eqxx big1 ?addr0; last by move=> k; rewrite eq_sym => /negbTE ->.
  by rewrite (bigD1 ord_max) //= eqxx big1 ?addr0 ?subrr // => k /negbTE ->.
Qed.

Lemma perm_sum n (p : 'S_n) i : \sum_j (perm_mx p : 'M[F]_n) i j = 1.
Proof. under eq_bigr do rewrite !mxE. by rewrite (bigD1 (p i)) //= eqxx big1 ?addr0 // => k; rewrite eq_sym => /negbTE ->. Qed.

Lemma turn_diffs n (p : 'S_n.+1) : turn n p *m diffs n = diffs n *m perm_mx p.
Proof.
  apply: from_edges => i. under eq_bigr do rewrite mxE. rewrite exchange_big /=. under eq_bigr do rewrite -mulr_sumr perm_sum mulr1. exact: diffs_sum.
Qed.

Lemma turn_mul n (p q : 'S_n.+1) : turn n (p * q)%g = turn n p *m turn n q.
Proof. by rewrite {1 3}/turn perm_mxM !mulmxA turn_diffs. Qed.

Lemma turn_one n : turn n 1%g = 1%:M.
Proof. by rewrite /turn perm_mx1 mulmx1 diffs_first. Qed.

Lemma turn_det n (p : 'S_n.+1) : \det (turn n p) ^+ 2 = 1.
Proof.
  have P k : \det (turn n (p ^+ k)%g) = \det (turn n p) ^+ k.
    elim: k => [|k IH]; first by rewrite expg0 turn_one det1 expr0.
    by rewrite expgS turn_mul det_mulmx IH exprS.
  have := P #[p]%g. rewrite expg_order turn_one det1 => E.
  have N : `|\det (turn n p)| ^+ #[p]%g = 1 by rewrite -normrX -E normr1.
  have : `|\det (turn n p)| == 1 by rewrite -(@pexpr_eq1 _ _ #[p]%g) ?order_gt0 ?normr_ge0 // N.
  by rewrite -[LHS]real_normK ?num_real // => /eqP ->; rewrite expr1n.
Qed.

Lemma volume_order n c (s : 'M[F]_(n.+1, c)) (p : 'S_n.+1) : simplex_volume (row_perm p s) = simplex_volume s.
Proof.
  rewrite !volume_defined. congr (Some (Num.sqrt _ / _)).
  have -> : edges (row_perm p s) = turn n p *m edges s by rewrite !edges_diffs row_permE !mulmxA turn_diffs.
  by rewrite trmx_mul mulmxA -(mulmxA (turn n p)) !det_mulmx det_tr mulrAC -expr2 turn_det mul1r.
Qed.

(** As many columns as edges. *)
Lemma volume_square n (s : 'M[F]_(n.+1, n)) : simplex_volume s = Some (`|\det (edges s)| / (n`!)%:R).
Proof. by rewrite volume_defined det_mulmx det_tr -expr2 sqrtr_sqr. Qed.

(** The corner of the square. *)
Definition corner : 'M[F]_(3, 2) := \matrix_(i, j) (nat_of_ord i == j)%:R.
Lemma corner_volume : simplex_volume corner = Some (1 / 2%:R).
Proof.
  rewrite volume_square; have -> : (2`! = 2)%N by []. have -> : edges corner = 1%:M; last by rewrite det1 normr1.
  apply/matrixP => i j. rewrite !mxE /=. by case: i j => [[|[|i]] Hi] [[|[|j]] Hj] //=; rewrite subr0.
Qed.
Lemma volume_covers : ~ (forall n c (s : 'M[F]_(n.+1, c)), injective (fun i => row i s) -> simplex_volume s <> Some 0).
Proof.
  move=> H. apply: (H 2%N 1%N (\matrix_(i, j) (nat_of_ord i)%:R)); last exact: volume_thin.
  move=> i k /rowP /(_ 0). rewrite !mxE => /eqP. rewrite eqr_nat => /eqP E. exact: val_inj.
Qed.

End FACTS.
