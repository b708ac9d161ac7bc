(** KernelADASYN from the call, and corollaries for PDFOS. *)

From Coq Require Import List ZArith QArith Qabs Qminmax Qround Qpower Bool Arith Lia Lqa Sorting.Sorted Permutation.
From Verif Require Import Np PyVal NpFacts BaseFacts SimplexModel Spec SpecDanger SpecNoise SpecComp SimplexFacts SimplexGeom Float64
  SamplerModel SamplerFacts OversFacts BaseModel KnnFacts DangerModel DangerFacts BorderFacts ClusterModel NearModel ClusterOversModel OversGen
  ClusterOversFacts ClusterFacts NoiseModel NoiseFacts NoiseFacts2 CompModel CompFacts CompFacts2 CompFacts3 CompFacts4 EditModel SpecEdit EditFacts EditFacts3 EditFacts4 EditFacts5
  SpecNear NearFacts NearFacts2 LevelModel SpecLevel LevelFacts LevelFacts3 LevelFacts4 SpecGroup GroupFacts GroupFacts2 GroupFacts4 WrapModel SpecWrap WrapFacts WrapFacts2 WrapFacts3 DirModel SpecDir DirFacts DirFacts3 RegionModel SpecRegion RegionFacts RegionFacts2 RegionFacts3 RegionFacts4 SearchModel SpecSearch SearchFacts2 GraphModel SpecGraph GraphFacts GraphFacts2 GraphFacts4 GraphFacts5 GraphFacts6 GraphFacts8 MixModel SpecMix MixFacts MixFacts3 MixFacts4 EmbedModel SpecEmbed EmbedFacts EmbedFacts2 EmbedFacts3 EmbedFacts4.
Import ListNotations.
Open Scope nat_scope.


Lemma ka_sample_ok dist nn p_x ill_conditioned cholesky normal pca p ds D mn mj n :
  knn_ok dist nn -> kernel_ok p_x -> cholesky_shapes cholesky -> pca_shapes pca -> (forall l, draws_ok (ds l)) -> 1 <= ka_periods p ->
  wf_data (d_X D) (d_dim D) (d_y D) -> is_minority (d_y D) mn mj -> asked (ka_proportion p) (d_y D) mn mj = Ok n ->
  let out := ka_sample nn p_x ill_conditioned cholesky normal pca p ds D in
  (count_label (d_y D) mn <= 2 \/ n = 0%Z -> unchanged D out) /\
  (2 < count_label (d_y D) mn -> (0 < n)%Z -> ka_result dist p_x ill_conditioned cholesky normal pca p ds mn mj n 0 D out).
Proof.
  intros H1 H2 H3 H4 H5 H6 Hwf Hmin Hn. cbv zeta. unfold ka_sample.
  destruct (sample_default (ka_algorithm nn p_x ill_conditioned cholesky normal pca (d_dim D) p ds 0) D mn mj Hmin) as (st & Hst & ->).
  destruct (Nat.leb_spec (count_label (d_y D) mn) 2) as [Hle|Hgt]; [split; [reflexivity|lia]|]. split.
  - intros [|E0]; [lia|]. destruct (d_dim D) eqn:Ed; cbn [ka_algorithm]; rewrite (det_st_asked _ _ _ _ _ (proj1 Hmin) Hst), Hn; cbn [bind]; subst n; reflexivity.
  - intros _ Hpos. eapply ka_ok; eauto.
Qed.

Lemma pdfos_flat normals f D mn n k m T S v : length m = d_dim D -> pdfos_spec normals f D mn n k m T S ->
  (forall c, c < k -> (qsum (map (fun j => nth j v 0 * nth c (nth j T []) 0) (seq 0 (d_dim D))) == 0)%Q) ->
  Forall (fun x => along (d_dim D) v (f x) == along (d_dim D) v m)%Q S.
Proof.
  intros Lm [LS HS] Hv. apply Forall_forall. intros x Hx. destruct (In_nth _ _ [] Hx) as (t & Ht & <-). rewrite LS in Ht.
  destruct (HS t Ht) as (_ & b & z & s & _ & _ & _ & HL). rewrite <- Lm in *. eapply lifted_flat; eauto.
Qed.
