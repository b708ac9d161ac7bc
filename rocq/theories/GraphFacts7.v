(** DBSMOTE when the retries of DBSCAN enlarge eps. *)

From Coq Require Import List ZArith QArith Qabs Bool Arith Lia Lqa Sorting.Sorted.
From Verif Require Import Np NpFacts Spec SpecDanger SpecNoise SpecComp SimplexGeom SamplerModel SamplerFacts OversFacts ClusterOversModel
  SpecNear NearFacts2 SpecGroup DirModel SpecDir GraphModel SpecGraph GraphFacts GraphFacts2 GraphFacts5.
Import ListNotations.
Open Scope nat_scope.

Lemma pairs_combine {A B} (R : B -> B -> Prop) (l : list B) : forall labels : list A, ForallOrdPairs R l -> ForallOrdPairs (fun p q => R (snd p) (snd q)) (combine labels l).
Proof.
  induction l as [|b l IH]; intros [|a labels] H; cbn; try constructor; inversion H; subst; [|now apply IH].
  apply Forall_forall. intros [a' b'] Hin. apply in_combine_r in Hin. rewrite Forall_forall in H2. cbn. now apply H2.
Qed.

Lemma cluster_rows_in labels i X x : In x (cluster_rows labels i X) -> In x X.
Proof. unfold cluster_rows. rewrite in_map_iff. intros ([l y] & <- & H). apply filter_In in H. destruct H as [H _]. now apply in_combine_r in H. Qed.

Lemma cluster_pairs R labels i X : ForallOrdPairs R X -> ForallOrdPairs R (cluster_rows labels i X).
Proof. intros H. unfold cluster_rows. apply pairs_map, pairs_filter. now apply pairs_combine. Qed.

Lemma copies_only dist f p D mn n labels S : wf_data (d_X D) (d_dim D) (d_y D) ->
  dbsmote_spec dist f p D mn n labels S ->
  ForallOrdPairs (fun x y => (db_eps p <= dist (f x) (f y))%Q /\ (db_eps p <= dist (f y) (f x))%Q) (rows_with mn (d_X D) (d_y D)) ->
  Forall (fun x => exists y, In y (rows_with mn (d_X D) (d_y D)) /\ same_row x y) S.
Proof.
  intros [HX HL] [_ HS] Hap. set (X_min := rows_with mn (d_X D) (d_y D)) in *. assert (Rm : rect (d_dim D) X_min) by now apply rows_with_rect.
  eapply Forall_impl; [|exact HS]. clear HS. intros x (i & T & g & s & HT & (Lg & Hg) & Hs & Hx). set (C := cluster_rows labels i X_min) in *.
  destruct Hx as [(a & Ha & _ & E)|(a & b & t & Ha & Hb & (w & du & He & _) & Ht & Lx & Ex)].
  - exists (nth a C []). split; [apply (cluster_rows_in labels i), nth_In, Ha|exact E].
  - apply Hg in He. destruct He as (_ & _ & Ew & Hlt). rewrite !(nth_indep (map f C) [] (f [])) in Ew by (now rewrite map_length). rewrite !map_nth in Ew.
    pose proof (cluster_pairs _ labels i _ Hap) as Hc. fold C in Hc.
    assert (Ia : In (nth a C []) C) by now apply nth_In. assert (Ib : In (nth b C []) C) by now apply nth_In.
    destruct (ForallOrdPairs_In Hc _ _ Ia Ib) as [E|[[_ H]|[H _]]]; [|exfalso; rewrite Ew in Hlt; lra|exfalso; rewrite Ew in Hlt; lra].
    exists (nth a C []). assert (Hin : In (nth a C []) X_min) by (apply (cluster_rows_in labels i), Ia). split; [exact Hin|].
    unfold rect in Rm. rewrite Forall_forall in Rm. specialize (Rm _ Hin).
    apply Forall2_nth_intro with (da := 0%Q) (db := 0%Q); [lia|]. intros j Hj. rewrite Ex by lia. rewrite <- E. ring.
Qed.
