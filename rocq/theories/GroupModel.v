(** Model of the oversamplers cluster_SMOTE, kmeans_SMOTE, CE_SMOTE,
    NRSBoundary_SMOTE and ANS.

    Arithmetic is exact.  Distances are given by [dist], the nearest neighbours by
    [nn], the neighbours within a radius by [radius] and k-means labels by
    [kmeans].  [rs i] is the generator at the i-th request. *)

From Coq Require Import List ZArith QArith Bool Arith.
From Verif Require Import Np PyVal SimplexModel Float64 SamplerModel BaseModel NoiseModel DangerModel ClusterOversModel CompModel LevelModel.
Import ListNotations.
Open Scope nat_scope.

(** [np.unique(labels)]. *)
Definition nat_unique (l : list nat) : list nat := map fst (unique_by Nat.eqb Nat.ltb l).
(** [np.where(labels == c)\[0\]]. *)
Definition cluster_at (labels : list nat) (c : nat) : list nat := where_ (map (Nat.eqb c) labels).

Section Groups.

Variable volume : list row -> Q.
Variable dist : row -> row -> Q.
Variable nn : list row -> list row -> nat -> res (list (list nat)).
Variable radius : list row -> row -> Q -> list nat.
Variable kmeans : nat -> list row -> list nat.

(** ** cluster_SMOTE *)

Record group_params := mk_group {
  gp_proportion : strategy; gp_n_neighbors : nat; gp_n_clusters : nat; gp_ss : ss_params }.

(** generate_samples_in_clusters with determine_clusters_and_neighbood_graph,
    _cluster_smote.py:120-184. *)
Definition cluster_smote_generate (p : group_params) (rs : nat -> rng) (dim : nat) (X_min : list row)
    (clusters : list (list nat)) (n : nat) : res (list row) :=
  do vectors <- mapM (gather X_min) clusters;
  do indices <- mapM (fun v => nn v v (Nat.min (gp_n_neighbors p) (length v))) vectors;
  do chosen <- choice_range (rs 0) (length vectors) n;
  by_cluster (fun c count =>
      do v <- get vectors c;
      do ind <- get indices c;
      sample_simplex volume (gp_ss p)
        (mk_args v dim ind (Nat.min (gp_n_neighbors p) (length v)) None None None false None)
        count (rs (S c)))
    chosen.

(** cluster_SMOTE.sampling_algorithm, _cluster_smote.py:186-233. *)
Definition cluster_smote_algorithm (p : group_params) (rs : nat -> rng) (st : stats) (D : dataset)
    : res (list row * list Z) :=
  do n <- det_n_to_sample_st (gp_proportion p) st;
  if n =? 0 then Ok (d_X D, d_y D)
  else
    let X_min := rows_with (min_label st) (d_X D) (d_y D) in
    let labels := kmeans (Nat.min (length X_min) (gp_n_clusters p)) X_min in
    let clusters := map (cluster_at labels) (nat_unique labels) in
    if list_max (map (@length nat) clusters) <=? 1 then Ok (d_X D, d_y D)
    else
      do samples <- cluster_smote_generate p rs (d_dim D) X_min clusters n;
      Ok (extended D st samples).

Definition cluster_smote_sample p rs D :=
  sample_with checks_default (cluster_smote_algorithm p rs) D.

(** ** kmeans_SMOTE *)

Record kmeans_params := mk_kmeans {
  km_proportion : strategy; km_n_neighbors : nat; km_n_clusters : nat; km_irt : Q; km_ss : ss_params }.

(** cluster_filter, _kmeans_smote.py:144-148. *)
Definition km_filter (p : kmeans_params) (mn mj : Z) (y : list Z) (c : list nat) : res bool :=
  do n_maj <- count_at y mj c;
  do n_min <- count_at y mn c;
  Ok (Qlt_b (inject_Z (Z.of_nat (n_maj + 1)) / inject_Z (Z.of_nat (n_min + 1)))%Q (km_irt p) && (1 <? n_min)).

(** [cluster\[y\[cluster\] == self.min_label\]]. *)
Definition minority_in_cluster (mn : Z) (y : list Z) (c : list nat) : res (list nat) :=
  do labels <- gather y c; Ok (select (map (Z.eqb mn) labels) c).

(** The sparsity of a cluster, _kmeans_smote.py:179-190. *)
Definition km_sparsity (dim : nat) (V : list row) : Q :=
  let m := length V in
  let distm := dist_matrix dist V V in
  let trace := qsum (map (fun i => nth i (nth i distm []) 0%Q) (seq 0 m)) in
  let avg := ((qsum (map qsum distm) - trace) / inject_Z (Z.of_nat (m * m - m)))%Q in
  (Qpower avg (Z.of_nat dim) / inject_Z (Z.of_nat m))%Q.

(** generate_samples_in_clusters, _kmeans_smote.py:202-239. *)
Definition km_generate (p : kmeans_params) (rs : nat -> rng) (dim : nat) (vectors : list (list row))
    (indices : list (list (list nat))) (weights : list Q) (n : nat) : res (list row) :=
  by_cluster (fun c count =>
      do v <- get vectors c;
      do ind <- get indices c;
      sample_simplex volume (km_ss p)
        (mk_args v dim ind (Nat.min (length v) (km_n_neighbors p + 1)) None None None false None)
        count (rs (S c)))
    (r_choice (rs 0) weights n).

(** kmeans_SMOTE.sampling_algorithm with do_the_clustering and calculate_weights,
    _kmeans_smote.py:121-200 and 259-298. *)
Definition kmeans_smote_algorithm (p : kmeans_params) (rs : nat -> rng) (st : stats) (D : dataset)
    : res (list row * list Z) :=
  do n <- det_n_to_sample_st (km_proportion p) st;
  if n =? 0 then Ok (d_X D, d_y D)
  else
    let n_clusters := Nat.min (km_n_clusters p) (length (d_X D)) in
    let labels := kmeans n_clusters (d_X D) in
    let clusters := map (cluster_at labels) (seq 0 n_clusters) in
    do flags <- mapM (km_filter p (min_label st) (maj_label st) (d_y D)) clusters;
    let filt := select flags clusters in
    match filt with
    | [] => Ok (d_X D, d_y D)
    | _ =>
      do minority <- mapM (minority_in_cluster (min_label st) (d_y D)) filt;
      do vectors <- mapM (gather (d_X D)) minority;
      do indices <- mapM (fun v => nn v v (Nat.min (length v) (km_n_neighbors p + 1))) vectors;
      let weights := fix_density (map (fun v => Fin (km_sparsity (d_dim D) v)) vectors) in
      do samples <- km_generate p rs (d_dim D) vectors indices weights n;
      Ok (extended D st samples)
    end.

Definition kmeans_smote_sample p rs D :=
  sample_with checks_default (kmeans_smote_algorithm p rs) D.

(** ** CE_SMOTE *)

Record ce_params := mk_ce {
  ce_proportion : strategy; ce_h : nat; ce_k : nat; ce_alpha : Q; ce_ss : ss_params }.

(** One turn of the loop of cluster_matching, _ce_smote.py:176-195.  Of the
    assignment only the row indices are used, which are 0, .., k - 1; [kdx] still
    has the last value of the loop above. *)
Definition ce_relabel (k : nat) (labeling : list nat) : list nat :=
  let kdx := k - 1 in
  fold_left (fun relabeling jdx => map2 (fun l r => if l =? kdx then jdx else r) labeling relabeling)
            (seq 0 k) labeling.

(** cluster_matching, _ce_smote.py:164-197. *)
Definition ce_matching (k : nat) (labels : list (list nat)) : list (list nat) :=
  match labels with
  | [] => []
  | base :: rest => base :: map (ce_relabel k) rest
  end.

(** cluster_consistency_index, _ce_smote.py:199-215, times h.  Which of several
    most frequent labels [max] finds does not matter for the count; the first one
    is taken. *)
Definition occurrences (l : list nat) (x : nat) : nat := length (filter (Nat.eqb x) l).
Definition most_frequent (l : list nat) : nat :=
  fold_left (fun best x => if occurrences l best <? occurrences l x then x else best) l (hd 0 l).
Definition ce_cci (labels : list (list nat)) (i : nat) : nat :=
  let col := map (fun l => nth i l 0) labels in
  occurrences col (most_frequent col).

(** CE_SMOTE.sampling_algorithm, _ce_smote.py:217-280.  The line for
    n_to_sample = 0 lacks its [return].  [labelings X] are the labels of the h
    runs of k-means on random attributes, _ce_smote.py:138-162. *)
Definition ce_algorithm (labelings : list row -> list (list nat)) (p : ce_params) (r : rng) (st : stats) (D : dataset)
    : res (list row * list Z) :=
  do n <- det_n_to_sample_st (ce_proportion p) st;
  let labels := ce_matching (ce_k p) (labelings (d_X D)) in
  let cci := fun i => (inject_Z (Z.of_nat (ce_cci labels i)) / inject_Z (Z.of_nat (ce_h p)))%Q in
  let mask := map (fun iy => (snd iy =? min_label st)%Z && Qle_bool (cci (fst iy)) (ce_alpha p))
                  (combine (seq 0 (length (d_y D))) (d_y D)) in
  let P_boundary := select mask (d_X D) in
  if length P_boundary <=? ss_n_dim (ce_ss p) - 1 then Ok (d_X D, d_y D)
  else
    let k := Nat.min (length P_boundary) (ce_k p) in
    do ind <- nn P_boundary P_boundary k;
    do samples <- sample_simplex volume (ce_ss p)
      (mk_args P_boundary (d_dim D) ind k None None None false None) n r;
    Ok (extended D st samples).

Definition ce_sample labelings p r D :=
  sample_with checks_default (ce_algorithm labelings p r) D.

(** ** NRSBoundary_SMOTE *)

Record nrs_params := mk_nrs {
  nr_proportion : strategy; nr_n_neighbors : nat; nr_w : Q; nr_ss : ss_params }.

(** determine_delta, _nrsboundary_smote.py:109-127: the largest and, the diagonal
    being replaced by the overall maximum, the smallest distance. *)
Definition nrs_delta (w : Q) (X : list row) : list Q :=
  let distm := dist_matrix dist X X in
  let top := col_max (map col_max distm) in
  map (fun ir =>
         let d_max := col_max (snd ir) in
         let d_min := col_min (map (fun jq => if fst jq =? fst ir then top else snd jq)
                                   (combine (seq 0 (length (snd ir))) (snd ir))) in
         (d_min + w * (d_max - d_min))%Q)
      (combine (seq 0 (length distm)) distm).

(** determine_bound_pos_set_delta, _nrsboundary_smote.py:129-170: is row [i] in
    the bound set, is it in the positive set. *)
Definition nrs_flags (mn mj : Z) (D : dataset) (delta : list Q) : res (list (bool * bool)) :=
  mapM (fun xyd =>
      let '(x, (y, d)) := xyd in
      let ind := radius (d_X D) x d in
      do n_min <- count_at (d_y D) mn ind;
      do n_maj <- count_at (d_y D) mj ind;
      let bound := (y =? mn)%Z && negb (n_min =? length ind) in
      Ok (bound, negb bound && (y =? mj)%Z && (n_maj =? length ind)))
    (combine (d_X D) (combine (d_y D) delta)).

(** determine_no_conflict_flag, _nrsboundary_smote.py:172-189. *)
Definition no_conflict (X_pos : list row) (deltas : list Q) (x : row) : bool :=
  forallb (fun zd => Qlt_b (snd zd) (dist x (fst zd))) (combine X_pos deltas).

(** The loop of generate_samples, _nrsboundary_smote.py:191-237; [turns] is what is
    left of the trials, [i] the number of the turn. *)
Fixpoint nrs_loop (turns : nat) (p : nrs_params) (rs : nat -> rng) (i dim n : nat)
    (X_bound X_min X_pos : list row) (ind : list (list nat)) (cols : nat)
    (diffs deltas : list Q) (samples : list row) : res (list row) :=
  match turns with
  | O => Ok samples
  | S turns' =>
    if (length samples <? n) && forallb (fun d => Qlt_b 0 d) deltas then
      do sub <- sample_simplex volume (nr_ss p)
        (mk_args X_bound dim ind cols None None (Some X_min) false None)
        ((n - length samples) * 10) (rs i);
      nrs_loop turns' p rs (i + 1) dim n X_bound X_min X_pos ind cols diffs
        (map2 Qminus deltas diffs) (samples ++ filter (no_conflict X_pos deltas) sub)
    else Ok samples
  end.

(** NRSBoundary_SMOTE.sampling_algorithm, _nrsboundary_smote.py:239-314.
    [np.vstack] of an array without rows raises ValueError. *)
Definition nrs_algorithm (p : nrs_params) (rs : nat -> rng) (st : stats) (D : dataset)
    : res (list row * list Z) :=
  do n <- det_n_to_sample_st (nr_proportion p) st;
  if n =? 0 then Ok (d_X D, d_y D)
  else
    let X_min := rows_with (min_label st) (d_X D) (d_y D) in
    let delta := nrs_delta (nr_w p) (d_X D) in
    do flags <- nrs_flags (min_label st) (maj_label st) D delta;
    let X_bound := select (map fst flags) (d_X D) in
    let X_pos := select (map snd flags) (d_X D) in
    if (length X_pos =? 0) || (length X_bound =? 0) then Ok (d_X D, d_y D)
    else
      let cols := Nat.min (length X_min) (nr_n_neighbors p + 1) in
      do ind <- nn X_min X_bound cols;
      let deltas := select (map snd flags) delta in
      do samples <- nrs_loop n p rs 0 (d_dim D) n X_bound X_min X_pos ind cols
                      (map (fun d => d * (1 # 10))%Q deltas) deltas [];
      match samples with
      | [] => Err ValueError
      | _ => Ok (extended D st (firstn (Nat.min (length samples) n) samples))
      end.

Definition nrs_sample p rs D :=
  sample_with checks_default (nrs_algorithm p rs) D.

(** ** ANS *)

(** determine_first_pos_neighbor_distances, _ans.py:125-147. *)
Definition ans_first_distances (X_min : list row) : res (list Q) :=
  do t <- nn X_min X_min 2;
  mapM (fun xt => do i <- get (snd xt) 1; do z <- get X_min i; Ok (dist (fst xt) z)) (combine X_min t).

(** determine_outer_border, _ans.py:149-186. *)
Definition ans_out_border (D : dataset) (mj : Z) (X_min : list row) (first : list Q) : res (list nat) :=
  mapM (fun xd => count_at (d_y D) mj (radius (d_X D) (fst xd) (snd xd))) (combine X_min first).

(** determine_C, _ans.py:101-123.  The state is (n_oc_m1, C, best_diff), with no
    difference for infinity. *)
Definition outcasts (out_border : list nat) (c : nat) : nat := length (filter (Nat.leb c) out_border).
Definition ans_C (n_rows : nat) (out_border : list nat) : nat :=
  let step := fun (s : Z * nat * option nat) c =>
    let '(prev, C, best) := s in
    let n_oc := outcasts out_border c in
    let diff := Z.abs_nat (Z.of_nat n_oc - prev) in
    if match best with None => true | Some b => diff <? b end
    then (Z.of_nat n_oc, n_oc, Some diff) else (Z.of_nat n_oc, C, best) in
  snd (fst (fold_left step (seq 1 (n_rows / 4 - 1)) ((-1)%Z, 0, None))).

(** ANS.sampling_algorithm, _ans.py:255-320, with determine_Pused and
    determine_simplex_weights, _ans.py:188-253. *)
Definition ans_algorithm (prop : strategy) (ss : ss_params) (r : rng) (st : stats) (D : dataset)
    : res (list row * list Z) :=
  do n <- det_n_to_sample_st prop st;
  if n =? 0 then Ok (d_X D, d_y D)
  else
    let X_min := rows_with (min_label st) (d_X D) (d_y D) in
    do first <- ans_first_distances X_min;
    do out_border <- ans_out_border D (maj_label st) X_min first;
    let C := ans_C (length (d_X D)) out_border in
    let used := map (fun o => o <? C) out_border in
    let P := select used X_min in
    match P with
    | [] => Ok (d_X D, d_y D)
    | _ =>
      let eps := col_max (select used first) in
      let Np := map (fun x => length (radius P x eps)) P in
      if forallb (Nat.eqb 1) Np then Ok (d_X D, d_y D)
      else
        do base <- over_sum (map (fun c => inject_Z (Z.of_nat c)) Np);
        let max_neighbors := list_max Np in
        do ind <- nn P P max_neighbors;
        let weights := map (fun c => repeat 1%Q c ++ repeat 0%Q (max_neighbors - c)) Np in
        do samples <- sample_simplex volume ss
          (mk_args P (d_dim D) ind max_neighbors (Some base) None None false (Some weights)) n r;
        Ok (extended D st samples)
    end.

Definition ans_sample prop ss r D :=
  sample_with checks_default (ans_algorithm prop ss r) D.

End Groups.
