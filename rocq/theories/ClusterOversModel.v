(** Model of the four cluster-based oversamplers CBSO, CURE_SMOTE, A_SUWO and
    Assembled_SMOTE on top of ClusterModel.v.

    Distances are exact numbers given by an argument [dist].  Every call of the
    random generator gets its own generator from the family [rs]. *)

From Coq Require Import List ZArith QArith Bool Arith.
From Verif Require Import Np PyVal SimplexModel Float64 SamplerModel BaseModel DangerModel NoiseModel ClusterModel.
Import ListNotations.

(** The loop over [np.unique(cluster_indices, return_counts=True)] that ends in
    [np.vstack(samples)], _cbso.py:204-243, _cure_smote.py:203-229,
    _a_suwo.py:390-410, _assembled_smote.py:305-322. *)
Definition by_cluster (call : nat -> nat -> res (list row)) (chosen : list nat) : res (list row) :=
  do parts <- mapM (fun cc => call (fst cc) (snd cc)) (unique_by Nat.eqb Nat.ltb chosen);
  match parts with [] => Err ValueError | _ => Ok (concat parts) end.

Definition qmean (l : list Q) : res Q :=
  match l with [] => Err NotANumber | _ => Ok (qsum l / inject_Z (Z.of_nat (length l))) end.

(** [density / np.sum(density)]; a zero sum gives NaN. *)
Definition over_sum (l : list Q) : res (list Q) := normalize l.

(** [pairwise_distances_mahalanobis(A, B)] with the distance given. *)
Definition dist_matrix (dist : row -> row -> Q) (A B : list row) : list (list Q) :=
  map (fun a => map (dist a) B) A.
Definition finite (m : list (list Q)) : dmat := map (map Some) m.

(** [scipy.linalg.circulant(np.arange(n))]. *)
Definition circulant (n : nat) : list (list nat) :=
  map (fun i => map (fun j => ((i + n - j) mod n)%nat) (seq 0 n)) (seq 0 n).

Section Algorithms.

Variable volume : list row -> Q.
Variable dist : row -> row -> Q.
Variable nn : list row -> list row -> nat -> res (list (list nat)).

(** ** CBSO *)

Record cbso_params := mk_cbso {
  cb_proportion : strategy;
  cb_n_neighbors : nat;
  cb_C_p : Q;
  cb_ss : ss_params }.

(** The threshold T_h, _cbso.py:131-137. *)
Definition cbso_threshold (p : cbso_params) (X_min : list row) : res Q :=
  do t <- nn X_min X_min 2;
  do ds <- mapM (fun xt => do i <- get (snd xt) 1; do z <- get X_min i; Ok (dist (fst xt) z))
                (combine X_min t);
  do d_avg <- qmean ds;
  Ok (d_avg * cb_C_p p).

(** CBSO.generate_samples_in_clusters, _cbso.py:183-243. *)
Definition cbso_generate (p : cbso_params) (rs : nat -> rng) (dim : nat) (clusters : list (list nat))
    (X_min : list row) (n_to_sample : nat) (weights : list Q) : res (list row) :=
  do sums <- mapM (fun c => do w <- gather weights c; Ok (qsum w)) clusters;
  do cluster_weights <- over_sum sums;
  by_cluster (fun c count =>
      do members <- get clusters c;
      do vectors <- gather X_min members;
      do w <- gather weights members;
      sample_simplex volume (cb_ss p)
        (mk_args vectors dim (circulant (length vectors)) (length vectors)
                 (Some (fix_density (map Fin w))) None None false None)
        count (rs (S c)))
    (r_choice (rs 0%nat) cluster_weights n_to_sample).

(** CBSO.sampling_algorithm, _cbso.py:245-288. *)
Definition cbso_algorithm (p : cbso_params) (rs : nat -> rng) (st : stats) (D : dataset)
    : res (list row * list Z) :=
  do n_to_sample <- det_n_to_sample_st (cb_proportion p) st;
  if (n_to_sample =? 0)%nat then Ok (d_X D, d_y D)
  else
    let X_min := rows_with (min_label st) (d_X D) (d_y D) in
    do ind <- nn (d_X D) X_min (cb_n_neighbors p + 1);
    do counts <- mapM (count_neighbours (d_y D) (maj_label st)) ind;
    let weights := fix_density (map (fun c => Fin (inject_Z (Z.of_nat c))) counts) in
    do th <- cbso_threshold p X_min;
    do clusters <- cbso_clusters th (finite (dist_matrix dist X_min X_min));
    do samples <- cbso_generate p rs (d_dim D) clusters X_min n_to_sample weights;
    Ok (d_X D ++ samples, d_y D ++ repeat (min_label st) (length samples)).

Definition cbso_sample (p : cbso_params) (rs : nat -> rng) (D : dataset) :=
  sample_with checks_default (cbso_algorithm p rs) D.

(** ** CURE_SMOTE *)

Record cure_params := mk_cure {
  cu_proportion : strategy;
  cu_n_clusters : nat;
  cu_noise_th : nat;
  cu_ss : ss_params }.

(** MinMaxScaler: a column's smallest value and range (1 for a constant
    column). *)
Definition column (j : nat) (X : list row) : list Q := map (fun x => nth j x 0%Q) X.
Definition q_min (a b : Q) : Q := if Qle_bool a b then a else b.
Definition q_max (a b : Q) : Q := if Qle_bool a b then b else a.
Definition col_min (c : list Q) : Q := fold_left q_min c (hd 0 c).
Definition col_max (c : list Q) : Q := fold_left q_max c (hd 0 c).
Definition mm_fit (dim : nat) (X : list row) : list (Q * Q) :=
  map (fun j => let c := column j X in
                let rg := (col_max c - col_min c)%Q in
                (col_min c, if Qeq_bool rg 0 then 1%Q else rg)) (seq 0 dim).
Definition mm_transform (mm : list (Q * Q)) (x : row) : row :=
  map2 (fun lr v => (v - fst lr) / snd lr)%Q mm x.
Definition mm_inverse (mm : list (Q * Q)) (x : row) : row :=
  map2 (fun lr v => v * snd lr + fst lr)%Q mm x.

(** [np.mean(vectors, axis=0)]. *)
Definition mean_row (dim : nat) (V : list row) : res row :=
  mapM (fun j => qmean (column j V)) (seq 0 dim).

(** CURE_SMOTE.generate_samples_in_clusters, _cure_smote.py:191-229.  The
    clusters are chosen uniformly. *)
Definition cure_generate (p : cure_params) (rs : nat -> rng) (dim : nat) (X_min : list row)
    (clusters : list (list nat)) (n_to_sample : nat) : res (list row) :=
  by_cluster (fun c count =>
      do members <- get clusters c;
      do vectors <- gather X_min members;
      do m <- mean_row dim vectors;
      sample_simplex volume (cu_ss p)
        (mk_args [m] dim [0%nat :: seq 0 (length vectors)] (S (length vectors)) None None
                 (Some vectors) false None)
        count (rs (S c)))
    (r_choice (rs 0%nat)
       (repeat (1 / inject_Z (Z.of_nat (length clusters)))%Q (length clusters)) n_to_sample).

(** CURE_SMOTE.sampling_algorithm, _cure_smote.py:231-267. *)
Definition cure_algorithm (p : cure_params) (pick : nat -> list nat -> nat) (rs : nat -> rng)
    (st : stats) (D : dataset) : res (list row * list Z) :=
  do n_to_sample <- det_n_to_sample_st (cu_proportion p) st;
  if (n_to_sample =? 0)%nat then Ok (d_X D, d_y D)
  else
    let mm := mm_fit (d_dim D) (d_X D) in
    let X_min := rows_with (min_label st) (map (mm_transform mm) (d_X D)) (d_y D) in
    do clusters <- cure_clusters pick (cu_n_clusters p) (cu_noise_th p)
                                 (finite (dist_matrix dist X_min X_min));
    if (length clusters =? 0)%nat then Ok (d_X D, d_y D)
    else
      do samples <- cure_generate p rs (d_dim D) X_min clusters n_to_sample;
      Ok (d_X D ++ map (mm_inverse mm) samples,
          d_y D ++ repeat (min_label st) (length samples)).

Definition cure_sample (p : cure_params) (pick : nat -> list nat -> nat) (rs : nat -> rng) (D : dataset) :=
  sample_with checks_default (cure_algorithm p pick rs) D.

(** ** Assembled_SMOTE *)

Record assembled_params := mk_assembled {
  as_proportion : strategy;
  as_n_neighbors : nat;
  as_pop : nat;
  as_ss : ss_params }.

(** [n_min_neighbors], _assembled_smote.py:173-174: here the row itself is
    counted too. *)
Definition count_all (y : list Z) (lab : Z) (t : list nat) : res nat :=
  do labels <- gather y t; Ok (length (filter (Z.eqb lab) labels)).

(** Assembled_SMOTE.determine_border_non_border, _assembled_smote.py:152-181. *)
Definition assembled_border (p : assembled_params) (X : list row) (y : list Z) (mn : Z)
    (X_min : list row) : res (list row * list row) :=
  let k := Nat.min (length X) (as_n_neighbors p + 1) in
  do ind <- nn X X_min k;
  do counts <- mapM (count_all y mn) ind;
  let border := map (fun c => negb (c =? k)%nat) counts in
  Ok (select border X_min, select (map negb border) X_min).

(** Assembled_SMOTE.generate_samples_in_clusters with determine_indices,
    _assembled_smote.py:284-322. *)
Definition assembled_generate (p : assembled_params) (rs : nat -> rng) (dim : nat)
    (vectors : list (list row)) (n_to_sample : nat) : res (list row) :=
  do density <- over_sum (map (fun v => inject_Z (Z.of_nat (length v))) vectors);
  by_cluster (fun c count =>
      do v <- get vectors c;
      let k := Nat.min (as_n_neighbors p + 1) (length v) in
      do indices <- nn v v k;
      sample_simplex volume (as_ss p) (mk_args v dim indices k None None None false None)
                     count (rs (S c)))
    (r_choice (rs 0%nat) density n_to_sample).

(** Assembled_SMOTE.sampling_algorithm, _assembled_smote.py:324-366.
    [similar a b]: the principal directions of the two sets of rows form an
    angle above the threshold. *)
Definition assembled_algorithm (p : assembled_params) (similar : list row -> list row -> bool)
    (rs : nat -> rng) (st : stats) (D : dataset) : res (list row * list Z) :=
  do n_to_sample <- det_n_to_sample_st (as_proportion p) st;
  if (n_to_sample =? 0)%nat then Ok (d_X D, d_y D)
  else
    let X_min := rows_with (min_label st) (d_X D) (d_y D) in
    do (X_border, X_non_border) <-
      assembled_border p (d_X D) (d_y D) (min_label st) X_min;
    if (length X_border =? 0)%nat then Ok (d_X D, d_y D)
    else
      do clusters <- assembled_clusters (as_pop p)
          (fun a b => similar (map (fun i => nth i X_border []) a) (map (fun i => nth i X_border []) b))
          (finite (dist_matrix dist X_border X_border));
      do vectors0 <- mapM (gather X_border) (filter (fun c => negb (length c =? 0)%nat) clusters);
      let vectors := vectors0 ++ (if (length X_non_border =? 0)%nat then [] else [X_non_border]) in
      do samples <- assembled_generate p rs (d_dim D) vectors n_to_sample;
      Ok (d_X D ++ samples, d_y D ++ repeat (min_label st) (length samples)).

Definition assembled_sample (p : assembled_params) (similar : list row -> list row -> bool)
    (rs : nat -> rng) (D : dataset) :=
  sample_with checks_default (assembled_algorithm p similar rs) D.

(** ** A_SUWO *)

Record suwo_params := mk_suwo {
  su_proportion : strategy;
  su_n_neighbors : nat;
  su_n_clus_maj : nat;
  su_c_thres : Q;
  su_ss : ss_params }.

(** A_SUWO.remove_noise, _a_suwo.py:132-163: rows without a neighbour of their
    own label are dropped. *)
Definition suwo_noise (y : list Z) (indices : list (list nat)) : res (list nat) :=
  do flags <- mapM (fun yt => do c <- count_neighbours y (fst yt) (snd yt); Ok (c =? 0)%nat)
                   (combine y indices);
  Ok (where_ flags).
Definition suwo_remove_noise (p : suwo_params) (X : list row) (y : list Z) : res (list row * list Z) :=
  let k := Nat.min (length X) (su_n_neighbors p + 1) in
  do ind <- nn X X k;
  do noise <- suwo_noise y ind;
  Ok (delete_idx X noise, delete_idx y noise).

(** A_SUWO.initialize_clusters and initialize_distances, _a_suwo.py:165-222.
    [agg X k] are the labels AgglomerativeClustering finds. *)
Definition suwo_distances (agg : list row -> nat -> res (list nat)) (p : suwo_params)
    (X_maj X_min : list row) : res (dmat * dmat) :=
  let k := Nat.min (length X_maj) (su_n_clus_maj p) in
  do labels <- agg X_maj k;
  let maj_clusters := map (fun c => where_ (map (Nat.eqb c) labels)) (seq 0 k) in
  do dm_maj <- mapM (fun x => mapM (fun c =>
        do V <- gather X_maj c; mat_min (finite (dist_matrix dist V [x]))) maj_clusters) X_min;
  Ok (dm_maj, finite (dist_matrix dist X_min X_min)).

(** [np.median] of a vector. *)
Definition median (l : list Q) : res Q :=
  let s := map (fun i => nth i l 0%Q) (argsort l) in
  let n := length s in
  match n with
  | O => Err NotANumber
  | _ => Ok ((nth ((n - 1) / 2) s 0 + nth (n / 2) s 0) / 2)%Q
  end.

(** A_SUWO.determine_threshold, _a_suwo.py:224-241. *)
Definition suwo_threshold (p : suwo_params) (X_min : list row) : res Q :=
  do meds <- mapM (fun x => median (map (dist x) X_min)) X_min;
  do m <- qmean meds;
  Ok (m * su_c_thres p)%Q.

(** A_SUWO.fix_distribution, _a_suwo.py:243-256, on finite numbers. *)
Definition fix_distribution (d : list Q) : list Q :=
  if Qeq_bool (qsum d) 0 then repeat 1%Q (length d) else d.

(** A_SUWO.adaptive_sub_cluster_sizing, _a_suwo.py:258-302.  [lda c] is the
    error rate found by cross validation for the rows of cluster [c]. *)
Definition suwo_sizing (lda : list row -> res Q) (clusters : list (list nat)) (X_min : list row)
    : res (list Q) :=
  do eps <- mapM (fun c => if (1 <? length c)%nat
                           then do V <- gather X_min c; lda V
                           else Ok 1%Q) clusters;
  over_sum (fix_distribution eps).

(** A_SUWO.within_cluster, _a_suwo.py:304-355. *)
Definition suwo_inverse (dim : nat) (X_maj X_min : list row) : res (list Q) :=
  do t <- nn X_maj X_min 1;
  do d0 <- mapM (fun xt => do i <- get (snd xt) 0; do z <- get X_maj i; Ok (dist (fst xt) z))
                (combine X_min t);
  let nonzero := filter (fun q => negb (Qeq_bool q 0)) d0 in
  let d1 := match nonzero with
            | [] => map (fun _ => 1%Q) d0
            | q0 :: l => let m := fold_left q_min l q0 in
                         map (fun q => if Qeq_bool q 0 then m else q) d0
            end in
  Ok (map (fun q => 1 / (q / inject_Z (Z.of_nat dim)))%Q d1).

Definition suwo_within (p : suwo_params) (dim : nat) (X_maj X_min : list row) (clusters : list (list nat))
    : res (list (list Q) * list (list (list nat))) :=
  do inv <- suwo_inverse dim X_maj X_min;
  do dists <- mapM (fun c =>
      do g <- gather inv c;
      do th <- qmean g;
      over_sum (map (fun q => q_min q th) g)) clusters;
  do neighbors <- mapM (fun c =>
      do V <- gather X_min c; nn V V (Nat.min (length c) (su_n_neighbors p))) clusters;
  Ok (dists, neighbors).

(** A_SUWO.generate_samples, _a_suwo.py:357-410. *)
Definition suwo_generate (p : suwo_params) (rs : nat -> rng) (dim : nat) (X_min : list row)
    (clusters : list (list nat)) (cluster_dist : list Q) (within : list (list Q))
    (neighbors : list (list (list nat))) (n_to_sample : nat) : res (list row) :=
  do within' <- mapM (fun w => over_sum (fix_distribution w)) within;
  by_cluster (fun c count =>
      do members <- get clusters c;
      do V <- gather X_min members;
      do ind <- get neighbors c;
      do w <- get within' c;
      sample_simplex volume (su_ss p)
        (mk_args V dim ind (Nat.min (length members) (su_n_neighbors p)) (Some w) None None false None)
        count (rs (S c)))
    (r_choice (rs 0%nat) cluster_dist n_to_sample).

(** A_SUWO.sampling_algorithm, _a_suwo.py:485-563. *)
Definition suwo_algorithm (p : suwo_params) (agg : list row -> nat -> res (list nat))
    (lda : list row -> res Q) (rs : nat -> rng) (st : stats) (D : dataset)
    : res (list row * list Z) :=
  do n_to_sample <- det_n_to_sample_st (su_proportion p) st;
  if (n_to_sample =? 0)%nat then Ok (d_X D, d_y D)
  else
    do (X, y) <- suwo_remove_noise p (d_X D) (d_y D);
    let X_min := rows_with (min_label st) X y in
    let X_maj := rows_with (maj_label st) X y in
    if (length X_min =? 0)%nat then Ok (d_X D, d_y D)
    else
      do (dm_maj, dm_min) <- suwo_distances agg p X_maj X_min;
      do th <- suwo_threshold p X_min;
      do clusters <- suwo_clusters th dm_maj dm_min;
      do cluster_dist <- suwo_sizing lda clusters X_min;
      do (within, neighbors) <- suwo_within p (d_dim D) X_maj X_min clusters;
      do samples <- suwo_generate p rs (d_dim D) X_min clusters cluster_dist within neighbors n_to_sample;
      Ok (X ++ samples, y ++ repeat (min_label st) n_to_sample).

Definition suwo_sample (p : suwo_params) (agg : list row -> nat -> res (list nat))
    (lda : list row -> res Q) (rs : nat -> rng) (D : dataset) :=
  sample_with checks_default (suwo_algorithm p agg lda rs) D.

End Algorithms.
