(** Oversamplers that sample simplices around minority rows in their own way:
    distance_SMOTE, NT_SMOTE, RWO_sampling, ROSE, Gaussian_SMOTE, SDSMOTE,
    ISMOTE, NRAS, SN_SMOTE, SMMO.

    Numbers are exact rationals.  Standard deviations and the bandwidth of ROSE
    involve roots; they are arguments.  [rs 0], [rs 1], ... are the generator at
    the successive calls of one run; the call for cluster [c] gets [rs (S c)]. *)

From Coq Require Import List ZArith QArith Bool Arith.
From Verif Require Import Np PyVal SimplexModel SamplerModel BaseModel DangerModel NoiseModel ClusterOversModel
  CompModel EditModel.
Import ListNotations.
Open Scope nat_scope.

Record near_params := mk_near {
  ne_proportion : strategy; ne_n_neighbors : nat; ne_ss : ss_params }.

Section Near.

Variable volume : list row -> Q.
Variable dist : row -> row -> Q.
Variable nn : list row -> list row -> nat -> res (list (list nat)).

(** [np.mean(X_min\[ind\[:, 1:\]\], axis=1)], _distance_smote.py:140,
    _smmo.py:144: one mean per row of the table, the first column left out. *)
Definition neighbour_means (dim : nat) (X_min : list row) (ind : list (list nat)) : res (list row) :=
  mapM (fun t => do v <- gather X_min (tl t); mean_row dim v) ind.

(** ** distance_SMOTE *)

(** The index array, _distance_smote.py:144-150: twice the row number, then
    columns 1 to n_dim - 2 of the neighbour table. *)
Definition distance_indices (n_dim : nat) (ind : list (list nat)) : list (list nat) :=
  map (fun p => fst p :: fst p :: firstn (n_dim - 2) (tl (snd p))) (combine (seq 0 (length ind)) ind).

(** distance_SMOTE.sampling_algorithm, _distance_smote.py:109-158. *)
Definition distance_smote_algorithm (p : near_params) (r : rng) (st : stats) (D : dataset)
    : res (list row * list Z) :=
  do n <- det_n_to_sample_st (ne_proportion p) st;
  if n =? 0 then Ok (d_X D, d_y D)
  else
    let X_min := rows_with (min_label st) (d_X D) (d_y D) in
    let k := Nat.min (length X_min) (ne_n_neighbors p + 1) in
    do ind <- nn X_min X_min k;
    do means <- neighbour_means (d_dim D) X_min ind;
    let n_dim := ss_n_dim (ne_ss p) in
    do samples <- sample_simplex volume (ne_ss p)
      (mk_args means (d_dim D) (distance_indices n_dim ind) (2 + Nat.min (n_dim - 2) (k - 1))
               None None (Some X_min) false None) n r;
    Ok (extended D st samples).

Definition distance_smote_sample p r D :=
  sample_with checks_default (distance_smote_algorithm p r) D.

(** ** NT_SMOTE *)

(** [NearestNeighborsWithMetricTensor(n_neighbors=self.n_dim)] fitted to the
    minority rows: scikit-learn rejects more neighbours than rows. *)
Definition dim_neighbours (ss : ss_params) (X_min : list row) : res (list (list nat)) :=
  if length X_min <? ss_n_dim ss then Err ValueError else nn X_min X_min (ss_n_dim ss).

(** NT_SMOTE.sampling_algorithm, _nt_smote.py:120-166; [ne_n_neighbors] is not a
    parameter of this class. *)
Definition nt_smote_algorithm (p : near_params) (r : rng) (st : stats) (D : dataset)
    : res (list row * list Z) :=
  do n <- det_n_to_sample_st (ne_proportion p) st;
  if n =? 0 then Ok (d_X D, d_y D)
  else
    let X_min := rows_with (min_label st) (d_X D) (d_y D) in
    do ind <- dim_neighbours (ne_ss p) X_min;
    do samples <- sample_simplex volume (ne_ss p)
      (mk_args X_min (d_dim D) ind (ss_n_dim (ne_ss p)) None None None false None) n r;
    Ok (extended D st samples).

Definition nt_smote_sample p r D := sample_with checks_default (nt_smote_algorithm p r) D.

(** ** RWO_sampling, _rwo_sampling.py:92-137.  [sd c] is
    [np.std(c) / np.sqrt(len(c))] of one column. *)
Definition rwo_algorithm (sd : list Q -> Q) (p : near_params) (rs : nat -> rng) (st : stats) (D : dataset)
    : res (list row * list Z) :=
  do n <- det_n_to_sample_st (ne_proportion p) st;
  if n =? 0 then Ok (d_X D, d_y D)
  else
    let X_min := rows_with (min_label st) (d_X D) (d_y D) in
    let stds := map (fun j => sd (column j X_min)) (seq 0 (d_dim D)) in
    do ind <- dim_neighbours (ne_ss p) X_min;
    do samples <- sample_simplex volume (ne_ss p)
      (mk_args X_min (d_dim D) ind (ss_n_dim (ne_ss p)) None None None false None) n (rs 0);
    Ok (extended D st (map2 (fun s z => vadd s (map2 Qmult z stds)) samples
                            (r_normal (rs 1) (length samples) (d_dim D)))).

Definition rwo_sample sd p rs D := sample_with checks_default (rwo_algorithm sd p rs) D.

(** ** ROSE, _rose.py:73-114.  [sd c] is [np.std(c)] of one column, [h n d] the
    factor [(4.0 / ((d + 1) * n)) ** (1.0 / (d + 4))]. *)
Definition rose_algorithm (sd : list Q -> Q) (h : nat -> nat -> Q) (prop : strategy) (rs : nat -> rng)
    (st : stats) (D : dataset) : res (list row * list Z) :=
  do n <- det_n_to_sample_st prop st;
  if n =? 0 then Ok (d_X D, d_y D)
  else
    let X_min := rows_with (min_label st) (d_X D) (d_y D) in
    let H := map (fun j => sd (column j X_min) * h (length (d_X D)) (d_dim D))%Q (seq 0 (d_dim D)) in
    do base <- choice_range (rs 0) (length X_min) n;
    do bases <- gather X_min base;
    Ok (extended D st (map2 (fun s z => vadd s (map2 Qmult z H)) bases
                            (r_normal (rs 1) (length bases) (d_dim D)))).

Definition rose_sample sd h prop rs D := sample_with checks_default (rose_algorithm sd h prop rs) D.

(** ** Gaussian_SMOTE *)

(** StandardScaler: a column's mean and standard deviation (1 instead of 0).
    [mm_transform] and [mm_inverse] apply such a table. *)
Definition std_fit (sd : list Q -> Q) (dim : nat) (X : list row) : list (Q * Q) :=
  map (fun j => let c := column j X in
                ((qsum c / inject_Z (Z.of_nat (length c)))%Q,
                 if Qeq_bool (sd c) 0 then 1%Q else sd c)) (seq 0 dim).

(** Gaussian_SMOTE.sampling_algorithm, _gaussian_smote.py:107-148; the
    generator noise is part of [ne_ss], lines 76-80. *)
Definition gaussian_smote_algorithm (sd : list Q -> Q) (p : near_params) (r : rng) (st : stats) (D : dataset)
    : res (list row * list Z) :=
  do n <- det_n_to_sample_st (ne_proportion p) st;
  if n =? 0 then Ok (d_X D, d_y D)
  else
    let mm := std_fit sd (d_dim D) (d_X D) in
    let X_min := rows_with (min_label st) (map (mm_transform mm) (d_X D)) (d_y D) in
    let k := Nat.min (length X_min) (ne_n_neighbors p + 1) in
    do ind <- nn X_min X_min k;
    do samples <- sample_simplex volume (ne_ss p)
      (mk_args X_min (d_dim D) ind k None None None false None) n r;
    Ok (extended D st (map (mm_inverse mm) samples)).

Definition gaussian_smote_sample sd p r D :=
  sample_with checks_default (gaussian_smote_algorithm sd p r) D.

(** ** SDSMOTE *)

(** calculate_density, _sdsmote.py:124-165.  [radius Xf Xq r]: the answer of
    [radius_neighbors(Xq, r, return_distance=False)], one list of positions per
    query row; the code takes the [len] of this array of lists. *)
Definition sdsmote_density (radius : list row -> list row -> Q -> list (list nat)) (X_min X_maj : list row)
    : list Q :=
  let S := qsum (map (fun x => qsum (map (dist x) X_maj)) X_min) in
  let S_ave := (S / inject_Z (Z.of_nat (length X_min * length X_maj)))%Q in
  let k := map (fun x => length (radius X_maj [x] S_ave)) X_min in
  fix_density (map (fun c => Fin (inject_Z (Z.of_nat c) / inject_Z (Z.of_nat (nsum k)))%Q) k).

(** sampling_algorithm, _sdsmote.py:167-219. *)
Definition sdsmote_algorithm (radius : list row -> list row -> Q -> list (list nat)) (p : near_params)
    (r : rng) (st : stats) (D : dataset) : res (list row * list Z) :=
  do n <- det_n_to_sample_st (ne_proportion p) st;
  if n =? 0 then Ok (d_X D, d_y D)
  else
    let X_min := rows_with (min_label st) (d_X D) (d_y D) in
    let X_maj := rows_with (maj_label st) (d_X D) (d_y D) in
    let density := sdsmote_density radius X_min X_maj in
    let k := Nat.min (length X_min) (ne_n_neighbors p + 1) in
    do ind <- nn X_min X_min k;
    do samples <- sample_simplex volume (ne_ss p)
      (mk_args X_min (d_dim D) ind k (Some density) None None false None) n r;
    Ok (extended D st samples).

Definition sdsmote_sample radius p r D := sample_with checks_default (sdsmote_algorithm radius p r) D.

(** ** ISMOTE *)

Record ismote_params := mk_ismote {
  is_n_neighbors : nat; is_minority_weight : Q; is_ss : ss_params }.

(** ISMOTE.sampling_algorithm, _ismote.py:106-194.  [int((a - b) / 2 + 0.5)] is
    computed exactly.  Lines 127-137: the mean of the distances to all minority
    rows; [sorted] is stable. *)
Definition ismote_algorithm (p : ismote_params) (r : rng) (st : stats) (D : dataset)
    : res (list row * list Z) :=
  let mn := min_label st in let mj := maj_label st in
  let X_min := rows_with mn (d_X D) (d_y D) in
  let X_maj0 := rows_with mj (d_X D) (d_y D) in
  let n := (length X_maj0 - length X_min + 1) / 2 in
  if n =? 0 then Ok (d_X D, d_y D)
  else
    do means <- mapM (fun x => qmean (map (dist x) X_min)) X_maj0;
    do X_maj <- gather X_maj0 (skipn n (argsort (map Qopp means)));
    let X := X_maj ++ X_min in
    let y := repeat mj (length X_maj) ++ repeat mn (length X_min) in
    let k := Nat.min (length X) (is_n_neighbors p + 1) in
    do ind <- nn X X_min k;
    let vertex_weights := map (fun z => if Z.eqb mn z then is_minority_weight p else (1 - is_minority_weight p)%Q) y in
    do samples <- sample_simplex volume (is_ss p)
      (mk_args X_min (d_dim D) (map (@tl nat) ind) (k - 1) None (Some vertex_weights) (Some X) false None) n r;
    Ok (X ++ samples, y ++ repeat mn (length samples)).

Definition ismote_sample p r D := sample_with checks_default (ismote_algorithm p r) D.

(** ** NRAS *)

Record nras_params := mk_nras {
  nr_proportion : strategy; nr_n_neighbors : nat; nr_t : Q; nr_ss : ss_params }.

(** NRAS.sampling_algorithm and generate_samples, _nras.py:193-283.
    [propensity X y]: the scores of propensity_scores, 114-133.  The assignment
    of line 183 changes a copy ([vertex_weights\[mask\]] is a new array), so
    all vertex weights stay 1. *)
Definition nras_algorithm (propensity : list row -> list Z -> list Q) (p : nras_params) (r : rng)
    (st : stats) (D : dataset) : res (list row * list Z) :=
  let mn := min_label st in let mj := maj_label st in
  let y := d_y D in
  do n <- det_n_to_sample_st (nr_proportion p) st;
  if n =? 0 then Ok (d_X D, d_y D)
  else
    let mm := mm_fit (d_dim D) (d_X D) in
    let X_trans := map (mm_transform mm) (d_X D) in
    let X_min := rows_with mn X_trans y in
    let X_new := map2 (fun x q => x ++ [q]) X_trans (propensity X_trans y) in
    let X_min_new := rows_with mn X_new y in
    let k := Nat.min (length X_new) (nr_n_neighbors p + 1) in
    do ind <- nn X_new X_min_new k;
    do t_hat <- mapM (count_neighbours y mn) ind;
    let noisy := map (fun c => Qlt_b (inject_Z (Z.of_nat c)) (nr_t p * inject_Z (Z.of_nat k))) t_hat in
    let to_remove := where_ noisy in
    if length X_min - 1 <=? length to_remove then Ok (d_X D, d_y D)
    else
      let base_weights := map (fun b : bool => if b then 0%Q else 1%Q) noisy in
      do samples <- sample_simplex volume (nr_ss p)
        (mk_args X_min (d_dim D) ind k (Some base_weights) (Some (repeat 1%Q (length X_trans)))
                 (Some X_trans) false None) (n + length to_remove) r;
      let X_maj := rows_with mj X_trans y in
      let kept := delete_idx X_min to_remove in
      Ok (map (mm_inverse mm) (X_maj ++ kept ++ samples),
          repeat mj (length X_maj) ++ repeat mn (length kept) ++ repeat mn (length samples)).

Definition nras_sample propensity p r D := sample_with checks_default (nras_algorithm propensity p r) D.

(** ** SN_SMOTE *)

(** generate_centroid_neighborhood, _sn_smote.py:111-160.  The four assignments
    of lines 145-151 go to copies ([a\[mask\]\[improved\] = ...]), so every
    round of the loop leaves [ncn], [n_cents], [centroids] and [cent_dist] as
    they were: one centroid neighbour per row, the nearest one.  But the
    assignment of line 148 addresses column [n_cents], i.e. 1, of an array with
    [n_neighbors] columns: with a single column it raises IndexError as soon as
    one row has improved. *)
Definition sn_improved (X_min : list row) (x : row) (t : list nat) : res bool :=
  do i1 <- get t 1; do v1 <- get X_min i1;
  do i2 <- get t 2; do v2 <- get X_min i2;
  Ok (Qlt_b (dist x (map (fun a => a / 2)%Q (vadd v1 v2))) (dist x v1)).

Definition sn_neighbours (n_neighbors : nat) (X_min : list row) (ind : list (list nat)) : res (list nat) :=
  do ncn <- mapM (fun t => get t 1) ind;
  do improved <- mapM (fun xt => sn_improved X_min (fst xt) (snd xt)) (combine X_min ind);
  if (n_neighbors =? 1) && existsb (fun b => b) improved then Err IndexError else Ok ncn.

(** generate_samples and sampling_algorithm, _sn_smote.py:162-279. *)
Definition sn_smote_algorithm (p : near_params) (rs : nat -> rng) (st : stats) (D : dataset)
    : res (list row * list Z) :=
  do n <- det_n_to_sample_st (ne_proportion p) st;
  if n =? 0 then Ok (d_X D, d_y D)
  else
    let X_min := rows_with (min_label st) (d_X D) (d_y D) in
    let k := Nat.min (ne_n_neighbors p * 10) (length X_min) in
    do ind <- nn X_min X_min k;
    do ncn <- sn_neighbours (ne_n_neighbors p) X_min ind;
    do base <- choice_range (rs 0) (length X_min) n;
    do samples <- by_cluster (fun b count =>
        do x <- get X_min b; do i <- get ncn b; do v <- get X_min i;
        sample_simplex volume (ne_ss p)
          (mk_args [x] (d_dim D) [[0; 0]] 2 None None (Some [v]) false None) count (rs (S b))) base;
    Ok (extended D st samples).

Definition sn_smote_sample p rs D := sample_with checks_default (sn_smote_algorithm p rs) D.

(** ** SMMO *)

(** generate_samples, _smmo.py:133-166. *)
Definition smmo_generate (ss : ss_params) (rs : nat -> rng) (dim : nat) (X_min : list row)
    (ind : list (list nat)) (n : nat) : res (list row) :=
  do means <- neighbour_means dim X_min ind;
  do base <- choice_range (rs 0) (length means) n;
  by_cluster (fun b count =>
      do m <- get means b; do t <- get ind b; do i <- get t 0; do v <- get X_min i;
      sample_simplex volume ss
        (mk_args [m] dim [[0; 0]] 2 None None (Some [v]) false None) count (rs (S b))) base.

(** sampling_algorithm, _smmo.py:168-222.  [ensemble X y]: the predictions of
    the classifiers trained on the data; lines 188-196. *)
Definition smmo_selected (mn : Z) (preds : list (list Z)) (y : list Z) : list bool :=
  map (fun p =>
      let s := zsum (map (fun v => nth (fst p) v 0%Z) preds) in
      let pred := if (Z.of_nat (length preds) <? 2 * s)%Z then 1%Z else 0%Z in
      negb (pred =? snd p)%Z && (snd p =? mn)%Z)
    (combine (seq 0 (length y)) y).

Definition smmo_algorithm (ensemble : list row -> list Z -> list (list Z)) (p : near_params) (rs : nat -> rng)
    (st : stats) (D : dataset) : res (list row * list Z) :=
  do n <- det_n_to_sample_st (ne_proportion p) st;
  if n =? 0 then Ok (d_X D, d_y D)
  else
    match ensemble (d_X D) (d_y D) with
    | [] => Err ValueError
    | preds =>
      let mask := smmo_selected (min_label st) preds (d_y D) in
      let X_sel := select mask (d_X D) in
      if length X_sel <? 2 then Ok (d_X D, d_y D)
      else
        let X_min := rows_with (min_label st) (d_X D) (d_y D) in
        let k := Nat.min (length X_min) (ne_n_neighbors p + 1) in
        do ind <- nn X_min X_sel k;
        do samples <- smmo_generate (ne_ss p) rs (d_dim D) X_min ind n;
        Ok (extended D st samples)
    end.

Definition smmo_sample ensemble p rs D := sample_with checks_default (smmo_algorithm ensemble p rs) D.

End Near.
