(** Oversamplers that move along directions: NoSMOTE (which adds nothing), ADOMS,
    DE_oversampling, LVQ_SMOTE, G_SMOTE, MDO.

    Numbers are exact rationals.  Square roots, the inverse cosine, principal
    component analysis, eigenvectors and k-means come from numpy and
    scikit-learn and are parameters here. *)

From Coq Require Import List ZArith QArith Qabs Bool Arith Qround.
From Verif Require Import Np PyVal SimplexModel SamplerModel BaseModel UnderModel DangerModel ClusterOversModel CompModel NearModel LevelModel WrapModel.
Import ListNotations.
Open Scope nat_scope.

(** The answers of the random state to the requests made for one new row:
    [randint(b)], [random_sample()], [choice(b distinct things, 2,
    replace=False)] and [choice(np.arange(len(p)), p=p)]; the first argument numbers the new rows, the second the
    requests of one kind made for it. *)
Record draws := mk_draws {
  dr_int : nat -> nat -> nat -> nat;
  dr_unif : nat -> nat -> Q;
  dr_two : nat -> nat -> nat * nat;
  dr_p : nat -> list Q -> nat }.

(** randint(0) raises ValueError. *)
Definition randint (d : draws) (t s b : nat) : res nat :=
  if b =? 0 then Err ValueError else Ok (dr_int d t s b).

(** choice(things, 2, replace=False) raises ValueError on fewer than two things. *)
Definition choice_two (d : draws) (t b : nat) : res (nat * nat) :=
  if b <? 2 then Err ValueError else Ok (dr_two d t b).

(** ** NoSMOTE.sampling_algorithm, _nosmote.py:54-73. *)
Definition no_smote_algorithm (raise_value_error raise_runtime_error : bool) (_ : stats) (D : dataset)
    : res (list row * list Z) :=
  if raise_value_error then Err ValueError
  else if raise_runtime_error then Err RuntimeError
  else Ok (d_X D, d_y D).

Definition no_smote_sample v e D := sample_with checks_default (no_smote_algorithm v e) D.

Section Samplers.

Variable nn : list row -> list row -> nat -> res (list (list nat)).

(** np.linalg.norm of a vector. *)
Variable norm : row -> Q.

(** ** ADOMS *)

(** [PCA(n_components=1).fit(neighbors).components_\[0\]], _adoms.py:124-128. *)
Variable pca1 : list row -> row.

(** One pass of the loop, _adoms.py:174-179, with
    generate_sample_in_neighborhood, 112-138.  [randint(1, len(neighbors))] is
    one more than [randint(len(neighbors) - 1)]. *)
Definition adoms_row (d : draws) (X_min : list row) (ind : list (list nat)) (t : nat) : res row :=
  do index <- randint d t 0 (length X_min);
  do idx <- get ind index;
  do neighbors <- gather X_min idx;
  do sample <- get X_min index;
  let principal_direction := pca1 neighbors in
  do c <- randint d t 1 (length neighbors - 1);
  do random_neighbor <- get neighbors (1 + c);
  let diff := norm (vsub random_neighbor sample) in
  let rand := dr_unif d t 0 in
  let sign := if Qlt_b 0 (dot (vsub random_neighbor sample) principal_direction) then 1%Q else (-1)%Q in
  Ok (vadd sample (vscale (sign * rand * diff) principal_direction)).

(** ADOMS.sampling_algorithm, _adoms.py:140-184. *)
Definition adoms_algorithm (p : comp_params) (d : draws) (st : stats) (D : dataset) : res (list row * list Z) :=
  do n <- det_n_to_sample_st (cp_proportion p) st;
  if n =? 0 then Ok (d_X D, d_y D)
  else
    let X_min := rows_with (min_label st) (d_X D) (d_y D) in
    do ind <- nn X_min X_min (Nat.min (length X_min) (cp_n_neighbors p + 1));
    do samples <- mapM (adoms_row d X_min ind) (seq 0 n);
    Ok (extended D st samples).

Definition adoms_sample p d D := sample_with checks_default (adoms_algorithm p d) D.

(** ** DE_oversampling *)

Record de_params := mk_de {
  de_proportion : strategy; de_n_neighbors : nat; de_crossover : Q; de_similarity : Q; de_n_clusters : nat }.

(** One pass of generate_samples, _de_oversampling.py:146-176.  The loop over the
    attributes overwrites [mutated] by the base point's value where the draw is
    at least the crossover rate and the attribute is not the protected one. *)
Definition de_row (p : de_params) (d : draws) (dim : nat) (X_min : list row) (ind : list (list nat)) (t : nat) : res row :=
  do random_index <- randint d t 0 (length X_min);
  do random_point <- get X_min random_index;
  do idx <- get ind random_index;
  do ab <- choice_two d t (length (tl idx));
  do i1 <- get (tl idx) (fst ab); do i2 <- get (tl idx) (snd ab);
  do n1 <- get X_min i1; do n2 <- get X_min i2;
  let mutated := vadd random_point (vscale (dr_unif d t 0) (vsub n1 n2)) in
  do rand_s <- randint d t 1 dim;
  Ok (map (fun j => if Qle_bool (de_crossover p) (dr_unif d t (1 + j)) && negb (j =? rand_s)
                    then nth j random_point 0%Q else nth j mutated 0%Q) (seq 0 dim)).

(** [KMeans(n_clusters).fit(X)]: labels_ and cluster_centers_. *)
Variable kmeans : list row -> nat -> list nat * list row.

(** np.argmin: the first smallest entry; ValueError on an empty vector. *)
Fixpoint argmin_from (best : Q) (at_ i : nat) (l : list Q) : nat :=
  match l with
  | [] => at_
  | q :: l' => if Qlt_b q best then argmin_from q i (S i) l' else argmin_from best at_ (S i) l'
  end.
Definition argmin (l : list Q) : res nat :=
  match l with [] => Err ValueError | q :: l' => Ok (argmin_from q 0 1 l') end.

(** cluster_filter, _de_oversampling.py:198-199: all labels of the cluster agree. *)
Definition one_label (y : list Z) (cluster : list nat) : bool :=
  match cluster with
  | [] => false
  | i :: _ => forallb (fun j => Z.eqb (nth j y 0%Z) (nth i y 0%Z)) cluster
  end.

(** The removals of one cluster, _de_oversampling.py:213-231. *)
Definition de_cluster (p : de_params) (X : list row) (centers : list row) (label : nat) (cluster : list nat) : res (list nat) :=
  do center <- get centers label;
  do rows <- gather X cluster;
  do c <- argmin (map (fun x => norm (vsub x center)) rows);
  do center_like <- get cluster c;
  do xc <- get X center_like;
  do bad <- mapM (fun i => do x <- get X i;
      let denom := (norm x * norm xc)%Q in
      Ok (negb (i =? center_like) && (Qeq_bool denom 0 || Qlt_b (de_similarity p) (dot x xc / denom)))) cluster;
  Ok (select bad cluster).

(** cleansing, _de_oversampling.py:175-227: the positions to remove. *)
Definition de_cleansing (p : de_params) (X : list row) (y : list Z) : res (list nat) :=
  let km := kmeans X (Nat.min (length X) (de_n_clusters p)) in
  let cluster := fun label => where_ (map (Nat.eqb label) (fst km)) in
  let one_label_clusters := filter (fun label => one_label y (cluster label)) (seq 0 (length (snd km))) in
  do rem <- mapM (fun label => de_cluster p X (snd km) label (cluster label)) one_label_clusters;
  Ok (concat rem).

(** DE_oversampling.sampling_algorithm, _de_oversampling.py:229-269. *)
Definition de_algorithm (p : de_params) (d : draws) (st : stats) (D : dataset) : res (list row * list Z) :=
  do n <- det_n_to_sample_st (de_proportion p) st;
  if n =? 0 then Ok (d_X D, d_y D)
  else
    let X_min := rows_with (min_label st) (d_X D) (d_y D) in
    do ind <- nn X_min X_min (Nat.min (length X_min) (de_n_neighbors p + 1));
    do samples <- mapM (de_row p d (d_dim D) X_min ind) (seq 0 n);
    let '(X, y) := extended D st samples in
    do to_remove <- de_cleansing p X y;
    Ok (delete_idx X to_remove, delete_idx y to_remove).

Definition de_sample p d D := sample_with checks_default (de_algorithm p d) D.

(** ** LVQ_SMOTE *)

Record lvq_params := mk_lvq { lvq_proportion : strategy; lvq_n_neighbors : nat; lvq_n_clusters : nat }.

(** The search for the pair of other code words with the most similar offset,
    _lvq_smote.py:134-141; [optimum] is the smallest offset difference so far
    with the code word drawn from that pair.  The draw for a pair is
    [dr_int d t (2 + its number) 2]. *)
Definition lvq_pairs (m : nat) : list (nat * nat) := flat_map (fun i => map (pair i) (seq 0 m)) (seq 0 m).
Definition lvq_step (d : draws) (t : nat) (codebook : list row) (c0 c1 : nat) (diff : row)
    (optimum : option (Q * nat)) (ij : nat * nat) : option (Q * nat) :=
  let '(i, j) := ij in
  if (i =? c0) || (j =? c0) || (i =? c1) || (j =? c1) then optimum
  else
    let ddiff := norm (vsub diff (vsub (nth i codebook []) (nth j codebook []))) in
    let pick := if dr_int d t (2 + (i * length codebook + j)) 2 =? 0 then i else j in
    match optimum with
    | None => Some (ddiff, pick)
    | Some (best, _) => if Qlt_b ddiff best then Some (ddiff, pick) else optimum
    end.

(** One pass of generate_samples, _lvq_smote.py:127-150.  Without a pair (fewer
    than three code words) the code indexes by None; the constructor and the
    class size check exclude this, here it is TypeError. *)
Definition lvq_row (d : draws) (codebook X_min : list row) (ind : list (list nat)) (t : nat) : res row :=
  do codes <- choice_two d t (length codebook);
  do w0 <- get codebook (fst codes); do w1 <- get codebook (snd codes);
  match fold_left (lvq_step d t codebook (fst codes) (snd codes) (vsub w0 w1)) (lvq_pairs (length codebook)) None with
  | None => Err TypeError
  | Some (_, o) =>
    do idx <- get ind o;
    do i <- randint d t 0 (length idx);
    do s <- get idx i; do sample <- get X_min s; do wo <- get codebook o;
    Ok (vadd w0 (vsub sample wo))
  end.

(** LVQ_SMOTE.sampling_algorithm, _lvq_smote.py:154-198. *)
Definition lvq_algorithm (p : lvq_params) (d : draws) (st : stats) (D : dataset) : res (list row * list Z) :=
  do n <- det_n_to_sample_st (lvq_proportion p) st;
  if n =? 0 then Ok (d_X D, d_y D)
  else
    let X_min := rows_with (min_label st) (d_X D) (d_y D) in
    let codebook := snd (kmeans X_min (Nat.min (length X_min) (lvq_n_clusters p))) in
    do ind <- nn X_min codebook (Nat.min (length X_min) (lvq_n_neighbors p));
    do samples <- mapM (lvq_row d codebook X_min ind) (seq 0 n);
    Ok (extended D st samples).

Definition lvq_sample p d D := sample_with checks_default (lvq_algorithm p d) D.

(** ** G_SMOTE, method "linear" *)

Variable volume : list row -> Q.

(** [np.linalg.eig(np.cov(X_min, rowvar=False))]: the eigenvalues and the matrix
    whose columns are the eigenvectors, _g_smote.py:173-174. *)
Variable eig : list row -> list Q * list row.

(** np.arccos. *)
Variable arccos : Q -> Q.

(** np.argmax: the first largest entry. *)
Definition argmax (l : list Q) : res nat := argmin (map Qopp l).

(** [H = eigv\[np.argmax(eigw)\]], _g_smote.py:175: a row of the matrix. *)
Definition g_direction (X_min : list row) : res row :=
  let wv := eig X_min in
  do i <- argmax (fst wv); get (snd wv) i.

(** angles, _g_smote.py:214-234, for one row of [indices]. *)
Definition g_angle (X : list row) (H : row) (base nb : nat) : res Q :=
  do b <- get X base; do x <- get X nb;
  let P := vsub x b in
  let inner_product := Qabs (dot P H) in
  let norms := (norm P * norm H)%Q in
  let norms := if Qeq_bool norms 0 then (1 # 100000)%Q else norms in
  Ok (arccos (inner_product / norms)).

(** update_indices_by_angles, 190-216, and the selection of the first n_dim - 1
    columns behind the row itself, 318-320, for one row number [i]. *)
Definition g_row (n_dim : nat) (X : list row) (H : row) (i : nat) (t : list nat) : res (list nat) :=
  match t with
  | [] => Err IndexError
  | base :: others =>
    do thetas <- mapM (g_angle X H base) others;
    do ordered <- gather others (argsort thetas);
    Ok (i :: firstn (n_dim - 1) ordered)
  end.

(** G_SMOTE.sampling_algorithm, _g_smote.py:270-332. *)
Definition g_smote_algorithm (p : smote_params) (r : rng) (st : stats) (D : dataset) : res (list row * list Z) :=
  do n <- det_n_to_sample_st (sm_proportion p) st;
  if n =? 0 then Ok (d_X D, d_y D)
  else
    let X_min := rows_with (min_label st) (d_X D) (d_y D) in
    let k := Nat.min (length X_min) (sm_n_neighbors p + 1) in
    do ind <- nn X_min X_min k;
    do H <- g_direction X_min;
    do indices <- mapM (fun it => g_row (ss_n_dim (sm_ss p)) X_min H (fst it) (snd it)) (combine (seq 0 (length ind)) ind);
    do samples <- sample_simplex volume (sm_ss p)
      (mk_args X_min (d_dim D) indices (1 + Nat.min (ss_n_dim (sm_ss p) - 1) (k - 1)) None None None false None) n r;
    Ok (d_X D ++ samples, d_y D ++ repeat (min_label st) (length samples)).

(** checks = {"min_n_dim": 2} is passed, so only the number of columns is
    checked besides what the base class adds. *)
Definition g_smote_checks : list check := [CMinNMin 2; COther; CMinNDim 2].
Definition g_smote_sample p r D := sample_with g_smote_checks (g_smote_algorithm p r) D.

(** ** MDO *)

(** [md_K1] is [int(K2 * K1_frac)], computed on floats, _mdo.py:213. *)
Record mdo_params := mk_mdo { md_proportion : strategy; md_K2 : nat; md_K1 : nat }.

(** np.sqrt. *)
Variable root : Q -> Q.

(** [PCA(n_components=min(Z.shape)).fit(Z)]: its transform of Z, and its
    inverse_transform of a row, _mdo.py:167-168, 191. *)
Variable pca_transform : list row -> list row.
Variable pca_inverse : list row -> row -> row.

Definition floor_small (v : Q) : Q := if Qlt_b v (1 # 1000) then (1 # 1000)%Q else v.

(** generate_1_sample, _mdo.py:118-150. *)
Definition mdo_one (d : draws) (t : nat) (alpha : Q) (V : list Q) : row :=
  let alpha_V := map (fun v => floor_small (alpha * v)) V in
  let c := length V in
  let firsts := map (fun j => (2 * dr_unif d t j - 1) * root (nth j alpha_V 0))%Q (seq 0 (c - 1)) in
  let s := qsum (map (fun j => nth j firsts 0 * nth j firsts 0 / nth j alpha_V 0)%Q (seq 0 (c - 1))) in
  let last_fea_val := if Qle_bool s 1 then root (qmax ((1 - s) * alpha * nth (c - 1) V 0) 0)%Q else 0%Q in
  firsts ++ [(2 * dr_unif d t (c - 1) - 1) * last_fea_val]%Q.

(** generate_samples, _mdo.py:152-191. *)
Definition mdo_generate (d : draws) (dim : nat) (X_sel : list row) (weights : list Q) (n : nat) : res (list row) :=
  do mu <- mean_row dim X_sel;
  let Z := map (fun x => vsub x mu) X_sel in
  let T := pca_transform Z in
  let c := Nat.min dim (length X_sel) in
  let V := map (fun j => floor_small (variance (column j T))) (seq 0 c) in
  mapM (fun t =>
    do x <- get T (dr_p d t weights);
    let alpha := qsum (map2 (fun q v => q * q / v)%Q x V) in
    Ok (vadd (pca_inverse Z (mdo_one d t alpha V)) mu)) (seq 0 n).

(** MDO.sampling_algorithm, _mdo.py:193-253.  A zero sum of weights makes them
    NaN, and choice raises ValueError. *)
Definition mdo_algorithm (p : mdo_params) (d : draws) (st : stats) (D : dataset) : res (list row * list Z) :=
  do n <- det_n_to_sample_st (md_proportion p) st;
  if n =? 0 then Ok (d_X D, d_y D)
  else
    let X_min := rows_with (min_label st) (d_X D) (d_y D) in
    let K1 := Nat.min (md_K1 p) (length (d_X D)) in
    let K2 := Nat.min (md_K2 p + 1) (length (d_X D)) in
    do ind <- nn (d_X D) X_min K2;
    do n_min <- mapM (count_neighbours (d_y D) (min_label st)) ind;
    let mask := map (fun c => K1 <=? c) n_min in
    let X_sel := select mask X_min in
    if length X_sel =? 0 then Ok (d_X D, d_y D)
    else
      let weights := map (fun c => inject_Z (Z.of_nat c) / inject_Z (Z.of_nat K2))%Q (select mask n_min) in
      do weights <- probabilities weights;
      do samples <- mdo_generate d (d_dim D) X_sel weights n;
      Ok (extended D st samples).

Definition mdo_sample p d D := sample_with checks_default (mdo_algorithm p d) D.

End Samplers.
