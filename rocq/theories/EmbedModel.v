(** Oversamplers that rest on an embedding, a density estimate or a learnt score:
    SMOTE_AMSR, PDFOS, KernelADASYN, MOT2LD, DEAGO, ASMOBD.

    Numbers are exact rationals.  Isolation forests, principal components,
    eigenvectors, Cholesky factors, the exponential function, t-SNE, the search
    for peaks, autoencoders and OPTICS come from libraries and are parameters. *)

From Coq Require Import List ZArith QArith Qabs Bool Arith Qround.
From Verif Require Import Np PyVal SimplexModel SamplerModel BaseModel UnderModel DangerModel ClusterOversModel CompModel NearModel LevelModel WrapModel DirModel RegionModel GraphModel MixModel.
Import ListNotations.
Open Scope nat_scope.

Section Samplers.

Variable volume : list row -> Q.
Variable nn : list row -> list row -> nat -> res (list (list nat)).

(** The distance that goes with [nn]. *)
Variable dist : row -> row -> Q.

(** ** SMOTE_AMSR *)

(** [IsolationForest.fit(X).decision_function]. *)
Variable forest : list row -> row -> Q.

Inductive topology := TStar | TBus | TMesh.

(** generate_star_steps_ge and generate_star_steps_less, _smote_amsr.py:63-117, and
    their likes for the bus, 176-222, and the mesh, 271-316: the steps of one new row.
    [gap] is the score of the row moved to minus that of the row left. *)
Definition amsr_steps (gap max_min : Q) (us : list Q) : list Q :=
  let scaled q := if Qlt_b 0 max_min then (q / max_min)%Q else q in
  if Qle_bool 0 gap then map (fun u => u * (1 - scaled gap) + scaled gap)%Q us
  else map (fun u => u * (1 - scaled (- gap)))%Q us.

Definition amsr_move (max_min : Q) (us : list Q) (from to : Q * row) : row :=
  vadd (snd from) (map2 Qmult (amsr_steps (fst to - fst from) max_min us) (vsub (snd to) (snd from))).

(** One new row of _star_generator, _bus_generator and _mesh_generator,
    _smote_amsr.py:224-269, 224-269 and 318-360; [S] holds the scores and the rows. *)
Definition amsr_row (tp : topology) (d : draws) (dim : nat) (mean : Q * row) (S : list (Q * row)) (t : nat) : res row :=
  let scores := map fst S in
  let us := map (dr_unif d t) (seq 0 dim) in
  match tp with
  | TStar =>
    do i <- randint d t 0 (length S);
    do b <- get S i;
    let range := (q_max (col_max scores) (fst mean) - q_min (col_min scores) (fst mean))%Q in
    Ok (amsr_move range us b mean)
  | TBus =>
    do i <- randint d t 0 (length S - 1);
    do b <- get S (1 + i);
    do c <- get S i;
    Ok (amsr_move (col_max scores - col_min scores) us b c)
  | TMesh =>
    do i <- randint d t 0 (length S);
    do j <- randint d t 1 (length S);
    do b <- get S i;
    do o <- get S j;
    Ok (amsr_move (col_max scores - col_min scores) us o b)
  end.

(** SMOTE_AMSR.sampling_algorithm, _smote_amsr.py:406-438, with _make_samples, 362-383,
    and _in_danger_iforest, 385-404. *)
Definition amsr_algorithm (proportion : strategy) (tp : topology) (d : draws) (st : stats) (D : dataset) : res (list row * list Z) :=
  do n <- det_n_to_sample_st proportion st;
  if n =? 0 then Ok (d_X D, d_y D)
  else
    let score := forest (d_X D) in
    let X_min := rows_with (min_label st) (d_X D) (d_y D) in
    do mean <- mean_row (d_dim D) X_min;
    do samples <- mapM (amsr_row tp d (d_dim D) (score mean, mean) (map (fun x => (score x, x)) X_min)) (seq 0 n);
    Ok (extended D st samples).

Definition amsr_sample proportion tp d D := sample_with checks_default (amsr_algorithm proportion tp d) D.

(** ** PDFOS *)

(** np.std of a column. *)
Variable sd : list Q -> Q.

(** [np.linalg.eig(np.cov(X, rowvar=False))], _pdfos.py:56-63: the eigenvectors with an
    eigenvalue above 0.02, as the columns of a matrix with a row per attribute.  The
    number is that of the columns. *)
Variable eigenvectors : list row -> res (nat * list row).

(** [MetricTensor.tensor], np.linalg.inv and find_best_sigma, _pdfos.py:232-239: only
    whether they go through; what they give is used in the normal numbers alone. *)
Variable bandwidth : list row -> list row -> list Z -> res unit.

(** [multivariate_normal(0, S, size=n)] for [k] attributes. *)
Variable normals : nat -> nat -> list row.

(** FullRankTransformer.transform, _pdfos.py:63-76, [np.dot(x - mean, T)]. *)
Definition fr_transform (k : nat) (mean : row) (T : list row) (x : row) : row := weighted_sum k (vsub x mean) T.

(** FullRankTransformer.inverse_transform, _pdfos.py:78-88, [np.dot(z, T.T) + mean]. *)
Definition dot (x y : row) : Q := qsum (map2 Qmult x y).
Definition fr_inverse (mean : row) (T : list row) (z : row) : row := vadd (map (dot z) T) mean.

(** PDFOSKDE.fit, _pdfos.py:210-244.  The covariance of a single attribute is a number,
    not a matrix, and np.linalg.eig rejects it. *)
Definition pdfos_fit (dim : nat) (X_min X_ml : list row) (y : list Z) : res (option (nat * row * list row * list row)) :=
  let fit :=
    if dim =? 1 then Err LinAlgError
    else
      do kT <- eigenvectors X_min;
      let '(k, T) := kT in
      do mean <- mean_row dim X_min;
      let X_base := map (fr_transform k mean T) X_min in
      do _ <- bandwidth X_base (map (fr_transform k mean T) X_ml) y;
      Ok (k, mean, T, X_base) in
  match fit with
  | Ok f => Ok (Some f)
  | Err LinAlgError => Ok None
  | Err e => Err e
  end.

(** PDFOSKDE.sample, _pdfos.py:244-268: the base rows in increasing order, each with the
    next normal numbers. *)
Definition pdfos_draw (d : draws) (f : nat * row * list row * list row) (n : nat) : res (list row) :=
  let '(k, mean, T, X_base) := f in
  do base <- mapM (fun t => randint d t 0 (length X_base)) (seq 0 n);
  let turns := flat_map (fun bc => repeat (fst bc) (snd bc)) (unique_by Nat.eqb Nat.ltb base) in
  do rows <- gather X_base turns;
  Ok (map (fr_inverse mean T) (map2 vadd rows (normals n k))).

(** PDFOS.sampling_algorithm, _pdfos.py:341-380. *)
Definition pdfos_algorithm (proportion : strategy) (d : draws) (st : stats) (D : dataset) : res (list row * list Z) :=
  do n <- det_n_to_sample_st proportion st;
  if n =? 0 then Ok (d_X D, d_y D)
  else
    let mm := std_fit sd (d_dim D) (d_X D) in
    let X_scaled := map (mm_transform mm) (d_X D) in
    do fit <- pdfos_fit (d_dim D) (rows_with (min_label st) X_scaled (d_y D)) X_scaled (d_y D);
    match fit with
    | None => Ok (d_X D, d_y D)
    | Some f =>
      do samples <- pdfos_draw d f n;
      Ok (extended D st (map (mm_inverse mm) samples))
    end.

Definition pdfos_sample proportion d D := sample_with checks_default (pdfos_algorithm proportion d) D.

(** ** KernelADASYN *)

Record ka_params := mk_ka { ka_proportion : strategy; ka_k : nat; ka_burn_in : nat; ka_periods : nat }.

(** p_x, _kerneladasyn.py:132-146. *)
Variable p_x : list row -> list Q -> row -> Q.

(** [np.linalg.cond(covariance) > 10000] and [np.linalg.cholesky(covariance)]. *)
Variable ill_conditioned : list row -> bool.
Variable cholesky : list row -> res (list row).

(** [normal(size=len(x_old))] in an iteration of the chain.  The first argument numbers
    the nested calls. *)
Variable normal : nat -> nat -> nat -> row.

(** [PCA(n).fit(X)]: transform and inverse_transform. *)
Variable pca : nat -> list row -> res pca_fit.

(** cov, base/_base.py:38-55, with rowvar=False. *)
Definition covariance (dim : nat) (X : list row) : res (list row) :=
  do m <- mean_row dim X;
  Ok (map (fun i => map (fun j =>
        (qsum (map (fun x => (nth i x 0 - nth i m 0) * (nth j x 0 - nth j m 0))%Q X) / inject_Z (Z.of_nat (length X) - 1))%Q)
      (seq 0 dim)) (seq 0 dim)).

(** The loop of mcmc, _kerneladasyn.py:168-184, from [iteration] on. *)
Fixpoint mcmc_loop (fuel : nat) (burn_in periods : nat) (p : row -> Q) (L : list row) (noise : nat -> nat -> row) (u : nat -> Q)
    (iteration need : nat) (x_old : row) : res (list row) :=
  match need with
  | 0 => Ok []
  | S need' =>
    match fuel with
    | 0 => Err OutOfFuel
    | S fuel =>
      let x_new := vadd x_old (weighted_sum (length x_old) (noise iteration (length x_old)) L) in
      let x := if Qlt_b (u iteration) (p x_new / p x_old) then x_new else x_old in
      let it := S iteration in
      if (it mod periods =? 0) && (burn_in <? it)
      then do rest <- mcmc_loop fuel burn_in periods p L noise u it need' x; Ok (x :: rest)
      else mcmc_loop fuel burn_in periods p L noise u it need x
    end
  end.

(** mcmc, _kerneladasyn.py:148-186. *)
Definition mcmc (p : ka_params) (d : draws) (level : nat) (X_min : list row) (r_score : list Q) (cov : list row) (n : nat) : res (list row) :=
  let scored := where_ (map (Qlt_b 0) r_score) in
  do i <- randint d 0 0 (length scored);
  do b <- get scored i;
  do x_old <- get X_min b;
  do L <- cholesky cov;
  mcmc_loop (ka_burn_in p + ka_periods p * S n) (ka_burn_in p) (ka_periods p) (p_x X_min r_score) L (normal level) (fun it => dr_unif d it 0) 0 n x_old.

(** KernelADASYN.sampling_algorithm, _kerneladasyn.py:238-286, with iterated_sampling,
    188-236. *)
Fixpoint ka_algorithm (fuel : nat) (p : ka_params) (ds : nat -> draws) (level : nat) (st : stats) (D : dataset) : res (list row * list Z) :=
  do n <- det_n_to_sample_st (ka_proportion p) st;
  if n =? 0 then Ok (d_X D, d_y D)
  else
    let X_min := rows_with (min_label st) (d_X D) (d_y D) in
    do indices <- nn (d_X D) X_min (Nat.min (length X_min) (ka_k p + 1));
    do counts <- mapM (fun t => do ls <- gather (d_y D) (tl t); Ok (length (filter (Z.eqb (maj_label st)) ls))) indices;
    if length (filter (Nat.ltb 0) counts) <? 2 then Ok (d_X D, d_y D)
    else
      let r_score := fix_density (map (fun c => Fin (inject_Z (Z.of_nat c))) counts) in
      do cov <- covariance (d_dim D) (select (map (Qlt_b 0) r_score) X_min);
      if (1 <? length cov) && ill_conditioned cov then
        if d_dim D <=? 2 then Ok (d_X D, d_y D)
        else
          match fuel with
          | 0 => Err OutOfFuel
          | S fuel =>
            let k := Z.to_nat (rint (inject_Z (Z.of_nat (length cov)) / 2)) in
            do f <- pca k (d_X D);
            do out <- sample_with checks_default (ka_algorithm fuel p ds (S level)) (mk_data (map (pca_to f) (d_X D)) k (d_y D));
            Ok (map (pca_from f) (fst out), snd out)
          end
      else
        do samples <- mcmc p (ds level) level X_min r_score cov n;
        Ok (extended D st samples).

Definition ka_sample p ds D := sample_with checks_default (ka_algorithm (d_dim D) p ds 0) D.

(** ** MOT2LD *)

Record mot_params := mk_mot { mo_proportion : strategy; mo_n_components : nat; mo_k : nat; mo_d_cut : option Q; mo_ss : ss_params }.

(** [TSNE(n).fit_transform(X)]. *)
Variable tsne : nat -> list row -> list row.

(** [find_peaks_cwt(d, np.arange(1, w))]. *)
Variable find_peaks : list Q -> nat -> res (list nat).

(** [list(set(c).difference(set(noise)))]: the order is that of the hash table. *)
Variable listing : list nat -> list nat.

(** [radius_neighbors(x, r)]: the number of rows found. *)
Definition within (X : list row) (r : Q) (x : row) : nat := length (filter (fun z => Qle_bool (dist x z) r) X).

(** density_peak_clustering, _mot2ld.py:149-189: the deltas and the row numbers, by
    increasing rho. *)
Definition density_peaks (X_min : list row) (rho : list nat) (ind_min : list (list nat)) : res (list Q * list nat) :=
  do dists <- mapM (fun xt => do zs <- gather X_min (snd xt); Ok (map (dist (fst xt)) zs)) (combine X_min ind_min);
  do top <- max_of (concat dists);
  do delta <- mapM (fun rtd =>
      let '(r, (t, ds)) := rtd in
      do rs <- gather rho t;
      match find (fun jr => r <? snd jr) (combine (seq 0 (length rs)) rs) with
      | Some (j, _) => get ds j
      | None => Ok top
      end) (combine rho (combine ind_min dists));
  let idx := argsort_nat rho in
  do d <- gather delta idx;
  Ok (d, idx).

(** determine_cluster_centers, _mot2ld.py:211-237. *)
Definition mot_centers (X_min : list row) (rho : list nat) (ind_min : list (list nat)) : res (list row) :=
  do di <- density_peaks X_min rho ind_min;
  let '(d, idx) := di in
  if length d <? 3 then Err ValueError
  else
    do peaks <- find_peaks d (Z.to_nat (rint (inject_Z (Z.of_nat (length d)) / 2)));
    if length peaks =? 0 then Err ValueError
    else do ids <- gather idx peaks; gather X_min ids.

(** determine_neighborhoods and determine_clusters, _mot2ld.py:239-309: the centers, the
    noise and the importance. *)
Definition mot_clusters (p : mot_params) (mn : Z) (X_tsne : list row) (y : list Z) (X_min : list row)
    : res (list row * list nat * list Q) :=
  do indices <- nn X_tsne X_min (Nat.min (length X_min) (mo_k p + 1));
  do ind_min <- nn X_min X_min (length X_min);
  do d_cut <- match mo_d_cut p with
              | Some q => Ok q
              | None => do second <- mapM (fun xt => do j <- get (snd xt) 1; do z <- get X_tsne j; Ok (dist (fst xt) z)) (combine X_min indices);
                        max_of second
              end;
  let rho := map (within X_tsne d_cut) X_min in
  do centers <- mot_centers X_min rho ind_min;
  do local <- mapM (fun t => do ls <- gather y (tl t); Ok (length (filter (Z.eqb mn) ls))) indices;
  let noise := where_ (map2 (fun r l => (r =? 1) || (l =? 0)) rho local) in
  Ok (centers, noise, map2 (fun l r => inject_Z (Z.of_nat l) / inject_Z (Z.of_nat r))%Q local rho).

(** [v\[positions\] = 0]. *)
Definition clear (positions : list nat) (v : list Q) : list Q :=
  map (fun iq => if existsb (Nat.eqb (fst iq)) positions then 0%Q else snd iq) (combine (seq 0 (length v)) v).

(** do_clustering, _mot2ld.py:335-387. *)
Definition mot_clustering (p : mot_params) (mn : Z) (X_tsne : list row) (y : list Z) (X_min : list row)
    : res (list (list nat) * list Q * list nat) :=
  do cni <- mot_clusters p mn X_tsne y X_min;
  let '(centers, noise, importance) := cni in
  do ind <- nn centers X_min 1;
  do labels <- mapM (fun t => get t 0) ind;
  let prob := clear noise importance in
  if Qeq_bool (qsum prob) 0 then Err ValueError
  else
    let prob := map (fun q => q / qsum prob)%Q prob in
    let members i := where_ (map (Nat.eqb i) labels) in
    let clusters := map (fun i => listing (filter (fun v => negb (existsb (Nat.eqb v) noise)) (members i))) (seq 0 (S (list_max labels))) in
    if forallb (fun c => length c =? 0) clusters then Err ValueError
    else
      let empty := where_ (map (fun l => length (nth l clusters []) =? 0) labels) in
      let prob := clear empty prob in
      do prob <- normalize prob;
      Ok (clusters, prob, noise).

(** determine_cluster_probabilities, _mot2ld.py:389-406, and
    generate_samples_in_clusters, 408-444. *)
Definition mot_generate (ss : ss_params) (rs : nat -> rng) (dim : nat) (X_min : list row) (clusters : list (list nat)) (prob : list Q) (n : nat)
    : res (list row) :=
  do sums <- mapM (fun c => do ps <- gather prob c; Ok (qsum ps)) clusters;
  do cluster_probs <- normalize sums;
  do chosen <- np_choice (rs 0) (seq 0 (length clusters)) n cluster_probs;
  by_cell (fun i k =>
    do c <- get clusters i;
    do V <- gather X_min c;
    do ps <- gather prob c;
    do within_prob <- normalize ps;
    sample_simplex volume ss (mk_args V dim (circulant (length V)) (length V) (Some within_prob) None None false None) k (rs (1 + i))) chosen.

(** MOT2LD.sampling_algorithm, _mot2ld.py:446-503.  The positions in [noise] are positions
    among the minority rows, lines 501 and 502 take them as positions in the data. *)
Definition mot2ld_algorithm (p : mot_params) (rs : nat -> rng) (st : stats) (D : dataset) : res (list row * list Z) :=
  do n <- det_n_to_sample_st (mo_proportion p) st;
  if n =? 0 then Ok (d_X D, d_y D)
  else
    let mn := min_label st in
    let X_tsne := tsne (Nat.min (mo_n_components p) (d_dim D)) (d_X D) in
    match mot_clustering p mn X_tsne (d_y D) (rows_with mn X_tsne (d_y D)) with
    | Err ValueError => Ok (d_X D, d_y D)
    | Err e => Err e
    | Ok (clusters, prob, noise) =>
      do samples <- mot_generate (mo_ss p) rs (d_dim D) (rows_with mn (d_X D) (d_y D)) clusters prob n;
      Ok (delete_idx (d_X D) noise ++ samples, delete_idx (d_y D) noise ++ repeat mn (length samples))
    end.

Definition mot2ld_sample p rs D := sample_with checks_default (mot2ld_algorithm p rs) D.

(** ** DEAGO *)

(** The autoencoder trained on rows, execute_autoencoder, _deago.py:185-236. *)
Variable autoencoder : list row -> row -> row.

(** DEAGO.sampling_algorithm, _deago.py:238-301. *)
Definition deago_algorithm (p : smote_params) (r : rng) (st : stats) (D : dataset) : res (list row * list Z) :=
  do n <- det_n_to_sample_st (sm_proportion p) st;
  if n =? 0 then Ok (d_X D, d_y D)
  else
    do out <- smote_sample volume nn p r D;
    let X_init := skipn (length (d_X D)) (fst out) in
    let X_min := rows_with (min_label st) (d_X D) (d_y D) in
    let mm := std_fit sd (d_dim D) X_min in
    let dae := autoencoder (map (mm_transform mm) X_min) in
    Ok (extended D st (map (fun x => mm_inverse mm (dae (mm_transform mm x))) X_init)).

Definition deago_sample p r D := sample_with checks_default (deago_algorithm p r) D.

(** ** ASMOBD *)

Record asmobd_params := mk_asmobd {
  ab_proportion : strategy; ab_min_samples : nat; ab_eps : Q; ab_eta : Q;
  ab_T1 : Q; ab_T2 : Q; ab_t1 : Q; ab_t2 : Q; ab_a : Q; ab_sigmoid : bool; ab_ss : ss_params }.

(** [OPTICS(min_samples, max_eps).fit(X)]: core_distances_ and reachability_,
    [None] standing for inf. *)
Variable optics : nat -> Q -> list row -> res (list (option Q) * list (option Q)).

(** [np.abs(2.0 / (1.0 + np.exp(-x)) - 1)]. *)
Variable squash : Q -> Q.

Definition within_ext (X : list row) (y : list Z) (r : option Q) (x : row) : list Z :=
  map snd (filter (fun zl => match r with None => true | Some q => Qle_bool (dist x (fst zl)) q end) (combine X y)).

(** determine_maj_min_ratios, _asmobd.py:225-263, for one row: n_min, n_maj, the latter a
    fraction.  (Nothing found gives NaN.) *)
Definition ab_counts (mj : Z) (X : list row) (y : list Z) (r : option Q) (x : row) : res (Q * Q) :=
  let found := within_ext X y r x in
  if length found =? 0 then Err NotANumber
  else
    let n := inject_Z (Z.of_nat (length found)) in
    let n_maj := (inject_Z (Z.of_nat (length (filter (Z.eqb mj) found))) / n)%Q in
    Ok (n - n_maj - 1, n_maj)%Q.

(** calculate_density, _asmobd.py:165-193, for one row. *)
Definition ab_density (p : asmobd_params) (n : nat) (core : option Q) (n_min n_maj : Q) : xnum :=
  let eta := ab_eta p in
  match core with
  | None => if Qeq_bool eta 0 then NaN else PInf
  | Some c =>
    let density := (eta * c + (1 - eta) * n_maj)%Q in
    if ab_sigmoid p then
      Fin (density - match safe_divide n_maj n_min PInf with Fin ratio => squash (ab_a p * ratio) | _ => 1 end)
    else Fin (eta * density + (1 - eta) * n_min / inject_Z (Z.of_nat n))%Q
  end.

(** determine_not_noise, _asmobd.py:195-223, for one row; the thresholds are not negative. *)
Definition above (t : Q) (x : option Q) : bool := match x with None => true | Some q => Qlt_b t q end.
Definition ab_noise (p : asmobd_params) (cores reaches : list (option Q)) (cr : option Q * option Q) : bool :=
  (above (ab_T1 p) (fst cr) && above (ab_T2 p) (snd cr)) ||
  (exceeds (ab_t1 p) (mean_ext cores) (fst cr) && exceeds (ab_t2 p) (mean_ext reaches) (snd cr)).

(** determine_not_noise_and_density, _asmobd.py:265-315. *)
Definition ab_attempt (p : asmobd_params) (mj : Z) (X_ss : list row) (y : list Z) (X_min : list row) (n : nat)
    : res (list bool * list xnum) :=
  do cr <- optics (Nat.min (length X_min - 1) (ab_min_samples p)) (ab_eps p) X_min;
  let '(cores, reaches) := cr in
  do counts <- mapM (fun xc => ab_counts mj X_ss y (snd xc) (fst xc)) (combine X_min cores);
  Ok (map (fun cr => negb (ab_noise p cores reaches cr)) (combine cores reaches),
      map2 (fun c nm => ab_density p n c (fst nm) (snd nm)) cores counts).

Definition ab_relax (p : asmobd_params) : asmobd_params :=
  mk_asmobd (ab_proportion p) (ab_min_samples p) (ab_eps p * (3 # 2)) (ab_eta p)
    (ab_T1 p * (3 # 2)) (ab_T2 p * (3 # 2)) (ab_t1 p * (3 # 2)) (ab_t2 p * (3 # 2)) (ab_a p) (ab_sigmoid p) (ab_ss p).

(** determine_not_noise_and_density_safe, _asmobd.py:317-355. *)
Fixpoint ab_safe (more : nat) (p : asmobd_params) (mj : Z) (X_ss : list row) (y : list Z) (X_min : list row) (n : nat)
    : res (list bool * list xnum) :=
  do nd <- ab_attempt p mj X_ss y X_min n;
  match more with
  | 0 => Ok nd
  | S more' => if length (where_ (fst nd)) <? 2 then ab_safe more' (ab_relax p) mj X_ss y X_min n else Ok nd
  end.

(** ASMOBD.sampling_algorithm, _asmobd.py:357-418. *)
Definition asmobd_algorithm (p : asmobd_params) (r : rng) (st : stats) (D : dataset) : res (list row * list Z) :=
  do n <- det_n_to_sample_st (ab_proportion p) st;
  if n =? 0 then Ok (d_X D, d_y D)
  else
    let mm := std_fit sd (d_dim D) (d_X D) in
    let X_ss := map (mm_transform mm) (d_X D) in
    let X_min := rows_with (min_label st) X_ss (d_y D) in
    do nd <- ab_safe 3 p (maj_label st) X_ss (d_y D) X_min n;
    let kept := select (fst nd) X_min in
    if length kept <=? 2 then Ok (d_X D, d_y D)
    else
      let density := fix_density (select (fst nd) (snd nd)) in
      let k := Nat.min (length kept) (ab_min_samples p + 1) in
      do ind <- nn kept kept k;
      do samples <- sample_simplex volume (ab_ss p) (mk_args kept (d_dim D) ind k (Some density) None None false None) n r;
      Ok (extended D st (map (mm_inverse mm) samples)).

Definition asmobd_sample p r D := sample_with checks_default (asmobd_algorithm p r) D.

End Samplers.
