(** Model of the oversamplers ISOMAP_Hybrid, SL_graph_SMOTE, SVM_balance, MSYN,
    Edge_Det_SMOTE, MCT, AHC and LLE_SMOTE.

    Arithmetic is exact.  Nearest neighbours are given by [nn], distances by
    [dist], Euclidean lengths by [norm]; embeddings, classifiers, k-means centres,
    the dendrogram and the solver of linear equations are arguments of the
    definitions using them. *)

From Coq Require Import List ZArith QArith Bool Arith.
From Verif Require Import Np PyVal SimplexModel Float64 SamplerModel BaseModel NoiseModel DangerModel ClusterModel ClusterOversModel CompModel LevelModel.
Import ListNotations.
Open Scope nat_scope.

Section Wrap.

Variable volume : list row -> Q.
Variable dist : row -> row -> Q.
Variable norm : row -> Q.
Variable nn : list row -> list row -> nat -> res (list (list nat)).

(** ** ISOMAP_Hybrid *)

(** [np.sum(y)] and [np.sum(y == 0)] of line 166. *)
Definition ih_too_few (y : list Z) : bool :=
  (zsum y <=? 2)%Z || (length (filter (Z.eqb 0) y) <=? 2).

(** ISOMAP_Hybrid.sampling_algorithm, _isomap_hybrid.py:132-171.  [iso X y] is
    Isomap's fit_transform, an array with [nc] columns. *)
Definition isomap_algorithm (iso : list row -> list Z -> res (list row)) (nc : nat) (p : smote_params) (r : rng)
    (st : stats) (D : dataset) : res (list row * list Z) :=
  do X_trans <- iso (d_X D) (d_y D);
  do sm <- smote_sample volume nn p r (mk_data X_trans nc (d_y D));
  do final <- ncr_remove_noise nn (fst sm) (snd sm);
  if ih_too_few (snd final) then Ok sm else Ok final.

Definition isomap_sample iso nc p r D :=
  sample_with checks_default (isomap_algorithm iso nc p r) D.

(** ** SL_graph_SMOTE *)

(** Sign of scipy.stats.skew: the third central moment (times the number of
    entries).  All entries equal: skew is NaN, and NaN < 0 is false like 0 < 0. *)
Definition third_moment (v : list Q) : Q :=
  let m := (qsum v / inject_Z (Z.of_nat (length v)))%Q in
  qsum (map (fun x => ((x - m) * (x - m) * (x - m))%Q) v).

(** Lines 129-144: sums of the labels of the neighbours. *)
Definition sl_levels (k : nat) (st : stats) (D : dataset) : res (list Q) :=
  let n_neighbors := Nat.min (length (d_X D)) k in
  do indices <- nn (d_X D) (rows_with (min_label st) (d_X D) (d_y D)) n_neighbors;
  mapM (fun t => do l <- gather (d_y D) t; Ok (inject_Z (zsum l))) indices.

(** SL_graph_SMOTE.sampling_algorithm, _sl_graph_smote.py:113-171.  The
    parameter k_neighbors of Borderline_SMOTE1 keeps its default, 5. *)
Definition sl_graph_algorithm (p : smote_params) (rs : nat -> rng) (r : rng) (st : stats) (D : dataset)
    : res (list row * list Z) :=
  do n <- det_n_to_sample_st (sm_proportion p) st;
  if n =? 0 then Ok (d_X D, d_y D)
  else
    do levels <- sl_levels (sm_n_neighbors p) st D;
    if Qlt_b (third_moment levels) 0
    then safe_level_sample nn (mk_comp (sm_proportion p) (sm_n_neighbors p)) rs D
    else border1_sample volume nn (mk_border (sm_proportion p) (sm_n_neighbors p) 5 (sm_ss p)) r D.

Definition sl_graph_sample p rs r D :=
  sample_with checks_default (sl_graph_algorithm p rs r) D.

(** ** SVM_balance *)

Definition svm_C_params : list Q := [1 # 100; 1 # 10; 1; 10]%Q.

(** The loop of _svm_balance.py:145-156; [score C] is the mean cross validation
    score. *)
Definition svm_best (score : Q -> Q) : Q * Q :=
  fold_left (fun best c => if Qlt_b (fst best) (score c) then (score c, c) else best)
            svm_C_params (0, 1 # 100)%Q.

(** SVM_balance.sampling_algorithm, _svm_balance.py:120-162.  [score X y v C] and
    [predict X y C] stand for the scaler and the support vector machine. *)
Definition svm_algorithm (score : list row -> list Z -> nat -> Q -> Q) (predict : list row -> list Z -> Q -> list Z)
    (p : smote_params) (r : rng) (st : stats) (D : dataset) : res (list row * list Z) :=
  do sm <- smote_sample volume nn p r D;
  let (X, y) := sm in
  let validator := Nat.min 5 (length (filter (Z.eqb (min_label st)) y)) in
  let best_C := snd (svm_best (score X y validator)) in
  Ok (X, predict X y best_C).

Definition svm_sample score predict p r D :=
  sample_with checks_default (svm_algorithm score predict p r) D.

(** ** MSYN *)

(** MSYN.determine_nearest_hit_miss_dist, _msyn.py:181-208, for row [i]. *)
Definition msyn_hit_miss (X : list row) (y : list Z) (ind : list (list nat)) (i : nat) : res (Q * Q) :=
  do t <- get ind i;
  do x <- get X i;
  do t0 <- get t 0; do y0 <- get y t0;
  do ys <- gather y (skipn 1 t);
  let hit_mask := map (Z.eqb y0) ys in
  do h <- get (skipn 1 t) (argmax_bool hit_mask); do xh <- get X h;
  do m <- get (skipn 1 t) (argmax_bool (map negb hit_mask)); do xm <- get X m;
  Ok (dist x xh, dist x xm).

Definition half : Q := 1 # 2.

(** MSYN.determine_Delta_P_N and determine_f_3, _msyn.py:129-177 and 210-251, for
    one new row.  The hit distances of minority rows and the miss distances of
    majority rows are cut at the distance to the new row.  Division by zero gives
    NaN or infinity. *)
Definition msyn_f3 (X : list row) (hm : list (Q * Q)) (min_indices maj_indices : list nat) (x : row) : res Q :=
  do P <- mapM (fun i => do h <- get hm i; do z <- get X i;
      let d := dist z x in
      let theta := (half * (snd h - fst h))%Q in
      let hit := if Qlt_b (fst h) d then fst h else d in
      Ok (half * (snd h - hit) - theta)%Q) min_indices;
  do N <- mapM (fun i => do h <- get hm i; do z <- get X i;
      let d := dist z x in
      let theta := (half * (snd h - fst h))%Q in
      let miss := if Qlt_b (snd h) d then snd h else d in
      Ok (half * (miss - fst h) - theta)%Q) maj_indices;
  let den := (qsum P + (1 # 100))%Q in
  if Qeq_bool den 0 then Err NotANumber else Ok (- qsum N / den)%Q.

(** [pressure * 3], _msyn.py:274. *)
Definition f_three : f64 := f_of_Z 3.
Definition times_three (s : strategy) : strategy :=
  match s with
  | StInt z => StInt (z * 3)
  | StFloat f => StFloat (f_mul f f_three)
  | StOther => StOther
  end.

(** MSYN.sampling_algorithm, _msyn.py:253-300.  No rows to choose from: the
    unpacking of line 291 raises ValueError. *)
Definition msyn_algorithm (p : smote_params) (r : rng) (st : stats) (D : dataset) : res (list row * list Z) :=
  do n <- det_n_to_sample_st (sm_proportion p) st;
  if n =? 0 then Ok (d_X D, d_y D)
  else
    do sm <- smote_sample volume nn (mk_smote (times_three (sm_proportion p)) (sm_n_neighbors p) (sm_ss p)) r D;
    let X_new := skipn (length (d_X D)) (fst sm) in
    do ind <- nn (d_X D) (d_X D) (length (d_X D));
    do hm <- mapM (msyn_hit_miss (d_X D) (d_y D) ind) (seq 0 (length (d_X D)));
    do f3 <- mapM (msyn_f3 (d_X D) hm (where_ (map (Z.eqb (min_label st)) (d_y D)))
                              (where_ (map (Z.eqb (maj_label st)) (d_y D)))) X_new;
    if length f3 =? 0 then Err ValueError
    else
      do samples <- gather X_new (firstn n (argsort f3));
      Ok (extended D st samples).

Definition msyn_sample p r D :=
  sample_with checks_default (msyn_algorithm p r) D.

(** ** Edge_Det_SMOTE *)

(** One attribute in Edge_Det_SMOTE.determine_magnitudes,
    _edge_det_smote.py:134-142. *)
Definition edge_attribute (y : list Z) (magnitudes : list Q) (col : list Q) : list Q :=
  let ind := argsort col in
  let label := fun j => nth (nth j ind 0) y 0%Z in
  fold_left (fun m j =>
      let i := nth j ind 0 in
      let c := Z.sub (label (j - 1)) (label (j + 1)) in
      set_nth i (nth i m 0 + inject_Z (c * c))%Q m)
    (seq 1 (length ind - 2)) magnitudes.

(** Edge_Det_SMOTE.determine_magnitudes, _edge_det_smote.py:122-151. *)
Definition edge_magnitudes (root : Q -> Q) (mn : Z) (D : dataset) : res (list Q) :=
  let cols := map (fun j => map (fun x => nth j x 0%Q) (d_X D)) (seq 0 (d_dim D)) in
  let m := fold_left (edge_attribute (d_y D)) cols (repeat 0%Q (length (d_X D))) in
  let m := rows_with mn m (d_y D) in
  let m := map (fun q => if Qlt_b q 0 then 0%Q else q) m in
  normalize (map root (fix_density (map Fin m))).

(** Edge_Det_SMOTE.sampling_algorithm, _edge_det_smote.py:153-201. *)
Definition edge_det_algorithm (root : Q -> Q) (p : smote_params) (r : rng) (st : stats) (D : dataset)
    : res (list row * list Z) :=
  do n <- det_n_to_sample_st (sm_proportion p) st;
  if n =? 0 then Ok (d_X D, d_y D)
  else
    let X_min := rows_with (min_label st) (d_X D) (d_y D) in
    do magnitudes <- edge_magnitudes root (min_label st) D;
    let k := Nat.min (length X_min) (sm_n_neighbors p + 1) in
    do ind <- nn X_min X_min k;
    do samples <- sample_simplex volume (sm_ss p)
      (mk_args X_min (d_dim D) ind k (Some magnitudes) None None false None) n r;
    Ok (extended D st samples).

Definition edge_det_sample root p r D :=
  sample_with checks_default (edge_det_algorithm root p r) D.

(** ** MCT *)

(** MCT.sampling_algorithm, _mct.py:107-152. *)
Definition mct_algorithm (p : smote_params) (r : rng) (st : stats) (D : dataset) : res (list row * list Z) :=
  do n <- det_n_to_sample_st (sm_proportion p) st;
  if n =? 0 then Ok (d_X D, d_y D)
  else
    let X_min := rows_with (min_label st) (d_X D) (d_y D) in
    let k := Nat.min (length X_min) (sm_n_neighbors p + 1) in
    do ind <- nn X_min X_min k;
    do x_med <- mapM (fun j => median (map (fun x => nth j x 0%Q) X_min)) (seq 0 (d_dim D));
    let distances := map (fun x => norm (vsub x_med x)) X_min in
    let distribution := fix_density (map (fun d => Fin (qsum distances - d)%Q) distances) in
    do samples <- sample_simplex volume (sm_ss p)
      (mk_args X_min (d_dim D) ind k (Some distribution) None None false None) n r;
    Ok (extended D st samples).

Definition mct_sample p r D :=
  sample_with checks_default (mct_algorithm p r) D.

(** ** AHC *)

Inductive ahc_strategy := AhcMin | AhcMaj | AhcMinMaj.

(** cluster_centers, _ahc.py:113-139.  [memo] is the pair of lists clus_cent and
    weights; [limit] is what is left of the interpreter's recursion limit. *)
Fixpoint ahc_centers (limit : nat) (X : list row) (children : list (nat * nat)) (idx : nat)
    (memo : list (option (row * Q))) : res ((row * Q) * list (option (row * Q))) :=
  match limit with
  | O => Err RecursionError
  | S limit' =>
    if idx <? length X then do x <- get X idx; Ok ((x, 1%Q), memo)
    else
      let c := idx - length X in
      do m <- get memo c;
      match m with
      | Some cw => Ok (cw, memo)
      | None =>
        do ab <- get children c;
        do ra <- ahc_centers limit' X children (fst ab) memo;
        let '((a_cent, w_a), memo1) := ra in
        do rb <- ahc_centers limit' X children (snd ab) memo1;
        let '((b_cent, w_b), memo2) := rb in
        let w := (w_a + w_b)%Q in
        let cent := map (fun q => q / w)%Q (vadd (vscale w_a a_cent) (vscale w_b b_cent)) in
        Ok ((cent, w), set_nth c (Some (cent, w)) memo2)
      end
  end.

(** AHC.sample_minority, _ahc.py:96-143.  [children X] is the attribute
    [children_] of the clustering. *)
Definition ahc_minority (children : list row -> list (nat * nat)) (limit : nat) (X : list row) : res (list row) :=
  let ch := children X in
  match rev ch with
  | [] => Err IndexError
  | lst :: _ =>
    do r <- ahc_centers limit X ch (snd lst + 1) (repeat None (length ch));
    mapM (fun m => match m with Some cw => Ok (fst cw) | None => Err ValueError end) (snd r)
  end.

(** AHC.sampling_algorithm, _ahc.py:145-203.  [centers k X] are the centres
    k-means finds, _ahc.py:78-94. *)
Definition ahc_algorithm (children : list row -> list (nat * nat)) (centers : nat -> list row -> res (list row))
    (limit : nat) (s : ahc_strategy) (st : stats) (D : dataset) : res (list row * list Z) :=
  let X_min := rows_with (min_label st) (d_X D) (d_y D) in
  let X_maj := rows_with (maj_label st) (d_X D) (d_y D) in
  match s with
  | AhcMaj =>
    do maj <- centers (length X_min) X_maj;
    Ok (X_min ++ maj, repeat (min_label st) (length X_min) ++ repeat (maj_label st) (length maj))
  | AhcMin =>
    do new <- ahc_minority children limit X_min;
    Ok (new ++ X_min ++ X_maj,
        repeat (min_label st) (length new + length X_min) ++ repeat (maj_label st) (length X_maj))
  | AhcMinMaj =>
    do new <- ahc_minority children limit X_min;
    do maj <- centers (Nat.min (length X_maj) (length new + length X_min)) X_maj;
    Ok (new ++ X_min ++ maj,
        repeat (min_label st) (length new + length X_min) ++ repeat (maj_label st) (length maj))
  end.

Definition ahc_sample children centers limit s D :=
  sample_with checks_default (ahc_algorithm children centers limit s) D.

(** ** LLE_SMOTE *)

Definition dot (a b : row) : Q := qsum (map2 Qmult a b).

(** LLE_SMOTE.solve_for_weights, _lle_smote.py:139-164.  [solve C] is a solution
    of C w = (1, .., 1) or [None] for LinAlgError. *)
Definition lle_weights (solve : list row -> option (list Q)) (xi : row) (Z : list row) : res (list Q) :=
  let Z' := map (fun z => vsub z xi) Z in
  let C := map (fun a => map (dot a) Z') Z' in
  let weights := match solve C with
                 | Some w => if Qlt_b (10 ^ 16) (dot w w) then repeat 1%Q (length C) else w
                 | None => repeat 1%Q (length C)
                 end in
  normalize weights.

(** LLE_SMOTE.embed_in_original_space, _lle_smote.py:166-192. *)
Definition lle_embed (solve : list row -> option (list Q)) (dim : nat) (X_trans X_min : list row) (k : nat) (raw : list row)
    : res (list row) :=
  do ind <- nn X_trans raw k;
  mapM (fun st => do Z <- gather X_trans (snd st);
                  do w <- lle_weights solve (fst st) Z;
                  do V <- gather X_min (snd st);
                  Ok (weighted_sum dim w V)) (combine raw ind).

Record lle_params := mk_lle {
  ll_proportion : strategy; ll_n_neighbors : nat; ll_n_components : nat; ll_ss : ss_params }.

(** LLE_SMOTE.sampling_algorithm, _lle_smote.py:194-264.  [lle k c X] is the
    locally linear embedding with k neighbours into c dimensions. *)
Definition lle_algorithm (lle : nat -> nat -> list row -> res (list row)) (solve : list row -> option (list Q))
    (p : lle_params) (r : rng) (st : stats) (D : dataset) : res (list row * list Z) :=
  do n <- det_n_to_sample_st (ll_proportion p) st;
  if n =? 0 then Ok (d_X D, d_y D)
  else
    let X_min := rows_with (min_label st) (d_X D) (d_y D) in
    let n_components := Nat.min (ll_n_components p) (d_dim D) in
    do X_trans <- lle (Nat.min (ll_n_neighbors p) (length X_min - 1)) n_components X_min;
    let k := Nat.min (ll_n_neighbors p + 1) (length X_trans) in
    do ind <- nn X_trans X_trans k;
    do raw <- sample_simplex volume (ll_ss p)
      (mk_args X_trans n_components ind k None None None false None) n r;
    do samples <- lle_embed solve (d_dim D) X_trans X_min k raw;
    Ok (extended D st samples).

Definition lle_sample lle solve p r D :=
  sample_with checks_default (lle_algorithm lle solve p r) D.

End Wrap.
