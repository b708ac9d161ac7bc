(** Oversamplers built on boosting weights, fuzzy rough sets, self organising
    maps, Voronoi cells and geometric means: SMOTEWB, SMOTE_FRST_2T, SOMO,
    V_SYNTH, DSMOTE.

    Numbers are exact rationals.  Nearest neighbours, distances, decision trees,
    the self organising map, PCA, Voronoi tessellations, geometric means and the
    score DSMOTE maximises are parameters here.  Metric learning ([nn_params])
    only changes the distance behind [nn] and [dist]. *)

From Coq Require Import List ZArith QArith Qabs Qminmax Bool Arith Qround.
From Verif Require Import Np PyVal Float64 SimplexModel SamplerModel BaseModel UnderModel DangerModel ClusterOversModel CompModel NearModel LevelModel WrapModel DirModel RegionModel SearchModel GraphModel.
Import ListNotations.
Open Scope nat_scope.

(** [random_state.choice(np.arange(b), m, replace=False)]: the answer to request
    number [t] of its kind.  Fewer than [m] things raise ValueError. *)
Definition subsets := nat -> nat -> nat -> list nat.
Definition choice_without (c : subsets) (t b m : nat) : res (list nat) :=
  if b <? m then Err ValueError else Ok (c t b m).

Section Samplers.

Variable volume : list row -> Q.
Variable dist : row -> row -> Q.
Variable nn : list row -> list row -> nat -> res (list (list nat)).

(** ** SMOTEWB *)

(** boosted_weights, _smotewb.py:107-143: one weight per row, made with decision
    trees. *)
Variable boosted : list row -> list Z -> list Q.

(** noise_threshold, _smotewb.py:145-159. *)
Definition noise_mask (th : Q) (w : list Q) : list bool := map (Qlt_b th) w.

(** The thresholds of noise_detection, _smotewb.py:179-183: twice the size of the other
    class over the squared number of rows. *)
Definition wb_threshold (other n : nat) : Q :=
  (2 * inject_Z (Z.of_nat other) / (inject_Z (Z.of_nat n) * inject_Z (Z.of_nat n)))%Q.

(** first_majority_index, _smotewb.py:190-203, one row. *)
Definition first_majority (mj : Z) (labels : list Z) (none : nat) : nat :=
  match first_true_from 0 (map (Z.eqb mj) labels) with Some i => i | None => none end.

(** Lines 282-288 for one minority row: one less for rows that are not noise, not
    below 0, at most [top]. *)
Definition wb_reach (top : nat) (noisy : bool) (k : nat) : nat :=
  Nat.min top (if noisy then k else k - 1).

(** Lines 331-347: the rows made from minority row [i]. *)
Definition wb_rows (d : draws) (X_good X_min : list row) (i : nat) (noisy : bool) (t : list nat) (k c : nat) : res (list row) :=
  do x <- get X_min i;
  if k =? 0 then Ok (if noisy then [] else repeat x c)
  else
    let near := if noisy then firstn k t else firstn k (skipn 1 t) in
    if length near =? 0 then Ok []
    else mapM (fun s =>
      do a <- randint d i s (length near);
      do j <- get near a;
      do v <- get X_good j;
      Ok (between (dr_unif d i s) x v)) (seq 0 c).

(** SMOTEWB.sampling_algorithm, _smotewb.py:205-356.  The inner SMOTE objects get
    their own random numbers [r].  Without any new row [np.vstack] meets an array
    of the wrong shape. *)
Definition smotewb_algorithm (proportion : strategy) (ss : ss_params) (d : draws) (c : subsets) (r : rng) (st : stats) (D : dataset)
    : res (list row * list Z) :=
  do n <- det_n_to_sample_st proportion st;
  if n =? 0 then Ok (d_X D, d_y D)
  else
    let mn := min_label st in let mj := maj_label st in
    let w := boosted (d_X D) (d_y D) in
    let X_min := rows_with mn (d_X D) (d_y D) in
    let X_maj := rows_with mj (d_X D) (d_y D) in
    let noisy := noise_mask (wb_threshold (length X_maj) (length (d_y D))) (rows_with mn w (d_y D)) in
    let noisy_maj := noise_mask (wb_threshold (length X_min) (length (d_y D))) (rows_with mj w (d_y D)) in
    let k_max := length X_maj / length X_min in
    let good_min := select (map negb noisy) X_min in
    let good_maj := select (map negb noisy_maj) X_maj in
    let X_good := good_min ++ good_maj in
    let y_good := repeat mn (length good_min) ++ repeat mj (length good_maj) in
    let smote := smote_sample volume nn (mk_smote proportion 5 ss) r D in
    if length X_good =? 0 then smote
    else
      let k := Nat.min (length X_good) (k_max + 1) in
      do indices <- nn X_good X_min k;
      do firsts <- mapM (fun t => do labels <- gather y_good t; Ok (first_majority mj labels (k_max + 1))) indices;
      let ks := map2 (wb_reach (Nat.min k k_max)) noisy firsts in
      let usable := where_ (map2 (fun b k => negb ((k =? 0) && b)) noisy ks) in
      if length usable =? 0 then smote
      else
        let per := (n + length usable - 1) / length usable in
        let diff := per * length usable - n in
        do drawn <- (if 0 <? diff then choice_without c 0 (length usable) diff else Ok []);
        do fewer <- gather usable drawn;
        let C := fun i => if mem usable i then if mem fewer i then per - 1 else per else 0 in
        do parts <- mapM (fun i =>
          do b <- get noisy i; do t <- get indices i; do k <- get ks i;
          wb_rows d X_good X_min i b t k (C i)) (seq 0 (length X_min));
        let samples := concat parts in
        if length samples =? 0 then Err ValueError else Ok (extended D st samples).

Definition smotewb_sample proportion ss d c r D := sample_with checks_default (smotewb_algorithm proportion ss d c r) D.

(** ** SMOTE_FRST_2T *)

Record frst_params := mk_frst { fr_n_neighbors : nat; fr_gamma_S : Q; fr_gamma_M : Q; fr_ss : ss_params }.

(** pos_cache, _smote_frst_2t.py:131-154, one entry: with [D] columns,
    [1 - max(0, (D - dist) - D + 1)]. *)
Definition pos (dim : nat) (x z : row) : Q :=
  let D := inject_Z (Z.of_nat dim) in
  (1 - q_max 0 ((D - l1 x z) - D + 1))%Q.

(** [np.min(pos_cache(refs, .), axis=0) < gamma] for one column. *)
Definition close_to (dim : nat) (gamma : Q) (refs : list row) (z : row) : bool := existsb (fun x => Qlt_b (pos dim x z) gamma) refs.

Record frst_state := mk_frst_state {
  fs_maj : list row; fs_refs : list row; fs_synth : list row; fs_relab : list row; fs_S : Q; fs_M : Q }.

(** The proportion of line 262: [np.max(\[1.1 / diff, 0.2\])]. *)
Definition frst_proportion (diff : Z) : f64 :=
  let a := f_div (f_div (f_of_Z 11) (f_of_Z 10)) (f_of_Z diff) in
  let b := f_div (f_of_Z 2) (f_of_Z 10) in
  if f_gtb b a then b else a.

(** One pass of the loop of iteration, _smote_frst_2t.py:180-234, given what SMOTE
    returned.  The cache of memberships is a function of its rows ([fs_refs]: the
    minority rows, the rows relabelled and the rows added so far) and of the
    remaining majority rows, and is recomputed here. *)
Definition frst_pass (dim : nat) (X_min : list row) (i : nat) (X_samp : list row) (s : frst_state) : frst_state :=
  let gS := if length (fs_synth s) <? i then (fs_S s * (11 # 10))%Q else fs_S s in
  let added := filter (close_to dim gS X_min) X_samp in
  let near := close_to dim (fs_M s) (fs_refs s) in
  let gone := filter near (fs_maj s) in
  if (Z.of_nat (length (fs_maj s)) - Z.of_nat (length X_min) <? 2 * Z.of_nat (length gone))%Z
  then mk_frst_state (fs_maj s) (fs_refs s ++ added) (fs_synth s ++ added) (fs_relab s) gS (fs_M s * (9 # 10))
  else mk_frst_state (filter (fun x => negb (near x)) (fs_maj s)) (fs_refs s ++ gone ++ added) (fs_synth s ++ added)
         (fs_relab s ++ gone) gS (fs_M s).

(** The loop; [more] passes are left of the 100. *)
Fixpoint frst_loop (dim : nat) (X_min : list row) (smote : nat -> res (list row)) (more i : nat) (s : frst_state) : res frst_state :=
  if length X_min + length (fs_synth s) + length (fs_relab s) <? length (fs_maj s) then
    match more with
    | 0 => Ok s
    | S more =>
      do X_samp <- smote i;
      frst_loop dim X_min smote more (S i) (frst_pass dim X_min i X_samp s)
    end
  else Ok s.

(** SMOTE_FRST_2T.sampling_algorithm, _smote_frst_2t.py:238-284.  The SMOTE object
    goes on with its random numbers: [rs i] in pass [i]. *)
Definition frst_algorithm (p : frst_params) (rs : nat -> rng) (st : stats) (D : dataset) : res (list row * list Z) :=
  let mn := min_label st in let mj := maj_label st in
  let X_min0 := rows_with mn (d_X D) (d_y D) in
  let X_maj0 := rows_with mj (d_X D) (d_y D) in
  if length X_maj0 <=? length X_min0 then Ok (d_X D, d_y D)
  else
    let mm := mm_fit (d_dim D) (d_X D) in
    let X := map (mm_transform mm) (d_X D) in
    let X_min := rows_with mn X (d_y D) in
    let X_maj := rows_with mj X (d_y D) in
    let prop := frst_proportion (Z.of_nat (length X_maj0) - Z.of_nat (length X_min0)) in
    let smote i :=
      do out <- smote_sample volume nn (mk_smote (StFloat prop) (fr_n_neighbors p) (fr_ss p)) (rs i) (mk_data X (d_dim D) (d_y D));
      Ok (skipn (length X) (fst out)) in
    do s <- frst_loop (d_dim D) X_min smote 100 0 (mk_frst_state X_maj X_min [] [] (fr_gamma_S p) (fr_gamma_M p));
    let mins := X_min ++ fs_synth s ++ fs_relab s in
    Ok (map (mm_inverse mm) (fs_maj s ++ mins), repeat mj (length (fs_maj s)) ++ repeat mn (length mins)).

Definition frst_sample p rs D := sample_with checks_default (frst_algorithm p rs) D.

(** ** SOMO *)

Definition cell := (Z * Z)%type.
Definition cell_eqb (a b : cell) : bool := (Z.eqb (fst a) (fst b) && Z.eqb (snd a) (snd b)).

(** The trained map: the cell won by each row (minisom, trained with seed 3
    whatever the random state of the sampler). *)
Variable winner : list row -> row -> cell.

(** The keys of the dictionaries of construct_grid, _somo.py:124-168, in order of
    first appearance. *)
Fixpoint first_seen (l : list cell) : list cell :=
  match l with
  | [] => []
  | c :: l' => c :: filter (fun c' => negb (cell_eqb c c')) (first_seen l')
  end.

(** [X\[grid\[key\]\]] for the rows whose label passes the test. *)
Definition cell_rows (test : Z -> bool) (X : list row) (y : list Z) (key : cell) : list row :=
  map fst (filter (fun xl => cell_eqb key (winner X (fst xl)) && test (snd xl)) (combine X y)).

(** determine_densities, _somo.py:170-204, for one cell.  (The mean is of all
    pairs of rows, a row with itself included.) *)
Definition somo_density (c : list row) : Q :=
  let m := (qsum (map (fun x => qsum (map (dist x) c)) c) / inject_Z (Z.of_nat (length c * length c)))%Q in
  if (1 <? length c) && Qlt_b 0 m then (inject_Z (Z.of_nat (length c)) / (m * m))%Q else 10%Q.

(** determine_pair_densities, _somo.py:206-225: the keys, in order. *)
Definition somo_pairs (keys : list cell) : list (cell * cell) :=
  flat_map (fun k =>
    flat_map (fun st => let k' := ((fst k + fst st)%Z, (snd k + snd st)%Z) in
                        if existsb (cell_eqb k') keys then [(k, k')] else [])
             [(0, 1); (0, -1); (1, 0); (-1, 0)]%Z) keys.

(** create_density_from_dict, _somo.py:227-242. *)
Definition somo_weights (l : list Q) : list Q := fix_density (map (fun q => Fin (1 / q)) l).

(** [scipy.linalg.circulant(np.arange(n))]. *)
Definition circulant (n : nat) : list (list nat) :=
  map (fun i => map (fun j => (i + n - j) mod n) (seq 0 n)) (seq 0 n).

(** The loops over [np.unique(clusters, return_counts=True)] in _somo.py:263-274
    and 338-346; they start from an empty array. *)
Definition by_cell (call : nat -> nat -> res (list row)) (chosen : list nat) : res (list row) :=
  do parts <- mapM (fun cc => call (fst cc) (snd cc)) (unique_by Nat.eqb Nat.ltb chosen);
  Ok (concat parts).

(** generate_intra, _somo.py:244-285. *)
Definition somo_intra (ss : ss_params) (dim : nat) (cells : list (list row)) (weights : list Q) (n : nat) (rs : nat -> rng) : res (list row) :=
  do chosen <- np_choice (rs 0) (seq 0 (length cells)) n weights;
  by_cell (fun i k =>
    do c <- get cells i;
    sample_simplex volume ss (mk_args c dim (circulant (length c)) (length c) None None None false None) k (rs (2 + i))) chosen.

(** generate_inter_samples and generate_inter, _somo.py:287-357: two corners
    whatever [n_dim] is; the indices are [0, 0, 1, ...], the first one is not used. *)
Definition somo_inter (ss : ss_params) (dim : nat) (pairs : list (list row * list row)) (weights : list Q) (n : nat) (rs : nat -> rng) : res (list row) :=
  if length weights =? 0 then Ok []
  else
    do chosen <- np_choice (rs 1) (seq 0 (length pairs)) n weights;
    by_cell (fun i k =>
      do ab <- get pairs i;
      let '(a, b) := ab in
      sample_simplex volume (mk_ss 2 (ss_sampling ss) (ss_within ss) (ss_gauss ss))
        (mk_args a dim (map (fun _ => 0 :: seq 0 (length b)) a) (S (length b)) None None (Some b) false None) k
        (rs (2 + length weights + i))) chosen.

(** SOMO.sampling_algorithm, _somo.py:359-423. *)
Definition somo_algorithm (proportion : strategy) (ss : ss_params) (rs : nat -> rng) (st : stats) (D : dataset) : res (list row * list Z) :=
  do n <- det_n_to_sample_st proportion st;
  if n =? 0 then Ok (d_X D, d_y D)
  else
    let mn := min_label st in
    let mins := cell_rows (Z.eqb mn) (d_X D) (d_y D) in
    let majs := cell_rows (fun l => negb (Z.eqb mn l)) (d_X D) (d_y D) in
    let keys := filter (fun k => length (majs k) + 1 <? length (mins k) + 1) (first_seen (map (winner (d_X D)) (d_X D))) in
    if length keys =? 0 then Ok (d_X D, d_y D)
    else
      let density k := somo_density (mins k) in
      let pairs := somo_pairs keys in
      let weights := somo_weights (map density keys) in
      let pair_weights := somo_weights (map (fun ab => (density (fst ab) + density (snd ab))%Q) pairs) in
      let n_intra := if 0 <? length pair_weights then n / 2 else n in
      do intra <- somo_intra ss (d_dim D) (map mins keys) weights n_intra rs;
      do inter <- somo_inter ss (d_dim D) (map (fun ab => (mins (fst ab), mins (snd ab))) pairs) pair_weights (n - n_intra)
                    (fun i => rs (2 + length keys + i));
      Ok (extended D st (intra ++ inter)).

Definition somo_sample proportion ss rs D := sample_with checks_default (somo_algorithm proportion ss rs) D.

(** ** V_SYNTH *)

(** [PCA(n).fit(X)]: transform, explained_variance_ratio_, inverse_transform. *)
Record pca_fit := mk_pca { pca_to : row -> row; pca_ratio : list Q; pca_from : row -> row }.
Variable pca : nat -> list row -> res pca_fit.

(** [scipy.spatial.Voronoi(X)]: vertices, and for every ridge the two points and
    the vertices, -1 standing for a vertex at infinity. *)
Record voronoi_diagram := mk_voronoi { vo_vertices : list row; vo_ridges : list ((nat * nat) * list Z) }.
Variable voronoi : list row -> res voronoi_diagram.

Record v_params := mk_v { v_proportion : strategy; v_n_components : nat }.

(** add_bounding_box, _v_synth.py:96-122.  [randint(0, 1)] is always 0, so all rows
    of the box are the same lower corner. *)
Definition bounding_box (dim : nat) (X : list row) : list row :=
  let mins := map (fun j => let m := col_min (column j X) in (m - (1 # 10) * Qabs m)%Q) (seq 0 dim) in
  repeat mins (Nat.min 100 dim).

(** dimensionality_reduction, _v_synth.py:194-226: the last fit made and the number of
    components after the loop; no fit at all leaves the variables of line 226 unbound. *)
Fixpoint v_reduce (fuel n_components : nat) (X_bb : list row) (last : option pca_fit) : res (pca_fit * nat) :=
  if 1 <? n_components then
    match fuel with
    | 0 => Err OutOfFuel
    | S fuel =>
      do f <- pca n_components X_bb;
      let kept := length (filter (Qlt_b (1 # 100)) (pca_ratio f)) in
      if kept =? n_components then Ok (f, n_components) else v_reduce fuel kept X_bb (Some f)
    end
  else match last with Some f => Ok (f, n_components) | None => Err UnboundLocalError end.

(** filter_vectors_too_close, _v_synth.py:124-147: a row goes when a later one is closer
    than 0.001. *)
Fixpoint v_kept (P : list row) : list bool :=
  match P with
  | [] => []
  | x :: P' => negb (existsb (fun z => Qlt_b (dist x z) (1 # 1000)) P') :: v_kept P'
  end.

(** [vertices\[i\]] where -1 is the last one. *)
Definition vertex (vertices : list row) (i : Z) : res row :=
  if (i <? 0)%Z then (if (Z.of_nat (length vertices) + i <? 0)%Z then Err IndexError
                      else get vertices (Z.to_nat (Z.of_nat (length vertices) + i)))
  else get vertices (Z.to_nat i).

(** One pass of generate_samples, _v_synth.py:149-192. *)
Definition v_row (d : draws) (mn : Z) (points : list row) (y_pca : list Z) (V : voronoi_diagram) (dim : nat) (candidates : list nat) (t : nat) : res row :=
  do a <- randint d t 0 (length candidates);
  do face <- get candidates a;
  do ridge <- get (vo_ridges V) face;
  do corners <- mapM (vertex (vo_vertices V)) (snd ridge);
  do w <- normalize (map (dr_unif d t) (seq 0 (length corners)));
  let on_face := weighted_sum dim w corners in
  do l0 <- get y_pca (fst (fst ridge));
  do h <- get points (if Z.eqb l0 mn then fst (fst ridge) else snd (fst ridge));
  Ok (between (dr_unif d t (length corners)) on_face h).

(** V_SYNTH.sampling_algorithm, _v_synth.py:228-284.  The labels of the ridge points are
    looked up in [y] in lines 265-267 and in the filtered labels in line 184. *)
Definition v_synth_algorithm (p : v_params) (d : draws) (st : stats) (D : dataset) : res (list row * list Z) :=
  do n <- det_n_to_sample_st (v_proportion p) st;
  if n =? 0 then Ok (d_X D, d_y D)
  else
    let box := bounding_box (d_dim D) (d_X D) in
    let X_bb := d_X D ++ box in
    let y_bb := d_y D ++ repeat (-1)%Z (length box) in
    let n_components := Nat.min (d_dim D) (v_n_components p) in
    do fn <- v_reduce n_components n_components X_bb None;
    let '(f, n_components) := fn in
    if n_components =? 1 then Ok (d_X D, d_y D)
    else
      let P := map (pca_to f) X_bb in
      let points := select (v_kept P) P in
      let y_pca := select (v_kept P) y_bb in
      do V <- voronoi points;
      let y := d_y D in
      do cand <- mapM (fun ridge =>
        let '(a, b) := fst ridge in
        if (a <? length y) && (b <? length y) then
          do la <- get y a; do lb <- get y b; Ok (negb (Z.eqb la lb))
        else Ok false) (vo_ridges V);
      let candidates := where_ cand in
      if length candidates =? 0 then Ok (d_X D, d_y D)
      else
        do samples <- mapM (v_row d (min_label st) points y_pca V (length (pca_ratio f)) candidates) (seq 0 n);
        Ok (extended D st (map (pca_from f) samples)).

Definition v_synth_sample p d D := sample_with g_smote_checks (v_synth_algorithm p d) D.

(** ** DSMOTE *)

Record ds_params := mk_ds { ds_proportion : strategy; ds_rate : f64; ds_n_step : nat }.

(** [scipy.stats.gmean(., axis=0)]. *)
Variable gmean : list row -> row.

(** The score of a candidate, _dsmote.py:168-238: given the majority rows, the number of rows added
    so far, the current minority rows and the candidate; [None] is NaN. *)
Variable score : list row -> nat -> list row -> row -> option Q.

(** The part of calculate_abnormality, _dsmote.py:337-375, for one minority row: its mean
    distance from the other minority rows over its mean distance from the
    majority rows.  (numpy would go on with inf or NaN if the latter is 0; the
    model stops.) *)
Definition ds_abnormality (X_min X_maj : list row) (x : row) : res Q :=
  let m := inject_Z (Z.of_nat (length X_min)) in
  let d_min := (qsum (map (dist x) X_min) / m * m / (m - 1))%Q in
  let d_maj := (qsum (map (dist x) X_maj) / inject_Z (Z.of_nat (length X_maj)))%Q in
  if Qeq_bool d_maj 0 then Err NotANumber else Ok (d_min / d_maj)%Q.

(** One try of generate_one_sample, _dsmote.py:263-289: best score and candidate so far. *)
Definition ds_try (c : nat -> subsets) (X_maj X_min : list row) (added : nat) (best : Q * option row) (s : nat) : res (Q * option row) :=
  do three <- choice_without (c added) s (length X_min) 3;
  do rows <- gather X_min three;
  let g := gmean rows in
  match score X_maj added X_min g with
  | Some q => if Qlt_b (fst best) q then Ok (q, Some g) else Ok best
  | None => Ok best
  end.

(** generate_one_sample, _dsmote.py:240-291, and line 332: stacking [None] under
    rows of two or more numbers raises ValueError (with one column it would give an
    array of objects instead: not modelled). *)
Definition ds_one (p : ds_params) (c : nat -> subsets) (X_maj X_min : list row) (added : nat) : res (list row) :=
  let m := length X_min in
  do best <- foldM (ds_try c X_maj X_min added) (seq 0 (Nat.min (m * (m - 1) * (m - 2)) (ds_n_step p))) (0%Q, None);
  match snd best with Some g => Ok (X_min ++ [g]) | None => Err ValueError end.

(** The loop of sampling, _dsmote.py:325-333. *)
Fixpoint ds_grow (p : ds_params) (c : nat -> subsets) (X_maj : list row) (more added : nat) (X_min : list row) : res (list row) :=
  match more with
  | 0 => Ok X_min
  | S more =>
    do X_min' <- ds_one p c X_maj X_min added;
    ds_grow p c X_maj more (S added) X_min'
  end.

(** [MinMaxScaler(feature_range=(1e-6, 1 - 1e-6))] as an offset and a range per column. *)
Definition ds_fit (dim : nat) (X : list row) : list (Q * Q) :=
  map (fun lr => let s := (snd lr / (1 - 2 * (1 # 1000000)))%Q in ((fst lr - (1 # 1000000) * s)%Q, s)) (mm_fit dim X).

(** DSMOTE.sampling_algorithm, _dsmote.py:377-446. *)
Definition dsmote_algorithm (p : ds_params) (c : nat -> subsets) (st : stats) (D : dataset) : res (list row * list Z) :=
  do n <- det_n_to_sample_st (ds_proportion p) st;
  if n =? 0 then Ok (d_X D, d_y D)
  else
    let mm := ds_fit (d_dim D) (d_X D) in
    let X := map (mm_transform mm) (d_X D) in
    let X_min := rows_with (min_label st) X (d_y D) in
    let X_maj := rows_with (maj_label st) X (d_y D) in
    do abnormality <- mapM (ds_abnormality X_min X_maj) X_min;
    do rate <- int_of_f64 (f_mul (ds_rate p) (f_of_Z (Z.of_nat (length X_min))));
    let moved := firstn (Z.to_nat rate) (argsort (map Qopp abnormality)) in
    do moved_rows <- gather X_min moved;
    let X_maj := X_maj ++ moved_rows in
    let X_min := delete_idx X_min moved in
    do X_min <- ds_grow p c X_maj n 0 X_min;
    Ok (map (mm_inverse mm) (X_maj ++ X_min), repeat (maj_label st) (length X_maj) ++ repeat (min_label st) (length X_min)).

Definition dsmote_sample p c D := sample_with checks_default (dsmote_algorithm p c) D.

End Samplers.
