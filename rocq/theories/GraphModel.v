(** Oversamplers that follow graphs, games and neighbourhood structures:
    DBSMOTE, NEATER, VIS_RST, SOI_CJ, SYMPROD.

    Numbers are exact rationals.  Nearest neighbours, distances, DBSCAN, standard
    deviations and radius queries come from numpy and scikit-learn and are
    parameters here.  Metric learning ([nn_params]) only changes the distance
    behind [nn] and [dist]. *)

From Coq Require Import List ZArith QArith Qabs Qminmax Bool Arith Qround.
From Verif Require Import Np PyVal Float64 SimplexModel SamplerModel BaseModel UnderModel DangerModel ClusterOversModel CompModel NearModel LevelModel WrapModel DirModel SearchModel.
Import ListNotations.
Open Scope nat_scope.

(** ** The Bellman-Ford algorithm of _dbsmote.py

    A graph has the nodes [0 .. n-1]; entry [u] lists the neighbours of [u] with
    the weights of the edges.  [None] is infinity among the distances. *)

Definition graph := list (list (nat * Q)).

(** All edges in the order of the loops in lines 70-72. *)
Definition edges (g : graph) : list (nat * (nat * Q)) :=
  flat_map (fun ua => map (fun vw => (fst ua, vw)) (snd ua)) (combine (seq 0 (length g)) g).

Definition distances := list (option Q).
Definition parents := list (option nat).

(** initialize, _dbsmote.py:22-39. *)
Definition initialize (g : graph) (source : nat) : distances * parents :=
  (set_at source (Some 0%Q) (repeat None (length g)), repeat None (length g)).

(** [distance\[v\] > distance\[u\] + w]. *)
Definition longer (dv du : option Q) (w : Q) : bool :=
  match du, dv with
  | None, _ => false
  | Some _, None => true
  | Some a, Some b => Qlt_b (a + w) b
  end.

(** relax, _dbsmote.py:42-56. *)
Definition relax (s : distances * parents) (e : nat * (nat * Q)) : distances * parents :=
  let '(u, (v, w)) := e in
  let du := nth u (fst s) None in
  if longer (nth v (fst s) None) du w
  then (set_at v (option_map (fun a => a + w)%Q du) (fst s), set_at v (Some u) (snd s))
  else s.

(** bellman_ford, _dbsmote.py:59-76. *)
Definition bellman_ford (g : graph) (source : nat) : res (distances * parents) :=
  let s := fold_left (fun s _ => fold_left relax (edges g) s) (seq 0 (length g - 1)) (initialize g source) in
  if forallb (fun e => let '(u, (v, w)) := e in negb (longer (nth v (fst s) None) (nth u (fst s) None) w)) (edges g)
  then Ok s else Err AssertionError.

(** [while not parents\[path\[-1\]\] is None: path.append(parents\[path\[-1\]\])], lines 263-265. *)
Fixpoint follow (fuel : nat) (path : parents) (v : nat) : res (list nat) :=
  do p <- get path v;
  match p with
  | None => Ok [v]
  | Some u => match fuel with
              | 0 => Err OutOfFuel
              | S fuel' => do c <- follow fuel' path u; Ok (v :: c)
              end
  end.

(** [np.argmax] of a vector of booleans: the first true entry, 0 if there is none. *)
Fixpoint first_true_from (i : nat) (l : list bool) : option nat :=
  match l with [] => None | b :: l' => if b then Some i else first_true_from (S i) l' end.
Definition first_true (l : list bool) : nat := match first_true_from 0 l with Some i => i | None => 0 end.

(** [x \in l] for numbers. *)
Definition mem (l : list nat) (x : nat) : bool := existsb (Nat.eqb x) l.

(** [np.max(np.abs(x))]. *)
Definition max_abs (x : row) : Q := col_max (map Qabs x).

Section Samplers.

Variable volume : list row -> Q.
Variable dist : row -> row -> Q.
Variable nn : list row -> list row -> nat -> res (list (list nat)).

(** np.std of a column. *)
Variable sd : list Q -> Q.

(** ** DBSMOTE *)

Record db_params := mk_db { db_proportion : strategy; db_eps : Q; db_min_samples : nat; db_iter_limit : nat }.

(** [DBSCAN(eps, min_samples).fit(X).labels_]; [None] is the label -1. *)
Variable dbscan : Q -> nat -> list row -> list (option nat).

(** [np.max(labels) + 1]. *)
Definition num_labels (labels : list (option nat)) : nat :=
  fold_left (fun m l => match l with None => m | Some i => Nat.max m (S i) end) labels 0.

(** execute_dbscan, _dbsmote.py:172-205.  DBSCAN raises ValueError when
    min_samples is not positive.  [todo] is [db_iter_limit - step]. *)
Fixpoint dbscan_retry (p : db_params) (X_min : list row) (todo step : nat) (labels : list (option nat)) : res (list (option nat)) :=
  if num_labels labels =? 0 then
    match todo with
    | 0 => Ok labels
    | S todo' =>
      if db_min_samples p <=? step then Err ValueError
      else dbscan_retry p X_min todo' (S step) (dbscan (db_eps p * (3 # 2) ^ Z.of_nat step)%Q (db_min_samples p - step) X_min)
    end
  else Ok labels.
Definition execute_dbscan (p : db_params) (X_min : list row) : res (list (option nat)) :=
  dbscan_retry p X_min (db_iter_limit p - 1) 1 (dbscan (db_eps p) (db_min_samples p) X_min).

Definition is_label (i : nat) (l : option nat) : bool := match l with None => false | Some j => i =? j end.

(** The graph of a cluster, lines 224-241.  The distances returned by
    kneighbors are those of the rows. *)
Definition db_graph (p : db_params) (cluster : list row) (ind : list (list nat)) : graph :=
  map (fun it => let '(i, t) := it in
    let index_set := firstn (Nat.min (length cluster) (db_min_samples p + 1) - 1) (tl t) in
    let d := fun j => dist (nth i cluster []) (nth j cluster []) in
    map (fun j => (j, d j)) (filter (fun j => mem index_set j && Qlt_b (d j) (db_eps p)) (seq 0 (length cluster))))
    (combine (seq 0 (length ind)) ind).

(** One cluster of extract_shortest_paths, _dbsmote.py:219-252. *)
Definition db_paths (p : db_params) (dim : nat) (cluster : list row) : res (distances * parents) :=
  let k := length cluster in
  do ind <- nn cluster cluster k;
  do m <- mean_row dim cluster;
  do c <- nn cluster [m] k;
  do source <- entry c 0 0;
  bellman_ford (db_graph p cluster ind) source.

(** sample_between_points_componentwise, base/_oversampling.py:64-76: one share for the whole row. *)
Definition between (u : Q) (x y : row) : row := vadd x (vscale u (vsub y x)).

(** One pass of generate_samples, _dbsmote.py:254-296. *)
Definition db_row (d : draws) (clusters : list (list row)) (paths : list (distances * parents)) (weights : list Q) (t : nat) : res row :=
  let c := dr_p d t weights in
  do cluster <- get clusters c;
  do idx <- randint d t 0 (length cluster);
  do sp <- get paths c;
  do path <- follow (length cluster) (snd sp) idx;
  match path with
  | [] => Err IndexError
  | [a] => get cluster a
  | [a; b] => do x <- get cluster a; do y <- get cluster b; Ok (between (dr_unif d t 0) x y)
  | _ => do r <- randint d t 1 (length path - 1);
         do a <- get path r; do b <- get path (r + 1);
         do x <- get cluster a; do y <- get cluster b; Ok (between (dr_unif d t 0) x y)
  end.

(** DBSMOTE.sampling_algorithm, _dbsmote.py:303-344. *)
Definition dbsmote_algorithm (p : db_params) (d : draws) (st : stats) (D : dataset) : res (list row * list Z) :=
  do n <- det_n_to_sample_st (db_proportion p) st;
  if n =? 0 then Ok (d_X D, d_y D)
  else
    let mm := std_fit sd (d_dim D) (d_X D) in
    let X_min := rows_with (min_label st) (map (mm_transform mm) (d_X D)) (d_y D) in
    do labels <- execute_dbscan p X_min;
    let k := num_labels labels in
    if k =? 0 then Ok (d_X D, d_y D)
    else
      let clusters := map (fun i => select (map (is_label i) labels) X_min) (seq 0 k) in
      do paths <- mapM (db_paths p (d_dim D)) clusters;
      let sizes := map (fun c : list row => inject_Z (Z.of_nat (length c))) clusters in
      let weights := map (fun s => s / qsum sizes)%Q sizes in
      do samples <- mapM (db_row d clusters paths weights) (seq 0 n);
      Ok (extended D st (map (mm_inverse mm) samples)).

Definition dbsmote_sample p d D := sample_with checks_default (dbsmote_algorithm p d) D.

(** ** NEATER *)

Record neater_params := mk_neater {
  ng_proportion : strategy; ng_smote_n_neighbors : nat; ng_b : nat; ng_alpha : Q; ng_h : nat; ng_ss : ss_params }.

(** ADASYN's default d_th, 0.9. *)
Definition tolerated : f64 := f_div (f_of_Z 9) (f_of_Z 10).

(** The entries of the distance matrix after lines 385-387, [1e-8] for 0. *)
Definition closeness (alpha : Q) (d : Q) : Q :=
  let q := (1 / (if Qeq_bool d 0 then 1 # 100000000 else d))%Q in
  if Qlt_b alpha q then alpha else q.

(** The terms of the three sums, lines 148-221, for one synthetic row with the
    probabilities [p] and one of its neighbours with the probabilities [q]. *)
Definition term_mixed (c : Q) (p q : Q * Q) : Q :=
  (fst p * fst q + c * (snd p * fst q + fst p * snd q) + snd p * snd q)%Q.
Definition term_min (c : Q) (q : Q * Q) : Q := (c * fst q + snd q)%Q.
Definition term_maj (c : Q) (q : Q * Q) : Q := (fst q + c * snd q)%Q.

(** The new probabilities of one synthetic row, evolution, _neater.py:258-304;
    [cs] lists the closeness and the probabilities of its neighbours.  A zero
    denominator gives NaN. *)
Definition evolve (alpha : Q) (p : Q * Q) (cs : list (Q * (Q * Q))) : res (Q * Q) :=
  let mixed := qsum (map (fun cq => term_mixed (fst cq) p (snd cq)) cs) in
  let umin := qsum (map (fun cq => term_min (fst cq) (snd cq)) cs) in
  let umaj := qsum (map (fun cq => term_maj (fst cq) (snd cq)) cs) in
  if Qeq_bool (alpha + mixed) 0 then Err NotANumber
  else
    let p1 := (snd p * (alpha + umin) / (alpha + mixed))%Q in
    let p0 := (fst p * (alpha + umaj) / (alpha + mixed))%Q in
    if Qeq_bool (p0 + p1) 0 then Err NotANumber
    else Ok (p0 / (p0 + p1), p1 / (p0 + p1))%Q.

(** One round; the probabilities of the original rows stay. *)
Definition neater_round (alpha : Q) (X_all : list row) (n_orig : nat) (indices : list (list nat)) (prob : list (Q * Q)) (_ : nat)
    : res (list (Q * Q)) :=
  do new <- mapM (fun it =>
      do p <- get prob (n_orig + fst it);
      do x <- get X_all (n_orig + fst it);
      do cs <- mapM (fun j => do y <- get X_all j; do q <- get prob j; Ok (closeness alpha (dist x y), q)) (tl (snd it));
      evolve alpha p cs) (combine (seq 0 (length indices)) indices);
  Ok (firstn n_orig prob ++ new).

(** [np.argmax(prob, axis=1)] at one row: 0 or 1. *)
Definition strategy_label (p : Q * Q) : Z := if Qlt_b (fst p) (snd p) then 1%Z else 0%Z.

(** NEATER.sampling_algorithm and generate_new_samples, _neater.py:342-400.
    SMOTE and ADASYN are seeded with the same value; ADASYN keeps its other
    defaults.  kneighbors raises ValueError when more neighbours are wanted than
    there are rows. *)
Definition neater_algorithm (p : neater_params) (r_smote r_adasyn : rng) (st : stats) (D : dataset) : res (list row * list Z) :=
  do n <- det_n_to_sample_st (ng_proportion p) st;
  if n =? 0 then Ok (d_X D, d_y D)
  else
    do s <- smote_sample volume nn (mk_smote (ng_proportion p) (ng_smote_n_neighbors p) (ng_ss p)) r_smote D;
    do a <- adasyn_sample volume nn (mk_adasyn (ng_b p) (StFloat f_one) None tolerated (ng_ss p)) r_adasyn D;
    let n_orig := length (d_X D) in
    let X_all := fst s ++ skipn n_orig (fst a) in
    let X_syn := skipn n_orig X_all in
    if length X_all <? ng_b p + 1 then Err ValueError
    else
      do indices <- nn X_all X_syn (ng_b p + 1);
      let prob := map (fun l => if Z.eqb l (min_label st) then (0, 1)%Q else (1, 0)%Q) (d_y D)
                  ++ repeat (1 # 2, 1 # 2)%Q (length X_syn) in
      do prob' <- foldM (neater_round (ng_alpha p) X_all n_orig indices) (seq 0 (ng_h p)) prob;
      Ok (X_all, d_y D ++ map strategy_label (skipn n_orig prob')).

Definition neater_sample p r_smote r_adasyn D := sample_with checks_default (neater_algorithm p r_smote r_adasyn) D.

(** ** VIS_RST *)

Record vis_params := mk_vis { vi_proportion : strategy; vi_n_neighbors : nat; vi_ss : ss_params }.

(** [np.sum(y\[t\] == lab)]. *)
Definition tally (y : list Z) (lab : Z) (t : list nat) : res nat :=
  do labels <- gather y t; Ok (length (filter (Z.eqb lab) labels)).

(** relabel_boundary, _vis_rst.py:113-147: the new labels. *)
Definition vis_relabel (p : vis_params) (mn mj : Z) (X : list row) (y : list Z) : res (list Z) :=
  let k := Nat.min (length X) (vi_n_neighbors p + 1) in
  do ind <- nn X (rows_with mj X y) k;
  do counts <- mapM (tally y mj) ind;
  let boundary := map (fun c => negb (c =? k)) counts in
  let at_boundary := select boundary (where_ (map (Z.eqb mj) y)) in
  Ok (map (fun il => if mem at_boundary (fst il) then mn else snd il) (combine (seq 0 (length y)) y)).

Inductive vis_label := SAF | DAN | NOI.
Definition is_noi (l : vis_label) : bool := match l with NOI => true | _ => false end.
Definition is_dan (l : vis_label) : bool := match l with DAN => true | _ => false end.
Definition is_saf (l : vis_label) : bool := match l with SAF => true | _ => false end.

(** label_minority_samples, _vis_rst.py:149-182; the later assignment wins. *)
Definition vis_labels (p : vis_params) (mj : Z) (X : list row) (y : list Z) (X_min : list row) : res (list vis_label) :=
  let k := Nat.min (length X) (vi_n_neighbors p + 1) in
  do ind <- nn X X_min k;
  do counts <- mapM (count_neighbours y mj) ind;
  Ok (map (fun c => if 2 * c <? k - 1 then SAF else if c =? k - 1 then NOI else DAN) counts).

(** sampling_high_complexity and sampling_low_complexity, _vis_rst.py:209-301,
    [copied] telling which rows are copied.  A round draws at least as many base
    rows as are missing, so there is one round. *)
Definition vis_sampling (p : vis_params) (copied : vis_label -> bool) (rs : nat -> rng) (dim : nat) (X_min : list row) (labels : list vis_label)
    (ind_min : list (list nat)) (k n : nat) : res (list row) :=
  let keep := map (fun l => negb (is_noi l)) labels in
  let X_nn := select keep X_min in
  let copy_mask := map copied (select keep labels) in
  let ind_nn := select keep ind_min in
  do base <- choice_range (rs 0) (length X_nn) (Nat.max n 10);
  do flags <- gather copy_mask base;
  do copies <- gather X_nn (select flags base);
  let other := map negb copy_mask in
  do more <- sample_simplex volume (vi_ss p)
    (mk_args (select other X_nn) dim (map (fun t => tl t) (select other ind_nn)) (k - 1) None None (Some X_min) false None)
    (length (select (map negb flags) base)) (rs 1);
  Ok (firstn n (copies ++ more)).

(** generate_samples, _vis_rst.py:320-353, with set_mode, 184-207. *)
Definition vis_generate (p : vis_params) (rs : nat -> rng) (dim : nat) (X_min : list row) (labels : list vis_label) (n : nat) : res (list row) :=
  let safe := length (filter is_saf labels) in
  let danger := length (filter is_dan labels) in
  let k := Nat.min (length X_min) (vi_n_neighbors p + 1) in
  do ind_min <- nn X_min X_min k;
  if safe =? 0 then
    sample_simplex volume (vi_ss p) (mk_args X_min dim ind_min k None None None false None) n (rs 1)
  else if 3 * length X_min <? 10 * danger then vis_sampling p is_dan rs dim X_min labels ind_min k n
  else vis_sampling p is_saf rs dim X_min labels ind_min k n.

(** noise_removal, _vis_rst.py:355-380. *)
Definition vis_noise (p : vis_params) (mj : Z) (X : list row) (y : list Z) (samples : list row) : res (list row) :=
  let k := Nat.min (length X) (vi_n_neighbors p + 1) in
  do ind <- nn X samples k;
  do counts <- mapM (count_neighbours y mj) ind;
  Ok (select (map (fun c => c =? 0) counts) samples).

(** all_steps, _vis_rst.py:422-446, with the checks of lines 389-420: the new
    labels and the new rows. *)
Definition vis_steps (p : vis_params) (rs : nat -> rng) (mn mj : Z) (dim : nat) (X : list row) (y : list Z) (n : nat) : res (list Z * list row) :=
  do y1 <- vis_relabel p mn mj X y;
  if length (filter (Z.eqb mj) y1) <=? length (filter (Z.eqb mn) y1) then Err ValueError
  else
    let X_min := rows_with mn X y1 in
    do labels <- vis_labels p mj X y1 X_min;
    if forallb is_noi labels then Err ValueError
    else
      do samples <- vis_generate p rs dim X_min labels n;
      do kept <- vis_noise p mj X y1 samples;
      Ok (y1, kept).

(** VIS_RST.sampling_algorithm, _vis_rst.py:446-480. *)
Definition vis_rst_algorithm (p : vis_params) (rs : nat -> rng) (st : stats) (D : dataset) : res (list row * list Z) :=
  do n <- det_n_to_sample_st (vi_proportion p) st;
  if n =? 0 then Ok (d_X D, d_y D)
  else
    let mm := std_fit sd (d_dim D) (d_X D) in
    let X := map (mm_transform mm) (d_X D) in
    match vis_steps p rs (min_label st) (maj_label st) (d_dim D) X (d_y D) n with
    | Ok (y1, samples) => Ok (map (mm_inverse mm) (X ++ samples), y1 ++ repeat (min_label st) (length samples))
    | Err ValueError => Ok (d_X D, d_y D)
    | Err e => Err e
    end.

Definition vis_rst_sample p rs D := sample_with checks_default (vis_rst_algorithm p rs) D.

(** ** SOI_CJ *)

Record soi_params := mk_soi { so_proportion : strategy; so_interpolation : bool; so_ss : ss_params }.

(** init_clusters, _soi_cj.py:186-207: the neighbours before the first one that
    is not of the minority; none if all are. *)
Definition soi_init (y : list Z) (mn : Z) (t : list nat) : res (list nat) :=
  do labels <- gather y t;
  Ok (firstn (first_true (map (fun l => negb (Z.eqb l mn)) labels)) t).

(** The sets are objects: [objs] lists their elements, [slots] tells which object
    each place of the list [clusters] holds. *)
Record soi_state := mk_soi_state { objs : list (list nat); slots : list nat; met : bool }.

(** Do the rows of the minority prevail in the ball around the two farthest
    members of the two clusters, lines 155-179?  A parameter here. *)
Variable prevail : list nat -> list nat -> bool.

(** update_clusters and rearrange_clusters, _soi_cj.py:134-184, on the objects [i]
    and [j], and the two assignments of lines 259-260. *)
Definition soi_update (s : soi_state) (idx i : nat) (jj : nat * nat) : soi_state :=
  let '(jdx, j) := jj in
  let a := nth i (objs s) [] in
  let b := nth j (objs s) [] in
  let common := filter (mem b) a in
  match common with
  | [] => s
  | _ =>
    if prevail a b then
      mk_soi_state (set_at i (a ++ filter (fun x => negb (mem a x)) b) (objs s) ++ [[]])
        (set_at jdx (length (objs s)) (set_at idx i (slots s))) true
    else if length b <? length a then
      mk_soi_state (set_at j (filter (fun x => negb (mem common x)) b) (objs s)) (set_at jdx j (set_at idx i (slots s))) true
    else
      mk_soi_state (set_at i (filter (fun x => negb (mem common x)) a) (objs s)) (set_at jdx j (set_at idx i (slots s))) true
  end.

(** The inner loop runs over a copy of the rest of the list, lines 242-260. *)
Definition soi_inner (s : soi_state) (idx : nat) : soi_state :=
  let i := nth idx (slots s) 0 in
  let rest := skipn (idx + 1) (slots s) in
  fold_left (fun s jj => soi_update s idx i jj) (combine (seq 0 (length rest)) rest) s.

(** One pass, lines 240-262. *)
Definition soi_pass (s : soi_state) : soi_state :=
  let s' := fold_left soi_inner (seq 0 (length (slots s))) (mk_soi_state (objs s) (slots s) false) in
  mk_soi_state (objs s') (filter (fun i => negb (length (nth i (objs s') []) =? 0)) (slots s')) (met s').

Fixpoint soi_merge (fuel : nat) (s : soi_state) : res (list (list nat)) :=
  match fuel with
  | 0 => Err OutOfFuel
  | S fuel' =>
    let s' := soi_pass s in
    if met s' then soi_merge fuel' s' else Ok (map (fun i => nth i (objs s') []) (slots s'))
  end.

(** clustering, _soi_cj.py:209-265. *)
Definition soi_clustering (fuel : nat) (mn : Z) (X : list row) (y : list Z) : res (list (list nat)) :=
  let X_min := rows_with mn X y in
  do indices <- nn X X_min (length X_min);
  do clusters <- mapM (soi_init y mn) indices;
  soi_merge fuel (mk_soi_state clusters (seq 0 (length clusters)) false).

(** The order in which [list(c)] lists a set. *)
Variable listing : list nat -> list nat.

Definition pairs (m : nat) : list (nat * nat) :=
  flat_map (fun a => map (fun b => (a, b)) (seq (a + 1) (m - a - 1))) (seq 0 m).

(** sample_within_cluster_interpolation, _soi_cj.py:267-288. *)
Definition soi_interpolate (r1 r2 : rng) (dim : nat) (X : list row) (cluster : list nat) (n : nat) : res (list row) :=
  do idx <- choice_range r1 (length (pairs (length cluster))) n;
  do chosen <- gather (pairs (length cluster)) idx;
  mapM (fun cu =>
    do a <- get cluster (fst (fst cu)); do b <- get cluster (snd (fst cu));
    do x <- get X a; do z <- get X b;
    Ok (vadd x (map2 Qmult (vsub z x) (snd cu)))) (combine chosen (r_unif r2 n dim)).

(** cluster_stds, _soi_cj.py:315-338, for one cluster. *)
Definition soi_std (dim : nat) (X_min rows : list row) : row :=
  map (fun j => Qmin (sd (column j X_min)) (sd (column j rows))) (seq 0 dim).

(** sample_within_cluster_jittering, _soi_cj.py:337-370. *)
Definition soi_jitter (p : soi_params) (r : rng) (dim : nat) (X X_min : list row) (cluster : list nat) (n : nat) : res (list row) :=
  do rows <- gather X cluster;
  do ind <- nn rows rows (length rows);
  sample_simplex volume (mk_ss (ss_n_dim (so_ss p)) (ss_sampling (so_ss p)) (ss_within (so_ss p)) (GSigmas (soi_std dim X_min rows)))
    (mk_args rows dim ind (length rows) None None None false None) n r.

(** SOI_CJ.sampling_algorithm, _soi_cj.py:410-470, with sampling_by_interpolation,
    290-313, and sampling_by_jittering, 377-408. *)
Definition soi_cj_algorithm (fuel : nat) (p : soi_params) (rs : nat -> rng) (st : stats) (D : dataset) : res (list row * list Z) :=
  do n <- det_n_to_sample_st (so_proportion p) st;
  if n =? 0 then Ok (d_X D, d_y D)
  else
    let X := d_X D in
    do clusters <- soi_clustering fuel (min_label st) X (d_y D);
    let filtered := map listing (filter (fun c => 2 <? length c) clusters) in
    match filtered with
    | [] => Ok (d_X D, d_y D)
    | _ =>
      let sizes := map (fun c : list nat => inject_Z (Z.of_nat (length c))) filtered in
      do chosen <- np_choice (rs 0) (seq 0 (length filtered)) n (map (fun s => s / qsum sizes)%Q sizes);
      do samples <- by_cluster (fun c count =>
          do cluster <- get filtered c;
          if so_interpolation p then soi_interpolate (rs (2 * c + 1)) (rs (2 * c + 2)) (d_dim D) X cluster count
          else soi_jitter p (rs (2 * c + 1)) (d_dim D) X (rows_with (min_label st) X (d_y D)) cluster count) chosen;
      Ok (extended D st samples)
    end.

Definition soi_cj_sample fuel p rs D := sample_with checks_default (soi_cj_algorithm fuel p rs) D.

(** ** SYMPROD *)

Record sym_params := mk_sym {
  sy_proportion : strategy; sy_std_outliers : Q; sy_k_neighbors : nat; sy_m_neighbors : nat; sy_cutoff : Q }.

(** remove_outliers, _symprod.py:134-138. *)
Definition remove_outliers (p : sym_params) (dim : nat) (X : list row) : list row :=
  filter (fun x => Qlt_b (max_abs (mm_transform (std_fit sd dim X) x)) (sy_std_outliers p)) X.

(** noise_removal, _symprod.py:117-161: the minority and the majority rows that
    stay, before the scaling.  Line 145 asks about the minority rows again. *)
Definition sym_rows (p : sym_params) (mn mj : Z) (D : dataset) : list row * list row :=
  let all_min := rows_with mn (d_X D) (d_y D) in
  let all_maj := rows_with mj (d_X D) (d_y D) in
  let X_min := remove_outliers p (d_dim D) all_min in
  let X_maj := remove_outliers p (d_dim D) all_maj in
  let X_min := match X_min with [] => all_min | _ => X_min end in
  let X_maj := match X_min with [] => all_maj | _ => X_maj end in
  (X_min, X_maj).

(** normalize, _symprod.py:174-188. *)
Definition sym_normalize (a : list Q) : list Q :=
  let lo := col_min a in let hi := col_max a in
  if Qlt_b (hi - lo) (1 # 10000000000) then map (fun _ => 0%Q) a else map (fun v => (v - lo) / (hi - lo))%Q a.

(** The closeness factors of one class, determine_cf_norms, _symprod.py:190-226.
    The neighbours of a row are all rows of the class. *)
Definition closeness_factors (X : list row) : res (list Q) :=
  let sums := map (fun x => qsum (map (dist x) X)) X in
  match X with
  | [] => Err ValueError
  | _ => if existsb (fun s => Qeq_bool s 0) sums then Err ValueError
         else Ok (sym_normalize (map (fun s => 1 / s)%Q sums))
  end.

(** [np.mean(np.take(cf, t) / (d + 1))] for one row. *)
Definition sym_tau (X : list row) (cf : list Q) (x : row) (t : list nat) : res Q :=
  do qs <- mapM (fun i => do c <- get cf i; do z <- get X i; Ok (c / (dist x z + 1))%Q) t;
  qmean qs.

(** determine_taus, _symprod.py:228-263. *)
Definition sym_taus (p : sym_params) (X_min X_maj : list row) : res (list Q * list Q * list Q) :=
  do cf_min <- closeness_factors X_min;
  do ind <- nn X_min X_min (length X_min);
  do cf_maj <- closeness_factors X_maj;
  let k := Nat.min (sy_k_neighbors p) (length X_min - 1) in
  do tau_min <- mapM (fun xt => sym_tau X_min cf_min (fst xt) (firstn k (tl (snd xt)))) (combine X_min ind);
  if length X_maj <? k then Err ValueError
  else
    do ind_maj <- nn X_maj X_min k;
    do tau_maj <- mapM (fun xt => sym_tau X_maj cf_maj (fst xt) (snd xt)) (combine X_min ind_maj);
    Ok (tau_min, tau_maj, cf_min).

(** [tau_min >= tau_maj * cutoff_threshold]. *)
Definition above (c : Q) (tau_min tau_maj : list Q) : list bool :=
  map2 (fun a b => Qle_bool (b * c) a) tau_min tau_maj.

(** The loop of lines 303-304; after ten steps the threshold is 0 and every row
    passes (in floating point after eleven). *)
Fixpoint sym_cutoff (fuel : nat) (step c : Q) (tau_min tau_maj : list Q) : res Q :=
  if n_true (above c tau_min tau_maj) <=? 1 then
    match fuel with 0 => Err OutOfFuel | S fuel' => sym_cutoff fuel' step (c - step)%Q tau_min tau_maj end
  else Ok c.

(** minority_point_selection, _symprod.py:277-316: the probabilities, the
    closeness factors and the rows selected.  A zero sum gives NaN, which is
    refused. *)
Definition sym_selection (p : sym_params) (X_min X_maj : list row) : res (list Q * list Q * list row) :=
  do taus <- sym_taus p X_min X_maj;
  let '(tau_min, tau_maj, cf) := taus in
  do c <- sym_cutoff 10 (sy_cutoff p / 10)%Q (sy_cutoff p) tau_min tau_maj;
  let mask := above c tau_min tau_maj in
  let phi := map2 (fun a b => (a + 1) / (b + 1))%Q (select mask tau_min) (select mask tau_maj) in
  let phi := map (fun f => f - col_min phi)%Q phi in
  if Qeq_bool (qsum phi) 0 then Err ValueError
  else Ok (map (fun f => f / qsum phi)%Q phi, select mask cf, select mask X_min).

(** The answer of [random_state.dirichlet(np.ones(k) * (k + 1), size)] at one row. *)
Variable dirichlet : nat -> nat -> list Q.

(** One row of instance_synthesis, _symprod.py:376-410; a zero sum gives NaN. *)
Definition sym_row (dim : nat) (X : list row) (cf : list Q) (chosen : list nat) (beta : list Q) : res row :=
  do rows <- gather X chosen;
  do cfs <- gather cf chosen;
  let w := map2 Qmult beta cfs in
  if Qeq_bool (qsum w) 0 then Err NotANumber
  else Ok (map (fun j => qsum (map2 (fun x v => nth j x 0 * (v / qsum w))%Q rows w)) (seq 0 dim)).

(** instance_synthesis with select_neighborhoods, _symprod.py:364-413.  np.take
    without an axis looks into the flattened table, so the numbers below
    [m + 3] address its first row.  The products of line 403 need as many columns
    in both factors. *)
Definition sym_synthesis (p : sym_params) (rs : nat -> rng) (dim : nat) (prob cf : list Q) (X : list row) (n : nat) : res (list row) :=
  do reference <- np_choice (rs 0) (seq 0 (length prob)) n prob;
  let m := Nat.min (sy_m_neighbors p) (length X - 4) in
  if m <? 2 then Err ValueError
  else
    do ind <- nn X X (m + 3);
    let neighborhoods := combinations m (seq 0 (m + 3)) in
    do which <- choice_range (rs 1) (length neighborhoods) n;
    do sets <- gather neighborhoods which;
    do chosen <- mapM (gather (concat ind)) sets;
    if negb (m =? sy_m_neighbors p) then Err ValueError
    else mapM (fun crb => sym_row dim X cf (fst (snd crb) ++ [snd (snd crb)]) (dirichlet (sy_m_neighbors p + 1) (fst crb)))
           (combine (seq 0 n) (combine chosen reference)).

(** SYMPROD.sampling_algorithm, _symprod.py:412-466.  Without columns the
    scaler raises ValueError outside the try blocks. *)
Definition symprod_algorithm (p : sym_params) (rs : nat -> rng) (st : stats) (D : dataset) : res (list row * list Z) :=
  do n <- det_n_to_sample_st (sy_proportion p) st;
  if n =? 0 then Ok (d_X D, d_y D)
  else if d_dim D =? 0 then Err ValueError
  else
    let '(X_min, X_maj) := sym_rows p (min_label st) (maj_label st) D in
    let mm := std_fit sd (d_dim D) (X_min ++ X_maj) in
    let scale := map (mm_transform mm) in
    match (do sel <- sym_selection p (scale X_min) (scale X_maj);
           let '(prob, cf, X) := sel in sym_synthesis p rs (d_dim D) prob cf X n) with
    | Ok samples => Ok (extended D st (map (mm_inverse mm) samples))
    | Err ValueError => Ok (d_X D, d_y D)
    | Err e => Err e
    end.

Definition symprod_sample p rs D := sample_with checks_default (symprod_algorithm p rs) D.

End Samplers.
