(** Model of /repo/smote_variants/base/_simplexsampling.py.

    Arrays are lists; where a shape cannot be read off a list (zero rows) the
    shape is passed explicitly ([ncols], [dim]).  A simplex, i.e. one row of the
    array [simplices], is a pair (base index, neighbour indices): column 0 and
    columns 1.. of the row.

    Feature arithmetic is exact (Q).  Random draws are arguments. *)

From Coq Require Import List ZArith QArith Qround Bool Arith.
From Verif Require Import Np.
Import ListNotations.

Notation simplex := (nat * list nat)%type (only parsing).

(** array_array_index, _simplexsampling.py:28-45.  [ncols] is
    [array.shape\[1\]], [icols] is [indices.shape\[1\]].  Both branches are
    modelled: line 39-40 (a single index column, fancy indexing by two arrays,
    whose lengths must agree) and line 42-45 (flat indexing with a stride).
    Simplification: numpy would broadcast a length-1 array in line 40. *)
Definition array_array_index {A} (ncols icols : nat)
    (arr : list (list A)) (idx : list (list nat)) : res (list (list A)) :=
  if (icols =? 1)%nat then
    if (length arr =? length idx)%nat then
      mapM (fun p => do k <- get (snd p) 0; do v <- get (fst p) k; Ok [v])
           (combine arr idx)
    else Err IndexError
  else
    mapM (fun p => mapM (fun k => get (concat arr) (k + fst p * ncols)) (snd p))
         (combine (seq 0 (length idx)) idx).

(** base_idx_neighbor_idx_simplices, _simplexsampling.py:48-67. *)
Definition base_idx_neighbor_idx_simplices (n_base n_neighbors n_dim : nat)
    : list simplex :=
  let combos := combinations (n_dim - 1) (seq 1 (n_neighbors - 1)) in
  let base_indices := repeat_each (seq 0 n_base) (length combos) in
  combine base_indices (tile n_base combos).

(** all_neighbor_simplices_real_idx, _simplexsampling.py:70-93.  For order 0
    (no index column at all) [itertools.combinations(_, -1)], line 62, raises
    ValueError. *)
Definition all_neighbor_simplices_real_idx (n_dim ncols : nat)
    (indices : list (list nat)) : res (list simplex) :=
  if (n_dim =? 0)%nat then Err ValueError else
  let all_simplices :=
    base_idx_neighbor_idx_simplices (length indices) ncols n_dim in
  let base_vector_indices := map fst all_simplices in
  do neighbors_indices <- gather indices base_vector_indices;
  do real <- array_array_index ncols (n_dim - 1) neighbors_indices
                               (map snd all_simplices);
  Ok (combine base_vector_indices real).

(** reweight_simplex_vertices, _simplexsampling.py:129-163, for one simplex:
    the base point followed by base + w * (vertex - base). *)
Definition reweight_simplex (X Xv : list row) (vw : list Q) (s : simplex)
    : res (list row) :=
  do ws <- gather vw (snd s);
  do b <- get X (fst s);
  do nbs <- gather Xv (snd s);
  Ok (b :: map2 (fun w v => vadd (vscale w (vsub v b)) b) ws nbs).

Definition reweight_simplex_vertices (X : list row) (simplices : list simplex)
    (Xv : list row) (vw : list Q) : res (list (list row)) :=
  mapM (reweight_simplex X Xv vw) simplices.

(** vector_choice, _simplexsampling.py:184-200; [rands] is the result of
    [random_state.rand(p.shape\[0\])]. *)
Definition vector_choice {A} (arr : list A) (p : list (list Q)) (rands : list Q)
    : res (list A) :=
  mapM (fun rp => get arr (argmax_bool
                     (map (fun c => Qlt_b (fst rp) c) (cumsum (snd rp)))))
       (combine rands p).

(** Normalisation of one row of weights, _simplexsampling.py:224-225.  A zero
    sum makes numpy produce NaN. *)
Definition normalize (u : list Q) : res (list Q) :=
  if Qeq_bool (qsum u) 0 then Err NotANumber
  else Ok (map (fun x => Qdiv x (qsum u)) u).

(** Weighted sum of the vertices of one simplex, _simplexsampling.py:240-242. *)
Definition weighted_sum (dim : nat) (ws : list Q) (pts : list row) : row :=
  fold_right vadd (repeat 0%Q dim) (map2 vscale ws pts).

(** Lines 234 and 236: the neighbour columns shifted in place. *)
Definition shift_simplices (k : nat) (ss : list simplex) : list simplex :=
  map (fun s => (fst s, map (fun v => v + k)%nat (snd s))) ss.
Definition unshift_simplices (k : nat) (ss : list simplex) : list simplex :=
  map (fun s => (fst s, map (fun v => v - k)%nat (snd s))) ss.

Definition simplex_points (X : list row) (s : simplex) : res (list row) :=
  gather X (fst s :: snd s).

(** Lines 227-238: the vertex coordinates of every simplex, together with the
    content of the caller's [simplices] array afterwards (it is shifted in
    place and shifted back; an exception in line 235 leaves it shifted). *)
Definition simplex_coordinates (X : list row) (simplices : list simplex)
    (Xv : option (list row)) (vw : option (list Q))
    : res (list (list row)) * list simplex :=
  match Xv, vw with
  | None, None => (mapM (simplex_points X) simplices, simplices)
  | None, Some w => (reweight_simplex_vertices X simplices X w, simplices)
  | Some V, None =>
    let n_records := length X in
    let shifted := shift_simplices n_records simplices in
    match mapM (simplex_points (X ++ V)) shifted with
    | Ok pts => (Ok pts, unshift_simplices n_records shifted)
    | Err e => (Err e, shifted)
    end
  | Some V, Some w => (reweight_simplex_vertices X simplices V w, simplices)
  end.

(** random_samples_from_simplices, _simplexsampling.py:203-244.  [u] is the
    result of [random_state.random_sample(simplices.shape)].  Returns the
    samples and the caller's array afterwards. *)
Definition random_samples_from_simplices (dim : nat) (X : list row)
    (simplices : list simplex) (Xv : option (list row)) (vw : option (list Q))
    (u : list (list Q)) : res (list row) * list simplex :=
  let (coords, after) := simplex_coordinates X simplices Xv vw in
  ((do ws <- mapM normalize u;
    do pts <- coords;
    Ok (map2 (weighted_sum dim) ws pts)), after).

(** add_samples, _simplexsampling.py:247-279.  [pairs] carries the counts. *)
Definition add_samples (pairs : list ((nat * nat) * nat)) (count : nat)
    (X Xv : list row) (vw : option (list Q)) : res (list row) :=
  let filtered := map fst (filter (fun p => (snd p =? count)%nat) pairs) in
  let splits := map (fun k => Qmult (1 / inject_Z (Z.of_nat (count + 1)))
                                    (inject_Z (Z.of_nat k))) (seq 1 count) in
  do base_points <- gather X (map fst filtered);
  do neighbor_points <- gather Xv (map snd filtered);
  do weights <- match vw with
                | None => Ok (repeat 1%Q (length filtered))
                | Some w => gather w (map snd filtered)
                end;
  let diffweight := map2 vscale weights (map2 vsub neighbor_points base_points) in
  Ok (flat_map (fun s => map2 (fun b d => vadd b (vscale s d)) base_points diffweight)
               splits).

(** counts_to_vector, _simplexsampling.py:282-293. *)
Definition counts_to_vector (counts : list nat) : list nat :=
  flat_map (fun p => repeat (fst p) (snd p)) (combine (seq 0 (length counts)) counts).

(** [np.floor(np.linspace(0, K, R, endpoint=False))], lines 318-320, in exact
    arithmetic: floor(i * K / R). *)
Definition removal_indices (K R : nat) : list nat :=
  map (fun i => (i * K / R)%nat) (seq 0 R).

(** [tmp\[removal\] = tmp\[removal\] - 1], line 323: numpy evaluates the right
    side first, so a repeated index is decremented once. *)
Definition decrement_at (idx : list nat) (l : list nat) : list nat :=
  map (fun p => if existsb (Nat.eqb (fst p)) idx then (snd p - 1)%nat else snd p)
      (combine (seq 0 (length l)) l).

(** Write back through a boolean mask, line 325. *)
Fixpoint put_mask {A} (mask : list bool) (dst src : list A) : list A :=
  match mask, dst with
  | true :: m, d :: dst' =>
    match src with
    | s :: src' => s :: put_mask m dst' src'
    | [] => d :: put_mask m dst' []
    end
  | false :: m, d :: dst' => d :: put_mask m dst' src
  | _, _ => dst
  end.

(** The allocation of deterministic_sample, _simplexsampling.py:309-327, before
    it indexes [choices]: how often each simplex is taken.  Negative
    [n_to_remove] makes [np.linspace] raise ValueError. *)
Definition deterministic_counts (n_to_sample : nat) (p : list Q) : res (list nat) :=
  let sample_counts :=
    map (fun q => Z.to_nat (Qceiling (inject_Z (Z.of_nat n_to_sample) * q))) p in
  let total := nsum sample_counts in
  if (total =? n_to_sample)%nat then Ok sample_counts
  else if (total <? n_to_sample)%nat then Err ValueError
  else
    let n_to_remove := (total - n_to_sample)%nat in
    let mask := map (fun c => (0 <? c)%nat) sample_counts in
    let tmp := select mask sample_counts in
    let removal := removal_indices (length tmp) n_to_remove in
    if forallb (fun i => i <? length tmp)%nat removal then
      let counts' := put_mask mask sample_counts (decrement_at removal tmp) in
      if (nsum counts' =? n_to_sample)%nat then Ok counts' else Err AssertionError
    else Err IndexError.

(** deterministic_sample, _simplexsampling.py:296-331. *)
Definition deterministic_sample {A} (choices : list A) (n_to_sample : nat)
    (p : list Q) : res (list A) :=
  do counts <- deterministic_counts n_to_sample p;
  gather choices (counts_to_vector counts).

(** Sampler settings kept by SimplexSamplingMixin.__init__,
    _simplexsampling.py:359-363. *)
Inductive simplex_sampling := SRandom | SDeterministic | SVolume | SOther.
Inductive within_sampling := WRandom | WDeterministic | WOther.
Inductive gaussian := GNone | GSigma (sigma : Q) | GSigmas (sigmas : row).
Record ss_params := mk_ss {
  ss_n_dim : nat;
  ss_sampling : simplex_sampling;
  ss_within : within_sampling;
  ss_gauss : gaussian }.

(** The random state a call of sample_simplex consults: arbitrary answers to
    [choice(choices, n, p=p)] (line 521), [random_sample((n, k))] (line 224) and
    [normal(size=(n, k))] (lines 548, 560). *)
Record rng := mk_rng {
  r_choice : list Q -> nat -> list nat;
  r_unif : nat -> nat -> list (list Q);
  r_normal : nat -> nat -> list (list Q) }.

Section WithVolume.

(** simplex_volumes, _simplexsampling.py:112-126, involves a square root; here it
    is an arbitrary function of the vertex coordinates.  (SimplexVolume.v models
    it over the reals.) *)
Variable volume : list row -> Q.

(** determine_simplex_distribution, _simplexsampling.py:383-401. *)
Definition determine_simplex_distribution (mode : simplex_sampling)
    (X : list row) (simplices : list simplex) : res (list Q) :=
  match mode with
  | SRandom | SDeterministic =>
    Ok (repeat (1 / inject_Z (Z.of_nat (length simplices))) (length simplices))
  | SVolume =>
    do pts <- mapM (simplex_points X) simplices; Ok (map volume pts)
  | SOther => Err ValueError
  end.

(** all_simplices_node_weights, _simplexsampling.py:403-437. *)
Definition all_simplices_node_weights (n_dim ncols : nat)
    (indices : list (list nat)) (simplex_weights : option (list (list Q)))
    : res (list simplex * list Q) :=
  do all_simplices <- all_neighbor_simplices_real_idx n_dim ncols indices;
  match simplex_weights with
  | Some sw =>
    let nidx := base_idx_neighbor_idx_simplices (length indices) ncols n_dim in
    do swb <- gather sw (map fst nidx);
    do node_weights <- array_array_index ncols (n_dim - 1) swb (map snd nidx);
    Ok (all_simplices, map qprod node_weights)
  | None => Ok (all_simplices, repeat 1%Q (length all_simplices))
  end.

(** determine_weights, _simplexsampling.py:439-468. *)
Definition determine_weights (mode : simplex_sampling) (X : list row)
    (base_weights : option (list Q)) (Xv : option (list row))
    (all_simplices : list simplex) (n_base : nat) : res (list Q) :=
  match base_weights with
  | None =>
    match Xv with
    | None => determine_simplex_distribution mode X all_simplices
    | Some V =>
      determine_simplex_distribution mode (X ++ V) (shift_simplices n_base all_simplices)
    end
  | Some bw =>
    if (length bw =? 0)%nat then Err ZeroDivisionError
    else Ok (repeat_each bw (length all_simplices / length bw))
  end.

(** [weights / np.sum(weights)], lines 522 and 526. *)
Definition probabilities (w : list Q) : res (list Q) :=
  if Qeq_bool (qsum w) 0 then Err ValueError
  else Ok (map (fun x => Qdiv x (qsum w)) w).

(** [random_state.choice(choices, n, p=p)], line 521: numpy rejects negative
    probabilities with ValueError; otherwise the generator answers. *)
Definition np_choice {A} (r : rng) (choices : list A) (n : nat) (p : list Q)
    : res (list A) :=
  if forallb (fun q => Qle_bool 0 q) p then gather choices (r_choice r p n)
  else Err ValueError.

(** simplices, _simplexsampling.py:470-532.  A shape mismatch in line 512
    raises ValueError (numpy's broadcasting of length-1 arrays is not
    modelled).  A zero weight sum gives NaN probabilities: choice raises
    ValueError, and deterministic_sample fails in np.linspace. *)
Definition simplices_ (mode : simplex_sampling) (X : list row)
    (n_to_sample n_dim ncols : nat)
    (indices : list (list nat)) (base_weights : option (list Q))
    (Xv : option (list row)) (simplex_weights : option (list (list Q)))
    (r : rng) : res (list simplex) :=
  do (all_simplices, node_weights) <-
    all_simplices_node_weights n_dim ncols indices simplex_weights;
  do weights <- determine_weights mode X base_weights Xv all_simplices (length indices);
  if (length weights =? length node_weights)%nat then
    let w := map2 Qmult weights node_weights in
    do p <- probabilities w;
    let choices := seq 0 (length all_simplices) in
    do selected <- match mode with
                   | SDeterministic => deterministic_sample choices n_to_sample p
                   | _ => np_choice r choices n_to_sample p
                   end;
    gather all_simplices selected
  else Err ValueError.

(** add_gaussian_noise, _simplexsampling.py:534-562. *)
Definition add_gaussian_noise (g : gaussian) (normal : list (list Q))
    (samples : list row) : list row :=
  match g with
  | GSigma sigma => map2 (fun s z => vadd s (vscale sigma z)) samples normal
  | GSigmas sigmas => map2 (fun s z => vadd s (map2 Qmult z sigmas)) samples normal
  | GNone => samples
  end.

(** Row sort of one pair, [pairs.sort()], line 587. *)
Definition sort_pair (p : nat * nat) : nat * nat :=
  if (fst p <=? snd p)%nat then p else (snd p, fst p).

Definition pair_ltb (a b : nat * nat) : bool :=
  (fst a <? fst b)%nat || ((fst a =? fst b)%nat && (snd a <? snd b)%nat).
Definition pair_eqb (a b : nat * nat) : bool :=
  (fst a =? fst b)%nat && (snd a =? snd b)%nat.

(** [np.unique(pairs, axis=0, return_counts=True)], line 590. *)
Definition unique_pairs (ps : list (nat * nat)) : list ((nat * nat) * nat) :=
  unique_by pair_eqb pair_ltb ps.

(** Second column of a simplex of order 2, line 582. *)
Definition second_column (s : simplex) : res nat := get (snd s) 0.

(** deterministic_samples_dim_2, _simplexsampling.py:564-606.  [same_object] is
    the Python test [X is X_vertices] of line 586.  [np.max] of an empty array
    raises ValueError. *)
Definition deterministic_samples_dim_2 (X : list row) (simplices : list simplex)
    (Xv : option (list row)) (same_object : bool) (vw : option (list Q))
    : res (list row) :=
  do seconds <- mapM second_column simplices;
  let pairs0 := combine (map fst simplices) seconds in
  let '(pairs, V) :=
    match Xv with
    | None => (map sort_pair pairs0, X)
    | Some V => if same_object then (map sort_pair pairs0, X) else (pairs0, V)
    end in
  let values := unique_pairs pairs in
  match values with
  | [] => Err ValueError
  | _ =>
    let counts := map snd values in
    let max_count := list_max counts in
    do blocks <- mapM (fun c => add_samples values c X V vw)
                      (filter (fun c => existsb (Nat.eqb c) counts) (seq 1 max_count));
    Ok (concat blocks)
  end.

(** deterministic_samples_dim_1, _simplexsampling.py:608-619. *)
Definition deterministic_samples_dim_1 (X : list row) (simplices : list simplex)
    : res (list row) := gather X (map fst simplices).

(** deterministic_samples_from_simplices, _simplexsampling.py:621-648. *)
Definition deterministic_samples_from_simplices (n_dim : nat) (X : list row)
    (simplices : list simplex) (Xv : option (list row)) (same_object : bool)
    (vw : option (list Q)) : res (list row) :=
  if (n_dim =? 2)%nat then deterministic_samples_dim_2 X simplices Xv same_object vw
  else if (n_dim =? 1)%nat then deterministic_samples_dim_1 X simplices
  else Err ValueError.

(** Arguments of sample_simplex, _simplexsampling.py:650-660.  [a_dim] is
    [X.shape\[1\]], [a_ncols] is [indices.shape\[1\]]. *)
Record ss_args := mk_args {
  a_X : list row;
  a_dim : nat;
  a_indices : list (list nat);
  a_ncols : nat;
  a_base_weights : option (list Q);
  a_vertex_weights : option (list Q);
  a_X_vertices : option (list row);
  a_same_object : bool;
  a_simplex_weights : option (list (list Q)) }.

(** sample_simplex, _simplexsampling.py:650-722. *)
Definition sample_simplex (ss : ss_params) (a : ss_args) (n_to_sample : nat)
    (r : rng) : res (list row) :=
  if (n_to_sample =? 0)%nat then Ok []
  else
    let n_dim := Nat.min (ss_n_dim ss) (a_ncols a) in
    do simplices <- simplices_ (ss_sampling ss) (a_X a) n_to_sample n_dim (a_ncols a)
                      (a_indices a) (a_base_weights a) (a_X_vertices a)
                      (a_simplex_weights a) r;
    do samples <- match ss_within ss with
      | WRandom => fst (random_samples_from_simplices (a_dim a) (a_X a) simplices
                          (a_X_vertices a) (a_vertex_weights a)
                          (r_unif r (length simplices) n_dim))
      | WDeterministic => deterministic_samples_from_simplices n_dim (a_X a) simplices
                          (a_X_vertices a) (a_same_object a) (a_vertex_weights a)
      | WOther => Err ValueError
      end;
    Ok (add_gaussian_noise (ss_gauss ss) (r_normal r (length samples) (a_dim a)) samples).

End WithVolume.
