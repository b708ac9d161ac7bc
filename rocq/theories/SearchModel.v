(** Oversamplers that search or select before they sample: E_SMOTE, GASMOTE,
    SSO, TRIM_SMOTE, MWMOTE.

    Numbers are exact rationals.  Nearest neighbours, classifiers, k-means,
    norms and powers are parameters.  Metric learning ([nn_params]) only
    changes the distance behind [nn]. *)

From Coq Require Import List ZArith QArith Qabs Bool Arith Qround.
From Verif Require Import Np PyVal SimplexModel SamplerModel BaseModel UnderModel DangerModel ClusterOversModel CompModel LevelModel WrapModel DirModel.
Import ListNotations.
Open Scope nat_scope.

(** [l\[i\] = v]. *)
Fixpoint set_at {A} (i : nat) (v : A) (l : list A) : list A :=
  match l, i with
  | [], _ => []
  | _ :: l', 0 => v :: l'
  | a :: l', S i' => a :: set_at i' v l'
  end.

(** [sorted(population, key=lambda x: -score(x))]: stable, best first. *)
Definition best_first {A} (score : A -> Q) (l : list A) : list A :=
  sort_by (fun a b => Qle_bool (score b) (score a)) l.

Section Samplers.

Variable volume : list row -> Q.
Variable nn : list row -> list row -> nat -> res (list (list nat)).

(** ** E_SMOTE *)

Record e_params := mk_e { es_proportion : strategy; es_n_neighbors : nat; es_ss : ss_params; es_min_features : nat }.

(** [np.sum(mask)]. *)
Definition n_true (mask : list bool) : nat := count_occ bool_dec mask true.

(** The loop [while np.sum(mask) < min_features], _e_smote.py:155-156 and 175-176;
    [draw] numbers its calls of randint. *)
Fixpoint fill (fuel : nat) (draw : nat -> nat) (k want : nat) (mask : list bool) : res (list bool) :=
  if want <=? n_true mask then Ok mask
  else match fuel with
       | 0 => Err OutOfFuel
       | S fuel' => fill fuel' draw (k + 1) want (set_at (draw k) true mask)
       end.

(** crossover, _e_smote.py:150-153. *)
Definition e_crossover (coin : nat -> nat) (a b : list bool) : list bool :=
  map (fun i => nth i (if coin i =? 0 then b else a) false) (seq 0 (length a)).

(** mutate, _e_smote.py:170-173. *)
Definition e_mutate (coin : nat -> nat) (a : list bool) : list bool :=
  map (fun i => if coin i =? 0 then negb (nth i a false) else nth i a false) (seq 0 (length a)).

(** [X\[:, mask\]] at one row. *)
Definition pick_columns (mask : list bool) (x : row) : row := map (fun j => nth j x 0%Q) (where_ mask).
Definition restrict (mask : list bool) (D : dataset) : dataset :=
  mk_data (map (pick_columns mask) (d_X D)) (n_true mask) (d_y D).

(** The share of rows the classifier, trained on the data, gets right, lines
    238-239; the classifier may be randomised. *)
Variable accuracy : nat -> dataset -> Q.

(** One new mask, lines 220-230; [t] numbers them over all generations.  The
    requests: which operation, two members, a coin per column, the filling. *)
Definition e_candidate (fuel : nat) (d : draws) (want dim : nat) (population : list (Q * list bool)) (t : nat) : res (list bool) :=
  let coin := fun i => dr_int d t (3 + i) 2 in
  let draw := fun k => dr_int d t (3 + dim + k) dim in
  if dr_int d t 0 2 =? 0 then
    do a <- get population (dr_int d t 1 5);
    do b <- get population (dr_int d t 2 5);
    fill fuel draw 0 want (e_crossover coin (snd a) (snd b))
  else
    do a <- get population (dr_int d t 1 5);
    fill fuel draw 0 want (e_mutate coin (snd a)).

(** One generation, lines 218-244.  The five new masks come from the first five members. *)
Definition e_generation (fuel : nat) (d : draws) (want : nat) (D : dataset) (population : list (Q * list bool)) (g : nat)
    : res (list (Q * list bool)) :=
  do new <- mapM (fun i => let t := g * 5 + i in
      do mask <- e_candidate fuel d want (d_dim D) population t;
      Ok (accuracy t (restrict mask D), mask)) (seq 0 5);
  Ok (firstn 5 (best_first fst (population ++ new))).

Fixpoint foldM {A B} (f : A -> B -> res A) (l : list B) (a : A) : res A :=
  match l with [] => Ok a | b :: l' => do a' <- f a b; foldM f l' a' end.

(** The search, lines 210-246.  [first] is the column np.random.choice picks. *)
Definition e_search (fuel first : nat) (d : draws) (want : nat) (D : dataset) : res (list bool) :=
  let mask := set_at first true (repeat false (d_dim D)) in
  do population <- foldM (e_generation fuel d want D) (seq 0 50) (repeat (0%Q, mask) 5);
  do best <- get population 0;
  Ok (snd best).

(** E_SMOTE.sampling_algorithm, _e_smote.py:180-258.  np.random.choice of an
    empty array raises ValueError. *)
Definition e_smote_algorithm (fuel first : nat) (p : e_params) (d : draws) (r : rng) (st : stats) (D : dataset) : res (list row * list Z) :=
  do n <- det_n_to_sample_st (es_proportion p) st;
  if n =? 0 then Ok (d_X D, d_y D)
  else if d_dim D =? 0 then Err ValueError
  else
    do mask <- e_search fuel first d (Nat.min (es_min_features p) (d_dim D)) D;
    smote_sample volume nn (mk_smote (es_proportion p) (es_n_neighbors p) (es_ss p)) r (restrict mask D).

Definition e_smote_sample fuel first p d r D := sample_with checks_default (e_smote_algorithm fuel first p d r) D.

(** ** GASMOTE *)

Record ga_params := mk_ga {
  ga_n_neighbors : nat; ga_maxn : nat; ga_n_pop : nat; ga_popl3 : nat; ga_pm : Q; ga_pr : Q; ga_Ge : nat; ga_ss : ss_params }.

(** samples_from_conf, _gasmote.py:143-165. *)
Definition samples_from_conf (p : ga_params) (rs : nat -> rng) (dim : nat) (X_min : list row) (ind : list (list nat)) (conf : list nat)
    : res (list row) :=
  do parts <- mapM (fun ic =>
      do x <- get X_min (fst ic);
      do t <- get ind (fst ic);
      sample_simplex volume (ga_ss p)
        (mk_args [x] dim [t] (Nat.min (ga_n_neighbors p + 1) (length X_min)) None None (Some X_min) false None)
        (snd ic) (rs (fst ic))) (combine (seq 0 (length conf)) conf);
  Ok (concat parts).

(** Cross-validated predictions for all rows, lines 215-223 (the folds are
    consecutive, so the predictions come in the order of the rows). *)
Variable predictions : nat -> list row -> list Z -> list Z.

(** calculate_score, _gasmote.py:167-186, without the final square root, which
    does not change the order. *)
Definition ga_score (mn mj : Z) (tests preds : list Z) : Q :=
  let count := fun (f : Z * Z -> bool) => inject_Z (Z.of_nat (length (filter f (combine tests preds)))) in
  let tp := count (fun tp => Z.eqb (fst tp) mn && Z.eqb (fst tp) (snd tp)) in
  let tn := count (fun tp => Z.eqb (fst tp) mj && Z.eqb (fst tp) (snd tp)) in
  let fp := count (fun tp => Z.eqb (fst tp) mj && negb (Z.eqb (fst tp) (snd tp))) in
  let fn := count (fun tp => Z.eqb (fst tp) mn && negb (Z.eqb (fst tp) (snd tp))) in
  (tp / (tp + fn) * (tn / (fp + tn)))%Q.

(** fitness, _gasmote.py:188-225; [e] numbers the evaluations. *)
Definition ga_fitness (p : ga_params) (rs : nat -> nat -> rng) (mn mj : Z) (D : dataset) (X_min : list row) (ind : list (list nat))
    (e : nat) (conf : list nat) : res Q :=
  do samples <- samples_from_conf p (rs e) (d_dim D) X_min ind conf;
  let X_new := d_X D ++ samples in
  let y_new := d_y D ++ repeat mn (length samples) in
  Ok (ga_score mn mj y_new (predictions e X_new y_new)).

(** crossover, _gasmote.py:227-242. *)
Fixpoint ga_crossover (ks : list nat) (a b : list nat) : list nat * list nat :=
  match ks with
  | [] => (a, b)
  | k :: ks' =>
    let a' := firstn k a ++ skipn k b in
    let b' := firstn k b ++ skipn k a' in
    ga_crossover ks' a' b'
  end.

(** [rand ** ((1 - ge / Ge) ** 3)] in generation [ge], line 259. *)
Variable power : nat -> Q -> Q.

(** mutation, _gasmote.py:244-266; [t] is the number of the evaluation that
    follows. *)
Definition ga_mutation (p : ga_params) (d : draws) (ge t : nat) (conf : list nat) : list nat :=
  let maxn := inject_Z (Z.of_nat (ga_maxn p)) in
  if Qle_bool (ga_pm p) (dr_unif d t 0) then
    map (fun i =>
      let c := inject_Z (Z.of_nat (nth i conf 0)) in
      let r := power ge (dr_unif d t (i + 1)) in
      Z.to_nat (Qfloor (if dr_int d t (i + 1) 2 =? 0 then c + (maxn - c) * r else c - (c - 0) * r)%Q)) (seq 0 (length conf))
  else conf.

(** The loop of genetic_algorithm, _gasmote.py:301-353, for generation [ge].
    All members drawn are among the first n_pop. *)
Definition ga_generation (p : ga_params) (d : draws) (fitness : nat -> list nat -> res Q) (population : list (list nat * Q)) (ge : nat)
    : res (list (list nat * Q)) :=
  let sorted := best_first snd population in
  let n_keep := Z.to_nat (Qfloor (inject_Z (Z.of_nat (ga_n_pop p)) * ga_pr p)) in
  let selected := firstn n_keep sorted ++ firstn (ga_n_pop p - n_keep) sorted in
  let half := ga_n_pop p / 2 in
  let e0 := ga_n_pop p + ge * (3 * half) in
  do crossed <- mapM (fun c =>
      let e := e0 + 2 * c in
      do a <- get selected (dr_int d e 0 (ga_n_pop p));
      do b <- get selected (dr_int d e 1 (ga_n_pop p));
      do ks <- mapM (fun k => randint d e (2 + k) (length (fst a))) (seq 0 (ga_popl3 p));
      let '(ca, cb) := ga_crossover ks (fst a) (fst b) in
      do fa <- fitness e ca;
      do fb <- fitness (e + 1) cb;
      Ok [(ca, fa); (cb, fb)]) (seq 0 half);
  do mutated <- mapM (fun m =>
      let e := e0 + 2 * half + m in
      do a <- get selected (dr_int d e 0 (ga_n_pop p));
      let ca := ga_mutation p d ge e (fst a) in
      do fa <- fitness e ca;
      Ok (ca, fa)) (seq 0 half);
  Ok (selected ++ concat crossed ++ mutated).

(** genetic_algorithm, _gasmote.py:280-359. *)
Definition genetic_algorithm (p : ga_params) (d : draws) (fitness : nat -> list nat -> res Q) (N : nat) : res (list nat) :=
  do population <- mapM (fun t =>
      do conf <- mapM (fun i => randint d t i (ga_maxn p)) (seq 0 N);
      do f <- fitness t conf;
      Ok (conf, f)) (seq 0 (ga_n_pop p));
  do population <- foldM (ga_generation p d fitness) (seq 0 (ga_Ge p)) population;
  do best <- get (best_first snd population) 0;
  Ok (fst best).

(** GASMOTE.sampling_algorithm, _gasmote.py:361-396.  The number of rows is not
    asked for.  The last call of samples_from_conf has the first number not
    used for an evaluation. *)
Definition gasmote_algorithm (p : ga_params) (d : draws) (rs : nat -> nat -> rng) (st : stats) (D : dataset) : res (list row * list Z) :=
  let X_min := rows_with (min_label st) (d_X D) (d_y D) in
  do ind <- nn X_min X_min (Nat.min (ga_n_neighbors p + 1) (length X_min));
  do conf <- genetic_algorithm p d (ga_fitness p rs (min_label st) (maj_label st) D X_min ind) (length X_min);
  do samples <- samples_from_conf p (rs (ga_n_pop p + ga_Ge p * (3 * (ga_n_pop p / 2)))) (d_dim D) X_min ind conf;
  Ok (extended D st samples).

Definition gasmote_sample p d rs D := sample_with checks_default (gasmote_algorithm p d rs) D.

(** ** SSO *)

Record sso_params := mk_sso { so_proportion : strategy; so_h : nat; so_n_iter : nat }.

(** determine_Q, _sso.py:302-326: the mean distance of the minority rows to a
    far neighbour, divided by a root.  The sensitivities, |stsm| of lines
    357-392, come from k-means, a linear regression, erf and exp.  Both see the
    data of iteration [t].  The linear regression raises ValueError
    when two centres coincide. *)
Variable spread : nat -> dataset -> Q.
Variable sensitivity : nat -> dataset -> res (list xnum).

(** generate_samples, _sso.py:328-355, for one row. *)
Definition sso_row (q : Q) (weights : list Q) (X_min : list row) (bu : nat * row) : res row :=
  do base <- get X_min (fst bu);
  do w <- get weights (fst bu);
  Ok (vadd base (map (fun u => q * (u * (2 * (1 - w)) - (1 - w)))%Q (snd bu))).

(** One round of the loop, _sso.py:414-424.  With one hidden unit the search
    for the second nearest centre, lines 278-283, raises ValueError. *)
Definition sso_round (p : sso_params) (rs : nat -> rng) (mn : Z) (per : nat) (D : dataset) (t : nat) : res dataset :=
  let X_min := rows_with mn (d_X D) (d_y D) in
  if Nat.min (so_h p) (length X_min) <? 2 then Err ValueError
  else
    do sens <- sensitivity t D;
    let weights := fix_density sens in
    do base <- np_choice (rs (2 * t)) (seq 0 (length X_min)) per weights;
    do samples <- mapM (sso_row (spread t D) weights X_min) (combine base (r_unif (rs (2 * t + 1)) per (d_dim D)));
    Ok (mk_data (d_X D ++ samples) (d_dim D) (d_y D ++ repeat mn (length samples))).

(** SSO.sampling_algorithm, _sso.py:394-426.  There is no test for n_to_sample = 0. *)
Definition sso_algorithm (p : sso_params) (rs : nat -> rng) (st : stats) (D : dataset) : res (list row * list Z) :=
  do n <- det_n_to_sample_st (so_proportion p) st;
  if so_n_iter p =? 0 then Err ZeroDivisionError
  else
    do D' <- foldM (sso_round p rs (min_label st) (Nat.max 1 (n / so_n_iter p))) (seq 0 (so_n_iter p)) D;
    Ok (d_X D', d_y D').

Definition sso_sample p rs D := sample_with checks_default (sso_algorithm p rs) D.

(** ** TRIM_SMOTE *)

Record trim_params := mk_trim { tm_proportion : strategy; tm_n_neighbors : nat; tm_min_precision : Q; tm_ss : ss_params }.

(** A part of the data: rows with their labels. *)
Definition leaf := list (row * Z).

Definition label_count (z : Z) (l : leaf) : Q := inject_Z (Z.of_nat (length (filter (fun r => Z.eqb (snd r) z) l))).

(** trim and precision, _trim_smote.py:122-144. *)
Definition trim_value (mn : Z) (l : leaf) : Q := (label_count mn l * label_count mn l / inject_Z (Z.of_nat (length l)))%Q.
Definition trim_precision (mn : Z) (l : leaf) : Q := (label_count mn l / inject_Z (Z.of_nat (length l)))%Q.

(** The body of the loop of lines 178-199 at position [j] of the rows sorted by
    attribute [i].  Index -1 is the last. *)
Definition trim_try (mn : Z) (border : bool) (i : nat) (sorted : leaf) (acc : Q * option (nat * Q)) (j : nat) : Q * option (nat * Q) :=
  let at_ := fun j => nth j sorted ([], 0%Z) in
  let value := fun j => nth i (fst (at_ j)) 0%Q in
  let before := if j =? 0 then length sorted - 1 else j - 1 in
  if (negb border || negb (Z.eqb (snd (at_ before)) (snd (at_ j)))) && negb (Qeq_bool (value j) (value (j + 1))) then
    let gain := q_max (trim_value mn (firstn (j + 1) sorted)) (trim_value mn (skipn (j + 1) sorted)) in
    if Qlt_b (fst acc) gain then (gain, Some (i, value j)) else acc
  else acc.

(** determine_splitting_point, _trim_smote.py:146-206. *)
Definition splitting_point (mn : Z) (dim : nat) (border : bool) (l : leaf) : (nat * Q) * bool :=
  let '(best, split) := fold_left (fun acc i =>
      let sorted := sort_by (fun a b => Qle_bool (nth i (fst a) 0) (nth i (fst b) 0))%Q l in
      fold_left (trim_try mn border i sorted) (seq 0 (length l - 1)) acc) (seq 0 dim) (0%Q, None) in
  match split with
  | Some s => (s, Qlt_b (trim_value mn l) best)
  | None => ((0, 0%Q), false)
  end.

(** The two parts of a split that contain minority rows, lines 231-244 and 275-290. *)
Definition split_parts (mn : Z) (s : nat * Q) (l : leaf) : list leaf :=
  let left := filter (fun r => Qle_bool (nth (fst s) (fst r) 0%Q) (snd s)) l in
  let right := filter (fun r => negb (Qle_bool (nth (fst s) (fst r) 0%Q) (snd s))) l in
  filter (fun part => existsb (fun r => Z.eqb (snd r) mn) part) [left; right].

(** leaf_loop, _trim_smote.py:208-249, and candidate_loop, 251-295: the parts of
    the leaves that are split and the leaves that are not. *)
Definition split_loop (mn : Z) (dim : nat) (border : bool) (leafs : list leaf) : list leaf * list leaf :=
  let leafs := filter (fun l => 1 <? length l) leafs in
  let split := fun l => splitting_point mn dim border l in
  (flat_map (fun l => if snd (split l) then split_parts mn (fst (split l)) l else []) leafs,
   filter (fun l => negb (snd (split l))) leafs).

(** trimming, _trim_smote.py:297-329. *)
Fixpoint trimming (fuel : nat) (mn : Z) (dim : nat) (leafs seeds : list leaf) : res (list leaf) :=
  match leafs with
  | [] => Ok seeds
  | _ =>
    match fuel with
    | 0 => Err OutOfFuel
    | S fuel' =>
      let '(parts, candidates) := split_loop mn dim true leafs in
      let '(parts', done) := split_loop mn dim false candidates in
      trimming fuel' mn dim (parts ++ parts') (seeds ++ done)
    end
  end.

(** The loop of _trim_smote.py:392-395 that lowers the threshold. *)
Fixpoint relax (fuel : nat) (mn : Z) (min_precision multiplier : Q) (seeds filtered : list leaf) : res (list leaf) :=
  match filtered with
  | [] =>
    match fuel with
    | 0 => Err OutOfFuel
    | S fuel' => relax fuel' mn min_precision (multiplier * (9 # 10))%Q seeds
        (filter (fun s => Qlt_b (min_precision * multiplier) (trim_precision mn s)) seeds)
    end
  | _ => Ok filtered
  end.

(** TRIM_SMOTE.sampling_algorithm, _trim_smote.py:363-411.  The loops get
    enough fuel: the parts get smaller, and the threshold falls below a tenth. *)
Definition trim_smote_algorithm (p : trim_params) (r : rng) (st : stats) (D : dataset) : res (list row * list Z) :=
  do n <- det_n_to_sample_st (tm_proportion p) st;
  if n =? 0 then Ok (d_X D, d_y D)
  else
    let mn := min_label st in
    do seeds <- trimming (length (d_X D) + 1) mn (d_dim D) [combine (d_X D) (d_y D)] [];
    if length (filter (fun s => Qlt_b (tm_min_precision p / 10) (trim_precision mn s)) seeds) =? 0 then Ok (d_X D, d_y D)
    else
      do seeds <- relax 25 mn (tm_min_precision p) (9 # 10) seeds
          (filter (fun s => Qlt_b (tm_min_precision p) (trim_precision mn s)) seeds);
      let X_seed_min := map fst (filter (fun r => Z.eqb (snd r) mn) (concat seeds)) in
      let k := Nat.min (length X_seed_min) (tm_n_neighbors p + 1) in
      do ind <- nn X_seed_min X_seed_min k;
      do samples <- sample_simplex volume (tm_ss p)
          (mk_args X_seed_min (d_dim D) ind k None None None false None) n r;
      Ok (extended D st samples).

Definition trim_smote_sample p r D := sample_with checks_default (trim_smote_algorithm p r) D.

(** ** MWMOTE *)

Record mw_params := mk_mw {
  mw_proportion : strategy; mw_k1 : nat; mw_k2 : nat; mw_k3 : nat; mw_M : nat; mw_cf_th : Q; mw_cmax : Q; mw_ss : ss_params }.

(** filter_minorities, _mwmote.py:164-189. *)
Definition filter_minorities (p : mw_params) (mn : Z) (D : dataset) : res (list nat) :=
  do ind <- nn (d_X D) (d_X D) (Nat.min (length (d_X D)) (mw_k1 p + 1));
  do kept <- mapM (fun i => do t <- get ind i; do ys <- gather (d_y D) (tl t);
      Ok (if 0 <? count_occ Z.eq_dec ys mn then [i] else [])) (where_ (map (Z.eqb mn) (d_y D)));
  Ok (concat kept).

(** [np.unique(ind.flatten())]. *)
Definition unique_flat (ind : list (list nat)) : list nat := map fst (unique_by Nat.eqb Nat.ltb (concat ind)).

(** [np.linalg.norm]. *)
Variable norm : row -> Q.

(** closeness_factor, _mwmote.py:244-266; dimension and cf_th are not zero here. *)
Definition closeness_factor (p : mw_params) (dim : nat) (y x : row) : Q :=
  let dist := q_max (1 # 10) (norm (vsub y x) / inject_Z (Z.of_nat dim))%Q in
  (q_min (1 / dist) (mw_cf_th p) / mw_cf_th p * mw_cmax p)%Q.

(** determine_information_weights, _mwmote.py:268-303, and the sums of 341-342.
    A zero sum, a zero cf_th or no column makes NaN of all of them; then choice, line 414, raises ValueError. *)
Definition selection_probabilities (p : mw_params) (dim : nat) (Y X : list row) : res (list Q) :=
  let cf := map (fun y => map (closeness_factor p dim y) X) Y in
  if (dim =? 0) || Qeq_bool (mw_cf_th p) 0 || existsb (fun l => Qeq_bool (qsum l) 0) cf then Err ValueError
  else
    let weights := map (fun l => map (fun c => c * c / qsum l)%Q l) cf in
    let sums := map (fun j => qsum (map (fun l => nth j l 0%Q) weights)) (seq 0 (length X)) in
    if Qeq_bool (qsum sums) 0 then Err ValueError else Ok (map (fun s => s / qsum sums)%Q sums).

(** KMeans(k).fit(X).labels_. *)
Variable kmeans : nat -> list row -> list nat.

(** The probability of informative row number [i], 0 for others, as
    determine_within_prob looks it up, _mwmote.py:385-388. *)
Definition lookup_prob (informative : list nat) (probs : list Q) (i : nat) : Q :=
  match where_ (map (Nat.eqb i) informative) with
  | [] => 0%Q
  | w :: _ => nth w probs 0%Q
  end.

(** determine_cluster_probs, _mwmote.py:346-365. *)
Definition cluster_probs (informative : list nat) (probs : list Q) (labels : list nat) : list Q :=
  let w := map (fun c => qsum (map (fun ip => if nth (fst ip) labels 0 =? c then snd ip else 0%Q) (combine informative probs)))
               (seq 0 (list_max labels + 1)) in
  map (fun q => q / qsum w)%Q w.

(** MWMOTE.sampling_algorithm, _mwmote.py:495-563.  [np.unique(X_min, axis=1)]
    removes columns, so its length is the number of minority rows. *)
Definition mwmote_algorithm (p : mw_params) (rs : nat -> rng) (st : stats) (D : dataset) : res (list row * list Z) :=
  do n <- det_n_to_sample_st (mw_proportion p) st;
  if n =? 0 then Ok (d_X D, d_y D)
  else
    let X_min := rows_with (min_label st) (d_X D) (d_y D) in
    let X_maj := rows_with (maj_label st) (d_X D) (d_y D) in
    do filtered <- filter_minorities p (min_label st) D;
    if length filtered =? 0 then Ok (d_X D, d_y D)
    else
      do X_filtered <- gather (d_X D) filtered;
      do ind2 <- nn X_maj X_filtered (Nat.min (length X_maj) (mw_k2 p + 1));
      do border <- gather X_maj (unique_flat ind2);
      do ind3 <- nn X_min border (Nat.min (mw_k3 p) (length X_min));
      let informative := unique_flat ind3 in
      do X_inf <- gather X_min informative;
      let labels := kmeans (Nat.min (length X_min) (mw_M p)) X_min in
      do probs <- selection_probabilities p (d_dim D) border X_inf;
      let cprobs := cluster_probs informative probs labels in
      do chosen <- np_choice (rs 0) (seq 0 (length cprobs)) n cprobs;
      do samples <- by_cluster (fun c count =>
          let members := where_ (map (Nat.eqb c) labels) in
          do vectors <- gather X_min members;
          let w := map (lookup_prob informative probs) members in
          let m := length vectors in
          sample_simplex volume (mw_ss p)
            (mk_args vectors (d_dim D) (circulant m) m (Some (map (fun q => q / qsum w)%Q w)) None None false None)
            count (rs (S c))) chosen;
      Ok (extended D st samples).

Definition mwmote_sample p rs D := sample_with checks_default (mwmote_algorithm p rs) D.

End Samplers.
