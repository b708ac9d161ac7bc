(** Oversamplers that place every coordinate of a new row on its own:
    Random_SMOTE, Safe_Level_SMOTE, Selected_SMOTE, SMOTE_OUT, SMOTE_Cosine,
    and three that pick points on segments: NDO_sampling, polynom_fit_SMOTE
    (star and bus), SMOTE_D.

    Numbers are exact rationals.  The code operates on whole arrays; here one
    new row is computed at a time from the same draws.  [rs 0], [rs 1], ... are
    the generator at the successive calls of one run. *)

From Coq Require Import List ZArith QArith Bool Arith Qround.
From Verif Require Import Np PyVal SimplexModel SamplerModel BaseModel DangerModel ClusterOversModel.
Import ListNotations.
Open Scope nat_scope.

(** [b + (v - b) * u] with one factor per coordinate. *)
Definition vlerp (b v u : row) : row := vadd b (map2 Qmult (vsub v b) u).

(** [random_state.choice(np.arange(m), n)]. *)
Definition choice_range (r : rng) (m n : nat) : res (list nat) :=
  if m =? 0 then Err ValueError
  else Ok (r_choice r (repeat (1 / inject_Z (Z.of_nat m))%Q m) n).

(** [random_state.choice(np.arange(1, m), n)]. *)
Definition choice_from1 (r : rng) (m n : nat) : res (list nat) :=
  do c <- choice_range r (m - 1) n; Ok (map S c).

(** [ind\[b, c\]]. *)
Definition entry (ind : list (list nat)) (b c : nat) : res nat :=
  do t <- get ind b; get t c.

(** [np.vstack(\[X, samples\]), np.hstack(\[y, np.repeat(min_label, len(samples))\])],
    the last statement of every sampler below. *)
Definition extended (D : dataset) (st : stats) (samples : list row) : list row * list Z :=
  (d_X D ++ samples, d_y D ++ repeat (min_label st) (length samples)).

Record comp_params := mk_comp { cp_proportion : strategy; cp_n_neighbors : nat }.

Section Samplers.

Variable nn : list row -> list row -> nat -> res (list (list nat)).

(** ** Random_SMOTE, _random_smote.py:98-152.  The (n, 2) array of neighbour
    choices is drawn as its two columns. *)
Definition random_smote_row (X_min : list row) (ind : list (list nat))
    (draw : nat * (nat * (nat * (row * row)))) : res row :=
  let '(b, (c1, (c2, (u1, u2)))) := draw in
  do i1 <- entry ind b c1; do y1 <- get X_min i1;
  do i2 <- entry ind b c2; do y2 <- get X_min i2;
  do base <- get X_min b;
  Ok (vlerp base (vlerp y1 y2 u1) u2).

Definition random_smote_algorithm (p : comp_params) (rs : nat -> rng) (st : stats) (D : dataset)
    : res (list row * list Z) :=
  do n <- det_n_to_sample_st (cp_proportion p) st;
  if n =? 0 then Ok (d_X D, d_y D)
  else
    let X_min := rows_with (min_label st) (d_X D) (d_y D) in
    let k := Nat.min (length X_min) (cp_n_neighbors p + 1) in
    do ind <- nn X_min X_min k;
    do base <- choice_range (rs 0) (length X_min) n;
    do c1 <- choice_from1 (rs 1) k n;
    do c2 <- choice_from1 (rs 2) k n;
    do samples <- mapM (random_smote_row X_min ind)
      (combine base (combine c1 (combine c2
         (combine (r_unif (rs 3) n (d_dim D)) (r_unif (rs 4) n (d_dim D))))));
    Ok (extended D st samples).

Definition random_smote_sample p rs D :=
  sample_with checks_default (random_smote_algorithm p rs) D.

(** ** Safe_Level_SMOTE *)

(** slp_sln, _safe_level_smote.py:113-144: (positive, neighbour, level of the
    positive, level of the neighbour). *)
Definition slp_sln (mn : Z) (y : list Z) (indices : list (list nat))
    : res (list (nat * nat * nat * nat)) :=
  let minority := where_ (map (Z.eqb mn) y) in
  do levels <- mapM (count_neighbours y mn) indices;
  do lev_min <- gather levels minority;
  let pos_slp := select (map (fun l => 0 <? l) lev_min) minority in
  let null_slp := select (map (fun l => l =? 0) lev_min) minority in
  do rows_pos <- gather indices pos_slp;
  let part0 := flat_map (fun pt => map (pair (fst pt)) (tl (snd pt))) (combine pos_slp rows_pos) in
  do rows_null <- gather indices null_slp;
  do part1 <- mapM (fun pt =>
      do ls <- gather levels (tl (snd pt));
      Ok (map (pair (fst pt)) (select (map (fun l => 0 <? l) ls) (tl (snd pt)))))
    (combine null_slp rows_null);
  mapM (fun ij =>
      do a <- get levels (fst ij); do b <- get levels (snd ij);
      Ok (fst ij, snd ij, a, b))
    (part0 ++ concat part1).

(** One row of [gap] after lines 174-181. *)
Definition safe_gap (slp sln : nat) (g : row) : row :=
  let q := fun n : nat => inject_Z (Z.of_nat n) in
  let g := map (fun t => t * (if (sln =? 0) && (0 <? slp) then 0 else 1))%Q g in
  let g := if sln <? slp then map (fun t => t * q sln / q slp)%Q g else g in
  if slp <? sln then map (fun t => t * q slp / q sln + (1 - q slp / q sln))%Q g else g.

Definition safe_level_row (X : list row) (pairs : list (nat * nat * nat * nat))
    (draw : nat * row) : res row :=
  do e <- get pairs (fst draw);
  let '(i, j, slp, sln) := e in
  do p <- get X i; do q <- get X j;
  Ok (vlerp p q (safe_gap slp sln (snd draw))).

(** generate_samples, _safe_level_smote.py:146-187; sampling_algorithm,
    189-219. *)
Definition safe_level_algorithm (p : comp_params) (rs : nat -> rng) (st : stats) (D : dataset)
    : res (list row * list Z) :=
  do n <- det_n_to_sample_st (cp_proportion p) st;
  if n =? 0 then Ok (d_X D, d_y D)
  else
    let k := Nat.min (cp_n_neighbors p + 1) (length (d_X D)) in
    do indices <- nn (d_X D) (d_X D) k;
    do pairs <- slp_sln (min_label st) (d_y D) indices;
    match pairs with
    | [] => Ok (d_X D, d_y D)
    | _ =>
      do base <- choice_range (rs 0) (length pairs) n;
      do samples <- mapM (safe_level_row (d_X D) pairs)
        (combine base (r_unif (rs 1) n (d_dim D)));
      Ok (extended D st samples)
    end.

Definition safe_level_sample p rs D :=
  sample_with checks_default (safe_level_algorithm p rs) D.

(** ** Selected_SMOTE *)

(** [np.rint]: to the nearest integer, halves to the even one. *)
Definition rint (q : Q) : Z :=
  let f := Qfloor q in
  match (q - inject_Z f ?= 1 # 2)%Q with
  | Lt => f
  | Gt => (f + 1)%Z
  | Eq => if Z.even f then f else (f + 1)%Z
  end.

(** Overlap of the ranges of one attribute relative to its minority range,
    _selected_smote.py:113-132 (0 stays 0 for a constant attribute). *)
Definition overlap_percentage (cmin cmaj : list Q) : Q :=
  let min_a := col_min cmin in let min_b := col_max cmin in
  let maj_a := col_min cmaj in let maj_b := col_max cmaj in
  let overlap := (q_min min_b maj_b - q_max min_a maj_a)%Q in
  let overlap := if Qlt_b overlap 0 then 0%Q else overlap in
  let percentage := (min_b - min_a)%Q in
  if Qeq_bool percentage 0 then percentage else (overlap / percentage)%Q.

(** [sorted(percentages)\[-num\]] for num <= 1: the last element for 1, the
    element number -num otherwise. *)
Definition from_end (l : list Q) (num : Z) : res Q :=
  if (num =? 1)%Z then match rev l with [] => Err IndexError | x :: _ => Ok x end
  else get l (Z.to_nat (- num)).

(** significant_attributes, _selected_smote.py:99-143. *)
Definition significant_attributes (perc : Q) (dim : nat) (X_min X_maj : list row) : res row :=
  let percentages := map (fun j => overlap_percentage (column j X_min) (column j X_maj)) (seq 0 dim) in
  let tmp := rint (perc * inject_Z (Z.of_nat (length percentages))) in
  let num_sign_attr := Z.min 1 tmp in
  do threshold <- from_end (sort_by Qle_bool percentages) num_sign_attr;
  Ok (map (fun x => if Qle_bool threshold x then 1 else 0)%Q percentages).

Record selected_params := mk_selected {
  sl_proportion : strategy; sl_n_neighbors : nat; sl_perc_sign_attr : Q }.

(** generate_samples, _selected_smote.py:145-164, one row. *)
Definition selected_row (X_min : list row) (ind : list (list nat)) (sign : row)
    (draw : nat * (nat * row)) : res row :=
  let '(b, (c, u)) := draw in
  do i <- entry ind b c;
  do base <- get X_min b; do neigh <- get X_min i;
  Ok (vadd base (map2 Qmult (map2 Qmult (vsub neigh base) u) sign)).

(** sampling_algorithm, _selected_smote.py:166-210. *)
Definition selected_algorithm (p : selected_params) (rs : nat -> rng) (st : stats) (D : dataset)
    : res (list row * list Z) :=
  do n <- det_n_to_sample_st (sl_proportion p) st;
  if n =? 0 then Ok (d_X D, d_y D)
  else
    let X_min := rows_with (min_label st) (d_X D) (d_y D) in
    let X_maj := rows_with (maj_label st) (d_X D) (d_y D) in
    let k := Nat.min (length X_min) (sl_n_neighbors p + 1) in
    do ind <- nn X_min X_min k;
    do sign <- significant_attributes (sl_perc_sign_attr p) (d_dim D) X_min X_maj;
    do base <- choice_range (rs 0) (length X_min) n;
    do c <- choice_from1 (rs 1) k n;
    do samples <- mapM (selected_row X_min ind sign)
      (combine base (combine c (r_unif (rs 2) n (d_dim D))));
    Ok (extended D st samples).

Definition selected_sample p rs D :=
  sample_with checks_default (selected_algorithm p rs) D.

(** ** SMOTE_OUT and SMOTE_Cosine *)

(** The formula of _smote_out.py:120-134 and _smote_cosine.py:87-91:
    [uu = u + a * 0.3 * (u - v)], [x + b * 0.5 * (uu - x)]. *)
Definition out_point (u v x a b : row) : row :=
  let uu := vadd u (map2 Qmult (map (fun t => t * (3 # 10))%Q a) (vsub u v)) in
  vadd x (map2 Qmult (map (fun t => t * (1 # 2))%Q b) (vsub uu x)).

(** generate_samples, _smote_out.py:89-134 and _smote_cosine.py:93-129, one
    row.  [X\[minority_indices\[b\]\]] is [X_min\[b\]]. *)
Definition out_row (X_min X_maj : list row) (maj_ind min_ind : list (list nat))
    (draw : nat * (nat * (nat * (row * row)))) : res row :=
  let '(b, (cmaj, (cmin, (a1, a2)))) := draw in
  do u <- get X_min b;
  do iv <- entry maj_ind b cmaj; do v <- get X_maj iv;
  do ix <- entry min_ind b cmin; do x <- get X_min ix;
  Ok (out_point u v x a1 a2).

Definition out_generate (rs : nat -> rng) (dim n : nat) (X_min X_maj : list row)
    (kmaj kmin : nat) (maj_ind min_ind : list (list nat)) : res (list row) :=
  do base <- choice_range (rs 0) (length X_min) n;
  do cmaj <- choice_range (rs 1) kmaj n;
  do cmin <- choice_from1 (rs 2) kmin n;
  mapM (out_row X_min X_maj maj_ind min_ind)
    (combine base (combine cmaj (combine cmin
       (combine (r_unif (rs 3) n dim) (r_unif (rs 4) n dim))))).

(** SMOTE_OUT.sampling_algorithm, _smote_out.py:136-204. *)
Definition smote_out_algorithm (p : comp_params) (rs : nat -> rng) (st : stats) (D : dataset)
    : res (list row * list Z) :=
  do n <- det_n_to_sample_st (cp_proportion p) st;
  if n =? 0 then Ok (d_X D, d_y D)
  else
    let X_min := rows_with (min_label st) (d_X D) (d_y D) in
    let X_maj := rows_with (maj_label st) (d_X D) (d_y D) in
    let kmin := Nat.min (length X_min) (cp_n_neighbors p + 1) in
    do min_ind <- nn X_min X_min kmin;
    let kmaj := Nat.min (length X_maj) (cp_n_neighbors p + 1) in
    do maj_ind <- nn X_maj X_min kmaj;
    do samples <- out_generate rs (d_dim D) n X_min X_maj kmaj kmin maj_ind min_ind;
    Ok (extended D st samples).

Definition smote_out_sample p rs D :=
  sample_with checks_default (smote_out_algorithm p rs) D.

(** The search with metric="cosine" (_smote_cosine.py:156-160). *)
Variable nn_cos : list row -> list row -> nat -> res (list (list nat)).

(** [ind.argsort(axis=1)] of an integer table, one row. *)
Definition argsort_nat (t : list nat) : list nat :=
  argsort (map (fun i => inject_Z (Z.of_nat i)) t).

(** composite_ind, _smote_cosine.py:167-170, one row. *)
Definition composite_row (euc cos : list nat) : list nat :=
  argsort_nat (map2 Nat.add (argsort_nat euc) (argsort_nat cos)).

(** SMOTE_Cosine.sampling_algorithm, _smote_cosine.py:131-185. *)
Definition smote_cosine_algorithm (p : comp_params) (rs : nat -> rng) (st : stats) (D : dataset)
    : res (list row * list Z) :=
  do n <- det_n_to_sample_st (cp_proportion p) st;
  if n =? 0 then Ok (d_X D, d_y D)
  else
    let X_min := rows_with (min_label st) (d_X D) (d_y D) in
    let X_maj := rows_with (maj_label st) (d_X D) (d_y D) in
    let kmin := length X_min in
    do euc <- nn X_min X_min kmin;
    do cos <- nn_cos X_min X_min kmin;
    let kmaj := Nat.min (length X_maj) (cp_n_neighbors p) in
    do maj_ind <- nn X_maj X_min kmaj;
    let composite := map2 composite_row euc cos in
    do samples <- out_generate rs (d_dim D) n X_min X_maj kmaj kmin maj_ind composite;
    Ok (extended D st samples).

Definition smote_cosine_sample p rs D :=
  sample_with checks_default (smote_cosine_algorithm p rs) D.

End Samplers.

(** ** NDO_sampling *)

Section NDO.

Variable volume : list row -> Q.
Variable dist : row -> row -> Q.
Variable nn : list row -> list row -> nat -> res (list (list nat)).

(** The distances [kneighbors] returns with the indices. *)
Definition table_dist (Xf Xq : list row) (ind : list (list nat)) : list (list Q) :=
  map2 (fun x t => map (fun i => dist x (nth i Xf [])) t) Xq ind.

(** determine_alpha, _ndo_sampling.py:127-167; [None] is [np.inf]. *)
Definition determine_alpha (mn mj : Z) (y : list Z) (ind : list (list nat)) (d : list (list Q))
    : res (option Q) :=
  do labels <- mapM (fun t => gather y (tl t)) ind;
  let pick := fun lab => concat (map2 (fun ls ds => select (map (Z.eqb lab) ls) (tl ds)) labels d) in
  match pick mn with
  | [] => Ok (Some 0%Q)
  | intra =>
    do d_intra <- qmean intra;
    match pick mj with
    | [] => Ok None
    | exter =>
      do d_exter <- qmean exter;
      if Qeq_bool d_exter 0 then Ok None else Ok (Some (d_intra / d_exter)%Q)
    end
  end.

Record ndo_params := mk_ndo {
  nd_proportion : strategy; nd_n_neighbors : nat; nd_T : Q; nd_ss : ss_params }.

(** What one pass of the loop draws: the minority row, the position among the
    other neighbours, two uniform numbers. *)
Record ndo_draw := mk_draw { dr_idx : nat; dr_col : nat; dr_u1 : Q; dr_u2 : Q }.

(** The loop, _ndo_sampling.py:212-229, as a list of draws long enough;
    [X\[random_idx\]] is a row of the whole data set. *)
Fixpoint ndo_loop (fuel : nat) (draws : nat -> ndo_draw) (mn : Z) (X : list row) (y : list Z)
    (X_min : list row) (ind : list (list nat)) (n : nat) (samples : list row) : res (list row) :=
  if length samples <? n then
    match fuel with
    | O => Err OutOfFuel
    | S f =>
      let d := draws (n - fuel) in
      do base <- get X_min (dr_idx d);
      do t <- get ind (dr_idx d);
      do j <- get (tl t) (dr_col d);
      do v <- get X j; do yv <- get y j;
      let s1 := vadd base (map (fun t => t * dr_u1 d / 2)%Q (vsub v base)) in
      let s2 := vadd v (map (fun t => t * dr_u2 d / 2)%Q (vsub base v)) in
      ndo_loop f draws mn X y X_min ind n
        (samples ++ s1 :: if Z.eqb yv mn then [s2] else [])
    end
  else Ok samples.

(** sampling_algorithm, _ndo_sampling.py:169-234.  The SMOTE object of lines
    202-207 has the default n_neighbors=5. *)
Definition ndo_algorithm (p : ndo_params) (draws : nat -> ndo_draw) (r : rng) (st : stats) (D : dataset)
    : res (list row * list Z) :=
  do n <- det_n_to_sample_st (nd_proportion p) st;
  if n =? 0 then Ok (d_X D, d_y D)
  else
    let X_min := rows_with (min_label st) (d_X D) (d_y D) in
    let k := Nat.min (length (d_X D)) (nd_n_neighbors p + 1) in
    do ind <- nn (d_X D) X_min k;
    do alpha <- determine_alpha (min_label st) (maj_label st) (d_y D) ind (table_dist (d_X D) X_min ind);
    if match alpha with Some a => Qlt_b a (nd_T p) | None => false end
    then smote_sample volume nn (mk_smote (nd_proportion p) 5 (nd_ss p)) r D
    else
      do samples <- ndo_loop n draws (min_label st) (d_X D) (d_y D) X_min ind n [];
      Ok (extended D st samples).

Definition ndo_sample p draws r D :=
  sample_with checks_default (ndo_algorithm p draws r) D.

End NDO.

(** ** polynom_fit_SMOTE, star and bus *)

Inductive topology := Star | Bus.

(** [kdx] and [splits], _polynom_fit_smote.py:108-109 and 118-119. *)
Definition poly_kdx (n m : nat) : nat :=
  Z.to_nat (Z.max 1 (rint (inject_Z (Z.of_nat n) / inject_Z (Z.of_nat m)))).
Definition poly_splits (k : nat) : list Q :=
  map (fun i => inject_Z (Z.of_nat i) / inject_Z (Z.of_nat (k + 1)))%Q (seq 1 k).

(** [np.vstack(diffs\[:, None\] * splits\[:, None\]) + np.repeat(bases, kdx)]. *)
Definition poly_points (splits : list Q) (bases diffs : list row) : list row :=
  concat (map2 (fun b d => map (fun s => vadd (map (fun t => t * s)%Q d) b) splits) bases diffs).

Definition polynom_algorithm (prop : strategy) (top : topology) (st : stats) (D : dataset)
    : res (list row * list Z) :=
  do n <- det_n_to_sample_st prop st;
  if n =? 0 then Ok (d_X D, d_y D)
  else
    let X_min := rows_with (min_label st) (d_X D) (d_y D) in
    let splits := poly_splits (poly_kdx n (length X_min)) in
    do samples <-
      match top with
      | Star =>
        do mean <- mean_row (d_dim D) X_min;
        Ok (poly_points splits X_min (map (fun x => vsub mean x) X_min))
      | Bus =>
        Ok (poly_points splits (removelast X_min) (map2 (fun a b => vsub b a) X_min (tl X_min)))
      end;
    match samples with [] => Err ValueError | _ => Ok (extended D st samples) end.

(** polynom_fit_SMOTE.sample, _polynom_fit_smote.py:84-153; the classes
    polynom_fit_SMOTE_star and _bus, 210-222 and 281-293, run the checks of
    [sample] a second time. *)
Definition polynom_sample prop top D :=
  sample_with checks_default
    (fun _ D' => sample_with checks_default (polynom_algorithm prop top) D') D.

(** ** SMOTE_D *)

Section SMOTED.

Variable dist : row -> row -> Q.
Variable std : list Q -> Q.     (* np.std *)
Variable nn : list row -> list row -> nat -> res (list (list nat)).

(** The inner loop, _smote_d.py:115-122, for one pair: [c] is
    counts_ij\[idx\]\[jdx\], [u] the uniform numbers it draws.  The loop runs
    ceil(c) times. *)
Fixpoint d_loop (fuel : nat) (u : nat -> Q) (base neigh : row) (c : Q) : res (list row) :=
  if Qlt_b 0 c then
    match fuel with
    | O => Err OutOfFuel
    | S f =>
      do rest <- d_loop f (fun i => u (S i)) base neigh (c - 1)%Q;
      if Qlt_b (u 0) c
      then Ok (vadd base (map (fun t => t / (c + 1))%Q (vsub neigh base)) :: rest)
      else Ok rest
    end
  else Ok [].

(** generate_samples, _smote_d.py:99-124. *)
Definition d_generate (us : nat -> nat -> nat -> Q) (X_min : list row) (ind : list (list nat))
    (counts : list (list Q)) : res (list row) :=
  do parts <- mapM (fun i =>
      do base <- get X_min i; do t <- get ind i; do cs <- get counts i;
      do qs <- mapM (fun j =>
          do c <- get cs j; do v <- get t (S j); do neigh <- get X_min v;
          d_loop (Z.to_nat (Qceiling c)) (us i j) base neigh c)
        (seq 0 (length t - 1));
      Ok (concat qs))
    (seq 0 (length X_min));
  Ok (concat parts).

(** counts_ij, _smote_d.py:157-168. *)
Definition d_counts (n : nat) (d : list (list Q)) : list (list Q) :=
  let p_i := fix_density (map (fun t => Fin (std (tl t))) d) in
  let p_ij := map (fun t => fix_density (map Fin (tl t))) d in
  map2 (fun pi ps => map (fun q => inject_Z (Z.of_nat n) * pi * q)%Q ps) p_i p_ij.

(** sampling_algorithm, _smote_d.py:126-172. *)
Definition smote_d_algorithm (p : comp_params) (us : nat -> nat -> nat -> Q) (st : stats) (D : dataset)
    : res (list row * list Z) :=
  do n <- det_n_to_sample_st (cp_proportion p) st;
  if n =? 0 then Ok (d_X D, d_y D)
  else
    let X_min := rows_with (min_label st) (d_X D) (d_y D) in
    let k := Nat.min (length X_min) (cp_n_neighbors p + 1) in
    do ind <- nn X_min X_min k;
    do samples <- d_generate us X_min ind (d_counts n (table_dist dist X_min X_min ind));
    Ok (extended D st samples).

Definition smote_d_sample p us D :=
  sample_with checks_default (smote_d_algorithm p us) D.

End SMOTED.
