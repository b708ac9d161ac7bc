(** Oversamplers that grade the minority rows or the rows they create: LN_SMOTE,
    Lee, ProWSyn, Gazzah and MSMOTE.

    Numbers are exact rationals; the exponential of ProWSyn and the principal
    components of Gazzah are arguments.  [rs 0], [rs 1], ... are the generator
    at the successive calls of one run. *)

From Coq Require Import List ZArith QArith Bool Arith.
From Verif Require Import Np PyVal SimplexModel SamplerModel BaseModel DangerModel NoiseModel ClusterOversModel
  CompModel EditModel.
Import ListNotations.
Open Scope nat_scope.

Section Level.

Variable volume : list row -> Q.
Variable nn : list row -> list row -> nat -> res (list (list nat)).

(** ** LN_SMOTE *)

(** [indices\[i\]\[1:-1\]] and [indices\[i\]\[-1\]]. *)
Definition inner (t : list nat) : list nat := removelast (tl t).
Definition last_of (t : list nat) : res nat := get t (length t - 1).

(** [np.sum(y\[idx\] == label)]. *)
Definition count_at (y : list Z) (lab : Z) (idx : list nat) : res nat :=
  do ls <- gather y idx; Ok (length (filter (Z.eqb lab) ls)).

(** safe_level, _ln_smote.py:103-130, first without and then with [n_idx].  The
    difference is a signed integer in the code; [p_idx] is a minority row among
    the rows counted, so it is never negative. *)
Definition ln_level (mn : Z) (y : list Z) (indices : list (list nat)) (i : nat) : res nat :=
  do t <- get indices i; count_at y mn (inner t).
Definition ln_pair_level (mn mj : Z) (y : list Z) (indices : list (list nat)) (p n : nat) : res nat :=
  do t <- get indices n;
  do lab <- get y n;
  do c <- count_at y mn (inner t);
  if Z.eqb lab mj && existsb (Nat.eqb p) (inner t) then
    do e <- last_of t; do le <- get y e;
    Ok (if Z.eqb le mn then c - 1 + 1 else c - 1)
  else Ok c.

(** calculate_slp_sln, _ln_smote.py:166-188, and the filter at 258-260.  A pair
    occurs once as no table row lists a position twice. *)
Definition ln_pairs (mn mj : Z) (y : list Z) (indices : list (list nat))
    : res (list (nat * nat * nat * nat)) :=
  do per <- mapM (fun p =>
      do slp <- ln_level mn y indices p;
      do t <- get indices p;
      mapM (fun n => do sln <- ln_pair_level mn mj y indices p n; Ok (p, n, slp, sln)) (inner t))
    (where_ (map (Z.eqb mn) y));
  Ok (filter (fun e => (0 <? snd (fst e)) && (0 <? snd e)) (concat per)).

(** random_gap, _ln_smote.py:132-164, one entry; [u] is the random number. *)
Definition ln_gap (slp sln : nat) (is_min : bool) (k : nat) (u : Q) : Q :=
  let q := fun n : nat => inject_Z (Z.of_nat n) in
  if (sln =? 0) && (0 <? slp) then 0%Q
  else
    let ratio := (q slp / q sln)%Q in
    let delta :=
      if Qeq_bool ratio 1 then u
      else if Qlt_b 1 ratio then (u / ratio)%Q
      else (1 - u * ratio)%Q in
    if is_min then delta else (delta * q sln / q k)%Q.

(** One turn of the loop of generate_samples, _ln_smote.py:212-229; [r] serves
    both of its draws. *)
Definition ln_row (mn : Z) (D : dataset) (k : nat) (pairs : list (nat * nat * nat * nat)) (r : rng) : res row :=
  do c <- choice_range r (length pairs) 1;
  do c0 <- get c 0;
  do e <- get pairs c0;
  let '(p, n, slp, sln) := e in
  do lab <- get (d_y D) n;
  do u <- get (r_unif r 1 (d_dim D)) 0;
  do x <- get (d_X D) p; do x' <- get (d_X D) n;
  Ok (vlerp x x' (map (ln_gap slp sln (Z.eqb lab mn) k) u)).

(** LN_SMOTE.sampling_algorithm, _ln_smote.py:232-274. *)
Definition ln_smote_algorithm (p : comp_params) (rs : nat -> rng) (st : stats) (D : dataset)
    : res (list row * list Z) :=
  do n <- det_n_to_sample_st (cp_proportion p) st;
  if n =? 0 then Ok (d_X D, d_y D)
  else
    let k := Nat.min (length (d_X D) - 2) (cp_n_neighbors p) in
    if k <? 2 then Ok (d_X D, d_y D)
    else
      do indices <- nn (d_X D) (d_X D) (k + 2);
      do pairs <- ln_pairs (min_label st) (maj_label st) (d_y D) indices;
      match pairs with
      | [] => Ok (extended D st [])
      | _ =>
        do samples <- mapM (fun i => ln_row (min_label st) D k pairs (rs i)) (seq 0 n);
        Ok (extended D st samples)
      end.

Definition ln_smote_sample p rs D :=
  sample_with checks_default (ln_smote_algorithm p rs) D.

(** ** Lee *)

Record lee_params := mk_lee {
  le_proportion : strategy; le_n_neighbors : nat; le_rejection_level : Q; le_ss : ss_params }.

(** [np.sum(y\[ind_new\] == self.maj_label, axis=1) / self.n_neighbors]. *)
Definition maj_frac (p : lee_params) (mj : Z) (y : list Z) (t : list nat) : res Q :=
  do c <- count_at y mj t; Ok (inject_Z (Z.of_nat c) / inject_Z (Z.of_nat (le_n_neighbors p)))%Q.

(** generate_samples, _lee.py:130-169; [i] numbers the turns of the loop.
    Result: the rows before the cut to [n]. *)
Fixpoint lee_loop (fuel : nat) (p : lee_params) (rs : nat -> rng) (i : nat) (mj : Z) (D : dataset)
    (X_min : list row) (ind_min : list (list nat)) (cols n : nat) (level : Q) (tries : nat)
    (samples : list row) : res (list row) :=
  if length samples <? n then
    match fuel with
    | O => Err OutOfFuel
    | S f =>
      do new <- sample_simplex volume (le_ss p)
        (mk_args X_min (d_dim D) ind_min cols None None None false None)
        (Nat.max (n - length samples) 20) (rs i);
      do ind_new <- nn (d_X D) new (Nat.min (length X_min) (le_n_neighbors p));
      do frac <- mapM (maj_frac p mj (d_y D)) ind_new;
      let tries := if existsb (fun q => Qlt_b q level) frac then tries else tries + 1 in
      let level' := if 5 <? tries then (level + (1 # 10))%Q else level in
      let tries' := if 5 <? tries then 0 else tries in
      lee_loop f p rs (S i) mj D X_min ind_min cols n level' tries'
        (samples ++ select (map (fun q => Qlt_b q level') frac) new)
    end
  else Ok samples.

(** Lee.sampling_algorithm, _lee.py:175-245. *)
Definition lee_algorithm (fuel : nat) (p : lee_params) (rs : nat -> rng) (st : stats) (D : dataset)
    : res (list row * list Z) :=
  do n <- det_n_to_sample_st (le_proportion p) st;
  if n =? 0 then Ok (d_X D, d_y D)
  else
    let X_min := rows_with (min_label st) (d_X D) (d_y D) in
    let cols := Nat.min (length X_min) (le_n_neighbors p + 1) in
    do ind_min <- nn X_min X_min cols;
    do samples <- lee_loop fuel p rs 0 (maj_label st) D X_min ind_min cols n (le_rejection_level p) 0 [];
    Ok (extended D st (firstn n samples)).

Definition lee_sample fuel p rs D :=
  sample_with checks_default (lee_algorithm fuel p rs) D.

(** ** ProWSyn *)

Record prowsyn_params := mk_prowsyn {
  pw_proportion : strategy; pw_n_neighbors : nat; pw_L : nat; pw_theta : Q; pw_ss : ss_params }.

(** The loop of determine_clusters_proximity_levels, _prowsyn.py:177-201: the
    clusters with their levels and the rows left over.  [idx] turns are over. *)
Fixpoint proximity_loop (turns idx : nat) (X X_maj : list row) (k : nat) (P : list nat)
    : res (list (list nat * nat) * list nat) :=
  match turns, P with
  | O, _ => Ok ([], P)
  | S _, [] => Ok ([], [])
  | S turns', _ =>
    do XP <- gather X P;
    do T <- nn XP X_maj (Nat.min (length P) k);
    let P_i := map fst (unique_by Nat.eqb Nat.ltb (concat T)) in
    do c <- gather P P_i;
    do rest <- proximity_loop turns' (idx + 1) X X_maj k (delete_idx P P_i);
    Ok ((c, idx + 1) :: fst rest, snd rest)
  end.

(** Steps 4 and 5, _prowsyn.py:203-210: what is left gets the level of the last
    turn. *)
Definition proximity_levels (L : nat) (X X_maj : list row) (k : nat) (P : list nat)
    : res (list (list nat * nat)) :=
  do r <- proximity_loop L 0 X X_maj k P;
  Ok (match snd r with [] => fst r | _ => fst r ++ [(snd r, L)] end).

Variable expo : Q -> Q.     (* np.exp *)

(** _prowsyn.py:236-249. *)
Definition prowsyn_weights (theta : Q) (Ps : list (list nat * nat)) : res (list Q) :=
  over_sum (map (fun c => match fst c with
                          | [] => 0%Q
                          | _ => expo (- theta * inject_Z (Z.of_nat (snd c) - 1))%Q
                          end) Ps).

(** generate_samples_in_clusters, _prowsyn.py:126-154. *)
Definition prowsyn_generate (p : prowsyn_params) (rs : nat -> rng) (D : dataset)
    (Ps : list (list nat * nat)) (weights : list Q) (n : nat) : res (list row) :=
  by_cluster (fun c count =>
      do members <- get Ps c;
      do vectors <- gather (d_X D) (fst members);
      sample_simplex volume (pw_ss p)
        (mk_args vectors (d_dim D) (circulant (length vectors)) (length vectors) None None None false None)
        count (rs (S c)))
    (r_choice (rs 0) weights n).

(** ProWSyn.sampling_algorithm, _prowsyn.py:222-266. *)
Definition prowsyn_algorithm (p : prowsyn_params) (rs : nat -> rng) (st : stats) (D : dataset)
    : res (list row * list Z) :=
  do n <- det_n_to_sample_st (pw_proportion p) st;
  if n =? 0 then Ok (d_X D, d_y D)
  else
    let X_maj := rows_with (maj_label st) (d_X D) (d_y D) in
    do Ps <- proximity_levels (pw_L p) (d_X D) X_maj (pw_n_neighbors p)
               (where_ (map (Z.eqb (min_label st)) (d_y D)));
    do weights <- prowsyn_weights (pw_theta p) Ps;
    do samples <- prowsyn_generate p rs D Ps weights n;
    Ok (extended D st samples).

Definition prowsyn_sample p rs D :=
  sample_with checks_default (prowsyn_algorithm p rs) D.

(** ** Gazzah *)

(** [PCA(n_components).fit_transform(X)]; an exception is a result. *)
Variable pca : nat -> list row -> res (list row).

(** Variance over a column and the squared norm of a row; the code compares the
    roots of the two sides of [far]. *)
Definition variance (l : list Q) : Q :=
  let n := inject_Z (Z.of_nat (length l)) in
  let m := (qsum l / n)%Q in
  (qsum (map (fun x => (x - m) * (x - m)) l) / n)%Q.
Definition sqnorm (x : row) : Q := qsum (map (fun t => t * t)%Q x).
Definition total_variance (c : nat) (T : list row) : Q :=
  qsum (map (fun j => variance (map (fun x => nth j x 0%Q) T)) (seq 0 c)).
Definition far (c : nat) (T : list row) : list nat :=
  where_ (map (fun x => Qlt_b (total_variance c T) (sqnorm x)) T).

(** Gazzah.sampling_algorithm, _gazzah.py:107-156. *)
Definition gazzah_algorithm (prop : strategy) (n_components : nat) (st : stats) (D : dataset)
    : res (list row * list Z) :=
  do samp <- polynom_sample prop Star D;
  let X_min_samp := skipn (length (d_X D)) (fst samp) in
  match X_min_samp with
  | [] => Ok (d_X D, d_y D)
  | _ =>
    let X_maj := rows_with (maj_label st) (d_X D) (d_y D) in
    let c := Nat.min (d_dim D) n_components in
    do trans <- pca c X_maj;
    let X_maj := delete_idx X_maj (far c trans) in
    Ok (X_maj ++ X_min_samp,
        repeat (maj_label st) (length X_maj) ++ repeat (min_label st) (length X_min_samp))
  end.

Definition gazzah_sample prop n_components D :=
  sample_with checks_default (gazzah_algorithm prop n_components) D.

(** ** MSMOTE *)

Inductive sample_type := SEC | BOR | NOI.
Definition is_noi (t : sample_type) : bool := match t with NOI => true | _ => false end.

(** _msmote.py:183-186. *)
Definition msmote_type (k n_p : nat) : sample_type :=
  if n_p =? 0 then NOI else if n_p =? k - 1 then SEC else BOR.

(** One new row, _msmote.py:135-152.  The code draws the columns for the "SEC"
    bases only; here one is drawn for every new row and the others are not used. *)
Definition msmote_row (X : list row) (rows : list (row * (sample_type * list nat)))
    (draw : nat * (nat * row)) : res row :=
  let '(b, (c, u)) := draw in
  do e <- get rows b;
  let '(base, (ty, t)) := e in
  do i <- get t (match ty with SEC => c | _ => 1 end);
  do v <- get X i;
  Ok (vlerp base v u).

(** MSMOTE.sampling_algorithm, _msmote.py:155-203. *)
Definition msmote_algorithm (p : comp_params) (rs : nat -> rng) (st : stats) (D : dataset)
    : res (list row * list Z) :=
  do n <- det_n_to_sample_st (cp_proportion p) st;
  if n =? 0 then Ok (d_X D, d_y D)
  else
    let X_min := rows_with (min_label st) (d_X D) (d_y D) in
    let k := Nat.min (length (d_X D)) (cp_n_neighbors p + 1) in
    do ind <- nn (d_X D) X_min k;
    do n_p <- mapM (count_neighbours (d_y D) (min_label st)) ind;
    let types := map (msmote_type k) n_p in
    if forallb is_noi types then Ok (d_X D, d_y D)
    else
      let rows := filter (fun e => negb (is_noi (fst (snd e)))) (combine X_min (combine types ind)) in
      do base <- choice_range (rs 0) (length rows) n;
      do cols <- choice_from1 (rs 1) k n;
      do samples <- mapM (msmote_row (d_X D) rows) (combine base (combine cols (r_unif (rs 2) n (d_dim D))));
      Ok (extended D st samples).

Definition msmote_sample p rs D :=
  sample_with checks_default (msmote_algorithm p rs) D.

End Level.
