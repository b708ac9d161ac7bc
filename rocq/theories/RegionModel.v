(** Oversamplers that look at a region around a minority row or at its rank:
    OUPS, AND_SMOTE, CCR, SMOBD.

    Numbers are exact rationals.  Nearest neighbours, logistic regression and
    OPTICS are parameters.  Metric learning ([nn_params]) only changes the
    distance behind [nn]. *)

From Coq Require Import List ZArith QArith Qabs Bool Arith Qround.
From Verif Require Import Np PyVal SimplexModel SamplerModel BaseModel UnderModel DangerModel ClusterOversModel CompModel LevelModel WrapModel DirModel.
Import ListNotations.
Open Scope nat_scope.

Section Samplers.

Variable volume : list row -> Q.

(** ** OUPS *)

Record oups_params := mk_oups { ou_proportion : strategy; ou_ss : ss_params }.

(** determine_sorting, _oups.py:92-115: the row numbers by decreasing propensity. *)
Variable sorting : list row -> list Z -> list nat.

(** [np.arange(p, 0, -1.0)] has ceil(p) entries p, p-1, ...; lines 142-143 clip them to \[0,1\]. *)
Definition oups_columns (p : Q) : nat := Z.to_nat (Qceiling p).
Definition oups_weight (p : Q) (i : nat) : Q := q_min 1 (p - inject_Z (Z.of_nat i)).

(** Line 158 turns a number past the end, [len(X) + k - 1], into [-k].
    With random sampling in the simplex sample_simplex then adds
    [len(X_sorted_min)] and looks the sum up in the base rows followed by the
    sorted rows, _simplexsampling.py:231-235; otherwise [-k] counts from the end of the sorted rows,
    _simplexsampling.py:264-268.  Here the numbers are kept and the rows they
    lead to are put behind the sorted rows; the order in which deterministic
    sampling lists its rows is the only thing this changes. *)
Definition oups_past (w : within_sampling) (X_sorted X_sorted_min : list row) (k : nat) : row :=
  let N := length X_sorted in
  let m := length X_sorted_min in
  match w with
  | WRandom => if k <=? m then nth (m - k) X_sorted_min [] else nth (N + m - k) X_sorted []
  | _ => nth (N - k) X_sorted []
  end.

(** OUPS.sampling_algorithm, _oups.py:114-194. *)
Definition oups_algorithm (q : oups_params) (r : rng) (st : stats) (D : dataset) : res (list row * list Z) :=
  do n <- det_n_to_sample_st (ou_proportion q) st;
  if n =? 0 then Ok (d_X D, d_y D)
  else
    let sort := sorting (d_X D) (d_y D) in
    do X_sorted <- gather (d_X D) sort;
    do y_sorted <- gather (d_y D) sort;
    let N := length (d_X D) in
    let count := fun z => inject_Z (Z.of_nat (count_occ Z.eq_dec (d_y D) z)) in
    let p := (count (maj_label st) / count (min_label st))%Q in
    let c := oups_columns p in
    let simplex_weights := map (fun i => map (fun j => if i + 1 + j <? N then oups_weight p j else 0%Q) (seq 0 c)) (seq 0 N) in
    let min_indices := where_ (map (Z.eqb (min_label st)) y_sorted) in
    let kept := filter (fun i => i + 1 <? N) min_indices in
    let indices := map (fun i => seq (i + 1) c) kept in
    do X_sorted_min <- gather X_sorted kept;
    let V := X_sorted ++ map (oups_past (ss_within (ou_ss q)) X_sorted X_sorted_min) (seq 1 c) in
    do samples <- sample_simplex volume (ou_ss q)
      (mk_args X_sorted_min (d_dim D) indices c None None (Some V) false (Some simplex_weights)) n r;
    Ok (extended D st samples).

Definition oups_sample q r D := sample_with checks_default (oups_algorithm q r) D.

Variable nn : list row -> list row -> nat -> res (list (list nat)).

(** ** AND_SMOTE *)

Record and_params := mk_and { an_proportion : strategy; an_K : nat; an_ss : ss_params }.

(** The mask of _and_smote.py:142-145 at one row: [x] lies in the box spanned by [a] and [b]. *)
Definition in_box (a b x : row) : bool :=
  forallb (fun j => Qle_bool (q_min (nth j a 0) (nth j b 0)) (nth j x 0) &&
                    Qle_bool (nth j x 0) (q_max (nth j a 0) (nth j b 0)))%Q (seq 0 (length x)).

(** calculate_r_min_maj, _and_smote.py:117-153, for one label. *)
Definition box_rows (X : list row) (y : list Z) (label : Z) (i : nat) (idx : list nat) (q : nat) : list nat :=
  filter (fun j => in_box (nth i X []) (nth (nth q idx 0) X []) (nth j X []) && Z.eqb (nth j y 0%Z) label)
         (firstn (q + 1) idx).

(** The growing unions of _and_smote.py:191-196, and their sizes, 200-201. *)
Fixpoint region_sizes (rmin rmaj : nat -> list nat) (u v : list nat) (qs : list nat) : list (nat * nat) :=
  match qs with
  | [] => []
  | q :: qs' =>
    let u' := nodup Nat.eq_dec (u ++ rmin q) in
    let v' := nodup Nat.eq_dec (v ++ rmaj q) in
    (length u', length v') :: region_sizes rmin rmaj u' v' qs'
  end.

(** [regions_min / (regions_min + regions_maj)], line 205; 0/0 would be NaN. *)
Definition precision (s : nat * nat) : res Q :=
  if fst s + snd s =? 0 then Err NotANumber
  else Ok (inject_Z (Z.of_nat (fst s)) / inject_Z (Z.of_nat (fst s + snd s)))%Q.

(** [np.diff]. *)
Fixpoint diff (l : list Q) : list Q :=
  match l with
  | a :: ((b :: _) as l') => (b - a)%Q :: diff l'
  | _ => []
  end.

(** calculate_kappa, _and_smote.py:155-210. *)
Definition calculate_kappa (mn mj : Z) (X : list row) (y : list Z) (i : nat) (idx : list nat) : res nat :=
  do _ <- gather X idx;
  do _ <- gather y idx;
  let qs := filter (fun q => negb (Z.eqb (nth (nth q idx 0) y 0%Z) mj)) (seq 1 (length idx - 1)) in
  do prec <- mapM precision (region_sizes (box_rows X y mn i idx) (box_rows X y mj i idx) [] [] qs);
  match diff prec with
  | [] => Ok 0
  | ds => do a <- argmin ds; Ok (a + 2)
  end.

(** The weights of _and_smote.py:271-277: ones up to column kappa. *)
Definition and_weights (cols kappa : nat) : list Q :=
  map (fun q => if (0 <? kappa) && (q <=? kappa) then 1%Q else 0%Q) (seq 0 cols).

(** AND_SMOTE.sampling_algorithm, _and_smote.py:212-280. *)
Definition and_smote_algorithm (p : and_params) (r : rng) (st : stats) (D : dataset) : res (list row * list Z) :=
  do n <- det_n_to_sample_st (an_proportion p) st;
  if n =? 0 then Ok (d_X D, d_y D)
  else
    let X_min := rows_with (min_label st) (d_X D) (d_y D) in
    do ind <- nn (d_X D) (d_X D) (Nat.min (length X_min) (an_K p));
    let min_ind := where_ (map (Z.eqb (min_label st)) (d_y D)) in
    do kappa <- mapM (fun i => do idx <- get ind i;
        calculate_kappa (min_label st) (maj_label st) (d_X D) (d_y D) i idx) min_ind;
    let cols := list_max kappa + 1 in
    do ind <- nn X_min X_min cols;
    if nsum kappa =? 0 then Ok (d_X D, d_y D)
    else
      do samples <- sample_simplex volume (an_ss p)
        (mk_args X_min (d_dim D) ind cols None None None false (Some (map (and_weights cols) kappa))) n r;
      Ok (extended D st samples).

Definition and_smote_sample p r D := sample_with checks_default (and_smote_algorithm p r) D.

(** ** CCR *)

(** [energy * dim ** scaling], _ccr.py:197, is one number here. *)
Record ccr_params := mk_ccr { cc_proportion : strategy; cc_energy : Q }.

(** The loop of determine_radii_current_majority, _ccr.py:200-219, over the
    sorted distances.  Line 219 stores the distance before the current one;
    in the first round its index is -1, the last entry.  A round in which the
    loop breaks keeps its own number. *)
Fixpoint radius_loop (ds todo : list Q) (cur : nat) (last_distance remaining radius : Q) : Q * Q * nat :=
  match todo with
  | [] => (radius, remaining, cur - 1)
  | dist :: todo' =>
    let next := inject_Z (Z.of_nat (cur + 1)) in
    if Qle_bool remaining 0 then (radius, 0%Q, cur)
    else if Qle_bool (radius + remaining / next) dist then ((radius + remaining / next)%Q, remaining, cur)
    else
      let change := q_max (dist - last_distance) 0 in
      radius_loop ds todo' (cur + 1) (nth (if cur =? 0 then length ds - 1 else cur - 1) ds 0%Q)
        (remaining - change * next) (radius + change)
  end.

(** determine_radii_current_majority, _ccr.py:180-225: the radius. *)
Definition ccr_radius (energy : Q) (ds : list Q) : Q :=
  let '(radius, remaining, cur) := radius_loop ds ds 0 0 energy 0 in
  if cur =? length ds - 1 then (radius + remaining / inject_Z (Z.of_nat (Nat.max 1 cur)))%Q else radius.

(** [pairwise_distances(metric="l1")], line 239. *)
Definition l1 (x z : row) : Q := qsum (map Qabs (vsub x z)).

(** determine_radii_translations, _ccr.py:224-259, without the translations:
    they are added to a copy of the majority rows that nothing reads again
    (lines 288-289 and 312-317), and computing them raises nothing. *)
Definition ccr_radii (energy : Q) (X_min X_maj : list row) : list Q :=
  map (fun x => let ds := map (l1 x) X_maj in
                ccr_radius energy (map (fun j => nth j ds 0%Q) (argsort ds))) X_min.

(** np.round of a number: to the nearest integer, halves to the even one. *)
Definition round_even (q : Q) : Z :=
  let f := Qfloor q in
  let r := (q - inject_Z f)%Q in
  if Qlt_b r (1 # 2) then f
  else if Qlt_b (1 # 2) r then (f + 1)%Z
  else if Z.even f then f else (f + 1)%Z.

(** The number of rows around one minority row, _ccr.py:299-302.  Division by
    a zero radius gives inf, which int() rejects; inf / inf is NaN, which int()
    rejects with ValueError. *)
Definition ccr_count (n : nat) (radii : list Q) (radius : Q) : res nat :=
  let N := inject_Z (Z.of_nat (length radii)) in
  if Qeq_bool (qsum radii) 0 then (if Qeq_bool radius 0 then Err ValueError else Ok 0)
  else if Qeq_bool radius 0 then Err OverflowError
  else Ok (Z.to_nat (round_even (inject_Z (Z.of_nat n) / N * (1 / radius) / (N / qsum radii)))).

(** taxicab_sample, _ccr.py:108-128, before the permutation: the coordinates
    from the draws, [prev] the one before. *)
Fixpoint taxicab (radius : Q) (prev : option Q) (us : list Q) : list Q :=
  match us with
  | [] => []
  | u :: us' =>
    let spread := match prev with None => radius | Some s => (radius - Qabs s)%Q end in
    let s := (spread * (2 * u - 1))%Q in
    s :: taxicab radius (Some s) us'
  end.

(** [random_state.permutation] of a vector, for new row number [t]. *)
Variable shuffle : nat -> list Q -> list Q.

(** CCR.sampling_algorithm, _ccr.py:261-308.  The rows around the minority rows
    in turn, numbered through. *)
Definition ccr_algorithm (p : ccr_params) (d : draws) (st : stats) (D : dataset) : res (list row * list Z) :=
  do n <- det_n_to_sample_st (cc_proportion p) st;
  if n =? 0 then Ok (d_X D, d_y D)
  else
    let X_min := rows_with (min_label st) (d_X D) (d_y D) in
    let X_maj := rows_with (maj_label st) (d_X D) (d_y D) in
    let radii := ccr_radii (cc_energy p) X_min X_maj in
    do counts <- mapM (ccr_count n radii) radii;
    let turns := flat_map (fun ic => repeat (fst ic) (snd ic)) (combine (seq 0 (length X_min)) counts) in
    Ok (extended D st (map (fun ti =>
        let '(t, i) := ti in
        vadd (nth i X_min []) (shuffle t (taxicab (nth i radii 0%Q) None (map (dr_unif d t) (seq 0 (d_dim D))))))
      (combine (seq 0 (length turns)) turns))).

Definition ccr_sample p d D := sample_with checks_default (ccr_algorithm p d) D.

(** ** SMOBD *)

Record smobd_params := mk_smobd {
  sb_proportion : strategy; sb_eta1 : Q; sb_t : Q; sb_min_samples : nat; sb_max_eps : Q }.

(** [OPTICS(min_samples, max_eps).fit(X)]: core_distances_ and reachability_,
    [None] standing for inf.  It may reject its arguments. *)
Variable optics : nat -> Q -> list row -> res (list (option Q) * list (option Q)).

(** [radius_neighbors]: the number of rows within the radius, for every row. *)
Variable radius_counts : list row -> Q -> list nat.

(** np.mean of numbers that may be inf. *)
Definition mean_ext (l : list (option Q)) : option Q :=
  if forallb (fun o => match o with Some _ => true | None => false end) l
  then Some (qsum (map (fun o => match o with Some q => q | None => 0%Q end) l) / inject_Z (Z.of_nat (length l)))%Q
  else None.

(** [x > average * t] with t >= 0: nothing exceeds inf, and inf * 0 is NaN. *)
Definition exceeds (t : Q) (average x : option Q) : bool :=
  match average with
  | None => false
  | Some a => match x with None => true | Some q => Qlt_b (a * t) q end
  end.

(** max of a list; ValueError on an empty one. *)
Definition max_of (l : list Q) : res Q :=
  match l with [] => Err ValueError | q :: l' => Ok (fold_left q_max l' q) end.

(** determine_indices_and_density, _smobd.py:131-195. *)
Definition smobd_density (p : smobd_params) (X_min : list row) : res (list (list nat) * list Q) :=
  do od <- optics (Nat.min (length X_min - 1) (sb_min_samples p)) (sb_max_eps p) X_min;
  let '(core, reach) := od in
  let noise := map2 (fun c r => exceeds (sb_t p) (mean_ext core) c && exceeds (sb_t p) (mean_ext reach) r) core reach in
  do indices <- nn X_min X_min (Nat.min (length X_min) (sb_min_samples p + 1));
  let counts := radius_counts X_min (sb_max_eps p) in
  let finite := flat_map (fun o => match o with Some q => [q] | None => [] end) core in
  if (length finite =? 0) || forallb (Nat.eqb 0) counts then Err ValueError
  else
    do m <- max_of finite;
    let factor_1 := map (fun o => match o with Some q => q | None => (m * (11 # 10))%Q end) core in
    let factor_2 := map (fun c => inject_Z (Z.of_nat c)) counts in
    do m1 <- max_of factor_1;
    do m2 <- max_of factor_2;
    let tiny := (1 # 100000000)%Q in
    let density := map2 (fun a b => a / q_max m1 tiny * sb_eta1 p + b / q_max m2 tiny * (1 - sb_eta1 p))%Q factor_1 factor_2 in
    let density := map2 (fun (z : bool) q => if z then 0%Q else q) noise density in
    Ok (indices, fix_density (map Fin density)).

Definition smobd_row (X_min : list row) (ind : list (list nat)) (draw : nat * (nat * row)) : res row :=
  let '(b, (c, u)) := draw in
  do base <- get X_min b;
  do i <- entry ind b c; do v <- get X_min i;
  Ok (vlerp base v u).

(** SMOBD.sampling_algorithm, _smobd.py:197-239.  ValueError, wherever it comes
    from in the density step, makes it return copies. *)
Definition smobd_algorithm (p : smobd_params) (rs : nat -> rng) (st : stats) (D : dataset) : res (list row * list Z) :=
  do n <- det_n_to_sample_st (sb_proportion p) st;
  if n =? 0 then Ok (d_X D, d_y D)
  else
    let X_min := rows_with (min_label st) (d_X D) (d_y D) in
    match smobd_density p X_min with
    | Err ValueError => Ok (d_X D, d_y D)
    | Err e => Err e
    | Ok (indices, density) =>
      do base <- np_choice (rs 0) (seq 0 (length X_min)) n density;
      do neigh <- choice_from1 (rs 1) (Nat.min (length X_min) (sb_min_samples p + 1)) n;
      do samples <- mapM (smobd_row X_min indices) (combine base (combine neigh (r_unif (rs 2) n (d_dim D))));
      Ok (extended D st samples)
    end.

Definition smobd_sample p rs D := sample_with checks_default (smobd_algorithm p rs) D.

End Samplers.
