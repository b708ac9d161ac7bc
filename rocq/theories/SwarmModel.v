(** Oversamplers that evolve a population: IPADE_ID, SMOTE_PSO and SMOTE_PSOBAT.

    Numbers are exact rationals.  Decision trees, support vector machines and the
    scores computed from their predictions are parameters. *)

From Coq Require Import List ZArith QArith Qabs Bool Arith Qround.
From Verif Require Import Np PyVal Float64 SimplexModel SamplerModel BaseModel UnderModel DangerModel ClusterOversModel CompModel NearModel LevelModel WrapModel DirModel EditModel RegionModel GraphModel MixModel.
Import ListNotations.
Open Scope nat_scope.

(** np.clip. *)
Definition clip (lo hi q : Q) : Q := q_min (q_max q lo) hi.

Section Samplers.

Variable volume : list row -> Q.
Variable nn : list row -> list row -> nat -> res (list (list nat)).

(** ** IPADE_ID *)

Record ip_params := mk_ip { ip_F : Q; ip_G : Q; ip_OT : nat; ip_max_it : nat }.

(** TrainingSet, _ipade_id.py:22-28. *)
Definition training := (list row * list Z)%type.

(** [dt_classifier.fit(X, y).apply(X)]: the leaf of every row. *)
Variable leaves : list row -> list Z -> list nat.

(** evaluate_ID and evaluate_class, _ipade_id.py:231-267: a classifier is trained on the
    first set and scored on the second. *)
Variables auc accuracy : training -> training -> res Q.

Section Evolution.

Variable p : ip_params.
Variable X : list row.
Variable y : list Z.

(** The draws of one call of DE_optimization: by iteration, then by row. *)
Variable ds : nat -> nat -> draws.
Variable sub : nat -> nat -> subsets.

Definition rows_of (idx : list nat) : res training := do Xs <- gather X idx; do ys <- gather y idx; Ok (Xs, ys).

(** update_element, _ipade_id.py:150-173, and the clip in DE_optimization. *)
Definition ip_update (call t : nat) (ixl : nat * (row * Z)) : res row :=
  let '(i, (x, l)) := ixl in
  let candidates := where_ (map (Z.eqb l) y) in
  do three <- choice_without (sub call t) i (length candidates) 3;
  do idx <- gather candidates three;
  do R <- gather X idx;
  do a <- get R 0; do b <- get R 1; do c <- get R 2;
  Ok (map (clip 0 1) (vadd (vadd x (vscale (ip_G p * dr_unif (ds call t) i 0) (vsub a x))) (vscale (ip_F p) (vsub b c)))).

(** The loop of DE_optimization, _ipade_id.py:175-229. *)
Fixpoint de_loop (more t : nat) (call : nat) (V : training) (score : Q) (GS : training) : res training :=
  match more with
  | 0 => Ok GS
  | S more =>
    do hat <- mapM (ip_update call t) (combine (seq 0 (length (fst GS))) (combine (fst GS) (snd GS)));
    do score_hat <- auc (hat, snd GS) V;
    if Qlt_b score score_hat then de_loop more (S t) call V score_hat (hat, snd GS) else de_loop more (S t) call V score GS
  end.

Definition de_optimization (call : nat) (GS : training) (val : list nat) : res training :=
  do V <- rows_of val;
  do score <- auc GS V;
  de_loop (ip_max_it p) 0 call V score GS.

(** configuration_checks, _ipade_id.py:279-300. *)
Definition configuration_checks (val : list nat) (GS_y : list Z) : res unit :=
  do ys <- gather y val;
  if (length (unique_counts ys) =? 1) || (length (unique_counts GS_y) =? 1) then Err ValueError else Ok tt.

(** phase_1, _ipade_id.py:302-364. *)
Definition leaf_element (dim : nat) (leafs : list nat) (leaf : nat) : res (row * Z) :=
  let idx := where_ (map (Nat.eqb leaf) leafs) in
  do XY <- rows_of idx;
  do m <- mean_row dim (fst XY);
  do l <- mode (snd XY);
  Ok (m, l).

Definition phase_1 (dim : nat) : res (Q * list nat * training) :=
  let leafs := leaves X y in
  do elements <- mapM (leaf_element dim leafs) (map fst (unique_by Nat.eqb Nat.ltb leafs));
  let GS := (map fst elements, map snd elements) in
  let val := where_ (map (fun l => negb (length (filter (Nat.eqb l) leafs) =? 1)) leafs) in
  do _ <- configuration_checks val (snd GS);
  do GS <- de_optimization 0 GS val;
  do V <- rows_of val;
  do score <- auc GS V;
  Ok (score, val, GS).

(** The variables of phase_2.  number_of_optimizations of the majority is read nowhere. *)
Record ip_state := mk_ip_state {
  is_auc : Q; is_GS : training; is_val : list nat;
  is_trial : option (training * list nat);
  is_min : bool; is_maj : bool; is_count : nat }.

(** determine_target_class, _ipade_id.py:366-399: is it the minority?  At least one of the
    classes is optimizable. *)
Definition class_accuracy (GS : training) (val : list nat) (l : Z) : res Q :=
  do ys <- gather y val;
  do V <- rows_of (select (map (Z.eqb l) ys) val);
  accuracy GS V.

Definition target_is_min (mn mj : Z) (s : ip_state) : res bool :=
  if is_min s then
    do a <- class_accuracy (is_GS s) (is_val s) mn;
    if is_maj s then do b <- class_accuracy (is_GS s) (is_val s) mj; Ok (negb (Qlt_b b a))
    else Ok true
  else do _ <- class_accuracy (is_GS s) (is_val s) mj; Ok false.

(** phase_2, _ipade_id.py:427-520, with generate_trial, 401-425.  The training set that
    generate_trial extends by a row is overwritten in the next statement. *)
Fixpoint phase_2 (fuel : nat) (mn mj : Z) (call : nat) (s : ip_state) : res training :=
  if negb (Qlt_b (is_auc s) 1) || negb (is_min s || is_maj s) then Ok (is_GS s)
  else
    match fuel with
    | 0 => Err OutOfFuel
    | S fuel =>
      do target <- target_is_min mn mj s;
      do trial <-
        (if target && (0 <? is_count s) then
           match is_trial s with
           | None => Err UnboundLocalError
           | Some (GS_trial, val_trial) => do G <- de_optimization call GS_trial (is_val s); Ok (G, val_trial)
           end
         else
           let candidates := where_ (map (Z.eqb (if target then mn else mj)) y) in
           do i <- randint (ds call 0) 0 1 (length candidates);
           do idx <- get candidates i;
           let val_trial := filter (fun v => negb (v =? idx)) (is_val s) in
           do G <- de_optimization call (is_GS s) val_trial;
           Ok (G, val_trial));
      let '(GS_trial, val_trial) := trial in
      do V <- rows_of val_trial;
      do score <- auc GS_trial V;
      if Qlt_b (is_auc s) score then
        do _ <- configuration_checks val_trial (snd GS_trial);
        phase_2 fuel mn mj (S call) (mk_ip_state score GS_trial val_trial (Some trial) (is_min s) (is_maj s) (if target then 0 else is_count s))
      else if target && (is_count s <? ip_OT p) then
        phase_2 fuel mn mj (S call) (mk_ip_state (is_auc s) (is_GS s) (is_val s) (Some trial) (is_min s) (is_maj s) (S (is_count s)))
      else
        phase_2 fuel mn mj (S call) (mk_ip_state (is_auc s) (is_GS s) (is_val s) (Some trial) (is_min s && negb target) (is_maj s && target) (is_count s))
    end.

End Evolution.

(** IPADE_ID.sampling_algorithm, _ipade_id.py:522-558.  Line 534 puts the scaled rows in the
    place of the rows given, and line 556 returns copies of them. *)
Definition ip_algorithm (fuel : nat) (p : ip_params) ds sub (st : stats) (D : dataset) : res (list row * list Z) :=
  let mm := mm_fit (d_dim D) (d_X D) in
  let X := map (mm_transform mm) (d_X D) in
  match
    (do start <- phase_1 p X (d_y D) ds sub (d_dim D);
     let '(score, val, GS) := start in
     phase_2 p X (d_y D) ds sub fuel (min_label st) (maj_label st) 1 (mk_ip_state score GS val None true true 0))
  with
  | Ok GS => Ok (map (mm_inverse mm) (fst GS), snd GS)
  | Err ValueError => Ok (X, d_y D)
  | Err e => Err e
  end.

Definition ip_sample fuel p ds sub D := sample_with [CMinNMin 4; COther] (ip_algorithm fuel p ds sub) D.

(** ** SMOTE_PSO *)

Record pso_params := mk_pso { ps_k : nat; ps_eps : Q; ps_n_pop : nat; ps_w : Q; ps_c1 : Q; ps_c2 : Q; ps_num_it : nat }.

(** np.std of a column, np.linalg.norm of a row, [svc.support_], and evaluate,
    _smote_pso.py:322-355. *)
Variable sd : list Q -> Q.
Variable norm : row -> Q.
Variable support : list row -> list Z -> list nat.
Variable svc_score : training -> training -> res Q.

(** The place of a new row, _smote_pso.py:231-320: the minority support vector, the
    majority support vector it starts towards, and the bound of the distance. *)
Record place := mk_place { pl_min : row; pl_maj : row; pl_bound : Q }.

Definition pso_initialize (p : pso_params) (mn mj : Z) (X : list row) (y : list Z) : res (list place) :=
  let sv := support X y in
  do labels <- gather y sv;
  do SV_min <- gather X (select (map (Z.eqb mn) labels) sv);
  do SV_maj <- gather X (select (map (Z.eqb mj) labels) sv);
  if (length SV_min =? 0) || (length SV_maj =? 0) then Err IndexError
  else
    do ind <- nn SV_maj SV_min (Nat.min (length SV_maj) (ps_k p));
    do groups <- mapM (fun xt =>
        do zs <- gather SV_maj (snd xt);
        do first <- get zs 0;
        Ok (map (fun z => mk_place (fst xt) z (norm (vsub (fst xt) first))) zs)) (combine SV_min ind);
    Ok (concat groups).

Definition pl_velocity (p : pso_params) (pl : place) : row := vscale (ps_eps p) (vsub (pl_maj pl) (pl_min pl)).
Definition pl_start (p : pso_params) (pl : place) : row := vadd (pl_min pl) (pl_velocity p pl).

(** A particle: a row for every place, the velocities, the best so far and its score. *)
Record particle := mk_particle { pa_rows : list row; pa_vel : list row; pa_best : list row; pa_score : Q }.

(** update_scores, _smote_pso.py:463-514. *)
Definition particle_score (mn : Z) (X : list row) (y : list Z) (rows : list row) : res Q :=
  svc_score (X ++ rows, y ++ repeat mn (length rows)) (X, y).

Definition update_best (sp : Q * particle) : particle :=
  let '(s, q) := sp in
  if Qlt_b (pa_score q) s then mk_particle (pa_rows q) (pa_vel q) (pa_rows q) s else q.

Definition update_global (scores : list Q) (swarm : list particle) (best : Q * list row) : res (Q * list row) :=
  do i <- DirModel.argmax scores;
  do s <- get scores i;
  do q <- get swarm i;
  Ok (if Qlt_b (fst best) s then (s, pa_rows q) else best).

(** update_velocities, _smote_pso.py:357-411, for one row of one particle. *)
Definition new_velocity (p : pso_params) (r1 r2 : Q) (pl : place) (x v local global : row) : row :=
  let v' := vadd (vadd (vscale (ps_w p) v) (vscale (ps_c1 p * r1) (vsub local x))) (vscale (ps_c2 p * r2) (vsub global x)) in
  if Qlt_b (pl_bound pl / 2) (norm v') then vscale (pl_bound pl / norm v' / 2) v' else v'.

(** update_positions, _smote_pso.py:413-461. *)
Definition new_position (pl : place) (x v : row) : row :=
  let x' := vadd x v in
  let t := vsub x' (pl_min pl) in
  if Qlt_b (pl_bound pl) (norm t) then vadd (pl_min pl) (vscale (pl_bound pl / norm t) t) else x'.

Definition move_particle (p : pso_params) (places : list place) (r1 r2 : Q) (global : list row) (q : particle) : particle :=
  let vel := map2 (fun a b => new_velocity p r1 r2 (fst a) (fst (snd a)) (snd (snd a)) (fst b) (snd b))
    (combine places (combine (pa_rows q) (pa_vel q))) (combine (pa_best q) global) in
  mk_particle (map2 (fun a v => new_position (fst a) (snd a) v) (combine places (pa_rows q)) vel) vel (pa_best q) (pa_score q).

(** The loop of search, _smote_pso.py:516-570. *)
Fixpoint pso_loop (more t : nat) (p : pso_params) (d : draws) (mn : Z) (X : list row) (y : list Z) (places : list place)
    (swarm : list particle) (best : Q * list row) : res (list row) :=
  match more with
  | 0 => Ok (snd best)
  | S more =>
    do scores <- mapM (fun q => particle_score mn X y (pa_rows q)) swarm;
    let swarm := map update_best (combine scores swarm) in
    do best <- update_global scores swarm best;
    let swarm := map (fun iq => move_particle p places (dr_unif d t (2 * fst iq)) (dr_unif d t (2 * fst iq + 1)) (snd best) (snd iq))
      (combine (seq 0 (length swarm)) swarm) in
    pso_loop more (S t) p d mn X y places swarm best
  end.

Definition pso_search (p : pso_params) (d : draws) (mn mj : Z) (X : list row) (y : list Z) : res (list row) :=
  do places <- pso_initialize p mn mj X y;
  let start := map (pl_start p) places in
  let q := mk_particle start (map (pl_velocity p) places) start 0%Q in
  pso_loop (ps_num_it p) 0 p d mn X y places (repeat q (ps_n_pop p)) (0%Q, start).

(** The loop of SMOTE_PSO.sampling_algorithm, _smote_pso.py:608-616: the new rows. *)
Fixpoint pso_grow (fuel : nat) (p : pso_params) (ds : nat -> draws) (mn mj : Z) (X : list row) (y : list Z) : res (list row) :=
  if n_label y mj <=? n_label y mn then Ok []
  else
    match fuel with
    | 0 => Err OutOfFuel
    | S fuel =>
      do best <- pso_search p (ds fuel) mn mj X y;
      do rest <- pso_grow fuel p ds mn mj (X ++ best) (y ++ repeat mn (length best));
      Ok (best ++ rest)
    end.

(** SMOTE_PSO.sampling_algorithm, _smote_pso.py:572-624. *)
Definition pso_algorithm (p : pso_params) (ds : nat -> draws) (st : stats) (D : dataset) : res (list row * list Z) :=
  let mn := min_label st in
  let mj := maj_label st in
  if n_label (d_y D) mj <=? n_label (d_y D) mn then Ok (d_X D, d_y D)
  else
    let mm := std_fit sd (d_dim D) (d_X D) in
    do new <- pso_grow (n_label (d_y D) mj) p ds mn mj (map (mm_transform mm) (d_X D)) (d_y D);
    Ok (extended D st (map (mm_inverse mm) new)).

Definition pso_sample p ds D := sample_with checks_default (pso_algorithm p ds) D.

(** ** SMOTE_PSOBAT *)

Record pb_params := mk_pb { pb_maxit : nat; pb_c1 : Q; pb_c2 : Q; pb_c3 : Q; pb_ss : ss_params }.

(** A number of neighbours and a proportion; kappa, where [None] stands for NaN, and the
    accuracy. *)
Definition combination := (Q * Q)%type.
Definition score2 := (option Q * Q)%type.

(** The double of a proportion, and the predictions of the trees of a cross validation
    for the rows of their test sets, in order. *)
Variable to_f : Q -> f64.
Variable cross : list row -> list Z -> list Z.

(** calculate_scores and evaluate, _smote_psobat.py:230-280. *)
Definition scores_of (mn mj : Z) (preds tests : list Z) : score2 :=
  let count f := inject_Z (Z.of_nat (length (filter f (combine preds tests)))) in
  let tp := count (fun pt => (fst pt =? snd pt)%Z && (snd pt =? mn)%Z) in
  let fn := count (fun pt => negb (fst pt =? snd pt)%Z && (snd pt =? mn)%Z) in
  let tn := count (fun pt => (fst pt =? snd pt)%Z && (snd pt =? mj)%Z) in
  let fp := count (fun pt => negb (fst pt =? snd pt)%Z && (snd pt =? mj)%Z) in
  let n := (tp + fn + tn + fp)%Q in
  let p_o := ((tp + tn) / n)%Q in
  let p_e := ((tp + fn) * (tp + fp) / (n * n) + (fp + tn) * (fn + tn) / (n * n))%Q in
  (if Qeq_bool p_e 1 then None else Some ((p_o - p_e) / (1 - p_e))%Q, p_o).

(** The SMOTE of a combination, _smote_psobat.py:204-214 and 804-814. *)
Definition pb_smote (p : pb_params) (c : combination) : smote_params :=
  let K := Z.to_nat (Qfloor (fst c)) in
  let ss := pb_ss p in
  mk_smote (StFloat (to_f (snd c))) K (mk_ss (Nat.min (ss_n_dim ss) K) (ss_sampling ss) (ss_within ss) (ss_gauss ss)).

Definition pb_evaluate (p : pb_params) (mn mj : Z) (D : dataset) (r : rng) (c : combination) : res score2 :=
  do out <- smote_sample volume nn (pb_smote p c) r D;
  Ok (scores_of mn mj (cross (fst out) (snd out)) (snd out)).

(** init_particle_or_bat, _smote_psobat.py:282-297. *)
Definition pb_init (hi : nat) (d : draws) (i : nat) : res combination :=
  do k <- randint d i 0 (hi - 1);
  Ok (inject_Z (Z.of_nat (1 + k)), dr_unif d i 1%nat * (19 # 10) + (1 # 10))%Q.

Definition pb_clip (hi : nat) (c : combination) : combination :=
  (clip 1 (inject_Z (Z.of_nat hi)) (fst c), clip (1 # 10) 2 (snd c)).

Definition good (s : score2) : bool := match fst s with Some k => Qlt_b (2 # 5) k | None => false end.
Definition poor (s : score2) : bool := match fst s with Some k => Qle_bool k (2 # 5) | None => false end.
(** The first mask: the old accuracy is larger than the new one. *)
Definition lower (old new : score2) : bool := good old && good new && Qlt_b (snd new) (snd old).
Definition first_good (old new : score2) : bool := negb (lower old new) && good new && poor old.

(** The best accuracy among those selected. *)
Definition pick {A} (f : score2 -> bool) (l : list (score2 * A)) : res (option (score2 * A)) :=
  let sel := filter (fun sa => f (fst sa)) l in
  if length sel =? 0 then Ok None
  else do i <- DirModel.argmax (map (fun sa => snd (fst sa)) sel); do sa <- get sel i; Ok (Some sa).

Record bird := mk_bird { bi_at : combination; bi_vel : combination; bi_best : combination; bi_score : score2 }.

(** pso_update_local_scores, _smote_psobat.py:310-342, for one particle. *)
Definition bird_best (sb : score2 * bird) : bird :=
  let '(s, b) := sb in
  if lower (bi_score b) s || first_good (bi_score b) s then mk_bird (bi_at b) (bi_vel b) (bi_at b) s else b.

(** pso_update_global_scores, _smote_psobat.py:344-379: the flag says not changed. *)
Definition flock_best (scores : list score2) (at_ : list combination) (best : score2 * combination) : res (score2 * combination * bool) :=
  do a <- pick (lower (fst best)) (combine scores at_);
  let best1 := match a with Some sc => sc | None => best end in
  do b <- pick (fun s => negb (lower (fst best) s) && good s && poor (fst best1)) (combine scores at_);
  Ok (match b with Some sc => sc | None => best1 end, match a, b with None, None => true | _, _ => false end).

(** pso_update_velocities, _smote_psobat.py:381-412, for one particle. *)
Definition damp (range v : Q) : Q :=
  let ratio := (Qabs v / range)%Q in
  if Qlt_b 1 ratio then (v / inject_Z (Qceiling ratio))%Q else v.
Definition bird_move (p : pb_params) (hi : nat) (global : combination) (b : bird) : bird :=
  let turn (v x l g : Q) := (pb_c1 p * v + (l - x) * pb_c2 p + (g - x) * pb_c3 p)%Q in
  let v0 := damp (inject_Z (Z.of_nat hi) - 1) (turn (fst (bi_vel b)) (fst (bi_at b)) (fst (bi_best b)) (fst global)) in
  let v1 := damp (19 # 10) (turn (snd (bi_vel b)) (snd (bi_at b)) (snd (bi_best b)) (snd global)) in
  mk_bird (pb_clip hi (fst (bi_at b) + v0, snd (bi_at b) + v1)%Q) (v0, v1) (bi_best b) (bi_score b).

(** The loop of pso_vectorized, _smote_psobat.py:414-482. *)
Fixpoint flock_loop (more t : nat) (p : pb_params) (hi : nat) (eval : nat -> nat -> combination -> res score2)
    (flock : list bird) (best : score2 * combination) (not_changed : nat) : res combination :=
  match more with
  | 0 => Ok (snd best)
  | S more =>
    if length flock <? not_changed then Ok (snd best)
    else
      do scores <- mapM (fun ib => eval t (fst ib) (bi_at (snd ib))) (combine (seq 0 (length flock)) flock);
      do bf <- flock_best scores (map bi_at flock) best;
      let '(best, same) := bf in
      flock_loop more (S t) p hi eval (map (bird_move p hi (snd best)) (map bird_best (combine scores flock))) best (if same then S not_changed else 0)
  end.

Definition n_pop : nat := 10.
Definition n_keep : nat := 5.

Definition flock_search (p : pb_params) (hi : nat) (d : draws) (eval : nat -> nat -> combination -> res score2) : res combination :=
  do start <- mapM (pb_init hi d) (seq 0 n_pop);
  do first <- get start 0;
  flock_loop (pb_maxit p) 0 p hi eval (map (fun c => mk_bird c (0, 0)%Q c (Some 0, 0)%Q) start) ((Some 0, 0)%Q, first) 0.

(** A bat: where it is, the velocity, the configurations kept, the pulse rate and the
    loudness. *)
Record bat := mk_bat { ba_at : combination; ba_vel : combination; ba_kept : list (score2 * combination); ba_pulse : Q; ba_loud : Q }.

Definition kept_count (l : list (score2 * combination)) : nat :=
  length (filter (fun sc => match fst (fst sc) with Some k => Qle_bool 0 k | None => false end) l).

(** The flight and bat_local_search, _smote_psobat.py:532-565 and 732-742, for one bat. *)
Definition bat_fly (hi : nat) (d : draws) (loudness : Q) (global : combination) (ib : nat * bat) : res bat :=
  let '(i, b) := ib in
  let f := (dr_unif d i 0%nat * 10)%Q in
  let vel := (fst (ba_vel b) + (fst (ba_at b) - fst global) * f, snd (ba_vel b) + (snd (ba_at b) - snd global) * f)%Q in
  let at1 := (fst (ba_at b) + fst vel, snd (ba_at b) + snd vel)%Q in
  do at2 <-
    (if Qlt_b (ba_pulse b) (dr_unif d i 1) then
       do sc <- get (ba_kept b) (Z.to_nat (Qfloor (inject_Z (Z.of_nat (kept_count (ba_kept b))) * dr_unif d i 2)));
       let noise s range := ((dr_unif d i s - (1 # 2)) * 2 / 20 * range * loudness)%Q in
       Ok (fst (snd sc) + noise 3%nat (inject_Z (Z.of_nat hi) - 1), snd (snd sc) + noise 4%nat (19 # 10))%Q
     else Ok at1);
  Ok (mk_bat (pb_clip hi at2) vel (ba_kept b) (ba_pulse b) (ba_loud b)).

(** [l\[i\] = x]. *)
Definition put {A} (l : list A) (i : nat) (x : A) : res (list A) :=
  if i <? length l then Ok (firstn i l ++ x :: skipn (S i) l) else Err IndexError.

(** bat_check_local and bat_update_local, _smote_psobat.py:512-530 and 567-606, for one
    bat.  The updates of the pulse rate and the loudness, 608-629, act on copies and have
    no effect. *)
Definition bat_keep (sb : score2 * bat) : res bat :=
  let '(s, b) := sb in
  do front <- get (ba_kept b) 0;
  do kept <- (if first_good (fst front) s then put (ba_kept b) (Nat.min (kept_count (ba_kept b) + 1) n_keep) (s, ba_at b) else Ok (ba_kept b));
  do sorted <- gather kept (rev (argsort (map (fun sc => match fst (fst sc) with Some k => k | None => 0%Q end) kept)));
  Ok (mk_bat (ba_at b) (ba_vel b) sorted (ba_pulse b) (ba_loud b)).

(** bat_check_global, _smote_psobat.py:484-510: a position among the scores selected. *)
Definition bat_global (scores : list score2) (best : score2) : res (option nat) :=
  let position f :=
    let sel := filter f scores in
    if length sel =? 0 then Ok None else do i <- DirModel.argmax (map snd sel); Ok (Some i) in
  do a <- position (lower best);
  do b <- position (first_good best);
  Ok (match b with Some i => Some i | None => a end).

(** The loop of bat_vectorized, _smote_psobat.py:692-777, with bat_update_global_scores,
    665-690, where the position is taken as one among all bats. *)
Fixpoint bat_loop (more t : nat) (hi : nat) (ds : nat -> draws) (eval : nat -> nat -> combination -> res score2)
    (bats : list bat) (best : score2 * combination) (not_changed : nat) : res combination :=
  match more with
  | 0 => Ok (snd best)
  | S more =>
    if 10 <? S not_changed then Ok (snd best)
    else
      let loudness := (qsum (map ba_loud bats) / inject_Z (Z.of_nat (length bats)))%Q in
      do bats <- mapM (bat_fly hi (ds t) loudness (snd best)) (combine (seq 0 (length bats)) bats);
      do scores <- mapM (fun ib => eval t (fst ib) (ba_at (snd ib))) (combine (seq 0 (length bats)) bats);
      do bats <- mapM bat_keep (combine scores bats);
      do improved <- bat_global scores (fst best);
      do best <-
        match improved with
        | None => Ok best
        | Some i =>
          do b <- get bats i;
          do s <- get scores i;
          Ok (if Qlt_b (dr_unif (ds t) 0 5) (ba_loud b) then (s, ba_at b) else best)
        end;
      bat_loop more (S t) hi ds eval bats best (match improved with Some _ => S not_changed | None => 0 end)
  end.

Definition bat_search (p : pb_params) (hi : nat) (d : draws) (ds : nat -> draws) (eval : nat -> nat -> combination -> res score2) : res combination :=
  do start <- mapM (pb_init hi d) (seq 0 n_pop);
  do first <- get start 0;
  let bats := map (fun ic => mk_bat (snd ic) (0, 0)%Q (repeat ((Some (- (1)), - (1))%Q, snd ic) n_keep) (dr_unif d (fst ic) 2) (dr_unif d (fst ic) 3))
    (combine (seq 0 n_pop) start) in
  bat_loop (pb_maxit p) 0 hi ds eval bats ((Some 0, 0)%Q, first) 0.

Inductive pb_method := MPso | MBat.

(** SMOTE_PSOBAT.sampling_algorithm, _smote_psobat.py:779-814.  [hi] is the upper end of
    self.k_range before the call, 10 in a new object; lines 795-797 overwrite it. *)
Definition pb_algorithm (method : pb_method) (p : pb_params) (hi : nat) (d : draws) (ds : nat -> draws) (rs : nat -> nat -> rng) (r : rng) (st : stats) (D : dataset)
    : res (list row * list Z) :=
  let hi := Nat.min (n_label (d_y D) (min_label st)) hi in
  let eval t i := pb_evaluate p (min_label st) (maj_label st) D (rs t i) in
  do c <- match method with MPso => flock_search p hi d eval | MBat => bat_search p hi d ds eval end;
  smote_sample volume nn (pb_smote p c) r D.

Definition pb_sample method p hi d ds rs r D := sample_with checks_default (pb_algorithm method p hi d ds rs r) D.

(** One call: what it draws, and the data. *)
Record pb_call := mk_call { ca_d : draws; ca_ds : nat -> draws; ca_rs : nat -> nat -> rng; ca_r : rng; ca_D : dataset }.

(** The upper end of the range after a call that reached the algorithm: its first lines are
    _smote_psobat.py:795-797, which overwrite self.k_range. *)
Definition k_range_after (hi : nat) (D : dataset) : nat :=
  match class_label_statistics (d_y D) with
  | Ok st => if n_label (d_y D) (min_label st) <=? 2 then hi else Nat.min (n_label (d_y D) (min_label st)) hi
  | Err _ => hi
  end.

(** The calls of sample on one object, in order. *)
Fixpoint pb_calls (method : pb_method) (p : pb_params) (hi : nat) (calls : list pb_call) : list (res (list row * list Z)) :=
  match calls with
  | [] => []
  | c :: calls =>
    pb_sample method p hi (ca_d c) (ca_ds c) (ca_rs c) (ca_r c) (ca_D c) :: pb_calls method p (k_range_after hi (ca_D c)) calls
  end.

End Samplers.
