(** Oversamplers that also edit what they were given or what SMOTE produced:
    SMOTE_TomekLinks, SMOTE_ENN, SMOTE_RSB, SPY, Stefanowski, SUNDO, SMOTE_IPF,
    Supervised_SMOTE.  Numbers are exact rationals. *)

From Coq Require Import List ZArith QArith Qabs Bool Arith Qround.
From Flocq Require Import IEEE754.BinarySingleNaN.
From Verif Require Import Np PyVal Float64 SimplexModel SamplerModel BaseModel NoiseModel MetricsModel
  DangerModel ClusterModel ClusterOversModel CompModel.
Import ListNotations.
Open Scope nat_scope.

(** [y\[idx\] = z] for an array of positions. *)
Definition assign_at {A} (y : list A) (idx : list nat) (z : A) : list A :=
  map (fun p => if existsb (Nat.eqb (fst p)) idx then z else snd p)
      (combine (seq 0 (length y)) y).

(** [np.sum(y == lab)]. *)
Definition n_label (y : list Z) (lab : Z) : nat := count_occ Z.eq_dec y lab.

Section Edit.

Variable volume : list row -> Q.
Variable dist : row -> row -> Q.
Variable nn : list row -> list row -> nat -> res (list (list nat)).

(** ** SMOTE_TomekLinks, _smote_tomeklinks.py:114-165 *)
Definition smote_tomek_algorithm (p : smote_params) (r : rng) (st : stats) (D : dataset)
    : res (list row * list Z) :=
  do new <- smote_sample volume nn p r D;
  do cleaned <- tomek_remove_noise nn RemoveBoth (fst new) (snd new);
  match fst cleaned with [] => Ok (d_X D, d_y D) | _ => Ok cleaned end.

Definition smote_tomek_sample p r D :=
  sample_with checks_default (smote_tomek_algorithm p r) D.

(** ** SMOTE_ENN, _smote_enn.py:117-149 *)
Definition smote_enn_algorithm (p : smote_params) (r : rng) (st : stats) (D : dataset)
    : res (list row * list Z) :=
  do new <- smote_sample volume nn p r D;
  do cleaned <- enn_remove_noise nn EnnBoth (fst new) (snd new);
  if (n_label (snd cleaned) (maj_label st) <? n_label (snd cleaned) (min_label st)) ||
     (length (unique_counts (snd cleaned)) <? 2)
  then Ok (d_X D, d_y D) else Ok cleaned.

Definition smote_enn_sample p r D :=
  sample_with checks_default (smote_enn_algorithm p r) D.

(** ** SMOTE_RSB *)

(** The exact value of a finite double. *)
Definition q_of_f64 (x : f64) : Q :=
  match x with
  | B754_finite s m e _ =>
    let n := if s then Zneg m else Zpos m in
    match e with
    | Zneg k => n # (2 ^ k)
    | _ => inject_Z (n * 2 ^ e)
    end
  | _ => 0
  end.

Definition f_leb (x y : f64) : bool :=
  match Bcompare x y with Some Lt | Some Eq => true | _ => false end.

(** The values [similarity_value] runs through, _smote_rsb.py:196-208: 0.4 and
    then steps of 0.05 while at most 0.9, in double precision. *)
Fixpoint levels (fuel : nat) (v : f64) : list Q :=
  match fuel with
  | O => []
  | S f => if f_leb v (f_div (f_of_Z 9) (f_of_Z 10))
           then q_of_f64 v :: levels f (f_add v (f_div (f_of_Z 1) (f_of_Z 20)))
           else []
  end.
Definition rsb_levels : list Q := levels 20 (f_div (f_of_Z 2) (f_of_Z 5)).

(** normalization_factor, _smote_rsb.py:127-149, one entry per column. *)
Definition rsb_norm (dim : nat) (X_samp : list row) : row :=
  map (fun j => let c := column j X_samp in
                let rg := (col_max c - col_min c)%Q in
                if Qeq_bool rg 0 then q_max (col_max c) 1 else rg) (seq 0 dim).

(** similarity_matrix, lines 187-193. *)
Definition rsb_similarity (dim : nat) (norm a b : row) : Q :=
  1 - qsum (map2 (fun d w => Qabs (fst d / w - snd d / w)) (combine a b) norm)
      / inject_Z (Z.of_nat dim).

(** The loop, lines 198-208. *)
Fixpoint rsb_loop (lv : list Q) (limit : nat) (sim : list (list Q)) (X_samp : list row)
    (added : list bool) (result : list row) : list row :=
  match lv with
  | [] => result
  | v :: lv' =>
    if length result <? limit then
      let mask := map2 (fun s a => forallb (fun x => Qle_bool x v) s && negb a) sim added in
      rsb_loop lv' limit sim X_samp (map2 orb added mask) (result ++ select mask X_samp)
    else result
  end.

(** SMOTE_RSB.sampling_algorithm, _smote_rsb.py:151-219. *)
Definition smote_rsb_algorithm (p : smote_params) (r : rng) (st : stats) (D : dataset)
    : res (list row * list Z) :=
  let X_maj := rows_with (maj_label st) (d_X D) (d_y D) in
  let X_min := rows_with (min_label st) (d_X D) (d_y D) in
  do new <- smote_sample volume nn p r D;
  let X_samp := skipn (length (d_X D)) (fst new) in
  match X_samp with
  | [] => Ok (d_X D, d_y D)
  | _ =>
    let norm := rsb_norm (d_dim D) X_samp in
    let sim := map (fun a => map (rsb_similarity (d_dim D) norm a) X_maj) X_samp in
    let limit := length X_maj - length X_min in
    let result := rsb_loop rsb_levels limit sim X_samp (repeat false (length X_samp)) [] in
    Ok (extended D st (firstn limit result))
  end.

Definition smote_rsb_sample p r D :=
  sample_with checks_default (smote_rsb_algorithm p r) D.

(** ** SPY *)

Record spy_params := mk_spy { sp_n_neighbors : nat; sp_threshold : Q }.

(** SPY.sampling_algorithm, _spy.py:108-159. *)
Definition spy_algorithm (p : spy_params) (st : stats) (D : dataset)
    : res (list row * list Z) :=
  let X_min := rows_with (min_label st) (d_X D) (d_y D) in
  let k := Nat.min (length (d_X D)) (sp_n_neighbors p + 1) in
  do ind <- nn (d_X D) X_min k;
  let z := (sp_threshold p * inject_Z (Z.of_nat k))%Q in
  do hits <- mapM (fun t =>
      do labels <- gather (d_y D) (tl t);
      let majority := map (Z.eqb (maj_label st)) labels in
      let x := length (filter (fun b => b) majority) in
      Ok (if Qlt_b (inject_Z (Z.of_nat x)) z then select majority (tl t) else [])) ind;
  Ok (d_X D, assign_at (d_y D) (concat hits) (min_label st)).

Definition spy_sample p D := sample_with checks_default (spy_algorithm p) D.

(** ** Stefanowski *)

Inductive amplification := WeakAmp | WeakAmpRelabel | StrongAmp.

(** [y\[indices\[i, 1:\]\] == maj_label) & safe_flag\[indices\[i, 1:\]\]], summed. *)
Definition safe_majority (mj : Z) (y : list Z) (safe : list bool) (t : list nat) : res nat :=
  do labels <- gather y (tl t);
  do flags <- gather safe (tl t);
  Ok (length (filter (fun b => b) (map2 (fun l f => Z.eqb mj l && f) labels flags))).

(** create_multiples, _stefanowski.py:102-117, for the numbers of weak_amp and
    strong_amp. *)
Definition multiples (mj : Z) (X : list row) (y : list Z) (safe : list bool)
    (indices : list (list nat)) (rows : list nat) : res (list row) :=
  do parts <- mapM (fun i =>
      do t <- get indices i;
      do k <- safe_majority mj y safe t;
      do x <- get X i;
      Ok (repeat x k)) rows;
  Ok (concat parts).

(** strong_amp, _stefanowski.py:179-234.  [scipy_mode(...)] in lines 211-214 is
    taken along axis 0, column 0 of the result: one label for all the noisy
    minority rows together.  (For no noisy row at all, scipy before 1.11 makes
    [.mode\[:, 0\]] raise IndexError; later versions do what is modelled.) *)
Definition strong_amp (st : stats) (X : list row) (y : list Z) (safe : list bool)
    (indices indices5 : list (list nat)) (minority_safe minority_noisy : list nat)
    : res (list row) :=
  do s1 <- multiples (maj_label st) X y safe indices minority_safe;
  match minority_noisy with
  | [] => Ok s1
  | _ =>
    do firsts <- mapM (fun i => do j <- entry indices5 i 1; get y j) minority_noisy;
    do m <- mode firsts;
    do s2 <- multiples (maj_label st) X y safe
               (if Z.eqb m (min_label st) then indices else indices5) minority_noisy;
    Ok (s1 ++ s2)
  end.

(** The noisy majority neighbours of noisy minority rows, weak_amp_relabel,
    _stefanowski.py:168-175. *)
Definition noisy_neighbours (mj : Z) (y : list Z) (safe : list bool) (indices : list (list nat))
    (minority_noisy : list nat) : res (list nat) :=
  do parts <- mapM (fun i =>
      do t <- get indices i;
      do labels <- gather y (tl t);
      do flags <- gather safe (tl t);
      Ok (select (map2 (fun l f => Z.eqb mj l && negb f) labels flags) (tl t))) minority_noisy;
  Ok (concat parts).

(** Stefanowski.sampling_algorithm, _stefanowski.py:236-320. *)
Definition stefanowski_algorithm (s : amplification) (st : stats) (D : dataset)
    : res (list row * list Z) :=
  let X := d_X D in let y := d_y D in
  do indices <- nn X X (Nat.min 4 (length X));
  do indices5 <- nn X X (Nat.min 6 (length X));
  do modes <- mapM (fun t => do l <- gather y (tl t); mode l) indices;
  let safe := map2 Z.eqb modes y in
  let D0 := map2 (fun l f => Z.eqb (maj_label st) l && negb f) y safe in
  let minority := where_ (map (Z.eqb (min_label st)) y) in
  do flags <- gather safe minority;
  let minority_noisy := select (map negb flags) minority in
  let minority_safe := select flags minority in
  do samples <-
    match s with
    | WeakAmp | WeakAmpRelabel => multiples (maj_label st) X y safe indices minority_noisy
    | StrongAmp => strong_amp st X y safe indices indices5 minority_safe minority_noisy
    end;
  do relabelled <-
    match s with
    | WeakAmpRelabel => noisy_neighbours (maj_label st) y safe indices minority_noisy
    | _ => Ok []
    end;
  let y1 := assign_at y relabelled (min_label st) in
  let D1 := assign_at D0 relabelled false in
  let X' := delete_idx X (where_ D1) in
  let y' := delete_idx y1 (where_ D1) in
  if length (unique_counts y') <? 2 then Ok (X, y)
  else Ok (X' ++ samples, y' ++ repeat (min_label st) (length samples)).

(** checks={"min_n_min": 6}, line 74. *)
Definition stefanowski_sample s D :=
  sample_with [CMinNMin 6; COther] (stefanowski_algorithm s) D.

(** ** SUNDO *)

(** [np.argmax]. *)
Fixpoint argmax_from (best : nat) (bv : Q) (i : nat) (l : list Q) : nat :=
  match l with
  | [] => best
  | x :: l' => if Qlt_b bv x then argmax_from i x (S i) l' else argmax_from best bv (S i) l'
  end.
Definition argmax (l : list Q) : nat :=
  match l with [] => 0 | x :: l' => argmax_from 0 x 1 l' end.

(** Three rows at a time, [.reshape(n, 3)]. *)
Fixpoint by3 {A} (n : nat) (l : list A) : list (list A) :=
  match n with O => [] | S m => firstn 3 l :: by3 m (skipn 3 l) end.

Variable std : list Q -> Q.     (* np.std *)

(** generate_samples, _sundo.py:94-135.  The normal numbers of shape (N, 3, dim)
    are given as 3 N rows. *)
Definition sundo_generate (rs : nat -> rng) (dim : nat) (X_min X_maj : list row) (n : nat)
    : res (list row) :=
  let stds := map (fun j => std (column j X_min)) (seq 0 dim) in
  do base <- choice_range (rs 0) (length X_min) n;
  do bases <- gather X_min base;
  let offsets := by3 n (r_normal (rs 1) (n * 3) dim) in
  let samples := map2 (fun b os => map (fun o => vadd b (map2 Qmult o stds)) os) bases offsets in
  let stack := concat samples in
  do ind <- nn X_maj stack 1;
  do ds <- mapM (fun st => do i <- get (snd st) 0; do m <- get X_maj i; Ok (dist (fst st) m))
                (combine stack ind);
  mapM (fun sd => get (fst sd) (argmax (snd sd))) (combine samples (by3 n ds)).

(** determine_removal, _sundo.py:137-175.  Line 170 sorts the two rows of the
    array of pairs, not the pairs, so all first members are returned. *)
Definition sundo_removal (dim : nat) (X_maj : list row) (n : nat) : res (list nat) :=
  let mm := mm_fit dim X_maj in
  let Xs := map (mm_transform mm) X_maj in
  let distm := map (fun a => map (dist a) Xs) Xs in
  let m := length X_maj in
  do threshold <- get (sort_by Qle_bool (concat distm)) (Nat.min (m + 2 * n) (m * m - 1));
  Ok (where_ (map (fun it =>
        existsb (fun jd => negb (fst jd =? fst it) && Qlt_b (snd jd) threshold)
                (combine (seq 0 m) (snd it)))
      (combine (seq 0 m) distm))).

(** SUNDO.sampling_algorithm, _sundo.py:177-223. *)
Definition sundo_algorithm (rs : nat -> rng) (st : stats) (D : dataset)
    : res (list row * list Z) :=
  let X_min := rows_with (min_label st) (d_X D) (d_y D) in
  let X_maj := rows_with (maj_label st) (d_X D) (d_y D) in
  let n1 := inject_Z (Z.of_nat (length X_min)) in
  let n0 := inject_Z (Z.of_nat (length (d_X D) - length X_min)) in
  let N := rint ((1 # 2) * n0 - (1 # 2) * n1 + (1 # 2)) in
  if (N =? 0)%Z then Ok (d_X D, d_y D)
  else
    do samples <- sundo_generate rs (d_dim D) X_min X_maj (Z.to_nat N);
    do to_remove <- sundo_removal (d_dim D) X_maj (Z.to_nat N);
    let kept := delete_idx X_maj to_remove in
    Ok (X_min ++ samples ++ kept,
        repeat (min_label st) (length X_min + length samples) ++ repeat (maj_label st) (length kept)).

Definition sundo_sample rs D := sample_with checks_default (sundo_algorithm rs) D.

(** ** SMOTE_IPF *)

Inductive voting := Majority | Consensus.
Record ipf_params := mk_ipf {
  if_smote : smote_params; if_n_folds : nat; if_k : nat; if_p : Q; if_voting : voting }.

(** The predictions of the classifiers trained on the folds of a stratified
    split, one list per fold, lines 174-178. *)
Variable predict : nat -> list row -> list Z -> res (list (list Z)).

(** to_remove, _smote_ipf.py:181-192; [ps] are the predictions for one row. *)
Definition ipf_remove (p : ipf_params) (ps : list Z) (label : Z) : bool :=
  let vote := if Qlt_b (1 # 2) (inject_Z (zsum ps) / inject_Z (Z.of_nat (length ps))) then 1%Z else 0%Z in
  negb (Z.eqb vote label) &&
  match if_voting p with
  | Majority => true
  | Consensus => Z.eqb (zsum ps) (Z.of_nat (if_n_folds p))
  end.

(** The loop, _smote_ipf.py:171-204. *)
Fixpoint ipf_loop (fuel : nat) (p : ipf_params) (folds cond : nat) (X : list row) (y : list Z)
    : res (list row * list Z) :=
  if cond <? if_k p then
    match fuel with
    | O => Err OutOfFuel
    | S f =>
      do predictions <- predict folds X y;
      let mask := map (fun i => ipf_remove p (map (fun ps => nth i ps 0%Z) predictions) (nth i y 0%Z))
                      (seq 0 (length y)) in
      let to_remove := where_ mask in
      let X' := delete_idx X to_remove in
      let y' := delete_idx y to_remove in
      let check := Qlt_b (inject_Z (Z.of_nat (length to_remove)))
                         (inject_Z (Z.of_nat (length X')) * if_p p) in
      ipf_loop f p folds (if check then S cond else 0) X' y'
    end
  else Ok (X, y).

(** SMOTE_IPF.sampling_algorithm, _smote_ipf.py:143-206. *)
Definition ipf_algorithm (fuel : nat) (p : ipf_params) (r : rng) (st : stats) (D : dataset)
    : res (list row * list Z) :=
  do n <- det_n_to_sample_st (sm_proportion (if_smote p)) st;
  if n =? 0 then Ok (d_X D, d_y D)
  else
    do new <- smote_sample volume nn (if_smote p) r D;
    ipf_loop fuel p (Nat.min (if_n_folds p) (n_label (d_y D) (min_label st))) 0 (fst new) (snd new).

Definition ipf_sample fuel p r D := sample_with checks_default (ipf_algorithm fuel p r) D.

(** ** Supervised_SMOTE *)

Record supervised_params := mk_supervised {
  su_proportion : strategy; su_th_lower : Q; su_th_upper : Q; su_ss : ss_params }.

(** [predict_proba], the column of the minority class. *)
Variable proba : row -> Q.

(** The loop, _supervised_smote.py:154-182; [i] numbers the calls of the
    generator. *)
Fixpoint supervised_loop (fuel : nat) (ss : ss_params) (rs : nat -> rng) (i : nat) (X_min : list row)
    (dim n : nat) (lo hi : Q) (n_trials n_success : nat) (samples : list row) : res (list row) :=
  if length samples <? n then
    match fuel with
    | O => Err OutOfFuel
    | S f =>
      let to_sample := Nat.max ((n - length samples) * 4) 100 in
      let n_trials := n_trials + to_sample in
      do tmp <- sample_simplex volume ss
        (mk_args X_min dim (circulant (length X_min)) (length X_min) None None None false None)
        to_sample (rs i);
      let good := filter (fun x => Qle_bool lo (proba x) && Qle_bool (proba x) hi) tmp in
      let samples := samples ++ good in
      let n_success := n_success + length good in
      if n_success * 10 <? n_trials
      then supervised_loop f ss rs (S i) X_min dim n (lo - (1 # 10)) (hi + (1 # 10)) 1 1 samples
      else supervised_loop f ss rs (S i) X_min dim n lo hi n_trials n_success samples
    end
  else Ok samples.

(** Supervised_SMOTE.sampling_algorithm, _supervised_smote.py:125-189. *)
Definition supervised_algorithm (fuel : nat) (p : supervised_params) (rs : nat -> rng)
    (st : stats) (D : dataset) : res (list row * list Z) :=
  do n <- det_n_to_sample_st (su_proportion p) st;
  if n =? 0 then Ok (d_X D, d_y D)
  else
    let X_min := rows_with (min_label st) (d_X D) (d_y D) in
    do samples <- supervised_loop fuel (su_ss p) rs 0 X_min (d_dim D) n
                    (su_th_lower p) (su_th_upper p) 1 1 [];
    Ok (extended D st (firstn n samples)).

Definition supervised_sample fuel p rs D :=
  sample_with checks_default (supervised_algorithm fuel p rs) D.

End Edit.
