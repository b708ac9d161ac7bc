(** Model of two neighbourhood-driven oversamplers:
    /repo/smote_variants/oversampling/_adasyn.py,
    /repo/smote_variants/oversampling/_borderline_smote.py.

    The nearest-neighbour search is an argument, as in SamplerModel.v.  The
    label fractions of ADASYN are exact (Q); the comparison of the class ratio
    with d_th is IEEE binary64. *)

From Coq Require Import List ZArith QArith Bool Arith.
From Flocq Require Import IEEE754.BinarySingleNaN.
From Verif Require Import Np SimplexModel Float64 SamplerModel BaseModel.
Import ListNotations.

(** [sum(y\[row\[1:\]\] == lab)], _adasyn.py:156, _borderline_smote.py:48. *)
Definition count_neighbours (y : list Z) (lab : Z) (row_ : list nat) : res nat :=
  do labels <- gather y (tl row_);
  Ok (length (filter (Z.eqb lab) labels)).

(** Truth value of a proportion: [0], [0.0], [-0.0] are false, everything else
    (also NaN) is true.  Values of other types are taken to be true (an empty
    string would be false). *)
Definition st_truthy (s : strategy) : bool :=
  match s with
  | StInt z => negb (Z.eqb z 0)
  | StFloat f => match f with B754_zero _ => false | _ => true end
  | StOther => true
  end.

(** [self.beta = proportion or beta], _adasyn.py:94; [None] is an omitted
    proportion. *)
Definition adasyn_beta (proportion : option strategy) (beta : strategy) : strategy :=
  match proportion with
  | Some s => if st_truthy s then s else beta
  | None => beta
  end.

(** Python's [a > b] for doubles (false when either is NaN). *)
Definition f_gtb (a b : f64) : bool :=
  match Bcompare a b with Some Gt => true | _ => false end.

(** Parameters of ADASYN, _adasyn.py:41-53. *)
Record adasyn_params := mk_adasyn {
  ad_n_neighbors : nat;
  ad_beta : strategy;
  ad_proportion : option strategy;
  ad_d_th : f64;
  ad_ss : ss_params }.

(** Parameters of Borderline_SMOTE1 and Borderline_SMOTE2. *)
Record border_params := mk_border {
  bo_proportion : strategy;
  bo_n_neighbors : nat;
  bo_k_neighbors : nat;
  bo_ss : ss_params }.

Section Algorithms.

Variable volume : list row -> Q.
Variable nn : list row -> list row -> nat -> res (list (list nat)).

(** ADASYN.sampling_algorithm, _adasyn.py:114-184. *)
Definition adasyn_algorithm (p : adasyn_params) (r : rng) (st : stats) (D : dataset)
    : res (list row * list Z) :=
  do n_to_sample <- det_n_to_sample_st (adasyn_beta (ad_proportion p) (ad_beta p)) st;
  if (n_to_sample =? 0)%nat then Ok (d_X D, d_y D)
  else
    let X_min := rows_with (min_label st) (d_X D) (d_y D) in
    let m_min := length X_min in
    let m_maj := (length (d_X D) - m_min)%nat in
    if (m_maj =? 0)%nat then Err ZeroDivisionError
    else if f_gtb (f_div (f_of_Z (Z.of_nat m_min)) (f_of_Z (Z.of_nat m_maj))) (ad_d_th p)
    then Ok (d_X D, d_y D)
    else
      let n_neigh := Nat.min m_min (ad_n_neighbors p + 1) in
      do indices <- nn (d_X D) X_min n_neigh;
      do counts <- mapM (count_neighbours (d_y D) (maj_label st)) indices;
      let rr := map (fun c => inject_Z (Z.of_nat c) / inject_Z (Z.of_nat (ad_n_neighbors p))) counts in
      if Qeq_bool (qsum rr) 0 then Ok (d_X D, d_y D)
      else
        let rn := map (fun x => Qdiv x (qsum rr)) rr in
        do ind_min <- nn X_min X_min n_neigh;
        do samples <- sample_simplex volume (ad_ss p)
            (mk_args X_min (d_dim D) ind_min n_neigh (Some rn) None None false None)
            n_to_sample r;
        Ok (d_X D ++ samples, d_y D ++ repeat (min_label st) n_to_sample).

(** ADASYN(...).sample(X, y); the constructor passes checks=None. *)
Definition adasyn_sample (p : adasyn_params) (r : rng) (D : dataset) :=
  sample_with checks_default (adasyn_algorithm p r) D.

(** The loop of determine_danger_remove_noise, _borderline_smote.py:45-51. *)
Fixpoint danger_loop (y : list Z) (maj : Z) (n_neighbors : nat) (idx : nat)
    (indices : list (list nat)) : res (list nat * list nat) :=
  match indices with
  | [] => Ok ([], [])
  | row_ :: rest =>
    do labels <- gather y (tl row_);
    do (noise, danger) <- danger_loop y maj n_neighbors (S idx) rest;
    if (n_neighbors - 1 =? length (filter (Z.eqb maj) labels))%nat
    then Ok (idx :: noise, danger)
    else
      do m <- mode labels;
      if Z.eqb m maj then Ok (noise, idx :: danger) else Ok (noise, danger)
  end.

(** determine_danger_remove_noise, _borderline_smote.py:18-56: the minority
    rows without noise, and the rows in danger. *)
Definition determine_danger_remove_noise (X : list row) (y : list Z) (X_min : list row)
    (n_neighbors0 : nat) (maj : Z) : res (list row * list row) :=
  let n_neighbors := Nat.min (length X) (n_neighbors0 + 1) in
  do indices <- nn X X_min n_neighbors;
  do (noise, danger) <- danger_loop y maj n_neighbors 0 indices;
  do X_danger <- gather X_min danger;
  Ok (delete_idx X_min noise, X_danger).

(** Borderline_SMOTE1.sampling_algorithm, _borderline_smote.py:161-241. *)
Definition border1_algorithm (p : border_params) (r : rng) (st : stats) (D : dataset)
    : res (list row * list Z) :=
  do n_to_sample <- det_n_to_sample_st (bo_proportion p) st;
  if (n_to_sample =? 0)%nat then Ok (d_X D, d_y D)
  else
    let X_min0 := rows_with (min_label st) (d_X D) (d_y D) in
    do (X_min, X_danger) <-
      determine_danger_remove_noise (d_X D) (d_y D) X_min0 (bo_n_neighbors p) (maj_label st);
    if (length X_min <? 2)%nat || (length X_danger =? 0)%nat then Ok (d_X D, d_y D)
    else
      let k_neigh := Nat.min (length X_min) (bo_k_neighbors p + 1) in
      do indices <- nn X_min X_danger k_neigh;
      (* line 214: [indices = indices\[:, 1:\]] *)
      let indices' := map (@tl nat) indices in
      do samples <- sample_simplex volume (bo_ss p)
          (mk_args X_danger (d_dim D) indices' (k_neigh - 1) None None (Some X_min) false None)
          n_to_sample r;
      Ok (d_X D ++ samples, d_y D ++ repeat (min_label st) n_to_sample).

Definition border1_sample (p : border_params) (r : rng) (D : dataset) :=
  sample_with checks_default (border1_algorithm p r) D.

(** Borderline_SMOTE2.sampling_algorithm, _borderline_smote.py:361-450.  The
    vertex weights of lines 417-418 are one half for majority rows. *)
Definition border2_algorithm (p : border_params) (r : rng) (st : stats) (D : dataset)
    : res (list row * list Z) :=
  do n_to_sample <- det_n_to_sample_st (bo_proportion p) st;
  if (n_to_sample =? 0)%nat then Ok (d_X D, d_y D)
  else
    let X_min0 := rows_with (min_label st) (d_X D) (d_y D) in
    do (X_min, X_danger) <-
      determine_danger_remove_noise (d_X D) (d_y D) X_min0 (bo_n_neighbors p) (maj_label st);
    if (length X_min <? 2)%nat || (length X_danger =? 0)%nat then Ok (d_X D, d_y D)
    else
      let k_neigh := Nat.min (bo_k_neighbors p + 1) (length (d_X D)) in
      do indices <- nn (d_X D) X_danger k_neigh;
      let indices' := map (@tl nat) indices in
      let vertex_weights :=
        map (fun l => if Z.eqb l (maj_label st) then (1 # 2)%Q else 1%Q) (d_y D) in
      do samples <- sample_simplex volume (bo_ss p)
          (mk_args X_danger (d_dim D) indices' (k_neigh - 1) None (Some vertex_weights)
                   (Some (d_X D)) false None)
          n_to_sample r;
      Ok (d_X D ++ samples, d_y D ++ repeat (min_label st) n_to_sample).

Definition border2_sample (p : border_params) (r : rng) (D : dataset) :=
  sample_with checks_default (border2_algorithm p r) D.

End Algorithms.
