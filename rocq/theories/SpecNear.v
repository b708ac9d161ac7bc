(** Specification vocabulary for C69 to C76. *)

From Coq Require Import List ZArith QArith Bool Arith Sorting.Sorted Permutation.
From Verif Require Import Np SimplexModel SamplerModel Spec SpecNoise SpecComp EditModel SpecEdit NearModel.
Import ListNotations.
Open Scope nat_scope.

(** The rows at some positions. *)
Definition rows_at (X : list row) (is : list nat) : list row := map (fun i => nth i X []) is.

(** [m] is the mean of [pts]. *)
Definition mean_of (d : nat) (pts : list row) (m : row) : Prop :=
  length m = d /\
  forall j, j < d -> (nth j m 0 == qsum (map (fun x => nth j x 0) pts) / inject_Z (Z.of_nat (length pts)))%Q.

Definition distance_smote_spec (dist : row -> row -> Q) (p : near_params) (D : dataset) (mn n : Z) (S : list row) : Prop :=
  let X_min := rows_with mn (d_X D) (d_y D) in
  let n_dim := ss_n_dim (ne_ss p) in
  length S = Z.to_nat n /\
  exists T, nearest_table dist X_min X_min (Nat.min (length X_min) (ne_n_neighbors p + 1)) T /\
    Forall (fun x => exists b m, b < length X_min /\ mean_of (d_dim D) (rows_at X_min (tl (nth b T []))) m /\
      convex_comb (d_dim D)
        (firstn n_dim (m :: nth b X_min [] :: rows_at X_min (tl (nth b T [])))) x) S.

(** A combination of a row and its [n_dim - 1] nearest rows. *)
Definition around (X_min : list row) (d : nat) (T : list (list nat)) (x : row) : Prop :=
  exists b, b < length X_min /\ convex_comb d (nth b X_min [] :: rows_at X_min (tl (nth b T []))) x.

Definition nt_smote_spec (dist : row -> row -> Q) (p : near_params) (D : dataset) (mn n : Z) (S : list row) : Prop :=
  let X_min := rows_with mn (d_X D) (d_y D) in
  length S = Z.to_nat n /\
  exists T, nearest_table dist X_min X_min (ss_n_dim (ne_ss p)) T /\ Forall (around X_min (d_dim D) T) S.

(** Row [i] of [S] is a row satisfying [P] plus row [i] of [G] scaled by [sds]. *)
Definition jittered (d : nat) (sds : nat -> Q) (G : list row) (P : row -> Prop) (S : list row) : Prop :=
  forall i, i < length S -> exists s, P s /\ length (nth i S []) = d /\
    forall j, j < d -> (nth j (nth i S []) 0 == nth j s 0 + nth j (nth i G []) 0 * sds j)%Q.

Definition rwo_spec (dist : row -> row -> Q) (sd : list Q -> Q) (G : list row) (p : near_params) (D : dataset) (mn n : Z) (S : list row) : Prop :=
  let X_min := rows_with mn (d_X D) (d_y D) in
  length S = Z.to_nat n /\
  exists T, nearest_table dist X_min X_min (ss_n_dim (ne_ss p)) T /\
    jittered (d_dim D) (fun j => sd (map (fun x => nth j x 0%Q) X_min)) G (around X_min (d_dim D) T) S.

Definition rose_spec (sd : list Q -> Q) (h : nat -> nat -> Q) (G : list row) (D : dataset) (mn n : Z) (S : list row) : Prop :=
  let X_min := rows_with mn (d_X D) (d_y D) in
  length S = Z.to_nat n /\
  jittered (d_dim D) (fun j => sd (map (fun x => nth j x 0%Q) X_min) * h (length (d_X D)) (d_dim D))%Q G
    (fun s => In s X_min) S.

(** [w] is the standard deviation of attribute [j], or 1. *)
Definition std_scale (sd : list Q -> Q) (X : list row) (j : nat) (w : Q) : Prop :=
  let s := sd (map (fun x => nth j x 0%Q) X) in
  (~ (s == 0)%Q -> (w == s)%Q) /\ ((s == 0)%Q -> (w == 1)%Q).

(** [f] subtracts the attribute means and divides by [w]. *)
Definition standardised (d : nat) (X : list row) (w : nat -> Q) (f : row -> row) : Prop :=
  forall x, length x = d -> length (f x) = d /\
    forall j, j < d -> (nth j (f x) 0 == (nth j x 0 - qsum (map (fun x => nth j x 0%Q) X) / inject_Z (Z.of_nat (length X))) / w j)%Q.

Definition gaussian_smote_spec (dist : row -> row -> Q) (sd : list Q -> Q) (sigma : Q) (G : list row) (p : near_params) (D : dataset) (mn n : Z) (S : list row) : Prop :=
  let X_min := rows_with mn (d_X D) (d_y D) in
  let k := Nat.min (length X_min) (ne_n_neighbors p + 1) in
  length S = Z.to_nat n /\
  exists w f T, (forall j, j < d_dim D -> std_scale sd (d_X D) j (w j)) /\ standardised (d_dim D) (d_X D) w f /\
    nearest_table dist (map f X_min) (map f X_min) k T /\
    jittered (d_dim D) (fun j => sigma * w j)%Q G
      (neighbour_sample (d_dim D) X_min X_min T k (Nat.min (ss_n_dim (ne_ss p)) k - 1) None None) S.

(** One list of positions per query row. *)
Definition radius_ok (radius : list row -> list row -> Q -> list (list nat)) : Prop :=
  forall Xf Xq r, length (radius Xf Xq r) = length Xq.

Definition sdsmote_spec (dist : row -> row -> Q) (p : near_params) (D : dataset) (mn n : Z) (S : list row) : Prop :=
  let X_min := rows_with mn (d_X D) (d_y D) in
  let k := Nat.min (length X_min) (ne_n_neighbors p + 1) in
  length S = Z.to_nat n /\
  exists T, nearest_table dist X_min X_min k T /\
    Forall (neighbour_sample (d_dim D) X_min X_min T k (Nat.min (ss_n_dim (ne_ss p)) k - 1) None None) S.

(** ** ISMOTE *)

(** The mean distance of [x] to the rows of [P]. *)
Definition mean_dist (dist : row -> row -> Q) (P : list row) (x : row) : Q :=
  (qsum (map (dist x) P) / inject_Z (Z.of_nat (length P)))%Q.

(** [M] are the rows of [X] without the [n] that are farthest from [P], the
    farthest ones first. *)
Definition without_farthest (dist : row -> row -> Q) (P X : list row) (n : nat) (M : list row) : Prop :=
  exists order, Permutation order (seq 0 (length X)) /\
    StronglySorted (fun i j => (mean_dist dist P (nth j X []) <= mean_dist dist P (nth i X []))%Q) order /\
    M = rows_at X (skipn n order).

(** A combination of a minority row and points on the way to neighbours, the
    nearest one left out: a share [w] of the way to a minority row, [1 - w] of
    the way to a majority row. *)
Definition ismote_sample_of (d : nat) (X_min M : list row) (T : list (list nat)) (k n_dim : nat) (w : Q) (x : row) : Prop :=
  exists b ps, b < length X_min /\ length ps = Nat.min n_dim (k - 1) - 1 /\
    StronglySorted lt ps /\ Forall (fun q => 2 <= q < k) ps /\
    convex_comb d (nth b X_min [] ::
      map (fun q => let v := nth q (nth b T []) 0 in
                    toward (nth b X_min []) (nth v (M ++ X_min) []) (if v <? length M then 1 - w else w)%Q 1) ps) x.

Definition ismote_spec (dist : row -> row -> Q) (p : ismote_params) (D : dataset) (mn mj : Z)
    (out : res (list row * list Z)) : Prop :=
  let X_min := rows_with mn (d_X D) (d_y D) in
  let X_maj := rows_with mj (d_X D) (d_y D) in
  let N := (length X_maj - length X_min + 1) / 2 in
  exists M S T, without_farthest dist X_min X_maj N M /\ length M = length X_maj - N /\ length S = N /\
    let k := Nat.min (length (M ++ X_min)) (is_n_neighbors p + 1) in
    nearest_table dist (M ++ X_min) X_min k T /\
    Forall (ismote_sample_of (d_dim D) X_min M T k (ss_n_dim (is_ss p)) (is_minority_weight p)) S /\
    out = Ok (M ++ X_min ++ S, repeat mj (length M) ++ repeat mn (length X_min + N)).

(** ** NRAS *)

(** The same table of numbers. *)
Definition same_row (x y : row) : Prop := Forall2 Qeq x y.
Definition same_rows (X Y : list row) : Prop := Forall2 same_row X Y.

Definition nras_noisy (p : nras_params) (y : list Z) (mn : Z) (T : list (list nat)) (k b : nat) : Prop :=
  (inject_Z (Z.of_nat (votes y (tl (nth b T [])) mn)) < nr_t p * inject_Z (Z.of_nat k))%Q.

(** [f] scales every attribute to the unit interval and appends the score. *)
Definition with_score (d : nat) (X : list row) (score : list Q) (X' : list row) : Prop :=
  exists f, unit_scaled d X f /\ X' = map (fun i => f (nth i X []) ++ [nth i score 0%Q]) (seq 0 (length X)).

Definition nras_spec (dist : row -> row -> Q) (score : list Q) (p : nras_params) (D : dataset) (mn mj n : Z)
    (out : res (list row * list Z)) : Prop :=
  let X := d_X D in let y := d_y D in
  let X_min := rows_with mn X y in
  let k := Nat.min (length X) (nr_n_neighbors p + 1) in
  exists X' T noisy kept, with_score (d_dim D) X score X' /\
    nearest_table dist X' (rows_with mn X' y) k T /\
    StronglySorted lt noisy /\ (forall b, In b noisy <-> b < length X_min /\ nras_noisy p y mn T k b) /\
    StronglySorted lt kept /\ (forall b, In b kept <-> b < length X_min /\ ~ nras_noisy p y mn T k b) /\
    (length X_min - 1 <= length noisy -> unchanged D out) /\
    (length noisy < length X_min - 1 -> exists M K S,
       out = Ok (M ++ K ++ S, repeat mj (length M) ++ repeat mn (length K + length S)) /\
       same_rows M (rows_with mj X y) /\ same_rows K (rows_at X_min kept) /\
       length S = Z.to_nat n + length noisy /\
       Forall (fun x => exists b ps, In b kept /\ length ps = Nat.min (ss_n_dim (nr_ss p)) k - 1 /\
         StronglySorted lt ps /\ Forall (fun q => 1 <= q < k) ps /\
         convex_comb (d_dim D) (nth b X_min [] :: map (fun q => nth (nth q (nth b T []) 0) X []) ps) x) S).

(** ** SN_SMOTE *)

(** [S] lies on the segments from minority rows to the first other row their
    neighbour list names (for [n_dim] 1, at the minority rows). *)
Definition sn_smote_spec (dist : row -> row -> Q) (p : near_params) (D : dataset) (mn n : Z) (S : list row) : Prop :=
  let X_min := rows_with mn (d_X D) (d_y D) in
  length S = Z.to_nat n /\
  exists T, nearest_table dist X_min X_min (Nat.min (ne_n_neighbors p * 10) (length X_min)) T /\
    Forall (fun x => exists b, b < length X_min /\
      convex_comb (d_dim D) (firstn (ss_n_dim (ne_ss p)) [nth b X_min []; nth (nth 1 (nth b T []) 0) X_min []]) x) S.

(** ** SMMO *)

Definition smmo_spec (dist : row -> row -> Q) (preds : list (list Z)) (p : near_params) (D : dataset) (mn n : Z) (S : list row) : Prop :=
  let X := d_X D in let y := d_y D in
  let X_min := rows_with mn X y in
  exists sel T, StronglySorted lt sel /\
    (forall i, In i sel <-> i < length y /\ nth i y 0%Z = mn /\ outvoted Majority 0 preds y i) /\
    nearest_table dist X_min (rows_at X sel) (Nat.min (length X_min) (ne_n_neighbors p + 1)) T /\
    (length sel < 2 -> S = []) /\
    (2 <= length sel -> length S = Z.to_nat n) /\
    Forall (fun x => exists b m, b < length sel /\ mean_of (d_dim D) (rows_at X_min (tl (nth b T []))) m /\
      convex_comb (d_dim D) (firstn (ss_n_dim (ne_ss p)) [m; nth (nth 0 (nth b T []) 0) X_min []]) x) S.
