(** Specification vocabulary for C55 to C61. *)

From Coq Require Import List ZArith QArith Bool Arith Qround Sorting.Sorted Permutation.
From Verif Require Import Np SimplexModel SamplerModel Spec SpecDanger CompModel.
Import ListNotations.
Open Scope nat_scope.

(** The call gives the input back. *)
Definition unchanged (D : dataset) (r : res (list row * list Z)) : Prop :=
  r = Ok (d_X D, d_y D).

(** The call appends rows labelled [mn], and the appended rows satisfy [P]. *)
Definition appends (D : dataset) (mn : Z) (P : list row -> Prop) (r : res (list row * list Z)) : Prop :=
  exists S, r = Ok (d_X D ++ S, d_y D ++ repeat mn (length S)) /\ P S.

(** Every coordinate of [x] lies between those of [b] and [v], the share of the
    way being one of [share]. *)
Definition between (share : Q -> Prop) (d : nat) (b v x : row) : Prop :=
  length x = d /\
  forall j, j < d -> exists t, share t /\
    (nth j x 0 == nth j b 0 + t * (nth j v 0 - nth j b 0))%Q.
Definition unit_share (t : Q) : Prop := (0 <= t /\ t < 1)%Q.

(** Row number [i] of [P] is, apart from the first one, among the neighbours the
    table lists for row number [b]. *)
Definition listed (T : list (list nat)) (b i : nat) : Prop :=
  b < length T /\ In i (tl (nth b T [])).

(** The smallest and largest value of attribute [j]. *)
Definition attr_range (P : list row) (j : nat) (lo hi : Q) : Prop :=
  (forall x, In x P -> (lo <= nth j x 0 /\ nth j x 0 <= hi)%Q) /\
  (exists x, In x P /\ (nth j x 0 == lo)%Q) /\ (exists x, In x P /\ (nth j x 0 == hi)%Q).

(** [o] is the length of the intersection of [a,b] and [c,d]. *)
Definition overlap_length (a b c d o : Q) : Prop :=
  (forall lo hi, (lo == a \/ lo == c)%Q -> (hi == b \/ hi == d)%Q ->
     (a <= lo -> c <= lo -> hi <= b -> hi <= d ->
      (lo <= hi -> o == hi - lo) /\ (hi < lo -> o == 0))%Q).

(** Share of the minority range of attribute [j] the majority range covers; 0
    for an attribute constant on the minority. *)
Definition covered_share (X_min X_maj : list row) (j : nat) (r : Q) : Prop :=
  exists a b c d o, attr_range X_min j a b /\ attr_range X_maj j c d /\ overlap_length a b c d o /\
    ((a == b)%Q -> (r == 0)%Q) /\ (~ (a == b)%Q -> (r == o / (b - a))%Q).

(** Nothing is added when the minority class is too small or nothing is asked
    for; otherwise rows satisfying [P] are appended. *)
Definition runs (D : dataset) (mn : Z) (n : Z) (P : list row -> Prop) (r : res (list row * list Z)) : Prop :=
  (count_label (d_y D) mn <= 2 \/ n = 0%Z -> unchanged D r) /\
  (2 < count_label (d_y D) mn -> (0 < n)%Z -> appends D mn P r).

Definition random_smote_spec (dist : row -> row -> Q) (p : comp_params) (D : dataset) (mn n : Z) (S : list row) : Prop :=
  let X_min := rows_with mn (d_X D) (d_y D) in
  length S = Z.to_nat n /\
  exists T, nearest_table dist X_min X_min (Nat.min (length X_min) (cp_n_neighbors p + 1)) T /\
    Forall (fun x => exists b i1 i2 z, listed T b i1 /\ listed T b i2 /\
      between unit_share (d_dim D) (nth i1 X_min []) (nth i2 X_min []) z /\
      between unit_share (d_dim D) (nth b X_min []) z x) S.

(** The share of the way from the positive to its neighbour. *)
Definition safe_share (slp sln : nat) (t : Q) : Prop :=
  let q := fun n : nat => inject_Z (Z.of_nat n) in
  (sln = 0 -> 0 < slp -> (t == 0)%Q) /\
  (0 < sln -> sln <= slp -> (0 <= t /\ t < q sln / q slp)%Q) /\
  (slp < sln -> (1 - q slp / q sln <= t /\ t <= 1)%Q).

(** A pair that may produce rows: [i] is a minority row, [j] one of its nearest
    rows, and one of them has a minority row among its nearest rows. *)
Definition safe_pair (y : list Z) (mn : Z) (T : list (list nat)) (i j : nat) : Prop :=
  i < length y /\ nth i y 0%Z = mn /\ listed T i j /\
  (0 < neighbours_of y mn (nth i T []) \/ 0 < neighbours_of y mn (nth j T [])).

Definition safe_level_spec (dist : row -> row -> Q) (p : comp_params) (D : dataset) (mn n : Z) (S : list row) : Prop :=
  exists T, nearest_table dist (d_X D) (d_X D) (Nat.min (cp_n_neighbors p + 1) (length (d_X D))) T /\
    ((forall i j, ~ safe_pair (d_y D) mn T i j) -> S = []) /\
    (forall i j, safe_pair (d_y D) mn T i j -> length S = Z.to_nat n) /\
    Forall (fun x => exists i j, safe_pair (d_y D) mn T i j /\
      between (safe_share (neighbours_of (d_y D) mn (nth i T [])) (neighbours_of (d_y D) mn (nth j T [])))
        (d_dim D) (nth i (d_X D) []) (nth j (d_X D) []) x) S.

(** No attribute is covered to a larger share. *)
Definition most_covered (X_min X_maj : list row) (dim j : nat) : Prop :=
  forall j' r r', j' < dim -> covered_share X_min X_maj j r -> covered_share X_min X_maj j' r' -> (r' <= r)%Q.

(** The attributes that vary: all of them if [perc * dim] rounds to 0. *)
Definition varies (perc : Q) (X_min X_maj : list row) (dim j : nat) : Prop :=
  (perc * inject_Z (Z.of_nat dim) <= 1 # 2)%Q \/ most_covered X_min X_maj dim j.

(** [x] is [b] with the attributes that vary moved toward [v]. *)
Definition selected_point (vary : nat -> Prop) (d : nat) (b v x : row) : Prop :=
  length x = d /\ forall j, j < d ->
    (vary j -> exists t, unit_share t /\ (nth j x 0 == nth j b 0 + t * (nth j v 0 - nth j b 0))%Q) /\
    (~ vary j -> (nth j x 0 == nth j b 0)%Q).

Definition selected_spec (dist : row -> row -> Q) (p : selected_params) (D : dataset) (mn mj n : Z) (S : list row) : Prop :=
  let X_min := rows_with mn (d_X D) (d_y D) in
  let X_maj := rows_with mj (d_X D) (d_y D) in
  length S = Z.to_nat n /\
  exists T, nearest_table dist X_min X_min (Nat.min (length X_min) (sl_n_neighbors p + 1)) T /\
    Forall (fun x => exists b i, listed T b i /\
      selected_point (varies (sl_perc_sign_attr p) X_min X_maj (d_dim D)) (d_dim D)
        (nth b X_min []) (nth i X_min []) x) S.

(** Every coordinate of [z] lies at most half way from [x] to the point obtained
    from [u] by moving away from [v] by at most three tenths of their difference. *)
Definition out_sample (d : nat) (u v x z : row) : Prop :=
  length z = d /\ forall j, j < d -> exists s t, unit_share s /\ unit_share t /\
    (nth j z 0 == nth j x 0 + (t / 2) * (nth j u 0 + (3 # 10) * s * (nth j u 0 - nth j v 0) - nth j x 0))%Q.

Definition smote_out_spec (dist : row -> row -> Q) (p : comp_params) (D : dataset) (mn mj n : Z) (S : list row) : Prop :=
  let X_min := rows_with mn (d_X D) (d_y D) in
  let X_maj := rows_with mj (d_X D) (d_y D) in
  length S = Z.to_nat n /\
  exists T M, nearest_table dist X_min X_min (Nat.min (length X_min) (cp_n_neighbors p + 1)) T /\
    nearest_table dist X_maj X_min (Nat.min (length X_maj) (cp_n_neighbors p + 1)) M /\
    Forall (fun z => exists b i m, listed T b i /\ In m (nth b M []) /\
      out_sample (d_dim D) (nth b X_min []) (nth m X_maj []) (nth i X_min []) z) S.

(** [i] stands at position [p] of the list. *)
Definition position (t : list nat) (i p : nat) : Prop := nth_error t p = Some i.

(** The minority rows ordered by the sum of their positions in the two
    neighbour lists. *)
Definition composite_order (n : nat) (euc cos c : list nat) : Prop :=
  Permutation c (seq 0 n) /\
  StronglySorted (fun i j => forall pi qi pj qj, position euc i pi -> position cos i qi ->
     position euc j pj -> position cos j qj -> pi + qi <= pj + qj) c.

Definition smote_cosine_spec (dist cosd : row -> row -> Q) (p : comp_params) (D : dataset) (mn mj n : Z) (S : list row) : Prop :=
  let X_min := rows_with mn (d_X D) (d_y D) in
  let X_maj := rows_with mj (d_X D) (d_y D) in
  length S = Z.to_nat n /\
  exists E C T M, nearest_table dist X_min X_min (length X_min) E /\ nearest_table cosd X_min X_min (length X_min) C /\
    length T = length X_min /\
    (forall b, b < length X_min -> composite_order (length X_min) (nth b E []) (nth b C []) (nth b T [])) /\
    nearest_table dist X_maj X_min (Nat.min (length X_maj) (cp_n_neighbors p)) M /\
    Forall (fun z => exists b i m, listed T b i /\ In m (nth b M []) /\
      out_sample (d_dim D) (nth b X_min []) (nth m X_maj []) (nth i X_min []) z) S.

(** [x] lies on the segment from [b] to [v], the share of the way being one of
    [share] (the same one for every coordinate). *)
Definition on_segment (share : Q -> Prop) (d : nat) (b v x : row) : Prop :=
  length x = d /\ exists t, share t /\
    forall j, j < d -> (nth j x 0 == nth j b 0 + t * (nth j v 0 - nth j b 0))%Q.

Definition half_share (t : Q) : Prop := (0 <= t /\ t < 1 # 2)%Q.

(** What the generator promises about the draws of the loop: rows of the
    minority, columns of the neighbour table but the first, numbers in [0,1). *)
Definition draws_ok (m k : nat) (draws : nat -> ndo_draw) : Prop :=
  forall i, dr_idx (draws i) < m /\ dr_col (draws i) < k - 1 /\
    unit_share (dr_u1 (draws i)) /\ unit_share (dr_u2 (draws i)).

(** The rows one pass adds: one in the first half of the way from a minority row
    to one of its nearest rows, and if that is a minority row another one in the
    other half. *)
Definition ndo_group (d : nat) (X X_min : list row) (y : list Z) (mn : Z) (T : list (list nat)) (g : list row) : Prop :=
  exists b i, listed T b i /\
    ((nth i y 0%Z <> mn /\ exists s, g = [s] /\ on_segment half_share d (nth b X_min []) (nth i X []) s) \/
     (nth i y 0%Z = mn /\ exists s1 s2, g = [s1; s2] /\ on_segment half_share d (nth b X_min []) (nth i X []) s1 /\
        on_segment half_share d (nth i X []) (nth b X_min []) s2)).

(** The distances of the minority rows to those of their nearest rows that carry
    a label. *)
Definition label_dists (dist : row -> row -> Q) (X X_min : list row) (y : list Z) (T : list (list nat)) (lab : Z) : list Q :=
  flat_map (fun b => map (fun i => dist (nth b X_min []) (nth i X []))
     (filter (fun i => Z.eqb lab (nth i y 0%Z)) (tl (nth b T [])))) (seq 0 (length X_min)).

Definition average (l : list Q) : Q := (qsum l / inject_Z (Z.of_nat (length l)))%Q.

(** The minority rows lie closer to each other than [T] times their distance to
    the majority. *)
Definition dense_minority (dist : row -> row -> Q) (X X_min : list row) (y : list Z) (T : list (list nat)) (mn mj : Z) (thr : Q) : Prop :=
  let intra := label_dists dist X X_min y T mn in
  let exter := label_dists dist X X_min y T mj in
  (intra = [] /\ (0 < thr)%Q) \/
  (intra <> [] /\ exter <> [] /\ (0 < average exter)%Q /\ (average intra < thr * average exter)%Q).

Definition ndo_spec (dist : row -> row -> Q) (p : ndo_params) (D : dataset) (mn n : Z) (T : list (list nat)) (S : list row) : Prop :=
  exists gs, S = concat gs /\ length (concat (removelast gs)) < Z.to_nat n <= length S /\
    Forall (ndo_group (d_dim D) (d_X D) (rows_with mn (d_X D) (d_y D)) (d_y D) mn T) gs.

(** [k] is [n / m] rounded to the nearest integer, halves to the even one, at
    least 1. *)
Definition rounded_ratio (n m k : nat) : Prop :=
  exists r, k = Nat.max 1 r /\ (Z.abs (2 * Z.of_nat n - 2 * Z.of_nat r * Z.of_nat m) <= Z.of_nat m)%Z /\
    (Z.abs (2 * Z.of_nat n - 2 * Z.of_nat r * Z.of_nat m) = Z.of_nat m -> Nat.Even r)%Z.

(** The [k] points dividing the segments from the rows of [bases] to those of
    [targets] evenly, segment by segment. *)
Definition divides (d k : nat) (bases : list row) (target : nat -> row) (S : list row) : Prop :=
  length S = k * length bases /\
  forall a i, a < length bases -> i < k ->
    on_segment (fun t => t == inject_Z (Z.of_nat (i + 1)) / inject_Z (Z.of_nat (k + 1)))%Q d
      (nth a bases []) (target a) (nth (a * k + i) S []).

Definition poly_spec (top : topology) (D : dataset) (mn n : Z) (S : list row) : Prop :=
  let X_min := rows_with mn (d_X D) (d_y D) in
  let m := length X_min in
  exists k, rounded_ratio (Z.to_nat n) m k /\
  match top with
  | Star => exists c, length c = d_dim D /\
      (forall j, j < d_dim D -> (nth j c 0 == qsum (map (fun x => nth j x 0) X_min) / inject_Z (Z.of_nat m))%Q) /\
      divides (d_dim D) k X_min (fun _ => c) S
  | Bus => divides (d_dim D) k (firstn (m - 1) X_min) (fun a => nth (a + 1) X_min []) S
  end.

(** [q] is the share of entry [i] of [w], all shares being equal if the sum is 0. *)
Definition share_of (w : list Q) (i : nat) (q : Q) : Prop :=
  ((qsum w == 0)%Q -> (q == 1 / inject_Z (Z.of_nat (length w)))%Q) /\
  (~ (qsum w == 0)%Q -> (q == nth i w 0 / qsum w)%Q).

(** The rows placed between [b] and [v] for the count [c]: [c] of them, rounded
    down or up, number [i] at the share 1/(c - i + 1) of the way. *)
Definition spread (d : nat) (b v : row) (c : Q) (L : list row) : Prop :=
  (Qfloor c <= Z.of_nat (length L) <= Qceiling c)%Z /\
  forall i, i < length L -> (0 < c - inject_Z (Z.of_nat i))%Q /\
    on_segment (fun t => t == 1 / (c - inject_Z (Z.of_nat i) + 1))%Q d b v (nth i L []).

(** Distances of row [b] to its neighbours, without itself. *)
Definition dists_of (dist : row -> row -> Q) (X : list row) (T : list (list nat)) (b : nat) : list Q :=
  map (fun i => dist (nth b X []) (nth i X [])) (tl (nth b T [])).

(** The number of rows asked for, split over the minority rows in proportion to
    the deviation of their neighbour distances, and for each over its neighbours
    in proportion to the distance. *)
Definition spread_count (dist : row -> row -> Q) (std : list Q -> Q) (X : list row) (T : list (list nat)) (n : nat) (b j : nat) (c : Q) : Prop :=
  exists q1 q2, share_of (map (fun b => std (dists_of dist X T b)) (seq 0 (length X))) b q1 /\
    share_of (dists_of dist X T b) j q2 /\ (c == inject_Z (Z.of_nat n) * q1 * q2)%Q.

Definition smote_d_spec (dist : row -> row -> Q) (std : list Q -> Q) (p : comp_params) (D : dataset) (mn n : Z) (S : list row) : Prop :=
  let X_min := rows_with mn (d_X D) (d_y D) in
  let m := length X_min in
  let k := Nat.min m (cp_n_neighbors p + 1) in
  exists T (c : nat -> nat -> Q) (L : nat -> nat -> list row), nearest_table dist X_min X_min k T /\
    S = flat_map (fun b => flat_map (L b) (seq 0 (k - 1))) (seq 0 m) /\
    (forall b j, b < m -> j < k - 1 ->
       spread_count dist std X_min T (Z.to_nat n) b j (c b j) /\
       spread (d_dim D) (nth b X_min []) (nth (nth (j + 1) (nth b T []) 0) X_min []) (c b j) (L b j)) /\
    (Z.abs (Z.of_nat (length S) - n) < Z.of_nat (m * (k - 1)))%Z.
