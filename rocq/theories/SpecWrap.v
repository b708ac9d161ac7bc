(** Specification vocabulary for C87 to C94. *)

From Coq Require Import List ZArith QArith Bool Arith Sorting.Sorted Permutation.
From Verif Require Import Np SimplexModel SamplerModel Spec SpecNoise CompModel SpecComp SpecNear SpecLevel SpecGroup ClusterOversFacts WrapModel.
Import ListNotations.
Open Scope nat_scope.

(** What SMOTE appends. *)
Definition smote_spec (dist : row -> row -> Q) (p : smote_params) (D : dataset) (mn n : Z) (S : list row) : Prop :=
  let X_min := rows_with mn (d_X D) (d_y D) in
  let k := Nat.min (length X_min) (sm_n_neighbors p + 1) in
  length S = Z.to_nat n /\
  exists T, nearest_table dist X_min X_min k T /\
    (ss_gauss (sm_ss p) = GNone ->
     Forall (neighbour_sample (d_dim D) X_min X_min T k (Nat.min (ss_n_dim (sm_ss p)) k - 1) None None) S).

(** ** ISOMAP_Hybrid *)

(** The neighbourhood cleaning rule applied to [X, y]. *)
Definition cleaned (dist : row -> row -> Q) (X : list row) (y : list Z) (X' : list row) (y' : list Z) : Prop :=
  exists mn mj T, is_minority y mn mj /\ nearest_table dist X X 4 T /\
    drops_exactly X y (fun i => nth i y 0%Z = mj /\
      (2 <= votes y (skipn 1 (nth i T [])) mn \/
       exists j, j < length X /\ nth j y 0%Z = mn /\ In i (skipn 1 (nth j T [])) /\
         2 <= votes y (skipn 1 (nth j T [])) mj)) X' y'.

Definition isomap_spec (dist : row -> row -> Q) (nc : nat) (p : smote_params) (X_trans : list row) (y : list Z) (mn n : Z)
    (r : res (list row * list Z)) : Prop :=
  exists S X' y',
    let XS := X_trans ++ S in
    let yS := y ++ repeat mn (length S) in
    (n = 0%Z -> S = []) /\ ((0 < n)%Z -> smote_spec dist p (mk_data X_trans nc y) mn n S) /\
    cleaned dist XS yS X' y' /\
    ((zsum y' <= 2)%Z \/ count_label y' 0 <= 2 -> r = Ok (XS, yS)) /\
    ((2 < zsum y')%Z -> 2 < count_label y' 0 -> r = Ok (X', y')).

(** ** SL_graph_SMOTE *)

(** The sum of the cubed differences from the mean is negative, positive. *)
Definition cubes (v : list Q) (m : Q) : Q := qsum (map (fun x => ((x - m) * ((x - m) * (x - m)))%Q) v).
Definition left_skewed (v : list Q) : Prop :=
  exists m, (m * qn (length v) == qsum v)%Q /\ (cubes v m < 0)%Q.
Definition right_skewed (v : list Q) : Prop :=
  exists m, (m * qn (length v) == qsum v)%Q /\ (0 < cubes v m)%Q.

(** The sums of the labels of the rows listed. *)
Definition label_sums (y : list Z) (T : list (list nat)) : list Q :=
  map (fun t => inject_Z (zsum (map (fun i => nth i y 0%Z) t))) T.

(** ** SVM_balance *)

Definition svm_candidates : list Q := [1 # 100; 1 # 10; 1; 10]%Q.

(** The candidate with the highest positive score, the smallest of several; the
    smallest candidate if no score is positive. *)
Definition best_candidate (score : Q -> Q) (C : Q) : Prop :=
  ((forall c, In c svm_candidates -> (score c <= 0)%Q) -> C = (1 # 100)%Q) /\
  ((exists c, In c svm_candidates /\ (0 < score c)%Q) ->
     In C svm_candidates /\
     (forall c, In c svm_candidates -> (score c <= score C)%Q) /\
     (forall c, In c svm_candidates -> (c < C)%Q -> (score c < score C)%Q)).

(** ** MSYN *)

(** Distance to the nearest other row of the same class, to the nearest row of
    the other class. *)
Definition nearest_hit (dist : row -> row -> Q) (X : list row) (y : list Z) (i : nat) (h : Q) : Prop :=
  let other j := j < length X /\ j <> i /\ nth j y 0%Z = nth i y 0%Z in
  (exists j, other j /\ h = dist (nth i X []) (nth j X [])) /\ (forall j, other j -> (h <= dist (nth i X []) (nth j X []))%Q).
Definition nearest_miss (dist : row -> row -> Q) (X : list row) (y : list Z) (i : nat) (m : Q) : Prop :=
  let other j := j < length X /\ nth j y 0%Z <> nth i y 0%Z in
  (exists j, other j /\ m = dist (nth i X []) (nth j X [])) /\ (forall j, other j -> (m <= dist (nth i X []) (nth j X []))%Q).

(** How much nearer than [m] the new row is. *)
Definition gain (m d : Q) : Q := if Qlt_le_dec d m then (m - d)%Q else 0%Q.

(** Loss of margin of the majority against gain of the minority. *)
Definition msyn_score (dist : row -> row -> Q) (X : list row) (y : list Z) (mn mj : Z) (hit miss : nat -> Q) (x : row) : Q :=
  let rows z := filter (fun i => Z.eqb (nth i y 0%Z) z) (seq 0 (length X)) in
  (qsum (map (fun i => gain (miss i) (dist (nth i X []) x)) (rows mj)) /
   (qsum (map (fun i => gain (hit i) (dist (nth i X []) x)) (rows mn)) + (1 # 50)))%Q.

(** [sel] are the positions of [n] smallest numbers in order, the earlier first
    among equal ones. *)
Definition before (s : list Q) (i j : nat) : Prop :=
  (nth i s 0 < nth j s 0 \/ nth i s 0 == nth j s 0 /\ (i < j)%nat)%Q.
Definition smallest (s : list Q) (n : nat) (sel : list nat) : Prop :=
  length sel = Nat.min n (length s) /\ StronglySorted (before s) sel /\ Forall (fun i => i < length s) sel /\
  forall i j, In i sel -> ~ In j sel -> j < length s -> before s i j.

Definition msyn_spec (dist : row -> row -> Q) (p : smote_params) (D : dataset) (mn mj n n3 : Z) (S : list row) : Prop :=
  length S = Z.to_nat n /\ exists C hit miss s sel,
    smote_spec dist p D mn n3 C /\
    (forall i, i < length (d_X D) -> nearest_hit dist (d_X D) (d_y D) i (hit i) /\ nearest_miss dist (d_X D) (d_y D) i (miss i)) /\
    Forall2 (fun x q => (q == msyn_score dist (d_X D) (d_y D) mn mj hit miss x)%Q) C s /\
    smallest s (Z.to_nat n) sel /\ S = rows_at C sel.

(** ** Edge_Det_SMOTE *)

(** The positions of a column in increasing order, equal values in order of
    position. *)
Definition in_order (col : list Q) (o : list nat) : Prop :=
  Permutation o (seq 0 (length col)) /\ StronglySorted (before col) o.

(** Squared difference of the labels before and after row [i] in that order; 0
    for the first and the last row. *)
Definition edge_at (y : list Z) (o : list nat) (i : nat) (c : Z) : Prop :=
  exists p, nth_error o p = Some i /\
    (p = 0 \/ p + 1 = length o -> c = 0%Z) /\
    (0 < p -> p + 1 < length o -> c = Z.square (nth (nth (p - 1) o 0) y 0%Z - nth (nth (p + 1) o 0) y 0%Z)).

(** Sum over the attributes. *)
Definition edge_strength (X : list row) (dim : nat) (y : list Z) (i : nat) (e : Z) : Prop :=
  exists cs, length cs = dim /\ zsum cs = e /\
    forall j, j < dim -> exists o, in_order (map (fun x => nth j x 0%Q) X) o /\ edge_at y o i (nth j cs 0%Z).

(** The positions of the rows labelled [mn]. *)
Definition rows_labelled (y : list Z) (mn : Z) (l : list nat) : Prop :=
  positions (fun i => nth_error y i = Some mn) l.

Definition edge_det_spec (dist : row -> row -> Q) (root : Q -> Q) (p : smote_params) (D : dataset) (mn n : Z) (S : list row) : Prop :=
  let X_min := rows_with mn (d_X D) (d_y D) in
  let k := Nat.min (length X_min) (sm_n_neighbors p + 1) in
  length S = Z.to_nat n /\
  exists T l es s w, nearest_table dist X_min X_min k T /\ rows_labelled (d_y D) mn l /\
    Forall2 (edge_strength (d_X D) (d_dim D) (d_y D)) l es /\
    shares_of (map inject_Z es) s /\ shares_of (map root s) w /\
    (ss_gauss (sm_ss p) = GNone ->
     Forall (neighbour_sample (d_dim D) X_min X_min T k (Nat.min (ss_n_dim (sm_ss p)) k - 1) (Some w) None) S).

(** ** MCT *)

Definition mct_spec (dist : row -> row -> Q) (norm : row -> Q) (p : smote_params) (D : dataset) (mn n : Z) (S : list row) : Prop :=
  let X_min := rows_with mn (d_X D) (d_y D) in
  let k := Nat.min (length X_min) (sm_n_neighbors p + 1) in
  length S = Z.to_nat n /\
  exists T med w, nearest_table dist X_min X_min k T /\
    length med = d_dim D /\ (forall j, j < d_dim D -> is_median (map (fun x => nth j x 0%Q) X_min) (nth j med 0%Q)) /\
    (let ds := map (fun x => norm (vsub med x)) X_min in shares_of (map (fun d => qsum ds - d)%Q ds) w) /\
    (ss_gauss (sm_ss p) = GNone ->
     Forall (neighbour_sample (d_dim D) X_min X_min T k (Nat.min (ss_n_dim (sm_ss p)) k - 1) (Some w) None) S).

(** ** AHC *)

(** [ch] is a list of n - 1 merges: merge [i] makes node [n + i] of two nodes made
    before, and every node but the last is merged exactly once. *)
Definition dendrogram (n : nat) (ch : list (nat * nat)) : Prop :=
  length ch = n - 1 /\
  (forall i, i < length ch -> fst (nth i ch (0, 0)) < snd (nth i ch (0, 0)) < n + i) /\
  Permutation (flat_map (fun ab => [fst ab; snd ab]) ch) (seq 0 (n + (n - 2))).

(** The rows under a node: the row itself, or those under the two parts. *)
Definition node_rows (n : nat) (groups : list (list nat)) (v : nat) : list nat :=
  if v <? n then [v] else nth (v - n) groups [].
Definition merged_rows (n : nat) (ch : list (nat * nat)) (groups : list (list nat)) : Prop :=
  length groups = length ch /\
  (forall i, i < length ch ->
     nth i groups [] = node_rows n groups (fst (nth i ch (0, 0))) ++ node_rows n groups (snd (nth i ch (0, 0)))) /\
  Forall (fun g => 2 <= length g /\ NoDup g /\ Forall (fun i => i < n) g) groups.

Definition ahc_rows (dim : nat) (X : list row) (ch : list (nat * nat)) (S : list row) : Prop :=
  exists groups, merged_rows (length X) ch groups /\ Forall2 (fun g x => mean_of dim (rows_at X g) x) groups S.

(** ** LLE_SMOTE *)

(** Squared length of [w1 z1 + .. - x] in dimension [d]. *)
Definition residual (d : nat) (x : row) (Z : list row) (w : list Q) : Q :=
  qsum (map (fun j => let e := (qsum (map2 (fun a z => a * nth j z 0) w Z) - nth j x 0)%Q in (e * e)%Q) (seq 0 d)).

(** [w] sums to one and no other such weights reproduce [x] better. *)
Definition best_weights (d : nat) (x : row) (Z : list row) (w : list Q) : Prop :=
  length w = length Z /\ (qsum w == 1)%Q /\
  forall v, length v = length Z -> (qsum v == 1)%Q -> (residual d x Z w <= residual d x Z v)%Q.

Definition equal_weights (m : nat) (w : list Q) : Prop :=
  length w = m /\ Forall (fun q => q == 1 / qn m)%Q w.

(** [x] is the sum of the rows [V] with weights [w]. *)
Definition combination (d : nat) (w : list Q) (V : list row) (x : row) : Prop :=
  length x = d /\ forall j, j < d -> (nth j x 0 == qsum (map2 (fun a z => a * nth j z 0) w V))%Q.

(** [solve] solves C w = (1, .., 1), if it gives an answer. *)
Definition solver_ok (solve : list row -> option (list Q)) : Prop :=
  forall C w, solve C = Some w -> length w = length C /\ Forall (fun c => qsum (map2 Qmult c w) == 1)%Q C.

Definition lle_spec (dist : row -> row -> Q) (p : lle_params) (D : dataset) (X_trans : list row) (mn n : Z) (S : list row) : Prop :=
  let X_min := rows_with mn (d_X D) (d_y D) in
  let nc := Nat.min (ll_n_components p) (d_dim D) in
  let k := Nat.min (ll_n_neighbors p + 1) (length X_min) in
  length S = Z.to_nat n /\
  exists T raw U, nearest_table dist X_trans X_trans k T /\
    (ss_gauss (ll_ss p) = GNone ->
     Forall (neighbour_sample nc X_trans X_trans T k (Nat.min (ss_n_dim (ll_ss p)) k - 1) None None) raw) /\
    nearest_table dist X_trans raw k U /\
    Forall2 (fun xt s => exists w,
      (equal_weights k w \/ best_weights nc (fst xt) (rows_at X_trans (snd xt)) w) /\
      combination (d_dim D) w (rows_at X_min (snd xt)) s) (combine raw U) S.
