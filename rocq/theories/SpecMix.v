(** Specification vocabulary for the samplers of MixModel.v. *)

From Coq Require Import List ZArith QArith Qabs Qminmax Qpower Bool Arith Qround Sorting.Sorted Permutation.
From Verif Require Import Np SimplexModel SamplerModel Spec SpecDanger SpecNoise SpecComp SpecEdit SpecNear SpecGroup ClusterOversModel OversFacts CompModel LevelModel WrapModel DirModel SpecDir SpecRegion Float64 SpecWrap MixModel.
Import ListNotations.
Open Scope nat_scope.

(** numpy's promise about [choice(b, m, replace=False)]: m different things. *)
Definition subsets_ok (c : subsets) : Prop :=
  forall t b m, m <= b -> length (c t b m) = m /\ NoDup (c t b m) /\ Forall (fun i => i < b) (c t b m).

(** ** SMOTEWB *)

(** Twice the size of the other class over the squared number of rows. *)
Definition noise_limit (other n : nat) : Q :=
  (2 * inject_Z (Z.of_nat other) / inject_Z (Z.of_nat n) ^ 2)%Q.

(** The rows of class [lab] with a weight not above the limit. *)
Definition quiet_rows (limit : Q) (lab : Z) (w : list Q) (X : list row) (y : list Z) : list row :=
  map snd (filter (fun wx => Qle_bool (fst wx) limit) (combine (rows_with lab w y) (rows_with lab X y))).

(** [r] is what stands in [t] before the first number from [m] on. *)
Definition leading (m : nat) (t r : list nat) : Prop :=
  exists rest, t = r ++ rest /\ Forall (fun j => j < m) r /\ match rest with [] => True | j :: _ => m <= j end.

Definition wb_noisy (D : dataset) (mn mj : Z) (w : list Q) (b : nat) : Prop :=
  (noise_limit (count_label (d_y D) mj) (length (d_y D)) < nth b (rows_with mn w (d_y D)) 0)%Q.
Definition wb_quiet_min (D : dataset) (mn mj : Z) (w : list Q) : list row :=
  quiet_rows (noise_limit (count_label (d_y D) mj) (length (d_y D))) mn w (d_X D) (d_y D).
Definition wb_quiet (D : dataset) (mn mj : Z) (w : list Q) : list row :=
  wb_quiet_min D mn mj w ++ quiet_rows (noise_limit (count_label (d_y D) mn) (length (d_y D))) mj w (d_X D) (d_y D).

(** [nth b U]: the neighbours used for minority row [b]: its nearest quiet
    minority rows, up to the first quiet majority row, at most as many as the
    classes differ by factor; a quiet row does not count the nearest one (itself). *)
Definition wb_neighbours (dist : row -> row -> Q) (D : dataset) (mn mj : Z) (w : list Q) (T U : list (list nat)) : Prop :=
  let X_min := rows_with mn (d_X D) (d_y D) in
  let k_max := count_label (d_y D) mj / count_label (d_y D) mn in
  nearest_table dist (wb_quiet D mn mj w) X_min (Nat.min (length (wb_quiet D mn mj w)) (k_max + 1)) T /\
  length U = length X_min /\
  forall b, b < length X_min -> exists r, leading (length (wb_quiet_min D mn mj w)) (nth b T []) r /\
    (wb_noisy D mn mj w b -> nth b U [] = firstn k_max r) /\
    (~ wb_noisy D mn mj w b -> nth b U [] = firstn k_max (tl r)).

(** Noise without neighbours. *)
Definition wb_bad (D : dataset) (mn mj : Z) (w : list Q) (U : list (list nat)) (b : nat) : Prop :=
  wb_noisy D mn mj w b /\ nth b U [] = [].

(** The rows that are not bad share the [n] new rows evenly. *)
Definition wb_shares (n m : nat) (bad : nat -> Prop) (C : list nat) : Prop :=
  length C = m /\ list_sum C = n /\ (forall b, b < m -> bad b -> nth b C 0 = 0) /\
  forall b b', b < m -> b' < m -> ~ bad b -> ~ bad b' -> nth b C 0 <= nth b' C 0 + 1.

(** The new rows made from minority row [b]. *)
Definition wb_block (d : nat) (G : list row) (x : row) (used : list nat) (bad : Prop) (c : nat) (B : list row) : Prop :=
  (bad -> B = []) /\
  (~ bad -> used = [] -> (length G = 1 -> B = []) /\ (2 <= length G -> B = repeat x c)) /\
  (used <> [] -> length B = c /\ Forall (fun z => exists j, In j used /\ on_segment unit_share d x (nth j G []) z) B).

Definition wb_result (dist : row -> row -> Q) (proportion : strategy) (ss : ss_params) (D : dataset) (mn mj : Z) (w : list Q) (n : Z)
    (out : res (list row * list Z)) : Prop :=
  let X_min := rows_with mn (d_X D) (d_y D) in
  let G := wb_quiet D mn mj w in
  let fallback := appends D mn (smote_spec dist (mk_smote proportion 5 ss) D mn n) out in
  (G = [] -> fallback) /\
  (G <> [] -> exists T U, wb_neighbours dist D mn mj w T U /\
    let bad := wb_bad D mn mj w U in
    ((forall b, b < length X_min -> bad b) -> fallback) /\
    (~ (forall b, b < length X_min -> bad b) ->
      exists C B, wb_shares (Z.to_nat n) (length X_min) bad C /\ length B = length X_min /\
        (forall b, b < length X_min -> wb_block (d_dim D) G (nth b X_min []) (nth b U []) (bad b) (nth b C 0) (nth b B [])) /\
        (concat B = [] -> out = Err ValueError) /\
        (concat B <> [] -> out = Ok (d_X D ++ concat B, d_y D ++ repeat mn (length (concat B)))) /\
        (2 <= length G -> length (concat B) = Z.to_nat n))).

(** ** SMOTE_FRST_2T *)

(** Every column is mapped to the range from 0 to 1, a constant one to 0. *)
Definition min_max_scaled (d : nat) (X : list row) (f : row -> row) : Prop :=
  forall x, length x = d -> length (f x) = d /\
    forall j lo hi, j < d -> attr_range X j lo hi ->
      ((hi == lo)%Q -> (nth j (f x) 0 == nth j x 0 - lo)%Q) /\
      ((lo < hi)%Q -> (nth j (f x) 0 == (nth j x 0 - lo) / (hi - lo))%Q).

(** The proportion the inner SMOTE is given for a difference of [diff]. *)
Definition frst_step (D : dataset) (mn mj : Z) : strategy :=
  StFloat (frst_proportion (Z.of_nat (count_label (d_y D) mj) - Z.of_nat (count_label (d_y D) mn))).

(** The scaled city block distance, cut at 1, is below [gamma]. *)
Definition indiscernible (d : nat) (f : row -> row) (gamma : Q) (x z : row) : Prop := (Qmin 1 (taxi d (f x) (f z)) < gamma)%Q.

(** The majority rows are split into [A], which stay, and [R], which become minority
    rows; [S] are new. *)
Definition frst_spec (dist : row -> row -> Q) (p : frst_params) (D : dataset) (mn mj : Z) (A R S : list row) : Prop :=
  let d := d_dim D in
  let X_min := rows_with mn (d_X D) (d_y D) in
  Permutation (A ++ R) (rows_with mj (d_X D) (d_y D)) /\
  length X_min <= length A /\
  exists f, min_max_scaled d (d_X D) f /\
    (ss_gauss (fr_ss p) = GNone ->
       Forall (fun x => exists z, In z X_min /\ indiscernible d f (fr_gamma_S p * (11 # 10) ^ 100) z x) S /\
       (forall i, i < length R -> exists z, In z (X_min ++ S ++ firstn i R) /\ indiscernible d f (fr_gamma_M p) z (nth i R [])) /\
       let k := Nat.min (length X_min) (fr_n_neighbors p + 1) in
       Forall (fun x => exists T, nearest_table dist (map f X_min) (map f X_min) k T /\
         neighbour_sample d X_min X_min T k (Nat.min (ss_n_dim (fr_ss p)) k - 1) None None x) S).

Definition frst_result (dist : row -> row -> Q) (p : frst_params) (D : dataset) (mn mj : Z) (m : Z) (out : res (list row * list Z)) : Prop :=
  exists A' B' S R' A R,
    out = Ok (A' ++ B' ++ S ++ R', repeat mj (length A') ++ repeat mn (length (B' ++ S ++ R'))) /\
    same_rows A' A /\ same_rows B' (rows_with mn (d_X D) (d_y D)) /\ same_rows R' R /\
    frst_spec dist p D mn mj A R S /\
    ((1 < fr_gamma_S p)%Q ->
       (Z.of_nat (count_label (d_y D) mj) - Z.of_nat (count_label (d_y D) mn) <= 100 * m)%Z -> length A' <= length (B' ++ S ++ R')).

(** ** SOMO *)

(** The rows with a label passing [test] that are mapped to cell [c]. *)
Definition cell_members (f : row -> cell) (test : Z -> bool) (X : list row) (y : list Z) (c : cell) : list row :=
  map (fun i => nth i X []) (filter (fun i => test (nth i y 0%Z) && Z.eqb (fst (f (nth i X []))) (fst c) && Z.eqb (snd (f (nth i X []))) (snd c))
                                    (seq 0 (length X))).

(** Side by side in the grid. *)
Definition adjacent (a b : cell) : Prop :=
  (fst a = fst b /\ Z.abs (snd a - snd b) = 1 \/ snd a = snd b /\ Z.abs (fst a - fst b) = 1)%Z.

(** More rows of the minority than others in the cell. *)
Definition minority_cell (f : row -> cell) (mn : Z) (D : dataset) (c : cell) : Prop :=
  length (cell_members f (fun l => negb (Z.eqb l mn)) (d_X D) (d_y D) c) < length (cell_members f (fun l => Z.eqb l mn) (d_X D) (d_y D) c).

Definition somo_spec (f : row -> cell) (ss : ss_params) (D : dataset) (mn n : Z) (S : list row) : Prop :=
  let inside := cell_members f (fun l => Z.eqb l mn) (d_X D) (d_y D) in
  let kept := minority_cell f mn D in
  let pairs := exists a b, kept a /\ kept b /\ adjacent a b in
  exists S1 S2, S = S1 ++ S2 /\ length S = Z.to_nat n /\
    (pairs -> length S1 = Z.to_nat n / 2) /\ (~ pairs -> S2 = []) /\
    (ss_gauss ss = GNone ->
      Forall (fun x => exists c ps, kept c /\ NoDup ps /\ Forall (fun i => i < length (inside c)) ps /\
        length ps = Nat.min (ss_n_dim ss) (length (inside c)) /\ convex_comb (d_dim D) (map (fun i => nth i (inside c) []) ps) x) S1 /\
      Forall (fun x => exists a b u v, kept a /\ kept b /\ adjacent a b /\ In u (inside a) /\ In v (inside b) /\ convex_comb (d_dim D) [u; v] x) S2).

Definition somo_result (f : row -> cell) (ss : ss_params) (D : dataset) (mn n : Z) (out : res (list row * list Z)) : Prop :=
  ((forall c, ~ minority_cell f mn D c) -> unchanged D out) /\
  ((exists c, minority_cell f mn D c) -> appends D mn (somo_spec f ss D mn n) out).

(** ** V_SYNTH *)

(** A fit with [n] components has [n] ratios and maps rows of [d] numbers to rows of [n]
    numbers and back. *)
Definition pca_ok (d : nat) (pca : nat -> list row -> res pca_fit) : Prop :=
  forall n X f, pca n X = Ok f -> length (pca_ratio f) = n /\ (forall x, length (pca_to f x) = n) /\ (forall z, length (pca_from f z) = d).

(** The ridges lie between two of the points; the vertices are rows of the same length. *)
Definition voronoi_ok (voronoi : list row -> res voronoi_diagram) : Prop :=
  forall k P V, rect k P -> voronoi P = Ok V ->
    rect k (vo_vertices V) /\ vo_vertices V <> [] /\
    Forall (fun r => fst (fst r) < length P /\ snd (fst r) < length P /\ snd r <> [] /\
      Forall (fun i => (-1 <= i < Z.of_nat (length (vo_vertices V)))%Z) (snd r)) (vo_ridges V).

(** Components explaining a hundredth of the variance or less are dropped and the
    others fitted anew until none is or at most one is left. *)
Inductive reduced (pca : nat -> list row -> res pca_fit) (X : list row) : nat -> res (pca_fit * nat) -> Prop :=
| reduced_error n e : pca n X = Err e -> reduced pca X n (Err e)
| reduced_stop n f k : pca n X = Ok f -> k = length (filter (fun q => negb (Qle_bool q (1 # 100))) (pca_ratio f)) ->
    k = n \/ k <= 1 -> reduced pca X n (Ok (f, k))
| reduced_again n f k o : pca n X = Ok f -> k = length (filter (fun q => negb (Qle_bool q (1 # 100))) (pca_ratio f)) ->
    k <> n -> 1 < k -> reduced pca X k o -> reduced pca X n o.

(** The lower corner of the data, a tenth further out, once per column but at most
    100 times. *)
Definition corner_row (d : nat) (X : list row) (x : row) : Prop :=
  length x = d /\ forall j lo hi, j < d -> attr_range X j lo hi -> (nth j x 0 == lo - (1 # 10) * Qabs lo)%Q.
Definition boxed (d : nat) (X X_bb : list row) : Prop :=
  exists c, corner_row d X c /\ X_bb = X ++ repeat c (Nat.min 100 d).

(** The rows that have no later row closer than a thousandth, with their labels. *)
Definition separated (dist : row -> row -> Q) (P : list row) (y : list Z) (P' : list row) (y' : list Z) : Prop :=
  exists idx, StronglySorted lt idx /\
    (forall i, In i idx <-> i < length P /\ forall j, i < j -> j < length P -> (1 # 1000 <= dist (nth i P []) (nth j P []))%Q) /\
    P' = map (fun i => nth i P []) idx /\ y' = map (fun i => nth i y 0%Z) idx.

(** A ridge the labels [y] of whose ends differ. *)
Definition mixed_ridge (y : list Z) (r : (nat * nat) * list Z) : Prop :=
  fst (fst r) < length y /\ snd (fst r) < length y /\ nth (fst (fst r)) y 0%Z <> nth (snd (fst r)) y 0%Z.

(** The vertices of a ridge; the one at infinity is taken to be the last one. *)
Definition ridge_corners (V : voronoi_diagram) (r : (nat * nat) * list Z) : list row :=
  map (fun i => if (i =? -1)%Z then last (vo_vertices V) [] else nth (Z.to_nat i) (vo_vertices V) []) (snd r).

Definition v_spec (mn n : Z) (f : pca_fit) (P : list row) (yP : list Z) (V : voronoi_diagram) (y : list Z) (S : list row) : Prop :=
  length S = Z.to_nat n /\
  Forall (fun x => exists z q r h, x = pca_from f z /\ In r (vo_ridges V) /\ mixed_ridge y r /\
    convex_comb (length (pca_ratio f)) (ridge_corners V r) q /\
    (nth (fst (fst r)) yP 0%Z = mn -> h = fst (fst r)) /\ (nth (fst (fst r)) yP 0%Z <> mn -> h = snd (fst r)) /\
    on_segment unit_share (length (pca_ratio f)) q (nth h P []) z) S.

Definition v_result (dist : row -> row -> Q) (pca : nat -> list row -> res pca_fit) (voronoi : list row -> res voronoi_diagram)
    (p : v_params) (D : dataset) (mn n : Z) (out : res (list row * list Z)) : Prop :=
  exists X_bb o, boxed (d_dim D) (d_X D) X_bb /\ reduced pca X_bb (Nat.min (d_dim D) (v_n_components p)) o /\
    match o with
    | Err e => out = Err e
    | Ok (f, k) =>
      (k = 1 -> unchanged D out) /\
      (k <> 1 -> exists P yP, separated dist (map (pca_to f) X_bb) (d_y D ++ repeat (-1)%Z (Nat.min 100 (d_dim D))) P yP /\
        match voronoi P with
        | Err e => out = Err e
        | Ok V => (~ (exists r, In r (vo_ridges V) /\ mixed_ridge (d_y D) r) -> unchanged D out) /\
                  ((exists r, In r (vo_ridges V) /\ mixed_ridge (d_y D) r) -> appends D mn (v_spec mn n f P yP V (d_y D)) out)
        end)
    end.

(** ** DSMOTE *)

(** A row of [d] numbers; if all numbers are positive, each is between the smallest and the
    largest in its column. *)
Definition gmean_ok (d : nat) (gmean : list row -> row) : Prop :=
  forall P, rect d P -> P <> [] -> length (gmean P) = d /\
    (Forall (Forall (Qlt 0)) P -> forall j, j < d ->
       (exists x, In x P /\ (nth j x 0 <= nth j (gmean P) 0)%Q) /\ (exists x, In x P /\ (nth j (gmean P) 0 <= nth j x 0)%Q)).

(** Every column is mapped to the range from one millionth to 1 minus one millionth. *)
Definition inner_scaled (d : nat) (X : list row) (f : row -> row) : Prop :=
  forall x, length x = d -> length (f x) = d /\
    forall j lo hi, j < d -> attr_range X j lo hi ->
      ((hi == lo)%Q -> (nth j (f x) 0 == (nth j x 0 - lo) * (1 - (2 # 1000000)) + (1 # 1000000))%Q) /\
      ((lo < hi)%Q -> (nth j (f x) 0 == (nth j x 0 - lo) / (hi - lo) * (1 - (2 # 1000000)) + (1 # 1000000))%Q).

(** Mean distance to the rows of [P], leaving out [drop] zero distances. *)
Definition mean_dist (dist : row -> row -> Q) (drop : nat) (P : list row) (x : row) : Q :=
  (qsum (map (dist x) P) / inject_Z (Z.of_nat (length P - drop)))%Q.

(** [M] are the [r] most abnormal rows: far from the minority, close to the majority. *)
Definition most_abnormal (dist : row -> row -> Q) (Z_min Z_maj : list row) (r : nat) (M : list nat) : Prop :=
  let abn := fun i => (mean_dist dist 1 Z_min (nth i Z_min []) / mean_dist dist 0 Z_maj (nth i Z_min []))%Q in
  length M = Nat.min r (length Z_min) /\ NoDup M /\ Forall (fun i => i < length Z_min) M /\
  forall i j, In i M -> j < length Z_min -> ~ In j M -> (abn j <= abn i)%Q.

(** New row number [i], scaled, is the geometric mean of three different rows among those
    there were, and its score is positive. *)
Definition ds_new (gmean : list row -> row) (score : list row -> nat -> list row -> row -> option Q) (Z_maj W : list row) (m i : nat) : Prop :=
  exists a b c q, a < m + i /\ b < m + i /\ c < m + i /\ a <> b /\ b <> c /\ a <> c /\
    nth (m + i) W [] = gmean [nth a W []; nth b W []; nth c W []] /\
    score Z_maj i (firstn (m + i) W) (nth (m + i) W []) = Some q /\ (0 < q)%Q.

Definition ds_spec (dist : row -> row -> Q) (gmean : list row -> row) (score : list row -> nat -> list row -> row -> option Q)
    (r : nat) (D : dataset) (mn mj n : Z) (f : row -> row) (M K : list nat) (S : list row) : Prop :=
  let X_min := rows_with mn (d_X D) (d_y D) in
  let X_maj := rows_with mj (d_X D) (d_y D) in
  most_abnormal dist (map f X_min) (map f X_maj) r M /\
  StronglySorted lt K /\ (forall i, In i K <-> i < length X_min /\ ~ In i M) /\
  length S = Z.to_nat n /\ rect (d_dim D) S /\
  exists Zs, Forall2 (fun x z => same_row (f x) z) S Zs /\
    forall i, i < Z.to_nat n ->
      ds_new gmean score (map f X_maj ++ map (fun i => f (nth i X_min [])) M) (map (fun i => f (nth i X_min [])) K ++ Zs) (length K) i.

Definition ds_output (D : dataset) (mn mj : Z) (M K : list nat) (S : list row) (out : res (list row * list Z)) : Prop :=
  let X_min := rows_with mn (d_X D) (d_y D) in
  exists A B, out = Ok (A ++ B ++ S, repeat mj (length A) ++ repeat mn (length (B ++ S))) /\
    same_rows A (rows_with mj (d_X D) (d_y D) ++ map (fun i => nth i X_min []) M) /\
    same_rows B (map (fun i => nth i X_min []) K).

Definition ds_result (dist : row -> row -> Q) (gmean : list row -> row) (score : list row -> nat -> list row -> row -> option Q)
    (p : ds_params) (r : nat) (D : dataset) (mn mj n : Z) (out : res (list row * list Z)) : Prop :=
  let m := count_label (d_y D) mn in
  (m < r + 3 -> out = Err ValueError) /\
  (r + 3 <= m -> out = Err ValueError \/
     exists f M K S, inner_scaled (d_dim D) (d_X D) f /\ ds_spec dist gmean score r D mn mj n f M K S /\ ds_output D mn mj M K S out) /\
  (r + 3 <= m -> 1 <= ds_n_step p -> (forall Zm i W z, exists q, score Zm i W z = Some q /\ (0 < q)%Q) -> out <> Err ValueError).
