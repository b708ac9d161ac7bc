(** Specification vocabulary for the samplers of RegionModel.v. *)

From Coq Require Import List ZArith QArith Qabs Qminmax Bool Arith Qround Sorting.Sorted Permutation.
From Verif Require Import Np SimplexModel SamplerModel Spec SpecDanger SpecNoise SpecComp SpecEdit SpecNear SpecGroup CompModel RegionModel.
Import ListNotations.
Open Scope nat_scope.

(** The ranking numbers every row once. *)
Definition sorting_ok (sorting : list row -> list Z -> list nat) : Prop :=
  forall X y, length X = length y -> Permutation (sorting X y) (seq 0 (length X)).

Definition last_but (k : nat) (l : list row) : row := nth (length l - k) l [].

(** OUPS: a new row combines a minority row with rows at most [c] and at least
    two ranks further down, [c] being the imbalance ratio rounded up.  Past the
    last rank the count goes on backwards from the end: of the ranked rows
    followed by the base rows, or of the ranked rows alone. *)
Definition oups_spec (sorting : list row -> list Z -> list nat) (q : oups_params)
    (D : dataset) (mn mj n : Z) (S : list row) : Prop :=
  let order := sorting (d_X D) (d_y D) in
  let N := length (d_X D) in
  let ranked := map (fun i => nth i (d_X D) []) order in
  let is_base := fun i => (i + 1 <? N) && Z.eqb (nth (nth i order 0) (d_y D) 0%Z) mn in
  let bases := map (fun i => nth i ranked []) (filter is_base (seq 0 N)) in
  let n_min := count_label (d_y D) mn in
  let n_maj := count_label (d_y D) mj in
  let partner := fun j => if j <? N then nth j ranked [] else
    last_but (j - N + 1) (match ss_within (ou_ss q) with WRandom => ranked ++ bases | _ => ranked end) in
  length S = Z.to_nat n /\
  exists c, n_maj <= c * n_min < n_maj + n_min /\
    Forall (fun x => exists i offsets, i + 1 < N /\ nth (nth i order 0) (d_y D) 0%Z = mn /\
      length offsets = Nat.min (ss_n_dim (ou_ss q)) c - 1 /\ StronglySorted lt offsets /\
      Forall (fun o => 2 <= o <= c) offsets /\
      convex_comb (d_dim D) (nth i ranked [] :: map (fun o => partner (i + o)) offsets) x) S.

(** What the method describes: partners are the rows of the next ranks. *)
Definition next_ranks (sorting : list row -> list Z -> list nat) (D : dataset) (mn : Z) (x : row) : Prop :=
  let ranked := map (fun i => nth i (d_X D) []) (sorting (d_X D) (d_y D)) in
  exists i j, i < j < length ranked /\ nth (nth i (sorting (d_X D) (d_y D)) 0) (d_y D) 0%Z = mn /\
    in_hull (d_dim D) [nth i ranked []; nth j ranked []] x.

(** Exactly [c] numbers satisfy [P]. *)
Definition is_count (P : nat -> Prop) (c : nat) : Prop :=
  exists l, NoDup l /\ (forall j, In j l <-> P j) /\ length l = c.

(** [x] lies in the box with opposite corners [a] and [b]. *)
Definition boxed (d : nat) (a b x : row) : Prop :=
  forall j, j < d -> (nth j a 0 <= nth j x 0 /\ nth j x 0 <= nth j b 0)%Q \/ (nth j b 0 <= nth j x 0 /\ nth j x 0 <= nth j a 0)%Q.

(** The positions, after the first, at which the list [t] of nearest rows has a
    row that is not of the majority class. *)
Definition minority_positions (y : list Z) (mj : Z) (t qs : list nat) : Prop :=
  StronglySorted lt qs /\ forall q, In q qs <-> 1 <= q < length t /\ nth (nth q t 0) y 0%Z <> mj.

(** Row [j] lies in one of the boxes between row [i] and its first [s] minority
    neighbours, and is no further down the list than that neighbour. *)
Definition in_region (d : nat) (X : list row) (i : nat) (t qs : list nat) (s j : nat) : Prop :=
  exists q, In q (firstn s qs) /\ In j (firstn (q + 1) t) /\
    boxed d (nth i X []) (nth (nth q t 0) X []) (nth j X []).

(** The share of minority rows in that region. *)
Definition minority_share (d : nat) (X : list row) (y : list Z) (mn mj : Z) (i : nat) (t qs : list nat) (s : nat) (r : Q) : Prop :=
  exists a b, is_count (fun j => in_region d X i t qs s j /\ nth j y 0%Z = mn) a /\
    is_count (fun j => in_region d X i t qs s j /\ nth j y 0%Z = mj) b /\ 0 < a /\
    (r == inject_Z (Z.of_nat a) / inject_Z (Z.of_nat (a + b)))%Q.

(** The size of the neighbourhood: 0 with fewer than two minority neighbours,
    otherwise the number of minority neighbours at which the share drops most. *)
Definition kappa_spec (d : nat) (X : list row) (y : list Z) (mn mj : Z) (i : nat) (t : list nat) (k : nat) : Prop :=
  exists qs, minority_positions y mj t qs /\
    (length qs < 2 -> k = 0) /\
    (2 <= length qs -> 2 <= k <= length qs /\
      exists share : nat -> Q,
        (forall s, 1 <= s <= length qs -> minority_share d X y mn mj i t qs s (share s)) /\
        forall s, 2 <= s <= length qs ->
          (share k - share (pred k) <= share s - share (pred s))%Q /\
          (s < k -> (share k - share (pred k) < share s - share (pred s))%Q)).

(** AND_SMOTE: nothing if every neighbourhood is empty; otherwise a new row
    combines a minority row with some of its kappa nearest minority rows. *)
Definition and_smote_spec (dist : row -> row -> Q) (p : and_params) (D : dataset) (mn mj n : Z) (S : list row) : Prop :=
  let X_min := rows_with mn (d_X D) (d_y D) in
  exists T rows kappa, nearest_table dist (d_X D) (d_X D) (Nat.min (length X_min) (an_K p)) T /\
    positions (fun i => i < length (d_y D) /\ nth i (d_y D) 0%Z = mn) rows /\
    Forall2 (fun i k => kappa_spec (d_dim D) (d_X D) (d_y D) mn mj i (nth i T []) k) rows kappa /\
    Forall (fun k => k < Nat.min (length X_min) (an_K p)) kappa /\
    (Forall (fun k => k = 0) kappa -> S = []) /\
    (~ Forall (fun k => k = 0) kappa -> length S = Z.to_nat n /\
     exists T', nearest_table dist X_min X_min (list_max kappa + 1) T' /\
      Forall (fun x => exists b ps, b < length X_min /\
        length ps = Nat.min (ss_n_dim (an_ss p)) (list_max kappa + 1) - 1 /\ StronglySorted lt ps /\
        Forall (fun q => 1 <= q <= nth b kappa 0) ps /\
        convex_comb (d_dim D) (nth b X_min [] :: map (fun q => nth (nth q (nth b T' []) 0) X_min []) ps) x) S).

(** The cost of growing the ball around a row to radius [r]: the radius itself
    and, for every majority row inside, the distance it has to be moved. *)
Definition ball_cost (ds : list Q) (r : Q) : Q := (r + qsum (map (fun d => Qmax 0 (r - d)) ds))%Q.

(** An integer nearest to [q], the even one if there are two. *)
Definition rounded (q : Q) (c : nat) : Prop :=
  (Qabs (inject_Z (Z.of_nat c) - q) <= 1 # 2)%Q /\ ((Qabs (inject_Z (Z.of_nat c) - q) == 1 # 2)%Q -> Nat.even c = true).

Definition shuffle_ok (shuffle : nat -> list Q -> list Q) : Prop := forall t l, Permutation (shuffle t l) l.

(** The sum of the absolute differences. *)
Definition taxi (d : nat) (x z : row) : Q := qsum (map (fun j => Qabs (nth j x 0 - nth j z 0)%Q) (seq 0 d)).

(** CCR: rows are placed around every minority row within a positive radius of
    its own, in every coordinate; how many is decided by the radii. *)
Definition ccr_spec (p : ccr_params) (D : dataset) (mn mj n : Z) (S : list row) : Prop :=
  let X_min := rows_with mn (d_X D) (d_y D) in
  let X_maj := rows_with mj (d_X D) (d_y D) in
  let N := inject_Z (Z.of_nat (length X_min)) in
  exists radii blocks, length radii = length X_min /\ length blocks = length X_min /\ S = concat blocks /\
    forall i, i < length X_min ->
      let r := nth i radii 0%Q in
      (0 < r)%Q /\
      ((forall z, In z X_maj -> (cc_energy p <= taxi (d_dim D) (nth i X_min []) z)%Q) -> (r == cc_energy p)%Q) /\
      rounded (inject_Z n * qsum radii / (N * N * r)) (length (nth i blocks [])) /\
      Forall (fun x => length x = d_dim D /\
        (forall j, j < d_dim D -> (Qabs (nth j x 0 - nth j (nth i X_min []) 0) <= r)%Q) /\
        (d_dim D <= 2 -> (taxi (d_dim D) x (nth i X_min []) <= r)%Q)) (nth i blocks []).

(** OPTICS answers with one core distance and one reachability per row; core
    distances are not negative, and some row is reached first, hence at no
    finite distance. *)
Definition optics_ok (optics : nat -> Q -> list row -> res (list (option Q) * list (option Q))) : Prop :=
  forall k e X,
    (exists core reach, optics k e X = Ok (core, reach) /\ length core = length X /\ length reach = length X /\
       (forall q, In (Some q) core -> (0 <= q)%Q) /\ (X <> [] -> In None reach)) \/
    optics k e X = Err ValueError.

(** Every row lies within any radius of itself. *)
Definition radius_counts_ok (radius_counts : list row -> Q -> list nat) : Prop :=
  forall X e, length (radius_counts X e) = length X /\ Forall (fun c => 1 <= c) (radius_counts X e).

(** [m] is the largest entry. *)
Definition largest (l : list Q) (m : Q) : Prop := In m l /\ forall q, In q l -> (q <= m)%Q.

(** SMOBD: nothing if OPTICS rejects the data or finds no core row; otherwise a
    new row lies, coordinate by coordinate, between a minority row and one of
    its neighbours.  Rows are weighted by core distance (inf counting as 1.1
    times the largest) and by the number of rows around them. *)
Definition smobd_spec (dist : row -> row -> Q)
    (optics : nat -> Q -> list row -> res (list (option Q) * list (option Q))) (radius_counts : list row -> Q -> list nat) (p : smobd_params) (D : dataset) (mn n : Z) (S : list row) : Prop :=
  let X_min := rows_with mn (d_X D) (d_y D) in
  let counts := map (fun c => inject_Z (Z.of_nat c)) (radius_counts X_min (sb_max_eps p)) in
  match optics (Nat.min (length X_min - 1) (sb_min_samples p)) (sb_max_eps p) X_min with
  | Err _ => S = []
  | Ok (core, _) =>
    ((forall q, ~ In (Some q) core) -> S = []) /\
    forall m, In (Some m) core -> (forall q, In (Some q) core -> (q <= m)%Q) ->
      length S = Z.to_nat n /\
      exists T, nearest_table dist X_min X_min (Nat.min (length X_min) (sb_min_samples p + 1)) T /\
      let cd := map (fun o => match o with Some q => q | None => (11 # 10) * m end)%Q core in
      forall m1 m2, largest cd m1 -> largest counts m2 ->
      let w := fun b => (sb_eta1 p * (nth b cd 0 / Qmax m1 (1 # 100000000)) + (1 - sb_eta1 p) * (nth b counts 0 / m2))%Q in
      Forall (fun x => exists b i, listed T b i /\ between unit_share (d_dim D) (nth b X_min []) (nth i X_min []) x /\
        ((forall a, a < length X_min -> (w a == 0)%Q) \/ (0 < w b)%Q)) S
  end.
