(** Specification vocabulary for the samplers of GraphModel.v. *)

From Coq Require Import List ZArith QArith Qabs Qminmax Bool Arith Qround Sorting.Sorted Permutation.
From Verif Require Import Np SimplexModel SamplerModel Spec SpecDanger SpecNoise SpecComp SpecEdit SpecNear SpecGroup ClusterOversModel CompModel LevelModel WrapModel DirModel SpecDir SearchModel SpecSearch GraphModel Float64 DangerModel DangerFacts SpecWrap.
Import ListNotations.
Open Scope nat_scope.

(** ** Weighted graphs *)

Definition edge (g : graph) (u v : nat) (w : Q) : Prop := In (v, w) (nth u g []).

(** Edges end in nodes and have no negative weight. *)
Definition graph_ok (g : graph) : Prop :=
  forall u v w, edge g u v w -> u < length g /\ v < length g /\ (0 <= w)%Q.

(** [walk g s v l L]: a walk from [s] to [v] of length [L], [l] listing its nodes
    backwards. *)
Inductive walk (g : graph) (s : nat) : nat -> list nat -> Q -> Prop :=
| walk_here : walk g s s [s] 0
| walk_step u v w l L : walk g s u l L -> edge g u v w -> walk g s v (v :: l) (L + w).

Definition reachable (g : graph) (s v : nat) : Prop := exists l L, walk g s v l L.

(** [d] is the length of a shortest walk from [s] to [v]. *)
Definition shortest (g : graph) (s v : nat) (d : Q) : Prop :=
  (exists l L, walk g s v l L /\ (L == d)%Q) /\ forall l L, walk g s v l L -> (d <= L)%Q.

(** The edge from [u] to [v] ends a shortest walk from [s]. *)
Definition tight_edge (g : graph) (s u v : nat) : Prop :=
  exists w du, edge g u v w /\ shortest g s u du /\ shortest g s v (du + w).

Definition bellman_ford_spec (g : graph) (s : nat) (distance : distances) (path : parents) : Prop :=
  length distance = length g /\ length path = length g /\
  forall v, v < length g ->
    match nth v distance None with
    | Some d => shortest g s v d
    | None => ~ reachable g s v
    end /\
    match nth v path None with
    | Some u => v <> s /\ tight_edge g s u v
    | None => v = s \/ ~ reachable g s v
    end /\
    exists c, follow (length g) path v = Ok c /\ hd_error c = Some v /\ NoDup c /\
      (reachable g s v -> last c v = s) /\ (~ reachable g s v -> c = [v]).

(** ** DBSMOTE *)

(** DBSCAN labels every row; the labels in use are [0 .. m-1]; if one row is
    enough for a dense region, no row is noise. *)
Definition dbscan_ok (dbscan : Q -> nat -> list row -> list (option nat)) : Prop :=
  forall eps ms X, length (dbscan eps ms X) = length X /\
    (forall i j, In (Some i) (dbscan eps ms X) -> j < i -> In (Some j) (dbscan eps ms X)) /\
    (ms = 1 -> ~ In None (dbscan eps ms X)).

(** The clustering of attempt [k]. *)
Definition attempt (dbscan : Q -> nat -> list row -> list (option nat)) (p : db_params) (X : list row) (k : nat) : list (option nat) :=
  match k with
  | 0 => dbscan (db_eps p) (db_min_samples p) X
  | _ => dbscan (db_eps p * (3 # 2) ^ Z.of_nat k)%Q (db_min_samples p - k) X
  end.
Definition all_noise (labels : list (option nat)) : Prop := forall l, In l labels -> l = None.

(** The rows of cluster [i]. *)
Definition cluster_rows (labels : list (option nat)) (i : nat) (X : list row) : list row :=
  map snd (filter (fun lx => is_label i (fst lx)) (combine labels X)).

(** [u] is joined to those of its nearest [ms] neighbours that are closer than [eps]. *)
Definition density_graph (dist : row -> row -> Q) (eps : Q) (ms : nat) (C : list row) (T : list (list nat)) (g : graph) : Prop :=
  length g = length C /\
  forall u v w, edge g u v w <-> u < length C /\
    (exists a, 1 <= a <= ms /\ a < length (nth u T []) /\ nth a (nth u T []) 0 = v) /\
    w = dist (nth u C []) (nth v C []) /\ (w < eps)%Q.

(** [s] is a row of [C] nearest to the mean of [C]. *)
Definition central (dist : row -> row -> Q) (d : nat) (C : list row) (s : nat) : Prop :=
  s < length C /\ exists m, mean_of d C m /\ forall j, j < length C -> (dist m (nth s C []) <= dist m (nth j C []))%Q.

(** A new row is a copy of a row of a cluster that is its centre or cannot be
    reached from it, or lies between the ends of the last edge of a shortest walk
    from the centre to a row. *)
Definition db_row_spec (dist : row -> row -> Q) (f : row -> row) (p : db_params) (d : nat) (labels : list (option nat)) (X_min : list row) (x : row) : Prop :=
  exists i T g s, let C := cluster_rows labels i X_min in let fC := map f C in
    nearest_table dist fC fC (length C) T /\ density_graph dist (db_eps p) (db_min_samples p) fC T g /\ central dist d fC s /\
    ((exists a, a < length C /\ (a = s \/ ~ reachable g s a) /\ same_row x (nth a C [])) \/
     (exists a b t, a < length C /\ b < length C /\ tight_edge g s b a /\ unit_share t /\ length x = d /\
        forall j, j < d -> (nth j x 0 == nth j (nth a C []) 0 + t * (nth j (nth b C []) 0 - nth j (nth a C []) 0))%Q)).

Definition dbsmote_spec (dist : row -> row -> Q) (f : row -> row) (p : db_params) (D : dataset) (mn n : Z) (labels : list (option nat)) (S : list row) : Prop :=
  length S = Z.to_nat n /\
  Forall (db_row_spec dist f p (d_dim D) labels (rows_with mn (d_X D) (d_y D))) S.

Definition dbsmote_result (dist : row -> row -> Q) (sd : list Q -> Q) dbscan (p : db_params) (D : dataset) (mn n : Z) (out : res (list row * list Z)) : Prop :=
  exists w f, (forall j, j < d_dim D -> std_scale sd (d_X D) j (w j)) /\ standardised (d_dim D) (d_X D) w f /\
  let X_min := map f (rows_with mn (d_X D) (d_y D)) in
  let tries := Nat.max 1 (db_iter_limit p) in
  ((unchanged D out /\ forall k, k < tries -> k < db_min_samples p /\ all_noise (attempt dbscan p X_min k)) \/
   (exists k, k < tries /\ k < db_min_samples p /\ ~ all_noise (attempt dbscan p X_min k) /\
      (forall k', k' < k -> all_noise (attempt dbscan p X_min k')) /\
      appends D mn (dbsmote_spec dist f p D mn n (attempt dbscan p X_min k)) out)).

(** ** NEATER *)

(** The neighbours of new row [i] other than the first of the table [T] are
    original rows labelled [z]. *)
Definition company_of (y : list Z) (z : Z) (T : list (list nat)) (i : nat) : Prop :=
  Forall (fun j => nth_error y j = Some z) (tl (nth i T [])).

(** The labels given to the new rows [S]. *)
Definition neater_labels (dist : row -> row -> Q) (p : neater_params) (D : dataset) (mn mj : Z) (S : list row) (L : list Z) : Prop :=
  length L = length S /\ Forall (fun l => l = 0%Z \/ l = 1%Z) L /\
  (ng_h p = 0 -> Forall (fun l => l = 0%Z) L) /\
  exists T, nearest_table dist (d_X D ++ S) S (ng_b p + 1) T /\
    ((ng_alpha p < 1)%Q -> 1 <= ng_h p -> 1 <= ng_b p -> forall i, i < length S ->
       (company_of (d_y D) mn T i -> nth_error L i = Some 1%Z) /\
       (company_of (d_y D) mj T i -> nth_error L i = Some 0%Z)).

(** The rows of SMOTE followed by those of ADASYN, and their new labels. *)
Definition neater_result (dist : row -> row -> Q) (p : neater_params) (D : dataset) (mn mj n : Z) (out : res (list row * list Z)) : Prop :=
  exists S1 S2,
    smote_spec dist (mk_smote (ng_proportion p) (ng_smote_n_neighbors p) (ng_ss p)) D mn n S1 /\
    adasyn_spec dist (mk_adasyn (ng_b p) (StFloat f_one) None tolerated (ng_ss p)) D mn mj (d_X D ++ S2) (d_y D ++ repeat mn (length S2)) /\
    let S := S1 ++ S2 in
    (length (d_X D) + length S < ng_b p + 1 -> out = Err ValueError) /\
    (ng_b p + 1 <= length (d_X D) + length S ->
       exists L, out = Ok (d_X D ++ S, d_y D ++ L) /\ neater_labels dist p D mn mj S L).

(** ** VIS_RST *)

(** How many of the rows listed in [t], apart from the first, are labelled [mj]. *)
Definition foreign (y : list Z) (mj : Z) (t : list nat) : nat := votes y (tl t) mj.

Definition safe_row (y : list Z) (mj : Z) (k : nat) (t : list nat) : Prop := 2 * foreign y mj t < k - 1.
Definition noise_row (y : list Z) (mj : Z) (k : nat) (t : list nat) : Prop := ~ safe_row y mj k t /\ foreign y mj t = k - 1.
Definition danger_row (y : list Z) (mj : Z) (k : nat) (t : list nat) : Prop := ~ safe_row y mj k t /\ foreign y mj t <> k - 1.

(** The majority rows with a neighbour of the other class among the [k] listed in
    [T] become minority rows. *)
Definition relabelled (y : list Z) (mn mj : Z) (T : list (list nat)) (y1 : list Z) : Prop :=
  length y1 = length y /\
  forall i, i < length y ->
    (nth i y 0%Z = mn -> nth i y1 0%Z = mn) /\
    (nth i y 0%Z = mj ->
       let t := nth (count_label (firstn i y) mj) T [] in
       (Forall (fun j => nth j y 0%Z = mj) t -> nth i y1 0%Z = mj) /\
       (~ Forall (fun j => nth j y 0%Z = mj) t -> nth i y1 0%Z = mn)).

(** A new row is a copy of a row of one kind or lies around a row of the other
    kind; [ps] are places in the row of [T] of that row. *)
Definition vis_row (d n_dim : nat) (X_min : list row) (copied other : nat -> Prop) (k : nat) (T : list (list nat)) (x : row) : Prop :=
  (exists b, b < length X_min /\ copied b /\ same_row x (nth b X_min [])) \/
  (exists b ps, b < length X_min /\ other b /\ length ps = Nat.min n_dim (k - 1) - 1 /\ StronglySorted lt ps /\ Forall (fun q => 2 <= q < k) ps /\
     convex_comb d (nth b X_min [] :: map (fun q => nth (nth q (nth b T []) 0) X_min []) ps) x).

Definition vis_result (dist : row -> row -> Q) (sd : list Q -> Q) (p : vis_params) (D : dataset) (mn mj n : Z) (out : res (list row * list Z)) : Prop :=
  let X := d_X D in let d := d_dim D in
  let k := Nat.min (length X) (vi_n_neighbors p + 1) in
  exists w f T y1 N, (forall j, j < d -> std_scale sd X j (w j)) /\ standardised d X w f /\
    nearest_table dist (map f X) (map f (rows_with mj X (d_y D))) k T /\ relabelled (d_y D) mn mj T y1 /\
    let X_min := rows_with mn X y1 in
    nearest_table dist (map f X) (map f X_min) k N /\
    let kind := fun (K : list Z -> Z -> nat -> list nat -> Prop) b => K y1 mj k (nth b N []) in
    ((count_label y1 mj <= count_label y1 mn \/ (forall b, b < length X_min -> kind noise_row b)) -> unchanged D out) /\
    (count_label y1 mn < count_label y1 mj -> ~ (forall b, b < length X_min -> kind noise_row b) ->
      exists X0 S Zs C M, out = Ok (X0 ++ S, y1 ++ repeat mn (length S)) /\ same_rows X0 X /\ length S <= Z.to_nat n /\
        Forall2 (fun x z => same_row (f x) z) S Zs /\ nearest_table dist (map f X) Zs k C /\ Forall (fun t => foreign y1 mj t = 0) C /\
        let k' := Nat.min (length X_min) (vi_n_neighbors p + 1) in
        nearest_table dist (map f X_min) (map f X_min) k' M /\
        ((forall b, b < length X_min -> ~ kind safe_row b) ->
             Forall (fun x => neighbour_sample d X_min X_min M k' (Nat.min (ss_n_dim (vi_ss p)) k' - 1) None None x) S) /\
        (~ (forall b, b < length X_min -> ~ kind safe_row b) ->
             (forall B, positions (fun b => b < length X_min /\ kind danger_row b) B -> 3 * length X_min < 10 * length B ->
                Forall (vis_row d (ss_n_dim (vi_ss p)) X_min (kind danger_row) (kind safe_row) k' M) S) /\
             (forall B, positions (fun b => b < length X_min /\ kind danger_row b) B -> 10 * length B <= 3 * length X_min ->
                Forall (vis_row d (ss_n_dim (vi_ss p)) X_min (kind safe_row) (kind danger_row) k' M) S))).

(** ** SOI_CJ *)

Definition minority_rows (y : list Z) (mn : Z) (c : list nat) : Prop := Forall (fun i => nth_error y i = Some mn) c.

(** The rows listed in [t] before the first one that is not of the minority; none
    if all are of the minority. *)
Definition run_of (y : list Z) (mn : Z) (t r : list nat) : Prop :=
  minority_rows y mn r /\
  ((exists i l, t = r ++ i :: l /\ nth_error y i <> Some mn) \/ (r = [] /\ minority_rows y mn t)).

(** The sets obtained from the runs by unions and differences of sets that meet. *)
Inductive from_runs (runs : list (list nat)) : list nat -> Prop :=
| fr_run r : In r runs -> from_runs runs r
| fr_union a b c : from_runs runs a -> from_runs runs b -> (exists x, In x a /\ In x b) ->
    (forall x, In x c <-> In x a \/ In x b) -> from_runs runs c
| fr_rest a b c : from_runs runs a -> from_runs runs b -> (exists x, In x a /\ In x b) ->
    (forall x, In x c <-> In x a /\ ~ In x b) -> from_runs runs c.

Definition disjoint (a b : list nat) : Prop := forall x, In x a -> ~ In x b.

Definition soi_clusters (dist : row -> row -> Q) (X : list row) (y : list Z) (mn : Z) (Cs : list (list nat)) : Prop :=
  let X_min := rows_with mn X y in
  exists T runs, nearest_table dist X X_min (length X_min) T /\ Forall2 (run_of y mn) T runs /\
    Forall (fun c => from_runs runs c /\ c <> [] /\ NoDup c /\ minority_rows y mn c) Cs /\
    ForallOrdPairs disjoint Cs.

(** Between two rows of the set [c], in every attribute with a share of its own. *)
Definition soi_between (X : list row) (d : nat) (c : list nat) (x : row) : Prop :=
  exists a b, In a c /\ In b c /\ a <> b /\ length x = d /\
    forall j, j < d -> exists u, unit_share u /\
      (nth j x 0 == nth j (nth a X []) 0 + u * (nth j (nth b X []) 0 - nth j (nth a X []) 0))%Q.

(** Around a row of [c], with normal noise. *)
Definition soi_noisy (dist : row -> row -> Q) (sd : list Q -> Q) (ss : ss_params) (rs : nat -> rng) (X X_min : list row) (d : nat) (c : list nat) (x : row) : Prop :=
  exists c' T z s m i, (forall q, In q c' <-> In q c) /\ NoDup c' /\
    let C := map (fun q => nth q X []) c' in
    nearest_table dist C C (length C) T /\
    neighbour_sample d C C T (length C) (Nat.min (ss_n_dim ss) (length C) - 1) None None z /\ length x = d /\ i < m /\
    forall j, j < d -> (nth j x 0 == nth j z 0 + nth j (nth i (r_normal (rs s) m d) []) 0 *
      Qmin (sd (map (fun x => nth j x 0%Q) X_min)) (sd (map (fun x => nth j x 0%Q) C)))%Q.

Definition soi_spec (dist : row -> row -> Q) (sd : list Q -> Q) (p : soi_params) (rs : nat -> rng) (D : dataset) (mn n : Z) (Cs : list (list nat)) (S : list row) : Prop :=
  length S = Z.to_nat n /\
  Forall (fun x => exists c, In c Cs /\ 2 < length c /\
    if so_interpolation p then soi_between (d_X D) (d_dim D) c x
    else soi_noisy dist sd (so_ss p) rs (d_X D) (rows_with mn (d_X D) (d_y D)) (d_dim D) c x) S.

(** [list(c)] lists the elements of the set [c]. *)
Definition listing_ok (listing : list nat -> list nat) : Prop := forall c, NoDup c -> Permutation (listing c) c.

(** ** SYMPROD *)

(** The rows of [X] all standardised attributes of which are below [bound] in size. *)
Definition not_outlying (sd : list Q -> Q) (d : nat) (bound : Q) (X K : list row) : Prop :=
  exists w f g, (forall j, j < d -> std_scale sd X j (w j)) /\ standardised d X w f /\
    (forall x, In x X -> (g x = true <-> forall j, j < d -> (Qabs (nth j (f x) 0) < bound)%Q)) /\ K = filter g X.

Definition distance_sum (dist : row -> row -> Q) (X : list row) (i : nat) : Q := qsum (map (dist (nth i X [])) X).

(** No rows, or a row at no distance from all of them. *)
Definition degenerate (dist : row -> row -> Q) (X : list row) : Prop :=
  X = [] \/ exists i, i < length X /\ (distance_sum dist X i == 0)%Q.

(** The reciprocals of the distance sums, brought to the unit interval. *)
Definition closeness_of (dist : row -> row -> Q) (X : list row) (cf : list Q) : Prop :=
  let f := fun i => (1 / distance_sum dist X i)%Q in
  length cf = length X /\
  exists lo hi, (exists i, i < length X /\ (lo == f i)%Q) /\ (exists i, i < length X /\ (hi == f i)%Q) /\
    forall i, i < length X -> (lo <= f i <= hi)%Q /\
      ((hi - lo < 1 # 10000000000)%Q -> (nth i cf 0 == 0)%Q) /\
      ((1 # 10000000000 <= hi - lo)%Q -> (nth i cf 0 == (f i - lo) / (hi - lo))%Q).

(** The mean of the closeness of the rows listed in [t], damped by their distance from [x]. *)
Definition closeness_mean (dist : row -> row -> Q) (X : list row) (cf : list Q) (x : row) (t : list nat) (tau : Q) : Prop :=
  (tau == qsum (map (fun i => nth i cf 0 / (dist x (nth i X []) + 1)) t) / inject_Z (Z.of_nat (length t)))%Q.

(** The rows selected are those that pass the first threshold, of at most eleven,
    that at least two rows pass. *)
Definition sym_selected (dist : row -> row -> Q) (p : sym_params) (Z_min Z_maj : list row) (cf tau_min tau_maj : list Q) (sel : list nat) : Prop :=
  let n := length Z_min in
  let k := Nat.min (sy_k_neighbors p) (n - 1) in
  let passes := fun i b => b < n /\ (nth b tau_maj 0 * (sy_cutoff p * (1 - inject_Z (Z.of_nat i) / 10)) <= nth b tau_min 0)%Q in
  exists T T' cf' i,
    nearest_table dist Z_min Z_min n T /\ nearest_table dist Z_maj Z_min k T' /\ closeness_of dist Z_min cf /\ closeness_of dist Z_maj cf' /\
    length tau_min = n /\ length tau_maj = n /\
    (forall b, b < n -> closeness_mean dist Z_min cf (nth b Z_min []) (firstn k (tl (nth b T []))) (nth b tau_min 0)%Q /\
                        closeness_mean dist Z_maj cf' (nth b Z_min []) (nth b T' []) (nth b tau_maj 0)%Q) /\
    i <= 10 /\ positions (passes i) sel /\ 2 <= length sel /\ forall i' l, i' < i -> positions (passes i') l -> length l <= 1.

(** A row of the draws: [m] different rows out of the [m + 3] selected rows nearest
    to the first selected row, [t], and a selected row that is not the worst. *)
Definition sym_drawn (m : nat) (phi : nat -> Q) (sel t c : list nat) : Prop :=
  exists s r, c = s ++ [r] /\ length s = m /\ NoDup s /\ incl s (map (fun a => nth a sel 0) t) /\
    In r sel /\ exists q, In q sel /\ (phi q < phi r)%Q.

Definition weighted (d : nat) (P : list row) (ws : list Q) (x : row) : Prop :=
  length x = d /\ forall j, j < d -> (nth j x 0 == qsum (map2 (fun w y => w * nth j y 0) ws P) / qsum ws)%Q.

Definition sym_weights (cf beta : list Q) (c : list nat) : list Q := map2 (fun b i => (b * nth i cf 0)%Q) beta c.

Definition symprod_result (dist : row -> row -> Q) (sd : list Q -> Q) (dirichlet : nat -> nat -> list Q) (p : sym_params) (D : dataset) (mn mj n : Z) (out : res (list row * list Z)) : Prop :=
  let d := d_dim D in
  let all := rows_with mn (d_X D) (d_y D) in
  let m := sy_m_neighbors p in
  exists K0 K K' w f, not_outlying sd d (sy_std_outliers p) all K0 /\ (K0 <> [] -> K = K0) /\ (K0 = [] -> K = all) /\
    not_outlying sd d (sy_std_outliers p) (rows_with mj (d_X D) (d_y D)) K' /\
    (forall j, j < d -> std_scale sd (K ++ K') j (w j)) /\ standardised d (K ++ K') w f /\
    let Z_min := map f K in let Z_maj := map f K' in
    let poor := degenerate dist Z_min \/ degenerate dist Z_maj \/ length K' < Nat.min (sy_k_neighbors p) (length K - 1) in
    (poor -> unchanged D out) /\
    (~ poor -> exists cf tau_min tau_maj sel, sym_selected dist p Z_min Z_maj cf tau_min tau_maj sel /\
       let phi := fun b => ((nth b tau_min 0 + 1) / (nth b tau_maj 0 + 1))%Q in
       let even := forall a b, In a sel -> In b sel -> (phi a == phi b)%Q in
       (even \/ m < 2 \/ length sel < m + 4 -> unchanged D out) /\
       (~ even -> 2 <= m -> m + 4 <= length sel ->
          exists t Cs, let Z_sel := map (fun b => nth b Z_min []) sel in
            nearest_table dist Z_sel [nth 0 Z_sel []] (m + 3) [t] /\ length Cs = Z.to_nat n /\ Forall (sym_drawn m phi sel t) Cs /\
            let zero := exists c, In c Cs /\ forall i, In i c -> (nth i cf 0 == 0)%Q in
            (zero -> out = Err NotANumber) /\
            (~ zero -> appends D mn (fun S => Forall2 (fun ic x =>
                let ws := sym_weights cf (dirichlet (m + 1) (fst ic)) (snd ic) in
                let P := map (fun b => nth b K []) (snd ic) in
                Forall (Qle 0) ws /\ (0 < qsum ws)%Q /\ weighted d P ws x) (combine (seq 0 (Z.to_nat n)) Cs) S) out))).

Definition dirichlet_ok (dirichlet : nat -> nat -> list Q) : Prop :=
  forall k i, length (dirichlet k i) = k /\ Forall (Qlt 0) (dirichlet k i).
