(** Specification vocabulary for C77 to C81. *)

From Coq Require Import List ZArith QArith Bool Arith Sorting.Sorted Permutation.
From Verif Require Import Np SimplexModel SamplerModel Spec SpecNoise CompModel SpecComp SpecNear LevelModel.
Import ListNotations.
Open Scope nat_scope.

Definition qn (n : nat) : Q := inject_Z (Z.of_nat n).

(** ** LN_SMOTE *)

(** The neighbours of row [i] without the first and the last one listed. *)
Definition between_ends (T : list (list nat)) (i : nat) : list nat := removelast (tl (nth i T [])).

(** Number of minority neighbours of row [j]; seen from a minority row [i] among
    the neighbours of a majority row, [i] is replaced by the next neighbour. *)
Definition level_seen (y : list Z) (mn mj : Z) (T : list (list nat)) (i j l : nat) : Prop :=
  let c := votes y (between_ends T j) mn in
  (nth j y 0%Z = mj /\ In i (between_ends T j) ->
     (nth (last (nth j T []) 0) y 0%Z = mn -> l = c) /\
     (nth (last (nth j T []) 0) y 0%Z <> mn -> l + 1 = c)) /\
  (~ (nth j y 0%Z = mj /\ In i (between_ends T j)) -> l = c).

(** A minority row [i] and a neighbour [j], both with minority neighbours. *)
Definition ln_pair (y : list Z) (mn mj : Z) (T : list (list nat)) (i j a b : nat) : Prop :=
  i < length y /\ nth i y 0%Z = mn /\ In j (between_ends T i) /\
  a = votes y (between_ends T i) mn /\ level_seen y mn mj T i j b /\ 0 < a /\ 0 < b.

(** The share of the way from row [i] to row [j]. *)
Definition ln_share (a b : nat) (minority : Prop) (k : nat) (t : Q) : Prop :=
  exists u s, unit_share u /\
    (a = b -> s == u)%Q /\ (b < a -> (s == u * (qn b / qn a))%Q) /\ (a < b -> (s == 1 - u * (qn a / qn b))%Q) /\
    (minority -> (t == s)%Q) /\ (~ minority -> (t == s * (qn b / qn k))%Q).

Definition ln_smote_spec (dist : row -> row -> Q) (p : comp_params) (D : dataset) (mn mj n : Z) (S : list row) : Prop :=
  let k := Nat.min (length (d_X D) - 2) (cp_n_neighbors p) in
  exists T, nearest_table dist (d_X D) (d_X D) (k + 2) T /\
    ((forall i j a b, ~ ln_pair (d_y D) mn mj T i j a b) -> S = []) /\
    (forall i j a b, ln_pair (d_y D) mn mj T i j a b -> length S = Z.to_nat n) /\
    Forall (fun x => exists i j a b, ln_pair (d_y D) mn mj T i j a b /\
      between (ln_share a b (nth j (d_y D) 0%Z = mn) k) (d_dim D) (nth i (d_X D) []) (nth j (d_X D) []) x) S.

(** ** Lee *)

(** [t] lists the [k] nearest rows of [Xf] to [x]. *)
Definition nearest_rows (dist : row -> row -> Q) (Xf : list row) (x : row) (k : nat) (t : list nat) : Prop :=
  nearest_table dist Xf [x] k [t].

(** The level after [w] steps. *)
Definition lee_level (p : lee_params) (w : nat) : Q := (le_rejection_level p + qn w * (1 # 10))%Q.

(** [S] are [n] rows with the numbers of steps by which the level had been raised
    when they were accepted. *)
Definition lee_spec (dist : row -> row -> Q) (p : lee_params) (steps : nat) (D : dataset) (mn mj n : Z) (S : list row) : Prop :=
  let X_min := rows_with mn (d_X D) (d_y D) in
  let c := Nat.min (length X_min) (le_n_neighbors p + 1) in
  length S = Z.to_nat n /\
  exists T ws, nearest_table dist X_min X_min c T /\ StronglySorted le ws /\
    Forall2 (fun x w => w <= steps /\
      (ss_gauss (le_ss p) = GNone ->
       neighbour_sample (d_dim D) X_min X_min T c (Nat.min (ss_n_dim (le_ss p)) c - 1) None None x) /\
      exists t, nearest_rows dist (d_X D) x (Nat.min (length X_min) (le_n_neighbors p)) t /\
        (qn (votes (d_y D) t mj) / qn (le_n_neighbors p) < lee_level p w)%Q) S ws.

(** ** ProWSyn *)

(** [Ps] are the positions [P] in clusters with levels, [idx] levels being done:
    the rows among the [k] nearest to some majority row come first. *)
Inductive graded (dist : row -> row -> Q) (X X_maj : list row) (k L : nat) : nat -> list nat -> list (list nat * nat) -> Prop :=
| graded_none idx : idx <= L -> graded dist X X_maj k L idx [] []
| graded_left P : P <> [] -> graded dist X X_maj k L L P [(P, L)]
| graded_step idx P T c P' Ps : idx < L -> P <> [] ->
    nearest_table dist (rows_at X P) X_maj (Nat.min (length P) k) T ->
    StronglySorted lt c -> (forall i, In i c <-> exists t q, In t T /\ In q t /\ nth_error P q = Some i) ->
    StronglySorted lt P' -> (forall i, In i P' <-> In i P /\ ~ In i c) ->
    graded dist X X_maj k L (idx + 1) P' Ps ->
    graded dist X X_maj k L idx P ((c, idx + 1) :: Ps).

(** Probabilities proportional to [e (-theta * (level - 1))]. *)
Definition level_weights (e : Q -> Q) (theta : Q) (levels : list nat) (w : list Q) : Prop :=
  let raw := fun l => e (- theta * (qn l - 1))%Q in
  length w = length levels /\
  forall i, i < length levels -> (nth i w 0 == raw (nth i levels 0%nat) / qsum (map raw levels))%Q.

Definition prowsyn_spec (dist : row -> row -> Q) (e : Q -> Q) (draw : list Q -> nat -> list nat)
    (p : prowsyn_params) (D : dataset) (mn mj n : Z) (S : list row) : Prop :=
  exists P Ps w cls,
    StronglySorted lt P /\ (forall i, In i P <-> i < length (d_y D) /\ nth i (d_y D) 0%Z = mn) /\
    graded dist (d_X D) (rows_with mj (d_X D) (d_y D)) (pw_n_neighbors p) (pw_L p) 0 P Ps /\
    level_weights e (pw_theta p) (map snd Ps) w /\
    Permutation cls (draw w (Z.to_nat n)) /\ length cls = Z.to_nat n /\ StronglySorted le cls /\
    Forall2 (fun c x => c < length Ps /\
      (ss_gauss (pw_ss p) = GNone -> in_hull (d_dim D) (rows_at (d_X D) (fst (nth c Ps ([], 0)))) x)) cls S.

(** ** Gazzah *)

(** What is used of principal components: as many scores per row as asked for,
    centred; asking for more components than rows is an error. *)
Definition pca_ok (pca : nat -> list row -> res (list row)) : Prop :=
  forall c X, (length X < c -> pca c X = Err ValueError) /\
    (c <= length X -> exists T, pca c X = Ok T /\ length T = length X /\ Forall (fun x => length x = c) T /\
       forall j, j < c -> (qsum (map (fun x => nth j x 0%Q) T) == 0)%Q).

(** The rows of [X] whose scores [T] are at most as long as the root mean square. *)
Definition inner_rows (X T K : list row) : Prop :=
  let len2 := fun x : row => qsum (map (fun t => t * t)%Q x) in
  exists ks, StronglySorted lt ks /\
    (forall i, In i ks <-> i < length X /\
       (len2 (nth i T []) <= qsum (map len2 T) / qn (length T))%Q) /\
    K = rows_at X ks.

Definition gazzah_spec (pca : nat -> list row -> res (list row)) (c : nat) (D : dataset) (mn mj n : Z)
    (out : res (list row * list Z)) : Prop :=
  let X_maj := rows_with mj (d_X D) (d_y D) in
  exists T K S, pca c X_maj = Ok T /\ inner_rows X_maj T K /\ poly_spec Star D mn n S /\
    out = Ok (K ++ S, repeat mj (length K) ++ repeat mn (length S)).

(** ** MSMOTE *)

Definition msmote_spec (dist : row -> row -> Q) (p : comp_params) (D : dataset) (mn n : Z) (S : list row) : Prop :=
  let X_min := rows_with mn (d_X D) (d_y D) in
  let k := Nat.min (length (d_X D)) (cp_n_neighbors p + 1) in
  exists T, nearest_table dist (d_X D) X_min k T /\
    let m := fun b => votes (d_y D) (tl (nth b T [])) mn in
    ((forall b, b < length X_min -> m b = 0) -> S = []) /\
    (forall b, b < length X_min -> 0 < m b -> length S = Z.to_nat n) /\
    Forall (fun x => exists b i, b < length X_min /\ 0 < m b /\ In i (tl (nth b T [])) /\
      (m b < k - 1 -> i = nth 1 (nth b T []) 0) /\
      between unit_share (d_dim D) (nth b X_min []) (nth i (d_X D) []) x) S.
