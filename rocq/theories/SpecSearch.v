(** Specification vocabulary for the samplers of SearchModel.v. *)

From Coq Require Import List ZArith QArith Qabs Qminmax Qpower Bool Arith Qround Sorting.Sorted Permutation.
From Verif Require Import Np PyVal BaseModel SimplexModel SamplerModel Spec SpecDanger SpecNoise SpecComp SpecNear SpecLevel SpecGroup CompModel LevelModel DirModel SpecDir SearchModel.
Import ListNotations.
Open Scope nat_scope.

(** [n] rows, each a sample of the rows [P] with their [k] nearest. *)
Definition smote_rows (dist : row -> row -> Q) (ss : ss_params) (d : nat) (P : list row) (k n : nat) (S : list row) : Prop :=
  length S = n /\
  exists T, nearest_table dist P P k T /\ Forall (neighbour_sample d P P T k (Nat.min (ss_n_dim ss) k - 1) None None) S.

(** ** E_SMOTE *)

(** The columns a mask keeps, and the data in these columns. *)
Definition kept_columns (mask : list bool) : list nat := filter (fun j => nth j mask false) (seq 0 (length mask)).
Definition narrowed (mask : list bool) (D : dataset) : dataset :=
  mk_data (map (fun x => map (fun j => nth j x 0%Q) (kept_columns mask)) (d_X D)) (length (kept_columns mask)) (d_y D).

(** Among the first [fuel] random columns asked for there is every column. *)
Definition covers (d : draws) (fuel dim : nat) : Prop :=
  forall t c, c < dim -> exists k, k < fuel /\ dr_int d t (3 + dim + k) dim = c.

(** [m'] is [m], with columns added if there are fewer than [want]. *)
Definition completed (want : nat) (m m' : list bool) : Prop :=
  length m' = length m /\ (forall j, nth j m false = true -> nth j m' false = true) /\
  (want <= length (kept_columns m) -> m' = m) /\
  (length (kept_columns m) < want -> length (kept_columns m') = want).

(** The mask tried at step [t]: every column comes from one of two kept masks,
    or every column of a kept mask is flipped or not; then it is completed. *)
Definition child_of (d : draws) (want dim t : nat) (kept : list (Q * list bool)) (m' : list bool) : Prop :=
  let member := fun s => snd (nth (dr_int d t s 5) kept (0%Q, [])) in
  exists m, length m = dim /\ completed want m m' /\
    forall j, j < dim -> nth j m false =
      if dr_int d t 0 2 =? 0
      then nth j (if dr_int d t (3 + j) 2 =? 0 then member 2 else member 1) false
      else xorb (dr_int d t (3 + j) 2 =? 0) (nth j (member 1) false).

(** [kept] are the five best of [all], best first. *)
Definition five_best (all kept : list (Q * list bool)) : Prop :=
  length kept = 5 /\ StronglySorted (fun a b => fst b <= fst a)%Q kept /\
  exists rest, Permutation all (kept ++ rest) /\ forall a b, In a kept -> In b rest -> (fst b <= fst a)%Q.

Definition starting (first dim : nat) (mask : list bool) : Prop :=
  length mask = dim /\ forall j, j < dim -> nth j mask false = (j =? first).

(** 50 times five masks are tried, and the five best of the old and the new
    ones are kept; [tried] are the masks tried, [kept] those kept after each round. *)
Definition searched (accuracy : nat -> dataset -> Q) (first want : nat) (d : draws) (D : dataset)
    (tried : nat -> list bool) (kept : nat -> list (Q * list bool)) : Prop :=
  (exists start, starting first (d_dim D) start /\ kept 0 = repeat (0%Q, start) 5) /\
  (forall g i, g < 50 -> i < 5 -> child_of d want (d_dim D) (g * 5 + i) (kept g) (tried (g * 5 + i))) /\
  (forall g, g < 50 -> five_best (kept g ++ map (fun i => let t := g * 5 + i in (accuracy t (narrowed (tried t) D), tried t)) (seq 0 5)) (kept (S g))).

(** The result is what SMOTE gives on the columns of the best mask. *)
Definition e_smote_spec (dist : row -> row -> Q) (accuracy : nat -> dataset -> Q) (first : nat) (p : e_params) (d : draws) (D : dataset) (mn n : Z)
    (r : res (list row * list Z)) : Prop :=
  exists tried kept, searched accuracy first (Nat.min (es_min_features p) (d_dim D)) d D tried kept /\
  let D' := narrowed (snd (nth 0 (kept 50) (0%Q, []))) D in
  appends D' mn (smote_rows dist (es_ss p) (d_dim D') (rows_with mn (d_X D') (d_y D'))
    (Nat.min (count_label (d_y D) mn) (es_n_neighbors p + 1)) (Z.to_nat n)) r.

(** ** GASMOTE *)

(** The power of a share is a share. *)
Definition power_ok (power : nat -> Q -> Q) : Prop := forall ge u, unit_share u -> unit_share (power ge u).

(** Every minority row gets fewer than maxn rows, each a combination of it with
    some of its neighbours. *)
Definition gasmote_spec (dist : row -> row -> Q) (p : ga_params) (D : dataset) (mn : Z) (S : list row) : Prop :=
  let X_min := rows_with mn (d_X D) (d_y D) in
  let k := Nat.min (ga_n_neighbors p + 1) (length X_min) in
  exists T blocks, nearest_table dist X_min X_min k T /\ S = concat blocks /\ length blocks = length X_min /\
    forall i, i < length X_min ->
      length (nth i blocks []) < ga_maxn p /\
      Forall (fun x => exists ps, length ps = Nat.min (ss_n_dim (ga_ss p)) k - 1 /\ StronglySorted lt ps /\
        Forall (fun q => 1 <= q < k) ps /\
        convex_comb (d_dim D) (nth i X_min [] :: map (fun q => nth (nth q (nth i T []) 0) X_min []) ps) x) (nth i blocks []).

(** ** SSO *)

Definition sensitivity_ok (mn : Z) (sensitivity : nat -> dataset -> res (list xnum)) : Prop :=
  forall t D, length (d_X D) = length (d_y D) ->
    exists s, sensitivity t D = Ok s /\ length s = count_label (d_y D) mn /\ Forall (fun x => 0 <= nan_to_num x)%Q s.

(** The rows come in rounds.  A row of round [t] lies around a minority row or a
    row of an earlier round, in every coordinate within the spread reduced by
    the weight of that row; the weights are proportional to the sensitivities. *)
Definition sso_spec (spread : nat -> dataset -> Q) (sensitivity : nat -> dataset -> res (list xnum)) (p : sso_params) (D : dataset) (mn n : Z) (S : list row) : Prop :=
  let per := Nat.max 1 (Z.to_nat n / so_n_iter p) in
  length S = so_n_iter p * per /\
  forall i, i < length S ->
    let t := i / per in
    let earlier := firstn (t * per) S in
    let D_t := mk_data (d_X D ++ earlier) (d_dim D) (d_y D ++ repeat mn (t * per)) in
    let P := rows_with mn (d_X D) (d_y D) ++ earlier in
    exists s w b, sensitivity t D_t = Ok s /\ shares_of (map nan_to_num s) w /\ b < length P /\ (0 < nth b w 0)%Q /\
      length (nth i S []) = d_dim D /\
      forall j, j < d_dim D -> (Qabs (nth j (nth i S []) 0 - nth j (nth b P []) 0) <= spread t D_t * (1 - nth b w 0))%Q.

(** ** TRIM_SMOTE *)

(** The minority rows of a part, the square of their number over the size of
    the part, and their share. *)
Definition n_of (z : Z) (l : leaf) : nat := length (filter (fun r => Z.eqb (snd r) z) l).
Definition density2 (mn : Z) (l : leaf) : Q := (qn (n_of mn l) * qn (n_of mn l) / qn (length l))%Q.
Definition purity (mn : Z) (l : leaf) : Q := (qn (n_of mn l) / qn (length l))%Q.

(** A box: bounds [(attribute, value, side)], the side being "at most" or "above". *)
Definition in_box (box : list (nat * Q * bool)) (r : row * Z) : bool :=
  forallb (fun b => Bool.eqb (snd b) (Qle_bool (nth (fst (fst b)) (fst r) 0%Q) (snd (fst b)))) box.

Definition below (j : nat) (v : Q) (l : leaf) : leaf := filter (in_box [(j, v, true)]) l.
Definition above (j : nat) (v : Q) (l : leaf) : leaf := filter (in_box [(j, v, false)]) l.

(** No cut into two parts improves one of them. *)
Definition uncuttable (mn : Z) (dim : nat) (l : leaf) : Prop :=
  forall j v, j < dim -> below j v l <> [] -> above j v l <> [] ->
    (density2 mn (below j v l) <= density2 mn l /\ density2 mn (above j v l) <= density2 mn l)%Q.

(** The seeds: disjoint boxes of at least two rows with minority rows among
    them, none of which can be improved by a cut.  A minority row in no seed is
    alone in its box. *)
Definition seeds_spec (mn : Z) (dim : nat) (data : leaf) (seeds : list leaf) : Prop :=
  (exists rest, Permutation data (concat seeds ++ rest) /\
     forall r, In r rest -> snd r = mn -> exists box, filter (in_box box) data = [r]) /\
  forall l, In l seeds -> (exists box, l = filter (in_box box) data) /\ 2 <= length l /\ 0 < n_of mn l /\ uncuttable mn dim l.

(** Rows are generated among the minority rows of the seeds purer than
    min_precision, or than the largest min_precision * 0.9^k that some seed
    exceeds; nothing if no seed exceeds a tenth of min_precision. *)
Definition trim_smote_spec (dist : row -> row -> Q) (p : trim_params) (D : dataset) (mn n : Z) (S : list row) : Prop :=
  exists seeds, seeds_spec mn (d_dim D) (combine (d_X D) (d_y D)) seeds /\
  let purer := fun q => filter (fun l => negb (Qle_bool (purity mn l) q)) seeds in
  let level := fun k => (tm_min_precision p * Qpower (9 # 10) (Z.of_nat k))%Q in
  (purer (tm_min_precision p / 10)%Q = [] -> S = []) /\
  (purer (tm_min_precision p / 10)%Q <> [] ->
   exists k, purer (level k) <> [] /\ (forall k', k' < k -> purer (level k') = []) /\
     let P := map fst (filter (fun r => Z.eqb (snd r) mn) (concat (purer (level k)))) in
     smote_rows dist (tm_ss p) (d_dim D) P (Nat.min (length P) (tm_n_neighbors p + 1)) (Z.to_nat n) S).

(** ** MWMOTE *)

Definition labels_ok (kmeans : nat -> list row -> list nat) : Prop :=
  forall k P, 1 <= k <= length P -> length (kmeans k P) = length P /\ Forall (fun c => c < k) (kmeans k P).

(** The minority rows with another minority row among their k1 nearest. *)
Definition has_company (y : list Z) (mn : Z) (T : list (list nat)) (i : nat) : Prop :=
  i < length y /\ nth i y 0%Z = mn /\ exists j, In j (tl (nth i T [])) /\ nth j y 0%Z = mn.

Definition mentioned (T : list (list nat)) (i : nat) : Prop := exists t, In t T /\ In i t.

(** Nothing if no minority row has company.  Otherwise a new row combines an
    informative minority row -- one of the k3 nearest of a majority row that is
    among the k2 + 1 nearest of a row with company -- with other rows of its cluster. *)
Definition mwmote_spec (dist : row -> row -> Q) (kmeans : nat -> list row -> list nat) (p : mw_params) (D : dataset) (mn mj n : Z) (S : list row) : Prop :=
  let X_min := rows_with mn (d_X D) (d_y D) in
  let X_maj := rows_with mj (d_X D) (d_y D) in
  let labels := kmeans (Nat.min (length X_min) (mw_M p)) X_min in
  exists T1 company, nearest_table dist (d_X D) (d_X D) (Nat.min (length (d_X D)) (mw_k1 p + 1)) T1 /\
    positions (has_company (d_y D) mn T1) company /\
    (company = [] -> S = []) /\
    (company <> [] -> length S = Z.to_nat n /\
     exists T2 border T3 informative,
      nearest_table dist X_maj (rows_at (d_X D) company) (Nat.min (length X_maj) (mw_k2 p + 1)) T2 /\ positions (mentioned T2) border /\
      nearest_table dist X_min (rows_at X_maj border) (Nat.min (mw_k3 p) (length X_min)) T3 /\ positions (mentioned T3) informative /\
      Forall (fun x => exists m others, In m informative /\ NoDup others /\
        Forall (fun o => o <> m /\ o < length X_min /\ nth o labels 0 = nth m labels 0) others /\
        length others = Nat.min (ss_n_dim (mw_ss p)) (count_occ Nat.eq_dec labels (nth m labels 0)) - 1 /\
        convex_comb (d_dim D) (nth m X_min [] :: rows_at X_min others) x) S).
