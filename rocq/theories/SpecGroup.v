(** Specification vocabulary for C82 to C86. *)

From Coq Require Import List ZArith QArith Bool Arith Sorting.Sorted Permutation.
From Verif Require Import Np SimplexModel SamplerModel Spec SpecNoise CompModel SpecComp SpecNear SpecLevel GroupModel.
Import ListNotations.
Open Scope nat_scope.

(** [l] lists the numbers with property [P] in increasing order. *)
Definition positions (P : nat -> Prop) (l : list nat) : Prop :=
  StronglySorted lt l /\ forall i, In i l <-> P i.

(** Row number [i] of cluster [c]. *)
Definition in_cluster (labels : list nat) (c i : nat) : Prop := nth_error labels i = Some c.

(** ** cluster_SMOTE *)

(** [x] is a sample of the rows [V] with the [k] nearest of them. *)
Definition sample_of (dist : row -> row -> Q) (ss : ss_params) (d : nat) (V : list row) (k : nat) (T : list (list nat)) (x : row) : Prop :=
  nearest_table dist V V k T /\
  (ss_gauss ss = GNone -> neighbour_sample d V V T k (Nat.min (ss_n_dim ss) k - 1) None None x).

Definition cluster_smote_spec (dist : row -> row -> Q) (draw : list Q -> nat -> list nat) (labels : list nat)
    (p : group_params) (D : dataset) (mn n : Z) (S : list row) : Prop :=
  let X_min := rows_with mn (d_X D) (d_y D) in
  (NoDup labels -> S = []) /\
  (~ NoDup labels -> exists names groups Ts cls,
    positions (fun c => In c labels) names /\
    Forall2 (fun c g => positions (in_cluster labels c) g) names groups /\
    Permutation cls (draw (repeat (1 / qn (length names))%Q (length names)) (Z.to_nat n)) /\
    length cls = Z.to_nat n /\ StronglySorted le cls /\
    Forall2 (fun q x => q < length groups /\
      let V := rows_at X_min (nth q groups []) in
      sample_of dist (gp_ss p) (d_dim D) V (Nat.min (gp_n_neighbors p) (length V)) (nth q Ts []) x) cls S).

(** ** kmeans_SMOTE *)

(** Few majority rows and at least two minority rows. *)
Definition km_good (p : kmeans_params) (y : list Z) (mn mj : Z) (labels : list nat) (c : nat) : Prop :=
  exists g, positions (in_cluster labels c) g /\
    ((qn (votes y g mj) + 1) / (qn (votes y g mn) + 1) < km_irt p)%Q /\ 1 < votes y g mn.

(** Mean distance of two of the rows. *)
Definition mean_distance (dist : row -> row -> Q) (V : list row) : Q :=
  let m := length V in
  (qsum (map (fun i => qsum (map (fun j => dist (nth i V []) (nth j V []))
                                 (filter (fun j => negb (j =? i)) (seq 0 m)))) (seq 0 m)) / (qn m * (qn m - 1)))%Q.

(** [w] are probabilities proportional to [s], equal ones when [s] has sum zero. *)
Definition shares_of (s w : list Q) : Prop :=
  length w = length s /\
  forall i, i < length s ->
    ((qsum s == 0)%Q -> (nth i w 0 == 1 / qn (length s))%Q) /\
    (~ (qsum s == 0)%Q -> (nth i w 0 == nth i s 0 / qsum s)%Q).

Definition kmeans_smote_spec (dist : row -> row -> Q) (draw : list Q -> nat -> list nat) (labels : list nat)
    (p : kmeans_params) (D : dataset) (mn mj n : Z) (S : list row) : Prop :=
  let nc := Nat.min (km_n_clusters p) (length (d_X D)) in
  exists good groups,
    positions (fun c => c < nc /\ km_good p (d_y D) mn mj labels c) good /\
    Forall2 (fun c g => positions (fun i => in_cluster labels c i /\ nth i (d_y D) 0%Z = mn) g) good groups /\
    (good = [] -> S = []) /\
    (good <> [] -> exists s w Ts cls,
      Forall2 (fun g q => let V := rows_at (d_X D) g in
        (q == Qpower (mean_distance dist V) (Z.of_nat (d_dim D)) / qn (length V))%Q) groups s /\
      shares_of s w /\
      Permutation cls (draw w (Z.to_nat n)) /\ length cls = Z.to_nat n /\ StronglySorted le cls /\
      Forall2 (fun q x => q < length groups /\
        let V := rows_at (d_X D) (nth q groups []) in
        sample_of dist (km_ss p) (d_dim D) V (Nat.min (length V) (km_n_neighbors p + 1)) (nth q Ts []) x) cls S).

(** ** CE_SMOTE *)

(** [c] is how often the label most frequent at position [i] occurs there. *)
Definition agreement (labelings : list (list nat)) (i c : nat) : Prop :=
  let count := fun v => length (filter (fun l => nth i l 0 =? v) labelings) in
  (exists v, count v = c) /\ forall v, count v <= c.

Definition ce_spec (dist : row -> row -> Q) (labelings : list (list nat)) (p : ce_params) (D : dataset) (mn n : Z) (S : list row) : Prop :=
  exists b, positions (fun i => i < length (d_y D) /\ nth i (d_y D) 0%Z = mn /\
      exists c, agreement labelings i c /\ (qn c / qn (ce_h p) <= ce_alpha p)%Q) b /\
    (length b < ss_n_dim (ce_ss p) -> S = []) /\
    (ss_n_dim (ce_ss p) <= length b -> length S = Z.to_nat n /\
      let V := rows_at (d_X D) b in
      exists T, Forall (sample_of dist (ce_ss p) (d_dim D) V (Nat.min (length V) (ce_k p)) T) S).

(** ** NRSBoundary_SMOTE *)

(** Contract of a search within a radius. *)
Definition within_ok (dist : row -> row -> Q) (radius : list row -> row -> Q -> list nat) : Prop :=
  forall X x r, NoDup (radius X x r) /\
    forall i, In i (radius X x r) <-> i < length X /\ (dist x (nth i X []) <= r)%Q.

(** Smallest distance to another row plus the share [w] of what the largest
    distance is more. *)
Definition nrs_radius (dist : row -> row -> Q) (w : Q) (X : list row) (i : nat) (d : Q) : Prop :=
  exists lo hi, let f := fun j => dist (nth i X []) (nth j X []) in
    (exists j, j < length X /\ j <> i /\ (f j == lo)%Q) /\ (forall j, j < length X -> j <> i -> (lo <= f j)%Q) /\
    (exists j, j < length X /\ (f j == hi)%Q) /\ (forall j, j < length X -> (f j <= hi)%Q) /\
    (d == lo + w * (hi - lo))%Q.

Inductive kept_rows (P : row -> Prop) : list row -> list row -> Prop :=
| kept_nil : kept_rows P [] []
| kept_yes x l l' : P x -> kept_rows P l l' -> kept_rows P (x :: l) (x :: l')
| kept_no x l l' : ~ P x -> kept_rows P l l' -> kept_rows P (x :: l) l'.

(** From turn [t] on and with [m] rows accepted so far, [S] is accepted: each turn
    offers ten rows per row missing, until none is missing or the last turn. *)
Inductive turns (cand : row -> Prop) (far : nat -> row -> Prop) (n last : nat) : nat -> nat -> list row -> Prop :=
| turns_done t m : n <= m \/ last <= t -> turns cand far n last t m []
| turns_more t m batch A S : m < n -> t < last -> length batch = (n - m) * 10 -> Forall cand batch ->
    kept_rows (far t) batch A -> turns cand far n last (t + 1) (m + length A) S ->
    turns cand far n last t m (A ++ S).

Definition nrs_out (D : dataset) (mn : Z) (n : nat) (S : list row) (out : res (list row * list Z)) : Prop :=
  (S = [] -> out = Err ValueError) /\
  (S <> [] -> out = Ok (d_X D ++ firstn n S, d_y D ++ repeat mn (length (firstn n S)))).

Definition nrs_spec (dist : row -> row -> Q) (p : nrs_params) (D : dataset) (mn mj n : Z) (out : res (list row * list Z)) : Prop :=
  let X := d_X D in let y := d_y D in
  let X_min := rows_with mn X y in
  exists delta bound pos,
    length delta = length X /\ (forall i, i < length X -> nrs_radius dist (nr_w p) X i (nth i delta 0%Q)) /\
    let near := fun i j => j < length X /\ (dist (nth i X []) (nth j X []) <= nth i delta 0)%Q in
    positions (fun i => i < length X /\ nth i y 0%Z = mn /\ exists j, near i j /\ nth j y 0%Z = mj) bound /\
    positions (fun i => i < length X /\ nth i y 0%Z = mj /\ forall j, near i j -> nth j y 0%Z = mj) pos /\
    (bound = [] \/ pos = [] -> out = Ok (X, y)) /\
    (bound <> [] -> pos <> [] ->
      let k := Nat.min (length X_min) (nr_n_neighbors p + 1) in
      exists T S last, nearest_table dist X_min (rows_at X bound) k T /\
        ((exists i, In i pos /\ (nth i delta 0 <= 0)%Q) -> last = 0) /\
        ((forall i, In i pos -> (0 < nth i delta 0)%Q) -> last = Nat.min (Z.to_nat n) 10) /\
        turns (fun x => ss_gauss (nr_ss p) = GNone ->
                 neighbour_sample (d_dim D) (rows_at X bound) X_min T k (Nat.min (ss_n_dim (nr_ss p)) k - 1) None None x)
              (fun t x => forall i, In i pos -> ((1 - qn t * (1 # 10)) * nth i delta 0 < dist x (nth i X []))%Q)
              (Z.to_nat n) last 0 0 S /\
        nrs_out D mn (Z.to_nat n) S out).

(** ** ANS *)

(** Number of majority rows not farther than [r]. *)
Definition majority_within (dist : row -> row -> Q) (D : dataset) (mj : Z) (x : row) (r : Q) (c : nat) : Prop :=
  exists t, positions (fun j => j < length (d_X D) /\ (dist x (nth j (d_X D) []) <= r)%Q) t /\ c = votes (d_y D) t mj.

(** Number of entries that are at least [c]; -1 for [c = 0]. *)
Definition outcasts_at (ob : list nat) (c : nat) : Z :=
  match c with O => (-1)%Z | _ => Z.of_nat (length (filter (fun o => c <=? o) ob)) end.
Definition outcast_change (ob : list nat) (c : nat) : Z := Z.abs (outcasts_at ob c - outcasts_at ob (c - 1)).

(** The number of outcasts at the first threshold where it changes least. *)
Definition ans_cut (ob : list nat) (top : nat) (C : nat) : Prop :=
  (top <= 1 -> C = 0) /\
  (1 < top -> exists c, 1 <= c < top /\ Z.of_nat C = outcasts_at ob c /\
     (forall c', 1 <= c' < top -> (outcast_change ob c <= outcast_change ob c')%Z) /\
     (forall c', 1 <= c' < c -> (outcast_change ob c < outcast_change ob c')%Z)).

Definition ans_spec (dist : row -> row -> Q) (ss : ss_params) (D : dataset) (mn mj n : Z) (S : list row) : Prop :=
  let X_min := rows_with mn (d_X D) (d_y D) in
  exists T first ob C used,
    nearest_table dist X_min X_min 2 T /\
    length first = length X_min /\
    (forall i, i < length X_min -> nth i first 0%Q = dist (nth i X_min []) (nth (nth 1 (nth i T []) 0) X_min [])) /\
    length ob = length X_min /\
    (forall i, i < length X_min -> majority_within dist D mj (nth i X_min []) (nth i first 0%Q) (nth i ob 0)) /\
    ans_cut ob (length (d_X D) / 4) C /\
    positions (fun i => i < length X_min /\ nth i ob 0 < C) used /\
    (used = [] -> S = []) /\
    (used <> [] -> exists eps,
      (exists i, In i used /\ nth i first 0%Q = eps) /\ (forall i, In i used -> (nth i first 0 <= eps)%Q) /\
      let close := fun i j => (dist (nth i X_min []) (nth j X_min []) <= eps)%Q in
      ((forall i j, In i used -> In j used -> close i j -> i = j) -> S = []) /\
      (forall i j, In i used -> In j used -> close i j -> i <> j -> length S = Z.to_nat n) /\
      (ss_gauss ss = GNone -> Forall (fun x => exists b js, In b used /\
         incl js used /\ NoDup js /\ length js <= ss_n_dim ss - 1 /\ (2 <= ss_n_dim ss -> js <> []) /\
         Forall (close b) js /\ convex_comb (d_dim D) (rows_at X_min (b :: js)) x) S)).
