(** Specification vocabulary for C62 to C68. *)

From Coq Require Import List ZArith QArith Qabs Bool Arith Sorting.Sorted Permutation.
From Verif Require Import Np SimplexModel SamplerModel Spec SpecNoise SpecComp EditModel.
Import ListNotations.
Open Scope nat_scope.

(** The number attribute [j] is divided by: the range of the attribute in [P]; for
    a constant attribute the constant, but at least 1. *)
Definition attr_scale (P : list row) (j : nat) (w : Q) : Prop :=
  exists lo hi, attr_range P j lo hi /\
    (~ (lo == hi)%Q -> (w == hi - lo)%Q) /\
    ((lo == hi)%Q -> (hi <= 1 -> w == 1)%Q /\ (1 <= hi -> w == hi)%Q).

(** 1 minus the mean of the scaled attribute differences. *)
Definition similar (d : nat) (P : list row) (a b : row) (s : Q) : Prop :=
  exists w : nat -> Q, (forall j, j < d -> attr_scale P j (w j)) /\
    (s == 1 - qsum (map (fun j => Qabs (nth j a 0 - nth j b 0) / w j) (seq 0 d)) / inject_Z (Z.of_nat d))%Q.

(** No row of [M] is more similar to [a] than [v]; some row is. *)
Definition isolated (d : nat) (P M : list row) (a : row) (v : Q) : Prop :=
  forall m, In m M -> exists s, similar d P a m s /\ (s <= v)%Q.
Definition crowded (d : nat) (P M : list row) (a : row) (v : Q) : Prop :=
  exists m s, In m M /\ similar d P a m s /\ (v < s)%Q.

(** The rows SMOTE_RSB keeps of SMOTE's new rows [P]: distinct positions [fst] with
    the number [snd] of the level at which they got in, in order of the levels
    0.4, 0.45, ..., 0.85. *)
Definition rsb_spec (d : nat) (P M : list row) (limit : nat) (S : list row) : Prop :=
  exists (level : nat -> Q) (chosen : list (nat * nat)),
    (forall k, k < 10 -> (Qabs (level k - ((2 # 5) + inject_Z (Z.of_nat k) * (1 # 20))) <= 1 # 1000000000000000)%Q) /\
    S = map (fun ik => nth (fst ik) P []) chosen /\
    NoDup (map fst chosen) /\ length chosen <= limit /\
    StronglySorted (fun a b => snd a <= snd b) chosen /\
    (forall i k, In (i, k) chosen -> i < length P /\ k < 10 /\
       isolated d P M (nth i P []) (level k) /\
       forall k', k' < k -> crowded d P M (nth i P []) (level k')) /\
    (forall i, i < length P -> ~ In i (map fst chosen) ->
       (forall j k k', In (j, k) chosen -> k' < k -> crowded d P M (nth i P []) (level k')) /\
       (length chosen < limit -> crowded d P M (nth i P []) (level 9))).

(** Row [i] is one of the majority rows SPY relabels: it is among the neighbours of
    a minority row that has fewer than [threshold * k] majority neighbours. *)
Definition spy_hit (y : list Z) (mj : Z) (T : list (list nat)) (threshold : Q) (k i : nat) : Prop :=
  exists b, listed T b i /\ nth i y 0%Z = mj /\
    (inject_Z (Z.of_nat (votes y (tl (nth b T [])) mj)) < threshold * inject_Z (Z.of_nat k))%Q.

(** [y'] is [y] with the positions satisfying [P] set to [z]. *)
Definition relabels (y : list Z) (P : nat -> Prop) (z : Z) (y' : list Z) : Prop :=
  length y' = length y /\
  forall i, i < length y -> (P i -> nth i y' 0%Z = z) /\ (~ P i -> nth i y' 0%Z = nth i y 0%Z).

(** Most of the three neighbours share the label of row [i]. *)
Definition safe_row (y : list Z) (T : list (list nat)) (i : nat) : Prop :=
  2 <= votes y (tl (nth i T [])) (nth i y 0%Z).

(** [S] consists of the rows at [rows], each repeated as often as there are safe
    majority rows among its neighbours in the table [N]. *)
Definition copied (X : list row) (y : list Z) (mj : Z) (T N : list (list nat)) (rows : list nat) (S : list row) : Prop :=
  exists c : nat -> nat, S = flat_map (fun i => repeat (nth i X []) (c i)) rows /\
    forall i, In i rows -> exists l, length l = c i /\ NoDup l /\
      forall j, In j l <-> In j (tl (nth i N [])) /\ nth j y 0%Z = mj /\ safe_row y T j.

(** Exactly the minority positions that satisfy [P], in order. *)
Definition minority_where (y : list Z) (mn : Z) (P : nat -> Prop) (rows : list nat) : Prop :=
  StronglySorted lt rows /\ forall i, In i rows <-> i < length y /\ nth i y 0%Z = mn /\ P i.

(** The new rows of the three amplifications; [T] lists 3 neighbours per row, [N]
    lists 5. *)
Definition amplified (s : amplification) (X : list row) (y : list Z) (mn mj : Z) (T N : list (list nat)) (S : list row) : Prop :=
  exists noisy safe, minority_where y mn (fun i => ~ safe_row y T i) noisy /\
    minority_where y mn (safe_row y T) safe /\
    match s with
    | WeakAmp | WeakAmpRelabel => copied X y mj T T noisy S
    | StrongAmp => exists S1 S2, S = S1 ++ S2 /\ copied X y mj T T safe S1 /\
        let fs := map (fun i => nth 1 (nth i N []) 0) noisy in
        let agreed := votes y fs mj < votes y fs mn \/ (votes y fs mj = votes y fs mn /\ (mn < mj)%Z) in
        (agreed -> copied X y mj T T noisy S2) /\ (~ agreed -> copied X y mj T N noisy S2)
    end.

(** The rows 'weak_amp_relabel' turns into minority rows: unsafe majority
    neighbours of unsafe minority rows. *)
Definition relabelled (s : amplification) (y : list Z) (mn mj : Z) (T : list (list nat)) (j : nat) : Prop :=
  s = WeakAmpRelabel /\ nth j y 0%Z = mj /\ ~ safe_row y T j /\
  exists i, i < length y /\ nth i y 0%Z = mn /\ ~ safe_row y T i /\ In j (tl (nth i T [])).

Definition stefanowski_spec (dist : row -> row -> Q) (s : amplification) (D : dataset) (mn mj : Z)
    (out : res (list row * list Z)) : Prop :=
  let X := d_X D in let y := d_y D in
  exists T N y1 X2 y2 S, nearest_table dist X X 4 T /\ nearest_table dist X X 6 N /\
    relabels y (relabelled s y mn mj T) mn y1 /\
    drops_exactly X y1 (fun i => nth i y 0%Z = mj /\ ~ safe_row y T i /\ ~ relabelled s y mn mj T i) X2 y2 /\
    amplified s X y mn mj T N S /\
    (In mj y2 -> out = Ok (X2 ++ S, y2 ++ repeat mn (length S))) /\
    (~ In mj y2 -> unchanged D out).

(** The nearest integer to (n0 - n1 + 1) / 2, the even one of two. *)
Definition sundo_number (n0 n1 N : nat) : Prop :=
  (2 * N = n0 - n1 + 1 \/ 2 * N = n0 - n1 + 2 \/ 2 * N = n0 - n1) /\
  (2 * N <> n0 - n1 + 1 -> Nat.Even N).

(** The best of three trials around a minority row, each shifted by a row of [O]
    scaled with [stds]: [x] has the largest distance to the nearest majority row. *)
Definition best_trial (dist : row -> row -> Q) (X_min X_maj : list row) (dim : nat) (stds : nat -> Q) (O : list row) (x : row) : Prop :=
  exists b trials, In b X_min /\ length trials = 3 /\ In x trials /\
    Forall (fun t => length t = dim /\ exists o, In o O /\ forall j, j < dim -> (nth j t 0 == nth j b 0 + nth j o 0 * stds j)%Q) trials /\
    forall t, In t trials -> exists m, In m X_maj /\ (forall m', In m' X_maj -> (dist t m <= dist t m')%Q) /\
      forall m', In m' X_maj -> (dist t m <= dist x m')%Q.

(** [f] maps the range of each attribute in [X] to the unit interval. *)
Definition unit_scaled (d : nat) (X : list row) (f : row -> row) : Prop :=
  exists lo w : nat -> Q,
    (forall j, j < d -> exists hi, attr_range X j (lo j) hi /\
       (~ (lo j == hi)%Q -> (w j == hi - lo j)%Q) /\ ((lo j == hi)%Q -> (w j == 1)%Q)) /\
    forall x, length x = d -> length (f x) = d /\ forall j, j < d -> (nth j (f x) 0 == (nth j x 0 - lo j) / w j)%Q.

(** [x] is one of the entries of rank [k] (from 0) of [l]. *)
Definition of_rank (l : list Q) (k : nat) (x : Q) : Prop :=
  exists s, Permutation s l /\ StronglySorted Qle s /\ k < length s /\ nth k s 0%Q = x.

(** Majority row [i], all rows scaled by [f], has another one at a distance smaller
    than [th]. *)
Definition crowds (dist : row -> row -> Q) (f : row -> row) (X : list row) (th : Q) (i : nat) : Prop :=
  exists j, j < length X /\ j <> i /\ (dist (f (nth i X [])) (f (nth j X [])) < th)%Q.

Definition sundo_spec (dist : row -> row -> Q) (stds : nat -> Q) (normals : nat -> list row) (D : dataset) (mn mj : Z)
    (out : res (list row * list Z)) : Prop :=
  let X_min := rows_with mn (d_X D) (d_y D) in
  let X_maj := rows_with mj (d_X D) (d_y D) in
  let n1 := count_label (d_y D) mn in
  let n0 := count_label (d_y D) mj in
  exists N S K f th, sundo_number n0 n1 N /\ length S = N /\
    Forall (best_trial dist X_min X_maj (d_dim D) stds (normals (N * 3))) S /\
    unit_scaled (d_dim D) X_maj f /\
    of_rank (flat_map (fun a => map (fun b => dist (f a) (f b)) X_maj) X_maj) (Nat.min (n0 + 2 * N) (n0 * n0 - 1)) th /\
    drops_exactly X_maj (repeat mj n0) (crowds dist f X_maj th) K (repeat mj (length K)) /\
    out = Ok (X_min ++ S ++ K, repeat mn (n1 + N) ++ repeat mj (length K)).

(** ** SMOTE_IPF *)

(** Row [i] is removed: what more than half of the predictions [ps] say (1 or 0)
    differs from its label; for 'consensus' the predictions also have to add up to
    the number of folds asked for. *)
Definition outvoted (v : voting) (n_folds : nat) (ps : list (list Z)) (y : list Z) (i : nat) : Prop :=
  let s := zsum (map (fun p => nth i p 0%Z) ps) in
  (((Z.of_nat (length ps) < 2 * s)%Z /\ nth i y 0%Z <> 1%Z) \/
   ((2 * s <= Z.of_nat (length ps))%Z /\ nth i y 0%Z <> 0%Z)) /\
  (v = Consensus -> s = Z.of_nat n_folds).

(** Rounds until [k] times in a row fewer than [p * (rows left)] rows went. *)
Inductive ipf_run (predict : list row -> list Z -> res (list (list Z))) (v : voting) (n_folds k : nat) (p : Q)
    : nat -> list row -> list Z -> list row -> list Z -> Prop :=
| ipf_stop c X y : k <= c -> ipf_run predict v n_folds k p c X y X y
| ipf_round c c' X y ps X1 y1 X' y' : c < k -> predict X y = Ok ps ->
    drops_exactly X y (outvoted v n_folds ps y) X1 y1 ->
    ((inject_Z (Z.of_nat (length X - length X1)) < inject_Z (Z.of_nat (length X1)) * p)%Q -> c' = S c) ->
    ((inject_Z (Z.of_nat (length X1)) * p <= inject_Z (Z.of_nat (length X - length X1)))%Q -> c' = 0) ->
    ipf_run predict v n_folds k p c' X1 y1 X' y' ->
    ipf_run predict v n_folds k p c X y X' y'.

(** Training and predicting may fail, and does so on no data. *)
Definition predict_ok (predict : list row -> list Z -> res (list (list Z))) : Prop :=
  (forall X y, predict X y <> Err OutOfFuel) /\ (forall ps, predict [] [] <> Ok ps).

(** ** Supervised_SMOTE *)

(** [S] are [n] rows with the numbers of steps by which the thresholds had been
    moved when they were accepted. *)
Definition supervised_spec (proba : row -> Q) (lo hi : Q) (n : nat) (P : row -> Prop) (S : list row) : Prop :=
  length S = n /\ exists ws, length ws = n /\ StronglySorted le ws /\
    Forall2 (fun x w => w <= 10 /\ P x /\
      (lo - inject_Z (Z.of_nat w) * (1 # 10) <= proba x /\ proba x <= hi + inject_Z (Z.of_nat w) * (1 # 10))%Q) S ws.
