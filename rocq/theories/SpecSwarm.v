(** Specification vocabulary for the samplers of SwarmModel.v. *)

From Coq Require Import List ZArith QArith Qabs Qminmax Bool Arith Qround Sorting.Sorted Permutation.
From Verif Require Import Np PyVal Float64 SimplexModel SamplerModel Spec SpecDanger SpecNear SpecGroup OversFacts CompModel WrapModel DirModel SpecComp SpecDir MixModel SpecMix SpecWrap SwarmModel.
Import ListNotations.
Open Scope nat_scope.

(** ** IPADE_ID *)

(** The numbers of the rows in a leaf, and of those that share their leaf. *)
Definition leaf_rows (lv : list nat) (leaf : nat) : list nat := filter (fun i => nth i lv 0 =? leaf) (seq 0 (length lv)).
Definition shared_rows (lv : list nat) : list nat := filter (fun i => negb (length (leaf_rows lv (nth i lv 0)) =? 1)) (seq 0 (length lv)).

Definition labels_at (y : list Z) (is : list nat) : list Z := map (fun i => nth i y 0%Z) is.
Definition set_at (X : list row) (y : list Z) (is : list nat) : training := (rows_at X is, labels_at y is).

(** [m] is the most frequent entry of [l], the smallest one if there are several. *)
Definition most_frequent (l : list Z) (m : Z) : Prop :=
  In m l /\ (forall x, count_occ Z.eq_dec l x <= count_occ Z.eq_dec l m) /\
  (forall x, count_occ Z.eq_dec l x = count_occ Z.eq_dec l m -> (m <= x)%Z).

(** A row and a label for every leaf: the mean and the most frequent label. *)
Definition one_per_leaf (d : nat) (lv : list nat) (X : list row) (y : list Z) (R : list row) (ls : list Z) : Prop :=
  exists us, StronglySorted lt us /\ (forall u, In u us <-> In u lv) /\
    Forall2 (fun u r => mean_of d (rows_at X (leaf_rows lv u)) r) us R /\
    Forall2 (fun u l => most_frequent (labels_at y (leaf_rows lv u)) l) us ls.

Definition unit_part (q : Q) : Q := Qmax 0 (Qmin 1 q).

(** [r'] is [r] moved towards one row of the label and along the difference of two
    others. *)
Definition stirred (F G : Q) (d : nat) (X : list row) (y : list Z) (l : Z) (r r' : row) : Prop :=
  length r' = d /\
  exists a b c u, NoDup [a; b; c] /\ (forall i, In i [a; b; c] -> i < length y /\ nth i y 0%Z = l) /\ unit_share u /\
    forall j, j < d -> (nth j r' 0 ==
      unit_part (nth j r 0 + G * u * (nth j (nth a X []) 0 - nth j r 0) + F * (nth j (nth b X []) 0 - nth j (nth c X []) 0)))%Q.

(** Finitely many rounds in which every row is moved, each of which raises the score on
    some of the rows [V]. *)
Inductive evolves (auc : training -> training -> res Q) (F G : Q) (d : nat) (X : list row) (y : list Z) (V : list nat) (ls : list Z) (R : list row) : list row -> Prop :=
| no_round : evolves auc F G d X y V ls R R
| one_round R1 R2 W a b : evolves auc F G d X y V ls R R1 -> length R2 = length R1 ->
    (forall i, i < length ls -> stirred F G d X y (nth i ls 0%Z) (nth i R1 []) (nth i R2 [])) ->
    incl W V -> auc (R1, ls) (set_at X y W) = Ok a -> auc (R2, ls) (set_at X y W) = Ok b -> (a < b)%Q ->
    evolves auc F G d X y V ls R R2.

(** What sklearn promises: a leaf for every row; the scores exist if both classes are
    there, otherwise a ValueError is raised at worst. *)
Definition both (mn mj : Z) (l : list Z) : Prop := In mn l /\ In mj l.
Definition leaves_ok (leaves : list row -> list Z -> list nat) : Prop := forall X y, length (leaves X y) = length X.
Definition auc_ok (auc : training -> training -> res Q) (mn mj : Z) : Prop :=
  forall GS V, (exists q, auc GS V = Ok q) \/ (auc GS V = Err ValueError /\ (both mn mj (snd GS) -> ~ both mn mj (snd V))).
Definition accuracy_ok (accuracy : training -> training -> res Q) (mn mj : Z) : Prop :=
  forall GS V, (exists q, accuracy GS V = Ok q) \/ (accuracy GS V = Err ValueError /\ (both mn mj (snd GS) -> snd V = [])).

(** On the rows of the data the score is one of [0, 1/N, ..., 1]. *)
Definition in_steps (auc : training -> training -> res Q) (X : list row) (y : list Z) (N : nat) : Prop :=
  0 < N /\ forall GS W q, NoDup W -> Forall (fun i => i < length X) W -> auc GS (set_at X y W) = Ok q ->
    exists k, k <= N /\ (q * inject_Z (Z.of_nat N) == inject_Z (Z.of_nat k))%Q.

(** All rows lie within the ranges of the attributes of [X]. *)
Definition within_ranges (d : nat) (X S : list row) : Prop :=
  Forall (fun x => length x = d /\ forall j lo hi, j < d -> attr_range X j lo hi -> (lo <= nth j x 0 <= hi)%Q) S.

Definition ip_result leaves auc (p : ip_params) (f : row -> row) (D : dataset) (mn mj : Z) (out : res (list row * list Z)) : Prop :=
  let X := map f (d_X D) in
  let y := d_y D in
  let lv := leaves X y in
  let V := shared_rows lv in
  exists R0 ls, one_per_leaf (d_dim D) lv X y R0 ls /\
    ((** a class is missing, and the scaled rows are returned *)
     (out = Ok (X, y) /\ (~ both mn mj ls \/ exists W, incl W V /\ ~ both mn mj (labels_at y W))) \/
     exists R S W a b, out = Ok (S, ls) /\ evolves auc (ip_F p) (ip_G p) (d_dim D) X y V ls R0 R /\
       same_rows (map f S) R /\ within_ranges (d_dim D) (d_X D) S /\
       both mn mj ls /\ incl W V /\ auc (R0, ls) (set_at X y V) = Ok a /\ auc (R, ls) (set_at X y W) = Ok b /\ (a <= b)%Q).

(** ** SMOTE_PSO *)

(** What numpy and sklearn promise: the norm of a multiple is a multiple of the norm;
    there are support vectors of both classes; a score exists and is not negative. *)
Definition norm_ok (norm : row -> Q) : Prop :=
  (forall x, (0 <= norm x)%Q) /\ (forall c x, (norm (vscale c x) == Qabs c * norm x)%Q) /\ (forall x y, same_row x y -> (norm x == norm y)%Q).
Definition support_ok (support : list row -> list Z -> list nat) (mn mj : Z) : Prop :=
  forall X y, length X = length y -> both mn mj y -> Forall (fun i => i < length y) (support X y) /\ both mn mj (labels_at y (support X y)).
Definition score_ok (score : training -> training -> res Q) (mn mj : Z) : Prop :=
  forall A B, both mn mj (snd A) -> both mn mj (snd B) -> exists q, score A B = Ok q /\ (0 <= q)%Q.

(** The support vectors with a label. *)
Definition supports (support : list row -> list Z -> list nat) (X : list row) (y : list Z) (l : Z) : list row :=
  rows_at X (filter (fun i => (nth i y 0 =? l)%Z) (support X y)).

(** The rows one search gives: [m] rows for each minority support vector, one for each of
    its nearest majority support vectors, either all on the way to those, or all at most
    as far as the nearest one; and the score is at least that of the former. *)
Definition pso_round (dist : row -> row -> Q) norm support score (p : pso_params) (d : nat) (mn mj : Z) (X : list row) (y : list Z) (G : list row) : Prop :=
  let SV_min := supports support X y mn in
  let SV_maj := supports support X y mj in
  let m := Nat.min (length SV_maj) (ps_k p) in
  let near T i c := nth (nth c (nth i T []) 0) SV_maj [] in
  exists T G0 a b, nearest_table dist SV_maj SV_min m T /\
    length G0 = length SV_min * m /\ length G = length SV_min * m /\ rect d G /\
    (forall i c, i < length SV_min -> c < m -> on_segment (fun t => t == ps_eps p)%Q d (nth i SV_min []) (near T i c) (nth (i * m + c) G0 [])) /\
    (G = G0 \/ forall i c, i < length SV_min -> c < m ->
      (norm (vsub (nth (i * m + c) G []) (nth i SV_min [])) <= norm (vsub (nth i SV_min []) (near T i 0%nat)))%Q) /\
    score (X ++ G0, y ++ repeat mn (length G0)) (X, y) = Ok a /\ score (X ++ G, y ++ repeat mn (length G)) (X, y) = Ok b /\ (a <= b)%Q.

(** One search after the other, each with the rows found before, until the minority is as
    large as the majority. *)
Inductive pso_rounds (dist : row -> row -> Q) norm support score (p : pso_params) (d : nat) (mn mj : Z) : list row -> list Z -> list row -> Prop :=
| balanced X y : count_label y mj <= count_label y mn -> pso_rounds dist norm support score p d mn mj X y []
| search X y G S : count_label y mn < count_label y mj -> pso_round dist norm support score p d mn mj X y G ->
    pso_rounds dist norm support score p d mn mj (X ++ G) (y ++ repeat mn (length G)) S ->
    pso_rounds dist norm support score p d mn mj X y (G ++ S).

Definition pso_result dist (sd : list Q -> Q) norm support score (p : pso_params) (D : dataset) (mn mj : Z) (S : list row) : Prop :=
  rect (d_dim D) S /\ count_label (d_y D) mj <= count_label (d_y D) mn + length S /\
  exists w f S', (forall j, j < d_dim D -> std_scale sd (d_X D) j (w j)) /\ standardised (d_dim D) (d_X D) w f /\
    pso_rounds dist norm support score p (d_dim D) mn mj (map f (d_X D)) (d_y D) S' /\ same_rows (map f S) S'.

(** ** SMOTE_PSOBAT *)

(** What sklearn promises: a prediction for each row, which is a label. *)
Definition cross_ok (cross : list row -> list Z -> list Z) : Prop :=
  forall X y, length (cross X y) = length y /\ incl (cross X y) y.

(** Each proportion asks for some number of rows. *)
Definition proportions_ok (to_f : Q -> f64) (y : list Z) (mn mj : Z) : Prop :=
  forall q, (1 # 10 <= q <= 2)%Q -> exists n, asked (StFloat (to_f q)) y mn mj = Ok n.

Definition portion (k n : nat) : Q := (inject_Z (Z.of_nat k) / inject_Z (Z.of_nat n))%Q.
(** The share of the predictions that agree, and of those that would agree by chance. *)
Definition agreement (preds tests : list Z) : Q :=
  portion (length (filter (fun ab => fst ab =? snd ab)%Z (combine preds tests))) (length tests).
Definition chance (mn mj : Z) (preds tests : list Z) : Q :=
  (portion (count_label tests mn) (length tests) * portion (count_label preds mn) (length tests) +
   portion (count_label tests mj) (length tests) * portion (count_label preds mj) (length tests))%Q.
(** Cohen's kappa is larger than 0.4. *)
Definition kappa_above (mn mj : Z) (preds tests : list Z) : Prop :=
  let e := chance mn mj preds tests in
  ~ (e == 1)%Q /\ (2 # 5 < (agreement preds tests - e) / (1 - e))%Q.

(** SMOTE with [K] neighbours and a proportion. *)
Definition tuned (to_f : Q -> f64) (p : pb_params) (K : nat) (prop : Q) : smote_params :=
  mk_smote (StFloat (to_f prop)) K (mk_ss (Nat.min (ss_n_dim (pb_ss p)) K) (ss_sampling (pb_ss p)) (ss_within (pb_ss p)) (ss_gauss (pb_ss p))).

(** The settings are within the ranges, and SMOTE runs with them. *)
Definition pb_result (dist : row -> row -> Q) volume nn to_f (p : pb_params) (hi : nat) (r : rng) (D : dataset) (mn mj : Z)
    (chosen : nat -> Q -> Prop) (out : res (list row * list Z)) : Prop :=
  exists K prop n, 1 <= K <= Nat.min (count_label (d_y D) mn) hi /\ (1 # 10 <= prop <= 2)%Q /\ chosen K prop /\
    asked (StFloat (to_f prop)) (d_y D) mn mj = Ok n /\ out = smote_sample volume nn (tuned to_f p K prop) r D /\
    runs D mn n (smote_spec dist (tuned to_f p K prop) D mn n) out.

(** The settings drawn first, or settings tried for which the trees of a cross validation
    on the extended data reach a kappa above 0.4. *)
Definition first_or_good volume nn to_f cross (p : pb_params) (hi : nat) (d : draws) (rs : nat -> nat -> rng) (D : dataset) (mn mj : Z) (K : nat) (prop : Q) : Prop :=
  (exists k, randint d 0 0 (Nat.min (count_label (d_y D) mn) hi - 1) = Ok k /\ K = 1 + k /\ (prop == (1 # 10) + dr_unif d 0 1 * (19 # 10))%Q) \/
  exists t i X y, t < pb_maxit p /\ i < 10 /\ smote_sample volume nn (tuned to_f p K prop) (rs t i) D = Ok (X, y) /\
    kappa_above mn mj (cross X y) y.

(** [hi] is the smallest of 10 and the numbers of minority rows above two in the data of
    the calls before. *)
Definition remembered (before : list dataset) (hi : nat) : Prop :=
  let counts n := exists D mn mj, In D before /\ is_minority (d_y D) mn mj /\ n = count_label (d_y D) mn /\ 2 < n in
  hi <= 10 /\ (forall n, counts n -> hi <= n) /\ (hi = 10 \/ counts hi).
