(** Specification vocabulary, independent of the modelled code. *)

From Coq Require Import List ZArith QArith Bool Arith Sorted.
From Verif Require Import Np SimplexModel.
Import ListNotations.

(** All rows of a table have [d] entries. *)
Definition rect {A} (d : nat) (X : list (list A)) : Prop :=
  Forall (fun r => length r = d) X.

(** [x] is a convex combination of the points [pts] in dimension [d]: there are
    non-negative weights with sum one reproducing every coordinate. *)
Definition convex_comb (d : nat) (pts : list row) (x : row) : Prop :=
  length x = d /\
  exists ws : list Q,
    length ws = length pts /\ Forall (Qle 0) ws /\ qsum ws == 1 /\
    forall j, (j < d)%nat ->
      nth j x 0 == qsum (map2 (fun w p => w * nth j p 0) ws pts).

(** [x] lies in the convex hull of (finitely many points of) [P]. *)
Definition in_hull (d : nat) (P : list row) (x : row) : Prop :=
  exists pts, incl pts P /\ convex_comb d pts x.

(** What numpy's documentation promises about a generator: [choice] with a
    valid probability vector returns the requested number of positions, each of
    positive probability; [random_sample] returns numbers in [0,1) in the
    requested shape; [normal] returns the requested shape. *)
Record rng_ok (r : rng) : Prop := {
  rng_choice : forall p n, Forall (Qle 0) p -> qsum p == 1 ->
    length (r_choice r p n) = n /\
    Forall (fun i => exists q, nth_error p i = Some q /\ 0 < q) (r_choice r p n);
  rng_unif : forall n k,
    length (r_unif r n k) = n /\
    Forall (fun u => length u = k /\ Forall (fun x => 0 <= x /\ x < 1) u) (r_unif r n k);
  rng_normal : forall n k,
    length (r_normal r n k) = n /\ rect k (r_normal r n k) }.

(** The uniform draws never are all zero within one row (an event of
    probability 2^-53 per number; it would produce NaN). *)
Definition unif_pos (r : rng) : Prop :=
  forall n k, (0 < k)%nat -> Forall (fun u => 0 < qsum u) (r_unif r n k).

(** Binomial coefficients. *)
Fixpoint binom (n k : nat) : nat :=
  match n, k with
  | _, O => 1
  | O, S _ => 0
  | S n', S k' => binom n' k' + binom n' k
  end.

(** The point at fraction [t] of the way from the base point [b] toward the
    vertex [v], the whole displacement being scaled by [w]. *)
Definition toward (b v : list Q) (w t : Q) : list Q :=
  vadd b (vscale t (vscale w (vsub v b))).

(** [x] is a sample a base point and neighbours of that base point span:
    [b] is a row of the neighbour table, [ps] are strictly increasing column
    positions (never column 0, the point itself), all weights involved are
    positive, and [x] is a convex combination of the base point [X[b]] and the
    vertices [V[indices[b][p]]]. *)
Definition neighbour_sample (d : nat) (X V : list (list Q)) (indices : list (list nat))
    (ncols k : nat) (base_weights : option (list Q))
    (simplex_weights : option (list (list Q))) (x : list Q) : Prop :=
  exists (b : nat) (ps : list nat),
    (b < length indices)%nat /\ length ps = k /\
    StronglySorted lt ps /\ Forall (fun p => 1 <= p < ncols)%nat ps /\
    match base_weights with Some w => 0 < nth b w 0 | None => True end /\
    match simplex_weights with
    | Some w => Forall (fun p => 0 < nth p (nth b w []) 0) ps
    | None => True
    end /\
    convex_comb d (nth b X [] :: map (fun p => nth (nth p (nth b indices []) 0%nat) V []) ps) x.

(** Shapes and ranges a caller of the sampling routine has to respect. *)
Record args_ok (a : ss_args) : Prop := {
  ok_X : rect (a_dim a) (a_X a);
  ok_V : rect (a_dim a) (match a_X_vertices a with Some V => V | None => a_X a end);
  ok_same : a_same_object a = true -> a_X_vertices a = Some (a_X a);
  ok_rect : rect (a_ncols a) (a_indices a);
  ok_base : (length (a_indices a) <= length (a_X a))%nat;
  ok_range : Forall (Forall (fun v =>
      v < length (match a_X_vertices a with Some V => V | None => a_X a end))%nat) (a_indices a);
  ok_bw : match a_base_weights a with
          | Some w => length w = length (a_indices a) /\ Forall (Qle 0) w
          | None => True end;
  ok_vw : match a_vertex_weights a with
          | Some w => length w = length (match a_X_vertices a with Some V => V | None => a_X a end) /\
                      Forall (fun x => 0 <= x /\ x <= 1) w
          | None => True end;
  ok_sw : match a_simplex_weights a with
          | Some w => length w = length (a_indices a) /\ rect (a_ncols a) w /\
                      Forall (Forall (Qle 0)) w
          | None => True end }.

(** A label vector with exactly the two labels [a] and [b]. *)
Definition two_labels (y : list Z) (a b : Z) : Prop :=
  a <> b /\ In a y /\ In b y /\ forall z, In z y -> z = a \/ z = b.

Definition count_label (y : list Z) (z : Z) : nat := count_occ Z.eq_dec y z.

(** [mn] is the minority and [mj] the majority label: fewer rows, or as many
    rows and the larger label value. *)
Definition is_minority (y : list Z) (mn mj : Z) : Prop :=
  two_labels y mn mj /\
  ((count_label y mn < count_label y mj)%nat \/
   (count_label y mn = count_label y mj /\ (mj < mn)%Z)).

(** Squared Euclidean distance. *)
Definition sqdist (x y : list Q) : Q := qsum (map2 (fun a b => (a - b) * (a - b)) x y).

(** [T] lists, for every query row, the positions of k nearest rows of [Xf]:
    distinct positions in range, in order of increasing distance, and no row
    left out is closer than a row listed. *)
Definition nearest_table (dist : list Q -> list Q -> Q) (Xf Xq : list (list Q)) (k : nat)
    (T : list (list nat)) : Prop :=
  Forall2 (fun x t =>
    length t = k /\ NoDup t /\ Forall (fun i => i < length Xf)%nat t /\
    StronglySorted (fun i j => dist x (nth i Xf []) <= dist x (nth j Xf [])) t /\
    (forall i j, In i t -> ~ In j t -> (j < length Xf)%nat ->
       dist x (nth i Xf []) <= dist x (nth j Xf [])))
  Xq T.

(** Contract of a nearest-neighbour search. *)
Definition knn_ok (dist : list Q -> list Q -> Q)
    (nn : list (list Q) -> list (list Q) -> nat -> res (list (list nat))) : Prop :=
  forall Xf Xq k, (k <= length Xf)%nat ->
    exists T, nn Xf Xq k = Ok T /\ nearest_table dist Xf Xq k T.

(** A data set is well formed. *)
Definition wf_data (X : list (list Q)) (dim : nat) (y : list Z) : Prop :=
  rect dim X /\ length X = length y.
