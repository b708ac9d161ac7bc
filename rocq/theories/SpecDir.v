(** Specification vocabulary for the samplers of DirModel.v. *)

From Coq Require Import List ZArith QArith Qabs Qminmax Bool Arith Qround Sorting.Sorted.
From Verif Require Import Np SimplexModel SamplerModel Spec SpecDanger SpecNoise SpecComp SpecEdit SpecNear SpecGroup ClusterOversModel CompModel LevelModel WrapModel DirModel.
Import ListNotations.
Open Scope nat_scope.

(** What the random state promises. *)
Record draws_ok (d : draws) : Prop := {
  ok_int : forall t s b, 0 < b -> dr_int d t s b < b;
  ok_unif : forall t s, unit_share (dr_unif d t s);
  ok_two : forall t b, 2 <= b -> fst (dr_two d t b) < b /\ snd (dr_two d t b) < b /\ fst (dr_two d t b) <> snd (dr_two d t b);
  ok_p : forall t w, Forall (Qle 0) w -> (qsum w == 1)%Q -> dr_p d t w < length w /\ (0 < nth (dr_p d t w) w 0)%Q }.

(** A direction has one entry per column. *)
Definition pca1_ok (dim : nat) (pca1 : list row -> row) : Prop := forall P, length (pca1 P) = dim.

(** ADOMS: a new row lies on the line through a minority row along the
    principal direction of its neighbourhood, on the side of one of its
    neighbours, less far away than that neighbour. *)
Definition adoms_spec (dist : row -> row -> Q) (norm : row -> Q) (pca1 : list row -> row) (p : comp_params)
    (D : dataset) (mn n : Z) (S : list row) : Prop :=
  let X_min := rows_with mn (d_X D) (d_y D) in
  length S = Z.to_nat n /\
  exists T, nearest_table dist X_min X_min (Nat.min (length X_min) (cp_n_neighbors p + 1)) T /\
    Forall (fun x => exists b i t s, listed T b i /\ unit_share t /\
      let u := pca1 (map (fun i => nth i X_min []) (nth b T [])) in
      let v := vsub (nth i X_min []) (nth b X_min []) in
      ((0 < dot v u)%Q -> s = 1%Q) /\ ((dot v u <= 0)%Q -> s = (-1)%Q) /\
      length x = d_dim D /\
      forall j, j < d_dim D -> (nth j x 0 == nth j (nth b X_min []) 0 + s * t * norm v * nth j u 0)%Q) S.

(** DE_oversampling: attribute [j] of a new row is that of the base row, possibly
    moved by a share of the difference of two of its neighbours; attribute [c] is
    always moved. *)
Definition de_spec (dist : row -> row -> Q) (p : de_params) (D : dataset) (mn n : Z) (S : list row) : Prop :=
  let X_min := rows_with mn (d_X D) (d_y D) in
  length S = Z.to_nat n /\
  exists T, nearest_table dist X_min X_min (Nat.min (length X_min) (de_n_neighbors p + 1)) T /\
    Forall (fun x => exists b a1 a2 t c, b < length X_min /\
      1 <= a1 < length (nth b T []) /\ 1 <= a2 < length (nth b T []) /\ a1 <> a2 /\ unit_share t /\ c < d_dim D /\
      length x = d_dim D /\
      let n1 := nth (nth a1 (nth b T []) 0) X_min [] in
      let n2 := nth (nth a2 (nth b T []) 0) X_min [] in
      let base := nth b X_min [] in
      forall j, j < d_dim D ->
        ((nth j x 0 == nth j base 0)%Q /\ j <> c /\ (de_crossover p < 1)%Q) \/
        ((nth j x 0 == nth j base 0 + t * (nth j n1 0 - nth j n2 0))%Q /\ (j = c \/ (0 < de_crossover p)%Q))) S.

(** KMeans labels every row with one of its clusters. *)
Definition kmeans_ok (dim : nat) (kmeans : list row -> nat -> list nat * list row) : Prop :=
  forall X k, 1 <= k <= length X ->
    length (snd (kmeans X k)) = k /\ rect dim (snd (kmeans X k)) /\
    length (fst (kmeans X k)) = length X /\ Forall (fun l => l < k) (fst (kmeans X k)).

(** The rows DE_oversampling removes again: those of a cluster of one label,
    other than the first row nearest to its centre, that are similar to that row
    or of norm zero. *)
Definition de_redundant (norm : row -> Q) (p : de_params) (labels : list nat) (centers X : list row) (y : list Z) (i : nat) : Prop :=
  i < length X /\
  let l := nth i labels 0 in
  let mates := fun j => j < length X /\ nth j labels 0 = l in
  (forall j, mates j -> nth j y 0%Z = nth i y 0%Z) /\
  exists c, mates c /\ i <> c /\
    (forall j, mates j -> (norm (vsub (nth c X []) (nth l centers [])) <= norm (vsub (nth j X []) (nth l centers [])))%Q /\
       (j < c -> (norm (vsub (nth c X []) (nth l centers [])) < norm (vsub (nth j X []) (nth l centers [])))%Q)) /\
    let denom := (norm (nth i X []) * norm (nth c X []))%Q in
    ((denom == 0)%Q \/ (de_similarity p < dot (nth i X []) (nth c X []) / denom)%Q).

(** LVQ_SMOTE: a minority row near one code word is carried over to another. *)
Definition lvq_spec (dist : row -> row -> Q) (norm : row -> Q) (codebook : list row) (p : lvq_params)
    (D : dataset) (mn n : Z) (S : list row) : Prop :=
  let X_min := rows_with mn (d_X D) (d_y D) in
  let w := fun i => nth i codebook [] in
  length S = Z.to_nat n /\
  exists T, nearest_table dist X_min codebook (Nat.min (length X_min) (lvq_n_neighbors p)) T /\
    Forall (fun x => exists c0 c1 i j o s,
      c0 < length codebook /\ c1 < length codebook /\ c0 <> c1 /\
      let other := fun a => a < length codebook /\ a <> c0 /\ a <> c1 in
      other i /\ other j /\ (o = i \/ o = j) /\
      (forall i' j', other i' -> other j' ->
        (norm (vsub (vsub (w c0) (w c1)) (vsub (w i) (w j))) <= norm (vsub (vsub (w c0) (w c1)) (vsub (w i') (w j'))))%Q) /\
      In s (nth o T []) /\ length x = d_dim D /\
      forall k, k < d_dim D -> (nth k x 0 == nth k (w c0) 0 + (nth k (nth s X_min []) 0 - nth k (w o) 0))%Q) S.

(** The eigenvector routine returns as many values as columns, and a square matrix. *)
Definition eig_ok (dim : nat) (eig : list row -> list Q * list row) : Prop :=
  forall P, length (fst (eig P)) = dim /\ length (snd (eig P)) = dim /\ rect dim (snd (eig P)).

(** The cosine G_SMOTE attaches to neighbour [i] of row [b], direction [H]. *)
Definition g_cosine (norm : row -> Q) (X_min : list row) (H : row) (b i : nat) (q : Q) : Prop :=
  let P := vsub (nth i X_min []) (nth b X_min []) in
  ((norm P * norm H == 0)%Q -> (q == Qabs (dot P H) * inject_Z 100000)%Q) /\
  (~ (norm P * norm H == 0)%Q -> (q == Qabs (dot P H) / (norm P * norm H))%Q).

(** G_SMOTE: the row of the eigenvector matrix numbered like the (first) largest
    eigenvalue. *)
Definition g_axis (eig : list row -> list Q * list row) (X_min : list row) (H : row) : Prop :=
  exists i, i < length (fst (eig X_min)) /\ H = nth i (snd (eig X_min)) [] /\
    forall j, j < length (fst (eig X_min)) -> (nth j (fst (eig X_min)) 0 <= nth i (fst (eig X_min)) 0)%Q.

Definition g_smote_spec (dist : row -> row -> Q) (norm : row -> Q) (eig : list row -> list Q * list row)
    (p : smote_params) (D : dataset) (mn n : Z) (S : list row) : Prop :=
  let X_min := rows_with mn (d_X D) (d_y D) in
  length S = Z.to_nat n /\
  exists T H, nearest_table dist X_min X_min (Nat.min (length X_min) (sm_n_neighbors p + 1)) T /\ g_axis eig X_min H /\
    (ss_n_dim (sm_ss p) = 2 -> ss_gauss (sm_ss p) = GNone ->
     Forall (fun x => exists b i q, listed T b i /\ g_cosine norm X_min H (nth 0 (nth b T []) 0) i q /\
       (forall i' q', listed T b i' -> g_cosine norm X_min H (nth 0 (nth b T []) 0) i' q' -> (q' <= q)%Q) /\
       convex_comb (d_dim D) [nth b X_min []; nth i X_min []] x) S).

(** MDO *)
Definition root_below (root : Q -> Q) : Prop := forall q, (0 <= q)%Q -> (0 <= root q /\ root q * root q <= q)%Q.

Definition pca_ok (dim : nat) (pca_transform : list row -> list row) (pca_inverse : list row -> row -> row) : Prop :=
  forall Z, length (pca_transform Z) = length Z /\ rect (Nat.min dim (length Z)) (pca_transform Z) /\
    forall v, length (pca_inverse Z v) = dim.

(** [X_sel, counts] are the minority rows with at least K1 minority rows among
    their neighbours, with the numbers of these. *)
Definition mdo_selected (dist : row -> row -> Q) (p : mdo_params) (D : dataset) (mn : Z) (sel : list nat) (m : nat -> nat) : Prop :=
  let X_min := rows_with mn (d_X D) (d_y D) in
  exists T, nearest_table dist (d_X D) X_min (Nat.min (md_K2 p + 1) (length (d_X D))) T /\
    (forall b, b < length X_min -> m b = votes (d_y D) (tl (nth b T [])) mn) /\
    positions (fun b => b < length X_min /\ Nat.min (md_K1 p) (length (d_X D)) <= m b) sel.

(** [v] is a point drawn in the ellipsoid of squared radius [alpha] with
    variances [V], or, when its first coordinates left it, a point of the box
    around it with last coordinate zero. *)
Definition in_ellipsoid (alpha : Q) (V : list Q) (v : row) : Prop :=
  let c := length V in
  let a := fun j => (Qmax (alpha * nth j V 0) (1 # 1000))%Q in
  let s := qsum (map (fun j => nth j v 0 * nth j v 0 / a j)%Q (seq 0 (c - 1))) in
  length v = c /\
  (forall j, j < c -> (nth j v 0 * nth j v 0 <= a j)%Q) /\
  ((s <= 1)%Q -> (s + nth (c - 1) v 0 * nth (c - 1) v 0 / a (c - 1)%nat <= 1)%Q) /\
  ((1 < s)%Q -> (nth (c - 1) v 0 == 0)%Q).

Definition mdo_spec (pca_transform : list row -> list row) (pca_inverse : list row -> row -> row)
    (D : dataset) (mn n : Z) (sel : list nat) (m : nat -> nat) (S : list row) : Prop :=
  let X_min := rows_with mn (d_X D) (d_y D) in
  let P := map (fun b => nth b X_min []) sel in
  length S = Z.to_nat n /\
  exists mu, mean_of (d_dim D) P mu /\
    let Z0 := map (fun x => vsub x mu) P in
    let T := pca_transform Z0 in
    let c := Nat.min (d_dim D) (length sel) in
    exists V, length V = c /\ (forall j, j < c -> (nth j V 0 == Qmax (variance (column j T)) (1 # 1000))%Q) /\
    Forall (fun x => exists i v, i < length sel /\ 0 < m (nth i sel 0) /\
      in_ellipsoid (qsum (map (fun j => nth j (nth i T []) 0 * nth j (nth i T []) 0 / nth j V 0)%Q (seq 0 c))) V v /\
      length x = d_dim D /\
      forall j, j < d_dim D -> (nth j x 0 == nth j (pca_inverse Z0 v) 0 + nth j mu 0)%Q) S.

(** The inverse cosine decreases. *)
Definition arccos_ok (arccos : Q -> Q) : Prop := forall a b, (0 <= a)%Q -> (a < b)%Q -> (arccos b < arccos a)%Q.
