(** Specification vocabulary for the samplers of EmbedModel.v. *)

From Coq Require Import List ZArith QArith Qabs Qminmax Bool Arith Qround Sorting.Sorted Permutation.
From Verif Require Import Np PyVal SimplexModel SamplerModel Spec SpecDanger SpecNoise SpecEdit SpecNear SpecGroup ClusterOversModel OversFacts CompModel LevelModel WrapModel DirModel SpecDir RegionModel SpecRegion Float64 SpecWrap GraphModel SpecGraph MixModel SpecMix EmbedModel SpecComp.
Import ListNotations.
Open Scope nat_scope.

(** ** SMOTE_AMSR *)

(** [s] is the difference between the largest and the smallest score in [P]. *)
Definition score_range (score : row -> Q) (P : list row) (s : Q) : Prop :=
  exists a b, In a P /\ In b P /\ (s == score b - score a)%Q /\ forall x, In x P -> (score a <= score x <= score b)%Q.

(** [x] lies between [a] and [b] in every attribute, and the further apart the
    scores are the closer to the one with the higher score. *)
Definition pulled (score : row -> Q) (s : Q) (d : nat) (a b x : row) : Prop :=
  exists w, (0 <= w <= 1)%Q /\ (w * s == Qabs (score a - score b))%Q /\ ((s == 0)%Q -> (w == 0)%Q) /\
    ((score a <= score b)%Q -> between (fun t => w <= t <= 1)%Q d a b x) /\
    ((score b <= score a)%Q -> between (fun t => w <= t <= 1)%Q d b a x).

Definition amsr_spec (score : row -> Q) (tp : topology) (D : dataset) (mn n : Z) (S : list row) : Prop :=
  let X_min := rows_with mn (d_X D) (d_y D) in
  length S = Z.to_nat n /\
  match tp with
  | TStar => exists m s, mean_of (d_dim D) X_min m /\ score_range score (m :: X_min) s /\
      Forall (fun x => exists b, In b X_min /\ pulled score s (d_dim D) b m x) S
  | TBus => exists s, score_range score X_min s /\
      Forall (fun x => exists i, Datatypes.S i < length X_min /\ pulled score s (d_dim D) (nth i X_min []) (nth (Datatypes.S i) X_min []) x) S
  | TMesh => exists s, score_range score X_min s /\
      Forall (fun x => exists a b, In a X_min /\ In b X_min /\ pulled score s (d_dim D) a b x) S
  end.

(** ** PDFOS *)

(** What numpy promises about the eigenvectors and the normal numbers: shapes. *)
Definition eigen_ok (eigenvectors : list row -> res (nat * list row)) (d : nat) : Prop :=
  forall X k T, eigenvectors X = Ok (k, T) -> length T = d /\ rect k T.
Definition normals_ok (normals : nat -> nat -> list row) : Prop :=
  forall n k, length (normals n k) = n /\ rect k (normals n k).

(** [z] holds the coordinates of [x - m] along the columns of [T]. *)
Definition projected (k : nat) (m : row) (T : list row) (x z : row) : Prop :=
  length z = k /\ forall c, c < k -> (nth c z 0 == qsum (map (fun j => (nth j x 0 - nth j m 0) * nth c (nth j T []) 0) (seq 0 (length m))))%Q.

(** [x] is [m] plus the columns of [T] with weights [z]. *)
Definition lifted (k : nat) (m : row) (T : list row) (z x : row) : Prop :=
  length x = length m /\
  forall j, j < length m -> (nth j x 0 == nth j m 0 + qsum (map (fun c => nth c z 0 * nth c (nth j T []) 0) (seq 0 k)))%Q.

Definition row_sum (a b c : row) : Prop := length c = length a /\ forall j, j < length a -> (nth j c 0 == nth j a 0 + nth j b 0)%Q.

(** The new row number [t], standardised, is the projection of a minority row plus
    the row number [t] of the normal numbers. *)
Definition pdfos_spec (normals : nat -> nat -> list row) (f : row -> row) (D : dataset) (mn n : Z) (k : nat) (m : row) (T : list row) (S : list row) : Prop :=
  let P := map f (rows_with mn (d_X D) (d_y D)) in
  length S = Z.to_nat n /\
  forall t, t < Z.to_nat n -> length (nth t S []) = d_dim D /\
    exists b z s, In b P /\ projected k m T b z /\ row_sum z (nth t (normals (Z.to_nat n) k) []) s /\ lifted k m T s (f (nth t S [])).

Definition pdfos_result (sd : list Q -> Q) eigenvectors (bandwidth : list row -> list row -> list Z -> res unit) normals (D : dataset) (mn n : Z) (out : res (list row * list Z)) : Prop :=
  (d_dim D = 1 -> unchanged D out) /\
  (d_dim D <> 1 -> exists w f, (forall j, j < d_dim D -> std_scale sd (d_X D) j (w j)) /\ standardised (d_dim D) (d_X D) w f /\
    let P := map f (rows_with mn (d_X D) (d_y D)) in
    match eigenvectors P with
    | Err LinAlgError => unchanged D out
    | Err e => out = Err e
    | Ok (k, T) => exists m A B, mean_of (d_dim D) P m /\ Forall2 (projected k m T) P A /\ Forall2 (projected k m T) (map f (d_X D)) B /\
        match bandwidth A B (d_y D) with
        | Err LinAlgError => unchanged D out
        | Err e => out = Err e
        | Ok _ => appends D mn (pdfos_spec normals f D mn n k m T) out
        end
    end).

(** The component of [x] along [v]. *)
Definition along (d : nat) (v x : row) : Q := qsum (map (fun j => nth j v 0 * nth j x 0)%Q (seq 0 d)).

(** ** KernelADASYN *)

(** The density is not negative, and positive at every row of positive weight. *)
Definition kernel_ok (p_x : list row -> list Q -> row -> Q) : Prop :=
  forall X r, length r = length X -> Forall (Qle 0) r ->
    (forall x, (0 <= p_x X r x)%Q) /\ forall i, i < length X -> (0 < nth i r 0)%Q -> (0 < p_x X r (nth i X []))%Q.

(** Shapes of what PCA gives. *)
Definition pca_shapes (pca : nat -> list row -> res pca_fit) : Prop :=
  forall k X f, pca k X = Ok f -> forall x, In x X -> length (pca_to f x) = k.

(** A factor of a matrix has its shape. *)
Definition cholesky_shapes (cholesky : list row -> res (list row)) : Prop :=
  forall V L, cholesky V = Ok L -> length L = length V /\ rect (length V) L.

(** The weights: the share of a minority row in the majority neighbours of all. *)
Definition kernel_scores (y : list Z) (mj : Z) (T : list (list nat)) (r : list Q) : Prop :=
  let total := list_sum (map (foreign y mj) T) in
  length r = length T /\ forall i, i < length T -> (nth i r 0 * inject_Z (Z.of_nat total) == inject_Z (Z.of_nat (foreign y mj (nth i T []))))%Q.

(** [V] is the sample covariance of [P]. *)
Definition covariance_of (d : nat) (P : list row) (V : list row) : Prop :=
  exists m, mean_of d P m /\ length V = d /\ rect d V /\
    forall i j, i < d -> j < d -> (nth j (nth i V []) 0 * (inject_Z (Z.of_nat (length P)) - 1) ==
      qsum (map (fun x => (nth i x 0 - nth i m 0) * (nth j x 0 - nth j m 0)) P))%Q.

(** [x'] is [x] plus the rows of [L] with weights [z]. *)
Definition moved (d : nat) (L : list row) (z x x' : row) : Prop :=
  length x' = d /\ forall j, j < d -> (nth j x' 0 == nth j x 0 + qsum (map2 (fun a l => a * nth j l 0) z L))%Q.

(** A Metropolis chain: a move is made if and only if the uniform number is below
    the ratio of the densities. *)
Definition chain (d : nat) (p : row -> Q) (L : list row) (noise : nat -> row) (u : nat -> Q) (xs : nat -> row) : Prop :=
  forall i, length (xs i) = d /\ (0 < p (xs i))%Q /\
    exists x', moved d L (noise i) (xs i) x' /\
      ((u i * p (xs i) < p x')%Q -> xs (S i) = x') /\ ((p x' <= u i * p (xs i))%Q -> xs (S i) = xs i).

(** The chain is read at the multiples of [periods] above [burn_in]. *)
Definition read_at (burn_in periods j : nat) : nat := periods * (burn_in / periods + 1 + j).

Definition ka_spec p_x normal (p : ka_params) (d : draws) (level : nat) (D : dataset) (X_min : list row) (n : Z) (r : list Q) (L : list row) (S : list row) : Prop :=
  length S = Z.to_nat n /\
  exists xs b, b < length X_min /\ (0 < nth b r 0)%Q /\ xs 0 = nth b X_min [] /\
    chain (d_dim D) (p_x X_min r) L (fun i => normal level i (d_dim D)) (fun i => dr_unif d i 0) xs /\
    forall j, j < Z.to_nat n -> nth j S [] = xs (read_at (ka_burn_in p) (ka_periods p) j).

(** Half of [d], a half rounded to the even number. *)
Definition half_of (d k : nat) : Prop := 2 * k = d \/ (Nat.Even k /\ (2 * k = d + 1 \/ 2 * k + 1 = d)).

Section KernelADASYN.

Variable dist : row -> row -> Q.
Variable p_x : list row -> list Q -> row -> Q.
Variable ill_conditioned : list row -> bool.
Variable cholesky : list row -> res (list row).
Variable normal : nat -> nat -> nat -> row.
Variable pca : nat -> list row -> res pca_fit.
Variable p : ka_params.
Variable ds : nat -> draws.
Variables mn mj n : Z.

(** The scores of a table, and the covariance of the rows with a positive one. *)
Definition ka_setting (D : dataset) (T : list (list nat)) (r : list Q) (V : list row) : Prop :=
  let X_min := rows_with mn (d_X D) (d_y D) in
  nearest_table dist (d_X D) X_min (Nat.min (length X_min) (ka_k p + 1)) T /\
  kernel_scores (d_y D) mj T r /\
  covariance_of (d_dim D) (map snd (filter (fun tx => 0 <? foreign (d_y D) mj (fst tx)) (combine T X_min))) V.

Definition few_scored (y : list Z) (T : list (list nat)) : Prop := length (filter (fun t => 0 <? foreign y mj t) T) < 2.

Inductive ka_result : nat -> dataset -> res (list row * list Z) -> Prop :=
| ka_few level D T : nearest_table dist (d_X D) (rows_with mn (d_X D) (d_y D)) (Nat.min (length (rows_with mn (d_X D) (d_y D))) (ka_k p + 1)) T ->
    few_scored (d_y D) T -> ka_result level D (Ok (d_X D, d_y D))
| ka_flat level D T r V : ka_setting D T r V -> ~ few_scored (d_y D) T ->
    d_dim D = 2 -> ill_conditioned V = true -> ka_result level D (Ok (d_X D, d_y D))
| ka_reduced level D T r V k f out : ka_setting D T r V -> ~ few_scored (d_y D) T ->
    2 < d_dim D -> ill_conditioned V = true -> half_of (d_dim D) k -> pca k (d_X D) = Ok f ->
    ka_result (S level) (mk_data (map (pca_to f) (d_X D)) k (d_y D)) (Ok out) ->
    ka_result level D (Ok (map (pca_from f) (fst out), snd out))
| ka_reduced_err level D T r V k f e : ka_setting D T r V -> ~ few_scored (d_y D) T ->
    2 < d_dim D -> ill_conditioned V = true -> half_of (d_dim D) k -> pca k (d_X D) = Ok f ->
    ka_result (S level) (mk_data (map (pca_to f) (d_X D)) k (d_y D)) (Err e) ->
    ka_result level D (Err e)
| ka_no_pca level D T r V k e : ka_setting D T r V -> ~ few_scored (d_y D) T ->
    2 < d_dim D -> ill_conditioned V = true -> half_of (d_dim D) k -> pca k (d_X D) = Err e -> ka_result level D (Err e)
| ka_no_factor level D T r V e : ka_setting D T r V -> ~ few_scored (d_y D) T ->
    (2 <= d_dim D -> ill_conditioned V = false) -> cholesky V = Err e -> ka_result level D (Err e)
| ka_chain level D T r V L S : ka_setting D T r V -> ~ few_scored (d_y D) T ->
    (2 <= d_dim D -> ill_conditioned V = false) -> cholesky V = Ok L ->
    ka_spec p_x normal p (ds level) level D (rows_with mn (d_X D) (d_y D)) n r L S ->
    ka_result level D (Ok (d_X D ++ S, d_y D ++ repeat mn (length S))).

End KernelADASYN.

(** ** MOT2LD *)

Definition tsne_ok (tsne : nat -> list row -> list row) : Prop := forall k X, length (tsne k X) = length X.
Definition peaks_ok (find_peaks : list Q -> nat -> res (list nat)) : Prop :=
  forall d w peaks, find_peaks d w = Ok peaks -> Forall (fun i => i < length d) peaks.

(** The number of rows of [E] within [cut] of [x]. *)
Definition company (dist : row -> row -> Q) (E : list row) (cut : Q) (x : row) : nat :=
  length (filter (fun z => Qle_bool (dist x z) cut) E).

(** The cut: the one given, or the largest distance from a minority row to the
    second nearest row. *)
Definition mot_cut (dist : row -> row -> Q) (p : mot_params) (E E_min : list row) (T : list (list nat)) (cut : Q) : Prop :=
  match mo_d_cut p with
  | Some q => cut = q
  | None => largest (map2 (fun x t => dist x (nth (nth 1 t 0) E [])) E_min T) cut
  end.

Definition mot_noise (dist : row -> row -> Q) (E E_min : list row) (y : list Z) (mn : Z) (cut : Q) (T : list (list nat)) (i : nat) : Prop :=
  company dist E cut (nth i E_min []) = 1 \/ votes y (tl (nth i T [])) mn = 0.

(** The distance to the nearest row with more company; if there is none, the largest
    distance between any two rows. *)
Definition mot_delta (dist : row -> row -> Q) (P : list row) (rho : nat -> nat) (i : nat) (q : Q) : Prop :=
  (exists j, j < length P /\ rho i < rho j /\ q = dist (nth i P []) (nth j P []) /\
     forall l, l < length P -> rho i < rho l -> (q <= dist (nth i P []) (nth l P []))%Q) \/
  ((forall l, l < length P -> rho l <= rho i) /\
   (exists a b, In a P /\ In b P /\ q = dist a b) /\ forall a b, In a P -> In b P -> (dist a b <= q)%Q).

(** The rows in order of company, and their deltas. *)
Definition mot_profile (dist : row -> row -> Q) (P : list row) (rho : nat -> nat) (idx : list nat) (delta : list Q) : Prop :=
  Permutation idx (seq 0 (length P)) /\ StronglySorted (fun i j => rho i <= rho j) idx /\
  length delta = length idx /\ forall t, t < length idx -> mot_delta dist P rho (nth t idx 0) (nth t delta 0%Q).

(** A new row: a combination of different minority rows that are not noise and have
    the same nearest center. *)
Definition mot_row (d n_dim : nat) (X_min : list row) (noise : nat -> Prop) (labels : nat -> nat) (x : row) : Prop :=
  exists c ps, NoDup ps /\ ps <> [] /\ length ps <= n_dim /\ Forall (fun i => i < length X_min /\ ~ noise i /\ labels i = c) ps /\
    ((forall i, i < length X_min -> ~ noise i -> labels i = c -> In i ps) \/ length ps = n_dim) /\
    convex_comb d (rows_at X_min ps) x.

(** The rows at the positions not in [N]. *)
Definition except {A} (a : A) (N : list nat) (l : list A) : list A :=
  map (fun i => nth i l a) (filter (fun i => negb (existsb (Nat.eqb i) N)) (seq 0 (length l))).

Definition mot_result (dist : row -> row -> Q) tsne find_peaks (p : mot_params) (D : dataset) (mn n : Z) (out : res (list row * list Z)) : Prop :=
  let X_min := rows_with mn (d_X D) (d_y D) in
  let E := tsne (Nat.min (mo_n_components p) (d_dim D)) (d_X D) in
  let E_min := rows_with mn E (d_y D) in
  let m := length X_min in
  exists T cut idx delta, nearest_table dist E E_min (Nat.min m (mo_k p + 1)) T /\ mot_cut dist p E E_min T cut /\
    mot_profile dist E_min (fun i => company dist E cut (nth i E_min [])) idx delta /\
    let noise := mot_noise dist E E_min (d_y D) mn cut T in
    exists w, half_of m w /\
    match find_peaks delta w with
    | Err ValueError | Ok [] => unchanged D out
    | Err e => out = Err e
    | Ok peaks =>
      exists L, nearest_table dist (map (fun t => nth (nth t idx 0) E_min []) peaks) E_min 1 L /\
      ((forall i, i < m -> noise i) -> unchanged D out) /\
      ((exists i, i < m /\ ~ noise i) -> exists N S, (forall i, In i N <-> i < m /\ noise i) /\
         out = Ok (except [] N (d_X D) ++ S, except 0%Z N (d_y D) ++ repeat mn (length S)) /\ length S = Z.to_nat n /\
         (ss_gauss (mo_ss p) = GNone -> Forall (mot_row (d_dim D) (ss_n_dim (mo_ss p)) X_min noise (fun i => nth 0 (nth i L []) 0)) S))
    end.

(** ** DEAGO *)

Definition deago_spec (dist : row -> row -> Q) (sd : list Q -> Q) autoencoder (p : smote_params) (D : dataset) (mn n : Z) (S : list row) : Prop :=
  let X_min := rows_with mn (d_X D) (d_y D) in
  exists w f S0, (forall j, j < d_dim D -> std_scale sd X_min j (w j)) /\ standardised (d_dim D) X_min w f /\
    smote_spec dist p D mn n S0 /\ length S = length S0 /\
    forall t, t < length S -> length (nth t S []) = d_dim D /\ same_row (f (nth t S [])) (autoencoder (map f X_min) (f (nth t S0 []))).

(** ** ASMOBD *)

(** Above a threshold; infinity is. *)
Definition beyond (t : Q) (x : option Q) : bool := match x with None => true | Some q => negb (Qle_bool q t) end.

(** A threshold after [c] relaxations. *)
Definition relaxed (c : nat) (q : Q) : Q := Nat.iter c (fun q => q * (3 # 2))%Q q.

(** The minority rows whose core distance and reachability are not both beyond the
    thresholds. *)
Definition ab_kept (t1 t2 : Q) (cores reaches : list (option Q)) : list nat :=
  filter (fun i => negb (beyond t1 (nth i cores None) && beyond t2 (nth i reaches None))) (seq 0 (length cores)).

(** The number of rows of [P] within the radius, in all and by label. *)
Definition close_to (dist : row -> row -> Q) (x : row) (c : Q) (X : list row) (y : list Z) (test : Z -> bool) : Q :=
  inject_Z (Z.of_nat (length (filter (fun zl => Qle_bool (dist x (fst zl)) c && test (snd zl)) (combine X y)))).

(** The weight of a row; no weight for an infinite core distance. *)
Definition ab_weight (dist : row -> row -> Q) (squash : Q -> Q) (p : asmobd_params) (n : Z) (mj : Z) (X : list row) (y : list Z) (x : row) (core : option Q) (q : Q) : Prop :=
  match core with
  | None => (q == 0)%Q
  | Some c =>
    let all := close_to dist x c X y (fun _ => true) in
    let share := (close_to dist x c X y (Z.eqb mj) / all)%Q in
    let rest := (all - share - 1)%Q in
    let base := (ab_eta p * c + (1 - ab_eta p) * share)%Q in
    if ab_sigmoid p then
      ((rest == 0)%Q -> (q == base - 1)%Q) /\ (~ (rest == 0)%Q -> (q == base - squash (ab_a p * (share / rest)))%Q)
    else (q == ab_eta p * base + (1 - ab_eta p) * rest / inject_Z n)%Q
  end.

Definition asmobd_spec (dist : row -> row -> Q) (p : asmobd_params) (d : nat) (P K : list row) (weights : list Q) (n : Z) (S : list row) : Prop :=
  let k := Nat.min (length K) (ab_min_samples p + 1) in
  length S = Z.to_nat n /\
  exists T W, nearest_table dist P P k T /\ length W = length K /\
    (forall b, b < length K -> (0 < nth b W 0)%Q -> (forall q, In q weights -> (q == 0)%Q) \/ (0 < nth b weights 0)%Q) /\
    (ss_gauss (ab_ss p) = GNone -> Forall (neighbour_sample d K K T k (Nat.min (ss_n_dim (ab_ss p)) k - 1) (Some W) None) S).

Definition asmobd_result (dist : row -> row -> Q) (sd : list Q -> Q) optics squash (p : asmobd_params) (D : dataset) (mn mj n : Z) (out : res (list row * list Z)) : Prop :=
  let X_min := rows_with mn (d_X D) (d_y D) in
  let m := length X_min in
  exists w f c, (forall j, j < d_dim D -> std_scale sd (d_X D) j (w j)) /\ standardised (d_dim D) (d_X D) w f /\ c <= 3 /\
    let P := map f X_min in
    let answer c := optics (Nat.min (m - 1) (ab_min_samples p)) (relaxed c (ab_eps p)) P in
    let kept c cores reaches := ab_kept (relaxed c (ab_T1 p)) (relaxed c (ab_T2 p)) cores reaches in
    (forall c', c' < c -> exists cores reaches, answer c' = Ok (cores, reaches) /\ length (kept c' cores reaches) < 2) /\
    match answer c with
    | Err e => out = Err e
    | Ok (cores, reaches) =>
      let K := kept c cores reaches in
      (c < 3 -> 2 <= length K) /\
      (length K <= 2 -> unchanged D out) /\
      (2 < length K -> exists weights, length weights = length K /\
        (forall b, b < length K -> ab_weight dist squash p n mj (map f (d_X D)) (d_y D) (nth (nth b K 0) P []) (nth (nth b K 0) cores None) (nth b weights 0%Q)) /\
        (ab_sigmoid p = false -> Forall (Qle 0) weights) /\
        (Forall (Qle 0) weights -> appends D mn (asmobd_spec dist p (d_dim D) (rows_at P K) (rows_at X_min K) weights n) out))
    end.
