(** Model of the learning of metric tensors, smote_variants/base/_metrictensor.py:
    ClassifierImpliedDissimilarityMatrix, discrete_variable_mask,
    estimate_mutual_information, MetricTensor and MetricLearningMixin. *)

From Coq Require Import String List ZArith QArith Bool Arith.
From Verif Require Import Np SimplexModel.
Import ListNotations.
Open Scope nat_scope.

(** ** ClassifierImpliedDissimilarityMatrix *)

Section Forest.

(** A fitted classifier; [leaves f x] are the leaves row [x] reaches in the trees
    of [f], what [f.apply] returns for it. *)
Variable F : Type.
Variable leaves : F -> row -> list nat.

(** [classifier_obj] and [terminal_nodes], _metrictensor.py:258-259. *)
Record forest_state := mk_forest { fo_classifier : option F; fo_nodes : option (list (list nat)) }.

Definition forest_new : forest_state := mk_forest None None.

(** fit, _metrictensor.py:273-289; [f] is the classifier after its training. *)
Definition forest_fit (self : forest_state) (f : F) : forest_state := mk_forest (Some f) (fo_nodes self).

(** [self.classifier_obj.apply(X)]; scikit-learn refuses an empty [X]. *)
Definition forest_apply (self : forest_state) (X : list row) : res (list (list nat)) :=
  match fo_classifier self with
  | None => Err AttributeError
  | Some f => match X with [] => Err ValueError | _ => Ok (map (leaves f) X) end
  end.

(** [1.0 - (a == b)], summed over the trees and divided by their number [t]. *)
Definition unlike (t : nat) (a b : list nat) : Q :=
  (qsum (map2 (fun x z => 1 - (if x =? z then 1 else 0))%Q a b) / inject_Z (Z.of_nat t))%Q.

(** The number of columns of a table, [shape\[1\]]. *)
Definition n_trees (nodes : list (list nat)) : nat := length (hd [] nodes).

(** dissimilarity_matrix, _metrictensor.py:313-329: the matrix and the object afterwards. *)
Definition dissimilarity_matrix (self : forest_state) (X : list row) : res (list (list Q)) * forest_state :=
  match forest_apply self X with
  | Err e => (Err e, self)
  | Ok nodes => (Ok (map (fun a => map (unlike (n_trees nodes) a) nodes) nodes), mk_forest (fo_classifier self) (Some nodes))
  end.

(** transform_kneighbors, _metrictensor.py:291-311.  Without stored nodes,
    [np.vstack(\[None, tnodes\])] fails, except for a single tree, when [None] is
    taken as one more row, whose leaf differs from all. *)
Definition transform_kneighbors (self : forest_state) (X : list row) : res (list (list Q)) :=
  do tnodes <- forest_apply self X;
  match fo_nodes self with
  | None => if n_trees tnodes =? 1 then Ok (map (fun _ => [1%Q]) tnodes) else Err ValueError
  | Some nodes =>
    if n_trees nodes =? n_trees tnodes then Ok (map (fun a => map (unlike (n_trees nodes) a) nodes) tnodes)
    else Err ValueError
  end.

End Forest.

(** ** Mutual information *)

Definition Q_leibniz (a b : Q) : {a = b} + {a <> b}.
Proof. decide equality; [apply Pos.eq_dec|apply Z.eq_dec]. Defined.

(** [len(np.unique(x))]. *)
Definition n_distinct (x : list Q) : nat := length (nodup Q_leibniz (map Qred x)).

(** discrete_variable_mask, _metrictensor.py:427-438. *)
Definition discrete_variable_mask (dim threshold : nat) (X : list row) : list bool :=
  map (fun j => n_distinct (map (fun x => nth j x 0%Q) X) <=? threshold) (seq 0 dim).

(** estimate_mutual_information, _metrictensor.py:441-472.  [mi mask s] is the
    result of mutual_info_regression for the columns flagged as discrete by [mask]
    and random state [s], one number per column.  None: the normalised
    information is nan. *)
Definition estimate_mutual_information (mi : list bool -> nat -> list Q) (normalize : bool) (n_repeats dim : nat) (X : list row)
    : option (list Q) :=
  let mask := discrete_variable_mask dim 5 X in
  let mean := map (fun j => qsum (map (fun s => nth j (mi mask s) 0%Q) (seq 0 n_repeats)) / inject_Z (Z.of_nat n_repeats))%Q (seq 0 dim) in
  if normalize then
    let m := (qsum mean / inject_Z (Z.of_nat dim))%Q in
    if Qeq_bool m 0 then None else Some (map (fun v => v / m)%Q mean)
  else Some mean.

(** ** MetricTensor *)

Definition row_eqb (a b : row) : bool := (length a =? length b) && forallb (fun p => Qeq_bool (fst p) (snd p)) (combine a b).

(** Lexicographic order. *)
Fixpoint row_leb (a b : row) : bool :=
  match a, b with
  | x :: a', z :: b' => Qlt_b x z || (Qeq_bool x z && row_leb a' b')
  | [], _ => true
  | _, [] => false
  end.

(** Rows different from all earlier ones. *)
Fixpoint firsts (seen : list row) (P : list (row * Z)) : list (row * Z) :=
  match P with
  | [] => []
  | p :: P' => if existsb (row_eqb (fst p)) seen then firsts seen P' else p :: firsts (fst p :: seen) P'
  end.

Fixpoint insert_row (p : row * Z) (l : list (row * Z)) : list (row * Z) :=
  match l with
  | [] => [p]
  | q :: l' => if row_leb (fst p) (fst q) then p :: l else q :: insert_row p l'
  end.
Definition sort_rows (l : list (row * Z)) : list (row * Z) := fold_right insert_row [] l.

(** [np.unique(X, axis=0, return_index=True)] and [y\[index\]], _metrictensor.py:589-590:
    the different rows in lexicographic order with the label of their first
    occurrence. *)
Definition unique_rows (X : list row) (y : list Z) : list row * list Z :=
  let s := sort_rows (firsts [] (combine X y)) in (map fst s, map snd s).

Section Tensors.

Variable M : Type.
(** metric_learn's algorithms, get_mahalanobis_matrix of the fitted object:
    ITML_Supervised (with random state 5, for a prior), LSML_Supervised, NCA. *)
Variable itml : string -> list row -> list Z -> res M.
Variable lsml nca : list row -> list Z -> res M.
(** [construct_tensor] of the dissimilarities implied by a random forest. *)
Variable rf : list row -> list Z -> res M.
(** [np.linalg.inv(fix_pd_matrix(np.cov(X.T)))]. *)
Variable inverse_cov : list row -> res M.
(** estimate_mutual_information, np.diag, np.matmul, np.eye, psd_mean. *)
Variable mutual : list row -> list Z -> res (list Q).
Variable diag : list Q -> M.
Variable matmul : M -> M -> M.
Variable eye : nat -> M.
Variable psd_mean : list M -> M.

Local Open Scope string_scope.

(** _train_metric_learning, _metrictensor.py:550-576. *)
Definition train_metric_learning (X : list row) (y : list Z) (method prior : string) : res M :=
  if String.eqb method "ITML" then itml prior X y
  else if String.eqb method "LSML" then lsml X y
  else nca X y.

(** [X\[y == 1\]]. *)
Definition rows_of (l : Z) (X : list row) (y : list Z) : list row := select (map (Z.eqb l) y) X.

(** tensor, _metrictensor.py:578-654, for an object with the given
    metric_learning_method and metric_tensor: the value returned, which is also
    the attribute metric_tensor afterwards if no exception is raised. *)
Definition tensor (method : option string) (metric_tensor : option M) (X : list row) (y : list Z) : res (option M) :=
  let (X_mod, y_mod) := unique_rows X y in
  match method with
  | None => Ok metric_tensor
  | Some m =>
    if String.eqb m "ITML" then do T <- train_metric_learning X_mod y_mod m "identity"; Ok (Some T)
    else if String.eqb m "rf" then do T <- rf X y; Ok (Some T)
    else if String.eqb m "LSML" then do T <- train_metric_learning X_mod y_mod m "identity"; Ok (Some T)
    else if String.eqb m "cov" then do T <- inverse_cov X; Ok (Some T)
    else if String.eqb m "cov_min" then do T <- inverse_cov (rows_of 1 X y); Ok (Some T)
    else if String.eqb m "MI_weighted" then do w <- mutual X y; Ok (Some (diag w))
    else if String.eqb m "id" then match X_mod with [] => Err IndexError | x :: _ => Ok (Some (eye (List.length x))) end
    else if String.eqb m "ITML_mi" then
      do T <- train_metric_learning X_mod y_mod m "identity"; do w <- mutual X y; Ok (Some (matmul T (diag w)))
    else if String.eqb m "NCA" then do T <- nca X_mod y_mod; Ok (Some T)
    else if String.eqb m "gmean" then
      do A <- train_metric_learning X_mod y_mod m "random"; do B <- train_metric_learning X_mod y_mod m "random"; Ok (Some (psd_mean [A; B]))
    else Ok metric_tensor
  end.

(** A value in nn_params. *)
Inductive nn_value := NNone | NStr (s : string) | NTensor (T : M) | NOther.

Fixpoint nn_get (d : list (string * nn_value)) (key : string) : nn_value :=
  match d with [] => NNone | (k, v) :: d' => if String.eqb k key then v else nn_get d' key end.

(** metric_tensor_from_nn_params, _metrictensor.py:662-683.  The keys MetricTensor
    does not know are ignored, _metrictensor.py:530.  A method that is no string
    is treated as an unknown one. *)
Definition metric_tensor_from_nn_params (nn_params : list (string * nn_value)) (X : list row) (y : list Z) : res nn_value :=
  let learned :=
    do T <- tensor (match nn_get nn_params "metric_learning_method" with NStr m => Some m | _ => None end) None X y;
    Ok (match T with Some T => NTensor T | None => NNone end) in
  match nn_get nn_params "metric", nn_get nn_params "metric_tensor" with
  | NStr s, NNone => if String.eqb s "precomputed" then learned else Ok NNone
  | _, v => Ok v
  end.

End Tensors.

Arguments NNone {M}. Arguments NStr {M} s. Arguments NTensor {M} T. Arguments NOther {M}.
