(** Model of the test SOI_CJ merges two clusters by.  File
    smote_variants/oversampling/_soi_cj.py, update_clusters, lines 134-177.

    Distances are represented by their squares, as in DistModel.v.  The neighbours in
    the ball are found with the tensor if the metric is "precomputed", otherwise with
    the Euclidean metric; rounding is not modelled. *)

From Coq Require Import List ZArith QArith Bool Arith.
From Verif Require Import Np DistModel.
Import ListNotations.
Open Scope nat_scope.

(** [distm == np.max(distm)] at one place: nothing equals the maximum if it is NaN. *)
Definition is_top (ds : list dist) (d : dist) : bool :=
  match d with
  | Sqrt q => forallb (fun e => match e with Sqrt p => Qle_bool p q | NaN => false end) ds
  | NaN => false
  end.

(** Lines 154-164: the positions of the first pair of largest distance; the lists [A]
    and [B] are the elements of the two sets in the order of list().  np.max fails for
    no pairs. *)
Definition farthest (c : nat) (tensor : option mat) (X : mat) (A B : list nat) : res (nat * nat) :=
  do _ <- gather X A;
  do _ <- gather X B;
  let d := fun p : nat * nat => entry c tensor true (nth (fst p) X []) (nth (snd p) X []) in
  match list_prod A B with
  | [] => Err ValueError
  | pairs => match find (fun p => is_top (map d pairs) (d p)) pairs with Some p => Ok p | None => Err IndexError end
  end.

(** Line 167. *)
Definition middle (a b : vec) : vec := map2 (fun s t => (s + t) / 2)%Q a b.

(** Lines 166-174: the rows within the ball. *)
Definition ball (c : nat) (precomputed : bool) (tensor : option mat) (X : mat) (A B : list nat) : res (list nat) :=
  do p <- farthest c tensor X A B;
  let max_i := nth (fst p) X [] in
  let max_j := nth (snd p) X [] in
  let mid := middle max_i max_j in
  let radius2 := squares (map2 Qminus mid max_i) in
  let t := if precomputed then tensor else None in
  Ok (filter (fun k => match entry c t true mid (nth k X []) with Sqrt q => Qle_bool q radius2 | NaN => false end) (seq 0 (length X))).

(** Line 176. *)
Definition ball_test (c : nat) (precomputed : bool) (tensor : option mat) (X : mat) (y : list Z) (mn : Z) (A B : list nat) : res bool :=
  do ind <- ball c precomputed tensor X A B;
  do labels <- gather y ind;
  Ok (length ind <? 2 * length (filter (Z.eqb mn) labels)).
