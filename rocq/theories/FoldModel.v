(** Model of evaluation/_folding.py (Folding) and of the cache file names,
    evaluation/_folding.py line 141, _sampling.py lines 97-102 and
    _evaluation.py lines 91-96.

    The cross-validator (sklearn's RepeatedStratifiedKFold) is represented by the
    list of splits it generates; its contract is stated where it is used. *)

From Coq Require Import List ZArith QArith Bool Arith Lia.
From Verif Require Import Np JsonModel.
Import ListNotations.
Open Scope nat_scope.

(** ** File names *)

(** The format specification [:04] of a non-negative integer. *)
Definition pad4 (n : nat) : text :=
  let d := digits (Z.of_nat n) in repeat 48%Z (4 - length d) ++ d.

Definition t_json : text := [106; 115; 111; 110]%Z.
Definition t_fold : text := [102; 111; 108; 100; 95]%Z.                                        (* fold_ *)
Definition t_over : text := [111; 118; 101; 114; 115; 97; 109; 112; 108; 105; 110; 103; 95]%Z. (* oversampling_ *)
Definition t_eval : text := [101; 118; 97; 108; 117; 97; 116; 105; 111; 110; 95]%Z.            (* evaluation_ *)

(** cache_foldings, _folding.py line 141. *)
Definition fold_name (r f : nat) (ser : text) : text := t_fold ++ pad4 r ++ [95%Z] ++ pad4 f ++ [46%Z] ++ ser.
(** SamplingJob.target_filename_damaged, _sampling.py lines 97-102. *)
Definition sampling_name (r f : nat) (hash ser : text) : text := t_over ++ pad4 r ++ [95%Z] ++ pad4 f ++ [95%Z] ++ hash ++ [46%Z] ++ ser.
(** EvaluationJob.target_filename_damaged, _evaluation.py lines 91-96. *)
Definition evaluation_name (r f : nat) (hash ser : text) : text := t_eval ++ pad4 r ++ [95%Z] ++ pad4 f ++ [95%Z] ++ hash ++ [46%Z] ++ ser.

(** ** Directories: the names present, without repetition *)

Fixpoint starts (p s : text) : bool :=
  match p, s with [], _ => true | x :: p', y :: s' => (x =? y)%Z && starts p' s' | _, [] => false end.
Definition ends (q s : text) : bool := starts (rev q) (rev s).
(** glob.glob with one star: prefix and suffix, not overlapping. *)
Definition glob1 (p q : text) (dir : list text) : list text :=
  filter (fun s => starts p s && ends q s && (length p + length q <=? length s)) dir.

(** Lexicographic order of strings, as used by sorted. *)
Fixpoint text_leb (a b : text) : bool :=
  match a, b with
  | [], _ => true
  | _ :: _, [] => false
  | x :: a', y :: b' => if (x <? y)%Z then true else if (x =? y)%Z then text_leb a' b' else false
  end.
Fixpoint insert (x : text) (l : list text) : list text :=
  match l with [] => [x] | y :: r => if text_leb x y then x :: l else y :: insert x r end.
Definition sorted (l : list text) : list text := fold_right insert [] l.

(** ** Folding.__init__, lines 51-58: class statistics *)

Section INIT.
(** np.unique with counts: sorted labels and how often they occur. *)
Variable labels : list Z.
Variable counts : list nat.

Definition min_count : res nat :=
  match counts with [] => Err ValueError | c :: r => Ok (fold_left Nat.min r c) end.
(** [int(np.max(labels\[counts == np.min(counts)\]))] *)
Definition fold_min_label : res Z :=
  do m <- min_count;
  match map fst (filter (fun lc => snd lc =? m) (combine labels counts)) with
  | [] => Err ValueError
  | l :: r => Ok (fold_left Z.max r l)
  end.
(** [int(labels\[labels != min_label\]\[0\])] *)
Definition fold_maj_label : res Z :=
  do ml <- fold_min_label;
  match filter (fun l => negb (l =? ml)%Z) labels with [] => Err IndexError | l :: _ => Ok l end.
(** [counts\[label\]]: the label is used as an index, negative ones from the end. *)
Definition at_label (l : Z) : res nat :=
  let n := Z.of_nat (length counts) in
  if (0 <=? l)%Z then get counts (Z.to_nat l)
  else if (- n <=? l)%Z then get counts (Z.to_nat (n + l)) else Err IndexError.
(** Numbers of minority and majority samples and the imbalance ratio. *)
Definition label_stats : res (nat * nat * Q) :=
  do mi <- fold_min_label; do ma <- fold_maj_label; do a <- at_label mi; do b <- at_label ma;
  if a =? 0 then Err ZeroDivisionError else Ok (a, b, (Z.of_nat b # Pos.of_nat a)%Q).
End INIT.

(** ** Folding.fold, lines 101-132 *)

Record descriptor := { split_idx : nat; repeat_idx : nat; fold_idx : nat }.
(** Lines 120-122; [//] and [*] on non-negative integers. *)
Definition describe (n_splits idx : nat) : descriptor :=
  {| split_idx := idx; repeat_idx := idx / n_splits; fold_idx := idx - (idx / n_splits) * n_splits |}.

Section FOLD.
Variable row : Type.
Variable label : Type.

(** The descriptor is not copied into the fold: the fold refers to the one
    dictionary [self.properties] of the Folding object (line 129). *)
Definition address := nat.
Record folding := { X_train : list row; y_train : list label; X_test : list row; y_test : list label; where_desc : address }.
Definition heap := address -> descriptor.
Definition set_heap (h : heap) (a : address) (d : descriptor) : heap := fun b => if b =? a then d else h b.

(** One turn of the generator: the shared dictionary is updated, a fold yielded. *)
Definition advance (data : list row) (target : list label) (a : address) (n_splits : nat) (h : heap) (idx : nat) (split : list nat * list nat) : res (heap * folding) :=
  let h' := set_heap h a (describe n_splits idx) in
  do xt <- gather data (fst split); do yt <- gather target (fst split);
  do xs <- gather data (snd split); do ys <- gather target (snd split);
  Ok (h', {| X_train := xt; y_train := yt; X_test := xs; y_test := ys; where_desc := a |}).

(** The generator, run to its end: the folds together with the heap at the
    moment each was yielded, and the heap at the end. *)
Fixpoint generate (data : list row) (target : list label) (a : address) (n_splits : nat) (h : heap) (idx : nat) (splits : list (list nat * list nat)) : res (list (heap * folding) * heap) :=
  match splits with
  | [] => Ok ([], h)
  | s :: r =>
      do hf <- advance data target a n_splits h idx s;
      do rest <- generate data target a n_splits (fst hf) (S idx) r;
      Ok (hf :: fst rest, snd rest)
  end.

(** The folds as a consumer sees them that is done with one before it asks for
    the next, e.g. cache_foldings, lines 134-149. *)
Definition consumed (g : list (heap * folding)) : list (descriptor * folding) := map (fun hf : heap * folding => (fst hf (where_desc (snd hf)), snd hf)) g.
(** [list(folding.fold())], inspected afterwards. *)
Definition retained (g : list (heap * folding) * heap) : list (descriptor * folding) := map (fun hf : heap * folding => (snd g (where_desc (snd hf)), snd hf)) (fst g).

(** cache_foldings: the files written, in this order. *)
Definition cached_names (ser : text) (g : list (heap * folding)) : list text :=
  map (fun df => fold_name (repeat_idx (fst df)) (fold_idx (fst df)) ser) (consumed g).
End FOLD.

(** Writing a file into a directory. *)
Definition add_name (dir : list text) (n : text) : list text := if existsb (eqb_text n) dir then dir else dir ++ [n].
(** Folding.folding_files, lines 84-99, for a directory to which cache_foldings
    has added the names [names]. *)
Definition folding_files (ser : text) (dir names : list text) : list text :=
  sorted (glob1 t_fold ([46%Z] ++ ser) (fold_left add_name names dir)).

(** do_clean_up, _functions.py lines 142-158: 'oversamplings' and 'all'. *)
Definition clean_up (all : bool) (dir : list text) : list text :=
  let d1 := filter (fun s => negb (starts (removelast t_over) s)) dir in
  if all then filter (fun s => negb (starts (removelast t_fold) s)) d1 else d1.
