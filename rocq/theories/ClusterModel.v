(** Model of the agglomerative clustering loops in
    /repo/smote_variants/oversampling/_cbso.py, _cure_smote.py, _a_suwo.py and
    _assembled_smote.py.

    A distance is a rational number or infinity ([None], numpy's [inf]).  The
    distance matrix itself is an argument. *)

From Coq Require Import List ZArith QArith Bool Arith.
From Verif Require Import Np.
Import ListNotations.

Notation dval := (option Q) (only parsing).
Notation dmat := (list (list (option Q))) (only parsing).

(** Comparisons and minimum of extended numbers. *)
Definition d_leb (a b : dval) : bool :=
  match a, b with
  | _, None => true
  | None, Some _ => false
  | Some x, Some y => Qle_bool x y
  end.
Definition d_eqb (a b : dval) : bool :=
  match a, b with
  | None, None => true
  | Some x, Some y => Qeq_bool x y
  | _, _ => false
  end.
Definition d_ltb (a b : dval) : bool := negb (d_leb b a).
(** [np.minimum]; of two equal numbers the first. *)
Definition d_min (a b : dval) : dval := if d_leb a b then a else b.

(** [m\[i, j\]]. *)
Definition m_get (m : dmat) (i j : nat) : res dval :=
  do r <- get m i; get r j.

(** [l\[i\] = v] and [del l\[i\]]. *)
Fixpoint set_nth {A} (i : nat) (v : A) (l : list A) : list A :=
  match l, i with
  | [], _ => []
  | _ :: t, O => v :: t
  | h :: t, S i' => h :: set_nth i' v t
  end.
Fixpoint del_nth {A} (i : nat) (l : list A) : list A :=
  match l, i with
  | [], _ => []
  | _ :: t, O => t
  | h :: t, S i' => h :: del_nth i' t
  end.

(** [for idx in range(len(distm)): distm\[idx, idx\] = np.inf], _cbso.py:146-147,
    172-173 and the same lines of the other three. *)
Definition inf_diagonal (m : dmat) : dmat :=
  map (fun ir => set_nth (fst ir) None (snd ir)) (combine (seq 0 (length m)) m).

(** [np.min(distm)]: ValueError for an empty matrix. *)
Definition mat_min (m : dmat) : res dval :=
  match concat m with
  | [] => Err ValueError
  | x :: l => Ok (fold_left d_min l x)
  end.

(** [np.where(distm == v)] and the first entry of both index vectors
    (IndexError if there is none). *)
Definition where_eq (m : dmat) (v : dval) : list (nat * nat) :=
  flat_map (fun ir => map (fun jc => (fst ir, fst jc))
      (filter (fun jc => d_eqb (snd jc) v) (combine (seq 0 (length (snd ir))) (snd ir))))
    (combine (seq 0 (length m)) m).
Definition first_of {A} (l : list A) : res A :=
  match l with [] => Err IndexError | x :: _ => Ok x end.

(** [np.delete] of one row and the column of the same position. *)
Definition del_row_col (b : nat) (m : dmat) : dmat := map (del_nth b) (del_nth b m).

(** Merging cluster [b] into cluster [a]: _cbso.py:161-163, _cure_smote.py:168-170,
    _a_suwo.py:457-462, _assembled_smote.py:214-215, 242-245. *)
Definition merge_clusters (a b : nat) (cl : list (list nat)) : res (list (list nat)) :=
  do ca <- get cl a;
  do cb <- get cl b;
  Ok (del_nth b (set_nth a (ca ++ cb) cl)).

(** The distance matrix afterwards: row and column [a] become the minimum of
    rows [a] and [b], row and column [b] go, the diagonal is reset.
    _cbso.py:165-173, _cure_smote.py:172-180, _a_suwo.py:465-475,
    _assembled_smote.py:217-226, 247-256. *)
Definition merge_distances (a b : nat) (m : dmat) : res dmat :=
  do ra <- get m a;
  do rb <- get m b;
  let r := map2 d_min ra rb in
  let m1 := set_nth a r m in
  let m2 := map2 (fun row_ v => set_nth a v row_) m1 r in
  Ok (inf_diagonal (del_row_col b m2)).

Definition singletons (n : nat) : list (list nat) := map (fun i => [i]) (seq 0 n).

(** CBSO.do_clustering, _cbso.py:140-173; [th] is T_h.  [None] as distance
    never is the result of a computation with finite data. *)
Fixpoint cbso_loop (fuel : nat) (th : Q) (cl : list (list nat)) (m : dmat)
    : res (list (list nat)) :=
  match fuel with
  | O => Err OutOfFuel
  | S fuel' =>
    do v <- mat_min m;
    do (a, b) <- first_of (where_eq m v);
    do v' <- m_get m a b;
    if negb (d_leb v' (Some th)) || (length m =? 1)%nat then Ok cl
    else
      do cl' <- merge_clusters a b cl;
      do m' <- merge_distances a b m;
      cbso_loop fuel' th cl' m'
  end.

Definition cbso_clusters (th : Q) (distm : dmat) : res (list (list nat)) :=
  cbso_loop (S (length distm)) th (singletons (length distm)) (inf_diagonal distm).

(** CURE_SMOTE.do_the_clustering, _cure_smote.py:134-180.  [pick it l] is
    [random_state.choice(l)] of iteration [it]; [k] is n_clusters (at least 1,
    otherwise line 151 divides by zero). *)
Definition cure_remove (pick : nat -> list nat -> nat) (k it : nat)
    (cl : list (list nat)) (m : dmat) : list (list nat) * dmat :=
  if (it mod k =? 0)%nat then
    let sizes := map (@length nat) cl in
    let smallest := fold_left Nat.min sizes (hd 0%nat sizes) in
    let to_remove := pick it (where_ (map (Nat.eqb smallest) sizes)) in
    (del_nth to_remove cl, del_row_col to_remove m)
  else (cl, m).

Fixpoint cure_loop (fuel : nat) (pick : nat -> list nat -> nat) (k it : nat)
    (cl : list (list nat)) (m : dmat) : res (list (list nat)) :=
  if (length cl <=? k)%nat then Ok cl
  else
    match fuel with
    | O => Err OutOfFuel
    | S fuel' =>
      let it' := S it in
      let '(cl1, m1) := cure_remove pick k it' cl m in
      do v <- mat_min m1;
      do (a, b) <- first_of (where_eq m1 v);
      do cl2 <- merge_clusters a b cl1;
      do m2 <- merge_distances a b m1;
      cure_loop fuel' pick k it' cl2 m2
    end.

(** Lines 182-188: the noise clusters are dropped. *)
Definition cure_clusters (pick : nat -> list nat -> nat) (k noise_th : nat) (distm : dmat)
    : res (list (list nat)) :=
  do cl <- cure_loop (length distm) pick k 0 (singletons (length distm)) (inf_diagonal distm);
  Ok (filter (fun c => negb (length c <? noise_th)%nat) cl).

(** A_SUWO.cluster_minority_samples, _a_suwo.py:424-483. *)
Definition min_rows (a b : list dval) : list dval := map2 d_min a b.

Fixpoint suwo_loop (fuel : nat) (th : Q) (cl : list (list nat)) (dm_maj dm_min : dmat)
    : res (list (list nat)) :=
  match fuel with
  | O => Err OutOfFuel
  | S fuel' =>
    do pi <- mat_min dm_min;
    if negb (d_leb pi (Some th)) then Ok cl
    else
      do (i, j) <- first_of (where_eq dm_min pi);
      do ri <- get dm_maj i;
      do rj <- get dm_maj j;
      if existsb (fun ab => d_ltb (fst ab) pi && d_ltb (snd ab) pi) (combine ri rj)
      then
        do row_i <- get dm_min i;
        let m1 := set_nth i (set_nth j None row_i) dm_min in
        do row_j <- get m1 j;
        suwo_loop fuel' th cl dm_maj (set_nth j (set_nth i None row_j) m1)
      else
        do cl' <- merge_clusters i j cl;
        do m' <- merge_distances i j dm_min;
        suwo_loop fuel' th cl' (del_nth j (set_nth i (min_rows ri rj) dm_maj)) m'
  end.

Definition suwo_fuel (n : nat) : nat := S (n * (n * n + 1)).
Definition suwo_clusters (th : Q) (dm_maj dm_min : dmat) : res (list (list nat)) :=
  let n := length dm_min in
  suwo_loop (suwo_fuel n) th (singletons n) dm_maj (inf_diagonal dm_min).

(** Assembled_SMOTE.do_the_clustering, _assembled_smote.py:195-262.  [similar]
    stands for lines 229-240: whether the first principal directions of the two
    clusters form an angle above the threshold. *)
Fixpoint assembled_loop (fuel : nat) (pop : nat) (similar : list nat -> list nat -> bool)
    (cl : list (list nat)) (m : dmat) : res (list (list nat)) :=
  if (length m <=? 1)%nat then Ok cl
  else
    do v <- mat_min m;
    if negb (d_ltb v None) then Ok cl
    else
      match fuel with
      | O => Err OutOfFuel
      | S fuel' =>
        do (a, b) <- first_of (where_eq m v);
        do ca <- get cl a;
        do cb <- get cl b;
        if (length ca <? pop)%nat || (length cb <? pop)%nat || similar ca cb then
          do cl' <- merge_clusters a b cl;
          do m' <- merge_distances a b m;
          assembled_loop fuel' pop similar cl' m'
        else
          do row_a <- get m a;
          let m1 := set_nth a (set_nth b None row_a) m in
          do row_b <- get m1 b;
          assembled_loop fuel' pop similar cl (set_nth b (set_nth a None row_b) m1)
      end.

Definition assembled_clusters (pop : nat) (similar : list nat -> list nat -> bool) (distm : dmat)
    : res (list (list nat)) :=
  let n := length distm in
  assembled_loop (suwo_fuel n) pop similar (singletons n) (inf_diagonal distm).
