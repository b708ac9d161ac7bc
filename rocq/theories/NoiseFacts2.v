(** Lemmas about condensed / edited nearest neighbours, the cleaning rule and
    the composite filters. *)

From Coq Require Import List ZArith QArith Bool Arith Lia Sorting.Sorted Permutation.
From Verif Require Import Np NpFacts Spec SpecNoise SamplerModel SamplerFacts KnnModel KnnFacts
  BaseModel BaseFacts NoiseModel NoiseFacts.
Import ListNotations.
Open Scope nat_scope.

Lemma select_nth {A} (d : A) m l : length m = length l ->
  select m l = map (fun i => nth i l d) (filter (fun i => nth i m false) (seq 0 (length l))).
Proof.
  revert m. induction l as [|a l IH]; intros m H; destruct m as [|b m]; cbn in H; try lia; [reflexivity|].
  cbn [length seq select filter nth]. rewrite IH by lia. rewrite <- seq_shift.
  assert (G : map (fun i => nth i l d) (filter (fun i => nth i m false) (seq 0 (length l))) =
              map (fun i => nth i (a :: l) d) (filter (fun i => nth i (b :: m) false) (map S (seq 0 (length l))))).
  { clear IH. induction (seq 0 (length l)) as [|i s IHs]; [reflexivity|]. cbn [filter map nth].
    destruct (nth i m false); cbn [map nth]; rewrite IHs; reflexivity. }
  destruct b; cbn [map nth]; rewrite G; reflexivity.
Qed.

Lemma filter_ext_in' {A} (f g : A -> bool) l : (forall x, In x l -> f x = g x) -> filter f l = filter g l.
Proof. apply filter_ext_in. Qed.

Lemma where_filter m : where_ m = filter (fun i => nth i m false) (seq 0 (length m)).
Proof.
  unfold where_. rewrite (select_nth 0) by (rewrite seq_length; reflexivity). rewrite seq_length.
  rewrite <- (map_id (filter _ _)) at 2. apply map_ext_in. intros i Hi. apply filter_In in Hi.
  destruct Hi as [Hi _]. apply in_seq in Hi. rewrite seq_nth by lia. lia.
Qed.

Lemma where_in m i : In i (where_ m) <-> i < length m /\ nth i m false = true.
Proof. rewrite where_filter, filter_In, in_seq. intuition lia. Qed.

Lemma delete_where {A} (m : list bool) (l : list A) : length m = length l ->
  delete_idx l (where_ m) = select (map negb m) l.
Proof.
  intro H. destruct l as [|d l0] eqn:El; [destruct m; [reflexivity|discriminate]|]. rewrite <- El in *. clear El l0.
  rewrite (delete_idx_kept d), (select_nth d) by (rewrite map_length; exact H).
  f_equal. unfold kept. apply filter_ext_in. intros i Hi. apply in_seq in Hi.
  rewrite (nth_indep _ false (negb false)) by (rewrite map_length; lia). rewrite map_nth. f_equal.
  destruct (existsb (Nat.eqb i) (where_ m)) eqn:E.
  - apply existsb_eqb, where_in in E. symmetry. apply E.
  - destruct (nth i m false) eqn:N; [|reflexivity].
    assert (In i (where_ m)) by (apply where_in; split; [lia|exact N]).
    apply existsb_eqb in H0. congruence.
Qed.

Lemma select_partition {A} (m : list bool) (l : list A) : length m = length l ->
  Permutation (select m l ++ select (map negb m) l) l.
Proof.
  revert m. induction l as [|a l IH]; intros [|b m] H; cbn in H; try lia; [constructor|].
  cbn [map select]. destruct b; cbn [negb app].
  - constructor. apply IH. lia.
  - rewrite <- Permutation_middle. constructor. apply IH. lia.
Qed.

Lemma select_all_length {A} (m : list bool) (l : list A) : length m = length l ->
  forallb negb m = false -> 0 < length (select m l).
Proof.
  revert m. induction l as [|a l IH]; intros [|b m] H E; cbn in *; try lia; try discriminate.
  destruct b; cbn; [lia|]. apply IH; [lia|exact E].
Qed.

(** * Condensed nearest neighbours *)

Lemma predict_1nn_spec dist nn Xf yf Xq : knn_ok dist nn -> Xf <> [] -> length Xf = length yf ->
  exists pred, predict_1nn nn Xf yf Xq = Ok pred /\ length pred = length Xq /\
    forall k, k < length Xq -> exists i, i < length Xf /\ nth k pred 0%Z = nth i yf 0%Z /\
      forall j, j < length Xf -> (dist (nth k Xq []) (nth i Xf []) <= dist (nth k Xq []) (nth j Xf []))%Q.
Proof.
  intros Hnn Hne Hl. assert (H1 : 1 <= length Xf) by (destruct Xf; [congruence|cbn; lia]).
  destruct (Hnn Xf Xq 1 H1) as [T [ET HT]]. destruct (nearest_table_shape _ _ _ _ _ HT) as [S1 [S2 S3]].
  assert (E : mapM (fun t => do i <- get t 0; get yf i) T = Ok (map (fun t => nth (nth 0 t 0) yf 0%Z) T)).
  { rewrite <- mapM_pure. apply mapM_ext_in. intros t Ht.
    unfold rect in S2. rewrite Forall_forall in S2, S3. specialize (S2 t Ht). specialize (S3 t Ht).
    destruct t as [|i [|]]; try discriminate. inversion S3; subst. cbn [get nth_error bind nth]. apply get_nth. lia. }
  exists (map (fun t => nth (nth 0 t 0) yf 0%Z) T). split; [|split].
  - unfold predict_1nn. rewrite ET. cbn [bind]. exact E.
  - rewrite map_length. exact S1.
  - intros k Hk. destruct (table_row dist Xf Xq 1 T k HT Hk) as [R1 [_ [R3 [_ R5]]]].
    destruct (nth k T []) as [|i [|]] eqn:Et; try discriminate. exists i.
    inversion R3; subst. split; [assumption|]. split.
    + rewrite (nth_indep _ 0%Z (nth (nth 0 [] 0) yf 0%Z)) by (rewrite map_length; lia).
      rewrite (map_nth (fun t => nth (nth 0 t 0) yf 0%Z)), Et. reflexivity.
    + intros j Hj. destruct (Nat.eq_dec j i) as [->|N]; [apply Qle_refl|].
      apply R5; [left; reflexivity| |exact Hj]. intros [|[]]; congruence.
Qed.

Lemma cnn_loop_spec dist nn mj : knn_ok dist nn -> forall fuel X_hat y_hat X_maj,
  length X_maj <= fuel -> X_hat <> [] -> length X_hat = length y_hat ->
  exists K D, cnn_loop nn fuel mj X_hat y_hat X_maj = Ok (X_hat ++ K, y_hat ++ repeat mj (length K)) /\
    Permutation (K ++ D) X_maj /\
    forall d, In d D -> exists i, i < length (X_hat ++ K) /\ nth i (y_hat ++ repeat mj (length K)) 0%Z = mj /\
      forall z, In z (X_hat ++ K) -> (dist d (nth i (X_hat ++ K) []) <= dist d z)%Q.
Proof.
  intros Hnn. induction fuel as [|fuel IH]; intros X_hat y_hat X_maj Hf Hne Hl.
  - destruct X_maj as [|x X_maj]; [|cbn in Hf; lia]. exists [], []. cbn. rewrite !app_nil_r.
    split; [reflexivity|]. split; [constructor|]. intros d [].
  - destruct X_maj as [|x X_maj'] eqn:EX; [exists [], []; cbn; rewrite !app_nil_r;
      split; [reflexivity|]; split; [constructor|]; intros d [] |].
    rewrite <- EX in *. assert (Eloop : cnn_loop nn (S fuel) mj X_hat y_hat X_maj =
      (do pred <- predict_1nn nn X_hat y_hat X_maj;
      if forallb (Z.eqb mj) pred then Ok (X_hat, y_hat)
      else
        let wrong := map (fun p => negb (Z.eqb p mj)) pred in
        let X_hat' := X_hat ++ select wrong X_maj in
        let y_hat' := y_hat ++ repeat mj (length X_hat' - length y_hat) in
        cnn_loop nn fuel mj X_hat' y_hat' (delete_idx X_maj (where_ wrong)))) by (rewrite EX; reflexivity).
    clear EX x X_maj'. rewrite Eloop. clear Eloop.
    destruct (predict_1nn_spec dist nn X_hat y_hat X_maj Hnn Hne Hl) as [pred [Ep [Lp Hp]]].
    rewrite Ep. cbn [bind]. destruct (forallb (Z.eqb mj) pred) eqn:Eall.
    + exists [], X_maj. cbn [length repeat app]. rewrite !app_nil_r. split; [reflexivity|]. split; [reflexivity|].
      intros d Hd. destruct (In_nth _ _ [] Hd) as [k [Hk <-]]. destruct (Hp k Hk) as [i [Hi [Ei Hn]]].
      exists i. split; [exact Hi|]. split.
      * rewrite <- Ei. rewrite forallb_forall in Eall. symmetry. apply Z.eqb_eq, Eall, nth_In. lia.
      * intros z Hz. destruct (In_nth _ _ [] Hz) as [j [Hj <-]]. apply Hn, Hj.
    + cbv zeta. set (wrong := map (fun p => negb (Z.eqb p mj)) pred).
      assert (Lw : length wrong = length X_maj) by (unfold wrong; rewrite map_length; exact Lp).
      rewrite delete_where by exact Lw.
      set (A := select wrong X_maj). set (B := select (map negb wrong) X_maj).
      assert (PAB : Permutation (A ++ B) X_maj) by (apply select_partition; exact Lw).
      assert (LA : 0 < length A).
      { apply select_all_length; [exact Lw|]. unfold wrong. clear - Eall.
        induction pred as [|p l IHl]; [discriminate|]. cbn in *. rewrite negb_involutive, (Z.eqb_sym p mj).
        destruct (mj =? p)%Z; [apply IHl; exact Eall|reflexivity]. }
      assert (LB : length B <= fuel).
      { apply Permutation_length in PAB. rewrite app_length in PAB. lia. }
      replace (length (X_hat ++ A) - length y_hat) with (length A) by (rewrite app_length; lia).
      destruct (IH (X_hat ++ A) (y_hat ++ repeat mj (length A)) B LB) as [K [D [E [P Q]]]].
      { destruct X_hat; [congruence|discriminate]. }
      { rewrite !app_length, repeat_length. lia. }
      exists (A ++ K), D. rewrite E. rewrite <- !app_assoc. rewrite app_length, repeat_app.
      split; [reflexivity|]. split; [rewrite <- PAB; apply Permutation_app_head, P|].
      rewrite <- !app_assoc in Q. exact Q.
Qed.

Lemma nth_two_repeat a b n m i : a <> b -> nth i (repeat a n ++ repeat b m) 0%Z = b -> i < n + m -> n <= i.
Proof.
  intros Hne H Hi. destruct (le_lt_dec n i) as [|L]; [assumption|exfalso].
  rewrite app_nth1 in H by (rewrite repeat_length; exact L). rewrite nth_repeat in H || idtac.
  assert (nth i (repeat a n) 0%Z = a).
  { apply (repeat_spec n). apply nth_In. rewrite repeat_length. exact L. }
  congruence.
Qed.

Lemma cnn_spec dist nn X y mn mj :
  knn_ok dist nn -> length X = length y -> is_minority y mn mj ->
  exists K D, cnn_remove_noise nn X y =
      Ok (rows_with mn X y ++ K, repeat mn (count_label y mn) ++ repeat mj (length K)) /\
    Permutation (K ++ D) (rows_with mj X y) /\
    hd_error K = hd_error (rows_with mj X y) /\
    forall d, In d D -> exists m, In m K /\
      forall z, In z (rows_with mn X y ++ K) -> (dist d m <= dist d z)%Q.
Proof.
  intros Hnn Hl Hm. destruct (minority_stats y mn mj Hm) as [st [Est [Emn Emj]]].
  assert (Lmn : length (rows_with mn X y) = count_label y mn) by (apply rows_with_length; exact Hl).
  assert (Lmj : length (rows_with mj X y) = count_label y mj) by (apply rows_with_length; exact Hl).
  destruct (two_labels_pos y mn mj (proj1 Hm)) as [Pmn Pmj].
  unfold cnn_remove_noise. rewrite Est. cbn [bind]. rewrite Emn, Emj.
  destruct (rows_with mj X y) as [|x0 Xr] eqn:EX; [cbn in Lmj; lia|].
  cbn [get nth_error bind skipn].
  set (F := length (x0 :: Xr)).
  rewrite app_length, Lmn. replace (count_label y mn + length [x0] - 1) with (count_label y mn) by (cbn; lia).
  destruct (cnn_loop_spec dist nn mj Hnn F (rows_with mn X y ++ [x0])
              (repeat mn (count_label y mn) ++ [mj]) Xr) as [K [D [E [P Q]]]].
  - unfold F. cbn. lia.
  - destruct (rows_with mn X y); discriminate.
  - rewrite !app_length, repeat_length, Lmn. reflexivity.
  - exists (x0 :: K), D. rewrite E. rewrite <- !app_assoc. cbn [app length repeat].
    split; [reflexivity|]. split; [constructor; exact P|]. split; [reflexivity|].
    intros d Hd. destruct (Q d Hd) as [i [Hi [Hy Hn]]].
    rewrite <- !app_assoc in *. cbn [app] in *.
    exists (nth i (rows_with mn X y ++ x0 :: K) []). split; [|exact Hn].
    assert (Hge : count_label y mn <= i).
    { apply (nth_two_repeat mn mj (count_label y mn) (S (length K))); [apply Hm|exact Hy|].
      rewrite app_length, Lmn in Hi. cbn in Hi. lia. }
    rewrite app_nth2 by lia. apply nth_In. rewrite app_length in Hi. lia.
Qed.

(** * Voting *)

Lemma votes_count y t z : Forall (fun i => i < length y) t ->
  votes y t z = count_occ Z.eq_dec (map (fun i => nth i y 0%Z) t) z.
Proof.
  induction 1 as [|i t Hi Ht IH]; [reflexivity|]. unfold votes in *. cbn [filter map count_occ].
  destruct (Z.eqb_spec (nth i y 0%Z) z) as [E|E]; destruct (Z.eq_dec (nth i y 0%Z) z); try contradiction; cbn [length]; congruence.
Qed.

Lemma count_two (l : list Z) a b : a <> b -> (forall z, In z l -> z = a \/ z = b) ->
  count_occ Z.eq_dec l a + count_occ Z.eq_dec l b = length l.
Proof.
  intro Hne. induction l as [|c l IH]; intro H; [reflexivity|]. cbn [count_occ length].
  assert (IH' := IH (fun z Hz => H z (or_intror Hz))).
  destruct (H c (or_introl eq_refl)) as [-> | ->];
    destruct (Z.eq_dec a a), (Z.eq_dec b b), (Z.eq_dec a b), (Z.eq_dec b a); congruence || lia.
Qed.

(** Three votes between two labels: the mode is the label with at least two. *)
Lemma mode_three y t a b : length t = 3 -> Forall (fun i => i < length y) t -> a <> b ->
  (forall z, In z y -> z = a \/ z = b) ->
  exists vs m, gather y t = Ok vs /\ vs = map (fun i => nth i y 0%Z) t /\ mode vs = Ok m /\
    (m = a \/ m = b) /\ (m = a <-> 2 <= votes y t a) /\ (m = b <-> 2 <= votes y t b) /\
    votes y t a + votes y t b = 3.
Proof.
  intros Ht Hb Hne H. exists (map (fun i => nth i y 0%Z) t).
  rewrite (gather_map 0%Z) by exact Hb.
  set (vs := map (fun i => nth i y 0%Z) t).
  assert (Lv : length vs = 3) by (unfold vs; rewrite map_length; exact Ht).
  assert (Hin : forall z, In z vs -> z = a \/ z = b).
  { intros z Hz. apply in_map_iff in Hz. destruct Hz as [i [<- Hi]]. apply H, nth_In.
    rewrite Forall_forall in Hb. apply Hb, Hi. }
  destruct (mode_spec vs) as [m [Em [Im [Mx _]]]]; [destruct vs; discriminate|].
  exists m. split; [reflexivity|]. split; [reflexivity|]. split; [exact Em|].
  rewrite !votes_count by exact Hb. fold vs.
  pose proof (count_two vs a b Hne Hin) as C. rewrite Lv in C.
  pose proof (Mx a) as Ma. pose proof (Mx b) as Mb.
  split; [apply Hin, Im|].
  destruct (Hin m Im) as [-> | ->].
  - repeat split; try lia; congruence.
  - repeat split; try lia; congruence.
Qed.

(** * Edited nearest neighbours *)

Definition enn_class (rm : enn_remove) (mn mj z : Z) : Prop :=
  match rm with EnnBoth => True | EnnMin => z = mn | EnnMaj => z = mj end.

Lemma skipn_row (T : list (list nat)) n i : length T = n -> rect 4 T -> Forall (Forall (fun k => k < n)) T -> i < n ->
  get T i = Ok (nth i T []) /\ length (skipn 1 (nth i T [])) = 3 /\ Forall (fun k => k < n) (skipn 1 (nth i T [])).
Proof.
  intros L R B Hi. split; [apply get_nth; lia|].
  assert (Hin : In (nth i T []) T) by (apply nth_In; lia).
  unfold rect in R. rewrite Forall_forall in R, B. specialize (R _ Hin). specialize (B _ Hin).
  destruct (nth i T []) as [|a l]; [discriminate|]. cbn [skipn length] in *. inversion B; subst. split; [lia|assumption].
Qed.

Lemma enn_spec dist nn rm X y mn mj :
  knn_ok dist nn -> length X = length y -> is_minority y mn mj -> 4 <= length X ->
  exists T X' y', nn X X 4 = Ok T /\ nearest_table dist X X 4 T /\
    enn_remove_noise nn rm X y = Ok (X', y') /\
    drops_exactly X y (fun i => enn_class rm mn mj (nth i y 0%Z) /\
      votes y (skipn 1 (nth i T [])) (nth i y 0%Z) <= 1) X' y'.
Proof.
  intros Hnn Hl Hm H4. destruct (minority_stats y mn mj Hm) as [st [Est [Emn Emj]]].
  destruct (Hnn X X 4 H4) as [T [ET HT]]. destruct (nearest_table_shape _ _ _ _ _ HT) as [S1 [S2 S3]].
  assert (Hne : mn <> mj) by apply Hm.
  assert (HL : forall z, In z y -> z = mn \/ z = mj) by apply Hm.
  exists T.
  set (f := fun i => negb (2 <=? votes y (skipn 1 (nth i T [])) (nth i y 0%Z)) &&
       match rm with EnnBoth => true | EnnMin => Z.eqb (nth i y 0%Z) mn | EnnMaj => Z.eqb (nth i y 0%Z) mj end).
  assert (E : mapM (fun idx => do t <- get T idx; enn_drops rm st y idx t) (seq 0 (length X)) =
              Ok (map f (seq 0 (length X)))).
  { rewrite <- mapM_pure. apply mapM_ext_in. intros i Hi. apply in_seq in Hi.
    destruct (skipn_row T (length X) i S1 S2 S3) as [G [R1 R2]]; [lia|]. rewrite G. cbn [bind].
    unfold enn_drops. rewrite (get_nth 0%Z y) by lia. cbn [bind]. rewrite Hl in R2.
    destruct (mode_three y _ mn mj R1 R2 Hne HL) as [vs [m [Eg [_ [Em [Hmm [Ma [Mb C]]]]]]]].
    rewrite Eg. cbn [bind]. rewrite Em. cbn [bind]. rewrite Emn, Emj. unfold f. f_equal.
    assert (Hi' : nth i y 0%Z = mn \/ nth i y 0%Z = mj) by (apply HL, nth_In; lia).
    destruct (Z.eqb_spec (nth i y 0%Z) m) as [Q|Q];
    destruct (Nat.leb_spec 2 (votes y (skipn 1 (nth i T [])) (nth i y 0%Z))) as [Q'|Q']; cbn [negb andb]; try reflexivity; exfalso.
    - rewrite Q in Q'. destruct Hmm as [-> | ->]; [apply proj1 in Ma; specialize (Ma eq_refl)|apply proj1 in Mb; specialize (Mb eq_refl)]; lia.
    - apply Q. destruct Hi' as [W|W]; rewrite W in *; [symmetry; apply Ma, Q'|symmetry; apply Mb, Q']. }
  do 2 eexists. split; [exact ET|]. split; [exact HT|]. split.
  - unfold enn_remove_noise. rewrite Est. cbn [bind].
    destruct (Nat.ltb_spec (length X) 4); [lia|]. rewrite ET. cbn [bind]. rewrite E. cbn [bind]. reflexivity.
  - apply delete_both; [exact Hl|]. intros i Hi. rewrite where_in, map_length, seq_length.
    rewrite (nth_indep _ false (f 0)) by (rewrite map_length, seq_length; exact Hi).
    rewrite map_nth, seq_nth by exact Hi. cbn [plus]. unfold f. rewrite andb_true_iff, negb_true_iff, Nat.leb_gt.
    split.
    + intros [_ [H1 H2]]. split; [|lia]. destruct rm; cbn; [exact I| |]; apply Z.eqb_eq, H2.
    + intros [H1 H2]. split; [exact Hi|]. split; [lia|]. destruct rm; cbn in H1; [reflexivity| |]; apply Z.eqb_eq, H1.
Qed.

Lemma enn_small nn rm X y mn mj : is_minority y mn mj -> length X < 4 ->
  enn_remove_noise nn rm X y = Ok (X, y).
Proof.
  intros Hm H. destruct (minority_stats y mn mj Hm) as [st [Est _]]. unfold enn_remove_noise.
  rewrite Est. cbn [bind]. destruct (Nat.ltb_spec (length X) 4); [reflexivity|lia].
Qed.

(** * Neighbourhood cleaning rule *)

Lemma ncr_spec dist nn X y mn mj :
  knn_ok dist nn -> length X = length y -> is_minority y mn mj -> 4 <= length X ->
  exists T X' y', nn X X 4 = Ok T /\ nearest_table dist X X 4 T /\
    ncr_remove_noise nn X y = Ok (X', y') /\
    drops_exactly X y (fun i => nth i y 0%Z = mj /\
      (2 <= votes y (skipn 1 (nth i T [])) mn \/
       exists j, j < length X /\ nth j y 0%Z = mn /\ In i (skipn 1 (nth j T [])) /\
         2 <= votes y (skipn 1 (nth j T [])) mj)) X' y'.
Proof.
  intros Hnn Hl Hm H4. destruct (minority_stats y mn mj Hm) as [st [Est [Emn Emj]]].
  destruct (Hnn X X 4 H4) as [T [ET HT]]. destruct (nearest_table_shape _ _ _ _ _ HT) as [S1 [S2 S3]].
  assert (Hne : mn <> mj) by apply Hm.
  assert (HL : forall z, In z y -> z = mn \/ z = mj) by apply Hm.
  exists T.
  set (t := fun i => skipn 1 (nth i T [])).
  set (f := fun i => if Z.eqb (nth i y 0%Z) mj && (2 <=? votes y (t i) mn) then [i]
     else if Z.eqb (nth i y 0%Z) mn && (2 <=? votes y (t i) mj)
     then filter (fun k => Z.eqb mj (nth k y 0%Z)) (t i) else []).
  assert (E : mapM (ncr_removals st T y) (seq 0 (length X)) = Ok (map f (seq 0 (length X)))).
  { rewrite <- mapM_pure. apply mapM_ext_in. intros i Hi. apply in_seq in Hi.
    destruct (skipn_row T (length X) i S1 S2 S3) as [G [R1 R2]]; [lia|].
    unfold ncr_removals. rewrite (get_nth 0%Z y) by lia. cbn [bind]. rewrite G. cbn [bind]. rewrite Hl in R2.
    destruct (mode_three y _ mn mj R1 R2 Hne HL) as [vs [m [Eg [Ev [Em [Hmm [Ma [Mb C]]]]]]]].
    rewrite Eg. cbn [bind]. rewrite Em. cbn [bind]. rewrite Emn, Emj. unfold f. fold (t i) in *.
    assert (Q1 : (m =? mn)%Z = (2 <=? votes y (t i) mn)).
    { destruct (Z.eqb_spec m mn), (Nat.leb_spec 2 (votes y (t i) mn)); try reflexivity; exfalso; [apply Ma in e; lia|apply n, Ma; lia]. }
    assert (Q2 : (m =? mj)%Z = (2 <=? votes y (t i) mj)).
    { destruct (Z.eqb_spec m mj), (Nat.leb_spec 2 (votes y (t i) mj)); try reflexivity; exfalso; [apply Mb in e; lia|apply n, Mb; lia]. }
    rewrite Q1, Q2. destruct (_ && _); [reflexivity|]. destruct (_ && _); [|reflexivity].
    rewrite Ev, map_map, select_map_filter. reflexivity. }
  do 2 eexists. split; [exact ET|]. split; [exact HT|]. split.
  - unfold ncr_remove_noise. rewrite Est. cbn [bind]. rewrite ET. cbn [bind]. rewrite E. cbn [bind]. reflexivity.
  - apply delete_both; [exact Hl|]. intros i Hi. rewrite in_concat. split.
    + intros [l [Hin Hil]]. apply in_map_iff in Hin. destruct Hin as [j [<- Hj]]. apply in_seq in Hj.
      unfold f in Hil. destruct (_ && _) eqn:C1.
      * destruct Hil as [<-|[]]. apply andb_true_iff in C1. destruct C1 as [C1 C2].
        apply Z.eqb_eq in C1. apply Nat.leb_le in C2. split; [exact C1|]. left. exact C2.
      * destruct (Z.eqb (nth j y 0%Z) mn && _) eqn:C2; [|destruct Hil].
        apply andb_true_iff in C2. destruct C2 as [C2 C3].
        apply Z.eqb_eq in C2. apply Nat.leb_le in C3. apply filter_In in Hil. destruct Hil as [H1 H2].
        apply Z.eqb_eq in H2. split; [congruence|]. right. exists j. repeat split; try assumption; lia.
    + intros [H1 [H2|[j [Hj [H2 [H3 H5]]]]]].
      * exists [i]. split; [|left; reflexivity]. apply in_map_iff. exists i. split; [|apply in_seq; lia].
        unfold f. rewrite H1, Z.eqb_refl. destruct (Nat.leb_spec 2 (votes y (t i) mn)); [reflexivity|unfold t in *; lia].
      * exists (f j). split; [apply in_map; apply in_seq; lia|]. unfold f. rewrite H2.
        destruct (Z.eqb_spec mn mj); [contradiction|]. cbn [andb]. rewrite Z.eqb_refl. cbn [andb].
        destruct (Nat.leb_spec 2 (votes y (t j) mj)); [|unfold t in *; lia].
        apply filter_In. split; [exact H3|]. apply Z.eqb_eq. congruence.
Qed.

(** * Composite filters *)

Lemma sub_data_trans X y X1 y1 X2 y2 : sub_data X y X1 y1 -> sub_data X1 y1 X2 y2 -> sub_data X y X2 y2.
Proof.
  intros [_ [r1 P1]] [L2 [r2 P2]]. split; [exact L2|]. exists (r2 ++ r1). rewrite P1, P2, app_assoc. reflexivity.
Qed.

Lemma combine_rows_repeat {A} (l : list A) (z : Z) : combine l (repeat z (length l)) = map (fun x => (x, z)) l.
Proof. induction l; cbn; [reflexivity|]. f_equal. assumption. Qed.

Lemma rows_with_pairs {A} (X : list A) y mn mj : length X = length y -> mn <> mj ->
  (forall z, In z y -> z = mn \/ z = mj) ->
  Permutation (combine X y) (map (fun x => (x, mn)) (rows_with mn X y) ++ map (fun x => (x, mj)) (rows_with mj X y)).
Proof.
  revert y. induction X as [|x X IH]; intros [|z y] Hl Hne H; cbn in Hl; try lia; [constructor|].
  unfold rows_with in *. cbn [map select combine].
  assert (IH' := IH y ltac:(lia) Hne (fun w Hw => H w (or_intror Hw))).
  destruct (H z (or_introl eq_refl)) as [-> | ->].
  - rewrite Z.eqb_refl. destruct (Z.eqb_spec mj mn); [congruence|]. cbn [map app]. constructor. exact IH'.
  - rewrite Z.eqb_refl. destruct (Z.eqb_spec mn mj); [congruence|]. cbn [map].
    rewrite <- Permutation_middle. constructor. exact IH'.
Qed.

Lemma rows_with_repeat_same {A} (l : list A) z : rows_with z l (repeat z (length l)) = l.
Proof. unfold rows_with. induction l; cbn; [reflexivity|]. rewrite Z.eqb_refl. f_equal. assumption. Qed.

Lemma rows_with_repeat_other {A} (l : list A) z w : z <> w -> rows_with z l (repeat w (length l)) = [].
Proof. intro H. unfold rows_with. induction l; cbn; [reflexivity|]. destruct (Z.eqb_spec z w); [contradiction|assumption]. Qed.

Lemma cnn_keeps dist nn X y mn mj :
  knn_ok dist nn -> length X = length y -> is_minority y mn mj ->
  exists X' y', cnn_remove_noise nn X y = Ok (X', y') /\ sub_data X y X' y' /\
    rows_with mn X' y' = rows_with mn X y /\ two_labels y' mn mj.
Proof.
  intros Hnn Hl Hm. destruct (cnn_spec dist nn X y mn mj Hnn Hl Hm) as [K [D [E [P [Hh _]]]]].
  assert (Lmn : length (rows_with mn X y) = count_label y mn) by (apply rows_with_length; exact Hl).
  assert (Lmj : length (rows_with mj X y) = count_label y mj) by (apply rows_with_length; exact Hl).
  destruct (two_labels_pos y mn mj (proj1 Hm)) as [Pmn Pmj].
  assert (Hne : mn <> mj) by apply Hm.
  do 2 eexists. split; [exact E|]. split; [|split].
  - split; [rewrite !app_length, !repeat_length; lia|]. exists (map (fun x => (x, mj)) D).
    rewrite (rows_with_pairs X y mn mj Hl Hne) by apply Hm.
    rewrite combine_app by (rewrite repeat_length; exact Lmn). rewrite <- Lmn, !combine_rows_repeat.
    rewrite <- app_assoc. apply Permutation_app_head. rewrite <- map_app. apply Permutation_map. symmetry. exact P.
  - rewrite rows_with_app by (rewrite repeat_length; exact Lmn). rewrite <- Lmn.
    rewrite rows_with_repeat_same, rows_with_repeat_other by exact Hne. apply app_nil_r.
  - split; [exact Hne|]. destruct (rows_with mj X y); [cbn in Lmj; lia|]. destruct K; [discriminate|].
    split; [|split].
    + apply in_or_app. left. destruct (count_label y mn); [lia|]. left. reflexivity.
    + apply in_or_app. right. left. reflexivity.
    + intros z Hz. apply in_app_or in Hz. destruct Hz as [Hz|Hz]; apply repeat_spec in Hz; tauto.
Qed.

Lemma cnn_tomek_spec dist nn X y mn mj :
  knn_ok dist nn -> length X = length y -> is_minority y mn mj ->
  exists X1 y1 X' y', cnn_remove_noise nn X y = Ok (X1, y1) /\
    cnn_tomek_remove_noise nn X y = Ok (X', y') /\ sub_data X y X' y' /\
    (is_minority y1 mn mj -> rows_with mn X' y' = rows_with mn X y).
Proof.
  intros Hnn Hl Hm. destruct (cnn_keeps dist nn X y mn mj Hnn Hl Hm) as [X1 [y1 [E1 [S1 [R1 T1]]]]].
  destruct (minority_stats y mn mj Hm) as [st [Est _]].
  assert (Hm1 : is_minority y1 mn mj \/ is_minority y1 mj mn).
  { unfold is_minority. destruct (lt_eq_lt_dec (count_label y1 mn) (count_label y1 mj)) as [[H|H]|H].
    - left. split; [exact T1|left; exact H].
    - destruct (Z_lt_ge_dec mj mn) as [L|L].
      + left. split; [exact T1|right; split; assumption].
      + right. split; [apply two_labels_sym, T1|right; split; [congruence|]].
        assert (mn <> mj) by apply T1. lia.
    - right. split; [apply two_labels_sym, T1|left; exact H]. }
  assert (Hl1 : length X1 = length y1) by apply S1.
  assert (G : exists X' y', cnn_tomek_remove_noise nn X y = Ok (X', y') /\ sub_data X1 y1 X' y' /\
    (is_minority y1 mn mj -> rows_with mn X' y' = rows_with mn X1 y1)).
  { unfold cnn_tomek_remove_noise. rewrite Est. cbn [bind]. rewrite E1. cbn [bind fst snd].
    destruct Hm1 as [Hm1|Hm1];
      destruct (tomek_minority_kept dist nn X1 y1 _ _ Hnn Hl1 Hm1) as [X' [y' [E' [S' R']]]];
      exists X', y'; (split; [exact E'|]); (split; [exact S'|]).
    - intros _. exact R'.
    - intro H. destruct (is_minority_unique y1 _ _ _ _ H Hm1) as [? ?]. subst. destruct (proj1 (proj1 H)). reflexivity. }
  destruct G as [X' [y' [E' [S' R']]]]. exists X1, y1, X', y'. split; [exact E1|]. split; [exact E'|].
  split; [eapply sub_data_trans; eassumption|]. intro H. rewrite R' by exact H. exact R1.
Qed.

Lemma one_sided_spec dist nn X y mn mj :
  knn_ok dist nn -> length X = length y -> is_minority y mn mj ->
  exists X1 y1, tomek_remove_noise nn RemoveMajority X y = Ok (X1, y1) /\
    (is_minority y1 mn mj -> exists X' y', one_sided_remove_noise nn X y = Ok (X', y') /\ sub_data X y X' y' /\
       rows_with mn X' y' = rows_with mn X y) /\
    (is_minority y1 mj mn -> exists X' y', one_sided_remove_noise nn X y = Ok (X', y') /\ sub_data X y X' y') /\
    (~ In mj y1 -> one_sided_remove_noise nn X y = Err IndexError).
Proof.
  intros Hnn Hl Hm. destruct (tomek_minority_kept dist nn X y mn mj Hnn Hl Hm) as [X1 [y1 [E1 [S1 R1]]]].
  destruct (minority_stats y mn mj Hm) as [st [Est _]].
  assert (Hl1 : length X1 = length y1) by apply S1.
  exists X1, y1. split; [exact E1|]. unfold one_sided_remove_noise. rewrite Est. cbn [bind]. rewrite E1. cbn [bind fst snd].
  split; [|split].
  - intro H. destruct (cnn_keeps dist nn X1 y1 mn mj Hnn Hl1 H) as [X' [y' [E' [S' [R' _]]]]].
    exists X', y'. split; [exact E'|]. split; [eapply sub_data_trans; eassumption|]. congruence.
  - intro H. destruct (cnn_keeps dist nn X1 y1 mj mn Hnn Hl1 H) as [X' [y' [E' [S' _]]]].
    exists X', y'. split; [exact E'|]. eapply sub_data_trans; eassumption.
  - intro H. unfold cnn_remove_noise. rewrite statistics_one_label; [reflexivity|].
    exists mn. intros z Hz. destruct S1 as [_ [rest P]].
    assert (In z y).
    { destruct (In_nth _ _ 0%Z Hz) as [i [Hi <-]].
      assert (In (nth i X1 [], nth i y1 0%Z) (combine X1 y1)).
      { rewrite <- combine_nth by exact Hl1. apply nth_In. rewrite combine_length. lia. }
      eapply in_combine_r. eapply Permutation_in; [symmetry; exact P|]. apply in_or_app. left. exact H0. }
    destruct Hm as [[_ [_ [_ Hm]]] _]. destruct (Hm z H0) as [| ->]; [assumption|contradiction].
Qed.

Lemma others_nearest dist X T i k : nearest_table dist X X (S k) T -> no_duplicates dist X -> i < length X ->
  nearest_others dist X i k (skipn 1 (nth i T [])).
Proof.
  intros HT Hd Hi. destruct (table_row dist X X (S k) T i HT Hi) as [H1 [H2 [H3 [H4 H5]]]].
  destruct (nth i T []) as [|a t]; [discriminate|]. cbn [skipn].
  inversion H2 as [|? ? Hn H2']; subst. inversion H3 as [|? ? Ha H3']; subst. inversion H4 as [|? ? H4' Hab]; subst.
  rewrite Forall_forall in Hab, H3'.
  assert (E : a = i).
  { destruct (Nat.eq_dec a i) as [|Na]; [assumption|exfalso].
    apply (Qlt_not_le _ _ (Hd i a Hi Ha (not_eq_sym Na))).
    destruct (in_dec Nat.eq_dec i t) as [I|I]; [apply Hab, I|].
    apply H5; [left; reflexivity| |exact Hi]. intros [|]; congruence. }
  subst a. split; [cbn in H1; lia|]. split; [exact H2'|]. split; [exact Hn|].
  split; [apply Forall_forall; exact H3'|].
  intros j l Hj Hl Nl Hlt. apply H5; [right; exact Hj| |exact Hlt]. intros [|]; congruence.
Qed.

Lemma drops_ext X y P P' X' y' : (forall i, i < length X -> (P i <-> P' i)) ->
  drops_exactly X y P X' y' -> drops_exactly X y P' X' y'.
Proof.
  intros H [keep [H1 [H2 H3]]]. exists keep. split; [exact H1|]. split; [|exact H3].
  intro i. rewrite H2. split; intros [Hi Hn]; (split; [exact Hi|]); intro Hp; apply Hn, H; assumption.
Qed.

Lemma enn_geo dist nn rm X y mn mj :
  knn_ok dist nn -> length X = length y -> is_minority y mn mj -> 4 <= length X -> no_duplicates dist X ->
  exists N X' y', (forall i, i < length X -> nearest_others dist X i 3 (N i)) /\
    enn_remove_noise nn rm X y = Ok (X', y') /\
    drops_exactly X y (fun i =>
      match rm with EnnBoth => True | EnnMin => nth i y 0%Z = mn | EnnMaj => nth i y 0%Z = mj end /\
      votes y (N i) (nth i y 0%Z) <= 1) X' y'.
Proof.
  intros Hnn Hl Hm H4 Hd. destruct (enn_spec dist nn rm X y mn mj Hnn Hl Hm H4) as [T [X' [y' [_ [HT [E D]]]]]].
  exists (fun i => skipn 1 (nth i T [])), X', y'. split; [|split; [exact E|exact D]].
  intros i Hi. apply others_nearest; assumption.
Qed.

Lemma ncr_geo dist nn X y mn mj :
  knn_ok dist nn -> length X = length y -> is_minority y mn mj -> 4 <= length X -> no_duplicates dist X ->
  exists N X' y', (forall i, i < length X -> nearest_others dist X i 3 (N i)) /\
    ncr_remove_noise nn X y = Ok (X', y') /\
    drops_exactly X y (fun i => nth i y 0%Z = mj /\
      (2 <= votes y (N i) mn \/
       exists j, j < length X /\ nth j y 0%Z = mn /\ In i (N j) /\ 2 <= votes y (N j) mj)) X' y'.
Proof.
  intros Hnn Hl Hm H4 Hd. destruct (ncr_spec dist nn X y mn mj Hnn Hl Hm H4) as [T [X' [y' [_ [HT [E D]]]]]].
  exists (fun i => skipn 1 (nth i T [])), X', y'. split; [|split; [exact E|exact D]].
  intros i Hi. apply others_nearest; assumption.
Qed.

Lemma rows_with_dropped X y drop X' y' lab : length X = length y -> drops_exactly X y drop X' y' ->
  (forall i, i < length X -> drop i -> nth i y 0%Z <> lab) -> rows_with lab X' y' = rows_with lab X y.
Proof.
  intros Hl [keep [Hs [Hk [-> ->]]]] Hd. unfold rows_with. rewrite !select_map_filter2, combine_map_same.
  replace (combine X y) with (map (fun i => (nth i X [], nth i y 0%Z)) (seq 0 (length X))).
  2: { rewrite <- combine_map_same, map_nth_seq. f_equal. rewrite Hl. apply map_nth_seq. }
  assert (G : forall l, map fst (filter (fun p => (lab =? snd p)%Z) (map (fun i => (nth i X [], nth i y 0%Z)) l)) =
              map (fun i => nth i X []) (filter (fun i => (lab =? nth i y 0)%Z) l)).
  { induction l as [|a l IH]; [reflexivity|]. cbn [map filter snd]. destruct (lab =? nth a y 0)%Z; cbn [map fst]; rewrite IH; reflexivity. }
  rewrite !G. f_equal. apply sorted_ext.
  - apply filter_StronglySorted, Hs.
  - apply filter_StronglySorted, seq_StronglySorted.
  - intro i. rewrite !filter_In, Hk, in_seq. split.
    + intros [[H1 H2] H3]. split; [lia|assumption].
    + intros [H1 H2]. split; [|assumption]. split; [lia|]. intro Hdi. apply (Hd i); [lia|assumption|].
      apply Z.eqb_eq in H2. congruence.
Qed.

(** Whatever the ties and duplicates, ENN on one class keeps the other and NCR
    keeps the minority. *)
Lemma enn_keeps dist nn rm X y mn mj X' y' :
  knn_ok dist nn -> length X = length y -> is_minority y mn mj ->
  enn_remove_noise nn rm X y = Ok (X', y') -> sub_data X y X' y' /\
  (rm = EnnMaj -> rows_with mn X' y' = rows_with mn X y) /\
  (rm = EnnMin -> rows_with mj X' y' = rows_with mj X y).
Proof.
  intros Hnn Hl Hm E. destruct (le_lt_dec 4 (length X)) as [H4|H4].
  - destruct (enn_spec dist nn rm X y mn mj Hnn Hl Hm H4) as [T [X1 [y1 [_ [_ [E1 D]]]]]].
    rewrite E in E1. injection E1 as <- <-. assert (Hne : mn <> mj) by apply Hm.
    split; [eapply drops_sub; eassumption|]. split; intros ->; (eapply rows_with_dropped; [exact Hl|exact D|]);
      cbn; intros i Hi [H _]; congruence.
  - rewrite (enn_small nn rm X y mn mj Hm H4) in E. injection E as <- <-.
    split; [|split; reflexivity]. split; [exact Hl|]. exists []. rewrite app_nil_r. reflexivity.
Qed.

Lemma ncr_keeps dist nn X y mn mj :
  knn_ok dist nn -> length X = length y -> is_minority y mn mj -> 4 <= length X ->
  exists X' y', ncr_remove_noise nn X y = Ok (X', y') /\ sub_data X y X' y' /\
  rows_with mn X' y' = rows_with mn X y.
Proof.
  intros Hnn Hl Hm H4. destruct (ncr_spec dist nn X y mn mj Hnn Hl Hm H4) as [T [X' [y' [_ [_ [E D]]]]]].
  exists X', y'. assert (Hne : mn <> mj) by apply Hm.
  split; [exact E|]. split; [eapply drops_sub; eassumption|].
  eapply rows_with_dropped; [exact Hl|exact D|]. cbn. intros i Hi [H _]; congruence.
Qed.

Lemma ncr_small X y mn mj : is_minority y mn mj -> length X < 4 ->
  ncr_remove_noise (fun Xf Xq k =>
    if (k <=? length Xf)%nat then Ok (n_neighbors_func sqdist Xf Xq k) else Err ValueError) X y = Err ValueError.
Proof.
  intros Hm H. destruct (minority_stats y mn mj Hm) as [st [Est _]]. unfold ncr_remove_noise.
  rewrite Est. cbn [bind]. destruct (Nat.leb_spec 4 (length X)); [lia|reflexivity].
Qed.
