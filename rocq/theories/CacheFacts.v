(** Facts about the cache files. *)

From Coq Require Import List ZArith Bool Lia Arith.
From Verif Require Import Np JsonModel JsonFacts CacheModel.
Import ListNotations.
Open Scope Z_scope.

Local Opaque print.

Section FILES.
Context {F : Type}.
Variable frepr : F -> text.
Variable fparse : text -> F.
Variable of_int : Z -> F.
Notation json := (json F).
Notation json_ok := (json_ok frepr fparse).

Lemma damaged_prefix l p q : json_ok (JObj l) -> print frepr (JObj l) = p ++ q -> q <> [] -> damaged_json fparse (Some p) = Ok true.
Proof. intros W E N. unfold damaged_json, load_json. now rewrite (loads_prefix frepr fparse l p q W E N). Qed.

Lemma damaged_full l : json_ok (JObj l) -> damaged_json fparse (Some (print frepr (JObj l))) = Ok false.
Proof. intros W. unfold damaged_json, load_json. now rewrite (loads_print frepr fparse _ W). Qed.

Lemma damaged_nat l k : json_ok (JObj l) -> (k < length (print frepr (JObj l)))%nat ->
  damaged_json fparse (Some (firstn k (print frepr (JObj l)))) = Ok true.
Proof.
  intros W L. apply (damaged_prefix l _ (skipn k (print frepr (JObj l)))); [assumption|symmetry; apply firstn_skipn|].
  intros E. apply (f_equal (@length Z)) in E. rewrite skipn_length in E. change (length (@nil Z)) with 0%nat in E. lia.
Qed.

Lemma plain_map (obj : @pydict F) l : plain obj = Ok l -> obj = map (fun kv => (fst kv, Plain (snd kv))) l.
Proof.
  revert l. induction obj as [|[k [v|a]] obj IH]; intros l; cbn; [intros [= <-]; reflexivity| |discriminate].
  destruct (plain obj) as [t|]; [|discriminate]. cbn. intros [= <-]. cbn. now rewrite (IH t eq_refl).
Qed.

(** Every content the file goes through while it is written. *)
Theorem dump_states old obj keys states out c :
  dump_json frepr of_int old obj keys = (states, out) -> In c states ->
  (forall obj' l, convert of_int keys obj = Ok obj' -> plain obj' = Ok l -> json_ok (JObj l)) ->
  c = old \/
  damaged_json fparse c = Ok true \/
  exists obj', out = Ok obj' /\ load_json fparse c [] = Ok (LDict obj').
Proof.
  unfold dump_json. intros E I W. destruct (convert of_int keys obj) as [obj'|e] eqn:Cv.
  2: { injection E as <- <-. destruct I as [->|[]]. now left. }
  assert (Op : In c (match old with Some _ => [old; None; Some []] | None => [None; Some []] end) -> c = old \/ damaged_json fparse c = Ok true).
  { destruct old as [s|]; cbn; intuition subst; cbn; auto. }
  destruct (plain obj') as [l|e] eqn:Pl.
  2: { injection E as <- <-. destruct (Op I); auto. }
  injection E as <- <-. specialize (W _ _ eq_refl Pl). apply in_app_or in I as [I|I]; [destruct (Op I); auto|].
  apply in_map_iff in I as (k & <- & I). apply in_seq in I. right.
  destruct (Nat.eq_dec k (length (print frepr (JObj l)))) as [->|N].
  - right. exists obj'. split; [reflexivity|]. rewrite firstn_all. unfold load_json. rewrite (loads_print frepr fparse _ W). cbn.
    now rewrite <- (plain_map _ _ Pl).
  - left. apply damaged_nat; [assumption|lia].
Qed.

Lemma dump_last old obj keys states out obj' :
  dump_json frepr of_int old obj keys = (states, out) -> out = Ok obj' ->
  exists l, plain obj' = Ok l /\ convert of_int keys obj = Ok obj' /\ last states None = Some (print frepr (JObj l)).
Proof.
  unfold dump_json. intros E ->. destruct (convert of_int keys obj) as [o|e] eqn:Cv; [|discriminate E].
  destruct (plain o) as [l|e] eqn:Pl; [|discriminate E]. injection E as <- <-. exists l. repeat split; auto.
  set (doc := print frepr (JObj l)). assert (L : (1 <= length doc)%nat) by (unfold doc; rewrite print_obj; cbn; lia).
  destruct (length doc) as [|n] eqn:E; [lia|]. rewrite seq_S, map_app. cbn [map]. rewrite app_assoc, last_last.
  f_equal. replace (1 + n)%nat with (length doc) by lia. apply firstn_all.
Qed.

(** ** Reading back with arrays *)

Lemma lookup_update {A} (d : list (text * A)) k v k' : lookup (update d k v) k' = if eqb_text k k' then Some v else lookup d k'.
Proof.
  induction d as [|[a b] d IH]; cbn; [reflexivity|].
  destruct (eqb_text a k) eqn:E; cbn.
  - apply eqb_text_eq in E. subst a. destruct (eqb_text k k') eqn:E2; reflexivity.
  - rewrite IH. destruct (eqb_text a k') eqn:E2; [|reflexivity]. apply eqb_text_eq in E2. subst a.
    destruct (eqb_text k k') eqn:E3; [|reflexivity]. apply eqb_text_eq in E3. subst k.
    assert (X : eqb_text k' k' = true) by now apply eqb_text_eq. congruence.
Qed.

(** The array as it comes back: as floating point numbers. *)
Definition as_float (a : @arr F) : @arr F := match a with IntVec l => FloatVec (map of_int l) | _ => a end.
(** Arrays whose shape survives: a matrix has a row, and its rows have one length. *)
Definition arr_ok (a : @arr F) : Prop :=
  match a with FloatMat l => exists r0 r, l = r0 :: r /\ Forall (fun x => length x = length r0) l | _ => True end.

Lemma floats_map (l : list F) : floats (map (fun f => JFloat f) l) = Some l.
Proof. induction l as [|f l IH]; cbn; [reflexivity|]. now rewrite IH. Qed.

Lemma array_back a : arr_ok a -> np_array (tolist of_int a) = Ok (as_float a).
Proof.
  destruct a as [l|l|l]; cbn.
  - intros _. replace (map (fun z => JFloat (of_int z)) l) with (map (fun f => JFloat f) (map of_int l)) by apply map_map.
    now rewrite floats_map.
  - intros _. now rewrite floats_map.
  - intros (r0 & r & -> & H). cbn [map floats]. rewrite map_length.
    enough (G : forall l : list (list F), Forall (fun x => length x = length r0) l -> rows (length r0) (map (fun x => JArr (map (fun f => JFloat f) x)) l) = Some l).
    { pose proof (G _ H) as G'. cbn [map] in G'. now rewrite G'. }
    clear. induction 1 as [|x l Hx _ IH]; cbn; [reflexivity|]. rewrite floats_map, IH. rewrite (proj2 (Nat.eqb_eq _ _) Hx). reflexivity.
Qed.

(** [lookup]-wise description of dumping and loading. *)
Definition mem (k : text) (keys : list text) : bool := existsb (eqb_text k) keys.

Lemma mem_In k keys : mem k keys = true <-> In k keys.
Proof.
  unfold mem. rewrite existsb_exists. split; [intros (x & H & E); apply eqb_text_eq in E; now subst|intros H; exists k; split; [assumption|now apply eqb_text_eq]].
Qed.

Lemma eqb_text_sym a b : eqb_text a b = eqb_text b a.
Proof.
  destruct (eqb_text a b) eqn:E; symmetry.
  - apply eqb_text_eq in E. subst. now apply eqb_text_eq.
  - destruct (eqb_text b a) eqn:E2; [|reflexivity]. apply eqb_text_eq in E2. subst. rewrite (proj2 (eqb_text_eq a a) eq_refl) in E. discriminate E.
Qed.

Lemma update_fst {A} (d : list (text * A)) k v w : lookup d k = Some w -> map fst (update d k v) = map fst d.
Proof.
  induction d as [|[a b] d IH]; cbn; [discriminate|]. destruct (eqb_text a k) eqn:E; [reflexivity|]. cbn. intros H. now rewrite IH.
Qed.

Lemma convert_spec keys : forall obj obj', NoDup keys -> convert of_int keys obj = Ok obj' ->
  map fst obj' = map fst obj /\
  forall k, lookup obj' k = if mem k keys then match lookup obj k with Some (Arr a) => Some (Plain (tolist of_int a)) | x => x end else lookup obj k.
Proof.
  induction keys as [|k0 keys IH]; intros obj obj' Nd; cbn [convert]; [intros [= <-]; auto|].
  inversion Nd as [|? ? Ni Nd']; subst.
  destruct (lookup obj k0) as [[v|a]|] eqn:L; try discriminate. intros E. apply IH in E as [E1 E2]; [|assumption]. split.
  - rewrite E1. apply (update_fst _ _ _ _ L).
  - intros k. rewrite E2, lookup_update. cbn [mem existsb]. rewrite (eqb_text_sym k k0). fold (mem k keys).
    destruct (eqb_text k0 k) eqn:E; cbn [orb]; [|reflexivity]. apply eqb_text_eq in E. subst k0.
    destruct (mem k keys) eqn:M; [apply mem_In in M; contradiction|]. now rewrite L.
Qed.

Lemma attach_spec keys : forall (d : @pydict F), NoDup keys ->
  (forall k, In k keys -> exists v a, lookup d k = Some (Plain v) /\ np_array v = Ok a) ->
  exists d', attach keys d = Ok d' /\ map fst d' = map fst d /\
  forall k, lookup d' k = if mem k keys then match lookup d k with Some (Plain v) => match np_array v with Ok a => Some (Arr a) | Err _ => None end | x => x end else lookup d k.
Proof.
  induction keys as [|k0 keys IH]; intros d Nd H; cbn [attach]; [exists d; auto|].
  inversion Nd as [|? ? Ni Nd']; subst.
  destruct (H k0 (or_introl eq_refl)) as (v & a & L & A). rewrite L, A. cbn [bind].
  destruct (IH (update d k0 (Arr a)) Nd') as (d' & E & E1 & E2).
  { intros k Hk. destruct (H k (or_intror Hk)) as (v' & a' & L' & A'). exists v', a'. rewrite lookup_update.
    destruct (eqb_text k0 k) eqn:Ek; [apply eqb_text_eq in Ek; subst; contradiction|]. auto. }
  exists d'. split; [exact E|]. split; [rewrite E1; apply (update_fst _ _ _ _ L)|].
  intros k. rewrite E2, lookup_update. cbn [mem existsb]. rewrite (eqb_text_sym k k0). fold (mem k keys).
  destruct (eqb_text k0 k) eqn:Ek; cbn [orb]; [|reflexivity]. apply eqb_text_eq in Ek. subst k0.
  destruct (mem k keys) eqn:M; [apply mem_In in M; contradiction|]. now rewrite L, A.
Qed.

(** Dictionaries with the same keys in the same order and the same items are equal. *)
Lemma dict_ext {A} (d d' : list (text * A)) : NoDup (map fst d) -> map fst d = map fst d' ->
  (forall k, lookup d k = lookup d' k) -> d = d'.
Proof.
  revert d'. induction d as [|[k v] d IH]; intros [|[k' v'] d'] Nd E L; cbn in *; [reflexivity|discriminate|discriminate|].
  injection E as <- E. inversion Nd as [|? ? Ni Nd']; subst. f_equal.
  - specialize (L k). rewrite (proj2 (eqb_text_eq k k) eq_refl) in L. now injection L as ->.
  - apply IH; auto. intros k0. specialize (L k0). destruct (eqb_text k k0) eqn:Ek; [|assumption].
    apply eqb_text_eq in Ek. subst k0.
    assert (G : forall (x : list (text * A)), ~ In k (map fst x) -> lookup x k = None).
    { clear. induction x as [|[a b] x IH]; cbn; [reflexivity|]. intros N. destruct (eqb_text a k) eqn:E; [apply eqb_text_eq in E; tauto|]. apply IH. tauto. }
    rewrite !G; [reflexivity| |assumption]. now rewrite <- E.
Qed.

(** The dictionary load_dict returns: the listed keys hold floating point arrays. *)
Definition floated (obj : @pydict F) : @pydict F :=
  map (fun kv => (fst kv, match snd kv with Arr a => Arr (as_float a) | x => x end)) obj.

Lemma floated_lookup obj k : lookup (floated obj) k = match lookup obj k with Some (Arr a) => Some (Arr (as_float a)) | x => x end.
Proof.
  induction obj as [|[a b] obj IH]; cbn; [reflexivity|]. destruct (eqb_text a k); [destruct b; reflexivity|assumption].
Qed.

Lemma lookup_In {A} (d : list (text * A)) k v : NoDup (map fst d) -> In (k, v) d -> lookup d k = Some v.
Proof.
  induction d as [|[a b] d IH]; cbn; [intros _ []|]. intros Nd [E|H]; inversion Nd as [|? ? Ni Nd']; subst.
  - injection E as -> ->. now rewrite (proj2 (eqb_text_eq k k) eq_refl).
  - destruct (eqb_text a k) eqn:Ek; [|now apply IH]. apply eqb_text_eq in Ek. subst. exfalso. apply Ni. apply in_map_iff. now exists (k, v).
Qed.

Lemma lookup_some {A} (d : list (text * A)) k v : lookup d k = Some v -> In (k, v) d.
Proof.
  induction d as [|[a b] d IH]; cbn; [discriminate|]. destruct (eqb_text a k) eqn:Ek; [|auto]. apply eqb_text_eq in Ek. subst. intros [= ->]. now left.
Qed.

Theorem round_trip old obj keys states out :
  NoDup (map fst obj) -> NoDup keys ->
  (forall k, In k keys <-> exists a, In (k, Arr a) obj) ->
  (forall k a, In (k, Arr a) obj -> arr_ok a /\ json_ok (tolist of_int a)) ->
  (forall k v, In (k, Plain v) obj -> json_ok v) -> Forall str_ok (map fst obj) ->
  dump_json frepr of_int old obj keys = (states, out) ->
  (exists obj', out = Ok obj') /\ load_json fparse (last states None) keys = Ok (LDict (floated obj)).
Proof.
  intros Nd Nk Hk Ha Hp Hs E.
  assert (Cv : exists obj', convert of_int keys obj = Ok obj').
  { assert (G : forall keys obj, NoDup keys -> (forall k, In k keys -> exists a, lookup obj k = Some (Arr a)) -> exists obj', convert of_int keys obj = Ok obj').
    { clear. induction keys as [|k keys IH]; intros obj Nd H; cbn; [eauto|]. inversion Nd as [|? ? Ni Nd']; subst.
      destruct (H k (or_introl eq_refl)) as (a & ->). apply IH; [assumption|]. intros k' Hk'. rewrite lookup_update.
      destruct (eqb_text k k') eqn:Ek; [apply eqb_text_eq in Ek; subst; contradiction|]. apply H. now right. }
    apply G; [assumption|]. intros k I. apply Hk in I as (a & I). exists a. now apply lookup_In. }
  destruct Cv as (obj' & Cv). destruct (convert_spec _ _ _ Nk Cv) as [E1 E2].
  assert (Nd' : NoDup (map fst obj')) by now rewrite E1.
  assert (Kn : forall k v, In (k, v) obj' -> exists j, v = Plain j /\ json_ok j).
  { intros k v I. apply (lookup_In _ _ _ Nd') in I. rewrite E2 in I. destruct (lookup obj k) as [[j|a]|] eqn:L.
    - exists j. apply lookup_some, Hp in L. destruct (mem k keys); injection I as <-; auto.
    - destruct (mem k keys) eqn:M.
      + injection I as <-. exists (tolist of_int a). apply lookup_some, Ha in L. tauto.
      + exfalso. assert (X : mem k keys = true) by (apply mem_In, Hk; exists a; now apply lookup_some). congruence.
    - destruct (mem k keys); discriminate I. }
  assert (Pl : exists l, plain obj' = Ok l /\ Forall (fun kx => json_ok (snd kx)) l).
  { clear -Kn. induction obj' as [|[k v] d IH]; [exists []; split; [reflexivity|constructor]|].
    destruct IH as (l & El & Fl); [intros k' v' H; apply (Kn k' v'); now right|].
    destruct (Kn k v (or_introl eq_refl)) as (j & -> & Oj). exists ((k, j) :: l). cbn. rewrite El. split; [reflexivity|]. now constructor. }
  destruct Pl as (l & Pl & Fl). pose proof (plain_map _ _ Pl) as Em.
  assert (Ef : map fst l = map fst obj). { rewrite <- E1, Em, map_map. reflexivity. }
  assert (Wl : json_ok (JObj l)).
  { apply json_ok_obj. split; [now rewrite Ef|]. rewrite <- Ef in Hs. rewrite Forall_forall in *. intros x I. split; [|now apply Fl].
    apply Hs. now apply in_map. }
  assert (Eo : out = Ok obj'). { unfold dump_json in E. rewrite Cv, Pl in E. now injection E as _ <-. }
  split; [eauto|]. destruct (dump_last _ _ _ _ _ _ E Eo) as (l' & Pl' & _ & ->). assert (l' = l) as -> by congruence.
  unfold load_json. rewrite (loads_print frepr fparse _ Wl). rewrite <- Em.
  destruct (attach_spec keys obj' Nk) as (d' & -> & D1 & D2).
  { intros k I. apply Hk in I as I'. destruct I' as (a & I'). destruct (Ha _ _ I') as [Oa _]. apply (lookup_In _ _ _ Nd) in I'.
    exists (tolist of_int a), (as_float a). split; [|now apply array_back]. rewrite E2, I'. apply mem_In in I. now rewrite I. }
  cbn [bind]. f_equal. f_equal. apply dict_ext.
  - now rewrite D1.
  - rewrite D1, E1. unfold floated. rewrite map_map. reflexivity.
  - intros k. rewrite D2, floated_lookup, E2. destruct (mem k keys) eqn:M.
    + apply mem_In in M. apply Hk in M as (a & I). destruct (Ha _ _ I) as [Oa _]. apply (lookup_In _ _ _ Nd) in I. rewrite I.
      now rewrite array_back.
    + destruct (lookup obj k) as [[v|a]|] eqn:L; try reflexivity. exfalso.
      assert (X : mem k keys = true) by (apply mem_In, Hk; exists a; now apply lookup_some). congruence.
Qed.

(** ** Pickle *)
Section PICKLE.
Variable O : Type.
Variable dumped : O -> text.
Variable unpickle : text -> res O.

Theorem pickle_states old obj c :
  (forall p q, dumped obj = p ++ q -> q <> [] -> unpickle p = Err EOFError \/ unpickle p = Err UnpicklingError) ->
  In c (dump_pickle O dumped old obj) ->
  c = old \/ c = Some (dumped obj) \/ damaged_pickle O unpickle c = Err EOFError \/ damaged_pickle O unpickle c = Err UnpicklingError.
Proof.
  intros T I. destruct I as [<-|I]; [now left|]. right. apply in_map_iff in I as (k & <- & I). apply in_seq in I.
  destruct (Nat.eq_dec k (length (dumped obj))) as [->|N]; [left; now rewrite firstn_all|]. right.
  unfold damaged_pickle, load_pickle. destruct (T (firstn k (dumped obj)) (skipn k (dumped obj))) as [-> | ->]; auto.
  - symmetry. apply firstn_skipn.
  - intros E. apply (f_equal (@length Z)) in E. rewrite skipn_length in E. change (length (@nil Z)) with 0%nat in E. lia.
Qed.
End PICKLE.

End FILES.
