(** Derived forms and witnesses used in PropsEval.v. *)

From Coq Require Import List ZArith QArith Bool Arith Lia Permutation String.
From Verif Require Import Np PyVal BaseModel BaseFacts JsonModel JsonFacts CacheModel FoldModel FoldFacts JobModel JobFacts.
Import ListNotations.
Open Scope nat_scope.

(** ** Tables *)

(** The scores of the rows with configuration [c], NaN left out. *)
Definition scores_of (same : config -> config -> bool) (c : config) (rows : list (config * option Q)) : list Q :=
  flat_map (fun r => if same (fst r) c then match snd r with Some q => [q] | None => [] end else []) rows.
(** [m] is the mean of [v]; NaN for no values. *)
Definition mean_of (v : list Q) (m : option Q) : Prop :=
  match m with
  | None => v = []
  | Some q => v <> [] /\ (q * inject_Z (Z.of_nat (Datatypes.length v)) == fold_right Qplus 0 v)%Q
  end.

Lemma mean_skipna_spec l : mean_of (flat_map (fun x => match x with Some q => [q] | None => [] end) l) (mean_skipna l).
Proof.
  unfold mean_skipna, mean_of. set (v := flat_map _ l). destruct v as [|q t] eqn:E; [reflexivity|]. split; [discriminate|].
  field. unfold Qeq, inject_Z. cbn. lia.
Qed.

Lemma table_spec same rows : (forall a b, same a b = true <-> a = b) ->
  NoDup (map fst (parse_results rows)) /\
  (forall c, In c (map fst rows) <-> In c (map fst (parse_results rows))) /\
  (forall c m, In (c, m) (parse_results rows) -> mean_of (scores_of same c rows) m).
Proof.
  intros S. destruct (parse_spec rows) as [Nd Sp].
  split; [assumption|]. split.
  - intros c. split.
    + intros H. apply in_map_iff. eexists (c, _). split; [reflexivity|]. apply Sp. split; [assumption|reflexivity].
    + intros H. apply in_map_iff in H as ([c' m] & <- & H). now apply Sp in H.
  - intros c m H. apply Sp in H as [_ ->].
    assert (E : scores_of same c rows = flat_map (fun x => match x with Some q => [q] | None => [] end) (map snd (filter (fun r => keys_eqb (all_keys (fst r)) (all_keys c)) rows))).
    { clear Nd Sp. unfold scores_of. induction rows as [|r rows IH]; [reflexivity|]. cbn [flat_map filter].
      assert (Ek : keys_eqb (all_keys (fst r)) (all_keys c) = same (fst r) c).
      { destruct (same (fst r) c) eqn:E1; [apply S in E1; apply keys_eqb_eq; congruence|].
        destruct (keys_eqb (all_keys (fst r)) (all_keys c)) eqn:E2; [|reflexivity]. apply keys_eqb_eq, all_keys_inj, S in E2. congruence. }
      rewrite Ek. destruct (same (fst r) c); cbn [map flat_map snd app]; [f_equal|]; apply IH. }
    rewrite E. apply mean_skipna_spec.
Qed.

(** ** Completed and timed-out folds *)

Lemma dset_order {A} (d : list (string * A)) k v :
  map fst (dset d k v) = if existsb (String.eqb k) (map fst d) then map fst d else map fst d ++ [k].
Proof.
  induction d as [|[k' w] d IH]; cbn; [reflexivity|]. rewrite (String.eqb_sym k k'). destruct (String.eqb k' k) eqn:E; cbn; [reflexivity|].
  rewrite IH. destruct (existsb (String.eqb k) (map fst d)); reflexivity.
Qed.

Lemma existsb_In k l : existsb (String.eqb k) l = true <-> In k l.
Proof.
  rewrite existsb_exists. split; [intros (x & I & E); apply String.eqb_eq in E; now subst|]. intros I. exists k. split; [assumption|apply String.eqb_refl].
Qed.

Lemma coalesce_keys {A} (d0 d1 : list (string * A)) : NoDup (map fst d0) ->
  map fst (coalesce_dict (Some d0) d1) = map fst d1 ++ filter (fun k => negb (existsb (String.eqb k) (map fst d1))) (map fst d0).
Proof.
  unfold coalesce_dict. revert d1. induction d0 as [|[k v] d0 IH]; intros d1 Nd; cbn; [now rewrite app_nil_r|].
  inversion Nd as [|? ? Ni Nd']; subst. rewrite IH, dset_order by assumption.
  destruct (existsb (String.eqb k) (map fst d1)) eqn:E; cbn [negb]; [reflexivity|]. rewrite <- app_assoc. cbn. do 2 f_equal.
  apply filter_ext_in. intros a Ha. f_equal. rewrite existsb_app. cbn. rewrite orb_false_r.
  destruct (String.eqb_spec a k) as [->|]; [contradiction|]. now rewrite orb_false_r.
Qed.

Lemma dict_eq {A} (d e : list (string * A)) : NoDup (map fst d) -> map fst d = map fst e -> (forall k, dget d k = dget e k) -> d = e.
Proof.
  revert e. induction d as [|[k v] d IH]; intros [|[k' v'] e] Nd E H; try discriminate; [reflexivity|].
  cbn in E. injection E as -> E. inversion Nd as [|? ? Ni Nd']; subst.
  pose proof (H k') as H0. cbn in H0. rewrite String.eqb_refl in H0. injection H0 as ->. f_equal. apply IH; auto.
  intros k. specialize (H k). cbn in H. destruct (String.eqb_spec k' k) as [->|N]; [|assumption].
  rewrite (proj2 (dget_none d k)) by assumption. rewrite E in Ni. now rewrite (proj2 (dget_none e k)).
Qed.

Lemma same_entries {A} (g p : list (string * A)) k : NoDup (map fst g) -> incl (map fst p) (map fst g) ->
  dget (coalesce_dict (Some g) p) k = dget g k.
Proof.
  intros Nd I. rewrite coalesce_dict_get by assumption. destruct (dget g k) as [v|] eqn:E; [reflexivity|].
  apply dget_none. apply dget_none in E. intros H. apply E, I, H.
Qed.

Lemma same_order {A} (g p : list (string * A)) : NoDup (map fst g) -> NoDup (map fst p) -> incl (map fst p) (map fst g) ->
  (coalesce_dict (Some g) p = g <-> exists rest, map fst g = map fst p ++ rest).
Proof.
  intros Ng Np I. split.
  - intros E. eexists. rewrite <- (coalesce_keys g p Ng). now rewrite E.
  - intros (rest & E). apply dict_eq.
    + now apply coalesce_dict_nodup.
    + rewrite coalesce_keys by assumption. rewrite E at 1. rewrite filter_app, E. f_equal.
      assert (F1 : filter (fun k => negb (existsb (String.eqb k) (map fst p))) (map fst p) = []).
      { assert (G : forall l, incl l (map fst p) -> filter (fun k => negb (existsb (String.eqb k) (map fst p))) l = []).
        { induction l as [|a l IH]; intros H; [reflexivity|]. cbn. rewrite (proj2 (existsb_In a (map fst p))) by (apply H; now left). cbn. apply IH. intros x Hx. apply H. now right. }
        apply G. intros x Hx. exact Hx. }
      rewrite F1. cbn [app]. assert (F2 : forall a, In a rest -> ~ In a (map fst p)).
      { intros a Ha Hp. rewrite E in Ng. clear -Ng Ha Hp. induction (map fst p) as [|b l IH]; [destruct Hp|].
        cbn in Ng. inversion Ng as [|? ? Ni Nd]; subst. destruct Hp as [->|Hp]; [apply Ni, in_app_iff; now right|auto]. }
      clear -F2. induction rest as [|a r IH]; [reflexivity|]. cbn. destruct (existsb (String.eqb a) (map fst p)) eqn:Ex.
      * apply existsb_In in Ex. exfalso. apply (F2 a); [now left|assumption].
      * cbn. f_equal. apply IH. intros x Hx. apply F2. now right.
    + intros k. now apply same_entries.
Qed.

(** Two folds of one configuration, one completed, one timed out. *)
Definition ex_get_params : list (string * Q) := [("proportion"%string, 1%Q); ("n_neighbors"%string, 3%Q)].
Definition ex_params : list (string * Q) := [("n_neighbors"%string, 3%Q)].
Definition ex_os : oversampler nat nat (list (string * Q)) := {| os_params := ex_get_params; os_sample := fun X y => Ok (X, y); os_prep := fun X => Ok X |}.
Definition ex_fold : fold nat nat nat := {| f_X_train := 4; f_y_train := 1; f_X_test := 6; f_y_test := 2; f_desc := 0 |}.
Definition ex_config (oparams : text) : config :=
  {| k_dataset := []; k_omodule := []; k_oversampler := []; k_classifier := []; k_oparams := oparams; k_cmodule := []; k_cparams := [] |}.

Lemma timed_out_apart : exists o,
  do_oversampling nat nat nat _ None ex_os (coalesce_dict (Some (os_params _ _ _ ex_os)) ex_params) ex_fold = Ok o /\
  (forall k, dget (o_params _ _ _ _ o) k = dget (o_params _ _ _ _ (timeout nat nat nat _ None ex_os ex_fold)) k) /\
  (forall show : list (string * Q) -> text, (forall a b, show a = show b -> a = b) -> forall s1 s2,
   List.length (parse_results [(ex_config (show (o_params _ _ _ _ o)), s1);
                               (ex_config (show (o_params _ _ _ _ (timeout nat nat nat _ None ex_os ex_fold))), s2)]) = 2).
Proof.
  eexists. split; [reflexivity|]. split.
  - intros k. apply same_entries; [repeat constructor; cbn; intuition discriminate|]. intros x [<-|[]]. cbn. auto.
  - intros show Inj s1 s2. set (a := show _). set (b := show (o_params _ _ _ _ (timeout _ _ _ _ _ _ _))).
    assert (N : a <> b) by (intros E; apply Inj in E; discriminate E).
    destruct (table_spec (fun x y => keys_eqb (all_keys x) (all_keys y)) [(ex_config a, s1); (ex_config b, s2)]) as (Nd & Cs & _).
    { intros x y. rewrite keys_eqb_eq. split; [apply all_keys_inj|congruence]. }
    rewrite <- (map_length fst). apply Nat.le_antisymm.
    + apply (NoDup_incl_length Nd (l' := [ex_config a; ex_config b])). intros x Hx. apply Cs in Hx. exact Hx.
    + assert (N2 : NoDup [ex_config a; ex_config b]).
      { constructor; [|constructor; [intros []|constructor]]. intros [E|[]]. apply N. now injection E. }
      apply (NoDup_incl_length N2 (l' := map fst (parse_results [(ex_config a, s1); (ex_config b, s2)]))). intros x Hx. apply Cs. exact Hx.
Qed.

(** ** Scales *)

Lemma raw_test {M Y D P} sc (os : oversampler M Y P) co f o : (forall x, os_prep _ _ _ os x = Ok x) ->
  do_oversampling M Y D P sc os co f = Ok o -> o_error _ _ _ _ o = None -> o_X_test _ _ _ _ o = f_X_test _ _ _ f.
Proof. intros Pr E N. apply sampling_scale in E. rewrite N in E. destruct E as [[_ E] _]. rewrite Pr in E. now injection E. Qed.

(** ** Folds *)

Lemma stale_fold : exists dir, folding_files t_json dir (names_of 1 2 t_json) <> names_of 1 2 t_json /\
  In (fold_name 0 4 t_json) (folding_files t_json dir (names_of 1 2 t_json)) /\
  forall n, In n dir -> exists f, f < 5 /\ n = fold_name 0 f t_json.
Proof.
  exists (names_of 1 5 t_json). split; [vm_compute; discriminate|]. split; [vm_compute; tauto|].
  intros n H. apply in_map_iff in H as (rf & <- & H). cbn in H.
  destruct H as [<-|[<-|[<-|[<-|[<-|[]]]]]]; eexists; (split; [|reflexivity]); cbn; lia.
Qed.

Lemma stats_wrong :
  label_stats [1; 2]%Z [30; 70] = Err IndexError /\ label_stats [-1; 1]%Z [30; 70] = Ok (70, 70, (70 # 70)%Q).
Proof. split; vm_compute; reflexivity. Qed.

Lemma fold_split_spec row label (data : list row) (target : list label) a n_splits n_repeats splits h g h' :
  List.length target = List.length data ->
  split_contract data n_splits n_repeats splits -> generate row label data target a n_splits h 0 splits = Ok (g, h') ->
  forall df, In df (consumed _ _ g) ->
  Permutation (combine (X_train _ _ (snd df)) (y_train _ _ (snd df)) ++ combine (X_test _ _ (snd df)) (y_test _ _ (snd df))) (combine data target).
Proof. exact (fun L => fold_split data target a n_splits L n_repeats splits h g h'). Qed.

Lemma fold_cover_spec row label (data : list row) (target : list label) a n_splits n_repeats splits h g h' r :
  List.length target = List.length data -> n_splits <> 0 ->
  split_contract data n_splits n_repeats splits -> generate row label data target a n_splits h 0 splits = Ok (g, h') -> r < n_repeats ->
  Permutation (flat_map (fun df => combine (X_test _ _ (snd df)) (y_test _ _ (snd df))) (filter (fun df => repeat_idx (fst df) =? r) (consumed _ _ g)))
              (combine data target).
Proof. exact (fun L => fold_cover data target a n_splits L n_repeats splits h g h' r). Qed.

Lemma names_spec r f r' f' ser :
  (fold_name r f ser = fold_name r' f' ser -> r = r' /\ f = f') /\
  (r < 10 * 10 * 10 * 10 -> f < 10 * 10 * 10 * 10 -> r' < 10 * 10 * 10 * 10 -> f' < 10 * 10 * 10 * 10 -> r < r' \/ (r = r' /\ f < f') ->
   text_leb (fold_name r f ser) (fold_name r' f' ser) = true /\ text_leb (fold_name r' f' ser) (fold_name r f ser) = false).
Proof. split; [apply fold_name_inj|apply fold_name_order]. Qed.

Lemma map_flat_map {A B C} (f : B -> C) (g : A -> list B) l : map f (flat_map g l) = flat_map (fun x => map f (g x)) l.
Proof. induction l as [|x l IH]; cbn; [reflexivity|]. now rewrite map_app, IH. Qed.

Lemma files_spec row label (data : list row) (target : list label) a n_splits n_repeats splits h g h' ser dir :
  n_splits <> 0 -> split_contract data n_splits n_repeats splits -> generate row label data target a n_splits h 0 splits = Ok (g, h') ->
  n_repeats <= 10 * 10 * 10 * 10 -> n_splits <= 10 * 10 * 10 * 10 ->
  (forall s, In s dir -> is_fold_file ser s = false) ->
  folding_files ser dir (cached_names _ _ ser g) =
  flat_map (fun r => map (fun f => fold_name r f ser) (seq 0 n_splits)) (seq 0 n_repeats).
Proof.
  intros Nz C G L1 L2 D. rewrite (cached_names_spec data target a n_splits n_repeats splits h g h' ser Nz C G).
  rewrite folding_files_spec by assumption. unfold names_of. rewrite map_flat_map. apply flat_map_ext. intros r. now rewrite map_map.
Qed.

Lemma failure_scale M Y D P sc (os : oversampler M Y P) co (f : fold M Y D) o e :
  do_oversampling M Y D P sc os co f = Ok o -> o_error _ _ _ _ o = Some e ->
  exists t, (forall s, sc = Some s -> t = s (f_X_train _ _ _ f) (f_y_train _ _ _ f)) /\ (sc = None -> t = fun x => x) /\
  o_X_train _ _ _ _ o = t (f_X_train _ _ _ f) /\ o_X_test _ _ _ _ o = t (f_X_test _ _ _ f) /\
  o_y_train _ _ _ _ o = f_y_train _ _ _ f /\ o_y_test _ _ _ _ o = f_y_test _ _ _ f /\ o_desc _ _ _ _ o = f_desc _ _ _ f /\
  o_X_train _ _ _ _ (timeout M Y D P sc os f) = o_X_train _ _ _ _ o /\ o_X_test _ _ _ _ (timeout M Y D P sc os f) = o_X_test _ _ _ _ o.
Proof.
  intros E H. apply sampling_scale in E. rewrite H in E. destruct E as [(E1 & E2 & E3 & _) [E4 E5]].
  exists (match sc with Some s => s (f_X_train _ _ _ f) (f_y_train _ _ _ f) | None => fun x => x end).
  rewrite E1, E2, E3, E4, E5. destruct sc; cbn; repeat split; try discriminate. now intros s' [= ->].
Qed.

Lemma job_outcome M Y D P sc (os : oversampler M Y P) co (f : fold M Y D) :
  let x := match sc with Some s => s (f_X_train _ _ _ f) (f_y_train _ _ _ f) (f_X_train _ _ _ f) | None => f_X_train _ _ _ f end in
  let job := do_oversampling M Y D P sc os co f in
  (forall xy t, os_sample _ _ _ os x (f_y_train _ _ _ f) = Ok xy -> os_prep _ _ _ os (f_X_test _ _ _ f) = Ok t ->
     exists o, job = Ok o /\ o_error _ _ _ _ o = None /\ o_params _ _ _ _ o = co) /\
  (forall e, os_sample _ _ _ os x (f_y_train _ _ _ f) = Err e \/
       (exists xy, os_sample _ _ _ os x (f_y_train _ _ _ f) = Ok xy /\ os_prep _ _ _ os (f_X_test _ _ _ f) = Err e) ->
     ((e = ValueError \/ e = RuntimeError) -> exists o, job = Ok o /\ o_error _ _ _ _ o = Some e /\ o_params _ _ _ _ o = co) /\
     (e <> ValueError -> e <> RuntimeError -> job = Err e)).
Proof.
  intros x job. subst job. unfold do_oversampling.
  change (scale M Y D sc f (f_X_train M Y D f)) with x. clearbody x. split.
  - intros [xs ys] t -> ->. cbn. eexists. split; [reflexivity|]. split; reflexivity.
  - intros e H. assert (E : (do xy <- os_sample M Y P os x (f_y_train M Y D f); do t <- os_prep M Y P os (f_X_test M Y D f); Ok (fst xy, snd xy, t)) = Err e).
    { destruct H as [->|(xy & -> & ->)]; reflexivity. }
    rewrite E. split.
    + intros [-> | ->]; eexists; (split; [reflexivity|]); split; reflexivity.
    + intros H1 H2. destruct e; congruence.
Qed.

Lemma success_scale M Y D P sc (os : oversampler M Y P) co (f : fold M Y D) o :
  do_oversampling M Y D P sc os co f = Ok o -> o_error _ _ _ _ o = None ->
  os_sample _ _ _ os (match sc with Some s => s (f_X_train _ _ _ f) (f_y_train _ _ _ f) (f_X_train _ _ _ f) | None => f_X_train _ _ _ f end)
    (f_y_train _ _ _ f) = Ok (o_X_train _ _ _ _ o, o_y_train _ _ _ _ o) /\
  os_prep _ _ _ os (f_X_test _ _ _ f) = Ok (o_X_test _ _ _ _ o) /\
  o_y_test _ _ _ _ o = f_y_test _ _ _ f /\ o_desc _ _ _ _ o = f_desc _ _ _ f.
Proof. intros E H. apply sampling_scale in E. rewrite H in E. destruct E as [[E1 E2] E3]. split; [exact E1|]. split; [exact E2|exact E3]. Qed.

Lemma loss_selected :
  model_selection [(ex_config [1%Z], Some (1 # 10)%Q); (ex_config [2%Z], Some (9 # 10)%Q)] = Ok (ex_config [2%Z]).
Proof. vm_compute. reflexivity. Qed.

Lemma clean_up_all all dir r f h ser :
  (In (evaluation_name r f h ser) dir -> In (evaluation_name r f h ser) (clean_up all dir)) /\
  ~ In (sampling_name r f h ser) (clean_up all dir) /\
  ~ In (fold_name r f ser) (clean_up true dir) /\
  (In (fold_name r f ser) dir -> In (fold_name r f ser) (clean_up false dir)) /\
  incl (clean_up all dir) dir.
Proof.
  split; [apply clean_up_keeps_evaluations|]. split; [apply (clean_up_removes all dir r f h ser)|]. split; [apply (clean_up_removes all dir r f h ser)|].
  split; [apply clean_up_keeps_folds|]. intros s H. now apply clean_up_spec in H.
Qed.

Lemma two_folds :
  let splits := [([2; 3], [0; 1]); ([0; 1], [2; 3])] in
  split_contract [10; 20; 30; 40] 2 1 splits /\
  exists g, generate nat nat [10; 20; 30; 40] [0; 1; 0; 1] 0 2 (fun _ => describe 2 0) 0 splits = Ok g /\
    map (fun df => (fold_idx (fst df), X_test _ _ (snd df))) (consumed _ _ (fst g)) = [(0, [10; 20]); (1, [30; 40])] /\
    map (fun df => fold_idx (fst df)) (retained _ _ g) = [1; 1] /\
    folding_files t_json [] (cached_names _ _ t_json (fst g)) = [fold_name 0 0 t_json; fold_name 0 1 t_json].
Proof.
  intros splits. split.
  - split; [reflexivity| |].
    + intros s [<-|[<-|[]]]; cbn; [|reflexivity]. change [2; 3; 0; 1] with ([2; 3] ++ [0; 1]). rewrite Permutation_app_comm. reflexivity.
    + intros r L. assert (r = 0) as -> by lia. reflexivity.
  - eexists. split; [reflexivity|]. split; [reflexivity|]. split; [reflexivity|]. vm_compute. reflexivity.
Qed.
