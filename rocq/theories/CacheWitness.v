(** Derived forms and witnesses used in PropsCache.v. *)

From Coq Require Import List ZArith Bool Lia Arith.
From Verif Require Import Np JsonModel JsonFacts CacheModel CacheFacts CacheRuns FoldModel FoldFacts JobModel JobFacts.
Import ListNotations.
Open Scope nat_scope.

Local Opaque print.

Section D.
Context {F : Type}.

Lemma truncated_spec (frepr : F -> text) fparse l k :
  json_ok frepr fparse (JObj l) ->
  damaged_json fparse (Some (firstn k (print frepr (JObj l)))) = Ok (k <? length (print frepr (JObj l))).
Proof.
  intros W. destruct (Nat.ltb_spec k (length (print frepr (JObj l)))) as [L|L].
  - now apply damaged_nat.
  - rewrite firstn_all2 by assumption. now apply damaged_full.
Qed.

Lemma check_total (fparse : text -> F) c : exists b, damaged_json fparse c = Ok b.
Proof.
  unfold damaged_json, load_json. destruct c as [s|]; [|cbn; eauto].
  pose proof (loads_no_fuel fparse s) as N. destruct (loads fparse s) as [v r| |]; [destruct v| |congruence]; cbn; eauto.
Qed.

Lemma plain_round_trip (frepr : F -> text) fparse of_int old l states out :
  json_ok frepr fparse (JObj l) ->
  dump_json frepr of_int old (map (fun kv => (fst kv, Plain (snd kv))) l) [] = (states, out) ->
  load_json fparse (last states None) [] = Ok (LDict (map (fun kv => (fst kv, Plain (snd kv))) l)).
Proof.
  intros W E. assert (Nd := W). apply json_ok_obj in Nd as [Nd Fa].
  assert (Ks : map fst (map (fun kv : text * json F => (fst kv, Plain (snd kv))) l) = map fst l) by (rewrite map_map; reflexivity).
  destruct (round_trip frepr fparse of_int old (map (fun kv => (fst kv, Plain (snd kv))) l) [] states out) as [_ R]; auto.
  - rewrite Ks. assumption.
  - constructor.
  - intros k. split; [intros []|]. intros (a & I). apply in_map_iff in I as (kv & [= _ H] & _).
  - intros k a I. apply in_map_iff in I as (kv & [= _ H] & _).
  - intros k v I. apply in_map_iff in I as (kv & [= <- <-] & I). rewrite Forall_forall in Fa. now apply Fa in I.
  - rewrite Ks. apply Forall_forall. intros k I. apply in_map_iff in I as (kv & <- & I). rewrite Forall_forall in Fa. now apply Fa in I.
  - rewrite R. do 2 f_equal. unfold floated. rewrite map_map. reflexivity.
Qed.
End D.

Lemma pickle_not_intact O (dumped : O -> text) unpickle old obj c :
  (forall p q, dumped obj = p ++ q -> q <> [] -> unpickle p = Err EOFError \/ unpickle p = Err UnpicklingError) ->
  In c (dump_pickle O dumped old obj) ->
  c = old \/ c = Some (dumped obj) \/ damaged_pickle O unpickle c <> Ok false.
Proof. intros T I. destruct (pickle_states O dumped unpickle old obj c T I) as [H|[H|[H|H]]]; auto; right; right; rewrite H; discriminate. Qed.

Lemma pickle_raises O (dumped : O -> text) unpickle obj k :
  (forall p q, dumped obj = p ++ q -> q <> [] -> unpickle p = Err EOFError \/ unpickle p = Err UnpicklingError) ->
  k < length (dumped obj) ->
  damaged_pickle O unpickle (Some (firstn k (dumped obj))) = Err EOFError \/
  damaged_pickle O unpickle (Some (firstn k (dumped obj))) = Err UnpicklingError.
Proof.
  intros T L. unfold damaged_pickle, load_pickle. destruct (T (firstn k (dumped obj)) (skipn k (dumped obj))) as [-> | ->]; auto.
  - symmetry. apply firstn_skipn.
  - intros E. apply (f_equal (@length Z)) in E. rewrite skipn_length in E. change (length (@nil Z)) with 0 in E. lia.
Qed.

Lemma eval_key Classifier Params showc showp md5 r f (c : Classifier) (p : Params) r' f' c' p' :
  (forall a b, md5 a = md5 b -> a = b) ->
  (forall c p c' p', showc c ++ showp p = showc c' ++ showp p' -> c = c' /\ p = p') ->
  (eval_target _ _ showc showp md5 r f c p = eval_target _ _ showc showp md5 r' f' c' p' <->
   r = r' /\ f = f' /\ c = c' /\ p = p').
Proof.
  intros M I. unfold eval_target. split; [|now intros (-> & -> & -> & ->)].
  intros E. apply evaluation_name_inj in E as (-> & -> & E). apply M, I in E as [-> ->]. auto.
Qed.

Lemma scaler_ignored F (frepr : F -> text) fparse Params Scaler Data (show : text -> Params -> text) md5 compute
    fs (q : request Params Scaler Data) s d fs' :
  json_ok frepr fparse (JObj (compute q)) -> fs (target _ _ _ show md5 q) = None ->
  run_job frepr fparse _ _ _ show md5 compute false fs q = Ok fs' ->
  let q' := {| q_repeat := q_repeat _ _ _ q; q_fold := q_fold _ _ _ q; q_oversampler := q_oversampler _ _ _ q;
               q_params := q_params _ _ _ q; q_scaler := s; q_data := d |} in
  run_job frepr fparse _ _ _ show md5 compute false fs' q' = Ok fs' /\
  read_result fparse _ _ _ show md5 fs' q' = Ok (LDict (map (fun kv => (fst kv, Plain (snd kv))) (compute q))).
Proof.
  intros W N E q'. apply (reuse frepr fparse show md5 compute fs q q' fs' W N); [|assumption]. repeat split.
Qed.

(** ** Witnesses *)

Local Transparent print.

Lemma same_name_race : exists w,
  history (fun t : text => t) (fun t => t) 2 (fun _ => t_json) (fun _ => None) (fun _ _ d => d = []) w /\
  at_ w 0 = Done /\ files w t_json = None.
Proof.
  eexists. split.
  - eapply h_step. eapply h_step. eapply h_step. eapply h_step. eapply h_step. eapply h_step. eapply h_step. eapply h_step.
    apply (h_start _ _ _ _ _ _ (fun _ => None)). reflexivity.
    + apply (s_compute _ _ _ _ _ _ _ 0 None []); [lia|reflexivity|reflexivity|reflexivity|reflexivity].
    + apply (s_compute _ _ _ _ _ _ _ 1 None []); [lia|reflexivity|reflexivity|reflexivity|reflexivity].
    + apply (s_remove _ _ _ _ _ _ _ 0 []). reflexivity.
    + apply (s_open _ _ _ _ _ _ _ 0 []). reflexivity.
    + apply (s_write _ _ _ _ _ _ _ 0 [] 0); [reflexivity|cbn; lia].
    + apply (s_write _ _ _ _ _ _ _ 0 [] 1); [reflexivity|cbn; lia].
    + apply (s_close _ _ _ _ _ _ _ 0 [] 2); reflexivity.
    + apply (s_remove _ _ _ _ _ _ _ 1 []). reflexivity.
  - split; reflexivity.
Qed.

Definition ex_float : text := [49; 46; 53]%Z.
Definition ex_obj : @pydict text := [([120%Z], Plain (JArr [JFloat ex_float; JFloat ex_float])); ([121%Z], Arr (IntVec [1; 2]%Z)); ([110%Z], Plain (JStr [97; 10]%Z))].
Definition ex_of_int (z : Z) : text := print_int z ++ [46; 48]%Z.
Definition ex_dumped (o : Z) : text := [1%Z; o].
Definition ex_unpickle (t : text) : res Z := match t with [] => Err EOFError | [_] => Err UnpicklingError | _ :: o :: _ => Ok o end.
Definition ex_request (s : bool) : request nat bool unit := {| q_repeat := 0; q_fold := 1; q_oversampler := t_over; q_params := 5; q_scaler := s; q_data := tt |}.
Definition ex_compute (q : request nat bool unit) : list (text * json text) := [([120%Z], JBool (q_scaler _ _ _ q))].

Definition ex_nm (j : nat) : text := [Z.of_nat j].
Definition ex_dep (j : nat) : option nat := match j with 0 => None | _ => Some 0 end.
Definition ex_result (j : nat) (o : option (@document text)) (d : @document text) : Prop :=
  d = match j with 0 => [] | _ => [([97%Z], JBool true)] end.

Lemma str_small l : Forall (fun c => (0 <= c < 55296)%Z) l -> str_ok l.
Proof.
  intros H. split; [eapply Forall_impl; [|exact H]; cbv beta; intros c Hc; unfold is_char; lia|].
  induction H as [|c l Hc H IH]; cbn [no_pair]; [exact I|]. destruct l as [|d l]; [exact I|]. split; [|exact IH].
  unfold is_high. destruct (Z.leb_spec 55296 c); [lia|]. intros [E _]. discriminate E.
Qed.

Lemma one_point a b : is_digit a = true -> is_digit b = true -> float_text [a; 46%Z; b].
Proof.
  intros A B. right. right. right. exists [], a, [], [46%Z; b], [].
  split; [reflexivity|]. split; [now left|]. split; [repeat constructor; assumption|]. split; [reflexivity|].
  split; [right; exists b, []; split; [reflexivity|repeat constructor; assumption]|]. split; [now left|]. left. discriminate.
Qed.

Lemma ex_obj_ok : NoDup (map fst ex_obj) /\
  (forall k a, In (k, Arr a) ex_obj -> arr_ok a /\ json_ok (fun t : text => t) (fun t => t) (tolist ex_of_int a)) /\
  (forall k v, In (k, Plain v) ex_obj -> json_ok (fun t : text => t) (fun t => t) v) /\ Forall str_ok (map fst ex_obj).
Proof.
  repeat split.
  - repeat constructor; cbn; intuition discriminate.
  - destruct H as [[=]|[[= _ <-]|[[=]|[]]]]. exact I.
  - destruct H as [[=]|[[= _ <-]|[[=]|[]]]]. cbn. repeat split; now apply one_point.
  - intros k v H. destruct H as [[= _ <-]|[[=]|[[= _ <-]|[]]]].
    + cbn. repeat split; now apply one_point.
    + apply str_small. repeat constructor; lia.
  - repeat constructor; cbn; lia.
Qed.

Lemma ex_pickle_ok : (forall p q, ex_dumped 7%Z = p ++ q -> q <> [] -> ex_unpickle p = Err EOFError \/ ex_unpickle p = Err UnpicklingError) /\
  ex_unpickle (ex_dumped 7%Z) = Ok 7%Z /\ damaged_pickle Z ex_unpickle (Some []) = Err EOFError.
Proof.
  split; [|split; reflexivity]. intros p q E N. unfold ex_dumped in E. destruct p as [|a [|b p]]; cbn in *; auto.
  injection E as _ _ E. symmetry in E. apply app_eq_nil in E as [_ E]. contradiction.
Qed.

Lemma scaler_example :
  let run := run_job (fun t : text => t) (fun t => t) _ _ _ (fun o p => o ++ print_int (Z.of_nat p)) (fun t => t) ex_compute false in
  ex_compute (ex_request true) <> ex_compute (ex_request false) /\
  exists fs fs', run (fun _ => None) (ex_request true) = Ok fs /\ run fs (ex_request false) = Ok fs' /\
    read_result (fun t => t) _ _ _ (fun o p => o ++ print_int (Z.of_nat p)) (fun t => t) fs' (ex_request false) = Ok (LDict [([120%Z], Plain (JBool true))]).
Proof.
  intros run. split; [discriminate|]. eexists. eexists. split; [reflexivity|].
  apply (reuse (fun t : text => t) (fun t => t) (fun o p => o ++ print_int (Z.of_nat p)) (fun t => t) ex_compute (fun _ => None) (ex_request true) (ex_request false)); auto.
  - cbn. repeat constructor; cbn; try lia.
  - repeat split.
Qed.

Lemma ex_setting : setting (fun t : text => t) (fun t => t) 2 ex_nm ex_dep ex_result.
Proof.
  split.
  - intros i j _ _ E. injection E as E. now apply Nat2Z.inj.
  - intros [|j] i L E; [discriminate|]. injection E as <-. split; [lia|reflexivity].
  - intros j o d ->. destruct j; cbn; repeat split; repeat constructor; cbn; try lia; try (intros []); try discriminate.
Qed.

Lemma interrupted_run : exists w,
  setting (fun t : text => t) (fun t => t) 2 ex_nm ex_dep ex_result /\
  history (fun t : text => t) (fun t => t) 2 ex_nm ex_dep ex_result w /\
  damaged_json (fun t : text => t) (files w (ex_nm 0)) = Ok true /\ files w (ex_nm 0) <> None /\
  exists w', history (fun t : text => t) (fun t => t) 2 ex_nm ex_dep ex_result w' /\
    (forall j, j < 2 -> at_ w' j = Done) /\
    files w' (ex_nm 0) = Some (print (fun t : text => t) (JObj [])) /\
    files w' (ex_nm 1) = Some (print (fun t : text => t) (JObj [([97%Z], JBool true)])).
Proof.
  assert (H : exists w, history (fun t : text => t) (fun t => t) 2 ex_nm ex_dep ex_result w /\
    damaged_json (fun t : text => t) (files w (ex_nm 0)) = Ok true /\ files w (ex_nm 0) <> None).
  { eexists. split.
    - eapply h_step. eapply h_step. eapply h_step. eapply h_step. eapply h_step.
      apply (h_start _ _ _ _ _ _ (fun _ => None)). reflexivity.
      + apply (s_compute _ _ _ _ _ _ _ 0 None []); [lia|reflexivity|reflexivity|reflexivity|reflexivity].
      + apply (s_remove _ _ _ _ _ _ _ 0 []). reflexivity.
      + apply (s_open _ _ _ _ _ _ _ 0 []). reflexivity.
      + apply (s_write _ _ _ _ _ _ _ 0 [] 0); [reflexivity|cbn; lia].
      + apply (s_restart _ _ _ _ _ _ _ (fun _ => false)).
    - split; [reflexivity|discriminate]. }
  destruct H as (w & H & D & N). exists w. split; [apply ex_setting|]. repeat split; auto.
  destruct (completable _ _ 2 ex_nm ex_dep ex_result ex_setting) with (w := w) as (w' & P & All); auto.
  { intros j o L. eexists. reflexivity. }
  assert (H' : history (fun t : text => t) (fun t => t) 2 ex_nm ex_dep ex_result w') by (eapply progress_history; eauto).
  exists w'. repeat split; auto.
  - destruct (done_complete _ _ _ _ _ _ ex_setting w' 0 H') as (d & Dd & ->); auto. cbn in Dd. now rewrite Dd.
  - destruct (done_complete _ _ _ _ _ _ ex_setting w' 1 H') as (d & Dd & ->); auto. destruct Dd as (o & _ & ->). reflexivity.
Qed.
