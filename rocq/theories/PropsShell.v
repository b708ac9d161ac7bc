(** Properties C134 to C139: the classifier wrappers, the configuration and the
    helpers of the plots. *)

From Coq Require Import String List ZArith QArith Bool Arith Lia Reals Permutation.
From Flocq Require Import Core Binary BinarySingleNaN.
From Verif Require Import Np NpFacts PyVal Float64 FloatFacts SimplexModel Spec CompModel ShellModel SpecShell ShellFacts ShellFacts2 ShellFacts3 ShellWitness.
Import ListNotations.
Open Scope nat_scope.
Local Open Scope string_scope.
Local Notation length := List.length.

(** C134. *)
Theorem C134_construct : forall O C make d1 d2 self, oc_init O C make (ADesc d1) (ADesc d2) = Ok self ->
  exists o c, make d1 = Ok o /\ make d2 = Ok c /\
    oc_get_params O C self = Ok [("oversampler", ADesc d1); ("classifier", ADesc d2)] /\
    getattr self "oversampler_obj" = Ok o /\ getattr self "classifier_obj" = Ok c /\ getattr self "classes_" = Ok ANone.
Proof. exact oc_init_ok. Qed.

Theorem C134_fit : forall O C sample fit predict predict_proba classes self X y self' u,
  oc_fit O C sample fit classes self X y = (Ok u, self') ->
  exists o o' c c' X_samp y_samp v l,
    getattr self "oversampler_obj" = Ok (ASampler o) /\ getattr self "classifier_obj" = Ok (AClassifier c) /\
    sample o X y = (Ok (X_samp, y_samp), o') /\ fit c X_samp y_samp = (Ok v, c') /\ classes c' = Ok l /\
    (forall Z, oc_predict O C predict self' Z = predict c' Z) /\
    (forall Z, oc_predict_proba O C predict_proba self' Z = predict_proba c' Z) /\
    getattr self' "classes_" = Ok (ALabels l) /\ oc_get_params O C self' = oc_get_params O C self.
Proof. intros. eapply oc_fit_ok; eassumption. Qed.

Theorem C134_failed_fit : forall O C sample fit classes self X y self' e,
  oc_fit O C sample fit classes self X y = (Err e, self') ->
  oc_get_params O C self' = oc_get_params O C self /\ getattr self' "classes_" = getattr self "classes_".
Proof. exact oc_fit_err. Qed.

Theorem C134_set_params : forall O C make sample fit predict predict_proba classes self ps self' u d1 d2,
  oc_get_params O C self = Ok [("oversampler", d1); ("classifier", d2)] ->
  oc_set_params O C make self ps = (Ok u, self') ->
  let d1' := updated ps "oversampler" d1 in let d2' := updated ps "classifier" d2 in
  oc_get_params O C self' = Ok [("oversampler", d1'); ("classifier", d2')] /\
  exists fresh, oc_init O C make d1' d2' = Ok fresh /\
    (forall Z, oc_predict O C predict self' Z = oc_predict O C predict fresh Z) /\
    forall X y,
      let a := oc_fit O C sample fit classes self' X y in let b := oc_fit O C sample fit classes fresh X y in
      fst a = fst b /\
      (forall Z, oc_predict O C predict (snd a) Z = oc_predict O C predict (snd b) Z /\
                 oc_predict_proba O C predict_proba (snd a) Z = oc_predict_proba O C predict_proba (snd b) Z) /\
      (fst a = Ok tt -> getattr (snd a) "classes_" = getattr (snd b) "classes_").
Proof. intros. eapply oc_set_like_new; eassumption. Qed.

Example C134_example : exists self self',
  oc_init _ _ sh_make (ADesc d_over) (ADesc d_clf) = Ok self /\
  oc_predict _ _ sh_predict self [[5]]%Q = Err ValueError /\
  oc_fit _ _ sh_sample sh_fit sh_classes self [[0];[1]]%Q [7;8]%Z = (Ok tt, self') /\
  oc_predict _ _ sh_predict self' [[5]]%Q = Ok [7]%Z /\
  getattr self' "classes_" = Ok (ALabels [7;8]%Z) /\
  fst (oc_set_params _ _ sh_make self' [("oversampler", ADesc d_over)]) = Ok tt.
Proof. eexists; eexists. repeat split; vm_compute; reflexivity. Qed.

(** A misspelt parameter is accepted and changes nothing. *)
Theorem C134_unknown_parameter_refuted : exists O C (make : _ -> res (attr O C)) self self' v,
  oc_init O C make (ADesc d_over) (ADesc d_clf) = Ok self /\
  oc_set_params O C make self [("clasifier", v)] = (Ok tt, self') /\
  oc_get_params O C self' = oc_get_params O C self.
Proof. exists unit, (option (list Z)), sh_make. eexists; eexists; exists (ADesc d_bad). repeat split; vm_compute; reflexivity. Qed.

(** Setting parameters of a fitted object, even to their present values, loses
    the fitted classifier but keeps classes_. *)
Theorem C134_fitted_state_refuted : exists O C (make : _ -> res (attr O C)) sample fit predict classes self self' self'' X y,
  oc_init O C make (ADesc d_over) (ADesc d_clf) = Ok self /\
  oc_fit O C sample fit classes self X y = (Ok tt, self') /\
  (exists l, oc_predict O C predict self' X = Ok l) /\
  oc_set_params O C make self' [] = (Ok tt, self'') /\
  oc_get_params O C self'' = oc_get_params O C self' /\
  oc_predict O C predict self'' X = Err ValueError /\
  getattr self'' "classes_" = getattr self' "classes_" /\ (exists l, getattr self'' "classes_" = Ok (ALabels l)).
Proof.
  exists unit, (option (list Z)), sh_make, sh_sample, sh_fit, sh_predict, sh_classes. eexists; eexists; eexists; exists [[0];[1]]%Q, [7;8]%Z.
  repeat split; try eexists; vm_compute; reflexivity.
Qed.

(** A failing set_params leaves new parameters together with the old objects:
    predictions go on as before. *)
Theorem C134_failed_set_refuted : exists O C (make : _ -> res (attr O C)) sample fit predict classes self self' self'' X y,
  oc_init O C make (ADesc d_over) (ADesc d_clf) = Ok self /\
  oc_fit O C sample fit classes self X y = (Ok tt, self') /\
  oc_set_params O C make self' [("classifier", ADesc d_bad)] = (Err AttributeError, self'') /\
  oc_get_params O C self'' = Ok [("oversampler", ADesc d_over); ("classifier", ADesc d_bad)] /\
  (exists l, oc_predict O C predict self'' X = Ok l /\ oc_predict O C predict self' X = Ok l).
Proof.
  exists unit, (option (list Z)), sh_make, sh_sample, sh_fit, sh_predict, sh_classes. eexists; eexists; eexists; exists [[0];[1]]%Q, [7;8]%Z.
  split; [vm_compute; reflexivity|]. split; [vm_compute; reflexivity|]. split; [vm_compute; reflexivity|]. split; [vm_compute; reflexivity|].
  eexists. split; vm_compute; reflexivity.
Qed.

(** C135. *)
Theorem C135_sqrt : forall ios p n, ml_fraction p = FStr "sqrt" -> exists h, hidden_size ios p n = Ok h /\ 1 <= h /\
  (1 <= n -> h * h <= n < (h + 1) * (h + 1)).
Proof. exact hidden_sqrt. Qed.

Theorem C135_share : forall ios p n x, ml_fraction p = FNum x -> is_finite x = true -> (0 <= B2R x <= 1)%R -> (Z.of_nat n <= 2 ^ 53)%Z ->
  let h := Nat.max 1 (Z.to_nat (Ztrunc (rnd64 (IZR (Z.of_nat n) * B2R x)))) in
  hidden_size ios p n = Ok h /\ 1 <= h <= Nat.max 1 n.
Proof. exact hidden_share. Qed.

Theorem C135_fit : forall ios M train mpredict (a b : mlp_state M) n X y, fst a = fst b ->
  let ra := mlp_fit ios M train a n X y in let rb := mlp_fit ios M train b n X y in
  fst ra = fst rb /\
  (fst ra = Ok tt ->
     snd ra = snd rb /\ fst (snd ra) = fst a /\
     exists h m, hidden_size ios (fst a) n = Ok h /\ train (fst a) h X y = Ok m /\
       forall Z, mlp_predict M mpredict (snd ra) Z = mpredict m Z) /\
  (forall e, fst ra = Err e -> snd ra = a).
Proof. exact mlp_fit_fresh. Qed.

Theorem C135_copy : forall M (a : mlp_state M), let b := mlp_copy M a in
  snd b = None /\ ml_activation (fst b) = ml_activation (fst a) /\ ml_fraction (fst b) = ml_fraction (fst a) /\
  ml_alpha (fst b) = ml_alpha (fst a) /\ ml_learning_rate (fst b) = ml_learning_rate (fst a) /\
  ml_random_state (fst b) = ml_random_state (fst a) /\
  (ml_max_iter (fst a) = PInt 10000 -> fst b = fst a).
Proof. exact mlp_copy_ok. Qed.

Example C135_example :
  ml_fraction (mlp_default PNone) = FStr "sqrt" /\ hidden_size sh_int (mlp_default PNone) 10 = Ok 3 /\
  hidden_size sh_int (mk_mlp PNone PNone (FNum (f_div (f_of_Z 1) (f_of_Z 2))) PNone PNone PNone) 10 = Ok 5.
Proof. repeat split; vm_compute; reflexivity. Qed.

(** The copy has the default number of iterations, whatever the original has. *)
Theorem C135_copy_refuted : exists M (a : mlp_state M), ml_max_iter (fst a) = PInt 5 /\ ml_max_iter (fst (mlp_copy M a)) = PInt 10000.
Proof. exists unit, (mk_mlp (PInt 5) PNone (FStr "sqrt") PNone PNone PNone, None). split; reflexivity. Qed.

(** A number given as a string is repeated instead of multiplied: "5" with three
    columns gives 555 neurons. *)
Theorem C135_string_refuted : exists ios p, ml_fraction p = FStr "5" /\ ios "555" = Ok 555%Z /\
  exists h, hidden_size ios p 3 = Ok h /\ Z.of_nat h = 555%Z.
Proof.
  exists sh_int, (mk_mlp PNone PNone (FStr "5") PNone PNone PNone). split; [reflexivity|]. split; [reflexivity|].
  eexists. split; [reflexivity|]. vm_compute. reflexivity.
Qed.

(** C136. *)
Theorem C136_fit : forall K kfit (self : mock K) X y,
  (mo_value K self = true -> fst (mock_fit K kfit self X y) = Err ValueError) /\
  (mo_value K self = false -> mo_runtime K self = true -> fst (mock_fit K kfit self X y) = Err RuntimeError) /\
  (mo_value K self = false -> mo_runtime K self = false ->
     (forall k, kfit (mo_knn K self) X y = Ok k ->
        fst (mock_fit K kfit self X y) = Ok (if mo_warning K self then 1 else 0) /\ mo_knn K (snd (mock_fit K kfit self X y)) = k) /\
     (forall e, kfit (mo_knn K self) X y = Err e -> fst (mock_fit K kfit self X y) = Err e)) /\
  (forall e, fst (mock_fit K kfit self X y) = Err e -> snd (mock_fit K kfit self X y) = self).
Proof. exact mock_fit_ok. Qed.

Example C136_example : let kfit := fun (k : nat) (X : list row) (y : list Z) => Ok (length X) in
  fst (mock_fit nat kfit (mk_mock nat true true true 0) [[1]]%Q [0]%Z) = Err ValueError /\
  mock_fit nat kfit (mk_mock nat false true false 0) [[1]]%Q [0]%Z = (Ok 1, mk_mock nat false true false 1).
Proof. split; reflexivity. Qed.

(** No labels come back from predict, fitted or not. *)
Theorem C136_predict_refuted : forall K (self : mock K) X, mock_predict K self X = None.
Proof. reflexivity. Qed.

(** C137. *)
Theorem C137_get : forall calls n, fst (flag_call (run_calls calls flags0) n PNone) = last_set n calls (default_of n).
Proof. exact flags_all. Qed.

Theorem C137_set : forall calls n v, v <> PNone -> fst (flag_call (run_calls calls flags0) n v) = v.
Proof. exact flags_set. Qed.

Example C137_example :
  fst (flag_call (run_calls [(External, PBool false); (Internal, PNone); (Chunk, PInt 7); (External, PNone)] flags0) External PNone) = PBool false /\
  fst (flag_call (run_calls [(External, PBool false); (Internal, PNone); (Chunk, PInt 7); (External, PNone)] flags0) Internal PNone) = PBool true /\
  fst (flag_call (run_calls [(External, PBool false); (Internal, PNone); (Chunk, PInt 7); (External, PNone)] flags0) Chunk PNone) = PInt 7.
Proof. repeat split. Qed.

(** C138. *)
Theorem C138_two : forall y i, n_labels y = 2 -> In 0%Z y -> In 1%Z y -> i < length y ->
  length (relabel_y (map LNum y)) = length y /\
  (nth i y 0%Z = 0%Z -> nth i (relabel_y (map LNum y)) "" = "majority") /\
  (nth i y 0%Z <> 0%Z -> nth i (relabel_y (map LNum y)) "" = "minority").
Proof. intros y i H1 H2 H3 H4. split; [rewrite relabel_length; apply map_length|]. now apply relabel_01. Qed.

Theorem C138_more : forall y i, i < length y -> n_labels y <> 2 ->
  length (relabel_y (map LNum y)) = length y /\
  nth i (relabel_y (map LNum y)) "" =
    if (nth i y 0 =? 0)%Z then "majority" else minority_name (n_smaller y (nth i y 0%Z)).
Proof. intros y i H1 H2. split; [rewrite relabel_length; apply map_length|]. now apply relabel_spec. Qed.

Theorem C138_distinct : forall y i j, i < length y -> j < length y -> n_labels y <> 2 ->
  nth i (relabel_y (map LNum y)) "" = nth j (relabel_y (map LNum y)) "" <-> nth i y 0%Z = nth j y 0%Z.
Proof. exact relabel_distinguishes. Qed.

Example C138_example :
  n_labels [0;1;1]%Z = 2 /\ relabel_y (map LNum [0;1;1]%Z) = ["majority"; "minority"; "minority"] /\
  n_labels [2;0;5]%Z = 3 /\ relabel_y (map LNum [2;0;5]%Z) = ["minority 1"; "majority"; "minority 2"].
Proof. repeat split; vm_compute; reflexivity. Qed.

(** Two classes other than 0 and 1 get the same name. *)
Theorem C138_two_labels_refuted : exists y i j, i < length y /\ j < length y /\ n_labels y = 2 /\ nth i y 0%Z <> nth j y 0%Z /\
  nth i (relabel_y (map LNum y)) "" = nth j (relabel_y (map LNum y)) "".
Proof. exists [5;7]%Z, 0, 1. repeat split; try (vm_compute; reflexivity); try discriminate; cbn; lia. Qed.

(** Plotting relabels the table of the caller, so a second plot of the same
    table shows one class only. *)
Theorem C138_second_plot_refuted : exists ys, plot_relabels ys = [LName "majority"; LName "minority"] /\
  plot_relabels (plot_relabels ys) = [LName "dummy"; LName "dummy"].
Proof. exists (map LNum [0;1]%Z). split; vm_compute; reflexivity. Qed.

(** C139. *)
Theorem C139_table : forall dim coordinates X y X' y',
  coordinates_ok dim coordinates -> wf_data X dim y -> wf_data X' dim y' ->
  exists ms, vector_labeling dim X y X' y' coordinates = Ok ms /\ table_of coordinates X y X' y' ms /\
    (Permutation coordinates (seq 0 dim) -> exact_table coordinates X y X' y' ms).
Proof. exact labeling_table. Qed.

Theorem C139_presence : forall coordinates X y X' y' ms m, table_of coordinates X y X' y' ms -> In m ms ->
  flag_of m <> None /\
  (flag_of m = Some New <-> seen coordinates X y (mg_coords m) (mg_y m) = 0) /\
  (flag_of m = Some Removed <-> seen coordinates X' y' (mg_coords m) (mg_y m) = 0) /\
  (original_flag m = true <-> 0 < seen coordinates X y (mg_coords m) (mg_y m)).
Proof. exact flags_any. Qed.

Theorem C139_flag : forall coordinates X y X' y' ms m, table_of coordinates X y X' y' ms -> exact_table coordinates X y X' y' ms -> In m ms ->
  flag_right (seen coordinates X y (mg_coords m) (mg_y m)) (seen coordinates X' y' (mg_coords m) (mg_y m)) (flag_of m).
Proof. exact flags_right. Qed.

Example C139_example :
  coordinates_ok 2 [1;0] /\ Permutation [1;0] (seq 0 2) /\ wf_data [[1;2];[1;2];[3;4]]%Q 2 [1;1;0]%Z /\ wf_data [[1;2];[5;6]]%Q 2 [1;1]%Z /\
  vector_labeling 2 [[1;2];[1;2];[3;4]]%Q [1;1;0]%Z [[1;2];[5;6]]%Q [1;1]%Z [1;0] =
    Ok [mk_merged [20000;10000]%Z 1 (Some 1) (Some 2); mk_merged [60000;50000]%Z 1 (Some 1) None; mk_merged [40000;30000]%Z 0 None (Some 1)].
Proof.
  split; [split; [repeat constructor; cbn; lia|cbn; intros c [<-|[<-|[]]]; lia]|]. split; [apply perm_swap|].
  split; [split; [repeat constructor|reflexivity]|]. split; [split; [repeat constructor|reflexivity]|]. vm_compute. reflexivity.
Qed.

(** Shown in two of three columns, a new row lying over an old one is counted
    as untouched: the flag compares the numbers of rows equal in all columns, the
    table is merged on the two. *)
Theorem C139_projection_refuted : exists dim coordinates X y X' y' ms,
  coordinates_ok dim coordinates /\ wf_data X dim y /\ wf_data X' dim y' /\
  vector_labeling dim X y X' y' coordinates = Ok ms /\
  seen coordinates X y [0;0]%Z 1 = 1 /\ seen coordinates X' y' [0;0]%Z 1 = 2 /\
  map flag_of ms = [Some Untouched; Some Untouched].
Proof.
  exists 3, [0;1], three_D, [1]%Z, three_D', [1;1]%Z. eexists.
  split; [split; [repeat constructor; cbn; lia|cbn; intros c [<-|[<-|[]]]; lia]|].
  split; [split; [repeat constructor|reflexivity]|]. split; [split; [repeat constructor|reflexivity]|].
  split; [vm_compute; reflexivity|]. split; [vm_compute; reflexivity|]. split; vm_compute; reflexivity.
Qed.

(** A row of the resampled data is not marked as resampled when its number has
    changed. *)
Theorem C139_resampled_flag_refuted : exists dim coordinates X y X' y' m,
  coordinates_ok dim coordinates /\ Permutation coordinates (seq 0 dim) /\ wf_data X dim y /\ wf_data X' dim y' /\
  vector_labeling dim X y X' y' coordinates = Ok [m] /\
  seen coordinates X' y' (mg_coords m) (mg_y m) = 2 /\ resampled_flag m = false.
Proof.
  exists 1, [0], [[1]]%Q, [1]%Z, [[1];[1]]%Q, [1;1]%Z. eexists.
  split; [split; [repeat constructor; cbn; lia|cbn; intros c [<-|[]]; lia]|]. split; [apply Permutation_refl|].
  split; [split; [repeat constructor|reflexivity]|]. split; [split; [repeat constructor|reflexivity]|].
  split; [vm_compute; reflexivity|]. split; vm_compute; reflexivity.
Qed.

(** Rows that differ in the fifth decimal are one row of the table. *)
Theorem C139_rounding_refuted : exists X y X' y' m, wf_data X 1 y /\ wf_data X' 1 y' /\ ~ (nth 0 (nth 0 X []) 0 == nth 0 (nth 0 X' []) 0)%Q /\
  vector_labeling 1 X y X' y' [0] = Ok [m] /\ flag_of m = Some Untouched.
Proof.
  exists [[1 # 100000]]%Q, [1]%Z, [[2 # 100000]]%Q, [1]%Z. eexists.
  split; [split; [repeat constructor|reflexivity]|]. split; [split; [repeat constructor|reflexivity]|].
  split; [cbn; unfold Qeq; cbn; lia|]. split; vm_compute; reflexivity.
Qed.

Print Assumptions C134_construct.
Print Assumptions C134_fit.
Print Assumptions C134_failed_fit.
Print Assumptions C134_set_params.
Print Assumptions C134_unknown_parameter_refuted.
Print Assumptions C134_fitted_state_refuted.
Print Assumptions C134_failed_set_refuted.
Print Assumptions C135_sqrt.
Print Assumptions C135_share.
Print Assumptions C135_fit.
Print Assumptions C135_copy.
Print Assumptions C135_copy_refuted.
Print Assumptions C135_string_refuted.
Print Assumptions C136_fit.
Print Assumptions C136_predict_refuted.
Print Assumptions C137_get.
Print Assumptions C137_set.
Print Assumptions C138_two.
Print Assumptions C138_more.
Print Assumptions C138_distinct.
Print Assumptions C138_two_labels_refuted.
Print Assumptions C138_second_plot_refuted.
Print Assumptions C139_table.
Print Assumptions C139_presence.
Print Assumptions C139_flag.
Print Assumptions C139_projection_refuted.
Print Assumptions C139_resampled_flag_refuted.
Print Assumptions C139_rounding_refuted.
