(** Facts about the choice of the learner. *)

From Coq Require Import String List ZArith QArith Bool Arith Lia.
From Verif Require Import Np NpFacts Spec LearnModel SpecLearn LearnFacts.
Import ListNotations.
Open Scope nat_scope.
Open Scope string_scope.

Section Dispatch.
Variable M : Type.
Variable itml : string -> list row -> list Z -> res M.
Variable lsml nca rf : list row -> list Z -> res M.
Variable inverse_cov : list row -> res M.
Variable mutual : list row -> list Z -> res (list Q).
Variable diag : list Q -> M.
Variable matmul : M -> M -> M.
Variable eye : nat -> M.
Variable psd_mean : list M -> M.
Local Notation tensor := (tensor M itml lsml nca rf inverse_cov mutual diag matmul eye psd_mean).

Lemma trained old X y : List.length X = List.length y -> exists X' y', deduplicated X y X' y' /\
  tensor (Some "ITML") old X y = (do T <- itml "identity" X' y'; Ok (Some T)) /\
  tensor (Some "LSML") old X y = (do T <- lsml X' y'; Ok (Some T)) /\
  tensor (Some "NCA") old X y = (do T <- nca X' y'; Ok (Some T)) /\
  tensor (Some "ITML_mi") old X y = (do T <- nca X' y'; do w <- mutual X y; Ok (Some (matmul T (diag w)))) /\
  tensor (Some "gmean") old X y = (do T <- nca X' y'; Ok (Some (psd_mean [T; T]))).
Proof.
  intros H. exists (fst (unique_rows X y)), (snd (unique_rows X y)). split; [now apply unique_rows_ok|].
  unfold LearnModel.tensor. destruct (unique_rows X y) as [X' y']. cbn [fst snd].
  repeat split; try reflexivity. cbn. destruct (nca X' y') as [T|e]; reflexivity.
Qed.

Lemma whole old X y :
  tensor (Some "rf") old X y = (do T <- rf X y; Ok (Some T)) /\
  tensor (Some "cov") old X y = (do T <- inverse_cov X; Ok (Some T)) /\
  tensor (Some "MI_weighted") old X y = (do w <- mutual X y; Ok (Some (diag w))).
Proof. unfold LearnModel.tensor. destruct (unique_rows X y) as [X' y']. repeat split; reflexivity. Qed.

Lemma identity_tensor old X y dim : wf_data X dim y -> X <> [] -> tensor (Some "id") old X y = Ok (Some (eye dim)).
Proof.
  intros [HR HL] HX. unfold LearnModel.tensor. pose proof (unique_rows_ok X y HL) as (_ & H2 & H3 & _).
  destruct (unique_rows X y) as [X' y'] eqn:E. cbn [fst snd] in *. cbn.
  destruct X' as [|x X'].
  - exfalso. destruct X as [|x X]; [tauto|]. destruct (H3 0 ltac:(cbn; lia)) as (k & Hk & _). cbn in Hk. lia.
  - destruct (H2 0 ltac:(cbn; lia)) as (i & Hi & Ei & _). cbn in Ei. subst x.
    do 2 f_equal. f_equal. unfold rect in HR. rewrite Forall_forall in HR. apply HR. now apply nth_In.
Qed.

Lemma labelled_one old X y : List.length X = List.length y ->
  tensor (Some "cov_min") old X y =
    (do T <- inverse_cov (map fst (filter (fun p => (snd p =? 1)%Z) (combine X y))); Ok (Some T)).
Proof.
  intros H. unfold LearnModel.tensor. destruct (unique_rows X y) as [X' y']. cbn.
  assert (E : forall (X : list row) y, List.length X = List.length y -> rows_of 1 X y = map fst (filter (fun p => (snd p =? 1)%Z) (combine X y))).
  { clear. unfold rows_of. induction X as [|x X IH]; intros [|l y] H; try discriminate; [reflexivity|].
    cbn [map select combine filter snd]. rewrite (Z.eqb_sym l 1), (IH y) by (cbn in H; lia). destruct (1 =? l)%Z; reflexivity. }
  now rewrite E.
Qed.

Lemma unknown method old X y : ~ In method (map (@Some string) ["ITML"; "rf"; "LSML"; "cov"; "cov_min"; "MI_weighted"; "id"; "ITML_mi"; "NCA"; "gmean"]) ->
  tensor method old X y = Ok old.
Proof.
  intros H. unfold LearnModel.tensor. destruct (unique_rows X y) as [X' y']. destruct method as [m|]; [|reflexivity].
  assert (K : forall s, In s ["ITML"; "rf"; "LSML"; "cov"; "cov_min"; "MI_weighted"; "id"; "ITML_mi"; "NCA"; "gmean"] -> String.eqb m s = false).
  { intros s Hs. apply String.eqb_neq. intros ->. apply H. now apply in_map. }
  rewrite !K by (cbn; tauto). reflexivity.
Qed.

(** ** nn_params *)

Local Notation from_params := (metric_tensor_from_nn_params M itml lsml nca rf inverse_cov mutual diag matmul eye psd_mean).

Lemma nn_get_in d k (v : nn_value M) : NoDup (map fst d) -> In (k, v) d -> nn_get M d k = v.
Proof.
  induction d as [|[k' v'] d IH]; intros HN HI; [contradiction|]. cbn in *. inversion HN; subst.
  destruct (String.eqb_spec k' k) as [->|N].
  - destruct HI as [E|HI]; [now inversion E|]. exfalso. apply H1. now apply (in_map fst) in HI.
  - destruct HI as [E|HI]; [inversion E; congruence|now apply IH].
Qed.

Lemma nn_get_out d k : ~ In k (map fst d) -> nn_get M d k = NNone.
Proof.
  induction d as [|[k' v'] d IH]; intros H; [reflexivity|]. cbn in *. destruct (String.eqb_spec k' k); [tauto|]. apply IH. tauto.
Qed.

Lemma params_given d T X y : NoDup (map fst d) -> In ("metric_tensor", NTensor T) d -> from_params d X y = Ok (NTensor T).
Proof.
  intros HN HI. unfold metric_tensor_from_nn_params. rewrite (nn_get_in d _ _ HN HI). destruct (nn_get M d "metric"); reflexivity.
Qed.

Lemma params_learned d m X y : NoDup (map fst d) -> In ("metric", NStr "precomputed") d -> In ("metric_learning_method", NStr m) d ->
  ~ In "metric_tensor" (map fst d) \/ In ("metric_tensor", NNone) d ->
  from_params d X y = (do T <- tensor (Some m) None X y; Ok (match T with Some T => NTensor T | None => NNone end)).
Proof.
  intros HN H1 H2 H3. unfold metric_tensor_from_nn_params. rewrite (nn_get_in d _ _ HN H1), (nn_get_in d _ _ HN H2).
  assert (E : nn_get M d "metric_tensor" = NNone) by (destruct H3 as [H3|H3]; [now apply nn_get_out|now apply nn_get_in]).
  rewrite E. reflexivity.
Qed.

Lemma params_none d X y : NoDup (map fst d) -> ~ In "metric_tensor" (map fst d) ->
  ~ In ("metric", NStr "precomputed") d \/ ~ In "metric_learning_method" (map fst d) -> from_params d X y = Ok NNone.
Proof.
  intros HN H1 H2. unfold metric_tensor_from_nn_params. rewrite (nn_get_out d "metric_tensor" H1).
  destruct (nn_get M d "metric") as [|s| |] eqn:E; try reflexivity.
  destruct (String.eqb_spec s "precomputed") as [->|N]; [|reflexivity].
  destruct H2 as [H2|H2].
  - exfalso. apply H2. clear - E. induction d as [|[k v] d IH]; [discriminate|]. cbn in E.
    destruct (String.eqb_spec k "metric") as [->|N]; [subst; now left|right; now apply IH].
  - rewrite (nn_get_out d _ H2). unfold LearnModel.tensor. destruct (unique_rows X y). reflexivity.
Qed.

End Dispatch.
