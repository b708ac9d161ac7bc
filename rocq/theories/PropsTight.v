(** Further theorems about properties C05 and C42, added after mutation testing. *)

From Coq Require Import String List ZArith QArith Bool Arith Lia.
From Verif Require Import Np NpFacts PyVal BaseModel BaseFacts SimplexModel Spec SimplexFacts Float64
  SamplerModel SamplerFacts KnnModel KnnFacts Witness PropsSmote TightFacts.
Import ListNotations.
Open Scope list_scope.
Open Scope nat_scope.

(** C05: with a gaussian component SMOTE returns the rows it would return without
    one, each coordinate of a new row moved by the configured standard deviation
    times a normal draw; labels and original rows stay. *)
Theorem C05_noise : forall dist vol nn p g r D mn mj X0 y0,
  knn_ok dist nn -> rng_ok r -> wf_data (d_X D) (d_dim D) (d_y D) ->
  is_minority (d_y D) mn mj -> ss_gauss (sm_ss p) = GNone ->
  smote_sample vol nn p r D = Ok (X0, y0) ->
  (forall l, g = GSigmas l -> length l = d_dim D) ->
  exists X1, smote_sample vol nn (with_gauss p g) r D = Ok (X1, y0) /\ length X1 = length X0 /\
    firstn (length (d_X D)) X1 = d_X D /\
    (forall i j, i < length X0 - length (d_X D) -> j < d_dim D ->
      (nth j (nth (length (d_X D) + i) X1 []) 0 ==
       nth j (nth (length (d_X D) + i) X0 []) 0 +
       sigma_at g j * nth j (nth i (r_normal r (length X0 - length (d_X D)) (d_dim D)) []) 0)%Q).
Proof. exact smote_noise. Qed.

Definition rng_two : rng := mk_rng (r_choice rng0) (r_unif rng0) (fun n k => repeat (repeat 2%Q k) n).

Lemma rng_two_ok : rng_ok rng_two.
Proof.
  destruct rng0_ok as [H1 H2 _]. constructor; cbn; [exact H1|exact H2|].
  intros n k. rewrite repeat_length. split; [reflexivity|]. apply Forall_repeat, repeat_length.
Qed.

Example C05_noise_example : exists a b,
  rng_ok rng_two /\ is_minority (d_y ex_D) 1 0 /\
  smote_sample (fun _ => 1%Q) ex_nn (with_gauss ex_p (GSigmas [3]%Q)) rng_two ex_D =
    Ok (d_X ex_D ++ [[a]; [b]], d_y ex_D ++ [1; 1]%Z) /\ (a == 13#2)%Q /\ (b == 13#2)%Q.
Proof.
  eexists. eexists. split; [apply rng_two_ok|]. split; [repeat split; cbn; try lia; tauto || (intros; lia)|].
  split; [vm_compute; reflexivity|]. split; reflexivity.
Qed.

(** C42: a SMOTE object exists only with a number at least zero as proportion, a
    number at least one as n_neighbors and an n_jobs that is not None and, as an
    integer, positive. *)
Theorem C42_constructor : forall kwargs o, smote_init kwargs = Ok o ->
  (exists p, num_of (o_proportion o) = Some p) /\
  (forall q, num_of (o_proportion o) = Some (Fin q) -> (0 <= q)%Q) /\
  (exists k, num_of (o_n_neighbors o) = Some k) /\
  (forall q, num_of (o_n_neighbors o) = Some (Fin q) -> (1 <= q)%Q) /\
  o_n_jobs o <> PNone /\ (forall z, o_n_jobs o = PInt z -> (0 < z)%Z).
Proof. exact smote_init_checked. Qed.

(** It keeps the values it was given. *)
Theorem C42_values : forall kwargs o, smote_init kwargs = Ok o ->
  (forall v, dget kwargs "proportion" = Some (VPy v) -> o_proportion o = v) /\
  (forall v, dget kwargs "n_neighbors" = Some (VPy v) -> o_n_neighbors o = v) /\
  (forall z, dget kwargs "random_state" = Some (VPy (PInt z)) -> o_init o = RSInt z) /\
  (forall s, dget kwargs "random_state" = Some (VRs s) -> o_init o = s) /\
  (dget kwargs "random_state" = None -> o_init o = RSNone).
Proof. exact smote_init_values. Qed.

(** It draws from the global generator unless a seed or a generator object was
    given; a seeded object has a generator of its own at its start. *)
Theorem C42_generator : forall kwargs o, smote_init kwargs = Ok o ->
  match o_init o with
  | RSNone | RSModule => o_gen o = GGlobal
  | RSInt z => o_gen o = GOwn z 0
  | RSState i => o_gen o = GShared i
  | RSOther => False
  end.
Proof. exact smote_init_generator. Qed.

Example C42_constructor_example :
  (exists o, smote_init [("n_neighbors", VPy (PInt 3)); ("random_state", VPy (PInt 7))]%string = Ok o /\
     o_gen o = GOwn 7 0 /\ o_n_neighbors o = PInt 3) /\
  smote_init [("n_neighbors", VPy (PInt 0))]%string = Err ValueError /\
  smote_init [("random_state", VPy (PStr "x"))]%string = Err ValueError.
Proof. split; [eexists; split; [reflexivity|split; reflexivity]|split; reflexivity]. Qed.

Print Assumptions C05_noise.
Print Assumptions C42_constructor.
Print Assumptions C42_values.
Print Assumptions C42_generator.
