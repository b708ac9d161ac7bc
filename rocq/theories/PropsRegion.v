(** Properties C101 to C104: OUPS, AND_SMOTE, CCR and SMOBD. *)

From Coq Require Import List ZArith QArith Qabs Qminmax Bool Arith Lia Lqa Sorting.Sorted Permutation.
From Verif Require Import Np NpFacts SimplexModel Spec SpecDanger SpecNoise SpecComp SpecEdit BorderFacts SimplexFacts SimplexGeom Float64
  SamplerModel SamplerFacts OversFacts OversGen BaseModel NoiseModel KnnModel KnnFacts DangerModel ClusterOversModel
  ClusterOversFacts CompModel CompFacts SpecNear LevelModel SpecLevel SpecGroup WrapModel SpecWrap DirModel SpecDir RegionModel SpecRegion
  RegionFacts RegionFacts2 RegionFacts3 RegionFacts4
  Witness DangerWitness ClusterWitness CompWitness EditWitness NearWitness LevelWitness WrapWitness DirWitness RegionWitness.
Import ListNotations.
Open Scope nat_scope.

(** C101. *)
Theorem C101_oups : forall vol sorting q r D mn mj n,
  sorting_ok sorting -> rng_ok r -> unif_pos r -> wf_data (d_X D) (d_dim D) (d_y D) -> is_minority (d_y D) mn mj ->
  asked (ou_proportion q) (d_y D) mn mj = Ok n -> plain_ss (ou_ss q) -> ss_gauss (ou_ss q) = GNone ->
  runs D mn n (oups_spec sorting q D mn mj n) (oups_sample vol sorting q r D).
Proof. exact oups_runs. Qed.

Example C101_example :
  let q := mk_oups one ex_ss in
  wf_data (d_X en_D) (d_dim en_D) (d_y en_D) /\ is_minority (d_y en_D) 1 0 /\ plain_ss (ou_ss q) /\
  asked (ou_proportion q) (d_y en_D) 1 0 = Ok 2%Z /\
  oups_sample vol1 backwards q rng0 en_D = Ok (d_X en_D ++ [[128 # 64]; [128 # 64]]%Q, d_y en_D ++ [1; 1]%Z) /\
  runs en_D 1 2 (oups_spec backwards q en_D 1 0 2) (oups_sample vol1 backwards q rng0 en_D).
Proof.
  cbv zeta. split; [apply en_D_ok|]. split; [apply en_D_ok|]. split; [exact ex_ss_plain|]. split; [reflexivity|].
  split; [vm_compute; reflexivity|].
  apply C101_oups; auto using backwards_ok, rng0_ok, rng0_unif_pos, ex_ss_plain; try apply en_D_ok; reflexivity.
Qed.

(** A new row need not lie between a minority row and a row ranked after it. *)
Theorem C101_next_refuted :
  ~ (forall vol sorting q r D mn mj n S,
     sorting_ok sorting -> rng_ok r -> unif_pos r -> wf_data (d_X D) (d_dim D) (d_y D) -> is_minority (d_y D) mn mj ->
     asked (ou_proportion q) (d_y D) mn mj = Ok n -> plain_ss (ou_ss q) -> ss_gauss (ou_ss q) = GNone -> ss_n_dim (ou_ss q) = 2 ->
     oups_sample vol sorting q r D = Ok (d_X D ++ S, d_y D ++ repeat mn (length S)) ->
     Forall (next_ranks sorting D mn) S).
Proof.
  intros H. specialize (H vol1 as_is (mk_oups one det_ss) rng0 tail_D 1%Z 0%Z 12%Z
    [[2 # 2]; [1 # 2]; [3 # 2]; [1 # 2]; [2 # 3]; [0 # 3]; [3 # 3]; [-108 # 3]; [4 # 3]; [0 # 3]; [3 # 3]; [-219 # 3]]%Q).
  assert (F : Forall (next_ranks as_is tail_D 1)
    [[2 # 2]; [1 # 2]; [3 # 2]; [1 # 2]; [2 # 3]; [0 # 3]; [3 # 3]; [-108 # 3]; [4 # 3]; [0 # 3]; [3 # 3]; [-219 # 3]]%Q).
  { apply H; auto using as_is_ok, rng0_ok, rng0_unif_pos, det_ss_plain; try apply tail_D_ok; try reflexivity; vm_compute; reflexivity. }
  rewrite Forall_forall in F. destruct (F [-219 # 3]%Q) as (i & j & Hij & Hl & pts & Hin & Lx & ws & Lw & Fw & Sw & Hx); [cbn; tauto|].
  change (length (map (fun i => nth i (d_X tail_D) []) (as_is (d_X tail_D) (d_y tail_D)))) with 18 in Hij.
  assert (Hi : 15 <= i).
  { destruct (le_lt_dec 15 i) as [|G]; [assumption|]. exfalso. do 15 (destruct i as [|i]; [discriminate Hl|]). lia. }
  assert (P : forall z, In z pts -> (0 <= nth 0 z 0)%Q).
  { intros z Hz. apply Hin in Hz. assert (Q0 : forall k, 15 <= k < 18 -> (0 <= nth 0 (nth k (map (fun i => nth i (d_X tail_D) []) (as_is (d_X tail_D) (d_y tail_D))) []) 0)%Q).
    { intros k Hk. assert (k = 15 \/ k = 16 \/ k = 17) as [->|[->| ->]] by lia; vm_compute; discriminate. }
    destruct Hz as [<-|[<-|[]]]; apply Q0; lia. }
  specialize (Hx 0 ltac:(cbn; lia)). assert (G : (0 <= qsum (map2 (fun w p => w * nth 0 p 0) ws pts))%Q).
  { clear - P Fw. revert pts P. induction Fw as [|w ws Hw _ IH]; intros [|z pts] P; try (vm_compute; discriminate).
    change (0 <= w * nth 0 z 0 + qsum (map2 (fun w p => w * nth 0 p 0) ws pts))%Q.
    assert (0 <= qsum (map2 (fun w p => w * nth 0 p 0) ws pts))%Q by (apply IH; intros; apply P; now right).
    pose proof (Qmult_le_0_compat w (nth 0 z 0%Q) Hw (P z (or_introl eq_refl))). lra. }
  rewrite <- Hx in G. vm_compute in G. now apply G.
Qed.

(** C102. *)
Theorem C102_and_smote : forall dist vol nn p r D mn mj n,
  knn_ok dist nn -> rng_ok r -> unif_pos r -> wf_data (d_X D) (d_dim D) (d_y D) -> is_minority (d_y D) mn mj ->
  asked (an_proportion p) (d_y D) mn mj = Ok n -> 2 <= an_K p -> plain_ss (an_ss p) -> ss_gauss (an_ss p) = GNone ->
  runs D mn n (and_smote_spec dist p D mn mj n) (and_smote_sample vol nn p r D).
Proof. exact and_smote_runs. Qed.

Example C102_example :
  let p := mk_and one 4 ex_ss in
  wf_data (d_X en_D) (d_dim en_D) (d_y en_D) /\ is_minority (d_y en_D) 1 0 /\ plain_ss (an_ss p) /\
  asked (an_proportion p) (d_y en_D) 1 0 = Ok 2%Z /\
  and_smote_sample vol1 ex_nn p rng0 en_D = Ok (d_X en_D ++ [[32 # 64]; [32 # 64]]%Q, d_y en_D ++ [1; 1]%Z) /\
  runs en_D 1 2 (and_smote_spec sqdist p en_D 1 0 2) (and_smote_sample vol1 ex_nn p rng0 en_D).
Proof.
  cbv zeta. split; [apply en_D_ok|]. split; [apply en_D_ok|]. split; [exact ex_ss_plain|]. split; [reflexivity|].
  split; [vm_compute; reflexivity|].
  apply C102_and_smote; auto using ex_nn_ok, rng0_ok, rng0_unif_pos, ex_ss_plain; try apply en_D_ok; reflexivity || (cbn; lia).
Qed.

(** C103. *)
Theorem C103_ccr : forall shuffle p dr D mn mj n,
  shuffle_ok shuffle -> SpecDir.draws_ok dr -> wf_data (d_X D) (d_dim D) (d_y D) -> is_minority (d_y D) mn mj ->
  asked (cc_proportion p) (d_y D) mn mj = Ok n -> (0 < cc_energy p)%Q ->
  runs D mn n (ccr_spec p D mn mj n) (ccr_sample shuffle p dr D).
Proof. exact ccr_runs. Qed.

Lemma zero_share : unit_share 0.
Proof. split; reflexivity || discriminate. Qed.

Example C103_example :
  let p := mk_ccr one 12 in
  wf_data (d_X crowd_D) (d_dim crowd_D) (d_y crowd_D) /\ is_minority (d_y crowd_D) 1 0 /\
  asked (cc_proportion p) (d_y crowd_D) 1 0 = Ok 2%Z /\
  ccr_sample keep p (draws_at 0) crowd_D = Ok (d_X crowd_D ++ [[-20 # 4]; [988]; [1988]]%Q, d_y crowd_D ++ [1; 1; 1]%Z) /\
  runs crowd_D 1 2 (ccr_spec p crowd_D 1 0 2) (ccr_sample keep p (draws_at 0) crowd_D).
Proof.
  cbv zeta. split; [apply crowd_D_ok|]. split; [apply crowd_D_ok|]. split; [reflexivity|]. split; [vm_compute; reflexivity|].
  apply C103_ccr; auto using keep_ok, draws_at_ok, zero_share; try apply crowd_D_ok; reflexivity.
Qed.

(** Without energy the call fails instead of returning data. *)
Theorem C103_no_energy : forall shuffle p dr D mn mj n,
  wf_data (d_X D) (d_dim D) (d_y D) -> is_minority (d_y D) mn mj ->
  asked (cc_proportion p) (d_y D) mn mj = Ok n -> cc_energy p = 0%Q -> 2 < count_label (d_y D) mn -> (0 < n)%Z ->
  ccr_sample shuffle p dr D = Err ValueError.
Proof. exact ccr_no_energy. Qed.

Example C103_no_energy_example : ccr_sample keep (mk_ccr one 0) (draws_at 0) crowd_D = Err ValueError.
Proof. apply (C103_no_energy keep (mk_ccr one 0) (draws_at 0) crowd_D 1 0 2); try apply crowd_D_ok; reflexivity || (cbn; lia). Qed.

(** The number of new rows need not be the number asked for. *)
Theorem C103_number_refuted :
  ~ (forall shuffle p dr D mn mj n S,
     shuffle_ok shuffle -> SpecDir.draws_ok dr -> wf_data (d_X D) (d_dim D) (d_y D) -> is_minority (d_y D) mn mj ->
     asked (cc_proportion p) (d_y D) mn mj = Ok n -> (0 < cc_energy p)%Q ->
     ccr_sample shuffle p dr D = Ok (d_X D ++ S, d_y D ++ repeat mn (length S)) -> length S = Z.to_nat n).
Proof.
  intros H. specialize (H keep (mk_ccr one 12) (draws_at 0) crowd_D 1%Z 0%Z 2%Z [[-20 # 4]; [988]; [1988]]%Q).
  discriminate H; auto using keep_ok, draws_at_ok, zero_share; try apply crowd_D_ok; try reflexivity.
Qed.

(** The balls cost more than the energy given. *)
Theorem C103_budget_refuted :
  ~ (forall shuffle p dr D mn mj n S,
     shuffle_ok shuffle -> SpecDir.draws_ok dr -> wf_data (d_X D) (d_dim D) (d_y D) -> is_minority (d_y D) mn mj ->
     asked (cc_proportion p) (d_y D) mn mj = Ok n -> (0 < cc_energy p)%Q -> d_dim D <= 2 ->
     ccr_sample shuffle p dr D = Ok (d_X D ++ S, d_y D ++ repeat mn (length S)) ->
     Forall (fun x => exists z, In z (rows_with mn (d_X D) (d_y D)) /\
       (ball_cost (map (taxi (d_dim D) z) (rows_with mj (d_X D) (d_y D))) (taxi (d_dim D) x z) <= cc_energy p)%Q) S).
Proof.
  intros H. specialize (H keep (mk_ccr one 12) (draws_at 0) crowd_D 1%Z 0%Z 2%Z [[-20 # 4]; [988]; [1988]]%Q).
  assert (F := H keep_ok (draws_at_ok _ zero_share) (proj1 crowd_D_ok) (proj2 crowd_D_ok) eq_refl eq_refl ltac:(cbn; lia) eq_refl).
  inversion F as [|? ? (z & Hz & G) _]; subst. cbn in Hz.
  repeat (destruct Hz as [<-|Hz]; [apply (Qle_not_lt _ _ G); vm_compute; reflexivity|]). destruct Hz.
Qed.

(** Majority rows stay inside the balls: the cleaning has no effect. *)
Theorem C103_cleaned_refuted :
  ~ (forall shuffle p dr D mn mj n X' y',
     shuffle_ok shuffle -> SpecDir.draws_ok dr -> wf_data (d_X D) (d_dim D) (d_y D) -> is_minority (d_y D) mn mj ->
     asked (cc_proportion p) (d_y D) mn mj = Ok n -> (0 < cc_energy p)%Q -> 2 < count_label (d_y D) mn -> (0 < n)%Z ->
     ccr_sample shuffle p dr D = Ok (X', y') ->
     forall z r, In z (rows_with mn (d_X D) (d_y D)) ->
       (ball_cost (map (taxi (d_dim D) z) (rows_with mj (d_X D) (d_y D))) r == cc_energy p)%Q ->
       Forall (fun m => (r <= taxi (d_dim D) z m)%Q) (rows_with mj X' y')).
Proof.
  intros H. specialize (H keep (mk_ccr one 12) (draws_at 0) crowd_D 1%Z 0%Z 2%Z
    (d_X crowd_D ++ [[-20 # 4]; [988]; [1988]]%Q) (d_y crowd_D ++ [1; 1; 1]%Z)).
  assert (F := H keep_ok (draws_at_ok _ zero_share) (proj1 crowd_D_ok) (proj2 crowd_D_ok) eq_refl eq_refl ltac:(cbn; lia) eq_refl eq_refl [0]%Q (22 # 5)%Q
    ltac:(cbn; tauto) ltac:(vm_compute; reflexivity)).
  rewrite Forall_forall in F. specialize (F [1]%Q ltac:(cbn; tauto)). vm_compute in F. now apply F.
Qed.

(** With three columns a new row can leave the ball even where no majority row
    is near. *)
Theorem C103_ball_refuted :
  ~ (forall shuffle p dr D mn mj n S,
     shuffle_ok shuffle -> SpecDir.draws_ok dr -> wf_data (d_X D) (d_dim D) (d_y D) -> is_minority (d_y D) mn mj ->
     asked (cc_proportion p) (d_y D) mn mj = Ok n -> (0 < cc_energy p)%Q ->
     ccr_sample shuffle p dr D = Ok (d_X D ++ S, d_y D ++ repeat mn (length S)) ->
     Forall (fun x => exists z, In z (rows_with mn (d_X D) (d_y D)) /\ (taxi (d_dim D) x z <= cc_energy p)%Q) S).
Proof.
  intros H. specialize (H keep (mk_ccr one 1) (draws_at 0) space_D 1%Z 0%Z 3%Z [[-1; 0; -1]; [999; 0; -1]; [1999; 0; -1]]%Q).
  assert (F := H keep_ok (draws_at_ok _ zero_share) (proj1 space_D_ok) (proj2 space_D_ok) eq_refl eq_refl eq_refl).
  inversion F as [|? ? (z & Hz & G) _]; subst. cbn in Hz.
  repeat (destruct Hz as [<-|Hz]; [apply (Qle_not_lt _ _ G); vm_compute; reflexivity|]). destruct Hz.
Qed.

(** C104. *)
Theorem C104_smobd : forall dist nn optics radius_counts p rs D mn mj n,
  knn_ok dist nn -> optics_ok optics -> radius_counts_ok radius_counts -> rngs_ok rs -> wf_data (d_X D) (d_dim D) (d_y D) -> is_minority (d_y D) mn mj ->
  asked (sb_proportion p) (d_y D) mn mj = Ok n -> (0 <= sb_eta1 p <= 1)%Q -> 1 <= sb_min_samples p ->
  runs D mn n (smobd_spec dist optics radius_counts p D mn n) (smobd_sample nn optics radius_counts p rs D).
Proof. exact smobd_runs. Qed.

(** The noise threshold has no effect. *)
Theorem C104_threshold : forall dist nn optics radius_counts prop eta t t' ms eps rs D mn mj,
  knn_ok dist nn -> optics_ok optics -> radius_counts_ok radius_counts -> wf_data (d_X D) (d_dim D) (d_y D) -> is_minority (d_y D) mn mj ->
  smobd_sample nn optics radius_counts (mk_smobd prop eta t ms eps) rs D =
  smobd_sample nn optics radius_counts (mk_smobd prop eta t' ms eps) rs D.
Proof. exact smobd_threshold. Qed.

Example C104_example :
  let p := mk_smobd one (1 # 2) (1 # 2) 2 1 in
  wf_data (d_X noisy_D) (d_dim noisy_D) (d_y noisy_D) /\ is_minority (d_y noisy_D) 1 0 /\
  asked (sb_proportion p) (d_y noisy_D) 1 0 = Ok 2%Z /\
  smobd_sample ex_nn optics500 counts_all p rs0 noisy_D = Ok (d_X noisy_D ++ [[1002 # 2]; [1002 # 2]]%Q, d_y noisy_D ++ [1; 1]%Z) /\
  runs noisy_D 1 2 (smobd_spec sqdist optics500 counts_all p noisy_D 1 2) (smobd_sample ex_nn optics500 counts_all p rs0 noisy_D).
Proof.
  cbv zeta. split; [apply noisy_D_ok|]. split; [apply noisy_D_ok|]. split; [reflexivity|]. split; [vm_compute; reflexivity|].
  apply C104_smobd with (mj := 0%Z); auto using ex_nn_ok, optics500_ok, counts_all_ok, rs0_ok; try apply noisy_D_ok; try reflexivity; try (cbn; lia).
  split; discriminate.
Qed.

(** Rows OPTICS finds neither dense nor reachable still take part. *)
Theorem C104_noise_refuted :
  ~ (forall dist nn optics radius_counts p rs D mn mj n core reach S,
     knn_ok dist nn -> optics_ok optics -> radius_counts_ok radius_counts -> rngs_ok rs -> wf_data (d_X D) (d_dim D) (d_y D) -> is_minority (d_y D) mn mj ->
     asked (sb_proportion p) (d_y D) mn mj = Ok n -> (0 <= sb_eta1 p <= 1)%Q -> 1 <= sb_min_samples p ->
     let X_min := rows_with mn (d_X D) (d_y D) in
     optics (Nat.min (length X_min - 1) (sb_min_samples p)) (sb_max_eps p) X_min = Ok (core, reach) ->
     smobd_sample nn optics radius_counts p rs D = Ok (d_X D ++ S, d_y D ++ repeat mn (length S)) ->
     Forall (fun x => exists b i, b < length X_min /\ i < length X_min /\
       (nth b core None <> None \/ nth b reach None <> None) /\ (nth i core None <> None \/ nth i reach None <> None) /\
       boxed (d_dim D) (nth b X_min []) (nth i X_min []) x) S).
Proof.
  intros H. set (p := mk_smobd one (1 # 2) (1 # 2) 2 1).
  specialize (H sqdist ex_nn optics500 counts_all p rs0 noisy_D 1%Z 0%Z 2%Z
    [None; Some 1; Some 1; Some 1]%Q [None; Some 1; Some 1; Some 1]%Q [[1002 # 2]; [1002 # 2]]%Q).
  assert (F := H ex_nn_ok optics500_ok counts_all_ok rs0_ok (proj1 noisy_D_ok) (proj2 noisy_D_ok) eq_refl ltac:(split; discriminate) ltac:(cbn; lia) eq_refl eq_refl).
  inversion F as [|? ? (b & i & Hb & Hi & Nb & Ni & G) _]; subst. cbn in Hb, Hi.
  destruct b as [|b]; [destruct Nb as [N|N]; now apply N|]. destruct i as [|i]; [destruct Ni as [N|N]; now apply N|].
  specialize (G 0 ltac:(cbn; lia)).
  assert (U : forall k, k < 3 -> (nth 0 (nth (S k) (rows_with 1 (d_X noisy_D) (d_y noisy_D)) []) 0 <= 2)%Q).
  { intros k Hk. assert (k = 0 \/ k = 1 \/ k = 2) as [->|[->| ->]] by lia; vm_compute; discriminate. }
  pose proof (U b ltac:(lia)). pose proof (U i ltac:(lia)). cbn [nth] in G. lra.
Qed.

Print Assumptions C101_oups.
Print Assumptions C101_next_refuted.
Print Assumptions C102_and_smote.
Print Assumptions C103_ccr.
Print Assumptions C103_no_energy.
Print Assumptions C103_number_refuted.
Print Assumptions C103_budget_refuted.
Print Assumptions C103_cleaned_refuted.
Print Assumptions C103_ball_refuted.
Print Assumptions C104_smobd.
Print Assumptions C104_threshold.
Print Assumptions C104_noise_refuted.
