(** Specification vocabulary for the samplers of FuseModel.v. *)

From Coq Require Import List ZArith QArith Qabs Qminmax Bool Arith Qround Sorting.Sorted Permutation.
From Verif Require Import Np PyVal Float64 SimplexModel SamplerModel Spec SpecDanger SpecNear SpecGroup OversFacts CompModel WrapModel DirModel SpecComp SpecDir MixModel SpecMix SpecWrap SwarmModel SpecSwarm FuseModel.
Import ListNotations.
Open Scope nat_scope.

(** ** AMSCO *)

(** Each proportion asks for some number of rows, if no class has more than [M] rows. *)
Definition numbers_ok (to_f : Q -> f64) (M : nat) : Prop :=
  forall q a b, (1 # 4 <= q <= 4)%Q -> b <= a <= M -> exists n, det_n_to_sample (StFloat (to_f q)) (Z.of_nat a) (Z.of_nat b) = Ok n.

Definition am_draws_ok (a : am_draws) : Prop :=
  draws_ok (ad_os a) /\ (forall t i, rng_ok (ad_rs a t i) /\ unif_pos (ad_rs a t i)) /\ draws_ok (ad_si a) /\ (forall t i, draws_ok (ad_mut a t i)).

(** Majority rows [M], and the minority rows after them. *)
Definition stacked (D : dataset) (mn mj : Z) (M : list row) : dataset :=
  let X_min := rows_with mn (d_X D) (d_y D) in
  mk_data (M ++ X_min) (d_dim D) (repeat mj (length M) ++ repeat mn (length X_min)).

(** What SMOTE appends to these, with 3 to 10 neighbours and a proportion between 1/4 and 4, for
    the class that is smaller there. *)
Definition am_new (dist : row -> row -> Q) (to_f : Q -> f64) (ss : ss_params) (D : dataset) (mn mj : Z) (M S : list row) : Prop :=
  exists K prop n small large, 3 <= K <= 10 /\ (1 # 4 <= prop <= 4)%Q /\
    let D' := stacked D mn mj M in
    is_minority (d_y D') small large /\ asked (StFloat (to_f prop)) (d_y D') small large = Ok n /\
    ((n = 0%Z /\ S = []) \/ smote_spec dist (mk_smote (StFloat (to_f prop)) K ss) D' small n S).

(** Some of the majority rows of [D], between 4 and [bound] of them. *)
Definition am_majority (D : dataset) (mj : Z) (bound : nat) (M : list row) : Prop :=
  incl M (rows_with mj (d_X D) (d_y D)) /\ 4 <= length M <= bound.

(** Minority rows: those of [D], or those of [D] and rows that SMOTE appends. *)
Definition am_minority (dist : row -> row -> Q) (to_f : Q -> f64) (ss : ss_params) (D : dataset) (mn mj : Z) (bound : nat) (A : list row) : Prop :=
  A = rows_with mn (d_X D) (d_y D) \/
  exists M S, am_majority D mj bound M /\ A = rows_with mn (d_X D) (d_y D) ++ S /\ am_new dist to_f ss D mn mj M S.

Definition am_bound (p : am_params) (D : dataset) (mj : Z) : nat := count_label (d_y D) mj + 9 * am_n_iter p.

Definition am_result (dist : row -> row -> Q) (to_f : Q -> f64) (fitness : list row -> list row -> Q * Q) (p : am_params) (D : dataset) (mn mj : Z) (out : res (list row * list Z)) : Prop :=
  let min A := am_minority dist to_f (am_ss p) D mn mj (am_bound p D mj) A in
  let maj M := am_majority D mj (am_bound p D mj) M in
  (exists M A, maj M /\ min A /\ out = Ok (M ++ A, repeat mj (length M) ++ repeat mn (length A))) \/
  (out = Err TypeError /\ exists M A, maj M /\ min A /\ (fst (fitness A M) * snd (fitness A M) <= 0)%Q) \/
  (out = Err ValueError /\ exists M A, maj M /\ min A /\ (snd (fitness A M) <= 0)%Q).

(** ** DSRBF *)

Definition improve_ok {neuron : Type} (improve : list row -> list neuron -> list neuron) : Prop := forall X us, length (improve X us) = length us.

(** The rows given come first; the standardised new rows are those of a call of SMOTE on the
    standardised data. *)
Definition rb_extends (dist : row -> row -> Q) volume nn (sd : list Q -> Q) (p : rb_params) (rs : nat -> rng) (D : dataset) (mn n : Z) (out : res (list row * list Z)) : Prop :=
  exists w f X0 S S0 e, (forall j, j < d_dim D -> std_scale sd (d_X D) j (w j)) /\ standardised (d_dim D) (d_X D) w f /\
    let D' := mk_data (map f (d_X D)) (d_dim D) (d_y D) in
    out = Ok (X0 ++ S, d_y D ++ repeat mn (length S)) /\ same_rows X0 (d_X D) /\
    e <= rb_n_iter p /\ smote_sample volume nn (rb_smote p) (rs e) D' = Ok (d_X D' ++ S0, d_y D ++ repeat mn (length S0)) /\
    smote_spec dist (rb_smote p) D' mn n S0 /\ (ss_gauss (sm_ss (rb_smote p)) = GNone -> same_rows (map f S) S0).

(** ** ADG *)

Definition all_same (P : list row) : Prop := forall a b, In a P -> In b P -> same_row a b.

(** No clustering has a score exactly if the rows are all the same. *)
Definition clusters_ok (clusters : list row -> option (list nat)) : Prop := forall P, clusters P = None <-> all_same P.
Definition mixture_ok (mixture : list row -> nat -> nat -> list row) : Prop := forall P t q, length (mixture P t q) = q.

(** The rows of [z] on the positive side. *)
Definition on_positive (kernel : row -> row -> Q) (A : list row) (a : row) (z : list row) : list row :=
  filter (fun v => Qlt_b 0 (qsum (map2 Qmult (map (kernel v) A) a))) z.

(** The rows of round [i]: half as many are drawn as in the round before. *)
Definition adg_round alpha kernel mixture (n : nat) (Z P : list row) (rounds : list (list row)) (i : nat) (B : list row) : Prop :=
  let before := concat (firstn i rounds) in
  exists a, alpha i Z (P ++ before) = Some a /\
    B = on_positive kernel (Z ++ P ++ before) a (mixture P i (n / 2 ^ i)).

(** Rounds are added until none is due, the system is singular, no row is accepted, or the
    rows accepted are less than a hundredth of the new ones. *)
Definition adg_rounds (alpha : nat -> list row -> list row -> option row) kernel mixture (n : nat) (Z P : list row) (rounds : list (list row)) (singular : bool) : Prop :=
  let k := length rounds in
  (forall i, i < k -> 1 <= n / 2 ^ i /\ adg_round alpha kernel mixture n Z P rounds i (nth i rounds []) /\ nth i rounds [] <> []) /\
  (forall i, S i < k -> length (concat (firstn (S i) rounds)) <= 100 * length (nth i rounds [])) /\
  (singular = true -> 1 <= n / 2 ^ k /\ alpha k Z (P ++ concat rounds) = None) /\
  (singular = false -> n / 2 ^ k = 0 \/ adg_round alpha kernel mixture n Z P rounds k [] \/
     exists i, k = S i /\ 100 * length (nth i rounds []) < length (concat rounds)).
