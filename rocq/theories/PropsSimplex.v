(** Properties C07-C12: simplex enumeration, weights, allocation, geometry. *)

From Coq Require Import List ZArith QArith Bool Arith Lia Sorted Permutation Lqa.
From Verif Require Import Np NpFacts SimplexModel Spec SimplexFacts SimplexGeom Witness.
Import ListNotations.

(** C07.  The candidate simplices of order d over a table with c columns: every
    strictly increasing choice of d-1 neighbour columns of every base row, once,
    grouped by base row, read off the base row's own neighbours. *)
Theorem C07_simplices_enumerated : forall d c indices,
  (1 <= d <= c)%nat -> rect c indices ->
  exists L : list (nat * list nat),
    all_neighbor_simplices_real_idx d c indices =
      Ok (map (fun s => (fst s, map (fun p => nth p (nth (fst s) indices []) 0%nat) (snd s))) L) /\
    NoDup L /\
    (forall b ps, In (b, ps) L <->
       (b < length indices)%nat /\ length ps = (d - 1)%nat /\ StronglySorted lt ps /\
       Forall (fun p => 1 <= p < c)%nat ps) /\
    map fst L = flat_map (fun b => repeat b (binom (c - 1) (d - 1))) (seq 0 (length indices)) /\
    length L = (length indices * binom (c - 1) (d - 1))%nat.
Proof. exact enumeration_spec. Qed.

Example C07_example : all_neighbor_simplices_real_idx 3 4 [[0;1;2;3]; [1;0;3;2]]%nat =
  Ok [(0, [1;2]); (0, [1;3]); (0, [2;3]); (1, [0;3]); (1, [0;2]); (1, [3;2])]%nat
  /\ rect 4 [[0;1;2;3]; [1;0;3;2]]%nat.
Proof. split; [reflexivity|repeat constructor]. Qed.

(** C08.  The weight attached to a candidate simplex is its own base point's
    weight (times the product of its neighbours' simplex weights), and only
    simplices of positive base weight and positive neighbour weights are used. *)
Theorem C08_base_weights_aligned : forall vol mode X bw Xv d c indices,
  (1 <= d <= c)%nat -> rect c indices -> length bw = length indices -> (0 < length indices)%nat ->
  exists ss, all_neighbor_simplices_real_idx d c indices = Ok ss /\
    determine_weights vol mode X (Some bw) Xv ss (length indices) =
      Ok (map (fun s => nth (fst s) bw 0) ss).
Proof. exact base_weights_aligned. Qed.

Theorem C08_positive_weights_only : forall vol mode X n d c indices bw Xv sw r ss,
  (1 <= d <= c)%nat -> rect c indices ->
  match bw with Some w => length w = length indices /\ Forall (Qle 0) w | None => True end ->
  match sw with Some w => length w = length indices /\ rect c w /\ Forall (Forall (Qle 0)) w | None => True end ->
  rng_ok r ->
  simplices_ vol mode X n d c indices bw Xv sw r = Ok ss ->
  length ss = n /\
  Forall (fun s => exists ps, (fst s < length indices)%nat /\ length ps = (d - 1)%nat /\
     StronglySorted lt ps /\ Forall (fun p => 1 <= p < c)%nat ps /\
     snd s = map (fun p => nth p (nth (fst s) indices []) 0%nat) ps /\
     match bw with Some w => 0 < nth (fst s) w 0 | None => True end /\
     match sw with Some w => Forall (fun p => 0 < nth p (nth (fst s) w []) 0) ps | None => True end) ss.
Proof. exact simplices_positive. Qed.

Example C08_example :
  simplices_ (fun _ => 1) SRandom [[0];[1];[5]] 2 2 3 [[0;1;2];[1;0;2];[2;1;0]]%nat
     (Some [0;3;1]) None (Some [[1;1;1];[1;0;2];[1;1;1]]) rng0
  = Ok [(1, [2]); (1, [2])]%nat.
Proof. reflexivity. Qed.

(** C09.  Deterministic allocation: exactly n simplices, the assertion never
    fails, every count is within one of its expectation (one below is attained,
    one above is not), nothing of probability zero is taken. *)
Theorem C09_deterministic_allocation : forall n p,
  Forall (Qle 0) p -> qsum p == 1 ->
  exists sel, deterministic_sample (seq 0 (length p)) n p = Ok sel /\ length sel = n /\
    forall i q, nth_error p i = Some q ->
      inject_Z (Z.of_nat n) * q - 1 <= inject_Z (Z.of_nat (count_occ Nat.eq_dec sel i)) /\
      inject_Z (Z.of_nat (count_occ Nat.eq_dec sel i)) < inject_Z (Z.of_nat n) * q + 1 /\
      (In i sel -> 0 < q).
Proof. exact deterministic_allocation. Qed.

(** "Differs by less than one" is false: a simplex whose expectation is exactly
    one can get nothing. *)
Theorem C09_less_than_one_refuted : exists n p sel i q,
  Forall (Qle 0) p /\ qsum p == 1 /\ nth_error p i = Some q /\
  deterministic_sample (seq 0 (length p)) n p = Ok sel /\
  inject_Z (Z.of_nat n) * q == 1 /\ ~ In i sel.
Proof. exact less_than_one_refuted. Qed.

Example C09_example : deterministic_sample (seq 0 3) 7 [1#2; 1#3; 1#6] = Ok [0;0;0;1;1;2;2]%nat
  /\ qsum [1#2; 1#3; 1#6] == 1.
Proof. split; reflexivity. Qed.

(** C10.  Deterministic sampling of order 2 yields one row per selected simplex;
    an edge selected c times contributes its points at fractions k/(c+1). *)
Theorem C10_deterministic_evenly_spaced : forall X ss Xv vw r,
  deterministic_samples_dim_2 X ss Xv false vw = Ok r ->
  let V := match Xv with Some V => V | None => X end in
  let edges := map (fun s => let p := (fst s, nth 0 (snd s) 0%nat) in
                   match Xv with
                   | Some _ => p
                   | None => (Nat.min (fst p) (snd p), Nat.max (fst p) (snd p))
                   end) ss in
  exists groups : list ((nat * nat) * nat),
    NoDup (map fst groups) /\
    (forall e c, In (e, c) groups <-> (0 < c)%nat /\ c = count_occ pair_dec edges e) /\
    Permutation r (flat_map (fun g => map (fun k =>
        toward (nth (fst (fst g)) X []) (nth (snd (fst g)) V [])
               (match vw with Some w => nth (snd (fst g)) w 0 | None => 1 end)
               (1 / inject_Z (Z.of_nat (snd g + 1)) * inject_Z (Z.of_nat k)))
        (seq 1 (snd g))) groups) /\
    length r = length ss.
Proof. exact deterministic_evenly_spaced. Qed.

Theorem C10_interior : forall d X ss Xv r x,
  rect d X -> rect d (match Xv with Some V => V | None => X end) ->
  deterministic_samples_dim_2 X ss Xv false None = Ok r -> In x r ->
  exists a b t, In a X /\ In b (match Xv with Some V => V | None => X end) /\
    0 < t /\ t < 1 /\
    forall j, (j < d)%nat -> nth j x 0 == nth j a 0 + t * (nth j b 0 - nth j a 0).
Proof. exact deterministic_interior. Qed.

Example C10_example :
  exists r, deterministic_samples_dim_2 [[0];[4];[8]] [(0,[1]);(1,[0]);(0,[1]);(2,[0])]%nat None false None = Ok r
      /\ Forall2 (Forall2 Qeq) r [[4]; [1]; [2]; [3]].
Proof. eexists. split; [reflexivity|]. repeat constructor. Qed.

(** C11.  Vertex weights.  Random sampling stays in the simplex whose vertices
    are pulled toward the base point; deterministic sampling with a separate
    vertex set walks from the base point toward the vertex. *)
Theorem C11_weighted_random : forall d X ss V w u n_dim samples,
  rect d X -> rect d V ->
  Forall (fun s => S (length (snd s)) = n_dim)%nat ss ->
  length u = length ss ->
  Forall (fun v => length v = n_dim /\ Forall (fun x => 0 <= x /\ x < 1) v) u ->
  forall Xv, (match Xv with Some V' => V' | None => X end) = V ->
  fst (random_samples_from_simplices d X ss Xv (Some w) u) = Ok samples ->
  Forall2 (fun s x =>
     convex_comb d (nth (fst s) X [] ::
        map (fun v => toward (nth (fst s) X []) (nth v V []) (nth v w 0) 1) (snd s)) x) ss samples.
Proof. exact random_samples_weighted. Qed.

Theorem C11_weighted_deterministic : forall X ss V w r x,
  deterministic_samples_dim_2 X ss (Some V) false (Some w) = Ok r -> In x r ->
  exists b v vs t, In (b, v :: vs) ss /\ 0 < t /\ t < 1 /\
    x = toward (nth b X []) (nth v V []) (nth v w 0) t.
Proof. exact (fun X ss V w => deterministic_dim_2_direction X ss V (Some w)). Qed.

(** Without a separate vertex set the deterministic mode sorts each pair, so it
    may start from the neighbour and use the base point's weight: a neighbour of
    weight zero does not keep the sample at the base point. *)
Theorem C11_deterministic_same_set_refuted : exists X w ss r x,
  rect 1 X /\ length w = length X /\ Forall (fun q => 0 <= q /\ q <= 1) w /\
  deterministic_samples_dim_2 X ss None false (Some w) = Ok r /\ In x r /\
  ss = [(1, [0])]%nat /\ nth 0 w 0 == 0 /\
  ~ exists t, Forall2 Qeq x (toward (nth 1 X []) (nth 0 X []) (nth 0 w 0) t).
Proof. exact same_set_refuted. Qed.

Example C11_example :
  exists x, fst (random_samples_from_simplices 1 [[0];[4]] [(0,[1])]%nat None (Some [1; 1#2]) [[1#4; 1#4]])
     = Ok [[x]] /\ x == 1.
Proof. eexists. split; reflexivity. Qed.

(** C12.  The caller's array of simplices is left as it was (whenever the call
    does not raise). *)
Theorem C12_simplices_restored : forall d X ss Xv vw u samples,
  fst (random_samples_from_simplices d X ss Xv vw u) = Ok samples ->
  snd (random_samples_from_simplices d X ss Xv vw u) = ss.
Proof. exact random_samples_restored. Qed.

(** If the call raises, the array can stay shifted. *)
Theorem C12_restored_on_error_refuted : exists d X ss V u e,
  fst (random_samples_from_simplices d X ss (Some V) None u) = Err e /\
  snd (random_samples_from_simplices d X ss (Some V) None u) <> ss.
Proof. exact restored_on_error_refuted. Qed.

Example C12_example :
  snd (random_samples_from_simplices 1 [[0];[4]] [(0,[1]);(1,[0])]%nat (Some [[1];[2]]) None
         [[1#2;1#2];[1#2;1#3]]) = [(0,[1]);(1,[0])]%nat
  /\ exists s, fst (random_samples_from_simplices 1 [[0];[4]] [(0,[1]);(1,[0])]%nat (Some [[1];[2]]) None
         [[1#2;1#2];[1#2;1#3]]) = Ok s /\ length s = 2%nat.
Proof. split; [reflexivity|]. eexists. split; reflexivity. Qed.

Print Assumptions C07_simplices_enumerated.
Print Assumptions C08_base_weights_aligned.
Print Assumptions C08_positive_weights_only.
Print Assumptions C09_deterministic_allocation.
Print Assumptions C09_less_than_one_refuted.
Print Assumptions C10_deterministic_evenly_spaced.
Print Assumptions C10_interior.
Print Assumptions C11_weighted_random.
Print Assumptions C11_weighted_deterministic.
Print Assumptions C11_deterministic_same_set_refuted.
Print Assumptions C12_simplices_restored.
Print Assumptions C12_restored_on_error_refuted.
