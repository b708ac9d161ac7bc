(** Properties of the neurons of DSRBF. *)

From Coq Require Import List Reals Bool Arith.
From Verif Require Import Np ScoreModel NeuronModel SpecNeuron NeuronFacts.
Import ListNotations.
Open Scope nat_scope.

(** The weights and the columns of a neuron always match, so that it can be evaluated,
    and a column for a new connection is always found. *)
Theorem C150_works : forall dim n, made dim n ->
  length (n_weights n) = length (n_mask n) /\ Forall (fun j => j < dim) (n_mask n) /\
  (forall pick u, pick_ok pick -> exists n', add_connection pick u n = Ok n') /\
  (forall x, length x = dim -> n_evaluate n x = Ok (response n x)) /\
  (forall x, n_radius n <> 0%R -> (Rabs (response n x) <= Rabs (n_beta n))%R).
Proof. exact made_works. Qed.

(** A new connection uses a column that is not used yet and has a weight of at most
    half the bound; nothing else changes. *)
Theorem C150_add : forall pick u n, pick_ok pick -> exists n', add_connection pick u n = Ok n' /\
  (n' = n /\ length (n_center n) <= length (n_mask n) \/ exists a, a < length (n_center n) /\ ~ In a (n_mask n) /\
    n' = mk_neuron (n_center n) (n_beta n) (n_mask n ++ [a]) (n_weights n ++ [((u - 1 / 2) * p_i_b n)%R]) (n_radius n)
           (p_i_b n) (p_o_b n) (p_mask n) (p_weights n) (p_beta n) (p_input n)).
Proof. exact add_is. Qed.

(** Deleting a connection removes one column and its weight and keeps at least one. *)
Theorem C150_delete : forall at_ n, at_ok at_ -> let n' := delete_connection at_ n in
  n' = n /\ length (n_mask n) <= 1 \/ 1 < length (n_mask n) /\ exists i, i < length (n_mask n) /\
    n_mask n' = firstn i (n_mask n) ++ skipn (S i) (n_mask n) /\ n_weights n' = firstn i (n_weights n) ++ skipn (S i) (n_weights n) /\
    n_center n' = n_center n /\ n_beta n' = n_beta n /\ n_radius n' = n_radius n.
Proof. exact delete_is. Qed.

(** A mutation changes at most one of centre, radius and output weight, which one
    depends on the number drawn first; a radius that is not positive is not taken over
    from the normal distribution, so that the radius stays positive if the uniform
    numbers are. *)
Theorem C150_mutate : forall n d, let n' := mutate n d in
  let r := d_rand d in
  n_mask n' = n_mask n /\ n_weights n' = n_weights n /\
  n_center n' = (if Rlt_dec r (1 / 5) then d_center d else if Rle_dec (2 / 5) r then if Rlt_dec r (3 / 5) then d_new_center d else n_center n else n_center n) /\
  (n_beta n' = n_beta n \/ (4 / 5 <= r)%R /\ n_beta n' = d_beta d) /\ ((4 / 5 <= r)%R -> n_beta n' = d_beta d) /\
  (n_radius n' <> n_radius n -> (1 / 5 <= r < 2 / 5)%R /\ n_radius n' = d_radius d /\ (0 < d_radius d)%R \/ (3 / 5 <= r < 4 / 5)%R /\ n_radius n' = d_new_radius d) /\
  ((1 / 5 <= r < 2 / 5)%R -> (0 < d_radius d)%R -> n_radius n' = d_radius d) /\ ((3 / 5 <= r < 4 / 5)%R -> n_radius n' = d_new_radius d) /\
  ((0 < n_radius n)%R -> (0 < d_new_radius d)%R -> (0 < n_radius n')%R).
Proof. exact mutate_is. Qed.

(** A clone keeps the centre and the radius; its columns and weights are the initial
    ones, its output weight is drawn anew. *)
Theorem C150_clone : forall dim n u1 u2, made dim n -> let c := n_clone n u1 u2 in
  n_center c = n_center n /\ n_radius c = n_radius n /\ n_mask c = p_mask n /\ n_weights c = p_weights n /\
  n_beta c = ((u1 - 1 / 2) * p_o_b n)%R /\ p_mask c = p_mask n /\ p_weights c = p_weights n.
Proof. exact clone_is. Qed.

(** In every network that can arise each neuron has its initial columns, less at most
    one, plus at most one: changes of the structure do not add up. *)
Theorem C150_structure : forall dim net, evolved dim net -> Forall (fun n => one_change (p_mask n) (n_mask n)) net.
Proof. exact evolved_structure. Qed.

(** A mutation of the network takes all changes of the structure back. *)
Theorem C150_reset : forall dim us ds net, evolved dim net -> Forall (fun n => n_mask n = p_mask n) (net_mutation us ds net).
Proof. exact mutation_resets. Qed.

(** The docstring of clone: "an identical neuron". *)
Theorem C150_identical_refuted : ~ (forall dim n u1 u2 x, made dim n -> length x = dim -> n_beta (n_clone n u1 u2) = n_beta n ->
  n_evaluate (n_clone n u1 u2) x = n_evaluate n x).
Proof. exact identical_refuted. Qed.

Example C150_case_made : made 2 wider /\ n_mask wider = [0; 1] /\ n_radius wider <> 0%R.
Proof. split; [exact wider_made|]. split; [reflexivity|]. exact radius_not_0. Qed.
Example C150_case_evolved : exists net, evolved 2 net /\ exists n, In n net /\ n_mask n <> p_mask n.
Proof. exact evolved_case. Qed.
Example C150_case_pick : pick_ok last_of /\ at_ok (fun l => l - 1).
Proof. split; [exact last_of_ok|]. intros l H. destruct l; [inversion H|]. cbn. rewrite Nat.sub_0_r. constructor. Qed.

Print Assumptions C150_works.
Print Assumptions C150_add.
Print Assumptions C150_delete.
Print Assumptions C150_mutate.
Print Assumptions C150_clone.
Print Assumptions C150_structure.
Print Assumptions C150_reset.
Print Assumptions C150_identical_refuted.
