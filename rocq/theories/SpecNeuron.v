(** Specification vocabulary for the neurons of DSRBF. *)

From Coq Require Import List Reals Bool Arith.
From Verif Require Import Np ScoreModel NeuronModel.
Import ListNotations.
Open Scope nat_scope.

(** A choice from a nonempty list, and one of the numbers below a positive one. *)
Definition pick_ok (pick : list nat -> res nat) : Prop := forall l, l <> [] -> exists a, pick l = Ok a /\ In a l.
Definition at_ok (at_ : nat -> nat) : Prop := forall l, 0 < l -> at_ l < l.

(** A new neuron for data of [dim] columns, created by the network. *)
Definition fresh (dim : nat) (n : neuron) : Prop :=
  exists center i_b o_b im iw u1 u2, n = new_neuron center i_b o_b im iw None None None None u1 u2 /\
    length center = dim /\ length iw = length im /\ Forall (fun j => j < dim) im.

(** The neurons that can arise. *)
Inductive made (dim : nat) : neuron -> Prop :=
| made_new n : fresh dim n -> made dim n
| made_clone n u1 u2 : made dim n -> made dim (n_clone n u1 u2)
| made_mutate n d : made dim n -> length (d_center d) = dim -> length (d_new_center d) = dim -> made dim (mutate n d)
| made_center n c : made dim n -> length c = dim -> made dim (with_center n c)
| made_add n pick u n' : made dim n -> pick_ok pick -> add_connection pick u n = Ok n' -> made dim n'
| made_delete n at_ : made dim n -> at_ok at_ -> made dim (delete_connection at_ n).

(** The networks that can arise; recombination and the loss of a neuron select from
    clones. *)
Inductive evolved (dim : nat) : list neuron -> Prop :=
| ev_start net : Forall (fresh dim) net -> evolved dim net
| ev_clones net net' l : evolved dim net -> evolved dim net' ->
    Forall (fun n => exists m u1 u2, In m (net ++ net') /\ n = n_clone m u1 u2) l -> evolved dim l
| ev_grow net us n : evolved dim net -> fresh dim n -> evolved dim (net_clone us net ++ [n])
| ev_mutation net us ds : evolved dim net -> (forall i, length (d_center (ds i)) = dim /\ length (d_new_center (ds i)) = dim) ->
    evolved dim (net_mutation us ds net)
| ev_connections net us i j at_ pick u net' : evolved dim net -> at_ok at_ -> pick_ok pick ->
    net_connections us i j at_ pick u net = Ok net' -> evolved dim net'
| ev_centers net cs : evolved dim net -> length cs = length net -> Forall (fun c => length c = dim) cs ->
    evolved dim (map2 with_center net cs).

(** [m] is [im] less at most one position plus at most one column at the end. *)
Definition one_change (im m : list nat) : Prop :=
  exists base extra, (base = im \/ exists i, i < length im /\ base = firstn i im ++ skipn (S i) im) /\
    length extra <= 1 /\ m = base ++ extra.

(** What a neuron computes. *)
Definition response (n : neuron) (x : rrow) : R :=
  (n_beta n * exp (- tot (map2 (fun j w => sqr (nth j x 0 * w - nth j (n_center n) 0)) (n_mask n) (n_weights n)) / sqr (n_radius n)))%R.
