(** Model of the neurons and networks of DSRBF.  File
    smote_variants/oversampling/_dsrbf.py.

    Entries are real numbers.  The arrays of a neuron are replaced, never changed in
    place, so that a neuron is a value.  Random numbers are arguments. *)

From Coq Require Import List Reals Bool Arith.
From Verif Require Import Np ScoreModel.
Import ListNotations.
Open Scope nat_scope.

(** RBFNeuron; the fields from [p_i_b] on are the dictionary [params], without the
    ranges. *)
Record neuron := mk_neuron { n_center : rrow; n_beta : R; n_mask : list nat; n_weights : list R; n_radius : R;
  p_i_b : R; p_o_b : R; p_mask : list nat; p_weights : list R; p_beta : option R; p_input : option (list R) }.

(** base/_base.py:130-143. *)
Definition coalesce {A} (a : option A) (b : A) : A := match a with Some x => x | None => b end.

(** RBFNeuron.__init__, _dsrbf.py:28-77; [u1] and [u2] are the two uniform numbers,
    both are drawn in any case.  The argument [mask] only goes into an attribute that
    is never read (line 62). *)
Definition new_neuron (center : rrow) (i_b o_b : R) (init_conn_mask : list nat) (init_conn_weights : list R)
    (beta : option R) (mask : option (list nat)) (input_weights : option (list R)) (radius : option R) (u1 u2 : R) : neuron :=
  mk_neuron center (coalesce beta ((u1 - 1 / 2) * o_b)%R) init_conn_mask (coalesce input_weights init_conn_weights) (coalesce radius u2)
    i_b o_b init_conn_mask init_conn_weights beta input_weights.

(** RBFNeuron.clone, _dsrbf.py:78-91. *)
Definition n_clone (n : neuron) (u1 u2 : R) : neuron :=
  new_neuron (n_center n) (p_i_b n) (p_o_b n) (p_mask n) (p_weights n) (p_beta n) (Some (n_mask n)) (p_input n) (Some (n_radius n)) u1 u2.

(** RBFNeuron.evaluate, _dsrbf.py:93-106, for one row; the radius is not 0. *)
Definition n_evaluate (n : neuron) (x : rrow) : res R :=
  do a <- gather x (n_mask n);
  do c <- gather (n_center n) (n_mask n);
  if length (n_weights n) =? length a then
    let shifted := map2 Rminus (map2 Rmult a (n_weights n)) c in
    Ok (n_beta n * exp (- sqr (len2 shifted) / sqr (n_radius n)))%R
  else Err ValueError.

(** The draws of RBFNeuron.mutate: the number that selects the case, normal numbers
    around the centre and the radius, a random centre, a random radius, and a normal
    number around beta. *)
Record draws := mk_draws { d_rand : R; d_center : rrow; d_radius : R; d_new_center : rrow; d_new_radius : R; d_beta : R }.

Definition with_center (n : neuron) (c : rrow) : neuron :=
  mk_neuron c (n_beta n) (n_mask n) (n_weights n) (n_radius n) (p_i_b n) (p_o_b n) (p_mask n) (p_weights n) (p_beta n) (p_input n).
Definition with_radius (n : neuron) (r : R) : neuron :=
  mk_neuron (n_center n) (n_beta n) (n_mask n) (n_weights n) r (p_i_b n) (p_o_b n) (p_mask n) (p_weights n) (p_beta n) (p_input n).
Definition with_beta (n : neuron) (b : R) : neuron :=
  mk_neuron (n_center n) b (n_mask n) (n_weights n) (n_radius n) (p_i_b n) (p_o_b n) (p_mask n) (p_weights n) (p_beta n) (p_input n).
Definition with_connections (n : neuron) (m : list nat) (w : list R) : neuron :=
  mk_neuron (n_center n) (n_beta n) m w (n_radius n) (p_i_b n) (p_o_b n) (p_mask n) (p_weights n) (p_beta n) (p_input n).

(** RBFNeuron.mutate, _dsrbf.py:108-135. *)
Definition mutate (n : neuron) (d : draws) : neuron :=
  if Rlt_dec (d_rand d) (1 / 5) then with_center n (d_center d)
  else if Rlt_dec (d_rand d) (2 / 5) then if Rlt_dec 0 (d_radius d) then with_radius n (d_radius d) else n
  else if Rlt_dec (d_rand d) (3 / 5) then with_center n (d_new_center d)
  else if Rlt_dec (d_rand d) (4 / 5) then with_radius n (d_new_radius d)
  else with_beta n (d_beta d).

(** RBFNeuron.add_connection, _dsrbf.py:137-156; [pick] chooses one of the columns
    left, [u] is the uniform number. *)
Definition add_connection (pick : list nat -> res nat) (u : R) (n : neuron) : res neuron :=
  let n_dim := length (n_center n) in
  if length (n_mask n) <? n_dim then
    let domain := filter (fun j => negb (existsb (Nat.eqb j) (n_mask n))) (seq 0 n_dim) in
    do a <- pick domain;
    Ok (with_connections n (n_mask n ++ [a]) (n_weights n ++ [((u - 1 / 2) * p_i_b n)%R]))
  else Ok n.

(** RBFNeuron.delete_connection, _dsrbf.py:158-165; [at_ len] is a number below len. *)
Definition delete_connection (at_ : nat -> nat) (n : neuron) : neuron :=
  if 1 <? length (n_mask n) then
    let idx := at_ (length (n_mask n)) in
    with_connections n (delete_idx (n_mask n) [idx]) (delete_idx (n_weights n) [idx])
  else n.

(** ** Networks *)

Fixpoint update_at {A} (f : A -> res A) (l : list A) (i : nat) : res (list A) :=
  match l, i with
  | [], _ => Err IndexError
  | x :: l, 0 => do y <- f x; Ok (y :: l)
  | x :: l, S i => do l' <- update_at f l i; Ok (x :: l')
  end.

(** The neurons of RBF.clone, _dsrbf.py:230-244; [us i] are the numbers drawn for
    neuron [i]. *)
Definition net_clone (us : nat -> R * R) (net : list neuron) : list neuron :=
  map (fun k => n_clone (snd k) (fst (us (fst k))) (snd (us (fst k)))) (combine (seq 0 (length net)) net).

(** RBF.mutation, _dsrbf.py:315-325. *)
Definition net_mutation (us : nat -> R * R) (ds : nat -> draws) (net : list neuron) : list neuron :=
  map (fun k => mutate (snd k) (ds (fst k))) (combine (seq 0 (length net)) (net_clone us net)).

(** RBF.structural_mutation in the case of lines 343-345, _dsrbf.py:336-347. *)
Definition net_connections (us : nat -> R * R) (i j : nat) (at_ : nat -> nat) (pick : list nat -> res nat) (u : R) (net : list neuron) : res (list neuron) :=
  do l <- update_at (fun n => Ok (delete_connection at_ n)) (net_clone us net) i;
  update_at (add_connection pick u) l j.

(** RBF.evaluate, _dsrbf.py:302-313, for the output of the network at one row. *)
Definition net_output (beta_0 : R) (net : list neuron) (x : rrow) : res R :=
  do l <- mapM (fun n => n_evaluate n x) net; Ok (beta_0 + tot l)%R.
