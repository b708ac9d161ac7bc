(** Derived forms and witnesses used in PropsDist.v. *)

From Coq Require Import List ZArith QArith Qabs Bool Arith Lia Permutation Sorted.
From Verif Require Import Np NpFacts DistModel DistFacts.
Import ListNotations.
Open Scope nat_scope.

Lemma uncorrelated_spec th corr : (forall r, In r corr -> length r = length corr) ->
  (forall i j q, i < j < length corr -> nth i (remove_mask th corr) false = true -> nth j (remove_mask th corr) false = true ->
    nth j (nth i corr []) None = Some q -> (Qabs q <= th)%Q) /\
  (corr <> [] -> nth (length corr - 1) (remove_mask th corr) false = true).
Proof.
  intros Sq. split.
  - intros i j q H Hi _ E. apply (proj1 (columns_spec th corr i ltac:(lia) Sq) Hi j q H E).
  - intros N. assert (0 < length corr) by (destruct corr; [congruence|cbn; lia]).
    apply columns_spec; [lia|assumption|]. intros j q Hj. lia.
Qed.

Lemma mismatch :
  closest_in_classes [[0%Q]; [1%Q]; [5%Q]] [0; 0; 1]%Z [[2; 1]] [[0; 1]; [1; 0]] = Ok ([[5%Q]], [0; 0]%Z).
Proof. reflexivity. Qed.

(** Insertion sort of positions. *)
Definition dist_leb (a b : dist) : bool :=
  match a, b with Sqrt p, Sqrt q => Qle_bool p q | _, NaN => true | NaN, Sqrt _ => false end.
Fixpoint ins (l : list dist) (i : nat) (s : list nat) : list nat :=
  match s with [] => [i] | j :: r => if dist_leb (at_ l i) (at_ l j) then i :: s else j :: ins l i r end.
Definition ins_argsort (l : list dist) : list nat := fold_right (ins l) [] (seq 0 (length l)).

Lemma dist_leb_le a b : dist_leb a b = true <-> dist_le a b.
Proof. destruct a, b; cbn; rewrite ?Qle_bool_iff; intuition discriminate. Qed.
Lemma dist_leb_not a b : dist_leb a b = false -> dist_le b a.
Proof.
  destruct a as [p|], b as [q|]; cbn; try discriminate; auto. intros H. destruct (Qlt_le_dec q p) as [L|L]; [now apply Qlt_le_weak|].
  apply Qle_bool_iff in L. congruence.
Qed.
Lemma dist_le_trans a b c : dist_le a b -> dist_le b c -> dist_le a c.
Proof. destruct a, b, c; cbn; auto; try contradiction. apply Qle_trans. Qed.

Lemma ins_perm l i s : Permutation (ins l i s) (i :: s).
Proof.
  induction s as [|j r IH]; cbn; [reflexivity|]. destruct (dist_leb _ _); [reflexivity|]. rewrite IH. apply perm_swap.
Qed.

Lemma ins_sorted l i s : StronglySorted dist_le (map (at_ l) s) -> StronglySorted dist_le (map (at_ l) (ins l i s)).
Proof.
  induction s as [|j r IH]; cbn; intros H; [repeat constructor|]. inversion H as [|? ? S Fa]; subst. destruct (dist_leb (at_ l i) (at_ l j)) eqn:E.
  - apply dist_leb_le in E. cbn. constructor; [assumption|]. constructor; [assumption|]. eapply Forall_impl; [|exact Fa]. intros d. now apply dist_le_trans.
  - apply dist_leb_not in E. cbn. constructor; [auto|]. rewrite Forall_forall in *. intros d Hd. apply in_map_iff in Hd as (k & <- & Hk).
    apply (Permutation_in _ (ins_perm l i r)) in Hk as [<-|Hk]; [assumption|]. apply Fa. now apply in_map.
Qed.

Lemma ins_argsort_ok : argsort_ok ins_argsort.
Proof.
  intros l. unfold ins_argsort. generalize (seq 0 (length l)) as s. intros s. split.
  - induction s as [|i s IH]; cbn; [reflexivity|]. now rewrite ins_perm, IH.
  - induction s as [|i s IH]; cbn; [constructor|]. now apply ins_sorted.
Qed.
