(** Concrete data for C132 and C133. *)

From Coq Require Import List ZArith QArith Bool Arith Lia Lqa Sorting.Sorted Permutation.
From Verif Require Import Np NpFacts SimplexModel Spec SpecComp SimplexFacts Float64 SamplerModel SamplerFacts KnnFacts
  ClusterOversModel CompModel CurveModel SpecCurve EditWitness.
Import ListNotations.
Open Scope nat_scope.

(** Three minority rows on the diagonal. *)
Definition diag_D : dataset := mk_data [[0;0];[1;1];[2;2];[9;0];[9;1];[9;2];[9;3]]%Q 2 [1;1;1;0;0;0;0]%Z.
Lemma diag_D_ok : wf_data (d_X diag_D) (d_dim diag_D) (d_y diag_D) /\ is_minority (d_y diag_D) 1 0.
Proof. data_ok. Qed.

(** Three minority rows of the same mean, in two orders. *)
Definition tie_D : dataset := mk_data [[0;2];[2;0];[1;1];[9;0];[9;1];[9;2];[9;3]]%Q 2 [1;1;1;0;0;0;0]%Z.
Definition tie_D' : dataset := mk_data [[2;0];[0;2];[1;1];[9;0];[9;1];[9;2];[9;3]]%Q 2 [1;1;1;0;0;0;0]%Z.
Lemma tie_D_ok : wf_data (d_X tie_D) (d_dim tie_D) (d_y tie_D) /\ is_minority (d_y tie_D) 1 0.
Proof. data_ok. Qed.
Lemma tie_D'_ok : wf_data (d_X tie_D') (d_dim tie_D') (d_y tie_D') /\ is_minority (d_y tie_D') 1 0.
Proof. data_ok. Qed.

(** The line through three values at 0, 1 and 2 with the least squared error. *)
Definition line3 (ys : list Q) (deg : nat) : res (list Q) :=
  match deg, ys with
  | 1, [a; b; c] => Ok [(c - a) / 2; (a + b + c) / 3 - (c - a) / 2]%Q
  | _, _ => Err LinAlgError
  end.

Lemma sq_pos x : (0 <= x * x)%Q.
Proof. destruct (Qlt_le_dec x 0); nra. Qed.

Lemma line3_ok : polyfit_ok line3 3 1.
Proof.
  intros ys L. destruct ys as [|a [|b [|c [|]]]]; try discriminate. eexists. split; [reflexivity|]. split; [reflexivity|].
  intros c' L'. destruct c' as [|s [|t [|]]]; try discriminate. unfold squared_error. cbn [length seq map qsum value_at pow_nat nth].
  change (inject_Z (Z.of_nat 0)) with 0%Q. change (inject_Z (Z.of_nat 1)) with 1%Q. change (inject_Z (Z.of_nat 2)) with 2%Q.
  set (s0 := ((c - a) / 2)%Q). set (m := ((a + b + c) / 3)%Q).
  assert (Es : (c == a + 2 * s0)%Q) by (unfold s0; field). assert (Em : (b == 3 * m - 2 * a - 2 * s0)%Q) by (unfold m; rewrite Es; field).
  clearbody s0 m. rewrite Es, Em. clear Es Em b c L L'.
  set (ds := (s - s0)%Q). set (dt := (t - (m - s0))%Q). assert (s == s0 + ds)%Q by (unfold ds; ring). assert (t == m - s0 + dt)%Q by (unfold dt; ring).
  clearbody ds dt. rewrite H, H0. pose proof (sq_pos dt). pose proof (sq_pos (ds + dt)). pose proof (sq_pos (2 * ds + dt)). nra.
Qed.

Lemma argsort_order : order_ok argsort.
Proof. intros v. split; [apply argsort_perm|apply argsort_sorted]. Qed.

(** Draws that agree and draws that differ between the columns. *)
Definition u56 (_ _ : nat) : Q := 5 # 6.
Definition u_cols (j _ : nat) : Q := if j =? 0 then (1 # 3)%Q else 0%Q.
Lemma u56_ok : forall j s, unit_share (u56 j s).
Proof. intros. unfold unit_share, u56. lra. Qed.
Lemma u_cols_ok : forall j s, unit_share (u_cols j s).
Proof. intros. unfold unit_share, u_cols. destruct (j =? 0); lra. Qed.

(** A row outside of the diagonal or beyond its ends is not in the hull. *)
Lemma diag_hull x y : in_hull 2 (rows_with 1 (d_X diag_D) (d_y diag_D)) [x; y] -> (x == y /\ 0 <= x <= 2)%Q.
Proof.
  intros (pts & Hi & _ & ws & L & W & S & H).
  pose proof (H 0 ltac:(lia)) as H0. pose proof (H 1 ltac:(lia)) as H1. cbn [nth] in H0, H1.
  assert (G : forall ws pts, incl pts (rows_with 1 (d_X diag_D) (d_y diag_D)) -> length ws = length pts -> Forall (Qle 0) ws ->
    let f j := qsum (map2 (fun w p => w * nth j p 0)%Q ws pts) in (f 0%nat == f 1%nat /\ 0 <= f 0%nat <= 2 * qsum ws)%Q).
  { clear. induction ws as [|w ws IH]; intros [|p pts] Hi L W; try discriminate; [cbn; lra|]. inversion W as [|? ? W0 W1]; subst.
    destruct (IH pts) as (G1 & G2 & G3); [intros z Hz; apply Hi; now right|now injection L|assumption|].
    cbn [map2 qsum]. assert (Hp : (nth 0 p 0 == nth 1 p 0 /\ 0 <= nth 0 p 0 <= 2)%Q).
    { specialize (Hi p (or_introl eq_refl)). cbn in Hi. destruct Hi as [<-|[<-|[<-|[]]]]; cbn; lra. }
    destruct Hp as (Hp1 & Hp2 & Hp3). rewrite G1 in *. rewrite Hp1 in *. split; [reflexivity|]. split; nra. }
  destruct (G ws pts Hi L W) as (G1 & G2 & G3). cbv beta in G1, G2, G3. rewrite S in G3.
  set (f0 := qsum _) in H0. set (f1 := qsum _) in H1. fold f0 in G1, G2, G3. fold f1 in G1. clearbody f0 f1. lra.
Qed.

Definition same_row (_ b : nat) : nat := Nat.min b 2.
Definition next_row (_ b : nat) : nat := if b <? 2 then b + 1 else 0.
Definition mesh_ss : ss_params := mk_ss 2 SRandom WDeterministic GNone.
