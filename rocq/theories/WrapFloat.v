(** MSYN draws enough candidates. *)

From Coq Require Import List ZArith Reals Lia Lra.
From Flocq Require Import Core IEEE754.BinarySingleNaN.
From Verif Require Import Np SimplexModel Float64 SamplerModel SamplerFacts Spec OversFacts WrapModel.
Open Scope R_scope.

Lemma f_three_exact : B2R f_three = 3 /\ is_finite f_three = true.
Proof. apply (f_of_Z_exact 3). cbn. lia. Qed.

Lemma rnd64_id (f : f64) : is_finite f = true -> rnd64 (B2R f) = B2R f.
Proof. intros H. apply round_generic; [apply valid_rnd_N|]. apply generic_format_B2R. Qed.

Lemma three_times_enough y mn mj f n n3 : is_minority y mn mj -> (Z.of_nat (length y) <= 2^53)%Z ->
  is_finite f = true -> 0 <= B2R f ->
  asked (StFloat f) y mn mj = Ok n -> asked (times_three (StFloat f)) y mn mj = Ok n3 -> (n <= n3)%Z.
Proof.
  intros Hmin Hl Hf H0 Hn Hn3. unfold asked in *. cbn [times_three] in Hn3.
  assert (D : (0 <= Z.of_nat (count_label y mj) - Z.of_nat (count_label y mn) <= 2^53)%Z).
  { assert (count_label y mj <= length y)%nat by apply count_occ_bound.
    destruct Hmin as [_ [G|[G _]]]; lia. }
  destruct f_three_exact as [E3 F3].
  destruct (f_mul_spec f f_three Hf F3) as [(M1 & M2 & _)|(s & M1 & _)].
  - eapply (det_monotone f (f_mul f f_three)); eauto. rewrite M2, E3. rewrite <- (rnd64_id f Hf) at 1. apply rnd64_le. lra.
  - exfalso. rewrite M1 in Hn3. unfold det_n_to_sample in Hn3. revert Hn3.
    destruct (f_of_Z _) as [s0|s0| |s0 m e b]; unfold f_mul, Bmult; cbn; intros; try discriminate.
Qed.
