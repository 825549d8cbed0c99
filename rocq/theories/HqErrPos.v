(** The imaginary part dlanv2 reports for a complex pair is positive. *)
From Coq Require Import ZArith Reals Lra Lia.
From Flocq Require Import IEEE754.BinarySingleNaN Core.
From Verif Require Import Base Num B64 B64Lemmas SpecErr RoundErr LanvErr.
Open Scope R_scope.

Lemma sqrt_bpow e : sqrt (bpow radix2 (e + e)) = bpow radix2 e.
Proof. rewrite bpow_plus. apply sqrt_square. apply bpow_ge_0. Qed.
Lemma imag_pos (b c : b64) : B2R b <> 0 -> B2R c <> 0 -> is_finite (Bmult mode_NE (Bsqrt mode_NE (Babs b)) (Bsqrt mode_NE (Babs c))) = true ->
  0 < B2R (Bmult mode_NE (Bsqrt mode_NE (Babs b)) (Bsqrt mode_NE (Babs c))).
Proof.
  intros Nb Nc F. destruct (mult_fin _ _ F) as (_ & _ & -> & _).
  assert (S : forall x : b64, B2R x <> 0 -> bpow radix2 (-537) <= B2R (Bsqrt mode_NE (Babs x))).
  { intros x Hx. destruct (sqrt_fin (Babs x)) as [-> _].
    apply round_ge_generic; [auto with typeclass_instances|auto with typeclass_instances|apply generic_format_bpow; unfold FLT_exp; lia|].
    rewrite <- (sqrt_bpow (-537)). apply sqrt_le_1_alt. change (-537 + -537)%Z with (-1074)%Z. apply min_pos. rewrite B2R_Babs. apply Rabs_pos_lt. exact Hx. }
  apply Rlt_le_trans with (bpow radix2 (-1074)); [apply bpow_gt_0|].
  apply round_ge_generic; [auto with typeclass_instances|auto with typeclass_instances|apply generic_format_bpow; unfold FLT_exp; lia|].
  change (-1074)%Z with (-537 + -537)%Z. rewrite bpow_plus. apply Rmult_le_compat; try apply bpow_ge_0; apply S; assumption.
Qed.
