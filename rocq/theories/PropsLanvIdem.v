(** Property C67: dlanv2 leaves its own results alone.  Statements only; the proofs are in LanvIdem.v. *)
From Coq Require Import Reals.
From Flocq Require Import IEEE754.BinarySingleNaN Core.
From Verif Require Import Base Num Array Blas Lapack Spec B64.
From Verif Require LanvIdem.
Open Scope Z_scope.

(** ** C67 *)
(** In f64: dlanv2 applied to a block it has produced returns that block and the same eigenvalues, bit for bit, with the identity
    rotation.  A result that is not upper triangular must have a finite diagonal. *)
Theorem c67_idempotent : forall lm, let NB : Num b64 := B64 lm in forall a b c d : b64, let r := dlanv2 a b c d in
  is_finite (nA r) = true \/ feq (nC r) f0 = true ->
  dlanv2 (nA r) (nB r) (nC r) (nD r) = mkNv2 (nA r) (nB r) (nC r) (nD r) (nrt1r r) (nrt1i r) (nrt2r r) (nrt2i r) f1 f0.
Proof. exact LanvIdem.dlanv2_idem_b64. Qed.
Print Assumptions c67_idempotent.

(** In f64, whatever was passed: if the off-diagonal entries returned are finite, the block is upper triangular or its off-diagonal
    entries are nonzero with opposite signs and its diagonal entries are equal - or, what the definition of the standard form does
    not allow, merely closer than f64::EPSILON (see C31). *)
Theorem c67_form : forall lm, let NB : Num b64 := B64 lm in forall a b c d : b64, let r := dlanv2 a b c d in
  is_finite (nB r) = true -> is_finite (nC r) = true ->
  B2R (nC r) = 0%R \/ ((B2R (nB r) * B2R (nC r) < 0)%R /\ (nA r = nD r \/ flt (fabs (fsub (nA r) (nD r))) fEPS = true)).
Proof. exact LanvIdem.dlanv2_form_b64. Qed.
Print Assumptions c67_form.

(** ((1,2),(-3,4)) gives a complex pair and ((1,2),(3,4)) two real eigenvalues; both results are finite *)
Example c67_hyps : forall lm, libm_ok lm -> let NB : Num b64 := B64 lm in let d m := b64_dy m 0 in
  (let r := dlanv2 (d 1) (d 2) (d (-3)) (d 4) in is_finite (nA r) = true /\ is_finite (nB r) = true /\ is_finite (nC r) = true /\ feq (nC r) f0 = false) /\
  (let r := dlanv2 (d 1) (d 2) (d 3) (d 4) in is_finite (nA r) = true /\ is_finite (nB r) = true /\ is_finite (nC r) = true /\ feq (nC r) f0 = true).
Proof. exact LanvIdem.idem_hyps. Qed.
