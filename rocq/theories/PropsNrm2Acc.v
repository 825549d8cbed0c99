(** C47: how accurate dnrm2 is in binary64.  Statements only; the proofs are in Nrm2Err.v and Nrm2Acc.v.
    An accurate norm would be within a few units of roundoff per element of sqrt(sum of squares) whenever that number is
    a finite double.  The code takes its scaling constants from f64::DIGITS (15 decimal digits) where the algorithm needs the 53 binary
    digits of the significand, so the accumulator of middling numbers can overflow and tiny vectors can underflow to 0. *)
From Coq Require Import Reals Lra.
From Flocq Require Import IEEE754.BinarySingleNaN Core.
From Verif Require Import Base Num Array Blas Spec SpecR SpecErr B64 B64Lemmas Nrm2Acc.
Open Scope R_scope.

(** a finite result is within gam (n + 12) relative error plus sqrt(n) * 2^-1055 of the exact norm *)
Theorem c47_dnrm2_error : forall lm, let NB : Num b64 := B64 lm in
  forall X (TX : ToFA b64 X) n (x : X) incx (v : Z -> b64), libm_ok lm -> (1 <= n < 2 ^ 31)%Z ->
  (forall t, (0 <= t < n)%Z -> elem (to_fa x) (stride n incx t) = Some (v t) /\ is_finite (v t) = true) ->
  is_finite (dnrm2 n x incx : b64) = true ->
  let N := sqrt (Rsum_range (fun t => val64 (v t) * val64 (v t)) 0 (n - 1)) in
  Rabs (val64 (dnrm2 n x incx) - N) <= gam (Z.to_nat n + 12) * N + sqrt (IZR n) * bpow radix2 (-1055).
Proof. exact (fun lm X TX n x incx v LM => dnrm2_err lm LM n (to_fa x) incx v). Qed.
Print Assumptions c47_dnrm2_error.

(** the result is finite when the norm is at most 2^1022 and the squares of the elements up to 2^505 add up to at most 2^1022 *)
Theorem c47_dnrm2_finite : forall lm, let NB : Num b64 := B64 lm in
  forall X (TX : ToFA b64 X) n (x : X) incx (v : Z -> b64), libm_ok lm -> (1 <= n < 2 ^ 31)%Z ->
  (forall t, (0 <= t < n)%Z -> elem (to_fa x) (stride n incx t) = Some (v t) /\ is_finite (v t) = true) ->
  Rsum_range (fun t => if Rle_dec (Rabs (val64 (v t))) (bpow radix2 505) then val64 (v t) * val64 (v t) else 0) 0 (n - 1) <= bpow radix2 1022 ->
  sqrt (Rsum_range (fun t => val64 (v t) * val64 (v t)) 0 (n - 1)) <= bpow radix2 1022 ->
  is_finite (dnrm2 n x incx : b64) = true.
Proof. exact (fun lm X TX n x incx v LM => dnrm2_finite lm LM n (to_fa x) incx v). Qed.
Print Assumptions c47_dnrm2_finite.

(** whatever the length, elements of magnitude at most 2^-1056 are lost altogether *)
Theorem c47_tiny_elements_vanish : forall lm, let NB : Num b64 := B64 lm in
  forall X (TX : ToFA b64 X) n (x : X) incx (v : Z -> b64), libm_ok lm -> (0 <= n)%Z ->
  (forall t, (0 <= t < n)%Z -> elem (to_fa x) (stride n incx t) = Some (v t) /\ is_finite (v t) = true /\ Rabs (val64 (v t)) <= bpow radix2 (-1056)) ->
  (dnrm2 n x incx : b64) = B754_zero false.
Proof. exact (fun lm X TX n x incx v LM => dnrm2_tiny lm LM n (to_fa x) incx v). Qed.
Print Assumptions c47_tiny_elements_vanish.

(** 2^14 or more elements of magnitude 2^505 give infinity, though their norm is only sqrt(n) * 2^505 *)
Theorem c47_spurious_overflow : forall lm, let NB : Num b64 := B64 lm in
  forall X (TX : ToFA b64 X) n (x : X) incx, libm_ok lm -> (2 ^ 14 <= n)%Z ->
  (forall t, (0 <= t < n)%Z -> exists s, elem (to_fa x) (stride n incx t) = Some s /\ Babs s = b64_dy 1 505) ->
  (dnrm2 n x incx : b64) = B754_infinity false.
Proof. exact (fun lm X TX n x incx LM => dnrm2_overflow lm LM n (to_fa x) incx). Qed.
Print Assumptions c47_spurious_overflow.

(** the norm of a nonzero vector can be returned as 0 *)
Theorem c47_nonzero_norm_refuted : forall lm, let NB : Num b64 := B64 lm in libm_ok lm ->
  exists (x : list b64) v, elem (to_fa x) 1 = Some v /\ is_finite v = true /\ val64 v <> 0 /\ (dnrm2 1 x 1 : b64) = B754_zero false.
Proof. exact tiny_witness. Qed.
Print Assumptions c47_nonzero_norm_refuted.

(** the norm of a vector whose norm is 2^512 can be returned as infinity *)
Theorem c47_finite_norm_refuted : forall lm, let NB : Num b64 := B64 lm in libm_ok lm ->
  exists (x : list b64) n, (1 <= n < 2 ^ 31)%Z /\
    (forall t, (0 <= t < n)%Z -> exists s, elem (to_fa x) (stride n 1 t) = Some s /\ is_finite s = true /\ val64 s = bpow radix2 505) /\
    sqrt (Rsum_range (fun _ => bpow radix2 505 * bpow radix2 505) 0 (n - 1)) = bpow radix2 512 /\
    (dnrm2 n x 1 : b64) = B754_infinity false.
Proof. exact overflow_witness. Qed.
Print Assumptions c47_finite_norm_refuted.

(** the hypotheses hold of a vector with one big, one middling and one subnormal element, read backwards *)
Example c47_case : let NB : Num b64 := B64 ref_libm in
  let x := [b64_dy 1 600; b64_dy 3 0; b64_dy 1 (-1074)] in
  let v t := if (t =? 0)%Z then b64_dy 1 (-1074) else if (t =? 1)%Z then b64_dy 3 0 else b64_dy 1 600 in
  libm_ok ref_libm /\
  (forall t, (0 <= t < 3)%Z -> elem (to_fa x) (stride 3 (-1) t) = Some (v t) /\ is_finite (v t) = true) /\
  is_finite (dnrm2 3 x (-1) : b64) = true.
Proof.
  cbv zeta. split; [exact ref_libm_ok|]. split; [|vm_compute; reflexivity].
  intros t Ht. assert (E : (t = 0 \/ t = 1 \/ t = 2)%Z) by lia. destruct E as [-> | [-> | ->]]; split; reflexivity.
Qed.
Example c47_finite_case : let NB : Num b64 := B64 ref_libm in
  Rsum_range (fun t => if Rle_dec (Rabs (val64 (b64_dy 1 0))) (bpow radix2 505) then val64 (b64_dy 1 0) * val64 (b64_dy 1 0) else 0) 0 (2 - 1) <= bpow radix2 1022 /\
  sqrt (Rsum_range (fun t => val64 (b64_dy 1 0) * val64 (b64_dy 1 0)) 0 (2 - 1)) <= bpow radix2 1022.
Proof. exact finite_case. Qed.
Example c47_tiny_case : is_finite (b64_dy 3 (-1074)) = true /\ Rabs (val64 (b64_dy 3 (-1074))) <= bpow radix2 (-1056).
Proof. exact tiny_case. Qed.
