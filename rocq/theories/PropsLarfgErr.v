(** C50: dlarfg in binary64.  Statements only; the proofs are in LarfgErr.v, LarfgF64.v, LarfgOrth.v and LarfgTop.v.
    [gam k] is (1 + 2^-53)^k - 1 and [eta64] is 2^-1075; h is the exact length of (alpha, x), bs the exact beta (it takes the sign opposite to
    the sign bit of alpha), (bs - alpha)/bs the exact tau and x/(alpha - bs) the exact v. *)
From Coq Require Import Reals Lra.
From Flocq Require Import IEEE754.BinarySingleNaN Core.
From Verif Require Import Base Num Array Blas Lapack Spec SpecR SpecErr B64 B64Lemmas LarfgProofs LarfgTop.
Open Scope R_scope.

(** beta, tau and every element of v have a small relative error, whether or not the data had to be rescaled *)
Theorem c50_values : forall lm, let NB : Num b64 := B64 lm in libm_ok lm ->
  forall X (TX : ToFA b64 X) (FX : FromFA b64 X), flat_container b64 X ->
  forall n incx (x : X) (a : b64) (v : Z -> b64), (2 <= n < 2 ^ 31)%Z -> (1 <= incx)%Z -> is_finite a = true ->
  (forall t, (0 <= t < n - 1)%Z -> elem (to_fa x) (stride (n - 1) incx t) = Some (v t) /\ is_finite (v t) = true) ->
  is_finite (dnrm2 (n - 1) x incx : b64) = true -> val64 (dnrm2 (n - 1) x incx : b64) <> 0 ->
  let h := sqrt (val64 a * val64 a + sum_sq (n - 1) (fun t => val64 (v t))) in
  let bs := if Bsign a then h else - h in
  h <= bpow radix2 1020 ->
  let k := Z.to_nat n in
  exists b x' tau, dlarfg n a x incx = Ok (b, x', tau) /\
    is_finite b = true /\ Rabs (val64 b - bs) <= gam (k + 18) * h + eta64 /\
    is_finite tau = true /\ Rabs (val64 tau - (bs - val64 a) / bs) <= gam (3 * k + 53) * ((bs - val64 a) / bs) /\
    forall t, (0 <= t < n - 1)%Z -> exists y, elem (to_fa x') (stride (n - 1) incx t) = Some y /\ is_finite y = true /\
      Rabs (val64 y - val64 (v t) / (val64 a - bs)) <= gam (2 * k + 38) * Rabs (val64 (v t) / (val64 a - bs)) + eta64.
Proof. exact (fun lm LM X TX FX FL n incx x a v => larfg_values lm LM FL n incx x a v). Qed.
Print Assumptions c50_values.

(** the stored reflector I - tau*(1,v)*(1,v)^T preserves lengths up to rounding and maps (alpha, x) to (beta, 0) up to rounding *)
Theorem c50_reflector : forall lm, let NB : Num b64 := B64 lm in libm_ok lm ->
  forall X (TX : ToFA b64 X) (FX : FromFA b64 X), flat_container b64 X ->
  forall n incx (x : X) (a : b64) (v : Z -> b64), (2 <= n < 2 ^ 31)%Z -> (1 <= incx)%Z -> is_finite a = true ->
  (forall t, (0 <= t < n - 1)%Z -> elem (to_fa x) (stride (n - 1) incx t) = Some (v t) /\ is_finite (v t) = true) ->
  is_finite (dnrm2 (n - 1) x incx : b64) = true -> val64 (dnrm2 (n - 1) x incx : b64) <> 0 ->
  let h := sqrt (val64 a * val64 a + sum_sq (n - 1) (fun t => val64 (v t))) in
  let bs := if Bsign a then h else - h in
  h <= bpow radix2 1020 ->
  forall b x' tau w, dlarfg n a x incx = Ok (b, x', tau) ->
  (forall t, (0 <= t < n - 1)%Z -> elem (to_fa x') (stride (n - 1) incx t) = Some (w t)) ->
  let H := reflect n (val64 tau) (vcons 1 (fun t => val64 (w t))) in
  let z := vcons (val64 a) (fun t => val64 (v t)) in
  let k := Z.to_nat n in
  (forall y, Rabs (sum_sq n (H y) - sum_sq n y) <= 5 * gam (7 * k + 130) * sum_sq n y) /\
  Rabs (H z 0%Z - bs) <= gam (5 * k + 92) * (Rabs (val64 a) + h) /\
  forall t, (0 <= t < n - 1)%Z -> Rabs (H z (t + 1)%Z) <= gam (7 * k + 130) * Rabs (val64 (v t)) + 3 * h * eta64.
Proof. exact (fun lm LM X TX FX FL n incx x a v => larfg_near lm LM FL n incx x a v). Qed.
Print Assumptions c50_reflector.

(** the condition on dnrm2 cannot be dropped: x = 2^-1074 is left where it is *)
Theorem c50_tiny_refuted : forall lm, let NB : Num b64 := B64 lm in libm_ok lm ->
  exists (a : b64) (x : list b64) v, to_fa x = to_fa [v] /\ is_finite v = true /\ val64 v <> 0 /\ val64 a = 0 /\
    dlarfg 2 a x 1 = Ok (a, x, B754_zero false).
Proof. exact larfg_tiny. Qed.
Print Assumptions c50_tiny_refuted.

(** nor can the bound on h: with a finite exact and computed beta, v can be 0 and tau infinite *)
Theorem c50_huge_refuted : forall lm, let NB : Num b64 := B64 lm in libm_ok lm ->
  exists a v b : b64, is_finite a = true /\ is_finite v = true /\ sqrt (val64 a * val64 a + val64 v * val64 v) <= val64 (fMAX : b64) /\ is_finite b = true /\
    dlarfg 2 a [v] 1 = Ok (b, [B754_zero false], B754_infinity false).
Proof. exact larfg_big. Qed.
Print Assumptions c50_huge_refuted.

(** the hypotheses hold of subnormal data, which take the rescaling path: alpha = -3*2^-1040, x = (2^-1038, 2^-1074) *)
Example c50_case : let NB : Num b64 := B64 ref_libm in
  let x := [b64_dy 1 (-1038); b64_dy 1 (-1074)] in
  let v t := if (t =? 0)%Z then b64_dy 1 (-1038) else b64_dy 1 (-1074) in
  libm_ok ref_libm /\ flat_container b64 (list b64) /\ is_finite (b64_dy (-3) (-1040)) = true /\
  (forall t, (0 <= t < 3 - 1)%Z -> elem (to_fa x) (stride (3 - 1) 1 t) = Some (v t) /\ is_finite (v t) = true) /\
  is_finite (dnrm2 (3 - 1) x 1 : b64) = true /\ Beqb (dnrm2 (3 - 1) x 1 : b64) (b64_dy 0 0) = false /\
  Bltb (Babs (larfg_beta (b64_dy (-3) (-1040)) (dnrm2 (3 - 1) x 1 : b64))) larfg_safmin = true /\
  sqrt (val64 (b64_dy (-3) (-1040)) * val64 (b64_dy (-3) (-1040)) + sum_sq (3 - 1) (fun t => val64 (v t))) <= bpow radix2 1020.
Proof.
  cbv zeta. split; [exact ref_libm_ok|]. split; [exact flat_vec|]. split; [reflexivity|]. split.
  { intros t Ht. assert (E : (t = 0 \/ t = 1)%Z) by lia. destruct E as [-> | ->]; split; reflexivity. }
  split; [vm_compute; reflexivity|]. split; [vm_compute; reflexivity|]. split; [vm_compute; reflexivity|]. exact small_case.
Qed.
