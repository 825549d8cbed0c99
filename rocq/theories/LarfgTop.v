(** dlarfg in binary64: the statements of C50 in the terms of the specification, and the inputs on which it fails. *)
From Coq Require Import Reals Lra.
From Flocq Require Import IEEE754.BinarySingleNaN Core.
From Verif Require Import Base Num Array Blas Lapack Spec SpecR SpecErr B64 B64Lemmas MachProofs RsumLemmas RoundErr AppErr Nrm2Acc GemmErr Lapy2Err
  LarfgProofs LarfgErr LarfgF64 LarfgOrth LibmFree.
Open Scope R_scope.

Section Top.
  Context (lm : libm) (LM : libm_ok lm).
  #[local] Instance NBt : Num b64 := B64 lm.
  Context {X : Type} {TX : ToFA b64 X} {FX : FromFA b64 X}.
  Hypothesis FL : flat_container b64 X.
  Context (n incx : Z) (x : X) (a : b64) (v : Z -> b64).
  Hypothesis Hn : (2 <= n < 2 ^ 31)%Z.
  Hypothesis Hi : (1 <= incx)%Z.
  Hypothesis Fa : is_finite a = true.
  Hypothesis V : forall t, (0 <= t < n - 1)%Z -> elem (to_fa x) (stride (n - 1) incx t) = Some (v t) /\ is_finite (v t) = true.
  Hypothesis Fn : is_finite (dnrm2 (n - 1) x incx : b64) = true.
  Hypothesis Nn : val64 (dnrm2 (n - 1) x incx : b64) <> 0.
  Let h := sqrt (val64 a * val64 a + sum_sq (n - 1) (fun t => val64 (v t))).
  Let bs := if Bsign a then h else - h.
  Hypothesis Hh : h <= bpow radix2 1020.
  Let k := Z.to_nat n.

  Lemma larfg_values : exists b x' tau, dlarfg n a x incx = Ok (b, x', tau) /\
      is_finite b = true /\ Rabs (val64 b - bs) <= gam (k + 18) * h + eta64 /\
      is_finite tau = true /\ Rabs (val64 tau - (bs - val64 a) / bs) <= gam (3 * k + 53) * ((bs - val64 a) / bs) /\
      forall t, (0 <= t < n - 1)%Z -> exists y, elem (to_fa x') (stride (n - 1) incx t) = Some y /\ is_finite y = true /\
        Rabs (val64 y - val64 (v t) / (val64 a - bs)) <= gam (2 * k + 38) * Rabs (val64 (v t) / (val64 a - bs)) + eta64.
  Proof.
    destruct (dlarfg_err lm LM FL n incx Hn Hi x a v Fa V Fn Nn Hh) as (b & x' & tau & E & R).
    exists b, x', tau. split; [exact E|]. replace (k + 18)%nat with (Z.to_nat (n - 1) + 12 + 7)%nat by (unfold k; lia).
    replace (3 * k + 53)%nat with (3 * (Z.to_nat (n - 1) + 12) + 20)%nat by (unfold k; lia). replace (2 * k + 38)%nat with (2 * (Z.to_nat (n - 1) + 12) + 16)%nat by (unfold k; lia).
    assert (B : bs = - sg a * h) by (unfold bs, sg; destruct (Bsign a); ring). rewrite B. exact R.
  Qed.

  Lemma h_nonzero : 0 < h.
  Proof.
    destruct (some_nonzero v (n - 1)) as [ZV|(t & Ht & NZ)].
    - exfalso. apply Nn. unfold dnrm2. rewrite (Nrm2F64.dnrm2_zeros lm LM); [reflexivity|]. intros t Ht. destruct (V t Ht) as [E F]. specialize (ZV t Ht).
      destruct (v t) as [s|s| |s mm e B]; try discriminate F; [exists s; exact E|]. exfalso. revert ZV. apply F2R_neq_0. destruct s; discriminate.
    - apply sqrt_lt_R0. assert (val64 (v t) * val64 (v t) <= sum_sq (n - 1) (fun t => val64 (v t))) by (apply (Rsum_range_term (fun t => val64 (v t) * val64 (v t))); [intros; apply Rle_0_sqr|lia]).
      assert (0 < val64 (v t) * val64 (v t)) by (apply Rsqr_pos_lt; exact NZ). pose proof (Rle_0_sqr (val64 a)). unfold Rsqr in *. lra.
  Qed.

  Lemma larfg_near b x' tau w : dlarfg n a x incx = Ok (b, x', tau) ->
    (forall t, (0 <= t < n - 1)%Z -> elem (to_fa x') (stride (n - 1) incx t) = Some (w t)) ->
    let H := reflect n (val64 tau) (vcons 1 (fun t => val64 (w t))) in
    let z := vcons (val64 a) (fun t => val64 (v t)) in
    (forall y, Rabs (sum_sq n (H y) - sum_sq n y) <= 5 * gam (7 * k + 130) * sum_sq n y) /\
    Rabs (H z 0%Z - bs) <= gam (5 * k + 92) * (Rabs (val64 a) + h) /\
    forall t, (0 <= t < n - 1)%Z -> Rabs (H z (t + 1)%Z) <= gam (7 * k + 130) * Rabs (val64 (v t)) + 3 * h * eta64.
  Proof.
    intros E W H z. destruct larfg_values as (b' & x'' & tau' & E' & _ & _ & _ & Et & EW). rewrite E in E'. injection E' as <- <- <-.
    assert (B : bs = - sg a * h) by (unfold bs, sg; destruct (Bsign a); ring). pose proof h_nonzero as HP. pose proof (sg_val a) as SV. pose proof (sg_sq a) as SS.
    assert (TQ : (bs - val64 a) / bs = (Rabs (val64 a) + h) / h).
    { assert (S1 : sg a <> 0) by (unfold sg; destruct (Bsign a); lra). rewrite B. unfold val64. rewrite SV at 1. field. split; [lra|exact S1]. }
    rewrite TQ in Et.
    assert (HW : forall t, (0 <= t < n - 1)%Z -> Rabs (val64 (w t) - val64 (v t) / (val64 a - - sg a * h)) <= gam (2 * k + 38) * Rabs (val64 (v t) / (val64 a - - sg a * h)) + eta64).
    { intros t Ht. destruct (EW t Ht) as (y & Ey & _ & By). rewrite W in Ey by exact Ht. injection Ey as <-. rewrite B in By. exact By. }
    assert (Hq : (Z.of_nat (3 * k + 53 + 2 * (2 * k + 38) + 1) <= 2 ^ 34)%Z) by (unfold k; lia).
    assert (Q1 : (3 * k + 53 + 2 * (2 * k + 38) + 1 = 7 * k + 130)%nat) by lia. assert (Q2 : (3 * k + 53 + (2 * k + 38) + 1 = 5 * k + 92)%nat) by lia.
    split; [|split].
    - intros y. rewrite <- Q1. exact (near_orth n (val64 a) (sg a) (val64 tau) (fun t => val64 (v t)) (fun t => val64 (w t)) _ _ Hn SS SV HP Hq Et HW y).
    - rewrite <- Q2, B. exact (near_first n (val64 a) (sg a) (val64 tau) (fun t => val64 (v t)) (fun t => val64 (w t)) _ _ Hn SS SV HP Hq Et HW).
    - intros t Ht. rewrite <- Q1. exact (near_rest n (val64 a) (sg a) (val64 tau) (fun t => val64 (v t)) (fun t => val64 (w t)) _ _ Hn SS SV HP Hq Et HW t Ht).
  Qed.
End Top.

(** a nonzero x that is left alone: dnrm2 takes it for zero *)
Lemma larfg_tiny lm : let NB : Num b64 := B64 lm in libm_ok lm ->
  exists (a : b64) (x : list b64) v, to_fa x = to_fa [v] /\ is_finite v = true /\ val64 v <> 0 /\ val64 a = 0 /\
    dlarfg 2 a x 1 = Ok (a, x, B754_zero false).
Proof.
  cbv zeta. intros LM. exists (B754_zero false), [b64_dy 1 (-1074)], (b64_dy 1 (-1074)). split; [reflexivity|]. split; [reflexivity|].
  assert (VM : B2R (b64_dy 1 (-1074)) = bpow radix2 (-1074)).
  { rewrite (B2R_of_SF _ (SpecFloat.S754_finite false 1 (-1074))) by (vm_compute; reflexivity). unfold SF2R. cbn [SpecFloat.cond_Zopp]. unfold F2R. cbn [Fnum Fexp]. ring. }
  split; [unfold val64; rewrite VM; pose proof (bpow_gt_0 radix2 (-1074)); lra|]. split; [reflexivity|].
  rewrite (@dlarfg_quick b64 (B64 lm)); [reflexivity|]. right. unfold dnrm2.
  rewrite (dnrm2_tiny lm LM (2 - 1) _ 1 (fun _ => b64_dy 1 (-1074))); [reflexivity|lia|].
  intros t Ht. assert (t = 0%Z) as -> by lia. split; [reflexivity|]. split; [reflexivity|]. unfold val64. rewrite VM, Rabs_pos_eq by apply bpow_ge_0. apply bpow_le. lia.
Qed.

(** alpha - beta overflows though alpha, x and beta are finite: v is 0 and tau infinite *)
Lemma larfg_big lm : let NB : Num b64 := B64 lm in libm_ok lm ->
  exists a v b : b64, is_finite a = true /\ is_finite v = true /\ sqrt (val64 a * val64 a + val64 v * val64 v) <= val64 (fMAX : b64) /\ is_finite b = true /\
    dlarfg 2 a [v] 1 = Ok (b, [B754_zero false], B754_infinity false).
Proof.
  cbv zeta. intros LM. 
  assert (C : match @dlarfg b64 (B64 ref_libm) (list b64) (ToFA_vec b64 (B64 ref_libm)) (FromFA_vec b64) 2 (b64_dy 1 1023) [b64_dy 1 1022] 1 with
    | Ok (b, [y], t) => is_finite b = true /\ B2SF y = SpecFloat.S754_zero false /\ B2SF t = SpecFloat.S754_infinity false | _ => False end) by (vm_compute; repeat split).
  rewrite <- (dlarfg_libm lm ref_libm LM ref_libm_ok) in C. rewrite <- (ToFA_vec_libm lm ref_libm) in C.
  exists (b64_dy 1 1023), (b64_dy 1 1022).
  destruct (@dlarfg b64 (B64 lm) (list b64) (ToFA_vec b64 (B64 lm)) (FromFA_vec b64) 2 (b64_dy 1 1023) [b64_dy 1 1022] 1) as [[[b [|y [|? ?]]] t]| | |]; try contradiction.
  destruct C as (Fb & Ey & Et). apply (b64_eq_SF y (B754_zero false)) in Ey. apply (b64_eq_SF t (B754_infinity false)) in Et. subst y t.
  exists b. split; [reflexivity|]. split; [reflexivity|]. split; [|split; [exact Fb|reflexivity]].
  assert (V1 : val64 (b64_dy 1 1023) = 2 * bpow radix2 1022).
  { unfold val64. rewrite (B2R_of_SF _ (SpecFloat.S754_finite false 4503599627370496 971)) by (vm_compute; reflexivity). unfold SF2R. cbn [SpecFloat.cond_Zopp]. rewrite (F2R_pow2 _ _ 52) by (reflexivity || lia).
    change 2 with (bpow radix2 1). rewrite <- bpow_plus. reflexivity. }
  assert (V2 : val64 (b64_dy 1 1022) = bpow radix2 1022).
  { unfold val64. rewrite (B2R_of_SF _ (SpecFloat.S754_finite false 4503599627370496 970)) by (vm_compute; reflexivity). unfold SF2R. cbn [SpecFloat.cond_Zopp]. rewrite (F2R_pow2 _ _ 52) by (reflexivity || lia). reflexivity. }
  rewrite V1, V2. pose proof (bpow_gt_0 radix2 1022) as P2. apply Rle_trans with (3 * bpow radix2 1022).
  - rewrite <- (sqrt_square (3 * bpow radix2 1022)) by lra. apply sqrt_le_1_alt. set (c := bpow radix2 1022) in *. clearbody c. nra.
  - change (val64 (fMAX : b64)) with (F2R (Float radix2 9007199254740991 971)). unfold F2R. cbn [Fnum Fexp].
    replace (bpow radix2 1022) with (bpow radix2 51 * bpow radix2 971) by (rewrite <- bpow_plus; reflexivity). rewrite <- Rmult_assoc. apply Rmult_le_compat_r; [apply bpow_ge_0|].
    replace (bpow radix2 51) with (IZR (2 ^ 51)) by (cbn [bpow]; f_equal; vm_compute; reflexivity). rewrite <- mult_IZR. apply IZR_le. vm_compute. discriminate.
Qed.

Lemma small_case : sqrt (val64 (b64_dy (-3) (-1040)) * val64 (b64_dy (-3) (-1040)) + sum_sq (3 - 1) (fun t => val64 (if (t =? 0)%Z then b64_dy 1 (-1038) else b64_dy 1 (-1074)))) <= bpow radix2 1020.
Proof.
  assert (S : forall z : b64, is_finite z = true -> Bleb (Babs z) (b64_dy 1 0) = true -> val64 z * val64 z <= 1).
  { intros z F L. rewrite Bleb_correct in L by (rewrite ?is_finite_Babs; assumption || reflexivity). rewrite B2R_Babs, B2R_1 in L. unfold val64.
    revert L. case Rle_bool_spec; [|discriminate]. intros L _. replace (B2R z * B2R z) with (Rabs (B2R z) * Rabs (B2R z)) by (rewrite <- Rabs_mult; apply Rabs_pos_eq, Rle_0_sqr).
    pose proof (Rabs_pos (B2R z)). nra. }
  apply Rle_trans with (bpow radix2 2); [|apply bpow_le; lia]. rewrite <- (sqrt_square (bpow radix2 2)) by apply bpow_ge_0. apply sqrt_le_1_alt. change (bpow radix2 2) with 4.
  unfold sum_sq. change (3 - 1 - 1)%Z with 1%Z. rewrite Rsum_range_cons, Rsum_range_cons, Rsum_range_nil by lia. cbn [Z.eqb Z.add].
  pose proof (S (b64_dy (-3) (-1040)) ltac:(reflexivity) ltac:(vm_compute; reflexivity)). pose proof (S (b64_dy 1 (-1038)) ltac:(reflexivity) ltac:(vm_compute; reflexivity)).
  pose proof (S (b64_dy 1 (-1074)) ltac:(reflexivity) ltac:(vm_compute; reflexivity)). cbn [Pos.add]. lra.
Qed.
