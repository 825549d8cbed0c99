(** dlanv2 in binary64: the statements as the properties need them, and an input with subnormal entries on which it fails. *)
From Coq Require Import Reals Lra FunctionalExtensionality.
From Flocq Require Import IEEE754.BinarySingleNaN Core.
From Verif Require Import Base Num Array Blas Lapack Spec SpecR SpecErr B64 ER B64Lemmas B64Nn RoundErr LarfgErr AppErr LanvProofs LanvCalc LanvStd LanvErr LanvEig LibmFree.
Open Scope R_scope.

Section Final.
  Context (lm : libm) (LM : libm_ok lm).
  #[local] Instance NBf : Num b64 := B64 lm.
  Context (a b c d : b64) (M : R).
  Hypothesis HB : Forall (fun x => is_finite x = true /\ Rabs (val64 x) <= M) [a; b; c; d].
  Hypothesis MU : M <= bpow radix2 400.
  Hypothesis OR : val64 b = 0 \/ val64 c = 0 \/ bpow radix2 (-969) <= Rmax (Rabs (val64 b)) (Rabs (val64 c)).
  Let r := dlanv2 a b c d.

  Lemma all4 : bnd M a /\ bnd M b /\ bnd M c /\ bnd M d.
  Proof. inversion_clear HB as [|? ? Ha H1]. inversion_clear H1 as [|? ? Hb H2]. inversion_clear H2 as [|? ? Hc H3]. inversion_clear H3 as [|? ? Hd H4]. auto. Qed.

  Lemma lanv_backward : Forall (fun x => is_finite x = true) [nA r; nB r; nC r; nD r; nrt1r r; nrt1i r; nrt2r r; nrt2i r; nCs r; nSn r] /\
    exists C S y1 y2 y3 y4, C * C + S * S = 1 /\
      (val64 a, val64 b, val64 c, val64 d) = m2mul (m2mul (rot2 C S) (y1, y2, y3, y4)) (m2tr (rot2 C S)) /\
      Rabs (val64 (nA r) - y1) <= bpow radix2 (-43) * M /\ Rabs (val64 (nB r) - y2) <= bpow radix2 (-43) * M /\
      Rabs (val64 (nC r) - y3) <= bpow radix2 (-43) * M /\ Rabs (val64 (nD r) - y4) <= bpow radix2 (-43) * M /\
      Rabs (val64 (nCs r) - C) <= bpow radix2 (-46) /\ Rabs (val64 (nSn r) - S) <= bpow radix2 (-46).
  Proof.
    destruct all4 as (Ha & Hb & Hc & Hd). pose proof (lanv_fields lm LM M a b c d Ha Hb Hc Hd MU OR) as F. pose proof (lanv_close lm LM M a b c d Ha Hb Hc Hd MU OR) as G. pose proof (lanv_imag_fin lm LM M a b c d Ha Hb Hc Hd MU OR) as I.
    change (@NBe lm) with NBf in *. fold r in F, G, I. destruct F as (F1 & F2 & F3 & F4 & F5 & F6 & _ & _ & R1 & R2 & _). destruct I as (I1 & I2). rewrite <- R1 in F1 |- *. rewrite <- R2 in F4 |- *.
    split; [repeat (apply Forall_cons; [assumption|]); apply Forall_nil|].
    destruct G as (C & S & y1 & y2 & y3 & y4 & ONE & SIM & E1 & E2 & E3 & E4 & EC & ES & _). exists C, S, y1, y2, y3, y4. rewrite <- R1 in E1. rewrite <- R2 in E4. unfold val64.
    assert (M0 : 0 <= M) by (destruct Ha as (_ & La); eapply Rle_trans; [apply Rabs_pos|exact La]). pose proof u_tiny as [U0 U1]. assert (UM : 0 <= u64 * M) by (apply Rmult_le_pos; lra).
    assert (K : bpow radix2 (-43) * M = 1024 * (u64 * M)) by (replace (bpow radix2 (-43)) with (bpow radix2 10 * u64) by (unfold u64; rewrite <- bpow_plus; reflexivity); change (bpow radix2 10) with 1024; ring).
    assert (K2 : bpow radix2 (-46) = 128 * u64) by (replace (bpow radix2 (-46)) with (bpow radix2 7 * u64) by (unfold u64; rewrite <- bpow_plus; reflexivity); reflexivity).
    rewrite K, K2. repeat (split; [first [assumption|lra]|]). assumption.
  Qed.

  Lemma lanv_orth : Rabs (val64 (nCs r) * val64 (nCs r) + val64 (nSn r) * val64 (nSn r) - 1) <= bpow radix2 (-44).
  Proof.
    destruct lanv_backward as (_ & C & S & y1 & y2 & y3 & y4 & ONE & _ & _ & _ & _ & _ & EC & ES). set (x := val64 (nCs r)) in *. set (y := val64 (nSn r)) in *.
    set (e := bpow radix2 (-46)) in *. assert (E0 : 0 <= e <= / 1000) by (split; [apply bpow_ge_0|]; unfold e; apply Rle_trans with (bpow radix2 (-20)); [apply bpow_le; lia|change (bpow radix2 (-20)) with (/ 1048576); lra]).
    replace (bpow radix2 (-44)) with (4 * e) by (unfold e; change 4 with (bpow radix2 2); rewrite <- bpow_plus; reflexivity).
    replace (x * x + y * y - 1) with ((x - C) * (x - C) + (y - S) * (y - S) + 2 * (C * (x - C) + S * (y - S))) by (rewrite <- ONE; ring).
    set (p := x - C) in *. set (q := y - S) in *. clearbody p q e.
    assert (PP : p * p + q * q <= 2 * (e * e)). { assert (p * p <= e * e) by (rewrite <- (Rabs_pos_eq (p * p)), Rabs_mult by apply Rle_0_sqr; apply Rmult_le_compat; try assumption; apply Rabs_pos). assert (q * q <= e * e) by (rewrite <- (Rabs_pos_eq (q * q)), Rabs_mult by apply Rle_0_sqr; apply Rmult_le_compat; try assumption; apply Rabs_pos). lra. }
    assert (P0 : 0 <= p * p + q * q) by (pose proof (Rle_0_sqr p); pose proof (Rle_0_sqr q); unfold Rsqr in *; lra).
    assert (LIN : Rabs (C * p + S * q) <= 1.5 * e).
    { apply Rsqr_incr_0_var; [|lra]. unfold Rsqr. rewrite <- Rabs_mult, Rabs_pos_eq by apply Rle_0_sqr.
      assert (CSI : (C * p + S * q) * (C * p + S * q) <= (C * C + S * S) * (p * p + q * q)) by (pose proof (Rle_0_sqr (C * q - S * p)) as Q; unfold Rsqr in Q; lra). rewrite ONE in CSI. pose proof (Rle_0_sqr e) as Q. unfold Rsqr in Q. lra. }
    assert (e * e <= / 1000 * e) by (apply Rmult_le_compat_r; lra). apply ab_elim in LIN. apply Rabs_le. lra.
  Qed.

  Hypothesis NE : val64 a = val64 d \/ bpow radix2 (-52) <= Rabs (val64 a - val64 d) \/ 0 <= val64 b * val64 c.
  Lemma lanv_std : val64 (nC r) = 0 \/ (val64 (nA r) = val64 (nD r) /\ val64 (nB r) * val64 (nC r) < 0).
  Proof. destruct all4 as (Ha & Hb & Hc & Hd). exact (lanv_shape lm LM M a b c d Ha Hb Hc Hd MU OR NE). Qed.
  Lemma lanv_eigs : exists e1 e2 e3 e4,
    Forall (fun e => Rabs e <= bpow radix2 (-42) * M) [e1; e2; e3; e4] /\
    eigenvalues2 (val64 a + e1, val64 b + e2, val64 c + e3, val64 d + e4) (val64 (nrt1r r), val64 (nrt1i r)) (val64 (nrt2r r), val64 (nrt2i r)).
  Proof.
    destruct all4 as (Ha & Hb & Hc & Hd). destruct (lanv_eig lm LM M a b c d Ha Hb Hc Hd MU OR NE) as (e1 & e2 & e3 & e4 & H1 & H2 & H3 & H4 & H).
    exists e1, e2, e3, e4. split; [|exact H]. repeat (apply Forall_cons; [assumption|]). apply Forall_nil.
  Qed.
End Final.

Lemma dlanv2_libm lm lm2 : libm_ok lm -> libm_ok lm2 -> @dlanv2 b64 (B64 lm) = @dlanv2 b64 (B64 lm2).
Proof.
  intros LM LM2. pose proof (nv_loop_libm lm lm2 LM LM2) as E2. rewrite (B64_libm lm lm2) in E2 |- *. apply g_dlanv2; assumption.
Qed.

Lemma lanv_tiny lm : libm_ok lm -> let NB : Num b64 := B64 lm in
  let r := dlanv2 (b64_dy 3 (-1074)) (b64_dy 1 (-1074)) (b64_dy 2 (-1074)) (b64_dy 0 0) in
  val64 (nCs r) * val64 (nCs r) + val64 (nSn r) * val64 (nSn r) > 1.12 /\
  val64 (nrt1r r) = 5 * bpow radix2 (-1074) /\ val64 (nrt1i r) = 0 /\ val64 (nrt2r r) = - bpow radix2 (-1074) /\ val64 (nrt2i r) = 0.
Proof.
  intros LM. cbv zeta. rewrite (dlanv2_libm lm ref_libm LM ref_libm_ok). pose (NBx := B64 ref_libm).
  set (r := dlanv2 _ _ _ _). unfold val64. rewrite <- !SF2R_B2SF.
  assert (E : (B2SF (nCs r), B2SF (nSn r), B2SF (nrt1r r), B2SF (nrt1i r), B2SF (nrt2r r), B2SF (nrt2i r)) =
    (SpecFloat.S754_finite false 8920161866030369 (-53), SpecFloat.S754_finite false 6841507290137198 (-54), SpecFloat.S754_finite false 5 (-1074), SpecFloat.S754_zero false, SpecFloat.S754_finite true 1 (-1074), SpecFloat.S754_zero false)) by (vm_compute; reflexivity).
  clearbody r. injection E as -> -> -> -> -> ->. cbn [SF2R SpecFloat.cond_Zopp cond_Zopp]. unfold F2R. cbn [Fnum Fexp].
  split; [|split; [reflexivity|split; [reflexivity|split; [|reflexivity]]]].
  2:{ change (IZR (- (1))) with (-1). lra. }
  replace (bpow radix2 (-53)) with (/ 9007199254740992) by reflexivity. replace (bpow radix2 (-54)) with (/ 18014398509481984) by reflexivity. lra.
Qed.
