(** dlanv2 in binary64, first branch (two real eigenvalues): backward error. *)
From Coq Require Import Reals Lra Nsatz.
From Flocq Require Import IEEE754.BinarySingleNaN Core.
From Verif Require Import Base Num Array Blas Lapack Spec SpecR SpecErr B64 ER B64Lemmas B64Nn GemmErr RoundErr AppErr Lapy2Proofs Lapy2Err LarfgErr Near LanvProofs LanvCalc LanvRot LanvEq LanvStd LanvOff.
Open Scope R_scope.

(** z computed as p + sgn(p) sqrt(p^2 + bc) almost solves z^2 = 2 p z + bc *)
Lemma rho_bound p q Q z bc : 0 <= p -> 0 < Q -> Rabs (q - Q) <= 4.1 * u64 * Q -> Rabs (z - (p + q)) <= u64 * (p + q) ->
  Rabs (Q * Q - (p * p + bc)) <= 3.1 * u64 * (p * p + Rabs bc) + 0.01 * u64 * (Q * Q) ->
  0 < z /\ 0.9 * Q <= z /\ p <= 1.001 * z /\ z <= 1.01 * (p + Q) /\ Rabs bc <= 1.02 * (z * z) /\ Rabs (z * z - 2 * p * z - bc) <= 20 * u64 * (z * z).
Proof.
  intros P0 Q0 EQ EZ EB. pose proof u_tiny as [U0 U1]. apply ab_elim in EQ, EZ.
  assert (UQ : 0 <= u64 * Q <= / 1000000000 * Q) by nra.
  assert (Q1 : 0.999 * Q <= q <= 1.001 * Q) by nra.
  assert (UP : 0 <= u64 * (p + q) <= / 1000000000 * (p + q)) by nra.
  assert (Z1 : 0.9999 * (p + q) <= z <= 1.0001 * (p + q)) by lra.
  assert (Z0 : 0 < z) by lra. split; [exact Z0|]. split; [lra|]. split; [lra|]. split; [lra|].
  assert (ZZ : 0 < z * z) by nra. assert (PP : 0 <= p * p) by nra.
  assert (PZ : p * p <= 1.001 * (z * z)) by nra. assert (QZ : Q * Q <= 1.01 * (z * z)) by nra. assert (qZ : q * q <= 1.01 * (z * z)) by nra.
  assert (QQ0 : 0 < Q * Q) by nra. pose proof (Rabs_pos bc) as B0. pose proof EB as EB'. apply ab_elim in EB.
  assert (S1 : 0 <= u64 * (p * p) <= / 1000000000 * (p * p)) by nra. assert (S2 : 0 <= u64 * (Q * Q) <= / 1000000000 * (Q * Q)) by nra. assert (S3 : 0 <= u64 * Rabs bc <= / 1000000000 * Rabs bc) by nra.
  assert (BC : Rabs bc <= 1.02 * (z * z)).
  { unfold Rabs in *. destruct (Rcase_abs bc); lra. }
  split; [exact BC|].
  assert (UZ1 : u64 * (Q * Q) <= u64 * (1.01 * (z * z))) by (apply Rmult_le_compat_l; lra). assert (UZ2 : u64 * (p * p) <= u64 * (1.001 * (z * z))) by (apply Rmult_le_compat_l; lra).
  assert (UZ3 : u64 * Rabs bc <= u64 * (1.02 * (z * z))) by (apply Rmult_le_compat_l; lra).
  (* (z - p)^2 against q^2 *)
  set (e := z - (p + q)) in *. assert (E1 : Rabs e <= u64 * (1.001 * z)) by (apply Rabs_le; nra).
  assert (T1 : Rabs ((z - p) * (z - p) - q * q) <= 3 * u64 * (z * z)).
  { replace ((z - p) * (z - p) - q * q) with (e * (2 * q + e)) by (unfold e; ring). rewrite Rabs_mult. assert (q2 : Rabs (2 * q + e) <= 2.5 * z) by (apply Rabs_le; lra).
    apply Rle_trans with (u64 * (1.001 * z) * (2.5 * z)); [apply Rmult_le_compat; try assumption; apply Rabs_pos|]. lra. }
  assert (T2 : Rabs (q * q - Q * Q) <= 9 * u64 * (z * z)).
  { replace (q * q - Q * Q) with ((q - Q) * (q + Q)) by ring. rewrite Rabs_mult. apply Rle_trans with ((4.1 * u64 * Q) * (2.001 * Q)); [apply Rmult_le_compat; try apply Rabs_pos; apply Rabs_le; lra|]. lra. }
  assert (T3 : Rabs (Q * Q - (p * p + bc)) <= 7 * u64 * (z * z)).
  { eapply Rle_trans; [exact EB'|]. lra. }
  replace (z * z - 2 * p * z - bc) with (((z - p) * (z - p) - q * q) + (q * q - Q * Q) + (Q * Q - (p * p + bc))) by ring.
  eapply Rle_trans; [apply Rabs_triang|]. eapply Rle_trans; [apply Rplus_le_compat_r, Rabs_triang|]. lra.
Qed.

(** the exact similarity by (Z, c)/h *)
Lemma real_dev a b c d P Z h rho dl : h * h = c * c + Z * Z -> 0 < h -> Z <> 0 -> a = d + 2 * P + dl -> rho = Z * Z - 2 * P * Z - b * c ->
  let C := Z / h in let S := c / h in
  (a * C + b * S) * C + (c * C + d * S) * S = d + Z + (dl * (C * C) - Z * rho / (h * h)) /\
  (- (a * S) + b * C) * C + (- (c * S) + d * C) * S = b - c + (- (dl * (C * S)) + c * rho / (h * h)) /\
  - ((a * C + b * S) * S) + (c * C + d * S) * C = - (dl * (C * S)) + c * rho / (h * h) /\
  - ((- (a * S) + b * C) * S) + (- (c * S) + d * C) * C = d - b * c / Z + (dl * (S * S) - rho / Z + Z * rho / (h * h)).
Proof.
  intros HH H0 NZ -> ->. cbv zeta. unfold Rdiv. rewrite Rinv_mult. set (i := / h). assert (I : i * i * (c * c + Z * Z) = 1) by (rewrite <- HH; unfold i; field; lra).
  set (j := / Z). assert (J : j * Z = 1) by (unfold j; field; exact NZ). clearbody i j. clear - I J.
  repeat split; nsatz.
Qed.

Lemma copysign_val (x p : b64) : is_finite x = true -> 0 < B2R x -> is_finite (b64_copysign x p) = true /\ B2R (b64_copysign x p) = sg p * B2R x.
Proof.
  intros F H. assert (SX : Bsign x = false). { destruct (Bsign x) eqn:E; [|reflexivity]. apply sign_neg in E. lra. }
  rewrite copysign_pos by exact SX. unfold sg. destruct (Bsign p); rewrite ?is_finite_Bopp, ?B2R_Bopp; split; try exact F; ring.
Qed.

Lemma unit_prods C S : C * C + S * S = 1 -> Rabs (C * C) <= 1 /\ Rabs (S * S) <= 1 /\ Rabs (C * S) <= 1.
Proof. intros E. repeat split; apply Rabs_le; nra. Qed.
Lemma small_scale u m t : 0 <= u * m -> 0 <= t <= 1 -> 52 * (u * m) * t <= 52.1 * (u * m).
Proof. intros. nra. Qed.

Section Real.
  Context (lm : libm).
  #[local] Instance NBq : Num b64 := B64 lm.
  Context (M : R) (HM : mid M) (a b c d : b64) (Ha : bnd M a) (Hb : bnd M b) (Hc : bnd M c) (Hd : bnd M d).
  Hypothesis Nb : B2R b <> 0.
  Hypothesis Nc : B2R c <> 0.
  Hypothesis HZ : bpow radix2 (-50) <= B2R (nv_z a b c d).
  Let p := nv_p a d.
  Let X := nv_bcmax b c.
  Let Y := nv_bcmis b c.
  Let s := nv_scale a b c d.
  Let zz := nv_z a b c d.
  Notation P_ := (B2R p).
  Notation X_ := (B2R X).
  Notation Y_ := (B2R Y).
  Notation s_ := (B2R s).
  Notation z_ := (B2R zz).
  Notation bc := (B2R b * B2R c).

  Lemma p_ab : ab p (/ 2 * (B2R a - B2R d)) (2.01 * (u64 * M)) M.
  Proof.
    destruct (mid_facts M HM) as (M0 & UM & UUM & ET & BIG & UMM). pose proof u_tiny as [U0 U1]. pose proof (diff_ab lm M HM a d Ha Hd) as D.
    assert (H : ab (fhalf : b64) (/ 2) 0 (/ 2)).
    { pose proof (ab_exact (fhalf : b64) (/ 2) eq_refl) as Z. change (B2R (fhalf : b64)) with (B2R (b64_dy 1 (-1))) in Z. rewrite B2R_half in Z. apply Z. apply Req_le, Rabs_pos_eq. lra. }
    eapply ab_weak; [eapply ab_mul; [exact H|exact D|]| |]; lra.
  Qed.
  Lemma P_up : Rabs P_ <= 1.001 * M.
  Proof. destruct (mid_facts M HM) as (M0 & UM & UUM & ET & BIG & UMM). pose proof (ab_mag _ _ _ _ p_ab). lra. Qed.
  Lemma p_fin : is_finite p = true. Proof. apply p_ab. Qed.

  Lemma bc_facts : is_finite X = true /\ is_finite Y = true /\ X_ * Y_ = bc /\ 0 < X_ <= M /\ Rabs Y_ <= X_.
  Proof.
    destruct Hb as (Fb & Lb), Hc as (Fc & Lc). pose proof (finite_not_nan b Fb) as Nnb. pose proof (finite_not_nan c Fc) as Nnc.
    unfold X, Y, nv_bcmax, nv_bcmis. change (fmax (fabs b) (fabs c)) with (b64_max (Babs b) (Babs c)). change (fmin (fabs b) (fabs c)) with (b64_min (Babs b) (Babs c)).
    destruct (max_min_abs b c Nnb Nnc) as (w & z & -> & -> & Hw & Hz & L & CASE).
    assert (Fw : is_finite w = true) by (destruct CASE as [[-> _]|[-> _]]; rewrite is_finite_Babs; assumption).
    assert (Fz : is_finite z = true) by (destruct CASE as [[_ ->]|[_ ->]]; rewrite is_finite_Babs; assumption).
    rewrite Bltb_correct in L by assumption. assert (LE : B2R z <= B2R w) by (revert L; case Rlt_bool_spec; [discriminate|auto]).
    change (fmul (fmul z (fsignum b)) (fsignum c)) with (Bmult mode_NE (Bmult mode_NE z (b64_signum b)) (b64_signum c)).
    destruct (mul_sign z b Fz Fb) as (F1 & V1). destruct (mul_sign _ c F1 Fc) as (F2 & V2). rewrite V1 in V2.
    pose proof (Rabs_pos_lt _ Nb) as B0. pose proof (Rabs_pos_lt _ Nc) as C0.
    assert (W0 : 0 < B2R w <= M) by (destruct CASE as [[-> _]|[-> _]]; rewrite B2R_Babs; lra). assert (Z0 : 0 < B2R z) by (destruct CASE as [[_ ->]|[_ ->]]; rewrite B2R_Babs; lra).
    split; [exact Fw|]. split; [exact F2|]. split; [|split; [exact W0|]].
    - rewrite V2. transitivity ((sg b * Rabs (B2R b)) * (sg c * Rabs (B2R c))); [|rewrite <- !sg_val; reflexivity]. destruct CASE as [[-> ->]|[-> ->]]; rewrite !B2R_Babs; ring.
    - rewrite V2. rewrite Rmult_comm, sg_abs, Rmult_comm, sg_abs, Rabs_pos_eq by lra. exact LE.
  Qed.
  Lemma s_facts : is_finite s = true /\ 0 < s_ <= 1.001 * M /\ Rabs P_ <= s_ /\ X_ <= s_.
  Proof.
    destruct (mid_facts M HM) as (M0 & UM & UUM & ET & BIG & UMM). destruct bc_facts as (FX & _ & _ & X0 & _). pose proof P_up as PU. pose proof p_fin as Fp.
    unfold s, nv_scale. fold p X. change (fmax (fabs p) X) with (b64_max (Babs p) X).
    assert (NX : b64_max (Babs p) X = b64_max (Babs p) (Babs X)).
    { f_equal. destruct X as [sx|sx| |sx m e Bx] eqn:EX; try reflexivity; try discriminate FX; [cbn [B2R] in X0; lra|]. destruct sx; [|reflexivity]. exfalso. destruct X0 as [X0 _]. revert X0. apply Rle_not_lt. apply F2R_le_0. cbn. lia. }
    rewrite NX. destruct (max_min_abs p X (finite_not_nan p Fp) (finite_not_nan X FX)) as (w & z & -> & _ & Hw & Hz & L & CASE).
    assert (Fw : is_finite w = true) by (destruct CASE as [[-> _]|[-> _]]; rewrite is_finite_Babs; assumption).
    assert (Fz : is_finite z = true) by (destruct CASE as [[_ ->]|[_ ->]]; rewrite is_finite_Babs; assumption).
    rewrite Bltb_correct in L by assumption. assert (LE : B2R z <= B2R w) by (revert L; case Rlt_bool_spec; [discriminate|auto]).
    split; [exact Fw|]. destruct CASE as [[-> ->]|[-> ->]]; rewrite !B2R_Babs in *; rewrite (Rabs_pos_eq X_) in * by lra; lra.
  Qed.

  Lemma z_near : is_finite zz = true /\ Rabs (z_ - (P_ * P_ + bc) / s_) <= gam 3 * ((P_ * P_ + Rabs bc) / s_) + bpow radix2 (-600).
  Proof.
    destruct (mid_facts M HM) as (M0 & UM & UUM & ET & BIG & UMM). destruct bc_facts as (FX & FY & XY & X0 & YX). destruct s_facts as (Fs & S0 & PS & XS). pose proof P_up as PU. pose proof p_fin as Fp. pose proof eta64_pos as EP.
    assert (IS : 0 < / s_) by (apply Rinv_0_lt_compat; lra).
    assert (BM : 1 <= bpow radix2 1023) by (change 1 with (bpow radix2 0); apply bpow_le; lia).
    assert (BM2 : 4 <= bpow radix2 1023) by (change 4 with (bpow radix2 2); apply bpow_le; lia).
    assert (EM : eta64 <= / 1000) by (unfold eta64; apply Rle_trans with (bpow radix2 (-20)); [apply bpow_le; lia|change (bpow radix2 (-20)) with (/ 1048576); lra]).
    assert (Q1 : Rabs P_ / s_ <= 1) by (apply Rmult_le_reg_r with s_; [lra|]; unfold Rdiv; rewrite Rmult_assoc, Rinv_l by lra; lra).
    assert (Q2 : Rabs X_ / s_ <= 1) by (apply Rmult_le_reg_r with s_; [lra|]; unfold Rdiv; rewrite Rmult_assoc, Rinv_l by lra; rewrite Rabs_pos_eq by lra; lra).
    assert (Q10 : 0 <= Rabs P_ / s_) by (apply Rmult_le_pos; [apply Rabs_pos|lra]). assert (Q20 : 0 <= Rabs X_ / s_) by (apply Rmult_le_pos; [apply Rabs_pos|lra]).
    pose proof (near_exact p Fp) as N1. pose proof (near_exact X FX) as N2. pose proof (near_exact Y FY) as N3.
    pose proof (near_div lm _ _ _ _ _ s N1 ltac:(lra) ltac:(lia) ltac:(unfold Rdiv in *; lra)) as D1. pose proof (near_div lm _ _ _ _ _ s N2 ltac:(lra) ltac:(lia) ltac:(unfold Rdiv in *; lra)) as D2.
    replace (0 / s_ + eta64) with eta64 in D1, D2 by (unfold Rdiv; ring).
    pose proof (Rabs_pos P_) as P0. pose proof (Rabs_pos Y_) as Y0.
    assert (K1 : 4 * ((Rabs P_ / s_ + eta64) * (Rabs P_ + 0)) <= bpow radix2 1023).
    { assert ((Rabs P_ / s_ + eta64) * (Rabs P_ + 0) <= 2 * (1.001 * M)) by (apply Rmult_le_compat; lra). lra. }
    assert (K2 : 4 * ((Rabs X_ / s_ + eta64) * (Rabs Y_ + 0)) <= bpow radix2 1023).
    { assert ((Rabs X_ / s_ + eta64) * (Rabs Y_ + 0) <= 2 * M) by (apply Rmult_le_compat; lra). lra. }
    pose proof (near_mul lm _ _ _ _ _ _ _ _ _ _ D1 N1 ltac:(lia) ltac:(lia) K1) as E1. pose proof (near_mul lm _ _ _ _ _ _ _ _ _ _ D2 N3 ltac:(lia) ltac:(lia) K2) as E2.
    cbn [Nat.add] in E1, E2.
    assert (TINY : 2 * (eta64 * Rabs P_ + Rabs P_ / s_ * 0 + eta64 * 0 + eta64 + (eta64 * Rabs Y_ + Rabs X_ / s_ * 0 + eta64 * 0 + eta64)) <= bpow radix2 (-600)).
    { apply Rle_trans with (eta64 * (bpow radix2 4 * bpow radix2 400)); [|unfold eta64; rewrite <- !bpow_plus; apply bpow_le; lia]. change (bpow radix2 4) with 16.
      assert (B4 : 1 <= bpow radix2 400) by (change 1 with (bpow radix2 0); apply bpow_le; lia). assert (M4 : M <= bpow radix2 400) by apply HM.
      apply Rle_trans with (eta64 * (2 * Rabs P_ + 2 * Rabs Y_ + 4)); [lra|]. apply Rmult_le_compat_l; lra. }
    assert (T6 : bpow radix2 (-600) <= / 1000) by (apply Rle_trans with (bpow radix2 (-20)); [apply bpow_le; lia|change (bpow radix2 (-20)) with (/ 1048576); lra]).
    assert (R1 : Rabs P_ / s_ * Rabs P_ <= 1 * (1.001 * M)) by (apply Rmult_le_compat; lra). assert (R2 : Rabs X_ / s_ * Rabs Y_ <= 1 * M) by (apply Rmult_le_compat; lra).
    assert (M1 : 10 + 10 * M <= bpow radix2 1023). { apply Rle_trans with (bpow radix2 5 * bpow radix2 400); [|rewrite <- bpow_plus; apply bpow_le; lia]. change (bpow radix2 5) with 32.
      assert (B4 : 1 <= bpow radix2 400) by (change 1 with (bpow radix2 0); apply bpow_le; lia). destruct HM. lra. }
    pose proof (near_add lm _ _ _ _ _ _ _ _ _ E1 E2 ltac:(lia) ltac:(lra)) as E3.
    destruct E3 as (F & E & _). change (@NBn lm) with NBq in *. split; [exact F|].
    assert (V1 : P_ / s_ * P_ + X_ / s_ * Y_ = (P_ * P_ + bc) / s_) by (rewrite <- XY; field; lra).
    assert (V2 : Rabs P_ / s_ * Rabs P_ + Rabs X_ / s_ * Rabs Y_ = (P_ * P_ + Rabs bc) / s_).
    { rewrite <- XY, Rabs_mult. rewrite <- (Rabs_pos_eq (P_ * P_)) by nra. rewrite Rabs_mult. field. lra. }
    rewrite V1, V2 in E. eapply Rle_trans; [exact E|]. apply Rplus_le_compat_l. eapply Rle_trans; [|exact TINY].
    apply Rmult_le_compat_r; [|apply (Pn_2 3); lia].
    assert (0 <= eta64 * Rabs P_) by (apply Rmult_le_pos; lra). assert (0 <= eta64 * Rabs Y_) by (apply Rmult_le_pos; lra). lra.
  Qed.

  (** the discriminant against its computed value *)
  Lemma disc_err : bpow radix2 (-60) <= s_ /\ Rabs (s_ * z_ - (P_ * P_ + bc)) <= 3.1 * u64 * (P_ * P_ + Rabs bc) + 0.01 * u64 * (s_ * z_) /\ s_ * z_ <= 2.1 * (M * M).
  Proof.
    destruct (mid_facts M HM) as (M0 & UM & UUM & ET & BIG & UMM). destruct bc_facts as (FX & FY & XY & X0 & YX). destruct s_facts as (Fs & S0 & PS & XS). destruct z_near as (Fz & EZ). pose proof P_up as PU. pose proof u_tiny as [U0 U1].
    fold zz in HZ. set (T := bpow radix2 (-600)) in *. assert (T0 : 0 < T) by apply bpow_gt_0.
    assert (TZ : T <= u64 * / 1000 * z_).
    { apply Rle_trans with (u64 * bpow radix2 (-20) * bpow radix2 (-50)); [unfold T, u64; rewrite <- !bpow_plus; apply bpow_le; lia|].
      change (bpow radix2 (-20)) with (/ 1048576). pose proof (bpow_gt_0 radix2 (-50)). apply Rmult_le_compat; nra. }
    assert (Z0 : 0 < z_) by (eapply Rlt_le_trans; [apply bpow_gt_0|exact HZ]).
    gamlin 3%nat. pose proof (gam_pos 3) as G3. pose proof (Rabs_pos bc) as B0. assert (PP0 : 0 <= P_ * P_) by nra.
    set (N := P_ * P_ + Rabs bc) in *. assert (N0 : 0 <= N) by (unfold N; lra).
    assert (E1 : Rabs (s_ * z_ - (P_ * P_ + bc)) <= gam 3 * N + s_ * T).
    { replace (s_ * z_ - (P_ * P_ + bc)) with (s_ * (z_ - (P_ * P_ + bc) / s_)) by (field; lra). rewrite Rabs_mult, (Rabs_pos_eq s_) by lra.
      replace (gam 3 * N + s_ * T) with (s_ * (gam 3 * (N / s_) + T)) by (field; lra). apply Rmult_le_compat_l; lra. }
    assert (E2 : gam 3 * N <= 3.1 * u64 * N) by (apply Rmult_le_compat_r; [exact N0|lra]).
    assert (E3 : s_ * T <= 0.01 * u64 * (s_ * z_)) by (replace (0.01 * u64 * (s_ * z_)) with (s_ * (0.01 * u64 * z_)) by ring; apply Rmult_le_compat_l; [lra|]; assert (0 < u64 * z_) by (apply Rmult_lt_0_compat; lra); lra).
    assert (BC : Rabs bc <= X_ * X_) by (rewrite <- XY, Rabs_mult, (Rabs_pos_eq X_) by lra; apply Rmult_le_compat_l; lra).
    assert (PP : P_ * P_ = Rabs P_ * Rabs P_) by (rewrite <- Rabs_mult, Rabs_pos_eq by nra; reflexivity). pose proof (Rabs_pos P_) as PA.
    assert (NS : N <= 2 * (s_ * s_)). { unfold N. rewrite PP. assert (Rabs P_ * Rabs P_ <= s_ * s_) by (apply Rmult_le_compat; lra). assert (X_ * X_ <= s_ * s_) by (apply Rmult_le_compat; lra). lra. }
    assert (NM : N <= 2.003 * (M * M)). { unfold N. rewrite PP. assert (Rabs P_ * Rabs P_ <= (1.001 * M) * (1.001 * M)) by (apply Rmult_le_compat; lra). assert (X_ * X_ <= M * M) by (apply Rmult_le_compat; lra). nra. }
    assert (SZ0 : 0 < s_ * z_) by (apply Rmult_lt_0_compat; lra).
    assert (UN : 0 <= u64 * N <= / 1000000000 * N) by nra. assert (US : 0 <= u64 * (s_ * z_) <= / 1000000000 * (s_ * z_)) by nra.
    assert (LN : P_ * P_ + bc <= N) by (unfold N; pose proof (Rle_abs bc); lra).
    assert (SN : s_ * z_ <= 1.01 * N) by (apply ab_elim in E1; lra).
    split; [|split; [eapply Rle_trans; [exact E1|lra]|lra]].
    assert (SS : z_ <= 2.1 * s_).
    { apply Rmult_le_reg_l with s_; [lra|]. lra. }
    apply Rle_trans with (bpow radix2 (-2) * bpow radix2 (-50)); [rewrite <- bpow_plus; apply bpow_le; lia|]. change (bpow radix2 (-2)) with (/ 4). lra.
  Qed.

  Let Q := sqrt (s_ * z_).
  Let q : b64 := fmul (fsqrt s) (fsqrt zz).
  Let z := fadd p (fcopysign q p).
  Notation Z_ := (B2R z).

  Lemma Q_sq : Q * Q = s_ * z_.
  Proof. destruct s_facts as (Fs & S0 & _). fold zz in HZ. apply sqrt_sqrt. apply Rmult_le_pos; [lra|]. apply Rle_trans with (bpow radix2 (-50)); [apply bpow_ge_0|exact HZ]. Qed.
  Lemma Q_low : bpow radix2 (-56) <= Q.
  Proof.
    destruct disc_err as (SL & _). fold zz in HZ. rewrite <- (sqrt_square (bpow radix2 (-56))) by apply bpow_ge_0. apply sqrt_le_1_alt.
    apply Rle_trans with (bpow radix2 (-60) * bpow radix2 (-50)); [rewrite <- !bpow_plus; apply bpow_le; lia|]. apply Rmult_le_compat; try assumption; apply bpow_ge_0.
  Qed.
  Lemma Q_up : Q <= 1.5 * M.
  Proof.
    destruct (mid_facts M HM) as (M0 & _). destruct disc_err as (_ & _ & U). pose proof Q_sq as E. assert (0 <= Q) by apply sqrt_pos. nra.
  Qed.
  Lemma M_up : M <= bpow radix2 400. Proof. apply HM. Qed.
  Lemma q_ok : is_finite q = true /\ Rabs (B2R q - Q) <= 4.1 * u64 * Q.
  Proof.
    pose proof u_tiny as [U0 U1]. destruct s_facts as (Fs & S0 & _). destruct z_near as (Fz & _). fold zz in HZ. assert (Z0 : 0 < z_) by (eapply Rlt_le_trans; [apply bpow_gt_0|exact HZ]).
    pose proof Q_low as QL. pose proof Q_up as QU. assert (Q0 : 0 < Q) by (eapply Rlt_le_trans; [apply bpow_gt_0|exact QL]). pose proof eta64_pos as ET.
    unfold q. change (fmul (fsqrt s) (fsqrt zz)) with (Bmult mode_NE (Bsqrt mode_NE s) (Bsqrt mode_NE zz)).
    destruct (sqrt_ok s Fs ltac:(lra)) as (F1 & _). destruct (sqrt_ok zz Fz ltac:(lra)) as (F2 & _). destruct (sqrt_fin s) as (_ & E1), (sqrt_fin zz) as (_ & E2).
    pose proof (sqrt_pos s_) as R1. pose proof (sqrt_pos z_) as R2.
    assert (A1 : app 1 (B2R (Bsqrt mode_NE s)) (sqrt s_) 0) by (apply app_rel; assumption). assert (A2 : app 1 (B2R (Bsqrt mode_NE zz)) (sqrt z_) 0) by (apply app_rel; assumption).
    assert (N1 : 0 <= B2R (Bsqrt mode_NE s)) by (apply (app_pos 1 _ _ A1 R1); lia). assert (N2 : 0 <= B2R (Bsqrt mode_NE zz)) by (apply (app_pos 1 _ _ A2 R2); lia).
    pose proof (app_mul 1 1 _ _ _ _ A1 A2 N2 R1 R2) as A3. cbn [Nat.add] in A3. rewrite <- sqrt_mult in A3 by lra. fold Q in A3.
    set (x := Bsqrt mode_NE s) in *. set (y := Bsqrt mode_NE zz) in *. assert (P0 : 0 <= B2R x * B2R y) by (apply Rmult_le_pos; assumption).
    assert (P2 : B2R x * B2R y <= 2 * Q) by (apply app_elim in A3; pose proof (gam_small 2 ltac:(lia)) as G; rewrite gam_P in *; nra).
    assert (F3 : is_finite (Bmult mode_NE x y) = true).
    { apply mult_ok; [exact F1|exact F2|]. rewrite Rabs_pos_eq by exact P0. apply Rle_trans with (bpow radix2 2 * bpow radix2 400); [change (bpow radix2 2) with 4; pose proof M_up; lra|]. rewrite <- bpow_plus. apply bpow_le. lia. }
    split; [exact F3|]. destruct (mult_fin _ _ F3) as (_ & _ & _ & E3). rewrite (Rabs_pos_eq (B2R x * B2R y)) in E3 by exact P0.
    pose proof (app_round_eta 2 _ _ _ 0 A3 P0 ltac:(lra) ltac:(lra) E3) as A4. rewrite Rplus_0_r in A4.
    assert (A5 : app 4 (B2R (Bmult mode_NE x y)) Q 0). { apply app_absorb with eta64; [exact A4|]. split; [lra|]. apply eta_u. apply Rle_trans with (bpow radix2 (-56)); [apply bpow_le; lia|exact QL]. }
    apply app_to_rel in A5. eapply Rle_trans; [exact A5|]. gamlin 4%nat. apply Rmult_le_compat_r; lra.
  Qed.
  Lemma q_pos : 0.9 * Q <= B2R q <= 1.1 * Q.
  Proof. destruct q_ok as (_ & E). pose proof u_tiny as [U0 U1]. assert (0 <= Q) by apply sqrt_pos. apply ab_elim in E. nra. Qed.

  Lemma Z_ok : is_finite z = true /\ Rabs (Rabs Z_ - (Rabs P_ + B2R q)) <= u64 * (Rabs P_ + B2R q) /\ Z_ = sg p * Rabs Z_.
  Proof.
    pose proof u_tiny as [U0 U1]. destruct q_ok as (Fq & _). pose proof q_pos as QP. pose proof Q_low as QL. assert (Q0 : 0 < Q) by (eapply Rlt_le_trans; [apply bpow_gt_0|exact QL]). pose proof Q_up as QU. pose proof P_up as PU. pose proof M_up as MU.
    destruct (copysign_val q p Fq ltac:(lra)) as (Fc & Vc). change (fcopysign q p) with (b64_copysign q p) in z. pose proof (Rabs_pos P_) as P0.
    assert (V : P_ + B2R (b64_copysign q p) = sg p * (Rabs P_ + B2R q)) by (rewrite Vc; rewrite (sg_val p) at 1; ring).
    assert (VA : Rabs (P_ + B2R (b64_copysign q p)) = Rabs P_ + B2R q) by (rewrite V, sg_abs, Rabs_pos_eq by lra; reflexivity).
    change z with (Bplus mode_NE p (b64_copysign q p)).
    assert (F : is_finite (Bplus mode_NE p (b64_copysign q p)) = true).
    { apply plus_ok; [apply p_fin|exact Fc|]. rewrite VA. apply Rle_trans with (bpow radix2 2 * bpow radix2 400); [change (bpow radix2 2) with 4; lra|]. rewrite <- bpow_plus. apply bpow_le. lia. }
    split; [exact F|]. destruct (plus_fin _ _ F) as (_ & _ & _ & E). rewrite VA in E. split.
    - eapply Rle_trans; [|exact E]. rewrite <- VA. apply Rabs_triang_inv2.
    - rewrite V in E. set (zv := B2R (Bplus mode_NE p (b64_copysign q p))) in *. set (m := Rabs P_ + B2R q) in *. assert (m0 : 0 < m) by (unfold m; lra).
      assert (UM : u64 * m <= / 2 * m) by nra. unfold sg in *. destruct (Bsign p); apply ab_elim in E.
      + rewrite Rabs_left by lra. ring.
      + rewrite Rabs_pos_eq by lra. ring.
  Qed.

  Let rho := Z_ * Z_ - 2 * P_ * Z_ - bc.
  Lemma rho_ok : 0 < Rabs Z_ /\ 0.9 * Q <= Rabs Z_ /\ Rabs Z_ <= 2.6 * M /\ Rabs bc <= 1.02 * (Z_ * Z_) /\ Rabs rho <= 20 * u64 * (Z_ * Z_).
  Proof.
    destruct q_ok as (_ & EQ). destruct Z_ok as (_ & EZ & SZ). destruct disc_err as (_ & ED & _). pose proof Q_low as QL. assert (Q0 : 0 < Q) by (eapply Rlt_le_trans; [apply bpow_gt_0|exact QL]).
    pose proof Q_up as QU. pose proof P_up as PU. destruct (mid_facts M HM) as (M0 & _).
    assert (PP : P_ * P_ = Rabs P_ * Rabs P_) by (rewrite <- Rabs_mult, Rabs_pos_eq by nra; reflexivity). rewrite <- Q_sq in ED. rewrite PP in ED.
    destruct (rho_bound (Rabs P_) (B2R q) Q (Rabs Z_) bc (Rabs_pos _) Q0 EQ EZ ED) as (Z0 & ZQ & PZ & ZU & BC & RH).
    assert (ZZ : Rabs Z_ * Rabs Z_ = Z_ * Z_) by (rewrite <- Rabs_mult, Rabs_pos_eq by nra; reflexivity). rewrite ZZ in BC, RH.
    split; [exact Z0|]. split; [exact ZQ|]. split; [lra|]. split; [exact BC|].
    assert (PZ2 : P_ * Z_ = Rabs P_ * Rabs Z_). { rewrite SZ at 1. rewrite (sg_val p) at 1. pose proof (sg_sq p) as S2. replace (sg p * Rabs P_ * (sg p * Rabs Z_)) with (sg p * sg p * (Rabs P_ * Rabs Z_)) by ring. rewrite S2. ring. }
    unfold rho. replace (2 * P_ * Z_) with (2 * Rabs P_ * Rabs Z_) by (rewrite !Rmult_assoc, PZ2; ring). exact RH.
  Qed.

  Lemma real_std : exists a' b' c' d' cs sn, nv_real a b c d = (a', b', c', d', cs, sn) /\
      is_finite a' = true /\ is_finite b' = true /\ is_finite c' = true /\ is_finite d' = true /\ is_finite cs = true /\ is_finite sn = true /\
      B2R c' = 0 /\
      std_near 1000 128 M (B2R a) (B2R b) (B2R c) (B2R d) (B2R a') (B2R b') (B2R c') (B2R d') (B2R cs) (B2R sn).
  Proof.
    destruct (mid_facts M HM) as (M0 & UM & UUM & ET & BIG & UMM). pose proof u_tiny as [U0 U1]. pose proof eta64_pos as EP.
    destruct rho_ok as (Z0 & ZQ & ZU & BC & RH). destruct Z_ok as (Fz & _ & SZ). pose proof Q_low as QL. assert (Q0 : 0 < Q) by (eapply Rlt_le_trans; [apply bpow_gt_0|exact QL]).
    destruct bc_facts as (FX & FY & XY & X0 & YX). destruct Ha as (Fa & La), Hb as (Fb & Lb), Hc as (Fc & Lc), Hd as (Fd & Ld).
    set (h := sqrt (B2R c * B2R c + Z_ * Z_)). assert (HH : h * h = B2R c * B2R c + Z_ * Z_) by (apply sqrt_sqrt; nra).
    assert (ZA : Rabs Z_ * Rabs Z_ = Z_ * Z_) by (rewrite <- Rabs_mult, Rabs_pos_eq by nra; reflexivity).
    assert (CA : Rabs (B2R c) * Rabs (B2R c) = B2R c * B2R c) by (rewrite <- Rabs_mult, Rabs_pos_eq by nra; reflexivity).
    assert (h0 : 0 <= h) by apply sqrt_pos.
    assert (HZh : Rabs Z_ <= h) by (apply Rsqr_incr_0_var; [unfold Rsqr; nra|exact h0]). assert (HCh : Rabs (B2R c) <= h) by (apply Rsqr_incr_0_var; [unfold Rsqr; nra|exact h0]).
    assert (HU : h <= 4 * M) by (apply Rsqr_incr_0_var; [unfold Rsqr; pose proof (Rabs_pos (B2R c)); nra|lra]).
    assert (Hh : bpow radix2 (-972) <= h <= bpow radix2 1000).
    { split.
      - apply Rle_trans with (bpow radix2 (-1) * bpow radix2 (-56)); [rewrite <- bpow_plus; apply bpow_le; lia|]. change (bpow radix2 (-1)) with (/ 2). lra.
      - apply Rle_trans with (bpow radix2 2 * bpow radix2 400); [change (bpow radix2 2) with 4; pose proof M_up; lra|]. rewrite <- bpow_plus. apply bpow_le. lia. }
    assert (hp : 0 < h) by lra.
    destruct (hyp_app lm c z Fc Fz Hh) as (Ft & At). fold h in At. change (@NBh lm) with NBq in *. set (tau := dlapy2 c z) in *.
    assert (TB : / 2 * h <= B2R tau <= 2 * h) by (apply app_to_rel, ab_elim in At; pose proof (gam_small 5 ltac:(lia)); nra).
    assert (It : app 10 (/ B2R tau) (/ h) 0) by (apply (app_inv 5); [exact At|exact hp|]; pose proof (gam_small 5 ltac:(lia)); lra).
    assert (EU : eta64 <= u64 * / 1000). { apply eta_u. apply Rle_trans with (bpow radix2 (-20)); [apply bpow_le; lia|]. change (bpow radix2 (-20)) with (/ 1048576). lra. }
    (* the two quotients *)
    assert (QUO : forall x : b64, is_finite x = true -> Rabs (B2R x) <= h -> is_finite (fdiv x tau) = true /\ Rabs (B2R (fdiv x tau) - B2R x / h) <= 14 * u64).
    { intros x Fx Lx. change (fdiv x tau) with (Bdiv mode_NE x tau). pose proof (Rabs_pos (B2R x)) as X1. assert (IT : 0 < / B2R tau) by (apply Rinv_0_lt_compat; lra).
      assert (N2 : Rabs (B2R x / B2R tau) <= 2).
      { unfold Rdiv. rewrite Rabs_mult, (Rabs_pos_eq (/ B2R tau)) by lra. apply Rmult_le_reg_r with (B2R tau); [lra|]. rewrite Rmult_assoc, Rinv_l by lra. lra. }
      assert (FF : is_finite (Bdiv mode_NE x tau) = true) by (apply quot_ok; [exact Fx|lra|]; apply Rle_trans with (bpow radix2 1); [exact N2|apply bpow_le; lia]).
      split; [exact FF|]. destruct (div_fin _ _ FF ltac:(lra)) as (_ & _ & E).
      assert (D : Rabs (B2R x / B2R tau - B2R x / h) <= 10.1 * u64).
      { replace (B2R x / B2R tau - B2R x / h) with (B2R x * (/ B2R tau - / h)) by (field; lra). rewrite Rabs_mult. apply app_to_rel in It. gamlin 10%nat. pose proof (gam_pos 10) as G0.
        apply Rle_trans with (Rabs (B2R x) * (gam 10 * / h)); [apply Rmult_le_compat_l; assumption|].
        assert (Rabs (B2R x) * / h <= 1) by (apply Rmult_le_reg_r with h; [exact hp|]; rewrite Rmult_assoc, Rinv_l by lra; lra). replace (Rabs (B2R x) * (gam 10 * / h)) with (gam 10 * (Rabs (B2R x) * / h)) by ring. nra. }
      eapply Rle_trans; [eapply tri; [exact E|exact D]|]. nra. }
    destruct (QUO z Fz HZh) as (Fcs & Ecs). destruct (QUO c Fc HCh) as (Fsn & Esn).
    (* a' *)
    assert (AZ : ab z Z_ 0 (2.6 * M)) by (apply ab_exact; assumption). assert (AD : ab d (B2R d) 0 M) by (apply ab_exact; assumption).
    assert (A1 : ab (fadd d z) (B2R d + Z_) (3.7 * (u64 * M)) (3.6 * M)) by (eapply ab_weak; [eapply ab_add; [exact AD|exact AZ|]| |]; lra).
    assert (A2 : ab (fsub b c) (B2R b - B2R c) (2.1 * (u64 * M)) (2 * M)) by (eapply ab_weak; [apply (diff_ab lm M HM); split; assumption| |]; lra).
    (* d' *)
    assert (NZ : Z_ <> 0) by (intros E; rewrite E, Rabs_R0 in Z0; lra).
    assert (XZ : Rabs (X_ / Z_) <= bpow radix2 460).
    { unfold Rdiv. rewrite Rabs_mult, Rabs_inv, (Rabs_pos_eq X_) by lra. apply Rle_trans with (bpow radix2 400 * bpow radix2 57); [|rewrite <- bpow_plus; apply bpow_le; lia].
      apply Rmult_le_compat; [lra|apply Rlt_le, Rinv_0_lt_compat; exact Z0|pose proof M_up; lra|]. replace (bpow radix2 57) with (/ bpow radix2 (-57)) by (rewrite <- bpow_opp; reflexivity).
      apply Rinv_le; [apply bpow_gt_0|]. apply Rle_trans with (bpow radix2 (-1) * bpow radix2 (-56)); [rewrite <- bpow_plus; apply bpow_le; lia|]. change (bpow radix2 (-1)) with (/ 2). lra. }
    assert (F1 : is_finite (Bdiv mode_NE X z) = true) by (apply quot_ok; [exact FX|exact NZ|]; apply Rle_trans with (bpow radix2 460); [exact XZ|apply bpow_le; lia]).
    destruct (div_fin _ _ F1 NZ) as (_ & _ & E1). set (r := Bdiv mode_NE X z) in *.
    assert (AR : ab r (X_ / Z_) (u64 * Rabs (X_ / Z_) + eta64) (Rabs (X_ / Z_))) by (split; [exact F1|split; [exact E1|lra]]).
    assert (AY : ab Y Y_ 0 (Rabs Y_)) by (apply ab_exact; [exact FY|lra]).
    set (g := Rabs (X_ / Z_)) in *. assert (g0 : 0 <= g) by apply Rabs_pos. pose proof (Rabs_pos Y_) as Y0.
    assert (GY : g * Rabs Y_ = Rabs bc / Rabs Z_). { unfold g. rewrite <- Rabs_mult, <- XY. unfold Rdiv. rewrite <- Rabs_inv, <- Rabs_mult. f_equal. ring. }
    assert (GZ : g * Rabs Y_ <= 1.02 * Rabs Z_).
    { rewrite GY. apply Rmult_le_reg_r with (Rabs Z_); [exact Z0|]. unfold Rdiv. rewrite Rmult_assoc, Rinv_l by lra. lra. }
    assert (EY : eta64 * (Rabs Y_ + 1) <= 0.001 * (u64 * M)).
    { apply Rle_trans with (eta64 * (M + 1)); [apply Rmult_le_compat_l; lra|]. assert (eta64 * M <= / 1000000000 * (u64 * M)); [|lra]. replace (/ 1000000000 * (u64 * M)) with (/ 1000000000 * u64 * M) by ring. apply Rmult_le_compat_r; [lra|].
      apply Rle_trans with (u64 * bpow radix2 (-40)); [unfold u64, eta64; rewrite <- bpow_plus; apply bpow_le; lia|]. change (bpow radix2 (-40)) with (/ 1099511627776). lra. }
    assert (GYM : g * Rabs Y_ <= 2.7 * M) by lra.
    assert (UGY : 0 <= u64 * (g * Rabs Y_) <= u64 * (2.7 * M)) by (split; [apply Rmult_le_pos; [lra|apply Rmult_le_pos; lra]|apply Rmult_le_compat_l; lra]).
    assert (UUGY : 0 <= u64 * (u64 * (g * Rabs Y_)) <= u64 * (u64 * (2.7 * M))) by (split; [apply Rmult_le_pos; lra|apply Rmult_le_compat_l; lra]).
    assert (UEY : 0 <= u64 * (eta64 * Rabs Y_) <= eta64 * Rabs Y_) by (assert (0 <= eta64 * Rabs Y_) by (apply Rmult_le_pos; lra); split; [apply Rmult_le_pos; lra|nra]).
    assert (A3 : ab (fmul r Y) (bc / Z_) (5.6 * (u64 * M)) (2.7 * M)).
    { replace (bc / Z_) with (X_ / Z_ * Y_) by (rewrite <- XY; field; exact NZ). eapply ab_weak; [eapply ab_mul; [exact AR|exact AY|]| |]; lra. }
    assert (A4 : ab (fsub d (fmul r Y)) (B2R d - bc / Z_) (9.5 * (u64 * M)) (3.7 * M)) by (eapply ab_weak; [eapply ab_sub; [exact AD|exact A3|]| |]; lra).
    change (@NBab lm) with NBq in *.
    (* the exact similarity *)
    pose proof p_ab as PA. set (dl := B2R a - B2R d - 2 * P_).
    assert (DL : Rabs dl <= 4.02 * (u64 * M)).
    { destruct PA as (_ & PA & _). replace dl with (- 2 * (P_ - / 2 * (B2R a - B2R d))) by (unfold dl; field). rewrite Rabs_mult, Rabs_left by lra. lra. }
    destruct (real_dev (B2R a) (B2R b) (B2R c) (B2R d) P_ Z_ h rho dl HH hp NZ ltac:(unfold dl; ring) eq_refl) as (I1 & I2 & I3 & I4).
    set (C := Z_ / h) in *. set (S := B2R c / h) in *.
    assert (ONE : C * C + S * S = 1). { unfold C, S. transitivity ((B2R c * B2R c + Z_ * Z_) / (h * h)); [field; lra|]. rewrite <- HH. field. lra. }
    destruct (unit_prods C S ONE) as (CC & SS & CS).
    assert (D1 : forall w, Rabs w <= 1 -> Rabs (dl * w) <= 4.02 * (u64 * M)).
    { intros w Hw. rewrite Rabs_mult. rewrite <- (Rmult_1_r (4.02 * _)). apply Rmult_le_compat; try assumption; apply Rabs_pos. }
    assert (hh : 0 < h * h) by (apply Rmult_lt_0_compat; exact hp). assert (IH : 0 < / (h * h)) by (apply Rinv_0_lt_compat; exact hh).
    assert (ZH : Z_ * Z_ * / (h * h) <= 1) by (apply Rmult_le_reg_r with (h * h); [exact hh|]; rewrite Rmult_assoc, Rinv_l by lra; rewrite HH; pose proof (Rle_0_sqr (B2R c)) as SQ; unfold Rsqr in SQ; lra).
    assert (R1 : forall w, Rabs w <= 2.6 * M -> Rabs (w * rho / (h * h)) <= 52.1 * (u64 * M)).
    { intros w Hw. unfold Rdiv. rewrite !Rabs_mult, (Rabs_pos_eq (/ (h * h))) by lra. rewrite Rmult_assoc.
      apply Rle_trans with (2.6 * M * (20 * u64 * (Z_ * Z_) * / (h * h))); [|].
      - apply Rmult_le_compat; [apply Rabs_pos|apply Rmult_le_pos; [apply Rabs_pos|apply Rlt_le, IH]|exact Hw|]. apply Rmult_le_compat_r; [lra|exact RH].
      - replace (2.6 * M * (20 * u64 * (Z_ * Z_) * / (h * h))) with (52 * (u64 * M) * (Z_ * Z_ * / (h * h))) by lra. apply small_scale; [lra|]. split; [apply Rmult_le_pos; [apply Rle_0_sqr|lra]|exact ZH]. }
    assert (R2 : Rabs (rho / Z_) <= 52.1 * (u64 * M)).
    { unfold Rdiv. rewrite Rabs_mult, Rabs_inv. apply Rmult_le_reg_r with (Rabs Z_); [exact Z0|]. rewrite Rmult_assoc, Rinv_l by lra. rewrite Rmult_1_r. eapply Rle_trans; [exact RH|]. rewrite <- ZA.
      replace (20 * u64 * (Rabs Z_ * Rabs Z_)) with (20 * u64 * Rabs Z_ * Rabs Z_) by ring. apply Rmult_le_compat_r; [lra|]. assert (u64 * Rabs Z_ <= u64 * (2.6 * M)) by (apply Rmult_le_compat_l; lra). lra. }
    assert (LZ : Rabs Z_ <= 2.6 * M) by lra. assert (LC : Rabs (B2R c) <= 2.6 * M) by lra.
    pose proof (D1 _ CC) as DCC. pose proof (D1 _ SS) as DSS. pose proof (D1 _ CS) as DCS. pose proof (R1 _ LZ) as RZ. pose proof (R1 _ LC) as RC. apply ab_elim in DCC, DSS, DCS, RZ, RC, R2.
    exists (fadd d z), (fsub b c), f0, (fsub d (fmul r Y)), (fdiv z tau), (fdiv c tau).
    split; [reflexivity|]. split; [exact (proj1 A1)|]. split; [exact (proj1 A2)|]. split; [reflexivity|]. split; [exact (proj1 A4)|]. split; [exact Fcs|]. split; [exact Fsn|]. split; [reflexivity|].
    exists C, S. do 4 eexists. split; [exact ONE|]. split; [apply similar_exists; exact ONE|]. rewrite I1, I2, I3, I4.
    destruct A1 as (_ & A1 & _), A2 as (_ & A2 & _), A4 as (_ & A4 & _). change (B2R (f0 : b64)) with 0.
    split; [|split; [|split; [|split; [|split; [eapply Rle_trans; [exact Ecs|lra]|eapply Rle_trans; [exact Esn|lra]]]]]].
    - eapply Rle_trans; [eapply tri; [exact A1|]|]. { instantiate (1 := 60 * (u64 * M)). apply Rabs_le. lra. } lra.
    - eapply Rle_trans; [eapply tri; [exact A2|]|]. { instantiate (1 := 60 * (u64 * M)). apply Rabs_le. lra. } lra.
    - apply Rabs_le. lra.
    - eapply Rle_trans; [eapply tri; [exact A4|]|]. { instantiate (1 := 120 * (u64 * M)). apply Rabs_le. lra. } lra.
  Qed.
End Real.
