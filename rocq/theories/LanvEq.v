(** dlanv2's diagonal-equalising rotation: accuracy of the computed cosine and sine. *)
From Coq Require Import Reals Lra.
From Flocq Require Import IEEE754.BinarySingleNaN Core.
From Verif Require Import Base Num Array Blas Lapack Spec SpecR SpecErr B64 B64Lemmas B64Nn GemmErr RoundErr AppErr Lapy2Err LarfgErr Near LanvCalc LanvRot.
Open Scope R_scope.

Section Rot.
  Context (lm : libm).
  #[local] Instance NBr : Num b64 := B64 lm.
  Context (s t : b64) (Fs : is_finite s = true) (Ft : is_finite t = true).
  Let h := sqrt (B2R s * B2R s + B2R t * B2R t).
  Hypothesis Hh : bpow radix2 (-970) <= h <= bpow radix2 410.
  Let tau := dlapy2 s t.
  Let q := Rabs (B2R s) / h.
  Let CS := sqrt ((1 + q) * / 2).
  Let SN := - (B2R t / 2 / (h * CS)) * sg s.
  Let cs : b64 := fsqrt (fmul (fadd f1 (fdiv (fabs s) tau)) fhalf).
  Let sn : b64 := fmul (fneg (fdiv (fmul fhalf t) (fmul tau cs))) (fsignum s).

  Lemma Hh' : bpow radix2 (-972) <= h <= bpow radix2 1000.
  Proof. split; [apply Rle_trans with (bpow radix2 (-970)); [apply bpow_le; lia|apply Hh]|apply Rle_trans with (bpow radix2 410); [apply Hh|apply bpow_le; lia]]. Qed.
  Lemma h0 : 0 < h. Proof. apply hyp_pos, Hh'. Qed.
  Lemma q_range : 0 <= q <= 1.
  Proof.
    pose proof h0. pose proof (hyp_x s t Hh') as L. fold h in L. pose proof (Rabs_pos (B2R s)). unfold q. split.
    - apply Rmult_le_pos; [assumption|]. apply Rlt_le, Rinv_0_lt_compat. assumption.
    - apply Rmult_le_reg_r with h; [assumption|]. unfold Rdiv. rewrite Rmult_assoc, Rinv_l by lra. lra.
  Qed.
  Lemma CS_sq : CS * CS = (1 + q) * / 2. Proof. pose proof q_range. apply sqrt_sqrt. lra. Qed.
  Lemma CS_range : / 2 <= CS <= 1.
  Proof.
    pose proof q_range. pose proof CS_sq. assert (0 <= CS) by apply sqrt_pos. split; nra.
  Qed.
  Lemma SN_sq : SN * SN = (1 - q) * / 2.
  Proof.
    pose proof h0 as H0. pose proof CS_range as CR. pose proof CS_sq as CC. pose proof (sg_sq s) as S2. pose proof (hyp_sq s t) as HS. fold h in HS.
    assert (QQ : q * q * (h * h) = B2R s * B2R s).
    { unfold q. assert (SA : Rabs (B2R s) * Rabs (B2R s) = B2R s * B2R s) by (rewrite <- Rabs_mult, Rabs_pos_eq; [reflexivity|apply Rle_0_sqr]). rewrite <- SA. field. lra. }
    apply (Rmult_eq_reg_l (CS * CS * (h * h))); [|apply Rgt_not_eq; apply Rmult_lt_0_compat; apply Rmult_lt_0_compat; lra].
    transitivity (B2R t * B2R t / 4 * (sg s * sg s)); [unfold SN; field; split; lra|]. rewrite S2, CC.
    replace ((1 + q) * / 2 * (h * h) * ((1 - q) * / 2)) with ((h * h - q * q * (h * h)) / 4) by field. rewrite QQ, HS. field.
  Qed.
  Lemma rot_one : CS * CS + SN * SN = 1. Proof. rewrite CS_sq, SN_sq. field. Qed.
  Lemma rot_eq : B2R t * (CS * CS - SN * SN) + 2 * B2R s * (CS * SN) = 0.
  Proof.
    pose proof h0 as H0. pose proof CS_range as CR. rewrite CS_sq, SN_sq. replace (CS * SN) with (- (B2R t / (2 * h)) * sg s) by (unfold SN; field; lra).
    pose proof (sg_val s) as V. pose proof (sg_sq s) as S2. unfold q.
    replace (2 * B2R s * (- (B2R t / (2 * h)) * sg s)) with (- (B2R t / h) * (sg s * B2R s)) by (field; lra).
    assert (SV : sg s * B2R s = Rabs (B2R s)) by (rewrite V at 1; rewrite <- Rmult_assoc, S2; ring). rewrite SV. field. lra.
  Qed.
  Lemma SN_range : Rabs SN <= 1.
  Proof. pose proof SN_sq as E. pose proof q_range. apply Rabs_le. nra. Qed.

  Lemma tau_app : is_finite tau = true /\ app 5 (B2R tau) h 0.
  Proof. exact (hyp_app lm s t Fs Ft Hh'). Qed.
  Lemma tau_pos : / 2 * h <= B2R tau <= 2 * h.
  Proof. destruct tau_app as [_ E]. apply app_to_rel, ab_elim in E. pose proof (gam_small 5 ltac:(lia)). pose proof h0. nra. Qed.
  Lemma itau_app : app 10 (/ B2R tau) (/ h) 0.
  Proof. destruct tau_app as [_ E]. apply (app_inv 5); [exact E|apply h0|]. pose proof (gam_small 5 ltac:(lia)). lra. Qed.

  Lemma quo_app : is_finite (fdiv (fabs s) tau) = true /\ app 11 (B2R (fdiv (fabs s) tau)) q eta64.
  Proof.
    pose proof tau_pos as TP. pose proof h0 as H0. pose proof q_range as QR. pose proof (hyp_x s t Hh') as L. fold h in L. pose proof (Rabs_pos (B2R s)) as A0. change (fdiv (fabs s) tau) with (Bdiv mode_NE (Babs s) tau).
    assert (V : B2R (Babs s) / B2R tau = Rabs (B2R s) * / B2R tau) by (rewrite B2R_Babs; reflexivity).
    assert (IT : 0 < / B2R tau) by (apply Rinv_0_lt_compat; lra).
    assert (N0 : 0 <= Rabs (B2R s) * / B2R tau) by (apply Rmult_le_pos; lra).
    assert (N2 : Rabs (B2R s) * / B2R tau <= 2).
    { apply Rmult_le_reg_r with (B2R tau); [lra|]. rewrite Rmult_assoc, Rinv_l by lra. lra. }
    assert (FF : is_finite (Bdiv mode_NE (Babs s) tau) = true).
    { apply quot_ok; [rewrite is_finite_Babs; exact Fs|lra|]. rewrite V, Rabs_pos_eq by exact N0. apply Rle_trans with (bpow radix2 1); [exact N2|apply bpow_le; lia]. }
    split; [exact FF|]. destruct (div_fin _ _ FF ltac:(lra)) as (_ & _ & E). rewrite V, (Rabs_pos_eq (Rabs (B2R s) * / B2R tau)) in E by exact N0.
    pose proof (app_scale (Rabs (B2R s)) 10 _ _ _ A0 itau_app) as A1. rewrite Rmult_0_r in A1.
    pose proof (app_round_eta 10 _ _ _ 0 A1 N0 ltac:(exact (proj1 QR)) ltac:(lra) E) as A2. rewrite Rplus_0_r in A2. exact A2.
  Qed.

  Lemma arg_app : let x := fmul (fadd f1 (fdiv (fabs s) tau)) (fhalf : b64) in is_finite x = true /\ 0 <= B2R x /\ app 15 (B2R x) ((1 + q) * / 2) 0.
  Proof.
    cbv zeta. pose proof u_tiny as [U0 U1]. destruct quo_app as [F1 A1]. pose proof q_range as QR. pose proof eta64_pos as ET. set (y := fdiv (fabs s) tau) in *.
    assert (EU : eta64 <= u64 * / 4).
    { apply eta_u. apply Rle_trans with (bpow radix2 (-2)); [apply bpow_le; lia|]. right. reflexivity. }
    pose proof B2R_1 as B1. assert (FO : is_finite (b64_dy 1 0) = true) by reflexivity.
    assert (Y : -1/2 <= B2R y <= 2).
    { apply app_elim in A1. pose proof (gam_small 11 ltac:(lia)) as G. pose proof (gam_pos 11). rewrite gam_P in *. nra. }
    assert (A2 : app 11 (1 + B2R y) (1 + q) eta64) by (rewrite <- (Rplus_0_l eta64); apply app_sum; [apply app_refl; lra|exact A1]).
    assert (F2 : is_finite (Bplus mode_NE (b64_dy 1 0) y) = true).
    { apply plus_ok; [exact FO|exact F1|]. rewrite B1. apply Rle_trans with (bpow radix2 2); [|apply bpow_le; lia]. change (bpow radix2 2) with 4. apply Rabs_le. lra. }
    destruct (plus_fin _ _ F2) as (_ & _ & _ & E2). rewrite B1, (Rabs_pos_eq (1 + B2R y)) in E2 by lra.
    assert (A3 : app 13 (B2R (Bplus mode_NE (b64_dy 1 0) y)) (1 + q) 0).
    { apply app_absorb with eta64; [|split; [lra|nra]]. apply (app_round 11 _ (1 + B2R y)); [exact A2|lra|lra|lra|exact E2]. }
    change (fmul (fadd f1 y) (fhalf : b64)) with (Bmult mode_NE (Bplus mode_NE (b64_dy 1 0) y) (b64_dy 1 (-1))). change (fadd f1 y) with (Bplus mode_NE (b64_dy 1 0) y) in *. set (z := Bplus mode_NE (b64_dy 1 0) y) in *.
    pose proof (app_pos 13 _ _ A3 ltac:(lra) ltac:(lia)) as Z0.
    assert (Z4 : B2R z <= 4) by (apply ab_elim in E2; nra).
    assert (F3 : is_finite (Bmult mode_NE z (b64_dy 1 (-1))) = true).
    { apply mult_ok; [exact F2|reflexivity|]. rewrite B2R_half, Rabs_pos_eq by lra. apply Rle_trans with (bpow radix2 2); [|apply bpow_le; lia]. change (bpow radix2 2) with 4. lra. }
    destruct (mult_fin _ _ F3) as (_ & _ & _ & E3). rewrite B2R_half, (Rabs_pos_eq (B2R z * / 2)) in E3 by lra.
    assert (A4 : app 13 (B2R z * / 2) ((1 + q) * / 2) 0).
    { pose proof (app_scale (/ 2) 13 _ _ _ ltac:(lra) A3) as K. rewrite Rmult_0_r, !(Rmult_comm (/ 2)) in K. exact K. }
    assert (A5 : app 15 (B2R (Bmult mode_NE z (b64_dy 1 (-1)))) ((1 + q) * / 2) 0).
    { apply app_absorb with eta64; [|split; [lra|nra]]. rewrite <- (Rplus_0_r eta64). apply (app_round_eta 13 _ (B2R z * / 2)); try lra; assumption. }
    split; [exact F3|]. split; [|exact A5]. apply (app_pos 15 _ _ A5); [lra|lia].
  Qed.

  Lemma cs_app : is_finite cs = true /\ app 16 (B2R cs) CS 0.
  Proof.
    destruct arg_app as (F & N & A). pose proof q_range as QR. unfold cs. set (x := fmul _ _) in *. change (fsqrt x) with (Bsqrt mode_NE x).
    split; [apply sqrt_ok; assumption|]. destruct (sqrt_fin x) as (_ & E). pose proof (gam_small 15 ltac:(lia)) as G.
    apply (app_round 15 _ (sqrt (B2R x))); [apply app_sqrt0; try assumption; lra|apply sqrt_pos|apply sqrt_pos|lra|exact E].
  Qed.
  Lemma cs_ab : ab cs CS (50 * u64) 1.
  Proof.
    destruct cs_app as [F A]. pose proof CS_range as R. split; [exact F|]. split; [|rewrite Rabs_pos_eq; lra]. apply app_to_rel in A. gamlin 16%nat. pose proof u_tiny. nra.
  Qed.
  Lemma cs_range : / 4 <= B2R cs <= 2.
  Proof. destruct cs_ab as (_ & A & _). apply ab_elim in A. pose proof CS_range. pose proof u_tiny. lra. Qed.

  Lemma den_app : is_finite (fmul tau cs) = true /\ app 23 (B2R (fmul tau cs)) (h * CS) 0.
  Proof.
    pose proof u_tiny as [U0 U1]. destruct tau_app as [F1 A1]. destruct cs_app as [F2 A2]. pose proof h0 as H0. pose proof CS_range as CR. pose proof cs_range as cR. pose proof tau_pos as TP. pose proof eta64_pos as ET.
    pose proof (app_mul 5 16 _ _ _ _ A1 A2 ltac:(lra) ltac:(lra) ltac:(lra)) as A3. cbn [Nat.add] in A3.
    assert (P0 : 0 <= B2R tau * B2R cs) by (apply Rmult_le_pos; lra).
    change (fmul tau cs) with (Bmult mode_NE tau cs).
    assert (FF : is_finite (Bmult mode_NE tau cs) = true).
    { apply mult_ok; [exact F1|exact F2|]. rewrite Rabs_pos_eq by exact P0. apply Rle_trans with (2 * h * 2); [apply Rmult_le_compat; lra|].
      apply Rle_trans with (bpow radix2 2 * bpow radix2 410); [change (bpow radix2 2) with 4; lra|]. rewrite <- bpow_plus. apply bpow_le. lia. }
    split; [exact FF|]. destruct (mult_fin _ _ FF) as (_ & _ & _ & E). rewrite (Rabs_pos_eq (B2R tau * B2R cs)) in E by exact P0.
    assert (HC : 0 <= h * CS) by (apply Rmult_le_pos; lra).
    apply app_absorb with eta64; [rewrite <- (Rplus_0_r eta64); apply (app_round_eta 21 _ (B2R tau * B2R cs)); try lra; assumption|].
    split; [lra|]. apply eta_u. apply Rle_trans with (bpow radix2 (-970) * / 2); [|apply Rmult_le_compat; try lra; apply bpow_ge_0].
    change (/ 2) with (bpow radix2 (-1)). rewrite <- bpow_plus. apply bpow_le. lia.
  Qed.

  Lemma sn_ab : ab sn SN (50 * u64) 1.
  Proof.
    pose proof u_tiny as [U0 U1]. destruct den_app as [F1 A1]. pose proof h0 as H0. pose proof CS_range as CR. pose proof eta64_pos as ET. pose proof (hyp_y s t Hh') as TH. fold h in TH.
    pose proof (Rabs_pos (B2R t)) as T0. assert (HC : 0 < h * CS) by (apply Rmult_lt_0_compat; lra). set (w := fmul tau cs) in *.
    assert (W' : / 1.2 * (h * CS) <= B2R w) by (pose proof (app_elim _ _ _ _ A1) as E; pose proof (gam_small 23 ltac:(lia)); nra).
    assert (W : / 2 * (h * CS) <= B2R w) by lra.
    assert (HC2 : bpow radix2 (-971) <= h * CS).
    { apply Rle_trans with (bpow radix2 (-970) * / 2); [|apply Rmult_le_compat; try lra; apply bpow_ge_0]. change (/ 2) with (bpow radix2 (-1)). rewrite <- bpow_plus. apply bpow_le. lia. }
    assert (W2 : bpow radix2 (-972) <= B2R w).
    { eapply Rle_trans; [|exact W]. apply Rle_trans with (/ 2 * bpow radix2 (-971)); [|lra]. change (/ 2) with (bpow radix2 (-1)). rewrite <- bpow_plus. apply bpow_le. lia. }
    assert (W0 : 0 < B2R w) by (eapply Rlt_le_trans; [apply bpow_gt_0|exact W2]).
    (* the numerator *)
    assert (P1 : Rabs (/ 2 * B2R t) = / 2 * Rabs (B2R t)) by (rewrite Rabs_mult, (Rabs_pos_eq (/ 2)) by lra; reflexivity).
    assert (F2 : is_finite (Bmult mode_NE (b64_dy 1 (-1)) t) = true).
    { apply mult_ok; [reflexivity|exact Ft|]. rewrite B2R_half, P1. apply Rle_trans with (bpow radix2 410); [|apply bpow_le; lia]. lra. }
    destruct (mult_fin _ _ F2) as (_ & _ & _ & E2). rewrite B2R_half, P1 in E2. set (p := Bmult mode_NE (b64_dy 1 (-1)) t) in *.
    (* the quotient *)
    assert (IW : 0 < / B2R w) by (apply Rinv_0_lt_compat; exact W0).
    assert (IW2 : / B2R w <= bpow radix2 972). { replace (bpow radix2 972) with (/ bpow radix2 (-972)) by (rewrite <- bpow_opp; reflexivity). apply Rinv_le; [apply bpow_gt_0|exact W2]. }
    assert (IA : app 46 (/ B2R w) (/ (h * CS)) 0) by (apply (app_inv 23); [exact A1|exact HC|]; pose proof (gam_small 23 ltac:(lia)); lra).
    assert (TQ : / 2 * Rabs (B2R t) * / (h * CS) <= 1).
    { apply Rmult_le_reg_r with (h * CS); [exact HC|]. rewrite Rmult_assoc, Rinv_l by lra. nra. }
    assert (TQ0 : 0 <= / 2 * Rabs (B2R t) * / (h * CS)) by (apply Rmult_le_pos; [lra|apply Rlt_le, Rinv_0_lt_compat; exact HC]).
    assert (Q1 : Rabs (B2R p / B2R w - / 2 * B2R t / (h * CS)) <= 48 * u64).
    { replace (B2R p / B2R w - / 2 * B2R t / (h * CS)) with ((B2R p - / 2 * B2R t) * / B2R w + / 2 * B2R t * (/ B2R w - / (h * CS))) by (field; split; [lra|split; lra]).
      eapply Rle_trans; [apply Rabs_triang|]. rewrite (Rabs_mult _ (/ B2R w)), (Rabs_pos_eq (/ B2R w)), (Rabs_mult (/ 2 * B2R t) _), P1 by lra.
      apply app_to_rel in IA. gamlin 46%nat.
      assert (K1 : Rabs (B2R p - / 2 * B2R t) * / B2R w <= (u64 * (/ 2 * Rabs (B2R t)) + eta64) * / B2R w) by (apply Rmult_le_compat_r; lra).
      assert (K2 : / 2 * Rabs (B2R t) * Rabs (/ B2R w - / (h * CS)) <= / 2 * Rabs (B2R t) * (gam 46 * / (h * CS))) by (apply Rmult_le_compat_l; lra).
      assert (K3 : eta64 * / B2R w <= u64 * / 1000).
      { apply Rle_trans with (eta64 * bpow radix2 972); [apply Rmult_le_compat_l; lra|]. apply Rle_trans with (u64 * bpow radix2 (-40)).
        - unfold eta64, u64. rewrite <- !bpow_plus. apply bpow_le. lia.
        - apply Rmult_le_compat_l; [lra|]. change (bpow radix2 (-40)) with (/ 1099511627776). lra. }
      assert (K4 : / 2 * Rabs (B2R t) * / B2R w <= 1.2).
      { apply Rmult_le_reg_r with (B2R w); [lra|]. rewrite Rmult_assoc, Rinv_l by lra.
        assert (/ 2 * Rabs (B2R t) <= h * CS); [|lra]. nra. }
      assert (K5 : / 2 * Rabs (B2R t) * (gam 46 * / (h * CS)) <= gam 46 * 1) by (replace (/ 2 * Rabs (B2R t) * (gam 46 * / (h * CS))) with (gam 46 * (/ 2 * Rabs (B2R t) * / (h * CS))) by ring; apply Rmult_le_compat_l; [apply gam_pos|exact TQ]).
      nra. }
    assert (Q2 : Rabs (B2R p / B2R w) <= 1 + 48 * u64).
    { replace (B2R p / B2R w) with ((B2R p / B2R w - / 2 * B2R t / (h * CS)) + / 2 * B2R t / (h * CS)) by ring. eapply Rle_trans; [apply Rabs_triang|].
      assert (Rabs (/ 2 * B2R t / (h * CS)) <= 1); [|lra]. unfold Rdiv. rewrite Rabs_mult, P1, (Rabs_pos_eq (/ (h * CS))) by (apply Rlt_le, Rinv_0_lt_compat; exact HC). exact TQ. }
    assert (F3 : is_finite (Bdiv mode_NE p w) = true).
    { apply quot_ok; [exact F2|lra|]. apply Rle_trans with (bpow radix2 1); [change (bpow radix2 1) with 2; lra|apply bpow_le; lia]. }
    destruct (div_fin _ _ F3 ltac:(lra)) as (_ & _ & E3).
    assert (EU : eta64 <= u64 * / 1000). { apply eta_u. apply Rle_trans with (bpow radix2 (-20)); [apply bpow_le; lia|]. change (bpow radix2 (-20)) with (/ 1048576). lra. }
    (* the sign *)
    unfold sn. change (fmul (fneg (fdiv (fmul fhalf t) w)) (fsignum s)) with (Bmult mode_NE (Bopp (Bdiv mode_NE p w)) (b64_signum s)).
    destruct (mul_sign (Bopp (Bdiv mode_NE p w)) s) as [F4 V4]; [rewrite is_finite_Bopp; exact F3|exact Fs|]. rewrite B2R_Bopp in V4.
    split; [exact F4|]. split; [|apply SN_range]. rewrite V4. unfold SN.
    replace (- B2R (Bdiv mode_NE p w) * sg s - - (B2R t / 2 / (h * CS)) * sg s) with (sg s * ((B2R p / B2R w - B2R (Bdiv mode_NE p w)) - (B2R p / B2R w - / 2 * B2R t / (h * CS)))) by (field; repeat split; lra).
    rewrite sg_abs. rewrite Rabs_minus_sym in E3. unfold Rminus at 1. eapply Rle_trans; [apply Rabs_triang|]. rewrite Rabs_Ropp. nra.
  Qed.
End Rot.
