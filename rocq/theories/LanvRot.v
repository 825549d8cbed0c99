(** The rotation of dlanv2's second branch in binary64: it is close to an exact rotation that makes the diagonal equal. *)
From Coq Require Import Reals Lra.
From Flocq Require Import IEEE754.BinarySingleNaN Core.
From Verif Require Import Base Num Array Blas Lapack Spec SpecR SpecErr B64 B64Lemmas B64Nn GemmErr RoundErr AppErr Lapy2Err LarfgErr Near LanvCalc.
Open Scope R_scope.

Lemma gam_lin n : (Z.of_nat n <= 1000)%Z -> gam n <= 1.001 * (INR n * u64).
Proof.
  intros H. pose proof u_tiny as [U0 U1].
  assert (I : forall m, (Z.of_nat m <= 1000)%Z -> gam m <= 1.001 * (INR m * u64) /\ gam m <= / 100000000).
  { intros m. induction m as [|m IH]; intros Hm.
    - unfold gam. cbn [pow INR]. split; lra.
    - destruct IH as [IH IH2]; [lia|]. pose proof (gam_pos m). rewrite gam_S, S_INR. assert (u64 * gam m <= u64 * / 100000000) by (apply Rmult_le_compat_l; lra).
      assert (IM : INR (S m) <= 1000). { rewrite INR_IZR_INZ. apply IZR_le. exact Hm. } rewrite S_INR in IM.
      assert (G : P * gam m + u64 <= 1.001 * ((INR m + 1) * u64)) by nra. split; [exact G|]. nra. }
  apply I. exact H.
Qed.
Ltac gamlin n := let H := fresh "GL" in pose proof (gam_lin n ltac:(lia)) as H; cbn [INR Nat.mul Nat.add] in H.

(** multiplication by a sign *)
Lemma signum_val (s : b64) : is_finite s = true -> is_finite (b64_signum s) = true /\ B2R (b64_signum s) = sg s.
Proof.
  intros F. assert (EQ : b64_signum s = b64_copysign (b64_dy 1 0) s) by (destruct s; try discriminate F; reflexivity).
  rewrite EQ, copysign_pos by reflexivity. assert (B1 : B2R (b64_dy 1 0) = 1) by exact B2R_1. unfold sg.
  destruct (Bsign s); rewrite ?B2R_Bopp, ?is_finite_Bopp, B1; split; reflexivity.
Qed.
Lemma mul_sign (x s : b64) : is_finite x = true -> is_finite s = true ->
  is_finite (Bmult mode_NE x (b64_signum s)) = true /\ B2R (Bmult mode_NE x (b64_signum s)) = B2R x * sg s.
Proof.
  intros Fx Fs. destruct (signum_val s Fs) as [F V]. pose proof (Bmult_correct 53 1024 prec53 emax1024 mode_NE x (b64_signum s)) as C.
  change (round radix2 (SpecFloat.fexp 53 1024) (round_mode mode_NE) (B2R x * B2R (b64_signum s))) with (rnd (B2R x * B2R (b64_signum s))) in C. rewrite V in C.
  assert (G : rnd (B2R x * sg s) = B2R x * sg s).
  { apply round_generic; auto with typeclass_instances. unfold sg. destruct (Bsign s).
    - replace (B2R x * -1) with (- B2R x) by ring. apply generic_format_opp, fmt.
    - rewrite Rmult_1_r. apply fmt. }
  rewrite G in C. rewrite Rlt_bool_true in C.
  - destruct C as (E & FF & _). rewrite Fx, F in FF. split; [exact FF|exact E].
  - rewrite Rmult_comm, sg_abs. apply abs_B2R_lt_emax.
Qed.

(** the hypotenuse *)
Section Hyp.
  Context (lm : libm).
  #[local] Instance NBh : Num b64 := B64 lm.
  Context (x y : b64) (Fx : is_finite x = true) (Fy : is_finite y = true).
  Let h := sqrt (B2R x * B2R x + B2R y * B2R y).
  Hypothesis Hh : bpow radix2 (-972) <= h <= bpow radix2 1000.
  Lemma hyp_app : is_finite (dlapy2 x y) = true /\ app 5 (B2R (dlapy2 x y)) h 0.
  Proof.
    pose proof u_tiny as [U0 U1]. assert (H0 : 0 < h) by (eapply Rlt_le_trans; [apply bpow_gt_0|apply Hh]).
    destruct (dlapy2_err lm x y Fx Fy) as [E F]. change (sqrt (val64 x * val64 x + val64 y * val64 y)) with h in E, F. cbv zeta in E, F. fold NBh in E, F.
    assert (FF : is_finite (dlapy2 x y) = true).
    { apply F. eapply Rle_trans; [|apply (max_ge lm 0%nat)]. assert (h <= bpow radix2 1020) by (apply Rle_trans with (bpow radix2 1000); [apply Hh|apply bpow_le; lia]). nra. }
    split; [exact FF|]. specialize (E FF). change (val64 (dlapy2 x y)) with (B2R (dlapy2 x y)) in E.
    assert (ET : eta64 <= u64 * h).
    { apply Rle_trans with (u64 * bpow radix2 (-972)); [unfold u64, eta64; rewrite <- bpow_plus; apply bpow_le; lia|]. apply Rmult_le_compat_l; lra. }
    apply app_of_rel. eapply Rle_trans; [exact E|]. assert (G : 5 * u64 <= gam 5) by (unfold gam; cbn [pow]; nra). nra.
  Qed.
  Lemma hyp_sq : h * h = B2R x * B2R x + B2R y * B2R y. Proof. apply sqrt_sqrt. nra. Qed.
  Lemma hyp_pos : 0 < h. Proof. eapply Rlt_le_trans; [apply bpow_gt_0|apply Hh]. Qed.
  Lemma hyp_x : Rabs (B2R x) <= h.
  Proof. pose proof hyp_pos. apply Rsqr_incr_0_var; [|lra]. unfold Rsqr. rewrite <- Rabs_mult, Rabs_pos_eq by nra. rewrite hyp_sq. nra. Qed.
  Lemma hyp_y : Rabs (B2R y) <= h.
  Proof. pose proof hyp_pos. apply Rsqr_incr_0_var; [|lra]. unfold Rsqr. rewrite <- Rabs_mult, Rabs_pos_eq by nra. rewrite hyp_sq. nra. Qed.
End Hyp.

Lemma sqrt_ok (x : b64) : is_finite x = true -> 0 <= B2R x -> is_finite (Bsqrt mode_NE x) = true /\ Bsign (Bsqrt mode_NE x) = (Bsign x && negb (Rlt_bool 0 (B2R x)))%bool.
Proof.
  intros F H. destruct (Bsqrt_correct 53 1024 prec53 emax1024 mode_NE x) as (E & F' & S').
  destruct x as [s|s| |s m e B]; try discriminate F.
  - split; [reflexivity|]. cbn [B2R Bsign]. rewrite Rlt_bool_false by lra. destruct s; reflexivity.
  - destruct s. { exfalso. revert H. apply Rlt_not_le. apply F2R_lt_0. reflexivity. }
    split; [exact F'|]. assert (N : is_nan (Bsqrt mode_NE (B754_finite false m e B)) = false) by (destruct (Bsqrt mode_NE (B754_finite false m e B)); (reflexivity || discriminate F')).
    rewrite (S' N). reflexivity.
Qed.

(** a rounding on top of an approximation *)
Lemma app_round q y z X D : app q z X D -> 0 <= z -> 0 <= X -> 0 <= D -> Rabs (y - z) <= u64 * z -> app (S q) y X D.
Proof. intros H Hz HX HD E. pose proof (app_comp 1 q y z X 0 D (app_rel _ _ Hz E) H Hz HX ltac:(lra) HD) as K. rewrite Rplus_0_l in K. exact K. Qed.
Lemma app_round_eta q y z X D : app q z X D -> 0 <= z -> 0 <= X -> 0 <= D -> Rabs (y - z) <= u64 * z + eta64 -> app (S q) y X (eta64 + D).
Proof. intros H Hz HX HD E. pose proof eta64_pos. exact (app_comp 1 q y z X eta64 D (app_eta _ _ Hz E) H Hz HX ltac:(lra) HD). Qed.
Lemma app_pos q y X : app q y X 0 -> 0 <= X -> (Z.of_nat q <= 1000)%Z -> 0 <= y.
Proof. intros H HX Q. apply app_elim in H. pose proof (gam_small q ltac:(lia)). pose proof (gam_pos q). nra. Qed.
Lemma bp_half : bpow radix2 (-1) = / 2. Proof. reflexivity. Qed.
Lemma eta_u x : bpow radix2 (-1022) <= x -> eta64 <= u64 * x.
Proof. intros H. pose proof u64_pos. apply Rle_trans with (u64 * bpow radix2 (-1022)); [unfold eta64, u64; rewrite <- bpow_plus; apply bpow_le; lia|]. apply Rmult_le_compat_l; lra. Qed.
