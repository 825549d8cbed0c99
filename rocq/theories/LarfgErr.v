(** dlarfg in binary64: rounding error bounds for beta, tau and v. *)
From Coq Require Import Reals Lra.
From Flocq Require Import IEEE754.BinarySingleNaN Core.
From Verif Require Import Base Num Array Blas Lapack Spec SpecR SpecErr B64 B64Lemmas B64Nn MachProofs Lapy2Proofs Lists FaLemmas
  Blas1Proofs Nrm2Proofs Nrm2F64 RsumLemmas RoundErr AppErr Lapy2Err Nrm2Err Nrm2Acc LarfgProofs GemmErr.
Open Scope R_scope.

(** *** operations whose result is in range *)
Lemma in_range x : Rabs x <= bpow radix2 1023 -> Rlt_bool (Rabs (rnd x)) (bpow radix2 1024) = true.
Proof.
  intros H. apply Rlt_bool_true. apply Rle_lt_trans with (bpow radix2 1023); [|apply bpow_lt; lia].
  apply abs_round_le_generic; auto with typeclass_instances. apply generic_format_bpow. unfold FLT_exp. lia.
Qed.
Lemma mult_ok (x y : b64) : is_finite x = true -> is_finite y = true -> Rabs (B2R x * B2R y) <= bpow radix2 1023 ->
  is_finite (Bmult mode_NE x y) = true /\ B2R (Bmult mode_NE x y) = rnd (B2R x * B2R y) /\ Bsign (Bmult mode_NE x y) = xorb (Bsign x) (Bsign y).
Proof.
  intros Fx Fy H. pose proof (Bmult_correct 53 1024 prec53 emax1024 mode_NE x y) as C.
  change (round radix2 (SpecFloat.fexp 53 1024) (round_mode mode_NE) (B2R x * B2R y)) with (rnd (B2R x * B2R y)) in C.
  rewrite in_range in C by exact H. destruct C as (E & F & S). rewrite Fx, Fy in F. split; [exact F|]. split; [exact E|]. apply S.
  destruct (Bmult mode_NE x y); (discriminate F || reflexivity).
Qed.
Lemma minus_ok (x y : b64) : is_finite x = true -> is_finite y = true -> Rabs (B2R x - B2R y) <= bpow radix2 1023 ->
  is_finite (Bminus mode_NE x y) = true /\ Rabs (B2R (Bminus mode_NE x y) - (B2R x - B2R y)) <= u64 * Rabs (B2R x - B2R y).
Proof.
  intros Fx Fy H. pose proof (Bminus_correct 53 1024 prec53 emax1024 mode_NE x y Fx Fy) as C.
  change (round radix2 (SpecFloat.fexp 53 1024) (round_mode mode_NE) (B2R x - B2R y)) with (rnd (B2R x - B2R y)) in C.
  rewrite in_range in C by exact H. destruct C as (_ & F & _). split; [exact F|]. apply (minus_fin x y F).
Qed.
Lemma div_ok (x y : b64) : is_finite x = true -> B2R y <> 0 -> bpow radix2 (-1022) <= Rabs (B2R x / B2R y) <= bpow radix2 1023 ->
  is_finite (Bdiv mode_NE x y) = true /\ Rabs (B2R (Bdiv mode_NE x y) - B2R x / B2R y) <= u64 * Rabs (B2R x / B2R y).
Proof.
  intros Fx Ny [L H]. pose proof (Bdiv_correct 53 1024 prec53 emax1024 mode_NE x y Ny) as C.
  change (round radix2 (SpecFloat.fexp 53 1024) (round_mode mode_NE) (B2R x / B2R y)) with (rnd (B2R x / B2R y)) in C.
  rewrite in_range in C by exact H. destruct C as (E & F & _). split; [congruence|]. rewrite E. apply rnd_err_normal. exact L.
Qed.

(** *** reciprocals *)
Lemma app_inv q y X : app q y X 0 -> 0 < X -> gam q <= / 2 -> app (2 * q) (/ y) (/ X) 0.
Proof.
  intros H HX G. pose proof (app_elim _ _ _ _ H) as E. rewrite Rmult_0_r in E. rewrite gam_P in *. pose proof (Pn_ge q) as Pq. set (a := P ^ q) in *.
  assert (Y0 : 0 < y) by nra.
  assert (I1 : / y <= a * a * / X).
  { apply Rmult_le_reg_r with (y * X); [nra|]. replace (/ y * (y * X)) with X by (field; lra). replace (a * a * / X * (y * X)) with (a * a * y) by (field; lra).
    apply Rle_trans with (a * a * ((2 - a) * X)); [|apply Rmult_le_compat_l; nra].
    replace (a * a * ((2 - a) * X)) with (X + (a - 1) * (1 + a - a * a) * X) by ring.
    assert (0 <= (a - 1) * (1 + a - a * a)) by (apply Rmult_le_pos; nra). nra. }
  assert (I2 : (2 - a * a) * / X <= / y).
  { apply Rmult_le_reg_r with (y * X); [nra|]. replace (/ y * (y * X)) with X by (field; lra). replace ((2 - a * a) * / X * (y * X)) with ((2 - a * a) * y) by (field; lra).
    destruct (Rle_lt_dec (2 - a * a) 0); [nra|]. apply Rle_trans with ((2 - a * a) * (a * X)); [apply Rmult_le_compat_l; nra|].
    assert ((2 - a * a) * a <= 1); [|nra]. replace ((2 - a * a) * a) with (1 - (a - 1) * (a * a + a - 1)) by ring.
    assert (0 <= (a - 1) * (a * a + a - 1)) by (apply Rmult_le_pos; nra). lra. }
  unfold app. rewrite gam_P. replace (2 * q)%nat with (q + q)%nat by lia. rewrite pow_add. fold a. apply ab_intro; lra.
Qed.
Lemma app_of_rel q y X : Rabs (y - X) <= gam q * X -> app q y X 0.
Proof. intros H. unfold app. lra. Qed.
Lemma app_to_rel q y X : app q y X 0 -> Rabs (y - X) <= gam q * X.
Proof. unfold app. lra. Qed.

(** the hypotenuse moves by no more than a leg *)
Lemma hyp_lip a x y : Rabs (sqrt (a * a + x * x) - sqrt (a * a + y * y)) <= Rabs (x - y).
Proof.
  set (h := sqrt (a * a + x * x)). set (k := sqrt (a * a + y * y)). assert (H1 : h * h = a * a + x * x) by (apply sqrt_sqrt; nra).
  assert (K1 : k * k = a * a + y * y) by (apply sqrt_sqrt; nra). pose proof (sqrt_pos (a * a + x * x)) as H0. fold h in H0. pose proof (sqrt_pos (a * a + y * y)) as K0. fold k in K0.
  assert (X : Rabs x <= h) by (apply Rsqr_incr_0_var; [unfold Rsqr; rewrite <- Rabs_mult, Rabs_pos_eq by nra; nra|exact H0]).
  assert (Y : Rabs y <= k) by (apply Rsqr_incr_0_var; [unfold Rsqr; rewrite <- Rabs_mult, Rabs_pos_eq by nra; nra|exact K0]).
  destruct (Req_dec (h + k) 0) as [Z|Z]. { replace (h - k) with 0 by lra. rewrite Rabs_R0. apply Rabs_pos. }
  apply Rmult_le_reg_r with (h + k); [lra|]. rewrite <- (Rabs_pos_eq (h + k)) at 1 by lra. rewrite <- Rabs_mult.
  replace ((h - k) * (h + k)) with ((x - y) * (x + y)) by nra. rewrite Rabs_mult. apply Rmult_le_compat_l; [apply Rabs_pos|].
  eapply Rle_trans; [apply Rabs_triang|]. lra.
Qed.

(** the sign bit as a number *)
Definition sg (a : b64) : R := if Bsign a then -1 else 1.
Lemma sg_sq a : sg a * sg a = 1. Proof. unfold sg. destruct (Bsign a); ring. Qed.
Lemma sg_abs a x : Rabs (sg a * x) = Rabs x. Proof. unfold sg. destruct (Bsign a); [replace (-1 * x) with (- x) by ring; apply Rabs_Ropp|rewrite Rmult_1_l; reflexivity]. Qed.
Lemma sg_val (a : b64) : B2R a = sg a * Rabs (B2R a).
Proof.
  unfold sg. destruct a as [s|s| |s m e B]; cbn [B2R Bsign]; try (rewrite Rabs_R0; ring).
  destruct s; cbn [SpecFloat.cond_Zopp].
  - rewrite Rabs_left1; [ring|]. apply F2R_le_0. cbn. lia.
  - rewrite Rabs_pos_eq; [ring|]. apply F2R_ge_0. cbn. lia.
Qed.

Lemma copysign_pos (x z : b64) : Bsign x = false -> b64_copysign x z = if Bsign z then Bopp x else x.
Proof. intros H. destruct x as [s|s| |s m e B]; cbn [Bsign] in H; cbn [b64_copysign]; try subst s; destruct (Bsign z); reflexivity. Qed.

Lemma q_small q : (Z.of_nat q <= 2 ^ 34)%Z -> 0 <= gam q <= / 1000.
Proof.
  intros H. split; [apply gam_pos|]. assert (I : INR q * u64 <= bpow radix2 (-19)).
  { rewrite INR_IZR_INZ. apply IZR_le in H. apply Rle_trans with (IZR (2 ^ 34) * u64); [apply Rmult_le_compat_r; [pose proof u64_pos; lra|exact H]|].
    change (IZR (2 ^ 34)) with (bpow radix2 34). unfold u64. rewrite <- bpow_plus. apply bpow_le. lia. }
  change (bpow radix2 (-19)) with (/ IZR (2 ^ 19)) in I. change (2 ^ 19)%Z with 524288%Z in I.
  eapply Rle_trans; [apply gam_linear'; lra|]. lra.
Qed.

Section L.
  Context (lm : libm) (LM : libm_ok lm).
  #[local] Instance NBg : Num b64 := B64 lm.

  Lemma larfg_beta_val (a xn : b64) : is_finite a = true -> is_finite (dlapy2 a xn) = true ->
    is_finite (larfg_beta a xn) = true /\ B2R (larfg_beta a xn) = - sg a * B2R (dlapy2 a xn).
  Proof.
    intros Fa Fd. unfold larfg_beta. set (d := dlapy2 a xn) in *. change (fmul (fneg (fsignum a)) d) with (Bmult mode_NE (Bopp (b64_signum a)) d).
    set (s := Bopp (b64_signum a)).
    assert (S : is_finite s = true /\ B2R s = - sg a).
    { unfold s. rewrite is_finite_Bopp, B2R_Bopp. assert (W : forall z, B2R (b64_copysign (b64_dy 1 0) z) = sg z /\ is_finite (b64_copysign (b64_dy 1 0) z) = true).
      { intros z. unfold sg. assert (E : b64_copysign (b64_dy 1 0) z = if Bsign z then Bopp (b64_dy 1 0) else b64_dy 1 0).
        { apply copysign_pos. reflexivity. }
        rewrite E. assert (B1 : B2R (b64_dy 1 0) = 1) by exact B2R_1. destruct (Bsign z); rewrite ?B2R_Bopp, ?is_finite_Bopp, B1; split; reflexivity. }
      destruct (W a) as [W1 W2]. assert (EQ : b64_signum a = b64_copysign (b64_dy 1 0) a) by (destruct a; try discriminate Fa; reflexivity). rewrite EQ, W1, W2. split; reflexivity. }
    destruct S as [Fs Vs]. pose proof (Bmult_correct 53 1024 prec53 emax1024 mode_NE s d) as C.
    change (round radix2 (SpecFloat.fexp 53 1024) (round_mode mode_NE) (B2R s * B2R d)) with (rnd (B2R s * B2R d)) in C. rewrite Vs in C.
    assert (G : rnd (- sg a * B2R d) = - sg a * B2R d).
    { apply round_generic; auto with typeclass_instances. unfold sg. destruct (Bsign a).
      - replace (- -1 * B2R d) with (B2R d) by ring. apply fmt.
      - replace (- (1) * B2R d) with (- B2R d) by ring. apply generic_format_opp, fmt. }
    rewrite G in C. rewrite Rlt_bool_true in C.
    - destruct C as (E & F & _). rewrite Fs, Fd in F. split; [exact F|exact E].
    - rewrite <- Ropp_mult_distr_l, Rabs_Ropp, sg_abs. apply abs_B2R_lt_emax.
  Qed.

  (** *** beta before the scaling test *)
  Section Beta.
    Context (a xn : b64) (m : nat) (N : R).
    Hypothesis Fa : is_finite a = true.
    Hypothesis Fx : is_finite xn = true.
    Hypothesis N0 : 0 <= N.
    Hypothesis Hm : (Z.of_nat m <= 2 ^ 31 + 100)%Z.
    Hypothesis Hx : Rabs (B2R xn - N) <= gam m * N + bpow radix2 (-1039).
    Let h := sqrt (B2R a * B2R a + N * N).
    Hypothesis Hh : h <= bpow radix2 1020.
    Let h1 := sqrt (B2R a * B2R a + B2R xn * B2R xn).
    Let d := dlapy2 a xn.

    Lemma h_pos : 0 <= h. Proof. apply sqrt_pos. Qed.
    Lemma h_sq : h * h = B2R a * B2R a + N * N. Proof. apply sqrt_sqrt. nra. Qed.
    Lemma h_N : N <= h. Proof. apply Rsqr_incr_0_var; [unfold Rsqr; rewrite h_sq; nra|apply h_pos]. Qed.
    Lemma h_a : Rabs (B2R a) <= h.
    Proof. apply Rsqr_incr_0_var; [unfold Rsqr; rewrite <- Rabs_mult, Rabs_pos_eq, h_sq by nra; nra|apply h_pos]. Qed.
    Lemma h1_xn : Rabs (B2R xn) <= h1.
    Proof. pose proof (sqrt_pos (B2R a * B2R a + B2R xn * B2R xn)). apply Rsqr_incr_0_var; [|exact H]. unfold Rsqr, h1. rewrite <- Rabs_mult, Rabs_pos_eq, sqrt_sqrt by nra. nra. Qed.
    Lemma gam_m : gam m <= / 1000.
    Proof. apply gam_small. lia. Qed.
    Lemma h1_app : app m h1 h (bpow radix2 (-1039)).
    Proof.
      unfold app. eapply Rle_trans; [apply hyp_lip|]. eapply Rle_trans; [exact Hx|]. pose proof h_N. pose proof (gam_pos m). pose proof (Pn_ge m). pose proof (bpow_ge_0 radix2 (-1039)).
      apply Rplus_le_compat; [apply Rmult_le_compat_l; lra|]. rewrite <- (Rmult_1_l (bpow _ _)) at 1. apply Rmult_le_compat_r; lra.
    Qed.
    Lemma h1_rough : h - / 1000 * h - bpow radix2 (-1039) <= h1 <= h + / 1000 * h + bpow radix2 (-1039).
    Proof.
      pose proof (hyp_lip (B2R a) (B2R xn) N) as L. fold h1 h in L. pose proof h_N. pose proof gam_m. pose proof (gam_pos m). apply ab_elim in L. apply ab_elim in Hx.
      assert (gam m * N <= / 1000 * h) by (apply Rmult_le_compat; lra).
      pose proof (Rabs_pos (B2R xn - N)). unfold Rabs in L at 1 2. destruct (Rcase_abs (B2R xn - N)); lra.
    Qed.
    Lemma p1039 : bpow radix2 (-1039) <= bpow radix2 1020. Proof. apply bpow_le. lia. Qed.
    Lemma max_ge : 4 * bpow radix2 1020 <= val64 (fMAX : b64).
    Proof.
      change 4 with (bpow radix2 2). rewrite <- bpow_plus. change (val64 (fMAX : b64)) with (F2R (Float radix2 9007199254740991 971)).
      apply Rle_trans with (F2R (Float radix2 4503599627370496 971)).
      - unfold F2R. cbn [Fnum Fexp]. replace (IZR 4503599627370496) with (bpow radix2 52) by (cbn [bpow]; f_equal; vm_compute; reflexivity). rewrite <- bpow_plus. apply bpow_le. lia.
      - apply F2R_le. lia.
    Qed.
    Lemma d_fin : is_finite d = true.
    Proof.
      apply (dlapy2_err lm a xn Fa Fx). change ((1 + 4 * u64) * h1 <= val64 (fMAX : b64)). eapply Rle_trans; [|exact max_ge].
      pose proof h1_rough. pose proof p1039. pose proof u64_le. pose proof u64_pos. pose proof h_pos. pose proof (sqrt_pos (B2R a * B2R a + B2R xn * B2R xn)) as h1p. fold h1 in h1p.
      assert (u64 * h1 <= / 1000000 * h1) by (apply Rmult_le_compat_r; lra). lra.
    Qed.
    Lemma d_err : Rabs (B2R d - h1) <= 4 * u64 * h1 + eta64.
    Proof. exact (proj1 (dlapy2_err lm a xn Fa Fx) d_fin). Qed.
    Lemma h1_pos : 0 <= h1. Proof. apply sqrt_pos. Qed.
    Lemma d_rough : h1 - / 1000 * h1 - eta64 <= B2R d <= h1 + / 1000 * h1 + eta64.
    Proof. pose proof d_err as E. apply ab_elim in E. pose proof u64_le. pose proof h1_pos. nra. Qed.
    Lemma d_app : bpow radix2 (-970) <= h -> app (m + 6) (B2R d) h 0.
    Proof.
      intros L. pose proof h_pos. pose proof h1_pos. pose proof u64_pos. pose proof eta64_pos. pose proof (bpow_ge_0 radix2 (-1039)).
      assert (A1 : app (S m) h1 h 0).
      { apply app_absorb with (bpow radix2 (-1039)); [exact h1_app|]. split; [assumption|]. apply Rle_trans with (u64 * bpow radix2 (-970)).
        - unfold u64. rewrite <- bpow_plus. apply bpow_le. lia.
        - apply Rmult_le_compat_l; lra. }
      assert (A2 : app 4 (B2R d) h1 eta64).
      { unfold app. eapply Rle_trans; [exact d_err|]. pose proof (Pn_ge 4). rewrite gam_P. apply Rplus_le_compat.
        - apply Rmult_le_compat_r; [lra|]. cbn [pow]. nra.
        - rewrite <- (Rmult_1_l eta64) at 1. apply Rmult_le_compat_r; lra. }
      pose proof (app_comp _ _ _ _ _ _ _ A2 A1 ltac:(lra) ltac:(lra) ltac:(lra) ltac:(lra)) as A3. rewrite Rplus_0_r in A3.
      replace (m + 6)%nat with (S (4 + S m)) by lia. apply app_absorb with eta64; [exact A3|]. split; [lra|].
      apply Rle_trans with (u64 * bpow radix2 (-970)).
      - unfold u64, eta64. rewrite <- bpow_plus. apply bpow_le. lia.
      - apply Rmult_le_compat_l; lra.
    Qed.
  End Beta.

  (** *** tau and the scale factor, once beta is not tiny *)
  Section Core.
    Context (a xn : b64) (m : nat) (N : R).
    Hypothesis Fa : is_finite a = true.
    Hypothesis Fx : is_finite xn = true.
    Hypothesis N0 : 0 <= N.
    Hypothesis Hm : (Z.of_nat m <= 2 ^ 31 + 100)%Z.
    Hypothesis Hx : Rabs (B2R xn - N) <= gam m * N + bpow radix2 (-1039).
    Let h := sqrt (B2R a * B2R a + N * N).
    Hypothesis Hh : bpow radix2 (-970) <= h <= bpow radix2 1020.
    Let d := B2R (dlapy2 a xn).
    Let beta := larfg_beta a xn.
    Let A := Rabs (B2R a).

    Lemma h_gt : 0 < h. Proof. apply Rlt_le_trans with (bpow radix2 (-970)); [apply bpow_gt_0|apply Hh]. Qed.
    Lemma A_le : 0 <= A <= h. Proof. split; [apply Rabs_pos|]. apply (h_a a N). Qed.
    Lemma dapp : app (m + 6) d h 0. Proof. apply (d_app a xn m N); try assumption; apply Hh. Qed.
    Lemma d_bounds : h - / 1000 * h <= d <= h + / 1000 * h.
    Proof. pose proof dapp as E. apply app_to_rel, ab_elim in E. pose proof (q_small (m + 6) ltac:(lia)). pose proof h_gt. nra. Qed.
    Lemma beta_val : is_finite beta = true /\ B2R beta = - sg a * d.
    Proof. apply larfg_beta_val; [exact Fa|]. apply (d_fin a xn m N); try assumption. apply Hh. Qed.
    Lemma beta_err : Rabs (B2R beta - - sg a * h) <= gam (m + 6) * h.
    Proof. rewrite (proj2 beta_val). replace (- sg a * d - - sg a * h) with (sg a * (h - d)) by ring. rewrite sg_abs, Rabs_minus_sym. apply app_to_rel, dapp. Qed.

    Lemma e_app (w : b64) s : s * s = 1 -> (forall x, Rabs (s * x) = Rabs x) -> Rabs (B2R w - s * (A + d)) <= u64 * Rabs (s * (A + d)) -> app (m + 7) (s * B2R w) (A + h) 0 /\ B2R w = s * (s * B2R w).
    Proof.
      intros S1 S2 E. pose proof A_le. pose proof d_bounds. pose proof h_gt. split; [|rewrite <- Rmult_assoc, S1; ring].
      replace (m + 7)%nat with (1 + (m + 6))%nat by lia. replace 0 with (0 + 0) by ring. apply app_comp with (A + d); try lra.
      - apply app_rel; [lra|]. replace (s * B2R w - (A + d)) with (s * (B2R w - s * (A + d))) by (rewrite Rmult_minus_distr_l, <- Rmult_assoc, S1; ring).
        rewrite S2. eapply Rle_trans; [exact E|]. rewrite S2, Rabs_pos_eq by lra. lra.
      - replace 0 with (0 + 0) by ring. apply app_sum; [apply app_refl; lra|exact dapp].
    Qed.
    Lemma p1022 : (A + h) + / 1000 * (A + h) <= bpow radix2 1022.
    Proof.
      pose proof A_le. pose proof h_gt. replace (bpow radix2 1022) with (4 * bpow radix2 1020) by (change 4 with (bpow radix2 2); rewrite <- bpow_plus; reflexivity). lra.
    Qed.
    Lemma p1023 : bpow radix2 1022 <= bpow radix2 1023. Proof. apply bpow_le. lia. Qed.

    (** alpha - beta *)
    Lemma del_val : let w := fsub a beta in is_finite w = true /\ app (m + 7) (sg a * B2R w) (A + h) 0 /\ B2R w = sg a * (sg a * B2R w).
    Proof.
      intros w. destruct beta_val as [Fb Vb]. pose proof A_le. pose proof d_bounds. pose proof h_gt. pose proof p1022. pose proof p1023.
      assert (V : B2R a - B2R beta = sg a * (A + d)) by (rewrite Vb, (sg_val a); unfold A; ring).
      destruct (minus_ok a beta Fa Fb) as (F & E). { rewrite V, sg_abs, Rabs_pos_eq by lra. lra. }
      rewrite V in E. split; [exact F|]. exact (e_app w (sg a) (sg_sq a) (sg_abs a) E).
    Qed.
    (** beta - alpha *)
    Lemma num_val : let w := fsub beta a in is_finite w = true /\ app (m + 7) (- sg a * B2R w) (A + h) 0 /\ B2R w = - sg a * (- sg a * B2R w).
    Proof.
      intros w. destruct beta_val as [Fb Vb]. pose proof A_le. pose proof d_bounds. pose proof h_gt. pose proof p1022. pose proof p1023.
      assert (V : B2R beta - B2R a = - sg a * (A + d)) by (rewrite Vb, (sg_val a); unfold A; ring).
      assert (S2 : forall x, Rabs (- sg a * x) = Rabs x) by (intros x; rewrite <- Ropp_mult_distr_l, Rabs_Ropp; apply sg_abs).
      destruct (minus_ok beta a Fb Fa) as (F & E). { rewrite V, S2, Rabs_pos_eq by lra. lra. }
      rewrite V in E. split; [exact F|]. refine (e_app w (- sg a) _ S2 E). pose proof (sg_sq a). nra.
    Qed.
    (** 1 / (alpha - beta) *)
    Lemma rho_val : let r := fdiv f1 (fsub a beta) in is_finite r = true /\ Rabs (B2R r - / (B2R a - - sg a * h)) <= gam (2 * m + 15) * / (A + h).
    Proof.
      intros r. destruct del_val as (F & E & V). set (w := fsub a beta) in *. set (e := sg a * B2R w) in *. pose proof A_le. pose proof h_gt. pose proof p1022. pose proof u64_pos.
      pose proof (app_to_rel _ _ _ E) as E1. apply ab_elim in E1. pose proof (q_small (m + 7) ltac:(lia)).
      assert (EB : bpow radix2 (-971) <= e <= bpow radix2 1022).
      { assert (2 * bpow radix2 (-971) = bpow radix2 (-970)) by (change 2 with (bpow radix2 1); rewrite <- bpow_plus; reflexivity). nra. }
      assert (E0 : 0 < e) by (pose proof (bpow_gt_0 radix2 (-971)); lra).
      assert (S0 : sg a <> 0) by (unfold sg; destruct (Bsign a); lra).
      assert (W : 1 / B2R w = sg a * / e). { rewrite V. transitivity (sg a * sg a * (1 / (sg a * e))); [rewrite sg_sq; ring|]. field. split; [lra|exact S0]. }
      assert (B1 : B2R (f1 : b64) = 1) by exact B2R_1.
      destruct (div_ok (f1 : b64) w) as (Fr & Er).
      { reflexivity. } { rewrite V. apply Rmult_integral_contrapositive_currified; lra. }
      { rewrite B1, W, sg_abs, Rabs_pos_eq by (left; apply Rinv_0_lt_compat, E0). split.
        - change (-1022)%Z with (- (1022))%Z. rewrite bpow_opp. apply Rinv_le; lra.
        - apply Rle_trans with (/ bpow radix2 (-971)); [apply Rinv_le; [apply bpow_gt_0|lra]|]. rewrite <- bpow_opp. apply bpow_le. lia. }
      rewrite B1, W, sg_abs, (Rabs_pos_eq (/ e)) in Er by (left; apply Rinv_0_lt_compat, E0). split; [exact Fr|].
      assert (AP : app (1 + 2 * (m + 7)) (sg a * B2R r) (/ (A + h)) (0 + 0)).
      { apply app_comp with (/ e); try lra; try (left; apply Rinv_0_lt_compat; lra).
        - apply app_rel; [left; apply Rinv_0_lt_compat, E0|]. replace (sg a * B2R r - / e) with (sg a * (B2R r - sg a * / e)) by (rewrite Rmult_minus_distr_l, <- Rmult_assoc, sg_sq; ring).
          rewrite sg_abs. exact Er.
        - apply app_inv; [exact E|lra|lra]. }
      rewrite Rplus_0_r in AP. replace (1 + 2 * (m + 7))%nat with (2 * m + 15)%nat in AP by lia. apply app_to_rel in AP.
      assert (Q : / (B2R a - - sg a * h) = sg a * / (A + h)).
      { rewrite (sg_val a). fold A. replace (sg a * A - - sg a * h) with (sg a * (A + h)) by ring. transitivity (sg a * sg a * / (sg a * (A + h))); [rewrite sg_sq; ring|].
        field. split; [lra|exact S0]. }
      rewrite Q. replace (B2R r - sg a * / (A + h)) with (sg a * (sg a * B2R r - / (A + h))) by (rewrite Rmult_minus_distr_l, <- Rmult_assoc, sg_sq; ring). rewrite sg_abs. exact AP.
    Qed.
    (** tau *)
    Lemma tau_val : let t := fdiv (fsub beta a) beta in is_finite t = true /\ Rabs (B2R t - (A + h) / h) <= gam (3 * m + 20) * ((A + h) / h).
    Proof.
      intros t. destruct num_val as (F & E & V). set (w := fsub beta a) in *. set (e := - sg a * B2R w) in *. destruct beta_val as [Fb Vb]. pose proof A_le. pose proof d_bounds. pose proof h_gt.
      pose proof (app_to_rel _ _ _ E) as E1. apply ab_elim in E1. pose proof (q_small (m + 7) ltac:(lia)). pose proof (q_small (m + 6) ltac:(lia)). pose proof u64_pos.
      assert (S0 : sg a <> 0) by (unfold sg; destruct (Bsign a); lra). assert (D0 : 0 < d) by lra.
      assert (W : B2R w / B2R beta = e * / d). { rewrite V, Vb. field. split; [lra|exact S0]. }
      assert (AP : app ((m + 7) + 2 * (m + 6)) (e * / d) ((A + h) * / h) 0).
      { apply app_mul; [exact E|apply app_inv; [exact dapp|lra|lra]| | |]; try lra; left; apply Rinv_0_lt_compat; lra. }
      assert (EX : e = (e * / d) * d) by (field; lra).
      assert (Q1 : / 2 <= e * / d). { apply Rmult_le_reg_r with d; [exact D0|]. rewrite <- EX. nra. }
      assert (Q2 : e * / d <= 3). { apply Rmult_le_reg_r with d; [exact D0|]. rewrite <- EX. nra. }
      destruct (div_ok w beta) as (Ft & Et).
      { exact F. } { rewrite Vb. apply Rmult_integral_contrapositive_currified; lra. }
      { rewrite W, Rabs_pos_eq by lra. split.
        - apply Rle_trans with (bpow radix2 (-1)); [apply bpow_le; lia|]. change (bpow radix2 (-1)) with (/ 2). exact Q1.
        - apply Rle_trans with (bpow radix2 2); [change (bpow radix2 2) with 4; lra|apply bpow_le; lia]. }
      rewrite W, (Rabs_pos_eq (e * / d)) in Et by lra. split; [exact Ft|].
      assert (AQ : app (1 + ((m + 7) + 2 * (m + 6))) (B2R t) ((A + h) * / h) (0 + 0)).
      { assert (0 <= (A + h) * / h) by (apply Rmult_le_pos; [lra|left; apply Rinv_0_lt_compat; lra]). apply app_comp with (e * / d); try lra; [|exact AP]. apply app_rel; [lra|exact Et]. }
      rewrite Rplus_0_r in AQ. replace (1 + ((m + 7) + 2 * (m + 6)))%nat with (3 * m + 20)%nat in AQ by lia. apply app_to_rel in AQ. exact AQ.
    Qed.
    (** one element of v *)
    Lemma elt_val (x : b64) : is_finite x = true -> Rabs (B2R x) <= h ->
      let r := fdiv f1 (fsub a beta) in let y := if feq r f1 then x else fmul x r in
      is_finite y = true /\ Rabs (B2R y - B2R x / (B2R a - - sg a * h)) <= gam (2 * m + 16) * Rabs (B2R x / (B2R a - - sg a * h)) + eta64.
    Proof.
      intros Fx' Bx r y. destruct rho_val as (Fr & Er). fold r in Fr, Er. pose proof A_le. pose proof h_gt. pose proof u64_pos. pose proof eta64_pos.
      set (q := / (B2R a - - sg a * h)) in *.
      assert (S0 : sg a <> 0) by (unfold sg; destruct (Bsign a); lra).
      assert (Q : Rabs q = / (A + h)).
      { unfold q. rewrite (sg_val a). fold A. replace (sg a * A - - sg a * h) with (sg a * (A + h)) by ring. rewrite Rabs_inv, sg_abs, Rabs_pos_eq by lra. reflexivity. }
      rewrite <- Q in Er. change (B2R x / (B2R a - - sg a * h)) with (B2R x * q). pose proof (q_small (2 * m + 15) ltac:(lia)) as G.
      assert (QX : Rabs (B2R x * q) <= 1). { rewrite Rabs_mult, Q. apply Rmult_le_reg_r with (A + h); [lra|]. rewrite Rmult_assoc, Rinv_l by lra. lra. }
      assert (E1 : Rabs (B2R x * B2R r - B2R x * q) <= gam (2 * m + 15) * Rabs (B2R x * q)).
      { replace (B2R x * B2R r - B2R x * q) with (B2R x * (B2R r - q)) by ring. rewrite !Rabs_mult. pose proof (Rabs_pos (B2R x)). nra. }
      assert (R2 : Rabs (B2R x * B2R r) <= 2).
      { replace (B2R x * B2R r) with (B2R x * q + (B2R x * B2R r - B2R x * q)) by ring. eapply Rle_trans; [apply Rabs_triang|]. pose proof (Rabs_pos (B2R x * q)). nra. }
      assert (E2 : is_finite y = true /\ Rabs (B2R y - B2R x * B2R r) <= u64 * Rabs (B2R x * B2R r) + eta64).
      { unfold y. destruct (feq r f1) eqn:E.
        - split; [exact Fx'|]. change (Beqb r (b64_dy 1 0) = true) in E. destruct (b64_eqb1 _ E) as [B1 _].
          rewrite B1, Rmult_1_r. replace (B2R x - B2R x) with 0 by ring. rewrite Rabs_R0. pose proof (Rabs_pos (B2R x)). nra.
        - change (fmul x r) with (Bmult mode_NE x r). destruct (mult_ok x r Fx' Fr) as (FM & _ & _).
          { apply Rle_trans with (bpow radix2 1); [exact R2|apply bpow_le; lia]. }
          split; [exact FM|]. apply (mult_fin x r FM). }
      destruct E2 as [Fy E2]. split; [exact Fy|]. eapply Rle_trans; [exact (err_step_eta _ _ _ _ E2 E1)|].
      replace (2 * m + 16)%nat with (S (2 * m + 15)) by lia. rewrite gam_S. apply Req_le. ring.
    Qed.
  End Core.
End L.
