(** dlapy2 in binary64: at most 4 half-ulps from the true hypotenuse. *)
From Coq Require Import Reals Lra.
From Flocq Require Import IEEE754.BinarySingleNaN Core.
From Verif Require Import Base Num Array Blas Lapack Spec SpecR SpecErr B64 B64Lemmas B64Nn MachProofs Lapy2Proofs RoundErr.
Open Scope R_scope.

Lemma u64_le : u64 <= / 1000000.
Proof. eapply Rle_trans; [exact u64_small|]. apply Rinv_le; lra. Qed.
Lemma eta_le : eta64 <= / 1000000 * u64.
Proof.
  apply Rle_trans with (bpow radix2 (-30 + -53)); [unfold eta64; apply bpow_le; lia|]. rewrite bpow_plus. apply Rmult_le_compat_r; [apply bpow_ge_0|].
  change (bpow radix2 (-30)) with (/ IZR (2 ^ 30)). apply Rinv_le; [lra|]. apply IZR_le. lia.
Qed.
Lemma abs_le_intro x b : - b <= x -> x <= b -> Rabs x <= b. Proof. intros. apply Rabs_le. lra. Qed.
Lemma abs_le_elim x b : Rabs x <= b -> - b <= x <= b. Proof. intros H. apply Rabs_def2_le in H || (unfold Rabs in H; destruct (Rcase_abs x); lra). Qed.

(** sqrt with a relative perturbation of the argument *)
Lemma sqrt_pert a b e : 1 <= a -> 0 <= b -> 0 <= e <= / 100 -> Rabs (b - a) <= e * a -> Rabs (sqrt b - sqrt a) <= (/ 2 * (1 + e)) * e * sqrt a.
Proof.
  intros Ha Hb He H. pose proof (sqrt_sqrt a ltac:(lra)) as Sa. pose proof (sqrt_sqrt b Hb) as Sb. pose proof (sqrt_pos b) as Pb.
  assert (Pa : 1 <= sqrt a) by (rewrite <- sqrt_1 at 1; apply sqrt_le_1_alt; exact Ha).
  apply abs_le_elim in H.
  assert (LB : (1 - e) * sqrt a <= sqrt b).
  { apply Rsqr_incr_0_var; [|exact Pb]. unfold Rsqr. rewrite Sb. replace ((1 - e) * sqrt a * ((1 - e) * sqrt a)) with ((1 - e) * (1 - e) * (sqrt a * sqrt a)) by ring. rewrite Sa. nra. }
  assert (D : sqrt b - sqrt a = (b - a) / (sqrt b + sqrt a)) by (rewrite <- Sa at 2; rewrite <- Sb at 2; field; lra).
  rewrite D. unfold Rdiv. rewrite Rabs_mult, (Rabs_pos_eq (/ _)) by (left; apply Rinv_0_lt_compat; lra).
  apply Rmult_le_reg_r with (sqrt b + sqrt a); [lra|]. rewrite Rmult_assoc, Rinv_l, Rmult_1_r by lra.
  apply Rle_trans with (e * a); [apply abs_le_intro; lra|]. rewrite <- Sa at 1.
  assert (Q : (2 - e) * sqrt a <= sqrt b + sqrt a) by lra.
  apply Rle_trans with (/ 2 * (1 + e) * e * sqrt a * ((2 - e) * sqrt a)).
  - replace (/ 2 * (1 + e) * e * sqrt a * ((2 - e) * sqrt a)) with (e * (sqrt a * sqrt a) * (/ 2 * (1 + e) * (2 - e))) by ring.
    rewrite <- (Rmult_1_r (e * (sqrt a * sqrt a))) at 1. apply Rmult_le_compat_l; [apply Rmult_le_pos; [lra|]; nra|]. nra.
  - apply Rmult_le_compat_l; [|exact Q]. apply Rmult_le_pos; [|lra]. apply Rmult_le_pos; nra.
Qed.

Lemma root_err q : 0 <= q <= 1 -> 
  let s := rnd (sqrt (rnd (1 + rnd (rnd q * rnd q)))) in Rabs (s - sqrt (1 + q * q)) <= 2.4 * u64 * sqrt (1 + q * q).
Proof.
  intros Hq. pose proof u64_pos as U0. pose proof u64_le as U1. pose proof eta64_pos as H0. pose proof eta_le as H1. cbv zeta.
  assert (Qn : 0 <= rnd q <= 1).
  { split; [apply rnd_ge_0; lra|]. rewrite <- rnd_1. apply round_le; [typeclasses eauto..|lra]. }
  pose proof (rnd_err q) as E1. rewrite (Rabs_pos_eq q) in E1 by lra. set (qh := rnd q) in *.
  pose proof (rnd_err (qh * qh)) as E2. rewrite (Rabs_pos_eq (qh * qh)) in E2 by nra.
  assert (Pn : 0 <= rnd (qh * qh)) by (apply rnd_ge_0; nra). set (ph := rnd (qh * qh)) in *.
  assert (E3 : Rabs (rnd (1 + ph) - (1 + ph)) <= u64 * (1 + ph)).
  { rewrite <- (Rabs_pos_eq (1 + ph)) at 3 by lra. apply rnd_err_normal. rewrite Rabs_pos_eq by lra. apply Rle_trans with 1; [|lra]. change 1 with (bpow radix2 0). apply bpow_le. lia. }
  assert (Sn : 1 <= rnd (1 + ph)). { rewrite <- rnd_1 at 1. apply round_le; [typeclasses eauto..|lra]. }
  set (sh := rnd (1 + ph)) in *.
  set (A := 1 + q * q).
  assert (HA : 1 <= A /\ 2 * (q * q) <= A) by (unfold A; nra).
  assert (EP : Rabs (ph - q * q) <= 1.6 * u64 * A).
  { apply abs_le_elim in E1. apply abs_le_elim in E2.
    assert (D : Rabs (qh - q) <= u64 * q + eta64) by (apply abs_le_intro; lra).
    assert (D2 : Rabs (qh * qh - q * q) <= (u64 * q + eta64) * (2 * q + (u64 * q + eta64))).
    { replace (qh * qh - q * q) with ((qh - q) * (2 * q + (qh - q))) by ring. rewrite Rabs_mult. apply Rmult_le_compat; [apply Rabs_pos|apply Rabs_pos|exact D|].
      eapply Rle_trans; [apply Rabs_triang|]. rewrite (Rabs_pos_eq (2 * q)) by lra. lra. }
    assert (D3 : (u64 * q + eta64) * (2 * q + (u64 * q + eta64)) <= 2 * u64 * (q * q) + / 1000 * u64).
    { assert (u64 * q <= u64) by nra. assert (0 <= u64 * q) by nra. set (w := u64 * q + eta64). assert (W : 0 <= w <= 1.1 * u64) by (unfold w; lra).
      replace (w * (2 * q + w)) with (2 * u64 * (q * q) + (2 * q) * eta64 + w * w) by (unfold w; ring).
      assert ((2 * q) * eta64 <= 2 * eta64) by nra. assert (w * w <= 2 * / 1000000 * u64) by nra. lra. }
    apply abs_le_elim in D2. assert (QQ : qh * qh <= q * q + / 1000) by nra. assert (U2 : u64 * (qh * qh) <= u64 * (q * q) + / 1000 * u64) by nra.
    assert (u64 * (2 * (q * q)) <= u64 * A) by nra. assert (u64 * 1 <= u64 * A) by nra.
    apply abs_le_intro; lra. }
  assert (ES : Rabs (sh - A) <= 2.7 * u64 * A).
  { apply abs_le_elim in E3. apply abs_le_elim in EP. unfold A in *. set (B := 1 + q * q) in *. assert (u64 * (1 + ph) <= u64 * (1.001 * B)) by (apply Rmult_le_compat_l; [lra|]; unfold B in *; nra).
    apply abs_le_intro; unfold B in *; lra. }
  assert (ER : Rabs (sqrt sh - sqrt A) <= (/ 2 * (1 + 2.7 * u64)) * (2.7 * u64) * sqrt A) by (apply sqrt_pert; [lra|lra|lra|exact ES]).
  assert (SA : 1 <= sqrt A) by (rewrite <- sqrt_1 at 1; apply sqrt_le_1_alt; lra).
  assert (SS : 1 <= sqrt sh) by (rewrite <- sqrt_1 at 1; apply sqrt_le_1_alt; lra).
  assert (E5 : Rabs (rnd (sqrt sh) - sqrt sh) <= u64 * Rabs (sqrt sh)).
  { apply rnd_err_normal. rewrite Rabs_pos_eq by lra. apply Rle_trans with 1; [|lra]. change 1 with (bpow radix2 0). apply bpow_le. lia. }
  eapply Rle_trans; [apply (err_step _ _ _ _ E5 ER)|]. rewrite (Rabs_pos_eq (sqrt A)) by lra. 
  replace (P * (/ 2 * (1 + 2.7 * u64) * (2.7 * u64) * sqrt A) + u64 * sqrt A) with ((P * (/ 2 * (1 + 2.7 * u64) * 2.7) + 1) * u64 * sqrt A) by ring.
  apply Rmult_le_compat_r; [lra|]. apply Rmult_le_compat_r; [lra|]. nra.
Qed.

Section F64.
  Variable lm : libm.
  #[local] Instance NBy : Num b64 := B64 lm.

  Lemma hyp_sym a b : sqrt (a * a + b * b) = sqrt (b * b + a * a). Proof. f_equal. ring. Qed.

  Lemma lapy_err (w z : b64) : nn w -> nn z -> Bltb w z = false -> is_finite w = true ->
    let h := sqrt (B2R w * B2R w + B2R z * B2R z) in
    (is_finite (lapy lm w z) = true -> Rabs (B2R (lapy lm w z) - h) <= 4 * u64 * h + eta64) /\
    ((1 + 4 * u64) * h <= B2R (fMAX : b64) -> is_finite (lapy lm w z) = true).
  Proof.
    intros Hw Hz L Fw. cbv zeta. unfold lapy. cbn [feq flt NBy B64]. change (feq z f0) with (Beqb z (@f0 b64 NBy)). change (flt fMAX w) with (Bltb (@fMAX b64 NBy) w).
    pose proof (fMAX_lt lm w Hw) as FM. change (@fMAX b64 (NBl lm)) with (@fMAX b64 NBy) in FM. rewrite FM, Fw. cbn [negb]. rewrite Bool.orb_false_r.
    destruct (nn_cmp_finite w z Hw Hz L Fw) as [Fz Hle]. pose proof (nn_B2R w Hw) as Pw. pose proof (nn_B2R z Hz) as Pz. pose proof u64_pos as U. pose proof u64_le as U1. pose proof eta64_pos as HE.
    assert (Ph : 0 <= sqrt (B2R w * B2R w + B2R z * B2R z)) by apply sqrt_pos.
    destruct (Beqb z (@f0 b64 NBy)) eqn:Z0.
    { split; [intros _|intros _; exact Fw]. apply b64_eqb_cases in Z0 as [(_ & _ & E)|(s & _ & E)]; [|discriminate]. change (B2R (@f0 b64 NBy)) with 0 in E. rewrite E in *.
      replace (B2R w * B2R w + 0 * 0) with (B2R w * B2R w) by ring. rewrite sqrt_square by lra. replace (B2R w - B2R w) with 0 by ring. rewrite Rabs_R0.
      assert (0 <= 4 * u64 * B2R w) by nra. lra. }
    assert (Hz0 : 0 < B2R z).
    { rewrite (Beqb_correct 53 1024 z (@f0 b64 NBy) Fz eq_refl) in Z0. change (B2R (@f0 b64 NBy)) with 0 in Z0. revert Z0. case Req_bool_spec; [discriminate|]. lra. }
    destruct (root_bounds lm w z Hw Hz Fw Fz (conj Hz0 Hle)) as (Ns & Fs & Bs & Es). cbv zeta in *.
    change (@fsqrt b64 (NBl lm)) with (@fsqrt b64 NBy) in *. set (s := fsqrt _) in *. change (w * s)%num with (Bmult mode_NE w s). 
    set (q := B2R z / B2R w) in *.
    assert (Q01 : 0 <= q <= 1).
    { unfold q. split; [apply Rlt_le, Rdiv_lt_0_compat; lra|]. apply Rmult_le_reg_r with (B2R w); [lra|]. field_simplify; lra. }
    pose proof (root_err q Q01) as E. cbv zeta in E. rewrite <- Es in E.
    assert (HH : sqrt (B2R w * B2R w + B2R z * B2R z) = B2R w * sqrt (1 + q * q)).
    { replace (B2R w * B2R w + B2R z * B2R z) with (B2R w * B2R w * (1 + q * q)) by (unfold q; field; lra). rewrite sqrt_mult by nra. rewrite sqrt_square by lra. reflexivity. }
    rewrite HH in *. set (h := B2R w * sqrt (1 + q * q)) in *.
    assert (EM : Rabs (B2R w * B2R s - h) <= 2.4 * u64 * h).
    { unfold h. rewrite <- Rmult_minus_distr_l, Rabs_mult, (Rabs_pos_eq (B2R w)) by lra.
      replace (2.4 * u64 * (B2R w * sqrt (1 + q * q))) with (B2R w * (2.4 * u64 * sqrt (1 + q * q))) by ring. apply Rmult_le_compat_l; [lra|exact E]. }
    split.
    - intros Fr. destruct (mult_fin _ _ Fr) as (_ & _ & _ & E6). eapply Rle_trans; [apply (err_step_eta _ _ _ _ E6 EM)|]. rewrite (Rabs_pos_eq h) by exact Ph.
      replace (P * (2.4 * u64 * h) + u64 * h) with ((P * 2.4 + 1) * u64 * h) by ring. apply Rplus_le_compat_r. apply Rmult_le_compat_r; [exact Ph|]. apply Rmult_le_compat_r; lra.
    - intros HM. pose proof (Bmult_correct 53 1024 prec53 emax1024 mode_NE w s) as C. change (round radix2 (SpecFloat.fexp 53 1024) (round_mode mode_NE) (B2R w * B2R s)) with (rnd (B2R w * B2R s)) in C.
      rewrite Rlt_bool_true in C. { destruct C as (_ & -> & _). rewrite Fw, Fs. reflexivity. }
      assert (WS : 0 <= B2R w * B2R s) by (apply Rmult_le_pos; lra).
      rewrite Rabs_pos_eq by (apply rnd_ge_0; exact WS).
      apply Rle_lt_trans with (B2R (@fMAX b64 NBy)).
      + rewrite <- (rnd_B2R (@fMAX b64 NBy)). apply round_le; [typeclasses eauto..|]. eapply Rle_trans; [|exact HM]. apply abs_le_elim in EM. nra.
      + eapply Rle_lt_trans; [apply Rle_abs|]. exact (abs_B2R_lt_emax 53 1024 (@fMAX b64 NBy)).
  Qed.

  Lemma dlapy2_err (x y : b64) : is_finite x = true -> is_finite y = true ->
    let h := sqrt (val64 x * val64 x + val64 y * val64 y) in
    let r := dlapy2 x y in
    (is_finite r = true -> Rabs (val64 r - h) <= 4 * u64 * h + eta64) /\
    ((1 + 4 * u64) * h <= val64 (fMAX : b64) -> is_finite r = true).
  Proof.
    intros Fx Fy. cbv zeta. unfold val64. pose proof (finite_not_nan x Fx) as Nx. pose proof (finite_not_nan y Fy) as Ny.
    change (@dlapy2 b64 NBy x y) with (@dlapy2 b64 (NBl lm) x y). rewrite dlapy2_lapy by assumption.
    destruct (max_min_abs x y Nx Ny) as (w & z & -> & -> & Hw & Hz & L & C).
    assert (Fw : is_finite w = true) by (destruct C as [[-> _]|[-> _]]; rewrite is_finite_Babs; assumption).
    destruct (lapy_err w z Hw Hz L Fw) as [A B]. cbv zeta in A, B.
    assert (HH : sqrt (B2R w * B2R w + B2R z * B2R z) = sqrt (B2R x * B2R x + B2R y * B2R y)).
    { destruct C as [[-> ->]|[-> ->]]; rewrite !B2R_Babs; f_equal; pose proof (Rsqr_abs (B2R x)) as S1; pose proof (Rsqr_abs (B2R y)) as S2; unfold Rsqr in *; lra. }
    rewrite HH in A, B. split; assumption.
  Qed.
End F64.
