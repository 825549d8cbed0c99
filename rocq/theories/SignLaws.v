(** Changing signs in binary64: products, quotients and differences. *)
From Coq Require Import ZArith Lia Bool List Reals Lra.
From Flocq Require Import IEEE754.BinarySingleNaN Core.
From Verif Require Import Base Num B64.
Open Scope Z_scope.

Lemma sf_opp (x y : b64) s : B2SF x = binary_overflow 53 1024 mode_NE s -> B2SF y = binary_overflow 53 1024 mode_NE (negb s) -> x = Bopp y.
Proof.
  intros X Y. change (binary_overflow 53 1024 mode_NE s) with (SpecFloat.S754_infinity s) in X. change (binary_overflow 53 1024 mode_NE (negb s)) with (SpecFloat.S754_infinity (negb s)) in Y.
  destruct x; try discriminate X. destruct y; try discriminate Y. cbn in X, Y. injection X as ->. injection Y as ->. cbn. rewrite negb_involutive. reflexivity.
Qed.

Lemma fin_not_nan (x : b64) : is_finite x = true -> is_nan x = false.
Proof. destruct x; intros; try discriminate; reflexivity. Qed.

Lemma mul_opp_l (x y : b64) : Bmult mode_NE (Bopp x) y = Bopp (Bmult mode_NE x y).
Proof.
  destruct (is_finite x) eqn:FX; [destruct (is_finite y) eqn:FY|].
  2: { destruct x; try discriminate FX; destruct y; try discriminate FY; try reflexivity; cbn; destruct s, s0; reflexivity. }
  2: { destruct x; try discriminate FX; destruct y; try reflexivity; cbn; destruct s, s0; reflexivity. }
  pose proof (Bmult_correct 53 1024 prec53 emax1024 mode_NE x y) as M. pose proof (Bmult_correct 53 1024 prec53 emax1024 mode_NE (Bopp x) y) as M'.
  rewrite B2R_Bopp, Ropp_mult_distr_l_reverse in M'. change (round_mode mode_NE) with ZnearestE in *. rewrite round_NE_opp, Rabs_Ropp in M'.
  rewrite is_finite_Bopp, FX, FY in M'. rewrite FX, FY in M. rewrite Bsign_Bopp in M' by (apply fin_not_nan; exact FX).
  destruct (Rlt_bool _ _).
  - destruct M as (M1 & M2 & M3). destruct M' as (N1 & N2 & N3). cbn [andb] in M2, N2. apply B2R_Bsign_inj.
    + exact N2.
    + rewrite is_finite_Bopp. exact M2.
    + rewrite B2R_Bopp, N1, M1. reflexivity.
    + rewrite Bsign_Bopp by (apply fin_not_nan; exact M2). rewrite N3 by (apply fin_not_nan; exact N2). rewrite M3 by (apply fin_not_nan; exact M2).
      destruct (Bsign x), (Bsign y); reflexivity.
  - apply (sf_opp _ _ (xorb (negb (Bsign x)) (Bsign y))); [exact M'|]. rewrite M. f_equal. destruct (Bsign x), (Bsign y); reflexivity.
Qed.

Lemma mul_comm (x y : b64) : Bmult mode_NE x y = Bmult mode_NE y x.
Proof.
  destruct (is_finite x) eqn:FX; [destruct (is_finite y) eqn:FY|].
  2: { destruct x; try discriminate FX; destruct y; try discriminate FY; try reflexivity; cbn; destruct s, s0; reflexivity. }
  2: { destruct x; try discriminate FX; destruct y; try reflexivity; cbn; destruct s, s0; reflexivity. }
  pose proof (Bmult_correct 53 1024 prec53 emax1024 mode_NE x y) as M. pose proof (Bmult_correct 53 1024 prec53 emax1024 mode_NE y x) as M'.
  rewrite (Rmult_comm (B2R y)), (xorb_comm (Bsign y)) in M'. rewrite FX, FY in M, M'.
  destruct (Rlt_bool _ _).
  - destruct M as (M1 & M2 & M3). destruct M' as (N1 & N2 & N3). apply B2R_Bsign_inj; [exact M2|exact N2|congruence|].
    rewrite N3 by (apply fin_not_nan; exact N2). apply M3, fin_not_nan. exact M2.
  - apply B2SF_inj. rewrite M, M'. reflexivity.
Qed.

Lemma mul_opp_r (x y : b64) : Bmult mode_NE x (Bopp y) = Bopp (Bmult mode_NE x y).
Proof. rewrite mul_comm, mul_opp_l, mul_comm. reflexivity. Qed.

Lemma opp_opp (x : b64) : Bopp (Bopp x) = x.
Proof. destruct x; cbn; rewrite ?negb_involutive; reflexivity. Qed.

Lemma mul_1_r (x : b64) : Bmult mode_NE x (b64_dy 1 0) = x.
Proof.
  destruct (is_finite x) eqn:FX.
  2: { destruct x; try discriminate FX; [cbn; destruct s|]; reflexivity. }
  pose proof (Bmult_correct 53 1024 prec53 emax1024 mode_NE x (b64_dy 1 0)) as M.
  assert (V : B2R (b64_dy 1 0) = 1%R) by (assert (E : B2SF (b64_dy 1 0) = SpecFloat.S754_finite false 4503599627370496 (-52)) by (vm_compute; reflexivity); destruct (b64_dy 1 0); try discriminate E; cbn in E; injection E as -> -> ->; cbn; unfold F2R; cbn; lra).
  assert (FO : is_finite (b64_dy 1 0) = true) by (vm_compute; reflexivity). assert (SO : Bsign (b64_dy 1 0) = false) by (vm_compute; reflexivity).
  rewrite V, Rmult_1_r, FX, FO, SO, xorb_false_r in M. rewrite round_generic in M; [|apply valid_rnd_N|apply generic_format_B2R].
  rewrite Rlt_bool_true in M by apply abs_B2R_lt_emax. destruct M as (M1 & M2 & M3).
  apply B2R_Bsign_inj; [exact M2|exact FX|exact M1|]. apply M3, fin_not_nan. exact M2.
Qed.

Lemma strict_val (x : b64) : is_finite_strict x = true -> B2R x <> 0%R.
Proof. destruct x; intros X; try discriminate X. cbn [B2R]. destruct s; [apply Rlt_not_eq, F2R_lt_0; reflexivity|apply Rgt_not_eq, F2R_gt_0; reflexivity]. Qed.

Lemma div_opp_l (x y : b64) : Bdiv mode_NE (Bopp x) y = Bopp (Bdiv mode_NE x y).
Proof.
  destruct (is_finite_strict x) eqn:SX; [destruct (is_finite_strict y) eqn:SY|].
  2: { destruct x; try discriminate SX; destruct y; try discriminate SY; try reflexivity; cbn; destruct s, s0; reflexivity. }
  2: { destruct x; try discriminate SX; destruct y; try reflexivity; cbn; destruct s, s0; reflexivity. }
  pose proof (strict_val _ SY) as Y.
  assert (FX : is_finite x = true) by (clear -SX; destruct x; try discriminate SX; reflexivity).
  pose proof (Bdiv_correct 53 1024 prec53 emax1024 mode_NE x y Y) as M. pose proof (Bdiv_correct 53 1024 prec53 emax1024 mode_NE (Bopp x) y Y) as M'.
  rewrite B2R_Bopp in M'. unfold Rdiv in M'. rewrite Ropp_mult_distr_l_reverse in M'. change (round_mode mode_NE) with ZnearestE in *. rewrite round_NE_opp, Rabs_Ropp in M'.
  rewrite is_finite_Bopp, FX in M'. rewrite FX in M. rewrite Bsign_Bopp in M' by (apply fin_not_nan; exact FX). fold (Rdiv (B2R x) (B2R y)) in M'.
  destruct (Rlt_bool _ _).
  - destruct M as (M1 & M2 & M3). destruct M' as (N1 & N2 & N3). apply B2R_Bsign_inj.
    + exact N2.
    + rewrite is_finite_Bopp. exact M2.
    + rewrite B2R_Bopp, N1, M1. reflexivity.
    + rewrite Bsign_Bopp by (apply fin_not_nan; exact M2). rewrite N3 by (apply fin_not_nan; exact N2). rewrite M3 by (apply fin_not_nan; exact M2).
      destruct (Bsign x), (Bsign y); reflexivity.
  - apply (sf_opp _ _ (xorb (negb (Bsign x)) (Bsign y))); [exact M'|]. rewrite M. f_equal. destruct (Bsign x), (Bsign y); reflexivity.
Qed.

Lemma div_opp_r (x y : b64) : Bdiv mode_NE x (Bopp y) = Bopp (Bdiv mode_NE x y).
Proof.
  destruct (is_finite_strict x) eqn:SX; [destruct (is_finite_strict y) eqn:SY|].
  2: { destruct x; try discriminate SX; destruct y; try discriminate SY; try reflexivity; cbn; destruct s, s0; reflexivity. }
  2: { destruct x; try discriminate SX; destruct y; try reflexivity; cbn; destruct s, s0; reflexivity. }
  pose proof (strict_val _ SY) as Y.
  assert (Y' : B2R (Bopp y) <> 0%R) by (rewrite B2R_Bopp; apply Ropp_neq_0_compat; exact Y).
  assert (FX : is_finite x = true) by (clear -SX; destruct x; try discriminate SX; reflexivity).
  pose proof (Bdiv_correct 53 1024 prec53 emax1024 mode_NE x y Y) as M. pose proof (Bdiv_correct 53 1024 prec53 emax1024 mode_NE x (Bopp y) Y') as M'.
  rewrite B2R_Bopp in M'. assert (R : (B2R x / - B2R y = - (B2R x / B2R y))%R) by (field; exact Y). rewrite R in M'. change (round_mode mode_NE) with ZnearestE in *. rewrite round_NE_opp, Rabs_Ropp in M'.
  rewrite FX in M, M'. rewrite Bsign_Bopp in M' by (clear -SY; destruct y; try discriminate SY; reflexivity).
  destruct (Rlt_bool _ _).
  - destruct M as (M1 & M2 & M3). destruct M' as (N1 & N2 & N3). apply B2R_Bsign_inj.
    + exact N2.
    + rewrite is_finite_Bopp. exact M2.
    + rewrite B2R_Bopp, N1, M1. reflexivity.
    + rewrite Bsign_Bopp by (apply fin_not_nan; exact M2). rewrite N3 by (apply fin_not_nan; exact N2). rewrite M3 by (apply fin_not_nan; exact M2).
      destruct (Bsign x), (Bsign y); reflexivity.
  - apply (sf_opp _ _ (xorb (Bsign x) (negb (Bsign y)))); [exact M'|]. rewrite M. f_equal. destruct (Bsign x), (Bsign y); reflexivity.
Qed.

(** helper of the proofs, models no code: +0 or -0 *)
Definition is_zero (x : b64) : bool := match x with B754_zero _ => true | _ => false end.

Lemma zero_val (x : b64) : is_finite x = true -> B2R x = 0%R -> is_zero x = true.
Proof.
  destruct x; intros FX V; try discriminate FX; [reflexivity|exfalso]. cbn in V. destruct s; revert V; [apply Rlt_not_eq, F2R_lt_0; reflexivity|apply Rgt_not_eq, F2R_gt_0; reflexivity].
Qed.

Lemma strict (x : b64) : is_finite x = true -> is_zero x = false -> is_finite_strict x = true.
Proof. destruct x; intros; try discriminate; reflexivity. Qed.

Lemma feq_zero (x : b64) : Beqb x (b64_dy 0 0) = is_zero x.
Proof. change (b64_dy 0 0) with (B754_zero false : b64). destruct x as [| | |[]]; try reflexivity; destruct s; reflexivity. Qed.

(** a difference that is not zero changes sign with its operands, and with their order *)
Lemma sub_opp (x y : b64) : is_zero (Bminus mode_NE x y) = false -> Bminus mode_NE (Bopp x) (Bopp y) = Bopp (Bminus mode_NE x y).
Proof.
  destruct (is_finite x) eqn:FX; [destruct (is_finite y) eqn:FY|].
  2: { intros _. destruct x; try discriminate FX; destruct y; try discriminate FY; try reflexivity. }
  2: { intros _. destruct x; try discriminate FX; destruct y; try reflexivity; cbn; destruct s, s0; reflexivity. }
  intros NZ. pose proof (Bminus_correct 53 1024 prec53 emax1024 mode_NE x y FX FY) as M.
  assert (FX' : is_finite (Bopp x) = true) by (rewrite is_finite_Bopp; exact FX). assert (FY' : is_finite (Bopp y) = true) by (rewrite is_finite_Bopp; exact FY).
  pose proof (Bminus_correct 53 1024 prec53 emax1024 mode_NE (Bopp x) (Bopp y) FX' FY') as M'.
  rewrite !B2R_Bopp in M'. replace (- B2R x - - B2R y)%R with (- (B2R x - B2R y))%R in M' by ring. change (round_mode mode_NE) with ZnearestE in *. rewrite round_NE_opp, Rabs_Ropp in M'.
  destruct (Rlt_bool _ _).
  - destruct M as (M1 & M2 & _). destruct M' as (N1 & N2 & _).
    assert (E : B2R (Bminus mode_NE (Bopp x) (Bopp y)) = (- B2R (Bminus mode_NE x y))%R) by (rewrite N1, M1; reflexivity).
    apply B2R_inj.
    + apply strict; [exact N2|]. destruct (is_zero (Bminus mode_NE (Bopp x) (Bopp y))) eqn:Z; [|reflexivity]. rewrite <- NZ. symmetry. apply zero_val; [exact M2|].
      destruct (Bminus mode_NE (Bopp x) (Bopp y)); try discriminate Z. cbn in E. lra.
    + destruct (Bminus mode_NE x y); try discriminate; reflexivity.
    + rewrite B2R_Bopp. exact E.
  - destruct M as (M1 & _). destruct M' as (N1 & _). rewrite Bsign_Bopp in N1 by (apply fin_not_nan; exact FX).
    apply (sf_opp _ _ (negb (Bsign x))); [exact N1|rewrite negb_involutive; exact M1].
Qed.

Lemma sub_swap (x y : b64) : is_zero (Bminus mode_NE x y) = is_zero (Bminus mode_NE y x).
Proof.
  destruct (is_finite x) eqn:FX; [destruct (is_finite y) eqn:FY|].
  2: { destruct x; try discriminate FX; destruct y; try discriminate FY; reflexivity. }
  2: { destruct x; try discriminate FX; destruct y; try reflexivity; cbn; destruct s, s0; reflexivity. }
  pose proof (Bminus_correct 53 1024 prec53 emax1024 mode_NE x y FX FY) as M. pose proof (Bminus_correct 53 1024 prec53 emax1024 mode_NE y x FY FX) as M'.
  replace (B2R y - B2R x)%R with (- (B2R x - B2R y))%R in M' by ring. change (round_mode mode_NE) with ZnearestE in *. rewrite round_NE_opp, Rabs_Ropp in M'.
  destruct (Rlt_bool _ _).
  - destruct M as (M1 & M2 & _). destruct M' as (N1 & N2 & _).
    destruct (is_zero (Bminus mode_NE x y)) eqn:Z.
    + symmetry. apply zero_val; [exact N2|]. rewrite N1, <- M1. destruct (Bminus mode_NE x y); try discriminate Z. cbn. lra.
    + destruct (is_zero (Bminus mode_NE y x)) eqn:Z'; [|reflexivity]. rewrite <- Z. apply zero_val; [exact M2|]. rewrite M1.
      destruct (Bminus mode_NE y x); try discriminate Z'. cbn [B2R] in N1. lra.
  - destruct M as (M1 & _). destruct M' as (N1 & _). destruct (Bminus mode_NE x y); try discriminate M1; destruct (Bminus mode_NE y x); try discriminate N1; reflexivity.
Qed.
