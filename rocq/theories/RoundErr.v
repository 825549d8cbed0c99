(** The standard model of rounding for binary64, including underflow. *)
From Coq Require Import Reals Lra Floats.SpecFloat.
From Flocq Require Import IEEE754.BinarySingleNaN Core Relative Plus_error.
From Verif Require Import Base Num Array Spec SpecR B64 B64Lemmas B64Nn SpecErr.
Open Scope R_scope.

Lemma u64_pos : 0 < u64. Proof. apply bpow_gt_0. Qed.
Lemma eta64_pos : 0 < eta64. Proof. apply bpow_gt_0. Qed.
Lemma u64_small : u64 <= / 2 ^ 53.
Proof. unfold u64. right. change (-53)%Z with (- (53))%Z. rewrite bpow_opp. f_equal. change 53%Z with (Z.of_nat 53). rewrite (bpow_powerRZ). rewrite <- pow_powerRZ. reflexivity. Qed.

Lemma of_overflow_any (x : b64) s : B2SF x = binary_overflow 53 1024 mode_NE s -> is_finite x = false.
Proof. destruct x, s; cbn; try discriminate; reflexivity. Qed.

Lemma half_u : / 2 * bpow radix2 (-53 + 1) = u64.
Proof. unfold u64. rewrite bpow_plus. change (bpow radix2 1) with 2. field. Qed.
Lemma half_eta : / 2 * bpow radix2 (-1074) = eta64.
Proof. unfold eta64. change (-1075)%Z with (-1 + -1074)%Z. rewrite bpow_plus. change (bpow radix2 (-1)) with (/ 2). reflexivity. Qed.

Lemma rnd_err x : Rabs (rnd x - x) <= u64 * Rabs x + eta64.
Proof.
  destruct (error_N_FLT radix2 (-1074) 53 eq_refl (fun z => negb (Z.even z)) x) as (e & h & He & Hh & _ & ->).
  change (Rabs e <= / 2 * bpow radix2 (-53 + 1)) in He. rewrite half_u in He. rewrite half_eta in Hh. replace (x * (1 + e) + h - x) with (e * x + h) by ring.
  eapply Rle_trans; [apply Rabs_triang|]. rewrite Rabs_mult. apply Rplus_le_compat; [|exact Hh]. apply Rmult_le_compat_r; [apply Rabs_pos|exact He].
Qed.
Lemma rnd_err_normal x : bpow radix2 (-1022) <= Rabs x -> Rabs (rnd x - x) <= u64 * Rabs x.
Proof.
  intros H. pose proof (relative_error_N_FLT radix2 (-1074) 53 eq_refl (fun z => negb (Z.even z)) x H) as E. rewrite <- half_u. exact E.
Qed.
Lemma fmt (x : b64) : generic_format radix2 (FLT_exp (-1074) 53) (B2R x).
Proof. exact (generic_format_B2R 53 1024 x). Qed.

Lemma plus_fin (x y : b64) : is_finite (Bplus mode_NE x y) = true ->
  is_finite x = true /\ is_finite y = true /\ B2R (Bplus mode_NE x y) = rnd (B2R x + B2R y) /\
  Rabs (B2R (Bplus mode_NE x y) - (B2R x + B2R y)) <= u64 * Rabs (B2R x + B2R y).
Proof.
  intros H. assert (Fx : is_finite x = true) by (destruct x as [s|s| |s m e B], y as [s'|s'| |s' m' e' B']; try discriminate H; try reflexivity; destruct s, s'; discriminate H).
  assert (Fy : is_finite y = true) by (destruct x as [s|s| |s m e B], y as [s'|s'| |s' m' e' B']; try discriminate H; try reflexivity; destruct s, s'; discriminate H).
  pose proof (Bplus_correct 53 1024 prec53 emax1024 mode_NE x y Fx Fy) as C. destruct (Rlt_bool _ _).
  - destruct C as (E & _). split; [exact Fx|]. split; [exact Fy|]. split; [exact E|]. rewrite E.
    destruct (FLT_plus_error_N_ex radix2 (-1074) 53 (fun z => negb (Z.even z)) (B2R x) (B2R y) (fmt x) (fmt y)) as (e & He & ER).
    change (round radix2 (SpecFloat.fexp 53 1024) (round_mode mode_NE) (B2R x + B2R y)) with (rnd (B2R x + B2R y)). rewrite ER.
    replace ((B2R x + B2R y) * (1 + e) - (B2R x + B2R y)) with (e * (B2R x + B2R y)) by ring. rewrite Rabs_mult.
    apply Rmult_le_compat_r; [apply Rabs_pos|]. eapply Rle_trans; [exact He|]. eapply Rle_trans; [apply (u_rod1pu_ro_le_u_ro radix2 53)|]. right. exact half_u.
  - destruct C as (E & _). apply of_overflow_any in E. congruence.
Qed.
Lemma minus_fin (x y : b64) : is_finite (Bminus mode_NE x y) = true ->
  is_finite x = true /\ is_finite y = true /\ B2R (Bminus mode_NE x y) = rnd (B2R x - B2R y) /\
  Rabs (B2R (Bminus mode_NE x y) - (B2R x - B2R y)) <= u64 * Rabs (B2R x - B2R y).
Proof.
  assert (EM : Bminus mode_NE x y = Bplus mode_NE x (Bopp y)) by (destruct x as [[]|[]| |[]], y as [[]|[]| |[]]; reflexivity).
  rewrite EM. intros H. destruct (plus_fin x (Bopp y) H) as (A & B & C & D). rewrite is_finite_Bopp in B. rewrite B2R_Bopp in C, D. auto.
Qed.
Lemma mult_fin (x y : b64) : is_finite (Bmult mode_NE x y) = true ->
  is_finite x = true /\ is_finite y = true /\ B2R (Bmult mode_NE x y) = rnd (B2R x * B2R y) /\
  Rabs (B2R (Bmult mode_NE x y) - B2R x * B2R y) <= u64 * Rabs (B2R x * B2R y) + eta64.
Proof.
  intros H. pose proof (Bmult_correct 53 1024 prec53 emax1024 mode_NE x y) as C. destruct (Rlt_bool _ _).
  - destruct C as (E & F & _). rewrite H in F. symmetry in F. apply andb_prop in F as [F1 F2]. split; [exact F1|]. split; [exact F2|]. split; [exact E|]. rewrite E. apply rnd_err.
  - apply of_overflow_any in C. congruence.
Qed.
Lemma div_fin (x y : b64) : is_finite (Bdiv mode_NE x y) = true -> B2R y <> 0 ->
  is_finite x = true /\ B2R (Bdiv mode_NE x y) = rnd (B2R x / B2R y) /\
  Rabs (B2R (Bdiv mode_NE x y) - B2R x / B2R y) <= u64 * Rabs (B2R x / B2R y) + eta64.
Proof.
  intros H N. pose proof (Bdiv_correct 53 1024 prec53 emax1024 mode_NE x y N) as C. destruct (Rlt_bool _ _).
  - destruct C as (E & F & _). split; [congruence|]. split; [exact E|]. rewrite E. apply rnd_err.
  - apply of_overflow_any in C. congruence.
Qed.
Lemma min_pos (x : b64) : 0 < B2R x -> bpow radix2 (-1074) <= B2R x.
Proof.
  destruct x as [s|s| |s m e B]; cbn [B2R]; try lra. intros L. destruct s. { exfalso. revert L. apply Rle_not_lt. apply F2R_le_0. cbn. lia. }
  apply Rle_trans with (bpow radix2 e). { apply bpow_le. clear L. unfold bounded, canonical_mantissa in B. apply andb_prop in B as [B _]. apply Zeq_bool_eq in B. unfold fexp, emin in B. lia. }
  apply (bpow_le_F2R radix2 (Z.pos m) e). reflexivity.
Qed.
Lemma sqrt_fin (x : b64) : B2R (Bsqrt mode_NE x) = rnd (sqrt (B2R x)) /\ Rabs (B2R (Bsqrt mode_NE x) - sqrt (B2R x)) <= u64 * sqrt (B2R x).
Proof.
  destruct (Bsqrt_correct 53 1024 prec53 emax1024 mode_NE x) as (E & _). split; [exact E|]. rewrite E.
  change (round radix2 (SpecFloat.fexp 53 1024) (round_mode mode_NE) (sqrt (B2R x))) with (rnd (sqrt (B2R x))).
  pose proof (sqrt_pos (B2R x)) as P. destruct (Rle_lt_dec (B2R x) 0) as [L|L].
  { rewrite sqrt_neg_0 by exact L. rewrite round_0 by auto with typeclass_instances. rewrite Rminus_0_r, Rabs_R0. lra. }
  rewrite <- (Rabs_pos_eq (sqrt (B2R x))) at 3 by exact P. apply rnd_err_normal. rewrite Rabs_pos_eq by exact P.
  pose proof (min_pos x L) as M.
  apply Rle_trans with (bpow radix2 (-537)). { apply bpow_le. lia. }
  rewrite <- (sqrt_square (bpow radix2 (-537))) by apply bpow_ge_0. apply sqrt_le_1_alt. rewrite <- bpow_plus. exact M.
Qed.

(** powers of 1 + u *)
Notation P := (1 + u64).
Lemma P_ge : 1 <= P. Proof. pose proof u64_pos. lra. Qed.
Lemma Pn_ge n : 1 <= P ^ n. Proof. apply pow_R1_Rle. apply P_ge. Qed.
Lemma Pn_le m n : (m <= n)%nat -> P ^ m <= P ^ n. Proof. apply Rle_pow. apply P_ge. Qed.
Lemma gam_pos n : 0 <= gam n. Proof. unfold gam. pose proof (Pn_ge n). lra. Qed.
Lemma gam_le m n : (m <= n)%nat -> gam m <= gam n. Proof. intros H. unfold gam. pose proof (Pn_le m n H). lra. Qed.
Lemma gam_S n : gam (S n) = P * gam n + u64. Proof. unfold gam. cbn [pow]. ring. Qed.
(** one rounding on top of an accumulated error *)
Lemma err_step y x z e : Rabs (y - x) <= u64 * Rabs x -> Rabs (x - z) <= e -> Rabs (y - z) <= P * e + u64 * Rabs z.
Proof.
  intros H1 H2. replace (y - z) with ((y - x) + (x - z)) by ring. eapply Rle_trans; [apply Rabs_triang|].
  assert (Rabs x <= Rabs z + e). { replace x with (z + (x - z)) by ring. eapply Rle_trans; [apply Rabs_triang|]. lra. }
  pose proof u64_pos. assert (u64 * Rabs x <= u64 * (Rabs z + e)) by (apply Rmult_le_compat_l; lra). lra.
Qed.
Lemma err_step_eta y x z e : Rabs (y - x) <= u64 * Rabs x + eta64 -> Rabs (x - z) <= e -> Rabs (y - z) <= P * e + u64 * Rabs z + eta64.
Proof.
  intros H1 H2. replace (y - z) with ((y - x) + (x - z)) by ring. eapply Rle_trans; [apply Rabs_triang|].
  assert (Rabs x <= Rabs z + e). { replace x with (z + (x - z)) by ring. eapply Rle_trans; [apply Rabs_triang|]. lra. }
  pose proof u64_pos. assert (u64 * Rabs x <= u64 * (Rabs z + e)) by (apply Rmult_le_compat_l; lra). lra.
Qed.
