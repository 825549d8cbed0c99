(** ilaenv's ispec 6 in binary64. *)
From Flocq Require Import IEEE754.BinarySingleNaN Core.
From Coq Require Import Reals Lra.
From Verif Require Import Base Num B64 B64Lemmas B64Nn MachProofs Lapack.
Open Scope R_scope.

Lemma fmt_dyadic k e : (Z.abs k < 2 ^ 53)%Z -> (-1074 <= e)%Z ->
  generic_format radix2 (FLT_exp (-1074) 53) (IZR k * bpow radix2 e).
Proof. intros H1 H2. apply generic_format_FLT. exists (Float radix2 k e); auto. Qed.

Lemma dy_exact k e : (Z.abs k < 2 ^ 53)%Z -> (-1074 <= e <= 960)%Z ->
  is_finite (b64_dy k e) = true /\ B2R (b64_dy k e) = IZR k * bpow radix2 e /\ Bsign (b64_dy k e) = (k <? 0)%Z.
Proof.
  intros H1 H2. pose proof (binary_normalize_correct 53 1024 prec53 emax1024 mode_NE k e false) as H.
  change (SpecFloat.fexp 53 1024) with (FLT_exp (-1074) 53) in H. unfold round_mode in H.
  unfold F2R in H. cbn [Fnum Fexp] in H.
  rewrite (round_generic radix2 (FLT_exp (-1074) 53) ZnearestE _ (fmt_dyadic k e H1 (proj1 H2))) in H.
  replace (Rlt_bool _ _) with true in H.
  - fold (b64_dy k e) in H. destruct H as (R & F & S). split; [exact F|]. split; [exact R|]. rewrite S.
    pose proof (bpow_gt_0 radix2 e) as Pe.
    destruct (Z.ltb_spec k 0) as [L|L].
    + rewrite Rcompare_Lt; [reflexivity|]. apply IZR_lt in L. nra.
    + destruct (Z.eq_dec k 0) as [->|N].
      * rewrite Rcompare_Eq; [reflexivity|ring].
      * rewrite Rcompare_Gt; [reflexivity|]. assert (0 < k)%Z as L' by lia. apply IZR_lt in L'. nra.
  - symmetry. apply Rlt_bool_true. rewrite Rabs_mult, (Rabs_pos_eq (bpow radix2 e)) by apply bpow_ge_0.
    rewrite <- abs_IZR. apply Rlt_le_trans with (bpow radix2 53 * bpow radix2 e).
    + apply Rmult_lt_compat_r; [apply bpow_gt_0|]. rewrite bpow_IZR by lia. apply IZR_lt. exact H1.
    + rewrite <- bpow_plus. apply bpow_le. lia.
Qed.

(** rounding half away from zero, then saturating *)
Lemma round_i32_nn x : nn x -> is_finite x = true -> b64_round_i32 x = Z.min (2 ^ 31 - 1) (Zfloor (B2R x + / 2)).
Proof.
  intros N Fx. destruct x as [s|s| |s m e B]; try discriminate.
  - cbn [b64_round_i32 B2R]. rewrite (Zfloor_imp 0); [reflexivity|]. cbn. lra.
  - destruct N as [_ S]. cbn in S. subst s. cbn [b64_round_i32 B2R].
    set (a := if (0 <=? e)%Z then _ else _).
    assert (E : Zfloor (@F2R radix2 {| Fnum := cond_Zopp false (Z.pos m); Fexp := e |} + / 2) = a).
    { unfold a, F2R. cbn [Fnum Fexp cond_Zopp]. destruct (Z.leb_spec 0 e) as [L|L].
      - rewrite bpow_IZR by assumption. rewrite <- mult_IZR. apply Zfloor_imp. rewrite plus_IZR. lra.
      - set (k := (- e)%Z). assert (0 < k)%Z by lia.
        replace (IZR (Z.pos m) * bpow radix2 e + / 2) with (IZR (Z.pos m + 2 ^ (k - 1)) / IZR (2 ^ k)).
        + apply Zfloor_div. apply Z.pow_nonzero; lia.
        + replace e with (- k)%Z by lia. rewrite bpow_opp, bpow_IZR by lia. rewrite plus_IZR.
          replace (IZR (2 ^ k)) with (2 * IZR (2 ^ (k - 1))).
          * field. apply IZR_neq. apply Z.pow_nonzero; lia.
          * rewrite <- mult_IZR. f_equal. replace k with (1 + (k - 1))%Z at 2 by lia. rewrite Z.pow_add_r by lia. reflexivity. }
    rewrite E. unfold clamp_i32.
    assert (0 <= a)%Z.
    { unfold a. destruct (Z.leb_spec 0 e); [|apply Z.div_pos; [|apply Z.pow_pos_nonneg; lia]; assert (0 <= 2 ^ (- e - 1))%Z by (apply Z.pow_nonneg; lia); lia].
      apply Z.mul_nonneg_nonneg; [lia|apply Z.pow_nonneg; lia]. }
    apply Z.max_r. apply Z.min_glb; lia.
Qed.

Lemma Rnd_le_fmt x y : x <= y -> generic_format radix2 (FLT_exp (-1074) 53) y -> rnd x <= y.
Proof. intros H G. rewrite <- (round_generic radix2 (FLT_exp (-1074) 53) ZnearestE y G). apply round_le; try typeclasses eauto. exact H. Qed.
Lemma Rnd_ge_fmt x y : y <= x -> generic_format radix2 (FLT_exp (-1074) 53) y -> y <= rnd x.
Proof. intros H G. rewrite <- (round_generic radix2 (FLT_exp (-1074) 53) ZnearestE y G). apply round_le; try typeclasses eauto. exact H. Qed.

Lemma svd_crossover lm name opts n1 n2 n3 n4 : (0 <= Z.min n1 n2 < 2 ^ 31)%Z ->
  @ilaenv b64 (B64 lm) 6 name opts n1 n2 n3 n4 = Ok (Z.min (2 ^ 31 - 1) ((16 * Z.min n1 n2 + 5) / 10)).
Proof.
  intros H. unfold ilaenv. cbn -[fofZ fmul fdy B64 Z.min Z.div Z.mul Z.add Z.pow fround_i32 Z.sub]. f_equal.
  set (m := Z.min n1 n2) in *. clearbody m.
  destruct (dy_exact m 0 ltac:(lia) ltac:(lia)) as (F1 & R1 & S1).
  destruct (dy_exact 7205759403792794 (-52) ltac:(lia) ltac:(lia)) as (F2 & R2 & S2).
  change (@fround_i32 b64 (B64 lm) (fmul (fofZ m) (fdy 7205759403792794 (-52)))) with (b64_round_i32 (Bmult mode_NE (b64_dy m 0) (b64_dy 7205759403792794 (-52)))).
  set (x := b64_dy m 0) in *. set (y := b64_dy 7205759403792794 (-52)) in *. clearbody x y.
  assert (Nx : nn x). { split; [apply finite_not_nan; assumption|]. rewrite S1. apply Z.ltb_ge. lia. }
  assert (Ny : nn y). { split; [apply finite_not_nan; assumption|]. rewrite S2. reflexivity. }
  pose proof (Bmult_correct 53 1024 prec53 emax1024 mode_NE x y) as M.
  change (SpecFloat.fexp 53 1024) with (FLT_exp (-1074) 53) in M. unfold round_mode in M.
  assert (EM : B2R x * B2R y = IZR m * 8 / 5 + IZR m * 2 / 5 * bpow radix2 (-52)).
  { rewrite R1, R2. replace (IZR 7205759403792794) with (8 / 5 * bpow radix2 52 + 2 / 5).
    - change (bpow radix2 0) with 1. replace (bpow radix2 (-52)) with (/ bpow radix2 52) by (symmetry; apply (bpow_opp radix2 52)).
      field. rewrite bpow_IZR by lia. apply IZR_neq. lia.
    - rewrite bpow_IZR by lia. change (2 ^ 52)%Z with 4503599627370496%Z. lra. }
  set (q := ((16 * m + 5) / 10)%Z).
  assert (Q : (10 * q <= 16 * m + 5 <= 10 * q + 9)%Z).
  { unfold q. pose proof (Z.div_mod (16 * m + 5) 10 ltac:(lia)). pose proof (Z.mod_pos_bound (16 * m + 5) 10 ltac:(lia)). lia. }
  destruct Q as [Q1 Q2]. assert (Q3 : (0 <= q < 2 ^ 33)%Z) by lia.
  apply IZR_le in Q1, Q2. repeat rewrite ?plus_IZR, ?mult_IZR in Q1; repeat rewrite ?plus_IZR, ?mult_IZR in Q2.
  destruct H as [H1 H2]. pose proof (IZR_le _ _ H1) as H1'. pose proof (IZR_lt _ _ H2) as H2'.
  change (2 ^ 31)%Z with 2147483648%Z in H2'.
  assert (TN : 0 <= IZR m * 2 / 5 * bpow radix2 (-52) <= / 32).
  { change (bpow radix2 (-52)) with (/ 4503599627370496). lra. }
  assert (LO : IZR (2 * q - 1) * bpow radix2 (-1) <= rnd (B2R x * B2R y)).
  { apply Rnd_ge_fmt; [|apply fmt_dyadic; lia]. rewrite EM. change (bpow radix2 (-1)) with (/ 2). rewrite minus_IZR, mult_IZR. lra. }
  assert (HI : rnd (B2R x * B2R y) <= IZR (16 * q + 7) * bpow radix2 (-4)).
  { apply Rnd_le_fmt; [|apply fmt_dyadic; lia]. rewrite EM. change (bpow radix2 (-4)) with (/ 16). rewrite plus_IZR, mult_IZR. lra. }
  change (bpow radix2 (-1)) with (/ 2) in LO. change (bpow radix2 (-4)) with (/ 16) in HI.
  rewrite minus_IZR, mult_IZR in LO. rewrite plus_IZR, mult_IZR in HI.
  rewrite Rlt_bool_true in M.
  - destruct M as (E & F & S). rewrite F1, F2 in F. cbn [andb] in F.
    rewrite round_i32_nn; [|split; [apply finite_not_nan; exact F|]|exact F].
    + f_equal. rewrite E. apply Zfloor_imp. rewrite plus_IZR. lra.
    + rewrite S by (apply finite_not_nan; exact F). destruct Nx as [_ ->], Ny as [_ ->]. reflexivity.
  - assert (0 <= rnd (B2R x * B2R y)). { apply rnd_ge_0. rewrite EM. lra. }
    rewrite Rabs_pos_eq by assumption. apply Rle_lt_trans with (bpow radix2 40); [|apply bpow_lt; lia].
    rewrite bpow_IZR by lia. destruct Q3 as [_ Q3]. apply IZR_lt in Q3. change (2 ^ 33)%Z with 8589934592%Z in Q3. change (2 ^ 40)%Z with 1099511627776%Z. lra.
Qed.
