(** dlaqr5's reflector in binary64: close to an exact one, and its last entry is not too small. *)
From Coq Require Import Reals Lra.
From Flocq Require Import IEEE754.BinarySingleNaN Core.
From Verif Require Import Base Num Array Blas Lapack Dlaqr5 Spec SpecR SpecErr B64 B64Lemmas B64Nn Lists RsumLemmas RoundErr AppErr Lapy2Err Nrm2Acc LarfgErr LarfgProofs LarfgTop Near
  FaLemmas LahqrProofs Laqr5Proofs RealMat SimReflect LanvCalc LanvStd HqGet HqErrApp HqErrRefl.
Open Scope R_scope.

Section Larfg5.
  Context (lm : libm) (LM : libm_ok lm).
  #[local] Instance NB5l : Num b64 := B64 lm.
  Context (B : R) (HB : mid B).

  Lemma low_main (a x3 p3 tau : b64) h bs : Rabs (B2R a) <= B ->
    bs = (if Bsign a then h else - h) -> (0 <= B2R a \/ Bsign a = true) -> (B2R a <= 0 \/ Bsign a = false) -> 0 < h -> Rabs (B2R a) <= h -> h <= 2 * B ->
    Rabs (B2R tau - (bs - B2R a) / bs) <= gam 62 * ((bs - B2R a) / bs) ->
    Rabs (B2R p3 - B2R x3 / (B2R a - bs)) <= gam 44 * Rabs (B2R x3 / (B2R a - bs)) + eta64 ->
    0.999 <= B2R tau /\ 0.999 * (Rabs (B2R x3) / (4 * B)) - eta64 <= Rabs (B2R p3).
  Proof.
    intros La Eb S1 S2 H0 AB HU Dt Dp. pose proof u_tiny as [U0 U1].
    assert (G62 := gam_101 62 ltac:(lia)). assert (G44 := gam_101 44 ltac:(lia)).
    replace (INR 62) with 62 in G62 by (cbn; lra). replace (INR 44) with 44 in G44 by (cbn; lra). pose proof (gam_pos 62). pose proof (gam_pos 44).
    assert (N2 : Rabs (B2R a - bs) = Rabs (B2R a) + h).
    { rewrite Eb. destruct (Bsign a).
      - destruct S2 as [S2|S2]; [|discriminate]. rewrite (Rabs_left1 (B2R a)) by exact S2. rewrite Rabs_left1 by lra. ring.
      - destruct S1 as [S1|S1]; [|discriminate]. rewrite (Rabs_pos_eq (B2R a)) by exact S1. rewrite Rabs_pos_eq by lra. ring. }
    assert (TT : (bs - B2R a) / bs = 1 + Rabs (B2R a) / h).
    { rewrite Eb. destruct (Bsign a).
      - destruct S2 as [S2|S2]; [|discriminate]. rewrite (Rabs_left1 (B2R a)) by exact S2. field. lra.
      - destruct S1 as [S1|S1]; [|discriminate]. rewrite (Rabs_pos_eq (B2R a)) by exact S1. field. lra. }
    assert (TR : 0 <= Rabs (B2R a) / h <= 1).
    { split; [apply Rmult_le_pos; [apply Rabs_pos|apply Rlt_le, Rinv_0_lt_compat; exact H0]|]. apply Rmult_le_reg_r with h; [exact H0|]. unfold Rdiv. rewrite Rmult_assoc, Rinv_l by lra. lra. }
    split.
    - rewrite TT in Dt. apply Rabs_le_inv in Dt. nra.
    - assert (W : Rabs (B2R x3) / (4 * B) <= Rabs (B2R x3 / (B2R a - bs))).
      { unfold Rdiv. rewrite Rabs_mult, Rabs_inv, N2. apply Rmult_le_compat_l; [apply Rabs_pos|]. apply Rinv_le; [pose proof (Rabs_pos (B2R a)); lra|lra]. }
      set (q := B2R x3 / (B2R a - bs)) in *. assert (T : Rabs q <= Rabs (B2R p3) + (gam 44 * Rabs q + eta64)).
      { replace q with (B2R p3 - (B2R p3 - q)) at 1 by ring. eapply Rle_trans; [apply Rabs_triang|]. rewrite Rabs_Ropp. lra. }
      pose proof (Rabs_pos q). assert (gam 44 * Rabs q <= 0.001 * Rabs q) by (apply Rmult_le_compat_r; lra).
      apply Rle_trans with (0.999 * Rabs q - eta64); lra.
  Qed.

  Lemma larfg5_3 (l : list b64) a x2 x3 : zget l 0 = Some x2 -> zget l 1 = Some x3 -> bnd B a -> bnd B x2 -> bnd B x3 ->
    exists b x' tau y2 y3 w2 w3 t, dlarfg 3 a l 1 = Ok (b, x', tau) /\ zlen x' = zlen l /\ zget x' 0 = Some y2 /\ zget x' 1 = Some y3 /\
      lref B (B2R a) (B2R x2) (B2R x3) b y2 y3 tau w2 w3 t /\
      (bpow radix2 (-1000) <= Rabs (B2R x3) -> 0.999 <= B2R tau /\ 0.999 * (Rabs (B2R x3) / (4 * B)) - eta64 <= Rabs (B2R y3)).
  Proof.
    intros Z0 Z1 (Fa & La) (F2 & L2) (F3 & L3).
    destruct (dlarfg_total flat_vec 3 a l 1) as (b & x' & tau & E & CL & _). cbn [to_fa ToFA_vec] in CL. rewrite !count_zlen in CL. cbn [data fa_of_vec] in CL.
    set (v := fun t : Z => if (t =? 0)%Z then x2 else x3).
    assert (V : forall t, (0 <= t < 3 - 1)%Z -> elem (to_fa l) (stride (3 - 1) 1 t) = Some (v t) /\ is_finite (v t) = true).
    { intros t Ht. assert (t = 0 \/ t = 1)%Z as [-> | ->] by lia; (split; [|assumption]; rewrite elem_zget; assumption). }
    assert (SS : Rsum_range (fun t => val64 (v t) * val64 (v t)) 0 (2 - 1) = B2R x2 * B2R x2 + B2R x3 * B2R x3).
    { rewrite !Rsum_range_cons, Rsum_range_nil by lia. cbn. unfold val64. ring. }
    assert (S0 : 0 <= B2R x2 * B2R x2 + B2R x3 * B2R x3) by nra.
    pose proof (B_sq B HB _ La) as QA. pose proof (B_sq B HB _ L2) as Q2. pose proof (B_sq B HB _ L3) as Q3.
    assert (K3 : 3 * bpow radix2 800 <= bpow radix2 802) by (change 802%Z with (2 + 800)%Z; rewrite bpow_plus; change (bpow radix2 2) with 4; pose proof (bpow_gt_0 radix2 800); lra).
    assert (K4 : bpow radix2 802 <= bpow radix2 1022) by (apply bpow_le; lia).
    assert (FN : is_finite (dnrm2 2 l 1 : b64) = true).
    { apply (dnrm2_finite lm LM 2 (to_fa l) 1 v); [lia|exact V| |].
      - eapply Rle_trans; [|exact K4]. eapply Rle_trans; [|exact K3]. apply Rle_trans with (Rsum_range (fun t => val64 (v t) * val64 (v t)) 0 (2 - 1)); [|rewrite SS; lra].
        apply Rsum_range_le. intros t _. destruct (Rle_dec _ _); [lra|]. apply Rle_0_sqr.
      - rewrite SS. apply Rle_trans with (bpow radix2 401); [|apply bpow_le; lia]. apply small_root; [exact S0|]. change (401 + 401)%Z with 802%Z. lra. }
    destruct (Req_dec (val64 (dnrm2 2 l 1 : b64)) 0) as [NZ|NZ].
    - pose proof (dnrm2_err lm LM 2 (to_fa l) 1 v ltac:(lia) V FN) as ER. cbv zeta in ER. rewrite SS in ER.
      assert (TI : sqrt (B2R x2 * B2R x2 + B2R x3 * B2R x3) <= 3 * bpow radix2 (-1055)).
      { match type of ER with Rabs (?y - _) <= _ => assert (Y0 : y = 0) by exact NZ; rewrite Y0 in ER end. set (N := sqrt (B2R x2 * B2R x2 + B2R x3 * B2R x3)) in *. assert (N0 : 0 <= N) by apply sqrt_pos.
        rewrite Rminus_0_l, Rabs_Ropp, Rabs_pos_eq in ER by exact N0. pose proof (gam_small (Z.to_nat 2 + 12) ltac:(lia)) as GS.
        assert (R2 : sqrt (IZR 2) <= 2) by (rewrite <- (sqrt_square 2) at 2 by lra; apply sqrt_le_1_alt; lra). pose proof (bpow_gt_0 radix2 (-1055)).
        assert (gam (Z.to_nat 2 + 12) * N <= / 1000 * N) by (apply Rmult_le_compat_r; lra). assert (sqrt (IZR 2) * bpow radix2 (-1055) <= 2 * bpow radix2 (-1055)) by (apply Rmult_le_compat_r; lra). lra. }
      assert (EQ : dlarfg 3 a l 1 = Ok (a, l, B754_zero false)).
      { rewrite (@dlarfg_quick b64 (B64 lm)); [reflexivity|]. right. change (Beqb (dnrm2 2 l 1 : b64) (B754_zero false) = true).
        rewrite Beqb_correct by (exact FN || reflexivity). apply Req_bool_true. exact NZ. }
      rewrite EQ in E. injection E as <- <- <-.
      exists a, l, (B754_zero false), x2, x3, 0, 0, 0. split; [exact EQ|]. split; [reflexivity|]. split; [exact Z0|]. split; [exact Z1|]. pose proof (bpow_gt_0 radix2 (-1055)).
      assert (TX : forall x, x * x <= B2R x2 * B2R x2 + B2R x3 * B2R x3 -> Rabs x <= 100 * bpow radix2 (-1055)).
      { intros x Hx. apply abs_of_sq; [lra|]. eapply Rle_trans; [exact Hx|]. rewrite <- (sqrt_sqrt (B2R x2 * B2R x2 + B2R x3 * B2R x3)) by exact S0.
        pose proof (sqrt_pos (B2R x2 * B2R x2 + B2R x3 * B2R x3)). apply Rmult_le_compat; lra. }
      split; [apply lref_id; try assumption; try reflexivity; apply TX; nra|].
      intros X. exfalso. specialize (TX (B2R x3) ltac:(nra)). assert (TT : 128 * bpow radix2 (-1055) = bpow radix2 (-1048)) by (change (-1048)%Z with (7 + -1055)%Z; rewrite bpow_plus; reflexivity).
      assert (bpow radix2 (-1048) < bpow radix2 (-1000)) by (apply bpow_lt; lia). lra.
    - set (h := sqrt (B2R a * B2R a + (B2R x2 * B2R x2 + B2R x3 * B2R x3))).
      assert (EH : sqrt (val64 a * val64 a + sum_sq (3 - 1) (fun t => val64 (v t))) = h).
      { unfold h, sum_sq. change (3 - 1 - 1)%Z with (2 - 1)%Z. rewrite SS. reflexivity. }
      assert (HL : h <= bpow radix2 1020).
      { apply Rle_trans with (bpow radix2 401); [|apply bpow_le; lia]. apply small_root; [nra|]. change (401 + 401)%Z with 802%Z. lra. }
      destruct (larfg_values lm LM flat_vec 3 1 l a v ltac:(lia) ltac:(lia) Fa V FN NZ) as (b' & x'' & tau' & E' & Fb & Db & Ft & Dt & Dv).
      { rewrite EH. exact HL. }
      rewrite EH in Db, Dt, Dv.
      assert (HHE : h * h = B2R a * B2R a + (B2R x2 * B2R x2 + B2R x3 * B2R x3)) by (apply sqrt_sqrt; nra).
      assert (H0 : 0 < h).
      { pose proof (LarfgTop.h_nonzero lm LM 3 1 l a v V NZ) as P. rewrite EH in P. exact P. }
      pose proof (eq_trans (eq_sym E') E) as EE. injection EE as -> -> ->.
      destruct (Dv 0%Z ltac:(lia)) as (p2 & E2 & Fp2 & Dp2). destruct (Dv 1%Z ltac:(lia)) as (p3 & E3 & Fp3 & Dp3).
      change (elem (fa_of_vec x') 1 = Some p2) in E2. change (elem (fa_of_vec x') 2 = Some p3) in E3. rewrite elem_zget in E2, E3. change (zget x' 0 = Some p2) in E2. change (zget x' 1 = Some p3) in E3.
      destruct (sign_cases a Fa) as [SG1 SG2]. set (bs := if Bsign a then h else - h) in *.
      exists b, x', tau, p2, p3, (B2R x2 / (B2R a - bs)), (B2R x3 / (B2R a - bs)), ((bs - B2R a) / bs). split; [exact E|]. split; [exact CL|]. split; [exact E2|]. split; [exact E3|].
      split; [eapply (lref_main B HB (B2R a) (B2R x2) (B2R x3) a b p2 p3 tau h bs La L2 L3 eq_refl eq_refl eq_refl SG1 SG2 H0 Fb Db Ft Dt Fp2 Dp2 Fp3 Dp3)|].
      intros _. change (val64 a) with (B2R a) in *. change (val64 tau) with (B2R tau) in *. change (val64 (v 1%Z)) with (B2R x3) in *. change (val64 p3) with (B2R p3) in *.
      apply (low_main a x3 p3 tau h bs La); try assumption; try reflexivity.
      + apply abs_of_sq; [lra|]. rewrite HHE. nra.
      + apply Rsqr_incr_0_var; [unfold Rsqr|destruct (mid_facts B HB) as (M0 & _); lra]. rewrite HHE. pose proof (sq_of_abs _ _ La). pose proof (sq_of_abs _ _ L2). pose proof (sq_of_abs _ _ L3). nra.
  Qed.

  Lemma larfg5_2 (l : list b64) a x2 : zget l 0 = Some x2 -> bnd B a -> bnd B x2 ->
    exists b x' tau y2 w2 t, dlarfg 2 a l 1 = Ok (b, x', tau) /\ zlen x' = zlen l /\ zget x' 0 = Some y2 /\
      lref B (B2R a) (B2R x2) 0 b y2 (B754_zero false) tau w2 0 t.
  Proof.
    intros Z0 (Fa & La) (F2 & L2).
    destruct (dlarfg_total flat_vec 2 a l 1) as (b & x' & tau & E & CL & _). cbn [to_fa ToFA_vec] in CL. rewrite !count_zlen in CL. cbn [data fa_of_vec] in CL.
    set (v := fun t : Z => x2).
    assert (V : forall t, (0 <= t < 2 - 1)%Z -> elem (to_fa l) (stride (2 - 1) 1 t) = Some (v t) /\ is_finite (v t) = true).
    { intros t Ht. assert (t = 0)%Z as -> by lia; (split; [|assumption]; rewrite elem_zget; assumption). }
    assert (SS : Rsum_range (fun t => val64 (v t) * val64 (v t)) 0 (1 - 1) = B2R x2 * B2R x2 + 0 * 0).
    { rewrite Rsum_range_cons, Rsum_range_nil by lia. unfold v, val64. ring. }
    assert (S0 : 0 <= B2R x2 * B2R x2 + 0 * 0) by nra.
    pose proof (B_sq B HB _ La) as QA. pose proof (B_sq B HB _ L2) as Q2.
    assert (K3 : 3 * bpow radix2 800 <= bpow radix2 802) by (change 802%Z with (2 + 800)%Z; rewrite bpow_plus; change (bpow radix2 2) with 4; pose proof (bpow_gt_0 radix2 800); lra).
    pose proof (bpow_gt_0 radix2 800) as P800.
    assert (K4 : bpow radix2 802 <= bpow radix2 1022) by (apply bpow_le; lia).
    assert (L3 : Rabs 0 <= B) by (rewrite Rabs_R0; destruct (mid_facts B HB) as (M0 & _); lra).
    assert (FN : is_finite (dnrm2 1 l 1 : b64) = true).
    { apply (dnrm2_finite lm LM 1 (to_fa l) 1 v); [lia|exact V| |].
      - eapply Rle_trans; [|exact K4]. eapply Rle_trans; [|exact K3]. apply Rle_trans with (Rsum_range (fun t => val64 (v t) * val64 (v t)) 0 (1 - 1)); [|rewrite SS; lra].
        apply Rsum_range_le. intros t _. destruct (Rle_dec _ _); [lra|]. apply Rle_0_sqr.
      - rewrite SS. apply Rle_trans with (bpow radix2 401); [|apply bpow_le; lia]. apply small_root; [exact S0|]. change (401 + 401)%Z with 802%Z. lra. }
    destruct (Req_dec (val64 (dnrm2 1 l 1 : b64)) 0) as [NZ|NZ].
    - pose proof (dnrm2_err lm LM 1 (to_fa l) 1 v ltac:(lia) V FN) as ER. cbv zeta in ER. rewrite SS in ER.
      assert (TI : sqrt (B2R x2 * B2R x2 + 0 * 0) <= 3 * bpow radix2 (-1055)).
      { match type of ER with Rabs (?y - _) <= _ => assert (Y0 : y = 0) by exact NZ; rewrite Y0 in ER end. set (N := sqrt (B2R x2 * B2R x2 + 0 * 0)) in *. assert (N0 : 0 <= N) by apply sqrt_pos.
        rewrite Rminus_0_l, Rabs_Ropp, Rabs_pos_eq in ER by exact N0. pose proof (gam_small (Z.to_nat 1 + 12) ltac:(lia)) as GS.
        assert (R2 : sqrt (IZR 1) <= 2) by (rewrite sqrt_1; lra). pose proof (bpow_gt_0 radix2 (-1055)).
        assert (gam (Z.to_nat 1 + 12) * N <= / 1000 * N) by (apply Rmult_le_compat_r; lra). assert (sqrt (IZR 1) * bpow radix2 (-1055) <= 2 * bpow radix2 (-1055)) by (apply Rmult_le_compat_r; lra). lra. }
      assert (EQ : dlarfg 2 a l 1 = Ok (a, l, B754_zero false)).
      { rewrite (@dlarfg_quick b64 (B64 lm)); [reflexivity|]. right. change (Beqb (dnrm2 1 l 1 : b64) (B754_zero false) = true).
        rewrite Beqb_correct by (exact FN || reflexivity). apply Req_bool_true. exact NZ. }
      rewrite EQ in E. injection E as <- <- <-.
      exists a, l, (B754_zero false), x2, 0, 0. split; [exact EQ|]. split; [reflexivity|]. split; [exact Z0|]. pose proof (bpow_gt_0 radix2 (-1055)).
      assert (TX : forall x, x * x <= B2R x2 * B2R x2 + 0 * 0 -> Rabs x <= 100 * bpow radix2 (-1055)).
      { intros x Hx. apply abs_of_sq; [lra|]. eapply Rle_trans; [exact Hx|]. rewrite <- (sqrt_sqrt (B2R x2 * B2R x2 + 0 * 0)) by exact S0.
        pose proof (sqrt_pos (B2R x2 * B2R x2 + 0 * 0)). apply Rmult_le_compat; lra. }
      apply lref_id; try assumption; try reflexivity; apply TX; nra.
    - set (h := sqrt (B2R a * B2R a + (B2R x2 * B2R x2 + 0 * 0))).
      assert (EH : sqrt (val64 a * val64 a + sum_sq (2 - 1) (fun t => val64 (v t))) = h).
      { unfold h, sum_sq. change (2 - 1 - 1)%Z with (1 - 1)%Z. rewrite SS. reflexivity. }
      assert (HL : h <= bpow radix2 1020).
      { apply Rle_trans with (bpow radix2 401); [|apply bpow_le; lia]. apply small_root; [nra|]. change (401 + 401)%Z with 802%Z. lra. }
      destruct (larfg_values lm LM flat_vec 2 1 l a v ltac:(lia) ltac:(lia) Fa V FN NZ) as (b' & x'' & tau' & E' & Fb & Db & Ft & Dt & Dv).
      { rewrite EH. exact HL. }
      rewrite EH in Db, Dt, Dv.
      assert (H0 : 0 < h).
      { pose proof (LarfgTop.h_nonzero lm LM 2 1 l a v V NZ) as P. rewrite EH in P. exact P. }
      pose proof (eq_trans (eq_sym E') E) as EE. injection EE as -> -> ->.
      destruct (Dv 0%Z ltac:(lia)) as (p2 & E2 & Fp2 & Dp2).
      change (elem (fa_of_vec x') 1 = Some p2) in E2. rewrite elem_zget in E2. change (zget x' 0 = Some p2) in E2.
      destruct (sign_cases a Fa) as [SG1 SG2].
      set (bs := if Bsign a then h else - h) in *.
      assert (Z3 : 0 / (val64 a - bs) = 0) by (unfold Rdiv; ring). change (val64 a) with (B2R a) in *.
      exists b, x', tau, p2, (B2R x2 / (B2R a - bs)), ((bs - B2R a) / bs). split; [exact E|]. split; [exact CL|]. split; [exact E2|]. rewrite <- Z3 at 2.
      assert (GL : forall m n x, (m <= n)%nat -> 0 <= x -> gam m * x <= gam n * x) by (intros; apply Rmult_le_compat_r; [assumption|apply gam_le; assumption]).
      assert (TP : 0 <= (bs - B2R a) / bs).
      { pose proof (Rabs_pos (val64 tau - (bs - B2R a) / bs)). pose proof (gam_pos (3 * Z.to_nat 2 + 53)). assert (GP : 0 < gam (3 * Z.to_nat 2 + 53)).
        { apply Rlt_le_trans with (gam 1); [unfold gam; cbn; pose proof u_tiny; lra|apply gam_le; lia]. }
        apply Rmult_le_reg_l with (gam (3 * Z.to_nat 2 + 53)); [exact GP|]. rewrite Rmult_0_r. lra. }
      eapply (lref_main B HB (B2R a) (B2R x2) 0 a b p2 (B754_zero false) tau h bs La L2 L3 eq_refl eq_refl eq_refl SG1 SG2 H0 Fb).
      + eapply Rle_trans; [exact Db|]. apply Rplus_le_compat_r. apply GL; [lia|lra].
      + exact Ft.
      + eapply Rle_trans; [exact Dt|]. apply GL; [lia|exact TP].
      + exact Fp2.
      + eapply Rle_trans; [exact Dp2|]. apply Rplus_le_compat_r. apply GL; [lia|apply Rabs_pos].
      + reflexivity.
      + rewrite Z3. cbn [B2R]. rewrite Rminus_0_r, Rabs_R0. pose proof eta64_pos. lra.
  Qed.
End Larfg5.

(** the plumbing around dlarfg *)
Section VR.
  Context {F : Type} {NF : Num F}.
  Lemma vcol1 (v : fa F) i x : elem v i = Some x -> get2 v i 1 = x.
  Proof. intros E. rewrite get2_get1, get1_elem. unfold pos. replace ((1 - 1) * rows v + i)%Z with i by lia. rewrite E. reflexivity. Qed.
  Lemma v_reflect_ok m ldv (v : fa F) a beta l' tau : dim2 ldv v -> (3 <= count v)%Z ->
    dlarfg m a (skipn 1 (data v)) 1 = Ok (beta, l', tau) -> zlen l' = zlen (skipn 1 (data v)) ->
    exists v', v_reflect m a 1 ldv v = Ok (v', beta) /\ same_shape v' v /\ elem v' 1 = Some tau /\ elem v' 2 = zget l' 0 /\ elem v' 3 = zget l' 1.
  Proof.
    intros D C E LL. unfold v_reflect.
    assert (FV := dim2_full _ _ D).
    assert (P1 : ((1 - 1) * rows v + 2 = 2)%Z) by lia.
    assert (F2 : from2 v 2 1 = Ok (skipn 1 (data v))).
    { unfold from2, from1, slice_from. rewrite P1. unfold full in FV. rewrite FV. rewrite count_zlen in *.
      destruct (Z.leb_spec 2 (zlen (data v))); [|lia]. destruct (Z.ltb_spec (zlen (data v)) (2 - 1)); [lia|]. reflexivity. }
    rewrite F2. cbn [bind]. rewrite E. rewrite count_zlen in C.
    assert (L : zlen (skipn 1 (data v)) = (zlen (data v) - 1)%Z) by (apply (zlen_skipn (data v) 1); lia).
    cbn [bind]. unfold fa_insert. cbn [to_fa ToFA_vec]. unfold fa_len, fa_is_2d. cbn [rows cols fa_of_vec data].
    rewrite andb_false_r. destruct (Z.ltb_spec 1 (zlen l')); [|lia]. destruct (Z.ltb_spec (zlen l') (1 - 1)); [lia|].
    cbn [andb Z.leb Z.compare Pos.compare Pos.compare_cont bind Z.sub Z.add Z.opp Z.pos_sub Z.to_nat firstn skipn app].
    match goal with |- context [fa_as_2d ?g ldv] => destruct (as_2d_shape ldv v g D) as (r & -> & Sh & ED) end.
    { rewrite !count_zlen in *. simpl data. unfold zlen in *. rewrite ?app_length. cbn [length Nat.add]. lia. }
    cbn [bind]. cbn [data] in ED. exists r. split; [reflexivity|]. split; [exact Sh|].
    rewrite !elem_zget, ED. split; [reflexivity|].
    assert (GC : forall p, (0 <= p)%Z -> zget (tau :: l') (p + 1) = zget l' p).
    { intros p Hp. unfold zget. destruct (Z.ltb_spec (p + 1) 0), (Z.ltb_spec p 0); try lia. replace (Z.to_nat (p + 1)) with (S (Z.to_nat p)) by lia. reflexivity. }
    split; [apply (GC 0%Z)|apply (GC 1%Z)]; lia.
  Qed.
  Lemma tail_get (v : fa F) p : (0 <= p)%Z -> zget (skipn 1 (data v)) p = elem v (p + 2).
  Proof. intros Hp. rewrite elem_zget. replace (p + 2 - 1)%Z with (1 + p)%Z by lia. apply (zget_skipn (data v) 1 p); lia. Qed.
End VR.

Section Vrefl.
  Context (lm : libm) (LM : libm_ok lm).
  #[local] Instance NB5v : Num b64 := B64 lm.
  Context (B : R) (HB : mid B).
  Lemma vreflect_3 ldv (v : fa b64) a x2 x3 : dim2 ldv v -> (3 <= count v)%Z -> elem v 2 = Some x2 -> elem v 3 = Some x3 ->
    bnd B a -> bnd B x2 -> bnd B x3 ->
    exists v' b tau y2 y3 w2 w3 t, v_reflect 3 a 1 ldv v = Ok (v', b) /\ same_shape v' v /\
      elem v' 1 = Some tau /\ elem v' 2 = Some y2 /\ elem v' 3 = Some y3 /\
      lref B (B2R a) (B2R x2) (B2R x3) b y2 y3 tau w2 w3 t /\
      (bpow radix2 (-1000) <= Rabs (B2R x3) -> 0.999 <= B2R tau /\ 0.999 * (Rabs (B2R x3) / (4 * B)) - eta64 <= Rabs (B2R y3)).
  Proof.
    intros D C E2 E3 Ba B2 B3.
    destruct (larfg5_3 lm LM B HB (skipn 1 (data v)) a x2 x3) as (b & l' & tau & y2 & y3 & w2 & w3 & t & E & L & Z0 & Z1 & LR & LO); try assumption.
    { rewrite tail_get by lia. exact E2. }
    { rewrite tail_get by lia. exact E3. }
    destruct (v_reflect_ok 3 ldv v a b l' tau D C E L) as (v' & E' & SH & V1 & V2 & V3).
    exists v', b, tau, y2, y3, w2, w3, t. rewrite V2, V3. repeat (split; [assumption|]). exact LO.
  Qed.
  Lemma vreflect_2 ldv (v : fa b64) a x2 : dim2 ldv v -> (3 <= count v)%Z -> elem v 2 = Some x2 -> bnd B a -> bnd B x2 ->
    exists v' b tau y2 w2 t, v_reflect 2 a 1 ldv v = Ok (v', b) /\ same_shape v' v /\
      elem v' 1 = Some tau /\ elem v' 2 = Some y2 /\ lref B (B2R a) (B2R x2) 0 b y2 (B754_zero false) tau w2 0 t.
  Proof.
    intros D C E2 Ba B2.
    destruct (larfg5_2 lm LM B HB (skipn 1 (data v)) a x2) as (b & l' & tau & y2 & w2 & t & E & L & Z0 & LR); try assumption.
    { rewrite tail_get by lia. exact E2. }
    destruct (v_reflect_ok 2 ldv v a b l' tau D C E L) as (v' & E' & SH & V1 & V2 & V3).
    exists v', b, tau, y2, w2, t. rewrite V2. repeat (split; [assumption|]). exact LR.
  Qed.
End Vrefl.
