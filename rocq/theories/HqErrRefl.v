(** dlahqr's reflector in binary64: close to an exact one. *)
From Coq Require Import Reals Lra.
From Flocq Require Import IEEE754.BinarySingleNaN Core.
From Verif Require Import Base Num Array Blas Lapack Dlahqr Spec SpecR SpecErr B64 B64Lemmas B64Nn RsumLemmas RoundErr AppErr Lapy2Err Nrm2Acc LarfgErr LarfgProofs LarfgTop Near
  FaLemmas LahqrProofs RealMat SimReflect LanvCalc LanvStd HqGet HqErrApp.
Open Scope R_scope.

Lemma gam_101 n : (n <= 100)%nat -> gam n <= 1.01 * (INR n * u64).
Proof.
  pose proof u_tiny as [U0 U1]. induction n as [|n IH]; intros H; [unfold gam; cbn; lra|]. specialize (IH ltac:(lia)).
  rewrite gam_S, S_INR. change P with (1 + u64). assert (INR n <= 100) by (apply le_INR in H; rewrite S_INR in H; replace (INR 100) with 100 in H by (cbn; lra); lra).
  pose proof (pos_INR n). assert (G : gam n <= / 1000) by nra. pose proof (gam_pos n). nra.
Qed.

Lemma abs_of_sq a h : 0 <= h -> a * a <= h * h -> Rabs a <= h.
Proof. intros H0 H. apply Rabs_le. split; nra. Qed.
Lemma sq_of_abs a h : Rabs a <= h -> a * a <= h * h.
Proof. intros H. apply Rabs_le_inv in H. nra. Qed.

(** the exact reflector *)
Lemma exact_kills a x2 x3 bs : bs * bs = a * a + x2 * x2 + x3 * x3 -> bs <> 0 -> a - bs <> 0 ->
  kills a x2 x3 bs ((bs - a) / bs) (x2 / (a - bs)) (x3 / (a - bs)).
Proof.
  intros E N1 N2. assert (S : a + x2 / (a - bs) * x2 + x3 / (a - bs) * x3 = - bs).
  { apply Rmult_eq_reg_r with (a - bs); [|exact N2]. transitivity (a * (a - bs) + (x2 * x2 + x3 * x3)); [field; exact N2|]. nra. }
  split.
  - unfold house. replace (1 + x2 / (a - bs) * (x2 / (a - bs)) + x3 / (a - bs) * (x3 / (a - bs))) with (- 2 * bs / (a - bs)); [field; auto|].
    replace (1 + x2 / (a - bs) * (x2 / (a - bs)) + x3 / (a - bs) * (x3 / (a - bs))) with (((a - bs) * (a - bs) + (x2 * x2 + x3 * x3)) / ((a - bs) * (a - bs))) by (field; exact N2).
    replace (x2 * x2 + x3 * x3) with (bs * bs - a * a) by lra. field. exact N2.
  - cbv zeta. rewrite S. repeat split; field; auto.
Qed.

(** what dlarfg leaves: b, (y2, y3) and tau for the vector (a, x2, x3) *)
Record lref (B : R) (a x2 x3 : R) (b y2 y3 tau : b64) (w2 w3 t : R) : Prop := {
  lr_app : rapp y2 y3 tau w2 w3 t;
  lr_b : near_r b (a - (a + w2 * x2 + w3 * x3) * t) (delta B);
  lr_2 : Rabs (x2 - (a + w2 * x2 + w3 * x3) * (t * w2)) <= delta B;
  lr_3 : Rabs (x3 - (a + w2 * x2 + w3 * x3) * (t * w3)) <= delta B;
  lr_fill : (a * a + x2 * x2 + x3 * x3) * (t * t * (w2 * w2 + w3 * w3)) <= x2 * x2 + x3 * x3
}.

Section Refl.
  Context (lm : libm) (LM : libm_ok lm).
  #[local] Instance NBhr : Num b64 := B64 lm.
  Context (B : R) (HB : mid B).

  Lemma tiny_ok e : e <= 100 * bpow radix2 (-1055) -> e <= delta B /\ e <= 50 * u64.
  Proof.
    intros H. assert (T : 100 * bpow radix2 (-1055) <= bpow radix2 (-1048)).
    { change (-1048)%Z with (7 + -1055)%Z. rewrite bpow_plus. change (bpow radix2 7) with 128. pose proof (bpow_gt_0 radix2 (-1055)). lra. }
    split.
    - destruct HB as [L _]. apply Rle_trans with (bpow radix2 (-43) * bpow radix2 (-969)).
      + rewrite <- bpow_plus. apply Rle_trans with (bpow radix2 (-1048)); [lra|]. apply bpow_le. lia.
      + unfold delta. apply Rmult_le_compat_l; [apply bpow_ge_0|exact L].
    - assert (bpow radix2 (-1048) <= u64) by (unfold u64; apply bpow_le; lia). pose proof u_tiny. lra.
  Qed.

  (** the identity is the exact reflector when x is tiny *)
  Lemma lref_id a x2 x3 (va v2 v3 : b64) : is_finite va = true -> B2R va = a -> is_finite v2 = true -> is_finite v3 = true -> B2R v2 = x2 -> B2R v3 = x3 ->
    Rabs x2 <= 100 * bpow radix2 (-1055) -> Rabs x3 <= 100 * bpow radix2 (-1055) -> lref B a x2 x3 va v2 v3 (B754_zero false) 0 0 0.
  Proof.
    intros Fa Ea F2 F3 E2 E3 T2 T3. destruct (tiny_ok _ T2) as [D2 U2]. destruct (tiny_ok _ T3) as [D3 U3]. pose proof u_tiny as [U0 _].
    assert (D0 : 0 <= delta B) by (eapply Rle_trans; [apply Rabs_pos|exact D2]).
    constructor.
    - constructor; [apply house_zero|lra| | |].
      + split; [exact F2|]. rewrite E2, Rminus_0_r, Rabs_R0. lra.
      + split; [exact F3|]. rewrite E3, Rminus_0_r, Rabs_R0. lra.
      + split; [reflexivity|]. cbn [B2R]. rewrite Rminus_0_r, Rabs_R0. lra.
    - split; [exact Fa|]. rewrite Ea. replace (a - (a - (a + 0 * x2 + 0 * x3) * 0)) with 0 by ring. rewrite Rabs_R0. exact D0.
    - replace (x2 - (a + 0 * x2 + 0 * x3) * (0 * 0)) with x2 by ring. exact D2.
    - replace (x3 - (a + 0 * x2 + 0 * x3) * (0 * 0)) with x3 by ring. exact D3.
    - replace (0 * 0 * (0 * 0 + 0 * 0)) with 0 by ring. rewrite Rmult_0_r. assert (0 <= x2 * x2 + x3 * x3) by nra. assumption.
  Qed.

  (** computed values with the errors of C50 *)
  Lemma lref_main a x2 x3 (va b y2 y3 tau : b64) h bs : Rabs a <= B -> Rabs x2 <= B -> Rabs x3 <= B -> B2R va = a ->
    h = sqrt (a * a + (x2 * x2 + x3 * x3)) -> bs = (if Bsign va then h else - h) -> (0 <= a \/ Bsign va = true) -> (a <= 0 \/ Bsign va = false) -> 0 < h ->
    is_finite b = true -> Rabs (B2R b - bs) <= gam 21 * h + eta64 ->
    is_finite tau = true -> Rabs (B2R tau - (bs - a) / bs) <= gam 62 * ((bs - a) / bs) ->
    is_finite y2 = true -> Rabs (B2R y2 - x2 / (a - bs)) <= gam 44 * Rabs (x2 / (a - bs)) + eta64 ->
    is_finite y3 = true -> Rabs (B2R y3 - x3 / (a - bs)) <= gam 44 * Rabs (x3 / (a - bs)) + eta64 ->
    lref B a x2 x3 b y2 y3 tau (x2 / (a - bs)) (x3 / (a - bs)) ((bs - a) / bs).
  Proof.
    intros La L2 L3 Ev Eh Eb S1 S2 Hh Fb Db Ft Dt F2 D2 F3 D3. destruct (mid_facts B HB) as (M0 & UM & UUM & ET & BIG & UMM). pose proof u_tiny as [U0 U1].
    assert (Q0 : 0 <= x2 * x2 + x3 * x3) by nra. assert (HH : h * h = a * a + (x2 * x2 + x3 * x3)) by (rewrite Eh; apply sqrt_sqrt; nra).
    assert (BB : bs * bs = a * a + x2 * x2 + x3 * x3) by (rewrite Eb; destruct (Bsign va); nra).
    assert (AB : Rabs a <= h) by (apply abs_of_sq; nra).
    assert (N1 : bs <> 0) by (rewrite Eb; destruct (Bsign va); lra).
    assert (N2 : Rabs (a - bs) = Rabs a + h).
    { rewrite Eb. destruct (Bsign va).
      - destruct S2 as [S2|S2]; [|discriminate]. rewrite (Rabs_left1 a) by exact S2. rewrite Rabs_left1 by lra. ring.
      - destruct S1 as [S1|S1]; [|discriminate]. rewrite (Rabs_pos_eq a) by exact S1. rewrite Rabs_pos_eq by lra. ring. }
    assert (N3 : a - bs <> 0) by (intros E; rewrite E, Rabs_R0 in N2; pose proof (Rabs_pos a); lra).
    assert (TT : (bs - a) / bs = 1 + Rabs a / h).
    { rewrite Eb. destruct (Bsign va).
      - destruct S2 as [S2|S2]; [|discriminate]. rewrite (Rabs_left1 a) by exact S2. field. lra.
      - destruct S1 as [S1|S1]; [|discriminate]. rewrite (Rabs_pos_eq a) by exact S1. field. lra. }
    assert (TR : 0 <= Rabs a / h <= 1).
    { split; [apply Rmult_le_pos; [apply Rabs_pos|apply Rlt_le, Rinv_0_lt_compat; exact Hh]|]. apply Rmult_le_reg_r with h; [exact Hh|]. unfold Rdiv. rewrite Rmult_assoc, Rinv_l by lra. lra. }
    assert (WR : forall x, Rabs x <= h -> Rabs (x / (a - bs)) <= 1).
    { intros x Hx. unfold Rdiv. rewrite Rabs_mult, Rabs_inv, N2. pose proof (Rabs_pos a). apply Rmult_le_reg_r with (Rabs a + h); [lra|]. rewrite Rmult_assoc, Rinv_l by lra. lra. }
    assert (W2 := WR x2 ltac:(apply abs_of_sq; nra)). assert (W3 := WR x3 ltac:(apply abs_of_sq; nra)).
    assert (G21 := gam_101 21 ltac:(lia)). assert (G62 := gam_101 62 ltac:(lia)). assert (G44 := gam_101 44 ltac:(lia)).
    replace (INR 21) with 21 in G21 by (cbn; lra). replace (INR 62) with 62 in G62 by (cbn; lra). replace (INR 44) with 44 in G44 by (cbn; lra).
    pose proof (gam_pos 21). pose proof (gam_pos 62). pose proof (gam_pos 44).
    assert (EU : eta64 <= / 1000 * u64) by (apply Rle_trans with (bpow radix2 (-20) * u64); [unfold eta64, u64; rewrite <- bpow_plus; apply bpow_le; lia|]; change (bpow radix2 (-20)) with (/ 1048576); lra).
    assert (HU : h <= 2 * B).
    { apply Rsqr_incr_0_var; [unfold Rsqr|lra]. rewrite HH. assert (SQ : forall y, Rabs y <= B -> y * y <= B * B) by (intros y Hy; apply sq_of_abs; exact Hy).
      pose proof (SQ _ La). pose proof (SQ _ L2). pose proof (SQ _ L3). nra. }
    destruct (exact_kills a x2 x3 bs BB N1 N3) as (KH & K1 & K2 & K3). cbv zeta in K1, K2, K3.
    destruct (mid_facts B HB) as (_ & _ & _ & ETB & _).
    assert (D0 : 0 <= delta B) by (rewrite delta_u; lra).
    constructor.
    - constructor; [exact KH|lra| | |].
      + split; [exact F2|]. split; [|exact W2]. eapply Rle_trans; [exact D2|]. nra.
      + split; [exact F3|]. split; [|exact W3]. eapply Rle_trans; [exact D3|]. nra.
      + split; [exact Ft|]. split; [|rewrite TT, Rabs_pos_eq; lra]. eapply Rle_trans; [exact Dt|]. rewrite TT. nra.
    - split; [exact Fb|]. rewrite K1. eapply Rle_trans; [exact Db|]. rewrite delta_u.
      apply Rle_trans with (1.01 * (21 * u64) * (2 * B) + eta64); [apply Rplus_le_compat_r; apply Rmult_le_compat; lra|]. lra.
    - rewrite K2, Rabs_R0. exact D0.
    - rewrite K3, Rabs_R0. exact D0.
    - right. rewrite <- BB. set (t := (bs - a) / bs). set (p := x2 / (a - bs)). set (q := x3 / (a - bs)).
      assert (P2 : p * (bs * t) = - x2) by (unfold p, t; field; auto). assert (P3 : q * (bs * t) = - x3) by (unfold q, t; field; auto).
      transitivity ((p * (bs * t)) * (p * (bs * t)) + (q * (bs * t)) * (q * (bs * t))); [ring|]. rewrite P2, P3. ring.
  Qed.
End Refl.

(** the two orders of reflector *)
Section Larfg.
  Context (lm : libm) (LM : libm_ok lm).
  #[local] Instance NBhl : Num b64 := B64 lm.
  Context (B : R) (HB : mid B).

  Lemma sign_cases (a : b64) : is_finite a = true -> (0 <= B2R a \/ Bsign a = true) /\ (B2R a <= 0 \/ Bsign a = false).
  Proof.
    intros F. destruct a as [s|s| |s m e H]; try discriminate F; cbn [B2R Bsign]; [split; left; lra|]. destruct s.
    - split; [right; reflexivity|left]. apply F2R_le_0. cbn. lia.
    - split; [left|right; reflexivity]. apply F2R_ge_0. cbn. lia.
  Qed.
  Lemma B_sq x : Rabs x <= B -> x * x <= bpow radix2 800.
  Proof.
    intros H. apply sq_of_abs in H. eapply Rle_trans; [exact H|]. destruct HB as [_ U]. destruct (mid_facts B HB) as (M0 & _).
    apply Rle_trans with (bpow radix2 400 * bpow radix2 400); [apply Rmult_le_compat; lra|]. rewrite <- bpow_plus. apply bpow_le. lia.
  Qed.
  Lemma small_root x e : 0 <= x -> x <= bpow radix2 (e + e) -> sqrt x <= bpow radix2 e.
  Proof. intros H0 H. rewrite bpow_plus in H. apply sqrt_le_1_alt in H. rewrite sqrt_square in H by apply bpow_ge_0. exact H. Qed.

  Lemma larfg64_3 a x2 x3 b x' tau y2 y3 : bnd B a -> bnd B x2 -> bnd B x3 ->
    dlarfg 3 a (to_fa [x2; x3]) 1 = Ok (b, x', tau) -> data x' = [y2; y3] ->
    exists w2 w3 t, lref B (B2R a) (B2R x2) (B2R x3) b y2 y3 tau w2 w3 t.
  Proof.
    intros (Fa & La) (F2 & L2) (F3 & L3) E D.
    set (v := fun t : Z => if (t =? 0)%Z then x2 else x3).
    assert (V : forall t, (0 <= t < 3 - 1)%Z -> elem (to_fa (to_fa [x2; x3])) (stride (3 - 1) 1 t) = Some (v t) /\ is_finite (v t) = true).
    { intros t Ht. assert (t = 0 \/ t = 1)%Z as [-> | ->] by lia; split; (reflexivity || assumption). }
    assert (SS : Rsum_range (fun t => val64 (v t) * val64 (v t)) 0 (2 - 1) = B2R x2 * B2R x2 + B2R x3 * B2R x3).
    { rewrite !Rsum_range_cons, Rsum_range_nil by lia. cbn. unfold val64. ring. }
    assert (S0 : 0 <= B2R x2 * B2R x2 + B2R x3 * B2R x3) by nra.
    pose proof (B_sq _ La) as QA. pose proof (B_sq _ L2) as Q2. pose proof (B_sq _ L3) as Q3.
    assert (K3 : 3 * bpow radix2 800 <= bpow radix2 802) by (change 802%Z with (2 + 800)%Z; rewrite bpow_plus; change (bpow radix2 2) with 4; pose proof (bpow_gt_0 radix2 800); lra).
    assert (K4 : bpow radix2 802 <= bpow radix2 1022) by (apply bpow_le; lia).
    assert (FN : is_finite (dnrm2 2 (to_fa [x2; x3]) 1 : b64) = true).
    { apply (dnrm2_finite lm LM 2 (to_fa (to_fa [x2; x3])) 1 v); [lia|exact V| |].
      - eapply Rle_trans; [|exact K4]. eapply Rle_trans; [|exact K3]. apply Rle_trans with (Rsum_range (fun t => val64 (v t) * val64 (v t)) 0 (2 - 1)); [|rewrite SS; lra].
        apply Rsum_range_le. intros t _. destruct (Rle_dec _ _); [lra|]. apply Rle_0_sqr.
      - rewrite SS. apply Rle_trans with (bpow radix2 401); [|apply bpow_le; lia]. apply small_root; [exact S0|]. change (401 + 401)%Z with 802%Z. lra. }
    destruct (Req_dec (val64 (dnrm2 2 (to_fa [x2; x3]) 1 : b64)) 0) as [NZ|NZ].
    - pose proof (dnrm2_err lm LM 2 (to_fa (to_fa [x2; x3])) 1 v ltac:(lia) V FN) as ER. cbv zeta in ER. rewrite SS in ER.
      assert (TI : sqrt (B2R x2 * B2R x2 + B2R x3 * B2R x3) <= 3 * bpow radix2 (-1055)).
      { match type of ER with Rabs (?y - _) <= _ => assert (Y0 : y = 0) by exact NZ; rewrite Y0 in ER end. set (N := sqrt (B2R x2 * B2R x2 + B2R x3 * B2R x3)) in *. assert (N0 : 0 <= N) by apply sqrt_pos.
        rewrite Rminus_0_l, Rabs_Ropp, Rabs_pos_eq in ER by exact N0. pose proof (gam_small (Z.to_nat 2 + 12) ltac:(lia)) as GS.
        assert (R2 : sqrt (IZR 2) <= 2) by (rewrite <- (sqrt_square 2) at 2 by lra; apply sqrt_le_1_alt; lra). pose proof (bpow_gt_0 radix2 (-1055)).
        assert (gam (Z.to_nat 2 + 12) * N <= / 1000 * N) by (apply Rmult_le_compat_r; lra). assert (sqrt (IZR 2) * bpow radix2 (-1055) <= 2 * bpow radix2 (-1055)) by (apply Rmult_le_compat_r; lra). lra. }
      assert (EQ : dlarfg 3 a (to_fa [x2; x3]) 1 = Ok (a, to_fa [x2; x3], B754_zero false)).
      { rewrite (@dlarfg_quick b64 (B64 lm)); [reflexivity|]. right. change (Beqb (dnrm2 2 (to_fa [x2; x3]) 1 : b64) (B754_zero false) = true).
        rewrite Beqb_correct by (exact FN || reflexivity). apply Req_bool_true. exact NZ. }
      rewrite EQ in E. injection E as <- <- <-. cbn [to_fa ToFA_vec data fa_of_vec] in D. injection D as <- <-.
      exists 0, 0, 0. pose proof (bpow_gt_0 radix2 (-1055)).
      assert (TX : forall x, x * x <= B2R x2 * B2R x2 + B2R x3 * B2R x3 -> Rabs x <= 100 * bpow radix2 (-1055)).
      { intros x Hx. apply abs_of_sq; [lra|]. eapply Rle_trans; [exact Hx|]. rewrite <- (sqrt_sqrt (B2R x2 * B2R x2 + B2R x3 * B2R x3)) by exact S0.
        pose proof (sqrt_pos (B2R x2 * B2R x2 + B2R x3 * B2R x3)). apply Rmult_le_compat; lra. }
      apply lref_id; try assumption; try reflexivity; apply TX; nra.
    - set (h := sqrt (B2R a * B2R a + (B2R x2 * B2R x2 + B2R x3 * B2R x3))).
      assert (EH : sqrt (val64 a * val64 a + sum_sq (3 - 1) (fun t => val64 (v t))) = h).
      { unfold h, sum_sq. change (3 - 1 - 1)%Z with (2 - 1)%Z. rewrite SS. reflexivity. }
      assert (HL : h <= bpow radix2 1020).
      { apply Rle_trans with (bpow radix2 401); [|apply bpow_le; lia]. apply small_root; [nra|]. change (401 + 401)%Z with 802%Z. lra. }
      destruct (larfg_values lm LM flat_fa 3 1 (to_fa [x2; x3]) a v ltac:(lia) ltac:(lia) Fa V FN NZ) as (b' & x'' & tau' & E' & Fb & Db & Ft & Dt & Dv).
      { rewrite EH. exact HL. }
      rewrite EH in Db, Dt, Dv.
      assert (H0 : 0 < h).
      { pose proof (LarfgTop.h_nonzero lm LM 3 1 (to_fa [x2; x3]) a v V NZ) as P. rewrite EH in P. exact P. }
      pose proof (eq_trans (eq_sym E') E) as EE. injection EE as -> -> ->.
      destruct (Dv 0%Z ltac:(lia)) as (p2 & E2 & Fp2 & Dp2). destruct (Dv 1%Z ltac:(lia)) as (p3 & E3 & Fp3 & Dp3).
      assert (EV : forall p, elem x' p = elem (mkFA [y2; y3] 0 0 y2) p) by (intros; apply elem_data; exact D).
      apply (eq_trans (eq_sym (EV 1%Z))) in E2. apply (eq_trans (eq_sym (EV 2%Z))) in E3. change (Some y2 = Some p2) in E2. change (Some y3 = Some p3) in E3.
      injection E2 as <-. injection E3 as <-. destruct (sign_cases a Fa) as [SG1 SG2].
      do 3 eexists. eapply (lref_main B HB (B2R a) (B2R x2) (B2R x3) a b y2 y3 tau h _ La L2 L3 eq_refl eq_refl eq_refl SG1 SG2 H0 Fb Db Ft Dt Fp2 Dp2 Fp3 Dp3).
  Qed.

  Lemma larfg64_2 a x2 x3 b x' tau y2 y3 : bnd B a -> bnd B x2 ->
    dlarfg 2 a (to_fa [x2; x3]) 1 = Ok (b, x', tau) -> data x' = [y2; y3] ->
    exists w2 t, lref B (B2R a) (B2R x2) 0 b y2 (B754_zero false) tau w2 0 t.
  Proof.
    intros (Fa & La) (F2 & L2) E D.
    set (v := fun t : Z => x2).
    assert (V : forall t, (0 <= t < 2 - 1)%Z -> elem (to_fa (to_fa [x2; x3])) (stride (2 - 1) 1 t) = Some (v t) /\ is_finite (v t) = true).
    { intros t Ht. assert (t = 0)%Z as -> by lia; split; (reflexivity || assumption). }
    assert (SS : Rsum_range (fun t => val64 (v t) * val64 (v t)) 0 (1 - 1) = B2R x2 * B2R x2 + 0 * 0).
    { rewrite Rsum_range_cons, Rsum_range_nil by lia. unfold v, val64. ring. }
    assert (S0 : 0 <= B2R x2 * B2R x2 + 0 * 0) by nra.
    pose proof (B_sq _ La) as QA. pose proof (B_sq _ L2) as Q2.
    assert (K3 : 3 * bpow radix2 800 <= bpow radix2 802) by (change 802%Z with (2 + 800)%Z; rewrite bpow_plus; change (bpow radix2 2) with 4; pose proof (bpow_gt_0 radix2 800); lra).
    pose proof (bpow_gt_0 radix2 800) as P800.
    assert (K4 : bpow radix2 802 <= bpow radix2 1022) by (apply bpow_le; lia).
    assert (L3 : Rabs 0 <= B) by (rewrite Rabs_R0; destruct (mid_facts B HB) as (M0 & _); lra).
    assert (FN : is_finite (dnrm2 1 (to_fa [x2; x3]) 1 : b64) = true).
    { apply (dnrm2_finite lm LM 1 (to_fa (to_fa [x2; x3])) 1 v); [lia|exact V| |].
      - eapply Rle_trans; [|exact K4]. eapply Rle_trans; [|exact K3]. apply Rle_trans with (Rsum_range (fun t => val64 (v t) * val64 (v t)) 0 (1 - 1)); [|rewrite SS; lra].
        apply Rsum_range_le. intros t _. destruct (Rle_dec _ _); [lra|]. apply Rle_0_sqr.
      - rewrite SS. apply Rle_trans with (bpow radix2 401); [|apply bpow_le; lia]. apply small_root; [exact S0|]. change (401 + 401)%Z with 802%Z. lra. }
    destruct (Req_dec (val64 (dnrm2 1 (to_fa [x2; x3]) 1 : b64)) 0) as [NZ|NZ].
    - pose proof (dnrm2_err lm LM 1 (to_fa (to_fa [x2; x3])) 1 v ltac:(lia) V FN) as ER. cbv zeta in ER. rewrite SS in ER.
      assert (TI : sqrt (B2R x2 * B2R x2 + 0 * 0) <= 3 * bpow radix2 (-1055)).
      { match type of ER with Rabs (?y - _) <= _ => assert (Y0 : y = 0) by exact NZ; rewrite Y0 in ER end. set (N := sqrt (B2R x2 * B2R x2 + 0 * 0)) in *. assert (N0 : 0 <= N) by apply sqrt_pos.
        rewrite Rminus_0_l, Rabs_Ropp, Rabs_pos_eq in ER by exact N0. pose proof (gam_small (Z.to_nat 1 + 12) ltac:(lia)) as GS.
        assert (R2 : sqrt (IZR 1) <= 2) by (rewrite sqrt_1; lra). pose proof (bpow_gt_0 radix2 (-1055)).
        assert (gam (Z.to_nat 1 + 12) * N <= / 1000 * N) by (apply Rmult_le_compat_r; lra). assert (sqrt (IZR 1) * bpow radix2 (-1055) <= 2 * bpow radix2 (-1055)) by (apply Rmult_le_compat_r; lra). lra. }
      assert (EQ : dlarfg 2 a (to_fa [x2; x3]) 1 = Ok (a, to_fa [x2; x3], B754_zero false)).
      { rewrite (@dlarfg_quick b64 (B64 lm)); [reflexivity|]. right. change (Beqb (dnrm2 1 (to_fa [x2; x3]) 1 : b64) (B754_zero false) = true).
        rewrite Beqb_correct by (exact FN || reflexivity). apply Req_bool_true. exact NZ. }
      rewrite EQ in E. injection E as <- <- <-. cbn [to_fa ToFA_vec data fa_of_vec] in D. injection D as <- <-.
      exists 0, 0. pose proof (bpow_gt_0 radix2 (-1055)).
      assert (TX : forall x, x * x <= B2R x2 * B2R x2 + 0 * 0 -> Rabs x <= 100 * bpow radix2 (-1055)).
      { intros x Hx. apply abs_of_sq; [lra|]. eapply Rle_trans; [exact Hx|]. rewrite <- (sqrt_sqrt (B2R x2 * B2R x2 + 0 * 0)) by exact S0.
        pose proof (sqrt_pos (B2R x2 * B2R x2 + 0 * 0)). apply Rmult_le_compat; lra. }
      apply lref_id; try assumption; try reflexivity; apply TX; nra.
    - set (h := sqrt (B2R a * B2R a + (B2R x2 * B2R x2 + 0 * 0))).
      assert (EH : sqrt (val64 a * val64 a + sum_sq (2 - 1) (fun t => val64 (v t))) = h).
      { unfold h, sum_sq. change (2 - 1 - 1)%Z with (1 - 1)%Z. rewrite SS. reflexivity. }
      assert (HL : h <= bpow radix2 1020).
      { apply Rle_trans with (bpow radix2 401); [|apply bpow_le; lia]. apply small_root; [nra|]. change (401 + 401)%Z with 802%Z. lra. }
      destruct (larfg_values lm LM flat_fa 2 1 (to_fa [x2; x3]) a v ltac:(lia) ltac:(lia) Fa V FN NZ) as (b' & x'' & tau' & E' & Fb & Db & Ft & Dt & Dv).
      { rewrite EH. exact HL. }
      rewrite EH in Db, Dt, Dv.
      assert (H0 : 0 < h).
      { pose proof (LarfgTop.h_nonzero lm LM 2 1 (to_fa [x2; x3]) a v V NZ) as P. rewrite EH in P. exact P. }
      pose proof (eq_trans (eq_sym E') E) as EE. injection EE as -> -> ->.
      destruct (Dv 0%Z ltac:(lia)) as (p2 & E2 & Fp2 & Dp2).
      assert (EV : forall p, elem x' p = elem (mkFA [y2; y3] 0 0 y2) p) by (intros; apply elem_data; exact D).
      apply (eq_trans (eq_sym (EV 1%Z))) in E2. change (Some y2 = Some p2) in E2.
      injection E2 as <-. destruct (sign_cases a Fa) as [SG1 SG2].
      set (bs := if Bsign a then h else - h) in *.
      assert (Z3 : 0 / (val64 a - bs) = 0) by (unfold Rdiv; ring). change (val64 a) with (B2R a) in *.
      exists (B2R x2 / (B2R a - bs)), ((bs - B2R a) / bs). rewrite <- Z3 at 2.
      assert (GL : forall m n x, (m <= n)%nat -> 0 <= x -> gam m * x <= gam n * x) by (intros; apply Rmult_le_compat_r; [assumption|apply gam_le; assumption]).
      assert (TP : 0 <= (bs - B2R a) / bs).
      { pose proof (Rabs_pos (val64 tau - (bs - B2R a) / bs)). pose proof (gam_pos (3 * Z.to_nat 2 + 53)). assert (GP : 0 < gam (3 * Z.to_nat 2 + 53)).
        { apply Rlt_le_trans with (gam 1); [unfold gam; cbn; pose proof u_tiny; lra|apply gam_le; lia]. }
        apply Rmult_le_reg_l with (gam (3 * Z.to_nat 2 + 53)); [exact GP|]. rewrite Rmult_0_r. lra. }
      eapply (lref_main B HB (B2R a) (B2R x2) 0 a b y2 (B754_zero false) tau h bs La L2 L3 eq_refl eq_refl eq_refl SG1 SG2 H0 Fb).
      + eapply Rle_trans; [exact Db|]. apply Rplus_le_compat_r. apply GL; [lia|lra].
      + exact Ft.
      + eapply Rle_trans; [exact Dt|]. apply GL; [lia|exact TP].
      + exact Fp2.
      + eapply Rle_trans; [exact Dp2|]. apply Rplus_le_compat_r. apply GL; [lia|apply Rabs_pos].
      + reflexivity.
      + rewrite Z3. cbn [B2R]. rewrite Rminus_0_r, Rabs_R0. pose proof eta64_pos. lra.
  Qed.
End Larfg.
