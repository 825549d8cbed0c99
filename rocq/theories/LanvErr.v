(** dlanv2 in binary64 is backward stable: the two branches put together. *)
From Coq Require Import Reals Lra Nsatz.
From Flocq Require Import IEEE754.BinarySingleNaN Core.
From Verif Require Import Base Num Array Blas Lapack Spec SpecR SpecErr B64 ER B64Lemmas B64Nn GemmErr RoundErr AppErr Lapy2Proofs Lapy2Err LarfgErr Near LanvProofs LanvCalc LanvRot LanvEq LanvStd LanvOff LanvReal LibmFree.
Open Scope R_scope.

(** the off-diagonal entries are zero or not too small *)
Definition off_range (b c : b64) : Prop := B2R b = 0 \/ B2R c = 0 \/ bpow radix2 (-969) <= Rmax (Rabs (B2R b)) (Rabs (B2R c)).

(** the shape of the result: triangular, or equal diagonal and off-diagonal entries of opposite sign *)
Definition std64 (a b c d : b64) : Prop := B2R c = 0 \/ (B2R a = B2R d /\ B2R b * B2R c < 0).

Lemma std_exact k j M a b c d a' b' c' d' C S : 0 <= k -> 0 <= j -> 0 <= M -> C * C + S * S = 1 -> similar2 (a, b, c, d) (a', b', c', d') C S -> std_near k j M a b c d a' b' c' d' C S.
Proof.
  intros K J HM ONE SIM. pose proof u_tiny as [U0 U1]. exists C, S, a', b', c', d'. assert (0 <= k * (u64 * M)) by (apply Rmult_le_pos; [exact K|apply Rmult_le_pos; lra]). assert (0 <= j * u64) by (apply Rmult_le_pos; lra).
  unfold Rminus. rewrite !Rplus_opp_r, Rabs_R0. auto 10.
Qed.

Section Top.
  Context (lm : libm) (LM : libm_ok lm).
  #[local] Instance NBt : Num b64 := B64 lm.

  Lemma loop_id k (s t : b64) : is_finite s = true -> is_finite t = true -> B2R s <> 0 \/ B2R t <> 0 -> nv_loop k s t = (s, t).
  Proof.
    intros Fs Ft NZ. 
    assert (T1 : fle nv_safmx2 (fmax (fabs t) (fabs s)) = false /\ fle (fmax (fabs t) (fabs s)) nv_safmn2 = false).
    { pose proof (safmn2_zero lm LM : @nv_safmn2 b64 NBt = b64_dy 0 0) as SZ. unfold nv_safmx2. rewrite SZ. change (fmax (fabs t) (fabs s)) with (b64_max (Babs t) (Babs s)).
      destruct (max_min_abs t s (finite_not_nan t Ft) (finite_not_nan s Fs)) as (w & z & -> & _ & Hw & Hz & L & CASE).
      assert (Fw : is_finite w = true) by (destruct CASE as [[-> _]|[-> _]]; rewrite is_finite_Babs; assumption).
      assert (Fz : is_finite z = true) by (destruct CASE as [[_ ->]|[_ ->]]; rewrite is_finite_Babs; assumption).
      rewrite Bltb_correct in L by assumption. assert (LE : B2R z <= B2R w) by (revert L; case Rlt_bool_spec; [discriminate|auto]).
      assert (W0 : 0 < B2R w).
      { destruct CASE as [[-> ->]|[-> ->]]; rewrite !B2R_Babs in *; destruct NZ as [NZ|NZ]; apply Rabs_pos_lt in NZ; lra. }
      split.
      - replace (@fdiv b64 NBt (@f1 b64 NBt) (b64_dy 0 0)) with (B754_infinity false : b64) by (apply b64_eq_SF; vm_compute; reflexivity).
        change (fle (B754_infinity false) w) with (Bleb (B754_infinity false) w). destruct w as [sw|sw| |sw m e Bw]; try reflexivity; try discriminate Fw; destruct sw; reflexivity.
      - change (fle w (b64_dy 0 0)) with (Bleb w (b64_dy 0 0)). rewrite Bleb_correct by (exact Fw || reflexivity). change (B2R (b64_dy 0 0)) with 0. apply Rle_bool_false. exact W0. }
    destruct T1 as [E1 E2]. destruct k; cbn [nv_loop]; rewrite E1, E2; reflexivity.
  Qed.

  Lemma B2R_pow (x : b64) m e k : B2SF x = SpecFloat.S754_finite false m e -> Z.pos m = (2 ^ Z.of_nat k)%Z -> B2R x = bpow radix2 (Z.of_nat k + e).
  Proof.
    intros E H. rewrite <- SF2R_B2SF, E. cbn [SF2R SpecFloat.cond_Zopp cond_Zopp]. rewrite H. unfold F2R. cbn [Fnum Fexp]. rewrite bpow_plus. f_equal. rewrite (IZR_Zpower radix2) by lia. reflexivity.
  Qed.
  Lemma B2R_eps : B2R (fEPS : b64) = bpow radix2 (-52).
  Proof. rewrite (B2R_pow _ 4503599627370496 (-104) 52); [reflexivity| |reflexivity]. vm_compute. reflexivity. Qed.
  Lemma B2R_thr : B2R (fmul f4 nv_eps : b64) = bpow radix2 (-50).
  Proof. rewrite (B2R_pow _ 4503599627370496 (-102) 52); [reflexivity| |reflexivity]. vm_compute. reflexivity. Qed.
  Lemma thr_fin : is_finite (fmul f4 nv_eps : b64) = true. Proof. rewrite <- is_finite_SF_B2SF. vm_compute. reflexivity. Qed.

  Section Entry.
    Context (M : R) (a b c d : b64) (Ha : bnd M a) (Hb : bnd M b) (Hc : bnd M c) (Hd : bnd M d).

    Lemma main_ok : M <= bpow radix2 400 -> off_range b c ->
      exists a' b' c' d' cs sn, nv_main a b c d = (a', b', c', d', cs, sn) /\
        is_finite a' = true /\ is_finite b' = true /\ is_finite c' = true /\ is_finite d' = true /\ is_finite cs = true /\ is_finite sn = true /\
        (std64 a' b' c' d' \/ (a' = a /\ b' = b /\ c' = c /\ d' = d /\ B2R b * B2R c < 0 /\ Rabs (B2R (fsub a d)) < bpow radix2 (-52))) /\
        std_near 1000 128 M (B2R a) (B2R b) (B2R c) (B2R d) (B2R a') (B2R b') (B2R c') (B2R d') (B2R cs) (B2R sn).
    Proof.
      intros MU OR. pose proof Ha as (Fa & La). pose proof Hb as (Fb & Lb). pose proof Hc as (Fc & Lc). pose proof Hd as (Fd & Ld).
      assert (M0 : 0 <= M) by (eapply Rle_trans; [apply Rabs_pos|exact La]). pose proof B2R_1 as V1. change (b64_dy 1 0) with (f1 : b64) in V1.
      unfold nv_main. change (c =? f0)%num with (Beqb c (b64_dy 0 0)). change (b =? f0)%num with (Beqb b (b64_dy 0 0)). rewrite !zero_test by assumption.
      case (Req_bool_spec (B2R c) 0); intros NC.
      { exists a, b, c, d, f1, f0. split; [reflexivity|]. repeat (split; [first [assumption|reflexivity]|]). split; [left; left; exact NC|].
        rewrite V1. change (B2R (f0 : b64)) with 0. apply std_exact; [lra|lra|exact M0|ring|apply similar_id]. }
      case (Req_bool_spec (B2R b) 0); intros NB.
      { exists d, (fneg c), f0, a, f0, f1. split; [reflexivity|]. split; [exact Fd|]. split; [change (fneg c) with (Bopp c); rewrite is_finite_Bopp; exact Fc|].
        repeat (split; [first [assumption|reflexivity]|]). split; [left; left; reflexivity|].
        rewrite V1. change (B2R (f0 : b64)) with 0. change (fneg c) with (Bopp c). rewrite B2R_Bopp. apply std_exact; [lra|lra|exact M0|ring|]. unfold similar2; cbn. rewrite NB. apply m2_eq; ring. }
      assert (HX : bpow radix2 (-969) <= Rmax (Rabs (B2R b)) (Rabs (B2R c))) by (destruct OR as [?|[?|?]]; [contradiction|contradiction|assumption]).
      assert (HM : mid M) by (split; [eapply Rle_trans; [exact HX|apply Rmax_lub; assumption]|exact MU]).
      pose proof (sum_ab lm M HM b c Hb Hc) as SA. pose proof (diff_ab lm M HM a d Ha Hd) as DA. change (@NBs lm) with NBt in *.
      change (fsignum b <>? fsignum c)%num with (negb (Beqb (b64_signum b) (b64_signum c))). rewrite signum_eq by assumption.
      change (fabs (fsub a d) <? fEPS)%num with (Bltb (Babs (fsub a d)) (@fEPS b64 NBt)). assert (FE : is_finite (fEPS : b64) = true) by reflexivity.
      assert (FD : is_finite (Babs (fsub a d)) = true) by (rewrite is_finite_Babs; apply DA). rewrite Bltb_correct by assumption. rewrite B2R_Babs, B2R_eps.
      assert (BC : Rabs (B2R b) > 0 /\ Rabs (B2R c) > 0) by (split; apply Rabs_pos_lt; assumption).
      (* not the early exit *)
      assert (REST : Rabs (B2R (fsub a d)) >= bpow radix2 (-52) \/ Bsign b = Bsign c ->
        exists a' b' c' d' cs sn, (if (fle (fmul f4 nv_eps) (nv_z a b c d)) then nv_real a b c d else let '(sigma, temp) := nv_loop 20 (fadd b c) (fsub a d) in let '(temp, st) := nv_equalise sigma temp a b c d in nv_offdiag temp st) = (a', b', c', d', cs, sn) /\
        is_finite a' = true /\ is_finite b' = true /\ is_finite c' = true /\ is_finite d' = true /\ is_finite cs = true /\ is_finite sn = true /\
        std64 a' b' c' d' /\
        std_near 1000 128 M (B2R a) (B2R b) (B2R c) (B2R d) (B2R a') (B2R b') (B2R c') (B2R d') (B2R cs) (B2R sn)).
      { intros CASE. destruct (z_near lm M HM a b c d Ha Hb Hc Hd NB NC) as (Fz & _). change (@NBq lm) with NBt in *.
        change (fle (fmul f4 nv_eps) (nv_z a b c d)) with (Bleb (@fmul b64 NBt f4 nv_eps) (@nv_z b64 NBt a b c d)). rewrite Bleb_correct by (exact thr_fin || exact Fz). rewrite B2R_thr.
        case Rle_bool_spec; intros HZ.
        - destruct (real_std lm M HM a b c d Ha Hb Hc Hd NB NC HZ) as (a' & b' & c' & d' & cs & sn & E & F1 & F2 & F3 & F4 & F5 & F6 & Z & N).
          exists a', b', c', d', cs, sn. split; [exact E|]. repeat (split; [assumption|]). split; [left; exact Z|exact N].
        - set (s := fadd b c) in *. set (t := fsub a d) in *. assert (Hh : bpow radix2 (-970) <= sqrt (B2R s * B2R s + B2R t * B2R t)).
          { pose proof (bpow_gt_0 radix2 (-970)) as B0. destruct CASE as [CASE|CASE].
            - apply Rle_trans with (Rabs (B2R t)); [apply Rle_trans with (bpow radix2 (-52)); [apply bpow_le; lia|lra]|]. rewrite <- (sqrt_square (Rabs (B2R t))) by apply Rabs_pos. apply sqrt_le_1_alt. rewrite <- Rabs_mult, Rabs_pos_eq by apply Rle_0_sqr. pose proof (Rle_0_sqr (B2R s)) as Q. unfold Rsqr in Q. lra.
            - apply Rle_trans with (Rabs (B2R s)).
              + destruct SA as (Fs & _). destruct (plus_fin _ _ Fs) as (_ & _ & _ & E). fold s in E. change (Bplus mode_NE b c) with s in E. rewrite (same_sign_sum b c CASE) in E.
                set (A := Rabs (B2R b) + Rabs (B2R c)) in *. assert (AL : bpow radix2 (-969) <= A) by (eapply Rle_trans; [exact HX|]; apply Rmax_lub; unfold A; lra).
                assert (R : A - u64 * A <= Rabs (B2R s)). { pose proof (Rabs_triang_inv2 (B2R b + B2R c) (B2R s)) as T. rewrite (same_sign_sum b c CASE) in T. fold A in T. rewrite Rabs_minus_sym in E. pose proof (Rle_trans _ _ _ T E) as TE. apply ab_elim in TE. lra. }
                pose proof u_tiny as [U0 U1]. pose proof (bpow_gt_0 radix2 (-969)). assert (u64 * A <= / 2 * A) by (apply Rmult_le_compat_r; lra). apply Rle_trans with (bpow radix2 (-1) * bpow radix2 (-969)); [rewrite <- bpow_plus; apply bpow_le; lia|]. change (bpow radix2 (-1)) with (/ 2). lra.
              + rewrite <- (sqrt_square (Rabs (B2R s))) by apply Rabs_pos. apply sqrt_le_1_alt. rewrite <- Rabs_mult, Rabs_pos_eq by apply Rle_0_sqr. pose proof (Rle_0_sqr (B2R t)) as Q. unfold Rsqr in Q. lra. }
          rewrite loop_id; [|apply SA|apply DA|].
          2:{ destruct (Req_dec (B2R s) 0) as [E|E]; [|left; exact E]. destruct (Req_dec (B2R t) 0) as [E'|E']; [|right; exact E']. exfalso. rewrite E, E' in Hh. replace (0 * 0 + 0 * 0) with 0 in Hh by ring. rewrite sqrt_0 in Hh. pose proof (bpow_gt_0 radix2 (-970)). lra. }
          destruct (equalise_ok lm M HM a b c d Ha Hb Hc Hd Hh) as (T & b' & c' & cs & sn & E & F1 & F2 & F3 & F4 & F5 & L1 & L2 & L3 & L4 & L5 & N). change (@NBs lm) with NBt in *. fold s t in E. rewrite E.
          destruct (offdiag_ok lm M HM _ _ _ _ T b' c' cs sn F1 F2 F3 F4 F5 L1 L2 L3 L4 L5 N) as (a2 & b2 & c2 & d2 & cs2 & sn2 & E2 & G1 & G2 & G3 & G4 & G5 & G6 & ST & N2). change (@NBp lm) with NBt in *.
          exists a2, b2, c2, d2, cs2, sn2. split; [exact E2|]. repeat (split; [assumption|]). split; [|exact N2]. destruct ST as [ST|[-> ST]]; [left; exact ST|right; split; [reflexivity|exact ST]]. }
      destruct (Rlt_bool_spec (Rabs (B2R (fsub a d))) (bpow radix2 (-52))) as [HT|HT]; [destruct (Bool.eqb (Bsign b) (Bsign c)) eqn:ES|]; cbn [negb andb].
      - destruct REST as (a' & b' & c' & d' & cs & sn & E & F1 & F2 & F3 & F4 & F5 & F6 & Z & N); [right; apply Bool.eqb_prop; exact ES|].
        exists a', b', c', d', cs, sn. split; [exact E|]. repeat (split; [assumption|]). split; [left; exact Z|exact N].
      - exists a, b, c, d, f1, f0. split; [reflexivity|]. repeat (split; [first [assumption|reflexivity]|]). split.
        + right. repeat (split; [reflexivity|]). split; [|exact HT]. rewrite (sg_val b), (sg_val c). apply Bool.eqb_false_iff in ES.
          assert (SG : sg b * sg c = -1) by (unfold sg; destruct (Bsign b), (Bsign c); try congruence; ring).
          replace (sg b * Rabs (B2R b) * (sg c * Rabs (B2R c))) with ((sg b * sg c) * (Rabs (B2R b) * Rabs (B2R c))) by ring. rewrite SG. assert (0 < Rabs (B2R b) * Rabs (B2R c)) by (apply Rmult_lt_0_compat; lra). lra.
        + rewrite V1. change (B2R (f0 : b64)) with 0. apply std_exact; [lra|lra|exact M0|ring|apply similar_id].
      - destruct REST as (a' & b' & c' & d' & cs & sn & E & F1 & F2 & F3 & F4 & F5 & F6 & Z & N); [left; lra|].
        exists a', b', c', d', cs, sn. split; [exact E|]. repeat (split; [assumption|]). split; [left; exact Z|exact N].
    Qed.
  End Entry.
End Top.
