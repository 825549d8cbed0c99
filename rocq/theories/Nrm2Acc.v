(** dnrm2 in binary64: the error bound, the absence of overflow, and where the code departs from an accurate norm. *)
From Coq Require Import Reals Lra Floats.SpecFloat.
From Flocq Require Import IEEE754.BinarySingleNaN Core.
From Verif Require Import Base Num Array Blas Spec SpecR SpecErr B64 B64Lemmas B64Nn MachProofs Lapy2Proofs Lists FaLemmas Blas1Proofs Nrm2Proofs Nrm2F64 RsumLemmas RoundErr AppErr Lapy2Err Nrm2Err.
Open Scope R_scope.

Section Acc.
  Context (lm : libm) (LM : libm_ok lm).
  #[local] Instance NBa : Num b64 := B64 lm.

  Let pad (v : Z -> b64) n t : b64 := if ((0 <=? t)%Z && (t <? n)%Z)%bool then v t else B754_zero false.
  Lemma pad_in v n t : (0 <= t < n)%Z -> pad v n t = v t.
  Proof. intros H. unfold pad. destruct (Z.leb_spec 0 t), (Z.ltb_spec t n); try lia. reflexivity. Qed.
  Lemma pad_fin v n : (forall t, (0 <= t < n)%Z -> is_finite (v t) = true) -> forall t, is_finite (pad v n t) = true.
  Proof. intros H t. unfold pad. destruct (Z.leb_spec 0 t), (Z.ltb_spec t n); try reflexivity. apply H. lia. Qed.
  Lemma pad_sum v n : Rsum_range (fun t => vR (pad v n) t * vR (pad v n) t) 0 (n - 1) = Rsum_range (fun t => val64 (v t) * val64 (v t)) 0 (n - 1).
  Proof. apply Rsum_range_ext. intros t Ht. unfold vR. rewrite pad_in by lia. reflexivity. Qed.

  Lemma dnrm2_acc n (x : fa b64) incx v : (1 <= n < 2 ^ 31)%Z -> (forall t, (0 <= t < n)%Z -> elem x (stride n incx t) = Some (v t) /\ is_finite (v t) = true) ->
    exists a, fin_inv (pad v n) n a /\ @dnrm2_fa b64 NBa n x incx = @nrm_finish b64 NBa a.
  Proof.
    intros Hn V. assert (FV := pad_fin v n (fun t Ht => proj2 (V t Ht))).
    apply (dnrm2_loop (F := b64) (fin_inv (pad v n)) n x incx); [lia|exact (fin_inv0 lm _)|].
    intros t a Ht I. replace (get1 x (stride n incx t)) with (pad v n t).
    - apply (fin_inv_step lm LM _ FV t a); [lia|exact I].
    - rewrite pad_in by exact Ht. rewrite get1_elem, (proj1 (V t Ht)). reflexivity.
  Qed.

  Lemma dnrm2_err n (x : fa b64) incx v : (1 <= n < 2 ^ 31)%Z ->
    (forall t, (0 <= t < n)%Z -> elem x (stride n incx t) = Some (v t) /\ is_finite (v t) = true) ->
    is_finite (@dnrm2_fa b64 NBa n x incx) = true ->
    Rabs (val64 (@dnrm2_fa b64 NBa n x incx) - sqrt (Rsum_range (fun t => val64 (v t) * val64 (v t)) 0 (n - 1))) <=
      gam (Z.to_nat n + 12) * sqrt (Rsum_range (fun t => val64 (v t) * val64 (v t)) 0 (n - 1)) + sqrt (IZR n) * bpow radix2 (-1055).
  Proof.
    intros Hn V. destruct (dnrm2_acc n x incx v Hn V) as (a & [I _] & ->). intros F. rewrite <- pad_sum.
    exact (finish_err lm LM _ (pad_fin v n (fun t Ht => proj2 (V t Ht))) n a Hn I F).
  Qed.

  Lemma dnrm2_finite n (x : fa b64) incx v : (1 <= n < 2 ^ 31)%Z ->
    (forall t, (0 <= t < n)%Z -> elem x (stride n incx t) = Some (v t) /\ is_finite (v t) = true) ->
    Rsum_range (fun t => if Rle_dec (Rabs (val64 (v t))) (bpow radix2 505) then val64 (v t) * val64 (v t) else 0) 0 (n - 1) <= bpow radix2 1022 ->
    sqrt (Rsum_range (fun t => val64 (v t) * val64 (v t)) 0 (n - 1)) <= bpow radix2 1022 ->
    is_finite (@dnrm2_fa b64 NBa n x incx) = true.
  Proof.
    intros Hn V HM HN. destruct (dnrm2_acc n x incx v Hn V) as (a & I & ->). assert (FV := pad_fin v n (fun t Ht => proj2 (V t Ht))).
    apply (finish_finite lm LM _ FV n a Hn I).
    - eapply Rle_trans; [|exact HM]. apply Rsum_range_le. intros t Ht. unfold mdv. destruct (bigb (pad v n) t) eqn:B.
      + destruct (Rle_dec _ _); [apply Rle_0_sqr|lra].
      + pose proof (bigb_false (pad v n) FV t B) as L. rewrite av in L. unfold vR in *. rewrite pad_in in * by lia. fold (val64 (v t)) in *.
        destruct (Rle_dec _ _); [|lra]. destruct (smlb _ t); [apply Rle_0_sqr|lra].
    - rewrite pad_sum. set (T := Rsum_range (fun t => val64 (v t) * val64 (v t)) 0 (n - 1)) in *. assert (T0 : 0 <= T) by (apply Rsum_range_nonneg; intros; apply Rle_0_sqr).
      rewrite <- (sqrt_sqrt T T0). change 2044%Z with (1022 + 1022)%Z. rewrite bpow_plus. apply Rmult_le_compat; try assumption; apply sqrt_pos.
  Qed.

  (** ** underflow: elements below 2^-1056 are lost *)
  Lemma dnrm2_tiny n (x : fa b64) incx v : (0 <= n)%Z ->
    (forall t, (0 <= t < n)%Z -> elem x (stride n incx t) = Some (v t) /\ is_finite (v t) = true /\ Rabs (val64 (v t)) <= bpow radix2 (-1056)) ->
    @dnrm2_fa b64 NBa n x incx = B754_zero false.
  Proof.
    intros Hn V. destruct (Z.eq_dec n 0) as [->|N]; [reflexivity|].
    destruct (dnrm2_loop (F := b64) (fun _ a => a = mkAcc true (B754_zero false : b64) (B754_zero false) (B754_zero false)) n x incx) as (a & E & ->); [lia|reflexivity| |].
    - intros t a Ht ->. destruct (V t Ht) as (E & F & B). rewrite get1_elem, E.
      unfold nrm_step. cbn [fabs NBa B64]. rewrite (t_big lm LM : @nrm_tbig b64 NBa = _), (t_sml lm LM : @nrm_tsml b64 NBa = _), (s_sml lm LM : @nrm_ssml b64 NBa = _).
      assert (FA : is_finite (Babs (v t)) = true) by (rewrite is_finite_Babs; exact F).
      assert (RA : B2R (Babs (v t)) = Rabs (val64 (v t))) by apply B2R_Babs.
      assert (L1 : Bltb (b64_dy 1 505) (Babs (v t)) = false).
      { rewrite Bltb_correct by (reflexivity || exact FA). rewrite R_tbig, RA. apply Rlt_bool_false. eapply Rle_trans; [exact B|]. apply bpow_le. lia. }
      assert (L2 : Bltb (Babs (v t)) (b64_dy 1 (-511)) = true).
      { rewrite Bltb_correct by (reflexivity || exact FA). rewrite R_tsml, RA. apply Rlt_bool_true. eapply Rle_lt_trans; [exact B|]. apply bpow_lt. lia. }
      cbn [flt NBa B64]. rewrite L1, L2. cbn [notbig asml amed abig]. rewrite (p_sq lm LM : forall y, fpowf y (@f2 b64 NBa) = _).
      assert (Nv : nn (Babs (v t))) by (apply nn_abs, finite_not_nan; exact F).
      assert (Ns : nn (b64_dy 1 518)) by (apply nn_const; [reflexivity|cbn; tauto]).
      pose proof (nn_B2R _ Nv) as a0. pose proof (bp 518) as B5.
      destruct (mult_fits (Babs (v t)) (b64_dy 1 518) (-538) Nv Ns FA eq_refl) as (N1 & F1 & E1); [|lia|].
      { rewrite R_ssml, RA. change (-538)%Z with (-1056 + 518)%Z. rewrite bpow_plus. apply Rmult_le_compat_r; lra. }
      cbn [fmul fadd NBa B64]. set (p := Bmult mode_NE (Babs (v t)) (b64_dy 1 518)) in *. pose proof (nn_B2R _ N1) as p0.
      assert (pU : B2R p <= bpow radix2 (-538)).
      { rewrite E1, <- (rnd_bpow (-538)) by lia. apply rnd_le. rewrite R_ssml, RA. change (-538)%Z with (-1056 + 518)%Z. rewrite bpow_plus. apply Rmult_le_compat_r; lra. }
      destruct (mult_fits p p (-1074) N1 N1 F1 F1) as (N2 & F2 & E2); [|lia|].
      { apply Rle_trans with (bpow radix2 (-538) * bpow radix2 (-538)); [apply Rmult_le_compat; lra|]. rewrite bpp. apply bpow_le. lia. }
      assert (Z2 : B2R (Bmult mode_NE p p) = 0).
      { rewrite E2. assert (PU : 0 <= B2R p * B2R p <= bpow radix2 (-1076)).
        { split; [nra|]. change (-1076)%Z with (-538 + -538)%Z. rewrite bpow_plus. apply Rmult_le_compat; lra. }
        destruct (Req_dec (B2R p * B2R p) 0) as [->|NZ]; [apply round_0; typeclasses eauto|].
        apply (round_N_small_pos radix2 (FLT_exp (-1074) 53) _ _ (mag radix2 (B2R p * B2R p))).
        - destruct (mag radix2 (B2R p * B2R p)) as [e He]. cbn [mag_val]. specialize (He NZ). rewrite Rabs_pos_eq in He by lra. exact He.
        - assert (mag radix2 (B2R p * B2R p) <= -1075)%Z; [|unfold FLT_exp; lia]. apply mag_le_bpow; [exact NZ|]. rewrite Rabs_pos_eq by lra. eapply Rle_lt_trans; [apply PU|]. apply bpow_lt. lia. }
      assert (EZ : Bmult mode_NE p p = B754_zero false).
      { apply nn_eq0; [exact N2|]. rewrite Bltb_correct by (reflexivity || exact F2). rewrite Z2. apply Rlt_bool_false. change (B2R (b64_dy 0 0)) with 0. lra. }
      rewrite EZ. reflexivity.
    - subst a. unfold nrm_finish. cbn [amed abig asml]. vm_compute. reflexivity.
  Qed.

  (** ** overflow: 2^14 elements of magnitude 2^505 *)
  Definition med_after (t : Z) : b64 := if (t =? 0)%Z then B754_zero false else if (t <? 2 ^ 14)%Z then b64_dy t 1010 else B754_infinity false.
  Lemma pow2_1010 : Bmult mode_NE (b64_dy 1 505) (b64_dy 1 505) = b64_dy 1 1010. Proof. apply b64_eq_SF. vm_compute. reflexivity. Qed.
  Lemma dy_1010 t : (0 < t < 2 ^ 14)%Z -> is_finite (b64_dy t 1010) = true /\ B2R (b64_dy t 1010) = IZR t * bpow radix2 1010 /\ nn (b64_dy t 1010).
  Proof.
    intros Ht. unfold b64_dy.
    pose proof (binary_normalize_correct 53 1024 prec53 emax1024 mode_NE t 1010 false) as C. cbv zeta in C.
    change (SpecFloat.fexp 53 1024) with (FLT_exp (-1074) 53) in C. cbn [round_mode] in C.
    assert (E : F2R (Float radix2 t 1010) = IZR t * bpow radix2 1010) by reflexivity. rewrite E in C.
    rewrite round_generic in C; [|typeclasses eauto|].
    2:{ apply generic_format_FLT. exists (Float radix2 t 1010); [reflexivity| |]; cbn [Fnum Fexp]; [|lia]. rewrite Z.abs_eq by lia. apply Z.lt_trans with (2 ^ 14)%Z; [lia|]. reflexivity. }
    assert (T : 0 < IZR t < bpow radix2 14). { split; [apply (IZR_lt 0); lia|]. change (bpow radix2 14) with (IZR (2 ^ 14)). apply IZR_lt. lia. }
    pose proof (bp 1010) as P.
    rewrite Rlt_bool_true in C.
    2:{ rewrite Rabs_pos_eq by nra. change 1024%Z with (14 + 1010)%Z. rewrite bpow_plus. apply Rmult_lt_compat_r; lra. }
    destruct C as (C1 & C2 & C3). split; [exact C2|]. split; [exact C1|]. split; [apply finite_not_nan; exact C2|].
    rewrite Rcompare_Gt in C3 by nra. exact C3.
  Qed.
  Lemma med_after_step t : (0 <= t)%Z -> Bplus mode_NE (med_after t) (b64_dy 1 1010) = med_after (t + 1).
  Proof.
    intros Ht. unfold med_after. destruct (Z.eqb_spec t 0) as [->|T0].
    - apply b64_eq_SF. vm_compute. reflexivity.
    - destruct (Z.eqb_spec (t + 1) 0) as [|_]; [lia|]. destruct (Z.ltb_spec t (2 ^ 14)) as [L|L].
      2:{ destruct (Z.ltb_spec (t + 1) (2 ^ 14)); [lia|]. apply b64_eq_SF. vm_compute. reflexivity. }
      destruct (dy_1010 t ltac:(lia)) as (F & E & N). destruct (dy_1010 1 ltac:(lia)) as (F1 & E1 & N1). rewrite Rmult_1_l in E1.
      pose proof (Bplus_correct 53 1024 prec53 emax1024 mode_NE _ _ F F1) as C. change (SpecFloat.fexp 53 1024) with (FLT_exp (-1074) 53) in C. cbn [round_mode] in C.
      rewrite E, E1 in C. replace (IZR t * bpow radix2 1010 + bpow radix2 1010) with (IZR (t + 1) * bpow radix2 1010) in C by (rewrite plus_IZR; ring).
      pose proof (bp 1010) as P.
      rewrite round_generic in C; [|typeclasses eauto|].
      2:{ apply generic_format_FLT. exists (Float radix2 (t + 1) 1010); [reflexivity| |]; cbn [Fnum Fexp]; [|lia]. rewrite Z.abs_eq by lia. apply Z.le_lt_trans with (2 ^ 14)%Z; [lia|]. reflexivity. }
      assert (T : 0 < IZR (t + 1)) by (apply (IZR_lt 0); lia). rewrite Rabs_pos_eq in C by nra.
      destruct (Z.ltb_spec (t + 1) (2 ^ 14)) as [M|M].
      + destruct (dy_1010 (t + 1) ltac:(lia)) as (F2 & E2 & N2). rewrite Rlt_bool_true in C.
        2:{ change 1024%Z with (14 + 1010)%Z. rewrite bpow_plus. apply Rmult_lt_compat_r; [lra|]. change (bpow radix2 14) with (IZR (2 ^ 14)). apply IZR_lt. lia. }
        destruct C as (C1 & C2 & C3). apply B2R_Bsign_inj; try assumption; [congruence|]. rewrite C3. rewrite Rcompare_Gt by nra. symmetry. apply N2.
      + rewrite Rlt_bool_false in C.
        2:{ change 1024%Z with (14 + 1010)%Z. rewrite bpow_plus. apply Rmult_le_compat_r; [lra|]. change (bpow radix2 14) with (IZR (2 ^ 14)). apply IZR_le. lia. }
        destruct C as (C & _). apply of_overflow. rewrite C. f_equal. apply N.
  Qed.
  Lemma dnrm2_overflow n (x : fa b64) incx : (2 ^ 14 <= n)%Z -> (forall t, (0 <= t < n)%Z -> exists s, elem x (stride n incx t) = Some s /\ Babs s = b64_dy 1 505) ->
    @dnrm2_fa b64 NBa n x incx = B754_infinity false.
  Proof.
    intros Hn V.
    destruct (dnrm2_loop (F := b64) (fun t a => a = mkAcc true (B754_zero false : b64) (med_after t) (B754_zero false)) n x incx) as (a & E & ->); [lia|reflexivity| |].
    - intros t a Ht ->. destruct (V t Ht) as (s & E & A). rewrite get1_elem, E.
      unfold nrm_step. cbn [fabs NBa B64]. rewrite A. rewrite (t_big lm LM : @nrm_tbig b64 NBa = _), (t_sml lm LM : @nrm_tsml b64 NBa = _).
      pose proof (p_sq lm LM (b64_dy 1 505)) as PS. change (NBe lm) with NBa in PS. rewrite PS, pow2_1010. cbn [notbig asml amed abig fadd NBa B64]. rewrite med_after_step by lia.
      replace (flt (b64_dy 1 505) (b64_dy 1 505)) with false by (vm_compute; reflexivity). replace (flt (b64_dy 1 505) (b64_dy 1 (-511))) with false by (vm_compute; reflexivity). reflexivity.
    - subst a. unfold med_after. destruct (Z.eqb_spec n 0); [lia|]. destruct (Z.ltb_spec n (2 ^ 14)); [lia|]. unfold nrm_finish. cbn [amed abig asml]. vm_compute. reflexivity.
  Qed.
End Acc.

(** witnesses *)
Lemma R_min : B2R (b64_dy 1 (-1074)) = bpow radix2 (-1074).
Proof. rewrite (B2R_of_SF _ (S754_finite false 1 (-1074))) by (vm_compute; reflexivity). unfold SF2R. cbn [cond_Zopp]. unfold F2R. cbn [Fnum Fexp]. rewrite Rmult_1_l. reflexivity. Qed.
Lemma R_min3 : B2R (b64_dy 3 (-1074)) = 3 * bpow radix2 (-1074).
Proof. rewrite (B2R_of_SF _ (S754_finite false 3 (-1074))) by (vm_compute; reflexivity). reflexivity. Qed.
Lemma tiny_case : is_finite (b64_dy 3 (-1074)) = true /\ Rabs (val64 (b64_dy 3 (-1074))) <= bpow radix2 (-1056).
Proof.
  split; [reflexivity|]. unfold val64. rewrite R_min3. pose proof (bp (-1074)). rewrite Rabs_pos_eq by lra. change (-1056)%Z with (2 + (16 + -1074))%Z. rewrite bpow_plus. change (bpow radix2 2) with 4.
  assert (bpow radix2 (-1074) <= bpow radix2 (16 + -1074)) by (apply bpow_le; lia). lra.
Qed.
Lemma tiny_witness lm : let NB : Num b64 := B64 lm in libm_ok lm ->
  exists (x : list b64) v, elem (to_fa x) 1 = Some v /\ is_finite v = true /\ val64 v <> 0 /\ (dnrm2 1 x 1 : b64) = B754_zero false.
Proof.
  cbv zeta. intros LM. exists [b64_dy 1 (-1074)], (b64_dy 1 (-1074)). split; [reflexivity|]. split; [reflexivity|]. split.
  - unfold val64. rewrite R_min. pose proof (bp (-1074)). lra.
  - apply (dnrm2_tiny lm LM 1 _ 1 (fun _ => b64_dy 1 (-1074))); [lia|]. intros t Ht. assert (t = 0%Z) as -> by lia. split; [reflexivity|]. split; [reflexivity|].
    unfold val64. rewrite R_min, Rabs_pos_eq by (apply bpow_ge_0). apply bpow_le. lia.
Qed.
Lemma overflow_witness lm : let NB : Num b64 := B64 lm in libm_ok lm ->
  exists (x : list b64) n, (1 <= n < 2 ^ 31)%Z /\
    (forall t, (0 <= t < n)%Z -> exists s, elem (to_fa x) (stride n 1 t) = Some s /\ is_finite s = true /\ val64 s = bpow radix2 505) /\
    sqrt (Rsum_range (fun _ => bpow radix2 505 * bpow radix2 505) 0 (n - 1)) = bpow radix2 512 /\
    (dnrm2 n x 1 : b64) = B754_infinity false.
Proof.
  cbv zeta. intros LM. exists (repeat (b64_dy 1 505) (Z.to_nat (2 ^ 14))), (2 ^ 14)%Z.
  assert (E : forall t, (0 <= t < 2 ^ 14)%Z -> @elem b64 (@to_fa _ _ (ToFA_vec b64 (B64 lm)) (repeat (b64_dy 1 505) (Z.to_nat (2 ^ 14)))) (stride (2 ^ 14) 1 t) = Some (b64_dy 1 505)).
  { intros t Ht. unfold elem, stride. cbn [data to_fa ToFA_vec]. destruct (Z.ltb_spec 1 0); [lia|].
    assert (N : nth_error (repeat (b64_dy 1 505) (Z.to_nat (2 ^ 14))) (Z.to_nat t) = Some (b64_dy 1 505)) by (apply nth_error_repeat; lia).
    destruct (Z.ltb_spec (1 + t * 1) 1); [lia|]. replace (1 + t * 1 - 1)%Z with t by lia. exact N. }
  split; [lia|]. split; [|split].
  - intros t Ht. exists (b64_dy 1 505). split; [exact (E t Ht)|]. split; [reflexivity|]. exact R_tbig.
  - assert (S : forall n, (0 <= n)%Z -> Rsum_range (fun _ => bpow radix2 505 * bpow radix2 505) 0 (n - 1) = IZR n * bpow radix2 1010).
    { intros n Hn. apply (Zlt_0_ind (fun n => Rsum_range (fun _ => bpow radix2 505 * bpow radix2 505) 0 (n - 1) = IZR n * bpow radix2 1010)); [|exact Hn]. clear n Hn. intros n IH Hn.
      destruct (Z.eq_dec n 0) as [->|N0]; [rewrite Rsum_range_nil by lia; ring|].
      rewrite Rsum_range_snoc by lia. rewrite (IH (n - 1)%Z) by lia. rewrite bpp, minus_IZR. change (505 + 505)%Z with 1010%Z. ring. }
    rewrite S by lia. change (IZR (2 ^ 14)) with (bpow radix2 14). rewrite bpp. change (14 + 1010)%Z with (512 + 512)%Z. rewrite bpow_plus. apply sqrt_square. apply bpow_ge_0.
  - apply (dnrm2_overflow lm LM); [lia|]. intros t Ht. exists (b64_dy 1 505). split; [exact (E t Ht)|]. apply b64_eq_SF. vm_compute. reflexivity.
Qed.
Lemma finite_case :
  Rsum_range (fun t => if Rle_dec (Rabs (val64 (b64_dy 1 0))) (bpow radix2 505) then val64 (b64_dy 1 0) * val64 (b64_dy 1 0) else 0) 0 (2 - 1) <= bpow radix2 1022 /\
  sqrt (Rsum_range (fun t => val64 (b64_dy 1 0) * val64 (b64_dy 1 0)) 0 (2 - 1)) <= bpow radix2 1022.
Proof.
  assert (V : val64 (b64_dy 1 0) = 1) by exact (R_one ref_libm).
  assert (L : 2 <= bpow radix2 1022) by (change 2 with (bpow radix2 1); apply bpow_le; lia).
  change (2 - 1)%Z with 1%Z. rewrite !V. rewrite !(Rsum_range_snoc _ 0 1) by lia. change (1 - 1)%Z with 0%Z.
  assert (S1 : forall f, Rsum_range f 0 0 = f 0%Z). { intros f. replace (Rsum_range f 0 0) with (Rsum_range f 0 (0 - 1) + f 0%Z) by (symmetry; apply Rsum_range_snoc; lia). rewrite Rsum_range_nil by lia. ring. }
  rewrite !S1. split.
  - destruct (Rle_dec _ _); lra.
  - apply Rle_trans with (sqrt (2 * 2)); [apply sqrt_le_1_alt; lra|]. rewrite sqrt_square by lra. exact L.
Qed.
