(** dnrm2 in binary64: NaN and infinity. *)
From Flocq Require Import IEEE754.BinarySingleNaN Core.
From Coq Require Import Reals Lra Floats.SpecFloat.
From Verif Require Import Base Num Array Blas Spec B64 B64Lemmas B64Nn MachProofs Lapy2Proofs Lists FaLemmas Blas1Proofs Nrm2Proofs.
Open Scope Z_scope.

Section F64.
  Variable lm : libm.
  Hypothesis LM : libm_ok lm.
  #[local] Instance NBn : Num b64 := B64 lm.

  Lemma b64_tsml : @nrm_tsml b64 NBn = b64_dy 1 (-511).
  Proof.
    unfold nrm_tsml. replace ((fofZ (-1021) - f1) * fhalf)%num with (b64_dy (-511) 0) by (apply b64_eq_SF; vm_compute; reflexivity).
    apply (pow_2k lm LM (-511)). cbn; tauto.
  Qed.
  Lemma b64_tbig : @nrm_tbig b64 NBn = b64_dy 1 505.
  Proof.
    unfold nrm_tbig. replace ((fofZ 1024 - fofZ 15 + f1) * fhalf)%num with (b64_dy 505 0) by (apply b64_eq_SF; vm_compute; reflexivity).
    apply (pow_2k lm LM 505). cbn; tauto.
  Qed.
  Lemma b64_ssml : @nrm_ssml b64 NBn = b64_dy 1 518.
  Proof.
    unfold nrm_ssml. replace (- (fofZ (-1021) - fofZ 15) * fhalf)%num with (b64_dy 518 0) by (apply b64_eq_SF; vm_compute; reflexivity).
    apply (pow_2k lm LM 518). cbn; tauto.
  Qed.
  Lemma b64_sbig : @nrm_sbig b64 NBn = b64_dy 1 (-519).
  Proof.
    unfold nrm_sbig. replace (- (fofZ 1024 + fofZ 15 - f1) * fhalf)%num with (b64_dy (-519) 0) by (apply b64_eq_SF; vm_compute; reflexivity).
    apply (pow_2k lm LM (-519)). cbn; tauto.
  Qed.
  Lemma b64_sq (x : b64) : fpowf x (@f2 b64 NBn) = Bmult mode_NE x x.
  Proof. apply (pow_sq lm LM). Qed.

  Lemma R_tsml : B2R (b64_dy 1 (-511)) = bpow radix2 (-511).
  Proof.
    rewrite (B2R_of_SF _ (S754_finite false 4503599627370496 (-563))) by (vm_compute; reflexivity).
    unfold SF2R. cbn [cond_Zopp]. rewrite (F2R_pow2 _ _ 52) by (reflexivity || lia). reflexivity.
  Qed.
  Lemma R_ssml : B2R (b64_dy 1 518) = bpow radix2 518.
  Proof.
    rewrite (B2R_of_SF _ (S754_finite false 4503599627370496 466)) by (vm_compute; reflexivity).
    unfold SF2R. cbn [cond_Zopp]. rewrite (F2R_pow2 _ _ 52) by (reflexivity || lia). reflexivity.
  Qed.
  Lemma R_sbig : B2R (b64_dy 1 (-519)) = bpow radix2 (-519).
  Proof.
    rewrite (B2R_of_SF _ (S754_finite false 4503599627370496 (-571))) by (vm_compute; reflexivity).
    unfold SF2R. cbn [cond_Zopp]. rewrite (F2R_pow2 _ _ 52) by (reflexivity || lia). reflexivity.
  Qed.
  Lemma R_one : B2R (@f1 b64 NBn) = 1%R. Proof. exact (mach_R lm). Qed.
  Lemma nn_const m e : m = 1 -> In e [-511; 505; 518; -519] -> nn (b64_dy m e).
  Proof. intros -> H. cbn in H. repeat destruct H as [<-|H]; try contradiction; split; vm_compute; reflexivity. Qed.

  Lemma is_nan_eq' (x : b64) : is_nan x = true -> x = B754_nan.
  Proof. destruct x; cbn; try discriminate; reflexivity. Qed.

  (** *** a NaN among the elements *)
  Lemma Bplus_nan_r (x : b64) : Bplus mode_NE x B754_nan = B754_nan. Proof. destruct x; reflexivity. Qed.
  Lemma Bplus_nan_l (x : b64) : Bplus mode_NE B754_nan x = B754_nan. Proof. destruct x; reflexivity. Qed.
  Lemma Bmult_nan_r (x : b64) : Bmult mode_NE x B754_nan = B754_nan. Proof. destruct x; reflexivity. Qed.
  Lemma Bmult_nan_l (x : b64) : Bmult mode_NE B754_nan x = B754_nan. Proof. destruct x; reflexivity. Qed.
  Lemma Bltb_nan_r (x : b64) : Bltb x B754_nan = false. Proof. destruct x as [s|s| |s m e B]; try (destruct s); reflexivity. Qed.
  Lemma Bltb_nan_l (x : b64) : Bltb B754_nan x = false. Proof. destruct x as [s|s| |s m e B]; try (destruct s); reflexivity. Qed.

  Lemma nrm_step_nan (a : @nrm_acc b64) : amed (nrm_step B754_nan a) = B754_nan.
  Proof.
    unfold nrm_step. cbn [fabs flt NBn B64 Babs]. rewrite Bltb_nan_r, Bltb_nan_l. cbn [amed].
    change (fpowf B754_nan f2) with (fpowf (B754_nan : b64) (@f2 b64 NBn)). rewrite b64_sq. apply Bplus_nan_r.
  Qed.
  Lemma nrm_step_keeps_nan (x : b64) (a : @nrm_acc b64) : amed a = B754_nan -> amed (nrm_step x a) = B754_nan.
  Proof.
    intros E. unfold nrm_step. destruct (flt _ _); [exact E|]. destruct (flt _ _); [destruct (notbig a); exact E|].
    cbn [amed]. rewrite E. apply Bplus_nan_l.
  Qed.
  Lemma nrm_finish_nan (a : @nrm_acc b64) : amed a = B754_nan -> nrm_finish a = (B754_nan : b64).
  Proof.
    intros E. unfold nrm_finish. rewrite E.
    assert (MC : ((flt (@f0 b64 NBn) B754_nan || flt (@fMAX b64 NBn) B754_nan) || fne (B754_nan : b64) B754_nan)%bool = true).
    { unfold fne. cbn [flt feq NBn B64]. rewrite !Bltb_nan_r. reflexivity. }
    cbv zeta. rewrite MC.
    destruct (flt _ (abig a)).
    - cbn [fadd fmul fsqrt fdiv NBn B64]. rewrite !Bmult_nan_l, Bplus_nan_r. cbn [Bsqrt]. apply Bmult_nan_r.
    - destruct (flt _ (asml a)).
      + cbn [fsqrt flt NBn B64 Bsqrt]. rewrite Bltb_nan_l. rewrite (b64_sq B754_nan). cbn [fmul fsqrt NBn B64].
        rewrite !Bmult_nan_l. apply Bmult_nan_r.
      + apply Bmult_nan_r.
  Qed.

  Lemma dnrm2_nan n (x : fa b64) incx t : 0 <= t < n -> elem x (stride n incx t) = Some B754_nan ->
    is_nan (@dnrm2_fa b64 NBn n x incx) = true.
  Proof.
    intros Ht E.
    destruct (@dnrm2_loop b64 NBn (fun k a => t < k -> amed a = B754_nan) n x incx) as (a & A & ->); [lia|lia| |].
    - intros k a Hk IH L. destruct (Z.eq_dec k t) as [->|].
      + rewrite get1_elem, E. apply nrm_step_nan.
      + apply nrm_step_keeps_nan, IH. lia.
    - rewrite nrm_finish_nan by (apply A; lia). reflexivity.
  Qed.

  (** *** no NaN *)
  Definition acc_ok (a : @nrm_acc b64) : Prop :=
    nn (asml a) /\ is_finite (asml a) = true /\ (B2R (asml a) <= bpow radix2 68)%R /\ nn (amed a) /\ nn (abig a).

  Lemma rnd_bpow e : -1074 <= e -> rnd (bpow radix2 e) = bpow radix2 e.
  Proof. intros H. apply round_generic; [typeclasses eauto|]. apply generic_format_bpow. unfold FLT_exp. lia. Qed.
  Lemma small_lt_max r e : (0 <= r <= bpow radix2 e)%R -> e < 1024 -> Rlt_bool (Rabs r) (bpow radix2 1024) = true.
  Proof. intros H He. apply Rlt_bool_true. rewrite Rabs_pos_eq by lra. apply Rle_lt_trans with (bpow radix2 e); [lra|]. apply bpow_lt. lia. Qed.

  (** multiplication and addition without overflow *)
  Lemma mult_small (x y : b64) e : nn x -> nn y -> is_finite x = true -> is_finite y = true ->
    (rnd (B2R x * B2R y) <= bpow radix2 e)%R -> e < 1024 ->
    nn (Bmult mode_NE x y) /\ is_finite (Bmult mode_NE x y) = true /\ B2R (Bmult mode_NE x y) = rnd (B2R x * B2R y).
  Proof.
    intros Hx Hy Fx Fy B He. pose proof (nn_B2R x Hx). pose proof (nn_B2R y Hy).
    assert (P : (0 <= rnd (B2R x * B2R y))%R) by (apply rnd_ge_0; nra).
    pose proof (Bmult_correct 53 1024 prec53 emax1024 mode_NE x y) as M. change (SpecFloat.fexp 53 1024) with (FLT_exp (-1074) 53) in M.
    cbn [round_mode] in M. rewrite (small_lt_max _ e) in M by (assumption || (split; assumption)).
    destruct M as (E & F & _). rewrite Fx, Fy in F.
    split; [|split; [exact F|exact E]]. apply mult_nn; auto; congruence.
  Qed.
  Lemma plus_small (x y : b64) e : nn x -> nn y -> is_finite x = true -> is_finite y = true ->
    (rnd (B2R x + B2R y) <= bpow radix2 e)%R -> e < 1024 ->
    nn (Bplus mode_NE x y) /\ is_finite (Bplus mode_NE x y) = true /\ B2R (Bplus mode_NE x y) = rnd (B2R x + B2R y).
  Proof.
    intros Hx Hy Fx Fy B He. pose proof (nn_B2R x Hx). pose proof (nn_B2R y Hy).
    assert (P : (0 <= rnd (B2R x + B2R y))%R) by (apply rnd_ge_0; lra).
    pose proof (Bplus_correct 53 1024 prec53 emax1024 mode_NE x y Fx Fy) as M. change (SpecFloat.fexp 53 1024) with (FLT_exp (-1074) 53) in M.
    cbn [round_mode] in M. rewrite (small_lt_max _ e) in M by (assumption || (split; assumption)).
    destruct M as (E & F & _).
    split; [|split; [exact F|exact E]]. apply plus_nn; assumption.
  Qed.

  (** 2^68 + 2^14 rounds to 2^68 *)
  Lemma rnd_saturates : rnd (bpow radix2 68 + bpow radix2 14) = bpow radix2 68.
  Proof.
    assert (T : B2R (Bplus mode_NE (b64_dy 1 68) (b64_dy 1 14)) = B2R (b64_dy 1 68)).
    { f_equal. apply b64_eq_SF. vm_compute. reflexivity. }
    assert (E68 : B2R (b64_dy 1 68) = bpow radix2 68).
    { rewrite (B2R_of_SF _ (S754_finite false 4503599627370496 16)) by (vm_compute; reflexivity).
      unfold SF2R. cbn [cond_Zopp]. rewrite (F2R_pow2 _ _ 52) by (reflexivity || lia). reflexivity. }
    assert (E14 : B2R (b64_dy 1 14) = bpow radix2 14).
    { rewrite (B2R_of_SF _ (S754_finite false 4503599627370496 (-38))) by (vm_compute; reflexivity).
      unfold SF2R. cbn [cond_Zopp]. rewrite (F2R_pow2 _ _ 52) by (reflexivity || lia). reflexivity. }
    pose proof (Bplus_correct 53 1024 prec53 emax1024 mode_NE (b64_dy 1 68) (b64_dy 1 14) eq_refl eq_refl) as M.
    change (SpecFloat.fexp 53 1024) with (FLT_exp (-1074) 53) in M. cbn [round_mode] in M. rewrite E68, E14 in M.
    rewrite (small_lt_max _ 69) in M; [|split|lia].
    - destruct M as (M & _). rewrite <- M, T. exact E68.
    - apply rnd_ge_0. pose proof (bpow_gt_0 radix2 68). pose proof (bpow_gt_0 radix2 14). lra.
    - rewrite <- (rnd_bpow 69) by lia. apply rnd_le. change 69 with (1 + 68). rewrite bpow_plus. change (bpow radix2 1) with 2%R.
      assert (bpow radix2 14 <= bpow radix2 68)%R by (apply bpow_le; lia). lra.
  Qed.

  Lemma nrm_step_ok (x : b64) (a : @nrm_acc b64) : is_nan x = false -> acc_ok a -> acc_ok (nrm_step x a).
  Proof.
    intros Nx (As & Fs & Bs & Am & Ab). unfold nrm_step. cbn [fabs NBn B64].
    assert (Hx := nn_abs x Nx). set (ax := Babs x) in *.
    rewrite b64_tbig, b64_tsml, b64_sbig, b64_ssml, !b64_sq. cbn [flt fmul fadd NBn B64].
    destruct (Bltb (b64_dy 1 505) ax) eqn:B; [|destruct (Bltb ax (b64_dy 1 (-511))) eqn:S].
    - unfold acc_ok. cbn [asml amed abig]. repeat split; try tauto; try apply As; try apply Am.
      all: apply plus_nn; [assumption|]; apply square_nn; apply mult_nn; try assumption; try apply nn_const; try reflexivity; try (cbn; tauto).
      all: try (intros _ _; rewrite R_sbig; pose proof (bpow_gt_0 radix2 (-519)); lra).
      all: intros H; discriminate H.
    - destruct (notbig a); [|repeat split; try tauto; try apply As; try apply Am; apply Ab].
      assert (Nt : nn (b64_dy 1 (-511))) by (apply nn_const; [reflexivity|cbn; tauto]).
      assert (Ns : nn (b64_dy 1 518)) by (apply nn_const; [reflexivity|cbn; tauto]).
      assert (Fx : is_finite ax = true /\ (B2R ax <= bpow radix2 (-511))%R).
      { destruct (is_finite ax) eqn:Fx; [|rewrite (nn_not_finite ax Hx Fx) in S; vm_compute in S; discriminate].
        split; [reflexivity|]. rewrite Bltb_correct in S by (assumption || reflexivity). rewrite R_tsml in S.
        revert S. case Rlt_bool_spec; [lra|discriminate]. }
      destruct Fx as (Fx & Bx). pose proof (nn_B2R ax Hx).
      assert (M1 : (rnd (B2R ax * B2R (b64_dy 1 518)) <= bpow radix2 7)%R).
      { rewrite <- (rnd_bpow 7) by lia. apply rnd_le. rewrite R_ssml. change 7 with (-511 + 518). rewrite bpow_plus.
        pose proof (bpow_gt_0 radix2 518). nra. }
      destruct (mult_small ax (b64_dy 1 518) 7 Hx Ns Fx eq_refl M1 ltac:(lia)) as (N1 & F1 & E1).
      set (p := Bmult mode_NE ax (b64_dy 1 518)) in *. pose proof (nn_B2R p N1).
      assert (M2 : (rnd (B2R p * B2R p) <= bpow radix2 14)%R).
      { rewrite <- (rnd_bpow 14) by lia. apply rnd_le. rewrite E1 in *. change 14 with (7 + 7). rewrite bpow_plus. nra. }
      destruct (mult_small p p 14 N1 N1 F1 F1 M2 ltac:(lia)) as (N2 & F2 & E2).
      set (q := Bmult mode_NE p p) in *. 
      assert (M3 : (rnd (B2R (asml a) + B2R q) <= bpow radix2 68)%R).
      { rewrite <- rnd_saturates. apply rnd_le. rewrite E2. lra. }
      destruct (plus_small (asml a) q 68 As N2 Fs F2 M3 ltac:(lia)) as (N3 & F3 & E3).
      unfold acc_ok. cbn [asml amed abig]. split; [exact N3|]. split; [exact F3|]. split; [rewrite E3; exact M3|]. split; assumption.
    - unfold acc_ok. cbn [asml amed abig]. split; [assumption|]. split; [assumption|]. split; [assumption|]. split; [|assumption].
      apply plus_nn; [assumption|]. apply square_nn. apply Hx.
  Qed.

  (** 1 + (z/w)^2 for 0 <= z <= w, w > 0 *)
  Lemma ratio_factor (w z : b64) : nn w -> nn z -> is_finite z = true -> (is_finite w = true -> 0 < B2R w)%R -> Bltb w z = false ->
    let p := (f1 + (z / w) * (z / w))%num in nn p /\ is_finite p = true /\ B2R p <> 0%R.
  Proof.
    intros Hw Hz Fz Pw L. cbv zeta.
    assert (ONE : forall u : b64, u = @f1 b64 NBn -> nn u /\ is_finite u = true /\ B2R u <> 0%R).
    { intros u ->. split; [split; reflexivity|]. split; [reflexivity|]. rewrite R_one. lra. }
    destruct (is_finite w) eqn:Fw.
    - destruct (nn_cmp_finite w z Hw Hz L Fw) as [_ LE]. specialize (Pw eq_refl).
      destruct (Req_dec (B2R z) 0) as [Z|NZ].
      + assert (z = B754_zero false) as ->.
        { apply nn_eq0; [assumption|]. rewrite Bltb_correct by (reflexivity || assumption). change (B2R (b64_dy 0 0)) with 0%R.
          apply Rlt_bool_false. lra. }
        apply ONE. destruct Hw as [Nw Sw]. destruct w as [s|s| |s m e B]; cbn in Fw, Sw; try discriminate; subst s.
        * cbn in Pw. lra.
        * reflexivity.
      + assert (Pz : (0 < B2R z)%R) by (pose proof (nn_B2R z Hz); lra).
        destruct (root_bounds lm w z Hw Hz Fw Fz (conj Pz LE)) as (Ns & Fs & Bs & Es).
        cbn [fsqrt fadd fmul fdiv NBl B64] in *.
        assert (Np : nn (f1 + z / w * (z / w))%num).
        { cbn [fadd fmul fdiv NBn B64]. apply plus_nn; [split; reflexivity|]. apply square_nn.
          apply div_nn; auto. intros _. lra. }
        cbn [fadd fmul fdiv NBn B64] in Np.
        destruct (sqrt_nn _ Np) as (_ & FS & ES). cbn [fadd fmul fdiv NBn B64] in *.
        change (@f1 b64 (NBl lm)) with (@f1 b64 NBn) in *.
        rewrite FS in Fs. split; [exact Np|]. split; [exact Fs|]. intros Z.
        rewrite (ES Fs), Z, sqrt_0 in Bs. rewrite round_0 in Bs by typeclasses eauto. lra.
    - rewrite (nn_not_finite w Hw Fw). apply ONE.
      destruct Hz as [Nz Sz]. destruct z as [s|s| |s m e B]; cbn in Fz, Sz; try discriminate; subst s; reflexivity.
  Qed.

  Lemma nrm_finish_ok (a : @nrm_acc b64) : acc_ok a -> nn (nrm_finish a).
  Proof.
    intros (As & Fs & Bs & Am & Ab). unfold nrm_finish. cbv zeta.
    assert (N1 : nn (@f1 b64 NBn)) by (split; reflexivity).
    assert (NB : nn (b64_dy 1 (-519))) by (apply nn_const; [reflexivity|cbn; tauto]).
    assert (NS : nn (b64_dy 1 518)) by (apply nn_const; [reflexivity|cbn; tauto]).
    pose proof (bpow_gt_0 radix2 (-519)) as P1. pose proof (bpow_gt_0 radix2 518) as P2.
    assert (FIN : forall s u : b64, nn s -> is_finite s = true -> B2R s <> 0%R -> nn u -> nn (fmul s (fsqrt u))).
    { intros s u Hs Fsc Zs Hu. cbn [fmul fsqrt NBn B64]. apply mult_nn; auto; [|congruence]. apply sqrt_nn; assumption. }
    destruct (_ || _)%bool eqn:MC.
    - destruct (flt _ (abig a)).
      + rewrite b64_sbig. apply FIN.
        * split; vm_compute; reflexivity.
        * vm_compute; reflexivity.
        * rewrite (B2R_of_SF _ (S754_finite false 4503599627370496 467)) by (vm_compute; reflexivity).
          unfold SF2R. cbn [cond_Zopp]. rewrite (F2R_pow2 _ _ 52) by (reflexivity || lia). pose proof (bpow_gt_0 radix2 (52 + 467)). lra.
        * cbn [fadd fmul NBn B64]. apply plus_nn; [assumption|].
          apply mult_nn; auto; try (intros H; discriminate H); try (intros _ _; rewrite R_sbig; lra).
          apply mult_nn; auto; try (intros H; discriminate H). intros _ _; rewrite R_sbig; lra.
      + destruct (flt _ (asml a)) eqn:SP.
        * rewrite b64_ssml.
          destruct (sqrt_nn (amed a) Am) as (Ha & Fa & Ea). destruct (sqrt_nn (asml a) As) as (Hb & Fb & Eb).
          cbn [fsqrt fdiv flt NBn B64] in *. set (ra := Bsqrt mode_NE (amed a)) in *.
          set (rb := Bdiv mode_NE (Bsqrt mode_NE (asml a)) (b64_dy 1 518)).
          rewrite Fs in Fb. specialize (Eb Fs).
          (* sqrt(asml) <= 2^34, so the quotient does not overflow *)
          assert (DB : nn rb /\ is_finite rb = true).
          { assert (R1 : (0 <= B2R (Bsqrt mode_NE (asml a)) <= bpow radix2 34)%R).
            { split; [apply nn_B2R; assumption|]. rewrite Eb, <- (rnd_bpow 34) by lia. apply rnd_le.
              rewrite <- (sqrt_square (bpow radix2 34)) by apply bpow_ge_0. rewrite <- bpow_plus. apply sqrt_le_1_alt. exact Bs. }
            assert (Z5 : B2R (b64_dy 1 518) <> 0%R) by (rewrite R_ssml; lra).
            pose proof (Bdiv_correct 53 1024 prec53 emax1024 mode_NE (Bsqrt mode_NE (asml a)) (b64_dy 1 518) Z5) as D.
            change (SpecFloat.fexp 53 1024) with (FLT_exp (-1074) 53) in D. cbn [round_mode] in D.
            rewrite (small_lt_max _ 34) in D; [|split|lia].
            - destruct D as (_ & D & _). rewrite Fb in D. split; [|exact D]. apply div_nn; auto.
            - apply rnd_ge_0. rewrite R_ssml. apply Rmult_le_pos; [tauto|]. apply Rlt_le, Rinv_0_lt_compat; assumption.
            - rewrite <- (rnd_bpow 34) by lia. apply rnd_le. rewrite R_ssml. apply Rmult_le_reg_r with (bpow radix2 518); [assumption|].
              unfold Rdiv. rewrite Rmult_assoc, Rinv_l, Rmult_1_r by lra.
              assert (1 <= bpow radix2 518)%R by (change 1%R with (bpow radix2 0); apply bpow_le; lia).
              pose proof (bpow_ge_0 radix2 34). nra. }
          destruct DB as (Hrb & Frb).
          (* amed is positive *)
          assert (PA : is_finite ra = true -> (0 < B2R ra)%R).
          { intros Fra. rewrite Fa in Fra. rewrite (Ea Fra).
            assert (A0 : (0 < B2R (amed a))%R).
            { destruct (Rle_lt_dec (B2R (amed a)) 0) as [LE|]; [exfalso|assumption]. pose proof (nn_B2R _ Am).
              assert (amed a = B754_zero false) as E0.
              { apply nn_eq0; [assumption|]. rewrite Bltb_correct by (reflexivity || assumption). apply Rlt_bool_false. exact LE. }
              rewrite E0 in MC. vm_compute in MC. discriminate. }
            (* sqrt of a positive float is at least 2^-537 *)
            assert (LB : (bpow radix2 (-1074) <= B2R (amed a))%R).
            { rewrite <- (Rabs_pos_eq (B2R (amed a))) by lra. apply (abs_B2R_ge_emin 53 1024 (amed a)).
              destruct (amed a) as [s|s| |s m e B]; cbn in A0, Fra |- *; try discriminate; try reflexivity; lra. }
            apply Rlt_le_trans with (bpow radix2 (-537)); [apply bpow_gt_0|]. rewrite <- (rnd_bpow (-537)) by lia. apply rnd_le.
            rewrite <- (sqrt_square (bpow radix2 (-537))) by apply bpow_ge_0. rewrite <- bpow_plus. apply sqrt_le_1_alt. exact LB. }
          assert (BODY : forall z w : b64, nn z -> nn w -> is_finite z = true -> (is_finite w = true -> 0 < B2R w)%R -> Bltb w z = false ->
            nn (fmul (@f1 b64 NBn) (fsqrt (fmul (fpowf w f2) (fadd f1 (fpowf (fdiv z w) f2)))))).
          { intros z w Hz Hw Fz Pw L. apply FIN; [exact N1|reflexivity|rewrite R_one; lra|].
            rewrite (b64_sq w), (b64_sq (fdiv z w)). destruct (ratio_factor w z Hw Hz Fz Pw L) as (Np & Fp & Zp).
            cbn [fmul fadd fdiv NBn B64] in *. apply mult_nn; auto; try congruence. apply square_nn. apply Hw. }
          destruct (Bltb ra rb) eqn:LT.
          -- apply BODY; auto.
             ++ assert (is_finite ra = true \/ is_finite ra = false) as [|Fra] by (destruct (is_finite ra); auto); auto.
                exfalso. rewrite (nn_not_finite ra Ha Fra) in LT. destruct Hrb as [Nb Sb]. clear - LT Sb Nb. destruct rb as [s|s| |s m e B]; cbn in *; subst; discriminate.
             ++ intros _. assert (Fra : is_finite ra = true).
                { destruct (is_finite ra) eqn:Fra; auto. exfalso. rewrite (nn_not_finite ra Ha Fra) in LT. destruct Hrb as [Nb Sb]. clear - LT Sb Nb. destruct rb as [s|s| |s m e B]; cbn in *; subst; discriminate. }
                rewrite Bltb_correct in LT by assumption. revert LT. case Rlt_bool_spec; [|discriminate]. intros LT _. specialize (PA Fra). lra.
             ++ destruct (Bltb rb ra) eqn:LT2; auto. exfalso.
                assert (Fra : is_finite ra = true).
                { destruct (is_finite ra) eqn:Fra; auto. exfalso. rewrite (nn_not_finite ra Ha Fra) in LT. destruct Hrb as [Nb Sb]. clear - LT Sb Nb. destruct rb as [s|s| |s m e B]; cbn in *; subst; discriminate. }
                rewrite Bltb_correct in LT, LT2 by assumption. revert LT LT2. case Rlt_bool_spec; [|discriminate]. case Rlt_bool_spec; [|discriminate]. lra.
          -- apply BODY; auto.
        * apply FIN; [exact N1|reflexivity|rewrite R_one; lra|assumption].
    - destruct (flt _ (abig a)).
      + rewrite b64_sbig. apply FIN.
        * split; vm_compute; reflexivity.
        * vm_compute; reflexivity.
        * rewrite (B2R_of_SF _ (S754_finite false 4503599627370496 467)) by (vm_compute; reflexivity).
          unfold SF2R. cbn [cond_Zopp]. rewrite (F2R_pow2 _ _ 52) by (reflexivity || lia). pose proof (bpow_gt_0 radix2 (52 + 467)). lra.
        * assumption.
      + destruct (flt _ (asml a)).
        * rewrite b64_ssml. apply FIN.
          -- split; vm_compute; reflexivity.
          -- vm_compute; reflexivity.
          -- rewrite (B2R_of_SF _ (S754_finite false 4503599627370496 (-570))) by (vm_compute; reflexivity).
             unfold SF2R. cbn [cond_Zopp]. rewrite (F2R_pow2 _ _ 52) by (reflexivity || lia). pose proof (bpow_gt_0 radix2 (52 + -570)). lra.
          -- assumption.
        * apply FIN; [exact N1|reflexivity|rewrite R_one; lra|assumption].
  Qed.

  Lemma acc_ok_0 : acc_ok (mkAcc true (@f0 b64 NBn) (@f0 b64 NBn) (@f0 b64 NBn)).
  Proof.
    unfold acc_ok. cbn [asml amed abig]. split; [split; reflexivity|]. split; [reflexivity|]. split; [|split; split; reflexivity].
    change (B2R (@f0 b64 NBn)) with 0%R. apply bpow_ge_0.
  Qed.

  Lemma dnrm2_no_nan n (x : fa b64) incx :
    (forall t, 0 <= t < n -> elem x (stride n incx t) <> Some B754_nan) ->
    is_nan (@dnrm2_fa b64 NBn n x incx) = false /\ Bsign (@dnrm2_fa b64 NBn n x incx) = false.
  Proof.
    intros H. destruct (Z.le_gt_cases n 0).
    { rewrite dnrm2_empty by assumption. split; reflexivity. }
    destruct (@dnrm2_loop b64 NBn (fun _ => acc_ok) n x incx) as (a & A & ->); [lia|exact acc_ok_0| |apply nrm_finish_ok; assumption].
    intros t a Ht A. apply nrm_step_ok; [|assumption]. specialize (H t Ht). rewrite get1_elem.
    revert H. destruct (elem x (stride n incx t)) as [y|]; [|intros _; vm_compute; reflexivity]. destruct y; try reflexivity. intros HN; exfalso; apply HN; reflexivity.
  Qed.

  (** the norm of a vector of signed zeros *)
  Lemma dnrm2_zeros n (x : fa b64) incx :
    (forall t, 0 <= t < n -> exists s, elem x (stride n incx t) = Some (B754_zero s)) ->
    @dnrm2_fa b64 NBn n x incx = B754_zero false.
  Proof.
    intros H. destruct (Z.le_gt_cases n 0).
    { rewrite dnrm2_empty by assumption. reflexivity. }
    destruct (@dnrm2_loop b64 NBn (fun _ a => asml a = B754_zero false /\ amed a = B754_zero false /\ abig a = B754_zero false) n x incx)
      as (a & (A1 & A2 & A3) & ->); [lia|repeat split| |].
    - intros t a Ht (A1 & A2 & A3). destruct (H t Ht) as (s & E). rewrite get1_elem, E.
      unfold nrm_step. cbn [fabs NBn B64 Babs]. rewrite b64_tbig, b64_tsml, b64_ssml. rewrite !b64_sq. cbn [flt fmul fadd NBn B64].
      change (Bltb (b64_dy 1 505) (B754_zero false)) with false. change (Bltb (B754_zero false) (b64_dy 1 (-511))) with true.
      destruct (notbig a); cbn [asml amed abig]; rewrite ?A1, ?A2, ?A3; repeat split; reflexivity.
    - unfold nrm_finish. rewrite A1, A2, A3. reflexivity.
  Qed.

  (** an infinite element makes the norm +infinity *)
  Lemma dnrm2_inf n (x : fa b64) incx t s :
    (forall t, 0 <= t < n -> elem x (stride n incx t) <> Some B754_nan) ->
    0 <= t < n -> elem x (stride n incx t) = Some (B754_infinity s) ->
    @dnrm2_fa b64 NBn n x incx = B754_infinity false.
  Proof.
    intros H Ht E.
    destruct (@dnrm2_loop b64 NBn (fun k a => acc_ok a /\ (t < k -> abig a = B754_infinity false)) n x incx) as (a & [A AI] & ->);
      [lia|split; [exact acc_ok_0|lia]| |].
    - intros k a Hk [A AI].
      assert (Nk : is_nan (get1 x (stride n incx k)) = false).
      { specialize (H k Hk). rewrite get1_elem. revert H. destruct (elem x (stride n incx k)) as [y|]; [|intros _; vm_compute; reflexivity]. destruct y; try reflexivity. intros HN; exfalso; apply HN; reflexivity. }
      split; [apply nrm_step_ok; assumption|]. intros L. destruct (Z.eq_dec k t) as [->|].
      + rewrite get1_elem, E. unfold nrm_step. cbn [fabs NBn B64 Babs]. rewrite b64_tbig, b64_sbig, b64_sq. cbn [flt fmul fadd NBn B64].
        destruct A as (_ & _ & _ & _ & [Nb Sb]).
        change (Bltb (b64_dy 1 505) (B754_infinity false)) with true. cbn [abig].
        change (Bmult mode_NE (B754_infinity false) (b64_dy 1 (-519))) with (B754_infinity false : b64).
        destruct (abig a) as [s'|s'| |s' m e B]; cbn in Nb, Sb; try discriminate; subst; reflexivity.
      + assert (EA : abig a = B754_infinity false) by (apply AI; lia). unfold nrm_step.
        destruct (flt _ _).
        * cbn [abig]. rewrite EA, b64_sq, b64_sbig. cbn [fmul fadd fabs NBn B64].
          assert (NQ : nn (Bmult mode_NE (Bmult mode_NE (Babs (get1 x (stride n incx k))) (b64_dy 1 (-519))) (Bmult mode_NE (Babs (get1 x (stride n incx k))) (b64_dy 1 (-519))))).
          { apply square_nn. apply mult_nn; [apply nn_abs; assumption|apply nn_const; [reflexivity|cbn; tauto]| |intros HH; discriminate HH].
            intros _ _. rewrite R_sbig. pose proof (bpow_gt_0 radix2 (-519)). lra. }
          revert NQ. generalize (Bmult mode_NE (Bmult mode_NE (Babs (get1 x (stride n incx k))) (b64_dy 1 (-519))) (Bmult mode_NE (Babs (get1 x (stride n incx k))) (b64_dy 1 (-519)))).
          intros q [Nq Sq]. destruct q as [s'|s'| |s' m e B]; cbn in Nq, Sq; try discriminate; subst; reflexivity.
        * destruct (flt _ _); [destruct (notbig a); assumption|assumption].
    - specialize (AI ltac:(lia)). destruct A as (_ & _ & _ & Am & _). unfold nrm_finish. cbv zeta. rewrite AI.
      change (flt f0 (B754_infinity false)) with true.
      rewrite b64_sbig.
      match goal with |- context [fsqrt ?u] => assert (S : u = (B754_infinity false : b64)) end.
      { destruct (_ || _)%bool; [|reflexivity]. cbn [fmul fadd NBn B64].
        assert (NQ : nn (Bmult mode_NE (Bmult mode_NE (amed a) (b64_dy 1 (-519))) (b64_dy 1 (-519)))).
        { pose proof (bpow_gt_0 radix2 (-519)).
          assert (NB : nn (b64_dy 1 (-519))) by (apply nn_const; [reflexivity|cbn; tauto]).
          apply mult_nn; auto; try (intros HH; discriminate HH); try (intros _ _; rewrite R_sbig; lra).
          apply mult_nn; auto; try (intros HH; discriminate HH). intros _ _; rewrite R_sbig; lra. }
        revert NQ. generalize (Bmult mode_NE (Bmult mode_NE (amed a) (b64_dy 1 (-519))) (b64_dy 1 (-519))).
        intros q [Nq Sq]. destruct q as [s'|s'| |s' m e B]; cbn in Nq, Sq; try discriminate; subst; reflexivity. }
      rewrite S. apply b64_eq_SF. vm_compute. reflexivity.
  Qed.
End F64.
