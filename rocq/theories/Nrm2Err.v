(** dnrm2 in binary64: the error of the computed norm. *)
From Coq Require Import Reals Lra Floats.SpecFloat.
From Flocq Require Import IEEE754.BinarySingleNaN Core Mult_error.
From Verif Require Import Base Num Array Blas Spec SpecR SpecErr B64 B64Lemmas B64Nn MachProofs Lapy2Proofs Lists FaLemmas Blas1Proofs Nrm2Proofs Nrm2F64 RsumLemmas RoundErr AppErr Lapy2Err.
Open Scope R_scope.

Section Terms.
  Context (lm : libm) (LM : libm_ok lm).
  #[local] Instance NBe : Num b64 := B64 lm.

  Lemma R_tbig : B2R (b64_dy 1 505) = bpow radix2 505.
  Proof.
    rewrite (B2R_of_SF _ (S754_finite false 4503599627370496 453)) by (vm_compute; reflexivity).
    unfold SF2R. cbn [cond_Zopp]. rewrite (F2R_pow2 _ _ 52) by (reflexivity || lia). reflexivity.
  Qed.
  Lemma t_big : @nrm_tbig b64 NBe = b64_dy 1 505. Proof. exact (b64_tbig lm LM). Qed.
  Lemma t_sml : @nrm_tsml b64 NBe = b64_dy 1 (-511). Proof. exact (b64_tsml lm LM). Qed.
  Lemma s_sml : @nrm_ssml b64 NBe = b64_dy 1 518. Proof. exact (b64_ssml lm LM). Qed.
  Lemma s_big : @nrm_sbig b64 NBe = b64_dy 1 (-519). Proof. exact (b64_sbig lm LM). Qed.
  Lemma p_sq (x : b64) : fpowf x (@f2 b64 NBe) = Bmult mode_NE x x. Proof. exact (b64_sq lm LM x). Qed.
  Lemma bp (e : Z) : 0 < bpow radix2 e. Proof. apply bpow_gt_0. Qed.
  Lemma bpp a b : bpow radix2 a * bpow radix2 b = bpow radix2 (a + b). Proof. symmetry. apply bpow_plus. Qed.

  Lemma mult_fits (x y : b64) e : nn x -> nn y -> is_finite x = true -> is_finite y = true -> B2R x * B2R y <= bpow radix2 e -> (-1074 <= e < 1024)%Z ->
    nn (Bmult mode_NE x y) /\ is_finite (Bmult mode_NE x y) = true /\ B2R (Bmult mode_NE x y) = rnd (B2R x * B2R y).
  Proof. intros Hx Hy Fx Fy B He. apply (mult_small x y e); try assumption; try lia. rewrite <- (rnd_bpow e) by lia. apply rnd_le. exact B. Qed.

  (** the square of a medium element *)
  Lemma term_med (ax : b64) : nn ax -> is_finite (Bmult mode_NE ax ax) = true -> bpow radix2 (-511) <= B2R ax ->
    app 1 (B2R (Bmult mode_NE ax ax)) (B2R ax * B2R ax) 0 /\ bpow radix2 (-1022) <= B2R (Bmult mode_NE ax ax).
  Proof.
    intros N F L. pose proof (bp (-511)) as B5. assert (S : bpow radix2 (-1022) <= B2R ax * B2R ax).
    { change (-1022)%Z with (-511 + -511)%Z. rewrite bpow_plus. apply Rmult_le_compat; lra. }
    pose proof (bp (-1022)) as B1.
    destruct (mult_fin _ _ F) as (_ & _ & E & _). rewrite E. split.
    - apply app_rel; [lra|]. pose proof (rnd_err_normal (B2R ax * B2R ax)) as R. rewrite Rabs_pos_eq in R by lra. apply R. exact S.
    - rewrite <- (rnd_bpow (-1022)) by lia. apply rnd_le. exact S.
  Qed.

  (** a small element, scaled up *)
  Lemma term_sml (ax : b64) : nn ax -> is_finite ax = true -> B2R ax <= bpow radix2 (-511) ->
    let p := Bmult mode_NE ax (b64_dy 1 518) in let q := Bmult mode_NE p p in
    nn q /\ is_finite q = true /\ app 1 (B2R q) (bpow radix2 1036 * (B2R ax * B2R ax)) eta64.
  Proof.
    intros N F L. cbv zeta. pose proof (nn_B2R _ N) as H0. pose proof (bp 518) as B5.
    assert (Ns : nn (b64_dy 1 518)) by (apply nn_const; [reflexivity|cbn; tauto]).
    destruct (mult_fits ax (b64_dy 1 518) 7 N Ns F eq_refl) as (N1 & F1 & E1); [|lia|].
    { rewrite R_ssml. change 7%Z with (-511 + 518)%Z. rewrite bpow_plus. apply Rmult_le_compat_r; lra. }
    rewrite R_ssml in E1. rewrite round_generic in E1; [|typeclasses eauto|apply (mult_bpow_pos_exact_FLT radix2 (-1074) 53); [apply fmt|lia]].
    set (p := Bmult mode_NE ax (b64_dy 1 518)) in *. pose proof (nn_B2R _ N1) as Hp.
    assert (EQ : B2R p * B2R p = bpow radix2 1036 * (B2R ax * B2R ax)). { rewrite E1. change 1036%Z with (518 + 518)%Z. rewrite bpow_plus. ring. }
    destruct (mult_fits p p 14 N1 N1 F1 F1) as (N2 & F2 & E2); [|lia|].
    { rewrite E1. change 14%Z with (7 + 7)%Z. rewrite bpow_plus. assert (B2R ax * bpow radix2 518 <= bpow radix2 7) by (change 7%Z with (-511 + 518)%Z; rewrite bpow_plus; apply Rmult_le_compat_r; lra). apply Rmult_le_compat; nra. }
    split; [exact N2|]. split; [exact F2|]. rewrite <- EQ. destruct (mult_fin _ _ F2) as (_ & _ & _ & E). apply app_eta; [nra|]. rewrite (Rabs_pos_eq (B2R p * B2R p)) in E by nra. exact E.
  Qed.

  (** a big element, scaled down *)
  Lemma term_big (ax : b64) : nn ax -> is_finite ax = true -> bpow radix2 505 <= B2R ax ->
    let p := Bmult mode_NE ax (b64_dy 1 (-519)) in let q := Bmult mode_NE p p in
    nn q /\ is_finite q = true /\ app 1 (B2R q) (bpow radix2 (-1038) * (B2R ax * B2R ax)) 0 /\ bpow radix2 (-28) <= B2R q.
  Proof.
    intros N F L. cbv zeta. pose proof (nn_B2R _ N) as H0. pose proof (bp (-519)) as B5.
    assert (Ns : nn (b64_dy 1 (-519))) by (apply nn_const; [reflexivity|cbn; tauto]).
    assert (U : B2R ax <= bpow radix2 1024). { pose proof (abs_B2R_lt_emax 53 1024 ax) as U. rewrite Rabs_pos_eq in U by lra. lra. }
    assert (M : B2R ax * bpow radix2 (-519) <= bpow radix2 505) by (change 505%Z with (1024 + -519)%Z; rewrite bpow_plus; apply Rmult_le_compat_r; lra).
    destruct (mult_fits ax (b64_dy 1 (-519)) 505 N Ns F eq_refl) as (N1 & F1 & E1); [rewrite R_sbig; exact M|lia|].
    rewrite R_sbig in E1. rewrite round_generic in E1; [|typeclasses eauto|].
    2:{ apply (mult_bpow_exact_FLT radix2 (-1074) 53); [apply fmt|]. assert (506 <= mag radix2 (B2R ax))%Z; [|lia]. apply mag_ge_bpow. rewrite Rabs_pos_eq by lra. exact L. }
    set (p := Bmult mode_NE ax (b64_dy 1 (-519))) in *. pose proof (nn_B2R _ N1) as Hp.
    assert (LP : bpow radix2 (-14) <= B2R p) by (rewrite E1; change (-14)%Z with (505 + -519)%Z; rewrite bpow_plus; apply Rmult_le_compat_r; lra).
    assert (EQ : B2R p * B2R p = bpow radix2 (-1038) * (B2R ax * B2R ax)). { rewrite E1. change (-1038)%Z with (-519 + -519)%Z. rewrite bpow_plus. ring. }
    pose proof (bp (-14)) as B14.
    destruct (mult_fits p p 1010 N1 N1 F1 F1) as (N2 & F2 & E2); [|lia|].
    { change 1010%Z with (505 + 505)%Z. rewrite bpow_plus. rewrite E1 in *. apply Rmult_le_compat; lra. }
    split; [exact N2|]. split; [exact F2|]. rewrite <- EQ.
    assert (S : bpow radix2 (-28) <= B2R p * B2R p) by (change (-28)%Z with (-14 + -14)%Z; rewrite bpow_plus; apply Rmult_le_compat; lra).
    rewrite E2. split.
    - apply app_rel; [nra|]. pose proof (rnd_err_normal (B2R p * B2R p)) as R. rewrite Rabs_pos_eq in R by nra. apply R.
      apply Rle_trans with (bpow radix2 (-28)); [apply bpow_le; lia|exact S].
    - rewrite <- (rnd_bpow (-28)) by lia. apply rnd_le. exact S.
  Qed.

  (** one addition to an accumulator *)
  Lemma acc_plus q (x t : b64) X T D d : (1 <= q)%nat -> is_finite (Bplus mode_NE x t) = true -> app q (B2R x) X D -> app 1 (B2R t) T d -> 0 <= B2R x -> 0 <= B2R t ->
    0 <= X -> 0 <= T -> 0 <= D -> 0 <= d -> app (S q) (B2R (Bplus mode_NE x t)) (X + T) (D + d).
  Proof.
    intros Hq F Hx Ht x0 t0 X0 T0 D0 d0. destruct (plus_fin _ _ F) as (_ & _ & _ & E). rewrite (Rabs_pos_eq (B2R x + B2R t)) in E by lra.
    assert (A : app q (B2R x + B2R t) (X + T) (D + d)) by (apply app_sum; [exact Hx|apply (app_mono 1 q _ _ d d); try assumption; lra]).
    assert (XT : 0 <= B2R x + B2R t) by lra. rewrite <- (Rplus_0_l (D + d)). apply (app_comp 1 q _ (B2R x + B2R t)); try lra; [|exact A]. apply app_rel; assumption.
  Qed.

  (** *** the accumulators *)
  Variable v : Z -> b64.
  Hypothesis Fv : forall t, is_finite (v t) = true.
  Definition vR t := B2R (v t).
  Definition bigb t := Bltb (b64_dy 1 505) (Babs (v t)).
  Definition smlb t := Bltb (Babs (v t)) (b64_dy 1 (-511)).
  Definition bgv t := if bigb t then vR t * vR t else 0.
  Definition smv t := if bigb t then 0 else if smlb t then vR t * vR t else 0.
  Definition mdv t := if bigb t then 0 else if smlb t then 0 else vR t * vR t.
  Let SS f k := Rsum_range f 0 (k - 1).
  Lemma SS_step f t : (0 <= t)%Z -> SS f (t + 1) = SS f t + f t.
  Proof. intros H. unfold SS. replace (t + 1 - 1)%Z with t by lia. apply Rsum_range_snoc. assumption. Qed.
  Lemma vsq t : 0 <= vR t * vR t. Proof. apply Rle_0_sqr. Qed.
  Lemma bgv0 t : 0 <= bgv t. Proof. unfold bgv. pose proof (vsq t). destruct (bigb t); lra. Qed.
  Lemma smv0 t : 0 <= smv t. Proof. unfold smv. pose proof (vsq t). destruct (bigb t), (smlb t); lra. Qed.
  Lemma mdv0 t : 0 <= mdv t. Proof. unfold mdv. pose proof (vsq t). destruct (bigb t), (smlb t); lra. Qed.
  Lemma SS0 f k : (forall t, 0 <= f t) -> 0 <= SS f k. Proof. intros H. apply Rsum_range_nonneg. auto. Qed.
  Lemma av t : B2R (Babs (v t)) = Rabs (vR t). Proof. apply B2R_Babs. Qed.
  Lemma av2 t : B2R (Babs (v t)) * B2R (Babs (v t)) = vR t * vR t.
  Proof. rewrite av. symmetry. apply Rsqr_abs. Qed.
  Lemma Fav t : is_finite (Babs (v t)) = true. Proof. rewrite is_finite_Babs. apply Fv. Qed.
  Lemma Nav t : nn (Babs (v t)). Proof. apply nn_abs. apply finite_not_nan. apply Fv. Qed.
  Lemma bigb_true t : bigb t = true -> bpow radix2 505 < B2R (Babs (v t)).
  Proof. unfold bigb. rewrite Bltb_correct by (reflexivity || apply Fav). rewrite R_tbig. case Rlt_bool_spec; [trivial|discriminate]. Qed.
  Lemma bigb_false t : bigb t = false -> B2R (Babs (v t)) <= bpow radix2 505.
  Proof. unfold bigb. rewrite Bltb_correct by (reflexivity || apply Fav). rewrite R_tbig. case Rlt_bool_spec; [discriminate|trivial]. Qed.
  Lemma smlb_true t : smlb t = true -> B2R (Babs (v t)) <= bpow radix2 (-511).
  Proof. unfold smlb. rewrite Bltb_correct by (reflexivity || apply Fav). rewrite R_tsml. case Rlt_bool_spec; [lra|discriminate]. Qed.
  Lemma smlb_false t : smlb t = false -> bpow radix2 (-511) <= B2R (Babs (v t)).
  Proof. unfold smlb. rewrite Bltb_correct by (reflexivity || apply Fav). rewrite R_tsml. case Rlt_bool_spec; [discriminate|trivial]. Qed.

  Record err_inv (k : Z) (a : @nrm_acc b64) : Prop := {
    ei_ok : acc_ok a;
    ei_med : is_finite (amed a) = true -> app (Z.to_nat k + 1) (B2R (amed a)) (SS mdv k) 0;
    ei_big : is_finite (abig a) = true -> app (Z.to_nat k + 1) (B2R (abig a)) (bpow radix2 (-1038) * SS bgv k) 0;
    ei_sml : notbig a = true -> app (Z.to_nat k + 1) (B2R (asml a)) (bpow radix2 1036 * SS smv k) (IZR k * eta64);
    ei_nb : if notbig a then SS bgv k = 0 /\ abig a = B754_zero false
            else bpow radix2 1010 <= SS bgv k /\ (is_finite (abig a) = true -> bpow radix2 (-28) <= B2R (abig a));
    ei_m0 : (SS mdv k = 0 /\ amed a = B754_zero false) \/
            (bpow radix2 (-1022) <= SS mdv k /\ (is_finite (amed a) = true -> bpow radix2 (-1022) <= B2R (amed a))) }.

  Lemma err_inv0 : err_inv 0 (mkAcc true f0 f0 f0).
  Proof.
    assert (Z0 : forall f, SS f 0 = 0) by (intros f; apply Rsum_range_nil; lia).
    split; cbn [notbig asml amed abig]; rewrite ?Z0.
    - apply (acc_ok_0 lm).
    - intros _. apply app_refl. lra.
    - intros _. rewrite Rmult_0_r. apply app_refl. lra.
    - intros _. rewrite Rmult_0_r, Rmult_0_l. apply app_refl. lra.
    - split; reflexivity.
    - left. split; reflexivity.
  Qed.

  Lemma plus_ge (x t : b64) c : is_finite (Bplus mode_NE x t) = true -> generic_format radix2 (FLT_exp (-1074) 53) c -> c <= B2R x + B2R t -> c <= B2R (Bplus mode_NE x t).
  Proof. intros F G L. destruct (plus_fin _ _ F) as (_ & _ & -> & _). rewrite <- (round_generic radix2 (FLT_exp (-1074) 53) ZnearestE c G) at 1. apply rnd_le. exact L. Qed.
  Lemma gf e : (-1074 <= e)%Z -> generic_format radix2 (FLT_exp (-1074) 53) (bpow radix2 e).
  Proof. intros H. apply generic_format_bpow. unfold FLT_exp. lia. Qed.

  Lemma err_inv_step k a : (0 <= k)%Z -> err_inv k a -> err_inv (k + 1) (nrm_step (v k) a).
  Proof.
    intros Hk [OK Hmed Hbig Hsml Hnb Hm0]. pose proof (nrm_step_ok lm LM (v k) a (finite_not_nan _ (Fv k)) OK) as OK'. change (NBn lm) with NBe in *.
    pose proof OK as (As & Fs & Bs & Am & Ab). pose proof (nn_B2R _ As) as A0. pose proof (nn_B2R _ Am) as A1. pose proof (nn_B2R _ Ab) as A2.
    pose proof (SS0 mdv k mdv0) as S1. pose proof (SS0 bgv k bgv0) as S2. pose proof (SS0 smv k smv0) as S3. pose proof (vsq k) as V0. pose proof eta64_pos as H0.
    assert (KE : (Z.to_nat (k + 1) + 1 = S (Z.to_nat k + 1))%nat) by lia.
    assert (K0 : 0 <= IZR k * eta64) by (apply Rmult_le_pos; [apply (IZR_le 0); lia|lra]).
    assert (UP : forall y X D, 0 <= X -> 0 <= D -> app (Z.to_nat k + 1) y X D -> app (Z.to_nat (k + 1) + 1) y X D) by (intros; apply (app_mono (Z.to_nat k + 1) _ _ _ D D); [lia|lra|lra|assumption]).
    revert OK'. unfold nrm_step. cbn [fabs NBe B64].
    rewrite t_big, t_sml, s_big, s_sml, !p_sq. cbn [flt fmul fadd NBe B64].
    fold (bigb k). destruct (bigb k) eqn:B; [|fold (smlb k); destruct (smlb k) eqn:M].
    - assert (EB : bgv k = vR k * vR k) by (unfold bgv; rewrite B; reflexivity). assert (EM : mdv k = 0) by (unfold mdv; rewrite B; reflexivity).
      destruct (term_big (Babs (v k)) (Nav k) (Fav k) (Rlt_le _ _ (bigb_true k B))) as (Nq & Fq & Tq & Lq). cbv zeta in *. rewrite av2 in Tq. rewrite <- EB in Tq.
      set (q := Bmult mode_NE (Bmult mode_NE _ _) _) in *. pose proof (nn_B2R _ Nq) as Q0.
      assert (BB : bpow radix2 1010 <= bgv k).
      { rewrite EB, <- av2. change 1010%Z with (505 + 505)%Z. rewrite bpow_plus. pose proof (bigb_true k B). pose proof (bp 505). apply Rmult_le_compat; lra. }
      pose proof (bgv0 k) as BG0. pose proof (bp (-1038)) as B38.
      intros OK'. split; cbn [notbig asml amed abig]; rewrite ?SS_step by exact Hk; rewrite ?EM, ?Rplus_0_r; try exact OK'.
      + intros F. apply UP; [lra|lra|]. apply Hmed. exact F.
      + intros F. destruct (plus_fin _ _ F) as (Fa & _). rewrite KE, Rmult_plus_distr_l. rewrite <- (Rplus_0_r 0). apply acc_plus; try assumption; try lia; try lra; try (apply Rmult_le_pos; lra). apply Hbig. exact Fa.
      + discriminate.
      + split; [lra|]. intros F. apply plus_ge; [exact F|apply gf; lia|lra].
      + exact Hm0.
    - assert (EB : bgv k = 0) by (unfold bgv; rewrite B; reflexivity). assert (EM : mdv k = 0) by (unfold mdv; rewrite B, M; reflexivity). assert (ES : smv k = vR k * vR k) by (unfold smv; rewrite B, M; reflexivity).
      destruct (term_sml (Babs (v k)) (Nav k) (Fav k) (smlb_true k M)) as (Nq & Fq & Tq). cbv zeta in *. rewrite av2 in Tq. rewrite <- ES in Tq.
      set (q := Bmult mode_NE (Bmult mode_NE _ _) _) in *. pose proof (nn_B2R _ Nq) as Q0. pose proof (bp 1036) as B36.
      destruct (notbig a) eqn:NB.
      + intros OK'. split; cbn [notbig asml amed abig]; rewrite ?SS_step by exact Hk; rewrite ?EM, ?EB, ?Rplus_0_r; try exact OK'.
        * intros F. apply UP; [lra|lra|]. apply Hmed. exact F.
        * intros F. apply UP; [pose proof (bp (-1038)); nra|lra|]. apply Hbig. exact F.
        * intros _. pose proof OK' as (_ & Fs' & _). cbn [asml] in Fs'. rewrite KE, Rmult_plus_distr_l, plus_IZR, Rmult_plus_distr_r, Rmult_1_l. pose proof (smv0 k).
          apply acc_plus; try assumption; try lia; try lra; try (apply Rmult_le_pos; lra). apply Hsml. reflexivity.
        * exact Hnb.
        * exact Hm0.
      + intros OK'. split; rewrite ?NB; rewrite ?SS_step by exact Hk; rewrite ?EM, ?EB, ?Rplus_0_r; try exact OK'.
        * intros F. apply UP; [lra|lra|]. apply Hmed. exact F.
        * intros F. apply UP; [pose proof (bp (-1038)); nra|lra|]. apply Hbig. exact F.
        * discriminate.
        * exact Hnb.
        * exact Hm0.
    - assert (EB : bgv k = 0) by (unfold bgv; rewrite B; reflexivity). assert (EM : mdv k = vR k * vR k) by (unfold mdv; rewrite B, M; reflexivity). assert (ES : smv k = 0) by (unfold smv; rewrite B, M; reflexivity).
      pose proof (smlb_false k M) as L511. pose proof (bp (-511)) as B5.
      assert (L22 : bpow radix2 (-1022) <= mdv k). { rewrite EM, <- av2. change (-1022)%Z with (-511 + -511)%Z. rewrite bpow_plus. apply Rmult_le_compat; lra. }
      pose proof (mdv0 k) as MD0. pose proof (square_nn (Babs (v k)) (finite_not_nan _ (Fav k))) as Nq.
      intros OK'. split; cbn [notbig asml amed abig]; rewrite ?SS_step by exact Hk; rewrite ?EB, ?ES, ?Rplus_0_r; try exact OK'.
      + intros F. destruct (plus_fin _ _ F) as (Fa & Fq & _). destruct (term_med _ (Nav k) Fq L511) as (Tq & Lq). rewrite av2, <- EM in Tq. pose proof (bp (-1022)).
        rewrite KE. rewrite <- (Rplus_0_r 0). apply acc_plus; try assumption; try lia; try lra. apply Hmed. exact Fa.
      + intros F. apply UP; [pose proof (bp (-1038)); nra|lra|]. apply Hbig. exact F.
      + intros NB. rewrite plus_IZR. apply (app_mono (Z.to_nat k + 1) _ _ _ (IZR k * eta64)); [lia|pose proof (bp 1036); nra|lra|]. apply Hsml. exact NB.
      + exact Hnb.
      + right. split; [lra|]. intros F. destruct (plus_fin _ _ F) as (Fa & Fq & _). destruct (term_med _ (Nav k) Fq L511) as (Tq & Lq). apply plus_ge; [exact F|apply gf; lia|lra].
  Qed.

  (** *** the last step *)
  Lemma sqrt_fin_inv (x : b64) : is_finite (Bsqrt mode_NE x) = true -> is_finite x = true.
  Proof. destruct x as [s|s| |s m e B]; try reflexivity; try (destruct s; discriminate); discriminate. Qed.
  Lemma app_sqrt_rnd (x : b64) : app 1 (B2R (Bsqrt mode_NE x)) (sqrt (B2R x)) 0.
  Proof. apply app_rel; [apply sqrt_pos|]. apply sqrt_fin. Qed.
  Lemma app_shift q y X D e : app q y X D -> 0 <= X -> 0 <= e -> app q y (X + e) (D + e).
  Proof.
    intros H HX He. unfold app in *. replace (y - (X + e)) with ((y - X) + - e) by ring. eapply Rle_trans; [apply Rabs_triang|]. rewrite Rabs_Ropp, (Rabs_pos_eq e) by exact He.
    pose proof (gam_pos q). pose proof (Pn_ge q). assert (0 <= gam q * e) by nra. assert (1 * e <= P ^ q * e) by (apply Rmult_le_compat_r; lra). lra.
  Qed.
  Lemma scl_big : B2R (@fdiv b64 NBe f1 (b64_dy 1 (-519))) = bpow radix2 519.
  Proof.
    rewrite (B2R_of_SF _ (S754_finite false 4503599627370496 467)) by (vm_compute; reflexivity).
    unfold SF2R. cbn [cond_Zopp]. rewrite (F2R_pow2 _ _ 52) by (reflexivity || lia). reflexivity.
  Qed.
  Lemma scl_sml : B2R (@fdiv b64 NBe f1 (b64_dy 1 518)) = bpow radix2 (-518).
  Proof.
    rewrite (B2R_of_SF _ (S754_finite false 4503599627370496 (-570))) by (vm_compute; reflexivity).
    unfold SF2R. cbn [cond_Zopp]. rewrite (F2R_pow2 _ _ 52) by (reflexivity || lia). reflexivity.
  Qed.
  Lemma mult_one (x : b64) : is_finite (Bmult mode_NE (@f1 b64 NBe) x) = true -> B2R (Bmult mode_NE (@f1 b64 NBe) x) = B2R x.
  Proof. intros F. destruct (mult_fin _ _ F) as (_ & _ & E & _). rewrite E. change (@f1 b64 NBe) with (b64_dy 1 0). rewrite (R_one lm : B2R (b64_dy 1 0) = 1), Rmult_1_l. apply rnd_B2R. Qed.
  Lemma app_mul_normal (x y : b64) : is_finite (Bmult mode_NE x y) = true -> bpow radix2 (-1022) <= B2R x * B2R y -> app 1 (B2R (Bmult mode_NE x y)) (B2R x * B2R y) 0.
  Proof.
    intros F L. pose proof (bp (-1022)). destruct (mult_fin _ _ F) as (_ & _ & -> & _). apply app_rel; [lra|]. rewrite <- (Rabs_pos_eq (B2R x * B2R y)) at 3 by lra. apply rnd_err_normal. rewrite Rabs_pos_eq by lra. exact L.
  Qed.
  Lemma app_mul_eta (x y : b64) : is_finite (Bmult mode_NE x y) = true -> 0 <= B2R x * B2R y -> app 1 (B2R (Bmult mode_NE x y)) (B2R x * B2R y) eta64.
  Proof. intros F L. destruct (mult_fin _ _ F) as (_ & _ & _ & E). rewrite (Rabs_pos_eq (B2R x * B2R y)) in E by exact L. apply app_eta; assumption. Qed.

  (** with a big element *)
  Lemma finish_big q (ab am scl : b64) (mc : bool) Sb Sm Ss : (q <= Z.to_nat (2 ^ 31))%nat -> nn ab -> nn am -> B2R scl = bpow radix2 519 ->
    0 <= Sm -> 0 <= Ss -> bpow radix2 1010 <= Sb -> Ss <= bpow radix2 31 * bpow radix2 (-1022) ->
    (is_finite ab = true -> app q (B2R ab) (bpow radix2 (-1038) * Sb) 0) -> (is_finite am = true -> app q (B2R am) Sm 0) -> (mc = false -> Sm = 0) ->
    let sq := if mc then Bplus mode_NE ab (Bmult mode_NE (Bmult mode_NE am (b64_dy 1 (-519))) (b64_dy 1 (-519))) else ab in
    is_finite sq = true ->
    app (q + 5) (B2R scl * B2R (Bsqrt mode_NE sq)) (sqrt (Sb + Sm + Ss)) 0 /\ bpow radix2 (-1022) <= B2R scl * B2R (Bsqrt mode_NE sq) /\
    (is_finite (Bmult mode_NE scl (Bsqrt mode_NE sq)) = true -> app (q + 6) (B2R (Bmult mode_NE scl (Bsqrt mode_NE sq))) (sqrt (Sb + Sm + Ss)) 0).
  Proof.
    intros Hq Nb Nm Escl M0 S0 B0 SU Hb Hm Hmc. cbv zeta. set (sq := if mc then _ else _). intros Fq.
    pose proof (nn_B2R _ Nb) as B2. pose proof (nn_B2R _ Nm) as M2. pose proof eta64_pos as H0. pose proof u64_pos as U0. pose proof (bp 1010) as BP. pose proof (bp (-1038)) as BC. pose proof (bp (-519)) as BS.
    assert (A1 : app (q + 3) (B2R sq) (bpow radix2 (-1038) * (Sb + Sm)) (2 * eta64)).
    { unfold sq in *. destruct mc.
      - destruct (plus_fin _ _ Fq) as (Fb & F2 & _ & E). destruct (mult_fin _ _ F2) as (F1 & _ & E2' & _). destruct (mult_fin _ _ F1) as (Fm & _ & E1' & _).
        pose proof (app_mul_eta _ _ F1) as T1. pose proof (app_mul_eta _ _ F2) as T2. set (z1 := Bmult mode_NE am (b64_dy 1 (-519))) in *. set (z2 := Bmult mode_NE z1 (b64_dy 1 (-519))) in *.
        rewrite R_sbig in *.
        assert (z10 : 0 <= B2R z1) by (rewrite E1'; apply rnd_ge_0; nra). assert (z20 : 0 <= B2R z2) by (rewrite E2'; apply rnd_ge_0; nra).
        specialize (T1 ltac:(nra)). specialize (T2 ltac:(nra)).
        pose proof (app_scale (bpow radix2 (-519)) _ _ _ _ ltac:(lra) (Hm Fm)) as C1. rewrite Rmult_0_r in C1. rewrite (Rmult_comm (B2R am)) in T1.
        pose proof (app_comp 1 q _ _ _ _ _ T1 C1 ltac:(nra) ltac:(nra) ltac:(lra) ltac:(lra)) as C2.
        pose proof (app_scale (bpow radix2 (-519)) _ _ _ _ ltac:(lra) C2) as C3. rewrite (Rmult_comm (B2R z1)) in T2.
        pose proof (app_comp 1 (1 + q) _ _ _ _ _ T2 C3 ltac:(nra) ltac:(nra) ltac:(lra) ltac:(nra)) as C4.
        rewrite <- (Rmult_assoc (bpow radix2 (-519))), bpp in C4. change (-519 + -519)%Z with (-1038)%Z in C4.
        assert (S1 : bpow radix2 (-519) <= 1) by (change 1 with (bpow radix2 0); apply bpow_le; lia).
        assert (C5 : app (q + 2) (B2R z2) (bpow radix2 (-1038) * Sm) (2 * eta64)) by (apply (app_mono (1 + (1 + q)) (q + 2) _ _ (eta64 + bpow radix2 (-519) * (eta64 + 0)) _ ltac:(lia)); [nra|nra|exact C4]).
        assert (C6 : app (q + 2) (B2R ab) (bpow radix2 (-1038) * Sb) 0) by (apply (app_mono q (q + 2) _ _ 0 0 ltac:(lia)); [nra|lra|apply Hb; exact Fb]).
        pose proof (app_sum _ _ _ _ _ _ _ C6 C5) as C7. rewrite <- Rmult_plus_distr_l, Rplus_0_l in C7.
        rewrite (Rabs_pos_eq (B2R ab + B2R z2)) in E by lra. assert (XX : 0 <= B2R ab + B2R z2) by lra.
        pose proof (app_comp 1 (q + 2) _ _ _ _ _ (app_rel _ _ XX E) C7 XX ltac:(nra) ltac:(lra) ltac:(lra)) as C8. rewrite Rplus_0_l in C8.
        replace (q + 3)%nat with (1 + (q + 2))%nat by lia. exact C8.
      - rewrite (Hmc eq_refl), Rplus_0_r. apply (app_mono q (q + 3) _ _ 0 _ ltac:(lia)); [nra|lra|]. apply Hb. exact Fq. }
    set (T := Sb + Sm + Ss).
    assert (A2 : app (q + 3) (B2R sq) (bpow radix2 (-1038) * T) (2 * eta64 + bpow radix2 (-1038) * Ss)).
    { unfold T. rewrite (Rmult_plus_distr_l _ (Sb + Sm)). apply app_shift; [exact A1|nra|nra]. }
    assert (CT : bpow radix2 (-28) <= bpow radix2 (-1038) * T). { change (-28)%Z with (-1038 + 1010)%Z. rewrite bpow_plus. apply Rmult_le_compat_l; [lra|unfold T; lra]. }
    assert (A3 : app (S (q + 3)) (B2R sq) (bpow radix2 (-1038) * T) 0).
    { apply (app_absorb _ _ _ _ A2). split; [nra|]. apply Rle_trans with (u64 * bpow radix2 (-28)); [|apply Rmult_le_compat_l; lra].
      unfold u64. rewrite bpp. change (-53 + -28)%Z with (1 + -82)%Z. rewrite bpow_plus. change (bpow radix2 1) with 2.
      assert (2 * eta64 <= bpow radix2 (-82)). { unfold eta64. change 2 with (bpow radix2 1). rewrite bpp. apply bpow_le. lia. }
      assert (bpow radix2 (-1038) * Ss <= bpow radix2 (-82)). { apply Rle_trans with (bpow radix2 (-1038) * (bpow radix2 31 * bpow radix2 (-1022))); [apply Rmult_le_compat_l; lra|]. rewrite !bpp. apply bpow_le. lia. }
      lra. }
    assert (G : gam (q + 6) <= / 1000) by (apply gam_small; lia).
    assert (sq0 : 0 <= B2R sq). { unfold sq. destruct mc; [|exact B2]. unfold sq in Fq. destruct (plus_fin _ _ Fq) as (_ & F2 & -> & _). apply rnd_ge_0. destruct (mult_fin _ _ F2) as (F1 & _ & -> & _). destruct (mult_fin _ _ F1) as (_ & _ & -> & _).
      apply Rplus_le_le_0_compat; [exact B2|]. apply rnd_ge_0. rewrite R_sbig. apply Rmult_le_pos; [|lra]. apply rnd_ge_0. nra. }
    assert (T0 : 0 <= T) by (unfold T; lra). pose proof (sqrt_pos T) as N0. pose proof (sqrt_pos (B2R sq)) as N1.
    assert (A4 : app (S (q + 3)) (sqrt (B2R sq)) (bpow radix2 (-519) * sqrt T) 0).
    { replace (bpow radix2 (-519) * sqrt T) with (sqrt (bpow radix2 (-1038) * T)).
      - apply app_sqrt0; [exact A3|exact sq0|nra|]. pose proof (gam_le (S (q + 3)) (q + 6) ltac:(lia)). lra.
      - rewrite sqrt_mult by lra. f_equal. change (-1038)%Z with (-519 + -519)%Z. rewrite bpow_plus. apply sqrt_square. lra. }
    pose proof (app_comp 1 _ _ _ _ _ _ (app_sqrt_rnd sq) A4 N1 ltac:(nra) ltac:(lra) ltac:(lra)) as A5. rewrite Rplus_0_l in A5.
    pose proof (bp 519) as BL. pose proof (app_scale (bpow radix2 519) _ _ _ _ ltac:(lra) A5) as A6. rewrite <- Rmult_assoc, bpp, Rmult_0_r in A6. change (bpow radix2 (519 + -519)) with 1 in A6. rewrite Rmult_1_l in A6.
    assert (NB : bpow radix2 505 <= sqrt T). { rewrite <- (sqrt_square (bpow radix2 505)) by (pose proof (bp 505); lra). apply sqrt_le_1_alt. rewrite bpp. change (505 + 505)%Z with 1010%Z. unfold T. lra. }
    assert (RN : bpow radix2 (-1022) <= B2R scl * B2R (Bsqrt mode_NE sq)).
    { rewrite Escl. pose proof (app_elim _ _ _ _ A6) as [L _]. pose proof (gam_le (1 + S (q + 3)) (q + 6) ltac:(lia)). rewrite Rmult_0_r in L.
      assert (gam (1 + S (q + 3)) * sqrt T <= / 1000 * sqrt T) by (apply Rmult_le_compat_r; lra).
      apply Rle_trans with (bpow radix2 504); [apply bpow_le; lia|]. change 505%Z with (1 + 504)%Z in NB. rewrite bpow_plus in NB. change (bpow radix2 1) with 2 in NB. pose proof (bp 504). lra. }
    split; [replace (q + 5)%nat with (1 + S (q + 3))%nat by lia; rewrite Escl; exact A6|]. split; [exact RN|]. intros F.
    pose proof (app_mul_normal _ _ F RN) as A7. rewrite Escl in A7.
    pose proof (app_comp 1 _ _ _ _ _ _ A7 A6 ltac:(rewrite Escl in RN; pose proof (bp (-1022)); lra) N0 ltac:(lra) ltac:(lra)) as A8. rewrite Rplus_0_l in A8.
    replace (q + 6)%nat with (1 + (1 + S (q + 3)))%nat by lia. exact A8.
  Qed.

  (** 1 + (z/w)^2 *)
  Lemma ratio_err q : 0 <= q <= 1 -> let sh := rnd (1 + rnd (rnd q * rnd q)) in 1 <= sh /\ app 3 sh (1 + q * q) 0.
  Proof.
    intros Hq. pose proof u64_pos as U0. pose proof u64_le as U1. pose proof eta64_pos as H0. pose proof eta_le as H1. cbv zeta.
    assert (Qn : 0 <= rnd q <= 1).
    { split; [apply rnd_ge_0; lra|]. rewrite <- rnd_1. apply round_le; [typeclasses eauto..|lra]. }
    pose proof (rnd_err q) as E1. rewrite (Rabs_pos_eq q) in E1 by lra. set (qh := rnd q) in *.
    pose proof (rnd_err (qh * qh)) as E2. rewrite (Rabs_pos_eq (qh * qh)) in E2 by nra.
    assert (Pn : 0 <= rnd (qh * qh)) by (apply rnd_ge_0; nra). set (ph := rnd (qh * qh)) in *.
    assert (E3 : Rabs (rnd (1 + ph) - (1 + ph)) <= u64 * (1 + ph)).
    { rewrite <- (Rabs_pos_eq (1 + ph)) at 3 by lra. apply rnd_err_normal. rewrite Rabs_pos_eq by lra. apply Rle_trans with 1; [|lra]. change 1 with (bpow radix2 0). apply bpow_le. lia. }
    assert (Sn : 1 <= rnd (1 + ph)). { rewrite <- rnd_1 at 1. apply round_le; [typeclasses eauto..|lra]. }
    set (sh := rnd (1 + ph)) in *. split; [exact Sn|].
    set (A := 1 + q * q).
    assert (HA : 1 <= A /\ 2 * (q * q) <= A) by (unfold A; nra).
    assert (EP : Rabs (ph - q * q) <= 1.6 * u64 * A).
    { apply ab_elim in E1. apply ab_elim in E2.
      assert (D : Rabs (qh - q) <= u64 * q + eta64) by (apply ab_intro; lra).
      assert (D2 : Rabs (qh * qh - q * q) <= (u64 * q + eta64) * (2 * q + (u64 * q + eta64))).
      { replace (qh * qh - q * q) with ((qh - q) * (2 * q + (qh - q))) by ring. rewrite Rabs_mult. apply Rmult_le_compat; [apply Rabs_pos|apply Rabs_pos|exact D|].
        eapply Rle_trans; [apply Rabs_triang|]. rewrite (Rabs_pos_eq (2 * q)) by lra. lra. }
      assert (D3 : (u64 * q + eta64) * (2 * q + (u64 * q + eta64)) <= 2 * u64 * (q * q) + / 1000 * u64).
      { assert (u64 * q <= u64) by nra. assert (0 <= u64 * q) by nra. set (w := u64 * q + eta64). assert (W : 0 <= w <= 1.1 * u64) by (unfold w; lra).
        replace (w * (2 * q + w)) with (2 * u64 * (q * q) + (2 * q) * eta64 + w * w) by (unfold w; ring).
        assert ((2 * q) * eta64 <= 2 * eta64) by nra. assert (w * w <= 2 * / 1000000 * u64) by nra. lra. }
      apply ab_elim in D2. assert (QQ : qh * qh <= q * q + / 1000) by nra. assert (U2 : u64 * (qh * qh) <= u64 * (q * q) + / 1000 * u64) by nra.
      assert (u64 * (2 * (q * q)) <= u64 * A) by nra. assert (u64 * 1 <= u64 * A) by nra.
      apply ab_intro; lra. }
    assert (ES : Rabs (sh - A) <= 2.7 * u64 * A).
    { apply ab_elim in E3. apply ab_elim in EP. unfold A in *. set (B := 1 + q * q) in *. assert (u64 * (1 + ph) <= u64 * (1.001 * B)) by (apply Rmult_le_compat_l; [lra|]; unfold B in *; nra).
      apply ab_intro; unfold B in *; lra. }
    unfold app. eapply Rle_trans; [exact ES|]. rewrite Rmult_0_r, Rplus_0_r. apply Rmult_le_compat_r; [lra|]. unfold gam. cbn [pow]. nra.
  Qed.

  (** w^2 (1 + (z/w)^2) *)
  Lemma ratio_pre (w z : b64) : nn w -> nn z -> bpow radix2 (-511) <= B2R w -> B2R z <= B2R w ->
    let w2 := Bmult mode_NE w w in let f := Bplus mode_NE (@f1 b64 NBe) (Bmult mode_NE (Bdiv mode_NE z w) (Bdiv mode_NE z w)) in
    is_finite w2 = true -> is_finite f = true -> bpow radix2 (-1022) <= B2R w2 * B2R f /\ app 4 (B2R w2 * B2R f) (B2R w * B2R w + B2R z * B2R z) 0.
  Proof.
    intros Nw Nz L511 Hzw. cbv zeta. intros Fw Ff. pose proof (nn_B2R _ Nz) as z0. pose proof (bp (-511)) as B5. pose proof (bp (-1022)) as B1.
    destruct (plus_fin _ _ Ff) as (_ & Fs & Ef & _). destruct (mult_fin _ _ Fs) as (Fd & _ & Es & _).
    assert (W0 : B2R w <> 0) by lra. destruct (div_fin _ _ Fd W0) as (_ & Ed & _). destruct (term_med w Nw Fw L511) as (T1 & T2).
    set (q := B2R z / B2R w) in *. assert (Q : 0 <= q <= 1). { unfold q. split; [apply Rmult_le_pos; [lra|]; left; apply Rinv_0_lt_compat; lra|]. apply Rmult_le_reg_r with (B2R w); [lra|]. unfold Rdiv. rewrite Rmult_assoc, Rinv_l by exact W0. lra. }
    destruct (ratio_err q Q) as (R1 & R2). cbv zeta in *. change (@f1 b64 NBe) with (b64_dy 1 0) in *.
    rewrite Es, Ed, (R_one lm : B2R (b64_dy 1 0) = 1) in Ef. rewrite <- Ef in R1, R2.
    set (w2 := Bmult mode_NE w w) in *. set (f := Bplus mode_NE _ _) in *.
    split; [nra|]. replace (B2R w * B2R w + B2R z * B2R z) with (B2R w * B2R w * (1 + q * q)) by (unfold q; field; exact W0).
    exact (app_mul 1 3 _ _ _ _ T1 R2 ltac:(lra) ltac:(nra) ltac:(nra)).
  Qed.
  Lemma finish_ratio (w z : b64) : nn w -> nn z -> bpow radix2 (-511) <= B2R w -> B2R z <= B2R w ->
    let sq := Bmult mode_NE (Bmult mode_NE w w) (Bplus mode_NE (@f1 b64 NBe) (Bmult mode_NE (Bdiv mode_NE z w) (Bdiv mode_NE z w))) in
    is_finite sq = true -> 0 <= B2R sq /\ app 5 (B2R sq) (B2R w * B2R w + B2R z * B2R z) 0.
  Proof.
    intros Nw Nz L511 Hzw. cbv zeta. intros F. pose proof (bp (-1022)) as B1.
    destruct (mult_fin _ _ F) as (Fw & Ff & Eq & _). destruct (ratio_pre w z Nw Nz L511 Hzw Fw Ff) as (LN & A2).
    pose proof (app_mul_normal _ _ F LN) as A1.
    pose proof (app_comp 1 4 _ _ _ _ _ A1 A2 ltac:(lra) ltac:(nra) ltac:(lra) ltac:(lra)) as A3. rewrite Rplus_0_l in A3.
    split; [rewrite Eq; apply rnd_ge_0; lra|exact A3].
  Qed.

  (** a small and a medium accumulator *)
  Lemma sml_root (sa : b64) : nn sa -> is_finite sa = true -> B2R sa <= bpow radix2 68 ->
    let s := B2R (Bsqrt mode_NE sa) in let rb := Bdiv mode_NE (Bsqrt mode_NE sa) (b64_dy 1 518) in
    nn rb /\ is_finite rb = true /\ 0 <= s <= bpow radix2 34 /\ Rabs (B2R rb - s * bpow radix2 (-518)) <= u64 * (s * bpow radix2 (-518)) + eta64.
  Proof.
    intros Ns Fs Bs. cbv zeta. destruct (sqrt_nn sa Ns) as (Hb & Fb & Eb). rewrite Fs in Fb. specialize (Eb Fs). pose proof (bp 518) as P2.
    assert (R1 : 0 <= B2R (Bsqrt mode_NE sa) <= bpow radix2 34).
    { split; [apply nn_B2R; assumption|]. rewrite Eb, <- (rnd_bpow 34) by lia. apply rnd_le.
      rewrite <- (sqrt_square (bpow radix2 34)) by apply bpow_ge_0. rewrite <- bpow_plus. apply sqrt_le_1_alt. exact Bs. }
    assert (Z5 : B2R (b64_dy 1 518) <> 0) by (rewrite R_ssml; lra).
    pose proof (Bdiv_correct 53 1024 prec53 emax1024 mode_NE (Bsqrt mode_NE sa) (b64_dy 1 518) Z5) as D.
    change (SpecFloat.fexp 53 1024) with (FLT_exp (-1074) 53) in D. cbn [round_mode] in D.
    assert (F : is_finite (Bdiv mode_NE (Bsqrt mode_NE sa) (b64_dy 1 518)) = true).
    { rewrite (small_lt_max _ 34) in D; [|split|lia].
      - destruct D as (_ & D & _). rewrite Fb in D. exact D.
      - apply rnd_ge_0. rewrite R_ssml. apply Rmult_le_pos; [tauto|]. apply Rlt_le, Rinv_0_lt_compat; assumption.
      - rewrite <- (rnd_bpow 34) by lia. apply rnd_le. rewrite R_ssml. apply Rmult_le_reg_r with (bpow radix2 518); [assumption|].
        unfold Rdiv. rewrite Rmult_assoc, Rinv_l, Rmult_1_r by lra.
        assert (1 <= bpow radix2 518)%R by (change 1%R with (bpow radix2 0); apply bpow_le; lia).
        pose proof (bpow_ge_0 radix2 34). nra. }
    split; [apply div_nn; auto; apply nn_const; [reflexivity|cbn; tauto]|]. split; [exact F|]. split; [exact R1|].
    destruct (div_fin _ _ F Z5) as (_ & _ & E). rewrite R_ssml in E. unfold Rdiv in E. change (-518)%Z with (- (518))%Z. rewrite bpow_opp.
    rewrite (Rabs_pos_eq (B2R (Bsqrt mode_NE sa) * / bpow radix2 518)) in E; [exact E|]. apply Rmult_le_pos; [lra|]. left. apply Rinv_0_lt_compat. lra.
  Qed.

  Lemma finish_sml_med q (am sa : b64) Sm Ss N : (q <= Z.to_nat (2 ^ 31))%nat -> nn am -> nn sa -> is_finite sa = true -> B2R sa <= bpow radix2 68 ->
    bpow radix2 (-1022) <= Sm -> 0 <= Ss -> 0 <= N <= bpow radix2 31 ->
    (is_finite am = true -> app q (B2R am) Sm 0 /\ bpow radix2 (-1022) <= B2R am) -> app q (B2R sa) (bpow radix2 1036 * Ss) (N * eta64) ->
    let ra := Bsqrt mode_NE am in let rb := Bdiv mode_NE (Bsqrt mode_NE sa) (b64_dy 1 518) in
    let z := if Bltb ra rb then ra else rb in let w := if Bltb ra rb then rb else ra in
    let sq := Bmult mode_NE (Bmult mode_NE w w) (Bplus mode_NE (@f1 b64 NBe) (Bmult mode_NE (Bdiv mode_NE z w) (Bdiv mode_NE z w))) in
    is_finite sq = true -> app (q + 10) (B2R sq) (Sm + Ss) 0 /\ 0 <= B2R sq.
  Proof.
    intros Hq Na Ns Fs Bs M0 S0 HN Hm Hs. cbv zeta. intros F. destruct (sml_root sa Ns Fs Bs) as (Nb & Fb & Rs & Eb). cbv zeta in *.
    destruct (sqrt_nn am Na) as (Nra & Fra & Era). set (ra := Bsqrt mode_NE am) in *. set (rb := Bdiv mode_NE _ _) in *. pose proof (bp (-511)) as B5. pose proof (bp (-1022)) as B1.
    pose proof eta64_pos as H0. pose proof u64_pos as U0. pose proof (nn_B2R _ Nra) as ra0. pose proof (nn_B2R _ Nb) as rb0. pose proof (nn_B2R _ Ns) as sa0. pose proof (nn_B2R _ Na) as am0.
    assert (FA : is_finite ra = true).
    { destruct (is_finite ra) eqn:FR; [reflexivity|]. exfalso. pose proof (nn_not_finite ra Nra FR) as EI. rewrite EI in F.
      assert (LB : Bltb (B754_infinity false) rb = false). { destruct Nb as [Nb1 Sb1]. clear - Nb1 Sb1 Fb. destruct rb as [s|s| |s m e B]; try reflexivity; discriminate. }
      rewrite LB in F. destruct (mult_fin _ _ F) as (F' & _). discriminate F'. }
    assert (AM : is_finite am = true) by (rewrite <- Fra; exact FA). destruct (Hm AM) as (Am & Lm).
    assert (La : bpow radix2 (-511) <= B2R ra). { rewrite (Era AM). rewrite <- (rnd_bpow (-511)) by lia. apply rnd_le. rewrite <- (sqrt_square (bpow radix2 (-511))) by lra. rewrite bpp. apply sqrt_le_1_alt. exact Lm. }
    assert (SQ : 0 <= B2R (Bmult mode_NE (Bmult mode_NE (if Bltb ra rb then rb else ra) (if Bltb ra rb then rb else ra)) (Bplus mode_NE (@f1 b64 NBe) (Bmult mode_NE (Bdiv mode_NE (if Bltb ra rb then ra else rb) (if Bltb ra rb then rb else ra)) (Bdiv mode_NE (if Bltb ra rb then ra else rb) (if Bltb ra rb then rb else ra))))) /\
      app 5 (B2R (Bmult mode_NE (Bmult mode_NE (if Bltb ra rb then rb else ra) (if Bltb ra rb then rb else ra)) (Bplus mode_NE (@f1 b64 NBe) (Bmult mode_NE (Bdiv mode_NE (if Bltb ra rb then ra else rb) (if Bltb ra rb then rb else ra)) (Bdiv mode_NE (if Bltb ra rb then ra else rb) (if Bltb ra rb then rb else ra)))))) (B2R ra * B2R ra + B2R rb * B2R rb) 0).
    { destruct (Bltb ra rb) eqn:LT.
      - rewrite Bltb_correct in LT by assumption. revert LT. case Rlt_bool_spec; [|discriminate]. intros LT _. rewrite Rplus_comm. apply finish_ratio; try assumption; lra.
      - rewrite Bltb_correct in LT by assumption. revert LT. case Rlt_bool_spec; [discriminate|]. intros LT _. apply finish_ratio; try assumption; lra. }
    set (sq := Bmult mode_NE (Bmult mode_NE _ _) _) in *. destruct SQ as (SQ0 & SQ). split; [|exact SQ0].
    (* ra^2 *)
    assert (A1 : app (2 + q) (B2R ra * B2R ra) Sm 0).
    { pose proof (app_sqrt_rnd am) as T. fold ra in T. pose proof (sqrt_pos (B2R am)) as P1. pose proof (app_mul 1 1 _ _ _ _ T T ra0 P1 P1) as T2. rewrite sqrt_sqrt in T2 by exact am0.
      rewrite <- (Rplus_0_l 0). apply (app_comp 2 q _ (B2R am)); try assumption; lra. }
    (* sqrt(asml)^2 *)
    set (s := B2R (Bsqrt mode_NE sa)) in *. set (sg := s * bpow radix2 (-518)) in *. pose proof (bp (-518)) as B18. pose proof (bp (-1036)) as B36.
    assert (sg0 : 0 <= sg) by (unfold sg; nra).
    assert (sgU : sg <= bpow radix2 (-484)). { unfold sg. change (-484)%Z with (34 + -518)%Z. rewrite bpow_plus. apply Rmult_le_compat_r; lra. }
    assert (NE0 : 0 <= N * eta64) by nra.
    assert (A2 : app (2 + q) (sg * sg) Ss (bpow radix2 (-1036) * (N * eta64))).
    { pose proof (app_sqrt_rnd sa) as T. fold s in T. pose proof (sqrt_pos (B2R sa)) as P1. pose proof (app_mul 1 1 _ _ _ _ T T (proj1 Rs) P1 P1) as T2. rewrite sqrt_sqrt in T2 by exact sa0.
      pose proof (bp 1036) as B36'. pose proof (app_comp 2 q _ _ _ _ _ T2 Hs sa0 ltac:(nra) ltac:(lra) NE0) as T3. rewrite Rplus_0_l in T3.
      pose proof (app_scale (bpow radix2 (-1036)) _ _ _ _ ltac:(lra) T3) as T4. rewrite <- (Rmult_assoc (bpow radix2 (-1036)) (bpow radix2 1036)), bpp in T4. change (bpow radix2 (-1036 + 1036)) with 1 in T4. rewrite Rmult_1_l in T4.
      replace (sg * sg) with (bpow radix2 (-1036) * (s * s)); [exact T4|]. unfold sg. change (-1036)%Z with (-518 + -518)%Z. rewrite bpow_plus. ring. }
    assert (A3 : app 2 (B2R rb * B2R rb) (sg * sg) (2 * (eta64 * sg) + eta64 * eta64)).
    { unfold app. replace (B2R rb * B2R rb - sg * sg) with ((B2R rb - sg) * (2 * sg + (B2R rb - sg))) by ring. rewrite Rabs_mult.
      apply Rle_trans with ((u64 * sg + eta64) * (2 * sg + (u64 * sg + eta64))).
      - apply Rmult_le_compat; [apply Rabs_pos|apply Rabs_pos|exact Eb|]. eapply Rle_trans; [apply Rabs_triang|]. rewrite (Rabs_pos_eq (2 * sg)) by lra. lra.
      - unfold gam. cbn [pow]. rewrite !Rmult_1_r. set (e := eta64 * sg). assert (0 <= e) by (unfold e; nra). set (ee := eta64 * eta64). assert (0 <= ee) by (unfold ee; nra).
        replace ((u64 * sg + eta64) * (2 * sg + (u64 * sg + eta64))) with (((1 + u64) * (1 + u64) - 1) * (sg * sg) + (2 * (1 + u64) * e + ee)) by (unfold e, ee; ring).
        apply Rplus_le_compat_l. assert (0 <= u64 * e) by nra. assert (0 <= u64 * u64 * e) by (apply Rmult_le_pos; nra). assert (0 <= u64 * ee) by nra. assert (0 <= u64 * u64 * ee) by (apply Rmult_le_pos; nra). nra. }
    assert (D0 : 0 <= 2 * (eta64 * sg) + eta64 * eta64) by nra.
    pose proof (app_comp 2 (2 + q) _ _ _ _ _ A3 A2 ltac:(nra) S0 D0 ltac:(nra)) as A4.
    assert (A1' : app (2 + (2 + q)) (B2R ra * B2R ra) Sm 0).
    { apply (app_mono (2 + q) (2 + (2 + q)) _ _ 0 0); [lia|clear - M0 B1; lra|split; apply Rle_refl|exact A1]. }
    pose proof (app_sum _ _ _ _ _ _ _ A1' A4) as A5.
    assert (A6 : app (S (2 + (2 + q))) (B2R ra * B2R ra + B2R rb * B2R rb) (Sm + Ss) 0).
    { apply (app_absorb _ _ _ _ A5). split; [nra|]. apply Rle_trans with (u64 * bpow radix2 (-1022)); [|apply Rmult_le_compat_l; lra].
      unfold u64. rewrite bpp. change (-53 + -1022)%Z with (2 + -1077)%Z. rewrite bpow_plus. change (bpow radix2 2) with 4.
      assert (2 * (eta64 * sg) <= bpow radix2 (-1077)).
      { apply Rle_trans with (bpow radix2 1 * (bpow radix2 (-1075) * bpow radix2 (-484))); [|rewrite !bpp; apply bpow_le; lia]. change 2 with (bpow radix2 1). apply Rmult_le_compat_l; [apply bpow_ge_0|]. apply Rmult_le_compat_l; [apply bpow_ge_0|exact sgU]. }
      assert (eta64 * eta64 <= bpow radix2 (-1077)). { unfold eta64. rewrite bpp. apply bpow_le. lia. }
      assert (bpow radix2 (-1036) * (N * eta64) <= bpow radix2 (-1077)).
      { apply Rle_trans with (bpow radix2 (-1036) * (bpow radix2 31 * bpow radix2 (-1075))); [|rewrite !bpp; apply bpow_le; lia]. apply Rmult_le_compat_l; [apply bpow_ge_0|]. apply Rmult_le_compat_r; [apply bpow_ge_0|tauto]. }
      lra. }
    pose proof (app_comp 5 _ _ _ _ _ _ SQ A6 ltac:(nra) ltac:(lra) ltac:(lra) ltac:(lra)) as A7. rewrite Rplus_0_l in A7.
    replace (q + 10)%nat with (5 + S (2 + (2 + q)))%nat by lia. exact A7.
  Qed.

  Lemma sqrt_143 X n e : 0 <= n -> X <= 2.03 * n * bpow radix2 (e + e) -> sqrt X <= 1.43 * sqrt n * bpow radix2 e.
  Proof.
    intros Hn HX. pose proof (bp e) as B. pose proof (sqrt_pos n) as S. assert (B0 : 0 <= 1.43 * sqrt n * bpow radix2 e) by (apply Rmult_le_pos; lra).
    rewrite <- (sqrt_square (1.43 * sqrt n * bpow radix2 e)) by exact B0. apply sqrt_le_1_alt. eapply Rle_trans; [exact HX|].
    rewrite bpow_plus. set (b := bpow radix2 e) in *. set (r := sqrt n) in *. assert (E : n = r * r) by (symmetry; apply sqrt_sqrt; exact Hn).
    rewrite E. assert (0 <= r * r * (b * b)) by (apply Rmult_le_pos; nra). lra.
  Qed.

  (** only small elements were seen *)
  Lemma finish_sml q (sa scl : b64) Ss n : (q <= Z.to_nat (2 ^ 31))%nat -> nn sa -> 1 <= n -> 0 <= Ss -> B2R scl = bpow radix2 (-518) ->
    app q (B2R sa) (bpow radix2 1036 * Ss) (n * eta64) -> is_finite (Bmult mode_NE scl (Bsqrt mode_NE sa)) = true ->
    Rabs (B2R (Bmult mode_NE scl (Bsqrt mode_NE sa)) - sqrt Ss) <= gam (q + 2) * sqrt Ss + sqrt n * bpow radix2 (-1055).
  Proof.
    intros Hq Ns Hn S0 Escl Hs F. pose proof (nn_B2R _ Ns) as s0. pose proof eta64_pos as H0. pose proof (bp 1036) as B1. pose proof (bp 518) as B2. pose proof (bp (-518)) as B3.
    pose proof (sqrt_pos Ss) as N0. pose proof (sqrt_pos n) as n0.
    assert (n1 : 1 <= sqrt n) by (rewrite <- sqrt_1; apply sqrt_le_1_alt; exact Hn).
    assert (G : gam (q + 2) <= / 1000) by (apply gam_small; lia). assert (G' : gam q <= / 1000) by (pose proof (gam_le q (q + 2) ltac:(lia)); lra).
    assert (NE : 0 <= n * eta64) by nra. assert (X0 : 0 <= bpow radix2 1036 * Ss) by nra.
    pose proof (app_sqrt _ _ _ _ Hs s0 X0 NE ltac:(lra)) as A1. set (D1 := sqrt (P ^ q * (n * eta64))) in *.
    assert (D10 : 0 <= D1) by apply sqrt_pos.
    assert (D1U : D1 <= 1.43 * sqrt n * bpow radix2 (-538)).
    { apply sqrt_143; [lra|]. change (bpow radix2 (-538 + -538)) with (bpow radix2 (-1076)). assert (E : eta64 = 2 * bpow radix2 (-1076)) by (unfold eta64; change 2 with (bpow radix2 1); rewrite bpp; reflexivity).
      rewrite E. pose proof (bp (-1076)) as B7. rewrite gam_P in G'. assert (0 <= n * bpow radix2 (-1076)) by nra. replace (P ^ q * (n * (2 * bpow radix2 (-1076)))) with (2 * P ^ q * (n * bpow radix2 (-1076))) by ring.
      rewrite (Rmult_assoc 2.03). apply Rmult_le_compat_r; [assumption|lra]. }
    assert (ES : sqrt (bpow radix2 1036 * Ss) = bpow radix2 518 * sqrt Ss).
    { rewrite sqrt_mult by lra. f_equal. change 1036%Z with (518 + 518)%Z. rewrite bpow_plus. apply sqrt_square. lra. }
    assert (A2 : app q (sqrt (B2R sa)) (bpow radix2 518 * sqrt Ss) D1).
    { unfold app. rewrite <- ES. eapply Rle_trans; [exact A1|]. pose proof (Pn_ge q). nra. }
    pose proof (app_comp 1 q _ _ _ _ _ (app_sqrt_rnd sa) A2 (sqrt_pos _) ltac:(nra) ltac:(lra) D10) as A3. rewrite Rplus_0_l in A3.
    pose proof (app_scale (bpow radix2 (-518)) _ _ _ _ ltac:(lra) A3) as A4. rewrite <- (Rmult_assoc _ (bpow radix2 518)), bpp in A4. change (bpow radix2 (-518 + 518)) with 1 in A4. rewrite Rmult_1_l in A4.
    assert (sq0 : 0 <= B2R (Bsqrt mode_NE sa)) by (apply nn_B2R, sqrt_nn; exact Ns).
    pose proof (app_mul_eta _ _ F) as A5. rewrite Escl in A5. specialize (A5 ltac:(nra)).
    pose proof (app_comp 1 (1 + q) _ _ _ _ _ A5 A4 ltac:(nra) N0 ltac:(lra) ltac:(nra)) as A6.
    unfold app in A6. replace (1 + (1 + q))%nat with (q + 2)%nat in A6 by lia. eapply Rle_trans; [exact A6|]. apply Rplus_le_compat_l. rewrite gam_P in G.
    pose proof (bp (-1056)) as B6. change (-1055)%Z with (1 + -1056)%Z. rewrite bpow_plus. change (bpow radix2 1) with 2.
    assert (T1 : bpow radix2 (-518) * D1 <= 1.43 * sqrt n * bpow radix2 (-1056)).
    { apply Rle_trans with (bpow radix2 (-518) * (1.43 * sqrt n * bpow radix2 (-538))); [apply Rmult_le_compat_l; lra|]. right. change (-1056)%Z with (-518 + -538)%Z. rewrite bpow_plus. ring. }
    assert (T2 : eta64 <= / 1000 * (sqrt n * bpow radix2 (-1056))).
    { apply Rle_trans with (/ 1000 * (1 * bpow radix2 (-1056))); [|apply Rmult_le_compat_l; [lra|]; apply Rmult_le_compat_r; lra].
      change (-1056)%Z with (19 + -1075)%Z. rewrite bpow_plus. change (bpow radix2 19) with 524288. fold eta64. lra. }
    set (Y := sqrt n * bpow radix2 (-1056)) in *. assert (Y0 : 0 <= Y) by (unfold Y; nra). assert (1.43 * sqrt n * bpow radix2 (-1056) = 1.43 * Y) as EY by (unfold Y; ring). rewrite EY in T1.
    replace (sqrt n * (2 * bpow radix2 (-1056))) with (2 * Y) by (unfold Y; ring). pose proof (Pn_ge (q + 2)). assert (0 <= bpow radix2 (-518) * D1) by nra. nra.
  Qed.

  (** no small element contributed *)
  Lemma finish_med q (am sa : b64) Sm Ss n : (q <= Z.to_nat (2 ^ 31))%nat -> nn am -> 1 <= n -> 0 <= Sm -> 0 <= Ss -> B2R sa = 0 ->
    (is_finite am = true -> app q (B2R am) Sm 0) -> app q (B2R sa) (bpow radix2 1036 * Ss) (n * eta64) -> is_finite (Bmult mode_NE (@f1 b64 NBe) (Bsqrt mode_NE am)) = true ->
    Rabs (B2R (Bmult mode_NE (@f1 b64 NBe) (Bsqrt mode_NE am)) - sqrt (Sm + Ss)) <= gam (q + 1) * sqrt (Sm + Ss) + sqrt n * bpow radix2 (-1055).
  Proof.
    intros Hq Na Hn M0 S0 Ez Hm Hs F. rewrite (mult_one _ F). destruct (mult_fin _ _ F) as (_ & F1 & _). specialize (Hm (sqrt_fin_inv _ F1)). pose proof (nn_B2R _ Na) as a0.
    pose proof eta64_pos as H0. pose proof (bp 1036) as B1. pose proof (sqrt_pos (Sm + Ss)) as N0. pose proof (sqrt_pos n) as n0. pose proof (sqrt_pos Sm) as N1.
    assert (G : gam (q + 1) <= / 1000) by (apply gam_small; lia). assert (G' : gam q <= / 1000) by (pose proof (gam_le q (q + 1) ltac:(lia)); lra).
    pose proof (app_sqrt0 _ _ _ Hm a0 M0 ltac:(lra)) as A1. pose proof (app_comp 1 q _ _ _ _ _ (app_sqrt_rnd am) A1 (sqrt_pos _) N1 ltac:(lra) ltac:(lra)) as A2. rewrite Rplus_0_l in A2.
    unfold app in A2. rewrite Rmult_0_r, Rplus_0_r in A2. replace (1 + q)%nat with (q + 1)%nat in A2 by lia.
    assert (NE : 0 <= n * eta64) by nra.
    assert (SU : sqrt Ss <= 1.43 * sqrt n * bpow radix2 (-1056)).
    { apply sqrt_143; [lra|]. rewrite Ez in Hs. pose proof (app_elim _ _ _ _ Hs) as [L _]. rewrite gam_P in G'. set (X := bpow radix2 1036 * Ss) in *.
      assert (X0 : 0 <= X) by (unfold X; nra). assert (gam q * X <= / 1000 * X) by (apply Rmult_le_compat_r; rewrite ?gam_P; lra). assert (P ^ q * (n * eta64) <= 1.001 * (n * eta64)) by (apply Rmult_le_compat_r; lra).
      assert (XU : X <= 1.01 * (n * eta64)) by lra.
      apply Rmult_le_reg_l with (bpow radix2 1036); [exact B1|]. fold X. eapply Rle_trans; [exact XU|].
      replace (bpow radix2 1036 * (2.03 * n * bpow radix2 (-1056 + -1056))) with (2.03 * n * (bpow radix2 1036 * bpow radix2 (-2112))) by (change (-1056 + -1056)%Z with (-2112)%Z; ring).
      rewrite bpp. change (1036 + -2112)%Z with (-1 + -1075)%Z. rewrite bpow_plus. change (bpow radix2 (-1)) with (/ 2). fold eta64. lra. }
    assert (SL : sqrt Sm <= sqrt (Sm + Ss)) by (apply sqrt_le_1_alt; lra). pose proof (sqrt_add_le Sm Ss M0 S0) as SA.
    apply ab_elim in A2. assert (gam (q + 1) * sqrt Sm <= gam (q + 1) * sqrt (Sm + Ss)) by (apply Rmult_le_compat_l; [apply gam_pos|exact SL]).
    assert (1.43 * sqrt n * bpow radix2 (-1056) <= sqrt n * bpow radix2 (-1055)).
    { change (-1055)%Z with (1 + -1056)%Z. rewrite bpow_plus. change (bpow radix2 1) with 2. pose proof (bp (-1056)). nra. }
    apply ab_intro; lra.
  Qed.

  Lemma classes_sum n : SS (fun t => vR t * vR t) n = SS bgv n + SS mdv n + SS smv n.
  Proof.
    unfold SS. rewrite <- !Rsum_range_plus. apply Rsum_range_ext. intros t _. unfold bgv, mdv, smv. destruct (bigb t), (smlb t); ring.
  Qed.
  Lemma smv_le t : smv t <= bpow radix2 (-1022).
  Proof.
    unfold smv. pose proof (bp (-1022)). destruct (bigb t); [lra|]. destruct (smlb t) eqn:M; [|lra]. rewrite <- av2. pose proof (smlb_true t M). pose proof (nn_B2R _ (Nav t)).
    change (-1022)%Z with (-511 + -511)%Z. rewrite bpow_plus. apply Rmult_le_compat; lra.
  Qed.
  Lemma SS_le f c n : (0 <= n)%Z -> 0 <= c -> (forall t, f t <= c) -> SS f n <= IZR n * c.
  Proof.
    intros Hn Hc Hf. apply (Zlt_0_ind (fun n => SS f n <= IZR n * c)); [|exact Hn]. clear n Hn. intros n IH Hn.
    destruct (Z.eq_dec n 0) as [->|N]; [unfold SS; rewrite Rsum_range_nil by lia; lra|].
    replace n with (n - 1 + 1)%Z at 1 by lia. rewrite SS_step by lia. specialize (IH (n - 1)%Z ltac:(lia)). rewrite minus_IZR in IH. specialize (Hf (n - 1)%Z). lra.
  Qed.
  Lemma lt0_pos (x : b64) : nn x -> (is_finite x = true -> 0 < B2R x) -> Bltb (@f0 b64 NBe) x = true.
  Proof.
    intros N H. destruct (is_finite x) eqn:F.
    - change (@f0 b64 NBe) with (b64_dy 0 0). rewrite Bltb_correct by (reflexivity || exact F). apply Rlt_bool_true. exact (H eq_refl).
    - rewrite (nn_not_finite x N F). reflexivity.
  Qed.
  Lemma lt0_zero (x : b64) : nn x -> Bltb (@f0 b64 NBe) x = false -> B2R x = 0.
  Proof.
    intros N H. pose proof (nn_B2R _ N) as B. destruct (is_finite x) eqn:F.
    - change (@f0 b64 NBe) with (b64_dy 0 0) in H. rewrite Bltb_correct in H by (reflexivity || exact F). revert H. case Rlt_bool_spec; [discriminate|]. intros L _. change (B2R (b64_dy 0 0)) with 0 in L. lra.
    - rewrite (nn_not_finite x N F). reflexivity.
  Qed.

  Lemma finish_err n a : (1 <= n < 2 ^ 31)%Z -> err_inv n a -> is_finite (@nrm_finish b64 NBe a) = true ->
    Rabs (B2R (@nrm_finish b64 NBe a) - sqrt (SS (fun t => vR t * vR t) n)) <= gam (Z.to_nat n + 12) * sqrt (SS (fun t => vR t * vR t) n) + sqrt (IZR n) * bpow radix2 (-1055).
  Proof.
    intros Hn [OK Hmed Hbig Hsml Hnb Hm0]. pose proof OK as (As & Fs & Bs & Am & Ab). rewrite classes_sum.
    pose proof (SS0 mdv n mdv0) as S1. pose proof (SS0 bgv n bgv0) as S2. pose proof (SS0 smv n smv0) as S3. pose proof (bp (-1022)) as B1.
    set (Sm := SS mdv n) in *. set (Sb := SS bgv n) in *. set (q := (Z.to_nat n + 1)%nat) in *. assert (Hq : (q <= Z.to_nat (2 ^ 31))%nat) by lia.
    assert (n1 : 1 <= IZR n) by (apply IZR_le; lia). assert (n31 : IZR n <= bpow radix2 31) by (change (bpow radix2 31) with (IZR (2 ^ 31)); apply IZR_le; lia).
    pose proof (SS_le smv (bpow radix2 (-1022)) n ltac:(lia) ltac:(lra) smv_le) as SU. set (Ss := SS smv n) in *.
    pose proof (sqrt_pos (IZR n)) as rn0. pose proof (bp (-1055)) as B55.
    assert (MC : flt f0 (amed a) || flt fMAX (amed a) || fne (amed a) (amed a) = Bltb (@f0 b64 NBe) (amed a)).
    { destruct Hm0 as [(_ & ->)|(_ & H)]; [vm_compute; reflexivity|]. change (flt f0 (amed a)) with (Bltb (@f0 b64 NBe) (amed a)). rewrite (lt0_pos (amed a) Am); [reflexivity|]. intros F. specialize (H F). lra. }
    assert (REL : forall k y, (k <= Z.to_nat n + 12)%nat -> forall T, 0 <= T -> app k y T 0 -> Rabs (y - T) <= gam (Z.to_nat n + 12) * T + sqrt (IZR n) * bpow radix2 (-1055)).
    { intros k y Hk T HT H. unfold app in H. rewrite Rmult_0_r, Rplus_0_r in H. eapply Rle_trans; [exact H|]. pose proof (gam_le _ _ Hk). assert (gam k * T <= gam (Z.to_nat n + 12) * T) by (apply Rmult_le_compat_r; lra). nra. }
    unfold nrm_finish. rewrite MC. cbv zeta. rewrite s_big, s_sml, ?p_sq.
    destruct (notbig a) eqn:NB.
    - destruct Hnb as (Eb & ->). specialize (Hsml eq_refl). change (flt f0 (B754_zero false : b64)) with false. cbv iota. rewrite Eb, Rplus_0_l.
      change (flt f0 (asml a)) with (Bltb (@f0 b64 NBe) (asml a)).
      destruct (Bltb (@f0 b64 NBe) (asml a)) eqn:SP.
      + destruct (Bltb (@f0 b64 NBe) (amed a)) eqn:MP.
        * destruct Hm0 as [(_ & E)|(L & H)]; [rewrite E in MP; discriminate MP|].
          pose proof (finish_sml_med q (amed a) (asml a) Sm Ss (IZR n) Hq Am As Fs Bs L S3 ltac:(lra)
            (fun F => conj (Hmed F) (H F)) Hsml) as FM. cbv zeta in FM. cbn [fsqrt fdiv flt fmul fadd NBe B64] in *.
          set (ra := Bsqrt mode_NE (amed a)) in *. set (rb := Bdiv mode_NE _ _) in *.
          assert (G : gam (q + 10) <= / 1000) by (apply gam_small; lia).
          assert (FIN : forall sq : b64, (is_finite sq = true -> app (q + 10) (B2R sq) (Sm + Ss) 0 /\ 0 <= B2R sq) -> is_finite (Bmult mode_NE (@f1 b64 NBe) (Bsqrt mode_NE sq)) = true ->
            Rabs (B2R (Bmult mode_NE (@f1 b64 NBe) (Bsqrt mode_NE sq)) - sqrt (Sm + Ss)) <= gam (Z.to_nat n + 12) * sqrt (Sm + Ss) + sqrt (IZR n) * bpow radix2 (-1055)).
          { intros sq FQ F. rewrite (mult_one _ F). destruct (mult_fin _ _ F) as (_ & Fr & _). destruct (FQ (sqrt_fin_inv _ Fr)) as (A1 & A0).
            pose proof (app_sqrt0 _ _ _ A1 A0 ltac:(lra) ltac:(lra)) as A2. pose proof (app_comp 1 _ _ _ _ _ _ (app_sqrt_rnd sq) A2 (sqrt_pos _) (sqrt_pos _) ltac:(lra) ltac:(lra)) as A3. rewrite Rplus_0_l in A3.
            apply (REL (1 + (q + 10))%nat); [lia|apply sqrt_pos|exact A3]. }
          destruct (Bltb ra rb); rewrite !p_sq; apply FIN; exact FM.
        * destruct Hm0 as [(E & _)|(L & H)]; [|rewrite (lt0_pos (amed a) Am) in MP; [discriminate MP|intros F; specialize (H F); lra]].
          rewrite E, Rplus_0_l. intros F. pose proof (finish_sml q (asml a) _ Ss (IZR n) Hq As n1 S3 scl_sml Hsml F) as A1.
          cbn [fsqrt fmul NBe B64] in *. eapply Rle_trans; [exact A1|]. apply Rplus_le_compat_r, Rmult_le_compat_r; [apply sqrt_pos|apply gam_le; lia].
      + intros F. pose proof (finish_med q (amed a) (asml a) Sm Ss (IZR n) Hq Am n1 S1 S3 (lt0_zero _ As SP) Hmed Hsml F) as A1.
        cbn [fsqrt fmul NBe B64] in *. eapply Rle_trans; [exact A1|]. apply Rplus_le_compat_r, Rmult_le_compat_r; [apply sqrt_pos|apply gam_le; lia].
    - destruct Hnb as (Eb & LB). change (flt f0 (abig a)) with (Bltb (@f0 b64 NBe) (abig a)). rewrite (lt0_pos (abig a) Ab); [|intros F; specialize (LB F); pose proof (bp (-28)); lra].
      assert (HMC : Bltb (@f0 b64 NBe) (amed a) = false -> Sm = 0).
      { intros MP. destruct Hm0 as [(E & _)|(L & H)]; [exact E|]. rewrite (lt0_pos (amed a) Am) in MP; [discriminate MP|intros F; specialize (H F); lra]. }
      pose proof (finish_big q (abig a) (amed a) _ (Bltb (@f0 b64 NBe) (amed a)) Sb Sm Ss Hq Ab Am scl_big S1 S3 Eb) as FB.
      cbv zeta in FB. cbn [fsqrt fmul fadd NBe B64] in *. intros F.
      apply (REL (q + 6)%nat); [lia|apply sqrt_pos|]. apply FB; try assumption; [eapply Rle_trans; [exact SU|]; apply Rmult_le_compat_r; lra|]. destruct (mult_fin _ _ F) as (_ & Fr & _). exact (sqrt_fin_inv _ Fr).
  Qed.

  (** *** no overflow *)
  Lemma plus_fits (x y : b64) e : nn x -> nn y -> is_finite x = true -> is_finite y = true -> B2R x + B2R y <= bpow radix2 e -> (-1074 <= e < 1024)%Z ->
    nn (Bplus mode_NE x y) /\ is_finite (Bplus mode_NE x y) = true /\ B2R (Bplus mode_NE x y) = rnd (B2R x + B2R y).
  Proof. intros Hx Hy Fx Fy B He. apply (plus_small x y e); try assumption; try lia. rewrite <- (rnd_bpow e) by lia. apply rnd_le. exact B. Qed.

  Definition fin_inv (k : Z) (a : @nrm_acc b64) : Prop :=
    err_inv k a /\ (SS mdv k <= bpow radix2 1022 -> SS bgv k <= bpow radix2 2044 -> is_finite (amed a) = true /\ is_finite (abig a) = true).
  Lemma fin_inv0 : fin_inv 0 (mkAcc true f0 f0 f0).
  Proof. split; [exact err_inv0|]. intros _ _. split; reflexivity. Qed.

  Lemma fin_inv_step k a : (0 <= k < 2 ^ 31)%Z -> fin_inv k a -> fin_inv (k + 1) (nrm_step (v k) a).
  Proof.
    intros Hk [I F]. split; [apply err_inv_step; [lia|exact I]|]. rewrite !SS_step by lia. intros HM HB.
    destruct I as [OK Hmed Hbig _ _ _]. pose proof OK as (As & Fs & Bs & Am & Ab). pose proof (nn_B2R _ Am) as A1. pose proof (nn_B2R _ Ab) as A2.
    pose proof (SS0 mdv k mdv0) as S1. pose proof (SS0 bgv k bgv0) as S2. pose proof (mdv0 k) as M0. pose proof (bgv0 k) as B0.
    destruct (F ltac:(lra) ltac:(lra)) as (Fm & Fb). specialize (Hmed Fm). specialize (Hbig Fb).
    assert (G : gam (Z.to_nat k + 1) <= / 1000) by (apply gam_small; lia). assert (G1 : gam 1 <= / 1000) by (apply gam_small; lia). rewrite gam_P in G, G1.
    unfold nrm_step. cbn [fabs NBe B64]. rewrite t_big, t_sml, s_big, s_sml, !p_sq. cbn [flt fmul fadd NBe B64].
    fold (bigb k). destruct (bigb k) eqn:B; [|fold (smlb k); destruct (smlb k) eqn:M]; cbn [amed abig].
    - split; [exact Fm|]. assert (EB : bgv k = vR k * vR k) by (unfold bgv; rewrite B; reflexivity).
      destruct (term_big (Babs (v k)) (Nav k) (Fav k) (Rlt_le _ _ (bigb_true k B))) as (Nq & Fq & Tq & Lq). cbv zeta in *. rewrite av2 in Tq. rewrite <- EB in Tq.
      set (q := Bmult mode_NE (Bmult mode_NE _ _) _) in *. apply (plus_fits (abig a) q 1007); try assumption; try lia.
      pose proof (app_elim _ _ _ _ Hbig) as [_ U1]. pose proof (app_elim _ _ _ _ Tq) as [_ U2]. pose proof (bp (-1038)) as B38.
      assert (T : bpow radix2 (-1038) * SS bgv k + bpow radix2 (-1038) * bgv k <= bpow radix2 1006).
      { rewrite <- Rmult_plus_distr_l. change 1006%Z with (-1038 + 2044)%Z. rewrite bpow_plus. apply Rmult_le_compat_l; lra. }
      set (X := bpow radix2 (-1038) * SS bgv k) in *. set (Y := bpow radix2 (-1038) * bgv k) in *. assert (X0 : 0 <= X) by (unfold X; nra). assert (Y0 : 0 <= Y) by (unfold Y; nra).
      assert (P ^ (Z.to_nat k + 1) * X <= 1.001 * X) by (apply Rmult_le_compat_r; lra). assert (P ^ 1 * Y <= 1.001 * Y) by (apply Rmult_le_compat_r; lra).
      change 1007%Z with (1 + 1006)%Z. rewrite (bpow_plus radix2 1 1006). change (bpow radix2 1) with 2. lra.
    - destruct (notbig a); split; assumption.
    - split; [|exact Fb]. assert (EM : mdv k = vR k * vR k) by (unfold mdv; rewrite B, M; reflexivity).
      set (q := Bmult mode_NE (Babs (v k)) (Babs (v k))).
      assert (Q : nn q /\ is_finite q = true /\ B2R q = rnd (B2R (Babs (v k)) * B2R (Babs (v k)))).
      { apply (mult_fits _ _ 1022); try apply Nav; try apply Fav; [|lia]. rewrite av2, <- EM. lra. }
      destruct Q as (Nq & Fq & _). destruct (term_med (Babs (v k)) (Nav k) Fq (smlb_false k M)) as (Tq & _). fold q in Tq. rewrite av2, <- EM in Tq.
      apply (plus_fits (amed a) q 1023); try assumption; try lia.
      pose proof (app_elim _ _ _ _ Hmed) as [_ U1]. pose proof (app_elim _ _ _ _ Tq) as [_ U2].
      assert (P ^ (Z.to_nat k + 1) * SS mdv k <= 1.001 * SS mdv k) by (apply Rmult_le_compat_r; lra). assert (P ^ 1 * mdv k <= 1.001 * mdv k) by (apply Rmult_le_compat_r; lra).
      change 1023%Z with (1 + 1022)%Z. rewrite (bpow_plus radix2 1 1022). change (bpow radix2 1) with 2. lra.
  Qed.

  Lemma le_double e x : x <= 1.01 * bpow radix2 e -> x <= bpow radix2 (1 + e).
  Proof. intros H. rewrite bpow_plus. change (bpow radix2 1) with 2. pose proof (bp e). lra. Qed.

  Lemma finish_finite n a : (1 <= n < 2 ^ 31)%Z -> fin_inv n a -> SS mdv n <= bpow radix2 1022 -> SS (fun t => vR t * vR t) n <= bpow radix2 2044 ->
    is_finite (@nrm_finish b64 NBe a) = true.
  Proof.
    intros Hn [[OK Hmed Hbig Hsml Hnb Hm0] F] HM HN. rewrite classes_sum in HN. pose proof OK as (As & Fs & Bs & Am & Ab).
    pose proof (SS0 mdv n mdv0) as S1. pose proof (SS0 bgv n bgv0) as S2. pose proof (SS0 smv n smv0) as S3. pose proof (bp (-1022)) as B1.
    destruct (F HM ltac:(lra)) as (Fm & Fb). specialize (Hmed Fm). specialize (Hbig Fb). pose proof (nn_B2R _ Am) as am0. pose proof (nn_B2R _ Ab) as ab0. pose proof (nn_B2R _ As) as as0.
    set (Sm := SS mdv n) in *. set (Sb := SS bgv n) in *. set (q := (Z.to_nat n + 1)%nat) in *. assert (Hq : (q <= Z.to_nat (2 ^ 31))%nat) by lia.
    assert (n1 : 1 <= IZR n) by (apply IZR_le; lia). assert (n31 : IZR n <= bpow radix2 31) by (change (bpow radix2 31) with (IZR (2 ^ 31)); apply IZR_le; lia).
    pose proof (SS_le smv (bpow radix2 (-1022)) n ltac:(lia) ltac:(lra) smv_le) as SU. set (Ss := SS smv n) in *.
    assert (G : gam (q + 12) <= / 1000) by (apply gam_small; lia).
    assert (UPP : forall k y X, (k <= q + 12)%nat -> 0 <= X -> app k y X 0 -> y <= 1.001 * X).
    { intros k y X Hk HX H. pose proof (app_elim _ _ _ _ H) as [_ U]. pose proof (gam_le _ _ Hk) as GL. rewrite (gam_P k) in GL. assert (P ^ k * X <= 1.001 * X) by (apply Rmult_le_compat_r; lra). lra. }
    assert (MC : flt f0 (amed a) || flt fMAX (amed a) || fne (amed a) (amed a) = Bltb (@f0 b64 NBe) (amed a)).
    { destruct Hm0 as [(_ & ->)|(_ & H)]; [vm_compute; reflexivity|]. change (flt f0 (amed a)) with (Bltb (@f0 b64 NBe) (amed a)). rewrite (lt0_pos (amed a) Am); [reflexivity|]. intros F'. specialize (H F'). lra. }
    assert (N1 : nn (@f1 b64 NBe)) by (split; reflexivity). assert (R1 : B2R (@f1 b64 NBe) = 1) by exact (R_one lm).
    assert (amU : B2R (amed a) <= 1.001 * bpow radix2 1022) by (pose proof (UPP q _ _ ltac:(lia) S1 Hmed); lra).
    assert (NBG : nn (b64_dy 1 (-519))) by (apply nn_const; [reflexivity|cbn; tauto]). pose proof (bp (-519)) as P519. pose proof (bp 1022) as P1022.
    assert (L1 : bpow radix2 (-519) <= 1) by (change 1 with (bpow radix2 0); apply bpow_le; lia).
    assert (ONE : forall x : b64, nn x -> is_finite x = true -> B2R x <= bpow radix2 1023 -> is_finite (Bmult mode_NE (@f1 b64 NBe) x) = true).
    { intros x Nx Fx Bx. apply (mult_fits (@f1 b64 NBe) x 1023); try assumption; try reflexivity; try lia. rewrite R1. lra. }
    assert (SQB : forall x : b64, nn x -> is_finite x = true -> B2R x <= bpow radix2 1022 * bpow radix2 1022 -> nn (Bsqrt mode_NE x) /\ is_finite (Bsqrt mode_NE x) = true /\ B2R (Bsqrt mode_NE x) <= bpow radix2 1022).
    { intros x Nx Fx Bx. destruct (sqrt_nn x Nx) as (H1 & H2 & H3). split; [exact H1|]. rewrite H2. split; [exact Fx|]. rewrite (H3 Fx), <- (rnd_bpow 1022) by lia. apply rnd_le. rewrite <- (sqrt_square (bpow radix2 1022)) by lra. apply sqrt_le_1_alt. exact Bx. }
    assert (LE12 : bpow radix2 1022 <= bpow radix2 1023) by (apply bpow_le; lia).
    assert (BIG : forall x, x <= bpow radix2 1023 -> x <= bpow radix2 1022 * bpow radix2 1022). { intros x Hx. eapply Rle_trans; [exact Hx|]. rewrite bpp. apply bpow_le. lia. }
    unfold nrm_finish. rewrite MC. cbv zeta. rewrite s_big, s_sml, ?p_sq.
    destruct (notbig a) eqn:NB.
    - destruct Hnb as (Eb & ->). specialize (Hsml eq_refl). change (flt f0 (B754_zero false : b64)) with false. cbv iota.
      change (flt f0 (asml a)) with (Bltb (@f0 b64 NBe) (asml a)).
      destruct (Bltb (@f0 b64 NBe) (asml a)) eqn:SP.
      + destruct (Bltb (@f0 b64 NBe) (amed a)) eqn:MP.
        * destruct Hm0 as [(_ & E)|(L & H)]; [rewrite E in MP; discriminate MP|]. specialize (H Fm).
          pose proof (finish_sml_med q (amed a) (asml a) Sm Ss (IZR n) Hq Am As Fs Bs L S3 ltac:(lra) (fun _ => conj Hmed H) Hsml) as FM.
          destruct (sml_root (asml a) As Fs Bs) as (Nb & Frb & Rs & Erb). destruct (sqrt_nn (amed a) Am) as (Nra & Fra & Era). specialize (Era Fm). rewrite Fm in Fra.
          cbv zeta in *. cbn [fsqrt fdiv flt fmul fadd NBe B64] in *. set (ra := Bsqrt mode_NE (amed a)) in *. set (rb := Bdiv mode_NE _ _) in *.
          assert (La : bpow radix2 (-511) <= B2R ra). { rewrite Era. rewrite <- (rnd_bpow (-511)) by lia. apply rnd_le. rewrite <- (sqrt_square (bpow radix2 (-511))) by (apply bpow_ge_0). rewrite bpp. apply sqrt_le_1_alt. exact H. }
          pose proof (bp (-511)) as P511.
          assert (RA : B2R ra * B2R ra <= 1.01 * bpow radix2 1022).
          { pose proof (app_sqrt_rnd (amed a)) as T. fold ra in T. pose proof (sqrt_pos (B2R (amed a))) as P1. pose proof (app_mul 1 1 _ _ _ _ T T ltac:(lra) P1 P1) as T2. rewrite sqrt_sqrt in T2 by exact am0.
            pose proof (UPP 2%nat _ _ ltac:(lia) am0 T2). lra. }
          assert (RB : B2R rb <= bpow radix2 35).
          { apply ab_elim in Erb. pose proof u64_pos. pose proof u64_le. pose proof eta_le. pose proof (bp (-518)) as P518. assert (bpow radix2 (-518) <= / 2) by (change (/ 2) with (bpow radix2 (-1)); apply bpow_le; lia).
            set (s := B2R (Bsqrt mode_NE (asml a))) in *. assert (s * bpow radix2 (-518) <= s * / 2) by (apply Rmult_le_compat_l; lra). assert (0 <= s * bpow radix2 (-518)) by nra.
            assert (bpow radix2 34 = 17179869184) as E34 by reflexivity. assert (bpow radix2 35 = 34359738368) as E35 by reflexivity. rewrite E35. rewrite E34 in Rs. nra. }
          pose proof (nn_B2R _ Nb) as rb0.
          assert (RB2 : B2R rb * B2R rb <= / 100 * bpow radix2 1022).
          { apply Rle_trans with (bpow radix2 35 * bpow radix2 35); [apply Rmult_le_compat; lra|]. rewrite bpp. change 1022%Z with (7 + 1015)%Z. rewrite (bpow_plus radix2 7). change (bpow radix2 7) with 128. assert (bpow radix2 (35 + 35) <= bpow radix2 1015) by (apply bpow_le; lia). pose proof (bp 1015). lra. }
          assert (FIN : forall w z : b64, nn w -> nn z -> is_finite w = true -> is_finite z = true -> bpow radix2 (-511) <= B2R w -> B2R z <= B2R w -> B2R w * B2R w + B2R z * B2R z <= 1.03 * bpow radix2 1022 ->
            is_finite (Bmult mode_NE (@f1 b64 NBe) (Bsqrt mode_NE (Bmult mode_NE (Bmult mode_NE w w) (Bplus mode_NE (@f1 b64 NBe) (Bmult mode_NE (Bdiv mode_NE z w) (Bdiv mode_NE z w)))))) = true).
          { intros w z Nw Nz Fw Fz w0 zw wU. pose proof (nn_B2R _ Nz) as z0.
            assert (LT : Bltb w z = false) by (rewrite Bltb_correct by assumption; apply Rlt_bool_false; exact zw).
            destruct (ratio_factor lm w z Nw Nz Fz (fun _ => Rlt_le_trans _ _ _ P511 w0) LT) as (Np & Fp & _). cbn [fadd fmul fdiv NBn B64] in Np, Fp. change (@f1 b64 (NBn lm)) with (@f1 b64 NBe) in *.
            assert (D22 : bpow radix2 (1 + 1022) = 2 * bpow radix2 1022) by (rewrite bpow_plus; reflexivity).
            destruct (mult_fits w w (1 + 1022) Nw Nw Fw Fw ltac:(rewrite D22; nra) ltac:(lia)) as (Nw2 & Fw2 & _).
            set (p := Bplus mode_NE (@f1 b64 NBe) (Bmult mode_NE (Bdiv mode_NE z w) (Bdiv mode_NE z w))).
            assert (Np' : nn p) by exact Np. assert (Fp' : is_finite p = true) by exact Fp. destruct (ratio_pre w z Nw Nz w0 zw Fw2 Fp) as (_ & A4). fold p in A4.
            assert (WZ : 0 <= B2R w * B2R w + B2R z * B2R z) by (apply Rplus_le_le_0_compat; apply Rle_0_sqr).
            pose proof (UPP 4%nat _ _ ltac:(lia) WZ A4) as U4.
            destruct (mult_fits _ p (1 + 1022) Nw2 Np' Fw2 Fp' ltac:(rewrite D22; lra) ltac:(lia)) as (Nq & Fq & Eq).
            destruct (SQB _ Nq Fq) as (Nr & Fr & Ur); [|apply ONE; [exact Nr|exact Fr|lra]].
            apply BIG. rewrite Eq, <- (rnd_bpow 1023) by lia. apply rnd_le. change 1023%Z with (1 + 1022)%Z. rewrite D22. lra. }
          destruct (Bltb ra rb) eqn:LT; rewrite !p_sq.
          -- rewrite Bltb_correct in LT by assumption. revert LT. case Rlt_bool_spec; [|discriminate]. intros LT _. apply FIN; try assumption; lra.
          -- rewrite Bltb_correct in LT by assumption. revert LT. case Rlt_bool_spec; [discriminate|]. intros LT _. apply FIN; try assumption; lra.
        * cbn [fsqrt fmul NBe B64]. destruct (sml_root (asml a) As Fs Bs) as (_ & _ & Rs & _). cbv zeta in Rs. destruct (sqrt_nn (asml a) As) as (Nr & Fr & _). rewrite Fs in Fr.
          assert (Nscl : nn (@fdiv b64 NBe f1 (b64_dy 1 518))) by (split; vm_compute; reflexivity).
          apply (mult_fits _ _ 34 Nscl Nr); [vm_compute; reflexivity|exact Fr| |lia]. rewrite scl_sml. assert (bpow radix2 (-518) <= 1) by (change 1 with (bpow radix2 0); apply bpow_le; lia). pose proof (bp (-518)). nra.
      + cbn [fsqrt fmul NBe B64]. destruct (SQB _ Am Fm) as (Nr & Fr & Ur); [|apply ONE; [exact Nr|exact Fr|lra]]. apply BIG. change 1023%Z with (1 + 1022)%Z. apply le_double. lra.
    - destruct Hnb as (Eb & LB). change (flt f0 (abig a)) with (Bltb (@f0 b64 NBe) (abig a)). rewrite (lt0_pos (abig a) Ab); [|intros F'; specialize (LB F'); pose proof (bp (-28)); lra].
      assert (HMC : Bltb (@f0 b64 NBe) (amed a) = false -> Sm = 0).
      { intros MP. destruct Hm0 as [(E & _)|(L & H)]; [exact E|]. rewrite (lt0_pos (amed a) Am) in MP; [discriminate MP|intros F'; specialize (H F'); lra]. }
      pose proof (finish_big q (abig a) (amed a) _ (Bltb (@f0 b64 NBe) (amed a)) Sb Sm Ss Hq Ab Am scl_big S1 S3 Eb) as FB.
      cbv zeta in FB. cbn [fsqrt fmul fadd NBe B64] in *.
      set (sq := if Bltb _ _ then _ else _) in *.
      assert (abU : B2R (abig a) <= bpow radix2 1007).
      { pose proof (bp (-1038)) as P38. assert (XX : 0 <= bpow radix2 (-1038) * Sb) by (apply Rmult_le_pos; lra). pose proof (UPP q _ _ ltac:(lia) XX Hbig) as U. change 1007%Z with (1 + 1006)%Z. apply le_double.
        assert (bpow radix2 (-1038) * Sb <= bpow radix2 1006); [|lra]. change 1006%Z with (-1038 + 2044)%Z. rewrite bpow_plus. apply Rmult_le_compat_l; lra. }
      assert (SQF : nn sq /\ is_finite sq = true).
      { unfold sq. destruct (Bltb (@f0 b64 NBe) (amed a)); [|split; assumption].
        assert (U1 : B2R (amed a) * B2R (b64_dy 1 (-519)) <= bpow radix2 504).
        { rewrite R_sbig. apply Rle_trans with (bpow radix2 1023 * bpow radix2 (-519)); [|rewrite bpp; apply bpow_le; lia]. apply Rmult_le_compat_r; [lra|]. change 1023%Z with (1 + 1022)%Z. apply le_double. lra. }
        destruct (mult_fits (amed a) (b64_dy 1 (-519)) 504 Am NBG Fm eq_refl U1 ltac:(lia)) as (Nz1 & Fz1 & Ez1). set (z1 := Bmult mode_NE (amed a) _) in *.
        assert (Z1U : B2R z1 <= bpow radix2 504) by (rewrite Ez1, <- (rnd_bpow 504) by lia; apply rnd_le; exact U1). pose proof (nn_B2R _ Nz1) as z10.
        assert (U2 : B2R z1 * B2R (b64_dy 1 (-519)) <= bpow radix2 504) by (rewrite R_sbig; nra).
        destruct (mult_fits z1 (b64_dy 1 (-519)) 504 Nz1 NBG Fz1 eq_refl U2 ltac:(lia)) as (Nz2 & Fz2 & Ez2). set (z2 := Bmult mode_NE z1 _) in *.
        assert (Z2U : B2R z2 <= bpow radix2 504) by (rewrite Ez2, <- (rnd_bpow 504) by lia; apply rnd_le; exact U2).
        destruct (plus_fits (abig a) z2 1008 Ab Nz2 Fb Fz2) as (Np & Fp & _); [|lia|split; assumption].
        change 1008%Z with (1 + 1007)%Z. rewrite bpow_plus. change (bpow radix2 1) with 2. assert (bpow radix2 504 <= bpow radix2 1007) by (apply bpow_le; lia). lra. }
      destruct SQF as (Nsq & Fsq). destruct FB as (A6 & _); try assumption; [eapply Rle_trans; [exact SU|]; apply Rmult_le_compat_r; lra|intros _; assumption|intros _; assumption|].
      destruct (sqrt_nn sq Nsq) as (Nr & Fr & _). rewrite Fsq in Fr.
      assert (Nscl : nn (@fdiv b64 NBe f1 (b64_dy 1 (-519)))) by (split; vm_compute; reflexivity).
      apply (mult_fits _ _ (1 + 1022) Nscl Nr); [vm_compute; reflexivity|exact Fr| |lia]. apply le_double.
      pose proof (UPP (q + 5)%nat _ _ ltac:(lia) (sqrt_pos _) A6) as U. cbn [fdiv NBe B64] in U. eapply Rle_trans; [exact U|].
      assert (sqrt (Sb + Sm + Ss) <= bpow radix2 1022); [|lra]. rewrite <- (sqrt_square (bpow radix2 1022)) by lra. rewrite bpp. apply sqrt_le_1_alt. exact HN.
  Qed.
End Terms.
