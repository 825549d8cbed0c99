(** The deflation test of dlaqr5 and the row it brings up to date, in binary64. *)
From Coq Require Import Reals Lra Ascii.
From Flocq Require Import IEEE754.BinarySingleNaN Core.
From Verif Require Import Base Num Array Blas Lapack Dlahqr Dlaqr5 Spec SpecR SpecErr SpecSim Lists B64 B64Lemmas B64Nn MachProofs RsumLemmas RoundErr AppErr Lapy2Err LarfgErr Near
  FaLemmas LahqrProofs RealMat SimArray SimSweep LanvCalc LanvStd HqTwoF64 HqReal HqGet HqErrApp HqErrRefl HqErrStart HqErrPick HqErrReal HqErrStep HqErrSweep Q5Get Q5ErrReal Q5ErrRefl Q5ErrStart.
Open Scope R_scope.

Section Vig.
  Context (lm : libm).
  #[local] Instance NB5v : Num b64 := B64 lm.
  Context (N : R) (HN : mid (4 * N)).
  Notation d4 := (delta (4 * N)).
  Notation M h := (fun a b : Z => B2R (get2 h a b)).

  Lemma N5_facts : 0 < N /\ 1000000 * N <= bpow radix2 1023 /\ 0 <= eta64 <= / 1000000000 * N /\ 0 <= d4 /\ d4 = 4096 * (u64 * N).
  Proof.
    destruct (big_N N HN) as [P1 P2]. pose proof (eta_N N HN). pose proof u64_pos. rewrite delta_u. split; [exact P1|]. split; [exact P2|]. split; [assumption|].
    assert (0 <= u64 * N) by (apply Rmult_le_pos; lra). split; lra.
  Qed.

  Lemma le_max (z a b : b64) : is_finite z = true -> is_finite a = true -> is_finite b = true -> fle z (fmax a b) = true -> B2R z <= B2R a \/ B2R z <= B2R b.
  Proof.
    intros Fz Fa Fb H. change (fmax a b) with (b64_max a b) in H.
    assert (E : b64_max a b = a \/ b64_max a b = b) by (destruct a as [| | |], b as [| | |]; try discriminate; unfold b64_max; destruct (Bltb _ _); auto).
    destruct E as [E|E]; rewrite E in H; [left|right]; apply (leb_val lm); assumption.
  Qed.

  Lemma ofZ_bnd z : (1 <= z <= 2 ^ 31)%Z -> bnd (bpow radix2 31) (fofZ z : b64).
  Proof.
    intros Hz. change (fofZ z : b64) with (binary_normalize 53 1024 prec53 emax1024 mode_NE z 0 false).
    pose proof (binary_normalize_correct 53 1024 prec53 emax1024 mode_NE z 0 false) as C. cbv zeta in C.
    assert (V : F2R (Float radix2 z 0) = IZR z) by (unfold F2R; cbn; ring). rewrite V in C.
    change (round radix2 (SpecFloat.fexp 53 1024) (round_mode mode_NE) (IZR z)) with (rnd (IZR z)) in C.
    assert (L : 1 <= IZR z) by (apply IZR_le; lia). assert (U : IZR z <= bpow radix2 31) by (change (bpow radix2 31) with (IZR (2 ^ 31)); apply IZR_le; lia).
    rewrite in_range in C by (rewrite Rabs_pos_eq by lra; eapply Rle_trans; [exact U|apply bpow_le; lia]). destruct C as (E & F & _). split; [exact F|]. rewrite E.
    apply rnd_bd; [lia|rewrite Rabs_pos_eq by lra; exact U].
  Qed.
  Lemma q5_ulp_val : B2R (q5_ulp : b64) = bpow radix2 (-52) /\ is_finite (q5_ulp : b64) = true.
  Proof. exact (ulp2 lm). Qed.
  Lemma sml_bnd n : (1 <= n <= 2 ^ 31)%Z -> bnd (bpow radix2 (-939)) (q5_smlnum n : b64).
  Proof.
    intros Hn. destruct (ofZ_bnd n Hn) as [F1 L1]. destruct q5_ulp_val as (UV & FU). destruct (safmin_val lm) as (VS & FS).
    unfold q5_smlnum. set (sf := (dlamch (chr "S") : b64)) in *. change (@dlamch b64 (NBpk lm) (chr "S")) with sf in VS, FS. clearbody sf.
    set (z := (fofZ n : b64)) in *. clearbody z. set (up := (q5_ulp : b64)) in *. clearbody up.
    assert (UP : 0 < B2R up) by (rewrite UV; apply bpow_gt_0).
    assert (Q : B2R z / B2R up = B2R z * bpow radix2 52) by (rewrite UV; unfold Rdiv; rewrite <- bpow_opp; reflexivity).
    assert (P52 : 0 < bpow radix2 52) by apply bpow_gt_0.
    assert (QB : Rabs (B2R z * bpow radix2 52) <= bpow radix2 83) by (rewrite Rabs_mult, (Rabs_pos_eq (bpow radix2 52)) by lra; replace 83%Z with (31 + 52)%Z by lia; rewrite bpow_plus; apply Rmult_le_compat_r; lra).
    assert (FQ : is_finite (Bdiv mode_NE z up) = true) by (apply quot_ok; [exact F1|lra|]; rewrite Q; eapply Rle_trans; [apply QB|apply bpow_le; lia]).
    destruct (div_fin _ _ FQ ltac:(lra)) as (_ & EQ & _). rewrite Q in EQ.
    assert (RB : Rabs (B2R (Bdiv mode_NE z up)) <= bpow radix2 83) by (rewrite EQ; apply rnd_bd; [lia|exact QB]).
    change (fmul sf (fdiv z up)) with (Bmult mode_NE sf (Bdiv mode_NE z up)). set (q := Bdiv mode_NE z up) in *.
    pose proof (bpow_gt_0 radix2 (-1022)) as P1.
    assert (PB : Rabs (B2R sf * B2R q) <= bpow radix2 (-939)).
    { rewrite VS, Rabs_mult, (Rabs_pos_eq (bpow radix2 (-1022))) by lra. replace (-939)%Z with (-1022 + 83)%Z by lia. rewrite bpow_plus. apply Rmult_le_compat_l; lra. }
    destruct (mult_ok sf q FS FQ) as (F & E & _); [eapply Rle_trans; [apply PB|apply bpow_le; lia]|].
    split; [exact F|]. rewrite E. apply rnd_bd; [lia|exact PB].
  Qed.

  Lemma vigilant_near n ktop kbot k (h : fa b64) : (1 <= n <= 2 ^ 31)%Z -> bpow radix2 (-890) <= N -> (ktop <= k <= kbot - 2)%Z ->
    bnd (4 * N) (get2 h (k + 1) k) -> bnd (4 * N) (get2 h k k) -> bnd (4 * N) (get2 h (k + 1) (k + 1)) ->
    (forall j, (ktop <= j < k)%Z -> bnd (4 * N) (get2 h k j)) -> (forall i, (k + 2 <= i <= Z.min kbot (k + 4))%Z -> bnd (4 * N) (get2 h i (k + 1))) ->
    q5_vigilant n ktop kbot k h = h \/ (q5_vigilant n ktop kbot k h = set2 h (k + 1) k f0 /\ Rabs (B2R (get2 h (k + 1) k)) <= d4).
  Proof.
    intros Hn HL K B0 B1 B2 B3 B4. destruct N5_facts as (N0 & NB & NE & D0 & DE). unfold q5_vigilant. destruct (fne _ _); [|auto].
    match goal with |- context [fle (fabs _) (fmax _ (fmul _ ?x))] => assert (ET : bnd (33 * N) x) end.
    { destruct (b_abs lm _ _ B1) as (A1 & _). destruct (b_abs lm _ _ B2) as (A2 & _).
      pose proof (b_add lm _ _ _ _ A1 A2 ltac:(lra)) as T1. change (NB5b lm) with NB5v in *. destruct (feq _ f0); [|eapply b_weak; [exact T1|lra]].
      assert (S1 : forall x X, bnd X x -> 0 <= X <= 30 * N -> forall (b : bool) i j, (b = true -> bnd (4 * N) (get2 h i j)) ->
        bnd (1.0001 * (X + 4 * N)) (if b then fadd x (fabs (get2 h i j)) else x)).
      { intros x X Hx HX [|] i j Hb; [|eapply b_weak; [exact Hx|lra]]. destruct (b_abs lm _ _ (Hb eq_refl)) as (A & _). exact (b_add lm _ _ _ _ Hx A ltac:(lra)). }
      pose proof (S1 _ _ T1 ltac:(lra) (ktop + 1 <=? k)%Z k (k - 1)%Z ltac:(intros X; apply Z.leb_le in X; apply B3; lia)) as T2.
      pose proof (S1 _ _ T2 ltac:(lra) (ktop + 2 <=? k)%Z k (k - 2)%Z ltac:(intros X; apply Z.leb_le in X; apply B3; lia)) as T3.
      pose proof (S1 _ _ T3 ltac:(lra) (ktop + 3 <=? k)%Z k (k - 3)%Z ltac:(intros X; apply Z.leb_le in X; apply B3; lia)) as T4.
      pose proof (S1 _ _ T4 ltac:(lra) (k <=? kbot - 2)%Z (k + 2)%Z (k + 1)%Z ltac:(intros X; apply Z.leb_le in X; apply B4; lia)) as T5.
      pose proof (S1 _ _ T5 ltac:(lra) (k <=? kbot - 3)%Z (k + 3)%Z (k + 1)%Z ltac:(intros X; apply Z.leb_le in X; apply B4; lia)) as T6.
      pose proof (S1 _ _ T6 ltac:(lra) (k <=? kbot - 4)%Z (k + 4)%Z (k + 1)%Z ltac:(intros X; apply Z.leb_le in X; apply B4; lia)) as T7.
      clear -T7 N0. eapply b_weak; [exact T7|lra]. }
    match goal with |- context [fle (fabs _) (fmax _ (fmul _ ?x))] => set (T := x) in * end. clearbody T.
    destruct (fle (fabs (get2 h (k + 1) k)) _) eqn:LE; [|auto]. destruct (_ || _)%bool; [|auto]. right. split; [reflexivity|].
    destruct q5_ulp_val as (UV & FU). destruct (sml_bnd n Hn) as (FS & LS). set (up := (q5_ulp : b64)) in *. clearbody up. set (sm := (q5_smlnum n : b64)) in *. clearbody sm.
    assert (UB : bnd (2 * u64) up). { split; [exact FU|]. rewrite UV, Rabs_pos_eq by apply bpow_ge_0. unfold u64. replace (-52)%Z with (1 + -53)%Z by lia. rewrite bpow_plus. change (bpow radix2 1) with 2. lra. }
    pose proof u_tiny as [U0 U1].
    assert (UN : u64 * N <= / 1000000000000 * N) by (apply Rmult_le_compat_r; lra).
    pose proof (b_mul lm _ _ _ _ UB ET ltac:(lra)) as [FP LP].
    destruct (b_abs lm _ _ B0) as ([FA _] & _ & EA). change (NB5b lm) with NB5v in *. apply le_max in LE; [|assumption..]. rewrite EA in LE.
    assert (SD : bpow radix2 (-939) <= d4).
    { unfold delta. apply Rle_trans with (bpow radix2 (-43) * bpow radix2 (-890)); [rewrite <- bpow_plus; apply bpow_le; lia|]. apply Rmult_le_compat_l; [apply bpow_ge_0|lra]. }
    assert (ED : eta64 <= bpow radix2 (-939)) by (unfold eta64; apply bpow_le; lia).
    destruct LE as [LE|LE]; eapply Rle_trans; [exact LE| |exact LE|].
    - eapply Rle_trans; [apply Rle_abs|]. eapply Rle_trans; [exact LS|exact SD].
    - eapply Rle_trans; [apply Rle_abs|]. eapply Rle_trans; [exact LP|]. assert (eta64 <= u64 * N); [|lra].
      apply Rle_trans with (bpow radix2 (-53) * bpow radix2 (-890)); [rewrite <- bpow_plus; unfold eta64; apply bpow_le; lia|]. apply Rmult_le_compat_l; [unfold u64; apply bpow_ge_0|exact HL].
  Qed.

  (** *** the row brought up to date *)
  Lemma catch_near n k (t1 v2 v3 : b64) w2 w3 t (h : fa b64) G : rapp v2 v3 t1 w2 w3 t -> big n h -> (1 <= k)%Z -> (k + 3 <= n)%Z ->
    G (k + 3)%Z k = 0 -> G (k + 3)%Z (k + 1)%Z = 0 -> bnd (4 * N) (get2 h (k + 3) (k + 2)) -> B2R (get2 h (k + 3) (k + 2)) = G (k + 3)%Z (k + 2)%Z ->
    forall b, (k <= b <= k + 2)%Z -> near_r (get2 (catch_up k t1 v2 v3 h) (k + 3) b) (rright k w2 w3 t G (k + 3)%Z b) d4.
  Proof.
    intros HR HB Hk Hn G1 G2 [F3 L3] G3 b Hb.
    pose proof (catch_up_get n k t1 v2 v3 h (k + 3) b HB Hk Hn ltac:(lia)) as E. cbv zeta in E. rewrite E. clear E. rewrite Z.eqb_refl. cbn [andb].
    pose proof (vx lm (4 * N) HN _ _ _ (ra_3 _ _ _ _ _ _ HR) F3 L3) as S. change (NBha lm) with NB5v in *. set (s := fmul v3 (get2 h (k + 3) (k + 2)) : b64) in *.
    destruct (mid_facts (4 * N) HN) as (M0 & UM & UUM & ET & BIG & UMM). pose proof u_tiny as [U0 U1].
    assert (NG : forall tt tr, ab tt tr (233 * u64) 2 -> near_r (fmul (fneg s) tt) (0 - w3 * B2R (get2 h (k + 3) (k + 2)) * tr) d4).
    { intros tt tr T. pose proof (ab_opp lm _ _ _ _ S) as S'.
      assert (UUUM : u64 * (u64 * (u64 * (4 * N))) <= u64 * (u64 * (4 * N))) by (assert (0 <= u64 * (u64 * (4 * N))) by (apply Rmult_le_pos; lra); nra).
      assert (P : ab (fmul (fneg s) tt) (- (w3 * B2R (get2 h (k + 3) (k + 2))) * tr) (1024 * (u64 * (4 * N))) (2 * (4 * N))).
      { eapply ab_weak; [eapply (ab_mul lm); [exact S'|exact T|]| |]; lra. }
      rewrite delta_u. destruct P as (P1 & P2 & _). split; [exact P1|]. replace (0 - w3 * B2R (get2 h (k + 3) (k + 2)) * tr) with (- (w3 * B2R (get2 h (k + 3) (k + 2))) * tr) by ring. exact P2. }
    unfold rright. rewrite G1, G2, <- G3.
    assert (b = k \/ b = k + 1 \/ b = k + 2)%Z as [-> | [-> | ->]] by lia.
    - rewrite Z.eqb_refl. rewrite G1, wvec_0. replace (0 - (0 + w2 * 0 + w3 * B2R (get2 h (k + 3) (k + 2))) * (t * 1)) with (0 - w3 * B2R (get2 h (k + 3) (k + 2)) * t) by ring.
      apply NG. apply (t1_w _ _ _ _ _ _ HR).
    - destruct (Z.eqb_spec (k + 1) k); [lia|]. rewrite Z.eqb_refl. rewrite G2, wvec_1. replace (0 - (0 + w2 * 0 + w3 * B2R (get2 h (k + 3) (k + 2))) * (t * w2)) with (0 - w3 * B2R (get2 h (k + 3) (k + 2)) * (t * w2)) by ring.
      apply NG. exact (tv2 lm _ _ _ _ _ _ HR).
    - destruct (Z.eqb_spec (k + 2) k); [lia|]. destruct (Z.eqb_spec (k + 2) (k + 1)); [lia|]. rewrite Z.eqb_refl. rewrite <- G3, wvec_2.
      replace (0 + w2 * 0 + w3 * B2R (get2 h (k + 3) (k + 2))) with (w3 * B2R (get2 h (k + 3) (k + 2))) by ring.
      apply (one_out lm (4 * N) HN); [exact F3|exact L3| |exact (tv3 lm _ _ _ _ _ _ HR)].
      eapply ab_weak; [exact S|lra|lra].
  Qed.

  (** the corner of the bulge does not vanish *)
  Lemma corner_low (x3 v3 t1 : b64) rr rho : bnd (4 * N) x3 -> bnd 2 v3 -> bnd 3 t1 -> 20 * N * rr <= Rabs (B2R x3) -> rho <= Rabs (B2R v3) -> 0.999 <= B2R t1 -> 0 <= rr -> 0 <= rho ->
    bpow radix2 (-900) <= N * (rho * rr) -> 19.9 * (N * (rho * rr)) <= Rabs (B2R (fmul (fneg (fmul v3 x3)) t1)).
  Proof.
    intros B3 BV BT LX LV LT Hr Hrho HL. destruct N5_facts as (N0 & NB & NE & D0 & DE).
    destruct (b_mul lm _ _ _ _ BV B3 ltac:(lra)) as [FS BS].
    assert (PL : bpow radix2 (-1010) <= bpow radix2 (-900)) by (apply bpow_le; lia). pose proof (bpow_gt_0 radix2 (-900)) as P9.
    assert (S1 : 0.999 * (20 * (N * (rho * rr))) <= Rabs (B2R (fmul v3 x3))).
    { apply (mul_low lm); [exact FS| |lra]. rewrite Rabs_mult. replace (20 * (N * (rho * rr))) with (rho * (20 * N * rr)) by ring.
      apply Rmult_le_compat; [exact Hrho| |exact LV|exact LX]. apply Rmult_le_pos; [lra|exact Hr]. }
    change (NB5b lm) with NB5v in *. set (s := fmul v3 x3 : b64) in *. clearbody s.
    assert (NS : bnd (1.0001 * (2 * (4 * N)) + eta64) (fneg s) /\ Rabs (B2R (fneg s)) = Rabs (B2R s)).
    { change (fneg s) with (Bopp s). unfold LanvStd.bnd. rewrite is_finite_Bopp, B2R_Bopp, Rabs_Ropp. repeat split; assumption. }
    destruct NS as [NS EN].
    destruct (b_mul lm _ _ _ _ NS BT ltac:(lra)) as [FP _].
    apply Rle_trans with (0.999 * (0.999 * (0.999 * (20 * (N * (rho * rr)))))); [lra|].
    apply (mul_low lm); [exact FP| |lra]. rewrite Rabs_mult, EN. rewrite (Rabs_pos_eq (B2R t1)) by lra.
    rewrite (Rmult_comm 0.999 (0.999 * _)). apply Rmult_le_compat; lra.
  Qed.
  Lemma ne0 (x : b64) : is_finite x = true -> 0 < Rabs (B2R x) -> fne x f0 = true.
  Proof.
    intros F H. change (fne x f0) with (negb (Beqb x (b64_dy 0 0))). rewrite Beqb_correct by (assumption || reflexivity).
    assert (Z0 : B2R (b64_dy 0 0) = 0) by reflexivity. rewrite Z0, Req_bool_false; [reflexivity|]. intros E. rewrite E, Rabs_R0 in H. lra.
  Qed.
End Vig.
