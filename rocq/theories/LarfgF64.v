(** dlarfg in binary64, both paths. *)
From Coq Require Import Reals Lra.
From Flocq Require Import IEEE754.BinarySingleNaN Core Mult_error.
From Verif Require Import Base Num Array Blas Lapack Spec SpecR SpecErr B64 B64Lemmas B64Nn MachProofs Lapy2Proofs Lists FaLemmas
  Blas1Proofs Nrm2Proofs Nrm2F64 RsumLemmas RoundErr AppErr Lapy2Err Nrm2Err Nrm2Acc LarfgProofs GemmErr LarfgErr.
Open Scope R_scope.

Lemma some_nonzero (v : Z -> b64) (k : Z) : (forall t, (0 <= t < k)%Z -> B2R (v t) = 0) \/ (exists t, (0 <= t < k)%Z /\ B2R (v t) <> 0).
Proof.
  destruct (Z_le_gt_dec k 0) as [L|L]; [left; intros; lia|].
  assert (G : forall k, (0 <= k)%Z -> (forall t, (0 <= t < k)%Z -> B2R (v t) = 0) \/ (exists t, (0 <= t < k)%Z /\ B2R (v t) <> 0)); [|apply G; lia].
  intros j Hj. pattern j. apply natlike_ind; [left; intros; lia| |exact Hj]. intros i Hi [IH|(t & Ht & E)].
  - destruct (Req_dec (B2R (v i)) 0) as [E|E]; [|right; exists i; split; [lia|exact E]]. left. intros t Ht. destruct (Z.eq_dec t i) as [->|]; [exact E|apply IH; lia].
  - right. exists t. split; [lia|exact E].
Qed.
Lemma min_abs (x : b64) : B2R x <> 0 -> bpow radix2 (-1074) <= Rabs (B2R x).
Proof.
  intros H. destruct (Rlt_le_dec 0 (B2R x)) as [L|L].
  - rewrite Rabs_pos_eq by lra. apply min_pos, L.
  - rewrite Rabs_left1 by lra. rewrite <- B2R_Bopp. apply min_pos. rewrite B2R_Bopp. lra.
Qed.
(** scaling up by a power of two is exact *)
Lemma mult_scale (x r : b64) e : is_finite x = true -> is_finite r = true -> (0 <= e)%Z -> B2R r = bpow radix2 e -> Bsign r = false -> Rabs (B2R x * bpow radix2 e) <= bpow radix2 1023 ->
  is_finite (Bmult mode_NE x r) = true /\ B2R (Bmult mode_NE x r) = B2R x * bpow radix2 e /\ Bsign (Bmult mode_NE x r) = Bsign x.
Proof.
  intros Fx Fr He Er Sr H. rewrite <- Er in H. destruct (mult_ok x r Fx Fr H) as (F & V & S). split; [exact F|]. split.
  - rewrite V, Er. apply round_generic; auto with typeclass_instances. apply mult_bpow_pos_exact_FLT; [apply fmt|exact He].
  - rewrite S, Sr. apply xorb_false_r.
Qed.

Section F.
  Context (lm : libm) (LM : libm_ok lm).
  #[local] Instance NBh : Num b64 := B64 lm.
  Context {X : Type} {TX : ToFA b64 X} {FX : FromFA b64 X}.
  Hypothesis FL : flat_container b64 X.

  Lemma safmin64 : (larfg_safmin : b64) = b64_dy 1 (-969). Proof. apply B2SF_inj. vm_compute. reflexivity. Qed.
  Lemma rsafmn64 : fdiv f1 (larfg_safmin : b64) = b64_dy 1 969. Proof. apply B2SF_inj. vm_compute. reflexivity. Qed.
  Lemma V969 : is_finite (b64_dy 1 969) = true /\ B2R (b64_dy 1 969) = bpow radix2 969 /\ Bsign (b64_dy 1 969) = false.
  Proof.
    split; [reflexivity|]. split; [|reflexivity]. rewrite <- SF2R_B2SF. assert (E : B2SF (b64_dy 1 969) = SpecFloat.S754_finite false 4503599627370496 917) by (vm_compute; reflexivity). rewrite E.
    cbn [SF2R SpecFloat.cond_Zopp]. unfold F2R. cbn [Fnum Fexp]. replace (IZR 4503599627370496) with (bpow radix2 52) by (cbn [bpow]; f_equal; vm_compute; reflexivity).
    rewrite <- bpow_plus. reflexivity.
  Qed.
  Lemma Vm969 : is_finite (b64_dy 1 (-969)) = true /\ B2R (b64_dy 1 (-969)) = bpow radix2 (-969).
  Proof.
    split; [reflexivity|]. rewrite <- SF2R_B2SF. assert (E : B2SF (b64_dy 1 (-969)) = SpecFloat.S754_finite false 4503599627370496 (-1021)) by (vm_compute; reflexivity). rewrite E.
    cbn [SF2R SpecFloat.cond_Zopp]. unfold F2R. cbn [Fnum Fexp]. replace (IZR 4503599627370496) with (bpow radix2 52) by (cbn [bpow]; f_equal; vm_compute; reflexivity).
    rewrite <- bpow_plus. reflexivity.
  Qed.

  (** dscal, element by element *)
  Lemma dscal_elts k r (x : X) incx (v : Z -> b64) : (1 <= k)%Z -> (1 <= incx)%Z -> (forall t, (0 <= t < k)%Z -> elem (to_fa x) (stride k incx t) = Some (v t)) ->
    exists x', dscal k r x incx = Ok x' /\ forall t, (0 <= t < k)%Z -> elem (to_fa x') (stride k incx t) = Some (if feq r f1 then v t else fmul (v t) r).
  Proof.
    intros Hk Hi V. destruct (dscal_spec k r x incx) as [Q U]. destruct (feq r f1) eqn:E.
    - exists x. split; [apply Q; auto|exact V].
    - destruct (U Hk Hi eq_refl) as (d & -> & (_ & U1 & _)). destruct (FL d) as (x' & Ex & D). exists x'. split; [exact Ex|].
      intros t Ht. rewrite (elem_data _ _ D), U1, V by exact Ht. reflexivity.
  Qed.

  Definition larfg_tail n incx knt (x : X) (beta alpha : b64) : outcome (b64 * X * b64) :=
    let tau := fdiv (fsub beta alpha) beta in
    x <- dscal (n - 1) (fdiv f1 (fsub alpha beta)) x incx ;; Ok (mul_times knt larfg_safmin beta, x, tau).

  Section Vec.
    Context (n incx : Z).
    Hypothesis Hn : (2 <= n < 2 ^ 31)%Z.
    Hypothesis Hi : (1 <= incx)%Z.
    Let m := (Z.to_nat (n - 1) + 12)%nat.
    Definition sumsq (v : Z -> b64) : R := Rsum_range (fun t => val64 (v t) * val64 (v t)) 0 (n - 1 - 1).
    Lemma sumsq_pos v : 0 <= sumsq v. Proof. apply Rsum_range_nonneg. intros. apply Rle_0_sqr. Qed.
    Lemma sumsq_term v t : (0 <= t < n - 1)%Z -> B2R (v t) * B2R (v t) <= sumsq v.
    Proof. intros Ht. apply (Rsum_range_term (fun t => val64 (v t) * val64 (v t))); [intros; apply Rle_0_sqr|lia]. Qed.

    Lemma norm_err (x : X) v : (forall t, (0 <= t < n - 1)%Z -> elem (to_fa x) (stride (n - 1) incx t) = Some (v t) /\ is_finite (v t) = true) ->
      is_finite (dnrm2 (n - 1) x incx : b64) = true ->
      Rabs (B2R (dnrm2 (n - 1) x incx) - sqrt (sumsq v)) <= gam m * sqrt (sumsq v) + bpow radix2 (-1039).
    Proof.
      intros V F. eapply Rle_trans; [exact (dnrm2_err lm LM (n - 1) (to_fa x) incx v ltac:(lia) V F)|]. apply Rplus_le_compat_l.
      apply Rle_trans with (bpow radix2 16 * bpow radix2 (-1055)); [apply Rmult_le_compat_r; [apply bpow_ge_0|]|rewrite <- bpow_plus; apply bpow_le; lia].
      rewrite <- (sqrt_square (bpow radix2 16)) by apply bpow_ge_0. apply sqrt_le_1_alt. rewrite <- bpow_plus. change (bpow radix2 (16 + 16)) with (IZR (2 ^ 32)). apply IZR_le. lia.
    Qed.

    (** the part after the scaling loop *)
    Lemma tail_err (x : X) (a : b64) v knt : is_finite a = true ->
      (forall t, (0 <= t < n - 1)%Z -> elem (to_fa x) (stride (n - 1) incx t) = Some (v t) /\ is_finite (v t) = true) ->
      is_finite (dnrm2 (n - 1) x incx : b64) = true ->
      let h := sqrt (B2R a * B2R a + sumsq v) in let bs := - sg a * h in
      bpow radix2 (-970) <= h <= bpow radix2 1020 ->
      let beta := larfg_beta a (dnrm2 (n - 1) x incx) in
      exists x' tau, larfg_tail n incx knt x beta a = Ok (mul_times knt larfg_safmin beta, x', tau) /\
        is_finite beta = true /\ Rabs (B2R beta - bs) <= gam (m + 6) * h /\
        is_finite tau = true /\ Rabs (B2R tau - (bs - B2R a) / bs) <= gam (3 * m + 20) * ((bs - B2R a) / bs) /\
        forall t, (0 <= t < n - 1)%Z -> exists y, elem (to_fa x') (stride (n - 1) incx t) = Some y /\ is_finite y = true /\
          Rabs (B2R y - B2R (v t) / (B2R a - bs)) <= gam (2 * m + 16) * Rabs (B2R (v t) / (B2R a - bs)) + eta64.
    Proof.
      intros Fa V Fn h bs Hh beta. set (xn := dnrm2 (n - 1) x incx : b64) in *. set (N := sqrt (sumsq v)). pose proof (sumsq_pos v) as S0.
      assert (NN : N * N = sumsq v) by (apply sqrt_sqrt, S0). assert (N0 : 0 <= N) by apply sqrt_pos.
      assert (EH : h = sqrt (B2R a * B2R a + N * N)) by (unfold h; rewrite NN; reflexivity).
      pose proof (norm_err x v V Fn) as NE. fold xn N in NE. assert (Hm : (Z.of_nat m <= 2 ^ 31 + 100)%Z) by (unfold m; lia).
      rewrite EH in Hh. destruct (beta_val lm a xn m N Fa Fn N0 Hm NE Hh) as [Fb _].
      pose proof (beta_err lm a xn m N Fa Fn N0 Hm NE Hh) as Eb. destruct (tau_val lm a xn m N Fa Fn N0 Hm NE Hh) as [Ft Et].
      pose proof (fun y => elt_val lm a xn m N Fa Fn N0 Hm NE Hh y) as EV. rewrite <- EH in *.
      destruct (dscal_elts (n - 1) (fdiv f1 (fsub a beta)) x incx v ltac:(lia) Hi (fun t Ht => proj1 (V t Ht))) as (x' & ED & EX).
      assert (HP : 0 < h) by (pose proof (bpow_gt_0 radix2 (-970)); lra).
      assert (TQ : (bs - B2R a) / bs = (Rabs (B2R a) + h) / h).
      { assert (S1 : sg a <> 0) by (unfold sg; destruct (Bsign a); lra). rewrite (sg_val a) at 1. unfold bs. field. split; [lra|exact S1]. }
      exists x', (fdiv (fsub beta a) beta). unfold larfg_tail. rewrite ED. cbn [bind]. split; [reflexivity|]. split; [exact Fb|]. split; [exact Eb|]. split; [exact Ft|].
      split; [rewrite TQ; exact Et|]. intros t Ht. eexists. split; [apply EX, Ht|]. apply EV; [apply V, Ht|].
      apply Rsqr_incr_0_var; [|lra]. unfold Rsqr. rewrite <- Rabs_mult, Rabs_pos_eq by apply Rle_0_sqr. unfold h. rewrite sqrt_sqrt by (pose proof (Rle_0_sqr (B2R a)); unfold Rsqr in *; lra).
      pose proof (sumsq_term v t Ht). pose proof (Rle_0_sqr (B2R a)). unfold Rsqr in *. lra.
    Qed.

    Lemma dlarfg_err (x : X) (a : b64) v : is_finite a = true ->
      (forall t, (0 <= t < n - 1)%Z -> elem (to_fa x) (stride (n - 1) incx t) = Some (v t) /\ is_finite (v t) = true) ->
      is_finite (dnrm2 (n - 1) x incx : b64) = true -> B2R (dnrm2 (n - 1) x incx : b64) <> 0 ->
      let h := sqrt (B2R a * B2R a + sumsq v) in let bs := - sg a * h in
      h <= bpow radix2 1020 ->
      exists b x' tau, dlarfg n a x incx = Ok (b, x', tau) /\
        is_finite b = true /\ Rabs (B2R b - bs) <= gam (m + 7) * h + eta64 /\
        is_finite tau = true /\ Rabs (B2R tau - (bs - B2R a) / bs) <= gam (3 * m + 20) * ((bs - B2R a) / bs) /\
        forall t, (0 <= t < n - 1)%Z -> exists y, elem (to_fa x') (stride (n - 1) incx t) = Some y /\ is_finite y = true /\
          Rabs (B2R y - B2R (v t) / (B2R a - bs)) <= gam (2 * m + 16) * Rabs (B2R (v t) / (B2R a - bs)) + eta64.
    Proof.
      intros Fa V Fn Nn h bs Hh. set (xn := dnrm2 (n - 1) x incx : b64) in *. set (N := sqrt (sumsq v)). pose proof (sumsq_pos v) as S0.
      assert (NN : N * N = sumsq v) by (apply sqrt_sqrt, S0). assert (N0 : 0 <= N) by apply sqrt_pos.
      assert (EH : h = sqrt (B2R a * B2R a + N * N)) by (unfold h; rewrite NN; reflexivity).
      pose proof (norm_err x v V Fn) as NE. fold xn N in NE. assert (Hm : (Z.of_nat m <= 2 ^ 31 + 100)%Z) by (unfold m; lia).
      assert (Fd : is_finite (dlapy2 a xn : b64) = true) by (apply (d_fin lm a xn m N Fa Fn N0 Hm NE); rewrite <- EH; exact Hh).
      assert (DR : _ /\ _) by exact (conj (d_rough lm a xn m N Fa Fn N0 Hm NE ltac:(rewrite <- EH; exact Hh)) (h1_rough a xn m N N0 Hm NE)).
      rewrite <- EH in DR. pose proof (h1_xn a xn) as HX. pose proof (min_abs xn Nn) as MX. pose proof (h_pos a N) as HP. rewrite <- EH in HP.
      set (h1 := sqrt (B2R a * B2R a + B2R xn * B2R xn)) in *. set (d := B2R (dlapy2 a xn : b64)) in *. destruct DR as [DR HR].
      destruct (larfg_beta_val lm a xn Fa Fd) as [Fb Vb]. change (larfg_beta a xn) with (@larfg_beta b64 NBh a xn) in *. set (beta := larfg_beta a xn) in *. fold d in Vb.
      assert (ET : 2 * eta64 = bpow radix2 (-1074)) by (unfold eta64; change 2 with (bpow radix2 1); rewrite <- bpow_plus; reflexivity). pose proof eta64_pos as ETP.
      assert (D0 : 0 < d) by lra.
      assert (AB : Rabs (B2R beta) = d) by (rewrite Vb, <- Ropp_mult_distr_l, Rabs_Ropp, sg_abs, Rabs_pos_eq; [reflexivity|lra]).
      assert (NB0 : bpow radix2 (-1074) <= d) by (rewrite <- AB; apply min_abs; intros Z; rewrite Z, Rabs_R0 in AB; lra).
      destruct Vm969 as [F9 V9].
      assert (LT : forall y : b64, is_finite y = true -> flt (fabs y) (larfg_safmin : b64) = Rlt_bool (Rabs (B2R y)) (bpow radix2 (-969))).
      { intros y Fy. rewrite safmin64. change (Bltb (Babs y) (b64_dy 1 (-969)) = Rlt_bool (Rabs (B2R y)) (bpow radix2 (-969))).
        rewrite Bltb_correct by (rewrite ?is_finite_Babs; assumption). rewrite B2R_Babs, V9. reflexivity. }
      unfold dlarfg. destruct (Z.leb_spec n 1); [lia|]. fold xn.
      replace (feq xn f0) with false.
      2:{ symmetry. change (Beqb xn (b64_dy 0 0) = false). destruct (Beqb xn (b64_dy 0 0)) eqn:E; [|reflexivity]. apply b64_eqb0 in E. contradiction. }
      fold beta. rewrite LT by exact Fb. rewrite AB.
      assert (SMALL : bpow radix2 (-1039) <= / 1000 * bpow radix2 (-969) /\ eta64 <= / 1000 * bpow radix2 (-969) /\ 2 * bpow radix2 (-970) = bpow radix2 (-969) /\ bpow radix2 (-968) = 2 * bpow radix2 (-969)).
      { assert (T : bpow radix2 (-10) <= / 1000) by (change (bpow radix2 (-10)) with (/ 1024); lra). pose proof (bpow_gt_0 radix2 (-969)) as G9.
        assert (T2 : bpow radix2 (-979) <= / 1000 * bpow radix2 (-969)) by (change (-979)%Z with (-10 + -969)%Z; rewrite bpow_plus; apply Rmult_le_compat_r; lra).
        split; [eapply Rle_trans; [|exact T2]; apply bpow_le; lia|]. split; [eapply Rle_trans; [|exact T2]; apply bpow_le; lia|].
        split; change 2 with (bpow radix2 1); rewrite <- bpow_plus; reflexivity. }
      destruct SMALL as (K1 & K2 & K3 & K4). pose proof (bpow_gt_0 radix2 (-969)) as G9. set (s9 := bpow radix2 (-969)) in *.
      case (Rlt_bool_spec d s9); intros HB.
      - (* rescale *)
        rewrite rsafmn64. cbn [dlarfg_loop]. destruct V969 as (Fr & Vr & Sr).
        assert (H8 : h <= bpow radix2 (-968)) by lra.
        assert (SC : forall y : b64, is_finite y = true -> Rabs (B2R y) <= bpow radix2 (-968) ->
          is_finite (Bmult mode_NE y (b64_dy 1 969)) = true /\ B2R (Bmult mode_NE y (b64_dy 1 969)) = B2R y * bpow radix2 969 /\ Bsign (Bmult mode_NE y (b64_dy 1 969)) = Bsign y).
        { intros y Fy By. apply mult_scale; try assumption; [lia|]. rewrite Rabs_mult, (Rabs_pos_eq (bpow _ _)) by apply bpow_ge_0.
          apply Rle_trans with (bpow radix2 (-968) * bpow radix2 969); [apply Rmult_le_compat_r; [apply bpow_ge_0|exact By]|]. rewrite <- bpow_plus. apply bpow_le. lia. }
        pose proof (h_a a N) as HA. rewrite <- EH in HA.
        assert (HT : forall t, (0 <= t < n - 1)%Z -> Rabs (B2R (v t)) <= h).
        { intros t Ht. apply Rsqr_incr_0_var; [|exact HP]. unfold Rsqr. rewrite <- Rabs_mult, Rabs_pos_eq by apply Rle_0_sqr. rewrite EH, sqrt_sqrt by (pose proof (Rle_0_sqr (B2R a)); pose proof (Rle_0_sqr N); unfold Rsqr in *; lra).
          rewrite NN. pose proof (sumsq_term v t Ht). pose proof (Rle_0_sqr (B2R a)). unfold Rsqr in *. lra. }
        set (vs := fun t => Bmult mode_NE (v t) (b64_dy 1 969)). set (as' := Bmult mode_NE a (b64_dy 1 969)).
        destruct (dscal_elts (n - 1) (b64_dy 1 969) x incx v ltac:(lia) Hi (fun t Ht => proj1 (V t Ht))) as (x1 & ED & EX1).
        assert (N1 : feq (b64_dy 1 969) (f1 : b64) = false) by (vm_compute; reflexivity). rewrite N1 in EX1.
        rewrite ED. cbn [bind]. change (fmul beta (b64_dy 1 969)) with (Bmult mode_NE beta (b64_dy 1 969)). change (fmul a (b64_dy 1 969)) with as'.
        destruct (SC beta Fb) as (Fb1 & Vb1 & _). { rewrite AB. lra. }
        replace (flt (larfg_safmin : b64) (fabs (Bmult mode_NE beta (b64_dy 1 969)))) with true.
        2:{ symmetry. rewrite safmin64. change (Bltb (b64_dy 1 (-969)) (Babs (Bmult mode_NE beta (b64_dy 1 969))) = true).
            rewrite Bltb_correct by (rewrite ?is_finite_Babs; assumption). rewrite B2R_Babs, V9, Vb1, Rabs_mult, AB, (Rabs_pos_eq (bpow _ _)) by apply bpow_ge_0. apply Rlt_bool_true.
            apply Rlt_le_trans with (bpow radix2 (-1074 + 969)); [apply bpow_lt; lia|]. rewrite bpow_plus. apply Rmult_le_compat_r; [apply bpow_ge_0|exact NB0]. }
        cbn [orb bind]. destruct (SC a Fa ltac:(lra)) as (Fa1 & Va1 & Sa1). fold as' in Fa1, Va1, Sa1.
        assert (V1 : forall t, (0 <= t < n - 1)%Z -> elem (to_fa x1) (stride (n - 1) incx t) = Some (vs t) /\ is_finite (vs t) = true).
        { intros t Ht. split; [apply EX1, Ht|]. apply SC; [apply V, Ht|]. eapply Rle_trans; [apply HT, Ht|exact H8]. }
        set (c := bpow radix2 969) in *. assert (C0 : 0 < c) by apply bpow_gt_0.
        assert (SS : sumsq vs = c * c * sumsq v).
        { unfold sumsq. rewrite <- Rsum_range_scal. apply Rsum_range_ext. intros t Ht. unfold val64, vs.
          rewrite (proj1 (proj2 (SC (v t) (proj2 (V t ltac:(lia))) ltac:(eapply Rle_trans; [apply HT; lia|exact H8])))). ring. }
        assert (HS : sqrt (B2R as' * B2R as' + sumsq vs) = c * h).
        { rewrite Va1, SS. replace (B2R a * c * (B2R a * c) + c * c * sumsq v) with (c * c * (B2R a * B2R a + sumsq v)) by ring. rewrite sqrt_mult by (try nra; pose proof (Rle_0_sqr (B2R a)); unfold Rsqr in *; lra).
          rewrite sqrt_square by lra. reflexivity. }
        assert (C9 : c * s9 = 1) by (unfold c, s9; rewrite <- bpow_plus; reflexivity).
        assert (Hlow : bpow radix2 (-1074) <= h).
        { destruct (some_nonzero v (n - 1)) as [ZV|(t & Ht & NZ)].
          - exfalso. apply Nn. unfold xn, dnrm2. rewrite (dnrm2_zeros lm LM); [reflexivity|]. intros t Ht. destruct (V t Ht) as [E F]. specialize (ZV t Ht).
            destruct (v t) as [s|s| |s mm e B]; try discriminate F; [exists s; exact E|]. exfalso. revert ZV. apply F2R_neq_0. destruct s; discriminate.
          - eapply Rle_trans; [apply (min_abs _ NZ)|apply HT, Ht]. }
        assert (HS2 : bpow radix2 (-970) <= c * h <= bpow radix2 1020).
        { split.
          - apply Rle_trans with (c * bpow radix2 (-1074)); [unfold c; rewrite <- bpow_plus; apply bpow_le; lia|apply Rmult_le_compat_l; lra].
          - apply Rle_trans with (c * bpow radix2 (-968)); [apply Rmult_le_compat_l; lra|unfold c; rewrite <- bpow_plus; apply bpow_le; lia]. }
        assert (Fn1 : is_finite (dnrm2 (n - 1) x1 incx : b64) = true).
        { assert (CH : c * h <= 2) by (apply Rle_trans with (c * bpow radix2 (-968)); [apply Rmult_le_compat_l; lra|rewrite K4; lra]).
          assert (CS : sumsq vs <= c * h * (c * h)).
          { rewrite <- HS, sqrt_sqrt; pose proof (Rle_0_sqr (B2R as')) as Q; unfold Rsqr in Q; pose proof (sumsq_pos vs); lra. }
          apply (dnrm2_finite lm LM (n - 1) (to_fa x1) incx vs ltac:(lia) V1).
          - apply Rle_trans with (sumsq vs).
            + apply Rsum_range_le. intros t Ht. destruct (Rle_dec _ _); [lra|]. apply Rle_0_sqr.
            + apply Rle_trans with (bpow radix2 2); [change (bpow radix2 2) with 4|apply bpow_le; lia]. assert (0 <= c * h) by nra. nra.
          - fold (sumsq vs). apply Rle_trans with (c * h); [|apply Rle_trans with (bpow radix2 1020); [apply HS2|apply bpow_le; lia]].
            rewrite <- HS. apply sqrt_le_1_alt. pose proof (Rle_0_sqr (B2R as')) as Q. unfold Rsqr in Q. lra. }
        destruct (tail_err x1 as' vs 1 Fa1 V1 Fn1) as (x' & tau & ET' & Fb' & Eb & Ft & Etau & R); [rewrite HS; exact HS2|]. rewrite HS in *.
        assert (SGE : sg as' = sg a) by (unfold sg; rewrite Sa1; reflexivity). rewrite SGE, Va1 in *.
        set (b1 := larfg_beta as' (dnrm2 (n - 1) x1 incx)) in *. change (mul_times 1 larfg_safmin b1) with (Bmult mode_NE b1 larfg_safmin) in ET'. rewrite safmin64 in ET'.
        assert (BS : - sg a * (c * h) = c * bs) by (unfold bs; ring). rewrite BS in *.
        assert (HP0 : 0 < h) by (pose proof (bpow_gt_0 radix2 (-1074)); lra).
        assert (S1 : sg a <> 0) by (unfold sg; destruct (Bsign a); lra).
        assert (B0 : bs <> 0) by (unfold bs; apply Rmult_integral_contrapositive_currified; lra).
        assert (AB0 : B2R a - bs <> 0).
        { rewrite (sg_val a) at 1. unfold bs. replace (sg a * Rabs (B2R a) - - sg a * h) with (sg a * (Rabs (B2R a) + h)) by ring. pose proof (Rabs_pos (B2R a)).
          apply Rmult_integral_contrapositive_currified; lra. }
        replace ((c * bs - B2R a * c) / (c * bs)) with ((bs - B2R a) / bs) in Etau by (field; lra).
        pose proof (q_small (m + 6) ltac:(lia)) as G6.
        assert (E1 : Rabs (B2R b1 * s9 - bs) <= gam (m + 6) * h).
        { replace (B2R b1 * s9 - bs) with (s9 * (B2R b1 - c * bs)) by (rewrite Rmult_minus_distr_l, <- Rmult_assoc, (Rmult_comm s9 c), C9; ring).
          rewrite Rabs_mult, (Rabs_pos_eq s9) by lra. apply Rle_trans with (s9 * (gam (m + 6) * (c * h))); [apply Rmult_le_compat_l; [lra|exact Eb]|].
          apply Req_le. replace (s9 * (gam (m + 6) * (c * h))) with (c * s9 * (gam (m + 6) * h)) by ring. rewrite C9. ring. }
        assert (ABS : Rabs bs = h) by (unfold bs; rewrite <- Ropp_mult_distr_l, Rabs_Ropp, sg_abs, Rabs_pos_eq; lra).
        destruct (mult_ok b1 (b64_dy 1 (-969)) Fb' F9) as (FB & VB & _).
        { rewrite V9. fold s9. replace (B2R b1 * s9) with (bs + (B2R b1 * s9 - bs)) by ring. eapply Rle_trans; [apply Rabs_triang|]. rewrite ABS.
          apply Rle_trans with (2 * h); [nra|]. apply Rle_trans with (2 * bpow radix2 1020); [lra|]. change 2 with (bpow radix2 1). rewrite <- bpow_plus. apply bpow_le. lia. }
        exists (Bmult mode_NE b1 (b64_dy 1 (-969))), x', tau. split; [exact ET'|]. split; [exact FB|]. split; [|split; [exact Ft|split; [exact Etau|]]].
        + destruct (mult_fin _ _ FB) as (_ & _ & _ & EM). rewrite V9 in EM. fold s9 in EM. eapply Rle_trans; [exact (err_step_eta _ _ _ _ EM E1)|].
          rewrite ABS. replace (m + 7)%nat with (S (m + 6)) by lia. rewrite gam_S. apply Req_le. ring.
        + intros t Ht. destruct (R t Ht) as (y & Ey & Fy & By). exists y. split; [exact Ey|]. split; [exact Fy|].
          unfold vs in By. rewrite (proj1 (proj2 (SC (v t) (proj2 (V t Ht)) ltac:(eapply Rle_trans; [apply HT, Ht|exact H8])))) in By.
          replace (B2R (v t) * c / (B2R a * c - c * bs)) with (B2R (v t) / (B2R a - bs)) in By; [exact By|]. field. split; [|exact AB0]. 
          replace (B2R a * c - c * bs) with (c * (B2R a - bs)) by ring. apply Rmult_integral_contrapositive_currified; lra.
      - cbn [bind]. destruct (tail_err x a v 0 Fa V Fn) as (x' & tau & ET' & Fb' & Eb & R); [fold h; split; [lra|exact Hh]|]. fold xn beta h bs in ET', Fb', Eb, R.
        exists beta, x', tau. split; [exact ET'|]. split; [exact Fb'|]. split; [|exact R].
        eapply Rle_trans; [exact Eb|]. pose proof (gam_le (m + 6) (m + 7) ltac:(lia)). nra.
    Qed.
  End Vec.
End F.
