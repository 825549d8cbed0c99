(** dlarfg. *)
From Flocq Require Import Core IEEE754.BinarySingleNaN.
From Coq Require Import Ascii Reals Lra.
From Verif Require Import Base Num Array Blas Lapack Spec SpecR ER Lists FaLemmas Blas1Proofs Blas1Real RsumLemmas
  Nrm2Proofs B64 Nrm2F64 MachProofs Lapy2Proofs.
Open Scope R_scope.

Section Flat.
  Context {F : Type} {NF : Num F}.
  Lemma flat_vec : flat_container F (list F).
  Proof. intros d. exists (data d). split; reflexivity. Qed.
  Lemma flat_fa : flat_container F (fa F).
  Proof. intros d. exists d. split; reflexivity. Qed.
  Lemma elem_data (f g : fa F) : data f = data g -> forall p, elem f p = elem g p.
  Proof. intros E p. unfold elem. rewrite E. reflexivity. Qed.

  Context {X : Type} {TX : ToFA F X} {FX : FromFA F X}.
  Hypothesis FL : flat_container F X.

  Lemma dscal_flat n da (x : X) incx : exists x', dscal n da x incx = Ok x' /\ count (to_fa x') = count (to_fa x) /\
    forall p, (forall t, (0 <= t < n)%Z -> p <> stride n incx t) -> elem (to_fa x') p = elem (to_fa x) p.
  Proof.
    destruct (dscal_spec n da x incx) as [Q U].
    destruct (Z_le_gt_dec n 0); [exists x; split; [apply Q; auto|auto]|].
    destruct (Z_le_gt_dec incx 0); [exists x; split; [apply Q; auto|auto]|].
    destruct (feq da f1) eqn:E; [exists x; split; [apply Q; auto|auto]|].
    destruct U as (d & Ed & (Sh & _ & U)); [lia|lia|reflexivity|]. destruct (FL d) as (x' & Ex & D).
    exists x'. rewrite Ed, Ex. split; [reflexivity|]. split.
    - destruct Sh as (_ & _ & Sh). rewrite <- Sh. unfold count. rewrite D. reflexivity.
    - intros p Hp. rewrite (elem_data _ _ D). apply U. exact Hp.
  Qed.

  (** the loop always ends, after at most 21 rounds *)
  Lemma larfg_loop_total fuel n incx s r : forall knt (x : X) beta alpha, (20 <= knt + fuel)%nat ->
    exists knt' x' beta' alpha', dlarfg_loop fuel n incx s r knt x beta alpha = Ok (knt', x', beta', alpha') /\
      count (to_fa x') = count (to_fa x) /\ (knt < knt' <= Nat.max (S knt) 21)%nat /\
      forall p, (forall t, (0 <= t < n - 1)%Z -> p <> stride (n - 1) incx t) -> elem (to_fa x') p = elem (to_fa x) p.
  Proof.
    induction fuel as [|fuel IH]; intros knt x beta alpha H; cbn [dlarfg_loop];
      destruct (dscal_flat (n - 1) r x incx) as (x1 & -> & C1 & O1); cbn [bind].
    - destruct (Nat.ltb_spec 20 (S knt)); [|lia]. rewrite orb_true_r. do 4 eexists. split; [reflexivity|].
      split; [assumption|]. split; [lia|assumption].
    - destruct (flt _ _ || _)%bool eqn:E.
      + do 4 eexists. split; [reflexivity|]. split; [assumption|]. split; [lia|assumption].
      + apply orb_false_iff in E as [_ E]. apply Nat.ltb_ge in E.
        destruct (IH (S knt) x1 (fmul beta r) (fmul alpha r)) as (k & x' & b & a & -> & C & K & O); [lia|].
        do 4 eexists. split; [reflexivity|]. split; [congruence|]. split; [lia|].
        intros p Hp. rewrite O, O1 by assumption. reflexivity.
  Qed.

  Lemma dlarfg_total n alpha (x : X) incx : exists beta x' tau, dlarfg n alpha x incx = Ok (beta, x', tau) /\
    count (to_fa x') = count (to_fa x) /\
    forall p, (forall t, (0 <= t < n - 1)%Z -> p <> stride (n - 1) incx t) -> elem (to_fa x') p = elem (to_fa x) p.
  Proof.
    unfold dlarfg. destruct (n <=? 1)%Z; [do 3 eexists; split; [reflexivity|auto]|].
    destruct (feq _ _); [do 3 eexists; split; [reflexivity|auto]|].
    destruct (flt _ _).
    - destruct (larfg_loop_total 20 n incx larfg_safmin (fdiv f1 larfg_safmin) 0 x (larfg_beta alpha (dnrm2 (n - 1) x incx)) alpha)
        as (k & x1 & b & a & -> & C & K & O); [lia|]. cbn [bind].
      destruct (dscal_flat (n - 1) (fdiv f1 (fsub a (larfg_beta a (dnrm2 (n - 1) x1 incx)))) x1 incx) as (x2 & -> & C2 & O2). cbn [bind].
      do 3 eexists. split; [reflexivity|]. split; [congruence|]. intros p Hp. rewrite O2, O by assumption. reflexivity.
    - cbn [bind]. destruct (dscal_flat (n - 1) (fdiv f1 (fsub alpha (larfg_beta alpha (dnrm2 (n - 1) x incx)))) x incx) as (x2 & -> & C2 & O2). cbn [bind].
      do 3 eexists. split; [reflexivity|]. auto.
  Qed.

  Lemma dlarfg_quick n alpha (x : X) incx : (n <= 1)%Z \/ feq (dnrm2 (n - 1) x incx) f0 = true ->
    dlarfg n alpha x incx = Ok (alpha, x, f0).
  Proof.
    intros H. unfold dlarfg. destruct (Z.leb_spec n 1); [reflexivity|]. destruct H as [|H]; [lia|]. rewrite H. reflexivity.
  Qed.
End Flat.

(** *** exact arithmetic *)
Definition safmin : R := bpow radix2 (-969).
Lemma er_dy m e : (fdy m e : er) = Fin (IZR m * bpow radix2 e).
Proof. cbn [fdy ER]. unfold ER.er_dy. rewrite bpow_powerRZ. reflexivity. Qed.
Lemma er_mach_eps : (mach_eps : er) = Fin (bpow radix2 (-53)).
Proof.
  unfold mach_eps, fEPS, fhalf. rewrite !er_dy, er_mulE, !Rmult_1_l, <- bpow_plus. reflexivity.
Qed.
Lemma er_sfmin : (mach_sfmin : er) = Fin (bpow radix2 (-1022)).
Proof.
  unfold mach_sfmin. rewrite er_fMAX. unfold fMINPOS. rewrite er_dy, Rmult_1_l, er_f1.
  assert (L : 0 < bpow radix2 1023 < Rfmax).
  { split; [apply bpow_gt_0|]. unfold Rfmax. replace (bpow radix2 1024) with (bpow radix2 1023 + bpow radix2 1023).
    - assert (bpow radix2 971 < bpow radix2 1023) by (apply bpow_lt; lia). lra.
    - change 1024%Z with (1 + 1023)%Z. rewrite bpow_plus. change (bpow radix2 1) with 2. lra. }
  rewrite er_divE by lra. rewrite er_leE, Rle_bool_false.
  - reflexivity.
  - unfold Rdiv. rewrite Rmult_1_l. apply Rlt_le_trans with (/ bpow radix2 1023).
    + apply Rinv_lt_contravar; nra.
    + rewrite <- bpow_opp. apply bpow_le. lia.
Qed.
Lemma er_safmin : (larfg_safmin : er) = Fin safmin.
Proof.
  unfold larfg_safmin. change (dlamch (chr "S")) with (mach_sfmin : er). change (dlamch (chr "E")) with (mach_eps : er).
  rewrite er_sfmin, er_mach_eps. pose proof (bpow_gt_0 radix2 (-53)). rewrite er_divE by lra. f_equal.
  unfold Rdiv, safmin. rewrite <- bpow_opp, <- bpow_plus. reflexivity.
Qed.
Lemma safmin_pos : 0 < safmin < 1.
Proof. split; [apply bpow_gt_0|]. change 1 with (bpow radix2 0). apply bpow_lt. lia. Qed.
#[local] Opaque safmin.

Section Exact.
  Context {X : Type} {TX : ToFA er X} {FX : FromFA er X}.
  Hypothesis FL : flat_container er X.

  Lemma dscal_flat_exact m c (x : X) incx xv : (1 <= m)%Z -> (1 <= incx)%Z -> vec_is (to_fa x) m incx xv ->
    exists x', dscal m (Fin c) x incx = Ok x' /\ vec_is (to_fa x') m incx (fun t => xv t * c) /\
      count (to_fa x') = count (to_fa x) /\
      forall p, (forall t, (0 <= t < m)%Z -> p <> stride m incx t) -> elem (to_fa x') p = elem (to_fa x) p.
  Proof.
    intros Hm Hi V. destruct (dscal_spec m (Fin c) x incx) as [Q U].
    rewrite er_f1, er_eqE in *. destruct (Req_dec c 1) as [->|N].
    - exists x. rewrite Req_bool_true in * by reflexivity. split; [apply Q; auto|]. split; auto.
      intros t Ht. rewrite Rmult_1_r. apply V, Ht.
    - rewrite Req_bool_false in * by assumption. destruct (U Hm Hi eq_refl) as (d & -> & (Sh & U1 & U2)).
      destruct (FL d) as (x' & E & D). exists x'. split; [exact E|]. split; [|split].
      + intros t Ht. rewrite (elem_data _ _ D), U1 by assumption. rewrite (V t Ht). reflexivity.
      + destruct Sh as (_ & _ & Sh). rewrite <- Sh. unfold count. rewrite D. reflexivity.
      + intros p Hp. rewrite (elem_data _ _ D). apply U2. exact Hp.
  Qed.

  Lemma larfg_loop_exact fuel n incx r : (2 <= n)%Z -> (1 <= incx)%Z ->
    forall knt (x : X) b a xv, vec_is (to_fa x) (n - 1) incx xv -> (20 <= knt + fuel)%nat -> Rabs b <= safmin -> 0 < r -> safmin * r <= 1 ->
    exists k x', dlarfg_loop fuel n incx (Fin safmin) (Fin r) knt x (Fin b) (Fin a) =
        Ok (knt + k, x', Fin (b * r ^ k), Fin (a * r ^ k))%nat /\
      vec_is (to_fa x') (n - 1) incx (fun t => xv t * r ^ k) /\ count (to_fa x') = count (to_fa x) /\
      Rabs (b * r ^ k) <= 1 /\
      forall p, (forall t, (0 <= t < n - 1)%Z -> p <> stride (n - 1) incx t) -> elem (to_fa x') p = elem (to_fa x) p.
  Proof.
    intros Hn Hi. induction fuel as [|fuel IH]; intros knt x b a xv V H B R1 R2; cbn [dlarfg_loop];
      destruct (dscal_flat_exact (n - 1) r x incx xv ltac:(lia) Hi V) as (x1 & -> & V1 & C1 & O1); cbn [bind];
      rewrite !er_mulE, er_absE, er_ltE;
      assert (B1 : Rabs (b * r) <= 1) by (rewrite Rabs_mult, (Rabs_pos_eq r) by lra; pose proof (Rabs_pos b); nra).
    - destruct (Nat.ltb_spec 20 (S knt)); [|lia]. rewrite orb_true_r. exists 1%nat, x1. rewrite pow_1, Nat.add_1_r.
      split; [reflexivity|]. split; [assumption|]. split; [assumption|]. split; assumption.
    - destruct (Rlt_bool safmin (Rabs (b * r)) || _)%bool eqn:E.
      + exists 1%nat, x1. rewrite pow_1, Nat.add_1_r.
        split; [reflexivity|]. split; [assumption|]. split; [assumption|]. split; assumption.
      + apply orb_false_iff in E as [E1 E2]. apply Nat.ltb_ge in E2. revert E1. case Rlt_bool_spec; [discriminate|]. intros E1 _.
        destruct (IH (S knt) x1 (b * r) (a * r) _ V1 ltac:(lia) E1 R1 R2) as (k & x' & -> & V' & C' & B' & O').
        exists (S k), x'. replace (knt + S k)%nat with (S knt + k)%nat by lia. cbn [pow].
        split; [f_equal; f_equal; [f_equal|]; f_equal; ring|]. split; [|split; [congruence|split]].
        * intros t Ht. rewrite (V' t Ht). do 2 f_equal. ring.
        * rewrite <- Rmult_assoc. exact B'.
        * intros p Hp. rewrite O', O1 by assumption. reflexivity.
  Qed.

  Lemma mul_times_exact k c b : mul_times k (Fin c) (Fin b) = Fin (b * c ^ k).
  Proof.
    revert b. induction k as [|k IH]; intros b; cbn [mul_times]; [f_equal; cbn; ring|].
    rewrite er_mulE, IH. f_equal. cbn. ring.
  Qed.

  (** -sign(a) sqrt(a^2 + s) *)
  Definition betaR (a s : R) : R := - sgn1 a * sqrt (a * a + s).

  Lemma larfg_beta_exact a s : 0 <= s -> Rabs a <= Rfmax -> sqrt s <= Rfmax ->
    larfg_beta (Fin a) (Fin (sqrt s)) = Fin (betaR a s).
  Proof.
    intros Hs Ha Hq. unfold larfg_beta. rewrite dlapy2_exact, er_signumE, er_negE, er_mulE.
    - rewrite sqrt_sqrt by assumption. reflexivity.
    - assumption.
    - rewrite Rabs_pos_eq by apply sqrt_pos. assumption.
  Qed.

  Lemma betaR_sq a s : 0 <= s -> betaR a s * betaR a s = a * a + s.
  Proof.
    intros H. unfold betaR. replace (- sgn1 a * sqrt (a * a + s) * (- sgn1 a * sqrt (a * a + s)))
      with ((sgn1 a * sgn1 a) * (sqrt (a * a + s) * sqrt (a * a + s))) by ring.
    rewrite sgn1_sq, sqrt_sqrt by nra. ring.
  Qed.
  Lemma betaR_abs a s : Rabs (betaR a s) = sqrt (a * a + s).
  Proof. unfold betaR. rewrite Rabs_mult, Rabs_Ropp, Rabs_sgn1, Rabs_pos_eq by apply sqrt_pos. ring. Qed.
  Lemma betaR_sign a s : betaR a s * a <= 0.
  Proof.
    unfold betaR. replace (- sgn1 a * sqrt (a * a + s) * a) with (- (sgn1 a * a * sqrt (a * a + s))) by ring. rewrite sgn1_abs.
    pose proof (Rabs_pos a). pose proof (sqrt_pos (a * a + s)). nra.
  Qed.
  Lemma sgn1_scale a c : 0 < c -> sgn1 (a * c) = sgn1 a.
  Proof. intros H. unfold sgn1. case Rlt_bool_spec; case Rlt_bool_spec; intros; auto; exfalso; nra. Qed.
  Lemma betaR_scale a s c : 0 <= s -> 0 < c -> betaR (a * c) (s * (c * c)) = betaR a s * c.
  Proof.
    intros Hs Hc. unfold betaR. rewrite sgn1_scale by assumption.
    replace (a * c * (a * c) + s * (c * c)) with (c * c * (a * a + s)) by ring.
    rewrite sqrt_scaled by nra. ring.
  Qed.

  (** all of dlarfg in exact arithmetic *)
  Lemma dlarfg_exact n a (x : X) incx xv : (2 <= n < 2 ^ 31)%Z -> (1 <= incx)%Z -> vec_is (to_fa x) (n - 1) incx xv ->
    Rabs a <= Rfmax -> (forall t, (0 <= t < n - 1)%Z -> Rabs (xv t) <= 2 ^ 505) -> 0 < sum_sq (n - 1) xv ->
    let beta := betaR a (sum_sq (n - 1) xv) in
    exists x', dlarfg n (Fin a) x incx = Ok (Fin beta, x', Fin ((beta - a) / beta)) /\
      vec_is (to_fa x') (n - 1) incx (fun t => xv t / (a - beta)) /\
      count (to_fa x') = count (to_fa x) /\
      forall p, (forall t, (0 <= t < n - 1)%Z -> p <> stride (n - 1) incx t) -> elem (to_fa x') p = elem (to_fa x) p.
  Proof.
    intros Hn Hi V Ha Hx HN. cbv zeta. set (N := sum_sq (n - 1) xv) in *.
    assert (NB : sqrt N <= Rfmax).
    { assert (N <= IZR n * 2 ^ 1010).
      { apply Rle_trans with (Rsum_range (fun _ => 2 ^ 1010) 0 (n - 1 - 1)).
        - apply Rsum_range_le. intros t Ht. specialize (Hx t ltac:(lia)).
          replace (2 ^ 1010) with (2 ^ 505 * 2 ^ 505) by (rewrite <- pow_add; reflexivity).
          replace (xv t * xv t) with (Rabs (xv t) * Rabs (xv t)) by (rewrite <- Rabs_mult; apply Rabs_pos_eq, Rle_0_sqr).
          pose proof (Rabs_pos (xv t)). apply Rmult_le_compat; assumption.
        - rewrite Rsum_range_const by lia. apply Rmult_le_compat_r; [apply pow_le; lra|]. apply IZR_le. lia. }
      assert (IZR n <= 2 ^ 32) by (rewrite pow_IZR; apply IZR_le; cbn; lia).
      assert (P : 0 < 2 ^ 1010) by (apply pow_lt; lra).
      assert (N <= 2 ^ 521 * 2 ^ 521) by (rewrite <- pow_add; change (521 + 521)%nat with (32 + 1010)%nat; rewrite pow_add; nra).
      apply Rle_trans with (2 ^ 521).
      - rewrite <- (sqrt_square (2 ^ 521)) by (apply pow_le; lra). apply sqrt_le_1_alt. assumption.
      - unfold Rfmax. change 1024%Z with (1 + 1023)%Z. rewrite bpow_plus. change (bpow radix2 1) with 2.
        assert (bpow radix2 971 <= bpow radix2 1023) by (apply bpow_le; lia).
        assert (2 ^ 521 <= bpow radix2 1023); [|lra].
        replace (2 ^ 521) with (bpow radix2 521); [apply bpow_le; lia|]. rewrite bpow_powerRZ. reflexivity. }
    unfold dlarfg. destruct (Z.leb_spec n 1); [lia|].
    assert (NR : dnrm2 (n - 1) x incx = Fin (sqrt N)) by (apply dnrm2_exact; [lia|assumption|assumption]).
    rewrite NR, er_f0, er_eqE. assert (0 < sqrt N) by (apply sqrt_lt_R0; assumption). rewrite Req_bool_false by lra.
    rewrite larfg_beta_exact, er_safmin, er_absE, er_ltE by (assumption || lra). set (beta := betaR a N).
    pose proof (betaR_sq a N ltac:(lra)) as BQ. fold beta in BQ. pose proof (betaR_sign a N) as BS. fold beta in BS.
    assert (B0 : beta <> 0) by (intros E; rewrite E in BQ; nra).
    assert (AB : a - beta <> 0) by (intros E; replace a with beta in * by lra; nra).
    pose proof safmin_pos as SP.
    case (Rlt_bool_spec (Rabs beta) safmin); intros HB.
    - rewrite er_f1, er_divE by lra.
      destruct (larfg_loop_exact 20 n incx (1 / safmin) ltac:(lia) Hi 0 x beta a xv V ltac:(lia) ltac:(lra)) as (k & x1 & -> & V1 & C1 & B1 & O1).
      { apply Rdiv_lt_0_compat; lra. } { apply Req_le. field. lra. }
      cbn [bind]. set (r := 1 / safmin) in *. assert (R0 : 0 < r ^ k) by (apply pow_lt; unfold r; apply Rdiv_lt_0_compat; lra).
      assert (S1 : sum_sq (n - 1) (fun t => xv t * r ^ k) = N * (r ^ k * r ^ k)).
      { unfold sum_sq, N. rewrite (Rsum_range_ext _ (fun t => (r ^ k * r ^ k) * (xv t * xv t))) by (intros; ring).
        rewrite Rsum_range_scal. fold (sum_sq (n - 1) xv). ring. }
      assert (SB : betaR (a * r ^ k) (N * (r ^ k * r ^ k)) = beta * r ^ k) by (apply betaR_scale; lra).
      assert (N0 : 0 <= N * (r ^ k * r ^ k)) by nra.
      (* everything is at most 1 *)
      assert (T1 : a * r ^ k * (a * r ^ k) + N * (r ^ k * r ^ k) <= 1).
      { rewrite <- SB, betaR_abs in B1. assert (Q : 0 <= a * r ^ k * (a * r ^ k) + N * (r ^ k * r ^ k)) by nra.
        rewrite <- (sqrt_sqrt _ Q). pose proof (sqrt_pos (a * r ^ k * (a * r ^ k) + N * (r ^ k * r ^ k))). nra. }
      assert (P505 : 1 <= 2 ^ 505) by (apply pow_R1_Rle; lra).
      assert (F1 : 1 <= Rfmax).
      { unfold Rfmax. change 1024%Z with (1 + 1023)%Z. rewrite bpow_plus. change (bpow radix2 1) with 2.
        assert (bpow radix2 971 <= bpow radix2 1023) by (apply bpow_le; lia).
        assert (bpow radix2 0 <= bpow radix2 1023) by (apply bpow_le; lia). change (bpow radix2 0) with 1 in *. lra. }
      assert (NR1 : dnrm2 (n - 1) x1 incx = Fin (sqrt (N * (r ^ k * r ^ k)))).
      { rewrite <- S1. apply dnrm2_exact; [lia|assumption|]. intros t Ht.
        assert (xv t * r ^ k * (xv t * r ^ k) <= N * (r ^ k * r ^ k)).
        { rewrite <- S1. apply (Rsum_range_term (fun t => xv t * r ^ k * (xv t * r ^ k))); [intros; apply Rle_0_sqr|lia]. }
        assert (Rabs (xv t * r ^ k) * Rabs (xv t * r ^ k) <= 1).
        { rewrite <- Rabs_mult, Rabs_pos_eq by apply Rle_0_sqr. nra. }
        pose proof (Rabs_pos (xv t * r ^ k)). nra. }
      rewrite NR1, larfg_beta_exact, SB; [|assumption| |].
      2:{ pose proof (Rabs_pos (a * r ^ k)). assert (Rabs (a * r ^ k) * Rabs (a * r ^ k) <= 1) by (rewrite <- Rabs_mult, Rabs_pos_eq by apply Rle_0_sqr; nra). nra. }
      2:{ apply Rle_trans with 1; [|assumption]. rewrite <- sqrt_1. apply sqrt_le_1_alt. nra. }
      assert (D0 : a * r ^ k - beta * r ^ k <> 0).
      { replace (a * r ^ k - beta * r ^ k) with ((a - beta) * r ^ k) by ring. apply Rmult_integral_contrapositive_currified; lra. }
      rewrite er_subE, er_divE by assumption.
      destruct (dscal_flat_exact (n - 1) (1 / (a * r ^ k - beta * r ^ k)) x1 incx _ ltac:(lia) Hi V1) as (x2 & -> & V2 & C2 & O2). cbn [bind].
      rewrite er_subE, er_divE by (apply Rmult_integral_contrapositive_currified; lra). cbn [Nat.add]. rewrite mul_times_exact.
      exists x2. split; [|split; [|split]].
      + do 2 f_equal; [f_equal|].
        * f_equal. rewrite Rmult_assoc, <- Rpow_mult_distr. unfold r. replace (1 / safmin * safmin) with 1 by (field; lra). rewrite pow1. ring.
        * f_equal. field. split; lra.
      + intros t Ht. rewrite (V2 t Ht). do 2 f_equal. field. split; [assumption|]. exact D0.
      + congruence.
      + intros p Hp. rewrite O2, O1 by assumption. reflexivity.
    - cbn [bind]. rewrite er_f1, er_subE, er_divE by assumption.
      destruct (dscal_flat_exact (n - 1) (1 / (a - beta)) x incx _ ltac:(lia) Hi V) as (x2 & -> & V2 & C2 & O2). cbn [bind].
      rewrite er_subE, er_divE by assumption. cbn [mul_times]. exists x2. split; [reflexivity|]. split; [|split; assumption].
      intros t Ht. rewrite (V2 t Ht). do 2 f_equal. field. assumption.
  Qed.
End Exact.

(** *** the reflector *)
Lemma Rsum_shift f lo k : Rsum f (lo + 1) k = Rsum (fun i => f (i + 1)%Z) lo k.
Proof. revert lo. induction k; intros lo; cbn [Rsum]; [reflexivity|]. rewrite IHk. reflexivity. Qed.
Lemma Rsum_range_vcons f n : (1 <= n)%Z -> Rsum_range f 0 (n - 1) = f 0%Z + Rsum_range (fun t => f (t + 1)%Z) 0 (n - 1 - 1).
Proof.
  intros H. rewrite Rsum_range_cons by lia. f_equal. unfold Rsum_range. rewrite Rsum_shift. f_equal. lia.
Qed.
Lemma vcons_S a v t : (0 <= t)%Z -> vcons a v (t + 1) = v t.
Proof. intros H. unfold vcons. destruct (Z.eqb_spec (t + 1) 0); [lia|]. f_equal. lia. Qed.
Lemma dot_vcons n a b v w : (1 <= n)%Z ->
  Rsum_range (fun k => vcons a v k * vcons b w k) 0 (n - 1) = a * b + Rsum_range (fun t => v t * w t) 0 (n - 1 - 1).
Proof.
  intros H. rewrite Rsum_range_vcons by assumption. f_equal. apply Rsum_range_ext. intros t Ht. rewrite !vcons_S by lia. reflexivity.
Qed.

Lemma reflect_norm n tau w : tau * (tau * sum_sq n w - 2) = 0 -> forall y, sum_sq n (reflect n tau w y) = sum_sq n y.
Proof.
  intros H y. unfold sum_sq, reflect in *. set (d := Rsum_range (fun k => w k * y k) 0 (n - 1)).
  rewrite (Rsum_range_ext _ (fun k => y k * y k + (- (2 * tau * d) * (w k * y k) + tau * tau * (d * d) * (w k * w k)))) by (intros; ring).
  rewrite !Rsum_range_plus, !Rsum_range_scal. fold d.
  replace (- (2 * tau * d) * d + tau * tau * (d * d) * Rsum_range (fun k => w k * w k) 0 (n - 1))
    with (d * d * (tau * (tau * Rsum_range (fun k => w k * w k) 0 (n - 1) - 2))) by ring.
  rewrite H. ring.
Qed.

Section Reflector.
  Variables (n : Z) (a : R) (xv : Z -> R).
  Hypotheses (Hn : (2 <= n)%Z) (HN : 0 < sum_sq (n - 1) xv).
  Let N := sum_sq (n - 1) xv.
  Let beta := betaR a N.
  Let tau := (beta - a) / beta.
  Let v := fun t => xv t / (a - beta).

  Lemma refl_facts : beta * beta = a * a + N /\ beta * a <= 0 /\ beta <> 0 /\ a - beta <> 0.
  Proof.
    pose proof (betaR_sq a N ltac:(unfold N; lra)) as BQ. fold beta in BQ. pose proof (betaR_sign a N) as BS. fold beta in BS.
    fold N in HN.
    assert (B0 : beta <> 0) by (intros E; rewrite E in BQ; nra).
    assert (AB : a - beta <> 0) by (intros E; replace a with beta in * by lra; nra). auto.
  Qed.

  Lemma refl_annihilates : forall i, (0 <= i < n)%Z -> reflect n tau (vcons 1 v) (vcons a xv) i = vcons beta (fun _ => 0) i.
  Proof.
    destruct refl_facts as (BQ & BS & B0 & AB). intros i Hi. unfold reflect. rewrite dot_vcons by lia.
    assert (D : 1 * a + Rsum_range (fun t => v t * xv t) 0 (n - 1 - 1) = - beta).
    { rewrite (Rsum_range_ext _ (fun t => / (a - beta) * (xv t * xv t))) by (intros; unfold v, Rdiv; ring).
      rewrite Rsum_range_scal. fold (sum_sq (n - 1) xv). fold N. replace N with (beta * beta - a * a) by lra. field. assumption. }
    rewrite D. unfold vcons. destruct (Z.eqb_spec i 0).
    - unfold tau. field. assumption.
    - unfold tau, v. field. split; assumption.
  Qed.

  Lemma refl_two : tau * sum_sq n (vcons 1 v) = 2.
  Proof.
    destruct refl_facts as (BQ & BS & B0 & AB). unfold sum_sq. rewrite dot_vcons by lia.
    rewrite (Rsum_range_ext _ (fun t => / ((a - beta) * (a - beta)) * (xv t * xv t))) by (intros; unfold v; field; assumption).
    rewrite Rsum_range_scal. fold (sum_sq (n - 1) xv). fold N. replace N with (beta * beta - a * a) by lra. unfold tau. field. split; assumption.
  Qed.

  Lemma refl_tau : 1 <= tau <= 2.
  Proof.
    destruct refl_facts as (BQ & BS & B0 & AB). fold N in HN.
    assert (E : tau = 1 + - (beta * a) / (beta * beta)) by (unfold tau; field; assumption).
    assert (P : 0 < beta * beta) by nra.
    assert (Q : 0 <= - (beta * a) / (beta * beta) <= 1).
    { split.
      - apply Rmult_le_pos; [lra|]. apply Rlt_le, Rinv_0_lt_compat. assumption.
      - apply Rmult_le_reg_r with (beta * beta); [assumption|]. unfold Rdiv. rewrite Rmult_assoc, Rinv_l, Rmult_1_r, Rmult_1_l by lra. nra. }
    lra.
  Qed.
End Reflector.

Lemma dlarfg_reflector (X : Type) (TX : ToFA er X) (FX : FromFA er X) n a (x : X) incx xv : flat_container er X ->
  (2 <= n < 2 ^ 31)%Z -> (1 <= incx)%Z -> vec_is (to_fa x) (n - 1) incx xv ->
  Rabs a <= bpow radix2 1024 - bpow radix2 971 -> (forall t, (0 <= t < n - 1)%Z -> Rabs (xv t) <= 2 ^ 505) ->
  (exists t, (0 <= t < n - 1)%Z /\ xv t <> 0) ->
  exists beta x' tau v, dlarfg n (Fin a) x incx = Ok (Fin beta, x', Fin tau) /\
    vec_is (to_fa x') (n - 1) incx v /\
    (forall i, (0 <= i < n)%Z -> reflect n tau (vcons 1 v) (vcons a xv) i = vcons beta (fun _ => 0) i) /\
    (forall y, sum_sq n (reflect n tau (vcons 1 v) y) = sum_sq n y) /\
    beta * beta = a * a + sum_sq (n - 1) xv /\ beta * a <= 0 /\ 1 <= tau <= 2 /\
    count (to_fa x') = count (to_fa x) /\
    forall p, (forall t, (0 <= t < n - 1)%Z -> p <> stride (n - 1) incx t) -> elem (to_fa x') p = elem (to_fa x) p.
Proof.
  intros FL Hn Hi V Ha Hx (t & Ht & NZ).
  assert (HN : 0 < sum_sq (n - 1) xv).
  { apply Rlt_le_trans with (xv t * xv t); [apply Rsqr_pos_lt; assumption|].
    apply (Rsum_range_term (fun t => xv t * xv t)); [intros; apply Rle_0_sqr|lia]. }
  destruct (dlarfg_exact FL n a x incx xv Hn Hi V Ha Hx HN) as (x' & E & V' & C & O).
  do 4 eexists. split; [exact E|]. split; [exact V'|].
  split; [apply refl_annihilates; assumption || lia|].
  split. { apply reflect_norm. rewrite refl_two by (assumption || lia). ring. }
  destruct (refl_facts n a xv HN) as (BQ & BS & _ & _).
  split; [exact BQ|]. split; [exact BS|]. split; [apply refl_tau; assumption|]. split; assumption.
Qed.

Lemma dlarfg_zero_exact (X : Type) (TX : ToFA er X) (FX : FromFA er X) n alpha (x : X) incx :
  vec_is (to_fa x) (n - 1) incx (fun _ => 0) -> dlarfg n alpha x incx = Ok (alpha, x, Fin 0).
Proof.
  intros V. destruct (Z_le_gt_dec n 1) as [H|H].
  - rewrite dlarfg_quick, er_f0 by auto. reflexivity.
  - rewrite dlarfg_quick, er_f0; [reflexivity|]. right.
    unfold dnrm2. rewrite (dnrm2_exact (n - 1) (to_fa x) incx (fun _ => 0)); [|lia|exact V|].
    + rewrite Rsum_range_zero by (intros; ring). rewrite sqrt_0, er_f0, er_eqE. apply Req_bool_true. reflexivity.
    + intros. rewrite Rabs_R0. apply pow_le. lra.
Qed.

(** binary64: a vector of signed zeros *)
Lemma dlarfg_zero_b64 lm (X : Type) (TX : ToFA b64 X) (FX : FromFA b64 X) n alpha (x : X) incx : libm_ok lm ->
  (forall t, (0 <= t < n - 1)%Z -> exists s, elem (to_fa x) (stride (n - 1) incx t) = Some (B754_zero s)) ->
  @dlarfg b64 (B64 lm) X TX FX n alpha x incx = Ok (alpha, x, B754_zero false).
Proof.
  intros LM H. rewrite (@dlarfg_quick b64 (B64 lm) X TX FX); [reflexivity|]. right.
  unfold dnrm2. rewrite (dnrm2_zeros lm LM) by assumption. reflexivity.
Qed.

Lemma dlarfg_values (X : Type) (TX : ToFA er X) (FX : FromFA er X) n a (x : X) incx xv : flat_container er X ->
  (2 <= n < 2 ^ 31)%Z -> (1 <= incx)%Z -> vec_is (to_fa x) (n - 1) incx xv ->
  Rabs a <= bpow radix2 1024 - bpow radix2 971 -> (forall t, (0 <= t < n - 1)%Z -> Rabs (xv t) <= 2 ^ 505) ->
  (exists t, (0 <= t < n - 1)%Z /\ xv t <> 0) ->
  let beta := (if Rlt_dec a 0 then 1 else -1) * sqrt (a * a + sum_sq (n - 1) xv) in
  exists x', dlarfg n (Fin a) x incx = Ok (Fin beta, x', Fin ((beta - a) / beta)) /\
    vec_is (to_fa x') (n - 1) incx (fun t => xv t / (a - beta)).
Proof.
  intros FL Hn Hi V Ha Hx (t & Ht & NZ) beta.
  assert (HN : 0 < sum_sq (n - 1) xv).
  { apply Rlt_le_trans with (xv t * xv t); [apply Rsqr_pos_lt; assumption|].
    apply (Rsum_range_term (fun t => xv t * xv t)); [intros; apply Rle_0_sqr|lia]. }
  destruct (dlarfg_exact FL n a x incx xv Hn Hi V Ha Hx HN) as (x' & E & V' & _).
  assert (B : betaR a (sum_sq (n - 1) xv) = beta).
  { unfold betaR, beta. f_equal. unfold sgn1. destruct (Rlt_dec a 0).
    - rewrite Rlt_bool_true by assumption. ring.
    - rewrite Rlt_bool_false by lra. ring. }
  rewrite B in *. exists x'. split; assumption.
Qed.

Lemma larfg_loop_bounded {F} {NF : Num F} {X} {TX : ToFA F X} {FX : FromFA F X} : flat_container F X ->
  forall n incx s r (x : X) beta alpha,
  exists knt x' beta' alpha', dlarfg_loop 20 n incx s r 0 x beta alpha = Ok (knt, x', beta', alpha') /\ (1 <= knt <= 21)%nat.
Proof.
  intros FL n incx s r x beta alpha.
  destruct (larfg_loop_total FL 20 n incx s r 0 x beta alpha) as (k & x' & b & a & E & _ & K & _); [lia|].
  exists k, x', b, a. split; [exact E|lia].
Qed.
