(** dlanv2 in binary64: the second rotation, which makes a matrix with equal diagonal and off-diagonal entries of one sign upper triangular. *)
From Coq Require Import Reals Lra Nsatz.
From Flocq Require Import IEEE754.BinarySingleNaN Core.
From Verif Require Import Base Num Array Blas Lapack Spec SpecR SpecErr B64 ER B64Lemmas B64Nn GemmErr RoundErr AppErr Lapy2Err LarfgErr Near LanvProofs LanvCalc LanvRot LanvEq LanvStd.
Open Scope R_scope.

Lemma sign_mul (x s : b64) : is_finite x = true -> is_finite s = true ->
  is_finite (Bmult mode_NE (b64_signum s) x) = true /\ B2R (Bmult mode_NE (b64_signum s) x) = sg s * B2R x.
Proof.
  intros Fx Fs. destruct (signum_val s Fs) as [F V]. pose proof (Bmult_correct 53 1024 prec53 emax1024 mode_NE (b64_signum s) x) as C.
  change (round radix2 (SpecFloat.fexp 53 1024) (round_mode mode_NE) (B2R (b64_signum s) * B2R x)) with (rnd (B2R (b64_signum s) * B2R x)) in C. rewrite V in C.
  assert (G : rnd (sg s * B2R x) = sg s * B2R x).
  { apply round_generic; auto with typeclass_instances. unfold sg. destruct (Bsign s).
    - replace (-1 * B2R x) with (- B2R x) by ring. apply generic_format_opp, fmt.
    - rewrite Rmult_1_l. apply fmt. }
  rewrite G in C. rewrite Rlt_bool_true in C.
  - destruct C as (E & FF & _). rewrite Fx, F in FF. split; [exact FF|exact E].
  - rewrite sg_abs. apply abs_B2R_lt_emax.
Qed.
Lemma signum_eq (x y : b64) : is_finite x = true -> is_finite y = true -> Beqb (b64_signum x) (b64_signum y) = Bool.eqb (Bsign x) (Bsign y).
Proof.
  intros Fx Fy. destruct (signum_val x Fx) as [F V], (signum_val y Fy) as [F' V']. rewrite Beqb_correct by assumption. rewrite V, V'. unfold sg.
  destruct (Bsign x), (Bsign y); cbn [Bool.eqb]; (apply Req_bool_true; reflexivity) || (apply Req_bool_false; lra).
Qed.
Lemma zero_test (x : b64) : is_finite x = true -> Beqb x (b64_dy 0 0) = Req_bool (B2R x) 0.
Proof. intros F. rewrite Beqb_correct by (exact F || reflexivity). reflexivity. Qed.
Lemma sign_pos (x : b64) : Bsign x = false -> 0 <= B2R x.
Proof. intros H. rewrite sg_val. unfold sg. rewrite H. pose proof (Rabs_pos (B2R x)). lra. Qed.
Lemma sign_neg (x : b64) : Bsign x = true -> B2R x <= 0.
Proof. intros H. rewrite sg_val. unfold sg. rewrite H. pose proof (Rabs_pos (B2R x)). lra. Qed.
Lemma same_sign_sum (x y : b64) : Bsign x = Bsign y -> Rabs (B2R x + B2R y) = Rabs (B2R x) + Rabs (B2R y).
Proof.
  intros H. destruct (Bsign x) eqn:E; symmetry in H.
  - pose proof (sign_neg x E). pose proof (sign_neg y H). rewrite !Rabs_left1 by lra. ring.
  - pose proof (sign_pos x E). pose proof (sign_pos y H). rewrite !Rabs_pos_eq by lra. ring.
Qed.

Lemma dev4 c s x y z w e : c * c + s * s = 1 -> 0 <= c -> 0 <= s -> 0 <= e -> Rabs x <= e -> Rabs y <= e -> Rabs z <= e -> Rabs w <= e ->
  Rabs (x * (c * c) - y * (s * s) + z * (c * s) - w * (c * s)) <= 2 * e.
Proof.
  intros H C0 S0 E0 X Y Z W. assert (CS : 0 <= c * s) by (apply Rmult_le_pos; assumption). assert (CS2 : 2 * (c * s) <= 1) by (pose proof (Rle_0_sqr (c - s)) as Q; unfold Rsqr in Q; lra).
  assert (CC : 0 <= c * c) by nra. assert (SS : 0 <= s * s) by nra.
  assert (G : forall v k, Rabs v <= e -> 0 <= k -> Rabs (v * k) <= e * k) by (intros v k V K; rewrite Rabs_mult, (Rabs_pos_eq k) by exact K; apply Rmult_le_compat_r; assumption).
  pose proof (G x (c * c) X CC) as G1. pose proof (G y (s * s) Y SS) as G2. pose proof (G z (c * s) Z CS) as G3. pose proof (G w (c * s) W CS) as G4.
  apply ab_elim in G1, G2, G3, G4. apply Rabs_le. nra.
Qed.

Section Second.
  Context (lm : libm).
  #[local] Instance NBo : Num b64 := B64 lm.
  Context (b c : b64) (Fb : is_finite b = true) (Fc : is_finite c = true) (SG : Bsign b = Bsign c).
  Let B := Rabs (B2R b).
  Let D := Rabs (B2R c).
  Hypothesis B0 : 0 < B.
  Hypothesis D0 : 0 < D.
  Hypothesis BU : B <= bpow radix2 403.
  Hypothesis DU : D <= bpow radix2 403.
  Let sab : b64 := fsqrt (fabs b).
  Let sac : b64 := fsqrt (fabs c).
  Let tau : b64 := fdiv f1 (fsqrt (fabs (fadd b c))).
  Let W := sqrt (B + D).

  Lemma root_abs (x : b64) : is_finite x = true -> is_finite (fsqrt (fabs x) : b64) = true /\ Rabs (B2R (fsqrt (fabs x) : b64) - sqrt (Rabs (B2R x))) <= u64 * sqrt (Rabs (B2R x)).
  Proof.
    intros F. change (fsqrt (fabs x)) with (Bsqrt mode_NE (Babs x)). destruct (sqrt_fin (Babs x)) as (_ & E). rewrite B2R_Babs in E. split; [|exact E].
    apply sqrt_ok; [rewrite is_finite_Babs; exact F|rewrite B2R_Babs; apply Rabs_pos].
  Qed.
  Lemma root_up X : 0 <= X <= bpow radix2 404 -> sqrt X <= bpow radix2 202.
  Proof. intros H. rewrite <- (sqrt_square (bpow radix2 202)) by apply bpow_ge_0. apply sqrt_le_1_alt. rewrite <- bpow_plus. apply H. Qed.
  Lemma up404 : B + D <= bpow radix2 404. Proof. apply Rle_trans with (bpow radix2 1 * bpow radix2 403); [change (bpow radix2 1) with 2; lra|]. rewrite <- bpow_plus. apply bpow_le. lia. Qed.
  Lemma W_sq : W * W = B + D. Proof. apply sqrt_sqrt. lra. Qed.
  Lemma W_pos : 0 < W. Proof. apply sqrt_lt_R0. lra. Qed.
  Lemma W_up : W <= bpow radix2 202. Proof. apply root_up. pose proof up404. lra. Qed.
  Lemma B_low : bpow radix2 (-1074) <= B.
  Proof. assert (E : B = B2R (Babs b)) by (unfold B; rewrite B2R_Babs; reflexivity). rewrite E in *. apply min_pos. exact B0. Qed.
  Lemma W_low : bpow radix2 (-537) <= W.
  Proof. rewrite <- (sqrt_square (bpow radix2 (-537))) by apply bpow_ge_0. apply sqrt_le_1_alt. rewrite <- bpow_plus. change (-537 + -537)%Z with (-1074)%Z. pose proof B_low. lra. Qed.

  Lemma tau_app2 : is_finite tau = true /\ app 5 (B2R tau) (/ W) 0 /\ 0 < B2R tau.
  Proof.
    pose proof u_tiny as [U0 U1]. pose proof W_pos as W0. pose proof W_up as WU. pose proof W_low as WL. pose proof up404 as U4.
    assert (F1 : is_finite (Bplus mode_NE b c) = true).
    { apply plus_ok; [exact Fb|exact Fc|]. rewrite (same_sign_sum b c SG). apply Rle_trans with (bpow radix2 404); [exact U4|apply bpow_le; lia]. }
    destruct (plus_fin _ _ F1) as (_ & _ & _ & E1). rewrite (same_sign_sum b c SG) in E1. fold B D in E1.
    assert (A1 : app 1 (Rabs (B2R (Bplus mode_NE b c))) (B + D) 0).
    { apply app_rel; [lra|]. eapply Rle_trans; [|exact E1]. change (B + D) with (Rabs (B2R b) + Rabs (B2R c)). rewrite <- (same_sign_sum b c SG). apply Rabs_triang_inv2. }
    destruct (root_abs (Bplus mode_NE b c) F1) as (F2 & E2). change (fadd b c) with (Bplus mode_NE b c) in tau.
    assert (A2 : app 2 (B2R (fsqrt (fabs (Bplus mode_NE b c)) : b64)) W 0).
    { apply (app_round 1 _ (sqrt (Rabs (B2R (Bplus mode_NE b c))))); [apply app_sqrt0; [exact A1|apply Rabs_pos|lra|]|apply sqrt_pos|lra|lra|exact E2].
      pose proof (gam_small 1 ltac:(lia)). lra. }
    set (w := fsqrt (fabs (Bplus mode_NE b c)) : b64) in *.
    assert (WB : / 2 * W <= B2R w <= 2 * W) by (apply app_to_rel, ab_elim in A2; pose proof (gam_small 2 ltac:(lia)); nra).
    assert (A3 : app 4 (/ B2R w) (/ W) 0) by (apply (app_inv 2); [exact A2|exact W0|]; pose proof (gam_small 2 ltac:(lia)); lra).
    assert (I0 : 0 < / B2R w) by (apply Rinv_0_lt_compat; lra).
    change tau with (Bdiv mode_NE (b64_dy 1 0) w).
    assert (V : B2R (b64_dy 1 0) / B2R w = / B2R w) by (rewrite B2R_1; unfold Rdiv; ring).
    assert (IR : bpow radix2 (-1022) <= / B2R w <= bpow radix2 1023).
    { split.
      - apply Rle_trans with (/ bpow radix2 203); [rewrite <- bpow_opp; apply bpow_le; lia|]. apply Rinv_le; [lra|]. apply Rle_trans with (bpow radix2 1 * bpow radix2 202); [change (bpow radix2 1) with 2; lra|].
        rewrite <- bpow_plus. apply bpow_le. lia.
      - apply Rle_trans with (/ bpow radix2 (-538)); [|rewrite <- bpow_opp; apply bpow_le; lia]. apply Rinv_le; [apply bpow_gt_0|].
        apply Rle_trans with (bpow radix2 (-1) * bpow radix2 (-537)); [rewrite <- bpow_plus; apply bpow_le; lia|]. change (bpow radix2 (-1)) with (/ 2). lra. }
    destruct (div_ok (b64_dy 1 0) w eq_refl ltac:(lra)) as (F3 & E3); [rewrite V, Rabs_pos_eq by lra; exact IR|]. rewrite V in E3. rewrite (Rabs_pos_eq (/ B2R w)) in E3 by lra.
    assert (A4 : app 5 (B2R (Bdiv mode_NE (b64_dy 1 0) w)) (/ W) 0).
    { apply (app_round 4 _ (/ B2R w)); [exact A3|lra|apply Rlt_le, Rinv_0_lt_compat; exact W0|lra|exact E3]. }
    split; [exact F3|]. split; [exact A4|]. apply ab_elim in E3. nra.
  Qed.

  Lemma side (x : b64) : is_finite x = true -> Rabs (B2R x) <= B + D -> 0 < Rabs (B2R x) ->
    ab (fmul (fsqrt (fabs x)) tau) (sqrt (Rabs (B2R x)) / W) (8 * u64) 1.
  Proof.
    intros F L L0. pose proof u_tiny as [U0 U1]. pose proof W_pos as W0. destruct tau_app2 as (F1 & A1 & T0). destruct (root_abs x F) as (F2 & E2). pose proof eta64_pos as ET.
    set (X := sqrt (Rabs (B2R x))) in *. assert (X0 : 0 <= X) by apply sqrt_pos. assert (XW : X <= W) by (apply sqrt_le_1_alt; exact L).
    assert (IW : 0 < / W) by (apply Rinv_0_lt_compat; exact W0). assert (Q1 : X * / W <= 1) by (apply Rmult_le_reg_r with W; [exact W0|]; rewrite Rmult_assoc, Rinv_l by lra; lra).
    assert (Q0 : 0 <= X * / W) by (apply Rmult_le_pos; lra).
    set (r := fsqrt (fabs x) : b64) in *. assert (A2 : app 1 (B2R r) X 0) by (apply app_rel; assumption).
    assert (R0 : 0 <= B2R r) by (apply (app_pos 1 _ X A2 X0); lia).
    pose proof (app_mul 1 5 _ _ _ _ A2 A1 ltac:(lra) X0 ltac:(lra)) as A3. cbn [Nat.add] in A3. assert (P0 : 0 <= B2R r * B2R tau) by (apply Rmult_le_pos; lra).
    assert (P2 : B2R r * B2R tau <= 2) by (apply app_elim in A3; pose proof (gam_small 6 ltac:(lia)) as G; rewrite gam_P in *; nra).
    change (fmul r tau) with (Bmult mode_NE r tau).
    assert (F3 : is_finite (Bmult mode_NE r tau) = true).
    { apply mult_ok; [exact F2|exact F1|]. rewrite Rabs_pos_eq by exact P0. apply Rle_trans with (bpow radix2 1); [exact P2|apply bpow_le; lia]. }
    destruct (mult_fin _ _ F3) as (_ & _ & _ & E3). rewrite (Rabs_pos_eq (B2R r * B2R tau)) in E3 by exact P0.
    pose proof (app_round_eta 6 _ _ _ 0 A3 P0 Q0 ltac:(lra) E3) as A4. rewrite Rplus_0_r in A4.
    split; [exact F3|]. split; [|unfold Rdiv; rewrite Rabs_pos_eq; lra]. unfold Rdiv. eapply Rle_trans; [exact A4|].
    gamlin 7%nat. pose proof (Pn_2 7 ltac:(lia)) as P7. pose proof (Pn_ge 7).
    assert (EU : eta64 <= u64 * / 1000). { apply eta_u. apply Rle_trans with (bpow radix2 (-20)); [apply bpow_le; lia|]. change (bpow radix2 (-20)) with (/ 1048576). lra. }
    pose proof (gam_pos 7). nra.
  Qed.

  (** the signed geometric mean *)
  Lemma gmean K : B <= K -> D <= K -> eta64 <= / 1000 * (u64 * K) ->
    ab (fmul (fmul (fsignum c) sab) sac) (sg c * (sqrt B * sqrt D)) (3.1 * (u64 * K)) K.
  Proof.
    intros LB LD EK. pose proof u_tiny as [U0 U1]. pose proof eta64_pos as ET.
    destruct (root_abs b Fb) as (F1 & E1), (root_abs c Fc) as (F2 & E2). fold sab in F1, E1. fold sac in F2, E2. fold B in E1. fold D in E2.
    assert (RB : 0 <= sqrt B) by apply sqrt_pos. assert (RD : 0 <= sqrt D) by apply sqrt_pos.
    assert (GM : sqrt B * sqrt D <= K).
    { rewrite <- sqrt_mult by lra. rewrite <- (sqrt_square K) by lra. apply sqrt_le_1_alt. apply Rmult_le_compat; lra. }
    assert (G0 : 0 <= sqrt B * sqrt D) by (apply Rmult_le_pos; assumption).
    assert (A1 : app 1 (B2R sab) (sqrt B) 0) by (apply app_rel; assumption). assert (A2 : app 1 (B2R sac) (sqrt D) 0) by (apply app_rel; assumption).
    assert (R0 : 0 <= B2R sab) by (apply (app_pos 1 _ _ A1 RB); lia). assert (R1 : 0 <= B2R sac) by (apply (app_pos 1 _ _ A2 RD); lia).
    pose proof (app_mul 1 1 _ _ _ _ A1 A2 R1 RB RD) as A3. cbn [Nat.add] in A3. assert (P0 : 0 <= B2R sab * B2R sac) by (apply Rmult_le_pos; assumption).
    change (fmul (fmul (fsignum c) sab) sac) with (Bmult mode_NE (Bmult mode_NE (b64_signum c) sab) sac). destruct (sign_mul sab c F1 Fc) as (F3 & V3).
    set (z := Bmult mode_NE (b64_signum c) sab) in *.
    assert (PV : B2R z * B2R sac = sg c * (B2R sab * B2R sac)) by (rewrite V3; ring).
    assert (GB : sqrt B * sqrt D <= bpow radix2 404).
    { rewrite <- (Rmult_1_r (bpow radix2 404)). apply Rle_trans with (bpow radix2 202 * bpow radix2 202); [|rewrite <- bpow_plus, Rmult_1_r; apply bpow_le; lia].
      assert (T : bpow radix2 403 <= bpow radix2 404) by (apply bpow_le; lia). apply Rmult_le_compat; try assumption; apply root_up; lra. }
    assert (F4 : is_finite (Bmult mode_NE z sac) = true).
    { apply mult_ok; [exact F3|exact F2|]. rewrite PV, sg_abs, Rabs_pos_eq by exact P0. apply Rle_trans with (2 * (sqrt B * sqrt D)).
      - apply app_elim in A3. pose proof (gam_small 2 ltac:(lia)) as G. rewrite gam_P in *. nra.
      - apply Rle_trans with (bpow radix2 1 * bpow radix2 404); [change (bpow radix2 1) with 2; lra|]. rewrite <- bpow_plus. apply bpow_le. lia. }
    destruct (mult_fin _ _ F4) as (_ & _ & _ & E4). rewrite PV, sg_abs, (Rabs_pos_eq (B2R sab * B2R sac)) in E4 by exact P0.
    split; [exact F4|]. split; [|rewrite sg_abs, Rabs_pos_eq by exact G0; exact GM].
    assert (E5 : Rabs (B2R (Bmult mode_NE z sac) * sg c - B2R sab * B2R sac) <= u64 * (B2R sab * B2R sac) + eta64).
    { eapply Rle_trans; [|exact E4]. rewrite <- (sg_abs c (_ - sg c * _)). right. f_equal. pose proof (sg_sq c) as S2. clear - S2. nsatz. }
    pose proof (app_round_eta 2 _ _ _ 0 A3 P0 G0 ltac:(lra) E5) as A4. rewrite Rplus_0_r in A4. unfold app in A4.
    assert (E6 : Rabs (B2R (Bmult mode_NE z sac) - sg c * (sqrt B * sqrt D)) = Rabs (B2R (Bmult mode_NE z sac) * sg c - sqrt B * sqrt D)).
    { rewrite <- (sg_abs c (_ - sg c * _)). f_equal. pose proof (sg_sq c) as S2. clear - S2. nsatz. }
    rewrite E6. eapply Rle_trans; [exact A4|]. gamlin 3%nat. pose proof (Pn_2 3 ltac:(lia)) as P3. pose proof (Pn_ge 3). pose proof (gam_pos 3).
    assert (gam 3 * (sqrt B * sqrt D) <= 1.001 * ((1 + 1 + 1) * u64) * K) by (apply Rmult_le_compat; lra). assert (P ^ 3 * eta64 <= 2 * eta64) by (apply Rmult_le_compat_r; lra). lra.
  Qed.
End Second.

Section Off.
  Context (lm : libm).
  #[local] Instance NBp : Num b64 := B64 lm.
  Context (M : R) (HM : mid M) (xa xb xc xd : R).

  Lemma offdiag_ok (T b c cs sn : b64) :
    is_finite T = true -> is_finite b = true -> is_finite c = true -> is_finite cs = true -> is_finite sn = true ->
    Rabs (B2R T) <= 4.001 * M -> Rabs (B2R b) <= 4.001 * M -> Rabs (B2R c) <= 4.001 * M -> Rabs (B2R cs) <= 1 + 50 * u64 -> Rabs (B2R sn) <= 1 + 50 * u64 ->
    std_near 435 50 M xa xb xc xd (B2R T) (B2R b) (B2R c) (B2R T) (B2R cs) (B2R sn) ->
    exists a' b' c' d' cs' sn', nv_offdiag T (T, b, c, T, cs, sn) = (a', b', c', d', cs', sn') /\
      is_finite a' = true /\ is_finite b' = true /\ is_finite c' = true /\ is_finite d' = true /\ is_finite cs' = true /\ is_finite sn' = true /\
      (B2R c' = 0 \/ (a' = d' /\ B2R b' * B2R c' < 0)) /\
      std_near 1000 128 M xa xb xc xd (B2R a') (B2R b') (B2R c') (B2R d') (B2R cs') (B2R sn').
  Proof.
    intros FT Fb Fc Fcs Fsn LT Lb Lc Lcs Lsn (C & S & y1 & y2 & y3 & y4 & ONE & SIM & E1 & E2 & E3 & E4 & EC & ES).
    destruct (mid_facts M HM) as (M0 & UM & UUM & ET & BIG & UMM). pose proof u_tiny as [U0 U1].
    assert (KEEP : std_near 1000 128 M xa xb xc xd (B2R T) (B2R b) (B2R c) (B2R T) (B2R cs) (B2R sn)) by (exists C, S, y1, y2, y3, y4; repeat (split; [first [assumption|lra]|]); lra).
    unfold nv_offdiag. change (b <>? f0)%num with (negb (Beqb b (b64_dy 0 0))). change (c <>? f0)%num with (negb (Beqb c (b64_dy 0 0))). rewrite !zero_test by assumption.
    case (Req_bool_spec (B2R c) 0); intros Hc; cbn [negb].
    { do 6 eexists. split; [reflexivity|]. repeat (split; [assumption|]). split; [left; exact Hc|]. exact KEEP. }
    case (Req_bool_spec (B2R b) 0); intros Hb; cbn [negb].
    { do 6 eexists. split; [reflexivity|]. change (fneg c) with (Bopp c). change (fneg sn) with (Bopp sn). rewrite !is_finite_Bopp. repeat (split; [first [assumption|reflexivity]|]).
      rewrite !B2R_Bopp. split; [left; reflexivity|]. exists (- S), C, y4, (- y3), (- y2), y1. split; [lra|]. split.
      { replace (- S) with (C * 0 - S * 1) by ring. replace C with (C * 1 + S * 0) at 2 by ring. apply similar_comp with (y1, y2, y3, y4); [exact SIM|]. unfold similar2. cbn. apply m2_eq; ring. }
      replace (- B2R c - - y3) with (- (B2R c - y3)) by ring. replace (- B2R sn - - S) with (- (B2R sn - S)) by ring. change (B2R (f0 : b64)) with 0. rewrite Hb in E2.
      replace (0 - - y2) with (- (0 - y2)) by ring. rewrite !Rabs_Ropp. repeat (split; [lra|]). lra. }
    change (fsignum b =? fsignum c)%num with (Beqb (b64_signum b) (b64_signum c)). rewrite signum_eq by assumption.
    assert (HB : 0 < Rabs (B2R b)) by (apply Rabs_pos_lt; exact Hb). assert (HC : 0 < Rabs (B2R c)) by (apply Rabs_pos_lt; exact Hc).
    destruct (Bool.eqb (Bsign b) (Bsign c)) eqn:SGN.
    2:{ do 6 eexists. split; [reflexivity|]. repeat (split; [assumption|]). split; [|exact KEEP]. right. split; [reflexivity|].
        rewrite (sg_val b), (sg_val c). unfold sg. destruct (Bsign b), (Bsign c); try discriminate SGN; nra. }
    apply Bool.eqb_prop in SGN.
    assert (UP : 4.001 * M <= bpow radix2 403) by (apply Rle_trans with (bpow radix2 3 * bpow radix2 400); [change (bpow radix2 3) with 8; destruct HM; lra|rewrite <- bpow_plus; apply bpow_le; lia]).
    set (B := Rabs (B2R b)) in *. set (D := Rabs (B2R c)) in *. set (W := sqrt (B + D)).
    pose proof (gmean lm b c Fb Fc HB HC ltac:(fold B; lra) ltac:(fold D; lra) (4.001 * M) Lb Lc ltac:(lra)) as HP. fold B D in HP.
    pose proof (side lm b c Fb Fc SGN HB HC ltac:(fold B; lra) ltac:(fold D; lra) b Fb ltac:(fold B D; lra) HB) as H1.
    pose proof (side lm b c Fb Fc SGN HB HC ltac:(fold B; lra) ltac:(fold D; lra) c Fc ltac:(fold B D; lra) HC) as H2. fold B D W in H1, H2.
    change (@NBo lm) with NBp in *. set (tau := fdiv f1 (fsqrt (fabs (fadd b c)))) in *. set (sab := fsqrt (fabs b)) in *. set (sac := fsqrt (fabs c)) in *.
    set (p := fmul (fmul (fsignum c) sab) sac) in *. set (cs1 := fmul sab tau) in *. set (sn1 := fmul sac tau) in *.
    assert (WW : W * W = B + D) by (apply sqrt_sqrt; lra). assert (W0 : 0 < W) by (apply sqrt_lt_R0; lra).
    set (rB := sqrt B) in *. set (rD := sqrt D) in *. assert (BB : rB * rB = B) by (apply sqrt_sqrt; lra). assert (DD : rD * rD = D) by (apply sqrt_sqrt; lra).
    assert (rB0 : 0 <= rB) by apply sqrt_pos. assert (rD0 : 0 <= rD) by apply sqrt_pos. assert (IW : 0 < / W) by (apply Rinv_0_lt_compat; exact W0).
    set (c1 := rB / W) in *. set (s1 := rD / W) in *. assert (C10 : 0 <= c1) by (apply Rmult_le_pos; lra). assert (S10 : 0 <= s1) by (apply Rmult_le_pos; lra).
    assert (ONE1 : c1 * c1 + s1 * s1 = 1). { unfold c1, s1. transitivity ((rB * rB + rD * rD) / (W * W)); [field; lra|]. rewrite BB, DD, WW. field. lra. }
    set (p0 := sg c * (rB * rD)) in *.
    assert (SB : sg c * (rB * rB) = B2R b) by (rewrite BB; unfold sg; rewrite <- SGN; symmetry; apply sg_val).
    assert (SC : sg c * (rD * rD) = B2R c) by (rewrite DD; symmetry; apply sg_val).
    assert (VV : / W * / W * (rB * rB + rD * rD) = 1) by (rewrite BB, DD, <- WW; field; lra).
    pose proof (sg_sq c) as S2.
    assert (ID1 : B2R T * (c1 * c1 + s1 * s1) + (B2R b + B2R c) * (c1 * s1) = B2R T + p0) by (rewrite ONE1, <- SB, <- SC; unfold c1, s1, p0, Rdiv; clear - VV S2; nsatz).
    assert (AT : ab T (B2R T) 0 (4.001 * M)) by (apply ab_exact; assumption). assert (AB : ab b (B2R b) 0 (4.001 * M)) by (apply ab_exact; assumption). assert (AC : ab c (B2R c) 0 (4.001 * M)) by (apply ab_exact; assumption).
    assert (A1 : ab (fadd T p) (B2R T + p0) (22 * (u64 * M)) (8.002 * M)) by (eapply ab_weak; [eapply ab_add; [exact AT|exact HP|]| |]; lra).
    assert (A4 : ab (fsub T p) (B2R T - p0) (22 * (u64 * M)) (8.002 * M)) by (eapply ab_weak; [eapply ab_sub; [exact AT|exact HP|]| |]; lra).
    assert (A2 : ab (fsub b c) (B2R b - B2R c) (22 * (u64 * M)) (8.002 * M)) by (eapply ab_weak; [eapply ab_sub; [exact AB|exact AC|]| |]; lra).
    assert (ACS : ab cs C (50 * u64) 1) by (destruct (unit_abs C S ONE); repeat split; assumption). assert (ASN : ab sn S (50 * u64) 1) by (destruct (unit_abs C S ONE); repeat split; assumption).
    assert (UU : u64 * u64 <= / 1000000 * u64) by nra. assert (UU0 : 0 <= u64 * u64) by nra. assert (UUU : u64 * (u64 * u64) <= u64 * u64) by nra. assert (UUU0 : 0 <= u64 * (u64 * u64)) by nra.
    assert (U4 : u64 * (u64 * (u64 * u64)) <= u64 * u64) by nra.
    assert (EU : 0 <= eta64 <= u64 * / 1000).
    { split; [lra|]. apply eta_u. apply Rle_trans with (bpow radix2 (-20)); [apply bpow_le; lia|]. change (bpow radix2 (-20)) with (/ 1048576). lra. }
    assert (BIG2 : 4 <= bpow radix2 1023) by (change 4 with (bpow radix2 2); apply bpow_le; lia).
    assert (PR : forall x x' y y', ab x x' (50 * u64) 1 -> ab y y' (8 * u64) 1 -> ab (fmul x y) (x' * y') (59.5 * u64) 1).
    { intros x x' y y' X Y. eapply ab_weak; [eapply ab_mul; [exact X|exact Y|]| |]; lra. }
    assert (AC' : ab (fsub (fmul cs cs1) (fmul sn sn1)) (C * c1 - S * s1) (128 * u64) 2) by (eapply ab_weak; [eapply ab_sub; [apply PR; [exact ACS|exact H1]|apply PR; [exact ASN|exact H2]|]| |]; lra).
    assert (AS' : ab (fadd (fmul cs sn1) (fmul sn cs1)) (C * s1 + S * c1) (128 * u64) 2) by (eapply ab_weak; [eapply ab_add; [apply PR; [exact ACS|exact H2]|apply PR; [exact ASN|exact H1]|]| |]; lra).
    change (@NBab lm) with NBp in *.
    do 6 eexists. split; [reflexivity|]. split; [exact (proj1 A1)|]. split; [exact (proj1 A2)|]. split; [reflexivity|]. split; [exact (proj1 A4)|]. split; [exact (proj1 AC')|]. split; [exact (proj1 AS')|].
    split; [left; reflexivity|].
    exists (C * c1 - S * s1), (C * s1 + S * c1). do 4 eexists. split; [apply rot_comp; assumption|]. split.
    { apply similar_comp with (y1, y2, y3, y4); [exact SIM|]. apply similar_exists. exact ONE1. }
    assert (K0 : 0 <= 435 * (u64 * M)) by lra.
    split; [|split; [|split; [|split; [|split; [apply AC'|apply AS']]]]].
    - eapply Rle_trans; [eapply tri; [apply A1|]|].
      + eapply (rot_dev c1 s1 (B2R T) (B2R b) (B2R c) p0 y1 y2 y3 y4 (435 * (u64 * M))); eassumption.
      + lra.
    - eapply Rle_trans; [eapply tri; [apply A2|]|].
      + replace (B2R b - B2R c) with (B2R b * (c1 * c1 + s1 * s1) - B2R c * (c1 * c1 + s1 * s1)) by (rewrite ONE1; ring).
        assert (ID2 : B2R b * (c1 * c1 + s1 * s1) - B2R c * (c1 * c1 + s1 * s1) = B2R b * (c1 * c1) - B2R c * (s1 * s1)) by (rewrite ONE1, <- SB, <- SC; unfold c1, s1, Rdiv; clear - VV S2; nsatz).
        rewrite ID2.
        replace (B2R b * (c1 * c1) - B2R c * (s1 * s1) - ((- (y1 * s1) + y2 * c1) * c1 + (- (y3 * s1) + y4 * c1) * s1)) with
          ((B2R b - y2) * (c1 * c1) - (B2R c - y3) * (s1 * s1) + (B2R T - y4) * (c1 * s1) - (B2R T - y1) * (c1 * s1)) by ring.
        instantiate (1 := 2 * (435 * (u64 * M))). apply (dev4 c1 s1); assumption.
      + lra.
    - change (B2R (f0 : b64)) with 0.
      assert (ID3 : 0 = B2R c * (c1 * c1) - B2R b * (s1 * s1)) by (rewrite <- SB, <- SC; unfold c1, s1, Rdiv; ring).
      rewrite ID3. replace (B2R c * (c1 * c1) - B2R b * (s1 * s1) - (- ((y1 * c1 + y2 * s1) * s1) + (y3 * c1 + y4 * s1) * c1)) with
        ((B2R c - y3) * (c1 * c1) - (B2R b - y2) * (s1 * s1) + (B2R T - y4) * (c1 * s1) - (B2R T - y1) * (c1 * s1)) by ring.
      apply Rle_trans with (2 * (435 * (u64 * M))); [|lra]. apply (dev4 c1 s1); assumption.
    - eapply Rle_trans; [eapply tri; [apply A4|]|].
      + replace (B2R T - p0) with (B2R T * (c1 * c1 + s1 * s1) - (B2R b + B2R c) * (c1 * s1)) by (rewrite ONE1 in *; lra).
        replace (B2R T * (c1 * c1 + s1 * s1) - (B2R b + B2R c) * (c1 * s1) - (- ((- (y1 * s1) + y2 * c1) * s1) + (- (y3 * s1) + y4 * c1) * c1)) with
          ((B2R T - y4) * (c1 * c1) - (- (B2R T - y1)) * (s1 * s1) + (- (B2R b - y2)) * (c1 * s1) - (B2R c - y3) * (c1 * s1)) by ring.
        instantiate (1 := 2 * (435 * (u64 * M))). apply (dev4 c1 s1); rewrite ?Rabs_Ropp; assumption.
      + lra.
  Qed.
End Off.
