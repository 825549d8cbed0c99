(** dlanv2 in binary64: the record it returns, and the reported eigenvalues as exact eigenvalues of a nearby matrix. *)
From Coq Require Import Reals Lra Nsatz.
From Flocq Require Import IEEE754.BinarySingleNaN Core.
From Verif Require Import Base Num Array Blas Lapack Spec SpecR SpecErr B64 ER B64Lemmas B64Nn GemmErr RoundErr AppErr Lapy2Proofs Lapy2Err LarfgErr Near LanvProofs LanvCalc LanvRot LanvEq LanvStd LanvOff LanvReal LanvErr.
Open Scope R_scope.

Lemma quad_bound C S w1 w2 w3 w4 e : C * C + S * S = 1 -> Rabs w1 <= e -> Rabs w2 <= e -> Rabs w3 <= e -> Rabs w4 <= e ->
  Rabs (w1 * (C * C) + w2 * (C * S) + w3 * (C * S) + w4 * (S * S)) <= 2 * e.
Proof.
  intros ONE H1 H2 H3 H4. assert (E0 : 0 <= e) by (eapply Rle_trans; [apply Rabs_pos|exact H1]).
  assert (CS : Rabs (C * S) <= / 2) by (apply Rabs_le; pose proof (Rle_0_sqr (C - S)) as Q1; pose proof (Rle_0_sqr (C + S)) as Q2; unfold Rsqr in *; lra).
  pose proof (Rle_0_sqr C) as C0. pose proof (Rle_0_sqr S) as S0. unfold Rsqr in C0, S0.
  eapply Rle_trans; [apply Rabs_triang|]. eapply Rle_trans; [apply Rplus_le_compat_r, Rabs_triang|]. eapply Rle_trans; [apply Rplus_le_compat_r, Rplus_le_compat_r, Rabs_triang|]. rewrite !Rabs_mult, <- !Rabs_mult.
  rewrite (Rabs_mult w1), (Rabs_mult w2), (Rabs_mult w3), (Rabs_mult w4). rewrite (Rabs_pos_eq (C * C)), (Rabs_pos_eq (S * S)) by assumption. pose proof (Rabs_pos (C * S)) as P0.
  assert (Rabs w1 * (C * C) <= e * (C * C)) by (apply Rmult_le_compat_r; assumption). assert (Rabs w4 * (S * S) <= e * (S * S)) by (apply Rmult_le_compat_r; assumption).
  assert (Rabs w2 * Rabs (C * S) <= e * / 2) by (apply Rmult_le_compat; try assumption; apply Rabs_pos). assert (Rabs w3 * Rabs (C * S) <= e * / 2) by (apply Rmult_le_compat; try assumption; apply Rabs_pos).
  replace (e * (C * C)) with (e - e * (S * S)) in * by (replace (C * C) with (1 - S * S) by lra; ring). lra.
Qed.

Lemma similar_inv a b c d y1 y2 y3 y4 C S : C * C + S * S = 1 -> similar2 (a, b, c, d) (y1, y2, y3, y4) C S ->
  y2 = (- (a * S) + b * C) * C + (- (c * S) + d * C) * S /\ y3 = - ((a * C + b * S) * S) + (c * C + d * S) * C.
Proof. unfold similar2, rot2, m2tr, m2mul. intros ONE E. injection E as -> -> -> ->. split; nsatz. Qed.

Lemma off_bound M a b c d y1 y2 y3 y4 C S : C * C + S * S = 1 -> similar2 (a, b, c, d) (y1, y2, y3, y4) C S ->
  Rabs a <= M -> Rabs b <= M -> Rabs c <= M -> Rabs d <= M -> Rabs y2 <= 2 * M /\ Rabs y3 <= 2 * M.
Proof.
  intros ONE SIM A B D E. destruct (similar_inv _ _ _ _ _ _ _ _ _ _ ONE SIM) as [-> ->]. split.
  - replace ((- (a * S) + b * C) * C + (- (c * S) + d * C) * S) with (b * (C * C) + (- a) * (C * S) + d * (C * S) + (- c) * (S * S)) by ring. apply quad_bound; rewrite ?Rabs_Ropp; assumption.
  - replace (- ((a * C + b * S) * S) + (c * C + d * S) * C) with (c * (C * C) + (- a) * (C * S) + d * (C * S) + (- b) * (S * S)) by ring. apply quad_bound; rewrite ?Rabs_Ropp; assumption.
Qed.

(** a perturbation of the reduced matrix is one of the original matrix *)
Lemma pert_back a b c d y1 y2 y3 y4 C S t1 t2 t3 t4 e : C * C + S * S = 1 -> similar2 (a, b, c, d) (y1, y2, y3, y4) C S ->
  Rabs (t1 - y1) <= e -> Rabs (t2 - y2) <= e -> Rabs (t3 - y3) <= e -> Rabs (t4 - y4) <= e ->
  exists e1 e2 e3 e4, Rabs e1 <= 2 * e /\ Rabs e2 <= 2 * e /\ Rabs e3 <= 2 * e /\ Rabs e4 <= 2 * e /\ similar2 (a + e1, b + e2, c + e3, d + e4) (t1, t2, t3, t4) C S.
Proof.
  intros ONE SIM H1 H2 H3 H4. assert (N2 : Rabs (- (t2 - y2)) <= e) by (rewrite Rabs_Ropp; assumption). assert (N3 : Rabs (- (t3 - y3)) <= e) by (rewrite Rabs_Ropp; assumption). assert (N4 : Rabs (- (t4 - y4)) <= e) by (rewrite Rabs_Ropp; assumption).
  revert SIM. unfold similar2, rot2, m2tr, m2mul. intros SIM. injection SIM as -> -> -> ->.
  set (w1 := t1 - y1) in *. set (w2 := t2 - y2) in *. set (w3 := t3 - y3) in *. set (w4 := t4 - y4) in *.
  exists (w1 * (C * C) + (- w2) * (C * S) + (- w3) * (C * S) + w4 * (S * S)), (w2 * (C * C) + w1 * (C * S) + (- w4) * (C * S) + (- w3) * (S * S)), (w3 * (C * C) + w1 * (C * S) + (- w4) * (C * S) + (- w2) * (S * S)), (w4 * (C * C) + w2 * (C * S) + w3 * (C * S) + w1 * (S * S)).
  repeat (split; [apply quad_bound; assumption|]). unfold w1, w2, w3, w4. apply m2_eq; ring.
Qed.

(** equal diagonal: the smaller off-diagonal entry moves by little when the imaginary part does *)
Lemma move_off b c w : b * c < 0 -> 2 * eta64 <= Rabs b -> Rabs c <= Rabs b -> 0 <= w -> Rabs (w - sqrt (Rabs b) * sqrt (Rabs c)) <= 3.1 * u64 * (sqrt (Rabs b) * sqrt (Rabs c)) + 2 * eta64 ->
  exists c', b * c' = - (w * w) /\ Rabs (c' - c) <= 10 * (u64 * Rabs b) + 8 * eta64.
Proof.
  intros BC LB LE W0 HW. pose proof u_tiny as [U0 U1]. pose proof eta64_pos as EP. set (m := sqrt (Rabs b) * sqrt (Rabs c)) in *. pose proof (Rabs_pos c) as C0. assert (B0 : 0 < Rabs b) by lra.
  assert (MM : m * m = - (b * c)).
  { unfold m. transitivity ((sqrt (Rabs b) * sqrt (Rabs b)) * (sqrt (Rabs c) * sqrt (Rabs c))); [ring|]. rewrite !sqrt_sqrt, <- Rabs_mult by apply Rabs_pos. apply Rabs_left. assumption. }
  assert (m0 : 0 <= m) by (apply Rmult_le_pos; apply sqrt_pos).
  assert (ML : m <= Rabs b) by (unfold m; apply Rle_trans with (sqrt (Rabs b) * sqrt (Rabs b)); [apply Rmult_le_compat_l; [apply sqrt_pos|apply sqrt_le_1_alt; exact LE]|rewrite sqrt_sqrt; lra]).
  assert (NB : b <> 0) by (intros E; rewrite E, Rabs_R0 in B0; lra).
  exists (- (w * w) / b). split; [field; exact NB|].
  replace (- (w * w) / b - c) with (- ((w - m) * (w + m)) / b) by (replace c with (- (m * m) / b) by (rewrite MM; field; exact NB); field; exact NB).
  unfold Rdiv. rewrite Rabs_mult, Rabs_Ropp, Rabs_mult, Rabs_inv, (Rabs_pos_eq (w + m)) by lra.
  apply Rmult_le_reg_r with (Rabs b); [exact B0|]. rewrite Rmult_assoc, Rinv_l by lra. rewrite Rmult_1_r.
  assert (UM : 0 <= u64 * m <= / 1000000000000 * m) by (split; [apply Rmult_le_pos; lra|apply Rmult_le_compat_r; lra]). assert (UB : u64 * m <= u64 * Rabs b) by (apply Rmult_le_compat_l; lra).
  assert (WM : w + m <= 3.1 * Rabs b) by (apply ab_elim in HW; lra).
  apply Rle_trans with ((3.1 * (u64 * Rabs b) + 2 * eta64) * (3.1 * Rabs b)); [apply Rmult_le_compat; [apply Rabs_pos|lra| |exact WM]; lra|].
  rewrite <- Rmult_assoc. apply Rmult_le_compat_r; lra.
Qed.

Lemma eig_equal t b c w : b * c = - (w * w) -> eigenvalues2 (t, b, c, t) (t, w) (t, - w).
Proof. intros H [u v]. unfold charpoly2, csub, cmul, cre; cbn [fst snd]. f_equal; [|ring]. rewrite H. ring. Qed.
Lemma eig_tri a b d : eigenvalues2 (a, b, 0, d) (a, 0) (d, 0).
Proof. intros [u v]. unfold charpoly2, csub, cmul, cre; cbn [fst snd]. f_equal; ring. Qed.

Section Eig.
  Context (lm : libm) (LM : libm_ok lm).
  #[local] Instance NBe : Num b64 := B64 lm.

  (** the imaginary part *)
  Lemma imag_ok (b c : b64) : is_finite b = true -> is_finite c = true -> Rabs (B2R b) <= bpow radix2 500 -> Rabs (B2R c) <= bpow radix2 500 ->
    let w : b64 := fmul (fsqrt (fabs b)) (fsqrt (fabs c)) in let m := sqrt (Rabs (B2R b)) * sqrt (Rabs (B2R c)) in
    is_finite w = true /\ 0 <= B2R w /\ Rabs (B2R w - m) <= 3.1 * u64 * m + 2 * eta64.
  Proof.
    intros Fb Fc Lb Lc. cbv zeta. pose proof u_tiny as [U0 U1]. pose proof eta64_pos as EP. change (fmul (fsqrt (fabs b)) (fsqrt (fabs c))) with (Bmult mode_NE (Bsqrt mode_NE (Babs b)) (Bsqrt mode_NE (Babs c))).
    pose proof (Rabs_pos (B2R b)) as B0. pose proof (Rabs_pos (B2R c)) as C0.
    destruct (sqrt_ok (Babs b)) as (F1 & _); [rewrite is_finite_Babs; exact Fb|rewrite B2R_Babs; exact B0|]. destruct (sqrt_ok (Babs c)) as (F2 & _); [rewrite is_finite_Babs; exact Fc|rewrite B2R_Babs; exact C0|].
    destruct (sqrt_fin (Babs b)) as (_ & E1), (sqrt_fin (Babs c)) as (_ & E2). rewrite B2R_Babs in E1, E2.
    set (x := Bsqrt mode_NE (Babs b)) in *. set (y := Bsqrt mode_NE (Babs c)) in *.
    pose proof (sqrt_pos (Rabs (B2R b))) as R1. pose proof (sqrt_pos (Rabs (B2R c))) as R2.
    assert (A1 : app 1 (B2R x) (sqrt (Rabs (B2R b))) 0) by (apply app_rel; assumption). assert (A2 : app 1 (B2R y) (sqrt (Rabs (B2R c))) 0) by (apply app_rel; assumption).
    assert (N1 : 0 <= B2R x) by (apply (app_pos 1 _ _ A1 R1); lia). assert (N2 : 0 <= B2R y) by (apply (app_pos 1 _ _ A2 R2); lia).
    pose proof (app_mul 1 1 _ _ _ _ A1 A2 N2 R1 R2) as A3. cbn [Nat.add] in A3. set (m := sqrt (Rabs (B2R b)) * sqrt (Rabs (B2R c))) in *. assert (m0 : 0 <= m) by (apply Rmult_le_pos; assumption).
    assert (P0 : 0 <= B2R x * B2R y) by (apply Rmult_le_pos; assumption).
    assert (MU : m <= bpow radix2 500). { apply Rle_trans with (sqrt (bpow radix2 500) * sqrt (bpow radix2 500)); [apply Rmult_le_compat; try assumption; apply sqrt_le_1_alt; assumption|]. rewrite sqrt_sqrt; [lra|apply bpow_ge_0]. }
    apply app_to_rel in A3. gamlin 2%nat. pose proof (gam_pos 2) as G0.
    assert (A4 : Rabs (B2R x * B2R y - m) <= 2.01 * (u64 * m)) by (eapply Rle_trans; [exact A3|]; replace (2.01 * (u64 * m)) with (2.01 * u64 * m) by ring; apply Rmult_le_compat_r; lra).
    assert (UM : 0 <= u64 * m <= / 1000000000000 * m) by (split; [apply Rmult_le_pos; lra|apply Rmult_le_compat_r; lra]). assert (UUM : u64 * (u64 * m) <= / 1000000000000 * (u64 * m)) by (apply Rmult_le_compat_r; lra).
    assert (P2 : B2R x * B2R y <= 2 * m) by (apply ab_elim in A4; lra).
    assert (F3 : is_finite (Bmult mode_NE x y) = true).
    { apply mult_ok; [exact F1|exact F2|]. rewrite Rabs_pos_eq by exact P0. apply Rle_trans with (bpow radix2 1 * bpow radix2 500); [change (bpow radix2 1) with 2; lra|]. rewrite <- bpow_plus. apply bpow_le. lia. }
    split; [exact F3|]. destruct (mult_fin _ _ F3) as (_ & _ & _ & E3). rewrite (Rabs_pos_eq (B2R x * B2R y)) in E3 by exact P0.
    assert (E4 : Rabs (B2R (Bmult mode_NE x y) - m) <= 3.1 * u64 * m + 2 * eta64).
    { eapply Rle_trans; [eapply tri; [exact E3|exact A4]|]. assert (u64 * (B2R x * B2R y) <= u64 * (m + 2.01 * (u64 * m))) by (apply Rmult_le_compat_l; [lra|apply ab_elim in A4; lra]). lra. }
    split; [|exact E4]. pose proof (Bmult_correct 53 1024 prec53 emax1024 mode_NE x y) as CC. rewrite Rlt_bool_true in CC.
    - destruct CC as (V & _). rewrite V. apply round_ge_generic; [apply fexp_correct; exact prec53|apply valid_rnd_N|apply generic_format_0|exact P0].
    - destruct (Rlt_bool (Rabs (round radix2 (SpecFloat.fexp 53 1024) (round_mode mode_NE) (B2R x * B2R y))) (bpow radix2 1024)) eqn:EB; [revert EB; case Rlt_bool_spec; [auto|discriminate]|].
      exfalso. rewrite <- is_finite_SF_B2SF, CC in F3. unfold binary_overflow, overflow_to_inf in F3. discriminate F3.
  Qed.

  Context (M : R) (a b c d : b64) (Ha : bnd M a) (Hb : bnd M b) (Hc : bnd M c) (Hd : bnd M d) (MU : M <= bpow radix2 400) (OR : off_range b c).
  Let r := dlanv2 a b c d.

  Lemma lanv_fields : is_finite (nA r) = true /\ is_finite (nB r) = true /\ is_finite (nC r) = true /\ is_finite (nD r) = true /\ is_finite (nCs r) = true /\ is_finite (nSn r) = true /\
    (std64 (nA r) (nB r) (nC r) (nD r) \/ (nA r = a /\ nB r = b /\ nC r = c /\ nD r = d /\ B2R b * B2R c < 0 /\ Rabs (B2R (fsub a d)) < bpow radix2 (-52))) /\
    std_near 1000 128 M (B2R a) (B2R b) (B2R c) (B2R d) (B2R (nA r)) (B2R (nB r)) (B2R (nC r)) (B2R (nD r)) (B2R (nCs r)) (B2R (nSn r)) /\
    nrt1r r = nA r /\ nrt2r r = nD r /\
    (B2R (nC r) = 0 -> nrt1i r = f0 /\ nrt2i r = f0) /\
    (B2R (nC r) <> 0 -> nrt1i r = fmul (fsqrt (fabs (nB r))) (fsqrt (fabs (nC r))) /\ nrt2i r = fneg (nrt1i r)).
  Proof.
    destruct (main_ok lm LM M a b c d Ha Hb Hc Hd MU OR) as (a' & b' & c' & d' & cs & sn & E & F1 & F2 & F3 & F4 & F5 & F6 & SH & N). change (@NBt lm) with NBe in *.
    unfold r, dlanv2. rewrite E. change (feq c' f0) with (Beqb c' (b64_dy 0 0)). rewrite zero_test by assumption.
    case Req_bool_spec; intros NZ; cbn [nA nB nC nD nCs nSn nrt1r nrt1i nrt2r nrt2i]; repeat (split; [first [assumption|reflexivity]|]); (split; [intros H|intros H]); try contradiction; split; reflexivity.
  Qed.

  Lemma lanv_close : exists C S y1 y2 y3 y4, C * C + S * S = 1 /\ similar2 (B2R a, B2R b, B2R c, B2R d) (y1, y2, y3, y4) C S /\
    Rabs (B2R (nA r) - y1) <= 1000 * (u64 * M) /\ Rabs (B2R (nB r) - y2) <= 1000 * (u64 * M) /\ Rabs (B2R (nC r) - y3) <= 1000 * (u64 * M) /\ Rabs (B2R (nD r) - y4) <= 1000 * (u64 * M) /\
    Rabs (B2R (nCs r) - C) <= 128 * u64 /\ Rabs (B2R (nSn r) - S) <= 128 * u64 /\ Rabs (B2R (nB r)) <= 2.1 * M /\ Rabs (B2R (nC r)) <= 2.1 * M.
  Proof.
    destruct lanv_fields as (_ & _ & _ & _ & _ & _ & _ & (C & S & y1 & y2 & y3 & y4 & ONE & SIM & E1 & E2 & E3 & E4 & EC & ES) & _).
    destruct Ha as (Fa & La), Hb as (Fb & Lb), Hc as (Fc & Lc), Hd as (Fd & Ld). assert (M0 : 0 <= M) by (eapply Rle_trans; [apply Rabs_pos|exact La]). pose proof u_tiny as [U0 U1]. assert (UM : u64 * M <= / 1000000000000 * M) by (apply Rmult_le_compat_r; lra).
    destruct (off_bound M _ _ _ _ _ _ _ _ _ _ ONE SIM La Lb Lc Ld) as [B2 B3]. exists C, S, y1, y2, y3, y4. repeat (split; [assumption|]). apply ab_elim in B2, B3. pose proof E2 as E2'. pose proof E3 as E3'. apply ab_elim in E2', E3'. split; apply Rabs_le; lra.
  Qed.

  Lemma lanv_imag_fin : is_finite (nrt1i r) = true /\ is_finite (nrt2i r) = true.
  Proof.
    destruct lanv_fields as (_ & FB & FC & _ & _ & _ & _ & _ & _ & _ & Z1 & Z2). destruct lanv_close as (_ & _ & _ & _ & _ & _ & _ & _ & _ & _ & _ & _ & _ & _ & LB & LC).
    destruct (Req_dec (B2R (nC r)) 0) as [E|E]; [destruct (Z1 E) as [-> ->]; split; reflexivity|]. destruct (Z2 E) as [-> ->]. destruct (Z2 E) as [-> _].
    assert (K : 2.1 * M <= bpow radix2 500). { apply Rle_trans with (bpow radix2 2 * bpow radix2 400); [change (bpow radix2 2) with 4; pose proof (bpow_gt_0 radix2 400); lra|rewrite <- bpow_plus; apply bpow_le; lia]. }
    destruct (imag_ok (nB r) (nC r) FB FC ltac:(lra) ltac:(lra)) as (F & _). split; [exact F|]. change (@fneg b64 NBe) with (@Bopp 53 1024). rewrite is_finite_Bopp. exact F.
  Qed.

  Lemma lanv_shape : B2R a = B2R d \/ bpow radix2 (-52) <= Rabs (B2R a - B2R d) \/ 0 <= B2R b * B2R c -> std64 (nA r) (nB r) (nC r) (nD r).
  Proof.
    intros H. destruct lanv_fields as (_ & _ & _ & _ & _ & _ & [SH|(-> & -> & -> & -> & BC & HT)] & _); [exact SH|].
    destruct H as [H|[H|H]]; [right; split; assumption| |lra]. exfalso. destruct Ha as (Fa & La), Hd as (Fd & Ld). assert (M0 : 0 <= M) by (eapply Rle_trans; [apply Rabs_pos|exact La]).
    revert HT. apply Rle_not_lt. change (fsub a d) with (Bminus mode_NE a d).
    assert (FF : is_finite (Bminus mode_NE a d) = true).
    { apply minus_ok; [exact Fa|exact Fd|]. apply Rle_trans with (bpow radix2 1 * bpow radix2 400); [|rewrite <- bpow_plus; apply bpow_le; lia]. change (bpow radix2 1) with 2. eapply Rle_trans; [apply Rabs_triang|]. rewrite Rabs_Ropp. lra. }
    pose proof (Bminus_correct 53 1024 prec53 emax1024 mode_NE a d Fa Fd) as CC. rewrite Rlt_bool_true in CC.
    - destruct CC as (V & _). rewrite V. apply abs_round_ge_generic; [apply fexp_correct; exact prec53|apply valid_rnd_N| |exact H].
      apply generic_format_bpow. unfold SpecFloat.fexp, SpecFloat.emin. lia.
    - destruct (Rlt_bool (Rabs (round radix2 (SpecFloat.fexp 53 1024) (round_mode mode_NE) (B2R a - B2R d))) (bpow radix2 1024)) eqn:EB; [revert EB; case Rlt_bool_spec; [auto|discriminate]|].
      exfalso. destruct CC as [CC _]. rewrite <- is_finite_SF_B2SF, CC in FF. unfold binary_overflow, overflow_to_inf in FF. discriminate FF.
  Qed.

  Lemma lanv_trivial : B2R b = 0 \/ B2R c = 0 -> B2R (nC r) = 0.
  Proof.
    destruct Hb as (Fb & Lb), Hc as (Fc & Lc). intros H. unfold r, dlanv2, nv_main. change (feq c f0) with (Beqb c (b64_dy 0 0)). change (feq b f0) with (Beqb b (b64_dy 0 0)). rewrite !zero_test by assumption.
    case (Req_bool_spec (B2R c) 0); intros NC; [case (feq c f0); exact NC|]. destruct H as [H|H]; [|contradiction]. rewrite Req_bool_true by exact H.
    case (feq f0 f0); reflexivity.
  Qed.

  Lemma lanv_eig : B2R a = B2R d \/ bpow radix2 (-52) <= Rabs (B2R a - B2R d) \/ 0 <= B2R b * B2R c ->
    exists e1 e2 e3 e4, Rabs e1 <= bpow radix2 (-42) * M /\ Rabs e2 <= bpow radix2 (-42) * M /\ Rabs e3 <= bpow radix2 (-42) * M /\ Rabs e4 <= bpow radix2 (-42) * M /\
      eigenvalues2 (B2R a + e1, B2R b + e2, B2R c + e3, B2R d + e4) (B2R (nrt1r r), B2R (nrt1i r)) (B2R (nrt2r r), B2R (nrt2i r)).
  Proof.
    intros H. pose proof (lanv_shape H) as SH. destruct lanv_fields as (FA & FB & FC & FD & _ & _ & EX & _ & -> & -> & Z1 & Z2).
    destruct lanv_close as (C & S & y1 & y2 & y3 & y4 & ONE & SIM & E1 & E2 & E3 & E4 & EC & ES & LB & LC).
    assert (M0 : 0 <= M) by (destruct Ha as (_ & La); eapply Rle_trans; [apply Rabs_pos|exact La]). pose proof u_tiny as [U0 U1]. pose proof eta64_pos as EP.
    assert (K : bpow radix2 (-42) * M = 2048 * (u64 * M)) by (replace (bpow radix2 (-42)) with (bpow radix2 11 * u64) by (unfold u64; rewrite <- bpow_plus; reflexivity); change (bpow radix2 11) with 2048; ring). rewrite K.
    assert (UM0 : 0 <= u64 * M) by (apply Rmult_le_pos; lra).
    (* any reduced matrix within 1023 u M *)
    assert (GO : forall t1 t2 t3 t4 l1 l2, Rabs (t1 - y1) <= 1023 * (u64 * M) -> Rabs (t2 - y2) <= 1023 * (u64 * M) -> Rabs (t3 - y3) <= 1023 * (u64 * M) -> Rabs (t4 - y4) <= 1023 * (u64 * M) -> eigenvalues2 (t1, t2, t3, t4) l1 l2 ->
      exists e1 e2 e3 e4, Rabs e1 <= 2048 * (u64 * M) /\ Rabs e2 <= 2048 * (u64 * M) /\ Rabs e3 <= 2048 * (u64 * M) /\ Rabs e4 <= 2048 * (u64 * M) /\ eigenvalues2 (B2R a + e1, B2R b + e2, B2R c + e3, B2R d + e4) l1 l2).
    { intros t1 t2 t3 t4 l1 l2 H1 H2 H3 H4 EV. destruct (pert_back _ _ _ _ _ _ _ _ _ _ t1 t2 t3 t4 _ ONE SIM H1 H2 H3 H4) as (e1 & e2 & e3 & e4 & G1 & G2 & G3 & G4 & SIM2).
      exists e1, e2, e3, e4. repeat (split; [lra|]). intros z. rewrite (charpoly_similar _ _ _ _ z ONE SIM2). apply EV. }
    destruct (Req_dec (B2R (nC r)) 0) as [NC|NC].
    - destruct (Z1 NC) as [-> ->]. change (B2R (f0 : b64)) with 0. apply (GO (B2R (nA r)) (B2R (nB r)) 0 (B2R (nD r))); [lra|lra|rewrite <- NC; lra|lra|]. apply eig_tri.
    - destruct SH as [SH|[AD BC]]; [contradiction|]. destruct (Z2 NC) as [I1 I2]. rewrite I2. change (@fneg b64 NBe) with (@Bopp 53 1024). rewrite B2R_Bopp, I1.
      assert (KK : 2.1 * M <= bpow radix2 500). { apply Rle_trans with (bpow radix2 2 * bpow radix2 400); [change (bpow radix2 2) with 4; pose proof (bpow_gt_0 radix2 400); lra|rewrite <- bpow_plus; apply bpow_le; lia]. }
      destruct (imag_ok (nB r) (nC r) FB FC ltac:(lra) ltac:(lra)) as (_ & W0 & HW). set (w := B2R (fmul (fsqrt (fabs (nB r))) (fsqrt (fabs (nC r))))) in *.
      assert (NB : B2R (nB r) <> 0) by (intros E; rewrite E in BC; lra).
      assert (MIN : forall x : b64, B2R x <> 0 -> 2 * eta64 <= Rabs (B2R x)).
      { intros x Hx. rewrite <- B2R_Babs. replace (2 * eta64) with (bpow radix2 (-1074)) by (unfold eta64; change 2 with (bpow radix2 1); rewrite <- bpow_plus; reflexivity). apply min_pos. rewrite B2R_Babs. apply Rabs_pos_lt. exact Hx. }
      assert (ETM : eta64 <= u64 * M * / 1000).
      { assert (HX : bpow radix2 (-969) <= Rmax (Rabs (B2R b)) (Rabs (B2R c))).
        { destruct OR as [Z|[Z|Z]]; [exfalso; apply NC, lanv_trivial; left; exact Z|exfalso; apply NC, lanv_trivial; right; exact Z|exact Z]. }
        assert (ML : bpow radix2 (-969) <= M) by (eapply Rle_trans; [exact HX|]; apply Rmax_lub; [apply Hb|apply Hc]).
        destruct (mid_facts M (conj ML MU)) as (_ & _ & _ & ET & _). lra. }
      rewrite <- AD.
      destruct (Rle_or_lt (Rabs (B2R (nC r))) (Rabs (B2R (nB r)))) as [LE|LE].
      + destruct (move_off _ _ w BC (MIN _ NB) LE W0 HW) as (c2 & P2 & D2). apply (GO (B2R (nA r)) (B2R (nB r)) c2 (B2R (nA r))); [lra|lra| |rewrite AD; lra|apply eig_equal; exact P2].
        eapply Rle_trans; [eapply tri; [exact D2|exact E3]|]. assert (u64 * Rabs (B2R (nB r)) <= u64 * (2.1 * M)) by (apply Rmult_le_compat_l; lra). lra.
      + assert (HW' : Rabs (w - sqrt (Rabs (B2R (nC r))) * sqrt (Rabs (B2R (nB r)))) <= 3.1 * u64 * (sqrt (Rabs (B2R (nC r))) * sqrt (Rabs (B2R (nB r)))) + 2 * eta64) by (rewrite (Rmult_comm (sqrt (Rabs (B2R (nC r))))); exact HW).
        destruct (move_off (B2R (nC r)) (B2R (nB r)) w ltac:(rewrite Rmult_comm; exact BC) (MIN _ NC) ltac:(lra) W0 HW') as (b2 & P2 & D2).
        apply (GO (B2R (nA r)) b2 (B2R (nC r)) (B2R (nA r))); [lra| |lra|rewrite AD; lra|apply eig_equal; rewrite Rmult_comm; exact P2].
        eapply Rle_trans; [eapply tri; [exact D2|exact E2]|]. assert (u64 * Rabs (B2R (nC r)) <= u64 * (2.1 * M)) by (apply Rmult_le_compat_l; lra). lra.
  Qed.
End Eig.
