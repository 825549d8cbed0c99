(** dlahqr's reflector applied to one row or column in binary64. *)
From Coq Require Import Reals Lra.
From Flocq Require Import IEEE754.BinarySingleNaN Core.
From Verif Require Import Base Num Array Blas Lapack Dlahqr Spec SpecR SpecErr B64 B64Lemmas B64Nn RoundErr AppErr Lapy2Err LarfgErr Near RealMat LanvCalc HqGet.
Open Scope R_scope.

(** the stored reflector (v2, v3, t1) is close to the exact one (w2, w3, t) *)
Record rapp (v2 v3 t1 : b64) (w2 w3 t : R) : Prop := {
  ra_house : house w2 w3 t;
  ra_t : 0 <= t;
  ra_2 : ab v2 w2 (50 * u64) 1;
  ra_3 : ab v3 w3 (50 * u64) 1;
  ra_1 : ab t1 t (130 * u64) 2
}.
Definition delta (B : R) : R := bpow radix2 (-43) * B.
Lemma delta_u B : delta B = 1024 * (u64 * B).
Proof. unfold delta, u64. change (bpow radix2 (-43)) with (bpow radix2 (10 + -53)). rewrite bpow_plus. change (bpow radix2 10) with 1024. ring. Qed.
Definition near_r (y : b64) (x D : R) : Prop := is_finite y = true /\ Rabs (B2R y - x) <= D.

Section App.
  Context (lm : libm).
  #[local] Instance NBha : Num b64 := B64 lm.
  Context (B : R) (HB : mid B) (v2 v3 t1 : b64) (w2 w3 t : R) (HR : rapp v2 v3 t1 w2 w3 t).

  Lemma tv2 : ab (fmul t1 v2) (t * w2) (233 * u64) 2.
  Proof.
    pose proof u_tiny as [U0 U1]. assert (UU : u64 * u64 <= / 1000000000000 * u64) by (apply Rmult_le_compat_r; lra). assert (UUU : u64 * (u64 * u64) <= u64 * u64) by (assert (0 <= u64 * u64) by (apply Rmult_le_pos; lra); nra).
    assert (ET : eta64 <= u64 * u64) by (unfold eta64, u64; rewrite <- bpow_plus; apply bpow_le; lia). pose proof eta64_pos.
    assert (BG : 10 <= bpow radix2 1023) by (apply Rle_trans with (bpow radix2 4); [change (bpow radix2 4) with 16; lra|apply bpow_le; lia]).
    eapply ab_weak; [eapply (ab_mul lm); [apply (ra_1 _ _ _ _ _ _ HR)|apply (ra_2 _ _ _ _ _ _ HR)|]| |]; lra.
  Qed.
  Lemma tv3 : ab (fmul t1 v3) (t * w3) (233 * u64) 2.
  Proof.
    pose proof u_tiny as [U0 U1]. assert (UU : u64 * u64 <= / 1000000000000 * u64) by (apply Rmult_le_compat_r; lra). assert (UUU : u64 * (u64 * u64) <= u64 * u64) by (assert (0 <= u64 * u64) by (apply Rmult_le_pos; lra); nra).
    assert (ET : eta64 <= u64 * u64) by (unfold eta64, u64; rewrite <- bpow_plus; apply bpow_le; lia). pose proof eta64_pos.
    assert (BG : 10 <= bpow radix2 1023) by (apply Rle_trans with (bpow radix2 4); [change (bpow radix2 4) with 16; lra|apply bpow_le; lia]).
    eapply ab_weak; [eapply (ab_mul lm); [apply (ra_1 _ _ _ _ _ _ HR)|apply (ra_3 _ _ _ _ _ _ HR)|]| |]; lra.
  Qed.
  Lemma vx (v x : b64) w : ab v w (50 * u64) 1 -> is_finite x = true -> Rabs (B2R x) <= B -> ab (fmul v x) (w * B2R x) (51.1 * (u64 * B)) B.
  Proof.
    intros V F L. destruct (mid_facts B HB) as (M0 & UM & UUM & ET & BIG & UMM). pose proof u_tiny as [U0 U1].
    eapply ab_weak; [eapply (ab_mul lm); [exact V|apply ab_exact; [exact F|exact L]|]| |]; lra.
  Qed.
  Lemma one_out (x s tt : b64) sr tr : is_finite x = true -> Rabs (B2R x) <= B -> ab s sr (108 * (u64 * B)) (3 * B) -> ab tt tr (233 * u64) 2 ->
    near_r (fsub x (fmul s tt)) (B2R x - sr * tr) (delta B).
  Proof.
    intros F L S T. destruct (mid_facts B HB) as (M0 & UM & UUM & ET & BIG & UMM). pose proof u_tiny as [U0 U1].
    assert (UUUM : u64 * (u64 * (u64 * B)) <= u64 * (u64 * B)) by (assert (0 <= u64 * (u64 * B)) by (apply Rmult_le_pos; lra); nra).
    assert (P : ab (fmul s tt) (sr * tr) (926 * (u64 * B)) (6 * B)) by (eapply ab_weak; [eapply (ab_mul lm); [exact S|exact T|]| |]; lra).
    assert (Q : ab (fsub x (fmul s tt)) (B2R x - sr * tr) (1024 * (u64 * B)) (7 * B)) by (eapply ab_weak; [eapply (ab_sub lm); [apply ab_exact; [exact F|exact L]|exact P|]| |]; lra).
    rewrite delta_u. destruct Q as (Q1 & Q2 & _). split; assumption.
  Qed.
  Lemma sum3 x1 x2 x3 : is_finite x1 = true -> is_finite x2 = true -> is_finite x3 = true -> Rabs (B2R x1) <= B -> Rabs (B2R x2) <= B -> Rabs (B2R x3) <= B ->
    ab (fadd (fadd x1 (fmul v2 x2)) (fmul v3 x3)) (B2R x1 + w2 * B2R x2 + w3 * B2R x3) (108 * (u64 * B)) (3 * B).
  Proof.
    intros F1 F2 F3 L1 L2 L3. destruct (mid_facts B HB) as (M0 & UM & UUM & ET & BIG & UMM). pose proof u_tiny as [U0 U1].
    assert (A1 : ab (fadd x1 (fmul v2 x2)) (B2R x1 + w2 * B2R x2) (53.2 * (u64 * B)) (2 * B)).
    { eapply ab_weak; [eapply (ab_add lm); [apply ab_exact; [exact F1|exact L1]|apply vx; [apply (ra_2 _ _ _ _ _ _ HR)|exact F2|exact L2]|]| |]; lra. }
    eapply ab_weak; [eapply (ab_add lm); [exact A1|apply vx; [apply (ra_3 _ _ _ _ _ _ HR)|exact F3|exact L3]|]| |]; lra.
  Qed.
  Lemma sum2 x1 x2 : is_finite x1 = true -> is_finite x2 = true -> Rabs (B2R x1) <= B -> Rabs (B2R x2) <= B ->
    ab (fadd x1 (fmul v2 x2)) (B2R x1 + w2 * B2R x2) (108 * (u64 * B)) (3 * B).
  Proof.
    intros F1 F2 L1 L2. destruct (mid_facts B HB) as (M0 & UM & UUM & ET & BIG & UMM). pose proof u_tiny as [U0 U1].
    eapply ab_weak; [eapply (ab_add lm); [apply ab_exact; [exact F1|exact L1]|apply vx; [apply (ra_2 _ _ _ _ _ _ HR)|exact F2|exact L2]|]| |]; lra.
  Qed.
  Lemma t1_w : ab t1 t (233 * u64) 2.
  Proof. pose proof u_tiny. eapply ab_weak; [apply (ra_1 _ _ _ _ _ _ HR)| |]; lra. Qed.

  Lemma app3 x1 x2 x3 : is_finite x1 = true -> is_finite x2 = true -> is_finite x3 = true -> Rabs (B2R x1) <= B -> Rabs (B2R x2) <= B -> Rabs (B2R x3) <= B ->
    let s := B2R x1 + w2 * B2R x2 + w3 * B2R x3 in
    let '(y1, y2, y3) := vrefl3 v2 v3 t1 (fmul t1 v2) (fmul t1 v3) x1 x2 x3 in
    near_r y1 (B2R x1 - s * t) (delta B) /\ near_r y2 (B2R x2 - s * (t * w2)) (delta B) /\ near_r y3 (B2R x3 - s * (t * w3)) (delta B).
  Proof.
    intros F1 F2 F3 L1 L2 L3 s. unfold vrefl3. cbv zeta. pose proof (sum3 x1 x2 x3 F1 F2 F3 L1 L2 L3) as S. fold s in S.
    split; [|split]; apply one_out; try assumption; [apply t1_w|apply tv2|apply tv3].
  Qed.
  Lemma app2 x1 x2 : is_finite x1 = true -> is_finite x2 = true -> Rabs (B2R x1) <= B -> Rabs (B2R x2) <= B ->
    let s := B2R x1 + w2 * B2R x2 in
    let '(y1, y2) := vrefl2 v2 t1 (fmul t1 v2) x1 x2 in
    near_r y1 (B2R x1 - s * t) (delta B) /\ near_r y2 (B2R x2 - s * (t * w2)) (delta B).
  Proof.
    intros F1 F2 L1 L2 s. unfold vrefl2. cbv zeta. pose proof (sum2 x1 x2 F1 F2 L1 L2) as S. fold s in S.
    split; apply one_out; try assumption; [apply t1_w|apply tv2].
  Qed.

  (** zeros stay zeros *)
  Lemma mul_zero (x y : b64) : is_finite x = true -> is_finite y = true -> B2R x = 0 -> is_finite (fmul x y) = true /\ B2R (fmul x y) = 0.
  Proof.
    intros Fx Fy Z. change (fmul x y) with (Bmult mode_NE x y). assert (FF : is_finite (Bmult mode_NE x y) = true).
    { apply mult_ok; [exact Fx|exact Fy|]. rewrite Z, Rmult_0_l, Rabs_R0. apply bpow_ge_0. }
    split; [exact FF|]. destruct (mult_fin _ _ FF) as (_ & _ & R & _). rewrite R, Z, Rmult_0_l. apply round_0. apply valid_rnd_N.
  Qed.
  Lemma mul_zero_r (x y : b64) : is_finite x = true -> is_finite y = true -> B2R y = 0 -> is_finite (fmul x y) = true /\ B2R (fmul x y) = 0.
  Proof.
    intros Fx Fy Z. change (fmul x y) with (Bmult mode_NE x y). assert (FF : is_finite (Bmult mode_NE x y) = true).
    { apply mult_ok; [exact Fx|exact Fy|]. rewrite Z, Rmult_0_r, Rabs_R0. apply bpow_ge_0. }
    split; [exact FF|]. destruct (mult_fin _ _ FF) as (_ & _ & R & _). rewrite R, Z, Rmult_0_r. apply round_0. apply valid_rnd_N.
  Qed.
  Lemma add_zero (x y : b64) : is_finite x = true -> is_finite y = true -> B2R x = 0 -> B2R y = 0 -> is_finite (fadd x y) = true /\ B2R (fadd x y) = 0.
  Proof.
    intros Fx Fy Z Z'. change (fadd x y) with (Bplus mode_NE x y). assert (FF : is_finite (Bplus mode_NE x y) = true).
    { apply plus_ok; [exact Fx|exact Fy|]. rewrite Z, Z', Rplus_0_r, Rabs_R0. apply bpow_ge_0. }
    split; [exact FF|]. destruct (plus_fin _ _ FF) as (_ & _ & R & _). rewrite R, Z, Z', Rplus_0_r. apply round_0. apply valid_rnd_N.
  Qed.
  Lemma sub_zero (x y : b64) : is_finite x = true -> is_finite y = true -> B2R x = 0 -> B2R y = 0 -> is_finite (fsub x y) = true /\ B2R (fsub x y) = 0.
  Proof.
    intros Fx Fy Z Z'. change (fsub x y) with (Bminus mode_NE x y). assert (FF : is_finite (Bminus mode_NE x y) = true).
    { apply minus_ok; [exact Fx|exact Fy|]. rewrite Z, Z', Rminus_0_r, Rabs_R0. apply bpow_ge_0. }
    split; [exact FF|]. destruct (minus_fin _ _ FF) as (_ & _ & R & _). rewrite R, Z, Z', Rminus_0_r. apply round_0. apply valid_rnd_N.
  Qed.
  Definition zf (x : b64) : Prop := is_finite x = true /\ B2R x = 0.
  Lemma app3_zero x1 x2 x3 : zf x1 -> zf x2 -> zf x3 ->
    let '(y1, y2, y3) := vrefl3 v2 v3 t1 (fmul t1 v2) (fmul t1 v3) x1 x2 x3 in zf y1 /\ zf y2 /\ zf y3.
  Proof.
    intros [F1 Z1] [F2 Z2] [F3 Z3]. unfold vrefl3. cbv zeta.
    destruct (ra_2 _ _ _ _ _ _ HR) as (Fv2 & _). destruct (ra_3 _ _ _ _ _ _ HR) as (Fv3 & _). destruct (ra_1 _ _ _ _ _ _ HR) as (Ft & _).
    destruct (mul_zero_r v2 x2 Fv2 F2 Z2) as [Fa Za]. destruct (mul_zero_r v3 x3 Fv3 F3 Z3) as [Fb Zb].
    destruct (add_zero _ _ F1 Fa Z1 Za) as [Fc Zc]. destruct (add_zero _ _ Fc Fb Zc Zb) as [Fs Zs].
    pose proof tv2 as (Ft2 & _). pose proof tv3 as (Ft3 & _).
    repeat split.
    all: first [apply sub_zero | apply (sub_zero _ _ ltac:(eassumption))]; try assumption; first [apply mul_zero; assumption | idtac].
  Qed.
  Lemma app2_zero x1 x2 : zf x1 -> zf x2 ->
    let '(y1, y2) := vrefl2 v2 t1 (fmul t1 v2) x1 x2 in zf y1 /\ zf y2.
  Proof.
    intros [F1 Z1] [F2 Z2]. unfold vrefl2. cbv zeta.
    destruct (ra_2 _ _ _ _ _ _ HR) as (Fv2 & _). destruct (ra_1 _ _ _ _ _ _ HR) as (Ft & _).
    destruct (mul_zero_r v2 x2 Fv2 F2 Z2) as [Fa Za].
    destruct (add_zero _ _ F1 Fa Z1 Za) as [Fs Zs].
    pose proof tv2 as (Ft2 & _).
    repeat split.
    all: apply sub_zero; try assumption; apply mul_zero; assumption.
  Qed.
End App.
