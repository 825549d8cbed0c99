(** Absolute errors of straight-line binary64 code, and a sum of two products with a rotation. *)
From Coq Require Import Reals Lra.
From Flocq Require Import IEEE754.BinarySingleNaN Core.
From Verif Require Import Base Num Array Blas Spec SpecR SpecErr B64 B64Lemmas B64Nn RoundErr AppErr Lapy2Err LarfgErr Near.
Open Scope R_scope.

(** y is a number within E of x, and |x| <= X *)
Definition ab (y : b64) (x E X : R) : Prop := is_finite y = true /\ Rabs (B2R y - x) <= E /\ Rabs x <= X.

Lemma ab_exact (x : b64) X : is_finite x = true -> Rabs (B2R x) <= X -> ab x (B2R x) 0 X.
Proof. intros F L. split; [exact F|]. rewrite Rminus_diag_eq, Rabs_R0 by reflexivity. lra. Qed.
Lemma ab_weak y x E X E' X' : ab y x E X -> E <= E' -> X <= X' -> ab y x E' X'.
Proof. intros (F & A & B) H1 H2. repeat split; [exact F|lra|lra]. Qed.
Lemma ab_mag y x E X : ab y x E X -> Rabs (B2R y) <= X + E.
Proof. intros (_ & A & B). replace (B2R y) with (x + (B2R y - x)) by ring. eapply Rle_trans; [apply Rabs_triang|]. lra. Qed.
Lemma ab_nn y x E X : ab y x E X -> 0 <= E /\ 0 <= X.
Proof. intros (_ & A & B). pose proof (Rabs_pos (B2R y - x)). pose proof (Rabs_pos x). lra. Qed.

Section Rules.
  Context (lm : libm).
  #[local] Instance NBab : Num b64 := B64 lm.

  Lemma ab_opp y x E X : ab y x E X -> ab (fneg y) (- x) E X.
  Proof.
    intros (F & A & B). change (fneg y) with (Bopp y). split; [rewrite is_finite_Bopp; exact F|]. rewrite B2R_Bopp, Rabs_Ropp.
    replace (- B2R y - - x) with (- (B2R y - x)) by ring. rewrite Rabs_Ropp. auto.
  Qed.
  Lemma ab_add y x E X y' x' E' X' : ab y x E X -> ab y' x' E' X' -> X + E + (X' + E') <= bpow radix2 1023 ->
    ab (fadd y y') (x + x') (E + E' + u64 * (X + E + (X' + E'))) (X + X').
  Proof.
    intros H H' B. change (fadd y y') with (Bplus mode_NE y y'). pose proof (ab_mag _ _ _ _ H) as M. pose proof (ab_mag _ _ _ _ H') as M'.
    destruct H as (F & A & L), H' as (F' & A' & L').
    assert (S : Rabs (B2R y + B2R y') <= X + E + (X' + E')) by (eapply Rle_trans; [apply Rabs_triang|]; lra).
    assert (FF : is_finite (Bplus mode_NE y y') = true) by (apply plus_ok; [exact F|exact F'|lra]).
    split; [exact FF|]. split; [|eapply Rle_trans; [apply Rabs_triang|]; lra].
    destruct (plus_fin _ _ FF) as (_ & _ & _ & R). pose proof u64_pos.
    replace (B2R (Bplus mode_NE y y') - (x + x')) with ((B2R (Bplus mode_NE y y') - (B2R y + B2R y')) + ((B2R y - x) + (B2R y' - x'))) by ring.
    eapply Rle_trans; [apply Rabs_triang|]. pose proof (Rabs_triang (B2R y - x) (B2R y' - x')).
    assert (u64 * Rabs (B2R y + B2R y') <= u64 * (X + E + (X' + E'))) by (apply Rmult_le_compat_l; lra). lra.
  Qed.
  Lemma ab_sub y x E X y' x' E' X' : ab y x E X -> ab y' x' E' X' -> X + E + (X' + E') <= bpow radix2 1023 ->
    ab (fsub y y') (x - x') (E + E' + u64 * (X + E + (X' + E'))) (X + X').
  Proof.
    intros H H' B. assert (EM : fsub y y' = fadd y (fneg y')).
    { change (Bminus mode_NE y y' = Bplus mode_NE y (Bopp y')). destruct y as [[]|[]| |[]], y' as [[]|[]| |[]]; reflexivity. }
    rewrite EM. replace (x - x') with (x + - x') by ring. apply ab_add; [exact H|apply ab_opp, H'|exact B].
  Qed.
  Lemma ab_mul y x E X y' x' E' X' : ab y x E X -> ab y' x' E' X' -> (X + E) * (X' + E') <= bpow radix2 1023 ->
    ab (fmul y y') (x * x') (E * (X' + E') + X * E' + u64 * ((X + E) * (X' + E')) + eta64) (X * X').
  Proof.
    intros H H' B. change (fmul y y') with (Bmult mode_NE y y'). pose proof (ab_mag _ _ _ _ H) as M. pose proof (ab_mag _ _ _ _ H') as M'.
    pose proof (ab_nn _ _ _ _ H) as [E0 X0]. pose proof (ab_nn _ _ _ _ H') as [E0' X0']. destruct H as (F & A & L), H' as (F' & A' & L').
    pose proof (Rabs_pos (B2R y)). pose proof (Rabs_pos (B2R y')).
    assert (S : Rabs (B2R y * B2R y') <= (X + E) * (X' + E')) by (rewrite Rabs_mult; apply Rmult_le_compat; assumption).
    assert (FF : is_finite (Bmult mode_NE y y') = true) by (apply mult_ok; [exact F|exact F'|lra]).
    split; [exact FF|]. split; [|rewrite Rabs_mult; apply Rmult_le_compat; try assumption; apply Rabs_pos].
    destruct (mult_fin _ _ FF) as (_ & _ & _ & R). pose proof u64_pos.
    replace (B2R (Bmult mode_NE y y') - x * x') with ((B2R (Bmult mode_NE y y') - B2R y * B2R y') + ((B2R y - x) * B2R y' + x * (B2R y' - x'))) by ring.
    eapply Rle_trans; [apply Rabs_triang|]. pose proof (Rabs_triang ((B2R y - x) * B2R y') (x * (B2R y' - x'))) as T. rewrite !Rabs_mult in T.
    assert (Rabs (B2R y - x) * Rabs (B2R y') <= E * (X' + E')) by (apply Rmult_le_compat; try assumption; apply Rabs_pos).
    assert (Rabs x * Rabs (B2R y' - x') <= X * E') by (apply Rmult_le_compat; try assumption; apply Rabs_pos).
    assert (u64 * Rabs (B2R y * B2R y') <= u64 * ((X + E) * (X' + E'))) by (apply Rmult_le_compat_l; lra). lra.
  Qed.
End Rules.

Lemma B2R_half : B2R (b64_dy 1 (-1)) = / 2.
Proof. rewrite <- SF2R_B2SF. change (SF2R radix2 (B2SF (b64_dy 1 (-1)))) with (F2R (Float radix2 4503599627370496 (-53))). unfold F2R. cbn. lra. Qed.

(** the scale of a 2x2 problem *)
Definition mid (M : R) : Prop := bpow radix2 (-969) <= M <= bpow radix2 400.
Lemma u_tiny : 0 < u64 <= / 1000000000000.
Proof.
  split; [apply u64_pos|]. apply Rle_trans with (bpow radix2 (-40)); [unfold u64; apply bpow_le; lia|]. change (bpow radix2 (-40)) with (/ 1099511627776). lra.
Qed.
Lemma mid_facts M : mid M -> 0 < M /\ 0 < u64 * M /\ u64 * (u64 * M) <= / 1000000000000 * (u64 * M) /\ 0 <= eta64 <= / 1000000000000 * (u64 * M) /\ 1000000 * M <= bpow radix2 1023 /\
  u64 * M <= / 1000000000000 * M.
Proof.
  intros [L U]. pose proof u_tiny as [U0 U1]. assert (M0 : 0 < M) by (eapply Rlt_le_trans; [apply bpow_gt_0|exact L]). assert (UM : 0 < u64 * M) by (apply Rmult_lt_0_compat; assumption).
  split; [exact M0|]. split; [exact UM|]. split; [apply Rmult_le_compat_r; lra|]. split; [|split; [|apply Rmult_le_compat_r; lra]].
  - split; [apply Rlt_le, eta64_pos|]. apply Rle_trans with (bpow radix2 (-53) * (u64 * bpow radix2 (-969))).
    + unfold eta64, u64. rewrite <- !bpow_plus. apply bpow_le. lia.
    + apply Rmult_le_compat; [apply bpow_ge_0|apply Rmult_le_pos; [lra|apply bpow_ge_0]| |apply Rmult_le_compat_l; lra].
      apply Rle_trans with (bpow radix2 (-40)); [apply bpow_le; lia|]. change (bpow radix2 (-40)) with (/ 1099511627776). lra.
  - apply Rle_trans with (bpow radix2 20 * bpow radix2 400); [|rewrite <- bpow_plus; apply bpow_le; lia]. change (bpow radix2 20) with 1048576. nra.
Qed.

Section Comb.
  Context (lm : libm).
  #[local] Instance NBcb : Num b64 := B64 lm.
  Context (M : R) (HM : mid M) (cs sn : b64) (C S : R).
  Hypothesis HC : ab cs C (50 * u64) 1.
  Hypothesis HS : ab sn S (50 * u64) 1.

  Lemma one1 (x s : b64) T : is_finite x = true -> Rabs (B2R x) <= M -> ab s T (50 * u64) 1 -> ab (fmul x s) (B2R x * T) (51.1 * (u64 * M)) M.
  Proof.
    intros F L H. destruct (mid_facts M HM) as (M0 & UM & UUM & ET & BIG & UMM). pose proof u_tiny as [U0 U1].
    eapply ab_weak; [eapply ab_mul; [apply ab_exact; [exact F|exact L]|exact H|]| |]; lra.
  Qed.
  Lemma one2 (y s : b64) x T : ab y x (104.5 * (u64 * M)) (2 * M) -> ab s T (50 * u64) 1 -> ab (fmul y s) (x * T) (206.7 * (u64 * M)) (2 * M).
  Proof.
    intros Y H. destruct (mid_facts M HM) as (M0 & UM & UUM & ET & BIG & UMM). pose proof u_tiny as [U0 U1].
    assert (UUUM : u64 * (u64 * (u64 * M)) <= u64 * (u64 * M)) by (assert (0 <= u64 * (u64 * M)) by (apply Rmult_le_pos; lra); nra).
    eapply ab_weak; [eapply ab_mul; [exact Y|exact H|]| |]; lra.
  Qed.
  Lemma sum1 y x y' x' : ab y x (51.1 * (u64 * M)) M -> ab y' x' (51.1 * (u64 * M)) M -> ab (fadd y y') (x + x') (104.5 * (u64 * M)) (2 * M).
  Proof.
    intros Y Y'. destruct (mid_facts M HM) as (M0 & UM & UUM & ET & BIG & UMM).
    eapply ab_weak; [eapply ab_add; [exact Y|exact Y'|]| |]; lra.
  Qed.
  Lemma sum2 y x y' x' : ab y x (206.7 * (u64 * M)) (2 * M) -> ab y' x' (206.7 * (u64 * M)) (2 * M) -> ab (fadd y y') (x + x') (418 * (u64 * M)) (4 * M).
  Proof.
    intros Y Y'. destruct (mid_facts M HM) as (M0 & UM & UUM & ET & BIG & UMM).
    eapply ab_weak; [eapply ab_add; [exact Y|exact Y'|]| |]; lra.
  Qed.
  (** half the sum of the two diagonal entries *)
  Lemma half_sum y x y' x' : ab y x (418 * (u64 * M)) (4 * M) -> ab y' x' (418 * (u64 * M)) (4 * M) -> ab (fmul (fhalf : b64) (fadd y y')) (/ 2 * (x + x')) (431 * (u64 * M)) (4 * M).
  Proof.
    intros Y Y'. destruct (mid_facts M HM) as (M0 & UM & UUM & ET & BIG & UMM). pose proof u_tiny as [U0 U1].
    assert (UUUM : u64 * (u64 * (u64 * M)) <= u64 * (u64 * M)) by (assert (0 <= u64 * (u64 * M)) by (apply Rmult_le_pos; lra); nra).
    assert (H : ab (fhalf : b64) (/ 2) 0 (/ 2)).
    { assert (V : B2R (fhalf : b64) = / 2) by exact B2R_half.
      pose proof (ab_exact (fhalf : b64) (/ 2) eq_refl) as Z. rewrite V in Z. apply Z. apply Req_le, Rabs_pos_eq. lra. }
    eapply ab_weak; [eapply ab_mul; [exact H|eapply ab_add; [exact Y|exact Y'|]|]| |]; lra.
  Qed.
End Comb.
