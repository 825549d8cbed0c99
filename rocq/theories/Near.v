(** A calculus of rounding errors for straight-line binary64 code whose results stay in range. *)
From Coq Require Import Reals Lra.
From Flocq Require Import IEEE754.BinarySingleNaN Core.
From Verif Require Import Base Num Array Blas Spec SpecR SpecErr B64 B64Lemmas B64Nn RoundErr AppErr Lapy2Err LarfgErr.
Open Scope R_scope.

(** y is a number that approximates x: n roundings relative to the magnitude A >= |x|, and an absolute error e *)
Definition near (n : nat) (y : b64) (x A e : R) : Prop :=
  is_finite y = true /\ Rabs (B2R y - x) <= gam n * A + P ^ n * e /\ Rabs x <= A /\ 0 <= e.

Lemma near_exact (x : b64) : is_finite x = true -> near 0 x (B2R x) (Rabs (B2R x)) 0.
Proof. intros F. split; [exact F|]. rewrite Rminus_diag_eq, Rabs_R0 by reflexivity. unfold gam. cbn [pow]. pose proof (Rabs_pos (B2R x)). repeat split; lra. Qed.
Lemma near_weak n n' y x A A' e e' : (n <= n')%nat -> A <= A' -> e <= e' -> near n y x A e -> near n' y x A' e'.
Proof.
  intros N HA He (F & E & X & E0). split; [exact F|]. repeat split; try lra. pose proof (Rabs_pos x).
  pose proof (gam_le _ _ N). pose proof (gam_pos n). pose proof (Pn_le _ _ N). pose proof (Pn_ge n).
  assert (gam n * A <= gam n' * A') by (apply Rmult_le_compat; lra). assert (P ^ n * e <= P ^ n' * e') by (apply Rmult_le_compat; lra). lra.
Qed.
Lemma near_mag n y x A e : near n y x A e -> Rabs (B2R y) <= P ^ n * (A + e).
Proof.
  intros (_ & E & X & _). replace (B2R y) with (x + (B2R y - x)) by ring. eapply Rle_trans; [apply Rabs_triang|]. rewrite gam_P in E. lra.
Qed.
Lemma near_nn n y x A e : near n y x A e -> 0 <= A /\ 0 <= e.
Proof. intros (_ & _ & X & E). pose proof (Rabs_pos x). lra. Qed.
Lemma near_eq n y x x' A A' e e' : near n y x A e -> x = x' -> A = A' -> e = e' -> near n y x' A' e'.
Proof. intros H -> -> ->. exact H. Qed.

Lemma Pn_2 n : (Z.of_nat n <= 2 ^ 32)%Z -> P ^ n <= 2.
Proof. intros H. pose proof (gam_small n H) as G. rewrite gam_P in G. lra. Qed.

Lemma plus_ok (x y : b64) : is_finite x = true -> is_finite y = true -> Rabs (B2R x + B2R y) <= bpow radix2 1023 -> is_finite (Bplus mode_NE x y) = true.
Proof.
  intros Fx Fy H. pose proof (Bplus_correct 53 1024 prec53 emax1024 mode_NE x y Fx Fy) as C.
  change (round radix2 (SpecFloat.fexp 53 1024) (round_mode mode_NE) (B2R x + B2R y)) with (rnd (B2R x + B2R y)) in C.
  rewrite in_range in C by exact H. apply C.
Qed.
Lemma quot_ok (x y : b64) : is_finite x = true -> B2R y <> 0 -> Rabs (B2R x / B2R y) <= bpow radix2 1023 -> is_finite (Bdiv mode_NE x y) = true.
Proof.
  intros Fx N H. pose proof (Bdiv_correct 53 1024 prec53 emax1024 mode_NE x y N) as C.
  change (round radix2 (SpecFloat.fexp 53 1024) (round_mode mode_NE) (B2R x / B2R y)) with (rnd (B2R x / B2R y)) in C.
  rewrite in_range in C by exact H. destruct C as (_ & F & _). congruence.
Qed.

Section Rules.
  Context (lm : libm).
  #[local] Instance NBn : Num b64 := B64 lm.

  Lemma near_add n y x A e y' x' A' e' : near n y x A e -> near n y' x' A' e' -> (Z.of_nat n <= 2 ^ 32)%Z -> 2 * (A + e + (A' + e')) <= bpow radix2 1023 ->
    near (S n) (fadd y y') (x + x') (A + A') (e + e').
  Proof.
    intros H H' N B. change (fadd y y') with (Bplus mode_NE y y').
    pose proof (near_mag _ _ _ _ _ H) as M. pose proof (near_mag _ _ _ _ _ H') as M'. pose proof (Pn_2 n N) as P2.
    pose proof (near_nn _ _ _ _ _ H) as [A0 E0]. pose proof (near_nn _ _ _ _ _ H') as [A0' E0'].
    destruct H as (F & E & X & _), H' as (F' & E' & X' & _).
    assert (FF : is_finite (Bplus mode_NE y y') = true).
    { apply plus_ok; [exact F|exact F'|]. eapply Rle_trans; [apply Rabs_triang|]. nra. }
    split; [exact FF|]. split; [|split; [eapply Rle_trans; [apply Rabs_triang|]; lra|lra]].
    destruct (plus_fin _ _ FF) as (_ & _ & _ & R).
    assert (S : Rabs (B2R y + B2R y' - (x + x')) <= gam n * (A + A') + P ^ n * (e + e')).
    { replace (B2R y + B2R y' - (x + x')) with ((B2R y - x) + (B2R y' - x')) by ring. eapply Rle_trans; [apply Rabs_triang|]. lra. }
    eapply Rle_trans; [apply (err_step _ _ _ _ R S)|]. rewrite gam_S. cbn [pow].
    assert (XX : Rabs (x + x') <= A + A') by (eapply Rle_trans; [apply Rabs_triang|]; lra). pose proof u64_pos. nra.
  Qed.
  Lemma near_opp n y x A e : near n y x A e -> near n (fneg y) (- x) A e.
  Proof.
    intros (F & E & X & E0). change (fneg y) with (Bopp y). split; [rewrite is_finite_Bopp; exact F|]. rewrite B2R_Bopp, Rabs_Ropp.
    replace (- B2R y - - x) with (- (B2R y - x)) by ring. rewrite Rabs_Ropp. auto.
  Qed.
  Lemma near_sub n y x A e y' x' A' e' : near n y x A e -> near n y' x' A' e' -> (Z.of_nat n <= 2 ^ 32)%Z -> 2 * (A + e + (A' + e')) <= bpow radix2 1023 ->
    near (S n) (fsub y y') (x - x') (A + A') (e + e').
  Proof.
    intros H H' N B. assert (EM : fsub y y' = fadd y (fneg y')).
    { change (Bminus mode_NE y y' = Bplus mode_NE y (Bopp y')). destruct y as [[]|[]| |[]], y' as [[]|[]| |[]]; reflexivity. }
    rewrite EM. replace (x - x') with (x + - x') by ring. apply near_add; [exact H|apply near_opp, H'|exact N|exact B].
  Qed.
  (** a difference of numbers, relative to the difference itself *)
  Lemma near_diff (x y : b64) : is_finite x = true -> is_finite y = true -> Rabs (B2R x - B2R y) <= bpow radix2 1023 ->
    near 1 (fsub x y) (B2R x - B2R y) (Rabs (B2R x - B2R y)) 0.
  Proof.
    intros F F' B. destruct (minus_ok x y F F' B) as (FF & E). split; [exact FF|]. split; [|split; lra].
    rewrite gam_S. unfold gam. cbn [pow]. eapply Rle_trans; [exact E|]. lra.
  Qed.
  Lemma near_abs n y x A e : near n y x A e -> near n (fabs y) (Rabs x) A e.
  Proof.
    intros (F & E & X & E0). change (fabs y) with (Babs y). split; [rewrite is_finite_Babs; exact F|]. rewrite B2R_Babs, Rabs_Rabsolu. split; [|auto].
    eapply Rle_trans; [apply Rabs_triang_inv2|]. exact E.
  Qed.
  Lemma near_mul n m y x A e y' x' A' e' : near n y x A e -> near m y' x' A' e' -> (Z.of_nat n <= 2 ^ 32)%Z -> (Z.of_nat m <= 2 ^ 32)%Z ->
    4 * ((A + e) * (A' + e')) <= bpow radix2 1023 ->
    near (S (n + m)) (fmul y y') (x * x') (A * A') (e * A' + A * e' + e * e' + eta64).
  Proof.
    intros H H' N N' B. change (fmul y y') with (Bmult mode_NE y y').
    pose proof (near_mag _ _ _ _ _ H) as M. pose proof (near_mag _ _ _ _ _ H') as M'. pose proof (Pn_2 n N) as P2. pose proof (Pn_2 m N') as P2'.
    pose proof (near_nn _ _ _ _ _ H) as [A0 E0]. pose proof (near_nn _ _ _ _ _ H') as [A0' E0']. pose proof eta64_pos as ET.
    destruct H as (F & E & X & _), H' as (F' & E' & X' & _). pose proof (Rabs_pos (B2R y)). pose proof (Rabs_pos (B2R y')). pose proof (Rabs_pos x'). pose proof (Rabs_pos x).
    pose proof (Pn_ge n). pose proof (Pn_ge m).
    assert (FF : is_finite (Bmult mode_NE y y') = true).
    { apply mult_ok; [exact F|exact F'|]. rewrite Rabs_mult. eapply Rle_trans; [|exact B].
      apply Rle_trans with ((2 * (A + e)) * (2 * (A' + e'))); [|lra]. apply Rmult_le_compat; try assumption.
      - eapply Rle_trans; [exact M|]. apply Rmult_le_compat_r; lra.
      - eapply Rle_trans; [exact M'|]. apply Rmult_le_compat_r; lra. }
    split; [exact FF|].
    assert (E3 : 0 <= e * A' + A * e' + e * e') by (assert (0 <= e * A') by (apply Rmult_le_pos; lra); assert (0 <= A * e') by (apply Rmult_le_pos; lra); assert (0 <= e * e') by (apply Rmult_le_pos; lra); lra).
    assert (XX : Rabs (x * x') <= A * A') by (rewrite Rabs_mult; apply Rmult_le_compat; lra).
    split; [|split; [exact XX|lra]].
    destruct (mult_fin _ _ FF) as (_ & _ & _ & R).
    assert (S : Rabs (B2R y * B2R y' - x * x') <= gam (n + m) * (A * A') + P ^ (n + m) * (e * A' + A * e' + e * e')).
    { replace (B2R y * B2R y' - x * x') with (B2R y * (B2R y' - x') + x' * (B2R y - x)) by ring.
      eapply Rle_trans; [apply Rabs_triang|]. rewrite !Rabs_mult.
      assert (S1 : Rabs (B2R y) * Rabs (B2R y' - x') <= P ^ n * (A + e) * (gam m * A' + P ^ m * e')) by (apply Rmult_le_compat; try assumption; apply Rabs_pos).
      assert (S2 : Rabs x' * Rabs (B2R y - x) <= A' * (gam n * A + P ^ n * e)) by (apply Rmult_le_compat; try assumption; apply Rabs_pos).
      eapply Rle_trans; [apply Rplus_le_compat; [exact S1|exact S2]|]. rewrite !gam_P, pow_add. right. ring. }
    eapply Rle_trans; [apply (err_step_eta _ _ _ _ R S)|]. rewrite gam_S. cbn [pow]. pose proof (Pn_ge (n + m)) as PN. pose proof u64_pos as U.
    assert (T : u64 * Rabs (x * x') <= u64 * (A * A')) by (apply Rmult_le_compat_l; lra).
    assert (T2 : eta64 <= P * P ^ (n + m) * eta64) by (assert (1 <= P * P ^ (n + m)) by nra; nra). lra.
  Qed.
  (** division by a number *)
  Lemma near_div n y x A e (s : b64) : near n y x A e -> 0 < B2R s -> (Z.of_nat n <= 2 ^ 32)%Z -> 2 * ((A + e) / B2R s) <= bpow radix2 1023 ->
    near (S n) (fdiv y s) (x / B2R s) (A / B2R s) (e / B2R s + eta64).
  Proof.
    intros H S0 N B. change (fdiv y s) with (Bdiv mode_NE y s).
    pose proof (near_mag _ _ _ _ _ H) as M. pose proof (Pn_2 n N) as P2. pose proof (near_nn _ _ _ _ _ H) as [A0 E0]. destruct H as (F & E & X & _). pose proof eta64_pos as ET.
    assert (I0 : 0 < / B2R s) by (apply Rinv_0_lt_compat; exact S0). unfold Rdiv in *. set (q := / B2R s) in *.
    assert (FF : is_finite (Bdiv mode_NE y s) = true).
    { apply quot_ok; [exact F|lra|]. unfold Rdiv. fold q. rewrite Rabs_mult, (Rabs_pos_eq q) by lra. eapply Rle_trans; [|exact B].
      rewrite <- Rmult_assoc. apply Rmult_le_compat_r; [lra|]. eapply Rle_trans; [exact M|]. apply Rmult_le_compat_r; lra. }
    split; [exact FF|].
    assert (XX : Rabs (x * q) <= A * q) by (rewrite Rabs_mult, (Rabs_pos_eq q) by lra; apply Rmult_le_compat_r; lra).
    split; [|split; [exact XX|assert (0 <= e * q) by (apply Rmult_le_pos; lra); lra]].
    destruct (div_fin _ _ FF ltac:(lra)) as (_ & _ & R). unfold Rdiv in R. fold q in R.
    assert (S : Rabs (B2R y * q - x * q) <= gam n * (A * q) + P ^ n * (e * q)).
    { replace (B2R y * q - x * q) with ((B2R y - x) * q) by ring. rewrite Rabs_mult, (Rabs_pos_eq q) by lra. 
      replace (gam n * (A * q) + P ^ n * (e * q)) with ((gam n * A + P ^ n * e) * q) by ring. apply Rmult_le_compat_r; lra. }
    eapply Rle_trans; [apply (err_step_eta _ _ _ _ R S)|]. rewrite gam_S. cbn [pow]. pose proof (Pn_ge n) as PN. pose proof u64_pos as U.
    assert (T : u64 * Rabs (x * q) <= u64 * (A * q)) by (apply Rmult_le_compat_l; lra).
    assert (T2 : eta64 <= P * P ^ n * eta64) by (assert (1 <= P * P ^ n) by nra; nra). lra.
  Qed.
End Rules.
