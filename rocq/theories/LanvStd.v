(** dlanv2 in binary64, second branch: backward error of the equalised matrix and of the second rotation. *)
From Coq Require Import Reals Lra Nsatz.
From Flocq Require Import IEEE754.BinarySingleNaN Core.
From Verif Require Import Base Num Array Blas Lapack Spec SpecR SpecErr B64 ER B64Lemmas B64Nn GemmErr RoundErr AppErr Lapy2Err LarfgErr Near LanvProofs LanvCalc LanvRot LanvEq.
Open Scope R_scope.

(** (a', b', c', d') is within k u M of Y with A = R Y R^T, R the rotation (C, S), which the computed (cs, sn) matches to j u *)
Definition std_near (k j M a b c d a' b' c' d' cs sn : R) : Prop :=
  exists C S y1 y2 y3 y4, C * C + S * S = 1 /\ similar2 (a, b, c, d) (y1, y2, y3, y4) C S /\
    Rabs (a' - y1) <= k * (u64 * M) /\ Rabs (b' - y2) <= k * (u64 * M) /\ Rabs (c' - y3) <= k * (u64 * M) /\ Rabs (d' - y4) <= k * (u64 * M) /\
    Rabs (cs - C) <= j * u64 /\ Rabs (sn - S) <= j * u64.

Lemma tri (x y z e f : R) : Rabs (x - y) <= e -> Rabs (y - z) <= f -> Rabs (x - z) <= e + f.
Proof. intros H1 H2. replace (x - z) with ((x - y) + (y - z)) by ring. eapply Rle_trans; [apply Rabs_triang|]. lra. Qed.
Lemma unit_abs C S : C * C + S * S = 1 -> Rabs C <= 1 /\ Rabs S <= 1.
Proof. intros H. split; apply Rabs_le; nra. Qed.

(** the exact second rotation *)
Lemma rot_dev c s t b d p w1 w2 w3 w4 e : c * c + s * s = 1 -> 0 <= c -> 0 <= s -> 0 <= e ->
  t * (c * c + s * s) + (b + d) * (c * s) = t + p ->
  Rabs (t - w1) <= e -> Rabs (b - w2) <= e -> Rabs (d - w3) <= e -> Rabs (t - w4) <= e ->
  Rabs (t + p - ((w1 * c + w2 * s) * c + (w3 * c + w4 * s) * s)) <= 2 * e.
Proof.
  intros H C0 S0 E0 HP H1 H2 H3 H4. rewrite <- HP.
  replace (t * (c * c + s * s) + (b + d) * (c * s) - ((w1 * c + w2 * s) * c + (w3 * c + w4 * s) * s)) with
    ((t - w1) * (c * c) + (b - w2) * (c * s) + (d - w3) * (c * s) + (t - w4) * (s * s)) by ring.
  assert (CS : 0 <= c * s) by (apply Rmult_le_pos; assumption). assert (CS2 : 2 * (c * s) <= 1) by (pose proof (Rle_0_sqr (c - s)) as Q; unfold Rsqr in Q; lra).
  assert (CC : 0 <= c * c) by nra. assert (SS : 0 <= s * s) by nra.
  apply ab_elim in H1, H2, H3, H4. apply Rabs_le. split.
  - assert (- e * (c * c) <= (t - w1) * (c * c)) by (apply Rmult_le_compat_r; lra). assert (- e * (c * s) <= (b - w2) * (c * s)) by (apply Rmult_le_compat_r; lra).
    assert (- e * (c * s) <= (d - w3) * (c * s)) by (apply Rmult_le_compat_r; lra). assert (- e * (s * s) <= (t - w4) * (s * s)) by (apply Rmult_le_compat_r; lra). nra.
  - assert ((t - w1) * (c * c) <= e * (c * c)) by (apply Rmult_le_compat_r; lra). assert ((b - w2) * (c * s) <= e * (c * s)) by (apply Rmult_le_compat_r; lra).
    assert ((d - w3) * (c * s) <= e * (c * s)) by (apply Rmult_le_compat_r; lra). assert ((t - w4) * (s * s) <= e * (s * s)) by (apply Rmult_le_compat_r; lra). nra.
Qed.

Lemma similar_exists a b c d C S : C * C + S * S = 1 ->
  similar2 (a, b, c, d) ((a * C + b * S) * C + (c * C + d * S) * S, (- (a * S) + b * C) * C + (- (c * S) + d * C) * S,
    - ((a * C + b * S) * S) + (c * C + d * S) * C, - ((- (a * S) + b * C) * S) + (- (c * S) + d * C) * C) C S.
Proof. intros H. unfold similar2, rot2, m2tr, m2mul. apply m2_eq; clear - H; nsatz. Qed.

Section Std.
  Context (lm : libm).
  #[local] Instance NBs : Num b64 := B64 lm.
  Context (M : R) (HM : mid M).

  Definition bnd (x : b64) : Prop := is_finite x = true /\ Rabs (B2R x) <= M.

  Lemma sum_ab x y : bnd x -> bnd y -> ab (fadd x y) (B2R x + B2R y) (2.001 * (u64 * M)) (2 * M).
  Proof.
    intros (F & L) (F' & L'). destruct (mid_facts M HM) as (M0 & UM & UUM & ET & BIG & UMM).
    eapply ab_weak; [eapply ab_add; [apply ab_exact; [exact F|exact L]|apply ab_exact; [exact F'|exact L']|]| |]; lra.
  Qed.
  Lemma diff_ab x y : bnd x -> bnd y -> ab (fsub x y) (B2R x - B2R y) (2.001 * (u64 * M)) (2 * M).
  Proof.
    intros (F & L) (F' & L'). destruct (mid_facts M HM) as (M0 & UM & UUM & ET & BIG & UMM).
    eapply ab_weak; [eapply ab_sub; [apply ab_exact; [exact F|exact L]|apply ab_exact; [exact F'|exact L']|]| |]; lra.
  Qed.

  Context (a b c d : b64) (Ha : bnd a) (Hb : bnd b) (Hc : bnd c) (Hd : bnd d).
  Let s := fadd b c.
  Let t := fsub a d.
  Hypothesis Hh : bpow radix2 (-970) <= sqrt (B2R s * B2R s + B2R t * B2R t).

  Lemma h_up : sqrt (B2R s * B2R s + B2R t * B2R t) <= bpow radix2 410.
  Proof.
    destruct (mid_facts M HM) as (M0 & UM & UUM & ET & BIG & UMM). pose proof (ab_mag _ _ _ _ (sum_ab b c Hb Hc)) as S1. pose proof (ab_mag _ _ _ _ (diff_ab a d Ha Hd)) as T1. fold s in S1. fold t in T1.
    apply Rle_trans with (sqrt ((6 * M) * (6 * M))).
    - apply sqrt_le_1_alt. apply ab_elim in S1, T1. nra.
    - rewrite sqrt_square by lra. apply Rle_trans with (bpow radix2 3 * bpow radix2 400); [change (bpow radix2 3) with 8; destruct HM; lra|]. rewrite <- bpow_plus. apply bpow_le. lia.
  Qed.

  Lemma equalise_ok : exists T b' c' cs sn,
    nv_equalise s t a b c d = (T, (T, b', c', T, cs, sn)) /\
    is_finite T = true /\ is_finite b' = true /\ is_finite c' = true /\ is_finite cs = true /\ is_finite sn = true /\
    Rabs (B2R T) <= 4.001 * M /\ Rabs (B2R b') <= 4.001 * M /\ Rabs (B2R c') <= 4.001 * M /\ Rabs (B2R cs) <= 1 + 50 * u64 /\ Rabs (B2R sn) <= 1 + 50 * u64 /\
    std_near 435 50 M (B2R a) (B2R b) (B2R c) (B2R d) (B2R T) (B2R b') (B2R c') (B2R T) (B2R cs) (B2R sn).
  Proof.
    destruct (mid_facts M HM) as (M0 & UM & UUM & ET & BIG & UMM). pose proof (sum_ab b c Hb Hc) as S1. fold s in S1. pose proof (diff_ab a d Ha Hd) as T1. fold t in T1.
    assert (Fs : is_finite s = true) by apply S1. assert (Ft : is_finite t = true) by apply T1.
    pose proof (cs_ab lm s t Fs Ft (conj Hh h_up)) as HC. pose proof (sn_ab lm s t Fs Ft (conj Hh h_up)) as HS.
    pose proof (rot_one s t (conj Hh h_up)) as ONE. pose proof (rot_eq s t (conj Hh h_up)) as EQ.
    unfold nv_equalise. fold NBs in *.
    set (cs := fsqrt (fmul (fadd f1 (fdiv (fabs s) (dlapy2 s t))) fhalf)) in *.
    set (sn := fmul (fneg (fdiv (fmul fhalf t) (fmul (dlapy2 s t) cs))) (fsignum s)) in *.
    set (C := sqrt ((1 + Rabs (B2R s) / sqrt (B2R s * B2R s + B2R t * B2R t)) * / 2)) in *.
    set (S := - (B2R t / 2 / (sqrt (B2R s * B2R s + B2R t * B2R t) * C)) * sg s) in *. clearbody cs sn C S.
    destruct Ha as (Fa & La), Hb as (Fb & Lb), Hc as (Fc & Lc), Hd as (Fd & Ld).
    pose proof (sum1 lm M HM _ _ _ _ (one1 lm M HM a cs C Fa La HC) (one1 lm M HM b sn S Fb Lb HS)) as AA.
    pose proof (sum1 lm M HM _ _ _ _ (ab_opp lm _ _ _ _ (one1 lm M HM a sn S Fa La HS)) (one1 lm M HM b cs C Fb Lb HC)) as BB.
    pose proof (sum1 lm M HM _ _ _ _ (one1 lm M HM c cs C Fc Lc HC) (one1 lm M HM d sn S Fd Ld HS)) as CC.
    pose proof (sum1 lm M HM _ _ _ _ (ab_opp lm _ _ _ _ (one1 lm M HM c sn S Fc Lc HS)) (one1 lm M HM d cs C Fd Ld HC)) as DD.
    pose proof (sum2 lm M HM _ _ _ _ (one2 lm M HM _ cs _ C AA HC) (one2 lm M HM _ sn _ S CC HS)) as Y1.
    pose proof (sum2 lm M HM _ _ _ _ (one2 lm M HM _ cs _ C BB HC) (one2 lm M HM _ sn _ S DD HS)) as Y2.
    pose proof (sum2 lm M HM _ _ _ _ (ab_opp lm _ _ _ _ (one2 lm M HM _ sn _ S AA HS)) (one2 lm M HM _ cs _ C CC HC)) as Y3.
    pose proof (sum2 lm M HM _ _ _ _ (ab_opp lm _ _ _ _ (one2 lm M HM _ sn _ S BB HS)) (one2 lm M HM _ cs _ C DD HC)) as Y4.
    pose proof (half_sum lm M HM _ _ _ _ Y1 Y4) as YT.
    change (B64 lm) with NBs in *. change (@NBcb lm) with NBs in *. change (@NBab lm) with NBs in *.
    pose proof (ab_mag _ _ _ _ Y2) as L2. pose proof (ab_mag _ _ _ _ Y3) as L3. pose proof (ab_mag _ _ _ _ YT) as LT. pose proof (ab_mag _ _ _ _ HC) as LC. pose proof (ab_mag _ _ _ _ HS) as LS.
    do 5 eexists. split; [reflexivity|].
    split; [exact (proj1 YT)|]. split; [exact (proj1 Y2)|]. split; [exact (proj1 Y3)|]. split; [exact (proj1 HC)|]. split; [exact (proj1 HS)|].
    split; [eapply Rle_trans; [exact LT|lra]|]. split; [eapply Rle_trans; [exact L2|lra]|]. split; [eapply Rle_trans; [exact L3|lra]|]. split; [exact LC|]. split; [exact LS|].
    exists C, S. do 4 eexists. split; [exact ONE|]. split; [apply similar_exists; exact ONE|].
    (* the diagonal entries of the exact matrix are almost equal *)
    assert (DE : Rabs ((B2R a * C + B2R b * S) * C + (B2R c * C + B2R d * S) * S - (- ((- (B2R a * S) + B2R b * C) * S) + (- (B2R c * S) + B2R d * C) * C)) <= 6.01 * (u64 * M)).
    { destruct S1 as (_ & S1 & _), T1 as (_ & T1 & _). destruct (unit_abs C S ONE) as [C1 S1'].
      replace ((B2R a * C + B2R b * S) * C + (B2R c * C + B2R d * S) * S - (- ((- (B2R a * S) + B2R b * C) * S) + (- (B2R c * S) + B2R d * C) * C)) with
        (- ((B2R t - (B2R a - B2R d)) * (C * C - S * S)) - 2 * ((B2R s - (B2R b + B2R c)) * (C * S)) + (B2R t * (C * C - S * S) + 2 * B2R s * (C * S))) by ring.
      rewrite EQ, Rplus_0_r. assert (K1 : Rabs (C * C - S * S) <= 1) by (apply Rabs_le; nra). assert (K2 : Rabs (C * S) <= 1) by (apply Rabs_le; nra).
      set (x1 := C * C - S * S) in *. set (x2 := C * S) in *. clearbody x1 x2.
      unfold Rminus at 1. eapply Rle_trans; [apply Rabs_triang|]. rewrite !Rabs_Ropp, !Rabs_mult, (Rabs_pos_eq 2) by lra.
      assert (Rabs (B2R t - (B2R a - B2R d)) * Rabs x1 <= 2.001 * (u64 * M) * 1) by (apply Rmult_le_compat; try assumption; apply Rabs_pos).
      assert (Rabs (B2R s - (B2R b + B2R c)) * Rabs x2 <= 2.001 * (u64 * M) * 1) by (apply Rmult_le_compat; try assumption; apply Rabs_pos). lra. }
    set (y1 := (B2R a * C + B2R b * S) * C + (B2R c * C + B2R d * S) * S) in *. set (y4 := - ((- (B2R a * S) + B2R b * C) * S) + (- (B2R c * S) + B2R d * C) * C) in *.
    destruct YT as (_ & YT & _), Y2 as (_ & Y2 & _), Y3 as (_ & Y3 & _), HC as (_ & HC & _), HS as (_ & HS & _).
    split; [|split; [|split; [|split; [|split; [exact HC|exact HS]]]]].
    - eapply Rle_trans; [apply (tri _ _ y1 _ (3.1 * (u64 * M)) YT)|lra]. apply ab_elim in DE. apply Rabs_le. lra.
    - eapply Rle_trans; [exact Y2|lra].
    - eapply Rle_trans; [exact Y3|lra].
    - eapply Rle_trans; [apply (tri _ _ y4 _ (3.1 * (u64 * M)) YT)|lra]. apply ab_elim in DE. apply Rabs_le. lra.
  Qed.
End Std.
