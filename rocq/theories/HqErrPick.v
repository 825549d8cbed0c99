(** Where dlahqr's sweep starts and which subdiagonal entries it drops, in binary64. *)
From Coq Require Import Reals Lra Ascii.
From Flocq Require Import IEEE754.BinarySingleNaN Core.
From Verif Require Import Base Num Array Blas Lapack Dlahqr Spec SpecR SpecErr Lists B64 B64Lemmas B64Nn MachProofs RoundErr AppErr Near LarfgErr GemmErr
  FaLemmas LahqrProofs LanvCalc LanvStd LanvErr LanvWit HqTwoF64 HqGet HqReflGen HqErrApp HqErrRefl HqErrStart.
Open Scope R_scope.

Section Pick.
  Context (lm : libm).
  #[local] Instance NBpk : Num b64 := B64 lm.

  Lemma leb_val (x y : b64) : is_finite x = true -> is_finite y = true -> fle x y = true -> B2R x <= B2R y.
  Proof. intros Fx Fy H. change (fle x y) with (Bleb x y) in H. rewrite Bleb_correct in H by assumption. revert H. case Rle_bool_spec; [auto|discriminate]. Qed.
  Lemma leb_nval (x y : b64) : is_finite x = true -> is_finite y = true -> fle x y = false -> B2R y < B2R x.
  Proof. intros Fx Fy H. change (fle x y) with (Bleb x y) in H. rewrite Bleb_correct in H by assumption. revert H. case Rle_bool_spec; [discriminate|auto]. Qed.
  Lemma le_nan (x : b64) : fle x (B754_nan : b64) = false.
  Proof. change (fle x (B754_nan : b64)) with (Bleb x B754_nan). destruct x as [[]|[]| |[]]; reflexivity. Qed.

  (** *** constants *)
  Lemma dat1_bd : bd 0 (fdiv (fofZ 3) (fofZ 4) : b64).
  Proof.
    assert (F : is_finite (fabs (fdiv (fofZ 3) (fofZ 4)) : b64) = true) by (rewrite <- is_finite_SF_B2SF; vm_compute; reflexivity).
    split; [rewrite <- is_finite_SF_B2SF; vm_compute; reflexivity|]. rewrite <- (abs_val lm). change (bpow radix2 0) with 1. rewrite <- B2R_1.
    apply leb_val; [exact F|reflexivity|]. vm_compute. reflexivity.
  Qed.
  Lemma dat2_bd : bd 0 (fdy (-7) (-4) : b64).
  Proof.
    assert (F : is_finite (fabs (fdy (-7) (-4)) : b64) = true) by (rewrite <- is_finite_SF_B2SF; vm_compute; reflexivity).
    split; [rewrite <- is_finite_SF_B2SF; vm_compute; reflexivity|]. rewrite <- (abs_val lm). change (bpow radix2 0) with 1. rewrite <- B2R_1.
    apply leb_val; [exact F|reflexivity|]. vm_compute. reflexivity.
  Qed.
  Lemma rnd_ge_bpow r e : (-1074 <= e)%Z -> bpow radix2 e <= r -> bpow radix2 e <= rnd r.
  Proof. intros He H. apply round_ge_generic; auto with typeclass_instances. apply generic_format_bpow. unfold FLT_exp. lia. Qed.
  Lemma ofZ_range z : (2 <= z <= 2 ^ 20)%Z -> is_finite (fofZ z : b64) = true /\ 2 <= B2R (fofZ z : b64) <= bpow radix2 20.
  Proof.
    intros Hz. change (fofZ z : b64) with (binary_normalize 53 1024 prec53 emax1024 mode_NE z 0 false).
    pose proof (binary_normalize_correct 53 1024 prec53 emax1024 mode_NE z 0 false) as C. cbv zeta in C.
    assert (V : F2R (Float radix2 z 0) = IZR z) by (unfold F2R; cbn; ring). rewrite V in C.
    change (round radix2 (SpecFloat.fexp 53 1024) (round_mode mode_NE) (IZR z)) with (rnd (IZR z)) in C.
    assert (L : 2 <= IZR z) by (apply IZR_le; lia). assert (U : IZR z <= bpow radix2 20) by (change (bpow radix2 20) with (IZR (2 ^ 20)); apply IZR_le; lia).
    rewrite in_range in C by (rewrite Rabs_pos_eq by lra; eapply Rle_trans; [exact U|apply bpow_le; lia]). destruct C as (E & F & _). split; [exact F|]. rewrite E.
    split; [change 2 with (bpow radix2 1); apply rnd_ge_bpow; [lia|exact L]|]. pose proof (rnd_bd (IZR z) 20 ltac:(lia) ltac:(rewrite Rabs_pos_eq by lra; exact U)) as X.
    apply Rabs_le_inv in X. lra.
  Qed.
  Lemma safmin_val : B2R (dlamch (chr "S") : b64) = bpow radix2 (-1022) /\ is_finite (dlamch (chr "S") : b64) = true.
  Proof.
    split; [|rewrite <- is_finite_SF_B2SF; vm_compute; reflexivity]. rewrite (B2R_pow _ 4503599627370496 (-1074) 52); [reflexivity| |reflexivity]. vm_compute. reflexivity.
  Qed.
  Lemma smlnum_range ilo ihi : (2 <= ihi - ilo + 1 <= 2 ^ 20)%Z ->
    is_finite (hq_smlnum ilo ihi : b64) = true /\ bpow radix2 (-969) <= B2R (hq_smlnum ilo ihi : b64) <= bpow radix2 (-950).
  Proof.
    intros Hn. destruct (ofZ_range _ Hn) as (F1 & L1 & U1). destruct (ulp2 lm) as (UV & FU). destruct safmin_val as (VS & FS).
    unfold hq_smlnum, hq_nh. set (sf := (dlamch (chr "S") : b64)) in *. clearbody sf. set (z := (fofZ (ihi - ilo + 1) : b64)) in *. clearbody z. set (up := (hq_ulp : b64)) in *.
    change (@hq_ulp b64 (NB2 lm)) with up in UV, FU. clearbody up.
    assert (UP : 0 < B2R up) by (rewrite UV; apply bpow_gt_0).
    assert (Q : B2R z / B2R up = B2R z * bpow radix2 52) by (rewrite UV; unfold Rdiv; rewrite <- bpow_opp; reflexivity).
    assert (P52 : 0 < bpow radix2 52) by apply bpow_gt_0.
    assert (P53 : bpow radix2 53 = 2 * bpow radix2 52) by (change 53%Z with (1 + 52)%Z; rewrite bpow_plus; reflexivity).
    assert (QB : bpow radix2 53 <= B2R z * bpow radix2 52 <= bpow radix2 72) by (split; [|replace 72%Z with (20 + 52)%Z by lia; rewrite bpow_plus]; [rewrite P53|]; apply Rmult_le_compat_r; lra).
    assert (FQ : is_finite (Bdiv mode_NE z up) = true) by (apply quot_ok; [exact F1|lra|]; rewrite Q, Rabs_pos_eq by lra; eapply Rle_trans; [apply QB|apply bpow_le; lia]).
    destruct (div_fin _ _ FQ ltac:(lra)) as (_ & EQ & _). rewrite Q in EQ.
    assert (RB : bpow radix2 53 <= B2R (Bdiv mode_NE z up) <= bpow radix2 72).
    { rewrite EQ. split; [apply rnd_ge_bpow; [lia|apply QB]|]. pose proof (rnd_bd (B2R z * bpow radix2 52) 72 ltac:(lia) ltac:(rewrite Rabs_pos_eq by lra; apply QB)) as X. apply Rabs_le_inv in X. lra. }
    change (fmul sf (fdiv z up)) with (Bmult mode_NE sf (Bdiv mode_NE z up)). set (q := Bdiv mode_NE z up) in *.
    pose proof (bpow_gt_0 radix2 (-1022)) as P1.
    assert (PB : bpow radix2 (-969) <= B2R sf * B2R q <= bpow radix2 (-950)).
    { rewrite VS. split; [replace (-969)%Z with (-1022 + 53)%Z by lia|replace (-950)%Z with (-1022 + 72)%Z by lia]; rewrite bpow_plus; apply Rmult_le_compat_l; lra. }
    pose proof (bpow_gt_0 radix2 (-969)) as P2.
    destruct (mult_ok sf q FS FQ) as (F & E & _); [rewrite Rabs_pos_eq by lra; eapply Rle_trans; [apply PB|apply bpow_le; lia]|].
    split; [exact F|]. rewrite E. split; [apply rnd_ge_bpow; [lia|apply PB]|].
    pose proof (rnd_bd (B2R sf * B2R q) (-950) ltac:(lia) ltac:(rewrite Rabs_pos_eq by lra; apply PB)) as X. apply Rabs_le_inv in X. destruct X as [_ X]. exact X.
  Qed.
  Lemma ulp_ab : ab (hq_ulp : b64) (2 * u64) 0 (2 * u64).
  Proof.
    destruct (ulp2 lm) as (VU & FU). set (up := (hq_ulp : b64)) in *. change (@hq_ulp b64 (NB2 lm)) with up in VU, FU. clearbody up. assert (E : B2R up = 2 * u64).
    { rewrite VU. replace (-52)%Z with (1 + -53)%Z by lia. rewrite bpow_plus. reflexivity. }
    rewrite <- E. apply ab_exact; [exact FU|]. rewrite Rabs_pos_eq; [lra|]. rewrite VU. apply bpow_ge_0.
  Qed.

  Context (B : R) (HB : mid B).
  Lemma bnd_bd (x : b64) : bnd B x -> bd 400 x.
  Proof. intros [F L]. split; [exact F|]. destruct HB as [_ H]. lra. Qed.
  Lemma abs_ab (x : b64) C : bnd C x -> ab (fabs x) (Rabs (B2R x)) 0 C.
  Proof.
    intros [F L]. pose proof (ab_exact (fabs x : b64) C) as X. rewrite (abs_val lm) in X. apply X; [|rewrite Rabs_Rabsolu; exact L].
    change (fabs x) with (Babs x). rewrite is_finite_Babs. exact F.
  Qed.
  Lemma add_bnd a b (x y : b64) : bnd a x -> bnd b y -> a + b <= 1000 * B -> bnd (a + b + / 1000 * (a + b)) (fadd x y).
  Proof.
    intros [Fx Lx] [Fy Ly] H. destruct (mid_facts B HB) as (M0 & UM & UUM & ET & BIG & UMM). pose proof u_tiny as [U0 U1].
    pose proof (Rabs_pos (B2R x)). pose proof (Rabs_pos (B2R y)).
    pose proof (ab_add lm _ _ _ _ _ _ _ _ (ab_exact x a Fx Lx) (ab_exact y b Fy Ly) ltac:(lra)) as X. pose proof (ab_mag _ _ _ _ X) as XM. destruct X as (F & _). split; [exact F|].
    assert (u64 * (a + 0 + (b + 0)) <= / 1000 * (a + b)) by (rewrite !Rplus_0_r; apply Rmult_le_compat_r; lra). eapply Rle_trans; [exact XM|]. lra.
  Qed.
  Lemma abs_bnd C (x : b64) : bnd C x -> bnd C (fabs x).
  Proof. intros [F L]. change (fabs x) with (Babs x). split; [rewrite is_finite_Babs; exact F|]. rewrite B2R_Babs, Rabs_Rabsolu. exact L. Qed.
  Lemma bnd_le C C' (x : b64) : bnd C x -> C <= C' -> bnd C' x.
  Proof. intros [F L] H. split; [exact F|lra]. Qed.

  (** *** the start of the sweep *)
  Lemma can_start_bound (h v : fa b64) m w1 w2 w3 : v3s v w1 w2 w3 -> bnd 1 w1 -> bnd 1 w2 -> bnd 1 w3 ->
    bnd B (get2 h m (m - 1)) -> bnd B (get2 h (m - 1) (m - 1)) -> bnd B (get2 h m m) -> bnd B (get2 h (m + 1) (m + 1)) ->
    hq_can_start h v m = true -> Rabs (B2R (get2 h m (m - 1))) * (Rabs (B2R w2) + Rabs (B2R w3)) <= 20 * (u64 * B).
  Proof.
    intros V W1 W2 W3 X D1 D2 D3 C. unfold hq_can_start in C. destruct (v3s_get _ _ _ _ V) as (E1 & E2 & E3). rewrite E1, E2, E3 in C.
    destruct (mid_facts B HB) as (M0 & UM & UUM & ET & BIG & UMM). pose proof u_tiny as [U0 U1].
    assert (UU : u64 * u64 <= / 1000000000000 * u64) by (apply Rmult_le_compat_r; lra).
    assert (UUUM : u64 * (u64 * (u64 * B)) <= u64 * (u64 * B)) by (assert (0 <= u64 * (u64 * B)) by (apply Rmult_le_pos; lra); nra).
    assert (ETA : eta64 <= u64 * u64) by (unfold eta64, u64; rewrite <- bpow_plus; apply bpow_le; lia). pose proof eta64_pos.
    assert (BG : 10 <= bpow radix2 1023) by (apply Rle_trans with (bpow radix2 4); [change (bpow radix2 4) with 16; lra|apply bpow_le; lia]).
    assert (P : ab (fadd (fabs w2) (fabs w3)) (Rabs (B2R w2) + Rabs (B2R w3)) (2 * u64) 2).
    { eapply ab_weak; [eapply (ab_add lm); [apply abs_ab; exact W2|apply abs_ab; exact W3|]| |]; lra. }
    assert (Q : ab (fmul (fabs (get2 h m (m - 1))) (fadd (fabs w2) (fabs w3))) (Rabs (B2R (get2 h m (m - 1))) * (Rabs (B2R w2) + Rabs (B2R w3))) (5 * (u64 * B)) (2 * B)).
    { eapply ab_weak; [eapply (ab_mul lm); [apply abs_ab; exact X|exact P|]| |]; lra. }
    assert (R1 : ab (fmul hq_ulp (fabs w1)) (2 * u64 * Rabs (B2R w1)) u64 (2 * u64)).
    { eapply ab_weak; [eapply (ab_mul lm); [exact ulp_ab|apply abs_ab; exact W1|]| |]; lra. }
    assert (S : bnd (4 * B) (fadd (fadd (fabs (get2 h (m - 1) (m - 1))) (fabs (get2 h m m))) (fabs (get2 h (m + 1) (m + 1))))).
    { eapply bnd_le; [apply add_bnd; [apply add_bnd; [apply abs_bnd; exact D1|apply abs_bnd; exact D2|lra]|apply abs_bnd; exact D3|lra]|lra]. }
    set (sm := fadd (fadd _ _) _) in *. clearbody sm.
    assert (R2 : ab (fmul (fmul hq_ulp (fabs w1)) sm) (2 * u64 * Rabs (B2R w1) * B2R sm) (5 * (u64 * B)) (8 * (u64 * B))).
    { eapply ab_weak; [eapply (ab_mul lm); [exact R1|apply ab_exact; [apply S|apply S]|]| |]; lra. }
    apply leb_val in C; [|apply Q|apply R2]. destruct Q as (_ & Q & _). apply ab_elim in Q. pose proof (ab_mag _ _ _ _ R2) as R3. apply Rabs_le_inv in R3. lra.
  Qed.

  Lemma block_bd (h : fa b64) l i kd : (forall a b, (l <= a <= i)%Z -> (l <= b <= i)%Z -> bnd B (get2 h a b)) -> (l + 2 <= i)%Z ->
    let '(a, b, c, d) := hq_block h l i kd in bd 402 a /\ bd 402 b /\ bd 402 c /\ bd 402 d.
  Proof.
    intros H Hi. assert (HD : forall a b, (l <= a <= i)%Z -> (l <= b <= i)%Z -> bd 400 (get2 h a b)) by (intros; apply bnd_bd, H; assumption).
    assert (EX : forall p q r : b64, bd 400 p -> bd 400 q -> bd 400 r -> let s := fadd (fabs p) (fabs q) in
      bd 402 (fadd (fmul (fdiv (fofZ 3) (fofZ 4)) s) r) /\ bd 402 s /\ bd 402 (fmul (fdy (-7) (-4)) s)).
    { intros p q r Hp Hq Hr s. assert (S : bd 401 s) by (apply (bd_add lm 400); [apply (bd_abs lm), Hp|apply (bd_abs lm), Hq|lia]).
      split; [|split].
      - apply (bd_add lm 401); [apply (bd_mul lm 0 401); [exact dat1_bd|exact S|lia]|apply (bd_weak 400); [exact Hr|lia]|lia].
      - apply (bd_weak 401); [exact S|lia].
      - apply (bd_weak 401); [apply (bd_mul lm 0 401); [exact dat2_bd|exact S|lia]|lia]. }
    unfold hq_block. cbv zeta. destruct (Z.rem kd 20 =? 0)%Z; [|destruct (Z.rem kd 10 =? 0)%Z].
    - destruct (EX (get2 h i (i - 1)) (get2 h (i - 1) (i - 2)) (get2 h i i)) as (E1 & E2 & E3); [apply HD; lia|apply HD; lia|apply HD; lia|]. auto.
    - destruct (EX (get2 h (l + 1) l) (get2 h (l + 2) (l + 1)) (get2 h l l)) as (E1 & E2 & E3); [apply HD; lia|apply HD; lia|apply HD; lia|]. auto.
    - refine (conj _ (conj _ (conj _ _))); (apply (bd_weak 400); [apply HD; lia|lia]).
  Qed.

  Lemma start64 (h : fa b64) l i kd m0 v0 : (forall a b, (l <= a <= i)%Z -> (l <= b <= i)%Z -> bnd B (get2 h a b)) -> (l + 2 <= i)%Z -> three v0 ->
    (forall a, (l < a <= i)%Z -> B2R (get2 h a (a - 1)) <> 0) ->
    exists m v w1 w2 w3, hq_start h (hq_shifts (hq_block h l i kd)) l i m0 v0 = (m, v) /\ (l <= m <= i - 2)%Z /\ v3s v w1 w2 w3 /\
      ((m = l /\ w1 = B754_nan /\ w2 = B754_nan /\ w3 = B754_nan) \/
       (bnd 1 w1 /\ bnd 1 w2 /\ bnd 1 w3 /\ / 4 <= B2R w1 * B2R w1 + B2R w2 * B2R w2 + B2R w3 * B2R w3 /\
        (m = l \/ B2R (get2 h m (m - 1)) * B2R (get2 h m (m - 1)) * (B2R w2 * B2R w2 + B2R w3 * B2R w3) <= (B2R w1 * B2R w1 + B2R w2 * B2R w2 + B2R w3 * B2R w3) * (delta B * delta B)))).
  Proof.
    intros H Hi T0 NZ. pose proof (block_bd h l i kd H Hi) as BB. destruct (hq_block h l i kd) as [[[b1 b2] b3] b4]. destruct BB as (BB1 & BB2 & BB3 & BB4).
    pose proof (shifts_bd lm 402 b1 b2 b3 b4 ltac:(lia) BB1 BB2 BB3 BB4) as SB. change (NBst lm) with NBpk in SB.
    destruct (hq_shifts (b1, b2, b3, b4)) as [[[r1 i1] r2] i2]. destruct SB as (SB1 & SB2 & SB3 & SB4). change (402 + 6)%Z with 408%Z in *.
    destruct (start_gen h (r1, i1, r2, i2) l i m0 v0 ltac:(lia) T0) as (v1 & T1 & G). destruct (hq_start h (r1, i1, r2, i2) l i m0 v0) as [m v]. destruct G as (Hm & EV & ST).
    destruct (v3s_of v1 T1) as (x1 & x2 & x3 & V1).
    pose proof (firstcol_get h v1 r1 i1 r2 i2 m x1 x2 x3 V1) as V. cbv zeta in V. rewrite <- EV in V.
    assert (HD : forall a b, (l <= a <= i)%Z -> (l <= b <= i)%Z -> bd 400 (get2 h a b)) by (intros; apply bnd_bd, H; assumption).
    pose proof (HD m m ltac:(lia) ltac:(lia)) as D1. pose proof (HD (m + 1)%Z m ltac:(lia) ltac:(lia)) as D2. pose proof (HD m (m + 1)%Z ltac:(lia) ltac:(lia)) as D3.
    pose proof (HD (m + 1)%Z (m + 1)%Z ltac:(lia) ltac:(lia)) as D4. pose proof (HD (m + 2)%Z (m + 1)%Z ltac:(lia) ltac:(lia)) as D5.
    pose proof (NZ (m + 1)%Z ltac:(lia)) as N1. replace (m + 1 - 1)%Z with m in N1 by lia.
    set (s := fadd (fadd (fabs (fsub (get2 h m m) r2)) (fabs i2)) (fabs (get2 h (m + 1) m))) in *.
    assert (X1 : bd 409 (fsub (get2 h m m) r2)) by (apply (bd_sub lm 408); [apply (bd_weak 400); [exact D1|lia]|exact SB3|lia]).
    assert (X2 : bd 409 (fsub (get2 h m m) r1)) by (apply (bd_sub lm 408); [apply (bd_weak 400); [exact D1|lia]|exact SB1|lia]).
    assert (S1 : bd 410 (fadd (fabs (fsub (get2 h m m) r2)) (fabs i2))) by (apply (bd_add lm 409); [apply (bd_abs lm), X1|apply (bd_weak 408); [apply (bd_abs lm), SB4|lia]|lia]).
    assert (S2 : bd 411 s) by (apply (bd_add lm 410); [exact S1|apply (bd_weak 400); [apply (bd_abs lm), D2|lia]|lia]).
    destruct (add_ge lm _ _ (proj1 (bd_abs lm _ _ X1)) (proj1 (bd_abs lm _ _ SB4)) (proj1 S1)) as [G1 G2]; [rewrite abs_val; apply Rabs_pos|rewrite abs_val; apply Rabs_pos|].
    assert (P1 : 0 <= B2R (fadd (fabs (fsub (get2 h m m) r2)) (fabs i2))) by (eapply Rle_trans; [|exact G1]; rewrite abs_val; apply Rabs_pos).
    destruct (add_ge lm _ _ (proj1 S1) (proj1 (bd_abs lm _ _ D2)) (proj1 S2) P1) as [G3 G4]; [rewrite abs_val; apply Rabs_pos|].
    change (NBst lm) with NBpk in *. fold s in G3, G4. rewrite (abs_val lm) in G1, G2, G4. change (NBst lm) with NBpk in *.
    assert (SP : 0 < B2R s) by (apply Rabs_pos_lt in N1; lra). assert (PS : Rabs (B2R s) = B2R s) by (apply Rabs_pos_eq; lra).
    assert (Q1 : bd 0 (fdiv (get2 h (m + 1) m) s)) by (apply (bd_div1 lm); [apply D2|lra|lra]).
    assert (Q2 : bd 0 (fdiv (fsub (get2 h m m) r2) s)) by (apply (bd_div1 lm); [apply X1|lra|lra]).
    assert (Q3 : bd 0 (fdiv i2 s)) by (apply (bd_div1 lm); [apply SB4|lra|lra]).
    clearbody s. set (q1 := fdiv (get2 h (m + 1) m) s) in *. set (q2 := fdiv (fsub (get2 h m m) r2) s) in *. set (q3 := fdiv i2 s) in *. clearbody q1 q2 q3.
    assert (A1 : bd 411 (fsub (fadd (fmul q1 (get2 h m (m + 1))) (fmul (fsub (get2 h m m) r1) q2)) (fmul i1 q3))).
    { apply (bd_sub lm 410); [|apply (bd_weak 408); [apply (bd_mul lm 408 0); [exact SB2|exact Q3|lia]|lia]|lia].
      apply (bd_add lm 409); [apply (bd_weak 400); [apply (bd_mul lm 0 400); [exact Q1|exact D3|lia]|lia]|apply (bd_mul lm 409 0); [exact X2|exact Q2|lia]|lia]. }
    assert (A2 : bd 411 (fmul q1 (fsub (fsub (fadd (get2 h m m) (get2 h (m + 1) (m + 1))) r1) r2))).
    { apply (bd_weak 410); [|lia]. apply (bd_mul lm 0 410); [exact Q1| |lia]. apply (bd_sub lm 409); [|apply (bd_weak 408); [exact SB3|lia]|lia].
      apply (bd_sub lm 408); [|exact SB1|lia]. apply (bd_weak 401); [|lia]. apply (bd_add lm 400); [exact D1|exact D4|lia]. }
    assert (A3 : bd 411 (fmul q1 (get2 h (m + 2) (m + 1)))) by (apply (bd_weak 400); [apply (bd_mul lm 0 400); [exact Q1|exact D5|lia]|lia]).
    set (a1 := fsub _ (fmul i1 q3)) in *. set (a2 := fmul q1 (fsub _ r2)) in *. set (a3 := fmul q1 (get2 h (m + 2) (m + 1))) in *. clearbody a1 a2 a3.
    pose proof (norm3 lm 411 a1 a2 a3 ltac:(lia) A1 A2 A3) as NM. cbv zeta in NM. change (NBst lm) with NBpk in NM.
    set (t := fadd (fadd (fabs a1) (fabs a2)) (fabs a3)) in *. clearbody t.
    do 5 eexists. split; [reflexivity|]. split; [exact Hm|]. split; [exact V|].
    destruct NM as [(N2 & N3 & N4)|(W1 & W2 & W3 & WW)].
    - left. split; [|auto]. destruct ST as [|ST]; [assumption|]. exfalso. unfold hq_can_start in ST. destruct (v3s_get _ _ _ _ V) as (E1 & _ & _). rewrite E1, N2 in ST.
      change (fabs (B754_nan : b64)) with (B754_nan : b64) in ST.
      assert (NN : forall p q : b64, fmul (fmul p (B754_nan : b64)) q = (B754_nan : b64)) by (intros p q; destruct p as [[]|[]| |[]], q as [[]|[]| |[]]; reflexivity).
      rewrite NN, le_nan in ST. discriminate ST.
    - right. split; [exact W1|]. split; [exact W2|]. split; [exact W3|]. split; [exact WW|]. destruct ST as [|ST]; [left; assumption|].
      destruct (Z.eq_dec m l) as [|Nl]; [left; assumption|right].
      pose proof (can_start_bound h v m _ _ _ V W1 W2 W3 (H m (m - 1)%Z ltac:(lia) ltac:(lia)) (H (m - 1)%Z (m - 1)%Z ltac:(lia) ltac:(lia)) (H m m ltac:(lia) ltac:(lia)) (H (m + 1)%Z (m + 1)%Z ltac:(lia) ltac:(lia)) ST) as CS.
      set (X := B2R (get2 h m (m - 1))) in *. set (w1 := B2R (fdiv a1 t)) in *. set (w2 := B2R (fdiv a2 t)) in *. set (w3 := B2R (fdiv a3 t)) in *.
      destruct (mid_facts B HB) as (M0 & UM & _). rewrite delta_u. set (e := u64 * B) in *. clearbody e X w1 w2 w3. clear - CS WW UM.
      pose proof (Rabs_pos X) as X0. pose proof (Rabs_pos w2) as Y2. pose proof (Rabs_pos w3) as Y3.
      assert (SQ : forall y, Rabs y * Rabs y = y * y) by (intros y; rewrite <- Rabs_mult; apply Rabs_pos_eq, Rle_0_sqr).
      rewrite <- (SQ w2), <- (SQ w3) in WW. rewrite <- (SQ X), <- (SQ w2), <- (SQ w3). set (x := Rabs X) in *. set (y2 := Rabs w2) in *. set (y3 := Rabs w3) in *.
      assert (C2 : (x * (y2 + y3)) * (x * (y2 + y3)) <= (20 * e) * (20 * e)) by (apply Rmult_le_compat; [nra|nra|exact CS|exact CS]).
      apply Rle_trans with ((20 * e) * (20 * e)).
      + eapply Rle_trans; [|exact C2]. replace (x * (y2 + y3) * (x * (y2 + y3))) with (x * x * ((y2 + y3) * (y2 + y3))) by ring. apply Rmult_le_compat_l; [apply Rle_0_sqr|nra].
      + apply Rle_trans with (/ 4 * (1024 * e * (1024 * e))); [nra|]. apply Rmult_le_compat_r; [apply Rle_0_sqr|exact WW].
  Qed.

  (** *** small subdiagonal entries *)
  Lemma small64_true ilo ihi (h : fa b64) k : (2 <= ihi - ilo + 1 <= 2 ^ 20)%Z -> bpow radix2 (-950) <= delta B -> (ilo < k <= ihi)%Z ->
    (forall a b, (ilo <= a <= ihi)%Z -> (ilo <= b <= a)%Z -> bnd B (get2 h a b)) -> hq_small ilo ihi h k = true -> Rabs (B2R (get2 h k (k - 1))) <= delta B.
  Proof.
    intros Hn HS Hk H C. destruct (smlnum_range ilo ihi Hn) as (FS & LS & US). destruct (mid_facts B HB) as (M0 & UM & UUM & ET & BIG & UMM). pose proof u_tiny as [U0 U1].
    pose proof (H k (k - 1)%Z ltac:(lia) ltac:(lia)) as [FX LX]. assert (FA : is_finite (fabs (get2 h k (k - 1))) = true) by (change (fabs (get2 h k (k - 1))) with (Babs (get2 h k (k - 1))); rewrite is_finite_Babs; exact FX).
    unfold hq_small in C. destruct (fle (fabs (get2 h k (k - 1))) (hq_smlnum ilo ihi)) eqn:C1.
    - apply leb_val in C1; [|exact FA|exact FS]. rewrite (abs_val lm) in C1. lra.
    - clear C1. cbv zeta in C. revert C. set (tst := if feq _ _ then _ else _). intros C.
      assert (T : bnd (5 * B) tst).
      { pose proof (H (k - 1)%Z (k - 1)%Z ltac:(lia) ltac:(lia)) as B1. pose proof (H k k ltac:(lia) ltac:(lia)) as B2.
        assert (T0 : bnd (2.01 * B) (fadd (fabs (get2 h (k - 1) (k - 1))) (fabs (get2 h k k)))).
        { eapply bnd_le; [apply add_bnd; [apply abs_bnd; exact B1|apply abs_bnd; exact B2|lra]|lra]. }
        unfold tst. set (t0 := fadd _ _) in *. clearbody t0. destruct (feq t0 f0); [|eapply bnd_le; [exact T0|lra]].
        assert (T1 : bnd (3.02 * B) (if (ilo <=? k - 2)%Z then fadd t0 (fabs (get2 h (k - 1) (k - 2))) else t0)).
        { destruct (Z.leb_spec ilo (k - 2)); [|eapply bnd_le; [exact T0|lra]]. eapply bnd_le; [apply add_bnd; [exact T0|apply abs_bnd, H; lia|lra]|lra]. }
        set (t1 := if (ilo <=? k - 2)%Z then _ else _) in *. clearbody t1.
        destruct (Z.leb_spec (k + 1) ihi); [|eapply bnd_le; [exact T1|lra]]. eapply bnd_le; [apply add_bnd; [exact T1|apply abs_bnd, H; lia|lra]|lra]. }
      clearbody tst. destruct (fle (fabs (get2 h k (k - 1))) (fmul hq_ulp tst)) eqn:C1; [|discriminate C].
      assert (UUUM : u64 * (u64 * (u64 * B)) <= u64 * (u64 * B)) by (assert (0 <= u64 * (u64 * B)) by (apply Rmult_le_pos; lra); nra).
      assert (UU : u64 * u64 <= / 1000000000000 * u64) by (apply Rmult_le_compat_r; lra).
      assert (P : ab (fmul hq_ulp tst) (2 * u64 * B2R tst) (10 * (u64 * B)) (10 * (u64 * B))).
      { eapply ab_weak; [eapply (ab_mul lm); [exact ulp_ab|apply ab_exact; [apply T|apply T]|]| |]; lra. }
      apply leb_val in C1; [|exact FA|apply P]. rewrite (abs_val lm) in C1. pose proof (ab_mag _ _ _ _ P) as R3. apply Rabs_le_inv in R3. rewrite delta_u. lra.
  Qed.
  Lemma small64_false ilo ihi (h : fa b64) k : (2 <= ihi - ilo + 1 <= 2 ^ 20)%Z -> is_finite (get2 h k (k - 1)) = true -> hq_small ilo ihi h k = false -> bpow radix2 (-969) <= Rabs (B2R (get2 h k (k - 1))).
  Proof.
    intros Hn FX C. destruct (smlnum_range ilo ihi Hn) as (FS & LS & US). unfold hq_small in C.
    destruct (fle (fabs (get2 h k (k - 1))) (hq_smlnum ilo ihi)) eqn:C1; [discriminate C|].
    apply leb_nval in C1; [|change (fabs (get2 h k (k - 1))) with (Babs (get2 h k (k - 1))); rewrite is_finite_Babs; exact FX|exact FS].
    rewrite (abs_val lm) in C1. lra.
  Qed.
End Pick.
