(** One step of dlaqr5's sweep in binary64, from what each stage does to the array. *)
From Coq Require Import Reals Lra.
From Flocq Require Import IEEE754.BinarySingleNaN Core.
From Verif Require Import Base Num Array Blas Lapack Dlaqr5 Spec SpecR SpecErr SpecSim B64 B64Lemmas B64Nn RsumLemmas RoundErr Near
  FaLemmas LahqrProofs RealMat SimArray SimSweep LanvCalc LanvStd HqReal HqGet HqErrApp HqErrReal HqErrStep HqErrSweep Q5ErrReal.
Open Scope R_scope.

Section Step5.
  Context (lm : libm).
  #[local] Instance NB5s : Num b64 := B64 lm.
  Context (n lo hi l i : Z).
  Hypothesis (Hlo : (1 <= lo)%Z) (Hhi : (hi <= n)%Z) (Hl : (lo <= l)%Z) (Hi : (i <= hi)%Z).
  Notation inr a := (lo <= a <= hi)%Z.
  Notation mm := (mmul lo hi).
  Context (A : Z -> Z -> R) (N y Xm : R).
  Notation d4 := (delta (4 * N)).
  Notation d := (2 * d4).
  Hypothesis (HN : mid (4 * N)) (HA : frob2 lo hi A <= N * N).
  Hypothesis (Hy : 0 < y) (HY : 3 * (IZR (hi - lo + 1) * (d * d)) <= y * y) (HX : Xm * (2 * y) <= N).
  Context (x : R) (c : Z) (hc h1 h2 h3 hn : fa b64) (G Q : Z -> Z -> R) (w2 w3 t : R).
  Notation M h := (fun a b : Z => B2R (get2 h a b)).
  Notation r := (Z.min i (c + 2)).
  Notation P := (refl t (wvec c w2 w3)).
  Hypothesis (Hc : (l <= c < i)%Z) (HV : (c + 2 <= i)%Z \/ w3 = 0) (HH : house w2 w3 t) (Hx : 0 <= x <= Xm).
  Hypothesis (HC : chase lo hi l i c G) (SI : simf lo hi A (x * (2 * y)) G Q).
  Hypothesis (I0 : forall a b, inr a -> inr b -> is_finite (get2 hc a b) = true /\ B2R (get2 hc a b) = G a b).
  (** the column stored *)
  Hypothesis (O1 : forall a b, inr a -> inr b -> ~ (l < c /\ b = c - 1 /\ c <= a <= r)%Z -> get2 h1 a b = get2 hc a b).
  Hypothesis (K1 : forall a, (l < c)%Z -> (c <= a <= r)%Z -> near_r (get2 h1 a (c - 1)) (rleft c w2 w3 t G a (c - 1)%Z) d4 /\ ((c < a)%Z -> B2R (get2 h1 a (c - 1)) = 0)).
  (** the columns *)
  Hypothesis (R1 : forall a b, (lo <= a <= r)%Z -> (c <= b <= r)%Z -> (forall e, (c <= e <= r)%Z -> bnd (4 * N) (get2 h1 a e)) ->
    near_r (get2 h2 a b) (rright c w2 w3 t (M h1) a b) d4).
  Hypothesis (R2 : forall a b, inr a -> inr b -> ~ ((lo <= a <= r)%Z /\ (c <= b <= r)%Z) -> get2 h2 a b = get2 h1 a b).
  (** the rows, and the deflation test *)
  Hypothesis (L1 : forall a b, (c <= a <= r)%Z -> (c <= b <= hi)%Z -> (forall e, (c <= e <= r)%Z -> bnd (4 * N) (get2 h2 e b)) ->
    near_r (get2 h3 a b) (rleft c w2 w3 t (M h2) a b) d4).
  Hypothesis (L2 : forall a b, inr a -> inr b -> ~ ((c <= a <= r)%Z /\ (c <= b <= hi)%Z) -> ~ (l < c /\ a = c /\ b = c - 1)%Z -> get2 h3 a b = get2 h2 a b).
  Hypothesis (L3 : (l < c)%Z -> get2 h3 c (c - 1) = get2 h2 c (c - 1) \/ zf (get2 h3 c (c - 1)) /\ Rabs (B2R (get2 h2 c (c - 1))) <= d4).
  (** row c+3 as the next step will make it *)
  Hypothesis (C1 : forall b, (c + 3 <= i)%Z -> (c <= b <= c + 2)%Z -> near_r (get2 hn (c + 3) b) (rright c w2 w3 t G (c + 3)%Z b) d4).
  Hypothesis (C2 : forall a b, inr a -> inr b -> ~ (a = c + 3 /\ c + 3 <= i /\ c <= b <= c + 2)%Z -> get2 hn a b = get2 h3 a b).

  Lemma d4_pos : 0 <= d4 <= N.
  Proof. apply (delta_N N HN). Qed.
  Lemma GB a b : inr a -> inr b -> Rabs (G a b) <= 2 * N.
  Proof. apply (G_bound lo hi A N y Xm HN HA Hy HX x G Q Hx SI). Qed.
  Lemma RB a b : inr a -> inr b -> Rabs (rright c w2 w3 t G a b) <= 2 * N.
  Proof.
    intros Ha Hb. pose proof (N_pos N HN). apply (frob_bound lo hi); [assumption|assumption|lra|].
    rewrite (rrG_frob lo hi l i Hl Hi c G w2 w3 t Hc HV HH). apply (sim_bound lo hi A N y Xm HN HA Hy HX x G Q SI Hx).
  Qed.
  Lemma LB a b : inr a -> inr b -> Rabs (rleft c w2 w3 t G a b) <= 2 * N.
  Proof.
    intros Ha Hb. pose proof (N_pos N HN). apply (frob_bound lo hi); [assumption|assumption|lra|].
    rewrite (step_L_frob lo hi l i Hl Hi c G w2 w3 t Hc HV HH). apply (sim_bound lo hi A N y Xm HN HA Hy HX x G Q SI Hx).
  Qed.
  Lemma near_bnd z q : near_r z q d4 -> Rabs q <= 2 * N -> bnd (4 * N) z.
  Proof.
    intros [F E] L. split; [exact F|]. pose proof d4_pos. pose proof (N_pos N HN). replace (B2R z) with (q + (B2R z - q)) by ring.
    eapply Rle_trans; [apply Rabs_triang|]. lra.
  Qed.
  Lemma in_c a b : inr a -> inr b -> (c <= b)%Z -> is_finite (get2 h1 a b) = true /\ B2R (get2 h1 a b) = G a b.
  Proof. intros Ha Hb Hcb. rewrite O1 by lia. apply I0; assumption. Qed.
  Lemma in_bnd a b : inr a -> inr b -> (c <= b)%Z -> bnd (4 * N) (get2 h1 a b).
  Proof. intros Ha Hb Hcb. destruct (in_c a b Ha Hb Hcb) as [F E]. split; [exact F|]. rewrite E. pose proof (GB a b Ha Hb). pose proof (N_pos N HN). lra. Qed.
  Lemma right_near a b : (lo <= a <= r)%Z -> (c <= b <= r)%Z -> near_r (get2 h2 a b) (rright c w2 w3 t G a b) d4.
  Proof.
    intros Ha Hb. replace (rright c w2 w3 t G a b) with (rright c w2 w3 t (M h1) a b).
    - apply R1; [exact Ha|exact Hb|]. intros e He. apply in_bnd; lia.
    - unfold rright. rewrite (proj2 (in_c a c ltac:(lia) ltac:(lia) ltac:(lia))), (proj2 (in_c a (c + 1) ltac:(lia) ltac:(lia) ltac:(lia)))%Z, (proj2 (in_c a b ltac:(lia) ltac:(lia) ltac:(lia))).
      destruct HV as [HV'|E]; [rewrite (proj2 (in_c a (c + 2) ltac:(lia) ltac:(lia) ltac:(lia)))%Z; reflexivity|rewrite E; ring].
  Qed.
  Lemma h2_bnd a b : (c <= a <= r)%Z -> (c <= b <= hi)%Z -> bnd (4 * N) (get2 h2 a b).
  Proof.
    intros Ha Hb. destruct (Z_le_gt_dec b r).
    - eapply near_bnd; [apply right_near; lia|apply RB; lia].
    - rewrite R2 by lia. apply in_bnd; lia.
  Qed.
  (** entries of column c-1 *)
  Lemma col_near a : (l < c)%Z -> (c <= a <= r)%Z -> near_r (get2 hn a (c - 1)) (rleft c w2 w3 t G a (c - 1)%Z) d /\ ((c < a)%Z -> B2R (get2 hn a (c - 1)) = 0).
  Proof.
    intros Lc Ha. destruct (K1 a Lc Ha) as [[F E] Z0]. pose proof d4_pos. rewrite C2 by lia.
    destruct (Z.eq_dec a c) as [->|NE].
    - split; [|lia]. assert (E21 : get2 h2 c (c - 1) = get2 h1 c (c - 1)) by (apply R2; lia). rewrite E21 in L3. destruct (L3 Lc) as [-> | [[FZ EZ] SM]].
      + split; [exact F|]. lra.
      + split; [exact FZ|]. rewrite EZ. replace (0 - rleft c w2 w3 t G c (c - 1)%Z) with ((B2R (get2 h1 c (c - 1)) - rleft c w2 w3 t G c (c - 1)%Z) + - B2R (get2 h1 c (c - 1))) by ring.
        eapply Rle_trans; [apply Rabs_triang|]. rewrite Rabs_Ropp. lra.
    - rewrite L2, R2 by lia. split; [|exact Z0]. split; [exact F|]. lra.
  Qed.
  Lemma left_near a b : (c <= a <= r)%Z -> (c <= b <= hi)%Z -> near_r (get2 hn a b) (rleft c w2 w3 t (M h2) a b) d4.
  Proof. intros Ha Hb. rewrite C2 by lia. apply L1; [exact Ha|exact Hb|]. intros e He. apply h2_bnd; lia. Qed.
  Lemma rest a b : inr a -> inr b -> (a < c \/ r < a \/ b < c)%Z -> ~ (l < c /\ b = c - 1 /\ c <= a <= r)%Z -> ~ (a = c + 3 /\ c + 3 <= i /\ c <= b <= c + 2)%Z -> get2 hn a b = get2 h2 a b.
  Proof. intros Ha Hb H1 H2 H3. rewrite C2 by lia. apply L2; lia. Qed.

  Lemma step5_fin a b : inr a -> inr b -> is_finite (get2 hn a b) = true.
  Proof.
    intros Ha Hb. destruct (Z_lt_le_dec b c) as [X|X].
    - destruct (Z_lt_le_dec l c) as [Lc|Lc]; [destruct (Z.eq_dec b (c - 1)) as [->|]; [destruct (Z_le_gt_dec c a); [destruct (Z_le_gt_dec a r); [apply (col_near a Lc); lia|]|]|]|];
        rewrite rest, R2, O1 by lia; apply I0; assumption.
    - destruct (Z_lt_le_dec a c) as [Y|Y].
      + rewrite rest by lia. destruct (Z_le_gt_dec b r); [apply right_near; lia|]. rewrite R2 by lia. apply in_c; lia.
      + destruct (Z_le_gt_dec a r); [apply left_near; lia|].
        destruct (Z.eq_dec a (c + 3)) as [->|]; [destruct (Z_le_gt_dec (c + 3) i); [destruct (Z_le_gt_dec b (c + 2)); [apply C1; lia|]|]|];
          rewrite rest, R2 by lia; apply in_c; lia.
  Qed.
  Lemma step5 : simf lo hi A ((x + 1) * (2 * y)) (M hn) (mm Q P) /\ chase lo hi l i (c + 1) (M hn).
  Proof.
    pose proof d4_pos as DP.
    assert (E1 : forall a b, (lo <= a <= r)%Z -> (c <= b <= r)%Z -> Rabs (M h2 a b - rright c w2 w3 t G a b) <= d) by (intros a b Ha Hb; destruct (right_near a b Ha Hb) as [_ E]; lra).
    assert (E2 : forall a b, (lo <= a <= r)%Z -> (r < b <= hi)%Z -> M h2 a b = G a b) by (intros a b Ha Hb; cbn beta; rewrite R2 by lia; apply in_c; lia).
    assert (E3 : forall a b, (c <= a <= r)%Z -> (c <= b <= hi)%Z -> Rabs (M hn a b - rleft c w2 w3 t (M h2) a b) <= d) by (intros a b Ha Hb; destruct (left_near a b Ha Hb) as [_ E]; lra).
    assert (E4 : forall a b, (lo <= a < c)%Z -> (c <= b <= hi)%Z -> M hn a b = M h2 a b) by (intros a b Ha Hb; cbn beta; rewrite rest by lia; reflexivity).
    assert (E5 : forall b, (c + 3 <= i)%Z -> (c <= b <= c + 2)%Z -> Rabs (M hn (c + 3)%Z b - rright c w2 w3 t G (c + 3)%Z b) <= d) by (intros b Hc3 Hb; destruct (C1 b Hc3 Hb) as [_ E]; lra).
    assert (E6 : forall a b, (r < a <= hi)%Z -> (c <= b <= hi)%Z -> ~ (a = c + 3 /\ c + 3 <= i /\ b <= c + 2)%Z -> M hn a b = G a b) by (intros a b Ha Hb Hn; cbn beta; rewrite rest, R2 by lia; apply in_c; lia).
    assert (E7 : forall a b, inr a -> inr b -> (b < c)%Z -> ~ (l < c /\ b = c - 1 /\ c <= a <= r)%Z -> M hn a b = G a b) by (intros a b Ha Hb Hbc Hn; cbn beta; rewrite rest, R2, O1 by lia; apply I0; assumption).
    assert (E8 : forall a, (l < c)%Z -> (c <= a <= r)%Z -> Rabs (M hn a (c - 1)%Z - rleft c w2 w3 t G a (c - 1)%Z) <= d /\ ((c < a)%Z -> M hn a (c - 1)%Z = 0)) by (intros a Lc Ha; destruct (col_near a Lc Ha) as [[_ E] Z0]; split; assumption).
    split.
    - replace ((x + 1) * (2 * y)) with (x * (2 * y) + 2 * y) by ring.
      apply (stepg_simf lo hi l i Hl Hi c G w2 w3 t HC Hc HV HH (M h2) (M hn) d y ltac:(lra) E1 E2 E3 E4 E5 E6 E7 E8 Hy HY); [exact SI|]. apply Rmult_le_pos; lra.
    - apply (stepg_chase lo hi l i c G w2 w3 t HC Hc (M hn) d E6 E7 E8).
  Qed.
End Step5.
