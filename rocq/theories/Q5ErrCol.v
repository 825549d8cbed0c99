(** The starting vector of dlaqr5 in binary64: the first reflector maps the first unit vector close to the direction of the
    first column of (H - s1)(H - s2). *)
From Coq Require Import Reals Lra Ascii.
From Flocq Require Import IEEE754.BinarySingleNaN Core.
From Verif Require Import Base Num Array Blas Lapack Dlaqr5 Spec ER SpecR SpecErr SpecShift SpecSim Lists B64 B64Lemmas B64Nn RsumLemmas RoundErr AppErr Near
  FaLemmas LahqrProofs Laqr1Proofs Laqr1Err Laqr5Proofs RealMat SimLoop LanvCalc LanvStd LanvRot HqErrApp HqErrRefl.
Open Scope R_scope.

Section Col.
  Context (lm : libm).
  #[local] Instance NB5c : Num b64 := B64 lm.
  Context (N : R) (N0 : 0 < N) (NL : bpow radix2 (-890) <= N) (NU : N <= bpow radix2 1000).

  Lemma sq_le a b c d : 0 <= a <= c -> 0 <= b <= d -> a * b <= c * d.
  Proof. intros. apply Rmult_le_compat; lra. Qed.

  Lemma Rs22 f : Rsum_range f 2 2 = f 2%Z.
  Proof. change (f 2%Z + 0 = f 2%Z). ring. Qed.
  Lemma Rs23 f : Rsum_range f 2 3 = f 2%Z + f 3%Z.
  Proof. change (f 2%Z + (f 3%Z + 0) = f 2%Z + f 3%Z). ring. Qed.

  (** the vector dlaqr1 leaves, times one number, is close to the exact column *)
  Lemma shift_near m (l lv : list b64) ldh hf (r : fa b64) (p : Z -> b64) H (sr1 si1 sr2 si2 : b64) : (m = 2 \/ m = 3)%Z -> to_fa_2d l ldh = Ok hf ->
    (forall i j, (1 <= i <= m)%Z -> (1 <= j <= m)%Z -> ent hf i j = Some (get2 hf i j) /\ bnd N (get2 hf i j) /\ B2R (get2 hf i j) = H i j) ->
    (m <= zlen lv)%Z -> bnd N sr1 -> bnd N si1 -> bnd N sr2 -> bnd N si2 -> 0 < Rabs (H 2%Z 1%Z) ->
    dlaqr1 m l ldh sr1 si1 sr2 si2 lv = Ok (vec_of_fa r) -> (forall i, (1 <= i <= m)%Z -> elem r i = Some (p i)) ->
    exists sigma, 0 < sigma <= 5.01 * N /\ forall i, (1 <= i <= m)%Z ->
      Rabs (sigma * B2R (p i) - fst (shift_column m H (B2R sr1, B2R si1) (B2R sr2, B2R si2) i)) <= bpow radix2 (-45) * (N * N).
  Proof.
    intros Hm EL HE CL S1 S2 S3 S4 H21 ED EP.
    destruct (dlaqr1_err lm (list b64) (list b64) _ _ _ m l ldh hf sr1 si1 sr2 si2 lv H N Hm EL) as (r' & sigma & E & _ & _ & SP & SC & EY).
    { intros i j Hi Hj. destruct (HE i j Hi Hj) as (X1 & X2 & X3). exists (get2 hf i j). split; [exact X1|exact X3]. }
    { intros i j Hi Hj. destruct (HE i j Hi Hj) as (X1 & [X2 X2'] & X3). exists (get2 hf i j). split; [exact X1|]. split; [exact X2|exact X2']. }
    { exact NU. }
    { repeat (apply Forall_cons; [first [exact S1|exact S2|exact S3|exact S4]|]). apply Forall_nil. }
    { exact CL. }
    change (Laqr1Err.NBt lm) with NB5c in *.
    assert (ER : forall q, elem r' q = elem r q).
    { intros q. rewrite E in ED. cbn [from_fa FromFA_vec] in ED. injection ED as ED. rewrite !elem_zget. f_equal. exact ED. }
    assert (HB : forall i j, (1 <= i <= m)%Z -> (1 <= j <= m)%Z -> 0 <= Rabs (H i j) <= N).
    { intros i j Hi Hj. destruct (HE i j Hi Hj) as (_ & [_ X] & <-). split; [apply Rabs_pos|exact X]. }
    assert (SB : forall s, bnd N s -> 0 <= Rabs (B2R s) <= N) by (intros s [_ X]; split; [apply Rabs_pos|exact X]).
    pose proof (SB _ S1) as B1. pose proof (SB _ S2) as B2. pose proof (SB _ S3) as B3. pose proof (SB _ S4) as B4.
    assert (D1 : 0 <= Rabs (H 1%Z 1%Z - B2R sr1) <= 2 * N).
    { split; [apply Rabs_pos|]. eapply Rle_trans; [apply Rabs_triang|]. rewrite Rabs_Ropp. pose proof (HB 1%Z 1%Z ltac:(lia) ltac:(lia)). lra. }
    assert (D2 : 0 <= Rabs (H 1%Z 1%Z - B2R sr2) <= 2 * N).
    { split; [apply Rabs_pos|]. eapply Rle_trans; [apply Rabs_triang|]. rewrite Rabs_Ropp. pose proof (HB 1%Z 1%Z ltac:(lia) ltac:(lia)). lra. }
    assert (SS : 0 < shift_scale m H (B2R sr2, B2R si2) <= 5 * N).
    { unfold shift_scale. cbn [fst snd]. destruct Hm as [-> | ->]; rewrite ?Rs22, ?Rs23.
      - pose proof (HB 2%Z 1%Z ltac:(lia) ltac:(lia)). lra.
      - pose proof (HB 2%Z 1%Z ltac:(lia) ltac:(lia)). pose proof (HB 3%Z 1%Z ltac:(lia) ltac:(lia)). lra. }
    assert (SM : forall i, (1 <= i <= m)%Z -> shift_mag m H (B2R sr1, B2R si1) (B2R sr2, B2R si2) i <= 8 * (N * N)).
    { assert (P11 := sq_le _ _ _ _ D1 D2). assert (P22 := sq_le _ _ _ _ B2 B4).
      assert (PP : forall a b c d, (1 <= a <= m)%Z -> (1 <= b <= m)%Z -> (1 <= c <= m)%Z -> (1 <= d <= m)%Z -> Rabs (H a b) * Rabs (H c d) <= N * N) by (intros; apply sq_le; apply HB; assumption).
      assert (P4 : forall i, (1 <= i <= m)%Z -> Rabs (H i 1%Z) * (Rabs (H 1%Z 1%Z) + Rabs (H i i) + Rabs (B2R sr1) + Rabs (B2R sr2)) <= N * (4 * N)).
      { intros i Hi. apply sq_le; [apply HB; lia|]. pose proof (HB 1%Z 1%Z ltac:(lia) ltac:(lia)). pose proof (HB i i Hi Hi). lra. }
      assert (NN : 0 <= N * N) by (apply Rmult_le_pos; lra).
      intros i Hi. unfold shift_mag. cbn [fst snd]. destruct Hm as [-> | ->].
      - assert (i = 1 \/ i = 2)%Z as [-> | ->] by lia; rewrite ?Rs22, ?Rs23; cbn [Z.eqb Pos.eqb].
        + pose proof (PP 1 2 2 1 ltac:(lia) ltac:(lia) ltac:(lia) ltac:(lia))%Z. lra.
        + pose proof (P4 2%Z ltac:(lia)). lra.
      - assert (i = 1 \/ i = 2 \/ i = 3)%Z as [-> | [-> | ->]] by lia; rewrite ?Rs22, ?Rs23; cbn [Z.eqb Pos.eqb].
        + pose proof (PP 1 2 2 1 ltac:(lia) ltac:(lia) ltac:(lia) ltac:(lia))%Z. pose proof (PP 1 3 3 1 ltac:(lia) ltac:(lia) ltac:(lia) ltac:(lia))%Z. lra.
        + pose proof (P4 2%Z ltac:(lia)). pose proof (PP 2 3 3 1 ltac:(lia) ltac:(lia) ltac:(lia) ltac:(lia))%Z. lra.
        + pose proof (P4 3%Z ltac:(lia)). pose proof (PP 3 2 2 1 ltac:(lia) ltac:(lia) ltac:(lia) ltac:(lia))%Z. lra. }
    pose proof (gam_lin 4 ltac:(lia)) as G4. pose proof (gam_lin 7 ltac:(lia)) as G7. cbn [INR] in G4, G7.
    assert (U : 0 < u64 /\ u64 <= bpow radix2 (-53)) by (unfold u64; split; [apply bpow_gt_0|apply Rle_refl]).
    assert (U' : bpow radix2 (-53) <= / 1000000000000) by (change (-53)%Z with (- (53))%Z; rewrite bpow_opp; apply Rinv_le_contravar; [lra|]; change (bpow radix2 53) with 9007199254740992; lra).
    assert (SG : sigma <= 5.01 * N).
    { assert (X := SC (Rgt_not_eq _ _ (proj1 SS))). unfold val64 in X. assert (Y := Rle_trans _ _ _ (Rle_abs _) X).
      assert (gam 4 * shift_scale m H (B2R sr2, B2R si2) <= 0.001 * (5 * N)) by (apply Rmult_le_compat; [unfold gam; pose proof (pow_R1_Rle (1 + u64) 4 ltac:(lra)); lra|lra|lra|lra]).
      unfold val64 in *. lra. }
    exists sigma. split; [lra|]. intros i Hi. destruct (EY i Hi) as (q & Eq & _ & ERR). rewrite ER, EP in Eq by exact Hi. injection Eq as <-.
    change (fst (shift_column m H (B2R sr1, B2R si1) (B2R sr2, B2R si2) i)) with (fst (shift_column m H (val64 sr1, val64 si1) (val64 sr2, val64 si2) i)).
    eapply Rle_trans; [exact ERR|].
    assert (NN : bpow radix2 (-890) * N <= N * N) by (apply Rmult_le_compat_r; lra). assert (NN0 : 0 < N * N) by (apply Rmult_lt_0_compat; lra).
    assert (T1 : gam 7 * shift_mag m H (val64 sr1, val64 si1) (val64 sr2, val64 si2) i <= 1.001 * (7 * u64) * (8 * (N * N))).
    { apply Rle_trans with (gam 7 * (8 * (N * N))); [apply Rmult_le_compat_l; [unfold gam; pose proof (pow_R1_Rle (1 + u64) 7 ltac:(lra)); lra|apply SM; exact Hi]|]. apply Rmult_le_compat_r; lra. }
    assert (E1 : (1 + u64) ^ 7 <= 2) by (unfold gam in G7; lra).
    assert (ET : eta64 <= bpow radix2 (-100) * bpow radix2 (-890)) by (rewrite <- bpow_plus; unfold eta64; apply bpow_le; lia).
    assert (ET0 : 0 < eta64) by (unfold eta64; apply bpow_gt_0).
    assert (T2 : eta64 * sigma * (5 * N + 4) <= bpow radix2 (-100) * (60 * (N * N))).
    { assert (B89 : bpow radix2 (-890) <= 1) by (change 1 with (bpow radix2 0); apply bpow_le; lia). pose proof (bpow_gt_0 radix2 (-890)) as B890. pose proof (bpow_gt_0 radix2 (-100)) as B100.
      assert (X1 : sigma * (5 * N + 4) <= 5.01 * N * (5 * N + 4)) by (apply Rmult_le_compat_r; lra).
      assert (X2 : bpow radix2 (-890) * (5.01 * N * (5 * N + 4)) <= 60 * (N * N)).
      { replace (bpow radix2 (-890) * (5.01 * N * (5 * N + 4))) with (bpow radix2 (-890) * (25.05 * (N * N)) + 20.04 * (bpow radix2 (-890) * N)) by lra.
        assert (bpow radix2 (-890) * (25.05 * (N * N)) <= 1 * (25.05 * (N * N))) by (apply Rmult_le_compat_r; lra). lra. }
      rewrite Rmult_assoc. apply Rle_trans with ((bpow radix2 (-100) * bpow radix2 (-890)) * (5.01 * N * (5 * N + 4))).
      - apply Rmult_le_compat; [lra| |lra|exact X1]. apply Rmult_le_pos; lra.
      - rewrite Rmult_assoc. apply Rmult_le_compat_l; [lra|exact X2]. }
    assert (T3 : (1 + u64) ^ 7 * (eta64 * sigma * (5 * N + 4)) <= 2 * (bpow radix2 (-100) * (60 * (N * N)))).
    { apply Rmult_le_compat; [apply pow_le; lra| |exact E1|exact T2]. apply Rmult_le_pos; [apply Rmult_le_pos; lra|lra]. }
    assert (B45 : bpow radix2 (-45) = 256 * bpow radix2 (-53)) by (change (-45)%Z with (8 + -53)%Z; rewrite bpow_plus; reflexivity).
    assert (B53 : bpow radix2 (-100) <= bpow radix2 (-53)) by (apply bpow_le; lia).
    assert (T4 : bpow radix2 (-100) * (60 * (N * N)) <= bpow radix2 (-53) * (60 * (N * N))) by (apply Rmult_le_compat_r; lra).
    assert (T5 : u64 * (N * N) <= bpow radix2 (-53) * (N * N)) by (apply Rmult_le_compat_r; lra).
    assert (T6 : 0 < bpow radix2 (-53) * (N * N)) by (apply Rmult_lt_0_compat; [apply bpow_gt_0|lra]).
    rewrite B45. lra.
  Qed.

  (** a reflector that maps p close to a multiple of the first unit vector maps that unit vector close to the direction of p *)
  Lemma refl_col p1 p2 p3 b (y2 y3 tau : b64) w2 w3 t : lref (8 * N) p1 p2 p3 b y2 y3 tau w2 w3 t ->
    exists b', Rabs (p1 - b' * (1 - t)) <= bpow radix2 (-39) * N /\ Rabs (p2 - b' * (- (t * w2))) <= bpow radix2 (-39) * N /\ Rabs (p3 - b' * (- (t * w3))) <= bpow radix2 (-39) * N.
  Proof.
    intros LR. pose proof (ra_house _ _ _ _ _ _ (lr_app _ _ _ _ _ _ _ _ _ _ _ LR)) as HH. unfold house in HH.
    pose proof (lr_2 _ _ _ _ _ _ _ _ _ _ _ LR) as E2. pose proof (lr_3 _ _ _ _ _ _ _ _ _ _ _ LR) as E3.
    set (S := p1 + w2 * p2 + w3 * p3) in *. set (e2 := p2 - S * (t * w2)) in *. set (e3 := p3 - S * (t * w3)) in *. set (b' := p1 - S * t).
    exists b'. set (q := w2 * e2 + w3 * e3). set (d := delta (8 * N)) in *.
    assert (ED : bpow radix2 (-39) * N = 2 * d).
    { unfold d, delta. change (-39)%Z with (4 + -43)%Z. rewrite bpow_plus. change (bpow radix2 4) with 16. ring. }
    assert (D0 : 0 <= d) by (pose proof (bpow_gt_0 radix2 (-39)); assert (0 < bpow radix2 (-39) * N) by (apply Rmult_lt_0_compat; lra); lra).
    assert (Q1 : p1 - b' * (1 - t) = - (t * q)).
    { assert (p1 - b' * (1 - t) + t * q = - (S * (t * (t * (1 + w2 * w2 + w3 * w3) - 2)))) by (unfold q, e2, e3, b', S; ring). rewrite HH in H. lra. }
    assert (Q2 : p2 - b' * (- (t * w2)) = e2 - t * w2 * q).
    { assert (p2 - b' * (- (t * w2)) - (e2 - t * w2 * q) = - (S * w2 * (t * (t * (1 + w2 * w2 + w3 * w3) - 2)))) by (unfold q, e2, e3, b', S; ring). rewrite HH in H. lra. }
    assert (Q3 : p3 - b' * (- (t * w3)) = e3 - t * w3 * q).
    { assert (p3 - b' * (- (t * w3)) - (e3 - t * w3 * q) = - (S * w3 * (t * (t * (1 + w2 * w2 + w3 * w3) - 2)))) by (unfold q, e2, e3, b', S; ring). rewrite HH in H. lra. }
    rewrite Q1, Q2, Q3, ED.
    assert (SQ : (- (t * q)) * (- (t * q)) + (e2 - t * w2 * q) * (e2 - t * w2 * q) + (e3 - t * w3 * q) * (e3 - t * w3 * q) = e2 * e2 + e3 * e3).
    { assert (X : (- (t * q)) * (- (t * q)) + (e2 - t * w2 * q) * (e2 - t * w2 * q) + (e3 - t * w3 * q) * (e3 - t * w3 * q) - (e2 * e2 + e3 * e3) = q * q * (t * (t * (1 + w2 * w2 + w3 * w3) - 2)) ) by (unfold q; ring).
      rewrite HH in X. lra. }
    assert (S2 : e2 * e2 <= d * d) by (rewrite <- (Rabs_pos_eq d D0) in E2; apply Rsqr_le_abs_1 in E2; exact E2).
    assert (S3 : e3 * e3 <= d * d) by (rewrite <- (Rabs_pos_eq d D0) in E3; apply Rsqr_le_abs_1 in E3; exact E3).
    assert (FIN : forall z, z * z <= e2 * e2 + e3 * e3 -> Rabs z <= 2 * d).
    { intros z Hz. rewrite <- (Rabs_pos_eq (2 * d)) by lra. apply Rsqr_le_abs_0. unfold Rsqr. assert (0 <= d * d) by (apply Rmult_le_pos; lra). lra. }
    assert (P1 := Rle_0_sqr (- (t * q))). assert (P2 := Rle_0_sqr (e2 - t * w2 * q)). assert (P3 := Rle_0_sqr (e3 - t * w3 * q)). unfold Rsqr in P1, P2, P3.
    repeat split; apply FIN; lra.
  Qed.

  (** the two together *)
  Lemma col_near m nb H s1 s2 ktop sigma (pp : Z -> R) b (y2 y3 tau : b64) w2 w3 t : (2 <= m <= nb)%Z -> (m = 3 \/ nb = 2 /\ w3 = 0%R /\ pp 3%Z = 0%R)%Z ->
    (forall a c, (1 <= a <= nb)%Z -> (1 <= c <= nb)%Z -> (c + 1 < a)%Z -> H a c = 0) ->
    0 < sigma <= 5.01 * N -> (forall i, (1 <= i <= m)%Z -> Rabs (sigma * pp i - fst (shift_column m H s1 s2 i)) <= bpow radix2 (-45) * (N * N)) ->
    lref (8 * N) (pp 1%Z) (pp 2%Z) (pp 3%Z) b y2 y3 tau w2 w3 t ->
    exists c, forall i, (1 <= i <= nb)%Z -> Rabs (fst (shift_column nb H s1 s2 i) - c * rright ktop w2 w3 t Rid (ktop - 1 + i)%Z ktop) <= bpow radix2 (-36) * (N * N).
  Proof.
    intros Hm HX HZ SG ERR LR. destruct (refl_col _ _ _ _ _ _ _ _ _ _ LR) as (b' & C1 & C2 & C3). exists (sigma * b').
    assert (NN0 : 0 < N * N) by (apply Rmult_lt_0_compat; lra). pose proof (bpow_gt_0 radix2 (-36)) as B36.
    assert (TR : forall i z, (1 <= i <= m)%Z -> Rabs (pp i - b' * z) <= bpow radix2 (-39) * N -> Rabs (fst (shift_column nb H s1 s2 i) - sigma * b' * z) <= bpow radix2 (-36) * (N * N)).
    { intros i z Hi Hz. rewrite (shift_column_lead nb m H H) by (try lia; try reflexivity; intros; apply HZ; lia).
      replace (fst (shift_column m H s1 s2 i) - sigma * b' * z) with (- (sigma * pp i - fst (shift_column m H s1 s2 i)) + sigma * (pp i - b' * z)) by ring.
      eapply Rle_trans; [apply Rabs_triang|]. rewrite Rabs_Ropp, Rabs_mult, (Rabs_pos_eq sigma) by lra.
      assert (X : sigma * Rabs (pp i - b' * z) <= 5.01 * N * (bpow radix2 (-39) * N)) by (apply Rmult_le_compat; [lra|apply Rabs_pos|lra|exact Hz]).
      pose proof (ERR i Hi) as Y. assert (E36 : bpow radix2 (-36) = 8 * bpow radix2 (-39)) by (change (-36)%Z with (3 + -39)%Z; rewrite bpow_plus; reflexivity).
      assert (E45 : bpow radix2 (-45) <= bpow radix2 (-39)) by (apply bpow_le; lia). assert (bpow radix2 (-45) * (N * N) <= bpow radix2 (-39) * (N * N)) by (apply Rmult_le_compat_r; lra).
      rewrite E36. replace (5.01 * N * (bpow radix2 (-39) * N)) with (5.01 * (bpow radix2 (-39) * (N * N))) in X by ring.
      pose proof (bpow_gt_0 radix2 (-39)) as B39. assert (0 < bpow radix2 (-39) * (N * N)) by (apply Rmult_lt_0_compat; lra). lra. }
    intros i Hi.
    assert (RV : rright ktop w2 w3 t Rid (ktop - 1 + i)%Z ktop = if (i =? 1)%Z then 1 - t else if (i =? 2)%Z then - (t * w2) else if (i =? 3)%Z then - (t * w3) else 0).
    { unfold rright. rewrite wvec_0. unfold Rid. destruct (Z.eqb_spec i 1), (Z.eqb_spec i 2), (Z.eqb_spec i 3), (Z.eqb_spec (ktop - 1 + i) ktop), (Z.eqb_spec (ktop - 1 + i) (ktop + 1)), (Z.eqb_spec (ktop - 1 + i) (ktop + 2)); try lia; ring. }
    rewrite RV. destruct (Z.eqb_spec i 1) as [->|]; [apply TR; [lia|exact C1]|]. destruct (Z.eqb_spec i 2) as [->|]; [apply TR; [lia|exact C2]|].
    destruct (Z.eqb_spec i 3) as [->|].
    - destruct HX as [-> | [-> _]]; [|lia]. apply TR; [lia|exact C3].
    - rewrite shift_column_low by (try exact HZ; lia). cbn [fst cre]. rewrite Rmult_0_r, Rminus_0_r, Rabs_R0. apply Rmult_le_pos; lra.
  Qed.
End Col.
