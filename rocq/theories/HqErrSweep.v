(** The steps of dlahqr's sweep in binary64: the later ones and the first one. *)
From Coq Require Import Reals Lra.
From Flocq Require Import IEEE754.BinarySingleNaN Core.
From Verif Require Import Base Num Array Blas Lapack Dlahqr Spec SpecR SpecErr SpecSim B64 B64Lemmas B64Nn RsumLemmas RoundErr Near LarfgErr GemmErr
  FaLemmas LahqrProofs RealMat SimArray SimSweep LanvCalc LanvStd HqReal HqGet HqErrApp HqErrRefl HqReflGen HqErrReal HqErrStep.
Open Scope R_scope.

Section Sweep.
  Context (lm : libm) (LM : libm_ok lm).
  #[local] Instance NBhw : Num b64 := B64 lm.
  Context (wantz : bool) (n ilo ihi iloz ihiz : Z).
  Hypothesis (Hlo : (1 <= ilo)%Z) (Hhi : (ihi <= n)%Z).
  Notation inr a := (ilo <= a <= ihi)%Z.
  Notation mm := (mmul ilo ihi).
  Context (A : Z -> Z -> R) (N y Xm : R).
  Hypothesis (HN : mid (4 * N)) (HA : frob2 ilo ihi A <= N * N).
  Hypothesis (Hy : 0 < y) (HY : 3 * (IZR (ihi - ilo + 1) * (delta (4 * N) * delta (4 * N))) <= y * y) (HX : Xm * (2 * y) <= N).
  Context (ZP : R -> fa b64 -> (Z -> Z -> R) -> Prop).
  Hypothesis (ZP3 : forall x z Q k (v2 v3 t1 : b64) w2 w3 t, ZP x z Q -> 0 <= x <= Xm -> (ilo <= k)%Z -> (k + 2 <= ihi)%Z -> rapp v2 v3 t1 w2 w3 t ->
    ZP (x + 1) (if wantz then for_ (range iloz ihiz) z (right3 k v2 v3 t1 (fmul t1 v2) (fmul t1 v3)) else z) (mm Q (refl t (wvec k w2 w3)))).
  Hypothesis (ZP2 : forall x z Q k (v2 t1 : b64) w2 t, ZP x z Q -> 0 <= x <= Xm -> (ilo <= k)%Z -> (k + 1 <= ihi)%Z -> rapp v2 (B754_zero false) t1 w2 0 t ->
    ZP (x + 1) (if wantz then for_ (range iloz ihiz) z (right2 k v2 t1 (fmul t1 v2)) else z) (mm Q (refl t (wvec k w2 0)))).
  Context (l i : Z).
  Hypothesis (Hl : (ilo <= l)%Z) (Hi : (i <= ihi)%Z).
  Notation inb a := (l <= a <= i)%Z.
  Context (hs : fa b64) (Gs : Z -> Z -> R).
  Hypothesis (HBg : big n hs) (FH : full hs).
  Notation wf := (wf lm n ilo ihi A y ZP l i hs Gs).
  Notation d4 := (delta (4 * N)).
  Notation M h := (fun a b : Z => B2R (get2 h a b)).

  Lemma inside_T lo hi b : (lo <= b <= hi)%Z -> inside lo hi b = true.
  Proof. intros. unfold inside. destruct (Z.leb_spec lo b), (Z.leb_spec b hi); try lia; reflexivity. Qed.
  Lemma inside_F lo hi b : ~ (lo <= b <= hi)%Z -> inside lo hi b = false.
  Proof. intros. unfold inside. destruct (Z.leb_spec lo b), (Z.leb_spec b hi); try lia; reflexivity. Qed.

  Section Vals.
    Context (k : Z) (v2 v3 t1 : b64) (w2 w3 t : R) (HR : rapp v2 v3 t1 w2 w3 t).
    Lemma lval3_near h a b : (k <= a <= k + 2)%Z -> (forall c, (k <= c <= k + 2)%Z -> bnd (4 * N) (get2 h c b)) ->
      near_r (lval3 k v2 v3 t1 (fmul t1 v2) (fmul t1 v3) h a b) (rleft k w2 w3 t (M h) a b) d4.
    Proof.
      intros Ha HB. destruct (HB k ltac:(lia)) as [F1 B1]. destruct (HB (k + 1)%Z ltac:(lia)) as [F2 B2]. destruct (HB (k + 2)%Z ltac:(lia)) as [F3 B3].
      pose proof (app3 lm (4 * N) HN v2 v3 t1 w2 w3 t HR _ _ _ F1 F2 F3 B1 B2 B3) as H. cbv zeta in H. change (B64 lm) with NBhw in H.
      unfold lval3, pick3. destruct (vrefl3 v2 v3 t1 (fmul t1 v2) (fmul t1 v3) (get2 h k b) (get2 h (k + 1) b) (get2 h (k + 2) b)) as [[z1 z2] z3]. destruct H as (H1 & H2 & H3). unfold rleft.
      assert (a = k \/ a = k + 1 \/ a = k + 2)%Z as [-> | [-> | ->]] by lia.
      - rewrite Z.eqb_refl, wvec_0, Rmult_1_r. exact H1.
      - destruct (Z.eqb_spec (k + 1) k); [lia|]. rewrite Z.eqb_refl, wvec_1. exact H2.
      - destruct (Z.eqb_spec (k + 2) k); [lia|]. destruct (Z.eqb_spec (k + 2) (k + 1)); [lia|]. rewrite Z.eqb_refl, wvec_2. exact H3.
    Qed.
    Lemma lval3_out h a b : ~ (k <= a <= k + 2)%Z -> lval3 k v2 v3 t1 (fmul t1 v2) (fmul t1 v3) h a b = get2 h a b.
    Proof.
      intros Ha. unfold lval3, pick3, vrefl3. cbv zeta. destruct (Z.eqb_spec a k); [lia|]. destruct (Z.eqb_spec a (k + 1)); [lia|]. destruct (Z.eqb_spec a (k + 2)); [lia|]. reflexivity.
    Qed.
    Lemma rval3_near h a b : (k <= b <= k + 2)%Z -> (forall c, (k <= c <= k + 2)%Z -> bnd (4 * N) (get2 h a c)) ->
      near_r (rval3 k v2 v3 t1 (fmul t1 v2) (fmul t1 v3) h a b) (rright k w2 w3 t (M h) a b) d4.
    Proof.
      intros Ha HB. destruct (HB k ltac:(lia)) as [F1 B1]. destruct (HB (k + 1)%Z ltac:(lia)) as [F2 B2]. destruct (HB (k + 2)%Z ltac:(lia)) as [F3 B3].
      pose proof (app3 lm (4 * N) HN v2 v3 t1 w2 w3 t HR _ _ _ F1 F2 F3 B1 B2 B3) as H. cbv zeta in H. change (B64 lm) with NBhw in H.
      unfold rval3, pick3. destruct (vrefl3 v2 v3 t1 (fmul t1 v2) (fmul t1 v3) (get2 h a k) (get2 h a (k + 1)) (get2 h a (k + 2))) as [[z1 z2] z3]. destruct H as (H1 & H2 & H3). unfold rright.
      assert (b = k \/ b = k + 1 \/ b = k + 2)%Z as [-> | [-> | ->]] by lia.
      - rewrite Z.eqb_refl, wvec_0, Rmult_1_r. exact H1.
      - destruct (Z.eqb_spec (k + 1) k); [lia|]. rewrite Z.eqb_refl, wvec_1. exact H2.
      - destruct (Z.eqb_spec (k + 2) k); [lia|]. destruct (Z.eqb_spec (k + 2) (k + 1)); [lia|]. rewrite Z.eqb_refl, wvec_2. exact H3.
    Qed.
    Lemma rval3_out h a b : ~ (k <= b <= k + 2)%Z -> rval3 k v2 v3 t1 (fmul t1 v2) (fmul t1 v3) h a b = get2 h a b.
    Proof.
      intros Ha. unfold rval3, pick3, vrefl3. cbv zeta. destruct (Z.eqb_spec b k); [lia|]. destruct (Z.eqb_spec b (k + 1)); [lia|]. destruct (Z.eqb_spec b (k + 2)); [lia|]. reflexivity.
    Qed.
    Lemma rval3_zero h a b : (k <= b <= k + 2)%Z -> (forall c, (k <= c <= k + 2)%Z -> zf (get2 h a c)) -> zf (rval3 k v2 v3 t1 (fmul t1 v2) (fmul t1 v3) h a b).
    Proof.
      intros Ha HB. pose proof (app3_zero lm v2 v3 t1 w2 w3 t HR _ _ _ (HB k ltac:(lia)) (HB (k + 1)%Z ltac:(lia)) (HB (k + 2)%Z ltac:(lia))) as H. change (B64 lm) with NBhw in H.
      unfold rval3, pick3. destruct (vrefl3 v2 v3 t1 (fmul t1 v2) (fmul t1 v3) (get2 h a k) (get2 h a (k + 1)) (get2 h a (k + 2))) as [[z1 z2] z3]. destruct H as (H1 & H2 & H3).
      assert (b = k \/ b = k + 1 \/ b = k + 2)%Z as [-> | [-> | ->]] by lia.
      - rewrite Z.eqb_refl. exact H1.
      - destruct (Z.eqb_spec (k + 1) k); [lia|]. rewrite Z.eqb_refl. exact H2.
      - destruct (Z.eqb_spec (k + 2) k); [lia|]. destruct (Z.eqb_spec (k + 2) (k + 1)); [lia|]. rewrite Z.eqb_refl. exact H3.
    Qed.
  End Vals.
  Section Vals2.
    Context (k : Z) (v2 t1 : b64) (w2 t : R) (HR : rapp v2 (B754_zero false) t1 w2 0 t).
    Lemma lval2_near h a b : (k <= a <= k + 1)%Z -> (forall c, (k <= c <= k + 1)%Z -> bnd (4 * N) (get2 h c b)) ->
      near_r (lval2 k v2 t1 (fmul t1 v2) h a b) (rleft k w2 0 t (M h) a b) d4.
    Proof.
      intros Ha HB. destruct (HB k ltac:(lia)) as [F1 B1]. destruct (HB (k + 1)%Z ltac:(lia)) as [F2 B2].
      pose proof (app2 lm (4 * N) HN v2 _ t1 w2 0 t HR _ _ F1 F2 B1 B2) as H. cbv zeta in H. change (B64 lm) with NBhw in H.
      unfold lval2, pick2. destruct (vrefl2 v2 t1 (fmul t1 v2) (get2 h k b) (get2 h (k + 1) b)) as [z1 z2]. destruct H as (H1 & H2). unfold rleft. rewrite Rmult_0_l, Rplus_0_r.
      assert (a = k \/ a = k + 1)%Z as [-> | ->] by lia.
      - rewrite Z.eqb_refl, wvec_0, Rmult_1_r. exact H1.
      - destruct (Z.eqb_spec (k + 1) k); [lia|]. rewrite Z.eqb_refl, wvec_1. exact H2.
    Qed.
    Lemma lval2_out h a b : ~ (k <= a <= k + 1)%Z -> lval2 k v2 t1 (fmul t1 v2) h a b = get2 h a b.
    Proof. intros Ha. unfold lval2, pick2, vrefl2. cbv zeta. destruct (Z.eqb_spec a k); [lia|]. destruct (Z.eqb_spec a (k + 1)); [lia|]. reflexivity. Qed.
    Lemma rval2_near h a b : (k <= b <= k + 1)%Z -> (forall c, (k <= c <= k + 1)%Z -> bnd (4 * N) (get2 h a c)) ->
      near_r (rval2 k v2 t1 (fmul t1 v2) h a b) (rright k w2 0 t (M h) a b) d4.
    Proof.
      intros Ha HB. destruct (HB k ltac:(lia)) as [F1 B1]. destruct (HB (k + 1)%Z ltac:(lia)) as [F2 B2].
      pose proof (app2 lm (4 * N) HN v2 _ t1 w2 0 t HR _ _ F1 F2 B1 B2) as H. cbv zeta in H. change (B64 lm) with NBhw in H.
      unfold rval2, pick2. destruct (vrefl2 v2 t1 (fmul t1 v2) (get2 h a k) (get2 h a (k + 1))) as [z1 z2]. destruct H as (H1 & H2). unfold rright. rewrite Rmult_0_l, Rplus_0_r.
      assert (b = k \/ b = k + 1)%Z as [-> | ->] by lia.
      - rewrite Z.eqb_refl, wvec_0, Rmult_1_r. exact H1.
      - destruct (Z.eqb_spec (k + 1) k); [lia|]. rewrite Z.eqb_refl, wvec_1. exact H2.
    Qed.
    Lemma rval2_out h a b : ~ (k <= b <= k + 1)%Z -> rval2 k v2 t1 (fmul t1 v2) h a b = get2 h a b.
    Proof. intros Ha. unfold rval2, pick2, vrefl2. cbv zeta. destruct (Z.eqb_spec b k); [lia|]. destruct (Z.eqb_spec b (k + 1)); [lia|]. reflexivity. Qed.
    Lemma rval2_zero h a b : (k <= b <= k + 1)%Z -> (forall c, (k <= c <= k + 1)%Z -> zf (get2 h a c)) -> zf (rval2 k v2 t1 (fmul t1 v2) h a b).
    Proof.
      intros Ha HB. pose proof (app2_zero lm v2 _ t1 w2 0 t HR _ _ (HB k ltac:(lia)) (HB (k + 1)%Z ltac:(lia))) as H. change (B64 lm) with NBhw in H.
      unfold rval2, pick2. destruct (vrefl2 v2 t1 (fmul t1 v2) (get2 h a k) (get2 h a (k + 1))) as [z1 z2]. destruct H as (H1 & H2).
      assert (b = k \/ b = k + 1)%Z as [-> | ->] by lia.
      - rewrite Z.eqb_refl. exact H1.
      - destruct (Z.eqb_spec (k + 1) k); [lia|]. rewrite Z.eqb_refl. exact H2.
    Qed.
  End Vals2.

  (** the loops of a step, from the array with column k-1 stored *)
  Lemma tail_is x k h1 z G Q (v : fa b64) beta v2 v3 t1 w2 w3 t :
    (l <= k < i)%Z -> 0 <= x <= Xm -> v3s v beta v2 v3 ->
    rapp v2 (if (k + 2 <=? i)%Z then v3 else B754_zero false) t1 w2 w3 t -> ((k + 2 <= i)%Z \/ w3 = 0) ->
    chase ilo ihi l i k G -> simf ilo ihi A (x * (2 * y)) G Q -> same_shape h1 hs ->
    (forall a b, inb a -> inb b -> (k <= b)%Z -> is_finite (get2 h1 a b) = true /\ B2R (get2 h1 a b) = G a b) ->
    (forall a b, inb a -> inb b -> (b < k)%Z -> near_r (get2 h1 a b) (rleft k w2 w3 t G a b) d4) ->
    (forall a b, inb a -> inb b -> (b < k)%Z -> ~ (k <= a <= k + 2)%Z -> B2R (get2 h1 a b) = rleft k w2 w3 t G a b) ->
    (forall a b, inb a -> inb b -> (b < k)%Z -> (b + 1 < a)%Z -> B2R (get2 h1 a b) = 0) ->
    (forall a b, (1 <= a <= n)%Z -> (1 <= b <= n)%Z -> ~ (inb a /\ inb b) -> get2 h1 a b = get2 hs a b) ->
    (forall a b, inr a -> inr b -> ~ inb a -> ~ inb b -> G a b = Gs a b) ->
    ZP x z Q ->
    exists h' z' G' Q',
      (let v2 := get1 v 2 in
      let t2 := fmul t1 v2 in
      let nr := Z.min 3 (i - k + 1) in
      if (nr =? 3)%Z then
        let v3 := get1 v 3 in
        let t3 := fmul t1 v3 in
        let h := for_ (range k i) h1 (left3 k v2 v3 t1 t2 t3) in
        let h := for_ (range l (Z.min i (k + 4))) h (right3 k v2 v3 t1 t2 t3) in
        let z := if wantz then for_ (range iloz ihiz) z (right3 k v2 v3 t1 t2 t3) else z in
        Ok (h, z, v, t1)
      else if (nr =? 2)%Z then
        let h := for_ (range k i) h1 (left2 k v2 t1 t2) in
        let h := for_ (range l i) h (right2 k v2 t1 t2) in
        let z := if wantz then for_ (range iloz ihiz) z (right2 k v2 t1 t2) else z in
        Ok (h, z, v, t1)
      else Ok (h1, z, v, t1)) = Ok (h', z', v, t1) /\ wf (x + 1) (k + 1) h' z' G' Q'.
  Proof.
    intros Hk Hx V HR HV HC SI S1 I1 I2 I3 I4 O1 FA ZI. cbv zeta. destruct (v3s_get _ _ _ _ V) as (_ & -> & ->).
    assert (BG1 : big n h1) by (eapply big_shape; eassumption).
    destruct (Z.eqb_spec (Z.min 3 (i - k + 1)) 3) as [E3|E3].
    - replace (k + 2 <=? i)%Z with true in HR by (symmetry; apply Z.leb_le; lia).
      set (h2 := for_ (range k i) h1 (left3 k v2 v3 t1 (fmul t1 v2) (fmul t1 v3))).
      set (h3 := for_ (range l (Z.min i (k + 4))) h2 (right3 k v2 v3 t1 (fmul t1 v2) (fmul t1 v3))).
      assert (Sh2 : same_shape h2 h1) by (apply for_shape; intros; apply left3_shape).
      assert (Sh3 : same_shape h3 h2) by (apply for_shape; intros; apply right3_shape).
      assert (BG2 : big n h2) by (eapply big_shape; eassumption).
      assert (E2 : forall a b, (1 <= a <= n)%Z -> (1 <= b <= n)%Z -> get2 h2 a b = if inside k i b then lval3 k v2 v3 t1 (fmul t1 v2) (fmul t1 v3) h1 a b else get2 h1 a b).
      { intros a b Ha Hb. unfold h2. apply (left3_loop_get n); (assumption || lia). }
      assert (E4 : forall a b, (1 <= a <= n)%Z -> (1 <= b <= n)%Z -> get2 h3 a b = if inside l (Z.min i (k + 4)) a then rval3 k v2 v3 t1 (fmul t1 v2) (fmul t1 v3) h2 a b else get2 h2 a b).
      { intros a b Ha Hb. unfold h3. apply (right3_loop_get n); (assumption || lia). }
      assert (TT : Z.min (k + 2) i = (k + 2)%Z) by lia.
      assert (ZI' := ZP3 x z Q k v2 v3 t1 w2 w3 t ZI Hx ltac:(lia) ltac:(lia) HR).
      destruct (tail_core lm n ilo ihi Hlo Hhi A N y Xm HN HA Hy HY HX ZP l i Hl Hi hs Gs x k h1 h2 h3
        (if wantz then for_ (range iloz ihiz) z (right3 k v2 v3 t1 (fmul t1 v2) (fmul t1 v3)) else z) G Q w2 w3 t (Z.min i (k + 4)) Hk HV (ra_house _ _ _ _ _ _ HR) Hx HC SI S1 I1 I2 I3 I4 O1 FA Sh2) as [G' W']; rewrite ?TT; try assumption; try lia.
      + intros a b Ha Hb HB. rewrite E2 by lia. rewrite inside_T by lia. apply lval3_near; assumption.
      + intros a b Ha Hb Ho. rewrite E2 by lia. destruct (Z_le_gt_dec k b); [destruct (Z_le_gt_dec b i)|]; [|rewrite inside_F by lia; reflexivity|rewrite inside_F by lia; reflexivity].
        rewrite inside_T by lia. apply lval3_out. lia.
      + intros a b Ha Hb HB. rewrite E4 by lia. rewrite inside_T by lia. apply rval3_near; assumption.
      + intros a b Ha Hb Ho. rewrite E4 by lia. destruct (Z_le_gt_dec l a); [destruct (Z_le_gt_dec a (Z.min i (k + 4)))|]; [|rewrite inside_F by lia; reflexivity|rewrite inside_F by lia; reflexivity].
        rewrite inside_T by lia. apply rval3_out. lia.
      + intros a b Ha Hb HB. rewrite E4 by lia. rewrite inside_T by lia. eapply rval3_zero; eassumption.
      + do 4 eexists. split; [reflexivity|exact W'].
    - assert (E : Z.min 3 (i - k + 1) = 2%Z) by lia. rewrite E. cbn [Z.eqb Pos.eqb].
      replace (k + 2 <=? i)%Z with false in HR by (symmetry; apply Z.leb_gt; lia).
      assert (w3 = 0) by (destruct HV; [lia|assumption]). subst w3.
      set (h2 := for_ (range k i) h1 (left2 k v2 t1 (fmul t1 v2))).
      set (h3 := for_ (range l i) h2 (right2 k v2 t1 (fmul t1 v2))).
      assert (Sh2 : same_shape h2 h1) by (apply for_shape; intros; apply left2_shape).
      assert (Sh3 : same_shape h3 h2) by (apply for_shape; intros; apply right2_shape).
      assert (BG2 : big n h2) by (eapply big_shape; eassumption).
      assert (E2 : forall a b, (1 <= a <= n)%Z -> (1 <= b <= n)%Z -> get2 h2 a b = if inside k i b then lval2 k v2 t1 (fmul t1 v2) h1 a b else get2 h1 a b).
      { intros a b Ha Hb. unfold h2. apply (left2_loop_get n); (assumption || lia). }
      assert (E4 : forall a b, (1 <= a <= n)%Z -> (1 <= b <= n)%Z -> get2 h3 a b = if inside l i a then rval2 k v2 t1 (fmul t1 v2) h2 a b else get2 h2 a b).
      { intros a b Ha Hb. unfold h3. apply (right2_loop_get n); (assumption || lia). }
      assert (TT : Z.min (k + 2) i = (k + 1)%Z) by lia.
      assert (ZI' := ZP2 x z Q k v2 t1 w2 t ZI Hx ltac:(lia) ltac:(lia) HR).
      destruct (tail_core lm n ilo ihi Hlo Hhi A N y Xm HN HA Hy HY HX ZP l i Hl Hi hs Gs x k h1 h2 h3
        (if wantz then for_ (range iloz ihiz) z (right2 k v2 t1 (fmul t1 v2)) else z) G Q w2 0 t i Hk HV (ra_house _ _ _ _ _ _ HR) Hx HC SI S1 I1 I2 I3 I4 O1 FA Sh2) as [G' W']; rewrite ?TT; try assumption; try lia.
      + intros a b Ha Hb HB. rewrite E2 by lia. rewrite inside_T by lia. apply lval2_near; assumption.
      + intros a b Ha Hb Ho. rewrite E2 by lia. destruct (Z_le_gt_dec k b); [destruct (Z_le_gt_dec b i)|]; [|rewrite inside_F by lia; reflexivity|rewrite inside_F by lia; reflexivity].
        rewrite inside_T by lia. apply lval2_out. lia.
      + intros a b Ha Hb HB. rewrite E4 by lia. rewrite inside_T by lia. apply rval2_near; assumption.
      + intros a b Ha Hb Ho. rewrite E4 by lia. destruct (Z_le_gt_dec l a); [destruct (Z_le_gt_dec a i)|]; [|rewrite inside_F by lia; reflexivity|rewrite inside_F by lia; reflexivity].
        rewrite inside_T by lia. apply rval2_out. lia.
      + intros a b Ha Hb HB. rewrite E4 by lia. rewrite inside_T by lia. eapply rval2_zero; eassumption.
      + do 4 eexists. split; [reflexivity|exact W'].
  Qed.

  Lemma w_bnd x k h z G Q a b : wf x k h z G Q -> 0 <= x <= Xm -> inb a -> inb b -> bnd (4 * N) (get2 h a b).
  Proof.
    intros W Hx Ha Hb. destruct (f_in _ _ _ _ _ _ _ _ _ _ _ _ _ _ _ _ _ W a b Ha Hb) as [F E]. change (NBhs lm) with NBhw in F, E. split; [exact F|]. rewrite E.
    pose proof (G_bound ilo ihi A N y Xm HN HA Hy HX x G Q Hx (f_sim _ _ _ _ _ _ _ _ _ _ _ _ _ _ _ _ _ W) a b ltac:(lia) ltac:(lia)). pose proof (N_pos N HN). lra.
  Qed.
  Lemma near_zero (r : R) (z : b64) : zf z -> Rabs r <= d4 -> near_r z r d4.
  Proof. intros [F E] H. split; [exact F|]. rewrite E. replace (0 - r) with (- r) by ring. rewrite Rabs_Ropp. exact H. Qed.
  Lemma near_same (z : b64) (r : R) : is_finite z = true -> B2R z = r -> near_r z r d4.
  Proof. intros F E. split; [exact F|]. rewrite E, Rminus_diag_eq, Rabs_R0 by reflexivity. apply (delta_N N HN). Qed.

  (** the array after column k-1 was stored, in a step after the first *)
  Definition stored (h : fa b64) (k : Z) (b : b64) : fa b64 :=
    let h := set2 h k (k - 1) b in let h := set2 h (k + 1) (k - 1) f0 in if (k <? i - 1)%Z then set2 h (k + 2) (k - 1) f0 else h.
  Lemma stored_get h k b0 a b : big n h -> (2 <= k)%Z -> (k < i)%Z -> (1 <= a <= n)%Z -> (1 <= b <= n)%Z ->
    get2 (stored h k b0) a b = if ((b =? k - 1) && (k <=? a) && (a <=? Z.min i (k + 2)))%Z%bool then (if (a =? k)%Z then b0 else f0) else get2 h a b.
  Proof.
    intros HB Hk Hki Ha Hb. unfold stored. cbv zeta. destruct (Z.ltb_spec k (i - 1)).
    - rewrite (set2_get n) by (repeat apply set2_big; assumption || lia). rewrite (set2_get n) by (repeat apply set2_big; assumption || lia). rewrite (set2_get n) by (assumption || lia).
      destruct (Z.eqb_spec b (k - 1)); rewrite ?andb_false_r; cbn [andb]; [|reflexivity]. rewrite !andb_true_r.
      destruct (Z.leb_spec k a), (Z.leb_spec a (Z.min i (k + 2))), (Z.eqb_spec a k), (Z.eqb_spec a (k + 1)), (Z.eqb_spec a (k + 2)); cbn [andb]; try lia; reflexivity.
    - rewrite (set2_get n) by (repeat apply set2_big; assumption || lia). rewrite (set2_get n) by (assumption || lia).
      destruct (Z.eqb_spec b (k - 1)); rewrite ?andb_false_r; cbn [andb]; [|reflexivity]. rewrite !andb_true_r.
      destruct (Z.leb_spec k a), (Z.leb_spec a (Z.min i (k + 2))), (Z.eqb_spec a k), (Z.eqb_spec a (k + 1)); cbn [andb]; try lia; reflexivity.
  Qed.
  Lemma stored_shape h k b0 : same_shape (stored h k b0) h.
  Proof.
    unfold stored. cbv zeta. destruct (k <? i - 1)%Z; [eapply same_shape_trans; [apply set2_shape|]|]; (eapply same_shape_trans; [apply set2_shape|apply set2_shape]).
  Qed.

  Lemma step_later x m k h z G Q v t1 w1 w2 w3 : wf x k h z G Q -> v3s v w1 w2 w3 -> (l <= m < k)%Z -> (k < i)%Z -> 0 <= x <= Xm ->
    exists h' z' v' t' G' Q' y1 y2 y3, hq_step wantz iloz ihiz l i l m i k (h, z, v, t1) = Ok (h', z', v', t') /\ wf (x + 1) (k + 1) h' z' G' Q' /\ v3s v' y1 y2 y3.
  Proof.
    intros W V Hm Hk Hx. pose proof W as [Sh J1 J2 J3 HC SI ZI]. change (NBhs lm) with NBhw in J1, J2.
    assert (BG : big n h) by (eapply big_shape; eassumption).
    assert (FH1 : full h) by (eapply full_shape; eassumption).
    destruct (hq_reflector_get n h FH1 BG v t1 w1 w2 w3 m k i V ltac:(lia) ltac:(lia)) as (v' & beta & tau & y2 & y3 & x' & DL & DX & ER & V').
    replace (m <? k)%Z with true in DL by (symmetry; apply Z.ltb_lt; lia).
    unfold hq_step. rewrite ER. cbn [bind]. replace (m <? k)%Z with true by (symmetry; apply Z.ltb_lt; lia). cbv iota.
    rewrite (proj1 (v3s_get _ _ _ _ V')). fold (stored h k beta).
    assert (LR : exists u2 u3 t, ((k + 2 <= i)%Z \/ u3 = 0) /\ lref (4 * N) (G k (k - 1)%Z) (G (k + 1)%Z (k - 1)%Z) (if (k + 2 <=? i)%Z then G (k + 2)%Z (k - 1)%Z else 0) beta y2 (if (k + 2 <=? i)%Z then y3 else B754_zero false) tau u2 u3 t).
    { rewrite <- (proj2 (J1 k (k - 1)%Z ltac:(lia) ltac:(lia))), <- (proj2 (J1 (k + 1)%Z (k - 1)%Z ltac:(lia) ltac:(lia))).
      pose proof (fun a b Ha Hb => w_bnd x k h z G Q a b W Hx Ha Hb) as WB.
      destruct (Z.leb_spec (k + 2) i) as [K2|K2].
      - rewrite <- (proj2 (J1 (k + 2)%Z (k - 1)%Z ltac:(lia) ltac:(lia))). replace (Z.min 3 (i - k + 1)) with 3%Z in DL by lia.
        destruct (larfg64_3 lm LM (4 * N) HN _ _ _ _ _ _ _ _ (WB k (k - 1)%Z ltac:(lia) ltac:(lia)) (WB (k + 1)%Z (k - 1)%Z ltac:(lia) ltac:(lia)) (WB (k + 2)%Z (k - 1)%Z ltac:(lia) ltac:(lia)) DL DX) as (u2 & u3 & t & LR).
        exists u2, u3, t. split; [left; exact K2|exact LR].
      - replace (Z.min 3 (i - k + 1)) with 2%Z in DL by lia.
        destruct (larfg64_2 lm LM (4 * N) HN _ _ _ _ _ _ _ _ (WB k (k - 1)%Z ltac:(lia) ltac:(lia)) (WB (k + 1)%Z (k - 1)%Z ltac:(lia) ltac:(lia)) DL DX) as (u2 & t & LR).
        exists u2, 0, t. split; [right; reflexivity|exact LR]. }
    destruct LR as (u2 & u3 & t & HV & LR). destruct LR as [RA LB LX2 LX3 _].
    assert (TH : u3 * (if (k + 2 <=? i)%Z then G (k + 2)%Z (k - 1)%Z else 0) = u3 * G (k + 2)%Z (k - 1)%Z) by (destruct (Z.leb_spec (k + 2) i); [reflexivity|destruct HV as [Q0|E0]; [lia|rewrite E0; ring]]).
    rewrite TH in LB, LX2, LX3.
    assert (GET := fun a b => stored_get h k beta a b BG ltac:(lia) Hk). set (h1 := stored h k beta) in *.
    assert (Z0 : zf f0) by (split; reflexivity).
    destruct (tail_is x k h1 z G Q v' beta y2 y3 tau u2 u3 t) as (h' & z' & G' & Q' & EQ & W'); try assumption; try lia.
    - eapply same_shape_trans; [apply stored_shape|exact Sh].
    - intros a b Ha Hb Hkb. rewrite GET by lia. destruct (Z.eqb_spec b (k - 1)); [lia|]. cbn [andb]. apply J1; assumption.
    - intros a b Ha Hb Hkb. rewrite GET by lia. destruct (Z.eqb_spec b (k - 1)) as [->|].
      + cbn [andb]. destruct (Z.leb_spec k a), (Z.leb_spec a (Z.min i (k + 2))); cbn [andb]; try lia.
        * unfold rleft. destruct (Z.eqb_spec a k) as [->|]; [rewrite wvec_0, Rmult_1_r; exact LB|].
          assert (a = k + 1 \/ a = k + 2)%Z as [-> | ->] by lia; (apply near_zero; [exact Z0|]); [rewrite wvec_1; exact LX2|rewrite wvec_2].
          replace (k + 2 <=? i)%Z with true in LX3 by (symmetry; apply Z.leb_le; lia). exact LX3.
        * rewrite hq_L_rows3 by lia. apply near_same; apply J1; lia.
        * rewrite (hq_L_rows l i k G u2 u3 t) by (assumption || lia). apply near_same; apply J1; lia.
      + cbn [andb]. rewrite (hq_L_cols ilo ihi l i Hl Hi k G u2 u3 t) by (assumption || lia). apply near_same; apply J1; lia.
    - intros a b Ha Hb Hkb Hn. rewrite GET by lia. destruct (Z.leb_spec k a), (Z.leb_spec a (Z.min i (k + 2))); rewrite ?andb_false_r; try lia; cbn [andb].
      + rewrite hq_L_rows3 by lia. apply J1; lia.
      + rewrite ?andb_false_r. cbn [andb]. rewrite (hq_L_rows l i k G u2 u3 t) by (assumption || lia). apply J1; lia.
    - intros a b Ha Hb Hkb Hlt. rewrite GET by lia. destruct (Z.eqb_spec b (k - 1)) as [->|].
      + cbn [andb]. destruct (Z.leb_spec k a), (Z.leb_spec a (Z.min i (k + 2))); cbn [andb]; try lia.
        * destruct (Z.eqb_spec a k); [lia|reflexivity].
        * rewrite (proj2 (J1 a (k - 1)%Z ltac:(lia) ltac:(lia))). apply (ch_low _ _ _ _ _ _ HC); [lia|lia|lia|]. unfold hq_bulge. lia.
      + cbn [andb]. rewrite (proj2 (J1 a b ltac:(lia) ltac:(lia))). apply (ch_low _ _ _ _ _ _ HC); [lia|lia|lia|]. unfold hq_bulge. lia.
    - intros a b Ha Hb Ho. rewrite GET by lia. destruct (Z.eqb_spec b (k - 1)); cbn [andb]; [|apply J2; assumption].
      destruct (Z.leb_spec k a), (Z.leb_spec a (Z.min i (k + 2))); cbn [andb]; try lia; apply J2; assumption.
    - exists h', z', v', tau, G', Q', beta, y2, y3. split; [exact EQ|]. split; [exact W'|exact V'].
  Qed.

  Lemma step_first x m h z G Q v t1 w1 w2 w3 : wf x m h z G Q -> hessenberg ilo ihi G -> v3s v w1 w2 w3 -> (l <= m <= i - 2)%Z -> 0 <= x <= Xm ->
    bnd 1 w1 -> bnd 1 w2 -> bnd 1 w3 -> 0 < B2R w1 * B2R w1 + B2R w2 * B2R w2 + B2R w3 * B2R w3 ->
    (m = l \/ G m (m - 1)%Z * G m (m - 1)%Z * (B2R w2 * B2R w2 + B2R w3 * B2R w3) <= (B2R w1 * B2R w1 + B2R w2 * B2R w2 + B2R w3 * B2R w3) * (d4 * d4)) ->
    exists h' z' v' t' G' Q' y1 y2 y3, hq_step wantz iloz ihiz l i l m i m (h, z, v, t1) = Ok (h', z', v', t') /\ wf (x + 1) (m + 1) h' z' G' Q' /\ v3s v' y1 y2 y3.
  Proof.
    intros W HE V Hm Hx B1 B2 B3 WP ST. pose proof W as [Sh J1 J2 J3 HC SI ZI]. change (NBhs lm) with NBhw in J1, J2.
    assert (BG : big n h) by (eapply big_shape; eassumption).
    assert (FH1 : full h) by (eapply full_shape; eassumption).
    destruct (hq_reflector_get n h FH1 BG v t1 w1 w2 w3 m m i V ltac:(lia) ltac:(lia)) as (v' & beta & tau & y2 & y3 & x' & DL & DX & ER & V').
    rewrite Z.ltb_irrefl in DL. cbv zeta in DL. replace (Z.min 3 (i - m + 1)) with 3%Z in DL by lia.
    assert (M1 : mid 1) by (split; [change 1 with (bpow radix2 0); apply bpow_le; lia|change 1 with (bpow radix2 0); apply bpow_le; lia]).
    destruct (larfg64_3 lm LM 1 M1 _ _ _ _ _ _ _ _ B1 B2 B3 DL DX) as (u2 & u3 & t & LR). destruct LR as [RA _ _ _ FILL].
    assert (HV : (m + 2 <= i)%Z \/ u3 = 0) by (left; lia).
    assert (RA' : rapp y2 (if (m + 2 <=? i)%Z then y3 else B754_zero false) tau u2 u3 t) by (replace (m + 2 <=? i)%Z with true by (symmetry; apply Z.leb_le; lia); exact RA).
    unfold hq_step. rewrite ER. cbn [bind]. rewrite Z.ltb_irrefl.
    destruct (Z.eq_dec m l) as [->|Nl].
    - rewrite Z.ltb_irrefl.
      destruct (tail_is x l h z G Q v' beta y2 y3 tau u2 u3 t) as (h' & z' & G' & Q' & EQ & W'); try assumption; try lia.
      + intros a b Ha Hb _. apply J1; assumption.
      + exists h', z', v', tau, G', Q', beta, y2, y3. split; [exact EQ|]. split; [exact W'|exact V'].
    - replace (l <? m)%Z with true by (symmetry; apply Z.ltb_lt; lia). destruct ST as [|ST]; [lia|].
      set (X := G m (m - 1)%Z) in *.
      assert (HCOL : forall a, (m < a <= m + 2)%Z -> G a (m - 1)%Z = 0) by (intros; apply HE; lia).
      assert (DR : X * X * (t * t * (u2 * u2 + u3 * u3)) <= d4 * d4).
      { set (W2 := B2R w1 * B2R w1 + B2R w2 * B2R w2 + B2R w3 * B2R w3) in *. apply Rmult_le_reg_l with W2; [exact WP|].
        replace (W2 * (X * X * (t * t * (u2 * u2 + u3 * u3)))) with (X * X * (W2 * (t * t * (u2 * u2 + u3 * u3)))) by ring.
        eapply Rle_trans; [apply Rmult_le_compat_l; [apply Rle_0_sqr|exact FILL]|exact ST]. }
      assert (D0 : 0 <= d4) by apply (delta_N N HN).
      assert (DR2 : Rabs (X * (t * u2)) <= d4).
      { apply abs_of_sq; [exact D0|]. eapply Rle_trans; [|exact DR]. assert (0 <= X * t * u3 * (X * t * u3)) by apply Rle_0_sqr. nra. }
      assert (DR3 : Rabs (X * (t * u3)) <= d4).
      { apply abs_of_sq; [exact D0|]. eapply Rle_trans; [|exact DR]. assert (0 <= X * t * u2 * (X * t * u2)) by apply Rle_0_sqr. nra. }
      assert (XB : near_r (fmul (get2 h m (m - 1)) (fsub f1 tau)) (X - X * t) d4).
      { destruct (mid_facts _ HN) as (M0 & UM & UUM & ET & BIG & UMM). pose proof u_tiny as [U0 U1].
        assert (UUUM : u64 * (u64 * (u64 * (4 * N))) <= u64 * (u64 * (4 * N))) by (assert (0 <= u64 * (u64 * (4 * N))) by (apply Rmult_le_pos; lra); nra).
        assert (BG1 : 10 <= bpow radix2 1023) by (apply Rle_trans with (bpow radix2 4); [change (bpow radix2 4) with 16; lra|apply bpow_le; lia]).
        assert (O : ab (f1 : b64) 1 0 1).
        { pose proof (ab_exact (f1 : b64) 1 eq_refl) as O. assert (E1 : B2R (f1 : b64) = 1) by exact B2R_1. rewrite E1 in O. apply O. rewrite Rabs_R1. lra. }
        assert (T1 : ab (fsub f1 tau) (1 - t) (134 * u64) 3).
        { assert (UU : u64 * u64 <= / 1000000000000 * u64) by (apply Rmult_le_compat_r; lra).
          eapply ab_weak; [eapply (ab_sub lm); [exact O|apply (ra_1 _ _ _ _ _ _ RA)|]| |]; lra. }
        destruct (w_bnd x m h z G Q m (m - 1)%Z W Hx ltac:(lia) ltac:(lia)) as [FX BX].
        assert (P : ab (fmul (get2 h m (m - 1)) (fsub f1 tau)) (B2R (get2 h m (m - 1)) * (1 - t)) (1024 * (u64 * (4 * N))) (12 * N)).
        { eapply ab_weak; [eapply (ab_mul lm); [apply ab_exact; [exact FX|exact BX]|exact T1|]| |]; lra. }
        rewrite delta_u. destruct P as (P1 & P2 & _). split; [exact P1|]. rewrite (proj2 (J1 m (m - 1)%Z ltac:(lia) ltac:(lia))) in P2. fold X in P2. replace (X - X * t) with (X * (1 - t)) by ring. exact P2. }
      set (h1 := mod2 h m (m - 1) _).
      assert (GET : forall a b, (1 <= a <= n)%Z -> (1 <= b <= n)%Z -> get2 h1 a b = if ((a =? m) && (b =? m - 1))%Z%bool then fmul (get2 h m (m - 1)) (fsub f1 tau) else get2 h a b).
      { intros a b Ha Hb. unfold h1. rewrite (mod2_get n) by (assumption || lia). reflexivity. }
      destruct (tail_is x m h1 z G Q v' beta y2 y3 tau u2 u3 t) as (h' & z' & G' & Q' & EQ & W'); try assumption; try lia.
      + eapply same_shape_trans; [apply mod2_shape|exact Sh].
      + intros a b Ha Hb Hmb. rewrite GET by lia. destruct (Z.eqb_spec b (m - 1)); [lia|]. rewrite andb_false_r. apply J1; assumption.
      + intros a b Ha Hb Hmb. rewrite GET by lia. destruct (Z.eqb_spec b (m - 1)) as [->|]; [rewrite andb_true_r|rewrite andb_false_r].
        * destruct (Z.eqb_spec a m) as [->|].
          { unfold rleft. rewrite wvec_0, Rmult_1_r. rewrite (HCOL (m + 1)%Z), (HCOL (m + 2)%Z) by lia. fold X. replace ((X + u2 * 0 + u3 * 0) * t) with (X * t) by ring. exact XB. }
          assert (a < m \/ a = m + 1 \/ a = m + 2 \/ m + 3 <= a)%Z as [Q1 | [-> | [-> | Q1]]] by lia.
          { rewrite (hq_L_rows l i m G u2 u3 t) by (assumption || lia). apply near_same; apply J1; lia. }
          { apply near_zero; [split; [apply J1; lia|rewrite (proj2 (J1 (m + 1)%Z (m - 1)%Z ltac:(lia) ltac:(lia))); apply HCOL; lia]|].
            unfold rleft. rewrite wvec_1. rewrite (HCOL (m + 1)%Z), (HCOL (m + 2)%Z) by lia. fold X. replace (0 - (X + u2 * 0 + u3 * 0) * (t * u2)) with (- (X * (t * u2))) by ring. rewrite Rabs_Ropp. exact DR2. }
          { apply near_zero; [split; [apply J1; lia|rewrite (proj2 (J1 (m + 2)%Z (m - 1)%Z ltac:(lia) ltac:(lia))); apply HCOL; lia]|].
            unfold rleft. rewrite wvec_2. rewrite (HCOL (m + 1)%Z), (HCOL (m + 2)%Z) by lia. fold X. replace (0 - (X + u2 * 0 + u3 * 0) * (t * u3)) with (- (X * (t * u3))) by ring. rewrite Rabs_Ropp. exact DR3. }
          { rewrite hq_L_rows3 by lia. apply near_same; apply J1; lia. }
        * rewrite (hq_L_cols ilo ihi l i Hl Hi m G u2 u3 t) by (assumption || lia). apply near_same; apply J1; lia.
      + intros a b Ha Hb Hmb Hn. rewrite GET by lia. destruct (Z.eqb_spec a m); [lia|]. cbn [andb]. unfold rleft. rewrite wvec_out by lia.
        rewrite (proj2 (J1 a b Ha Hb)). ring.
      + intros a b Ha Hb Hmb Hlt. rewrite GET by lia. destruct (Z.eqb_spec a m) as [->|]; cbn [andb]; [destruct (Z.eqb_spec b (m - 1)); [lia|]; rewrite (proj2 (J1 m b Ha Hb))|rewrite (proj2 (J1 a b Ha Hb))]; apply HE; lia.
      + intros a b Ha Hb Ho. rewrite GET by lia. destruct (Z.eqb_spec a m) as [->|]; cbn [andb]; [destruct (Z.eqb_spec b (m - 1)); [lia|]|]; apply J2; assumption.
      + exists h', z', v', tau, G', Q', beta, y2, y3. split; [exact EQ|]. split; [exact W'|exact V'].
  Qed.
End Sweep.
