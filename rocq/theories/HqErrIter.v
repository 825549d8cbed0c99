(** One iteration of dlahqr in binary64: split, sweep. *)
From Coq Require Import Reals Lra.
From Flocq Require Import IEEE754.BinarySingleNaN Core.
From Verif Require Import Base Num Array Blas Lapack Dlahqr Spec SpecR SpecErr SpecSim B64 B64Lemmas B64Nn Lists RsumLemmas RoundErr Near
  FaLemmas LahqrProofs RealMat SimArray SimSweep LanvCalc LanvStd HqReal HqIter HqGet HqReflGen HqErrApp HqErrRefl HqErrReal HqErrStep HqErrSweep HqErrStart HqErrPick HqErrNan.
Open Scope R_scope.

Section Iter.
  Context (lm : libm) (LM : libm_ok lm).
  #[local] Instance NBit : Num b64 := B64 lm.
  Context (wantz : bool) (n ilo ihi iloz ihiz : Z).
  Hypothesis (Hlo : (1 <= ilo)%Z) (Hlt : (ilo < ihi)%Z) (Hhi : (ihi <= n)%Z).
  Notation inr a := (ilo <= a <= ihi)%Z.
  Notation mm := (mmul ilo ihi).
  Notation nh := (ihi - ilo + 1)%Z.
  Context (A : Z -> Z -> R) (N y Xm : R).
  Hypothesis (HN : mid (4 * N)) (HA : frob2 ilo ihi A <= N * N).
  Hypothesis (Hy : 0 < y) (HY : 3 * (IZR nh * (delta (4 * N) * delta (4 * N))) <= y * y) (HX : Xm * (2 * y) <= N).
  Hypothesis (Hnh : (nh <= 2 ^ 20)%Z) (HD : bpow radix2 (-950) <= delta (4 * N)).
  Context (ZP : R -> fa b64 -> (Z -> Z -> R) -> Prop).
  Hypothesis (ZPw : forall x x' z Q, ZP x z Q -> 0 <= x <= x' -> ZP x' z Q).
  Hypothesis (ZP3 : forall x z Q k (v2 v3 t1 : b64) w2 w3 t, ZP x z Q -> 0 <= x <= Xm -> (ilo <= k)%Z -> (k + 2 <= ihi)%Z -> rapp v2 v3 t1 w2 w3 t ->
    ZP (x + 1) (if wantz then for_ (range iloz ihiz) z (right3 k v2 v3 t1 (fmul t1 v2) (fmul t1 v3)) else z) (mm Q (refl t (wvec k w2 w3)))).
  Hypothesis (ZP2 : forall x z Q k (v2 t1 : b64) w2 t, ZP x z Q -> 0 <= x <= Xm -> (ilo <= k)%Z -> (k + 1 <= ihi)%Z -> rapp v2 (B754_zero false) t1 w2 0 t ->
    ZP (x + 1) (if wantz then for_ (range iloz ihiz) z (right2 k v2 t1 (fmul t1 v2)) else z) (mm Q (refl t (wvec k w2 0)))).
  Context (hin : fa b64).
  Hypothesis (HBg : big n hin) (FH : full hin).
  Notation sml := (bpow radix2 (-969)).

  Definition is_val (f : b64) (g : R) : Prop := is_finite f = true /\ B2R f = g.
  Record hinv (x : R) (i l : Z) (h z : fa b64) (G Q : Z -> Z -> R) : Prop := {
    e_shape : same_shape h hin;
    e_low : forall a b, inr a -> inr b -> (b <= a)%Z -> is_val (get2 h a b) (G a b);
    e_up : forall a b, inr a -> inr b -> (a < b)%Z -> (forall s, (a < s <= b)%Z -> G s (s - 1)%Z <> 0) -> is_val (get2 h a b) (G a b);
    e_hess : hessenberg ilo ihi G;
    e_sim : simf ilo ihi A (x * (2 * y)) G Q;
    e_z : ZP x z Q;
    e_top : (ilo < l)%Z -> G l (l - 1)%Z = 0;
    e_bot : (ilo <= i < ihi)%Z -> G (i + 1)%Z i = 0
  }.

  Lemma hinv_weaken x x' i l h z G Q : hinv x i l h z G Q -> 0 <= x <= x' -> hinv x' i l h z G Q.
  Proof.
    intros [] L. constructor; try assumption.
    - eapply simf_weaken; [eassumption|]. split; [apply Rmult_le_pos; lra|apply Rmult_le_compat_r; lra].
    - eapply ZPw; [eassumption|lra].
  Qed.

  Lemma e_bound x i l h z G Q a b : hinv x i l h z G Q -> 0 <= x <= Xm -> inr a -> inr b -> Rabs (G a b) <= 2 * N.
  Proof.
    intros I Hx Ha Hb. pose proof (N_pos N HN) as NP. apply (frob_bound ilo ihi); [assumption|assumption|lra|].
    eapply (sim_bound ilo ihi A N y Xm HN HA Hy HX x G Q); [apply (e_sim _ _ _ _ _ _ _ I)|exact Hx].
  Qed.
  Lemma val_bnd f g : is_val f g -> Rabs g <= 2 * N -> bnd (4 * N) f.
  Proof. intros [F E] H. pose proof (N_pos N HN). split; [exact F|]. rewrite E. lra. Qed.

  Lemma small_false x i l h z G Q k : hinv x i l h z G Q -> (ilo < k <= ihi)%Z -> hq_small ilo ihi h k = false -> sml <= Rabs (G k (k - 1)%Z).
  Proof.
    intros I Hk S. destruct (e_low _ _ _ _ _ _ _ I k (k - 1)%Z) as [F E]; [lia|lia|lia|]. rewrite <- E. apply (small64_false lm ilo ihi h k); [lia|exact F|exact S].
  Qed.
  Lemma small_true x i l h z G Q k : hinv x i l h z G Q -> 0 <= x <= Xm -> (ilo < k <= ihi)%Z -> hq_small ilo ihi h k = true -> Rabs (G k (k - 1)%Z) <= delta (4 * N).
  Proof.
    intros I Hx Hk S. destruct (e_low _ _ _ _ _ _ _ I k (k - 1)%Z) as [F E]; [lia|lia|lia|]. rewrite <- E. apply (small64_true lm (4 * N) HN ilo ihi h k); [lia|exact HD|exact Hk| |exact S].
    intros a b Ha Hb. eapply val_bnd; [apply (e_low _ _ _ _ _ _ _ I); lia|]. eapply e_bound; [exact I|exact Hx|lia|lia].
  Qed.

  Lemma delta_y : delta (4 * N) * delta (4 * N) <= y * y.
  Proof.
    pose proof (delta_N N HN) as [D0 _]. assert (1 <= IZR nh) by (apply IZR_le; lia). assert (0 <= delta (4 * N) * delta (4 * N)) by (apply Rmult_le_pos; assumption). nra.
  Qed.

  (** dropping a small entry *)
  Lemma hq_zero x i l h z G Q k : hinv x i l h z G Q -> 0 <= x -> (ilo < k <= i)%Z -> (i <= ihi)%Z -> Rabs (G k (k - 1)%Z) <= delta (4 * N) ->
    hinv (x + 1) i k (set2 h k (k - 1) f0) z (rupd G k (k - 1) 0) Q.
  Proof.
    intros I Hx Hk Hi BK. pose proof I as [Sh AL AU HE SI ZI IT IB].
    assert (BG : big n h) by (eapply big_shape; eassumption).
    assert (GE : forall a b, inr a -> inr b -> get2 (set2 h k (k - 1) f0) a b = if ((a =? k) && (b =? k - 1))%Z%bool then f0 else get2 h a b) by (intros a b Ha Hb; apply (set2_get n); try assumption; lia).
    constructor.
    - eapply same_shape_trans; [apply set2_shape|exact Sh].
    - intros a b Ha Hb Hab. rewrite GE by assumption. unfold rupd. destruct (_ && _); [split; reflexivity|apply AL; assumption].
    - intros a b Ha Hb Hab HS. rewrite GE by assumption. unfold rupd at 1. replace ((a =? k) && (b =? k - 1))%Z%bool with false by lia.
      apply AU; [assumption|assumption|assumption|]. intros s Hs X. apply (HS s Hs). unfold rupd. destruct (_ && _); [reflexivity|exact X].
    - intros a b Ha Hb Hab. rewrite rupd_other by lia. apply HE; assumption.
    - replace ((x + 1) * (2 * y)) with (x * (2 * y) + 2 * y) by ring. eapply simf_ext; [apply (simf_add ilo ihi A _ G Q (one_entry k (- G k (k - 1)%Z)) (2 * y) SI)|].
      + apply Rmult_le_pos; lra.
      + lra.
      + rewrite one_frob by lia. pose proof delta_y as DY. assert (G k (k - 1)%Z * G k (k - 1)%Z <= delta (4 * N) * delta (4 * N)) by (apply sq_of_abs; exact BK). nra.
      + intros a b Ha Hb. unfold madd, one_entry, rupd. destruct (Z.eqb_spec a k) as [->|], (Z.eqb_spec b (k - 1)) as [->|]; cbn [andb]; ring.
    - eapply ZPw; [exact ZI|lra].
    - intros _. apply rupd_same.
    - intros Hb. rewrite rupd_other by lia. apply IB; assumption.
  Qed.

  Lemma top_zero x i l h z G Q : hinv x i l h z G Q -> (ilo <= l <= ihi)%Z -> forall a b, inr a -> inr b -> (b < l <= a)%Z -> G a b = 0.
  Proof.
    intros I Hl a b Ha Hb H. destruct (Z_lt_le_dec (b + 1) a) as [C|C]; [apply (e_hess _ _ _ _ _ _ _ I); assumption|].
    assert (a = l) as -> by lia. assert (b = (l - 1)%Z) as -> by lia. apply (e_top _ _ _ _ _ _ _ I). lia.
  Qed.
  Lemma bot_zero x i l h z G Q : hinv x i l h z G Q -> (ilo <= i <= ihi)%Z -> forall a b, inr a -> inr b -> (b <= i < a)%Z -> G a b = 0.
  Proof.
    intros I Hl a b Ha Hb H. destruct (Z_lt_le_dec (b + 1) a) as [C|C]; [apply (e_hess _ _ _ _ _ _ _ I); assumption|].
    assert (b = i) as -> by lia. assert (a = (i + 1)%Z) as -> by lia. apply (e_bot _ _ _ _ _ _ _ I). lia.
  Qed.

  (** the sweep *)
  Section Run.
    Context (l i m : Z) (hs : fa b64) (Gs : Z -> Z -> R).
    Hypothesis (Hl : (ilo <= l)%Z) (Hi : (i <= ihi)%Z) (Hm : (l <= m <= i - 2)%Z) (SHs : same_shape hs hin).
    Notation wf := (wf lm n ilo ihi A y ZP l i hs Gs).
    Lemma rest64 c : forall x k h z G Q v t1 w1 w2 w3, (k = i - Z.of_nat c)%Z -> wf x k h z G Q -> v3s v w1 w2 w3 -> (m < k)%Z -> 0 <= x -> x + IZR (Z.of_nat c) <= Xm ->
      exists h' z' v' t' G' Q' y1 y2 y3, for_M (range k (i - 1)) (h, z, v, t1) (hq_step wantz iloz ihiz l i l m i) = Ok (h', z', v', t') /\
        wf (x + IZR (Z.of_nat c)) i h' z' G' Q' /\ v3s v' y1 y2 y3.
    Proof.
      induction c as [|c IH]; intros x k h z G Q v t1 w1 w2 w3 Ek W V Hmk Hx HXm.
      - assert (k = i) as -> by lia. rewrite range_nil by lia. cbn [for_M]. exists h, z, v, t1, G, Q, w1, w2, w3. split; [reflexivity|]. split; [|exact V].
        change (IZR (Z.of_nat 0)) with 0. rewrite Rplus_0_r. exact W.
      - assert (C1 : IZR (Z.of_nat (S c)) = IZR (Z.of_nat c) + 1) by (rewrite Nat2Z.inj_succ, <- Z.add_1_r, plus_IZR; reflexivity).
        assert (C0 : 0 <= IZR (Z.of_nat c)) by (apply IZR_le; lia).
        rewrite range_cons by lia. cbn [for_M].
        destruct (step_later lm LM wantz n ilo ihi iloz ihiz Hlo Hhi A N y Xm HN HA Hy HY HX ZP ZP3 ZP2 l i Hl Hi hs Gs
          (big_shape n _ _ SHs HBg) (full_shape _ _ SHs FH) x m k h z G Q v t1 w1 w2 w3 W V ltac:(lia) ltac:(lia) ltac:(lra))
          as (h1 & z1 & v1 & t' & G1 & Q1 & y1 & y2 & y3 & E & W1 & V1).
        change (hq_step wantz iloz ihiz l i l m i k (h, z, v, t1) = Ok (h1, z1, v1, t')) in E. rewrite E. cbn [bind].
        destruct (IH (x + 1) (k + 1)%Z h1 z1 G1 Q1 v1 t' y1 y2 y3 ltac:(lia) W1 V1 ltac:(lia) ltac:(lra) ltac:(lra)) as (h2 & z2 & v2 & t2 & G2 & Q2 & u1 & u2 & u3 & E2 & W2 & V2).
        exists h2, z2, v2, t2, G2, Q2, u1, u2, u3. split; [exact E2|]. split; [|exact V2]. rewrite C1. replace (x + (IZR (Z.of_nat c) + 1)) with (x + 1 + IZR (Z.of_nat c)) by ring. exact W2.
    Qed.
  End Run.

  Lemma sweep64 x i l h z G Q v t1 m w1 w2 w3 : hinv x i l h z G Q -> 0 <= x -> x + IZR (i - m) <= Xm -> (ilo <= l)%Z -> (l + 2 <= i <= ihi)%Z ->
    (forall a, (l < a <= i)%Z -> G a (a - 1)%Z <> 0) -> v3s v w1 w2 w3 -> (l <= m <= i - 2)%Z ->
    bnd 1 w1 -> bnd 1 w2 -> bnd 1 w3 -> / 4 <= B2R w1 * B2R w1 + B2R w2 * B2R w2 + B2R w3 * B2R w3 ->
    (m = l \/ B2R (get2 h m (m - 1)) * B2R (get2 h m (m - 1)) * (B2R w2 * B2R w2 + B2R w3 * B2R w3) <= (B2R w1 * B2R w1 + B2R w2 * B2R w2 + B2R w3 * B2R w3) * (delta (4 * N) * delta (4 * N))) ->
    exists h' z' v' t' G' Q', for_M (range m (i - 1)) (h, z, v, t1) (hq_step wantz iloz ihiz l i l m i) = Ok (h', z', v', t') /\
      hinv (x + IZR (i - m)) i l h' z' G' Q' /\ three v' /\ (forall a b, inr a -> inr b -> (i < a)%Z -> (i < b)%Z -> G' a b = G a b).
  Proof.
    intros I Hx HXm Hl Hi NZ V Hm B1 B2 B3 WP ST. pose proof I as [Sh AL AU HE SI ZI IT IB].
    assert (BA : forall a b, (l <= a <= i)%Z -> (l <= b <= i)%Z -> is_val (get2 h a b) (G a b)).
    { intros a b Ha Hb. destruct (Z_le_gt_dec b a); [apply AL; lia|]. apply AU; [lia|lia|lia|]. intros s Hs. apply NZ. lia. }
    pose proof (top_zero _ _ _ _ _ _ _ I ltac:(lia)) as TZ. pose proof (bot_zero _ _ _ _ _ _ _ I ltac:(lia)) as BZ.
    assert (W : wf lm n ilo ihi A y ZP l i h G x m h z G Q).
    { constructor; [apply same_shape_refl|exact BA|reflexivity|reflexivity| |exact SI|exact ZI]. constructor; [intros; apply HE; assumption|assumption|assumption]. }
    assert (IM : 2 <= IZR (i - m)) by (apply IZR_le; lia).
    assert (STG : m = l \/ G m (m - 1)%Z * G m (m - 1)%Z * (B2R w2 * B2R w2 + B2R w3 * B2R w3) <= (B2R w1 * B2R w1 + B2R w2 * B2R w2 + B2R w3 * B2R w3) * (delta (4 * N) * delta (4 * N))).
    { destruct ST as [ST|ST]; [left; exact ST|]. destruct (Z.eq_dec m l); [left; assumption|right]. rewrite (proj2 (BA m (m - 1)%Z ltac:(lia) ltac:(lia))) in ST. exact ST. }
    rewrite range_cons by lia. cbn [for_M].
    destruct (step_first lm LM wantz n ilo ihi iloz ihiz Hlo Hhi A N y Xm HN HA Hy HY HX ZP ZP3 ZP2 l i Hl ltac:(lia) h G
      (big_shape n _ _ Sh HBg) (full_shape _ _ Sh FH) x m h z G Q v t1 w1 w2 w3 W HE V Hm ltac:(lra) B1 B2 B3 ltac:(lra) STG)
      as (h1 & z1 & v1 & t' & G1 & Q1 & y1 & y2 & y3 & E & W1 & V1).
    change (hq_step wantz iloz ihiz l i l m i m (h, z, v, t1) = Ok (h1, z1, v1, t')) in E. rewrite E. cbn [bind].
    assert (CC : IZR (Z.of_nat (Z.to_nat (i - m - 1))) = IZR (i - m) - 1) by (rewrite Z2Nat.id by lia; rewrite minus_IZR; reflexivity).
    destruct (rest64 l i m h G Hl ltac:(lia) Hm Sh (Z.to_nat (i - m - 1)) (x + 1) (m + 1)%Z h1 z1 G1 Q1 v1 t' y1 y2 y3 ltac:(lia) W1 V1 ltac:(lia) ltac:(lra) ltac:(lra))
      as (h2 & z2 & v2 & t2 & G2 & Q2 & u1 & u2 & u3 & E2 & W2 & V2).
    rewrite CC in W2. replace (x + 1 + (IZR (i - m) - 1)) with (x + IZR (i - m)) in W2 by ring.
    exists h2, z2, v2, t2, G2, Q2. split; [exact E2|]. destruct W2 as [Sh2 J1 J2 J3 [CL CT CB] SI2 ZI2].
    split; [|split; [apply V2|intros; apply J3; lia]].
    assert (SAME : forall a b, inr a -> inr b -> (b < l)%Z \/ (i < a)%Z \/ (a < l)%Z /\ (i < b)%Z -> get2 h2 a b = get2 h a b) by (intros a b Ha Hb Hab; apply J2; lia).
    constructor; try assumption.
    - eapply same_shape_trans; eassumption.
    - intros a b Ha Hb Hab. destruct (Z_le_gt_dec l b) as [L1|L1], (Z_le_gt_dec a i) as [L2|L2].
      + apply J1; lia.
      + rewrite SAME by (try assumption; lia). destruct (Z_le_gt_dec b i) as [L3|L3].
        * rewrite CB by lia. rewrite <- (BZ a b) by lia. apply AL; assumption.
        * rewrite J3 by lia. apply AL; assumption.
      + rewrite SAME by (try assumption; lia). destruct (Z_le_gt_dec l a) as [L3|L3].
        * rewrite CT by lia. rewrite <- (TZ a b) by lia. apply AL; assumption.
        * rewrite J3 by lia. apply AL; assumption.
      + rewrite SAME by (try assumption; lia). rewrite J3 by lia. apply AL; assumption.
    - intros a b Ha Hb Hab HS.
      assert (OUT : (i < a)%Z \/ (b < l)%Z -> is_val (get2 h2 a b) (G2 a b)).
      { intros O. rewrite SAME by (try assumption; lia). rewrite J3 by lia. apply AU; [assumption|assumption|assumption|]. intros s Hs X. apply (HS s Hs). rewrite J3 by lia. exact X. }
      destruct (Z_le_gt_dec l a) as [L1|L1].
      + destruct (Z_le_gt_dec b i) as [L2|L2]; [apply J1; lia|]. destruct (Z_le_gt_dec a i) as [L3|L3]; [|apply OUT; lia].
        exfalso. apply (HS (i + 1)%Z); [lia|]. apply CB; lia.
      + destruct (Z_le_gt_dec l b) as [L2|L2]; [|apply OUT; lia]. exfalso. apply (HS l); [lia|]. apply CT; lia.
    - intros a b Ha Hb Hab. destruct (Z_le_gt_dec a i) as [L2|L2].
      + apply CL; [assumption|assumption|assumption|]. unfold hq_bulge. lia.
      + destruct (Z_le_gt_dec b i) as [L3|L3]; [apply CB; lia|]. destruct (Z_le_gt_dec l b); [rewrite J3 by lia; apply HE; assumption|apply CT; lia].
    - intros Hil. apply CT; lia.
    - intros Hii. apply CB; lia.
  Qed.

  Notation poisoned := (poisoned lm ilo ihi).
  Lemma iter64 x its st G Q : hinv x (sI st) (sL st) (sH st) (sZ st) G Q -> three (sV st) -> 0 <= x -> x + IZR nh <= Xm -> (ilo <= sL st < sI st)%Z -> (sI st <= ihi)%Z ->
    exists st' b, hq_iter true wantz ilo ihi iloz ihiz its st = Ok (st', b) /\ three (sV st') /\ sI st' = sI st /\ sIts st' = its /\ sWr st' = sWr st /\ sWi st' = sWi st /\
      (ilo <= sL st' <= sI st)%Z /\ (b = true -> (sI st - 1 <= sL st')%Z) /\ (b = false -> (sL st' < sI st - 1)%Z) /\
      ((exists G' Q', hinv (x + IZR nh) (sI st) (sL st') (sH st') (sZ st') G' Q' /\
         (forall a b, inr a -> inr b -> (sI st < a)%Z -> (sI st < b)%Z -> G' a b = G a b) /\
         (b = true -> forall a, (sL st' < a <= sI st)%Z -> sml <= Rabs (G' a (a - 1)%Z))) \/ poisoned (sH st')).
  Proof.
    intros I TV Hx HXm Hl Hi. unfold hq_iter. cbv zeta. set (i := sI st) in *. set (h := sH st) in *.
    destruct (hq_scan_facts ilo ihi h (sL st) i (sK st) ltac:(lia)) as (K1 & K2 & K3). set (k := hq_scan ilo ihi h (sL st) i (sK st)) in *. clearbody k.
    assert (N2 : 2 <= IZR nh) by (apply IZR_le; lia).
    pose proof (bpow_gt_0 radix2 (-969)) as SP. pose proof (delta_N N HN) as [D0 _].
    assert (NZ : forall a, (k < a <= i)%Z -> sml <= Rabs (G a (a - 1)%Z)) by (intros a Ha; eapply small_false; [exact I|lia|apply K2; assumption]).
    assert (STEP : exists G1, hinv (x + 1) i k (if (ilo <? k)%Z then set2 h k (k - 1) f0 else h) (sZ st) G1 Q /\
      (forall a, (k < a <= i)%Z -> sml <= Rabs (G1 a (a - 1)%Z)) /\ (forall a b, inr a -> inr b -> (i < a)%Z -> (i < b)%Z -> G1 a b = G a b)).
    { destruct (Z.ltb_spec ilo k) as [L|L].
      - assert (BK : Rabs (G k (k - 1)%Z) <= delta (4 * N)).
        { destruct K3 as [K3|K3].
          - rewrite K3 in *. rewrite (e_top _ _ _ _ _ _ _ I) by lia. rewrite Rabs_R0. exact D0.
          - eapply small_true; [exact I|lra|lia|exact K3]. }
        exists (rupd G k (k - 1) 0). split; [apply (hq_zero _ _ _ _ _ _ _ k I Hx ltac:(lia) Hi BK)|]. split.
        + intros a Ha. rewrite rupd_other by lia. apply NZ. assumption.
        + intros a b Ha Hb Hia Hib. apply rupd_other. lia.
      - assert (k = ilo) by lia. exists G. split; [|split; [exact NZ|reflexivity]]. apply (hinv_weaken _ (x + 1)) in I; [|lra]. destruct I. constructor; try assumption. lia. }
    destruct STEP as (G1 & I1 & NZ1 & F1). set (h1 := if (ilo <? k)%Z then _ else _) in *. clearbody h1.
    destruct (Z.leb_spec (i - 1) k) as [L|L].
    - exists (mkHq h1 (sWr st) (sWi st) (sZ st) (sV st) (sT1 st) (sM st) k k i its (sKdefl st) (sCs st) (sSn st)), true. cbn [sH sWr sWi sZ sV sI sL sK sIts]. split; [reflexivity|].
      split; [exact TV|]. repeat (split; [reflexivity|]). split; [lia|]. split; [lia|]. split; [discriminate|]. left. exists G1, Q.
      split; [apply (hinv_weaken (x + 1)); [exact I1|lra]|]. split; [exact F1|]. intros _. exact NZ1.
    - cbv iota. assert (BA : forall a b, (k <= a <= i)%Z -> (k <= b <= i)%Z -> is_val (get2 h1 a b) (G1 a b)).
      { intros a b Ha Hb. destruct (Z_le_gt_dec b a); [apply (e_low _ _ _ _ _ _ _ I1); lia|]. apply (e_up _ _ _ _ _ _ _ I1); [lia|lia|lia|]. intros s Hs E. specialize (NZ1 s ltac:(lia)). rewrite E, Rabs_R0 in NZ1. lra. }
      destruct (start64 lm (4 * N) HN h1 k i (sKdefl st + 1) (sM st) (sV st)) as (m & v & w1 & w2 & w3 & EM & Hm & V & CASES); [|lia|exact TV| |].
      { intros a b Ha Hb. eapply val_bnd; [apply BA; lia|]. eapply e_bound; [exact I1|lra|lia|lia]. }
      { intros a Ha E. specialize (NZ1 a ltac:(lia)). rewrite <- (proj2 (BA a (a - 1)%Z ltac:(lia) ltac:(lia))) in NZ1. change (B2R (get2 h1 a (a - 1)) = 0) in E. rewrite E, Rabs_R0 in NZ1. lra. }
      change (hq_start h1 (hq_shifts (hq_block h1 k i (sKdefl st + 1))) k i (sM st) (sV st) = (m, v)) in EM. rewrite EM.
      destruct CASES as [(-> & -> & -> & ->)|(B1 & B2 & B3 & WP & ST)].
      + destruct (for_M_ok (step_ok wantz hin (sZ st)) (range k (i - 1)) (h1, sZ st, v, sT1 st) (hq_step wantz iloz ihiz k i k k i)) as ([[[h' z'] v'] t'] & EF & OK).
        { split; [apply (e_shape _ _ _ _ _ _ _ I1)|]. split; [apply same_shape_refl|]. split; [reflexivity|apply V]. }
        { intros j s Hj Hs. apply hq_step_ok; assumption. }
        rewrite EF. cbn [bind]. exists (mkHq h' (sWr st) (sWi st) z' v' t' k k k i its (sKdefl st + 1) (sCs st) (sSn st)), false. cbn [sH sWr sWi sZ sV sI sL sK sIts].
        split; [reflexivity|]. split; [apply OK|]. repeat (split; [reflexivity|]). split; [lia|]. split; [discriminate|]. split; [lia|]. right.
        refine (sweep_nan lm LM n wantz ilo ihi iloz ihiz Hlo Hhi hin FH HBg k k i h1 (sZ st) v (sT1 st) _ (e_shape _ _ _ _ _ _ _ I1) (proj2 V) _ _ _ EF _); try lia. right. split; [reflexivity|exact V].
      + destruct (sweep64 (x + 1) i k h1 (sZ st) G1 Q v (sT1 st) m w1 w2 w3 I1) as (h' & z' & v' & t' & G' & Q' & EF & I' & TV' & F'); try assumption; try lia; try lra.
        { assert (IZR (i - m) + 1 <= IZR nh) by (rewrite <- plus_IZR; apply IZR_le; lia). lra. }
        { intros a Ha E. specialize (NZ1 a ltac:(lia)). rewrite E, Rabs_R0 in NZ1. lra. }
        rewrite EF. cbn [bind]. exists (mkHq h' (sWr st) (sWi st) z' v' t' m k k i its (sKdefl st + 1) (sCs st) (sSn st)), false. cbn [sH sWr sWi sZ sV sI sL sK sIts].
        split; [reflexivity|]. split; [exact TV'|]. repeat (split; [reflexivity|]). split; [lia|]. split; [discriminate|]. split; [lia|]. left. exists G', Q'.
        assert (IZR (i - m) + 1 <= IZR nh) by (rewrite <- plus_IZR; apply IZR_le; lia). assert (0 <= IZR (i - m)) by (apply IZR_le; lia).
        split; [eapply hinv_weaken; [exact I'|lra]|]. split; [intros a b Ha Hb Hia Hib; rewrite F', F1 by assumption; reflexivity|discriminate].
  Qed.
End Iter.
