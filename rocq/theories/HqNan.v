(** dlahqr in binary64: NaN entries of the active block are never overwritten, only moved by dlanv2. *)
From Coq Require Import ZArith Lia Bool List.
From Flocq Require Import IEEE754.BinarySingleNaN Core.
From Verif Require Import Base Num Array Blas Lapack Dlahqr Spec B64 B64Lemmas Lists FaLemmas Nrm2Proofs Nrm2F64 Blas1Proofs LarfgProofs LahqrProofs LahqrStuck LahqrTop HqIter HqRotRows HqGet HqReflGen HqErrStart HqErrNan HqErrCall.
Import ListNotations.
Open Scope Z_scope.

Section Nan.
  Context (lm : libm) (LM : libm_ok lm).
  #[local] Instance NBnn : Num b64 := B64 lm.
  Notation nan := (B754_nan : b64).
  Lemma sub_nan_l (x : b64) : fsub nan x = nan. Proof. destruct x; reflexivity. Qed.
  Lemma sub_nan_r (x : b64) : fsub x nan = nan. Proof. destruct x; reflexivity. Qed.
  Lemma add_nan_l (x : b64) : fadd nan x = nan. Proof. destruct x; reflexivity. Qed.
  Lemma add_nan_r (x : b64) : fadd x nan = nan. Proof. destruct x; reflexivity. Qed.
  Lemma mul_nan_l (x : b64) : fmul nan x = nan. Proof. destruct x; reflexivity. Qed.
  Lemma mul_nan_r (x : b64) : fmul x nan = nan. Proof. destruct x; reflexivity. Qed.
  Lemma div_nan_l (x : b64) : fdiv nan x = nan. Proof. destruct x; reflexivity. Qed.
  Lemma opp_nan : fneg nan = nan. Proof. reflexivity. Qed.
  Lemma abs_nan : fabs nan = nan. Proof. reflexivity. Qed.
  Lemma lt_nan_l (x : b64) : flt nan x = false. Proof. destruct x; reflexivity. Qed.
  Lemma le_nan_r (x : b64) : fle x nan = false. Proof. destruct x; reflexivity. Qed.
  Ltac nanz := repeat progress rewrite ?sub_nan_l, ?sub_nan_r, ?add_nan_l, ?add_nan_r, ?mul_nan_l, ?mul_nan_r, ?div_nan_l, ?opp_nan, ?abs_nan.
  Lemma le_nan_l (x : b64) : fle nan x = false. Proof. destruct x; reflexivity. Qed.

  Context (n : Z).

  Section Keep.
    Context (k : Z) (v2 v3 t1 t2 t3 : b64) (h : fa b64) (p q : Z) (HP : get2 h p q = nan).
    Lemma lv3 : lval3 k v2 v3 t1 t2 t3 h p q = nan.
    Proof. unfold lval3, vrefl3, pick3. repeat match goal with |- context [p =? ?r] => destruct (Z.eqb_spec p r); subst end; rewrite ?HP; nanz; reflexivity. Qed.
    Lemma rv3 : rval3 k v2 v3 t1 t2 t3 h p q = nan.
    Proof. unfold rval3, vrefl3, pick3. repeat match goal with |- context [q =? ?r] => destruct (Z.eqb_spec q r); subst end; rewrite ?HP; nanz; reflexivity. Qed.
    Lemma lv2 : lval2 k v2 t1 t2 h p q = nan.
    Proof. unfold lval2, vrefl2, pick2. repeat match goal with |- context [p =? ?r] => destruct (Z.eqb_spec p r); subst end; rewrite ?HP; nanz; reflexivity. Qed.
    Lemma rv2 : rval2 k v2 t1 t2 h p q = nan.
    Proof. unfold rval2, vrefl2, pick2. repeat match goal with |- context [q =? ?r] => destruct (Z.eqb_spec q r); subst end; rewrite ?HP; nanz; reflexivity. Qed.
  End Keep.

  (** the scalar a reflector is generated from stays NaN *)
  Lemma larfg_nan_alpha nr (x2 x3 : b64) beta x' tau : dlarfg nr nan (to_fa [x2; x3]) 1 = Ok (beta, x', tau) -> beta = nan.
  Proof.
    unfold dlarfg. destruct (nr <=? 1); [intros [= <- _ _]; reflexivity|]. cbv zeta. set (xn := dnrm2 _ _ _). clearbody xn.
    destruct (feq xn f0); [intros [= <- _ _]; reflexivity|].
    assert (BN : larfg_beta nan xn = nan) by (unfold larfg_beta; change (fsignum nan) with nan; nanz; reflexivity).
    rewrite BN, abs_nan, lt_nan_l. cbn [bind]. nanz. destruct (dscal _ _ _ _) as [y| | |]; cbn [bind]; try discriminate. intros [= <- _ _]. reflexivity.
  Qed.

  Section Step.
    Context (wantz : bool) (iloz ihiz l m i : Z).
    Hypothesis (Hl : 1 <= l) (Hi : i <= n).
    Definition store (h v : fa b64) (t1 : b64) (k : Z) : fa b64 :=
      if m <? k then
        let h := set2 h k (k - 1) (get1 v 1) in
        let h := set2 h (k + 1) (k - 1) f0 in
        if k <? i - 1 then set2 h (k + 2) (k - 1) f0 else h
      else if l <? m then mod2 h k (k - 1) (fun x => fmul x (fsub f1 t1))
      else h.
    Lemma store_big h v t1 k : big n h -> big n (store h v t1 k).
    Proof.
      intros HB. unfold store. destruct (m <? k); [destruct (k <? i - 1)|destruct (l <? m)]; cbv zeta; try assumption; repeat apply set2_big; try assumption.
      eapply big_shape; [apply mod2_shape|exact HB].
    Qed.
    Lemma store_nan h v t1 k p q : big n h -> l <= m <= k -> k < i -> 1 <= p <= n -> 1 <= q <= n -> p <= q + 1 -> get2 h p q = nan ->
      (m < k -> p = k -> q = k - 1 -> get1 v 1 = nan) -> get2 (store h v t1 k) p q = nan.
    Proof.
      intros HB Hm Hk Hp Hq Hpq HN HV. unfold store. cbv zeta.
      destruct (Z.ltb_spec m k).
      - destruct (Z.ltb_spec k (i - 1)); rewrite !(set2_get n) by (try lia; repeat apply set2_big; assumption).
        all: repeat match goal with |- context [?x =? ?y] => destruct (Z.eqb_spec x y); try (exfalso; lia) end; cbn [andb]; try exact HN; apply HV; lia.
      - destruct (Z.ltb_spec l m); [|exact HN]. rewrite (mod2_get n) by (try assumption; lia).
        destruct (Z.eqb_spec p k), (Z.eqb_spec q (k - 1)); cbn [andb]; try exact HN. subst. rewrite HN. nanz. reflexivity.
    Qed.
    Lemma store_low h v t1 k : big n h -> l <= m <= k -> k < i -> 1 < l -> get2 (store h v t1 k) l (l - 1) = get2 h l (l - 1).
    Proof.
      intros HB Hm Hk H1. unfold store. cbv zeta.
      destruct (Z.ltb_spec m k).
      - destruct (Z.ltb_spec k (i - 1)); rewrite !(set2_get n) by (try lia; repeat apply set2_big; assumption).
        all: repeat match goal with |- context [?x =? ?y] => destruct (Z.eqb_spec x y); try (exfalso; lia) end; reflexivity.
      - destruct (Z.ltb_spec l m); [|reflexivity]. rewrite (mod2_get n) by (try assumption; lia).
        destruct (Z.eqb_spec l k); try (exfalso; lia); reflexivity.
    Qed.
    (** every NaN on or above the subdiagonal stays, and so does the entry left of the block *)
    Lemma step_keep h z v t1 k st' : big n h -> full h -> three v -> l <= m <= k -> k < i ->
      hq_step wantz iloz ihiz l i l m i k (h, z, v, t1) = Ok st' ->
      (forall p q, 1 <= p <= n -> 1 <= q <= n -> p <= q + 1 -> get2 h p q = nan -> get2 (fst (fst (fst st'))) p q = nan) /\
      (1 < l -> get2 (fst (fst (fst st'))) l (l - 1) = get2 h l (l - 1)).
    Proof.
      intros HB HF TV Hm Hk E. unfold hq_step in E. cbv zeta in E.
      destruct (v3s_of v TV) as (w1 & w2 & w3 & V).
      destruct (hq_reflector_get n h HF HB v t1 w1 w2 w3 m k i V ltac:(lia) ltac:(lia)) as (v' & beta & t & y2 & y3 & x' & DL & DX & ER & V'). cbv zeta in DL.
      rewrite ER in E. cbn [bind] in E. fold (store h v' t k) in E.
      pose proof (store_big h v' t k HB) as HB1.
      assert (K1 : forall p q, 1 <= p <= n -> 1 <= q <= n -> p <= q + 1 -> get2 h p q = nan -> get2 (store h v' t k) p q = nan).
      { intros p q Hp Hq Hpq HN. apply store_nan; try assumption. intros Hmk -> ->. destruct (Z.ltb_spec m k); [|lia]. rewrite HN in DL.
        apply larfg_nan_alpha in DL. subst beta. apply (v3s_get _ _ _ _ V'). }
      assert (K2 : 1 < l -> get2 (store h v' t k) l (l - 1) = get2 h l (l - 1)) by (intros; apply store_low; assumption).
      set (h1 := store h v' t k) in *. clearbody h1.
      revert E. destruct (Z.eqb_spec (Z.min 3 (i - k + 1)) 3) as [E3|E3].
      - intros [= <-]. cbn [fst].
        assert (B2 : big n (for_ (range k i) h1 (left3 k (get1 v' 2) (get1 v' 3) t (fmul t (get1 v' 2)) (fmul t (get1 v' 3))))).
        { eapply big_shape; [|exact HB1]. apply for_shape. intros; apply left3_shape. }
        split.
        + intros p q Hp Hq Hpq HN. rewrite (right3_loop_get n) by (try assumption; lia).
          assert (X : get2 (for_ (range k i) h1 (left3 k (get1 v' 2) (get1 v' 3) t (fmul t (get1 v' 2)) (fmul t (get1 v' 3)))) p q = nan).
          { rewrite (left3_loop_get n) by (try assumption; lia). destruct (inside k i q); [apply lv3|]; apply K1; assumption. }
          destruct (inside _ _ _); [apply rv3; exact X|exact X].
        + intros L1. rewrite <- (K2 L1). rewrite (right3_loop_get n) by (try assumption; lia).
          assert (X : get2 (for_ (range k i) h1 (left3 k (get1 v' 2) (get1 v' 3) t (fmul t (get1 v' 2)) (fmul t (get1 v' 3)))) l (l - 1) = get2 h1 l (l - 1)).
          { rewrite (left3_loop_get n) by (try assumption; lia). unfold inside. replace (k <=? l - 1) with false by lia. reflexivity. }
          destruct (inside _ _ _); [|exact X]. unfold rval3, pick3, vrefl3. replace (l - 1 =? k) with false by lia. replace (l - 1 =? k + 1) with false by lia. replace (l - 1 =? k + 2) with false by lia. exact X.
      - destruct (Z.eqb_spec (Z.min 3 (i - k + 1)) 2) as [E2|E2]; [|lia].
        intros [= <-]. cbn [fst].
        assert (B2 : big n (for_ (range k i) h1 (left2 k (get1 v' 2) t (fmul t (get1 v' 2))))).
        { eapply big_shape; [|exact HB1]. apply for_shape. intros; apply left2_shape. }
        split.
        + intros p q Hp Hq Hpq HN. rewrite (right2_loop_get n) by (try assumption; lia).
          assert (X : get2 (for_ (range k i) h1 (left2 k (get1 v' 2) t (fmul t (get1 v' 2)))) p q = nan).
          { rewrite (left2_loop_get n) by (try assumption; lia). destruct (inside k i q); [apply lv2|]; apply K1; assumption. }
          destruct (inside _ _ _); [apply rv2; exact X|exact X].
        + intros L1. rewrite <- (K2 L1). rewrite (right2_loop_get n) by (try assumption; lia).
          assert (X : get2 (for_ (range k i) h1 (left2 k (get1 v' 2) t (fmul t (get1 v' 2)))) l (l - 1) = get2 h1 l (l - 1)).
          { rewrite (left2_loop_get n) by (try assumption; lia). unfold inside. replace (k <=? l - 1) with false by lia. reflexivity. }
          destruct (inside _ _ _); [|exact X]. unfold rval2, pick2, vrefl2. replace (l - 1 =? k) with false by lia. replace (l - 1 =? k + 1) with false by lia. exact X.
    Qed.
  End Step.

  Lemma small_nan ilo ihi h k : hq_small ilo ihi h k = true -> get2 h k (k - 1) <> nan.
  Proof. intros S E. unfold hq_small in S. rewrite E, abs_nan in S. cbv zeta in S. rewrite !le_nan_l in S. discriminate. Qed.

  (** dlanv2 *)
  Lemma loop_sigma_nan c : forall temp : b64, exists t, nv_loop c nan temp = (nan, t).
  Proof.
    induction c as [|c IH]; intros temp; cbn [nv_loop]; nanz.
    - destruct (fle _ _); destruct (fle _ _); eexists; reflexivity.
    - destruct (fle _ _); [apply IH|]. destruct (fle _ _); [apply IH|]. eexists; reflexivity.
  Qed.
  Lemma lanv_diag_nan (a b c d : b64) : a = nan \/ d = nan -> nA (dlanv2 a b c d) = nan \/ nD (dlanv2 a b c d) = nan.
  Proof. exact (lanv_nan lm a b c d). Qed.
  Lemma lanv_rt (a b c d : b64) : nrt1r (dlanv2 a b c d) = nA (dlanv2 a b c d) /\ nrt2r (dlanv2 a b c d) = nD (dlanv2 a b c d).
  Proof. unfold dlanv2. destruct (nv_main a b c d) as [[[[[a' b'] c'] d'] cs] sn]. destruct (feq c' f0); split; reflexivity. Qed.
  Lemma feq_nan_l (x : b64) : feq nan x = false. Proof. destruct x; reflexivity. Qed.
  Lemma lanv_keep (a b c d : b64) : a = nan \/ b = nan \/ c = nan \/ d = nan ->
    let r := dlanv2 a b c d in nA r = nan \/ nB r = nan \/ nC r = nan \/ nD r = nan.
  Proof.
    intros H r. assert (HH : (a = nan \/ d = nan) \/ (b = nan \/ c = nan)) by tauto. destruct HH as [H1|H1].
    { destruct (lanv_diag_nan a b c d H1); unfold r; tauto. }
    assert (HS : fadd b c = nan) by (destruct H1 as [-> | ->]; nanz; reflexivity).
    assert (G : let '(a', b', c', d', _, _) := nv_main a b c d in a' = nan \/ b' = nan \/ c' = nan \/ d' = nan).
    { unfold nv_main. destruct (feq c f0) eqn:EC; [exact H|]. destruct (feq b f0) eqn:EB.
      { right; left. destruct H1 as [-> | ->]; [rewrite feq_nan_l in EB; discriminate|reflexivity]. }
      destruct (_ && _); [exact H|]. destruct (fle _ _).
      { unfold nv_real. right; left. destruct H1 as [-> | ->]; nanz; reflexivity. }
      rewrite HS. destruct (loop_sigma_nan 20 (fsub a d)) as (t & ->). unfold nv_equalise. change (fsignum nan) with nan. nanz. left. unfold nv_offdiag.
      repeat match goal with |- context [feq ?x ?y] => destruct (feq x y) end; cbn [negb]; nanz; reflexivity. }
    unfold r, dlanv2. destruct (nv_main a b c d) as [[[[[a' b'] c'] d'] cs] sn]. destruct (feq c' f0); exact G.
  Qed.

  Section Turn.
    Context (wantz : bool) (ilo ihi iloz ihiz : Z).
    Hypothesis (Hlo : 1 <= ilo) (Hhi : ihi <= n).
    Context (h0 wr0 wi0 z0 : fa b64).
    Hypothesis (FH : full h0) (HB : big n h0).
    Notation iter := (hq_iter true wantz ilo ihi iloz ihiz).
    Notation oks := (hq_ok wantz ilo ihi h0 wr0 wi0 z0).

    (** NaN entries on or above the subdiagonal stay *)
    Definition keeps (h h' : fa b64) : Prop := forall p q, 1 <= p <= n -> 1 <= q <= n -> p <= q + 1 -> get2 h p q = nan -> get2 h' p q = nan.
    Definition low_ok (st : @hqst b64) : Prop := ilo < sL st -> get2 (sH st) (sL st) (sL st - 1) <> nan.

    Lemma sweep_keep l m i h z v t1 r : same_shape h h0 -> three v -> ilo <= l <= m -> m <= i - 2 -> i <= ihi ->
      for_M (range m (i - 1)) (h, z, v, t1) (hq_step wantz iloz ihiz l i l m i) = Ok r ->
      keeps h (fst (fst (fst r))) /\ (1 < l -> get2 (fst (fst (fst r))) l (l - 1) = get2 h l (l - 1)).
    Proof.
      intros SH TV Hl Hm Hi E.
      assert (K : forall ks st, (forall k, In k ks -> m <= k < i) -> same_shape (fst (fst (fst st))) h0 -> three (snd (fst st)) ->
        forall r, for_M ks st (hq_step wantz iloz ihiz l i l m i) = Ok r ->
          keeps (fst (fst (fst st))) (fst (fst (fst r))) /\ (1 < l -> get2 (fst (fst (fst r))) l (l - 1) = get2 (fst (fst (fst st))) l (l - 1))).
      { induction ks as [|k ks IH]; intros [[[h1 z1] v1] t] Hk S1 T1 r0 E0; cbn [for_M] in E0; [injection E0 as <-; split; [intros ? ? _ _ _ X; exact X|reflexivity]|].
        destruct (hq_step_ok wantz iloz ihiz h0 z1 l i l m i k (h1, z1, v1, t) FH) as (st' & ES & OK); [exact (conj S1 (conj (same_shape_refl z1) (conj (fun _ => eq_refl) T1)))|].
        rewrite ES in E0. cbn [bind] in E0. pose proof (Hk k (or_introl eq_refl)) as Hk'.
        apply (step_keep wantz iloz ihiz l m i ltac:(lia) ltac:(lia) h1 z1 v1 t k) in ES; try assumption; try lia; [|eapply big_shape; eassumption|eapply full_shape; eassumption].
        destruct st' as [[[h2 z2] v2] t2]. destruct OK as (S2 & _ & _ & T2). cbn [fst snd] in ES. destruct ES as [K1 L1].
        destruct (IH (h2, z2, v2, t2)) with (r := r0) as [K2 L2]; try assumption; [intros; apply Hk; right; assumption|].
        cbn [fst snd] in *. split; [intros p q Hp Hq Hpq N; apply K2; try assumption; apply K1; assumption|]. intros X. rewrite L2, L1 by exact X. reflexivity. }
      refine (K _ (h, z, v, t1) _ SH TV r E). intros k Hk. apply in_range in Hk. lia.
    Qed.

    Lemma iter_keep its st st' b : oks st -> ilo <= sL st < sI st -> sI st <= ihi -> low_ok st -> iter its st = Ok (st', b) ->
      keeps (sH st) (sH st') /\ sWr st' = sWr st /\ low_ok st' /\ ilo <= sL st' <= sI st /\ (b = true -> sI st - 1 <= sL st').
    Proof.
      intros (SH & WR & WI & SZ & WZ & TV) Hl Hi LO. unfold hq_iter. cbv zeta.
      destruct (hq_scan_facts ilo ihi (sH st) (sL st) (sI st) (sK st) ltac:(lia)) as (K1 & _ & K3). set (k := hq_scan _ _ _ _ _ _) in *. clearbody k.
      set (h1 := if ilo <? k then _ else _).
      assert (SH1 : same_shape h1 h0) by (unfold h1; destruct (ilo <? k); [eapply same_shape_trans; [apply set2_shape|]|]; exact SH).
      assert (BS : big n (sH st)) by (eapply big_shape; eassumption).
      assert (NK : ilo < k -> get2 (sH st) k (k - 1) <> nan).
      { intros L. destruct K3 as [-> |K3]; [apply LO; exact L|exact (small_nan _ _ _ _ K3)]. }
      assert (KP1 : keeps (sH st) h1).
      { intros p q Hp Hq Hpq N. unfold h1. destruct (Z.ltb_spec ilo k) as [L|L]; [|exact N]. rewrite (set2_get n) by (try assumption; lia).
        destruct (Z.eqb_spec p k) as [-> |], (Z.eqb_spec q (k - 1)) as [-> |]; cbn [andb]; try exact N. destruct (NK L N). }
      assert (LO1 : ilo < k -> get2 h1 k (k - 1) = f0).
      { intros L. unfold h1. destruct (Z.ltb_spec ilo k); [|lia]. rewrite (set2_get n) by (try assumption; lia). rewrite !Z.eqb_refl. reflexivity. }
      clearbody h1.
      destruct (Z.leb_spec (sI st - 1) k).
      { intros [= <- _]. unfold low_ok. cbn [sH sWr sL]. split; [exact KP1|]. split; [reflexivity|]. split; [|split; lia]. intros L. rewrite (LO1 L). discriminate. }
      cbv iota.
      set (sh := hq_shifts _). clearbody sh. destruct (start_gen h1 sh k (sI st) (sM st) (sV st) ltac:(lia) TV) as (v1 & _ & SG).
      pose proof (hq_start_shape h1 sh k (sI st) (sM st) (sV st)) as SS. destruct (hq_start h1 sh k (sI st) (sM st) (sV st)) as [m v]. destruct SG as (Hm & _). cbn [snd] in SS.
      destruct (for_M _ _ _) as [[[[h' z'] v'] t']| | |] eqn:EM; cbn [bind]; try discriminate. intros [= <- <-]. unfold low_ok. cbn [sH sWr sL].
      apply (sweep_keep k m (sI st) h1 (sZ st) v (sT1 st)) in EM; try assumption; try lia; [|eapply three_shape; eassumption]. destruct EM as [E1 E2]. cbn [fst] in E1, E2.
      split; [intros p q Hp Hq Hpq N; apply E1; try assumption; apply KP1; assumption|]. split; [reflexivity|]. split; [|split; [lia|discriminate]].
      intros L. rewrite E2 by lia. rewrite (LO1 L). discriminate.
    Qed.

    Lemma sweeps_keep c : forall lo st st', lo = hq_itmax ilo ihi - Z.of_nat c -> oks st -> ilo <= sK st <= sI st + 1 -> ilo <= sL st < sI st -> sI st <= ihi -> low_ok st ->
      for_brk_M (range lo (hq_itmax ilo ihi)) st iter = Ok st' -> oks st' /\ sI st' = sI st /\ keeps (sH st) (sH st') /\ sWr st' = sWr st /\ ilo <= sL st' <= sI st /\ (sIts st' < hq_itmax ilo ihi -> sI st - 1 <= sL st').
    Proof.
      induction c as [|c IH]; intros lo st st' El OK Hk Hl Hi LO.
      - assert (lo = hq_itmax ilo ihi) as -> by lia. rewrite range_cons by lia. rewrite range_nil by lia. cbn [for_brk_M].
        destruct (hq_iter_ok true wantz ilo ihi iloz ihiz h0 wr0 wi0 z0 (hq_itmax ilo ihi) st FH OK ltac:(lia) Hk ltac:(lia)) as (s1 & b & E & OK' & I1 & I2 & I3 & I4 & _). rewrite E. cbn [bind fst snd].
        intros X. assert (s1 = st') as <- by (destruct b; injection X as <-; reflexivity).
        destruct (iter_keep _ _ _ _ OK Hl Hi LO E) as (A & B & _ & D & _). repeat (split; [assumption|]). lia.
      - rewrite range_cons by lia. cbn [for_brk_M].
        destruct (hq_iter_ok true wantz ilo ihi iloz ihiz h0 wr0 wi0 z0 lo st FH OK ltac:(lia) Hk ltac:(lia)) as (s1 & b & E & OK' & I1 & I2 & I3 & I4 & I5). rewrite E. cbn [bind fst snd].
        destruct (iter_keep _ _ _ _ OK Hl Hi LO E) as (A & B & C & D & DB).
        destruct b; [intros [= <-]; repeat (split; [assumption|]); auto|]. intros X.
        destruct (IH (lo + 1) s1 st') as (J1 & J2 & J3 & J4 & J5 & J6); try assumption; try lia.
        split; [exact J1|]. split; [congruence|]. split; [|split; [congruence|split; [lia|intros Y; specialize (J6 Y); lia]]]. intros p q Hp Hq Hpq N. apply J3; try assumption. apply A; assumption.
    Qed.

    (** a NaN in the Hessenberg part of the block; a NaN on the undeflated diagonal or among the deflated eigenvalues *)
    Definition inside_nan (h : fa b64) : Prop := exists p q, ilo <= p <= ihi /\ ilo <= q <= ihi /\ p <= q + 1 /\ get2 h p q = nan.
    Definition diag_nan (i : Z) (h wr : fa b64) : Prop :=
      (exists p, ilo <= p <= i /\ get2 h p p = nan) \/ (exists j, i < j <= ihi /\ elem wr j = Some nan).
    Lemma keeps_inside h h' : keeps h h' -> inside_nan h -> inside_nan h'.
    Proof. intros K (p & q & Hp & Hq & Hpq & N). exists p, q. repeat (split; [assumption|]). apply K; try assumption; lia. Qed.
    Lemma keeps_diag i h h' wr : keeps h h' -> i <= ihi -> diag_nan i h wr -> diag_nan i h' wr.
    Proof. intros K Hi [(p & Hp & N)|X]; [left|right; exact X]. exists p. split; [exact Hp|]. apply K; try assumption; lia. Qed.

    Hypothesis (CW : ihi <= count wr0).
    Lemma defl_keep st st' : oks st -> ilo <= sL st <= sI st -> sI st <= ihi -> hq_deflate true wantz n (rows h0) iloz ihiz st = Ok st' ->
      (inside_nan (sH st) -> inside_nan (sH st')) /\
      (sI st - 1 <= sL st -> diag_nan (sI st) (sH st) (sWr st) -> diag_nan (sL st - 1) (sH st') (sWr st')).
    Proof.
      intros (SH & WR & WI & SZ & WZ & TV) Hl Hi. unfold hq_deflate.
      assert (CWR : count (sWr st) = count wr0) by (destruct WR as [(_ & _ & X) _]; exact X).
      assert (SE : forall (w : fa b64) j (x : b64), 1 <= j <= ihi -> ihi <= count w -> elem (set1 w j x) j = Some x).
      { intros w j x Hj Hc. unfold set1. rewrite mod1_elem. rewrite Z.eqb_refl. destruct (proj2 (elem_Some w j) ltac:(lia)) as (y & ->). reflexivity. }
      assert (SO : forall (w : fa b64) j j' (x : b64), j' <> j -> elem (set1 w j x) j' = elem w j').
      { intros w j j' x Hj. unfold set1. rewrite mod1_elem. destruct (Z.eqb_spec j' j); [contradiction|reflexivity]. }
      destruct (Z.eqb_spec (sL st) (sI st)) as [El|Nl].
      { intros [= <-]. cbn [sH sWr]. split; [auto|]. intros _ [(p & Hp & N)|(j & Hj & N)].
        - destruct (Z.eq_dec p (sI st)) as [-> |Np]; [right|left; exists p; split; [lia|exact N]]. exists (sI st). split; [lia|]. rewrite <- N. apply SE; lia.
        - right. exists j. split; [lia|]. rewrite SO by lia. exact N. }
      destruct (Z.eqb_spec (sL st) (sI st - 1)) as [El|Nl2]; [|intros [= <-]; split; [auto|lia]].
      set (i := sI st) in *. set (h := sH st) in *. set (r := dlanv2 _ _ _ _). set (h1 := set2 (set2 _ _ _ _) _ _ _). assert (HR : rows h1 = rows h0) by (transitivity (rows h); [apply (proj1 (same_shape_trans _ _ _ (set2_shape _ _ _ _) (same_shape_trans _ _ _ (set2_shape _ _ _ _) (same_shape_trans _ _ _ (set2_shape _ _ _ _) (set2_shape _ _ _ _)))))|apply SH]).
      assert (BG : big n h) by (eapply big_shape; eassumption). assert (B1 : big n h1) by (unfold h1; repeat apply set2_big; exact BG).
      assert (S1 : same_shape h1 h0) by (eapply same_shape_trans; [|exact SH]; unfold h1; repeat (eapply same_shape_trans; [apply set2_shape|]); apply same_shape_refl).
      assert (FF : full h1) by (eapply full_shape; eassumption).
      assert (G1 : forall a b, 1 <= a <= n -> 1 <= b <= n -> get2 h1 a b = if (a =? i) && (b =? i) then nD r else if (a =? i) && (b =? i - 1) then nC r
        else if (a =? i - 1) && (b =? i) then nB r else if (a =? i - 1) && (b =? i - 1) then nA r else get2 h a b).
      { intros a b Ha Hb. unfold h1. rewrite !(set2_get n) by (try lia; repeat apply set2_big; exact BG). reflexivity. }
      assert (RT : exists h2, hq_rot_rows n (rows h0) i (nCs r) (nSn r) h1 = Ok h2 /\ same_shape h2 h1 /\
        (forall a b, 1 <= a <= n -> 1 <= b <= n -> b <= i \/ a < i - 1 \/ i < a -> get2 h2 a b = get2 h1 a b) /\
        (forall a b, 1 <= a <= n -> 1 <= b <= n -> get2 h1 a b = nan -> get2 h2 a b = nan)).
      { rewrite <- HR. destruct (Z.eq_dec i n) as [En|Ni].
        { exists h1. unfold hq_rot_rows. rewrite En, Z.ltb_irrefl. split; [reflexivity|]. split; [apply same_shape_refl|]. split; auto. }
        destruct (hq_rot_rows_spec n h1 i (nCs r) (nSn r) FF ltac:(lia) (proj1 B1) (proj2 B1)) as (h2 & E & Sh & R1 & R2 & R3). exists h2. split; [exact E|]. split; [exact Sh|].
        assert (FR : forall a b, 1 <= a <= n -> 1 <= b <= n -> ~ (a = i /\ i < b) -> ~ (a = i - 1 /\ b = i + 1) -> get2 h2 a b = get2 h1 a b).
        { intros a b Ha Hb X Y. rewrite !get2_ent. unfold ent. rewrite (proj1 Sh). rewrite R3; [reflexivity| |].
          - destruct B1. intros Z; apply pos_inj in Z; lia.
          - destruct B1. intros p Hp Z; apply pos_inj in Z; lia. }
        split; [intros; apply FR; lia|]. intros a b Ha Hb N. destruct (Z.eq_dec a i) as [-> |Na]; [destruct (Z_lt_le_dec i b)|].
        - rewrite R1 by lia. rewrite N. nanz. reflexivity.
        - rewrite FR by lia. exact N.
        - destruct (Z.eq_dec a (i - 1)) as [-> |Na']; [|rewrite FR by lia; exact N]. destruct (Z.eq_dec b (i + 1)) as [-> |Nb]; [|rewrite FR by lia; exact N].
          rewrite R2, N. nanz. reflexivity. }
      destruct RT as (h2 & E2 & S2 & F2 & N2). rewrite E2. cbn [bind].
      rewrite hq_rot_cols_id; [|eapply full_shape; [exact S2|exact FF]|destruct S2 as (-> & _); destruct B1; lia|lia]. cbn [bind].
      destruct (if wantz then _ else _); cbn [bind]; try discriminate. intros [= <-]. cbn [sH sWr]. split.
      - intros (p & q & Hp & Hq & Hpq & N).
        assert (HD : ~ (i - 1 <= p <= i /\ i - 1 <= q <= i) \/ (get2 h (i - 1) (i - 1) = nan \/ get2 h (i - 1) i = nan \/ get2 h i (i - 1) = nan \/ get2 h i i = nan)).
        { destruct (Z_le_gt_dec (i - 1) p); [|left; lia]. destruct (Z_le_gt_dec p i); [|left; lia]. destruct (Z_le_gt_dec (i - 1) q); [|left; lia]. destruct (Z_le_gt_dec q i); [|left; lia]. right.
          assert (p = i - 1 \/ p = i) as [-> | ->] by lia; assert (q = i - 1 \/ q = i) as [-> | ->] by lia; tauto. }
        destruct HD as [HD|HD].
        + exists p, q. repeat (split; [assumption|]). apply N2; try lia. rewrite G1 by lia.
          repeat match goal with |- context [?x =? ?y] => destruct (Z.eqb_spec x y); try (exfalso; lia) end; cbn [andb]; exact N.
        + apply lanv_keep in HD. cbv zeta in HD. fold r in HD. destruct HD as [X|[X|[X|X]]].
          * exists (i - 1), (i - 1). repeat (split; [lia|]). apply N2; try lia. rewrite G1 by lia. replace (i - 1 =? i) with false by lia. rewrite Z.eqb_refl. exact X.
          * exists (i - 1), i. repeat (split; [lia|]). apply N2; try lia. rewrite G1 by lia. replace (i - 1 =? i) with false by lia. rewrite !Z.eqb_refl. exact X.
          * exists i, (i - 1). repeat (split; [lia|]). apply N2; try lia. rewrite G1 by lia. replace (i - 1 =? i) with false by lia. rewrite !Z.eqb_refl. exact X.
          * exists i, i. repeat (split; [lia|]). apply N2; try lia. rewrite G1 by lia. rewrite !Z.eqb_refl. exact X.
      - intros _ DN. destruct (lanv_rt (get2 h (i - 1) (i - 1)) (get2 h (i - 1) i) (get2 h i (i - 1)) (get2 h i i)) as [RT1 RT2]. fold r in RT1, RT2.
        assert (HD : (exists p, ilo <= p <= i - 2 /\ get2 h p p = nan) \/ (get2 h (i - 1) (i - 1) = nan \/ get2 h i i = nan) \/ (exists j, i < j <= ihi /\ elem (sWr st) j = Some nan)).
        { destruct DN as [(p & Hp & N)|X]; [|tauto]. destruct (Z_le_gt_dec p (i - 2)); [left; exists p; split; [lia|exact N]|]. right; left.
          assert (p = i - 1 \/ p = i) as [-> | ->] by lia; tauto. }
        destruct HD as [(p & Hp & N)|[HD|(j & Hj & N)]].
        + left. exists p. split; [lia|]. rewrite F2 by lia. rewrite G1 by lia. replace (p =? i) with false by lia. replace (p =? i - 1) with false by lia. exact N.
        + right. apply (lanv_diag_nan _ (get2 h (i - 1) i) (get2 h i (i - 1))) in HD. fold r in HD. destruct HD as [X|X].
          * exists (i - 1). split; [lia|]. rewrite SO by lia. rewrite RT1, X. apply SE; [lia|congruence].
          * exists i. split; [lia|]. rewrite RT2, X. apply SE; [lia|]. change (count (set1 (sWr st) (i - 1) (nrt1r r))) with (count (mod1 (sWr st) (i - 1) (fun _ => nrt1r r))). rewrite mod1_count. congruence.
        + right. exists j. split; [lia|]. rewrite !SO by lia. exact N.
    Qed.

    Context (conv : @hqst b64 -> outcome unit).
    Hypothesis CV : forall st, oks st -> conv st = Ok tt.
    Hypothesis (FZ : wantz = true -> full z0 /\ 0 <= rows z0 /\ 1 <= iloz).
    Notation loop := (hq_loop true wantz n ilo ihi (rows h0) iloz ihiz conv).
    Notation heads := (head_ok wantz ilo ihi h0 wr0 wi0 z0).
    Hypothesis (RH : 0 <= rows h0).

    Lemma turn_keep st st' o : heads st -> ilo < sI st -> turn true wantz n ilo ihi (rows h0) iloz ihiz conv st = Ok (st', o) ->
      (inside_nan (sH st) -> inside_nan (sH st')) /\
      (diag_nan (sI st) (sH st) (sWr st) -> diag_nan (match o with Some i => i | None => sI st' end) (sH st') (sWr st')).
    Proof.
      intros (OK & HI & HK & _) Hi. unfold turn. set (s0 := mkHq _ _ _ _ _ _ _ _ ilo _ _ _ _ _). specialize (HK ltac:(lia)).
      pose proof (hq_itmax_pos ilo ihi) as IM.
      destruct (for_brk_M _ _ _) as [s1| | |] eqn:E1; cbn [bind]; try discriminate.
      destruct (sweeps_keep (Z.to_nat (hq_itmax ilo ihi)) 0 s0 s1) as (OK1 & I1 & K1 & W1 & L1 & B1); try assumption; try (cbn; lia); [lia|intros X; cbn in X; lia|].
      change (sI s0) with (sI st) in *. change (sH s0) with (sH st) in *. change (sWr s0) with (sWr st) in *.
      destruct (Z.leb_spec (hq_itmax ilo ihi) (sIts s1)) as [L|L].
      { intros [= <- <-]. split; [apply keeps_inside; exact K1|]. rewrite I1, W1. apply keeps_diag; [exact K1|lia]. }
      destruct (hq_deflate _ _ _ _ _ _ _) as [s2| | |] eqn:E2; cbn [bind]; try discriminate. destruct (conv _) as [[]| | |]; cbn [bind]; try discriminate. intros [= <- <-]. cbn [sI sH sWr].
      destruct (hq_deflate_ok true wantz n ilo ihi (rows h0) iloz ihiz h0 wr0 wi0 z0 FH RH FZ Hlo s1 OK1 ltac:(lia) ltac:(lia)) as (s2' & D1 & _ & D3 & D4 & _).
      rewrite E2 in D1. injection D1 as <-.
      apply defl_keep in E2; try assumption; try lia. destruct E2 as [E2 E3]. split.
      - intros X. apply E2. eapply keeps_inside; eassumption.
      - intros X. rewrite D4. apply E3; [rewrite I1; apply B1; exact L|]. rewrite I1, W1. eapply keeps_diag; [exact K1|lia|exact X].
    Qed.
    Lemma loop_keep fuel : forall st st' info, heads st -> ilo - 1 <= sI st -> loop fuel st = Ok (st', info) ->
      (inside_nan (sH st) -> inside_nan (sH st')) /\
      (diag_nan (sI st) (sH st) (sWr st) -> diag_nan (if info =? 0 then ilo - 1 else info) (sH st') (sWr st')).
    Proof.
      assert (DONE : forall st, ilo - 1 <= sI st -> sI st < ilo -> diag_nan (sI st) (sH st) (sWr st) -> diag_nan (if 0 =? 0 then ilo - 1 else 0) (sH st) (sWr st)).
      { intros st A B. assert (sI st = ilo - 1) as -> by lia. auto. }
      induction fuel as [|fuel IH]; intros st st' info HO SI.
      - cbn [hq_loop]. destruct (Z.ltb_spec (sI st) ilo); [|discriminate]. intros [= <- <-]. split; [auto|]. apply DONE; assumption.
      - destruct (Z.eq_dec (sI st) ilo) as [EI|NI].
        { rewrite (hq_loop_stuck true wantz n ilo ihi (rows h0) iloz ihiz h0 wr0 wi0 z0 FH RH FZ Hlo conv CV (S fuel) st HO EI). discriminate. }
        rewrite loop_turn. destruct (Z.ltb_spec (sI st) ilo) as [L|L]; [intros [= <- <-]; split; [auto|]; apply DONE; assumption|].
        destruct (turn true wantz n ilo ihi (rows h0) iloz ihiz conv st) as [[s1 o]| | |] eqn:ET; cbn [bind fst snd]; try discriminate.
        pose proof (turn_keep st s1 o HO ltac:(lia) ET) as [T1 T2].
        destruct (turn_ok true wantz n ilo ihi (rows h0) iloz ihiz h0 wr0 wi0 z0 FH RH FZ Hlo conv CV st HO ltac:(lia)) as [(s' & ET' & OK')|(s' & ET' & HO' & _)];
          rewrite ET in ET'; injection ET' as <- ->.
        + intros [= <- <-]. split; [exact T1|]. destruct HO as (_ & ? & _). replace (sI st =? 0) with false by lia. exact T2.
        + intros EL.
          assert (SI' : ilo - 1 <= sI s1).
          { revert ET. unfold turn. set (s0 := mkHq _ _ _ _ _ _ _ _ ilo _ _ _ _ _). destruct HO as (OK & HI & HK & _). specialize (HK ltac:(lia)). pose proof (hq_itmax_pos ilo ihi) as IM.
            destruct (for_brk_M _ _ _) as [s2| | |] eqn:E1; cbn [bind]; try discriminate.
            destruct (sweeps_keep (Z.to_nat (hq_itmax ilo ihi)) 0 s0 s2) as (OK1 & I1 & _ & _ & L1 & _); try assumption; try (cbn; lia); [lia|intros X; cbn in X; lia|].
            change (sI s0) with (sI st) in *.
            destruct (_ <=? _); [discriminate|].
            destruct (hq_deflate_ok true wantz n ilo ihi (rows h0) iloz ihiz h0 wr0 wi0 z0 FH RH FZ Hlo s2 OK1 ltac:(lia) ltac:(lia)) as (s3 & -> & _ & _ & D4 & _). cbn [bind].
            destruct (conv _) as [[]| | |]; cbn [bind]; try discriminate. intros [= <-]. cbn [sI]. rewrite D4. lia. }
          destruct (IH s1 st' info HO' SI' EL) as [J1 J2]. split; auto.
    Qed.
  End Turn.

  Lemma clear_keeps ilo ihi (h : fa b64) : 1 <= ilo -> ihi <= n -> big n h -> keeps h (hq_clear ilo ihi h).
  Proof.
    intros L1 L2 HB p q Hp Hq Hpq N.
    apply (clear_inv lm (fun g => big n g /\ get2 g p q = nan)); [|auto]. intros g i j (Hg & E) Hj Hi Hij. split; [apply set2_big; exact Hg|].
    rewrite (set2_get n) by (assumption || lia). destruct (Z.eqb_spec p i), (Z.eqb_spec q j); cbn [andb]; try exact E. lia.
  Qed.
End Nan.

Section Call.
  Context (lm : libm) (LM : libm_ok lm).
  #[local] Instance NBnc : Num b64 := B64 lm.
  Notation nan := (B754_nan : b64).
  Context {H WR WI ZZ : Type} {TH : ToFA b64 H} {FH : FromFA b64 H} {TWR : ToFA b64 WR} {FWR : FromFA b64 WR}
    {TWI : ToFA b64 WI} {FWI : FromFA b64 WI} {TZ : ToFA b64 ZZ} {FZ : FromFA b64 ZZ}.
  Lemma dlahqr_nan (wantz : bool) (n ilo ihi : Z) (h : H) (wr : WR) (wi : WI) (iloz ihiz : Z) (z : ZZ) (ldz : Z) fuel h' wr' wi' z' info :
    usable TH FH h -> usable TWR FWR wr -> usable TWI FWI wi -> usable TZ FZ z ->
    1 <= ilo -> ilo < ihi -> ihi <= n -> n <= rows (to_fa h) -> n * rows (to_fa h) <= count (to_fa h) -> ihi <= count (to_fa wr) -> (wantz = true -> 1 <= iloz) ->
    dlahqr fuel true wantz n ilo ihi h (rows (to_fa h)) wr wi iloz ihiz z ldz = Ok (h', wr', wi', z', info) ->
    exists hd wrd, from_fa hd = Ok h' /\ from_fa wrd = Ok wr' /\ same_shape hd (to_fa h) /\
      ((exists a b, ilo <= a <= ihi /\ ilo <= b <= ihi /\ a <= b + 1 /\ ent (to_fa h) a b = Some nan) ->
        exists a b, ilo <= a <= ihi /\ ilo <= b <= ihi /\ a <= b + 1 /\ ent hd a b = Some nan) /\
      ((exists a, ilo <= a <= ihi /\ ent (to_fa h) a a = Some nan) ->
        (exists j, (if info =? 0 then ilo else info + 1) <= j <= ihi /\ elem wrd j = Some nan) \/ (info <> 0 /\ exists a, ilo <= a <= info /\ ent hd a a = Some nan)).
  Proof.
    intros UH UR UI UZ L1 L2 L3 L4 L5 L6 LZ.
    assert (AR : hq_args_ok wantz ilo h wr wi iloz z) by (refine (conj UH (conj UR (conj UI (conj UZ (conj L1 LZ)))))).
    destruct (hq_args_loop wantz ilo ihi h wr wi iloz z AR) as (A1 & A2 & A3 & A4 & A5).
    rewrite dlahqr_main by lia.
    destruct (hq_loop _ _ _ _ _ _ _ _ _ _ _) as [[st i]| | |] eqn:EL; cbn [bind fst snd]; try discriminate.
    assert (BH : big n (to_fa h)) by (split; assumption).
    pose proof (hq_init_ok wantz ilo ihi h wr wi z ltac:(lia)) as HO.
    set (st0 := hq_init _ _ _ _ _ _) in *.
    pose proof (loop_keep lm n wantz ilo ihi iloz ihiz L1 L3 (to_fa h) (to_fa wr) (to_fa wi) (to_fa z) A1 BH L6 _ A5 A3 A2 fuel st0 st i HO ltac:(cbn; lia) EL) as [K1 K2].
    pose proof (hq_loop_ok true wantz n ilo ihi (rows (to_fa h)) iloz ihiz _ _ _ _ A1 A2 A3 A4 _ A5 fuel st0 HO) as [X|(st1 & i1 & X & OK & IB)]; [rewrite X in EL; discriminate|].
    rewrite X in EL. injection EL as -> ->.
    destruct (hq_conv_ok wantz ilo ihi h wr wi iloz z st AR OK) as (h1 & wr1 & wi1 & z1 & -> & B1 & B2 & B3 & B4). cbn [bind].
    intros [= <- <- <- <- <-].
    exists (sH st), (sWr st). split; [exact B1|]. split; [exact B2|]. split; [apply OK|].
    assert (BD : big n (sH st)) by (eapply big_shape; [apply OK|exact BH]).
    assert (C0 : keeps lm n (to_fa h) (sH st0)) by (apply (clear_keeps lm n); assumption).
    assert (G0 : forall a b, ilo <= a <= ihi -> ilo <= b <= ihi -> ent (to_fa h) a b = Some nan -> get2 (to_fa h) a b = nan) by (intros a b _ _ E; rewrite get2_ent, E; reflexivity).
    assert (G1 : forall a b, ilo <= a <= ihi -> ilo <= b <= ihi -> get2 (sH st) a b = nan -> ent (sH st) a b = Some nan).
    { intros a b Ha Hb E. rewrite ent_get2 by (apply (big_pos n); [exact BD|lia|lia]). f_equal. exact E. }
    split.
    - intros (a & b & Ha & Hb & Hab & E). destruct K1 as (p & q & Hp & Hq & Hpq & N).
      + exists a, b. repeat (split; [assumption|]). apply (C0 a b); try lia. apply G0; assumption.
      + exists p, q. repeat (split; [assumption|]). apply G1; assumption.
    - intros (a & Ha & E). destruct K2 as [(p & Hp & N)|(j & Hj & N)].
      + left. exists a. split; [cbn; lia|]. apply (C0 a a); try lia. apply G0; assumption.
      + right. destruct (Z.eqb_spec i 0); [lia|]. split; [assumption|]. exists p. split; [lia|]. apply G1; try lia. exact N.
      + left. exists j. split; [destruct (i =? 0); lia|exact N].
  Qed.
End Call.
