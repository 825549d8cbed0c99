(** dlahqr in binary64: the whole loop with wantt = true. *)
From Coq Require Import Reals Lra.
From Flocq Require Import IEEE754.BinarySingleNaN Core.
From Verif Require Import Base Num Array Blas Lapack Dlahqr Spec SpecR SpecErr SpecSim SpecHqErr B64 B64Lemmas B64Nn Lists RsumLemmas RoundErr Near
  FaLemmas LanvProofs LahqrProofs LahqrTop RealMat SimArray SimSweep LanvCalc LanvStd LanvErr HqReal HqIter HqGet HqErrApp HqErrReal HqErrStep HqErrNan HqErrIter HqErrDefl.
Open Scope R_scope.

Section Loop.
  Context (lm : libm) (LM : libm_ok lm).
  #[local] Instance NBtp : Num b64 := B64 lm.
  Context (wantz : bool) (n ilo ihi iloz ihiz : Z).
  Hypothesis (Hlo : (1 <= ilo)%Z) (Hlt : (ilo < ihi)%Z) (Hhi : (ihi <= n)%Z).
  Notation inr a := (ilo <= a <= ihi)%Z.
  Notation mm := (mmul ilo ihi).
  Notation nh := (ihi - ilo + 1)%Z.
  Context (A : Z -> Z -> R) (N y Xm : R).
  Hypothesis (HN : mid (4 * N)) (HA : frob2 ilo ihi A <= N * N).
  Hypothesis (Hy : 0 < y) (HY : 3 * (IZR nh * (delta (4 * N) * delta (4 * N))) <= y * y) (HX : Xm * (2 * y) <= N).
  Hypothesis (Hnh : (nh <= 2 ^ 20)%Z) (HD : bpow radix2 (-950) <= delta (4 * N)).
  Context (ZP : R -> fa b64 -> (Z -> Z -> R) -> Prop).
  Hypothesis (ZPw : forall x x' z Q, ZP x z Q -> 0 <= x <= x' -> ZP x' z Q).
  Hypothesis (ZP3 : forall x z Q k (v2 v3 t1 : b64) w2 w3 t, ZP x z Q -> 0 <= x <= Xm -> (ilo <= k)%Z -> (k + 2 <= ihi)%Z -> rapp v2 v3 t1 w2 w3 t ->
    ZP (x + 1) (if wantz then for_ (range iloz ihiz) z (right3 k v2 v3 t1 (fmul t1 v2) (fmul t1 v3)) else z) (mm Q (refl t (wvec k w2 w3)))).
  Hypothesis (ZP2 : forall x z Q k (v2 t1 : b64) w2 t, ZP x z Q -> 0 <= x <= Xm -> (ilo <= k)%Z -> (k + 1 <= ihi)%Z -> rapp v2 (B754_zero false) t1 w2 0 t ->
    ZP (x + 1) (if wantz then for_ (range iloz ihiz) z (right2 k v2 t1 (fmul t1 v2)) else z) (mm Q (refl t (wvec k w2 0)))).
  Hypothesis (ZPr : forall x z Q i (cs sn : b64) C S, ZP x z Q -> 0 <= x <= Xm -> (ilo < i <= ihi)%Z -> is_finite cs = true -> is_finite sn = true -> C * C + S * S = 1 ->
    Rabs (B2R cs - C) <= bpow radix2 (-46) -> Rabs (B2R sn - S) <= bpow radix2 (-46) ->
    exists z', (if wantz then hq_rot_z iloz ihiz i cs sn z else Ok z) = Ok z' /\ ZP (x + 1) z' (mm Q (rotm (i - 1) C S))).
  Context (hin wrin wiin zin : fa b64).
  Hypothesis (HBg : big n hin) (FH : full hin).
  Notation sml := (bpow radix2 (-969)).
  Notation hinv := (hinv lm ilo ihi A y ZP hin).
  Notation iter := (hq_iter true wantz ilo ihi iloz ihiz).
  Notation itmax := (hq_itmax ilo ihi).
  Notation poisoned := (poisoned lm ilo ihi).
  Notation oks := (hq_ok wantz ilo ihi hin wrin wiin zin).
  Notation heads := (head_ok wantz ilo ihi hin wrin wiin zin).
  Let it64 := iter64 lm LM wantz n ilo ihi iloz ihiz Hlo Hlt Hhi A N y Xm HN HA Hy HY HX Hnh HD ZP ZPw ZP3 ZP2 hin HBg FH.
  Let df64 := defl64 lm LM wantz n ilo ihi iloz ihiz Hlo Hlt Hhi A N y Xm HN HA Hy HY HX ZP ZPw ZPr hin HBg FH.
  Let hweak := hinv_weaken lm ilo ihi A y Hy ZP ZPw hin.
  Let itnan := iter_nan lm LM n wantz ilo ihi iloz ihiz Hlo Hhi hin wrin wiin zin FH HBg.
  Let dfnan := defl_nan lm n wantz ilo ihi iloz ihiz Hlo Hhi hin wrin wiin zin FH HBg.

  Lemma iter_l its st st' b : (ilo <= sL st < sI st)%Z -> iter its st = Ok (st', b) -> (ilo <= sL st' <= sI st)%Z.
  Proof.
    intros Hl. unfold hq_iter. cbv zeta. destruct (hq_scan_facts ilo ihi (sH st) (sL st) (sI st) (sK st) ltac:(lia)) as (K1 & _ & _). set (k := hq_scan _ _ _ _ _ _) in *. clearbody k.
    destruct (Z.leb_spec (sI st - 1) k); [intros [= <- _]; cbn [sL]; lia|]. cbv iota. set (hh := if (ilo <? k)%Z then _ else _). destruct (hq_start _ _ _ _ _ _) as [m v].
    destruct (for_M _ _ _) as [[[[h' z'] v'] t']| | |]; cbn [bind]; try discriminate. intros [= <- _]. cbn [sL]. lia.
  Qed.

  Lemma sweeps_nan c : forall lo st, (lo = itmax - Z.of_nat c)%Z -> oks st -> (ilo <= sK st <= sI st + 1)%Z -> (ilo <= sL st < sI st)%Z -> (sI st <= ihi)%Z -> poisoned (sH st) ->
    exists st', for_brk_M (range lo itmax) st iter = Ok st' /\ oks st' /\ sI st' = sI st /\ (ilo <= sL st' <= sI st)%Z /\ poisoned (sH st').
  Proof.
    induction c as [|c IH]; intros lo st El OK Hk Hl Hi HP.
    - assert (lo = itmax) as -> by lia. rewrite range_cons by lia. rewrite range_nil by lia. cbn [for_brk_M].
      destruct (hq_iter_ok true wantz ilo ihi iloz ihiz hin wrin wiin zin itmax st FH OK ltac:(lia) Hk ltac:(lia)) as (st' & b & E & OK' & I1 & _). rewrite E. cbn [bind fst snd].
      exists st'. split; [destruct b; reflexivity|]. split; [exact OK'|]. split; [exact I1|]. split; [eapply iter_l; eassumption|]. exact (itnan _ _ _ _ OK Hl Hi HP E).
    - rewrite range_cons by lia. cbn [for_brk_M].
      destruct (hq_iter_ok true wantz ilo ihi iloz ihiz hin wrin wiin zin lo st FH OK ltac:(lia) Hk ltac:(lia)) as (st' & b & E & OK' & I1 & I2 & I3 & I4 & I5). rewrite E. cbn [bind fst snd].
      pose proof (iter_l _ _ _ _ Hl E) as L'. pose proof (itnan _ _ _ _ OK Hl Hi HP E) as HP'.
      destruct b.
      + exists st'. repeat (split; [assumption || reflexivity|]). exact HP'.
      + destruct (IH (lo + 1)%Z st') as (s2 & J1 & J2 & J3 & J4 & J5); try assumption; try lia.
        exists s2. split; [exact J1|]. split; [exact J2|]. split; [congruence|]. split; [rewrite I1 in J4; exact J4|exact J5].
  Qed.

  Lemma sweeps64 c : forall lo st x G Q, (lo = itmax - Z.of_nat c)%Z -> hinv x (sI st) (sL st) (sH st) (sZ st) G Q -> 0 <= x -> x + IZR nh * IZR (Z.of_nat c + 1) <= Xm ->
    oks st -> (ilo <= sK st <= sI st + 1)%Z -> (ilo <= sL st < sI st)%Z -> (sI st <= ihi)%Z ->
    exists st', for_brk_M (range lo itmax) st iter = Ok st' /\ oks st' /\ sI st' = sI st /\ (ilo <= sL st' <= sI st)%Z /\
      ((exists G' Q', hinv (x + IZR nh * IZR (Z.of_nat c + 1)) (sI st) (sL st') (sH st') (sZ st') G' Q' /\ sWr st' = sWr st /\ sWi st' = sWi st /\
        (forall a b, inr a -> inr b -> (sI st < a)%Z -> (sI st < b)%Z -> G' a b = G a b) /\
        ((sIts st' < itmax)%Z -> (sI st - 1 <= sL st')%Z /\ (forall a, (sL st' < a <= sI st)%Z -> sml <= Rabs (G' a (a - 1)%Z)))) \/ poisoned (sH st')).
  Proof.
    assert (N2 : 2 <= IZR nh) by (apply IZR_le; lia).
    induction c as [|c IH]; intros lo st x G Q El I Hx HXm OK Hk Hl Hi.
    - assert (lo = itmax) as -> by lia. rewrite range_cons by lia. rewrite range_nil by lia. cbn [for_brk_M]. change (Z.of_nat 0 + 1)%Z with 1%Z in *. rewrite Rmult_1_r in *.
      destruct (hq_iter_ok true wantz ilo ihi iloz ihiz hin wrin wiin zin itmax st FH OK ltac:(lia) Hk ltac:(lia)) as (st1 & b1 & E & OK' & _).
      destruct (it64 x itmax st G Q I ltac:(apply OK) Hx HXm Hl Hi) as (st' & b & E' & TV & I1 & IT & W1 & W2 & L' & B1 & B2 & CASES). change (NBit lm) with NBtp in *. rewrite E' in E. injection E as <- <-.
      rewrite E'. cbn [bind fst snd]. exists st'. split; [destruct b; reflexivity|]. split; [exact OK'|]. split; [exact I1|]. split; [exact L'|].
      destruct CASES as [(G' & Q' & I' & F' & NZ)|HP]; [left|right; exact HP]. exists G', Q'. split; [exact I'|]. repeat (split; [assumption|]). lia.
    - rewrite range_cons by lia. cbn [for_brk_M].
      assert (CC : 1 <= IZR (Z.of_nat c + 1)) by (apply IZR_le; lia).
      assert (EC : IZR (Z.of_nat (S c) + 1) = IZR (Z.of_nat c + 1) + 1) by (rewrite <- plus_IZR; f_equal; lia). rewrite EC in *.
      assert (CN : 0 <= IZR nh * IZR (Z.of_nat c + 1)) by (apply Rmult_le_pos; lra).
      destruct (hq_iter_ok true wantz ilo ihi iloz ihiz hin wrin wiin zin lo st FH OK ltac:(lia) Hk ltac:(lia)) as (st1 & b1 & E & OK' & _ & K1 & K2 & _).
      destruct (it64 x lo st G Q I ltac:(apply OK) Hx ltac:(lra) Hl Hi) as (st' & b & E' & TV & I1 & IT & W1 & W2 & L' & B1 & B2 & CASES). change (NBit lm) with NBtp in *. rewrite E' in E. injection E as <- <-.
      rewrite E'. cbn [bind fst snd]. destruct b.
      + exists st'. split; [reflexivity|]. split; [exact OK'|]. split; [exact I1|]. split; [exact L'|].
        destruct CASES as [(G' & Q' & I' & F' & NZ)|HP]; [left|right; exact HP]. exists G', Q'.
        split; [eapply hweak; [exact I'|lra]|]. repeat (split; [assumption|]). intros _. split; [apply B1; reflexivity|apply NZ; reflexivity].
      + specialize (B2 eq_refl). destruct CASES as [(G' & Q' & I' & F' & NZ)|HP].
        * destruct (IH (lo + 1)%Z st' (x + IZR nh) G' Q') as (s2 & J1 & J2 & J3 & J4 & J5); try assumption; try lia; try lra; [rewrite I1; exact I'|].
          exists s2. split; [exact J1|]. split; [exact J2|]. split; [congruence|]. rewrite I1 in *. split; [exact J4|].
          destruct J5 as [(G2 & Q2 & I2 & V1 & V2 & F2 & NZ2)|HP]; [left|right; exact HP]. exists G2, Q2.
          split; [eapply hweak; [exact I2|lra]|]. split; [congruence|]. split; [congruence|]. split; [intros; rewrite F2, F' by assumption; reflexivity|exact NZ2].
        * destruct (sweeps_nan c (lo + 1)%Z st') as (s2 & J1 & J2 & J3 & J4 & J5); try assumption; try lia.
          exists s2. split; [exact J1|]. split; [exact J2|]. split; [congruence|]. rewrite I1 in *. split; [exact J4|]. right. exact J5.
  Qed.

  Context (conv : @hqst b64 -> outcome unit).
  Hypothesis CV : forall st, oks st -> conv st = Ok tt.
  Hypothesis (FZ : wantz = true -> full zin /\ (0 <= rows zin)%Z /\ (1 <= iloz)%Z).
  Notation loop := (hq_loop true wantz n ilo ihi (rows hin) iloz ihiz conv).
  Let RH : (0 <= rows hin)%Z.
  Proof. destruct HBg. lia. Qed.

  Definition at_head (x : R) (st : @hqst b64) : Prop := (ilo - 1 <= sI st <= ihi)%Z /\
    ((exists G Q, hinv x (sI st) ilo (sH st) (sZ st) G Q /\ (ihi <= count (sWr st))%Z /\ (ihi <= count (sWi st))%Z /\ schur64 ilo ihi G (sWr st) (sWi st) (sI st + 1)) \/ poisoned (sH st)).
  Definition at_end (x : R) (st : @hqst b64) (info : Z) : Prop :=
    (exists i l G Q, hinv x i l (sH st) (sZ st) G Q /\ schur64 ilo ihi G (sWr st) (sWi st) (if (info =? 0)%Z then ilo else info + 1)) \/ poisoned (sH st).
  Definition TT : R := IZR nh * IZR (itmax + 1) + 1.
  Lemma TT_pos : 0 <= TT.
  Proof. unfold TT. pose proof (hq_itmax_pos ilo ihi). assert (0 <= IZR nh * IZR (itmax + 1)) by (apply Rmult_le_pos; apply IZR_le; lia). lra. Qed.

  Lemma turn64 x st : at_head x st -> heads st -> 0 <= x -> x + TT <= Xm -> (ilo < sI st)%Z ->
    forall st' o, turn true wantz n ilo ihi (rows hin) iloz ihiz conv st = Ok (st', o) ->
      match o with
      | Some i => i = sI st /\ at_end (x + TT) st' i
      | None => at_head (x + TT) st' /\ (sI st' < sI st)%Z
      end.
  Proof.
    intros (SI & CASES) (OK & HI & HK & _) Hx HXm Hi st' o. unfold turn. set (s0 := mkHq _ _ _ _ _ _ _ _ ilo _ _ _ _ _).
    pose proof (hq_itmax_pos ilo ihi) as IM. specialize (HK ltac:(lia)).
    assert (N2 : 2 <= IZR nh) by (apply IZR_le; lia). assert (I2 : 0 <= IZR (itmax + 1)) by (apply IZR_le; lia). assert (NI : 0 <= IZR nh * IZR (itmax + 1)) by (apply Rmult_le_pos; lra).
    assert (OK0 : oks s0) by exact OK.
    assert (SW : exists s1, for_brk_M (range 0 itmax) s0 iter = Ok s1 /\ oks s1 /\ sI s1 = sI st /\ (ilo <= sL s1 <= sI st)%Z /\
      ((exists G Q, hinv (x + IZR nh * IZR (itmax + 1)) (sI st) (sL s1) (sH s1) (sZ s1) G Q /\ (ihi <= count (sWr s1))%Z /\ (ihi <= count (sWi s1))%Z /\ schur64 ilo ihi G (sWr s1) (sWi s1) (sI st + 1) /\
        ((sIts s1 < itmax)%Z -> (sI st - 1 <= sL s1)%Z /\ (forall a, (sL s1 < a <= sI st)%Z -> sml <= Rabs (G a (a - 1)%Z)))) \/ poisoned (sH s1))).
    { destruct CASES as [(G & Q & I & CR & CI & QS)|HP].
      - destruct (sweeps64 (Z.to_nat itmax) 0 s0 x G Q) as (s1 & F1 & OK1 & I1 & L1 & C1); try assumption; try (cbn; lia); [lia| |].
        { rewrite Z2Nat.id by lia. unfold TT in HXm. lra. }
        exists s1. split; [exact F1|]. split; [exact OK1|]. split; [exact I1|]. split; [exact L1|]. rewrite Z2Nat.id in C1 by lia.
        destruct C1 as [(G1 & Q1 & J1 & W1 & W2 & F2 & NZ)|HP]; [left|right; exact HP]. exists G1, Q1. change (sI s0) with (sI st) in *. change (sWr s0) with (sWr st) in *. change (sWi s0) with (sWi st) in *.
        rewrite W1, W2. split; [exact J1|]. split; [exact CR|]. split; [exact CI|]. split; [|exact NZ].
        eapply s64_ext; [exact QS| | |auto].
        + intros a b Ha Hb. apply F2; lia.
        + intros L. replace (sI st + 1 - 1)%Z with (sI st) by lia. apply (e_bot _ _ _ _ _ _ _ _ _ _ _ _ _ _ J1). lia.
      - destruct (sweeps_nan (Z.to_nat itmax) 0 s0) as (s1 & F1 & OK1 & I1 & L1 & C1); try assumption; try (cbn; lia); [lia|].
        exists s1. split; [exact F1|]. split; [exact OK1|]. split; [exact I1|]. split; [exact L1|]. right. exact C1. }
    destruct SW as (s1 & F1 & OK1 & A1 & L1 & C1). rewrite F1. cbn [bind].
    destruct (Z.leb_spec itmax (sIts s1)) as [L|L].
    - rewrite A1. intros [= <- <-]. split; [reflexivity|]. destruct C1 as [(G1 & Q1 & J1 & _ & _ & QS & _)|HP]; [left|right; exact HP].
      exists (sI st), (sL s1), G1, Q1. split; [eapply hweak; [exact J1|unfold TT; lra]|]. destruct (Z.eqb_spec (sI st) 0); [lia|]. exact QS.
    - destruct C1 as [(G1 & Q1 & J1 & CR & CI & QS & NZ)|HP].
      + destruct (NZ L) as [B1 B2]. rewrite <- A1 in *.
        destruct (df64 (x + IZR nh * IZR (itmax + 1)) s1 G1 Q1) as (s2 & G2 & Q2 & D1 & D2 & D3 & D4 & D5 & D6 & D7 & D8 & D9); try assumption; try lia; [unfold TT in HXm; lra|].
        change (NBdf lm) with NBtp in *. rewrite D1. cbn [bind]. destruct (conv _) as [[]| | |]; cbn [bind]; try discriminate. intros [= <- <-]. split; [|cbn [sI]; lia].
        split; [cbn [sI]; lia|]. left. exists G2, Q2. cbn [sI sH sZ sV sWr sWi]. rewrite D3. split; [unfold TT; rewrite <- Rplus_assoc; exact D2|].
        split; [lia|]. split; [lia|]. replace (sL s1 - 1 + 1)%Z with (sL s1) by lia. exact D9.
      + destruct (hq_deflate_ok true wantz n ilo ihi (rows hin) iloz ihiz hin wrin wiin zin FH RH FZ Hlo s1 OK1 ltac:(lia) ltac:(lia)) as (s2 & D1 & D2 & D3 & D4 & _).
        rewrite D1. cbn [bind]. destruct (conv _) as [[]| | |]; cbn [bind]; try discriminate. intros [= <- <-].
        assert (HP2 : poisoned (sH s2)) by (eapply dfnan; [exact OK1|lia|lia|exact HP|exact D1]).
        destruct (Z_le_gt_dec (sL s1) (sI st)) as [LL|LL]; [|lia].
        split; [split; [cbn [sI]; lia|right; exact HP2]|cbn [sI]; lia].
  Qed.

  Lemma at_end_weaken x x' st i : at_end x st i -> 0 <= x <= x' -> at_end x' st i.
  Proof. intros [(a & l & G & Q & I & QS)|HP] L; [left|right; exact HP]. exists a, l, G, Q. split; [eapply hweak; eassumption|exact QS]. Qed.

  Lemma loop64 fuel : forall st x st' info, heads st -> at_head x st -> 0 <= x -> x + TT * IZR (sI st - ilo + 1) <= Xm -> loop fuel st = Ok (st', info) ->
    at_end (x + TT * IZR (sI st - ilo + 1)) st' info.
  Proof.
    pose proof TT_pos as TP.
    assert (DONE : forall st x, at_head x st -> 0 <= x -> (sI st < ilo)%Z -> at_end (x + TT * IZR (sI st - ilo + 1)) st 0).
    { intros st x (SI & C) Hx L. assert (sI st = ilo - 1)%Z as EI by lia.
      destruct C as [(G & Q & I & CR & CI & QS)|HP]; [left|right; exact HP].
      exists (sI st), ilo, G, Q. rewrite EI in *. replace (ilo - 1 - ilo + 1)%Z with 0%Z by lia. rewrite Rmult_0_r, Rplus_0_r. split; [exact I|].
      cbn [Z.eqb]. replace ilo with (ilo - 1 + 1)%Z at 2 by lia. exact QS. }
    induction fuel as [|fuel IH]; intros st x st' info HO HA' Hx HXm.
    - cbn [hq_loop]. destruct (Z.ltb_spec (sI st) ilo); [|discriminate]. intros [= <- <-]. apply DONE; assumption.
    - destruct (Z.eq_dec (sI st) ilo) as [EI|NI].
      { rewrite (hq_loop_stuck true wantz n ilo ihi (rows hin) iloz ihiz hin wrin wiin zin FH RH FZ Hlo conv CV (S fuel) st HO EI). discriminate. }
      rewrite loop_turn. destruct (Z.ltb_spec (sI st) ilo) as [L|L]; [intros [= <- <-]; apply DONE; assumption|].
      assert (P0 : 1 <= IZR (sI st - ilo + 1)) by (apply IZR_le; lia). assert (P3 : TT <= TT * IZR (sI st - ilo + 1)) by nra.
      destruct (turn_ok true wantz n ilo ihi (rows hin) iloz ihiz hin wrin wiin zin FH RH FZ Hlo conv CV st HO ltac:(lia)) as [(s' & ET & OK')|(s' & ET & HO' & _)];
        pose proof (turn64 x st HA' HO Hx ltac:(lra) ltac:(lia) _ _ ET) as NX; cbv iota in NX; rewrite ET; cbn [bind fst snd].
      + destruct NX as [_ AE]. intros [= <- <-]. eapply at_end_weaken; [exact AE|]. lra.
      + destruct NX as [HA2 LT']. intros EL.
        assert (P1 : 0 <= IZR (sI s' - ilo + 1)). { apply IZR_le. destruct HA2 as [? _]. lia. }
        assert (P2 : IZR (sI s' - ilo + 1) + 1 <= IZR (sI st - ilo + 1)) by (rewrite <- plus_IZR; apply IZR_le; lia).
        assert (P4 : TT * IZR (sI s' - ilo + 1) + TT <= TT * IZR (sI st - ilo + 1)) by nra. assert (P5 : 0 <= TT * IZR (sI s' - ilo + 1)) by (apply Rmult_le_pos; assumption).
        specialize (IH s' _ st' info HO' HA2 ltac:(lra) ltac:(lra) EL).
        eapply at_end_weaken; [exact IH|]. lra.
  Qed.
End Loop.
