(** dlahqr over exact reals: the whole call with wantt = true. *)
From Flocq Require Import Core.
From Coq Require Import Reals Lra.
From Verif Require Import Base Num Array Blas Lapack Dlahqr Spec ER SpecR SpecSim SpecHq Lists FaLemmas RsumLemmas Nrm2Proofs B64 Nrm2F64 Blas1Proofs LarfgProofs LanvProofs
  LahqrProofs LahqrTop LahqrNum RealMat SimArray SimSweep SimReflect Laqr1Proofs HqReal HqArray HqReflect HqSweep HqIter HqRotRows HqDefl.
Open Scope R_scope.

Section Loop.
  Context (wantz : bool) (n ilo ihi iloz ihiz : Z).
  Hypothesis (Hlo : (1 <= ilo)%Z) (Hlt : (ilo < ihi)%Z) (Hhi : (ihi <= n)%Z).
  Hypothesis (HZ : wantz = true -> (1 <= iloz <= ihiz)%Z /\ (ihiz <= n)%Z).
  Context (A Z0 : Z -> Z -> R) (N D : R) (zin hin wrin wiin : fa er).
  Hypothesis (HN : 0 <= N <= 2 ^ 500) (HD : 3 * bpow radix2 (-52) * N + bpow radix2 (-970) * IZR (ihi - ilo + 1) <= D).
  Hypothesis (HRZ : wantz = true -> (n <= rows zin)%Z /\ full zin).
  Hypothesis (FH : full hin) (HR : (n <= rows hin)%Z).
  Notation inr a := (ilo <= a <= ihi)%Z.
  Notation hinv := (hinv wantz n ilo ihi iloz ihiz A Z0 N zin hin).
  Notation iter := (hq_iter true wantz ilo ihi iloz ihiz).
  Notation itmax := (hq_itmax ilo ihi).
  Let Dp : 0 < D := D_pos ilo ihi Hlt N D HN HD.

  Lemma hinv_weaken x y i l h z M G Q E : hinv x i l h z M G Q E -> 0 <= x <= y -> hinv y i l h z M G Q E.
  Proof. intros [] L. constructor; try assumption. eapply simil_weaken; eassumption. Qed.

  (** the sweeps of one turn *)
  Lemma sweeps_is c : forall lo st x M G Q E, (lo = itmax - Z.of_nat c)%Z -> hinv x (sI st) (sL st) (sH st) (sZ st) M G Q E -> 0 <= x -> st_v (sV st) ->
    (ilo <= sL st < sI st)%Z -> (sI st <= ihi)%Z ->
    exists st' M' G' Q' E', for_brk_M (range lo itmax) st iter = Ok st' /\ hinv (x + 2 * D * IZR (Z.of_nat c + 1)) (sI st) (sL st') (sH st') (sZ st') M' G' Q' E' /\ st_v (sV st') /\
      sI st' = sI st /\ sWr st' = sWr st /\ sWi st' = sWi st /\ (ilo <= sL st' <= sI st)%Z /\
      (forall a b, inr a -> inr b -> (sI st < a)%Z -> (sI st < b)%Z -> G' a b = G a b) /\
      ((sIts st' < itmax)%Z -> (sI st - 1 <= sL st')%Z /\ (forall a, (sL st' < a <= sI st)%Z -> M' a (a - 1)%Z <> 0)).
  Proof.
    induction c as [|c IH]; intros lo st x M G Q E El I Hx SV Hl Hi.
    - assert (lo = itmax) as -> by lia. rewrite range_cons by lia. rewrite range_nil by lia. cbn [for_brk_M].
      destruct (hq_iter_is wantz n ilo ihi iloz ihiz Hlo Hlt Hhi (fun e => conj (proj1 (proj1 (HZ e))) (proj2 (HZ e))) A Z0 N D zin hin HN HD (fun e => proj1 (HRZ e)) FH HR x itmax st M G Q E I Hx SV Hl Hi)
        as (st' & b & M' & G' & Q' & E' & E1 & I' & SV' & I1 & I2 & I3 & I4 & I5 & I6 & I7 & I8).
      rewrite E1. cbn [bind fst snd]. exists st', M', G', Q', E'. split; [destruct b; reflexivity|]. change (Z.of_nat 0 + 1)%Z with 1%Z. rewrite Rmult_1_r.
      split; [exact I'|]. repeat (split; [assumption|]). lia.
    - rewrite range_cons by lia. cbn [for_brk_M].
      destruct (hq_iter_is wantz n ilo ihi iloz ihiz Hlo Hlt Hhi (fun e => conj (proj1 (proj1 (HZ e))) (proj2 (HZ e))) A Z0 N D zin hin HN HD (fun e => proj1 (HRZ e)) FH HR x lo st M G Q E I Hx SV Hl Hi)
        as (st' & b & M' & G' & Q' & E' & E1 & I' & SV' & I1 & I2 & I3 & I4 & I5 & I6 & I7 & I8).
      rewrite E1. cbn [bind fst snd].
      assert (CC : 0 <= IZR (Z.of_nat c + 1)) by (apply IZR_le; lia).
      assert (EC : IZR (Z.of_nat (S c) + 1) = IZR (Z.of_nat c + 1) + 1) by (rewrite <- plus_IZR; f_equal; lia).
      destruct b.
      + exists st', M', G', Q', E'. split; [reflexivity|]. split; [eapply hinv_weaken; [exact I'|rewrite EC; nra]|]. repeat (split; [assumption|]). intros _. exact I8.
      + destruct (IH (lo + 1)%Z st' (x + 2 * D) M' G' Q' E') as (st2 & M2 & G2 & Q2 & E2 & J1 & J2 & J3 & J4 & J5 & J6 & J7 & J8 & J9); try assumption; try lia; try lra; [rewrite I1; exact I'|].
        exists st2, M2, G2, Q2, E2. split; [exact J1|]. rewrite I1 in *.
        split; [eapply hinv_weaken; [exact J2|rewrite EC; nra]|]. split; [exact J3|]. split; [congruence|]. split; [congruence|]. split; [congruence|]. split; [exact J7|].
        split; [intros; rewrite J8, I7 by assumption; reflexivity|exact J9].
  Qed.

  Context (conv : @hqst er -> outcome unit).
  Notation oks := (hq_ok wantz ilo ihi hin wrin wiin zin).
  Notation heads := (head_ok wantz ilo ihi hin wrin wiin zin).
  Hypothesis CV : forall st, oks st -> conv st = Ok tt.
  Notation loop := (hq_loop true wantz n ilo ihi (rows hin) iloz ihiz conv).
  Let FZ : wantz = true -> full zin /\ (0 <= rows zin)%Z /\ (1 <= iloz)%Z.
  Proof. intros e. destruct (HZ e), (HRZ e). split; [assumption|lia]. Qed.
  Let RH : (0 <= rows hin)%Z.
  Proof. lia. Qed.

  Definition at_head (x : R) (st : @hqst er) : Prop := exists M G Q E, hinv x (sI st) ilo (sH st) (sZ st) M G Q E /\ st_v (sV st) /\
    (ihi <= count (sWr st))%Z /\ (ihi <= count (sWi st))%Z /\ quasi_schur ilo ihi G (sWr st) (sWi st) (sI st + 1) /\ (ilo - 1 <= sI st <= ihi)%Z.
  Definition at_end (x : R) (st : @hqst er) (info : Z) : Prop := exists i l M G Q E, hinv x i l (sH st) (sZ st) M G Q E /\
    quasi_schur ilo ihi G (sWr st) (sWi st) (if (info =? 0)%Z then ilo else info + 1).

  Lemma bot_couple x i l h z M G Q E : hinv x i l h z M G Q E -> (ilo <= i < ihi)%Z -> G (i + 1)%Z i = 0.
  Proof. intros I Hi. rewrite <- (g_low _ _ _ _ (i_agree _ _ _ _ _ _ _ _ _ _ _ _ _ _ _ _ _ _ _ _ I)) by lia. apply (i_bot _ _ _ _ _ _ _ _ _ _ _ _ _ _ _ _ _ _ _ _ I). assumption. Qed.

  Lemma turn_is x st : at_head x st -> 0 <= x -> (ilo < sI st)%Z ->
    forall st' o, turn true wantz n ilo ihi (rows hin) iloz ihiz conv st = Ok (st', o) ->
      match o with
      | Some i => i = sI st /\ at_end (x + 2 * D * IZR (itmax + 1)) st' i
      | None => at_head (x + 2 * D * IZR (itmax + 1)) st' /\ (sI st' < sI st)%Z
      end.
  Proof.
    intros (M & G & Q & E & I & SV & CR & CI & QS & SI) Hx Hi st' o. unfold turn. set (s0 := mkHq _ _ _ _ _ _ _ _ ilo _ _ _ _ _).
    pose proof (hq_itmax_pos ilo ihi) as IM.
    destruct (sweeps_is (Z.to_nat itmax) 0 s0 x M G Q E) as (s1 & M1 & G1 & Q1 & E1 & F1 & I1 & SV1 & A1 & A2 & A3 & A4 & A5 & A6);
      [lia|exact I|exact Hx|exact SV|cbn; lia|cbn; lia|]. rewrite F1. cbn [bind].
    change (sI s0) with (sI st) in *. change (sWr s0) with (sWr st) in *. change (sWi s0) with (sWi st) in *. rewrite Z2Nat.id in I1 by lia.
    assert (QS1 : quasi_schur ilo ihi G1 (sWr s1) (sWi s1) (sI st + 1)).
    { rewrite A2, A3. eapply qs_ext; [exact QS| | |auto].
      - intros a b Ha Hb. apply A5; lia.
      - intros L. replace (sI st + 1 - 1)%Z with (sI st) by lia. eapply bot_couple; [exact I1|lia]. }
    destruct (Z.leb_spec itmax (sIts s1)) as [L|L].
    - rewrite A1. intros [= <- <-]. split; [reflexivity|]. exists (sI st), (sL s1), M1, G1, Q1, E1. split; [exact I1|].
      destruct (Z.eqb_spec (sI st) 0); [lia|]. exact QS1.
    - destruct (A6 L) as [B1 B2]. rewrite <- A1 in *. 
      destruct (hq_deflate_is wantz n ilo ihi iloz ihiz Hlo Hlt Hhi HZ A Z0 N zin hin HN HRZ FH HR (x + 2 * D * IZR (itmax + 1)) s1 M1 G1 Q1 E1) as (s2 & M2 & G2 & Q2 & D1 & D2 & D3 & D4 & D5 & D6 & D7 & D8 & D9);
        [exact I1|lia|lia|lia|exact B2|rewrite A2; exact CR|rewrite A3; exact CI|exact QS1|].
      rewrite D1. cbn [bind]. destruct (conv _) as [[]| | |]; cbn [bind]; try discriminate. intros [= <- <-]. split; [|cbn [sI]; lia].
      exists M2, G2, Q2, E1. cbn [sI sH sZ sV sWr sWi]. rewrite D3. split; [exact D2|]. split; [rewrite D5; exact SV1|].
      split; [rewrite D7, A2; exact CR|]. split; [rewrite D8, A3; exact CI|]. split; [|lia]. replace (sL s1 - 1 + 1)%Z with (sL s1) by lia. exact D9.
  Qed.

  Lemma at_end_weaken x y st i : at_end x st i -> 0 <= x <= y -> at_end y st i.
  Proof. intros (a & l & M & G & Q & E & I & QS) L. exists a, l, M, G, Q, E. split; [eapply hinv_weaken; eassumption|exact QS]. Qed.

  Lemma loop_is fuel : forall st x st' info, heads st -> at_head x st -> 0 <= x -> loop fuel st = Ok (st', info) ->
    at_end (x + 2 * D * IZR (itmax + 1) * IZR (sI st - ilo + 1)) st' info.
  Proof.
    assert (IMP : 0 <= 2 * D * IZR (itmax + 1)).
    { apply Rmult_le_pos; [lra|]. apply IZR_le. pose proof (hq_itmax_pos ilo ihi). lia. }
    assert (DONE : forall st x, at_head x st -> 0 <= x -> (sI st < ilo)%Z -> at_end (x + 2 * D * IZR (itmax + 1) * IZR (sI st - ilo + 1)) st 0).
    { intros st x (M & G & Q & E & I & SV & CR & CI & QS & SI) Hx L. assert (sI st = ilo - 1)%Z as EI by lia.
      exists (sI st), ilo, M, G, Q, E. rewrite EI in *. replace (ilo - 1 - ilo + 1)%Z with 0%Z by lia. rewrite Rmult_0_r, Rplus_0_r. split; [exact I|].
      cbn [Z.eqb]. replace ilo with (ilo - 1 + 1)%Z at 2 by lia. exact QS. }
    induction fuel as [|fuel IH]; intros st x st' info HO HA Hx.
    - cbn [hq_loop]. destruct (Z.ltb_spec (sI st) ilo); [|discriminate]. intros [= <- <-]. apply DONE; assumption.
    - destruct (Z.eq_dec (sI st) ilo) as [EI|NI].
      { rewrite (hq_loop_stuck true wantz n ilo ihi (rows hin) iloz ihiz hin wrin wiin zin FH RH FZ Hlo conv CV (S fuel) st HO EI). discriminate. }
      rewrite loop_turn. destruct (Z.ltb_spec (sI st) ilo) as [L|L]; [intros [= <- <-]; apply DONE; assumption|].
      destruct (turn_ok true wantz n ilo ihi (rows hin) iloz ihiz hin wrin wiin zin FH RH FZ Hlo conv CV st HO ltac:(lia)) as [(s' & ET & OK')|(s' & ET & HO' & _)];
        pose proof (turn_is x st HA Hx ltac:(lia) _ _ ET) as NX; cbv iota in NX; rewrite ET; cbn [bind fst snd].
      + destruct NX as [_ AE]. intros [= <- <-]. eapply at_end_weaken; [exact AE|]. split; [lra|].
        assert (1 <= IZR (sI st - ilo + 1)) by (apply IZR_le; lia). nra.
      + destruct NX as [HA' LT']. intros EL. specialize (IH s' _ st' info HO' HA' ltac:(lra) EL).
        eapply at_end_weaken; [exact IH|].
        assert (P1 : 0 <= IZR (sI s' - ilo + 1)). { apply IZR_le. destruct HA' as (?&?&?&?&?&?&?&?&?&?). lia. }
        assert (P2 : IZR (sI s' - ilo + 1) + 1 <= IZR (sI st - ilo + 1)) by (rewrite <- plus_IZR; apply IZR_le; lia).
        split; [nra|]. nra.
  Qed.
End Loop.
