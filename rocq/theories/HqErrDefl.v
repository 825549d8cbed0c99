(** dlahqr in binary64: one or two eigenvalues are split off. *)
From Coq Require Import Reals Lra Nsatz.
From Flocq Require Import IEEE754.BinarySingleNaN Core.
From Verif Require Import Base Num Array Blas Lapack Dlahqr Spec SpecR SpecErr SpecSim SpecHqErr B64 B64Lemmas B64Nn Lists RsumLemmas RoundErr Near
  FaLemmas LanvProofs LahqrProofs LahqrTop RealMat SimArray SimSweep LanvCalc LanvStd LanvErr LanvEig HqReal HqGet HqErrApp HqErrReal HqErrStep HqErrNan HqErrIter Laqr1Err HqErrPos.
Open Scope R_scope.

Section QS.
  Context (ilo ihi : Z).
  Lemma s64_bounds T wr wi j : schur64 ilo ihi T wr wi j -> (j <= ihi + 1)%Z.
  Proof. induction 1; lia. Qed.
  Lemma s64_couple T wr wi j : schur64 ilo ihi T wr wi j -> (ilo < j <= ihi)%Z -> T j (j - 1)%Z = 0.
  Proof. intros QS L. inversion QS; subst; try lia; match goal with H : (_ -> _ = 0) |- _ => apply H; lia end. Qed.
  Lemma holds_eq f g j x : elem g j = elem f j -> holds_at f j x -> holds_at g j x.
  Proof. intros E (v & H & V). exists v. split; [congruence|exact V]. Qed.
  Lemma s64_ext T wr wi T' wr' wi' j : schur64 ilo ihi T wr wi j ->
    (forall a b, (j <= a <= ihi)%Z -> (j <= b <= ihi)%Z -> T' a b = T a b) -> ((ilo < j <= ihi)%Z -> T' j (j - 1)%Z = 0) ->
    (forall a, (j <= a <= ihi)%Z -> elem wr' a = elem wr a /\ elem wi' a = elem wi a) -> schur64 ilo ihi T' wr' wi' j.
  Proof.
    induction 1 as [|j H1 H2 H3 H4 H5 IH|j s H1 H2 H3 H4 H5 H6 H7 b c H8 H9 IH]; intros HT HC HW.
    - apply s64_nil.
    - pose proof (s64_bounds _ _ _ _ H5). destruct (HW j ltac:(lia)) as [W1 W2]. apply s64_one; [assumption|intros; apply HC; lia| | |].
      + rewrite HT by lia. eapply holds_eq; eassumption.
      + eapply holds_eq; eassumption.
      + apply IH; [intros; apply HT; lia| |intros; apply HW; lia]. intros L. rewrite HT by lia. eapply s64_couple; [exact H5|lia].
    - pose proof (s64_bounds _ _ _ _ H9). destruct (HW j ltac:(lia)) as [W1 W2]. destruct (HW (j + 1)%Z ltac:(lia)) as [W3 W4].
      apply (s64_two ilo ihi T' wr' wi' j s); [assumption|assumption|intros; apply HC; lia| | | | | |].
      + rewrite HT by lia. eapply holds_eq; eassumption.
      + rewrite HT by lia. eapply holds_eq; eassumption.
      + eapply holds_eq; eassumption.
      + eapply holds_eq; eassumption.
      + rewrite !HT by lia. exact H8.
      + apply IH; [intros; apply HT; lia| |intros; apply HW; lia]. intros L. rewrite HT by lia. eapply s64_couple; [exact H9|lia].
  Qed.
End QS.

Section Defl.
  Context (lm : libm) (LM : libm_ok lm).
  #[local] Instance NBdf : Num b64 := B64 lm.
  Context (wantz : bool) (n ilo ihi iloz ihiz : Z).
  Hypothesis (Hlo : (1 <= ilo)%Z) (Hlt : (ilo < ihi)%Z) (Hhi : (ihi <= n)%Z).
  Notation inr a := (ilo <= a <= ihi)%Z.
  Notation mm := (mmul ilo ihi).
  Notation nh := (ihi - ilo + 1)%Z.
  Context (A : Z -> Z -> R) (N y Xm : R).
  Hypothesis (HN : mid (4 * N)) (HA : frob2 ilo ihi A <= N * N).
  Hypothesis (Hy : 0 < y) (HY : 3 * (IZR nh * (delta (4 * N) * delta (4 * N))) <= y * y) (HX : Xm * (2 * y) <= N).
  Context (ZP : R -> fa b64 -> (Z -> Z -> R) -> Prop).
  Hypothesis (ZPw : forall x x' z Q, ZP x z Q -> 0 <= x <= x' -> ZP x' z Q).
  Hypothesis (ZPr : forall x z Q i (cs sn : b64) C S, ZP x z Q -> 0 <= x <= Xm -> (ilo < i <= ihi)%Z -> is_finite cs = true -> is_finite sn = true -> C * C + S * S = 1 ->
    Rabs (B2R cs - C) <= bpow radix2 (-46) -> Rabs (B2R sn - S) <= bpow radix2 (-46) ->
    exists z', (if wantz then hq_rot_z iloz ihiz i cs sn z else Ok z) = Ok z' /\ ZP (x + 1) z' (mm Q (rotm (i - 1) C S))).
  Context (hin : fa b64).
  Hypothesis (HBg : big n hin) (FH : full hin).
  Notation hinv := (hinv lm ilo ihi A y ZP hin).

  Lemma val_value f g : is_val f g <-> value_of f g.
  Proof. split; intros H; exact H. Qed.

  Lemma defl64 x st G Q : hinv x (sI st) (sL st) (sH st) (sZ st) G Q -> 0 <= x <= Xm ->
    (sI st - 1 <= sL st <= sI st)%Z -> (ilo <= sL st)%Z -> (sI st <= ihi)%Z -> (forall a, (sL st < a <= sI st)%Z -> bpow radix2 (-969) <= Rabs (G a (a - 1)%Z)) ->
    (ihi <= count (sWr st))%Z -> (ihi <= count (sWi st))%Z -> schur64 ilo ihi G (sWr st) (sWi st) (sI st + 1) ->
    exists st' G' Q', hq_deflate true wantz n (rows hin) iloz ihiz st = Ok st' /\ hinv (x + 1) (sL st - 1) ilo (sH st') (sZ st') G' Q' /\
      sL st' = sL st /\ sI st' = sI st /\ sV st' = sV st /\ sIts st' = sIts st /\ count (sWr st') = count (sWr st) /\ count (sWi st') = count (sWi st) /\
      schur64 ilo ihi G' (sWr st') (sWi st') (sL st).
  Proof.
    intros I Hx Hl Hl2 Hi NZ CR CI QS. unfold hq_deflate. cbv zeta. set (i := sI st) in *. set (l := sL st) in *. set (h := sH st) in *.
    pose proof I as [Sh AL AU HE SI ZI IT IB]. pose proof (bpow_gt_0 radix2 (-969)) as SP.
    assert (EL : forall (f : fa b64) p v q, (ihi <= count f)%Z -> (1 <= p <= ihi)%Z -> elem (set1 f p v) q = if (q =? p)%Z then Some v else elem f q).
    { intros f p v q Hc Hp. rewrite set1_get64. destruct (q =? p)%Z; [|reflexivity].
      assert (P : (1 <= p <= count f)%Z) by lia. apply elem_Some in P as [w ->]. reflexivity. }
    assert (CS : forall (f : fa b64) p v, count (set1 f p v) = count f) by (intros; destruct (set1_shape f p v) as (_ & _ & ->); reflexivity).
    destruct (Z.eqb_spec l i) as [El|Nl].
    - eexists. exists G, Q. split; [reflexivity|]. cbn [sH sWr sWi sZ sV sI sL sIts].
      split.
      { apply (hinv_weaken lm ilo ihi A y Hy ZP ZPw hin x (x + 1)); [|lra]. constructor; try assumption; [lia|]. intros. replace (l - 1 + 1)%Z with l by lia. apply IT; lia. }
      rewrite !CS. repeat (split; [reflexivity|]).
      apply s64_one.
      + lia.
      + intros L. apply IT. lia.
      + exists (get2 h i i). rewrite EL by lia. rewrite El, Z.eqb_refl. split; [reflexivity|]. apply AL; lia.
      + exists f0. rewrite EL by lia. rewrite El, Z.eqb_refl. split; [reflexivity|]. split; reflexivity.
      + rewrite El. eapply s64_ext; [exact QS|reflexivity| |].
        * intros L. replace (i + 1 - 1)%Z with i by lia. apply IB. lia.
        * intros a Ha. rewrite !EL by lia. destruct (Z.eqb_spec a i); [lia|]. auto.
    - destruct (Z.eqb_spec l (i - 1)) as [El|Nl2]; [|lia].
      assert (BA : forall a b, (l <= a <= i)%Z -> (l <= b <= i)%Z -> is_val (get2 h a b) (G a b)).
      { intros a b Ha Hb. destruct (Z_le_gt_dec b a); [apply AL; lia|]. apply AU; [lia|lia|lia|]. intros s Hs E. specialize (NZ s ltac:(lia)). rewrite E, Rabs_R0 in NZ. lra. }
      pose proof (top_zero lm ilo ihi A y ZP hin _ _ _ _ _ _ _ I ltac:(lia)) as TZ.
      pose proof (bot_zero lm ilo ihi A y ZP hin _ _ _ _ _ _ _ I ltac:(lia)) as BZ.
      pose proof (fun a b Ha Hb => e_bound lm ilo ihi A N y Xm HN HA Hy HX ZP hin _ _ _ _ _ _ _ a b I Hx Ha Hb) as GB.
      assert (BG : big n h) by (eapply big_shape; eassumption).
      assert (BN : forall u w, (l <= u <= i)%Z -> (l <= w <= i)%Z -> bnd (2 * N) (get2 h u w)).
      { intros u w Hu Hw. destruct (BA u w Hu Hw) as [F E]. split; [exact F|]. rewrite E. apply GB; lia. }
      pose proof (N_pos N HN) as NP.
      assert (MU : 2 * N <= bpow radix2 400) by (destruct HN as [_ H]; lra).
      set (a := get2 h (i - 1) (i - 1)). set (b := get2 h (i - 1) i). set (c := get2 h i (i - 1)). set (d := get2 h i i).
      assert (Va : is_val a (G (i - 1)%Z (i - 1)%Z)) by (apply BA; lia). assert (Vb : is_val b (G (i - 1)%Z i)) by (apply BA; lia).
      assert (Vc : is_val c (G i (i - 1)%Z)) by (apply BA; lia). assert (Vd : is_val d (G i i)) by (apply BA; lia).
      assert (Ba : bnd (2 * N) a) by (apply BN; lia). assert (Bb : bnd (2 * N) b) by (apply BN; lia). assert (Bc : bnd (2 * N) c) by (apply BN; lia). assert (Bd : bnd (2 * N) d) by (apply BN; lia).
      assert (OR : off_range b c).
      { right; right. eapply Rle_trans; [|apply Rmax_r]. rewrite (proj2 Vc). apply NZ. lia. }
      destruct (lanv_fields lm LM (2 * N) a b c d Ba Bb Bc Bd MU OR) as (FA & FB & FC & FD & FCs & FSn & SHP & _ & RT1 & RT2 & ZC & NC).
      destruct (lanv_close lm LM (2 * N) a b c d Ba Bb Bc Bd MU OR) as (C & S & y1 & y2 & y3 & y4 & ONE & SIM & D1 & D2 & D3 & D4 & DC & DS & LB & LC).
      pose proof (lanv_shape lm LM (2 * N) a b c d Ba Bb Bc Bd MU OR) as SHAPE.
      change (NBe lm) with NBdf in *. set (r := dlanv2 a b c d) in *. clearbody r. rewrite (proj2 Va), (proj2 Vb), (proj2 Vc), (proj2 Vd) in SIM.
      assert (BL : exists s, holds_at (set1 (set1 (sWi st) (i - 1) (nrt1i r)) i (nrt2i r)) (i - 1) s /\ holds_at (set1 (set1 (sWi st) (i - 1) (nrt1i r)) i (nrt2i r)) i (- s) /\
        (B2R (nC r) = 0 /\ s = 0 \/ B2R (nB r) * B2R (nC r) < 0 /\ 0 < s /\ Rabs (s - sqrt (- (B2R (nB r) * B2R (nC r)))) <= 4 * u64 * sqrt (- (B2R (nB r) * B2R (nC r))) + 2 * eta64 /\ Rabs (B2R (nA r) - B2R (nD r)) < bpow radix2 (-52))).
      { assert (WI : forall s, value_of (nrt1i r) s -> value_of (nrt2i r) (- s) -> holds_at (set1 (set1 (sWi st) (i - 1) (nrt1i r)) i (nrt2i r)) (i - 1) s /\ holds_at (set1 (set1 (sWi st) (i - 1) (nrt1i r)) i (nrt2i r)) i (- s)).
        { intros s V1 V2. split; [exists (nrt1i r)|exists (nrt2i r)]; (split; [|assumption]); rewrite !EL by (rewrite ?CS; lia); rewrite !Z.eqb_refl; [|reflexivity]. destruct (Z.eqb_spec (i - 1) i); [lia|reflexivity]. }
        destruct (Req_dec (B2R (nC r)) 0) as [C0|C0].
        - exists 0. destruct (ZC C0) as [E1 E2]. destruct (WI 0) as [W1 W2]; [rewrite E1; split; reflexivity|rewrite E2, Ropp_0; split; reflexivity|]. split; [exact W1|]. split; [exact W2|]. left. split; [exact C0|reflexivity].
        - destruct (NC C0) as [E1 E2]. pose proof (bpow_gt_0 radix2 (-52)) as BP.
          assert (KK : 2.1 * (2 * N) <= bpow radix2 500). { apply Rle_trans with (bpow radix2 2 * bpow radix2 400); [change (bpow radix2 2) with 4; pose proof (bpow_gt_0 radix2 400); lra|rewrite <- bpow_plus; apply bpow_le; lia]. }
          destruct (imag_ok lm (nB r) (nC r) FB FC ltac:(lra) ltac:(lra)) as (FI & W0 & HW). change (NBe lm) with NBdf in *. rewrite <- E1 in FI, W0, HW.
          assert (SH : B2R (nB r) * B2R (nC r) < 0 /\ Rabs (B2R (nA r) - B2R (nD r)) < bpow radix2 (-52)).
          { assert (STD : std64 (nA r) (nB r) (nC r) (nD r) -> B2R (nB r) * B2R (nC r) < 0 /\ Rabs (B2R (nA r) - B2R (nD r)) < bpow radix2 (-52)).
            { intros [X|[X1 X2]]; [contradiction|]. split; [exact X2|]. rewrite X1. unfold Rminus. rewrite Rplus_opp_r, Rabs_R0. exact BP. }
            destruct SHP as [SHP|(E3 & E4 & E5 & E6 & BC & _)]; [exact (STD SHP)|].
            destruct (Rle_or_lt (bpow radix2 (-52)) (Rabs (B2R a - B2R d))) as [L|L]; [apply STD, SHAPE; right; left; exact L|].
            rewrite E3, E4, E5, E6. split; assumption. }
          destruct SH as [BC AD]. exists (B2R (nrt1i r)). destruct (WI (B2R (nrt1i r))) as [W1 W2].
          + split; [exact FI|reflexivity].
          + rewrite E2. split; [change (is_finite (Bopp (nrt1i r)) = true); rewrite is_finite_Bopp; exact FI|apply B2R_Bopp].
          + split; [exact W1|]. split; [exact W2|]. right. split; [exact BC|]. split; [rewrite E1; apply (imag_pos (nB r) (nC r)); [intros X; rewrite X in BC; lra|exact C0|]; rewrite E1 in FI; exact FI|]. split; [|exact AD].
            rewrite <- sqrt_mult, <- Rabs_mult in HW by apply Rabs_pos. rewrite (Rabs_left (B2R (nB r) * B2R (nC r))) in HW by exact BC. eapply Rle_trans; [exact HW|]. pose proof u_tiny as [U0 U1]. pose proof (sqrt_pos (- (B2R (nB r) * B2R (nC r)))). nra. }
      set (h1 := set2 (set2 (set2 (set2 h _ _ _) _ _ _) _ _ _) _ _ _).
      assert (B1 : big n h1) by (unfold h1; repeat apply set2_big; exact BG).
      assert (Sh1 : same_shape h1 hin) by (unfold h1; repeat (eapply same_shape_trans; [apply set2_shape|]); exact Sh).
      assert (F1 : full h1) by (eapply full_shape; eassumption). assert (R1 : rows h1 = rows hin) by apply Sh1.
      destruct (rot_rows_frame lm n h1 i (nCs r) (nSn r) F1 B1 ltac:(lia)) as (h2 & E2 & Sh2 & K2). rewrite R1 in E2. change (NBna lm) with NBdf in *. rewrite E2. cbn [bind].
      rewrite hq_rot_cols_id; [|eapply full_shape; eassumption|destruct Sh2 as (-> & _); destruct B1; lia|lia]. cbn [bind].
      assert (P46 : bpow radix2 (-46) = 128 * u64) by (replace (bpow radix2 (-46)) with (bpow radix2 7 * u64) by (unfold u64; rewrite <- bpow_plus; reflexivity); reflexivity).
      destruct (ZPr x (sZ st) Q i (nCs r) (nSn r) C S ZI Hx ltac:(lia) FCs FSn ONE ltac:(rewrite P46; exact DC) ltac:(rewrite P46; exact DS)) as (z' & EZ & ZI'). rewrite EZ. cbn [bind].
      set (P := rotm (i - 1) C S) in *.
      assert (OP : orthogonal ilo ihi P) by (apply rotm_orth; [lia|lia|assumption]).
      set (G0 := conj_by ilo ihi P G) in *.
      assert (EG : forall u w, inr u -> inr w -> G0 u w = rotl (i - 1) C S (rotr (i - 1) C S G) u w) by (intros; apply rot_conj; [lia|lia|assumption|assumption]).
      assert (FAR0 : forall u w, inr u -> inr w -> ((u < i - 1)%Z \/ (i < u)%Z) -> ((w < i - 1)%Z \/ (i < w)%Z) -> G0 u w = G u w).
      { intros u w Hu Hw Du Dw. rewrite EG by assumption. unfold rotl, rotr. replace (i - 1 + 1)%Z with i by lia.
        destruct (Z.eqb_spec u (i - 1)), (Z.eqb_spec u i), (Z.eqb_spec w (i - 1)), (Z.eqb_spec w i); try lia. reflexivity. }
      assert (LEFT0 : forall u w, inr u -> inr w -> (i - 1 <= u <= i)%Z -> ((w < i - 1)%Z) -> G0 u w = 0).
      { intros u w Hu Hw Du Dw. rewrite EG by assumption. unfold rotl, rotr. replace (i - 1 + 1)%Z with i by lia.
        destruct (Z.eqb_spec w (i - 1)), (Z.eqb_spec w i); try lia. rewrite (TZ (i - 1)%Z w), (TZ i w), (TZ u w) by lia. destruct (_ =? _)%Z; [ring|]. destruct (_ =? _)%Z; ring. }
      assert (DOWN0 : forall u w, inr u -> inr w -> (i < u)%Z -> (i - 1 <= w <= i)%Z -> G0 u w = 0).
      { intros u w Hu Hw Du Dw. rewrite EG by assumption. unfold rotl, rotr. replace (i - 1 + 1)%Z with i by lia.
        destruct (Z.eqb_spec u (i - 1)), (Z.eqb_spec u i); try lia. rewrite (BZ u (i - 1)%Z), (BZ u i), (BZ u w) by lia. destruct (_ =? _)%Z; [ring|]. destruct (_ =? _)%Z; ring. }
      assert (BLK : G0 (i - 1)%Z (i - 1)%Z = y1 /\ G0 (i - 1)%Z i = y2 /\ G0 i (i - 1)%Z = y3 /\ G0 i i = y4).
      { rewrite !EG by lia. unfold rotl, rotr. replace (i - 1 + 1)%Z with i by lia. rewrite !Z.eqb_refl.
        destruct (Z.eqb_spec i (i - 1)); [lia|]. destruct (Z.eqb_spec (i - 1) i); [lia|].
        unfold similar2, rot2, m2tr, m2mul in SIM. injection SIM as S1 S2 S3 S4. clear - S1 S2 S3 S4 ONE.
        revert S1 S2 S3 S4. generalize (G (i - 1)%Z (i - 1)%Z) (G (i - 1)%Z i) (G i (i - 1)%Z) (G i i). intros a b c d S1 S2 S3 S4. subst. clear - ONE.
        repeat split; nsatz. }
      destruct BLK as (Q1 & Q2 & Q3 & Q4).
      set (inb := fun u w => ((i - 1 <=? u) && (u <=? i) && (i - 1 <=? w) && (w <=? i))%Z%bool).
      set (G' := fun u w => if inb u w then B2R (get2 h2 u w) else G0 u w).
      assert (INT : forall u w, (i - 1 <= u <= i)%Z -> (i - 1 <= w <= i)%Z -> inb u w = true) by (intros u w Hu Hw; unfold inb; lia).
      assert (INF : forall u w, ~ ((i - 1 <= u <= i)%Z /\ (i - 1 <= w <= i)%Z) -> inb u w = false) by (intros u w Ho; unfold inb; lia).
      assert (FAR : forall u w, inr u -> inr w -> ((u < i - 1)%Z \/ (i < u)%Z) -> ((w < i - 1)%Z \/ (i < w)%Z) -> G' u w = G u w) by (intros u w Hu Hw Du Dw; unfold G'; rewrite INF by lia; apply FAR0; assumption).
      assert (LEFT : forall u w, inr u -> inr w -> (i - 1 <= u <= i)%Z -> ((w < i - 1)%Z) -> G' u w = 0) by (intros u w Hu Hw Du Dw; unfold G'; rewrite INF by lia; apply LEFT0; assumption).
      assert (DOWN : forall u w, inr u -> inr w -> (i < u)%Z -> (i - 1 <= w <= i)%Z -> G' u w = 0) by (intros u w Hu Hw Du Dw; unfold G'; rewrite INF by lia; apply DOWN0; assumption).
      assert (HB2 : get2 h2 (i - 1) (i - 1) = nA r /\ get2 h2 (i - 1) i = nB r /\ get2 h2 i (i - 1) = nC r /\ get2 h2 i i = nD r).
      { rewrite !K2 by lia. unfold h1. assert (E3 : (i - 1 =? i)%Z = false) by lia. assert (E4 : (i =? i - 1)%Z = false) by lia.
        repeat split; rewrite ?(set2_get n) by (try lia; repeat apply set2_big; exact BG); rewrite ?Z.eqb_refl, ?E3, ?E4; reflexivity. }
      destruct HB2 as (HB1 & HB2 & HB3 & HB4).
      assert (MO : forall u w, inr u -> inr w -> ((u < i - 1)%Z \/ (i < u)%Z) \/ (w < i - 1)%Z -> get2 h2 u w = get2 h u w).
      { intros u w Hu Hw Ho. rewrite K2 by lia. unfold h1. rewrite !(set2_get n) by (try lia; repeat apply set2_big; exact BG).
        destruct (Z.eqb_spec u i), (Z.eqb_spec w i), (Z.eqb_spec u (i - 1)), (Z.eqb_spec w (i - 1)); cbn [andb]; try reflexivity; lia. }
      assert (INB : forall u w, (i - 1 <= u <= i)%Z -> (i - 1 <= w <= i)%Z -> is_val (get2 h2 u w) (G' u w)).
      { intros u w Hu Hw. split; [|unfold G'; rewrite INT by lia; reflexivity].
        assert (u = (i - 1)%Z \/ u = i) as [->| ->] by lia; (assert (w = (i - 1)%Z \/ w = i) as [->| ->] by lia); congruence. }
      assert (DL : delta (4 * N) = 4096 * (u64 * N)) by (rewrite delta_u; ring). pose proof u_tiny as [U0 U1]. assert (UN : 0 <= u64 * N) by (apply Rmult_le_pos; lra).
      assert (SIM' : simf ilo ihi A ((x + 1) * (2 * y)) G' (mm Q P)).
      { replace ((x + 1) * (2 * y)) with (x * (2 * y) + 2 * y) by ring.
        eapply simf_ext; [apply (simf_add ilo ihi A _ G0 (mm Q P) (fun u w => if inb u w then B2R (get2 h2 u w) - G0 u w else 0) (2 * y))|].
        - apply simf_conj; assumption.
        - apply Rmult_le_pos; lra.
        - lra.
        - apply Rle_trans with (3 * (IZR nh * (delta (4 * N) * delta (4 * N)))); [|nra]. apply (frob_rows3 ilo ihi _ (i - 1) (delta (4 * N))); [lia| |].
          + intros u w Hu Hw. destruct (inb u w) eqn:EI; [|rewrite Rabs_R0, DL; lra].
            assert (BB : (i - 1 <= u <= i)%Z /\ (i - 1 <= w <= i)%Z) by (unfold inb in EI; lia). destruct BB as [U W].
            assert (u = (i - 1)%Z \/ u = i) as [->| ->] by lia; (assert (w = (i - 1)%Z \/ w = i) as [->| ->] by lia); rewrite ?HB1, ?HB2, ?HB3, ?HB4, ?Q1, ?Q2, ?Q3, ?Q4; rewrite DL; lra.
          + intros u w Hu Hw Ho. rewrite INF by lia. reflexivity.
        - intros u w Hu Hw. unfold madd, G'. destruct (inb u w); ring. }
      eexists. exists G', (mm Q P). split; [reflexivity|]. cbn [sH sWr sWi sZ sV sI sL sIts].
      split; [|rewrite !CS; repeat (split; [reflexivity|])].
      + constructor.
        * eapply same_shape_trans; eassumption.
        * intros u w Hu Hw Huw. destruct (Z_lt_le_dec w (i - 1)) as [W1|W1].
          -- rewrite MO by lia. destruct (Z_lt_le_dec u (i - 1)) as [U2|U2]; [rewrite FAR by lia; apply AL; assumption|].
             destruct (Z_le_gt_dec u i) as [U3|U3]; [rewrite LEFT by lia; rewrite <- (TZ u w) by lia; apply AL; assumption|rewrite FAR by lia; apply AL; assumption].
          -- destruct (Z_le_gt_dec w i) as [W2|W2].
             ++ destruct (Z_le_gt_dec u i) as [U2|U2]; [apply INB; lia|]. rewrite MO, DOWN by lia. rewrite <- (BZ u w) by lia. apply AL; assumption.
             ++ rewrite MO, FAR by lia. apply AL; assumption.
        * intros u w Hu Hw Huw HS.
          assert (OUT : (i < u)%Z \/ (w < i - 1)%Z -> is_val (get2 h2 u w) (G' u w)).
          { intros O. rewrite MO by lia. rewrite FAR by lia. apply AU; [assumption|assumption|assumption|]. intros s Hs X. apply (HS s Hs). rewrite FAR by lia. exact X. }
          destruct (Z_lt_le_dec u (i - 1)) as [U2|U2].
          -- destruct (Z_lt_le_dec w (i - 1)) as [W1|W1]; [apply OUT; lia|]. exfalso. apply (HS (i - 1)%Z); [lia|]. apply LEFT; lia.
          -- destruct (Z_le_gt_dec u i) as [U3|U3]; [|apply OUT; lia]. destruct (Z_le_gt_dec w i) as [W2|W2]; [apply INB; lia|]. exfalso. apply (HS (i + 1)%Z); [lia|]. apply DOWN; lia.
        * intros u w Hu Hw Huw. destruct (Z_lt_le_dec w (i - 1)) as [W1|W1].
          -- destruct (Z_lt_le_dec u (i - 1)) as [U2|U2]; [rewrite FAR by lia; apply HE; assumption|]. destruct (Z_le_gt_dec u i) as [U3|U3]; [apply LEFT; lia|rewrite FAR by lia; apply HE; assumption].
          -- destruct (Z_le_gt_dec w i) as [W2|W2]; [apply DOWN; lia|rewrite FAR by lia; apply HE; assumption].
        * exact SIM'.
        * exact ZI'.
        * lia.
        * intros L. replace (l - 1 + 1)%Z with l by lia. rewrite El. apply LEFT; lia.
      + destruct BL as (s & W1 & W2 & BL). rewrite El in *.
        assert (V1 : G' (i - 1)%Z (i - 1)%Z = B2R (nA r)) by (unfold G'; rewrite INT by lia; rewrite HB1; reflexivity). assert (V2 : G' (i - 1)%Z i = B2R (nB r)) by (unfold G'; rewrite INT by lia; rewrite HB2; reflexivity).
        assert (V3 : G' i (i - 1)%Z = B2R (nC r)) by (unfold G'; rewrite INT by lia; rewrite HB3; reflexivity). assert (V4 : G' i i = B2R (nD r)) by (unfold G'; rewrite INT by lia; rewrite HB4; reflexivity).
        apply (s64_two ilo ihi G' _ _ (i - 1) s).
        * lia.
        * lia.
        * intros L. apply LEFT; lia.
        * exists (nrt1r r). rewrite !EL by (rewrite ?CS; lia). destruct (Z.eqb_spec (i - 1) i); [lia|]. rewrite Z.eqb_refl, V1. split; [reflexivity|]. rewrite RT1. split; [exact FA|reflexivity].
        * replace (i - 1 + 1)%Z with i by lia. exists (nrt2r r). rewrite !EL by (rewrite ?CS; lia). rewrite Z.eqb_refl, V4. split; [reflexivity|]. rewrite RT2. split; [exact FD|reflexivity].
        * exact W1.
        * replace (i - 1 + 1)%Z with i by lia. exact W2.
        * replace (i - 1 + 1)%Z with i by lia. cbv zeta. rewrite V1, V2, V3, V4. exact BL.
        * replace (i - 1 + 2)%Z with (i + 1)%Z by lia. eapply s64_ext; [exact QS| | |].
          -- intros u w Hu Hw. apply FAR; lia.
          -- intros L. replace (i + 1 - 1)%Z with i by lia. apply DOWN; lia.
          -- intros u Hu. rewrite !EL by (rewrite ?CS; lia). destruct (Z.eqb_spec u (i - 1)); [lia|]. destruct (Z.eqb_spec u i); [lia|]. auto.
  Qed.
End Defl.
