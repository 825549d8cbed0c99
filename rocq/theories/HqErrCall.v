(** dlahqr in binary64: the call as seen by its caller. *)
From Coq Require Import Reals Lra.
From Flocq Require Import IEEE754.BinarySingleNaN Core.
From Verif Require Import Base Num Array Blas Lapack Dlahqr Spec SpecR SpecErr SpecSim SpecHqErr B64 B64Lemmas B64Nn Lists RsumLemmas RoundErr Near
  FaLemmas LanvProofs LahqrProofs LahqrTop RealMat SimArray SimSweep SimNear LanvCalc LanvStd LanvErr HqReal HqGet HqErrApp HqErrReal HqErrStep HqErrNan HqErrIter HqErrDefl HqErrZ HqErrTop.
Open Scope R_scope.

(** ** the numbers *)
Lemma steps_pos nh : (2 <= nh)%Z -> (0 <= hq_steps nh)%Z.
Proof. intros. unfold hq_steps. assert (0 <= 30 * Z.max nh 10 + 1)%Z by lia. nia. Qed.
Lemma unit_pos nh : (2 <= nh)%Z -> 0 < hq_unit64 nh.
Proof. intros. unfold hq_unit64. apply Rmult_lt_0_compat; [apply bpow_gt_0|]. apply sqrt_lt_R0. apply IZR_lt. lia. Qed.
Lemma hq_fits nh : (2 <= nh <= 850)%Z -> IZR (hq_steps nh) * hq_unit64 nh <= 1.
Proof.
  intros H. assert (S : (hq_steps nh <= 18424473350)%Z).
  { unfold hq_steps. assert (M : (30 * Z.max nh 10 + 1 <= 25501)%Z) by lia. apply Z.le_trans with (850 * (25501 * 850 + 1))%Z; [|lia].
    assert (0 <= 30 * Z.max nh 10 + 1)%Z by lia. apply Z.mul_le_mono_nonneg; [lia|lia|nia|]. nia. }
  assert (Q : sqrt (IZR nh) <= 29.2).
  { rewrite <- (sqrt_square 29.2) by lra. apply sqrt_le_1_alt. assert (IZR nh <= 850) by (apply IZR_le; lia). lra. }
  pose proof (sqrt_pos (IZR nh)) as Q0. pose proof (IZR_le _ _ S) as S'. pose proof (IZR_le _ _ (steps_pos nh ltac:(lia))) as S0.
  unfold hq_unit64. assert (B : bpow radix2 (-39) = / 549755813888) by reflexivity. rewrite B.
  apply Rle_trans with (18424473350 * (/ 549755813888 * 29.2)); [|lra].
  apply Rmult_le_compat; [lra|apply Rmult_le_pos; lra|lra|]. apply Rmult_le_compat_l; lra.
Qed.
Lemma N_mid e N : bpow radix2 (-900) <= N <= bpow radix2 398 -> 0 <= e <= 4 -> 1 <= e -> mid (e * N).
Proof.
  intros [H1 H2] He He1. pose proof (bpow_gt_0 radix2 (-900)). split.
  - apply Rle_trans with (bpow radix2 (-900)); [apply bpow_le; lia|]. nra.
  - replace (bpow radix2 400) with (4 * bpow radix2 398) by (change 4 with (bpow radix2 2); rewrite <- bpow_plus; reflexivity). nra.
Qed.
Lemma delta_low N : bpow radix2 (-900) <= N -> bpow radix2 (-950) <= delta (4 * N).
Proof.
  intros H. unfold delta. apply Rle_trans with (bpow radix2 (-43) * bpow radix2 (-900)); [rewrite <- bpow_plus; apply bpow_le; lia|].
  apply Rmult_le_compat_l; [apply bpow_ge_0|]. pose proof (bpow_gt_0 radix2 (-900)). lra.
Qed.
(** y = 2*sqrt(nh)*delta(4N); 2*y is the size of one perturbation *)
Definition ystep (N : R) (nh : Z) : R := 2 * sqrt (IZR nh) * delta (4 * N).
Lemma ystep_unit N nh : 2 * ystep N nh = hq_unit64 nh * N.
Proof. unfold ystep, hq_unit64, delta. replace (bpow radix2 (-39)) with (16 * bpow radix2 (-43)) by (change 16 with (bpow radix2 4); rewrite <- bpow_plus; reflexivity). ring. Qed.
Lemma ystep_pos N nh : (2 <= nh)%Z -> 0 < N -> 0 < ystep N nh.
Proof. intros H HN. pose proof (unit_pos nh H) as U. pose proof (ystep_unit N nh). pose proof (Rmult_lt_0_compat _ _ U HN). lra. Qed.
Lemma ystep_sq N nh : (2 <= nh)%Z -> 3 * (IZR nh * (delta (4 * N) * delta (4 * N))) <= ystep N nh * ystep N nh.
Proof.
  intros H. unfold ystep. assert (P : 0 <= IZR nh) by (apply IZR_le; lia).
  replace (2 * sqrt (IZR nh) * delta (4 * N) * (2 * sqrt (IZR nh) * delta (4 * N))) with (4 * ((sqrt (IZR nh) * sqrt (IZR nh)) * (delta (4 * N) * delta (4 * N)))) by ring.
  rewrite sqrt_sqrt by exact P. assert (0 <= IZR nh * (delta (4 * N) * delta (4 * N))) by (apply Rmult_le_pos; [exact P|apply Rle_0_sqr]). lra.
Qed.

Section Clear.
  Context (lm : libm).
  #[local] Instance NBcl : Num b64 := B64 lm.
  Lemma clear_inv (ok : fa b64 -> Prop) ilo ihi (h : fa b64) :
    (forall g i j, ok g -> (ilo <= j)%Z -> (j + 2 <= i <= ihi)%Z -> (i <= j + 3)%Z -> ok (set2 g i j f0)) -> ok h -> ok (hq_clear ilo ihi h).
  Proof.
    intros S H. unfold hq_clear.
    assert (L : ok (for_ (range ilo (ihi - 3)) h (fun j h => set2 (set2 h (j + 2) j f0) (j + 3) j f0))).
    { apply (for_inv ok); [exact H|]. intros j s Hj Hs. apply in_range in Hj. apply S; [apply S; [exact Hs|lia|lia|lia]|lia|lia|lia]. }
    destruct (Z.leb_spec ilo (ihi - 2)); [|exact L]. apply S; [exact L|lia|lia|lia].
  Qed.
  (** the entries two and three below the diagonal are zero afterwards *)
  Lemma clear_zero n ilo ihi (h : fa b64) : (1 <= ilo)%Z -> (ihi <= n)%Z -> big n h -> forall a b, (ilo <= b)%Z -> (b + 2 <= a <= ihi)%Z -> (a <= b + 3)%Z ->
    get2 (hq_clear ilo ihi h) a b = (f0 : b64).
  Proof.
    intros Hlo Hhi BH a b Hb Ha Hab. unfold hq_clear.
    assert (G : forall (g : fa b64) i j, big n g -> (1 <= i <= n)%Z -> (1 <= j <= n)%Z -> get2 g a b = (f0 : b64) -> get2 (set2 g i j f0) a b = (f0 : b64)).
    { intros g i j Hg Hi Hj E. rewrite (set2_get n) by (assumption || lia). destruct (_ && _); [reflexivity|exact E]. }
    set (body := fun j h => set2 (set2 h (j + 2) j f0) (j + 3) j f0).
    assert (BL : forall r g, (forall j, In j r -> (ilo <= j <= ihi - 3)%Z) -> big n g -> big n (for_ r g body)).
    { intros r g Hr Hg. apply (for_inv (big n)); [exact Hg|]. intros j s Hj Hs. unfold body. apply set2_big, set2_big. exact Hs. }
    assert (KP : forall r g, (forall j, In j r -> (ilo <= j <= ihi - 3)%Z) -> big n g -> get2 g a b = (f0 : b64) -> get2 (for_ r g body) a b = (f0 : b64)).
    { intros r g Hr Hg E. apply (for_inv (fun s => big n s /\ get2 s a b = (f0 : b64))); [auto|]. intros j s Hj (Hs & Es). specialize (Hr j Hj). unfold body.
      split; [apply set2_big, set2_big; exact Hs|]. apply G; [apply set2_big; exact Hs|lia|lia|]. apply G; [exact Hs|lia|lia|exact Es]. }
    assert (IR : forall j, In j (range ilo (ihi - 3)) -> (ilo <= j <= ihi - 3)%Z) by (intros; apply in_range; assumption).
    destruct (Z_le_gt_dec b (ihi - 3)) as [Lb|Lb].
    - assert (E : get2 (for_ (range ilo (ihi - 3)) h body) a b = (f0 : b64)).
      { rewrite (range_app ilo (b - 1) (ihi - 3)) by lia. replace (b - 1 + 1)%Z with b by lia. rewrite (range_cons b) by lia. unfold for_. rewrite fold_left_app. cbn [fold_left]. fold (for_ (range ilo (b - 1)) h body).
        assert (B1 : big n (for_ (range ilo (b - 1)) h body)) by (apply BL; [intros j Hj; apply in_range in Hj; lia|exact BH]).
        set (g := for_ (range ilo (b - 1)) h body) in *. clearbody g. change (get2 (for_ (range (b + 1) (ihi - 3)) (body b g) body) a b = (f0 : b64)).
        apply KP; [intros j Hj; apply in_range in Hj; lia|unfold body; apply set2_big, set2_big; exact B1|].
        unfold body. rewrite (set2_get n) by (try apply set2_big; assumption || lia). rewrite (set2_get n) by (assumption || lia).
        destruct (Z.eqb_spec a (b + 3)); destruct (Z.eqb_spec a (b + 2)); destruct (Z.eqb_spec b b); cbn [andb]; try reflexivity; lia. }
      destruct (Z.leb_spec ilo (ihi - 2)); [|exact E]. apply G; [apply BL; assumption|lia|lia|exact E].
    - destruct (Z.leb_spec ilo (ihi - 2)) as [_|X]; [|lia]. rewrite (set2_get n) by (try (apply BL; assumption); lia).
      destruct (Z.eqb_spec a ihi); destruct (Z.eqb_spec b (ihi - 2)); cbn [andb]; try lia. reflexivity.
  Qed.
  Lemma clear64 n ilo ihi (h : fa b64) M : (1 <= ilo)%Z -> (ihi <= n)%Z -> big n h -> hessenberg ilo ihi M ->
    (forall a b, (ilo <= a <= ihi)%Z -> (ilo <= b <= ihi)%Z -> (a <= b + 1 \/ b + 4 <= a)%Z -> is_val (get2 h a b) (M a b)) ->
    forall a b, (ilo <= a <= ihi)%Z -> (ilo <= b <= ihi)%Z -> is_val (get2 (hq_clear ilo ihi h) a b) (M a b).
  Proof.
    intros Hlo Hhi BH HE HM a b Ha Hb. destruct (Z_le_gt_dec a (b + 1)) as [C|C]; [|destruct (Z_le_gt_dec (b + 4) a) as [D|D]].
    3: { rewrite (clear_zero n) by (assumption || lia). rewrite HE by lia. split; reflexivity. }
    1, 2: assert (X : get2 (hq_clear ilo ihi h) a b = get2 h a b);
      [apply (clear_inv (fun g => big n g /\ get2 g a b = get2 h a b)); [|auto]; intros g i j (Hg & E) Hj Hi Hij; split; [apply set2_big; exact Hg|];
        rewrite (set2_get n) by (assumption || lia); destruct (Z.eqb_spec a i), (Z.eqb_spec b j); cbn [andb]; try exact E; lia
      |rewrite X; apply HM; try assumption; lia].
  Qed.
End Clear.

Section Call.
  Context (lm : libm) (LM : libm_ok lm).
  #[local] Instance NBca : Num b64 := B64 lm.
  Context {H WR WI ZZ : Type} {TH : ToFA b64 H} {FH : FromFA b64 H} {TWR : ToFA b64 WR} {FWR : FromFA b64 WR}
    {TWI : ToFA b64 WI} {FWI : FromFA b64 WI} {TZ : ToFA b64 ZZ} {FZ : FromFA b64 ZZ}.
  Context (wantz : bool) (n ilo ihi : Z) (h : H) (wr : WR) (wi : WI) (iloz ihiz : Z) (z : ZZ) (ldz : Z) (H0 Z0 : Z -> Z -> R) (N K : R).

  Lemma dlahqr_schur64 fuel h' wr' wi' z' info :
    usable TH FH h -> usable TWR FWR wr -> usable TWI FWI wi -> usable TZ FZ z ->
    (1 <= ilo)%Z -> (ilo < ihi)%Z -> (ihi <= n)%Z -> (ihi - ilo + 1 <= 850)%Z ->
    (n <= rows (to_fa h))%Z -> (n * rows (to_fa h) <= count (to_fa h))%Z -> (ihi <= count (to_fa wr))%Z -> (ihi <= count (to_fa wi))%Z ->
    (forall a b, (ilo <= a <= ihi)%Z -> (ilo <= b <= ihi)%Z -> (a <= b + 1 \/ b + 4 <= a)%Z -> holds_ent (to_fa h) a b (H0 a b)) -> hessenberg ilo ihi H0 ->
    bpow radix2 (-900) <= N <= bpow radix2 398 -> frob2 ilo ihi H0 <= N * N ->
    (wantz = true -> (1 <= iloz <= ihiz)%Z /\ (ihiz <= n)%Z /\ (n <= rows (to_fa z))%Z /\ (n * rows (to_fa z) <= count (to_fa z))%Z /\
      bpow radix2 (-900) <= K <= bpow radix2 398 /\
      forall a, (iloz <= a <= ihiz)%Z -> (forall b, (ilo <= b <= ihi)%Z -> holds_ent (to_fa z) a b (Z0 a b)) /\ Rsum_range (fun b => Z0 a b * Z0 a b) ilo ihi <= K * K) ->
    dlahqr fuel true wantz n ilo ihi h (rows (to_fa h)) wr wi iloz ihiz z ldz = Ok (h', wr', wi', z', info) ->
    exists hd wrd wid zd,
      from_fa hd = Ok h' /\ from_fa wrd = Ok wr' /\ from_fa wid = Ok wi' /\ from_fa zd = Ok z' /\ (info = 0 \/ ilo <= info <= ihi)%Z /\
      (nan_diag ilo ihi hd \/
       exists T Q E, near_similar64 ilo ihi (hq_err64 N (ihi - ilo + 1)) H0 T Q E /\ hessenberg ilo ihi T /\ blocks64 ilo ihi hd T /\
         schur64 ilo ihi T wrd wid (if (info =? 0)%Z then ilo else info + 1) /\
         (wantz = true -> zrows64 n ilo ihi iloz ihiz (to_fa z) zd Z0 Q (hq_zerr64 K (ihi - ilo + 1)))).
  Proof.
    intros UH UR UI UZ L1 L2 L3 L850 L4 L4' L5 L6 HM HE HN FN HZ.
    assert (AR : hq_args_ok wantz ilo h wr wi iloz z).
    { refine (conj UH (conj UR (conj UI (conj UZ (conj L1 _))))). intros e. destruct (HZ e) as [? _]. lia. }
    destruct (hq_args_loop wantz ilo ihi h wr wi iloz z AR) as (A1 & A2 & A3 & A4 & A5).
    rewrite dlahqr_main by lia.
    destruct (hq_loop _ _ _ _ _ _ _ _ _ _ _) as [[st i]| | |] eqn:EL; cbn [bind fst snd]; try discriminate.
    set (nh := (ihi - ilo + 1)%Z) in *.
    assert (BH : big n (to_fa h)) by (split; assumption).
    assert (NP : 0 < N) by (pose proof (bpow_gt_0 radix2 (-900)); lra).
    pose proof (N_mid 4 N HN ltac:(lra) ltac:(lra)) as M4. pose proof (ystep_pos N nh ltac:(lia) NP) as YP. pose proof (ystep_sq N nh ltac:(lia)) as YS.
    pose proof (hq_fits nh ltac:(lia)) as FIT.
    assert (XN : IZR (hq_steps nh) * (2 * ystep N nh) <= N) by (rewrite ystep_unit, <- Rmult_assoc; nra).
    assert (ST : IZR (hq_steps nh) = TT ilo ihi * IZR nh).
    { unfold TT, hq_steps. rewrite <- mult_IZR, <- plus_IZR, <- mult_IZR. f_equal. unfold hq_itmax, hq_nh. fold nh. ring. }
    assert (S0 : 0 <= IZR (hq_steps nh)) by (apply IZR_le, steps_pos; lia).
    assert (HV : forall a b, (ilo <= a <= ihi)%Z -> (ilo <= b <= ihi)%Z -> (a <= b + 1 \/ b + 4 <= a)%Z -> is_val (get2 (to_fa h) a b) (H0 a b)).
    { intros a b Ha Hb Hab. destruct (HM a b Ha Hb Hab) as (v & E & V). rewrite ent_get2 in E by (apply (big_pos n); [exact BH|lia|lia]). injection E as ->. exact V. }
    (* the rows of Z *)
    assert (ZX : exists ZP : R -> fa b64 -> (Z -> Z -> R) -> Prop, (forall x x' z Q, ZP x z Q -> 0 <= x <= x' -> ZP x' z Q) /\
      (forall x z Q k (v2 v3 t1 : b64) w2 w3 t, ZP x z Q -> 0 <= x <= IZR (hq_steps nh) -> (ilo <= k)%Z -> (k + 2 <= ihi)%Z -> rapp v2 v3 t1 w2 w3 t ->
        ZP (x + 1) (if wantz then for_ (range iloz ihiz) z (right3 k v2 v3 t1 (fmul t1 v2) (fmul t1 v3)) else z) (mmul ilo ihi Q (refl t (wvec k w2 w3)))) /\
      (forall x z Q k (v2 t1 : b64) w2 t, ZP x z Q -> 0 <= x <= IZR (hq_steps nh) -> (ilo <= k)%Z -> (k + 1 <= ihi)%Z -> rapp v2 (B754_zero false) t1 w2 0 t ->
        ZP (x + 1) (if wantz then for_ (range iloz ihiz) z (right2 k v2 t1 (fmul t1 v2)) else z) (mmul ilo ihi Q (refl t (wvec k w2 0)))) /\
      (forall x z Q i (cs sn : b64) C S, ZP x z Q -> 0 <= x <= IZR (hq_steps nh) -> (ilo < i <= ihi)%Z -> is_finite cs = true -> is_finite sn = true -> C * C + S * S = 1 ->
        Rabs (B2R cs - C) <= bpow radix2 (-46) -> Rabs (B2R sn - S) <= bpow radix2 (-46) ->
        exists z', (if wantz then hq_rot_z iloz ihiz i cs sn z else Ok z) = Ok z' /\ ZP (x + 1) z' (mmul ilo ihi Q (rotm (i - 1) C S))) /\
      ZP 0 (to_fa z) Rid /\
      (forall zd Q, ZP (IZR (hq_steps nh)) zd Q -> wantz = true -> zrows64 n ilo ihi iloz ihiz (to_fa z) zd Z0 Q (hq_zerr64 K nh))).
    { destruct wantz eqn:EW.
      - destruct (HZ eq_refl) as (Z1 & Z2 & Z3 & Z4 & HK & Z5). destruct (A3 eq_refl) as (FZ1 & _).
        assert (BZ : big n (to_fa z)) by (split; assumption). pose proof (N_mid 2 K HK ltac:(lra) ltac:(lra)) as M2. assert (KP : 0 < K) by (pose proof (bpow_gt_0 radix2 (-900)); lra).
        assert (YZ : 2 * delta (2 * K) = bpow radix2 (-41) * K) by (unfold delta; replace (bpow radix2 (-41)) with (4 * bpow radix2 (-43)) by (change 4 with (bpow radix2 2); rewrite <- bpow_plus; reflexivity); ring).
        assert (XZ : IZR (hq_steps nh) * (2 * delta (2 * K)) <= K).
        { rewrite YZ, <- Rmult_assoc. rewrite <- (Rmult_1_l K) at 2. apply Rmult_le_compat_r; [lra|]. eapply Rle_trans; [|exact FIT]. apply Rmult_le_compat_l; [exact S0|].
          unfold hq_unit64. apply Rle_trans with (bpow radix2 (-39) * 1); [rewrite Rmult_1_r; apply bpow_le; lia|]. apply Rmult_le_compat_l; [apply bpow_ge_0|].
          rewrite <- sqrt_1. apply sqrt_le_1_alt. apply IZR_le. lia. }
        assert (ZV : forall a b, (iloz <= a <= ihiz)%Z -> (ilo <= b <= ihi)%Z -> is_val (get2 (to_fa z) a b) (Z0 a b)).
        { intros a b Ha Hb. destruct (proj1 (Z5 a Ha) b Hb) as (v & E & V). rewrite ent_get2 in E by (apply (big_pos n); [exact BZ|lia|lia]). injection E as ->. exact V. }
        assert (ZR : forall p, (iloz <= p <= ihiz)%Z -> rowsq ilo ihi (zv lm (to_fa z)) p <= K * K).
        { intros p Hp. rewrite (row_ext ilo ihi _ Z0); [apply (Z5 p Hp)|]. intros b Hb. apply ZV; assumption. }
        exists (zok lm n ilo ihi iloz ihiz (to_fa z) K).
        split; [intros; eapply (zok_weaken lm); eassumption|].
        split; [intros; eapply (zok_three lm); eassumption|]. split; [intros; eapply (zok_two lm); eassumption|].
        split; [intros; eapply (zok_rot lm); eassumption|].
        split; [apply zok_start; intros; apply ZV; assumption|].
        intros zd Q [S O U F W] _. assert (BD : big n zd) by (eapply big_shape; eassumption). split.
        + intros a b Ha Hb Ho. rewrite !ent_get2 by (apply (big_pos n); assumption). rewrite U by assumption. reflexivity.
        + intros a Ha. exists (zv lm zd a). split.
          * intros b Hb. exists (get2 zd a b). split; [apply ent_get2; apply (big_pos n); [exact BD|lia|lia]|]. split; [apply F; assumption|reflexivity].
          * unfold hq_zerr64. rewrite <- YZ. eapply Rle_trans; [right|apply (W a Ha)]. apply Rsum_range_ext. intros b Hb. unfold msub.
            assert (EM : mmul ilo ihi Z0 Q a b = mmul ilo ihi (zv lm (to_fa z)) Q a b) by (apply mm_ext; [intros k Hk; symmetry; apply ZV; assumption|auto]). rewrite EM. reflexivity.
      - exists (fun _ _ _ => True). repeat (split; [now auto|]). split; [intros; eexists; split; [reflexivity|exact I]|]. split; [exact I|discriminate]. }
    destruct ZX as (ZP & ZPw & ZP3 & ZP2 & ZPr & ZP0 & ZPe).
    pose proof (hq_init_ok wantz ilo ihi h wr wi z ltac:(lia)) as HO.
    set (st0 := hq_init _ _ _ _ _ _) in *.
    assert (AH : at_head lm ilo ihi H0 (ystep N nh) ZP (to_fa h) 0 st0).
    { split; [cbn; lia|]. left. exists H0, Rid. split; [|split; [exact L5|]; split; [exact L6|]; apply s64_nil].
      assert (CL := clear64 lm n ilo ihi (to_fa h) H0 L1 L3 BH HE HV).
      constructor; cbn [st0 hq_init sH sZ sI].
      - apply hq_clear_shape.
      - intros a b Ha Hb _. apply CL; assumption.
      - intros a b Ha Hb _ _. apply CL; assumption.
      - exact HE.
      - rewrite Rmult_0_l. apply simf_start.
      - exact ZP0.
      - lia.
      - lia. }
    pose proof (loop64 lm LM wantz n ilo ihi iloz ihiz L1 L2 L3 H0 N (ystep N nh) (IZR (hq_steps nh)) M4 FN YP YS XN ltac:(fold nh; lia) (delta_low N (proj1 HN)) ZP ZPw ZP3 ZP2 ZPr
      (to_fa h) (to_fa wr) (to_fa wi) (to_fa z) BH A1 _ A5 A3 fuel st0 0 st i HO AH (Rle_refl 0)) as AE.
    change (sI st0) with ihi in AE. fold nh in AE. rewrite Rplus_0_l, <- ST in AE. specialize (AE (Rle_refl _) EL).
    pose proof (hq_loop_ok true wantz n ilo ihi (rows (to_fa h)) iloz ihiz _ _ _ _ A1 A2 A3 A4 _ A5 fuel st0 HO) as [X|(st1 & i1 & X & OK & IB)]; [rewrite X in EL; discriminate|].
    rewrite X in EL. injection EL as -> ->.
    destruct (hq_conv_ok wantz ilo ihi h wr wi iloz z st AR OK) as (h1 & wr1 & wi1 & z1 & -> & B1 & B2 & B3 & B4). cbn [bind].
    intros [= <- <- <- <- <-].
    exists (sH st), (sWr st), (sWi st), (sZ st). repeat (split; [assumption|]).
    assert (BD : big n (sH st)) by (eapply big_shape; [apply OK|exact BH]).
    destruct AE as [(k & l & G & Q & I & QS)|(p & Hp & NP')].
    - right. destruct I as [I1 I2 I3 I4 (S1 & E & S2 & S3) I6 _ _]. exists G, Q, E.
      split; [split; [exact S1|split; [exact S2|]]|].
      { unfold hq_err64. rewrite <- ystep_unit. exact S3. }
      split; [exact I4|]. split; [|split; [exact QS|apply ZPe; exact I6]].
      intros a b Ha Hb C. exists (get2 (sH st) a b). split; [apply ent_get2; apply (big_pos n); [exact BD|lia|lia]|].
      destruct (Z_le_gt_dec b a); [apply I2; assumption|]. destruct C as [C|C]; [lia|]. apply I3; [assumption|assumption|lia|exact C].
    - left. exists p. split; [exact Hp|]. rewrite ent_get2 by (apply (big_pos n); [exact BD|lia|lia]). f_equal. exact NP'.
  Qed.
End Call.
