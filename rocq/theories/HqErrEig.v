(** dlahqr in binary64: the reported eigenvalues. *)
From Coq Require Import Reals Lra.
From Flocq Require Import IEEE754.BinarySingleNaN Core.
From Verif Require Import Base Num Array Blas Lapack Dlahqr Spec ER SpecR SpecErr SpecSim SpecHq SpecHqErr B64 B64Lemmas Lists RsumLemmas RoundErr
  LahqrTop RealMat SimArray LanvCalc AppErr LanvErr HqReal HqErrReal HqEig HqDefl HqErrApp HqErrCall.
Open Scope R_scope.

(** the values of an array *)
Definition erf (f : fa b64) : fa er := mkFA (map (fun v => Fin (B2R v)) (data f)) (rows f) (cols f) (Fin 0).
Lemma erf_at f j x : holds_at f j x -> elem (erf f) j = Some (Fin x).
Proof. unfold holds_at, elem, erf. cbn [data]. intros (v & E & V & <-). destruct (j <? 1)%Z; [discriminate|]. rewrite (map_nth_error _ _ _ E). reflexivity. Qed.

(** the smaller factor of an off-diagonal product can be moved so that the product is -s*s *)
Lemma move_off4 b c s : b * c < 0 -> 2 * eta64 <= Rabs b -> Rabs c <= Rabs b -> 0 < s -> Rabs (s - sqrt (- (b * c))) <= 4 * u64 * sqrt (- (b * c)) + 2 * eta64 ->
  exists d, b * (c + d) < 0 /\ s = sqrt (- (b * (c + d))) /\ Rabs d <= 13 * (u64 * Rabs b) + 8 * eta64.
Proof.
  intros BC LB LE W0 HW. pose proof u_tiny as [U0 U1]. pose proof eta64_pos as EP. set (m := sqrt (- (b * c))) in *. pose proof (Rabs_pos c) as C0. assert (B0 : 0 < Rabs b) by lra.
  assert (MM : m * m = - (b * c)) by (unfold m; apply sqrt_sqrt; lra).
  assert (m0 : 0 <= m) by apply sqrt_pos.
  assert (ML : m <= Rabs b).
  { rewrite <- (sqrt_square (Rabs b)) by lra. apply sqrt_le_1_alt. rewrite <- (Rabs_left (b * c)) by exact BC. rewrite Rabs_mult. apply Rmult_le_compat_l; lra. }
  assert (NB : b <> 0) by (intros E; rewrite E, Rabs_R0 in B0; lra).
  assert (PR : b * (c + (- (s * s) / b - c)) = - (s * s)) by (field; exact NB).
  exists (- (s * s) / b - c). rewrite PR. pose proof (Rmult_lt_0_compat s s W0 W0). split; [lra|]. split; [rewrite Ropp_involutive, sqrt_square; lra|].
  replace (- (s * s) / b - c) with (- ((s - m) * (s + m)) / b) by (replace c with (- (m * m) / b) by (rewrite MM; field; exact NB); field; exact NB).
  unfold Rdiv. rewrite Rabs_mult, Rabs_Ropp, Rabs_mult, Rabs_inv, (Rabs_pos_eq (s + m)) by lra.
  apply Rmult_le_reg_r with (Rabs b); [exact B0|]. rewrite Rmult_assoc, Rinv_l by lra. rewrite Rmult_1_r.
  assert (UM : 0 <= u64 * m <= / 1000000000000 * m) by (split; [apply Rmult_le_pos; lra|apply Rmult_le_compat_r; lra]). assert (UB : u64 * m <= u64 * Rabs b) by (apply Rmult_le_compat_l; lra).
  assert (WM : s + m <= 3.1 * Rabs b) by (apply ab_elim in HW; lra).
  apply Rle_trans with ((4 * (u64 * Rabs b) + 2 * eta64) * (3.1 * Rabs b)); [apply Rmult_le_compat; [apply Rabs_pos|lra| |exact WM]; lra|].
  rewrite <- Rmult_assoc. apply Rmult_le_compat_r; lra.
Qed.

Section Move.
  Context (ilo ihi : Z) (T : Z -> Z -> R) (wr wi : fa b64) (d : R) (Hd : 0 <= d).
  Context (MV : forall p, (ilo <= p)%Z -> (p + 1 <= ihi)%Z -> T p (p + 1)%Z * T (p + 1)%Z p < 0 ->
    2 * eta64 <= Rabs (T p (p + 1)%Z) /\ 2 * eta64 <= Rabs (T (p + 1)%Z p) /\ 13 * (u64 * Rabs (T p (p + 1)%Z)) + 8 * eta64 <= d /\ 13 * (u64 * Rabs (T (p + 1)%Z p)) + 8 * eta64 <= d).

  Record moved (j : Z) (D : Z -> Z -> R) : Prop := mkMv {
    mv_small : forall a b, Rabs (D a b) <= d;
    mv_where : forall a b, D a b <> 0 -> exists p, (j <= p)%Z /\ (p + 1 <= ihi)%Z /\ (a = p /\ b = p + 1 \/ a = p + 1 /\ b = p)%Z /\ T p (p + 1)%Z * T (p + 1)%Z p < 0;
    mv_schur : quasi_schur ilo ihi (madd T D) (erf wr) (erf wi) j }.

  Lemma mv_zero j D a b : moved j D -> ~ ((j <= a)%Z /\ (j <= b)%Z /\ (a = b + 1 \/ b = a + 1)%Z) -> D a b = 0.
  Proof. intros M H. destruct (Req_dec (D a b) 0) as [|X]; [assumption|]. destruct (mv_where _ _ M a b X) as (p & ? & ? & ? & _). exfalso. apply H. lia. Qed.

  Lemma move_all j : (ilo <= j)%Z -> schur64 ilo ihi T wr wi j -> exists D, moved j D.
  Proof.
    intros Lj S. revert Lj. induction S as [|j H1 H2 H3 H4 H5 IH|j s H1 H2 H3 H4 H5 H6 H7 b c H8 H9 IH]; intros Lj.
    - exists (fun _ _ => 0). constructor; [intros; rewrite Rabs_R0; exact Hd|intros a b []; reflexivity|apply qs_nil].
    - destruct (IH ltac:(lia)) as (D & M). exists D. constructor; [apply M| |].
      + intros a b X. destruct (mv_where _ _ M a b X) as (p & ? & P). exists p. split; [lia|exact P].
      + assert (Z1 : D j (j - 1)%Z = 0) by (apply (mv_zero _ _ _ _ M); lia). assert (Z2 : D j j = 0) by (apply (mv_zero _ _ _ _ M); lia).
        apply qs_one; [exact H1| | | |apply M]; unfold madd; rewrite ?Z1, ?Z2, ?Rplus_0_r; [exact H2|apply erf_at; exact H3|apply erf_at; exact H4].
    - destruct (IH ltac:(lia)) as (D & M).
      assert (DZ : forall a b, (a < j + 2)%Z \/ (b < j + 2)%Z -> D a b = 0) by (intros; apply (mv_zero _ _ _ _ M); lia).
      (* one entry of the block is moved by e *)
      assert (GO : forall eb ec, Rabs eb <= d -> Rabs ec <= d -> (eb <> 0 \/ ec <> 0 -> b * c < 0) ->
        (c + ec = 0 /\ s = 0 \/ (b + eb) * (c + ec) < 0 /\ s = sqrt (- ((b + eb) * (c + ec))) /\ Rabs (T j j - T (j + 1)%Z (j + 1)%Z) < bpow radix2 (-52)) -> exists D, moved j D).
      { intros eb ec Eb Ec NZ CASE.
        set (D' := fun p q => if ((p =? j) && (q =? j + 1))%Z then eb else if ((p =? j + 1) && (q =? j))%Z then ec else D p q).
        assert (DE : forall p q, (j + 2 <= p)%Z \/ (j + 2 <= q)%Z -> D' p q = D p q).
        { intros p q H. unfold D'. destruct (Z.eqb_spec p j), (Z.eqb_spec q (j + 1)), (Z.eqb_spec p (j + 1)), (Z.eqb_spec q j); cbn [andb]; try reflexivity; exfalso; lia. }
        assert (D1 : D' j (j + 1)%Z = eb) by (unfold D'; rewrite !Z.eqb_refl; reflexivity).
        assert (D2 : D' (j + 1)%Z j = ec) by (unfold D'; destruct (Z.eqb_spec (j + 1) j); [lia|]; rewrite !Z.eqb_refl; reflexivity).
        assert (D3 : D' j j = 0) by (unfold D'; destruct (Z.eqb_spec j (j + 1)); [lia|]; rewrite !andb_false_r; cbn [andb]; apply DZ; lia).
        assert (D4 : D' (j + 1)%Z (j + 1)%Z = 0) by (unfold D'; destruct (Z.eqb_spec (j + 1) j); [lia|]; rewrite !andb_false_r; cbn [andb]; apply DZ; lia).
        assert (D5 : D' j (j - 1)%Z = 0) by (unfold D'; destruct (Z.eqb_spec (j - 1) (j + 1)); [lia|]; destruct (Z.eqb_spec (j - 1) j); [lia|]; rewrite !andb_false_r; apply DZ; lia).
        exists D'. constructor.
        - intros p q. unfold D'. destruct ((p =? j) && (q =? j + 1))%Z; [exact Eb|]. destruct ((p =? j + 1) && (q =? j))%Z; [exact Ec|apply M].
        - intros p q. unfold D'. destruct (Z.eqb_spec p j), (Z.eqb_spec q (j + 1)), (Z.eqb_spec p (j + 1)), (Z.eqb_spec q j); cbn [andb]; intros X;
            try (exists j; split; [lia|]; split; [lia|]; split; [lia|]; apply NZ; tauto);
            destruct (mv_where _ _ M _ _ X) as (w & ? & P); exists w; (split; [lia|exact P]).
        - apply qs_two with (s := s); [lia|lia| | | | | | |]; unfold madd; rewrite ?D1, ?D2, ?D3, ?D4, ?D5, ?Rplus_0_r;
            [exact H3|apply erf_at; exact H4|apply erf_at; exact H5|apply erf_at; exact H6|apply erf_at; exact H7|exact CASE|].
          eapply qs_ext; [apply M| | |auto].
          + intros p q Hp Hq. unfold madd. rewrite DE by lia. reflexivity.
          + intros L. unfold madd. rewrite DE by lia. rewrite DZ by lia. rewrite Rplus_0_r. clear - H9 L. inversion H9; subst; try lia; match goal with H : (_ -> _ = 0) |- _ => apply H; lia end. }
      destruct H8 as [[C0 S0]|(BC & SP & HS & DD)].
      + apply (GO 0 0); rewrite ?Rabs_R0; [exact Hd|exact Hd|intros [[]|[]]; reflexivity|]. left. split; [fold c; lra|exact S0].
      + destruct (MV j ltac:(lia) H2 BC) as (MB & MC & LB & LC). fold b c in MB, MC, LB, LC.
        destruct (Rle_lt_dec (Rabs c) (Rabs b)) as [LE|LT].
        * destruct (move_off4 b c s BC MB LE SP HS) as (e & E1 & E2 & E3). apply (GO 0 e); [rewrite Rabs_R0; exact Hd|lra|intros _; exact BC|].
          right. rewrite Rplus_0_r. split; [exact E1|]. split; [exact E2|exact DD].
        * rewrite (Rmult_comm b c) in HS. destruct (move_off4 c b s ltac:(rewrite Rmult_comm; exact BC) MC ltac:(lra) SP HS) as (e & E1 & E2 & E3).
          apply (GO e 0); [lra|rewrite Rabs_R0; exact Hd|intros _; exact BC|].
          right. rewrite Rplus_0_r. rewrite (Rmult_comm (b + e)). split; [exact E1|]. split; [exact E2|exact DD].
  Qed.

  Lemma mv_frob j D : (ilo <= ihi)%Z -> moved j D -> frob2 ilo ihi D <= 2 * (IZR (ihi - ilo + 1) * (d * d)).
  Proof.
    intros HL M. unfold frob2.
    assert (DD : 0 <= d * d) by (apply Rle_0_sqr).
    apply Rle_trans with (Rsum_range (fun _ => 2 * (d * d)) ilo ihi); [|rewrite Rsum_range_const by lia; lra].
    apply Rsum_range_le. intros a Ha.
    apply Rle_trans with (Rsum_range (fun b => (if (b =? a + 1)%Z then d * d else 0) + (if (b =? a - 1)%Z then d * d else 0)) ilo ihi).
    - apply Rsum_range_le. intros b Hb. pose proof (mv_small _ _ M a b) as X. apply Rabs_le_inv in X.
      destruct (Z.eqb_spec b (a + 1)), (Z.eqb_spec b (a - 1)); try lia; try nra. rewrite (mv_zero _ _ _ _ M) by lia. lra.
    - rewrite Rsum_range_plus. pose proof (one_of ilo ihi (a + 1) _ DD). pose proof (one_of ilo ihi (a - 1) _ DD). lra.
  Qed.
End Move.

Lemma s64_wr ilo ihi T wr wi j : schur64 ilo ihi T wr wi j -> forall k, (j <= k <= ihi)%Z -> holds_at wr k (T k k) /\ exists x, holds_at wi k x.
Proof.
  induction 1 as [|j H1 H2 H3 H4 H5 IH|j s H1 H2 H3 H4 H5 H6 H7 b c H8 H9 IH]; intros k Hk; [lia| |].
  - destruct (Z.eq_dec k j) as [->|]; [eauto|apply IH; lia].
  - destruct (Z.eq_dec k j) as [->|]; [eauto|]. destruct (Z.eq_dec k (j + 1)) as [->|]; [eauto|apply IH; lia].
Qed.

Lemma float_low (x : R) (f : b64) : value_of f x -> x <> 0 -> 2 * eta64 <= Rabs x.
Proof.
  intros (F & <-) NZ. replace (2 * eta64) with (bpow radix2 (-1074)) by (unfold eta64; change 2 with (bpow radix2 1); rewrite <- bpow_plus; reflexivity).
  rewrite <- B2R_Babs. apply min_pos. rewrite B2R_Babs. apply Rabs_pos_lt. exact NZ.
Qed.

Section Eig64.
  Context (ilo ihi : Z) (HL : (ilo < ihi)%Z) (H0 T Q E : Z -> Z -> R) (N : R) (hd wrd wid : fa b64) (j : Z).
  Context (HN : bpow radix2 (-900) <= N <= bpow radix2 398) (FN : frob2 ilo ihi H0 <= N * N) (H850 : (ihi - ilo + 1 <= 850)%Z).
  Context (NS : near_similar64 ilo ihi (hq_err64 N (ihi - ilo + 1)) H0 T Q E) (HT : hessenberg ilo ihi T) (BA : blocks64 ilo ihi hd T) (Lj : (ilo <= j)%Z)
    (SC : schur64 ilo ihi T wrd wid j).

  Lemma block_holds p : (ilo <= p)%Z -> (p + 1 <= ihi)%Z -> T p (p + 1)%Z * T (p + 1)%Z p < 0 ->
    holds_ent hd p p (T p p) /\ holds_ent hd p (p + 1) (T p (p + 1)%Z) /\ holds_ent hd (p + 1) p (T (p + 1)%Z p) /\ holds_ent hd (p + 1) (p + 1) (T (p + 1)%Z (p + 1)%Z).
  Proof.
    intros P1 P2 BC. repeat split; apply BA; try lia. right. intros s Hs. replace s with (p + 1)%Z by lia. replace (p + 1 - 1)%Z with p by lia. intros X. rewrite X in BC. lra.
  Qed.

  Lemma eigen64 : exists E' li, frob2 ilo ihi E' <= (hq_err64 N (ihi - ilo + 1) + hq_unit64 (ihi - ilo + 1) * N) * (hq_err64 N (ihi - ilo + 1) + hq_unit64 (ihi - ilo + 1) * N) /\
    (forall k, (j <= k <= ihi)%Z -> holds_at wrd k (T k k) /\ holds_at wid k (li k) /\ (eigenvalue_of ilo ihi (fun a b => H0 a b - E' a b) (T k k, li k) \/ uneven64 ilo ihi hd k)) /\
    trace ilo ihi T = trace ilo ihi (fun a b => H0 a b - E' a b).
  Proof.
    destruct NS as (O1 & O2 & O3). set (nh := (ihi - ilo + 1)%Z) in *.
    assert (NP : 0 < N) by (pose proof (bpow_gt_0 radix2 (-900)); lra).
    pose proof (unit_pos nh ltac:(lia)) as UP. pose proof (hq_fits nh ltac:(lia)) as FIT. assert (S0 : 0 <= IZR (hq_steps nh)) by (apply IZR_le, steps_pos; lia).
    assert (E0 : 0 <= hq_err64 N nh <= N).
    { unfold hq_err64. split; [apply Rmult_le_pos; [exact S0|apply Rmult_le_pos; lra]|]. rewrite <- Rmult_assoc. rewrite <- (Rmult_1_l N) at 2. apply Rmult_le_compat_r; lra. }
    assert (SF : simf ilo ihi H0 (hq_err64 N nh) T Q) by (split; [exact O1|exists E; split; [exact O2|exact O3]]).
    pose proof (simf_norm ilo ihi _ _ _ _ N SF (proj1 E0) NP FN) as TN.
    assert (TE : forall a b, (ilo <= a <= ihi)%Z -> (ilo <= b <= ihi)%Z -> Rabs (T a b) <= 2 * N).
    { intros a b Ha Hb. apply (frob_bound ilo ihi T (2 * N)); [assumption|assumption|lra|]. eapply Rle_trans; [exact TN|]. apply Rmult_le_compat; lra. }
    set (d := delta (4 * N)).
    assert (DL : 26 * (u64 * N) + 8 * eta64 <= d).
    { unfold d, delta. replace (bpow radix2 (-43) * (4 * N)) with (4096 * (u64 * N)) by (unfold u64; replace (bpow radix2 (-43)) with (1024 * bpow radix2 (-53)) by (change 1024 with (bpow radix2 10); rewrite <- bpow_plus; reflexivity); ring).
      assert (eta64 <= u64 * N); [|pose proof eta64_pos; lra]. unfold eta64, u64. apply Rle_trans with (bpow radix2 (-53) * bpow radix2 (-900)); [rewrite <- bpow_plus; apply bpow_le; lia|].
      apply Rmult_le_compat_l; [apply bpow_ge_0|lra]. }
    assert (D0 : 0 <= d) by (pose proof eta64_pos; pose proof u_tiny as [U0 _]; pose proof (Rmult_lt_0_compat _ _ U0 NP); lra).
    assert (MV : forall p, (ilo <= p)%Z -> (p + 1 <= ihi)%Z -> T p (p + 1)%Z * T (p + 1)%Z p < 0 ->
      2 * eta64 <= Rabs (T p (p + 1)%Z) /\ 2 * eta64 <= Rabs (T (p + 1)%Z p) /\ 13 * (u64 * Rabs (T p (p + 1)%Z)) + 8 * eta64 <= d /\ 13 * (u64 * Rabs (T (p + 1)%Z p)) + 8 * eta64 <= d).
    { intros p P1 P2 BC. destruct (block_holds p P1 P2 BC) as (_ & (f & _ & V1) & (g & _ & V2) & _). pose proof u_tiny as [U0 _].
      assert (B : forall a b, (ilo <= a <= ihi)%Z -> (ilo <= b <= ihi)%Z -> 13 * (u64 * Rabs (T a b)) + 8 * eta64 <= d).
      { intros a b Ha Hb. assert (u64 * Rabs (T a b) <= u64 * (2 * N)) by (apply Rmult_le_compat_l; [lra|apply TE; assumption]). lra. }
      split; [apply (float_low _ f V1)|split; [apply (float_low _ g V2)|split; apply B; lia]]; intros X; rewrite X in BC; lra. }
    destruct (move_all ilo ihi T wrd wid d D0 MV j Lj SC) as (D & M).
    assert (FD : frob2 ilo ihi D <= hq_unit64 nh * N * (hq_unit64 nh * N)).
    { eapply Rle_trans; [apply (mv_frob ilo ihi T wrd wid d j D (Z.lt_le_incl _ _ HL) M)|]. rewrite <- ystep_unit. pose proof (ystep_sq N nh ltac:(lia)) as Y. fold d nh in Y |- *.
      assert (0 <= IZR nh * (d * d)) by (apply Rmult_le_pos; [apply IZR_le; lia|apply Rle_0_sqr]). pose proof (ystep_pos N nh ltac:(lia) NP). nra. }
    destruct (simf_add ilo ihi _ _ _ _ D (hq_unit64 nh * N) SF (proj1 E0) (Rmult_lt_0_compat _ _ UP NP) FD) as (_ & E' & S1 & S2).
    pose proof (mv_schur _ _ _ _ _ _ _ _ M) as QS.
    assert (HE' : hessenberg ilo ihi (madd T D)).
    { intros a b Ha Hb Hab. unfold madd. rewrite HT by lia. rewrite (mv_zero _ _ _ _ _ _ _ _ _ _ M) by lia. ring. }
    pose proof (qs_eig ilo ihi (madd T D) HE' _ _ j QS Lj) as EV.
    exists E', (fun k => match elem (erf wid) k with Some (Fin x) => x | _ => 0 end). split; [exact S2|]. split.
    - intros k Hk. destruct (s64_wr _ _ _ _ _ _ SC k Hk) as (W & x & WI). split; [exact W|]. rewrite (erf_at _ _ _ WI). split; [exact WI|].
      destruct (EV k Hk) as (lr & li & X1 & X2 & X3). rewrite (erf_at _ _ _ W) in X1. rewrite (erf_at _ _ _ WI) in X2. injection X1 as <-. injection X2 as <-.
      destruct X3 as [X3|(p & P1 & P2 & P3 & P4 & P5)].
      + left. apply (eigenvalue_similar ilo ihi _ (madd T D) Q); [exact O1|exact S1|]. eapply eigvec_up; [exact HE'|exact QS|exact Lj|exact X3].
      + right. assert (BC : T p (p + 1)%Z * T (p + 1)%Z p < 0).
        { destruct (Req_dec (D p (p + 1)%Z) 0) as [Z1|Z1]; [destruct (Req_dec (D (p + 1)%Z p) 0) as [Z2|Z2]|].
          - unfold madd in P4. rewrite Z1, Z2, !Rplus_0_r in P4. exact P4.
          - destruct (mv_where _ _ _ _ _ _ _ _ M _ _ Z2) as (q & ? & ? & ? & G). assert (q = p) as -> by lia. exact G.
          - destruct (mv_where _ _ _ _ _ _ _ _ M _ _ Z1) as (q & ? & ? & ? & G). assert (q = p) as -> by lia. exact G. }
        destruct (block_holds p ltac:(lia) P2 BC) as (B1 & B2 & B3 & B4).
        exists p, (T p p), (T p (p + 1)%Z), (T (p + 1)%Z p), (T (p + 1)%Z (p + 1)%Z). repeat (split; [assumption || lia|]).
        unfold madd in P5. rewrite !(mv_zero _ _ _ _ _ _ _ _ _ _ M), !Rplus_0_r in P5 by lia. exact P5.
    - transitivity (trace ilo ihi (madd T D)).
      + apply trace_ext. intros a Ha. unfold madd. rewrite (mv_zero _ _ _ _ _ _ _ _ _ _ M) by lia. ring.
      + rewrite (trace_ext ilo ihi _ (conj_by ilo ihi Q (msub H0 E'))) by (intros; apply S1; assumption). rewrite trace_conj by exact O1. reflexivity.
  Qed.
End Eig64.

Section Call.
  Context (lm : libm) (LM : libm_ok lm).
  #[local] Instance NBee : Num b64 := B64 lm.
  Context {H WR WI ZZ : Type} {TH : ToFA b64 H} {FH : FromFA b64 H} {TWR : ToFA b64 WR} {FWR : FromFA b64 WR}
    {TWI : ToFA b64 WI} {FWI : FromFA b64 WI} {TZ : ToFA b64 ZZ} {FZ : FromFA b64 ZZ}.
  Context (wantz : bool) (n ilo ihi : Z) (h : H) (wr : WR) (wi : WI) (iloz ihiz : Z) (z : ZZ) (ldz : Z) (H0 Z0 : Z -> Z -> R) (N K : R).

  Lemma dlahqr_eigen64 fuel h' wr' wi' z' info :
    usable TH FH h -> usable TWR FWR wr -> usable TWI FWI wi -> usable TZ FZ z ->
    (1 <= ilo)%Z -> (ilo < ihi)%Z -> (ihi <= n)%Z -> (ihi - ilo + 1 <= 850)%Z ->
    (n <= rows (to_fa h))%Z -> (n * rows (to_fa h) <= count (to_fa h))%Z -> (ihi <= count (to_fa wr))%Z -> (ihi <= count (to_fa wi))%Z ->
    (forall a b, (ilo <= a <= ihi)%Z -> (ilo <= b <= ihi)%Z -> (a <= b + 1 \/ b + 4 <= a)%Z -> holds_ent (to_fa h) a b (H0 a b)) -> hessenberg ilo ihi H0 ->
    bpow radix2 (-900) <= N <= bpow radix2 398 -> frob2 ilo ihi H0 <= N * N ->
    (wantz = true -> (1 <= iloz <= ihiz)%Z /\ (ihiz <= n)%Z /\ (n <= rows (to_fa z))%Z /\ (n * rows (to_fa z) <= count (to_fa z))%Z /\
      bpow radix2 (-900) <= K <= bpow radix2 398 /\
      forall a, (iloz <= a <= ihiz)%Z -> (forall b, (ilo <= b <= ihi)%Z -> holds_ent (to_fa z) a b (Z0 a b)) /\ Rsum_range (fun b => Z0 a b * Z0 a b) ilo ihi <= K * K) ->
    dlahqr fuel true wantz n ilo ihi h (rows (to_fa h)) wr wi iloz ihiz z ldz = Ok (h', wr', wi', z', info) ->
    exists hd wrd wid, from_fa hd = Ok h' /\ from_fa wrd = Ok wr' /\ from_fa wid = Ok wi' /\
      (nan_diag ilo ihi hd \/
       exists E lr li, frob2 ilo ihi E <= (hq_err64 N (ihi - ilo + 1) + hq_unit64 (ihi - ilo + 1) * N) * (hq_err64 N (ihi - ilo + 1) + hq_unit64 (ihi - ilo + 1) * N) /\
         (forall k, ((if (info =? 0)%Z then ilo else info + 1) <= k <= ihi)%Z -> holds_at wrd k (lr k) /\ holds_at wid k (li k) /\
           (eigenvalue_of ilo ihi (fun a b => H0 a b - E a b) (lr k, li k) \/ uneven64 ilo ihi hd k)) /\
         (info = 0%Z -> Rsum_range lr ilo ihi = trace ilo ihi (fun a b => H0 a b - E a b))).
  Proof.
    intros UH UR UI UZ L1 L2 L3 L850 L4 L4' L5 L6 HM HE HN FN HZ EQ.
    destruct (dlahqr_schur64 lm LM wantz n ilo ihi h wr wi iloz ihiz z ldz H0 Z0 N K fuel h' wr' wi' z' info UH UR UI UZ L1 L2 L3 L850 L4 L4' L5 L6 HM HE HN FN HZ EQ)
      as (hd & wrd & wid & zd & E1 & E2 & E3 & E4 & IB & C).
    exists hd, wrd, wid. repeat (split; [assumption|]). destruct C as [C|(T & Q & E & NS & HT & BA & SC & _)]; [left; exact C|right].
    assert (Lj : (ilo <= if (info =? 0)%Z then ilo else info + 1)%Z) by (destruct (Z.eqb_spec info 0); lia).
    destruct (eigen64 ilo ihi L2 H0 T Q E N hd wrd wid _ HN FN L850 NS HT BA Lj SC) as (E' & li & F1 & F2 & F3).
    exists E', (fun k => T k k), li. split; [exact F1|]. split; [exact F2|]. intros _. exact F3.
  Qed.
End Call.
