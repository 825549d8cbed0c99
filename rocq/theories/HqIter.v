(** One iteration of dlahqr over exact reals: split, sweep. *)
From Flocq Require Import Core.
From Coq Require Import Reals Lra.
From Verif Require Import Base Num Array Blas Lapack Dlahqr Spec ER SpecR SpecSim Lists FaLemmas RsumLemmas Nrm2Proofs B64 Nrm2F64 Blas1Proofs LarfgProofs
  LahqrProofs LahqrNum RealMat SimArray SimSweep SimReflect HqReal HqArray HqReflect HqSweep.
Open Scope R_scope.

Section Scan.
  Context {F : Type} {NF : Num F} (ilo ihi : Z).
  Lemma hq_scan_facts (h : fa F) l i k0 : (l < i)%Z -> let k := hq_scan ilo ihi h l i k0 in
    (l <= k <= i)%Z /\ (forall a, (k < a <= i)%Z -> hq_small ilo ihi h a = false) /\ (k = l \/ hq_small ilo ihi h k = true).
  Proof.
    intros Hl. cbv zeta. unfold hq_scan.
    assert (G : forall d cur k0, (cur = l + Z.of_nat d)%Z -> (cur <= i)%Z -> (d = 0%nat -> k0 = l) -> (forall a, (cur < a <= i)%Z -> hq_small ilo ihi h a = false) ->
      let k := for_brk (range_rev (l + 1) cur) k0 (fun ck _ => if hq_small ilo ihi h ck then (ck, true) else ((ck - 1)%Z, false)) in
      (l <= k <= i)%Z /\ (forall a, (k < a <= i)%Z -> hq_small ilo ihi h a = false) /\ (k = l \/ hq_small ilo ihi h k = true)).
    { induction d as [|d IH]; intros cur k1 Ec Hc Hk Ha; cbv zeta.
      - rewrite range_rev_nil by lia. cbn [for_brk]. rewrite Hk by reflexivity. split; [lia|]. split; [intros; apply Ha; lia|left; reflexivity].
      - rewrite range_rev_cons by lia. cbn [for_brk]. destruct (hq_small ilo ihi h cur) eqn:S.
        + split; [lia|]. split; [intros; apply Ha; lia|right; exact S].
        + apply (IH (cur - 1)%Z); [lia|lia|lia|]. intros a Ha'. destruct (Z.eq_dec a cur) as [->|]; [exact S|apply Ha; lia]. }
    apply (G (Z.to_nat (i - l))); lia.
  Qed.
End Scan.

Section Iter.
  Context (wantz : bool) (n ilo ihi iloz ihiz : Z).
  Hypothesis (Hlo : (1 <= ilo)%Z) (Hlt : (ilo < ihi)%Z) (Hhi : (ihi <= n)%Z).
  Hypothesis (HZ : wantz = true -> (1 <= iloz)%Z /\ (ihiz <= n)%Z).
  Context (A Z0 : Z -> Z -> R) (N D : R) (zin hin : fa er).
  Hypothesis (HN : 0 <= N <= 2 ^ 500) (HD : 3 * bpow radix2 (-52) * N + bpow radix2 (-970) * IZR (ihi - ilo + 1) <= D).
  Hypothesis (HRZ : wantz = true -> (n <= rows zin)%Z).
  Hypothesis (FH : full hin) (HR : (n <= rows hin)%Z).
  Notation inr a := (ilo <= a <= ihi)%Z.

  Lemma sml_pos : 0 < bpow radix2 (-970) * IZR (ihi - ilo + 1).
  Proof. apply Rmult_lt_0_compat; [apply bpow_gt_0|]. apply IZR_lt. lia. Qed.
  Lemma ulpN : 0 <= bpow radix2 (-52) * N.
  Proof. apply Rmult_le_pos; [apply bpow_ge_0|apply HN]. Qed.
  Lemma D_pos : 0 < D.
  Proof. pose proof sml_pos. pose proof ulpN. lra. Qed.
  Lemma D_big : 3 * bpow radix2 (-52) * N <= D.
  Proof. pose proof sml_pos. lra. Qed.

  (** the stored matrix is the ideal one on and below the diagonal, and above the diagonal inside unsplit blocks *)
  Record agree (M G : Z -> Z -> R) : Prop := {
    g_low : forall a b, inr a -> inr b -> (b <= a)%Z -> M a b = G a b;
    g_up : forall a b, inr a -> inr b -> (a < b)%Z -> (forall s, (a < s <= b)%Z -> M s (s - 1)%Z <> 0) -> M a b = G a b
  }.
  Record hinv (x : R) (i l : Z) (h z : fa er) (M G Q E : Z -> Z -> R) : Prop := {
    i_mat : mat_is h n n M;
    i_shape : same_shape h hin;
    i_agree : agree M G;
    i_hess : hessenberg ilo ihi G;
    i_sim : simil ilo ihi A x G Q E;
    i_norm : frob2 ilo ihi G <= N * N;
    i_z : z_is wantz n ilo ihi iloz ihiz zin Z0 z Q;
    i_top : (ilo < l)%Z -> M l (l - 1)%Z = 0;
    i_bot : (ilo <= i < ihi)%Z -> M (i + 1)%Z i = 0
  }.

  Lemma i_bound x i l h z M G Q E a b : hinv x i l h z M G Q E -> inr a -> inr b -> (b <= a)%Z -> Rabs (M a b) <= N.
  Proof.
    intros I Ha Hb Hab. rewrite (g_low _ _ (i_agree _ _ _ _ _ _ _ _ _ I)) by assumption. apply (frob_bound ilo ihi G N); [assumption|assumption|apply HN|apply (i_norm _ _ _ _ _ _ _ _ _ I)].
  Qed.

  Ltac fin := rewrite ?er_f0, ?er_f2, ?er_addE, ?er_subE, ?er_mulE, ?er_absE, ?er_negE.
  Lemma small_false x i l h z M G Q E k : hinv x i l h z M G Q E -> (ilo < k <= ihi)%Z -> hq_small ilo ihi h k = false -> M k (k - 1)%Z <> 0.
  Proof.
    intros I Hk S X. unfold hq_small in S. rewrite (mat_get n h M k (k - 1) (i_mat _ _ _ _ _ _ _ _ _ I)) in S by lia.
    rewrite X, er_small0 in S by lia. discriminate S.
  Qed.
  Lemma small_true x i l h z M G Q E k : hinv x i l h z M G Q E -> (ilo < k <= ihi)%Z -> hq_small ilo ihi h k = true -> Rabs (M k (k - 1)%Z) <= D.
  Proof.
    intros I Hk S. pose proof (i_mat _ _ _ _ _ _ _ _ _ I) as HM. pose proof sml_pos as SP. pose proof ulpN as UN.
    assert (B : forall a b, inr a -> inr b -> (b <= a)%Z -> Rabs (M a b) <= N) by (intros; eapply i_bound; eassumption).
    unfold hq_small in S. rewrite !(mat_get n h M k (k - 1) HM) in S by lia. rewrite er_absE in S. rewrite er_smlnum in S. rewrite !er_leE in S.
    revert S. case Rle_bool_spec; intros C1; [intros _; lra|]. cbv zeta.
    set (tst := if feq _ _ then _ else _).
    assert (T : exists y, tst = Fin y /\ y <= 2 * N).
    { unfold tst. rewrite !(mat_get n h M (k - 1) (k - 1) HM), !(mat_get n h M k k HM) by lia. repeat fin. rewrite er_eqE.
      pose proof (B (k - 1)%Z (k - 1)%Z ltac:(lia) ltac:(lia) ltac:(lia)) as B1. pose proof (B k k ltac:(lia) ltac:(lia) ltac:(lia)) as B2.
      pose proof (Rabs_pos (M (k - 1)%Z (k - 1)%Z)) as P1. pose proof (Rabs_pos (M k k)) as P2.
      case Req_bool_spec; intros T0; [|eexists; split; [reflexivity|lra]].
      destruct (Z.leb_spec ilo (k - 2)); [rewrite (mat_get n h M (k - 1) (k - 2) HM) by lia; pose proof (B (k - 1)%Z (k - 2)%Z ltac:(lia) ltac:(lia) ltac:(lia)) as B3|];
        (destruct (Z.leb_spec (k + 1) ihi); [rewrite (mat_get n h M (k + 1) k HM) by lia; pose proof (B (k + 1)%Z k ltac:(lia) ltac:(lia) ltac:(lia)) as B4|]);
        repeat fin; eexists; (split; [reflexivity|]); lra. }
    destruct T as (y & -> & TY). rewrite er_ulp. repeat fin. rewrite er_leE. case Rle_bool_spec; intros C2; [|discriminate].
    intros _. assert (bpow radix2 (-52) * y <= bpow radix2 (-52) * (2 * N)) by (apply Rmult_le_compat_l; [apply bpow_ge_0|exact TY]). lra.
  Qed.

  (** one entry *)
  Definition one_entry (k : Z) (y : R) (a b : Z) : R := if ((a =? k) && (b =? k - 1))%Z%bool then y else 0.
  Lemma one_frob k y : (ilo < k <= ihi)%Z -> frob2 ilo ihi (one_entry k y) = y * y.
  Proof.
    intros Hk. unfold frob2. rewrite (Rsum_range_one _ ilo ihi k); [|lia|].
    - rewrite (Rsum_range_one _ ilo ihi (k - 1)); [|lia|].
      + unfold one_entry. rewrite !Z.eqb_refl. reflexivity.
      + intros b Hb N1. unfold one_entry. destruct (Z.eqb_spec b (k - 1)); [lia|]. rewrite andb_false_r. ring.
    - intros a Ha N1. apply Rsum_range_zero. intros b Hb. unfold one_entry. destruct (Z.eqb_spec a k); [lia|]. cbn [andb]. ring.
  Qed.
  Lemma one_trace k y : trace ilo ihi (one_entry k y) = 0.
  Proof.
    unfold trace. apply Rsum_range_zero. intros a Ha. unfold one_entry. destruct (Z.eqb_spec a k), (Z.eqb_spec a (k - 1)); cbn [andb]; try reflexivity. lia.
  Qed.

  Lemma hq_zero x i l h z M G Q E k : hinv x i l h z M G Q E -> 0 <= x -> (ilo < k <= i)%Z -> (i <= ihi)%Z -> Rabs (M k (k - 1)%Z) <= D ->
    let M' := rupd M k (k - 1) 0 in let G' := msub G (one_entry k (G k (k - 1)%Z)) in
    exists E', hinv (x + D) i k (set2 h k (k - 1) (Fin 0)) z M' G' Q E'.
  Proof.
    intros I Hx Hk Hi BK M' G'. pose proof I as [HM Sh [AL AU] HE SI NO ZI IT IB].
    assert (R1 : (n <= rows h)%Z) by (destruct Sh as (-> & _); exact HR).
    assert (EG : forall a b, G' a b = rupd G k (k - 1) 0 a b).
    { intros a b. unfold G', msub, one_entry, rupd. destruct (Z.eqb_spec a k) as [->|], (Z.eqb_spec b (k - 1)) as [->|]; cbn [andb]; ring. }
    eexists. constructor.
    - apply mat_set2; [assumption|assumption|lia|lia].
    - eapply same_shape_trans; [apply set2_shape|exact Sh].
    - constructor.
      + intros a b Ha Hb Hab. rewrite EG. unfold M', rupd. destruct (_ && _); [reflexivity|apply AL; assumption].
      + intros a b Ha Hb Hab HS. rewrite EG. unfold M'. rewrite !rupd_other by lia. apply AU; [assumption|assumption|assumption|].
        intros s Hs X. apply (HS s Hs). unfold M', rupd. destruct (_ && _); [reflexivity|exact X].
    - intros a b Ha Hb Hab. rewrite EG, rupd_other by lia. apply HE; assumption.
    - apply simil_drop; [exact SI|exact Hx|apply D_pos| |apply one_trace]. rewrite one_frob by lia. rewrite <- (AL k) by lia.
      pose proof (Rabs_pos (M k (k - 1)%Z)). replace (M k (k - 1)%Z * M k (k - 1)%Z) with (Rabs (M k (k - 1)%Z) * Rabs (M k (k - 1)%Z)).
      + apply Rmult_le_compat; assumption.
      + rewrite <- Rabs_mult. apply Rabs_pos_eq. nra.
    - eapply Rle_trans; [|exact NO]. apply (frob_mono ilo ihi (fun a b => G a b * G a b)). intros a b Ha Hb. rewrite EG. unfold rupd. destruct (_ && _); nra.
    - exact ZI.
    - intros _. unfold M'. apply rupd_same.
    - intros Hb. unfold M'. rewrite rupd_other by lia. apply IB; assumption.
  Qed.

  (** the block l..=i of an unsplit matrix *)
  Lemma block_agree x i l h z M G Q E : hinv x i l h z M G Q E -> (ilo <= l)%Z -> (i <= ihi)%Z -> (forall a, (l < a <= i)%Z -> M a (a - 1)%Z <> 0) ->
    forall a b, (l <= a <= i)%Z -> (l <= b <= i)%Z -> M a b = G a b.
  Proof.
    intros I Hl Hi NZ a b Ha Hb. destruct (i_agree _ _ _ _ _ _ _ _ _ I) as [AL AU]. destruct (Z_le_gt_dec b a); [apply AL; lia|].
    apply AU; [lia|lia|lia|]. intros s Hs. apply NZ. lia.
  Qed.
  Lemma top_zero x i l h z M G Q E : hinv x i l h z M G Q E -> (ilo <= l <= ihi)%Z -> forall a b, inr a -> inr b -> (b < l <= a)%Z -> G a b = 0.
  Proof.
    intros I Hl a b Ha Hb H. destruct (Z_lt_le_dec (b + 1) a) as [C|C]; [apply (i_hess _ _ _ _ _ _ _ _ _ I); assumption|].
    assert (a = l) as -> by lia. assert (b = (l - 1)%Z) as -> by lia. rewrite <- (g_low _ _ (i_agree _ _ _ _ _ _ _ _ _ I)) by lia.
    apply (i_top _ _ _ _ _ _ _ _ _ I). lia.
  Qed.
  Lemma bot_zero x i l h z M G Q E : hinv x i l h z M G Q E -> (ilo <= i <= ihi)%Z -> forall a b, inr a -> inr b -> (b <= i < a)%Z -> G a b = 0.
  Proof.
    intros I Hl a b Ha Hb H. destruct (Z_lt_le_dec (b + 1) a) as [C|C]; [apply (i_hess _ _ _ _ _ _ _ _ _ I); assumption|].
    assert (b = i) as -> by lia. assert (a = (i + 1)%Z) as -> by lia. rewrite <- (g_low _ _ (i_agree _ _ _ _ _ _ _ _ _ I)) by lia.
    apply (i_bot _ _ _ _ _ _ _ _ _ I). lia.
  Qed.

  (** the whole sweep *)
  Lemma hq_sweep_inv x i l h z M G Q E v t1 m w1 w2 w3 : hinv x i l h z M G Q E -> 0 <= x -> (ilo <= l)%Z -> (l + 2 <= i <= ihi)%Z ->
    (forall a, (l < a <= i)%Z -> M a (a - 1)%Z <> 0) -> v_is v w1 w2 w3 -> (l <= m <= i - 2)%Z -> Rabs w1 + Rabs w2 + Rabs w3 = 1 ->
    (m = l \/ Rabs (M m (m - 1)%Z) * (Rabs w2 + Rabs w3) <= bpow radix2 (-52) * Rabs w1 * (3 * N)) ->
    exists h' z' v' t' M' G' Q' E' y1 y2 y3, for_M (range m (i - 1)) (h, z, v, t1) (hq_step wantz iloz ihiz l i l m i) = Ok (h', z', v', t') /\
      hinv (x + D) i l h' z' M' G' Q' E' /\ v_is v' y1 y2 y3 /\ (forall a b, inr a -> inr b -> (i < a)%Z -> (i < b)%Z -> G' a b = G a b).
  Proof.
    intros I Hx Hl Hi NZ V Hm SW ST. pose proof I as [HM Sh [AL AU] HE SI NO ZI IT IB].
    pose proof (block_agree _ _ _ _ _ _ _ _ _ I Hl ltac:(lia) NZ) as BA.
    pose proof (top_zero _ _ _ _ _ _ _ _ _ I ltac:(lia)) as TZ. pose proof (bot_zero _ _ _ _ _ _ _ _ _ I ltac:(lia)) as BZ.
    assert (W : swp_ wantz n ilo ihi iloz ihiz A Z0 N zin l i hin M G x m h z M G Q E).
    { constructor; try assumption; try reflexivity. constructor; [intros; apply HE; assumption|assumption|assumption]. }
    destruct (hq_sweep_is wantz n ilo ihi iloz ihiz Hlo Hhi HZ A Z0 N D zin HN D_big D_pos HRZ l i Hl ltac:(lia) ltac:(lia) hin M G FH HR
      x m h z M G Q E v t1 w1 w2 w3 W HE V Hm Hx SW ST) as (h' & z' & v' & t' & M' & G' & Q' & E' & y1 & y2 & y3 & EQ & W' & V').
    exists h', z', v', t', M', G', Q', E', y1, y2, y3. split; [exact EQ|].
    pose proof W' as [HM' Sh' J1 J2 J3 [CL CT CB] SI' NO' ZI'].
    split; [|split; [exact V'|intros; apply J3; lia]].
    constructor; try assumption.
    - constructor.
      + intros a b Ha Hb Hab. destruct (Z_le_gt_dec l b) as [L1|L1], (Z_le_gt_dec a i) as [L2|L2].
        * apply J1; lia.
        * rewrite J2 by lia. rewrite AL by assumption. destruct (Z_le_gt_dec b i) as [L3|L3].
          -- rewrite CB, BZ by lia. reflexivity.
          -- rewrite J3 by lia. reflexivity.
        * rewrite J2 by lia. rewrite AL by assumption. destruct (Z_le_gt_dec l a) as [L3|L3].
          -- rewrite CT, TZ by lia. reflexivity.
          -- rewrite J3 by lia. reflexivity.
        * rewrite J2 by lia. rewrite AL by assumption. rewrite J3 by lia. reflexivity.
      + intros a b Ha Hb Hab HS.
        destruct (Z_le_gt_dec l a) as [L1|L1].
        * destruct (Z_le_gt_dec b i) as [L2|L2]; [apply J1; lia|]. destruct (Z_le_gt_dec a i) as [L3|L3].
          -- exfalso. apply (HS (i + 1)%Z); [lia|]. rewrite J2 by lia. replace (i + 1 - 1)%Z with i by lia. apply IB. lia.
          -- rewrite J2 by lia. rewrite J3 by lia. apply AU; [assumption|assumption|assumption|]. intros s Hs X. apply (HS s Hs). rewrite J2 by lia. exact X.
        * destruct (Z_le_gt_dec l b) as [L2|L2].
          -- exfalso. apply (HS l); [lia|]. rewrite J2 by lia. apply IT. lia.
          -- rewrite J2 by lia. rewrite J3 by lia. apply AU; [assumption|assumption|assumption|]. intros s Hs X. apply (HS s Hs). rewrite J2 by lia. exact X.
    - intros a b Ha Hb Hab. destruct (Z_le_gt_dec a i) as [L2|L2].
      + apply CL; [assumption|assumption|assumption|]. unfold hq_bulge. lia.
      + destruct (Z_le_gt_dec b i) as [L3|L3]; [apply CB; lia|]. rewrite J3 by lia. apply HE; assumption.
    - intros Hil. rewrite J2 by lia. apply IT. assumption.
    - intros Hii. rewrite J2 by lia. apply IB. assumption.
  Qed.

  Definition st_v (v : fa er) : Prop := exists x1 x2 x3, v_is v x1 x2 x3.

  Lemma hq_iter_is x its st M G Q E : hinv x (sI st) (sL st) (sH st) (sZ st) M G Q E -> 0 <= x -> st_v (sV st) -> (ilo <= sL st < sI st)%Z -> (sI st <= ihi)%Z ->
    exists st' b M' G' Q' E', hq_iter true wantz ilo ihi iloz ihiz its st = Ok (st', b) /\
      hinv (x + 2 * D) (sI st) (sL st') (sH st') (sZ st') M' G' Q' E' /\ st_v (sV st') /\
      sI st' = sI st /\ sIts st' = its /\ sWr st' = sWr st /\ sWi st' = sWi st /\ sK st' = sL st' /\ (ilo <= sL st' <= sI st)%Z /\
      (forall a b, inr a -> inr b -> (sI st < a)%Z -> (sI st < b)%Z -> G' a b = G a b) /\
      (if b then (sI st - 1 <= sL st')%Z /\ (forall a, (sL st' < a <= sI st)%Z -> M' a (a - 1)%Z <> 0) else (sL st' < sI st - 1)%Z).
  Proof.
    intros I Hx SV Hl Hi. unfold hq_iter. cbv zeta. set (i := sI st) in *. set (h := sH st) in *.
    destruct (hq_scan_facts ilo ihi h (sL st) i (sK st) ltac:(lia)) as (K1 & K2 & K3). set (k := hq_scan ilo ihi h (sL st) i (sK st)) in *.
    assert (NZ : forall a, (k < a <= i)%Z -> M a (a - 1)%Z <> 0) by (intros a Ha; eapply small_false; [exact I|lia|apply K2; assumption]).
    assert (STEP : exists M1 G1 E1, hinv (x + D) i k (if (ilo <? k)%Z then set2 h k (k - 1) f0 else h) (sZ st) M1 G1 Q E1 /\
      (forall a, (k < a <= i)%Z -> M1 a (a - 1)%Z <> 0) /\ (forall a b, inr a -> inr b -> (i < a)%Z -> (i < b)%Z -> G1 a b = G a b)).
    { destruct (Z.ltb_spec ilo k) as [L|L].
      - assert (BK : Rabs (M k (k - 1)%Z) <= D).
        { destruct K3 as [K3|K3].
          - rewrite K3 in *. rewrite (i_top _ _ _ _ _ _ _ _ _ I) by lia. rewrite Rabs_R0. apply Rlt_le, D_pos.
          - eapply small_true; [exact I|lia|exact K3]. }
        destruct (hq_zero _ _ _ _ _ _ _ _ _ k I Hx ltac:(lia) Hi BK) as (E1 & I1). rewrite er_f0. do 3 eexists. split; [exact I1|]. split.
        + intros a Ha. rewrite rupd_other by lia. apply NZ. assumption.
        + intros a b Ha Hb Hia Hib. unfold msub, one_entry. destruct (Z.eqb_spec a k); [lia|]. cbn [andb]. ring.
      - assert (k = ilo) by lia. exists M, G, E. split; [|split; [exact NZ|reflexivity]]. destruct I. constructor; try assumption.
        + eapply simil_weaken; [eassumption|]. pose proof D_pos. lra.
        + lia. }
    destruct STEP as (M1 & G1 & E1 & I1 & NZ1 & F1). set (h1 := if (ilo <? k)%Z then _ else _) in *.
    destruct (Z.leb_spec (i - 1) k) as [L|L].
    - exists (mkHq h1 (sWr st) (sWi st) (sZ st) (sV st) (sT1 st) (sM st) k k i its (sKdefl st) (sCs st) (sSn st)), true, M1, G1, Q, E1. cbn [sH sWr sWi sZ sV sI sL sK sIts]. split; [reflexivity|].
      split; [destruct I1; constructor; try assumption; eapply simil_weaken; [eassumption|pose proof D_pos; lra]|].
      split; [exact SV|]. repeat (split; [reflexivity|]). split; [lia|]. split; [exact F1|]. split; [lia|exact NZ1].
    - cbv iota. destruct (hq_block_fin n h1 M1 (i_mat _ _ _ _ _ _ _ _ _ I1) k i (sKdefl st + 1)) as (b1 & b2 & b3 & b4 & EB); [lia|lia|]. rewrite EB.
      destruct (hq_shifts_fin b1 b2 b3 b4) as (r1 & r2 & r3 & r4 & ES). rewrite ES.
      destruct SV as (x1 & x2 & x3 & SV).
      destruct (hq_start_is n h1 M1 (i_mat _ _ _ _ _ _ _ _ _ I1) N r1 r2 r3 r4 k i (sM st) (sV st) x1 x2 x3 SV) as (m & v & w1 & w2 & w3 & EM & Hm & V & SW & STT); [lia|lia|exact NZ1| |].
      { intros a Ha. eapply i_bound; [exact I1|lia|lia|lia]. }
      rewrite EM.
      destruct (hq_sweep_inv (x + D) i k h1 (sZ st) M1 G1 Q E1 v (sT1 st) m w1 w2 w3 I1) as (h' & z' & v' & t' & M' & G' & Q' & E' & y1 & y2 & y3 & EQ & I' & V' & F'); try assumption; try lia.
      { pose proof D_pos. lra. }
      rewrite EQ. cbn [bind]. exists (mkHq h' (sWr st) (sWi st) z' v' t' m k k i its (sKdefl st + 1) (sCs st) (sSn st)), false, M', G', Q', E'.
      cbn [sH sWr sWi sZ sV sI sL sK sIts]. split; [reflexivity|].
      replace (x + 2 * D) with (x + D + D) by ring. split; [exact I'|]. split; [exists y1, y2, y3; exact V'|]. repeat (split; [reflexivity|]). split; [lia|]. split.
      + intros a b Ha Hb Hia Hib. rewrite F', F1 by assumption. reflexivity.
      + lia.
  Qed.
End Iter.
