(** dlahqr over exact reals: one or two eigenvalues are split off. *)
From Flocq Require Import Core.
From Coq Require Import Reals Lra Nsatz.
From Verif Require Import Base Num Array Blas Lapack Dlahqr Spec ER SpecR SpecSim SpecHq Lists FaLemmas RsumLemmas Nrm2Proofs B64 Nrm2F64 Blas1Proofs LarfgProofs LanvProofs
  LahqrProofs LahqrTop LahqrNum RealMat SimArray SimSweep SimReflect Laqr1Proofs HqReal HqArray HqReflect HqSweep HqIter HqRotRows.
Open Scope R_scope.

Section QS.
  Context (ilo ihi : Z).
  Lemma qs_bounds T wr wi j : quasi_schur ilo ihi T wr wi j -> (j <= ihi + 1)%Z.
  Proof. induction 1; lia. Qed.
  Lemma qs_ext T wr wi T' wr' wi' j : quasi_schur ilo ihi T wr wi j ->
    (forall a b, (j <= a <= ihi)%Z -> (j <= b <= ihi)%Z -> T' a b = T a b) -> ((ilo < j <= ihi)%Z -> T' j (j - 1)%Z = 0) ->
    (forall a, (j <= a <= ihi)%Z -> elem wr' a = elem wr a /\ elem wi' a = elem wi a) -> quasi_schur ilo ihi T' wr' wi' j.
  Proof.
    induction 1 as [|j H1 H2 H3 H4 H5 IH|j s H1 H2 H3 H4 H5 H6 H7 bc H8 H9 IH]; intros HT HC HW.
    - apply qs_nil.
    - pose proof (qs_bounds _ _ _ _ H5). destruct (HW j ltac:(lia)) as [W1 W2]. apply qs_one; [assumption|intros; apply HC; lia| | |].
      + rewrite W1, HT by lia. assumption.
      + rewrite W2. assumption.
      + apply IH; [intros; apply HT; lia| |intros; apply HW; lia]. intros L. rewrite HT by lia. inversion H5; subst; try lia; match goal with H : (_ -> _ = 0) |- _ => apply H; lia end.
    - pose proof (qs_bounds _ _ _ _ H9). destruct (HW j ltac:(lia)) as [W1 W2]. destruct (HW (j + 1)%Z ltac:(lia)) as [W3 W4].
      apply (qs_two ilo ihi T' wr' wi' j s); [assumption|assumption|intros; apply HC; lia| | | | | |].
      + rewrite W1, HT by lia. assumption.
      + rewrite W3, HT by lia. assumption.
      + rewrite W2. assumption.
      + rewrite W4. assumption.
      + rewrite !HT by lia. exact H8.
      + apply IH; [intros; apply HT; lia| |intros; apply HW; lia]. intros L. rewrite HT by lia. inversion H9; subst; try lia; match goal with H : (_ -> _ = 0) |- _ => apply H; lia end.
  Qed.
End QS.

Section Defl.
  Context (wantz : bool) (n ilo ihi iloz ihiz : Z).
  Hypothesis (Hlo : (1 <= ilo)%Z) (Hlt : (ilo < ihi)%Z) (Hhi : (ihi <= n)%Z).
  Hypothesis (HZ : wantz = true -> (1 <= iloz <= ihiz)%Z /\ (ihiz <= n)%Z).
  Context (A Z0 : Z -> Z -> R) (N : R) (zin hin : fa er).
  Hypothesis (HN : 0 <= N <= 2 ^ 500).
  Hypothesis (HRZ : wantz = true -> (n <= rows zin)%Z /\ full zin).
  Hypothesis (FH : full hin) (HR : (n <= rows hin)%Z).
  Notation inr a := (ilo <= a <= ihi)%Z.
  Notation hinv := (hinv wantz n ilo ihi iloz ihiz A Z0 N zin hin).
  Notation mm := (mmul ilo ihi).

  Lemma mat_count f M : mat_is f n n M -> (1 <= n)%Z -> (n <= rows f)%Z -> full f -> (n * rows f <= count f)%Z.
  Proof.
    intros HM H1 H2 FF. pose proof (HM n n ltac:(lia) ltac:(lia)) as E. unfold ent in E.
    assert (P : (1 <= pos (rows f) n n <= count f)%Z) by (apply elem_Some; eauto).
    unfold full, fa_len in FF. unfold pos in P. destruct (fa_is_2d f).
    - assert (n - 1 < cols f)%Z by (apply (Zmult_lt_reg_r _ _ (rows f)); lia). nia.
    - assert (n - 1 < 1)%Z by (apply (Zmult_lt_reg_r _ _ (rows f)); lia). nia.
  Qed.

  (** H: the rows *)
  Lemma rot_rows_is f M i c s : mat_is f n n M -> full f -> (n <= rows f)%Z -> (2 <= i <= n)%Z ->
    exists f' M', hq_rot_rows n (rows f) i (Fin c) (Fin s) f = Ok f' /\ same_shape f' f /\ mat_is f' n n M' /\
      forall a b, (1 <= a <= n)%Z -> (1 <= b <= n)%Z -> (b <= i)%Z \/ (a < i - 1)%Z \/ (i < a)%Z -> M' a b = M a b.
  Proof.
    intros HM FF HRf Hi. destruct (Z.eq_dec i n) as [->|Ni].
    { exists f, M. unfold hq_rot_rows. rewrite Z.ltb_irrefl. split; [reflexivity|]. split; [apply same_shape_refl|]. split; [exact HM|reflexivity]. }
    destruct (hq_rot_rows_spec n f i (Fin c) (Fin s) FF) as (f' & E & Sh & R1 & R2 & R3); [lia|assumption|apply (mat_count f M); try assumption; lia|].
    set (M' := fun a b => if ((a =? i) && (i <? b))%Z%bool then c * M i b - s * M (i - 1)%Z b
      else if ((a =? i - 1) && (b =? i + 1))%Z%bool then c * M (i - 1)%Z b + s * M i b else M a b).
    exists f', M'. split; [exact E|]. split; [exact Sh|]. split.
    - intros a b Ha Hb.
      assert (EX : exists y, ent f' a b = Some y).
      { unfold ent. rewrite (proj1 Sh). pose proof (HM a b Ha Hb) as E0. unfold ent in E0. assert (P : (1 <= pos (rows f) a b <= count f)%Z) by (apply elem_Some; eauto).
        apply elem_Some. destruct Sh as (_ & _ & ->). exact P. }
      destruct EX as (y & EY). assert (G2 : get2 f' a b = y) by (rewrite get2_ent, EY; reflexivity). rewrite EY. f_equal. unfold M'.
      destruct (Z.eqb_spec a i) as [->|N1], (Z.ltb_spec i b) as [N2|N2]; cbn [andb].
      + rewrite <- G2, R1 by lia. rewrite (mat_get n f M i b HM), (mat_get n f M (i - 1) b HM) by lia. rewrite !er_mulE, er_subE. reflexivity.
      + destruct (Z.eqb_spec i (i - 1)); [lia|]. cbn [andb]. pose proof (HM i b Ha Hb) as E0. unfold ent in *. rewrite (proj1 Sh) in EY.
        rewrite R3 in EY; [congruence| |]; [intros X; apply pos_inj in X; lia|intros p Hp X; apply pos_inj in X; lia].
      + destruct (Z.eqb_spec a (i - 1)) as [->|N3], (Z.eqb_spec b (i + 1)) as [->|N4]; cbn [andb].
        * rewrite <- G2, R2. rewrite (mat_get n f M i (i + 1) HM), (mat_get n f M (i - 1) (i + 1) HM) by lia. rewrite !er_mulE, er_addE. reflexivity.
        * pose proof (HM (i - 1)%Z b Ha Hb) as E0. unfold ent in *. rewrite (proj1 Sh) in EY. rewrite R3 in EY; [congruence| |]; [intros X; apply pos_inj in X; lia|intros p Hp X; apply pos_inj in X; lia].
        * pose proof (HM a (i + 1)%Z Ha Hb) as E0. unfold ent in *. rewrite (proj1 Sh) in EY. rewrite R3 in EY; [congruence| |]; [intros X; apply pos_inj in X; lia|intros p Hp X; apply pos_inj in X; lia].
        * pose proof (HM a b Ha Hb) as E0. unfold ent in *. rewrite (proj1 Sh) in EY. rewrite R3 in EY; [congruence| |]; [intros X; apply pos_inj in X; lia|intros p Hp X; apply pos_inj in X; lia].
      + assert (((a =? i - 1) && (b =? i + 1))%Z%bool = false) as -> by lia.
        pose proof (HM a b Ha Hb) as E0. unfold ent in *. rewrite (proj1 Sh) in EY. rewrite R3 in EY; [congruence| |]; [intros X; apply pos_inj in X; lia|intros p Hp X; apply pos_inj in X; lia].
    - intros a b Ha Hb Ho. unfold M'. assert (((a =? i) && (i <? b))%Z%bool = false) as -> by lia. assert (((a =? i - 1) && (b =? i + 1))%Z%bool = false) as -> by lia. reflexivity.
  Qed.

  (** Z *)
  Lemma rot_z_is z Q i c s : z_is wantz n ilo ihi iloz ihiz zin Z0 z Q -> (ilo < i <= ihi)%Z ->
    exists z', (if wantz then hq_rot_z iloz ihiz i (Fin c) (Fin s) z else Ok z) = Ok z' /\ z_is wantz n ilo ihi iloz ihiz zin Z0 z' (mm Q (rotm (i - 1) c s)).
  Proof.
    intros H Hi. unfold z_is in *. destruct wantz; [|exists z; split; [reflexivity|exact H]].
    destruct H as (Zc & HM & Sh & E1 & E2). destruct (HZ eq_refl) as [Z1 Z2]. destruct (HRZ eq_refl) as [Z3 Z4].
    assert (FZ : full z) by (eapply full_shape; eassumption). assert (RZ : (n <= rows z)%Z) by (destruct Sh as (-> & _); exact Z3).
    assert (CN : (n * rows z <= count z)%Z) by (apply (mat_count z Zc); try assumption; lia).
    destruct (hq_rot_z_spec iloz ihiz z i (Fin c) (Fin s)) as (z' & E & Sz & R1 & R2); [assumption|lia|lia|assumption|lia|nia|].
    exists z'. split; [exact E|].
    set (Z' := fun a b => if ((iloz <=? a) && (a <=? ihiz))%Z%bool then rotr (i - 1) c s Zc a b else Zc a b).
    exists Z'. split; [|split; [eapply same_shape_trans; eassumption|split]].
    - intros a b Ha Hb.
      assert (EX : exists y, ent z' a b = Some y).
      { unfold ent. rewrite (proj1 Sz). pose proof (HM a b Ha Hb) as E0. unfold ent in E0. assert (P : (1 <= pos (rows z) a b <= count z)%Z) by (apply elem_Some; eauto).
        apply elem_Some. destruct Sz as (_ & _ & ->). exact P. }
      destruct EX as (y & EY). assert (G2 : get2 z' a b = y) by (rewrite get2_ent, EY; reflexivity). rewrite EY. f_equal. unfold Z', rotr.
      assert (OUT : ~ ((iloz <= a <= ihiz)%Z /\ (i - 1 <= b <= i)%Z) -> y = Fin (Zc a b)).
      { intros Ho. pose proof (HM a b Ha Hb) as E0. unfold ent in *. rewrite (proj1 Sz) in EY. rewrite R2 in EY; [congruence|].
        intros p Hp. split; intros X; apply pos_inj in X; lia. }
      destruct (Z.leb_spec iloz a), (Z.leb_spec a ihiz); cbn [andb]; try (apply OUT; lia).
      destruct (R1 a ltac:(lia)) as [R3 R4].
      destruct (Z.eqb_spec b (i - 1)) as [->|N1]; [|destruct (Z.eqb_spec b (i - 1 + 1)) as [->|N2]; [|apply OUT; lia]].
      + rewrite <- G2, R3. rewrite (mat_get n z Zc a i HM), (mat_get n z Zc a (i - 1) HM) by lia. rewrite !er_mulE, er_addE. replace (i - 1 + 1)%Z with i by lia. reflexivity.
      + rewrite <- G2. replace (i - 1 + 1)%Z with i by lia. rewrite R4. rewrite (mat_get n z Zc a i HM), (mat_get n z Zc a (i - 1) HM) by lia. rewrite !er_mulE, er_subE. reflexivity.
    - intros a b Ha Hb. unfold Z'. destruct (Z.leb_spec iloz a), (Z.leb_spec a ihiz); try lia. cbn [andb].
      transitivity (mm (mm Z0 Q) (rotm (i - 1) c s) a b); [|apply mm_assoc].
      rewrite (rotr_mm ilo ihi (i - 1) c s) by lia. unfold rotr. rewrite !E1 by lia. reflexivity.
    - intros a b Ha Hb Ho. unfold Z'. destruct (Z.leb_spec iloz a), (Z.leb_spec a ihiz); cbn [andb]; try (apply E2; assumption).
      unfold rotr. destruct (Z.eqb_spec b (i - 1)); [lia|]. destruct (Z.eqb_spec b (i - 1 + 1)); [lia|]. apply E2; assumption.
  Qed.

  Lemma hq_deflate_is x st M G Q E : hinv x (sI st) (sL st) (sH st) (sZ st) M G Q E ->
    (sI st - 1 <= sL st <= sI st)%Z -> (ilo <= sL st)%Z -> (sI st <= ihi)%Z -> (forall a, (sL st < a <= sI st)%Z -> M a (a - 1)%Z <> 0) ->
    (ihi <= count (sWr st))%Z -> (ihi <= count (sWi st))%Z -> quasi_schur ilo ihi G (sWr st) (sWi st) (sI st + 1) ->
    exists st' M' G' Q', hq_deflate true wantz n (rows hin) iloz ihiz st = Ok st' /\ hinv x (sL st - 1) ilo (sH st') (sZ st') M' G' Q' E /\
      sL st' = sL st /\ sI st' = sI st /\ sV st' = sV st /\ sIts st' = sIts st /\ count (sWr st') = count (sWr st) /\ count (sWi st') = count (sWi st) /\
      quasi_schur ilo ihi G' (sWr st') (sWi st') (sL st).
  Proof.
    intros I Hl Hl2 Hi NZ CR CI QS. unfold hq_deflate. cbv zeta. set (i := sI st) in *. set (l := sL st) in *. set (h := sH st) in *.
    pose proof I as [HM Sh [AL AU] HE SI NO ZI IT IB].
    assert (EL : forall (f : fa er) p v q, (ihi <= count f)%Z -> (1 <= p <= ihi)%Z -> elem (set1 f p v) q = if (q =? p)%Z then Some v else elem f q).
    { intros f p v q Hc Hp. rewrite set1_get. destruct (q =? p)%Z; [|reflexivity].
      assert (P : (1 <= p <= count f)%Z) by lia. apply elem_Some in P as [w ->]. reflexivity. }
    assert (CS : forall (f : fa er) p v, count (set1 f p v) = count f) by (intros; destruct (set1_shape f p v) as (_ & _ & ->); reflexivity).
    assert (TOP : (ilo <= l - 1 < ihi)%Z -> M (l - 1 + 1)%Z (l - 1)%Z = 0) by (intros; replace (l - 1 + 1)%Z with l by lia; apply IT; lia).
    destruct (Z.eqb_spec l i) as [El|Nl].
    - rewrite (mat_get n h M i i HM) by lia. eexists. exists M, G, Q. split; [reflexivity|]. cbn [sH sWr sWi sZ sV sI sL sIts].
      split; [constructor; try assumption; try (constructor; assumption); lia|]. rewrite !CS. repeat (split; [reflexivity|]).
      apply qs_one.
      + lia.
      + intros L. rewrite <- AL by lia. apply IT. lia.
      + rewrite EL by lia. rewrite El, Z.eqb_refl. rewrite AL by lia. reflexivity.
      + rewrite EL by lia. rewrite El, Z.eqb_refl, er_f0. reflexivity.
      + rewrite El. eapply qs_ext; [exact QS|reflexivity| |].
        * intros L. replace (i + 1 - 1)%Z with i by lia. rewrite <- AL by lia. apply IB. lia.
        * intros a Ha. rewrite !EL by lia. destruct (Z.eqb_spec a i); [lia|]. auto.
    - destruct (Z.eqb_spec l (i - 1)) as [El|Nl2]; [|lia].
      pose proof (block_agree wantz n ilo ihi iloz ihiz A Z0 N zin hin _ _ _ _ _ _ _ _ _ I Hl2 Hi NZ) as BA.
      pose proof (top_zero wantz n ilo ihi iloz ihiz A Z0 N zin hin _ _ _ _ _ _ _ _ _ I ltac:(lia)) as TZ.
      pose proof (bot_zero wantz n ilo ihi iloz ihiz A Z0 N zin hin _ _ _ _ _ _ _ _ _ I ltac:(lia)) as BZ.
      assert (RH : (n <= rows h)%Z) by (destruct Sh as (-> & _); exact HR).
      rewrite (mat_get n h M i i HM), (mat_get n h M (i - 1) (i - 1) HM), (mat_get n h M (i - 1) i HM), (mat_get n h M i (i - 1) HM) by lia.
      set (a := M (i - 1)%Z (i - 1)%Z). set (b := M (i - 1)%Z i). set (c := M i (i - 1)%Z). set (d := M i i).
      assert (PW : 2 ^ 500 <= bpow radix2 1021).
      { replace (2 ^ 500) with (bpow radix2 500); [apply bpow_le; lia|]. rewrite (bpow_powerRZ radix2 500). change (IZR radix2) with 2. exact (eq_sym (pow_powerRZ 2 500)). }
      assert (BD : forall u w, inr u -> inr w -> Rabs (G u w) <= bpow radix2 1021).
      { intros u w Hu Hw. eapply Rle_trans; [apply (frob_bound ilo ihi G N); [assumption|assumption|apply HN|exact NO]|lra]. }
      assert (RG : nv_range a b c d).
      { unfold nv_range, a, b, c, d. rewrite !BA by lia. repeat split; apply BD; lia. }
      assert (CASE : exists a' b' c' d' cs sn s, nv_out a b c d (a', b', c', d') cs sn (a', s) (d', - s) /\ cs * cs + sn * sn = 1 /\
        similar2 (a, b, c, d) (a', b', c', d') cs sn /\ (c' = 0 /\ s = 0 \/ b' * c' < 0 /\ s = sqrt (- (b' * c')) /\ Rabs (a' - d') < bpow radix2 (-52))).
      { assert (SQ : forall u w, u * w < 0 -> sqrt (Rabs u) * sqrt (Rabs w) = sqrt (- (u * w))).
        { intros u w L. rewrite <- sqrt_mult by apply Rabs_pos. rewrite <- Rabs_mult, Rabs_left by assumption. reflexivity. }
        pose proof (bpow_gt_0 radix2 (-52)) as BP.
        destruct (nv_main_cases a b c d RG) as [(y & cs & sn & NI & ONE & SIM & ST)|(NI & L1 & L2)].
        - apply nv_out_of in NI. destruct y as [[[a' b'] c'] d']. exists a', b', c', d', cs, sn.
          revert NI. case Req_bool_spec; intros C0 NI.
          + exists 0. rewrite Ropp_0. split; [exact NI|]. split; [exact ONE|]. split; [exact SIM|]. left; auto.
          + eexists. split; [exact NI|]. split; [exact ONE|]. split; [exact SIM|]. right. destruct ST as [ST|[ST1 ST2]]; [contradiction|].
            split; [exact ST2|]. split; [apply SQ; exact ST2|]. rewrite ST1. unfold Rminus. rewrite Rplus_opp_r, Rabs_R0. exact BP.
        - apply nv_out_of in NI. exists a, b, c, d, 1, 0. revert NI. rewrite Req_bool_false by (intros X; rewrite X in L1; lra). intros NI.
          eexists. split; [exact NI|]. split; [ring|]. split; [apply similar_id|]. right. split; [exact L1|]. split; [apply SQ; exact L1|]. apply L2. }
      destruct CASE as (a' & b' & c' & d' & cs & sn & s & NO' & ONE & SIM & BL). unfold nv_out in NO'. rewrite NO'. cbn [nA nB nC nD nrt1r nrt1i nrt2r nrt2i nCs nSn fst snd].
      clear NO'.
      set (h1 := set2 (set2 (set2 (set2 h _ _ _) _ _ _) _ _ _) _ _ _).
      set (M1 := rupd (rupd (rupd (rupd M (i - 1) (i - 1) a') (i - 1) i b') i (i - 1) c') i i d').
      assert (HM1 : mat_is h1 n n M1).
      { unfold h1, M1. repeat (apply mat_set2; [|repeat rewrite (proj1 (set2_shape _ _ _ _)); assumption|lia|lia]). exact HM. }
      assert (Sh1 : same_shape h1 hin) by (unfold h1; repeat (eapply same_shape_trans; [apply set2_shape|]); exact Sh).
      assert (F1 : full h1) by (eapply full_shape; eassumption). assert (R1 : rows h1 = rows hin) by apply Sh1.
      destruct (rot_rows_is h1 M1 i cs sn HM1 F1 ltac:(lia) ltac:(lia)) as (h2 & M2 & E2 & Sh2 & HM2 & K2). rewrite R1 in E2. rewrite E2. cbn [bind].
      rewrite hq_rot_cols_id; [|eapply full_shape; eassumption|destruct Sh2 as (-> & _); lia|lia]. cbn [bind].
      destruct (rot_z_is (sZ st) Q i cs sn ZI ltac:(lia)) as (z' & EZ & ZI'). rewrite EZ. cbn [bind].
      set (P := rotm (i - 1) cs sn) in *.
      assert (OP : orthogonal ilo ihi P) by (apply rotm_orth; [lia|lia|assumption]).
      set (G' := conj_by ilo ihi P G) in *.
      assert (EG : forall u w, inr u -> inr w -> G' u w = rotl (i - 1) cs sn (rotr (i - 1) cs sn G) u w) by (intros; apply rot_conj; [lia|lia|assumption|assumption]).
      assert (FAR : forall u w, inr u -> inr w -> ((u < i - 1)%Z \/ (i < u)%Z) -> ((w < i - 1)%Z \/ (i < w)%Z) -> G' u w = G u w).
      { intros u w Hu Hw Du Dw. rewrite EG by assumption. unfold rotl, rotr. replace (i - 1 + 1)%Z with i by lia.
        destruct (Z.eqb_spec u (i - 1)), (Z.eqb_spec u i), (Z.eqb_spec w (i - 1)), (Z.eqb_spec w i); try lia. reflexivity. }
      assert (LEFT : forall u w, inr u -> inr w -> (i - 1 <= u <= i)%Z -> ((w < i - 1)%Z) -> G' u w = 0).
      { intros u w Hu Hw Du Dw. rewrite EG by assumption. unfold rotl, rotr. replace (i - 1 + 1)%Z with i by lia.
        destruct (Z.eqb_spec w (i - 1)), (Z.eqb_spec w i); try lia. rewrite (TZ (i - 1)%Z w), (TZ i w), (TZ u w) by lia. destruct (_ =? _)%Z; [ring|]. destruct (_ =? _)%Z; ring. }
      assert (DOWN : forall u w, inr u -> inr w -> (i < u)%Z -> (i - 1 <= w <= i)%Z -> G' u w = 0).
      { intros u w Hu Hw Du Dw. rewrite EG by assumption. unfold rotl, rotr. replace (i - 1 + 1)%Z with i by lia.
        destruct (Z.eqb_spec u (i - 1)), (Z.eqb_spec u i); try lia. rewrite (BZ u (i - 1)%Z), (BZ u i), (BZ u w) by lia. destruct (_ =? _)%Z; [ring|]. destruct (_ =? _)%Z; ring. }
      assert (BLK : G' (i - 1)%Z (i - 1)%Z = a' /\ G' (i - 1)%Z i = b' /\ G' i (i - 1)%Z = c' /\ G' i i = d').
      { assert (B1 : G (i - 1)%Z (i - 1)%Z = a) by (symmetry; apply BA; lia). assert (B2 : G (i - 1)%Z i = b) by (symmetry; apply BA; lia).
        assert (B3 : G i (i - 1)%Z = c) by (symmetry; apply BA; lia). assert (B4 : G i i = d) by (symmetry; apply BA; lia).
        rewrite !EG by lia. unfold rotl, rotr. replace (i - 1 + 1)%Z with i by lia. rewrite !Z.eqb_refl.
        destruct (Z.eqb_spec i (i - 1)); [lia|]. destruct (Z.eqb_spec (i - 1) i); [lia|]. rewrite B1, B2, B3, B4.
        unfold similar2, rot2, m2tr, m2mul in SIM. injection SIM as S1 S2 S3 S4. clear - S1 S2 S3 S4 ONE. clearbody a b c d. subst. clear - ONE.
        repeat split; nsatz. }
      destruct BLK as (B1 & B2 & B3 & B4).
      assert (MB : M1 (i - 1)%Z (i - 1)%Z = a' /\ M1 (i - 1)%Z i = b' /\ M1 i (i - 1)%Z = c' /\ M1 i i = d').
      { unfold M1. repeat split; repeat first [apply rupd_same|rewrite rupd_other by lia]. }
      assert (MO : forall u w, ~ ((i - 1 <= u <= i)%Z /\ (i - 1 <= w <= i)%Z) -> M1 u w = M u w).
      { intros u w Ho. unfold M1. rewrite !rupd_other by lia. reflexivity. }
      destruct MB as (MB1 & MB2 & MB3 & MB4).
      assert (INB : forall u w, (i - 1 <= u <= i)%Z -> (i - 1 <= w <= i)%Z -> M2 u w = G' u w).
      { intros u w Hu Hw. rewrite K2 by lia. assert (u = (i - 1)%Z \/ u = i) as [->| ->] by lia; (assert (w = (i - 1)%Z \/ w = i) as [->| ->] by lia); congruence. }
      assert (OUT : forall u w, inr u -> inr w -> ((u < i - 1)%Z \/ (i < u)%Z) \/ (w < i - 1)%Z -> M2 u w = M u w) by (intros u w Hu Hw Ho; rewrite K2, MO by lia; reflexivity).
      eexists. exists M2, G', (mm Q P). split; [reflexivity|]. cbn [sH sWr sWi sZ sV sI sL sIts].
      split; [|rewrite !CS; repeat (split; [reflexivity|])].
      + constructor.
        * exact HM2.
        * eapply same_shape_trans; eassumption.
        * constructor.
          -- intros u w Hu Hw Huw. destruct (Z_lt_le_dec w (i - 1)) as [W1|W1].
             ++ rewrite OUT, AL by lia. destruct (Z_lt_le_dec u (i - 1)) as [U1|U1]; [rewrite FAR by lia; reflexivity|].
                destruct (Z_le_gt_dec u i) as [U2|U2]; [rewrite LEFT, TZ by lia; reflexivity|rewrite FAR by lia; reflexivity].
             ++ destruct (Z_le_gt_dec w i) as [W2|W2].
                ** destruct (Z_le_gt_dec u i) as [U2|U2]; [apply INB; lia|]. rewrite OUT, AL, DOWN, BZ by lia. reflexivity.
                ** rewrite OUT, AL, FAR by lia. reflexivity.
          -- intros u w Hu Hw Huw HS.
             destruct (Z_lt_le_dec u (i - 1)) as [U1|U1].
             ++ destruct (Z_lt_le_dec w (i - 1)) as [W1|W1].
                ** rewrite OUT, FAR by lia. apply AU; [assumption|assumption|assumption|]. intros t Ht. rewrite <- OUT by lia. apply HS. assumption.
                ** exfalso. apply (HS (i - 1)%Z); [lia|]. rewrite OUT by lia. rewrite <- El. apply IT. lia.
             ++ destruct (Z_le_gt_dec u i) as [U2|U2].
                ** destruct (Z_le_gt_dec w i) as [W2|W2]; [apply INB; lia|]. exfalso. apply (HS (i + 1)%Z); [lia|]. rewrite OUT by lia. replace (i + 1 - 1)%Z with i by lia. apply IB. lia.
                ** rewrite OUT, FAR by lia. apply AU; [assumption|assumption|assumption|]. intros t Ht. rewrite <- OUT by lia. apply HS. assumption.
        * intros u w Hu Hw Huw. destruct (Z_lt_le_dec w (i - 1)) as [W1|W1].
          -- destruct (Z_lt_le_dec u (i - 1)) as [U1|U1]; [rewrite FAR by lia; apply HE; assumption|]. destruct (Z_le_gt_dec u i) as [U2|U2]; [apply LEFT; lia|rewrite FAR by lia; apply HE; assumption].
          -- destruct (Z_le_gt_dec w i) as [W2|W2]; [apply DOWN; lia|rewrite FAR by lia; apply HE; assumption].
        * apply simil_conj; assumption.
        * unfold G'. rewrite frob_conj by assumption. exact NO.
        * exact ZI'.
        * lia.
        * intros L. replace (l - 1 + 1)%Z with l by lia. rewrite OUT by lia. apply IT. lia.
      + rewrite El in *. apply (qs_two ilo ihi G' _ _ (i - 1) s).
        * lia.
        * lia.
        * intros L. apply LEFT; lia.
        * rewrite !EL by (rewrite ?CS; lia). destruct (Z.eqb_spec (i - 1) i); [lia|]. rewrite Z.eqb_refl, B1. reflexivity.
        * replace (i - 1 + 1)%Z with i by lia. rewrite !EL by (rewrite ?CS; lia). rewrite Z.eqb_refl, B4. reflexivity.
        * rewrite !EL by (rewrite ?CS; lia). destruct (Z.eqb_spec (i - 1) i); [lia|]. rewrite Z.eqb_refl. reflexivity.
        * replace (i - 1 + 1)%Z with i by lia. rewrite !EL by (rewrite ?CS; lia). rewrite Z.eqb_refl. reflexivity.
        * replace (i - 1 + 1)%Z with i by lia. cbv zeta. rewrite B1, B2, B3, B4. exact BL.
        * replace (i - 1 + 2)%Z with (i + 1)%Z by lia. eapply qs_ext; [exact QS| | |].
          -- intros u w Hu Hw. apply FAR; lia.
          -- intros L. replace (i + 1 - 1)%Z with i by lia. apply DOWN; lia.
          -- intros u Hu. rewrite !EL by (rewrite ?CS; lia). destruct (Z.eqb_spec u (i - 1)); [lia|]. destruct (Z.eqb_spec u i); [lia|]. auto.
  Qed.
End Defl.
