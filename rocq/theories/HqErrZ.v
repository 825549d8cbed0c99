(** dlahqr in binary64: the rows of Z. *)
From Coq Require Import Reals Lra.
From Flocq Require Import IEEE754.BinarySingleNaN Core.
From Verif Require Import Base Num Array Blas Lapack Dlahqr Spec SpecR SpecErr SpecSim B64 B64Lemmas B64Nn Lists RsumLemmas RoundErr Near
  FaLemmas LahqrProofs LahqrTop RealMat SimArray SimSweep LanvCalc LanvStd HqReal HqGet HqErrApp HqErrReal HqErrStep HqTwoF64.
Open Scope R_scope.

Section Rows.
  Context (lo hi : Z).
  Hypothesis (HL : (lo <= hi)%Z).
  Lemma row_frob A p : rowsq lo hi A p = frob2 lo hi (fun a b => if (a =? lo)%Z then A p b else 0).
  Proof.
    unfold frob2. rewrite (Rsum_range_one _ lo hi lo); [unfold rowsq; rewrite Z.eqb_refl; reflexivity|lia|].
    intros i Hi Hn. apply Rsum_range_zero. intros j Hj. destruct (Z.eqb_spec i lo); [contradiction|ring].
  Qed.
  Lemma row_add A B p x y : 0 <= x -> 0 < y -> rowsq lo hi A p <= x * x -> rowsq lo hi B p <= y * y -> rowsq lo hi (madd A B) p <= (x + y) * (x + y).
  Proof.
    intros Hx Hy HA HB. rewrite row_frob in *. eapply Rle_trans; [right; apply frob_ext|apply (frob_add lo hi _ _ x y Hx Hy HA HB)].
    intros i j Hi Hj. unfold madd. cbv beta. destruct (Z.eqb_spec i lo); ring.
  Qed.
  Lemma row_ext A B p : (forall b, (lo <= b <= hi)%Z -> A p b = B p b) -> rowsq lo hi A p = rowsq lo hi B p.
  Proof. intros H. apply Rsum_range_ext. intros b Hb. rewrite H by assumption. reflexivity. Qed.
  Lemma row_entry A p b x : (lo <= b <= hi)%Z -> 0 <= x -> rowsq lo hi A p <= x * x -> Rabs (A p b) <= x.
  Proof.
    intros Hb Hx H. rewrite row_frob in H.
    pose proof (frob_bound lo hi (fun a b => if (a =? lo)%Z then A p b else 0) x lo b ltac:(lia) Hb Hx H) as E. cbv beta in E. rewrite Z.eqb_refl in E. exact E.
  Qed.
End Rows.

Section Zrows.
  Context (lm : libm).
  #[local] Instance NBz : Num b64 := B64 lm.
  Context (n ilo ihi iloz ihiz : Z).
  Hypothesis (Hlo : (1 <= ilo)%Z) (Hlt : (ilo < ihi)%Z) (Hhi : (ihi <= n)%Z) (HZ : (1 <= iloz <= ihiz)%Z) (HZ2 : (ihiz <= n)%Z).
  Notation inr a := (ilo <= a <= ihi)%Z.
  Notation inz a := (iloz <= a <= ihiz)%Z.
  Notation mm := (mmul ilo ihi).
  Context (zin : fa b64) (K Xm : R).
  Hypothesis (HBg : big n zin) (FZ : full zin) (HK : mid (2 * K)) (HX : Xm * (2 * delta (2 * K)) <= K).
  Definition zv (z : fa b64) (a b : Z) : R := B2R (get2 z a b).
  Hypothesis (HR : forall p, inz p -> rowsq ilo ihi (zv zin) p <= K * K).
  Notation yz := (2 * delta (2 * K)).

  Record zok (x : R) (z : fa b64) (Q : Z -> Z -> R) : Prop := {
    zk_shape : same_shape z zin;
    zk_orth : orthogonal ilo ihi Q;
    zk_out : forall p b, (1 <= p <= n)%Z -> (1 <= b <= n)%Z -> ~ (inz p /\ inr b) -> get2 z p b = get2 zin p b;
    zk_fin : forall p b, inz p -> inr b -> is_finite (get2 z p b) = true;
    zk_row : forall p, inz p -> rowsq ilo ihi (msub (zv z) (mm (zv zin) Q)) p <= (x * yz) * (x * yz) }.

  Lemma K_pos : 0 < K.
  Proof. destruct (mid_facts _ HK) as (M0 & _). lra. Qed.
  Lemma yz_pos : 0 < yz.
  Proof. pose proof K_pos. pose proof u_tiny as [U0 U1]. rewrite delta_u. apply Rmult_lt_0_compat; [lra|]. apply Rmult_lt_0_compat; [lra|]. apply Rmult_lt_0_compat; [unfold u64; apply bpow_gt_0|lra]. Qed.
  Lemma zok_start : (forall p b, inz p -> inr b -> is_finite (get2 zin p b) = true) -> zok 0 zin Rid.
  Proof.
    intros F. constructor; [apply same_shape_refl|apply orth_id|reflexivity|exact F|].
    intros p Hp. rewrite (row_ext ilo ihi _ (fun _ _ => 0)).
    - unfold rowsq. rewrite Rsum_range_zero; [lra|]. intros; ring.
    - intros b Hb. unfold msub. rewrite mm_id_r by assumption. ring.
  Qed.
  Lemma zok_weaken x x' z Q : zok x z Q -> 0 <= x <= x' -> zok x' z Q.
  Proof.
    intros [] L. constructor; try assumption. intros p Hp. eapply Rle_trans; [apply zk_row0; exact Hp|]. pose proof yz_pos as Y.
    assert (0 <= x * yz) by (apply Rmult_le_pos; lra). assert (x * yz <= x' * yz) by (apply Rmult_le_compat_r; lra). nra.
  Qed.
  Lemma zok_bnd x z Q p b : zok x z Q -> 0 <= x <= Xm -> inz p -> inr b -> bnd (2 * K) (get2 z p b).
  Proof.
    intros Z Hx Hp Hb. pose proof Z as [S O U F W]. pose proof yz_pos as Y. pose proof K_pos as KP. split; [apply F; assumption|].
    assert (X0 : 0 <= x * yz) by (apply Rmult_le_pos; lra). assert (X1 : x * yz <= K) by (eapply Rle_trans; [apply Rmult_le_compat_r; [lra|apply Hx]|exact HX]).
    change (Rabs (zv z p b) <= 2 * K). apply (row_entry ilo ihi ltac:(lia) (zv z) p b (2 * K) Hb); [lra|].
    apply Rle_trans with ((x * yz + K) * (x * yz + K)); [|nra].
    rewrite (row_ext ilo ihi (zv z) (madd (msub (zv z) (mm (zv zin) Q)) (mm (zv zin) Q))) by (intros; unfold madd, msub; ring).
    apply row_add; [lia|exact X0|exact KP|apply W; exact Hp|]. rewrite row_orth by exact O. apply HR. exact Hp.
  Qed.
  Lemma zok_step x z Q P z' k : zok x z Q -> 0 <= x -> orthogonal ilo ihi P -> same_shape z' z ->
    (forall p b, (1 <= p <= n)%Z -> (1 <= b <= n)%Z -> ~ (inz p /\ inr b) -> get2 z' p b = get2 z p b) ->
    (forall p b, inz p -> inr b -> near_r (get2 z' p b) (mm (zv z) P p b) (delta (2 * K))) ->
    (forall p b, inz p -> inr b -> ~ (k <= b <= k + 2)%Z -> zv z' p b = mm (zv z) P p b) -> zok (x + 1) z' (mm Q P).
  Proof.
    intros [S O U F W] Hx OP S' U' N' X'. pose proof yz_pos as Y. constructor.
    - eapply same_shape_trans; eassumption.
    - apply orth_mm; assumption.
    - intros p b Hp Hb Ho. rewrite U' by assumption. apply U; assumption.
    - intros p b Hp Hb. apply N'; assumption.
    - intros p Hp. rewrite Rmult_plus_distr_r, Rmult_1_l.
      rewrite (row_ext ilo ihi _ (madd (mm (msub (zv z) (mm (zv zin) Q)) P) (msub (zv z') (mm (zv z) P)))).
      2: { intros b Hb. unfold madd. rewrite mm_sub_l. unfold msub. rewrite mm_assoc. ring. }
      apply row_add; [lia|apply Rmult_le_pos; lra|exact Y| |].
      + rewrite row_orth by exact OP. apply W; exact Hp.
      + assert (D0 : 0 <= delta (2 * K)) by lra.
        apply Rle_trans with (3 * (delta (2 * K) * delta (2 * K))); [|nra].
        apply (three_of ilo ihi k); [apply Rmult_le_pos; assumption| |].
        * intros b Hb. destruct (N' p b Hp Hb) as [_ E]. unfold msub, zv at 1 3. apply Rabs_le_inv in E. nra.
        * intros b Hb Hn. unfold msub. rewrite X' by assumption. right. ring.
  Qed.
  Notation inside := HqGet.inside.

  Lemma zok_three x z Q k (v2 v3 t1 : b64) w2 w3 t : zok x z Q -> 0 <= x <= Xm -> (ilo <= k)%Z -> (k + 2 <= ihi)%Z -> rapp v2 v3 t1 w2 w3 t ->
    zok (x + 1) (for_ (range iloz ihiz) z (right3 k v2 v3 t1 (fmul t1 v2) (fmul t1 v3))) (mm Q (refl t (wvec k w2 w3))).
  Proof.
    intros Z Hx K1 K2 RA. pose proof (ra_house _ _ _ _ _ _ RA) as HH. assert (BZ : big n z) by (eapply big_shape; [apply (zk_shape _ _ _ Z)|exact HBg]).
    assert (VAL : forall p b, (1 <= p <= n)%Z -> (1 <= b <= n)%Z -> get2 (for_ (range iloz ihiz) z (right3 k v2 v3 t1 (fmul t1 v2) (fmul t1 v3))) p b = if inside iloz ihiz p then rval3 k v2 v3 t1 (fmul t1 v2) (fmul t1 v3) z p b else get2 z p b)
      by (intros; apply (right3_loop_get n); assumption || lia).
    assert (PK : forall p b, inz p -> inr b -> near_r (rval3 k v2 v3 t1 (fmul t1 v2) (fmul t1 v3) z p b) (rright k w2 w3 t (zv z) p b) (delta (2 * K)) /\ (~ (k <= b <= k + 2)%Z -> B2R (rval3 k v2 v3 t1 (fmul t1 v2) (fmul t1 v3) z p b) = rright k w2 w3 t (zv z) p b)).
    { intros p b Hp Hb. pose proof (fun c Hc => zok_bnd x z Q p c Z Hx Hp Hc) as BD.
      destruct (BD k ltac:(lia)) as [F1 B1]. destruct (BD (k + 1)%Z ltac:(lia)) as [F2 B2]. destruct (BD (k + 2)%Z ltac:(lia)) as [F3 B3].
      pose proof (app3 lm (2 * K) HK v2 v3 t1 w2 w3 t RA _ _ _ F1 F2 F3 B1 B2 B3) as AP. cbv zeta in AP. unfold rval3, pick3. change (NBha lm) with NBz in AP.
      destruct (vrefl3 _ _ _ _ _ _ _ _) as [[y1 y2] y3]. destruct AP as (N1 & N2 & N3). unfold rright, zv.
      destruct (Z.eqb_spec b k) as [->|]; [|destruct (Z.eqb_spec b (k + 1)) as [->|]; [|destruct (Z.eqb_spec b (k + 2)) as [->|]]].
      - split; [|lia]. rewrite wvec_0, Rmult_1_r. exact N1.
      - split; [|lia]. rewrite wvec_1. exact N2.
      - split; [|lia]. rewrite wvec_2. exact N3.
      - rewrite wvec_out by lia. rewrite Rmult_0_r, Rmult_0_r. split; [split; [apply BD; exact Hb|]|intros; ring].
        replace (B2R (get2 z p b) - (B2R (get2 z p b) - 0)) with 0 by ring. rewrite Rabs_R0. pose proof yz_pos. lra. }
    apply (zok_step x z Q _ _ k); [exact Z|apply Hx|apply house_orth; [lia|left; lia|exact HH]| | | |].
    - apply (for_inv (fun g => same_shape g z)); [apply same_shape_refl|]. intros j s _ Hs. eapply same_shape_trans; [apply right3_shape|exact Hs].
    - intros p b Hp Hb Ho. rewrite VAL by assumption. unfold HqGet.inside. destruct (Z.leb_spec iloz p), (Z.leb_spec p ihiz); cbn [andb]; try reflexivity.
      unfold rval3, pick3. destruct (vrefl3 _ _ _ _ _ _ _ _) as [[y1 y2] y3]. destruct (Z.eqb_spec b k), (Z.eqb_spec b (k + 1)), (Z.eqb_spec b (k + 2)); try reflexivity; lia.
    - intros p b Hp Hb. rewrite VAL by lia. unfold HqGet.inside. destruct (Z.leb_spec iloz p), (Z.leb_spec p ihiz); try lia. cbn [andb].
      rewrite rright_mm by (first [lia|assumption|left; lia]). apply PK; assumption.
    - intros p b Hp Hb Hn. unfold zv at 1. rewrite VAL by lia. unfold HqGet.inside. destruct (Z.leb_spec iloz p), (Z.leb_spec p ihiz); try lia. cbn [andb].
      rewrite rright_mm by (first [lia|assumption|left; lia]). apply PK; assumption.
  Qed.

  Lemma zok_two x z Q k (v2 t1 : b64) w2 t : zok x z Q -> 0 <= x <= Xm -> (ilo <= k)%Z -> (k + 1 <= ihi)%Z -> rapp v2 (B754_zero false) t1 w2 0 t ->
    zok (x + 1) (for_ (range iloz ihiz) z (right2 k v2 t1 (fmul t1 v2))) (mm Q (refl t (wvec k w2 0))).
  Proof.
    intros Z Hx K1 K2 RA. pose proof (ra_house _ _ _ _ _ _ RA) as HH. assert (BZ : big n z) by (eapply big_shape; [apply (zk_shape _ _ _ Z)|exact HBg]).
    assert (VAL : forall p b, (1 <= p <= n)%Z -> (1 <= b <= n)%Z -> get2 (for_ (range iloz ihiz) z (right2 k v2 t1 (fmul t1 v2))) p b = if inside iloz ihiz p then rval2 k v2 t1 (fmul t1 v2) z p b else get2 z p b)
      by (intros; apply (right2_loop_get n); assumption || lia).
    assert (PK : forall p b, inz p -> inr b -> near_r (rval2 k v2 t1 (fmul t1 v2) z p b) (rright k w2 0 t (zv z) p b) (delta (2 * K)) /\ (~ (k <= b <= k + 2)%Z -> B2R (rval2 k v2 t1 (fmul t1 v2) z p b) = rright k w2 0 t (zv z) p b)).
    { intros p b Hp Hb. pose proof (fun c Hc => zok_bnd x z Q p c Z Hx Hp Hc) as BD.
      destruct (BD k ltac:(lia)) as [F1 B1]. destruct (BD (k + 1)%Z ltac:(lia)) as [F2 B2].
      pose proof (app2 lm (2 * K) HK v2 _ t1 w2 0 t RA _ _ F1 F2 B1 B2) as AP. cbv zeta in AP. unfold rval2, pick2. change (NBha lm) with NBz in AP.
      destruct (vrefl2 _ _ _ _ _) as [y1 y2]. destruct AP as (N1 & N2). unfold rright, zv. rewrite Rmult_0_l, Rplus_0_r.
      destruct (Z.eqb_spec b k) as [->|]; [|destruct (Z.eqb_spec b (k + 1)) as [->|]].
      - split; [|lia]. rewrite wvec_0, Rmult_1_r. exact N1.
      - split; [|lia]. rewrite wvec_1. exact N2.
      - assert (W0 : wvec k w2 0 b = 0) by (destruct (Z.eq_dec b (k + 2)) as [->|]; [apply wvec_2|apply wvec_out; lia]). rewrite W0, Rmult_0_r, Rmult_0_r. split; [split; [apply BD; exact Hb|]|intros; ring].
        replace (B2R (get2 z p b) - (B2R (get2 z p b) - 0)) with 0 by ring. rewrite Rabs_R0. pose proof yz_pos. lra. }
    apply (zok_step x z Q _ _ k); [exact Z|apply Hx|apply house_orth; [lia|right; split; [reflexivity|lia]|exact HH]| | | |].
    - apply (for_inv (fun g => same_shape g z)); [apply same_shape_refl|]. intros j s _ Hs. eapply same_shape_trans; [apply right2_shape|exact Hs].
    - intros p b Hp Hb Ho. rewrite VAL by assumption. unfold HqGet.inside. destruct (Z.leb_spec iloz p), (Z.leb_spec p ihiz); cbn [andb]; try reflexivity.
      unfold rval2, pick2. destruct (vrefl2 _ _ _ _ _) as [y1 y2]. destruct (Z.eqb_spec b k), (Z.eqb_spec b (k + 1)); try reflexivity; lia.
    - intros p b Hp Hb. rewrite VAL by lia. unfold HqGet.inside. destruct (Z.leb_spec iloz p), (Z.leb_spec p ihiz); try lia. cbn [andb].
      rewrite rright_mm by (first [lia|assumption|right; split; [reflexivity|lia]]). apply PK; assumption.
    - intros p b Hp Hb Hn. unfold zv at 1. rewrite VAL by lia. unfold HqGet.inside. destruct (Z.leb_spec iloz p), (Z.leb_spec p ihiz); try lia. cbn [andb].
      rewrite rright_mm by (first [lia|assumption|right; split; [reflexivity|lia]]). apply PK; assumption.
  Qed.

  Lemma zok_rot x z Q i (cs sn : b64) C S : zok x z Q -> 0 <= x <= Xm -> (ilo < i <= ihi)%Z -> is_finite cs = true -> is_finite sn = true -> C * C + S * S = 1 ->
    Rabs (B2R cs - C) <= bpow radix2 (-46) -> Rabs (B2R sn - S) <= bpow radix2 (-46) ->
    exists z', hq_rot_z iloz ihiz i cs sn z = Ok z' /\ zok (x + 1) z' (mm Q (rotm (i - 1) C S)).
  Proof.
    intros Z Hx Hi Fc Fs ONE EC ES. assert (BZ : big n z) by (eapply big_shape; [apply (zk_shape _ _ _ Z)|exact HBg]).
    assert (FF : full z) by (eapply full_shape; [apply (zk_shape _ _ _ Z)|exact FZ]).
    destruct BZ as [R1 R2].
    destruct (hq_rot_z_spec iloz ihiz z i cs sn FF ltac:(lia) ltac:(lia) HZ ltac:(lia) ltac:(nia)) as (z' & E & S' & V & U).
    exists z'. split; [exact E|].
    assert (OUT : forall p b, (1 <= p <= n)%Z -> (1 <= b <= n)%Z -> ~ (inz p /\ (b = i - 1 \/ b = i)%Z) -> get2 z' p b = get2 z p b).
    { intros p b Hp Hb Ho. assert (BZ : big n z) by (split; assumption). assert (BZ' : big n z') by (eapply big_shape; eassumption).
      assert (EE : ent z' p b = ent z p b).
      { unfold ent. destruct S' as (-> & _). apply U. intros p' Hp'. split; intros X; apply pos_inj in X; lia. }
      rewrite !ent_get2 in EE by (apply (big_pos n); assumption). congruence. }
    pose proof yz_pos as Y.
    assert (PK : forall p b, inz p -> inr b -> near_r (get2 z' p b) (rotr (i - 1) C S (zv z) p b) (delta (2 * K)) /\ (~ (i - 1 <= b <= i - 1 + 2)%Z -> zv z' p b = rotr (i - 1) C S (zv z) p b)).
    { intros p b Hp Hb. pose proof (fun c Hc => zok_bnd x z Q p c Z Hx Hp Hc) as BD.
      pose proof (rot_row lm (2 * K) (get2 z p (i - 1)) (get2 z p i) cs sn C S HK (BD (i - 1)%Z ltac:(lia)) (BD i ltac:(lia)) Fc Fs ONE EC ES) as RR. cbv zeta in RR. change (NB2 lm) with NBz in RR.
      destruct (V p Hp) as [V1 V2]. rewrite <- V1, <- V2 in RR. destruct RR as (F1 & F2 & E1 & E2).
      assert (DD : bpow radix2 (-44) * (2 * K) <= delta (2 * K)). { unfold delta. apply Rmult_le_compat_r; [pose proof K_pos; lra|apply bpow_le; lia]. }
      unfold rotr, zv. replace (i - 1 + 1)%Z with i by lia. destruct (Z.eqb_spec b (i - 1)) as [->|]; [|destruct (Z.eqb_spec b i) as [->|]].
      - split; [|lia]. split; [exact F1|]. rewrite (Rmult_comm C), (Rmult_comm S). lra.
      - split; [|lia]. split; [exact F2|]. rewrite (Rmult_comm C), (Rmult_comm S). lra.
      - rewrite OUT by lia. split; [|reflexivity]. split; [apply BD; exact Hb|]. unfold Rminus. rewrite Rplus_opp_r, Rabs_R0. lra. }
    apply (zok_step x z Q _ _ (i - 1)); [exact Z|apply Hx|apply rotm_orth; [lia|lia|exact ONE]|exact S'| | |].
    - intros p b Hp Hb Ho. apply OUT; [assumption|assumption|]. intros [X Y']. apply Ho. split; [exact X|lia].
    - intros p b Hp Hb. rewrite rotr_mm by lia. apply PK; assumption.
    - intros p b Hp Hb Hn. rewrite rotr_mm by lia. apply PK; assumption.
  Qed.
End Zrows.
