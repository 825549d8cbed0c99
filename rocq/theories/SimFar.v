(** dlaqr5, accumulating: the far-from-diagonal updates by products with U, in exact arithmetic. *)
From Coq Require Import Ascii Reals Lra.
From Flocq Require Import Core.
From Verif Require Import Base Num Array Blas Lapack Dlaqr5 Spec SpecBlas SpecLapack ER SpecR SpecSim Lists FaLemmas LasetProofs GemmTop RsumLemmas RealMat LahqrProofs Laqr5Proofs SimNear.
Open Scope Z_scope.

(** (i, j) lies in the mm-by-nn block that starts at (r0, c0) *)
Definition inblk (r0 c0 mm nn i j : Z) : bool := (r0 <=? i) && (i <? r0 + mm) && ((c0 <=? j) && (j <? c0 + nn)).
Lemma inblk_true r0 c0 mm nn i j : inblk r0 c0 mm nn i j = true <-> (r0 <= i < r0 + mm /\ c0 <= j < c0 + nn).
Proof. unfold inblk. destruct (Z.leb_spec r0 i), (Z.ltb_spec i (r0 + mm)), (Z.leb_spec c0 j), (Z.ltb_spec j (c0 + nn)); cbn; split; intros; try discriminate; try lia; reflexivity. Qed.
Lemma inblk_false r0 c0 mm nn i j : inblk r0 c0 mm nn i j = false <-> ~ (r0 <= i < r0 + mm /\ c0 <= j < c0 + nn).
Proof. rewrite <- inblk_true. destruct (inblk _ _ _ _ _ _); split; intros H; (congruence || (exfalso; apply H; reflexivity)). Qed.

Section Paste.
  Context {F : Type} {NF : Num F}.
  Lemma paste_ok ld (f w : fa F) r0 c0 mm nn ldw : dim2 ld f -> 1 <= r0 -> 1 <= mm -> r0 + mm - 1 <= ld -> 1 <= c0 -> 1 <= nn -> c0 + nn - 1 <= cols f ->
    exists f', q5_paste ld f w r0 c0 mm nn ldw ld = Ok f' /\ same_shape f' f /\
      forall i j, 1 <= i <= ld -> ent f' i j = if inblk r0 c0 mm nn i j then Some (get2 w (i - r0 + 1) (j - c0 + 1)) else ent f i j.
  Proof.
    intros D R1 R2 R3 C1 C2 C3. pose proof D as (ER & L1 & L2 & CN). pose proof (dim2_full _ _ D) as FU.
    assert (P0 : 1 <= pos ld r0 c0 <= count f) by (rewrite CN; unfold pos; nia).
    destruct (tail_ent f r0 c0 ld FU ER ltac:(lia) (proj1 P0)) as (l & t & E1 & E2 & RT & DT & LT & ET). specialize (LT (proj2 P0)).
    unfold q5_paste. rewrite E1. cbn [bind]. change (to_fa_2d l ld) with (fa_as_2d (fa_of_vec l) ld). rewrite E2. cbn [bind].
    unfold dlacpy. cbn [to_fa_2d ToFA_fa bind from_fa FromFA_fa].
    destruct (lacpy_all (chr "A") mm nn (fun i j => get2 w i j) t) as (SH & BL & FR); [discriminate|discriminate|lia|].
    set (t' := tri_fill _ _ _ _ t) in *. clearbody t'.
    unfold slice_to, fa_idx. rewrite ER. fold (pos ld r0 c0). rewrite count_zlen in P0.
    destruct (Z.ltb_spec (pos ld r0 c0 - 1) 0); [lia|]. destruct (Z.ltb_spec (zlen (data f)) (pos ld r0 c0 - 1)); [lia|]. cbn [orb bind].
    set (ini := firstn (Z.to_nat (pos ld r0 c0 - 1)) (data f)).
    assert (LI : zlen ini = pos ld r0 c0 - 1) by (apply zlen_firstn; lia).
    assert (LT' : zlen (data t') = zlen l). { destruct SH as (_ & _ & E). rewrite !count_zlen, DT in E. exact E. }
    destruct (as_2d_shape ld f (fa_of_vec (ini ++ data t')) D) as (f' & EF & SF & DF).
    { change (zlen (ini ++ data t') = count f). rewrite zlen_app, LI, LT'. rewrite LT. lia. }
    exists f'. split; [exact EF|]. split; [exact SF|]. intros i j Hi.
    assert (EV : forall p, elem f' p = if p <? pos ld r0 c0 then elem f p else elem t' (p - pos ld r0 c0 + 1)).
    { intros p. rewrite !elem_zget, DF. cbn [data fa_of_vec]. rewrite zget_app, LI. destruct (Z.ltb_spec p (pos ld r0 c0)).
      - destruct (Z.ltb_spec (p - 1) (pos ld r0 c0 - 1)); [|lia]. unfold ini, zget. destruct (Z.ltb_spec (p - 1) 0); [reflexivity|]. apply nth_error_firstn. lia.
      - destruct (Z.ltb_spec (p - 1) (pos ld r0 c0 - 1)); [lia|]. f_equal. lia. }
    unfold ent at 1. rewrite (proj1 SF), ER, EV. destruct (inblk _ _ _ _ _ _) eqn:EB.
    - apply inblk_true in EB. destruct (Z.ltb_spec (pos ld i j) (pos ld r0 c0)) as [LTp|GE]; [unfold pos in LTp; nia|].
      replace (pos ld i j - pos ld r0 c0 + 1) with (pos (rows t') (i - r0 + 1) (j - c0 + 1)) by (rewrite (proj1 SH), RT; unfold pos; lia).
      fold (ent t' (i - r0 + 1) (j - c0 + 1)). rewrite BL by lia. rewrite ET by (unfold pos; nia).
      destruct (ent_Some f (r0 - 1 + (i - r0 + 1)) (c0 - 1 + (j - c0 + 1))) as [x ->].
      { rewrite ER, CN. unfold pos. assert (j <= cols f) by lia. nia. }
      cbn. reflexivity.
    - apply inblk_false in EB. unfold ent. rewrite ER. destruct (Z.ltb_spec (pos ld i j) (pos ld r0 c0)) as [LTp|GE]; [reflexivity|].
      rewrite FR.
      + replace (pos ld i j - pos ld r0 c0 + 1) with (pos (rows t) (i - r0 + 1) (j - c0 + 1)) by (rewrite RT; unfold pos; lia).
        fold (ent t (i - r0 + 1) (j - c0 + 1)). rewrite ET by (unfold pos in *; lia). unfold ent. rewrite ER. f_equal. f_equal; lia.
      + intros a b Ha Hb E. rewrite RT in E. assert (E' : pos ld i j = pos ld (r0 - 1 + a) (c0 - 1 + b)) by (unfold pos in *; lia).
        apply pos_inj in E'; [|lia|lia]. apply EB. lia.
  Qed.
End Paste.

(** products with the top-left nu-by-nu block of U *)
Section Products.
  Lemma letterC : ~ letter (chr "C") LN. Proof. unfold letter. cbn. lia. Qed.
  Lemma letterN : letter (chr "N") LN. Proof. unfold letter. cbn. lia. Qed.

  Context (ldu : Z) (u : fa er) (nu : Z) (Um : Z -> Z -> R).
  Hypothesis (DU : dim2 ldu u) (N1 : 1 <= nu <= ldu) (MU : mat_is u nu nu Um).

  Lemma u_tail : exists l t, from2 u 1 1 = Ok l /\ to_fa_2d l ldu = Ok t /\ mat_is t nu nu Um.
  Proof.
    pose proof DU as (ER & L1 & _). destruct (tail_ent u 1 1 ldu (dim2_full _ _ DU) ER ltac:(lia) ltac:(unfold pos; lia)) as (l & t & E1 & E2 & _ & _ & _ & ET).
    exists l, t. split; [exact E1|]. split; [exact E2|]. intros i j Hi Hj. rewrite ET by (unfold pos; nia). replace (1 - 1 + i) with i by lia. replace (1 - 1 + j) with j by lia. apply MU; assumption.
  Qed.

  Section One.
    Context (ld : Z) (f : fa er) (r0 c0 : Z) (M : Z -> Z -> R).
    Hypothesis (DF : dim2 ld f) (R0 : 1 <= r0 <= ld) (C0 : 1 <= c0).
    Lemma f_tail mm nn : 1 <= mm -> r0 + mm - 1 <= ld ->
      (forall i j, r0 <= i < r0 + mm -> c0 <= j < c0 + nn -> ent f i j = Some (Fin (M i j))) ->
      exists l t, from2 f r0 c0 = Ok l /\ to_fa_2d l ld = Ok t /\ mat_is t mm nn (fun i j => M (r0 - 1 + i) (c0 - 1 + j)).
    Proof.
      intros H1 H2 HM. pose proof DF as (ER & L1 & _). destruct (tail_ent f r0 c0 ld (dim2_full _ _ DF) ER ltac:(lia) ltac:(unfold pos; nia)) as (l & t & E1 & E2 & _ & _ & _ & ET).
      exists l, t. split; [exact E1|]. split; [exact E2|]. intros i j Hi Hj. rewrite ET by (unfold pos; nia). apply HM; lia.
    Qed.

    Lemma left_block jl w ldw : 1 <= jl -> r0 + nu - 1 <= ld -> nu <= ld ->
      (forall i j, r0 <= i < r0 + nu -> c0 <= j < c0 + jl -> ent f i j = Some (Fin (M i j))) ->
      dim2 ldw w -> nu <= ldw -> jl <= cols w ->
      exists ul fl w', from2 u 1 1 = Ok ul /\ from2 f r0 c0 = Ok fl /\
        dgemm (chr "C") (chr "N") nu jl nu f1 ul ldu fl ld f0 w ldw = Ok w' /\ same_shape w' w /\
        mat_is w' nu jl (fun i j => Rsum_range (fun l => Um l i * M (r0 - 1 + l)%Z (c0 - 1 + j)%Z)%R 1 nu).
    Proof.
      intros J1 R1 R2 HM DW W1 W2. destruct u_tail as (ul & ut & U1 & U2 & U3). destruct (f_tail nu jl ltac:(lia) ltac:(lia) HM) as (fl & ft & F1 & F2 & F3).
      pose proof DW as (RW & LW & CW & NW).
      destruct (dgemm_exact (chr "C") (chr "N") nu jl nu 1 0 ul ldu fl ld w ldw false true ut ft w (fun i l => Um l i) (fun l j => M (r0 - 1 + l) (c0 - 1 + j)) (fun _ _ => 0%R))
        as (w' & E & _ & X & S & _); try assumption; try reflexivity.
      - pose proof letterC. pose proof letterN. unfold gemm_table, none_bad. repeat constructor; cbn [snd]; try tauto; try lia.
        { intros (_ & H1 & _). apply H1. unfold letter. cbn. lia. } 
        intros [[_ X]|[X _]]; [lia|contradiction].
      - pose proof letterC. split; [discriminate|tauto].
      - pose proof letterN. tauto.
      - split; [lia|]. intros _ _. rewrite NW, RW. nia.
      - intros _ i j Hi Hj. cbn. apply U3; assumption.
      - intros _ i j Hi Hj. cbn. apply F3; assumption.
      - intros H. exfalso. apply H. reflexivity.
      - exists ul, fl, w'. split; [exact U1|]. split; [exact F1|]. rewrite er_f0, er_f1. rewrite E. clear E.
        destruct (Z.eqb_spec nu 0); [lia|]. destruct (Z.eqb_spec jl 0); [lia|]. cbn [orb].
        replace (gemm_idle nu (Fin 1) (Fin 0)) with false.
        + split; [reflexivity|]. split; [exact S|]. intros i j Hi Hj. rewrite X by assumption. f_equal. f_equal. lra.
        + unfold gemm_idle. rewrite er_f0, er_f1, !er_eqE, (Req_bool_false 0 1) by lra. rewrite andb_false_r. reflexivity.
    Qed.
    Lemma right_block jl w ldw : 1 <= jl -> r0 + jl - 1 <= ld ->
      (forall i j, r0 <= i < r0 + jl -> c0 <= j < c0 + nu -> ent f i j = Some (Fin (M i j))) ->
      dim2 ldw w -> jl <= ldw -> nu <= cols w ->
      exists ul fl w', from2 u 1 1 = Ok ul /\ from2 f r0 c0 = Ok fl /\
        dgemm (chr "N") (chr "N") jl nu nu f1 fl ld ul ldu f0 w ldw = Ok w' /\ same_shape w' w /\
        mat_is w' jl nu (fun i j => Rsum_range (fun l => M (r0 - 1 + i)%Z (c0 - 1 + l)%Z * Um l j)%R 1 nu).
    Proof.
      intros J1 R1 HM DW W1 W2. destruct u_tail as (ul & ut & U1 & U2 & U3). destruct (f_tail jl nu ltac:(lia) ltac:(lia) HM) as (fl & ft & F1 & F2 & F3).
      pose proof DW as (RW & LW & CW & NW).
      destruct (dgemm_exact (chr "N") (chr "N") jl nu nu 1 0 fl ld ul ldu w ldw true true ft ut w (fun i l => M (r0 - 1 + i) (c0 - 1 + l)) Um (fun _ _ => 0%R))
        as (w' & E & _ & X & S & _); try assumption; try reflexivity.
      - pose proof letterN. unfold gemm_table, none_bad. repeat (apply Forall_cons || apply Forall_nil); cbn [snd]; try tauto; try lia; intros [[_ X]|[X _]]; lia || contradiction.
      - pose proof letterN. tauto.
      - pose proof letterN. tauto.
      - split; [lia|]. intros _ _. rewrite NW, RW. nia.
      - intros _ i j Hi Hj. cbn. apply F3; assumption.
      - intros _ i j Hi Hj. cbn. apply U3; assumption.
      - intros H. exfalso. apply H. reflexivity.
      - exists ul, fl, w'. split; [exact U1|]. split; [exact F1|]. rewrite er_f0, er_f1. rewrite E. clear E.
        destruct (Z.eqb_spec nu 0); [lia|]. destruct (Z.eqb_spec jl 0); [lia|]. cbn [orb].
        replace (gemm_idle nu (Fin 1) (Fin 0)) with false.
        + split; [reflexivity|]. split; [exact S|]. intros i j Hi Hj. rewrite X by assumption. f_equal. f_equal. lra.
        + unfold gemm_idle. rewrite er_f0, er_f1, !er_eqE, (Req_bool_false 0 1) by lra. rewrite andb_false_r. reflexivity.
    Qed.
  End One.
End Products.

(** *** loops in chunks *)
Lemma chunks {S} lo hi step (body : Z -> S -> outcome S) (P : Z -> S -> Prop) s : 1 <= step ->
  (forall c s, lo <= c <= hi -> P c s -> exists s', body c s = Ok s' /\ P (Z.min (c + step) (hi + 1)) s') -> P lo s ->
  exists cs s', range_step_i32 lo hi step = Ok cs /\ for_M cs s body = Ok s' /\ P (Z.max lo (hi + 1)) s'.
Proof.
  intros Hs HB H0. unfold range_step_i32. destruct (Z.eqb_spec step 0); [lia|]. destruct (Z.ltb_spec step 0); [lia|].
  unfold range_step. destruct (Z.ltb_spec hi lo) as [L|L].
  - eexists. exists s. split; [reflexivity|]. split; [reflexivity|]. replace (Z.max lo (hi + 1)) with lo by lia. exact H0.
  - assert (X : forall m c s, lo <= c <= hi -> c + step * (Z.of_nat m - 1) <= hi < c + step * Z.of_nat m -> P c s -> exists s', for_M (zup c step m) s body = Ok s' /\ P (hi + 1) s').
    { induction m as [|m IH]; intros c s1 Hc Hm Hp; [lia|]. cbn [zup for_M]. destruct (HB c s1 Hc Hp) as (s2 & -> & P2). cbn [bind].
      destruct m as [|m'].
      - exists s2. split; [reflexivity|]. replace (hi + 1) with (Z.min (c + step) (hi + 1)) by lia. exact P2.
      - assert (step * Z.of_nat m' >= 0) by nia. apply (IH (c + step)); [lia|lia|]. replace (c + step) with (Z.min (c + step) (hi + 1)) by lia. exact P2. }
    pose proof (Z.div_mod (hi - lo) step ltac:(lia)) as DM. pose proof (Z.mod_pos_bound (hi - lo) step ltac:(lia)) as MB. pose proof (Z.div_pos (hi - lo) step ltac:(lia) ltac:(lia)) as DP.
    destruct (X (Z.to_nat ((hi - lo) / step + 1)) lo s) as (s' & E & HP); [lia|rewrite Z2Nat.id by lia; nia|exact H0|].
    eexists. exists s'. split; [reflexivity|]. split; [exact E|]. replace (Z.max lo (hi + 1)) with (hi + 1) by lia. exact HP.
Qed.

(** *** one incol block *)
Section Far.
  Context (wantt wantz : bool) (n ktop kbot ld iloz ihiz ldu nv ldwv nh ldwh incol : Z).
  Notation lo := (if wantt then 1 else ktop).
  Notation hi := (if wantt then n else kbot).
  Notation jt := (Z.max ktop incol).
  Notation jb := (Z.min (incol + 4) kbot).
  Notation nu := (jb - incol).
  Context (s0 : q5st (F := er)) (M Zm Um : Z -> Z -> R).
  Hypothesis (K1 : 1 <= ktop < kbot) (K2 : kbot <= n <= ld) (K3 : ktop - 1 <= incol <= kbot - 2).
  Hypothesis (DH : dim2 ld (qH s0)) (CH : n <= cols (qH s0)) (HM : mat_is (qH s0) n n M).
  Hypothesis (DU : dim2 ldu (qU s0)) (U1 : 4 <= ldu) (HU : mat_is (qU s0) 4 4 Um).
  Hypothesis (DWh : dim2 ldwh (qWh s0)) (Wh1 : 4 <= ldwh) (Wh2 : nh <= cols (qWh s0)) (NH : 1 <= nh).
  Hypothesis (DWv : dim2 ldwv (qWv s0)) (Wv1 : nv <= ldwv) (Wv2 : 4 <= cols (qWv s0)) (NV : 1 <= nv).

  Lemma HU' : mat_is (qU s0) nu nu Um.
  Proof. intros i j Hi Hj. apply HU; lia. Qed.
  Lemma jb_hi : jb <= hi <= n.
  Proof. destruct wantt; lia. Qed.
  Lemma lo_jt : 1 <= lo <= jt.
  Proof. destruct wantt; lia. Qed.

  Definition top_right (i j : Z) : R := Rsum_range (fun l => Um l (i - incol)%Z * M (incol + l)%Z j)%R 1 nu.
  Definition top_left (i j : Z) : R := Rsum_range (fun l => M i (incol + l)%Z * Um l (j - incol)%Z)%R 1 nu.
  Definition zprod (i j : Z) : R := Rsum_range (fun l => Zm i (incol + l)%Z * Um l (j - incol)%Z)%R 1 nu.

  Lemma horizontal_all : exists cs h wh, range_step_i32 (jb + 1) hi nh = Ok cs /\
    for_M cs s0 (q5_horizontal ld ld ldu nh ldwh incol 1 nu hi) = Ok (mkQ5 h (qZ s0) (qV s0) (qU s0) (qWv s0) wh (qVt s0)) /\ same_shape h (qH s0) /\ same_shape wh (qWh s0) /\
    forall i j, 1 <= i <= ld -> ent h i j = if inblk (incol + 1) (jb + 1) nu (hi - jb) i j then Some (Fin (top_right i j)) else ent (qH s0) i j.
  Proof.
    pose proof jb_hi as JH.
    set (P := fun c (s : q5st (F := er)) => exists h wh, s = mkQ5 h (qZ s0) (qV s0) (qU s0) (qWv s0) wh (qVt s0) /\ same_shape h (qH s0) /\ same_shape wh (qWh s0) /\
      forall i j, 1 <= i <= ld -> ent h i j = if inblk (incol + 1) (jb + 1) nu (c - (jb + 1)) i j then Some (Fin (top_right i j)) else ent (qH s0) i j).
    destruct (chunks (jb + 1) hi nh (q5_horizontal ld ld ldu nh ldwh incol 1 nu hi) P s0) as (cs & s' & E1 & E2 & h & wh & -> & S1 & S2 & EH).
    - exact NH.
    - intros c s Hc (h & wh & -> & S1 & S2 & EH). unfold q5_horizontal. cbn [qH qZ qV qU qWv qWh qVt]. cbv zeta.
      set (jl := Z.min nh (hi - c + 1)).
      assert (OUT : forall i j, c <= j -> inblk (incol + 1) (jb + 1) nu (c - (jb + 1)) i j = false) by (intros; apply inblk_false; lia).
      destruct (left_block ldu (qU s0) nu Um DU ltac:(lia) HU' ld h (incol + 1) c M (dim2_shape _ _ _ S1 DH) ltac:(lia) ltac:(lia) jl wh ldwh)
        as (ul & fl & w' & EU & EF & EG & SW & MW); [lia|lia|lia| |apply (dim2_shape _ _ _ S2 DWh)|lia|destruct S2 as (_ & -> & _); lia|].
      { intros i j Hi Hj. rewrite EH by lia. rewrite OUT by lia. apply HM; lia. }
      rewrite EU, EF. cbn [bind]. rewrite EG. cbn [bind].
      destruct (paste_ok ld h w' (incol + 1) c nu jl ldwh (dim2_shape _ _ _ S1 DH)) as (h' & EP & SP & HP); [lia|lia|lia|lia|lia|destruct S1 as (_ & -> & _); lia|].
      rewrite EP. cbn [bind]. eexists. split; [reflexivity|]. exists h', w'. split; [reflexivity|]. split; [eapply same_shape_trans; eassumption|]. split; [eapply same_shape_trans; eassumption|].
      intros i j Hi. rewrite HP by exact Hi. rewrite EH by exact Hi.
      destruct (inblk (incol + 1) c nu jl i j) eqn:B1.
      + apply inblk_true in B1. replace (inblk (incol + 1) (jb + 1) nu (Z.min (c + nh) (hi + 1) - (jb + 1)) i j) with true by (symmetry; apply inblk_true; lia).
        rewrite (get2_Some w' _ _ _ (MW (i - (incol + 1) + 1) (j - c + 1) ltac:(lia) ltac:(lia))). f_equal. f_equal. unfold top_right.
        apply Rsum_range_ext. intros l Hl. f_equal; f_equal; lia.
      + apply inblk_false in B1. destruct (inblk (incol + 1) (jb + 1) nu (c - (jb + 1)) i j) eqn:B2.
        * apply inblk_true in B2. replace (inblk (incol + 1) (jb + 1) nu (Z.min (c + nh) (hi + 1) - (jb + 1)) i j) with true by (symmetry; apply inblk_true; lia). reflexivity.
        * apply inblk_false in B2. replace (inblk (incol + 1) (jb + 1) nu (Z.min (c + nh) (hi + 1) - (jb + 1)) i j) with false by (symmetry; apply inblk_false; lia). reflexivity.
    - exists (qH s0), (qWh s0). split; [destruct s0; reflexivity|]. split; [apply same_shape_refl|]. split; [apply same_shape_refl|].
      intros i j Hi. replace (inblk _ _ _ _ i j) with false by (symmetry; apply inblk_false; lia). reflexivity.
    - exists cs, h, wh. split; [exact E1|]. split; [exact E2|]. split; [exact S1|]. split; [exact S2|]. intros i j Hi. rewrite EH by exact Hi.
      replace (Z.max (jb + 1) (hi + 1) - (jb + 1)) with (hi - jb) by lia. reflexivity.
  Qed.

  Lemma vertical_all h1 wh1 : same_shape h1 (qH s0) -> (forall i j, lo <= i < jt -> ent h1 i j = ent (qH s0) i j) ->
    exists rs h wv, range_step_i32 lo (jt - 1) nv = Ok rs /\
    for_M rs (mkQ5 h1 (qZ s0) (qV s0) (qU s0) (qWv s0) wh1 (qVt s0)) (q5_vertical ktop ld ld ldu nv ldwv incol 1 nu) = Ok (mkQ5 h (qZ s0) (qV s0) (qU s0) wv wh1 (qVt s0)) /\
    same_shape h (qH s0) /\ same_shape wv (qWv s0) /\
    forall i j, 1 <= i <= ld -> ent h i j = if inblk lo (incol + 1) (jt - lo) nu i j then Some (Fin (top_left i j)) else ent h1 i j.
  Proof.
    intros SH1 EH1. pose proof lo_jt as LJ.
    set (P := fun c (s : q5st (F := er)) => exists h wv, s = mkQ5 h (qZ s0) (qV s0) (qU s0) wv wh1 (qVt s0) /\ same_shape h (qH s0) /\ same_shape wv (qWv s0) /\
      forall i j, 1 <= i <= ld -> ent h i j = if inblk lo (incol + 1) (c - lo) nu i j then Some (Fin (top_left i j)) else ent h1 i j).
    destruct (chunks lo (jt - 1) nv (q5_vertical ktop ld ld ldu nv ldwv incol 1 nu) P (mkQ5 h1 (qZ s0) (qV s0) (qU s0) (qWv s0) wh1 (qVt s0))) as (cs & s' & E1 & E2 & h & wv & -> & S1 & S2 & EH).
    - exact NV.
    - intros c s Hc (h & wv & -> & S1 & S2 & EH). unfold q5_vertical. cbn [qH qZ qV qU qWv qWh qVt]. cbv zeta.
      set (jl := Z.min nv (jt - c)).
      assert (OUT : forall i j, c <= i -> inblk lo (incol + 1) (c - lo) nu i j = false) by (intros; apply inblk_false; lia).
      destruct (right_block ldu (qU s0) nu Um DU ltac:(lia) HU' ld h c (incol + 1) M (dim2_shape _ _ _ S1 DH) ltac:(lia) ltac:(lia) jl wv ldwv)
        as (ul & fl & w' & EU & EF & EG & SW & MW); [lia|lia| |apply (dim2_shape _ _ _ S2 DWv)|lia|destruct S2 as (_ & -> & _); lia|].
      { intros i j Hi Hj. rewrite EH by lia. rewrite OUT by lia. rewrite EH1 by lia. apply HM; lia. }
      rewrite EU, EF. cbn [bind]. rewrite EG. cbn [bind].
      destruct (paste_ok ld h w' c (incol + 1) jl nu ldwv (dim2_shape _ _ _ S1 DH)) as (h' & EP & SP & HP); [lia|lia|lia|lia|lia|destruct S1 as (_ & -> & _); lia|].
      rewrite EP. cbn [bind]. eexists. split; [reflexivity|]. exists h', w'. split; [reflexivity|]. split; [eapply same_shape_trans; eassumption|]. split; [eapply same_shape_trans; eassumption|].
      intros i j Hi. rewrite HP by exact Hi. rewrite EH by exact Hi.
      destruct (inblk c (incol + 1) jl nu i j) eqn:B1.
      + apply inblk_true in B1. replace (inblk lo (incol + 1) (Z.min (c + nv) (jt - 1 + 1) - lo) nu i j) with true by (symmetry; apply inblk_true; lia).
        rewrite (get2_Some w' _ _ _ (MW (i - c + 1) (j - (incol + 1) + 1) ltac:(lia) ltac:(lia))). f_equal. f_equal. unfold top_left.
        apply Rsum_range_ext. intros l Hl. f_equal; f_equal; lia.
      + apply inblk_false in B1. destruct (inblk lo (incol + 1) (c - lo) nu i j) eqn:B2.
        * apply inblk_true in B2. replace (inblk lo (incol + 1) (Z.min (c + nv) (jt - 1 + 1) - lo) nu i j) with true by (symmetry; apply inblk_true; lia). reflexivity.
        * apply inblk_false in B2. replace (inblk lo (incol + 1) (Z.min (c + nv) (jt - 1 + 1) - lo) nu i j) with false by (symmetry; apply inblk_false; lia). reflexivity.
    - exists h1, (qWv s0). split; [reflexivity|]. split; [exact SH1|]. split; [apply same_shape_refl|].
      intros i j Hi. replace (inblk _ _ _ _ i j) with false by (symmetry; apply inblk_false; lia). reflexivity.
    - exists cs, h, wv. split; [exact E1|]. split; [exact E2|]. split; [exact S1|]. split; [exact S2|]. intros i j Hi. rewrite EH by exact Hi.
      replace (Z.max lo (jt - 1 + 1) - lo) with (jt - lo) by lia. reflexivity.
  Qed.

  Hypothesis (DZ : dim2 ld (qZ s0)) (CZ : wantz = true -> kbot <= cols (qZ s0)) (IZ : wantz = true -> 1 <= iloz /\ ihiz <= ld).
  Hypothesis (HZ : wantz = true -> forall i j, iloz <= i <= ihiz -> ktop <= j <= kbot -> ent (qZ s0) i j = Some (Fin (Zm i j))).

  Lemma zmul_all h1 wh1 wv1 : wantz = true -> same_shape wv1 (qWv s0) ->
    exists rs z wv, range_step_i32 iloz ihiz nv = Ok rs /\
    for_M rs (mkQ5 h1 (qZ s0) (qV s0) (qU s0) wv1 wh1 (qVt s0)) (q5_zmul ihiz ld ldu nv ldwv incol 1 nu) = Ok (mkQ5 h1 z (qV s0) (qU s0) wv wh1 (qVt s0)) /\
    same_shape z (qZ s0) /\ same_shape wv (qWv s0) /\
    forall i j, 1 <= i <= ld -> ent z i j = if inblk iloz (incol + 1) (ihiz - iloz + 1) nu i j then Some (Fin (zprod i j)) else ent (qZ s0) i j.
  Proof.
    intros WZ SW1. destruct (IZ WZ) as [I1 I2]. specialize (CZ WZ). specialize (HZ WZ).
    set (P := fun c (s : q5st (F := er)) => exists z wv, s = mkQ5 h1 z (qV s0) (qU s0) wv wh1 (qVt s0) /\ same_shape z (qZ s0) /\ same_shape wv (qWv s0) /\
      forall i j, 1 <= i <= ld -> ent z i j = if inblk iloz (incol + 1) (c - iloz) nu i j then Some (Fin (zprod i j)) else ent (qZ s0) i j).
    destruct (chunks iloz ihiz nv (q5_zmul ihiz ld ldu nv ldwv incol 1 nu) P (mkQ5 h1 (qZ s0) (qV s0) (qU s0) wv1 wh1 (qVt s0))) as (cs & s' & E1 & E2 & h & wv & -> & S1 & S2 & EH).
    - exact NV.
    - intros c s Hc (h & wv & -> & S1 & S2 & EH). unfold q5_zmul. cbn [qH qZ qV qU qWv qWh qVt]. cbv zeta.
      set (jl := Z.min nv (ihiz - c + 1)).
      assert (OUT : forall i j, c <= i -> inblk iloz (incol + 1) (c - iloz) nu i j = false) by (intros; apply inblk_false; lia).
      destruct (right_block ldu (qU s0) nu Um DU ltac:(lia) HU' ld h c (incol + 1) Zm (dim2_shape _ _ _ S1 DZ) ltac:(lia) ltac:(lia) jl wv ldwv)
        as (ul & fl & w' & EU & EF & EG & SW & MW); [lia|lia| |apply (dim2_shape _ _ _ S2 DWv)|lia|destruct S2 as (_ & -> & _); lia|].
      { intros i j Hi Hj. rewrite EH by lia. rewrite OUT by lia. apply HZ; lia. }
      rewrite EU, EF. cbn [bind]. rewrite EG. cbn [bind].
      destruct (paste_ok ld h w' c (incol + 1) jl nu ldwv (dim2_shape _ _ _ S1 DZ)) as (h' & EP & SP & HP); [lia|lia|lia|lia|lia|destruct S1 as (_ & -> & _); lia|].
      rewrite EP. cbn [bind]. eexists. split; [reflexivity|]. exists h', w'. split; [reflexivity|]. split; [eapply same_shape_trans; eassumption|]. split; [eapply same_shape_trans; eassumption|].
      intros i j Hi. rewrite HP by exact Hi. rewrite EH by exact Hi.
      destruct (inblk c (incol + 1) jl nu i j) eqn:B1.
      + apply inblk_true in B1. replace (inblk iloz (incol + 1) (Z.min (c + nv) (ihiz + 1) - iloz) nu i j) with true by (symmetry; apply inblk_true; lia).
        rewrite (get2_Some w' _ _ _ (MW (i - c + 1) (j - (incol + 1) + 1) ltac:(lia) ltac:(lia))). f_equal. f_equal. unfold zprod.
        apply Rsum_range_ext. intros l Hl. f_equal; f_equal; lia.
      + apply inblk_false in B1. destruct (inblk iloz (incol + 1) (c - iloz) nu i j) eqn:B2.
        * apply inblk_true in B2. replace (inblk iloz (incol + 1) (Z.min (c + nv) (ihiz + 1) - iloz) nu i j) with true by (symmetry; apply inblk_true; lia). reflexivity.
        * apply inblk_false in B2. replace (inblk iloz (incol + 1) (Z.min (c + nv) (ihiz + 1) - iloz) nu i j) with false by (symmetry; apply inblk_false; lia). reflexivity.
    - exists (qZ s0), wv1. split; [reflexivity|]. split; [apply same_shape_refl|]. split; [exact SW1|].
      intros i j Hi. replace (inblk _ _ _ _ i j) with false by (symmetry; apply inblk_false; lia). reflexivity.
    - exists cs, h, wv. split; [exact E1|]. split; [exact E2|]. split; [exact S1|]. split; [exact S2|]. intros i j Hi. rewrite EH by exact Hi.
      destruct (Z_le_gt_dec iloz (ihiz + 1)).
      + replace (Z.max iloz (ihiz + 1) - iloz) with (ihiz - iloz + 1) by lia. reflexivity.
      + replace (inblk iloz (incol + 1) (Z.max iloz (ihiz + 1) - iloz) nu i j) with false by (symmetry; apply inblk_false; lia).
        replace (inblk iloz (incol + 1) (ihiz - iloz + 1) nu i j) with false by (symmetry; apply inblk_false; lia). reflexivity.
  Qed.

  Lemma far_ok : exists s1, q5_far wantt wantz true n ktop kbot 1 ld iloz ihiz ld ldu nv ldwv nh ldwh incol s0 = Ok s1 /\
    qV s1 = qV s0 /\ qU s1 = qU s0 /\ qVt s1 = qVt s0 /\
    same_shape (qH s1) (qH s0) /\ same_shape (qZ s1) (qZ s0) /\ same_shape (qWv s1) (qWv s0) /\ same_shape (qWh s1) (qWh s0) /\
    (forall i j, 1 <= i <= ld -> ent (qH s1) i j =
      if inblk (incol + 1) (jb + 1) nu (hi - jb) i j then Some (Fin (top_right i j)) else
      if inblk lo (incol + 1) (jt - lo) nu i j then Some (Fin (top_left i j)) else ent (qH s0) i j) /\
    (wantz = false -> qZ s1 = qZ s0) /\
    (wantz = true -> forall i j, 1 <= i <= ld -> ent (qZ s1) i j = if inblk iloz (incol + 1) (ihiz - iloz + 1) nu i j then Some (Fin (zprod i j)) else ent (qZ s0) i j).
  Proof.
    destruct horizontal_all as (cs & h1 & wh1 & A1 & A2 & A3 & A4 & A5).
    destruct (vertical_all h1 wh1) as (rs & h2 & wv2 & B1 & B2 & B3 & B4 & B5); [exact A3| |].
    { intros i j Hi. pose proof lo_jt. rewrite A5 by lia. replace (inblk (incol + 1) _ _ _ i j) with false by (symmetry; apply inblk_false; lia). reflexivity. }
    assert (EH : forall i j, 1 <= i <= ld -> ent h2 i j =
      if inblk (incol + 1) (jb + 1) nu (hi - jb) i j then Some (Fin (top_right i j)) else
      if inblk lo (incol + 1) (jt - lo) nu i j then Some (Fin (top_left i j)) else ent (qH s0) i j).
    { intros i j Hi. rewrite B5, A5 by exact Hi. destruct (inblk lo _ _ _ i j) eqn:E1; [|reflexivity]. apply inblk_true in E1.
      replace (inblk (incol + 1) _ _ _ i j) with false by (symmetry; apply inblk_false; lia). reflexivity. }
    unfold q5_far, q5_kdu.
    replace (let '(jtop, jbot) := if wantt then (1, n) else (ktop, kbot) in _) with
      (cs <- range_step_i32 (jb + 1) hi nh ;; st <- for_M cs s0 (q5_horizontal ld ld ldu nh ldwh incol 1 nu hi) ;;
       rs <- range_step_i32 lo (jt - 1) nv ;; st <- for_M rs st (q5_vertical ktop ld ld ldu nv ldwv incol 1 nu) ;;
       if wantz then zs <- range_step_i32 iloz ihiz nv ;; for_M zs st (q5_zmul ihiz ld ldu nv ldwv incol 1 nu) else Ok st).
    2: { replace (incol + 4 * 1) with (incol + 4) by lia. replace (Z.max 1 (ktop - incol)) with 1 by lia. replace (4 * 1 - Z.max 0 (incol + 4 - kbot) - 1 + 1) with nu by lia. destruct wantt; reflexivity. }
    rewrite A1. cbn [bind]. rewrite A2. cbn [bind]. rewrite B1. cbn [bind]. rewrite B2. cbn [bind].
    pose proof (fun WZ => zmul_all h2 wh1 wv2 WZ B4) as ZA. destruct wantz.
    - destruct (ZA eq_refl) as (zs & z & wv3 & C1 & C2 & C3 & C4 & C5). rewrite C1. cbn [bind]. rewrite C2.
      eexists. split; [reflexivity|]. cbn [qH qZ qV qU qWv qWh qVt]. do 8 (split; [assumption || reflexivity|]). split; [discriminate|]. intros _. exact C5.
    - eexists. split; [reflexivity|]. cbn [qH qZ qV qU qWv qWh qVt]. do 8 (split; [assumption || reflexivity || apply same_shape_refl|]). split; [reflexivity|]. discriminate.
  Qed.
End Far.
