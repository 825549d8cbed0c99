(** dlaqr5: what holds for every number type. *)
From Coq Require Import Ascii.
From Verif Require Import Base Num Array Blas Lapack Dlaqr5 Spec Lists FaLemmas Blas1Proofs LarfgProofs LahqrProofs.

Section Laqr5.
  Context {F : Type} {NF : Num F}.
  Notation fa := (fa F).

  (** ** Shapes *)
  Lemma q5_right2_shape c a b d j (h : fa) : same_shape (q5_right2 c a b d j h) h.
  Proof. unfold q5_right2. shapes. Qed.
  Lemma q5_left2_shape c a b d j (h : fa) : same_shape (q5_left2 c a b d j h) h.
  Proof. unfold q5_left2. shapes. Qed.
  Lemma q5_right3_shape c a b d e g j (h : fa) : same_shape (q5_right3 c a b d e g j h) h.
  Proof. unfold q5_right3. shapes. Qed.
  Lemma q5_left3_shape c a b d e g j (h : fa) : same_shape (q5_left3 c a b d e g j h) h.
  Proof. unfold q5_left3. shapes. Qed.
  Lemma q5_vigilant_shape n ktop kbot k (h : fa) : same_shape (q5_vigilant n ktop kbot k h) h.
  Proof.
    unfold q5_vigilant. destruct (fne _ _); [|shapes]. destruct (fle _ _); [|shapes]. destruct (_ || _)%bool; shapes.
  Qed.

  Lemma tri_fill_shape u m n w (b : fa) : same_shape (tri_fill u m n w b) b.
  Proof.
    unfold tri_fill. destruct (_ =? _); [|destruct (_ =? _)]; (apply for_shape; intros; apply for_shape; intros; shapes).
  Qed.
  Lemma dlacpy_fa_shape u m n (a : fa) lda (b : fa) ldb : exists r, dlacpy u m n a lda b ldb = Ok r /\ same_shape r b.
  Proof. eexists. split; [reflexivity|apply tri_fill_shape]. Qed.
  Lemma dlaset_fa_shape u m n al be (a : fa) : exists r, dlaset u m n al be a = Ok r /\ same_shape r a.
  Proof.
    eexists. split; [reflexivity|]. unfold dlaset_fa. eapply same_shape_trans; [|apply tri_fill_shape].
    apply for_shape. intros. shapes.
  Qed.
  Lemma dgemm_scale_shape m be j (c : fa) : same_shape (dgemm_scale m be j c) c.
  Proof. unfold dgemm_scale. destruct (feq _ _); [|destruct (fne _ _)]; try apply for_shape; intros; shapes. Qed.
  Lemma dgemm_fa_shape na nb m n k al (a b : fa) be (c c' : fa) : dgemm_fa na nb m n k al a b be c = Some c' -> same_shape c' c.
  Proof.
    unfold dgemm_fa. destruct (_ || _)%bool; [discriminate|].
    assert (AX : forall bb, same_shape (dgemm_axpy m n k al be a bb c) c).
    { intros bb. apply for_shape. intros j d _. cbv zeta. eapply same_shape_trans; [|apply dgemm_scale_shape].
      apply for_shape. intros l e _. apply for_shape. intros i g _. shapes. }
    assert (DT : forall bb, same_shape (dgemm_dot m n k al be a bb c) c).
    { intros bb. apply for_shape. intros j d _. apply for_shape. intros i e _. cbv zeta. destruct (feq be f0); shapes. }
    destruct (feq al f0); [destruct (feq be f0)|destruct nb, na]; intros [= <-]; try apply AX; try apply DT;
      (apply for_shape; intros; apply for_shape; intros; shapes).
  Qed.
  Lemma dgemm_shape {A B} (TA : ToFA F A) (TB : ToFA F B) ta tb m n k al (a : A) lda (b : B) ldb be (c : fa) ldc c' :
    dgemm ta tb m n k al a lda b ldb be c ldc = Ok c' -> same_shape c' c.
  Proof.
    unfold dgemm. destruct (to_fa_2d a lda); [|discriminate..]. destruct (to_fa_2d b ldb); [|discriminate..]. cbn [bind to_fa_2d ToFA_fa].
    destruct (negb _); [discriminate|]. destruct (dgemm_fa _ _ _ _ _ _ _ _ _ _) eqn:E; cbn [from_fa FromFA_fa]; intros [= <-].
    - eapply dgemm_fa_shape; exact E.
    - apply same_shape_refl.
  Qed.

  (** a two-dimensional array of [ld] rows, as [to_fa_2d] makes them *)
  Definition dim2 (ld : Z) (f : fa) : Prop := rows f = ld /\ 1 <= ld /\ 1 <= cols f /\ count f = ld * cols f.
  Lemma dim2_full ld f : dim2 ld f -> full f.
  Proof.
    intros (E1 & L & C & N). unfold full, fa_len, fa_is_2d. rewrite E1. destruct (Z.ltb_spec 0 ld), (Z.ltb_spec 0 (cols f)); try lia. cbn. lia.
  Qed.
  Lemma dim2_shape ld f g : same_shape f g -> dim2 ld g -> dim2 ld f.
  Proof. unfold dim2. intros (E1 & E2 & E3) H. rewrite E1, E2, E3. exact H. Qed.
  Lemma as_2d_shape ld f (g : fa) : dim2 ld f -> count g = count f -> exists r, fa_as_2d g ld = Ok r /\ same_shape r f /\ data r = data g.
  Proof.
    intros (E1 & L & C & N) E. unfold fa_as_2d. destruct (Z.eqb_spec ld 0); [lia|]. eexists. split; [reflexivity|].
    split; [|reflexivity]. split; [symmetry; exact E1|]. split; [|exact E]. cbn [cols]. rewrite <- count_zlen, E, N.
    rewrite Z.mul_comm, Z.quot_mul by lia. reflexivity.
  Qed.

  (** the reflector of column 1 of V leaves V's shape *)
  Lemma v_reflect_shape n (al : F) ldv (v : fa) : dim2 ldv v -> 3 <= count v ->
    exists v' be, v_reflect n al 1 ldv v = Ok (v', be) /\ same_shape v' v.
  Proof.
    intros D C. unfold v_reflect. assert (FV := dim2_full _ _ D).
    destruct (from2_ok v 2 1 FV) as (l & E & L).
    assert (P1 : pos (rows v) 2 1 = 2) by (unfold pos; lia). rewrite P1 in L. unfold full in FV. rewrite FV in L. specialize (L ltac:(lia) ltac:(lia)).
    rewrite E. cbn [bind].
    destruct (dlarfg_total flat_vec n al l 1) as (be & l' & tau & -> & CL & _). cbn [bind].
    cbn [to_fa ToFA_vec] in CL. rewrite !count_zlen in CL. cbn [data fa_of_vec] in CL.
    unfold fa_insert. cbn [to_fa ToFA_vec]. unfold fa_len, fa_is_2d. cbn [rows cols fa_of_vec data].
    rewrite andb_false_r. destruct (Z.ltb_spec 1 (zlen l')); [|lia]. destruct (Z.ltb_spec (zlen l') (1 - 1)); [lia|]. cbn [andb Z.leb Z.compare Pos.compare Pos.compare_cont bind Z.sub Z.add Z.opp Z.pos_sub Z.to_nat firstn skipn app].
    match goal with |- context [fa_as_2d ?g ldv] => destruct (as_2d_shape ldv v g D) as (r & -> & S & _) end.
    { rewrite !count_zlen in *. cbn [data]. unfold zlen in *. cbn [length]. lia. }
    cbn [bind]. do 2 eexists. split; [reflexivity|exact S].
  Qed.
  Lemma dlaqr1_vec n (h : list F) ldh a b c d (v : list F) : ldh <> 0 -> exists v', dlaqr1 n h ldh a b c d v = Ok v' /\ zlen v' = zlen v.
  Proof.
    intros L. unfold dlaqr1. cbn [to_fa_2d ToFA_vec]. unfold fa_as_2d. destruct (Z.eqb_spec ldh 0); [lia|]. cbn [bind].
    destruct (_ && _)%bool; [eexists; split; reflexivity|].
    assert (G : forall w : fa, same_shape w (to_fa v) -> exists v', from_fa w = Ok v' /\ zlen v' = zlen v).
    { intros w (_ & _ & E). rewrite !count_zlen in E. eexists. split; [reflexivity|exact E]. }
    destruct (_ =? _); apply G; [unfold laqr1_2|unfold laqr1_3]; destruct (feq _ _); shapes.
  Qed.

  Section Params.
    Context (wantt wantz accum : bool) (n ktop kbot : Z) (sr si : fa)
            (ldh iloz ihiz ldz ldv ldu nv ldwv nh ldwh : Z).
    Context (h0 z0 v0 u0 wv0 wh0 : fa).
    Hypothesis (FH : full h0) (NLH : ldh <> 0) (DV : dim2 ldv v0) (CV : 3 <= count v0).

    Notation bulge22 := (q5_bulge22 wantt wantz accum n ktop kbot 1 sr si ldh iloz ihiz ldv).
    Notation bulge := (q5_bulge wantt accum n ktop kbot sr si ldh ldv).

    Definition hzv (st : q5st) : Prop := same_shape (qH st) h0 /\ same_shape (qZ st) z0 /\ same_shape (qV st) v0.
    Definition rest_ok (st : q5st) : Prop :=
      if accum then same_shape (qU st) u0 /\ same_shape (qWv st) wv0 /\ same_shape (qWh st) wh0
      else qU st = u0 /\ qWv st = wv0 /\ qWh st = wh0.
    Definition shapes_ok st := hzv st /\ rest_ok st.

    Lemma bulge22_ok incol krcol st : shapes_ok st -> exists st', bulge22 incol krcol 1 st = Ok st' /\ shapes_ok st'.
    Proof.
      intros ((SH & SZ & SV) & R). unfold q5_bulge22. cbv zeta.
      match goal with |- context [bind ?x _] => set (first := x) end.
      assert (E : exists h v, first = Ok (h, v) /\ same_shape h h0 /\ same_shape v v0).
      { unfold first. destruct (_ =? _).
        - destruct (from2_ok (qH st) (krcol + 2 * (1 - 1) + 1) (krcol + 2 * (1 - 1) + 1) (full_shape _ _ SH FH)) as (lh & -> & _).
          destruct (from2_ok (qV st) 1 1 (dim2_full _ _ (dim2_shape _ _ _ SV DV))) as (lv & -> & LV). cbn [bind].
          match goal with |- context [dlaqr1 2 lh ldh ?a ?b ?c ?d lv] => destruct (dlaqr1_vec 2 lh ldh a b c d lv NLH) as (lv' & -> & LL) end.
          cbn [bind to_fa_2d ToFA_vec].
          assert (DV' := dim2_shape _ _ _ SV DV).
          assert (P1 : pos (rows (qV st)) 1 1 = 1) by (unfold pos; lia). rewrite P1, (dim2_full _ _ DV') in LV.
          destruct SV as (SV1 & SV2 & SV3). specialize (LV ltac:(lia) ltac:(lia)).
          destruct (as_2d_shape ldv v0 (fa_of_vec lv') DV) as (v1 & -> & S1 & _); [rewrite count_zlen; cbn [data fa_of_vec]; lia|]. cbn [bind].
          destruct (v_reflect_shape 2 (get2 v1 1 1) ldv v1 (dim2_shape _ _ _ S1 DV)) as (v2 & be & -> & S2);
            [destruct S1 as (_ & _ & ->); exact CV|]. cbn [bind fst].
          do 2 eexists. split; [reflexivity|]. split; [exact SH|eapply same_shape_trans; eassumption].
        - match goal with |- context [v_reflect 2 ?a 1 ldv ?v] => destruct (v_reflect_shape 2 a ldv v) as (v2 & be & -> & S2) end.
          + eapply dim2_shape; [apply set2_shape|]. eapply dim2_shape; eassumption.
          + destruct (set2_shape (qV st) 2 1 (get2 (qH st) (krcol + 2 * (1 - 1) + 2) (krcol + 2 * (1 - 1)))) as (_ & _ & ->).
            destruct SV as (_ & _ & ->). exact CV.
          + cbn [bind]. do 2 eexists. split; [reflexivity|]. split; [eapply same_shape_trans; [|exact SH]; shapes|].
            eapply same_shape_trans; [exact S2|]. eapply same_shape_trans; [apply set2_shape|exact SV]. }
      destruct E as (h & v & -> & Sh & Sv). cbn [bind].
      match goal with |- context [mkQ5 ?hh _ _ _ _ _ _] => assert (SHH : same_shape hh h0) end.
      { destruct (_ <=? _).
        - eapply same_shape_trans; [apply q5_vigilant_shape|]. eapply same_shape_trans; [apply for_shape; intros; apply q5_left2_shape|].
          eapply same_shape_trans; [apply for_shape; intros; apply q5_right2_shape|]. exact Sh.
        - eapply same_shape_trans; [apply for_shape; intros; apply q5_left2_shape|].
          eapply same_shape_trans; [apply for_shape; intros; apply q5_right2_shape|]. exact Sh. }
      unfold shapes_ok, hzv, rest_ok in *. destruct accum; [|destruct wantz]; (eexists; split; [reflexivity|]); cbn [qH qZ qV qU qWv qWh].
      - split; [auto|]. split; [|apply R]. eapply same_shape_trans; [apply for_shape; intros; apply q5_right2_shape|apply R].
      - split; [|exact R]. split; [exact SHH|]. split; [|exact Sv]. eapply same_shape_trans; [apply for_shape; intros; apply q5_right2_shape|exact SZ].
      - auto.
    Qed.

    Lemma chase_ok k (h v vt : fa) : same_shape h h0 -> same_shape v v0 ->
      exists h' v' vt', q5_chase ktop sr si ldh ldv k 1 h v vt = Ok (h', v', vt') /\ same_shape h' h0 /\ same_shape v' v0.
    Proof.
      intros SH SV. unfold q5_chase. destruct (_ =? _).
      - destruct (from2_ok h ktop ktop (full_shape _ _ SH FH)) as (lh & -> & _).
        destruct (from2_ok v 1 1 (dim2_full _ _ (dim2_shape _ _ _ SV DV))) as (lv & -> & LV). cbn [bind].
        match goal with |- context [dlaqr1 3 lh ldh ?a ?b ?c ?d lv] => destruct (dlaqr1_vec 3 lh ldh a b c d lv NLH) as (lv' & -> & LL) end.
        cbn [bind to_fa_2d ToFA_vec]. assert (DV' := dim2_shape _ _ _ SV DV).
        assert (P1 : pos (rows v) 1 1 = 1) by (unfold pos; lia). rewrite P1, (dim2_full _ _ DV') in LV.
        destruct SV as (SV1 & SV2 & SV3). specialize (LV ltac:(lia) ltac:(lia)).
        destruct (as_2d_shape ldv v0 (fa_of_vec lv') DV) as (v1 & -> & S1 & _); [rewrite count_zlen; cbn [data fa_of_vec]; lia|]. cbn [bind].
        destruct (v_reflect_shape 3 (get2 v1 1 1) ldv v1 (dim2_shape _ _ _ S1 DV)) as (v2 & be & -> & S2);
          [destruct S1 as (_ & _ & ->); exact CV|]. cbn [bind fst].
        do 3 eexists. split; [reflexivity|]. split; [exact SH|eapply same_shape_trans; eassumption].
      - match goal with |- context [v_reflect 3 ?a 1 ldv ?w] => set (al := a); set (w0 := w) end.
        assert (SW : same_shape w0 v0) by (unfold w0; eapply same_shape_trans; [|exact SV]; shapes).
        destruct (v_reflect_shape 3 al ldv w0 (dim2_shape _ _ _ SW DV)) as (v2 & be & -> & S2); [destruct SW as (_ & _ & ->); exact CV|].
        cbn [bind]. clearbody w0 al. assert (S3 : same_shape v2 v0) by (eapply same_shape_trans; eassumption).
        destruct (_ || _)%bool.
        { do 3 eexists. split; [reflexivity|]. split; [eapply same_shape_trans; [|exact SH]; shapes|exact S3]. }
        unfold q5_collapsed.
        match goal with |- context [from2 ?hh (k + 1) (k + 1)] => assert (SHH : same_shape hh h0) by (eapply same_shape_trans; [|exact SH]; shapes); set (h1 := hh) in * end.
        clearbody h1. destruct (from2_ok h1 (k + 1) (k + 1) (full_shape _ _ SHH FH)) as (lh & -> & _). cbn [bind].
        assert (EV : forall a b c d, exists vt1 : fa, dlaqr1 3 lh ldh a b c d vt = Ok vt1).
        { intros. unfold dlaqr1. cbn [to_fa_2d ToFA_vec]. unfold fa_as_2d. destruct (Z.eqb_spec ldh 0); [lia|]. cbn [bind negb Z.eqb Pos.eqb andb]. eexists. reflexivity. }
        match goal with |- context [dlaqr1 3 lh ldh ?a ?b ?c ?d vt] => destruct (EV a b c d) as (vt1 & ->) end. cbn [bind].
        destruct (dlarfg_total flat_vec 3 (get1 vt1 1) [get1 vt1 2] 1) as (be' & l' & tau & -> & CL & _). cbn [bind].
        cbn [to_fa ToFA_vec] in CL. rewrite !count_zlen in CL. cbn [data fa_of_vec] in CL. change (zlen [get1 vt1 2]) with 1 in CL.
        assert (EI : fa_insert (to_fa l') 1 tau = Ok (to_fa l')).
        { unfold fa_insert. cbn [to_fa ToFA_vec]. unfold fa_len, fa_is_2d. cbn [rows cols fa_of_vec data]. rewrite andb_false_r, CL. reflexivity. }
        rewrite EI. cbn [bind]. destruct (flt _ _); (do 3 eexists; split; [reflexivity|]);
          (split; [eapply same_shape_trans; [|exact SHH]; shapes|eapply same_shape_trans; [|exact S3]; shapes]).
    Qed.

    Lemma bulge_ok incol krcol st : shapes_ok st -> exists st', bulge incol krcol 1 st = Ok st' /\ shapes_ok st'.
    Proof.
      intros ((SH & SZ & SV) & R). unfold q5_bulge.
      destruct (chase_ok (krcol + 2 * (1 - 1)) (qH st) (qV st) (qVt st) SH SV) as (h & v & vt & -> & Sh & Sv). cbn [bind].
      eexists. split; [reflexivity|]. split; [|exact R]. split; [|split; [exact SZ|exact Sv]]. cbn [qH].
      destruct (_ <? _); [|eapply same_shape_trans; [apply q5_vigilant_shape|]];
        (eapply same_shape_trans; [apply q5_left3_shape|]; eapply same_shape_trans; [apply for_shape; intros; apply q5_right3_shape|]; exact Sh).
    Qed.

    (** with one bulge only column 1 of V is used *)
    Lemma krcol_ok incol krcol st : ktop - 1 <= krcol <= kbot - 2 -> shapes_ok st ->
      exists st', q5_krcol wantt wantz accum n ktop kbot 1 sr si ldh iloz ihiz ldv incol krcol st = Ok st' /\ shapes_ok st'.
    Proof.
      intros Hk S. unfold q5_krcol. cbv zeta.
      assert (MT : Z.max 1 (Z.quot (ktop - krcol) 2 + 1) = 1).
      { destruct (Z.eq_dec krcol (ktop - 1)) as [->|]; [replace (ktop - (ktop - 1)) with 1 by lia; reflexivity|].
        pose proof (Z.quot_opp_l (krcol - ktop) 2 ltac:(lia)) as Q. replace (- (krcol - ktop)) with (ktop - krcol) in Q by lia.
        pose proof (Z.quot_pos (krcol - ktop) 2 ltac:(lia) ltac:(lia)). lia. }
      rewrite MT.
      assert (MB : Z.min 1 (Z.quot (kbot - krcol - 1) 2) = 0 \/ Z.min 1 (Z.quot (kbot - krcol - 1) 2) = 1).
      { pose proof (Z.quot_pos (kbot - krcol - 1) 2 ltac:(lia) ltac:(lia)). lia. }
      set (mbot := Z.min _ _) in *. clearbody mbot.
      match goal with |- context [bind ?x _] => assert (E1 : exists st1, x = Ok st1 /\ shapes_ok st1) end.
      { destruct (_ && _)%bool eqn:E; [|exists st; auto]. apply andb_prop in E as [E _]. apply Z.ltb_lt in E.
        assert (mbot = 0) by lia. subst mbot. apply bulge22_ok. exact S. }
      destruct E1 as (st1 & -> & S1). cbn [bind].
      match goal with |- context [bind ?x _] => assert (E2 : exists st2, x = Ok st2 /\ shapes_ok st2) end.
      { destruct MB as [-> | ->]; [rewrite range_rev_nil by lia; exists st1; auto|]. rewrite range_rev_cons, range_rev_nil by lia.
        cbn [for_M]. destruct (bulge_ok incol krcol st1 S1) as (st2 & -> & S2). exists st2. auto. }
      destruct E2 as (st2 & -> & (SH & SZ & SV) & R). cbn [bind].
      assert (SL : same_shape (q5_left_all ktop krcol 1 mbot (q5_jbot wantt accum n kbot (incol + q5_kdu 1)) (qV st2) (qH st2)) h0).
      { eapply same_shape_trans; [|exact SH]. apply for_shape. intros. cbv zeta. apply for_shape. intros. apply q5_left3_shape. }
      unfold shapes_ok, hzv, rest_ok in *. destruct accum; [|destruct wantz]; (eexists; split; [reflexivity|]); cbn [qH qZ qV qU qWv qWh].
      - split; [auto|]. split; [|apply R]. eapply same_shape_trans; [|apply R]. apply for_shape. intros. cbv zeta. apply for_shape. intros. apply q5_right3_shape.
      - split; [|exact R]. split; [exact SL|]. split; [|exact SV]. eapply same_shape_trans; [|exact SZ].
        apply for_shape. intros. cbv zeta. apply for_shape. intros. apply q5_right3_shape.
      - auto.
    Qed.

    Lemma paste_shape (f w f' : fa) r0 c0 mm nn ldw ldf : dim2 ldz f -> q5_paste ldz f w r0 c0 mm nn ldw ldf = Ok f' -> same_shape f' f.
    Proof.
      intros D. unfold q5_paste. destruct (from1_ok f (fa_idx f r0 c0) (dim2_full _ _ D)) as (t & E & L).
      change (from2 f r0 c0) with (from1 f (fa_idx f r0 c0)). rewrite E. cbn [bind to_fa_2d ToFA_vec].
      unfold fa_as_2d at 1. destruct (ldf =? 0); [discriminate|]. cbn [bind]. destruct (dlacpy_fa_shape (chr "A") mm nn w ldw
        {| data := data (fa_of_vec t); rows := ldf; cols := zlen (data (fa_of_vec t)) ÷ ldf; dflt := dflt (fa_of_vec t) |} ldf) as (tmp & -> & (_ & _ & CT)).
      cbn [bind]. unfold slice_to. destruct (Z.ltb_spec (fa_idx f r0 c0 - 1) 0); [discriminate|].
      destruct (Z.ltb_spec (zlen (data f)) (fa_idx f r0 c0 - 1)); [discriminate|]. cbn [orb bind].
      match goal with |- fa_as_2d ?g ldz = _ -> _ => destruct (as_2d_shape ldz f g D) as (r & -> & S & _) end; [|intros [= <-]; exact S].
      rewrite !count_zlen in *. cbn [data fa_of_vec] in *. rewrite zlen_app, zlen_firstn by lia. rewrite CT.
      assert (FL := dim2_full _ _ D). unfold full in FL. rewrite count_zlen in FL. rewrite FL in L.
      destruct (Z_le_gt_dec (fa_idx f r0 c0) (zlen (data f))).
      - destruct (L ltac:(lia) ltac:(lia)) as [-> _]. lia.
      - revert E. unfold from1. destruct (Z.leb_spec (fa_idx f r0 c0) (fa_len f)); [lia|]. rewrite andb_false_r. intros [= <-]. cbn. lia.
    Qed.

    Lemma far_shapes incol st st' : (accum = true -> dim2 ldz h0 /\ (wantz = true -> dim2 ldz z0)) -> shapes_ok st ->
      q5_far wantt wantz accum n ktop kbot 1 ldh iloz ihiz ldz ldu nv ldwv nh ldwh incol st = Ok st' -> shapes_ok st'.
    Proof.
      unfold shapes_ok, hzv, rest_ok, q5_far. destruct accum; [|intros _ S [= <-]; exact S]. intros D S. destruct (D eq_refl) as [DH DZ].
      destruct (if wantt then (1, n) else (ktop, kbot)) as [jtop jbot].
      destruct (range_step_i32 _ _ nh) as [cs| | |]; try discriminate. cbn [bind].
      destruct (for_M cs st _) as [st1| | |] eqn:E1; try discriminate. cbn [bind].
      assert (S1 : (same_shape (qH st1) h0 /\ same_shape (qZ st1) z0 /\ same_shape (qV st1) v0) /\
        same_shape (qU st1) u0 /\ same_shape (qWv st1) wv0 /\ same_shape (qWh st1) wh0).
      { revert E1. apply (for_M_inv (fun st => (same_shape (qH st) h0 /\ same_shape (qZ st) z0 /\ same_shape (qV st) v0) /\
          same_shape (qU st) u0 /\ same_shape (qWv st) wv0 /\ same_shape (qWh st) wh0)); [exact S|].
        intros i s s' _ ((SH & SZ & SV) & SU & SWv & SWh). unfold q5_horizontal.
        destruct (from2 (qU s) _ _) as [ut| | |]; try discriminate. destruct (from2 (qH s) _ _) as [ht| | |]; try discriminate. cbn [bind].
        destruct (dgemm _ _ _ _ _ _ _ _ _ _ _ _ _) as [wh| | |] eqn:EG; try discriminate. cbn [bind]. apply dgemm_shape in EG.
        destruct (q5_paste _ _ _ _ _ _ _ _ _) as [h| | |] eqn:EP; try discriminate. cbn [bind]. apply paste_shape in EP; [|eapply dim2_shape; eassumption].
        intros [= <-]. cbn [qH qZ qV qU qWv qWh]. split; [split; [eapply same_shape_trans; eassumption|auto]|].
        split; [exact SU|]. split; [exact SWv|]. eapply same_shape_trans; eassumption. }
      clear S E1. destruct (range_step_i32 _ _ nv) as [rs| | |]; try discriminate. cbn [bind].
      destruct (for_M rs st1 _) as [st2| | |] eqn:E2; try discriminate. cbn [bind].
      assert (S2 : (same_shape (qH st2) h0 /\ same_shape (qZ st2) z0 /\ same_shape (qV st2) v0) /\
        same_shape (qU st2) u0 /\ same_shape (qWv st2) wv0 /\ same_shape (qWh st2) wh0).
      { revert E2. apply (for_M_inv (fun st => (same_shape (qH st) h0 /\ same_shape (qZ st) z0 /\ same_shape (qV st) v0) /\
          same_shape (qU st) u0 /\ same_shape (qWv st) wv0 /\ same_shape (qWh st) wh0)); [exact S1|].
        intros i s s' _ ((SH & SZ & SV) & SU & SWv & SWh). unfold q5_vertical.
        destruct (from2 (qH s) _ _) as [ht| | |]; try discriminate. destruct (from2 (qU s) _ _) as [ut| | |]; try discriminate. cbn [bind].
        destruct (dgemm _ _ _ _ _ _ _ _ _ _ _ _ _) as [wv| | |] eqn:EG; try discriminate. cbn [bind]. apply dgemm_shape in EG.
        destruct (q5_paste _ _ _ _ _ _ _ _ _) as [h| | |] eqn:EP; try discriminate. cbn [bind]. apply paste_shape in EP; [|eapply dim2_shape; eassumption].
        intros [= <-]. cbn [qH qZ qV qU qWv qWh]. split; [split; [eapply same_shape_trans; eassumption|auto]|].
        split; [exact SU|]. split; [eapply same_shape_trans; eassumption|exact SWh]. }
      clear S1 E2. destruct wantz; [|intros [= <-]; exact S2]. specialize (DZ eq_refl).
      destruct (range_step_i32 _ _ nv) as [zs| | |]; try discriminate. cbn [bind].
      apply (for_M_inv (fun st => (same_shape (qH st) h0 /\ same_shape (qZ st) z0 /\ same_shape (qV st) v0) /\
          same_shape (qU st) u0 /\ same_shape (qWv st) wv0 /\ same_shape (qWh st) wh0)); [exact S2|].
      intros i s s' _ ((SH & SZ & SV) & SU & SWv & SWh). unfold q5_zmul.
      destruct (from2 (qZ s) _ _) as [ht| | |]; try discriminate. destruct (from2 (qU s) _ _) as [ut| | |]; try discriminate. cbn [bind].
      destruct (dgemm _ _ _ _ _ _ _ _ _ _ _ _ _) as [wv| | |] eqn:EG; try discriminate. cbn [bind]. apply dgemm_shape in EG.
      destruct (q5_paste _ _ _ _ _ _ _ _ _) as [h| | |] eqn:EP; try discriminate. cbn [bind]. apply paste_shape in EP; [|eapply dim2_shape; eassumption].
      intros [= <-]. cbn [qH qZ qV qU qWv qWh]. split; [split; [exact SH|split; [eapply same_shape_trans; eassumption|exact SV]]|].
      split; [exact SU|]. split; [eapply same_shape_trans; eassumption|exact SWh].
    Qed.

    Notation incol_ := (q5_incol wantt wantz accum n ktop kbot 1 sr si ldh iloz ihiz ldz ldv ldu nv ldwv nh ldwh).
    Notation main_ := (q5_main wantt wantz accum n ktop kbot 1 sr si ldh iloz ihiz ldz ldv ldu nv ldwv nh ldwh).
    Lemma krcols_ok incol st : ktop - 1 <= incol -> shapes_ok st ->
      exists st', for_M (range incol (Z.min (incol + 2 * 1 - 1) (kbot - 2))) st
        (q5_krcol wantt wantz accum n ktop kbot 1 sr si ldh iloz ihiz ldv incol) = Ok st' /\ shapes_ok st'.
    Proof.
      intros Hi S. apply (for_M_ok shapes_ok); [exact S|]. intros k s Hin Hs. apply in_range in Hin. apply krcol_ok; [lia|exact Hs].
    Qed.
    Lemma incol_total incol st : accum = false -> ktop - 1 <= incol -> shapes_ok st -> exists st', incol_ incol st = Ok st' /\ shapes_ok st'.
    Proof.
      intros A Hi S. unfold q5_incol. destruct (krcols_ok incol st Hi S) as (st' & E & S'). revert E. unfold q5_far. rewrite A. cbn [bind].
      destruct st as [a1 a2 a3 a4 a5 a6 a7]; cbn [qH qZ qV qU qWv qWh qVt]. intros ->. cbn [bind]. exists st'. auto.
    Qed.
    Lemma incol_shapes incol st st' : (accum = true -> dim2 ldz h0 /\ (wantz = true -> dim2 ldz z0)) -> ktop - 1 <= incol -> shapes_ok st ->
      incol_ incol st = Ok st' -> shapes_ok st'.
    Proof.
      intros D Hi S. unfold q5_incol.
      match goal with |- context [bind ?x _] => assert (E : exists u, x = Ok u /\ shapes_ok (mkQ5 (qH st) (qZ st) (qV st) u (qWv st) (qWh st) (qVt st))) end.
      { unfold shapes_ok, hzv, rest_ok in *. destruct accum; [|eexists; split; [reflexivity|exact S]].
        destruct (dlaset_fa_shape (chr "A") (q5_kdu 1) (q5_kdu 1) f0 f1 (qU st)) as (u & -> & SU). exists u. split; [reflexivity|].
        cbn [qH qZ qV qU qWv qWh]. split; [apply S|]. split; [|apply S]. eapply same_shape_trans; [exact SU|apply S]. }
      destruct E as (u & -> & S1). cbn [bind]. destruct (krcols_ok incol _ Hi S1) as (st2 & -> & S2). cbn [bind].
      apply far_shapes; assumption.
    Qed.
    Lemma main_start st : hzv st -> same_shape (if ktop + 2 <=? kbot then set2 (qH st) (ktop + 2) ktop f0 else qH st) h0.
    Proof. intros (SH & _). destruct (_ <=? _); [eapply same_shape_trans; [apply set2_shape|]|]; exact SH. Qed.
    Lemma in_range_step x lo hi sp : In x (range_step lo hi sp) -> 1 <= sp -> lo <= x.
    Proof. unfold range_step. destruct (Z.ltb_spec hi lo); [contradiction|]. intros Hi Hs. apply in_zup in Hi as (k & Hk & ->). nia. Qed.
    Lemma main_total st : accum = false -> shapes_ok st -> exists st', main_ st = Ok st' /\ shapes_ok st'.
    Proof.
      intros A (S & R). unfold q5_main. apply (for_M_ok shapes_ok).
      - split; [|exact R]. split; [apply main_start; exact S|]. split; apply S.
      - intros i s Hin Hs. apply in_range_step in Hin; [|lia]. apply incol_total; [exact A|lia|exact Hs].
    Qed.
    Lemma main_shapes st st' : (accum = true -> dim2 ldz h0 /\ (wantz = true -> dim2 ldz z0)) -> shapes_ok st -> main_ st = Ok st' -> shapes_ok st'.
    Proof.
      intros D (S & R). unfold q5_main. apply (for_M_inv shapes_ok).
      - split; [|exact R]. split; [apply main_start; exact S|]. split; apply S.
      - intros i s s' Hin Hs. apply in_range_step in Hin; [|lia]. apply incol_shapes; [exact D|lia|exact Hs].
    Qed.
  End Params.
End Laqr5.
