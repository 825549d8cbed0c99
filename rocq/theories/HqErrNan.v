(** dlahqr in binary64: a NaN on the diagonal of the active range stays there. *)
From Coq Require Import ZArith Lia Bool List.
From Flocq Require Import IEEE754.BinarySingleNaN Core.
From Verif Require Import Base Num Array Blas Lapack Dlahqr Spec B64 B64Lemmas Lists FaLemmas Nrm2Proofs Nrm2F64 Blas1Proofs LarfgProofs LahqrProofs LahqrStuck LahqrTop HqIter HqRotRows HqGet HqReflGen HqErrStart.
Import ListNotations.
Open Scope Z_scope.

Section Nan.
  Context (lm : libm) (LM : libm_ok lm).
  #[local] Instance NBna : Num b64 := B64 lm.
  Notation nan := (B754_nan : b64).

  Lemma sub_nan_l (x : b64) : fsub nan x = nan. Proof. destruct x; reflexivity. Qed.
  Lemma sub_nan_r (x : b64) : fsub x nan = nan. Proof. destruct x; reflexivity. Qed.
  Lemma add_nan_l (x : b64) : fadd nan x = nan. Proof. destruct x; reflexivity. Qed.
  Lemma add_nan_r (x : b64) : fadd x nan = nan. Proof. destruct x; reflexivity. Qed.
  Lemma mul_nan_l (x : b64) : fmul nan x = nan. Proof. destruct x; reflexivity. Qed.
  Lemma mul_nan_r (x : b64) : fmul x nan = nan. Proof. destruct x; reflexivity. Qed.
  Lemma div_nan_l (x : b64) : fdiv nan x = nan. Proof. destruct x; reflexivity. Qed.
  Lemma opp_nan : fneg nan = nan. Proof. reflexivity. Qed.
  Lemma abs_nan : fabs nan = nan. Proof. reflexivity. Qed.
  Lemma lt_nan_l (x : b64) : flt nan x = false. Proof. destruct x; reflexivity. Qed.
  Lemma le_nan_r (x : b64) : fle x nan = false. Proof. destruct x; reflexivity. Qed.
  Ltac nanz := repeat progress rewrite ?sub_nan_l, ?sub_nan_r, ?add_nan_l, ?add_nan_r, ?mul_nan_l, ?mul_nan_r, ?div_nan_l, ?opp_nan, ?abs_nan.

  Context (n : Z).

  Section Keep.
    Context (k : Z) (v2 v3 t1 t2 t3 : b64) (h : fa b64) (p : Z) (HP : get2 h p p = nan).
    Lemma lval3_nan : lval3 k v2 v3 t1 t2 t3 h p p = nan.
    Proof. unfold lval3, vrefl3, pick3. repeat match goal with |- context [p =? ?q] => destruct (Z.eqb_spec p q); subst end; rewrite ?HP; nanz; reflexivity. Qed.
    Lemma rval3_nan : rval3 k v2 v3 t1 t2 t3 h p p = nan.
    Proof. unfold rval3, vrefl3, pick3. repeat match goal with |- context [p =? ?q] => destruct (Z.eqb_spec p q); subst end; rewrite ?HP; nanz; reflexivity. Qed.
    Lemma lval2_nan : lval2 k v2 t1 t2 h p p = nan.
    Proof. unfold lval2, vrefl2, pick2. repeat match goal with |- context [p =? ?q] => destruct (Z.eqb_spec p q); subst end; rewrite ?HP; nanz; reflexivity. Qed.
    Lemma rval2_nan : rval2 k v2 t1 t2 h p p = nan.
    Proof. unfold rval2, vrefl2, pick2. repeat match goal with |- context [p =? ?q] => destruct (Z.eqb_spec p q); subst end; rewrite ?HP; nanz; reflexivity. Qed.
  End Keep.

  (** the part of a step after the reflector was computed *)
  Section Step.
    Context (wantz : bool) (iloz ihiz l m i : Z).
    Hypothesis (Hl : 1 <= l) (Hi : i <= n).
    Definition col_store (h v : fa b64) (t1 : b64) (k : Z) : fa b64 :=
      if m <? k then
        let h := set2 h k (k - 1) (get1 v 1) in
        let h := set2 h (k + 1) (k - 1) f0 in
        if k <? i - 1 then set2 h (k + 2) (k - 1) f0 else h
      else if l <? m then mod2 h k (k - 1) (fun x => fmul x (fsub f1 t1))
      else h.
    Lemma col_store_big h v t1 k : big n h -> big n (col_store h v t1 k).
    Proof.
      intros HB. unfold col_store. destruct (m <? k); [destruct (k <? i - 1)|destruct (l <? m)]; cbv zeta; try assumption; repeat apply set2_big; try assumption.
      eapply big_shape; [apply mod2_shape|exact HB].
    Qed.
    Lemma col_store_diag h v t1 k p : big n h -> l <= m <= k -> k < i -> 1 <= p <= n -> get2 (col_store h v t1 k) p p = get2 h p p.
    Proof.
      intros HB Hm Hk Hp. unfold col_store. cbv zeta.
      assert (X : forall g q x, big n g -> 1 <= q <= n -> 2 <= k -> q <> k - 1 -> get2 (set2 g q (k - 1) x) p p = get2 g p p).
      { intros g q x Hg Hq Hk2 Hne. rewrite (set2_get n) by (try assumption; lia). destruct (Z.eqb_spec p q), (Z.eqb_spec p (k - 1)); cbn [andb]; try reflexivity; lia. }
      destruct (Z.ltb_spec m k).
      - destruct (Z.ltb_spec k (i - 1)); rewrite ?X by (try lia; repeat apply set2_big; assumption); reflexivity.
      - destruct (Z.ltb_spec l m); [|reflexivity]. rewrite (mod2_get n) by (try assumption; lia).
        destruct (Z.eqb_spec p k), (Z.eqb_spec p (k - 1)); cbn [andb]; try reflexivity; lia.
    Qed.
    (** a NaN diagonal entry after the column was stored, or a NaN tau *)
    Lemma step_nan h z v t1 k st' p : big n h -> l <= m <= k -> k < i -> 1 <= p <= n ->
      hq_step wantz iloz ihiz l i l m i k (h, z, v, t1) = Ok st' ->
      (get2 h p p = nan \/ (p = k /\ exists v', hq_reflector h v t1 m i k = Ok (v', nan))) ->
      get2 (fst (fst (fst st'))) p p = nan.
    Proof.
      intros HB Hm Hk Hp E HN. unfold hq_step in E. cbv zeta in E.
      destruct (hq_reflector h v t1 m i k) as [[v' t]| | |] eqn:ER; cbn [bind] in E; try discriminate.
      fold (col_store h v' t k) in E. pose proof (col_store_big h v' t k HB) as HB1. pose proof (col_store_diag h v' t k p HB Hm Hk Hp) as HD.
      set (h1 := col_store h v' t k) in *. clearbody h1. rewrite <- HD in HN.
      assert (HN' : get2 h1 p p = nan \/ (p = k /\ t = nan)).
      { destruct HN as [HN|(-> & v'' & E2)]; [left; exact HN|right]. split; [reflexivity|congruence]. }
      clear HN HD ER. revert E. destruct (Z.eqb_spec (Z.min 3 (i - k + 1)) 3) as [E3|E3].
      - intros [= <-]. cbn [fst].
        assert (B2 : big n (for_ (range k i) h1 (left3 k (get1 v' 2) (get1 v' 3) t (fmul t (get1 v' 2)) (fmul t (get1 v' 3))))).
        { eapply big_shape; [|exact HB1]. apply for_shape. intros; apply left3_shape. }
        assert (X : get2 (for_ (range k i) h1 (left3 k (get1 v' 2) (get1 v' 3) t (fmul t (get1 v' 2)) (fmul t (get1 v' 3)))) p p = nan).
        { rewrite (left3_loop_get n) by (try assumption; lia). destruct HN' as [HN'|(-> & ->)].
          - destruct (inside k i p); [apply lval3_nan; exact HN'|exact HN'].
          - unfold inside. destruct (Z.leb_spec k k); [|lia]. destruct (Z.leb_spec k i); [|lia]. cbn [andb]. unfold lval3, vrefl3, pick3. rewrite Z.eqb_refl. nanz. reflexivity. }
        rewrite (right3_loop_get n) by (try assumption; lia). destruct (inside _ _ _); [apply rval3_nan; exact X|exact X].
      - destruct (Z.eqb_spec (Z.min 3 (i - k + 1)) 2) as [E2|E2]; [|lia].
        intros [= <-]. cbn [fst].
        assert (B2 : big n (for_ (range k i) h1 (left2 k (get1 v' 2) t (fmul t (get1 v' 2))))).
        { eapply big_shape; [|exact HB1]. apply for_shape. intros; apply left2_shape. }
        assert (X : get2 (for_ (range k i) h1 (left2 k (get1 v' 2) t (fmul t (get1 v' 2)))) p p = nan).
        { rewrite (left2_loop_get n) by (try assumption; lia). destruct HN' as [HN'|(-> & ->)].
          - destruct (inside k i p); [apply lval2_nan; exact HN'|exact HN'].
          - unfold inside. destruct (Z.leb_spec k k); [|lia]. destruct (Z.leb_spec k i); [|lia]. cbn [andb]. unfold lval2, vrefl2, pick2. rewrite Z.eqb_refl. nanz. reflexivity. }
        rewrite (right2_loop_get n) by (try assumption; lia). destruct (inside _ _ _); [apply rval2_nan; exact X|exact X].
    Qed.
  End Step.

  (** a reflector computed from a NaN has a NaN tau *)
  Lemma larfg_nan a x2 x3 beta x' tau : a = nan -> x2 = nan -> dlarfg 3 a (to_fa [x2; x3]) 1 = Ok (beta, x', tau) -> tau = nan.
  Proof.
    intros -> -> E. unfold dlarfg in E. change (3 <=? 1) with false in E. cbv iota zeta in E.
    assert (XN : dnrm2 (3 - 1) (to_fa [nan; x3]) 1 = nan).
    { apply is_nan_eq'. apply (dnrm2_nan lm LM 2 (to_fa [nan; x3]) 1 0); [lia|]. reflexivity. }
    rewrite XN in E. change (feq nan f0) with false in E. cbv iota in E.
    assert (BN : larfg_beta nan nan = nan) by (unfold larfg_beta; change (fsignum nan) with nan; nanz; reflexivity).
    rewrite BN in E. rewrite abs_nan, lt_nan_l in E. cbn [bind] in E. revert E. nanz. destruct (dscal _ _ _ _) as [y| | |]; cbn [bind]; try discriminate.
    intros [= _ _ <-]. reflexivity.
  Qed.

  (** dlanv2 on a block with a NaN on its diagonal *)
  Lemma loop_temp_nan c : forall sigma : b64, exists s, nv_loop c sigma nan = (s, nan).
  Proof.
    induction c as [|c IH]; intros sigma; cbn [nv_loop]; nanz.
    - destruct (fle _ _); destruct (fle _ _); eexists; reflexivity.
    - destruct (fle _ _); [apply IH|]. destruct (fle _ _); [apply IH|]. eexists; reflexivity.
  Qed.
  Lemma lanv_nan (a b c d : b64) : a = nan \/ d = nan -> nA (dlanv2 a b c d) = nan \/ nD (dlanv2 a b c d) = nan.
  Proof.
    intros H. assert (HS : fsub a d = nan) by (destruct H as [-> | ->]; nanz; reflexivity).
    assert (G : let '(a', _, _, d', _, _) := nv_main a b c d in a' = nan \/ d' = nan).
    { unfold nv_main. destruct (feq c f0); [exact H|]. destruct (feq b f0); [tauto|]. rewrite HS, abs_nan, lt_nan_l. cbn [andb].
      assert (HZ : nv_z a b c d = nan) by (unfold nv_z, nv_p; rewrite HS; nanz; reflexivity). rewrite HZ.
      rewrite le_nan_r.
      destruct (loop_temp_nan 20 (fadd b c)) as (s & ->). unfold nv_equalise. nanz. left. unfold nv_offdiag.
      repeat match goal with |- context [feq ?x ?y] => destruct (feq x y) end; cbn [negb]; nanz; reflexivity. }
    unfold dlanv2. destruct (nv_main a b c d) as [[[[[a' b'] c'] d'] cs] sn]. destruct (feq c' f0); exact G.
  Qed.

  (** the rotation of the rows leaves the columns up to i alone *)
  Lemma rot_rows_frame (f : fa b64) i c s : full f -> big n f -> 2 <= i <= n ->
    exists f', hq_rot_rows n (rows f) i c s f = Ok f' /\ same_shape f' f /\
      forall a b, 1 <= a <= n -> 1 <= b <= n -> b <= i \/ a < i - 1 \/ i < a -> get2 f' a b = get2 f a b.
  Proof.
    intros FF HB Hi. destruct (Z.eq_dec i n) as [->|Ni].
    { exists f. unfold hq_rot_rows. rewrite Z.ltb_irrefl. split; [reflexivity|]. split; [apply same_shape_refl|]. reflexivity. }
    destruct (hq_rot_rows_spec n f i c s FF) as (f' & E & Sh & R1 & R2 & R3); [lia|apply HB|apply HB|]. exists f'. split; [exact E|]. split; [exact Sh|].
    intros a b Ha Hb Hab. rewrite !get2_ent. unfold ent. rewrite (proj1 Sh). rewrite R3.
    - pose proof (big_pos n f a b HB Ha Hb) as P. destruct (proj2 (elem_Some f _) P) as (y & ->). reflexivity.
    - destruct HB. intros X; apply pos_inj in X; lia.
    - destruct HB. intros p Hp X; apply pos_inj in X; lia.
  Qed.

  Section Turn.
    Context (wantz : bool) (ilo ihi iloz ihiz : Z).
    Hypothesis (Hlo : 1 <= ilo) (Hhi : ihi <= n).
    Context (h0 wr0 wi0 z0 : fa b64).
    Hypothesis (FH : full h0) (HB : big n h0).
    Notation iter := (hq_iter true wantz ilo ihi iloz ihiz).
    Notation oks := (hq_ok wantz ilo ihi h0 wr0 wi0 z0).

    (** a NaN on the diagonal of rows ilo..=ihi *)
    Definition poisoned (h : fa b64) : Prop := exists p, ilo <= p <= ihi /\ get2 h p p = nan.

    Lemma sweep_nan l m i h z v t1 r : same_shape h h0 -> three v -> ilo <= l <= m -> m <= i - 2 -> i <= ihi ->
      for_M (range m (i - 1)) (h, z, v, t1) (hq_step wantz iloz ihiz l i l m i) = Ok r ->
      (poisoned h \/ (m = l /\ v3s v nan nan nan)) -> poisoned (fst (fst (fst r))).
    Proof.
      intros SH TV Hl Hm Hi E HP.
      assert (K : forall ks st p, (forall k, In k ks -> m <= k < i) -> same_shape (fst (fst (fst st))) h0 -> three (snd (fst st)) -> ilo <= p <= ihi -> get2 (fst (fst (fst st))) p p = nan ->
        forall r, for_M ks st (hq_step wantz iloz ihiz l i l m i) = Ok r -> get2 (fst (fst (fst r))) p p = nan).
      { induction ks as [|k ks IH]; intros [[[h1 z1] v1] t] p Hk S1 T1 Hp N1 r0 E0; cbn [for_M] in E0; [injection E0 as <-; exact N1|].
        destruct (hq_step_ok wantz iloz ihiz h0 z1 l i l m i k (h1, z1, v1, t) FH) as (st' & ES & OK); [exact (conj S1 (conj (same_shape_refl z1) (conj (fun _ => eq_refl) T1)))|].
        rewrite ES in E0. cbn [bind] in E0. destruct st' as [[[h2 z2] v2] t2]. destruct OK as (S2 & _ & _ & T2).
        pose proof (Hk k (or_introl eq_refl)) as Hk'.
        apply (IH (h2, z2, v2, t2) p); try assumption; [intros; apply Hk; right; assumption|].
        apply (step_nan wantz iloz ihiz l m i ltac:(lia) ltac:(lia) h1 z1 v1 t k _ p) in ES; try assumption; try lia; [eapply big_shape; eassumption|left; exact N1]. }
      destruct HP as [(p & Hp & N1)|(-> & V)].
      - exists p. split; [exact Hp|]. refine (K _ (h, z, v, t1) p _ SH TV Hp N1 r E). intros k Hk. apply in_range in Hk. lia.
      - exists l. split; [lia|]. rewrite range_cons in E by lia. cbn [for_M] in E.
        destruct (hq_step_ok wantz iloz ihiz h0 z l i l l i l (h, z, v, t1) FH) as (st' & ES & OK); [exact (conj SH (conj (same_shape_refl z) (conj (fun _ => eq_refl) TV)))|].
        rewrite ES in E. cbn [bind] in E. pose proof OK as OK'. destruct st' as [[[h2 z2] v2] t2]. destruct OK' as (S2 & _ & _ & T2).
        assert (BG : big n h) by (eapply big_shape; eassumption). assert (FF : full h) by (eapply full_shape; eassumption).
        assert (N2 : get2 h2 l l = nan).
        { apply (step_nan wantz iloz ihiz l l i ltac:(lia) ltac:(lia) h z v t1 l _ l) in ES; try assumption; try lia. right. split; [reflexivity|].
          destruct (hq_reflector_get n h FF BG v t1 _ _ _ l l i V ltac:(lia) ltac:(lia)) as (v' & beta & tau & y2 & y3 & x' & DL & DX & ER & V').
          rewrite Z.ltb_irrefl in DL. cbv zeta in DL. replace (Z.min 3 (i - l + 1)) with 3 in DL by lia. exists v'. rewrite ER. do 2 f_equal.
          eapply larfg_nan; [reflexivity|reflexivity|exact DL]. }
        refine (K _ (h2, z2, v2, t2) l _ S2 T2 ltac:(lia) N2 r E). intros k Hk. apply in_range in Hk. lia.
    Qed.

    Lemma zero_nan h k : same_shape h h0 -> ilo < k <= ihi -> poisoned h -> poisoned (set2 h k (k - 1) f0).
    Proof.
      intros SH Hk (p & Hp & N1). exists p. split; [exact Hp|]. rewrite (set2_get n); try lia; [|eapply big_shape; eassumption].
      destruct (Z.eqb_spec p k), (Z.eqb_spec p (k - 1)); cbn [andb]; try exact N1. lia.
    Qed.

    Lemma iter_nan its st st' b : oks st -> ilo <= sL st < sI st -> sI st <= ihi -> poisoned (sH st) -> iter its st = Ok (st', b) -> poisoned (sH st').
    Proof.
      intros (SH & WR & WI & SZ & WZ & TV) Hl Hi HP. unfold hq_iter. cbv zeta.
      destruct (hq_scan_facts ilo ihi (sH st) (sL st) (sI st) (sK st) ltac:(lia)) as (K1 & _ & _). set (k := hq_scan _ _ _ _ _ _) in *. clearbody k.
      set (h1 := if ilo <? k then _ else _).
      assert (SH1 : same_shape h1 h0) by (unfold h1; destruct (ilo <? k); [eapply same_shape_trans; [apply set2_shape|]|]; exact SH).
      assert (HP1 : poisoned h1) by (unfold h1; destruct (Z.ltb_spec ilo k); [apply zero_nan; [exact SH|lia|exact HP]|exact HP]). clearbody h1.
      destruct (Z.leb_spec (sI st - 1) k); [intros [= <- _]; exact HP1|]. cbv iota.
      set (sh := hq_shifts _). clearbody sh. destruct (start_gen h1 sh k (sI st) (sM st) (sV st) ltac:(lia) TV) as (v1 & _ & SG).
      pose proof (hq_start_shape h1 sh k (sI st) (sM st) (sV st)) as SS. destruct (hq_start h1 sh k (sI st) (sM st) (sV st)) as [m v]. destruct SG as (Hm & _). cbn [snd] in SS.
      destruct (for_M _ _ _) as [[[[h' z'] v'] t']| | |] eqn:EM; cbn [bind]; try discriminate. intros [= <- _]. cbn [sH].
      apply (sweep_nan k m (sI st) h1 (sZ st) v (sT1 st)) in EM; try assumption; try lia; [eapply three_shape; eassumption|left; exact HP1].
    Qed.

    Lemma defl_nan st st' : oks st -> ilo <= sL st <= sI st -> sI st <= ihi -> poisoned (sH st) -> hq_deflate true wantz n (rows h0) iloz ihiz st = Ok st' -> poisoned (sH st').
    Proof.
      intros (SH & WR & WI & SZ & WZ & TV) Hl Hi (p & Hp & N1). unfold hq_deflate. destruct (Z.eqb_spec (sL st) (sI st)) as [El|Nl].
      { intros [= <-]. exists p. split; assumption. }
      destruct (Z.eqb_spec (sL st) (sI st - 1)) as [El|Nl2]; [|intros [= <-]; exists p; split; assumption].
      set (i := sI st) in *. set (h := sH st) in *. set (r := dlanv2 _ _ _ _). set (h1 := set2 (set2 _ _ _ _) _ _ _). assert (HR : rows h1 = rows h0) by (transitivity (rows h); [apply (proj1 (same_shape_trans _ _ _ (set2_shape _ _ _ _) (same_shape_trans _ _ _ (set2_shape _ _ _ _) (same_shape_trans _ _ _ (set2_shape _ _ _ _) (set2_shape _ _ _ _)))))|apply SH]).
      assert (BG : big n h) by (eapply big_shape; eassumption). assert (B1 : big n h1) by (unfold h1; repeat apply set2_big; exact BG).
      assert (S1 : same_shape h1 h0) by (eapply same_shape_trans; [|exact SH]; unfold h1; repeat (eapply same_shape_trans; [apply set2_shape|]); apply same_shape_refl).
      assert (FF : full h1) by (eapply full_shape; eassumption).
      destruct (rot_rows_frame h1 i (nCs r) (nSn r) FF B1 ltac:(lia)) as (h2 & E2 & S2 & F2). rewrite HR in E2. rewrite E2. cbn [bind].
      rewrite hq_rot_cols_id; [|eapply full_shape; [exact S2|exact FF]|destruct S2 as (-> & _); destruct B1; lia|lia]. cbn [bind].
      assert (D1 : forall a, ilo <= a <= ihi -> get2 h2 a a = if a =? i then nD r else if a =? i - 1 then nA r else get2 h a a).
      { intros a Ha. rewrite F2 by lia. unfold h1. rewrite !(set2_get n) by (try lia; repeat apply set2_big; exact BG).
        destruct (Z.eqb_spec a i), (Z.eqb_spec a (i - 1)); cbn [andb]; try reflexivity; lia. }
      assert (PP : poisoned h2).
      { assert (HD : (p <> i /\ p <> i - 1) \/ (get2 h (i - 1) (i - 1) = nan \/ get2 h i i = nan)).
        { destruct (Z.eq_dec p i) as [->|]; [right; right; exact N1|]. destruct (Z.eq_dec p (i - 1)) as [->|]; [right; left; exact N1|left; split; assumption]. }
        destruct HD as [[P1 P2]|HD].
        - exists p. split; [exact Hp|]. rewrite D1 by lia. destruct (Z.eqb_spec p i), (Z.eqb_spec p (i - 1)); try lia. exact N1.
        - destruct (lanv_nan _ (get2 h (i - 1) i) (get2 h i (i - 1)) _ HD) as [X|X].
          + exists (i - 1). split; [lia|]. rewrite D1 by lia. destruct (Z.eqb_spec (i - 1) i); [lia|]. rewrite Z.eqb_refl. exact X.
          + exists i. split; [lia|]. rewrite D1 by lia. rewrite Z.eqb_refl. exact X. }
      destruct (if wantz then _ else _); cbn [bind]; try discriminate. intros [= <-]. exact PP.
    Qed.
  End Turn.
End Nan.
