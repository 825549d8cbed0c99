(** dlaqr5 in binary64, not accumulating: NaN entries of the Hessenberg part of H and of Z are never overwritten. *)
From Coq Require Import ZArith Lia Bool List.
From Flocq Require Import IEEE754.BinarySingleNaN Core.
From Verif Require Import Base Num Array Blas Lapack Dlaqr5 Spec B64 B64Lemmas Lists FaLemmas Nrm2F64 HqErrNan HqNan Laqr5Top.
Import ListNotations.
Open Scope Z_scope.

Section Nan.
  Context (lm : libm) (LM : libm_ok lm).
  #[local] Instance NBq5 : Num b64 := B64 lm.
  Notation nan := (B754_nan : b64).

  Lemma q5_sub_nan (x : b64) : fsub nan x = nan. Proof. destruct x; reflexivity. Qed.
  Lemma q5_le_nan (x : b64) : fle nan x = false. Proof. destruct x; reflexivity. Qed.
  Lemma q5_lt_nan (x : b64) : flt nan x = false. Proof. destruct x; reflexivity. Qed.
  Lemma q5_mul_nan (x : b64) : fmul nan x = nan. Proof. destruct x; reflexivity. Qed.

  (** the scalar a reflector is generated from stays NaN, whatever the rest *)
  Lemma larfg_nan {X} {TX : ToFA b64 X} {FX : FromFA b64 X} nr (x : X) beta x' tau : dlarfg nr nan x 1 = Ok (beta, x', tau) -> beta = nan.
  Proof.
    unfold dlarfg. destruct (nr <=? 1); [intros [= <- _ _]; reflexivity|]. cbv zeta. set (xn := dnrm2 _ _ _). clearbody xn.
    destruct (feq xn f0); [intros [= <- _ _]; reflexivity|].
    assert (BN : larfg_beta nan xn = nan).
    { unfold larfg_beta. change (fsignum nan) with nan. generalize (dlapy2 nan xn). intros y. destruct y; reflexivity. }
    rewrite BN. change (fabs nan) with nan. rewrite q5_lt_nan. cbn [bind]. destruct (dscal _ _ _ _) as [y| | |]; cbn [bind]; try discriminate. intros [= <- _ _]. reflexivity.
  Qed.
  Lemma v_reflect_nan nr m ldv v v' beta : v_reflect nr nan m ldv v = Ok (v', beta) -> beta = nan.
  Proof.
    unfold v_reflect. destruct (from2 v 2 m) as [w| | |]; cbn [bind]; try discriminate.
    destruct (dlarfg nr nan w 1) as [[[b x] t]| | |] eqn:E; cbn [bind]; try discriminate.
    destruct (fa_insert _ _ _) as [a| | |]; cbn [bind]; try discriminate. destruct (fa_as_2d a ldv) as [c| | |]; cbn [bind]; try discriminate.
    intros [= _ <-]. exact (larfg_nan _ _ _ _ _ E).
  Qed.

  (** every stored NaN stays *)
  Definition keepE (h h' : fa b64) := same_shape h' h /\ forall p, elem h p = Some nan -> elem h' p = Some nan.
  (** every NaN of the Hessenberg part stays *)
  Definition keep (n : Z) (h h' : fa b64) :=
    same_shape h' h /\ forall p q, 1 <= p <= n -> 1 <= q <= n -> p <= q + 1 -> ent h p q = Some nan -> ent h' p q = Some nan.

  Lemma shape_trans (a b c : fa b64) : same_shape b a -> same_shape c b -> same_shape c a.
  Proof. unfold same_shape. intuition congruence. Qed.
  Lemma keepE_refl h : keepE h h. Proof. split; [unfold same_shape; auto|auto]. Qed.
  Lemma keepE_trans a b c : keepE a b -> keepE b c -> keepE a c.
  Proof. intros [S1 K1] [S2 K2]. split; [eapply shape_trans; eassumption|auto]. Qed.
  Lemma keep_refl n h : keep n h h. Proof. split; [unfold same_shape; auto|auto]. Qed.
  Lemma keep_trans n a b c : keep n a b -> keep n b c -> keep n a c.
  Proof. intros [S1 K1] [S2 K2]. split; [eapply shape_trans; eassumption|auto]. Qed.
  Lemma keepE_keep n a b : keepE a b -> keep n a b.
  Proof. intros [S K]. split; [assumption|]. intros p q _ _ _ E. unfold ent in *. destruct S as [R _]. rewrite R. apply K. exact E. Qed.

  Lemma mod2_keepE h a b g : g nan = nan -> keepE h (mod2 h a b g).
  Proof.
    intros G. split; [apply mod2_shape|]. intros p E. rewrite mod2_mod1, mod1_elem. destruct (Z.eqb_spec p (pos (rows h) a b)) as [->|]; [|assumption].
    rewrite E. cbn [option_map]. f_equal. exact G.
  Qed.
  Lemma for_keepE is h (body : Z -> fa b64 -> fa b64) : (forall i h, keepE h (body i h)) -> keepE h (for_ is h body).
  Proof. intros B. apply (for_inv (keepE h)); [apply keepE_refl|]. intros i s _ K. eapply keepE_trans; [exact K|apply B]. Qed.

  Ltac k2 := repeat first [apply mod2_keepE; apply q5_sub_nan | eapply keepE_trans; [|apply mod2_keepE; apply q5_sub_nan]].
  Lemma right2_keep c v2 t1 t2 j h : keepE h (q5_right2 c v2 t1 t2 j h). Proof. unfold q5_right2. cbv zeta. k2. Qed.
  Lemma left2_keep c v2 t1 t2 j h : keepE h (q5_left2 c v2 t1 t2 j h). Proof. unfold q5_left2. cbv zeta. k2. Qed.
  Lemma right3_keep c v2 v3 t1 t2 t3 j h : keepE h (q5_right3 c v2 v3 t1 t2 t3 j h). Proof. unfold q5_right3. cbv zeta. k2. Qed.
  Lemma left3_keep c v2 v3 t1 t2 t3 j h : keepE h (q5_left3 c v2 v3 t1 t2 t3 j h). Proof. unfold q5_left3. cbv zeta. k2. Qed.

  Section Setting.
    Context (n : Z) (h : fa b64) (HR : n <= rows h).
    Lemma set2_low_keep a b x : b + 1 < a <= n -> 1 <= b -> keep n h (set2 h a b x).
    Proof.
      intros A B. split; [apply mod2_shape|]. intros p q Hp Hq Hpq E. unfold set2. rewrite mod2_ent by lia.
      destruct (Z.eqb_spec p a), (Z.eqb_spec q b); cbn [andb]; try assumption. lia.
    Qed.
    Lemma set2_sub_keep a b x : 1 <= a <= n -> (ent h a b = Some nan -> x = nan) -> keep n h (set2 h a b x).
    Proof.
      intros A X. split; [apply mod2_shape|]. intros p q Hp Hq Hpq E. unfold set2. rewrite mod2_ent by lia.
      destruct (Z.eqb_spec p a) as [->|], (Z.eqb_spec q b) as [->|]; cbn [andb]; try assumption. rewrite E. cbn [option_map]. f_equal. auto.
    Qed.
  End Setting.
  Lemma keep_rows n h h' : keep n h h' -> n <= rows h -> n <= rows h'.
  Proof. intros [[R _] _]. lia. Qed.
  Lemma ent_get (h : fa b64) a b x : ent h a b = Some x -> get2 h a b = x.
  Proof. intros E. rewrite get2_ent, E. reflexivity. Qed.

  Section Params.
    Context (wantt wantz : bool) (n ktop kbot nbmps : Z) (sr si : fa b64) (ldh iloz ihiz ldz ldv ldu nv ldwv nh ldwh : Z).
    Hypothesis (HT : 1 <= ktop) (HTB : ktop < kbot) (HB : kbot <= n) (HN : 1 <= nbmps).

    Lemma vigilant_keep k h : n <= rows h -> 1 <= k -> k + 1 <= n -> keep n h (q5_vigilant n ktop kbot k h).
    Proof.
      intros R K1 K2. unfold q5_vigilant. cbv zeta. match goal with |- keep n h (if ?c then _ else _) => destruct c; [|apply keep_refl] end.
      match goal with |- keep n h (if fle ?a ?b then _ else _) => destruct (fle a b) eqn:E; [|apply keep_refl] end.
      destruct (_ || _); [|apply keep_refl]. apply set2_sub_keep; [assumption|lia|]. intros X. apply ent_get in X. rewrite X in E.
      change (fabs nan) with nan in E. rewrite q5_le_nan in E. discriminate E.
    Qed.

    (** the four stores after a reflector has been generated *)
    Lemma store3_keep k beta h : n <= rows h -> 1 <= k -> k + 3 <= n -> (ent h (k + 1) k = Some nan -> beta = nan) ->
      keep n h (set2 (set2 (set2 h (k + 1) k beta) (k + 2) k f0) (k + 3) k f0).
    Proof.
      intros R K1 K3 B. assert (A : keep n h (set2 h (k + 1) k beta)) by (apply set2_sub_keep; [assumption|lia|exact B]).
      assert (A2 : keep n h (set2 (set2 h (k + 1) k beta) (k + 2) k f0)).
      { eapply keep_trans; [exact A|]. apply set2_low_keep; [eapply keep_rows; eassumption|lia..]. }
      eapply keep_trans; [exact A2|]. apply set2_low_keep; [eapply keep_rows; eassumption|lia..].
    Qed.

    Lemma collapsed_keep k m beta h v vt h' v' vt' : n <= rows h -> 1 <= k -> k + 3 <= n -> (ent h (k + 1) k = Some nan -> beta = nan) ->
      q5_collapsed sr si ldh k m beta h v vt = Ok (h', v', vt') -> keep n h h'.
    Proof.
      intros R K1 K3 B. unfold q5_collapsed. destruct (from2 h _ _) as [ht| | |]; cbn [bind]; try discriminate.
      destruct (dlaqr1 _ _ _ _ _ _ _ _) as [w| | |]; cbn [bind]; try discriminate.
      destruct (dlarfg _ _ _ _) as [[[b x] t]| | |]; cbn [bind]; try discriminate.
      destruct (fa_insert _ _ _) as [a| | |]; cbn [bind]; try discriminate. cbv zeta.
      match goal with |- (if ?c then _ else _) = _ -> _ => destruct c end; intros [= <- _ _].
      - apply store3_keep; assumption.
      - set (h1 := mod2 h (k + 1) k _). assert (A : keep n h h1) by (apply keepE_keep; apply mod2_keepE; reflexivity).
        assert (A2 : keep n h (set2 h1 (k + 2) k f0)).
        { eapply keep_trans; [exact A|]. apply set2_low_keep; [eapply keep_rows; eassumption|lia..]. }
        eapply keep_trans; [exact A2|]. apply set2_low_keep; [eapply keep_rows; eassumption|lia..].
    Qed.

    Lemma chase_keep k m h v vt h' v' vt' : n <= rows h -> ktop - 1 <= k -> k + 3 <= kbot ->
      q5_chase ktop sr si ldh ldv k m h v vt = Ok (h', v', vt') -> keep n h h'.
    Proof.
      intros R K1 K3. unfold q5_chase. destruct (Z.eqb_spec k (ktop - 1)).
      - destruct (from2 h _ _) as [ht| | |]; cbn [bind]; try discriminate. destruct (from2 v _ _) as [w| | |]; cbn [bind]; try discriminate.
        destruct (dlaqr1 _ _ _ _ _ _ _ _) as [w1| | |]; cbn [bind]; try discriminate. destruct (to_fa_2d w1 ldv) as [w2| | |]; cbn [bind]; try discriminate.
        destruct (v_reflect _ _ _ _ _) as [[w3 b]| | |]; cbn [bind]; try discriminate. intros [= <- _ _]. apply keep_refl.
      - cbv zeta. set (rs := fmul (get2 v 3 m) _). set (h1 := mod2 _ _ _ _).
        assert (A : keep n h h1).
        { subst h1. assert (A1 : forall x, keep n h (set2 h (k + 3) k x)) by (intros; apply set2_low_keep; [assumption|lia..]).
          assert (A2 : forall x y, keep n h (set2 (set2 h (k + 3) k x) (k + 3) (k + 1) y)).
          { intros x y. eapply keep_trans; [apply A1|]. apply set2_low_keep; [eapply keep_rows; [apply A1|assumption]|lia..]. }
          eapply keep_trans; [apply A2|]. apply keepE_keep; apply mod2_keepE; reflexivity. }
        clearbody h1. match goal with |- context [v_reflect 3 ?al m ldv ?w] => set (v1 := w); clearbody v1 end.
        destruct (v_reflect _ _ _ _ _) as [[w3 beta]| | |] eqn:E; cbn [bind]; try discriminate.
        assert (BN : ent h1 (k + 1) k = Some nan -> beta = nan) by (intros X; apply ent_get in X; rewrite X in E; exact (v_reflect_nan _ _ _ _ _ _ E)).
        assert (R1 : n <= rows h1) by (eapply keep_rows; eassumption).
        destruct (_ || _).
        + intros [= <- _ _]. eapply keep_trans; [exact A|]. apply store3_keep; try assumption; lia.
        + intros C. eapply keep_trans; [exact A|]. eapply collapsed_keep; [..|exact C]; try assumption; lia.
    Qed.

    Definition keepS (st st' : q5st) := keep n (qH st) (qH st') /\ keepE (qZ st) (qZ st').
    Lemma keepS_refl st : keepS st st. Proof. split; [apply keep_refl|apply keepE_refl]. Qed.
    Lemma keepS_trans a b c : keepS a b -> keepS b c -> keepS a c.
    Proof. intros [A B] [C D]. split; [eapply keep_trans|eapply keepE_trans]; eassumption. Qed.

    Notation bulge := (q5_bulge wantt false n ktop kbot sr si ldh ldv).
    Notation bulge22 := (q5_bulge22 wantt wantz false n ktop kbot nbmps sr si ldh iloz ihiz ldv).
    Notation krc := (q5_krcol wantt wantz false n ktop kbot nbmps sr si ldh iloz ihiz ldv).

    Lemma bulge_keep incol krcol m st st' : n <= rows (qH st) -> ktop - 1 <= krcol + 2 * (m - 1) -> krcol + 2 * (m - 1) + 3 <= kbot ->
      bulge incol krcol m st = Ok st' -> keepS st st'.
    Proof.
      intros R K1 K3. unfold q5_bulge. set (k := krcol + 2 * (m - 1)) in *. cbv zeta.
      destruct (q5_chase _ _ _ _ _ _ _ _ _ _) as [[[h v] vt]| | |] eqn:E; cbn [bind]; try discriminate.
      apply chase_keep in E; try assumption.
      intros [= <-]. split; cbn [qH qZ]; [|apply keepE_refl].
      match goal with |- context [q5_left3 ?a ?b ?c ?d ?e ?f ?j ?hh] => set (h1 := q5_left3 a b c d e f j hh); assert (A : keep n (qH st) h1) end.
      { subst h1. eapply keep_trans; [exact E|]. apply keepE_keep. eapply keepE_trans; [|apply left3_keep]. apply for_keepE. intros; apply right3_keep. }
      clearbody h1. destruct (Z.ltb_spec k ktop); [exact A|]. eapply keep_trans; [exact A|]. apply vigilant_keep; [eapply keep_rows; eassumption|lia..].
    Qed.

    Lemma bulge22_keep incol krcol m st st' : n <= rows (qH st) -> krcol + 2 * (m - 1) = kbot - 2 ->
      bulge22 incol krcol m st = Ok st' -> keepS st st'.
    Proof.
      intros R K2. unfold q5_bulge22. set (k := krcol + 2 * (m - 1)) in *. cbv zeta.
      match goal with |- bind ?e _ = _ -> _ => destruct e as [[h v]| | |] eqn:E; cbn [bind]; try discriminate end.
      assert (A : keep n (qH st) h).
      { revert E. destruct (Z.eqb_spec k (ktop - 1)).
        - destruct (from2 (qH st) _ _) as [ht| | |]; cbn [bind]; try discriminate. destruct (from2 (qV st) _ _) as [w| | |]; cbn [bind]; try discriminate.
          destruct (dlaqr1 _ _ _ _ _ _ _ _) as [w1| | |]; cbn [bind]; try discriminate. destruct (to_fa_2d w1 ldv) as [w2| | |]; cbn [bind]; try discriminate.
          destruct (v_reflect _ _ _ _ _) as [[w3 b]| | |]; cbn [bind]; try discriminate. intros [= <- _]. apply keep_refl.
        - match goal with |- context [v_reflect 2 ?al m ldv ?w] => set (v1 := w); clearbody v1 end.
          destruct (v_reflect _ _ _ _ _) as [[w3 beta]| | |] eqn:E; cbn [bind]; try discriminate. intros [= <- _].
          assert (A : keep n (qH st) (set2 (qH st) (k + 1) k beta)).
          { apply set2_sub_keep; [assumption|lia|]. intros X. apply ent_get in X. rewrite X in E. exact (v_reflect_nan _ _ _ _ _ _ E). }
          eapply keep_trans; [exact A|]. apply set2_low_keep; [eapply keep_rows; eassumption|lia..]. }
      clear E.
      match goal with |- context [q5_vigilant n ktop kbot k ?hh] => set (h1 := hh); assert (A1 : keep n (qH st) h1) end.
      { subst h1. eapply keep_trans; [exact A|]. apply keepE_keep. eapply keepE_trans; apply for_keepE; intros; [apply right2_keep|apply left2_keep]. }
      clearbody h1.
      assert (A2 : keep n (qH st) (if ktop <=? k then q5_vigilant n ktop kbot k h1 else h1)).
      { destruct (Z.leb_spec ktop k); [|exact A1]. eapply keep_trans; [exact A1|]. apply vigilant_keep; [eapply keep_rows; eassumption|lia..]. }
      destruct wantz; intros [= <-]; split; cbn [qH qZ]; try exact A2; [|apply keepE_refl]. apply for_keepE. intros; apply right2_keep.
    Qed.

    Lemma krcol_keep incol krcol st st' : n <= rows (qH st) -> krcol <= kbot - 2 -> krc incol krcol st = Ok st' -> keepS st st'.
    Proof.
      intros R HK. unfold q5_krcol. cbv zeta. set (mtop := Z.max 1 _). set (mbot := Z.min nbmps _).
      match goal with |- bind ?e _ = _ -> _ => destruct e as [s1| | |] eqn:E1; cbn [bind]; try discriminate end.
      assert (A1 : keepS st s1).
      { revert E1. destruct (mbot <? nbmps); cbn [andb]; [|intros [= <-]; apply keepS_refl].
        destruct (Z.eqb_spec (krcol + 2 * (mbot + 1 - 1)) (kbot - 2)) as [E|]; [|intros [= <-]; apply keepS_refl]. intros B. eapply bulge22_keep; eassumption. }
      destruct (for_M _ s1 _) as [s2| | |] eqn:E2; cbn [bind]; try discriminate.
      assert (A2 : keepS st s2).
      { revert E2. apply (for_M_inv (keepS st)); [exact A1|]. intros m s s' Im Ks Eb. eapply keepS_trans; [exact Ks|].
        assert (Rm : mtop <= m <= mbot) by (apply in_range_rev in Im; lia).
        assert (B1 : ktop - 1 <= krcol + 2 * (m - 1)) by (subst mtop; Z.to_euclidean_division_equations; lia).
        assert (B2 : krcol + 2 * (m - 1) + 3 <= kbot) by (subst mbot; Z.to_euclidean_division_equations; lia).
        eapply bulge_keep; [|exact B1|exact B2|exact Eb]. eapply keep_rows; [apply Ks|assumption]. }
      assert (L : forall v h, keepE h (q5_left_all ktop krcol mtop mbot (q5_jbot wantt false n kbot (incol + q5_kdu nbmps)) v h)).
      { intros v h. unfold q5_left_all. apply for_keepE. intros m g. cbv zeta. apply for_keepE. intros. apply left3_keep. }
      assert (Z3 : forall v z, keepE z (q5_acc_z iloz ihiz krcol mtop mbot v z)).
      { intros v z. unfold q5_acc_z. apply for_keepE. intros m g. cbv zeta. apply for_keepE. intros. apply right3_keep. }
      destruct A2 as [AH AZ]. destruct wantz; intros [= <-]; split; cbn [qH qZ]; try exact AZ;
        try (eapply keep_trans; [exact AH|apply keepE_keep, L]). eapply keepE_trans; [exact AZ|apply Z3].
    Qed.

    Lemma main_keep st st' : n <= rows (qH st) ->
      q5_main wantt wantz false n ktop kbot nbmps sr si ldh iloz ihiz ldz ldv ldu nv ldwv nh ldwh st = Ok st' -> keepS st st'.
    Proof.
      intros R. unfold q5_main. cbv zeta. match goal with |- for_M _ ?s0 _ = _ -> _ => set (s := s0) end.
      assert (A : keepS st s).
      { subst s. split; cbn [qH qZ]; [|apply keepE_refl]. destruct (Z.leb_spec (ktop + 2) kbot); [|apply keep_refl]. apply set2_low_keep; [assumption|lia..]. }
      clearbody s. apply (for_M_inv (keepS st)); [exact A|]. intros incol a a' _ Ka. unfold q5_incol. cbn [bind].
      destruct (for_M _ _ _) as [b| | |] eqn:E; cbn [bind]; try discriminate. unfold q5_far. intros [= <-].
      revert E. apply (for_M_inv (keepS st)); [destruct a; exact Ka|].
      intros krcol c c' Ik Kc Ec. eapply keepS_trans; [exact Kc|]. eapply krcol_keep; [|..|exact Ec]; [eapply keep_rows; [apply Kc|assumption]|]. apply in_range in Ik. lia.
    Qed.
  End Params.
End Nan.
