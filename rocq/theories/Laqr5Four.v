(** dlaqr5 with two or more pairs of shifts and V of the documented size panics, whatever the data. *)
From Coq Require Import Lia Ascii.
From Verif Require Import Base Num Array Blas Lapack Dlaqr5 Spec Lists FaLemmas LarfgProofs Laqr5Proofs.
Local Open Scope Z_scope.

(** the outcome is a panic or a value in P *)
Definition panic_or {A} (P : A -> Prop) (o : outcome A) : Prop := match o with Ok x => P x | Panic => True | _ => False end.

Lemma panic_or_bind {A B} (P : A -> Prop) (Q : B -> Prop) (o : outcome A) (f : A -> outcome B) :
  panic_or P o -> (forall x, P x -> panic_or Q (f x)) -> panic_or Q (x <- o ;; f x).
Proof. destruct o as [x| | |]; cbn; auto; contradiction. Qed.
Lemma panic_or_for {S} (P : S -> Prop) is (s : S) body : P s -> (forall i s, In i is -> P s -> panic_or P (body i s)) -> panic_or P (for_M is s body).
Proof.
  revert s. induction is as [|i is IH]; intros s H B; cbn [for_M]; [exact H|].
  eapply panic_or_bind; [apply B; [left; reflexivity|exact H]|]. intros x Px. apply IH; [exact Px|]. intros j y Hj. apply B. right. exact Hj.
Qed.
Lemma panic_bind {A B} (P : A -> Prop) (o : outcome A) (f : A -> outcome B) :
  panic_or P o -> (forall x, P x -> f x = Panic) -> (x <- o ;; f x) = Panic.
Proof. destruct o as [x| | |]; cbn; auto; contradiction. Qed.

Section Four.
  Context {F : Type} {NF : Num F}.
  Notation fa := (fa F).

  Lemma from2_panic_or (f : fa) i j : panic_or (fun _ => True) (from2 f i j).
  Proof. unfold from2, from1. destruct (_ && _); [|exact I]. unfold slice_from. destruct (_ || _); exact I. Qed.
  Lemma dlaqr1_panic_or n (h : list F) ldh a b c d (v : list F) : panic_or (fun v' => zlen v' = zlen v) (dlaqr1 n h ldh a b c d v).
  Proof.
    destruct (Z.eq_dec ldh 0) as [->|N].
    - unfold dlaqr1. cbn [to_fa_2d ToFA_vec]. unfold fa_as_2d. cbn. exact I.
    - destruct (dlaqr1_vec n h ldh a b c d v N) as (v' & -> & E). exact E.
  Qed.
  Lemma dlaqr1_fa_panic_or n (h : list F) ldh a b c d (v : fa) : panic_or (fun _ => True) (dlaqr1 n h ldh a b c d v).
  Proof.
    unfold dlaqr1. cbn [to_fa_2d ToFA_vec]. unfold fa_as_2d. destruct (ldh =? 0); cbn [bind]; [exact I|].
    destruct (_ && _)%bool; [exact I|]. destruct (n =? 2); exact I.
  Qed.

  Context (wantt wantz accum : bool) (n ktop kbot nbmps : Z) (sr si : fa) (ldh iloz ihiz ldz ldv ldu nv ldwv nh ldwh : Z).
  Hypothesis (L3 : 3 <= ldv) (NB : 2 <= nbmps) (KK : ktop < kbot).

  (** V has lost its elements *)
  Definition lost (v : fa) : Prop := data v = [] /\ rows v = ldv /\ cols v = 0.

  Lemma lost_len v : lost v -> fa_len v = ldv.
  Proof. intros (_ & R & C). unfold fa_len, fa_is_2d. rewrite R, C, andb_false_r. reflexivity. Qed.
  Lemma lost_set2 v i j x : lost v -> lost (set2 v i j x).
  Proof.
    intros (D & R & C). unfold set2, mod2.
    assert (E : zget (data v) (off2 (rows v) i j) = None).
    { rewrite D. unfold zget. destruct (_ <? 0); [reflexivity|]. destruct (Z.to_nat _); reflexivity. }
    rewrite E. split; [exact D|]. split; assumption.
  Qed.
  Lemma lost_as_2d (l : list F) : l = [] -> exists v, fa_as_2d (to_fa l) ldv = Ok v /\ lost v.
  Proof. intros ->. unfold fa_as_2d. destruct (Z.eqb_spec ldv 0); [lia|]. eexists. split; [reflexivity|]. repeat split. Qed.
  Lemma slice_nil p : panic_or (fun l : list F => l = []) (slice_from [] p).
  Proof. unfold slice_from. destruct (_ || _); [exact I|]. cbn. apply skipn_nil. Qed.
  Lemma lost_from2 v i j : lost v -> panic_or (fun l => l = []) (from2 v i j).
  Proof. intros H. unfold from2, from1. rewrite (proj1 H). destruct (_ && _); [apply slice_nil|reflexivity]. Qed.

  Lemma reflect_empty k al v m : panic_or (fun l => l = []) (from2 v 2 m) -> panic_or (fun r => lost (fst r)) (v_reflect k al m ldv v).
  Proof.
    intros H. unfold v_reflect. eapply panic_or_bind; [exact H|]. intros l ->.
    destruct (dlarfg_total flat_vec k al ([] : list F) 1) as (be & l' & tau & -> & CL & _). cbn [bind].
    cbn [to_fa ToFA_vec] in CL. rewrite !count_zlen in CL. cbn [data fa_of_vec] in CL. unfold zlen in CL. cbn [length] in CL.
    assert (l' = []) as -> by (destruct l'; [reflexivity|cbn in CL; lia]).
    change (fa_insert (to_fa []) 1 tau) with (Ok (to_fa ([] : list F))). cbn [bind].
    destruct (lost_as_2d [] eq_refl) as (w & -> & Lw). cbn [bind fst]. exact Lw.
  Qed.
  Lemma reflect_lost k al v m : lost v -> panic_or (fun r => lost (fst r)) (v_reflect k al m ldv v).
  Proof. intros H. apply reflect_empty, lost_from2, H. Qed.
  (** column 1 of an empty V *)
  Lemma reflect_panics k al v : lost v -> v_reflect k al 1 ldv v = Panic.
  Proof.
    intros H. unfold v_reflect, from2, from1. rewrite (lost_len v H), (proj1 H).
    assert (P : (1 - 1) * rows v + 2 = 2) by lia. rewrite P.
    destruct (Z.leb_spec 1 2); [|lia]. destruct (Z.leb_spec 2 ldv); [|lia]. reflexivity.
  Qed.

  Notation bulge22 := (q5_bulge22 wantt wantz accum n ktop kbot nbmps sr si ldh iloz ihiz ldv).
  Notation bulge := (q5_bulge wantt accum n ktop kbot sr si ldh ldv).
  Notation chase := (q5_chase ktop sr si ldh ldv).

  Definition lostS (st : q5st (F := F)) : Prop := lost (qV st).

  (** the column that starts a bulge: what is left of V is [l], which is then cut from position 2 of column m *)
  Lemma collapsed_lost k m be h v vt : lost v -> panic_or (fun r => lost (snd (fst r))) (q5_collapsed sr si ldh k m be h v vt).
  Proof.
    intros H. unfold q5_collapsed. eapply panic_or_bind; [apply from2_panic_or|]. intros ht _.
    eapply panic_or_bind; [apply dlaqr1_fa_panic_or|]. intros w _.
    destruct (dlarfg_total flat_vec 3 (get1 w 1) [get1 w 2] 1) as (be' & l' & tau & -> & _). cbn [bind].
    apply panic_or_bind with (P := fun _ => True).
    { unfold fa_insert. destruct (_ && _); [|exact I]. destruct (_ <? _); exact I. }
    intros vt2 _. match goal with |- context [if ?c then _ else _] => destruct c end; cbn [panic_or fst snd]; [exact H|].
    repeat apply lost_set2. exact H.
  Qed.
  Lemma chase_lost k m h v vt : lost v -> panic_or (fun r => lost (snd (fst r))) (chase k m h v vt).
  Proof.
    intros H. unfold q5_chase. destruct (k =? ktop - 1).
    - eapply panic_or_bind; [apply from2_panic_or|]. intros ht _.
      eapply panic_or_bind; [apply lost_from2, H|]. intros l ->.
      eapply panic_or_bind; [apply dlaqr1_panic_or|]. intros l' E. assert (l' = []) as -> by (destruct l'; [reflexivity|unfold zlen in E; cbn in E; lia]).
      cbn [to_fa_2d ToFA_vec]. destruct (lost_as_2d [] eq_refl) as (w & E2 & Lw). change (fa_of_vec []) with (to_fa ([] : list F)). rewrite E2. cbn [bind].
      eapply panic_or_bind; [apply reflect_lost, Lw|]. intros r Lr. exact Lr.
    - cbv zeta. eapply panic_or_bind; [apply reflect_lost; repeat apply lost_set2; exact H|]. intros [v1 be] Lv. cbn [fst] in Lv.
      match goal with |- context [if ?c then _ else _] => destruct c end; [exact Lv|]. apply collapsed_lost, Lv.
  Qed.
  Lemma bulge_lost incol krcol m st : lostS st -> panic_or lostS (bulge incol krcol m st).
  Proof.
    intros H. unfold q5_bulge. cbv zeta. eapply panic_or_bind; [apply chase_lost, H|]. intros [[h v] vt] Lv. exact Lv.
  Qed.
  Lemma chase_panics h v vt : lost v -> chase (ktop - 1) 1 h v vt = Panic.
  Proof.
    intros H. unfold q5_chase. rewrite Z.eqb_refl.
    eapply panic_bind; [apply from2_panic_or|]. intros ht _.
    eapply panic_bind; [apply lost_from2, H|]. intros l ->.
    eapply panic_bind; [apply dlaqr1_panic_or|]. intros l' E. assert (l' = []) as -> by (destruct l'; [reflexivity|unfold zlen in E; cbn in E; lia]).
    cbn [to_fa_2d ToFA_vec]. destruct (lost_as_2d [] eq_refl) as (w & E2 & Lw). change (fa_of_vec []) with (to_fa ([] : list F)). rewrite E2. cbn [bind].
    rewrite reflect_panics by exact Lw. reflexivity.
  Qed.
  Lemma bulge_panics incol st : lostS st -> bulge incol (ktop - 1) 1 st = Panic.
  Proof.
    intros H. unfold q5_bulge. cbv zeta. replace (ktop - 1 + 2 * (1 - 1)) with (ktop - 1) by lia. rewrite chase_panics by exact H. reflexivity.
  Qed.
  Lemma bulge22_lost incol krcol m st : lostS st -> panic_or lostS (bulge22 incol krcol m st).
  Proof.
    intros H. unfold q5_bulge22. cbv zeta. apply panic_or_bind with (P := fun r => lost (snd r)).
    - destruct (_ =? ktop - 1).
      + eapply panic_or_bind; [apply from2_panic_or|]. intros ht _.
        eapply panic_or_bind; [apply lost_from2, H|]. intros l ->.
        eapply panic_or_bind; [apply dlaqr1_panic_or|]. intros l' E. assert (l' = []) as -> by (destruct l'; [reflexivity|unfold zlen in E; cbn in E; lia]).
        cbn [to_fa_2d ToFA_vec]. destruct (lost_as_2d [] eq_refl) as (w & E2 & Lw). change (fa_of_vec []) with (to_fa ([] : list F)). rewrite E2. cbn [bind].
        eapply panic_or_bind; [apply reflect_lost, Lw|]. intros r Lr. exact Lr.
      + eapply panic_or_bind; [apply reflect_lost, lost_set2, H|]. intros [v1 be] Lv. exact Lv.
    - intros [h v] Lv. cbn [snd] in Lv. destruct accum; [exact Lv|]. destruct wantz; exact Lv.
  Qed.
  Lemma bulge22_panics incol st : lostS st -> bulge22 incol (ktop - 1) 1 st = Panic.
  Proof.
    intros H. unfold q5_bulge22. cbv zeta. replace (ktop - 1 + 2 * (1 - 1)) with (ktop - 1) by lia. rewrite Z.eqb_refl.
    match goal with |- bind ?o _ = _ => assert (E : o = Panic) end.
    { eapply panic_bind; [apply from2_panic_or|]. intros ht _.
      eapply panic_bind; [apply lost_from2, H|]. intros l ->.
      eapply panic_bind; [apply dlaqr1_panic_or|]. intros l' E. assert (l' = []) as -> by (destruct l'; [reflexivity|unfold zlen in E; cbn in E; lia]).
      cbn [to_fa_2d ToFA_vec]. destruct (lost_as_2d [] eq_refl) as (w & E2 & Lw). change (fa_of_vec []) with (to_fa ([] : list F)). rewrite E2. cbn [bind].
      rewrite reflect_panics by exact Lw. reflexivity. }
    rewrite E. reflexivity.
  Qed.

  Notation krcol_step := (q5_krcol wantt wantz accum n ktop kbot nbmps sr si ldh iloz ihiz ldv).

  Lemma krcol_lost incol krcol st : lostS st -> panic_or lostS (krcol_step incol krcol st).
  Proof.
    intros H. unfold q5_krcol. cbv zeta. apply panic_or_bind with (P := lostS).
    { match goal with |- context [if ?c then _ else _] => destruct c end; [apply bulge22_lost, H|exact H]. }
    clear st H. intros st H. apply panic_or_bind with (P := lostS).
    { apply panic_or_for; [exact H|]. intros m s _. apply bulge_lost. }
    clear st H. intros st H. destruct accum; [exact H|]. destruct wantz; exact H.
  Qed.

  Lemma range_rev_last a b : a <= b -> range_rev a b = range_rev (a + 1) b ++ [a].
  Proof.
    intros H. unfold range_rev. replace (Z.to_nat (b - a + 1)) with (S (Z.to_nat (b - (a + 1) + 1))) by lia.
    remember (Z.to_nat (b - (a + 1) + 1)) as q eqn:Q. assert (E : a = b + -1 * Z.of_nat q) by lia. clear Q H. subst a.
    revert b. induction q as [|q IH]; intros b; cbn [zup app].
    - do 2 f_equal. lia.
    - f_equal. specialize (IH (b + -1)). cbn [zup] in IH. rewrite IH. do 2 f_equal. lia.
  Qed.
  Lemma for_panics {S} (P : S -> Prop) is i js (s : S) body : P s -> (forall k s, In k is -> P s -> panic_or P (body k s)) -> (forall s, P s -> body i s = Panic) ->
    for_M (is ++ i :: js) s body = Panic.
  Proof.
    revert s. induction is as [|k is IH]; intros s H B X; cbn [app for_M].
    - rewrite X by exact H. reflexivity.
    - eapply panic_bind; [apply B; [left; reflexivity|exact H]|]. intros x Px. apply IH; [exact Px| |exact X]. intros j y Hj. apply B. right. exact Hj.
  Qed.

  Lemma krcol_panics incol st : lostS st -> krcol_step incol (ktop - 1) st = Panic.
  Proof.
    intros H. unfold q5_krcol. cbv zeta.
    replace (Z.max 1 (Z.quot (ktop - (ktop - 1)) 2 + 1)) with 1 by (replace (ktop - (ktop - 1)) with 1 by lia; reflexivity).
    replace (kbot - (ktop - 1) - 1) with (kbot - ktop) by lia.
    destruct (Z.eq_dec kbot (ktop + 1)) as [E|N].
    - assert (Q : Z.min nbmps (Z.quot (kbot - ktop) 2) = 0) by (replace (kbot - ktop) with 1 by lia; change (Z.quot 1 2) with 0; lia).
      rewrite Q. destruct (Z.ltb_spec 0 nbmps); [|lia]. destruct (Z.eqb_spec (ktop - 1 + 2 * (0 + 1 - 1)) (kbot - 2)); [|lia]. cbn [andb].
      change (0 + 1) with 1. rewrite bulge22_panics by exact H. reflexivity.
    - assert (Q : 1 <= Z.min nbmps (Z.quot (kbot - ktop) 2)) by (rewrite Z.quot_div_nonneg by lia; assert (1 <= (kbot - ktop) / 2) by (apply Z.div_le_lower_bound; lia); lia).
      set (mbot := Z.min nbmps (Z.quot (kbot - ktop) 2)) in *.
      apply panic_bind with (P := lostS).
      { match goal with |- context [if ?c then _ else _] => destruct c end; [apply bulge22_lost, H|exact H]. }
      clear st H. intros st H. rewrite range_rev_last by exact Q.
      rewrite (for_panics lostS _ _ [] st _ H); [reflexivity| |].
      + intros k s _. apply bulge_lost.
      + intros s. apply bulge_panics.
  Qed.

  (** the first column step, with V as the caller passed it *)
  Section First.
    Lemma first_start (v : fa) (l : list F) : dim2 ldv v -> cols v <= 2 * nbmps - 2 -> from2 v 1 nbmps = Ok l -> zlen l <= (nbmps - 1) * ldv.
    Proof.
      intros D C. unfold from2, from1. rewrite (dim2_full _ _ D). destruct D as (R & LV & C1 & N). rewrite R.
      destruct (Z.leb_spec 1 ((nbmps - 1) * ldv + 1)); [|nia]. destruct (Z.leb_spec ((nbmps - 1) * ldv + 1) (count v)) as [A|A]; cbn [andb].
      - unfold slice_from. destruct (_ || _); [discriminate|]. intros [= <-]. unfold zlen. rewrite skipn_length.
        rewrite count_zlen in *. unfold zlen in *. nia.
      - intros [= <-]. unfold zlen. cbn. nia.
    Qed.
    Lemma first_reflect k al (l : list F) w : zlen l <= (nbmps - 1) * ldv -> fa_as_2d (fa_of_vec l) ldv = Ok w ->
      panic_or (fun r => lost (fst r)) (v_reflect k al nbmps ldv w).
    Proof.
      intros L E. apply reflect_empty. unfold fa_as_2d in E. destruct (Z.eqb_spec ldv 0); [lia|]. injection E as <-.
      unfold from2, from1. cbn [rows data fa_of_vec]. unfold fa_len, fa_is_2d. cbn [rows cols].
      assert (Q : Z.quot (zlen l) ldv <= nbmps - 1) by (rewrite Z.quot_div_nonneg by (unfold zlen; lia); apply Z.div_le_upper_bound; lia).
      match goal with |- context [?a <=? (if ?c then _ else _)] => assert (X : (a <=? (if c then ldv * Z.quot (zlen l) ldv else ldv)) = false) end.
      { apply Z.leb_gt. destruct (_ && _); nia. }
      rewrite X, andb_false_r. reflexivity.
    Qed.
    Lemma first_bulge incol st : dim2 ldv (qV st) -> cols (qV st) <= 2 * nbmps - 2 -> panic_or lostS (bulge incol (ktop - 2 * nbmps + 1) nbmps st).
    Proof.
      intros D C. unfold q5_bulge. cbv zeta. replace (ktop - 2 * nbmps + 1 + 2 * (nbmps - 1)) with (ktop - 1) by lia.
      apply panic_or_bind with (P := fun r => lost (snd (fst r))); [|intros [[h v] vt] Lv; exact Lv].
      unfold q5_chase. rewrite Z.eqb_refl.
      eapply panic_or_bind; [apply from2_panic_or|]. intros ht _.
      destruct (from2 (qV st) 1 nbmps) as [l| | |] eqn:E; try exact I; try (pose proof (from2_panic_or (qV st) 1 nbmps) as X; rewrite E in X; destruct X).
      apply first_start in E; [|exact D|exact C]. cbn [bind].
      eapply panic_or_bind; [apply dlaqr1_panic_or|]. intros l' E'. rewrite <- E' in E. cbn [to_fa_2d ToFA_vec].
      destruct (fa_as_2d (fa_of_vec l') ldv) as [w| | |] eqn:W; try (unfold fa_as_2d in W; destruct (ldv =? 0); discriminate); [|exact I]. cbn [bind].
      eapply panic_or_bind; [eapply first_reflect; eassumption|]. intros r Lr. exact Lr.
    Qed.
    Lemma first_bulge22 incol st : dim2 ldv (qV st) -> cols (qV st) <= 2 * nbmps - 2 -> panic_or lostS (bulge22 incol (ktop - 2 * nbmps + 1) nbmps st).
    Proof.
      intros D C. unfold q5_bulge22. cbv zeta. replace (ktop - 2 * nbmps + 1 + 2 * (nbmps - 1)) with (ktop - 1) by lia.
      apply panic_or_bind with (P := fun r => lost (snd r)).
      2:{ intros [h v] Lv. cbn [snd] in Lv. destruct accum; [exact Lv|]. destruct wantz; exact Lv. }
      rewrite Z.eqb_refl.
      eapply panic_or_bind; [apply from2_panic_or|]. intros ht _.
      destruct (from2 (qV st) 1 nbmps) as [l| | |] eqn:E; try exact I; try (pose proof (from2_panic_or (qV st) 1 nbmps) as X; rewrite E in X; destruct X).
      apply first_start in E; [|exact D|exact C]. cbn [bind].
      eapply panic_or_bind; [apply dlaqr1_panic_or|]. intros l' E'. rewrite <- E' in E. cbn [to_fa_2d ToFA_vec].
      destruct (fa_as_2d (fa_of_vec l') ldv) as [w| | |] eqn:W; try (unfold fa_as_2d in W; destruct (ldv =? 0); discriminate); [|exact I]. cbn [bind].
      eapply panic_or_bind; [eapply first_reflect; eassumption|]. intros r Lr. exact Lr.
    Qed.
    Lemma first_krcol incol st : dim2 ldv (qV st) -> cols (qV st) <= 2 * nbmps - 2 -> panic_or lostS (krcol_step incol (ktop - 2 * nbmps + 1) st).
    Proof.
      intros D C. unfold q5_krcol. cbv zeta.
      assert (MT : Z.max 1 (Z.quot (ktop - (ktop - 2 * nbmps + 1)) 2 + 1) = nbmps).
      { rewrite Z.quot_div_nonneg by lia. replace (ktop - (ktop - 2 * nbmps + 1)) with (1 + (nbmps - 1) * 2) by lia. rewrite Z.div_add by lia. change (1 / 2) with 0. lia. }
      rewrite MT.
      assert (T : forall mb s, lostS s -> panic_or lostS (
        let h := q5_left_all ktop (ktop - 2 * nbmps + 1) nbmps mb (q5_jbot wantt accum n kbot (incol + q5_kdu nbmps)) (qV s) (qH s) in
        if accum then Ok (mkQ5 h (qZ s) (qV s) (q5_acc_u ktop nbmps incol (ktop - 2 * nbmps + 1) nbmps mb (qV s) (qU s)) (qWv s) (qWh s) (qVt s))
        else if wantz then Ok (mkQ5 h (q5_acc_z iloz ihiz (ktop - 2 * nbmps + 1) nbmps mb (qV s) (qZ s)) (qV s) (qU s) (qWv s) (qWh s) (qVt s))
        else Ok (mkQ5 h (qZ s) (qV s) (qU s) (qWv s) (qWh s) (qVt s)))).
      { intros mb s H. cbv zeta. destruct accum; [exact H|]. destruct wantz; exact H. }
      cbv zeta in T. replace (kbot - (ktop - 2 * nbmps + 1) - 1) with (kbot - ktop + (nbmps - 1) * 2) by lia.
      rewrite Z.quot_div_nonneg, Z.div_add by lia.
      destruct (Z.eq_dec kbot (ktop + 1)) as [E|N].
      - assert (Q : Z.min nbmps ((kbot - ktop) / 2 + (nbmps - 1)) = nbmps - 1) by (replace (kbot - ktop) with 1 by lia; change (1 / 2) with 0; lia).
        rewrite Q. destruct (Z.ltb_spec (nbmps - 1) nbmps); [|lia].
        destruct (Z.eqb_spec (ktop - 2 * nbmps + 1 + 2 * (nbmps - 1 + 1 - 1)) (kbot - 2)); [|lia]. cbn [andb].
        replace (nbmps - 1 + 1) with nbmps by lia. eapply panic_or_bind; [apply first_bulge22; assumption|]. intros s H1.
        assert (R : range_rev nbmps (nbmps - 1) = []) by (unfold range_rev; replace (nbmps - 1 - nbmps + 1) with 0 by lia; reflexivity).
        rewrite R. cbn [for_M bind]. apply T, H1.
      - assert (Q : Z.min nbmps ((kbot - ktop) / 2 + (nbmps - 1)) = nbmps) by (assert (1 <= (kbot - ktop) / 2) by (apply Z.div_le_lower_bound; lia); lia).
        rewrite Q. destruct (Z.ltb_spec nbmps nbmps); [lia|]. cbn [andb bind].
        assert (R : range_rev nbmps nbmps = [nbmps]) by (unfold range_rev; replace (nbmps - nbmps + 1) with 1 by lia; reflexivity).
        rewrite R. cbn [for_M]. eapply panic_or_bind.
        { eapply panic_or_bind; [apply first_bulge; assumption|]. intros s H1. exact H1. }
        intros s H1. apply T, H1.
    Qed.
  End First.

  Lemma zup_app lo p q : zup lo 1 (p + q) = zup lo 1 p ++ zup (lo + Z.of_nat p) 1 q.
  Proof.
    revert lo. induction p as [|p IH]; intros lo; cbn [Nat.add zup app].
    - f_equal. lia.
    - rewrite IH. do 2 f_equal. f_equal. lia.
  Qed.
  Lemma main_panics st : dim2 ldv (qV st) -> cols (qV st) <= 2 * nbmps - 2 ->
    q5_main wantt wantz accum n ktop kbot nbmps sr si ldh iloz ihiz ldz ldv ldu nv ldwv nh ldwh st = Panic.
  Proof.
    intros D C. unfold q5_main. cbv zeta.
    assert (Q : 0 <= (kbot - 2 - (ktop - 2 * nbmps + 1)) / (2 * nbmps)) by (apply Z.div_pos; lia).
    unfold range_step. destruct (Z.ltb_spec (kbot - 2) (ktop - 2 * nbmps + 1)); [lia|].
    replace (Z.to_nat ((kbot - 2 - (ktop - 2 * nbmps + 1)) / (2 * nbmps) + 1)) with (S (Z.to_nat ((kbot - 2 - (ktop - 2 * nbmps + 1)) / (2 * nbmps)))) by lia.
    cbn [zup for_M].
    match goal with |- context [q5_incol _ _ _ _ _ _ _ _ _ _ _ _ _ _ _ _ _ _ _ _ ?s] => set (s0 := s) end.
    assert (D0 : dim2 ldv (qV s0)) by exact D. assert (C0 : cols (qV s0) <= 2 * nbmps - 2) by exact C. clearbody s0.
    assert (E : q5_incol wantt wantz accum n ktop kbot nbmps sr si ldh iloz ihiz ldz ldv ldu nv ldwv nh ldwh (ktop - 2 * nbmps + 1) s0 = Panic); [|rewrite E; reflexivity].
    unfold q5_incol. apply panic_bind with (P := fun _ => True).
    { destruct accum; [|exact I]. destruct (dlaset_fa_shape (chr "A") (q5_kdu nbmps) (q5_kdu nbmps) f0 f1 (qU s0)) as (r & -> & _). exact I. }
    intros u _. cbv zeta.
    assert (R : exists js, range (ktop - 2 * nbmps + 1) (Z.min (ktop - 2 * nbmps + 1 + 2 * nbmps - 1) (kbot - 2)) =
      (ktop - 2 * nbmps + 1) :: range (ktop - 2 * nbmps + 2) (ktop - 2) ++ (ktop - 1) :: js).
    { unfold range. set (hi := Z.min _ _). assert (ktop - 1 <= hi) by lia.
      exists (zup ktop 1 (Z.to_nat (hi - ktop + 1))).
      replace (Z.to_nat (hi - (ktop - 2 * nbmps + 1) + 1)) with (S (Z.to_nat (ktop - 2 - (ktop - 2 * nbmps + 2) + 1) + S (Z.to_nat (hi - ktop + 1))))%nat by lia.
      cbn [zup]. rewrite zup_app. cbn [zup].
      replace (ktop - 2 * nbmps + 1 + 1) with (ktop - 2 * nbmps + 2) by lia.
      replace (ktop - 2 * nbmps + 2 + Z.of_nat (Z.to_nat (ktop - 2 - (ktop - 2 * nbmps + 2) + 1))) with (ktop - 1) by lia.
      replace (ktop - 1 + 1) with ktop by lia. reflexivity. }
    destruct R as (js & ->). cbn [for_M].
    match goal with |- bind ?o _ = _ => assert (E : o = Panic); [|rewrite E; reflexivity] end.
    eapply panic_bind; [apply first_krcol; assumption|]. intros s H1.
    apply for_panics with (P := lostS); [exact H1| |].
    - intros k x _. apply krcol_lost.
    - intros x. apply krcol_panics.
  Qed.
End Four.

(** two or more pairs of shifts and V with at most 2*(nshfts/2) - 2 columns (nshfts/2 are documented) *)
Theorem dlaqr5_four_panics {F} {NF : Num F} {SR SI H ZZ V U WV WH} {TSR : ToFA F SR} {TSI : ToFA F SI} {TH : ToFA F H} {FH : FromFA F H}
    {TZ : ToFA F ZZ} {FZ : FromFA F ZZ} {TV : ToFA F V} {FV : FromFA F V} {TU : ToFA F U} {FU : FromFA F U}
    {TWV : ToFA F WV} {FWV : FromFA F WV} {TWH : ToFA F WH} {FWH : FromFA F WH}
    wantt wantz kacc22 n ktop kbot nshfts (sr : SR) (si : SI) (h : H) ldh iloz ihiz (z : ZZ) ldz (v : V) ldv (u : U) ldu nv (wv : WV) ldwv nh (wh : WH) ldwh
    (hf zf vf uf wvf whf : fa F) :
  to_fa_2d h ldh = Ok hf -> to_fa_2d z ldz = Ok zf -> to_fa_2d v ldv = Ok vf ->
  to_fa_2d u ldu = Ok uf -> to_fa_2d wv ldwv = Ok wvf -> to_fa_2d wh ldwh = Ok whf ->
  4 <= nshfts -> ktop < kbot -> 3 <= ldv -> rows vf = ldv -> 1 <= cols vf -> count vf = ldv * cols vf -> cols vf <= 2 * (nshfts / 2) - 2 ->
  dlaqr5 wantt wantz kacc22 n ktop kbot nshfts sr si h ldh iloz ihiz z ldz v ldv u ldu nv wv ldwv nh wh ldwh = Panic.
Proof.
  intros E1 E2 E3 E4 E5 E6 N K L R C CV CM. unfold dlaqr5. rewrite E1, E2, E3, E4, E5, E6. cbn [bind].
  destruct (Z.ltb_spec nshfts 2); [lia|]. destruct (Z.leb_spec kbot ktop); [lia|].
  destruct (shuffle_shifts nshfts (to_fa sr) (to_fa si)) as [sr' si'].
  assert (X : Z.quot (nshfts - Z.rem nshfts 2) 2 = nshfts / 2).
  { assert (X := Z.quot_rem' nshfts 2). replace (nshfts - Z.rem nshfts 2) with (Z.quot nshfts 2 * 2) by lia. rewrite Z.quot_mul by lia. apply Z.quot_div_nonneg; lia. }
  rewrite X, main_panics; [reflexivity|exact L| |exact K| |].
  - apply Z.div_le_lower_bound; lia.
  - cbn [qV]. repeat split; assumption || lia.
  - exact CM.
Qed.
