(** dlaqr5 with one pair of shifts, not accumulating, over any number type: the block returned depends on the block given alone. *)
From Coq Require Import ZArith Lia Bool List.
From Verif Require Import Base Num Array Blas Lapack Dlaqr5 Spec Lists FaLemmas Blas1Proofs LarfgProofs LarfgPre LahqrProofs Laqr5Proofs Laqr5Top HqGet Q5Get HqBlock Q5Block Q5BlockRun.
From Verif Require Q5ErrRefl Q5ErrLoop Q5ErrTop.
Import ListNotations.
Open Scope Z_scope.

Section Runs.
  Context {F : Type} {NF : Num F}.
  Notation fa := (fa F).
  Context (n d ktop kbot : Z).
  Hypothesis (Hlo1 : 1 <= ktop + d) (Hhi1 : kbot + d <= n) (Hlo : 1 <= ktop) (Hhi : kbot <= n) (Hkk : ktop < kbot).
  (** the arrays of the first and of the second run *)
  Context (h0 g0 v0 w0 : fa) (sr si sr' si' : fa) (ldh ldg ldv ldw : Z).
  Hypothesis (FF : full h0) (BF : big n h0) (RF : rows h0 = ldh) (FG : full g0) (BG : big n g0) (RG : rows g0 = ldg).
  Hypothesis (DV : dim2 ldv v0) (DW : dim2 ldw w0) (CV : 3 <= count v0) (CW : 3 <= count w0).
  Hypothesis (S1 : get1 sr 1 = get1 sr' 1) (S2 : get1 sr 2 = get1 sr' 2) (S3 : get1 si 1 = get1 si' 1) (S4 : get1 si 2 = get1 si' 2).
  Notation rel := (rel5 d ktop kbot h0 g0).
  Notation rv := (rv v0 w0).

  Lemma tail_rel h g t m : rel h g -> ktop <= t -> 1 <= m <= 3 -> t + m - 1 <= kbot -> exists l l' hf gf,
    from2 h (t + d) (t + d) = Ok l /\ from2 g t t = Ok l' /\ to_fa_2d l ldh = Ok hf /\ to_fa_2d l' ldg = Ok gf /\ forall i j, 1 <= i <= m -> 1 <= j <= m -> get2 hf i j = get2 gf i j.
  Proof.
    intros H Ht Hm Hk. pose proof H as (SH & SG & HG).
    destruct (Q5ErrLoop.tail_fa h n ldh (t + d) m) as (l & hf & E1 & E2 & V); [apply (full_shape _ _ SH FF)|rewrite (proj1 SH); exact RF|apply (big_shape _ _ _ SH BF)|lia|lia|lia|].
    destruct (Q5ErrLoop.tail_fa g n ldg t m) as (l' & gf & E1' & E2' & V'); [apply (full_shape _ _ SG FG)|rewrite (proj1 SG); exact RG|apply (big_shape _ _ _ SG BG)|lia|lia|lia|].
    exists l, l', hf, gf. repeat (split; [assumption|]). intros i j Hi Hj. rewrite (proj1 (V i j Hi Hj)), (proj1 (V' i j Hi Hj)).
    replace (t + d - 1 + i) with (t - 1 + i + d) by lia. replace (t + d - 1 + j) with (t - 1 + j + d) by lia. apply HG; lia.
  Qed.

  Definition r3 (a b : fa * fa * fa) : Prop := let '(h, v, vt) := a in let '(g, w, wt) := b in rel h g /\ rv 3 v w /\ vt = wt.
  Ltac un x := match x with context C [?y + d] => context C [y] end.
  Lemma collapsed_rel k be h g v w vt : rel h g -> rv 3 v w -> ktop <= k -> k + 3 <= kbot ->
    oimp r3 (q5_collapsed sr si ldh (k + d) 1 be h v vt) (q5_collapsed sr' si' ldg k 1 be g w vt).
  Proof.
    intros RH RV K1 K2. unfold q5_collapsed.
    destruct (tail_rel h g (k + 1) 3 RH) as (l & l' & hf & gf & E1 & E1' & E2 & E2' & V); [lia|lia|lia|]. replace (k + 1 + d) with (k + d + 1) in E1 by lia. rewrite E1, E1'. cbn [bind].
    unfold dlaqr1 at 1 2. rewrite E2, E2'. cbn [bind Z.eqb Pos.eqb negb andb Z.mul Pos.mul Z.sub Z.add Z.opp Z.pos_sub Pos.pred_double]. rewrite S1, S2, S3, S4.
    rewrite (laqr1_3_same hf gf _ _ _ _ (to_fa vt) V). eapply oimp_bind; [apply oimp_eq|]. intros vt1 ? _ <-.
    eapply oimp_bind; [apply oimp_eq|]. intros [[x y] z] ? _ <-. eapply oimp_bind; [apply oimp_eq|]. intros vt2 ? _ <-. cbv zeta.
    repeat match goal with |- context [get2 h ?a ?b] => let a' := un a in let b' := un b in rewrite (rel_get d ktop kbot h0 g0 h g a' b' a b RH) by lia end.
    destruct (flt _ _); apply oimp_ok; (split; [|split; [|reflexivity]]).
    - repeat (apply (rel_set n); [lia|lia|lia|lia|assumption|assumption| |lia|lia|lia|lia]). exact RH.
    - exact RV.
    - apply (rel_set n); [lia|lia|lia|lia|assumption|assumption| |lia|lia|lia|lia]. apply (rel_set n); [lia|lia|lia|lia|assumption|assumption| |lia|lia|lia|lia].
      apply (rel_mod n); [lia|lia|lia|lia|assumption|assumption|exact RH|lia|lia|lia|lia|]. rewrite (rel_get d ktop kbot h0 g0 h g (k + 1) k _ _ RH) by lia. reflexivity.
    - assert (SET : forall v w p x, rv 3 v w -> rv 3 (set2 v p 1 x) (set2 w p 1 x)).
      { clear. intros v w p x (A & B & E). split; [eapply same_shape_trans; [apply set2_shape|exact A]|]. split; [eapply same_shape_trans; [apply set2_shape|exact B]|].
        intros q Hq. rewrite !Q5ErrLoop.v_set1, !Q5ErrLoop.set1_el. destruct (Z.eqb_spec q p) as [<-|]; rewrite E by exact Hq; reflexivity. }
      apply SET, SET, SET. exact RV.
  Qed.

  Ltac rdh H := repeat match type of H with rel5 _ _ _ _ _ ?h ?g => match goal with |- context [get2 h ?a ?b] => let a' := un a in let b' := un b in rewrite (rel_get d ktop kbot h0 g0 h g a' b' a b H) by lia end end.
  Ltac rset := apply (rel_set n); [lia|lia|lia|lia|assumption|assumption| |lia|lia|lia|lia].

  Lemma chase_rel k h g v w vt : rel h g -> same_shape v v0 -> same_shape w w0 -> (ktop <= k -> rv 3 v w) -> ktop - 1 <= k -> k + 3 <= kbot ->
    oimp r3 (q5_chase (ktop + d) sr si ldh ldv (k + d) 1 h v vt) (q5_chase ktop sr' si' ldg ldw k 1 g w vt).
  Proof.
    intros RH SV SW RV K1 K2. unfold q5_chase. replace (k + d =? ktop + d - 1) with (k =? ktop - 1) by (rewrite <- (eqb_shift d); f_equal; lia).
    destruct (Z.eqb_spec k (ktop - 1)) as [K|K].
    - destruct (tail_rel h g ktop 3 RH) as (l & l' & hf & gf & -> & -> & E2 & E2' & V); [lia|lia|lia|].
      destruct (Q5ErrLoop.v_whole v v0 ldv SV DV CV) as (lv & -> & LV). destruct (Q5ErrLoop.v_whole w w0 ldw SW DW CW) as (lw & -> & LW). cbn [bind].
      unfold dlaqr1. rewrite E2, E2'. cbn [bind Z.eqb Pos.eqb negb andb Z.mul Pos.mul Z.sub Z.add Z.opp Z.pos_sub Pos.pred_double]. rewrite S1, S2, S3, S4.
      destruct (laqr1_3_rel hf gf (get1 sr' 1) (get1 si' 1) (get1 sr' 2) (get1 si' 2) (fa_of_vec lv) (fa_of_vec lw) V) as (A & B & E); [change (3 <= zlen lv); lia|change (3 <= zlen lw); lia|].
      cbn [from_fa FromFA_vec bind to_fa ToFA_vec].
      destruct (as_v v0 ldv lv _ DV LV A) as (v1 & -> & SV1 & EV). destruct (as_v w0 ldw lw _ DW LW B) as (w1 & -> & SW1 & EW). cbn [bind].
      assert (X1 : rv 3 v1 w1) by (split; [exact SV1|]; split; [exact SW1|]; intros p Hp; rewrite EV, EW; apply E; exact Hp).
      rewrite (rv_get v0 w0 3 v1 w1 1 X1) by lia.
      destruct (reflect_rel v0 w0 ldv ldw 3 (get2 w1 1 1) v1 w1 DV DW CV CW (or_intror eq_refl) SV1 SW1) as (v' & w' & be & -> & -> & R); [intros p Hp; apply X1; lia|].
      cbn [bind fst]. apply oimp_ok. split; [exact RH|]. split; [exact R|reflexivity].
    - specialize (RV ltac:(lia)). cbv zeta. rewrite !(rv_get v0 w0 3 v w 1 RV), !(rv_get v0 w0 3 v w 2 RV), !(rv_get v0 w0 3 v w 3 RV) by lia.
      set (rs := fmul (get2 w 3 1) (get2 g (k + 3) (k + 2))).
      assert (ER : fmul (get2 w 3 1) (get2 h (k + d + 3) (k + d + 2)) = rs) by (unfold rs; rdh RH; reflexivity). rewrite ER.
      set (hc := mod2 (set2 (set2 h _ _ _) _ _ _) _ _ _). set (gc := mod2 (set2 (set2 g _ _ _) _ _ _) _ _ _).
      assert (RC : rel hc gc).
      { assert (R2 : rel (set2 (set2 h (k + d + 3) (k + d) (fmul (fneg rs) (get2 w 1 1))) (k + d + 3) (k + d + 1) (fmul (fneg rs) (fmul (get2 w 1 1) (get2 w 2 1))))
          (set2 (set2 g (k + 3) k (fmul (fneg rs) (get2 w 1 1))) (k + 3) (k + 1) (fmul (fneg rs) (fmul (get2 w 1 1) (get2 w 2 1))))) by (rset; rset; exact RH).
        unfold hc, gc. apply (rel_mod n); [lia|lia|lia|lia|assumption|assumption|exact R2|lia|lia|lia|lia|].
        rewrite (rel_get d ktop kbot h0 g0 _ _ (k + 3) (k + 2) _ _ R2) by lia. reflexivity. }
      clearbody hc gc. rdh RC.
      set (v1 := set2 (set2 v 2 1 _) 3 1 _). set (w1 := set2 (set2 w 2 1 _) 3 1 _).
      destruct (Q5ErrLoop.v_stored3 v v0 (get2 gc (k + 2) k) (get2 gc (k + 3) k) SV CV) as (SV1 & A2 & A3). destruct (Q5ErrLoop.v_stored3 w w0 (get2 gc (k + 2) k) (get2 gc (k + 3) k) SW CW) as (SW1 & B2 & B3).
      fold v1 in SV1, A2, A3. fold w1 in SW1, B2, B3.
      destruct (reflect_rel v0 w0 ldv ldw 3 (get2 gc (k + 1) k) v1 w1 DV DW CV CW (or_intror eq_refl) SV1 SW1) as (v' & w' & be & -> & -> & R).
      { intros p Hp. assert (p = 2 \/ p = 3) as [-> | ->] by lia; [rewrite A2, B2|rewrite A3, B3]; reflexivity. }
      cbn [bind]. destruct (_ || _ || _); [|apply collapsed_rel; try assumption; lia].
      apply oimp_ok. split; [rset; rset; rset; exact RC|]. split; [exact R|reflexivity].
  Qed.
  Definition r2 (a b : fa * fa) : Prop := rel (fst a) (fst b) /\ rv 2 (snd a) (snd b).
  Lemma start2_rel k h g v w : rel h g -> same_shape v v0 -> same_shape w w0 -> ktop - 1 <= k -> k + 2 <= kbot ->
    oimp r2 (start2 (ktop + d) sr si ldh ldv (k + d) h v) (start2 ktop sr' si' ldg ldw k g w).
  Proof.
    intros RH SV SW K1 K2. unfold start2. replace (k + d =? ktop + d - 1) with (k =? ktop - 1) by (rewrite <- (eqb_shift d); f_equal; lia).
    destruct (Z.eqb_spec k (ktop - 1)) as [K|K].
    - destruct (tail_rel h g (k + 1) 2 RH) as (l & l' & hf & gf & E1 & E1' & E2 & E2' & V); [lia|lia|lia|]. replace (k + 1 + d) with (k + d + 1) in E1 by lia. rewrite E1, E1'.
      destruct (Q5ErrLoop.v_whole v v0 ldv SV DV CV) as (lv & -> & LV). destruct (Q5ErrLoop.v_whole w w0 ldw SW DW CW) as (lw & -> & LW). cbn [bind].
      unfold dlaqr1. rewrite E2, E2'. cbn [bind Z.eqb Pos.eqb negb andb]. rewrite S1, S2, S3, S4.
      destruct (laqr1_2_rel hf gf (get1 sr' 1) (get1 si' 1) (get1 sr' 2) (get1 si' 2) (fa_of_vec lv) (fa_of_vec lw) V) as (A & B & E); [change (3 <= zlen lv); lia|change (3 <= zlen lw); lia|].
      cbn [from_fa FromFA_vec bind to_fa ToFA_vec].
      destruct (as_v v0 ldv lv _ DV LV A) as (v1 & -> & SV1 & EV). destruct (as_v w0 ldw lw _ DW LW B) as (w1 & -> & SW1 & EW). cbn [bind].
      assert (X1 : rv 2 v1 w1) by (split; [exact SV1|]; split; [exact SW1|]; intros p Hp; rewrite EV, EW; apply E; exact Hp).
      rewrite (rv_get v0 w0 2 v1 w1 1 X1) by lia.
      destruct (reflect_rel v0 w0 ldv ldw 2 (get2 w1 1 1) v1 w1 DV DW CV CW (or_introl eq_refl) SV1 SW1) as (v' & w' & be & -> & -> & R); [intros p Hp; apply X1; lia|].
      cbn [bind fst]. apply oimp_ok. split; [exact RH|exact R].
    - cbv zeta. rdh RH.
      destruct (Q5ErrLoop.v_stored2 v v0 (get2 g (k + 2) k) SV CV) as (SV1 & A2). destruct (Q5ErrLoop.v_stored2 w w0 (get2 g (k + 2) k) SW CW) as (SW1 & B2).
      destruct (reflect_rel v0 w0 ldv ldw 2 (get2 g (k + 1) k) _ _ DV DW CV CW (or_introl eq_refl) SV1 SW1) as (v' & w' & be & -> & -> & R).
      { intros p Hp. assert (p = 2) as -> by lia. rewrite A2, B2. reflexivity. }
      cbn [bind]. apply oimp_ok. split; [|exact R]. cbn [fst]. rset. rset. exact RH.
  Qed.

  Lemma post3_rel (wt wt' : bool) k h g v w : rel h g -> rv 3 v w -> ktop - 1 <= k -> k + 3 <= kbot ->
    rel (post3 (if wt then 1 else ktop + d) (if wt then n else kbot + d) n (ktop + d) (kbot + d) (k + d) v h) (post3 (if wt' then 1 else ktop) (if wt' then n else kbot) n ktop kbot k w g).
  Proof.
    intros RH RV K1 K2. unfold post3. rewrite !(rv_get v0 w0 3 v w 1 RV), !(rv_get v0 w0 3 v w 2 RV), !(rv_get v0 w0 3 v w 3 RV) by lia. cbv zeta.
    apply (left3_rel n); try assumption; try lia; try (destruct wt; lia); try (destruct wt'; lia).
    rewrite ltb_shift. match goal with |- rel (if ?c then ?a else _) (if _ then ?b else _) => assert (R : rel a b) end.
    { apply (left3_one n); try assumption. apply (right3_rel n); try assumption; try lia; try (destruct wt; lia); try (destruct wt'; lia). }
    destruct (Z.ltb_spec k ktop); [exact R|]. apply (vig_rel n); try assumption; lia.
  Qed.
  Lemma post2_rel (wt wt' : bool) k h g v w : rel h g -> rv 2 v w -> ktop - 1 <= k -> k + 2 <= kbot ->
    rel (post2 (if wt then 1 else ktop + d) (if wt then n else kbot + d) n (ktop + d) (kbot + d) (k + d) v h) (post2 (if wt' then 1 else ktop) (if wt' then n else kbot) n ktop kbot k w g).
  Proof.
    intros RH RV K1 K2. unfold post2. rewrite !(rv_get v0 w0 2 v w 1 RV), !(rv_get v0 w0 2 v w 2 RV) by lia. cbv zeta.
    rewrite leb_shift. match goal with |- rel (if ?c then _ else ?a) (if _ then _ else ?b) => assert (R : rel a b) end.
    { apply (left2_rel n); try assumption; try (destruct wt; lia); try (destruct wt'; lia). apply (right2_rel n); try assumption; try lia; try (destruct wt; lia); try (destruct wt'; lia). }
    destruct (Z.leb_spec ktop k); [|exact R]. apply (vig_rel n); try assumption; lia.
  Qed.

  (** *** the loops *)
  Context (wantt wantz wantt' wantz' : bool) (iloz ihiz iloz' ihiz' ldz ldz' ldu ldu' nv nv' ldwv ldwv' nh nh' ldwh ldwh' : Z).
  Definition inv (k : Z) (s t : @q5st F) : Prop := rel (qH s) (qH t) /\ same_shape (qV s) v0 /\ same_shape (qV t) w0 /\ (ktop <= k <= kbot - 3 -> rv 3 (qV s) (qV t)) /\ qVt s = qVt t.
  Notation kr := (q5_krcol wantt wantz false n (ktop + d) (kbot + d) 1 sr si ldh iloz ihiz ldv).
  Notation kr' := (q5_krcol wantt' wantz' false n ktop kbot 1 sr' si' ldg iloz' ihiz' ldw).
  Lemma krcol_rel i i' k s t : inv k s t -> ktop - 1 <= k <= kbot - 2 -> oimp (inv (k + 1)) (kr i (k + d) s) (kr' i' k t).
  Proof.
    intros (RH & SV & SW & RV & EV) K. destruct (Z.eq_dec k (kbot - 2)) as [E|E].
    - destruct (krcol_two wantt wantz n (ktop + d) (kbot + d) sr si ldh iloz ihiz ldv i (k + d) s) as (zz & ->); [lia|lia|].
      destruct (krcol_two wantt' wantz' n ktop kbot sr' si' ldg iloz' ihiz' ldw i' k t) as (zz' & ->); [lia|lia|].
      eapply oimp_bind; [apply start2_rel; try eassumption; lia|]. intros [h v] [g w] _ [R1 R2]. cbn [fst snd] in *. apply oimp_ok.
      split; [apply post2_rel; try assumption; lia|]. cbn [qV qVt]. split; [apply R2|]. split; [apply R2|]. split; [lia|exact EV].
    - destruct (krcol_three wantt wantz n (ktop + d) (kbot + d) sr si ldh iloz ihiz ldv i (k + d) s) as (zz & ->); [lia|].
      destruct (krcol_three wantt' wantz' n ktop kbot sr' si' ldg iloz' ihiz' ldw i' k t) as (zz' & ->); [lia|].
      rewrite EV. eapply oimp_bind; [apply chase_rel; try eassumption; try lia; intros; apply RV; lia|]. intros [[h v] vt] [[g w] vt'] _ (R1 & R2 & R3). apply oimp_ok.
      split; [apply post3_rel; try assumption; lia|]. cbn [qV qVt]. split; [apply R2|]. split; [apply R2|]. split; [intros _; exact R2|exact R3].
  Qed.
  Notation inc := (q5_incol wantt wantz false n (ktop + d) (kbot + d) 1 sr si ldh iloz ihiz ldz ldv ldu nv ldwv nh ldwh).
  Notation inc' := (q5_incol wantt' wantz' false n ktop kbot 1 sr' si' ldg iloz' ihiz' ldz' ldw ldu' nv' ldwv' nh' ldwh').
  Lemma krcols_rel i i' m : forall k s t, inv k s t -> ktop - 1 <= k -> k + Z.of_nat m <= kbot - 1 ->
    oimp (inv (k + Z.of_nat m)) (for_M (zup (k + d) 1 m) s (kr i)) (for_M (zup k 1 m) t (kr' i')).
  Proof.
    induction m as [|m IH]; intros k s t I K1 K2; cbn [zup for_M]; [replace (k + Z.of_nat 0) with k by lia; apply oimp_ok; exact I|].
    eapply oimp_bind; [apply krcol_rel; [exact I|lia]|]. intros s' t' _ I'. replace (k + d + 1) with (k + 1 + d) by lia. replace (k + Z.of_nat (S m)) with (k + 1 + Z.of_nat m) by lia. apply IH; [exact I'|lia|lia].
  Qed.
  Lemma incol_rel i s t : inv i s t -> ktop - 1 <= i <= kbot - 2 -> oimp (inv (Z.min (i + 2) (kbot - 1))) (inc (i + d) s) (inc' i t).
  Proof.
    intros I K. unfold q5_incol. cbn [bind].
    assert (I' : inv i (mkQ5 (qH s) (qZ s) (qV s) (qU s) (qWv s) (qWh s) (qVt s)) (mkQ5 (qH t) (qZ t) (qV t) (qU t) (qWv t) (qWh t) (qVt t))) by exact I.
    replace (Z.min (i + d + 2 * 1 - 1) (kbot + d - 2)) with (Z.min (i + 1) (kbot - 2) + d) by lia. replace (Z.min (i + 2 * 1 - 1) (kbot - 2)) with (Z.min (i + 1) (kbot - 2)) by lia.
    unfold range. replace (Z.min (i + 1) (kbot - 2) + d - (i + d) + 1) with (Z.min (i + 1) (kbot - 2) - i + 1) by lia.
    set (m := Z.to_nat (Z.min (i + 1) (kbot - 2) - i + 1)).
    pose proof (krcols_rel (i + d) i m i _ _ I' ltac:(lia) ltac:(unfold m; lia)) as R. replace (i + Z.of_nat m) with (Z.min (i + 2) (kbot - 1)) in R by (unfold m; lia).
    eapply oimp_bind; [exact R|]. intros s' t' _ I2. apply oimp_ok. exact I2.
  Qed.
  Lemma incols_rel m : forall i s t, inv i s t -> ktop - 1 <= i -> i + 2 * (Z.of_nat m - 1) <= kbot - 2 ->
    oimp (fun a b => exists k, inv k a b) (for_M (zup (i + d) 2 m) s inc) (for_M (zup i 2 m) t inc').
  Proof.
    induction m as [|m IH]; intros i s t I K1 K2; cbn [zup for_M]; [apply oimp_ok; exists i; exact I|].
    eapply oimp_bind; [apply incol_rel; [exact I|lia]|]. intros s' t' _ I'. destruct m as [|m]; [cbn [zup for_M]; apply oimp_ok; eexists; exact I'|].
    replace (i + d + 2) with (i + 2 + d) by lia. apply IH; [|lia|lia]. replace (i + 2) with (Z.min (i + 2) (kbot - 1)) by lia. exact I'.
  Qed.
  Lemma main_rel s t : rel (qH s) (qH t) -> same_shape (qV s) v0 -> same_shape (qV t) w0 -> qVt s = qVt t ->
    oimp (fun a b => rel (qH a) (qH b))
      (q5_main wantt wantz false n (ktop + d) (kbot + d) 1 sr si ldh iloz ihiz ldz ldv ldu nv ldwv nh ldwh s)
      (q5_main wantt' wantz' false n ktop kbot 1 sr' si' ldg iloz' ihiz' ldz' ldw ldu' nv' ldwv' nh' ldwh' t).
  Proof.
    intros RH SV SW EV. unfold q5_main. set (ha := if ktop + d + 2 <=? kbot + d then _ else _). set (ga := if ktop + 2 <=? kbot then _ else _).
    assert (R : rel ha ga).
    { unfold ha, ga. replace (ktop + d + 2 <=? kbot + d) with (ktop + 2 <=? kbot) by (rewrite <- (leb_shift d); f_equal; lia). destruct (Z.leb_spec (ktop + 2) kbot); [|exact RH]. rset. exact RH. }
    clearbody ha ga. replace (ktop + d - 2 * 1 + 1) with (ktop - 1 + d) by lia. replace (ktop - 2 * 1 + 1) with (ktop - 1) by lia. replace (kbot + d - 2) with (kbot - 2 + d) by lia. cbn [Z.mul Pos.mul].
    unfold range_step. rewrite ltb_shift. replace (kbot - 2 + d - (ktop - 1 + d)) with (kbot - 2 - (ktop - 1)) by lia.
    destruct (Z.ltb_spec (kbot - 2) (ktop - 1)); [lia|].
    assert (I : inv (ktop - 1) (mkQ5 ha (qZ s) (qV s) (qU s) (qWv s) (qWh s) (qVt s)) (mkQ5 ga (qZ t) (qV t) (qU t) (qWv t) (qWh t) (qVt t))).
    { split; [exact R|]. split; [exact SV|]. split; [exact SW|]. split; [lia|exact EV]. }
    pose proof (incols_rel (Z.to_nat ((kbot - 2 - (ktop - 1)) / 2 + 1)) _ _ _ I ltac:(lia)) as Q. intros a Ea. destruct Q with (a := a) as (b & Eb & k & Ik); [|exact Ea|].
    - pose proof (Z.mul_div_le (kbot - 2 - (ktop - 1)) 2 ltac:(lia)). pose proof (Z.div_pos (kbot - 2 - (ktop - 1)) 2 ltac:(lia) ltac:(lia)). lia.
    - exists b. split; [exact Eb|]. apply Ik.
  Qed.
End Runs.

(** one call, opened *)
Lemma dlaqr5_open {F} {NF : Num F} {SR SI H ZZ V U WV WH} (TSR : ToFA F SR) (TSI : ToFA F SI) (TH : ToFA F H) (FH : FromFA F H) (TZ : ToFA F ZZ) (FZ : FromFA F ZZ)
    (TV : ToFA F V) (FV : FromFA F V) (TU : ToFA F U) (FU : FromFA F U) (TWV : ToFA F WV) (FWV : FromFA F WV) (TWH : ToFA F WH) (FWH : FromFA F WH)
    (wantt wantz : bool) kacc22 n ktop kbot (sr : SR) (si : SI) (h : H) ldh iloz ihiz (z : ZZ) ldz (v : V) ldv (u : U) ldu nv (wv : WV) ldwv nh (wh : WH) ldwh hf zf vf uf wvf whf :
  usable_2d TH FH h ldh hf -> usable_2d TZ FZ z ldz zf -> usable_2d TV FV v ldv vf -> usable_2d TU FU u ldu uf -> usable_2d TWV FWV wv ldwv wvf -> usable_2d TWH FWH wh ldwh whf ->
  ktop < kbot -> kacc22 <> 1 -> kacc22 <> 2 -> ldh <> 0 -> rows vf = ldv -> 1 <= cols vf -> 3 <= count vf ->
  exists st h' z' v' u' wv' wh',
    q5_main wantt wantz false n ktop kbot 1 (to_fa sr) (to_fa si) ldh iloz ihiz ldz ldv ldu nv ldwv nh ldwh (mkQ5 hf zf vf uf wvf whf (fa_of_vec [f0; f0; f0])) = Ok st /\
    dlaqr5 wantt wantz kacc22 n ktop kbot 2 sr si h ldh iloz ihiz z ldz v ldv u ldu nv wv ldwv nh wh ldwh = Ok (h', z', v', u', wv', wh') /\ from_fa (qH st) = Ok h' /\ same_shape (qH st) hf.
Proof.
  intros (E1 & W1 & G1) (E2 & W2 & G2) (E3 & W3 & G3) (E4 & W4 & G4) (E5 & W5 & G5) (E6 & W6 & G6) Hk K1 K2 LH RV CV C3.
  rewrite (dlaqr5_run TSR TSI TH FH TZ FZ TV FV TU FU TWV FWV TWH FWH wantt wantz kacc22 n ktop kbot 2 sr si h ldh iloz ihiz z ldz v ldv u ldu nv wv ldwv nh wh ldwh hf zf vf uf wvf whf E1 E2 E3 E4 E5 E6) by lia.
  rewrite nbmps_one by (left; reflexivity). destruct (Z.eqb_spec kacc22 1); [lia|]. destruct (Z.eqb_spec kacc22 2); [lia|]. cbn [orb].
  change (shuffle_shifts 2 (to_fa sr) (to_fa si)) with (to_fa sr, to_fa si). cbn [fst snd].
  destruct (main_total wantt wantz false n ktop kbot (to_fa sr) (to_fa si) ldh iloz ihiz ldz ldv ldu nv ldwv nh ldwh hf zf vf uf wvf whf (proj1 (wf_full hf W1)) LH
    (wf_dim2 ldv vf RV CV W3 (or_introl C3)) C3 (mkQ5 hf zf vf uf wvf whf (fa_of_vec [f0; f0; f0])) eq_refl) as (st & ES & (T1 & T2 & T3) & T4 & T5 & T6).
  { split; [split; [|split]; apply same_shape_refl|]. cbn. auto. }
  rewrite ES. cbn [bind]. rewrite T4, T5, T6.
  destruct (G1 _ T1) as [h' Eh], (G2 _ T2) as [z' Ez], (G3 _ T3) as [v' Ev], (G4 _ (same_shape_refl _)) as [u' Eu], (G5 _ (same_shape_refl _)) as [wv' Ew], (G6 _ (same_shape_refl _)) as [wh' Ex].
  rewrite Eh, Ez, Ev, Eu, Ew, Ex. exists st, h', z', v', u', wv', wh'. split; [reflexivity|]. split; [reflexivity|]. split; [exact Eh|exact T1].
Qed.

Lemma dlaqr5_window {F} {NF : Num F} {SR SI H ZZ V U WV WH SR' SI' H' ZZ' V' U' WV' WH'}
    (TSR : ToFA F SR) (TSI : ToFA F SI) (TH : ToFA F H) (FH : FromFA F H) (TZ : ToFA F ZZ) (FZ : FromFA F ZZ)
    (TV : ToFA F V) (FV : FromFA F V) (TU : ToFA F U) (FU : FromFA F U) (TWV : ToFA F WV) (FWV : FromFA F WV) (TWH : ToFA F WH) (FWH : FromFA F WH)
    (TSR' : ToFA F SR') (TSI' : ToFA F SI') (TH' : ToFA F H') (FH' : FromFA F H') (TZ' : ToFA F ZZ') (FZ' : FromFA F ZZ')
    (TV' : ToFA F V') (FV' : FromFA F V') (TU' : ToFA F U') (FU' : FromFA F U') (TWV' : ToFA F WV') (FWV' : FromFA F WV') (TWH' : ToFA F WH') (FWH' : FromFA F WH')
    n d ktop kbot
    (wantt wantz : bool) kacc22 (sr : SR) (si : SI) (h : H) ldh iloz ihiz (z : ZZ) ldz (v : V) ldv (u : U) ldu nv (wv : WV) ldwv nh (wh : WH) ldwh hf zf vf uf wvf whf
    (wantt' wantz' : bool) kacc22' (sr' : SR') (si' : SI') (h' : H') ldh' iloz' ihiz' (z' : ZZ') ldz' (v' : V') ldv' (u' : U') ldu' nv' (wv' : WV') ldwv' nh' (wh' : WH') ldwh' hf' zf' vf' uf' wvf' whf' :
  usable_2d TH FH h ldh hf -> usable_2d TZ FZ z ldz zf -> usable_2d TV FV v ldv vf -> usable_2d TU FU u ldu uf -> usable_2d TWV FWV wv ldwv wvf -> usable_2d TWH FWH wh ldwh whf ->
  usable_2d TH' FH' h' ldh' hf' -> usable_2d TZ' FZ' z' ldz' zf' -> usable_2d TV' FV' v' ldv' vf' -> usable_2d TU' FU' u' ldu' uf' -> usable_2d TWV' FWV' wv' ldwv' wvf' -> usable_2d TWH' FWH' wh' ldwh' whf' ->
  1 <= ktop < kbot -> kbot <= n -> 1 <= ktop + d -> kbot + d <= n -> kacc22 <> 1 -> kacc22 <> 2 -> kacc22' <> 1 -> kacc22' <> 2 ->
  rows hf = ldh -> n <= ldh -> n * ldh <= count hf -> rows vf = ldv -> 1 <= cols vf -> 3 <= count vf ->
  rows hf' = ldh' -> n <= ldh' -> n * ldh' <= count hf' -> rows vf' = ldv' -> 1 <= cols vf' -> 3 <= count vf' ->
  (forall p, 1 <= p <= 2 -> elem (to_fa sr) p = elem (to_fa sr') p /\ elem (to_fa si) p = elem (to_fa si') p) ->
  (forall a b, ktop <= a <= kbot -> ktop <= b <= kbot -> a < b + 4 -> ent hf (a + d) (b + d) = ent hf' a b) ->
  exists hd oh oz ov ou owv owh hd' oh' oz' ov' ou' owv' owh',
    dlaqr5 wantt wantz kacc22 n (ktop + d) (kbot + d) 2 sr si h ldh iloz ihiz z ldz v ldv u ldu nv wv ldwv nh wh ldwh = Ok (oh, oz, ov, ou, owv, owh) /\
    dlaqr5 wantt' wantz' kacc22' n ktop kbot 2 sr' si' h' ldh' iloz' ihiz' z' ldz' v' ldv' u' ldu' nv' wv' ldwv' nh' wh' ldwh' = Ok (oh', oz', ov', ou', owv', owh') /\
    from_fa hd = Ok oh /\ from_fa hd' = Ok oh' /\ same_shape hd hf /\ same_shape hd' hf' /\
    (forall a b, ktop <= a <= kbot -> ktop <= b <= kbot -> a < b + 4 -> ent hd (a + d) (b + d) = ent hd' a b).
Proof.
  intros U1 U2 U3 U4 U5 U6 U1' U2' U3' U4' U5' U6' Hk Hn Hk1 Hn1 K1 K2 K1' K2' RH NH CH RV CV C3 RH' NH' CH' RV' CV' C3' SS HH.
  destruct (dlaqr5_open TSR TSI TH FH TZ FZ TV FV TU FU TWV FWV TWH FWH wantt wantz kacc22 n (ktop + d) (kbot + d) sr si h ldh iloz ihiz z ldz v ldv u ldu nv wv ldwv nh wh ldwh hf zf vf uf wvf whf
    U1 U2 U3 U4 U5 U6 ltac:(lia) K1 K2 ltac:(lia) RV CV C3) as (st & oh & oz & ov & ou & owv & owh & ES & EO & EH & SH).
  destruct (dlaqr5_open TSR' TSI' TH' FH' TZ' FZ' TV' FV' TU' FU' TWV' FWV' TWH' FWH' wantt' wantz' kacc22' n ktop kbot sr' si' h' ldh' iloz' ihiz' z' ldz' v' ldv' u' ldu' nv' wv' ldwv' nh' wh' ldwh' hf' zf' vf' uf' wvf' whf'
    U1' U2' U3' U4' U5' U6' ltac:(lia) K1' K2' ltac:(lia) RV' CV' C3') as (st' & oh' & oz' & ov' & ou' & owv' & owh' & ES' & EO' & EH' & SH').
  assert (B : big n hf) by (split; [lia|rewrite RH; exact CH]). assert (B' : big n hf') by (split; [lia|rewrite RH'; exact CH']).
  destruct U1 as (_ & W1 & _), U1' as (_ & W1' & _), U3 as (_ & W3 & _), U3' as (_ & W3' & _).
  assert (G : forall f g p, elem f p = elem g p -> get1 f p = get1 g p) by (intros f g p X; rewrite !get1_elem, X; reflexivity).
  assert (R0 : rel5 d ktop kbot hf hf' hf hf').
  { split; [apply same_shape_refl|]. split; [apply same_shape_refl|]. intros a b Ha Hb L. rewrite !get2_ent, HH by assumption. reflexivity. }
  destruct (main_rel n d ktop kbot Hk1 Hn1 (proj1 Hk) Hn (proj2 Hk) hf hf' vf vf' (to_fa sr) (to_fa si) (to_fa sr') (to_fa si') ldh ldh' ldv ldv'
    (proj1 (wf_full hf W1)) B RH (proj1 (wf_full hf' W1')) B' RH' (wf_dim2 ldv vf RV CV W3 (or_introl C3)) (wf_dim2 ldv' vf' RV' CV' W3' (or_introl C3')) C3 C3'
    (G _ _ _ (proj1 (SS 1 ltac:(lia)))) (G _ _ _ (proj1 (SS 2 ltac:(lia)))) (G _ _ _ (proj2 (SS 1 ltac:(lia)))) (G _ _ _ (proj2 (SS 2 ltac:(lia))))
    wantt wantz wantt' wantz' iloz ihiz iloz' ihiz' ldz ldz' ldu ldu' nv nv' ldwv ldwv' nh nh' ldwh ldwh'
    (mkQ5 hf zf vf uf wvf whf (fa_of_vec [f0; f0; f0])) (mkQ5 hf' zf' vf' uf' wvf' whf' (fa_of_vec [f0; f0; f0])) R0 (same_shape_refl _) (same_shape_refl _) eq_refl st ES) as (st2 & ES2 & R).
  rewrite ES' in ES2. injection ES2 as <-.
  exists (qH st), oh, oz, ov, ou, owv, owh, (qH st'), oh', oz', ov', ou', owv', owh'. do 6 (split; [assumption|]).
  intros a b Ha Hb L. destruct R as (_ & _ & R).
  rewrite !(Q5ErrTop.big_ent n) by (lia || (eapply big_shape; eassumption)). f_equal. apply R; assumption.
Qed.

Lemma window5_hyps {F} {NF : Num F} (x : F) : let d m := fdy m 0 in
  let h := [[d 1; d 4; d 0; x; x]; [d 2; d 5; d 7; x; x]; [d 3; d 6; d 8; x; x]; [x; x; x; x; x]; [x; x; x; x; x]] in
  let g := [[x; x; x; x; x]; [x; d 1; d 4; d 0; x]; [x; d 2; d 5; d 7; x]; [x; d 3; d 6; d 8; x]; [x; x; x; x; x]] in
  let w := [x; x; x] in
  (usable_2d _ _ h 5 (fa_of_nested h) /\ usable_2d _ _ g 5 (fa_of_nested g) /\ rows (fa_of_nested h) = 5 /\ rows (fa_of_nested g) = 5 /\ count (fa_of_nested h) = 25 /\ count (fa_of_nested g) = 25) /\
  (exists vf, usable_2d _ _ w 3 vf /\ rows vf = 3 /\ 1 <= cols vf /\ 3 <= count vf) /\
  (forall a b, 2 <= a <= 4 -> 2 <= b <= 4 -> ent (fa_of_nested h) (a + -1) (b + -1) = ent (fa_of_nested g) a b).
Proof.
  intros d h g w. split.
  { split; [apply (usable_2d_nested h 5); [lia|discriminate|repeat constructor]|]. split; [apply (usable_2d_nested g 5); [lia|discriminate|repeat constructor]|]. repeat split. }
  split. { destruct (usable_2d_vec w 3 1) as (f & U & R & C & D); [lia|lia|reflexivity|]. exists f. split; [exact U|]. split; [exact R|]. split; [lia|]. rewrite count_zlen, D. unfold zlen. cbn. lia. }
  intros a b Ha Hb. assert (a = 2 \/ a = 3 \/ a = 4) as A by lia. assert (b = 2 \/ b = 3 \/ b = 4) as B by lia.
  destruct A as [->|[->| ->]], B as [->|[->| ->]]; reflexivity.
Qed.
