(** dlahqr: the matrices on which it does not return. *)
From Coq Require Import Ascii.
From Verif Require Import Base Num Array Blas Lapack Dlahqr Spec Lists FaLemmas Blas1Proofs LahqrProofs.

Section Far.
  Context {F : Type} {NF : Num F}.
  Notation fa := (fa F).
  Lemma set2_elem (f : fa) i j v p : elem (set2 f i j v) p = if p =? pos (rows f) i j then option_map (fun _ => v) (elem f p) else elem f p.
  Proof. unfold set2. rewrite mod2_mod1, mod1_elem. destruct (Z.eqb_spec p (pos (rows f) i j)) as [->|]; reflexivity. Qed.
  Lemma set2_get2_far (f : fa) i j v i' j' : pos (rows f) i' j' <> pos (rows f) i j -> get2 (set2 f i j v) i' j' = get2 f i' j'.
  Proof.
    intros N. rewrite !get2_ent. unfold ent. destruct (set2_shape f i j v) as (-> & _). rewrite set2_elem.
    destruct (Z.eqb_spec (pos (rows f) i' j') (pos (rows f) i j)); [contradiction|reflexivity].
  Qed.

  (** same shape, and the elements at positions 1..P kept *)
  Definition keeps (P : Z) (g f : fa) : Prop := same_shape g f /\ forall p, p <= P -> elem g p = elem f p.
  Lemma keeps_refl P f : keeps P f f.
  Proof. split; [apply same_shape_refl|auto]. Qed.
  Lemma keeps_trans P f g k : keeps P f g -> keeps P g k -> keeps P f k.
  Proof. intros [A B] [C D]. split; [eapply same_shape_trans; eassumption|]. intros p Hp. rewrite B, D by assumption. reflexivity. Qed.
  Lemma keeps_set1 P f q (v : F) : P < q -> keeps P (set1 f q v) f.
  Proof. intros H. split; [apply set1_shape|]. intros p Hp. unfold set1. rewrite mod1_elem. destruct (Z.eqb_spec p q); [lia|reflexivity]. Qed.
  Lemma keeps_mod2 P f i j g : P < pos (rows f) i j -> keeps P (mod2 f i j g) f.
  Proof. intros H. split; [apply mod2_shape|]. intros p Hp. rewrite mod2_mod1, mod1_elem. destruct (Z.eqb_spec p (pos (rows f) i j)); [lia|reflexivity]. Qed.
  Lemma keeps_set2 P f i j (v : F) : P < pos (rows f) i j -> keeps P (set2 f i j v) f.
  Proof. apply keeps_mod2. Qed.
  Lemma keeps_for P (is : list Z) (f : fa) body : (forall i g, In i is -> same_shape g f -> keeps P (body i g) g) -> keeps P (for_ is f body) f.
  Proof.
    intros H. apply (for_inv (fun g => keeps P g f)); [apply keeps_refl|]. intros i g Hi Hg.
    eapply keeps_trans; [apply H; [exact Hi|apply Hg]|exact Hg].
  Qed.
  Lemma keeps_get2 P g f i j : keeps P g f -> pos (rows f) i j <= P -> get2 g i j = get2 f i j.
  Proof. intros [(R & _) E] H. rewrite !get2_ent. unfold ent. rewrite R, E by assumption. reflexivity. Qed.
  Lemma keeps_rows P g f : keeps P g f -> rows g = rows f.
  Proof. intros [(R & _) _]. exact R. Qed.
  Lemma keeps_write P (f : fa) lo w f' : P < lo -> write_back f lo w = Ok f' -> keeps P f' f.
  Proof.
    intros HP. unfold write_back. apply (for_M_inv (fun g => keeps P g f)); [apply keeps_refl|].
    intros i s s' Hi Hs. apply in_range in Hi. destruct (vec_get _ _); cbn [bind]; try discriminate. intros [= <-].
    eapply keeps_trans; [apply keeps_set1; lia|exact Hs].
  Qed.
End Far.

Section Top0.
  Context {F : Type} {NF : Num F}.
  Notation fa := (fa F).
  Context (wantt wantz : bool) (n ilo ihi ldh iloz ihiz : Z).
  Variables (h0 wr0 wi0 z0 : fa).
  Hypothesis FH : full h0.
  Hypothesis RH : 0 <= rows h0.
  Hypothesis FZ : wantz = true -> full z0 /\ 0 <= rows z0 /\ 1 <= iloz.
  Hypothesis L1 : 1 <= ilo.
  Context (conv : @hqst F -> outcome unit).
  Hypothesis CV : forall st, hq_ok wantz ilo ihi h0 wr0 wi0 z0 st -> conv st = Ok tt.
  Notation loop := (hq_loop wantt wantz n ilo ihi ldh iloz ihiz conv).
  Notation turn := (turn wantt wantz n ilo ihi ldh iloz ihiz conv).
  Notation head_ok := (head_ok wantz ilo ihi h0 wr0 wi0 z0).
  Notation hq_ok := (hq_ok wantz ilo ihi h0 wr0 wi0 z0).
  Notation small h k := (fle (fabs (get2 h k (k - 1))) (hq_smlnum ilo ihi : F) = true).

  Lemma small_hq h k : small h k -> hq_small ilo ihi h k = true.
  Proof. intros E. unfold hq_small. rewrite E. reflexivity. Qed.

  Lemma scan_first (h : fa) l i k0 : l < i -> hq_small ilo ihi h i = true -> hq_scan ilo ihi h l i k0 = i.
  Proof. intros H E. unfold hq_scan. rewrite range_rev_cons by lia. cbn [for_brk]. rewrite E. reflexivity. Qed.

  (** one turn when the last subdiagonal entry is negligible: a 1 by 1 block is split off *)
  Lemma turn_small st : head_ok st -> ilo < sI st -> small (sH st) (sI st) ->
    exists st', turn st = Ok (st', None) /\ head_ok st' /\ sI st' = sI st - 1 /\ sH st' = set2 (sH st) (sI st) (sI st - 1) f0.
  Proof.
    intros HO Hi SM.
    assert (E : exists st', turn st = Ok (st', None) /\ sI st' = sI st - 1 /\ sH st' = set2 (sH st) (sI st) (sI st - 1) f0).
    { unfold LahqrProofs.turn. set (s0 := mkHq _ _ _ _ _ _ _ _ ilo _ _ _ _ _).
      pose proof (hq_itmax_pos ilo ihi). rewrite range_cons by lia. cbn [for_brk_M].
      assert (E : hq_iter wantt wantz ilo ihi iloz ihiz 0 s0 =
        Ok (mkHq (set2 (sH st) (sI st) (sI st - 1) f0) (sWr st) (sWi st) (sZ st) (sV st) (sT1 st) (sM st) (sI st) (sI st) (sI st) 0 (sKdefl st) (sCs st) (sSn st), true)).
      { unfold hq_iter. rewrite (scan_first _ _ _ _ Hi (small_hq _ _ SM) : hq_scan ilo ihi (sH s0) (sL s0) (sI s0) (sK s0) = sI st).
        destruct (Z.ltb_spec ilo (sI st)); [|lia]. change (sI s0) with (sI st). destruct (Z.leb_spec (sI st - 1) (sI st)); [|lia]. reflexivity. }
      rewrite E. cbn [bind fst snd sIts]. destruct (Z.leb_spec (hq_itmax ilo ihi) 0); [lia|].
      unfold hq_deflate. cbn [sL sI]. rewrite Z.eqb_refl. cbn [bind sH sWr sWi sZ sV sI sK sL sT1 sM sCs sSn sIts].
      destruct HO as ((SH & WR & WI & SZ & WZ & TV) & IH & _).
      assert (SH' : same_shape (set2 (sH st) (sI st) (sI st - 1) f0) h0) by (eapply same_shape_trans; [apply set2_shape|exact SH]).
      rewrite CV.
      2:{ refine (conj SH' (conj (kept_set1 _ _ _ _ _ _ WR _) (conj (kept_set1 _ _ _ _ _ _ WI _) (conj SZ (conj WZ TV))))); lia. }
      cbn [bind]. eexists. split; [reflexivity|]. split; reflexivity. }
    destruct E as (st' & E & I' & H').
    destruct (turn_ok wantt wantz n ilo ihi ldh iloz ihiz h0 wr0 wi0 z0 FH RH FZ L1 conv CV st HO ltac:(lia)) as [(s2 & E2 & _)|(s2 & E2 & HO2 & _)];
      rewrite E in E2; [discriminate|]. injection E2 as <-. exists st'. auto.
  Qed.

  (** every subdiagonal entry negligible: never returns *)
  Lemma loop_triangular fuel : forall st, 2 <= rows h0 -> head_ok st -> ilo <= sI st -> (forall k, ilo < k <= sI st -> small (sH st) k) -> loop fuel st = NoFuel.
  Proof.
    induction fuel as [|fuel IH]; intros st R HO Hi SM.
    - cbn [hq_loop]. destruct (Z.ltb_spec (sI st) ilo); [lia|reflexivity].
    - destruct (Z.eq_dec (sI st) ilo) as [E|N]; [eapply hq_loop_stuck; eassumption|].
      rewrite loop_turn. destruct (Z.ltb_spec (sI st) ilo); [lia|].
      destruct (turn_small st HO) as (st' & E & HO' & I' & H'); [lia|apply SM; lia|]. rewrite E. cbn [bind fst snd].
      apply IH; [assumption|exact HO'|lia|]. intros k Hk. rewrite H'. rewrite set2_get2_far; [apply SM; lia|].
      destruct HO as ((( -> & _) & _) & _). unfold pos. nia.
  Qed.

  (** the first subdiagonal entry negligible: never returns with info = 0 *)
  Hypothesis Z0 : fle (fabs f0) (hq_smlnum ilo ihi : F) = true.
  Hypothesis HR : ihi <= rows h0.
  Hypothesis IL : ilo < ihi.
  Notation P := (pos (rows h0) (ilo + 1) ilo).

  Lemma left_keeps k a b c d e j (h : fa) : same_shape h h0 -> ilo < j -> ilo < k ->
    keeps P (left3 k a b c d e j h) h /\ keeps P (left2 k a b c j h) h.
  Proof.
    intros (R & _) Hj Hk. unfold left3, left2. split.
    - eapply keeps_trans; [apply keeps_set2|eapply keeps_trans; [apply keeps_set2|apply keeps_set2]];
        repeat match goal with |- context [rows (set2 ?f ?i ?j ?v)] => rewrite (proj1 (set2_shape f i j v)) end; rewrite R; unfold pos; nia.
    - eapply keeps_trans; [apply keeps_set2|apply keeps_set2];
        repeat match goal with |- context [rows (set2 ?f ?i ?j ?v)] => rewrite (proj1 (set2_shape f i j v)) end; rewrite R; unfold pos; nia.
  Qed.
  Lemma right_keeps k a b c d e j (h : fa) : same_shape h h0 -> 0 <= j -> ilo < k -> ilo + 2 <= ihi ->
    keeps P (right3 k a b c d e j h) h /\ keeps P (right2 k a b c j h) h.
  Proof.
    intros (R & _) Hj Hk HI. unfold right3, right2. split.
    - eapply keeps_trans; [apply keeps_set2|eapply keeps_trans; [apply keeps_set2|apply keeps_set2]];
        repeat match goal with |- context [rows (set2 ?f ?i ?j ?v)] => rewrite (proj1 (set2_shape f i j v)) end; rewrite R; unfold pos; nia.
    - eapply keeps_trans; [apply keeps_set2|apply keeps_set2];
        repeat match goal with |- context [rows (set2 ?f ?i ?j ?v)] => rewrite (proj1 (set2_shape f i j v)) end; rewrite R; unfold pos; nia.
  Qed.

  Lemma left2_keeps k a b c j (h : fa) : same_shape h h0 -> ilo < j -> ilo < k -> keeps P (left2 k a b c j h) h.
  Proof. intros A B C. apply (left_keeps k a b c b b j h A B C). Qed.
  Lemma left3_keeps k a b c d e j (h : fa) : same_shape h h0 -> ilo < j -> ilo < k -> keeps P (left3 k a b c d e j h) h.
  Proof. apply left_keeps. Qed.
  Lemma right2_keeps k a b c j (h : fa) : same_shape h h0 -> 0 <= j -> ilo < k -> ilo + 2 <= ihi -> keeps P (right2 k a b c j h) h.
  Proof. intros A B C D. apply (right_keeps k a b c b b j h A B C D). Qed.
  Lemma right3_keeps k a b c d e j (h : fa) : same_shape h h0 -> 0 <= j -> ilo < k -> ilo + 2 <= ihi -> keeps P (right3 k a b c d e j h) h.
  Proof. apply right_keeps. Qed.

  Lemma step_keeps i1 i2 l m i k st st' : ilo < l -> l <= m -> m <= k -> 0 <= i1 -> ilo + 2 <= ihi ->
    same_shape (fst (fst (fst st))) h0 ->
    hq_step wantz iloz ihiz i1 i2 l m i k st = Ok st' -> keeps P (fst (fst (fst st'))) (fst (fst (fst st))).
  Proof.
    intros Hl Hm Hk H1 HI. destruct st as [[[h z] v] t1]. cbn [fst]. intros SH. unfold hq_step.
    destruct (hq_reflector h v t1 m i k) as [[v' t]| | |]; cbn [bind]; try discriminate.
    set (h1 := if m <? k then _ else _).
    assert (K1 : keeps P h1 h).
    { unfold h1. destruct (Z.ltb_spec m k).
      - destruct (k <? i - 1).
        + eapply keeps_trans; [apply keeps_set2|eapply keeps_trans; [apply keeps_set2|apply keeps_set2]];
            repeat match goal with |- context [rows (set2 ?f ?i ?j ?v)] => rewrite (proj1 (set2_shape f i j v)) end; rewrite (proj1 SH); unfold pos; nia.
        + eapply keeps_trans; [apply keeps_set2|apply keeps_set2];
            repeat match goal with |- context [rows (set2 ?f ?i ?j ?v)] => rewrite (proj1 (set2_shape f i j v)) end; rewrite (proj1 SH); unfold pos; nia.
      - destruct (Z.ltb_spec l m); [|apply keeps_refl]. apply keeps_mod2. rewrite (proj1 SH). unfold pos. nia. }
    assert (S1 := same_shape_trans _ _ _ (proj1 K1) SH). clearbody h1.
    destruct (_ =? 3); [|destruct (_ =? 2)]; intros [= <-]; cbn [fst].
    1,2: (eapply keeps_trans; [|exact K1]); (eapply keeps_trans; [apply keeps_for|apply keeps_for]);
      intros j g Hj Hg; apply in_range in Hj.
    1,3: first [apply right3_keeps|apply right2_keeps]; try lia; (eapply same_shape_trans; [exact Hg|]); (eapply same_shape_trans; [|exact S1]); apply for_shape;
      intros; first [apply left3_shape|apply left2_shape].
    1,2: first [apply left3_keeps|apply left2_keeps]; try lia; eapply same_shape_trans; eassumption.
    exact K1.
  Qed.

  Lemma hq_start_m (h : fa) sh l i m0 v0 : l <= i - 2 -> l <= fst (hq_start h sh l i m0 v0) <= i - 2.
  Proof.
    intros H. unfold hq_start. rewrite range_rev_cons by lia. cbn [for_brk].
    destruct (Z.eqb_spec (i - 2) l); [cbn; lia|]. destruct (hq_can_start _ _ _); [cbn; lia|].
    apply (for_brk_inv (fun s => l <= fst s <= i - 2)); [cbn; lia|]. intros c [m v] Hc _. apply in_range_rev in Hc.
    destruct (c =? l); [|destruct (hq_can_start _ _ _)]; cbn; lia.
  Qed.

  (** the scan stops above ilo when the first entry is negligible *)
  Lemma scan_top (h : fa) l i k0 : ilo <= l <= ilo + 1 \/ ilo < l -> l < i -> (l = ilo -> small h (ilo + 1)) -> ilo < hq_scan ilo ihi h l i k0.
  Proof.
    intros Hl Hi SM. destruct (Z_le_gt_dec l ilo) as [L|L].
    2:{ destruct (hq_scan_bounds ilo ihi h l i k0) as [A _]. specialize (A Hi). lia. }
    assert (l = ilo) by lia. subst l. specialize (SM eq_refl). clear Hl L. unfold hq_scan.
    set (body := fun ck _ => _).
    assert (G : forall t : nat, forall i k0, Z.of_nat t = i - ilo -> ilo < i -> ilo < for_brk (range_rev (ilo + 1) i) k0 body).
    { induction t as [|t IH]; intros i' k' Ht Hi'; [lia|]. rewrite range_rev_cons by lia. cbn [for_brk]. unfold body at 1.
      destruct (hq_small ilo ihi h i') eqn:E; [lia|]. destruct (Z.eq_dec i' (ilo + 1)) as [->|].
      - exfalso. rewrite (small_hq h (ilo + 1)) in E; [discriminate|exact SM].
      - apply IH; lia. }
    apply (G (Z.to_nat (i - ilo))); lia.
  Qed.

  Notation topsmall st := (small (sH st) (ilo + 1)).
  Lemma small_keeps (h h' : fa) : same_shape h h0 -> keeps P h' h -> small h (ilo + 1) -> small h' (ilo + 1).
  Proof.
    intros (R & _) K SM. rewrite (keeps_get2 P h' h); [exact SM|exact K|]. rewrite R. replace (ilo + 1 - 1) with ilo by lia. lia.
  Qed.

  Lemma iter_top its st st' b : hq_ok st -> ilo < sI st <= ihi -> ilo <= sL st < sI st ->
    topsmall st -> hq_iter wantt wantz ilo ihi iloz ihiz its st = Ok (st', b) -> topsmall st' /\ ilo < sL st'.
  Proof.
    intros OK Hi Hl SM. unfold hq_iter.
    assert (K : ilo < hq_scan ilo ihi (sH st) (sL st) (sI st) (sK st) <= sI st).
    { split; [apply scan_top; [lia|lia|intros _; exact SM]|]. destruct (hq_scan_bounds ilo ihi (sH st) (sL st) (sI st) (sK st)) as [A _]. specialize (A ltac:(lia)). lia. }
    set (k := hq_scan _ _ _ _ _ _) in *. destruct (Z.ltb_spec ilo k); [|lia].
    assert (SH : same_shape (sH st) h0) by apply OK.
    set (h1 := set2 (sH st) k (k - 1) f0).
    assert (S1 : same_shape h1 h0) by (eapply same_shape_trans; [apply set2_shape|exact SH]).
    assert (SM1 : small h1 (ilo + 1)).
    { unfold h1. destruct (Z.eq_dec k (ilo + 1)) as [->|N].
      - rewrite get2_ent. unfold ent. rewrite set2_elem, (proj1 (set2_shape _ _ _ _)), Z.eqb_refl.
        destruct (elem _ _) as [x|] eqn:E; cbn [option_map]; [exact Z0|].
        rewrite get2_ent in SM. unfold ent in SM. rewrite E in SM. exact SM.
      - rewrite set2_get2_far; [exact SM|]. rewrite (proj1 SH). unfold pos. nia. }
    clearbody h1.
    destruct (Z.leb_spec (sI st - 1) k).
    { intros [= <- _]. cbn [sH sL]. split; [exact SM1|lia]. }
    destruct (if wantt then (k, sI st) else (0, 0)) as [i1 i2] eqn:E12.
    assert (I1 : 0 <= i1) by (destruct wantt; injection E12 as <- _; lia).
    set (sh := hq_shifts _).
    assert (M := hq_start_m h1 sh k (sI st) (sM st) (sV st) ltac:(lia)).
    destruct (hq_start h1 sh k (sI st) (sM st) (sV st)) as [m v]. cbn [fst] in M.
    destruct (for_M (range m (sI st - 1)) (h1, sZ st, v, sT1 st) _) as [[[[h2 z2] v2] t2]| | |] eqn:EF; cbn [bind]; try discriminate.
    assert (G : keeps P (fst (fst (fst (h2, z2, v2, t2)))) h1).
    { revert EF. apply (for_M_inv (fun s : fa * fa * fa * F => keeps P (fst (fst (fst s))) h1)); [apply keeps_refl|].
      intros j s s' Hj Hs. apply in_range in Hj. intros E. eapply keeps_trans; [|exact Hs].
      eapply step_keeps; [| | | | | |exact E]; try lia. eapply same_shape_trans; [apply Hs|exact S1]. }
    cbn [fst] in G. intros [= <- _]. cbn [sH sL]. split; [|lia]. eapply small_keeps; eassumption.
  Qed.

  Lemma sweeps_top : forall its st st', hq_ok st -> ilo < sI st <= ihi -> ilo <= sK st <= sI st + 1 -> ilo <= sL st < sI st -> its <> [] -> topsmall st ->
    for_brk_M its st (hq_iter wantt wantz ilo ihi iloz ihiz) = Ok st' -> topsmall st' /\ ilo < sL st'.
  Proof.
    induction its as [|t its IH]; intros st st' OK Hi Hk Hl NE SM; [congruence|]. cbn [for_brk_M].
    destruct (hq_iter_ok wantt wantz ilo ihi iloz ihiz h0 wr0 wi0 z0 t st FH OK ltac:(lia) Hk ltac:(lia)) as (st1 & b & E & OK1 & I1 & K1 & LK & T1 & B1).
    destruct (iter_top t st st1 b OK Hi Hl SM E) as [SM1 L2]. rewrite E. cbn [bind fst snd].
    destruct b; [intros [= <-]; auto|]. specialize (B1 eq_refl). destruct its as [|t2 its]; [cbn [for_brk_M]; intros [= <-]; auto|].
    apply IH; try assumption; try lia. discriminate.
  Qed.

  Lemma deflate_top st st' : hq_ok st -> ilo < sL st -> topsmall st -> hq_deflate wantt wantz n ldh iloz ihiz st = Ok st' -> topsmall st' /\ sL st' = sL st.
  Proof.
    intros OK Hl SM. unfold hq_deflate. destruct (Z.eqb_spec (sL st) (sI st)); [intros [= <-]; auto|].
    destruct (Z.eqb_spec (sL st) (sI st - 1)); [|intros [= <-]; auto].
    set (r := dlanv2 _ _ _ _). set (h1 := set2 (set2 _ _ _ _) _ _ _).
    assert (SH : same_shape (sH st) h0) by apply OK.
    assert (K1 : keeps P h1 (sH st)).
    { unfold h1. eapply keeps_trans; [apply keeps_set2|eapply keeps_trans; [apply keeps_set2|eapply keeps_trans; [apply keeps_set2|apply keeps_set2]]];
        repeat match goal with |- context [rows (set2 ?f ?i ?j ?v)] => rewrite (proj1 (set2_shape f i j v)) end; rewrite (proj1 SH); unfold pos; nia. }
    clearbody h1. assert (R1 : rows h1 = rows h0) by (rewrite (keeps_rows _ _ _ K1); apply SH).
    destruct (if wantt then _ else Ok h1) as [h2| | |] eqn:E2; cbn [bind]; try discriminate.
    assert (K2 : keeps P h2 h1).
    { destruct wantt; [|injection E2 as <-; apply keeps_refl]. revert E2. unfold hq_rot_rows, hq_rot_cols.
      destruct (if sI st <? n then _ else Ok h1) as [h3| | |] eqn:E3; cbn [bind]; try discriminate.
      assert (K3 : keeps P h3 h1).
      { destruct (sI st <? n); [|injection E3 as <-; apply keeps_refl]. revert E3.
        destruct (from2 h1 (sI st - 1) (sI st + 1)); cbn [bind]; try discriminate.
        destruct (from2 h1 (sI st) (sI st + 1)); cbn [bind]; try discriminate.
        destruct (drot _ _ _ _ _ _ _) as [[ra rb]| | |]; cbn [bind]; try discriminate.
        destruct (write_back h1 _ _) as [h4| | |] eqn:W; cbn [bind]; try discriminate.
        intros W2. eapply keeps_trans; (eapply keeps_write; [|eassumption]); unfold fa_idx, pos; rewrite R1; nia. }
      destruct (from2 h3 1 (sI st - 1)); cbn [bind]; try discriminate.
      destruct (from2 h3 1 (sI st)); cbn [bind]; try discriminate.
      destruct (drot _ _ _ _ _ _ _) as [[ra rb]| | |]; cbn [bind]; try discriminate.
      destruct (write_back h3 _ _) as [h4| | |] eqn:W; cbn [bind]; try discriminate.
      assert (R3 : rows h3 = rows h0) by (rewrite (keeps_rows _ _ _ K3); exact R1).
      intros W2. eapply keeps_trans; [|exact K3]. eapply keeps_trans; (eapply keeps_write; [|eassumption]); unfold fa_idx, pos; rewrite R3; nia. }
    destruct (if wantz then _ else _); cbn [bind]; try discriminate. intros [= <-]. cbn [sH sL]. split; [|reflexivity].
    eapply small_keeps; [exact SH| |exact SM]. eapply keeps_trans; eassumption.
  Qed.

  Lemma loop_top fuel : forall st, head_ok st -> ilo <= sI st -> topsmall st -> forall r, loop fuel st = Ok r -> snd r <> 0.
  Proof.
    induction fuel as [|fuel IH]; intros st HO Hi SM r.
    - cbn [hq_loop]. destruct (Z.ltb_spec (sI st) ilo); [lia|discriminate].
    - rewrite loop_turn. destruct (Z.ltb_spec (sI st) ilo); [lia|].
      destruct (Z.eq_dec (sI st) ilo) as [E|N].
      { assert (X := hq_loop_stuck wantt wantz n ilo ihi ldh iloz ihiz h0 wr0 wi0 z0 FH RH FZ L1 conv CV (S fuel) st HO E).
        rewrite loop_turn in X. destruct (Z.ltb_spec (sI st) ilo); [lia|]. rewrite X. discriminate. }
      destruct (turn_ok wantt wantz n ilo ihi ldh iloz ihiz h0 wr0 wi0 z0 FH RH FZ L1 conv CV st HO Hi) as [(s' & E & _)|(s' & E & HO' & _)]; rewrite E; cbn [bind fst snd].
      + intros [= <-]. cbn [snd]. lia.
      + assert (T : ilo <= sI s' /\ topsmall s').
        { revert E. unfold LahqrProofs.turn. set (s0 := mkHq _ _ _ _ _ _ _ _ ilo _ _ _ _ _).
          destruct HO as (OK & IHh & KB & _). specialize (KB Hi). assert (OK0 : hq_ok s0) by exact OK.
          destruct (hq_sweeps_ok wantt wantz ilo ihi iloz ihiz h0 wr0 wi0 z0 FH (range 0 (hq_itmax ilo ihi)) s0) as (s1 & E1 & OK1 & I1 & K1 & LK1 & _ & _); try assumption.
          { pose proof (hq_itmax_pos ilo ihi). rewrite range_cons by lia. discriminate. }
          { change (sL s0) with ilo. change (sI s0) with (sI st). lia. }
          assert (G := sweeps_top (range 0 (hq_itmax ilo ihi)) s0 s1 OK0 ltac:(change (sI s0) with (sI st); lia) KB ltac:(change (sL s0) with ilo; change (sI s0) with (sI st); lia)).
          destruct G as [SM1 L2]; [pose proof (hq_itmax_pos ilo ihi); rewrite range_cons by lia; discriminate|exact SM|exact E1|].
          rewrite E1. cbn [bind]. destruct (_ <=? sIts s1); [discriminate|].
          destruct (hq_deflate wantt wantz n ldh iloz ihiz s1) as [s2| | |] eqn:E2; cbn [bind]; try discriminate.
          destruct (deflate_top s1 s2 OK1 L2 SM1 E2) as [SM2 L3]. destruct (conv _); cbn [bind]; try discriminate. intros [= <-]. cbn [sI sH].
          split; [lia|exact SM2]. }
        destruct T as [T1 T2]. apply IH; assumption.
  Qed.
End Top0.
