(** dlaqr5: the column steps of one chunk, accumulating against not accumulating.
    Near the diagonal both compute the same numbers, for every number type. *)
From Coq Require Import Ascii.
From Verif Require Import Base Num Array Blas Lapack Dlaqr5 Spec Lists FaLemmas LahqrProofs Laqr5Proofs SimLoop.
Open Scope Z_scope.

Section Tail.
  Context {F : Type} {NF : Num F}.
  (** f[(r, c)..] with leading dimension ld is the submatrix that starts at (r, c) *)
  Lemma tail_ent (h : fa F) r c ld : full h -> rows h = ld -> ld <> 0 -> 1 <= pos ld r c ->
    exists l t, from2 h r c = Ok l /\ fa_as_2d (fa_of_vec l) ld = Ok t /\ rows t = ld /\ data t = l /\
      (pos ld r c <= count h -> zlen l = count h - pos ld r c + 1) /\
      forall i j, 1 <= pos ld i j -> ent t i j = ent h (r - 1 + i) (c - 1 + j).
  Proof.
    intros HF HR HL HP. destruct (from1_ok h (pos (rows h) r c) HF) as (l & E & L).
    exists l. unfold fa_as_2d. destruct (Z.eqb_spec ld 0); [contradiction|]. eexists. split; [exact E|]. split; [reflexivity|]. split; [reflexivity|]. split; [reflexivity|].
    unfold full in HF. rewrite HF, HR in L. split; [intros H1; apply L; lia|].
    intros i j Hp. unfold ent. cbn [rows]. rewrite HR. replace (pos ld (r - 1 + i) (c - 1 + j)) with (pos ld r c + (pos ld i j - 1)) by (unfold pos; lia).
    destruct (Z_le_gt_dec (pos ld r c) (count h)) as [H1|H1].
    - destruct L as [_ L]; [lia|lia|]. rewrite elem_zget. cbn [data fa_of_vec]. rewrite L by lia. reflexivity.
    - assert (l = []) as ->.
      { unfold from2, from1 in E. fold (pos (rows h) r c) in E. rewrite HR, HF in E. unfold pos in *.
        destruct (Z.leb_spec 1 ((c - 1) * ld + r)); [|lia]. destruct (Z.leb_spec ((c - 1) * ld + r) (count h)); [lia|]. cbn in E. congruence. }
      transitivity (@None F); [|symmetry]; apply elem_None; [change (count _) with 0|]; lia.
  Qed.
  Lemma tail_get (h : fa F) r c ld : full h -> rows h = ld -> ld <> 0 -> 1 <= pos ld r c ->
    exists l t, from2 h r c = Ok l /\ fa_as_2d (fa_of_vec l) ld = Ok t /\ forall i j, 1 <= pos ld i j -> get2 t i j = get2 h (r - 1 + i) (c - 1 + j).
  Proof.
    intros A B C D. destruct (tail_ent h r c ld A B C D) as (l & t & E1 & E2 & _ & _ & _ & E3). exists l, t. split; [exact E1|]. split; [exact E2|].
    intros i j Hp. rewrite !get2_ent, E3 by exact Hp. reflexivity.
  Qed.
End Tail.

Lemma range_app lo mid hi : lo <= mid + 1 -> mid <= hi -> range lo hi = range lo mid ++ range (mid + 1) hi.
Proof.
  intros H. remember (Z.to_nat (mid + 1 - lo)) as m eqn:E. revert lo H E. induction m as [|m IH]; intros lo H E Hh.
  - replace lo with (mid + 1) by lia. rewrite (range_nil (mid + 1) mid) by lia. reflexivity.
  - rewrite (range_cons lo hi), (range_cons lo mid) by lia. rewrite (IH (lo + 1)) by lia. reflexivity.
Qed.

Section Near.
  Context {F : Type} {NF : Num F}.
  Context (n ldh jt jb : Z).
  Hypothesis (J1 : 1 <= jt).
  Definition near (i j : Z) : Prop := jt <= i <= n /\ 1 <= j <= jb.
  Context (h0 : fa F).
  (** the arrays hold the same near the diagonal; h holds what h0 held away from it *)
  Definition agree (h g : fa F) : Prop := (same_shape h h0 /\ same_shape g h0) /\ n <= rows g /\ (forall i j, near i j -> ent h i j = ent g i j) /\
    (forall i j, 1 <= i <= n -> ~ near i j -> ent h i j = ent h0 i j).

  Lemma agree_refl : n <= rows h0 -> agree h0 h0.
  Proof. intros R. split; [split; apply same_shape_refl|]. split; [exact R|]. split; reflexivity. Qed.
  Lemma agree_rows h g : agree h g -> n <= rows h.
  Proof. intros (((E & _) & (E' & _)) & R & _). lia. Qed.
  Lemma agree_get h g i j : agree h g -> near i j -> get2 h i j = get2 g i j.
  Proof. intros (_ & _ & E & _) N. rewrite !get2_ent, E by exact N. reflexivity. Qed.
  Lemma agree_mod h g i j f : agree h g -> near i j -> agree (mod2 h i j f) (mod2 g i j f).
  Proof.
    intros A N. pose proof (agree_rows _ _ A) as R. destruct A as (S & R' & E & K). split; [|split; [|split]].
    - split; (eapply same_shape_trans; [apply mod2_shape|apply S]).
    - rewrite (proj1 (mod2_shape _ _ _ _)). exact R'.
    - intros a b [N1 N2]. destruct N as [M1 M2]. rewrite !mod2_ent by lia. destruct (_ && _)%bool; [rewrite E by (split; lia); reflexivity|apply E; split; lia].
    - intros a b Ha Nn. destruct N as [M1 M2]. rewrite mod2_ent by lia. destruct (Z.eqb_spec a i), (Z.eqb_spec b j); cbn [andb]; try (apply K; assumption).
      subst. exfalso. apply Nn. split; lia.
  Qed.
  Lemma agree_set h g i j x : agree h g -> near i j -> agree (set2 h i j x) (set2 g i j x).
  Proof. apply agree_mod. Qed.
  (** the right-hand array changes away from the diagonal *)
  Lemma agree_far h g i j f : agree h g -> 1 <= i < jt \/ 1 <= i <= n /\ jb < j -> i <= rows g -> agree h (mod2 g i j f).
  Proof.
    intros A N HI. destruct A as (S & R & E & K). split; [|split; [|split; [|exact K]]].
    - split; [apply S|]. eapply same_shape_trans; [apply mod2_shape|apply S].
    - rewrite (proj1 (mod2_shape _ _ _ _)). exact R.
    - intros a b [N1 N2]. rewrite mod2_ent by lia. destruct (Z.eqb_spec a i), (Z.eqb_spec b j); cbn [andb]; try (apply E; split; lia). lia.
  Qed.
  Ltac nr := split; lia.

  Lemma agree_right3 h g c v2 v3 t1 t2 t3 j : agree h g -> jt <= j <= n -> 1 <= c -> c + 2 <= jb ->
    agree (q5_right3 c v2 v3 t1 t2 t3 j h) (q5_right3 c v2 v3 t1 t2 t3 j g).
  Proof.
    intros A Hj Hc Hb. unfold q5_right3. rewrite !(agree_get h g) by (assumption || nr).
    repeat (apply agree_mod; [|nr]). exact A.
  Qed.
  Lemma agree_right2 h g c v2 t1 t2 j : agree h g -> jt <= j <= n -> 1 <= c -> c + 1 <= jb ->
    agree (q5_right2 c v2 t1 t2 j h) (q5_right2 c v2 t1 t2 j g).
  Proof.
    intros A Hj Hc Hb. unfold q5_right2. rewrite !(agree_get h g) by (assumption || nr).
    repeat (apply agree_mod; [|nr]). exact A.
  Qed.
  Lemma agree_left3 h g r v2 v3 t1 t2 t3 j : agree h g -> 1 <= j <= jb -> jt <= r -> r + 2 <= n ->
    agree (q5_left3 r v2 v3 t1 t2 t3 j h) (q5_left3 r v2 v3 t1 t2 t3 j g).
  Proof.
    intros A Hj Hc Hb. unfold q5_left3. rewrite !(agree_get h g) by (assumption || nr).
    repeat (apply agree_mod; [|nr]). exact A.
  Qed.
  Lemma agree_left2 h g r v2 t1 t2 j : agree h g -> 1 <= j <= jb -> jt <= r -> r + 1 <= n ->
    agree (q5_left2 r v2 t1 t2 j h) (q5_left2 r v2 t1 t2 j g).
  Proof.
    intros A Hj Hc Hb. unfold q5_left2. rewrite !(agree_get h g) by (assumption || nr).
    repeat (apply agree_mod; [|nr]). exact A.
  Qed.
  Lemma far_right3 h g c v2 v3 t1 t2 t3 j : agree h g -> 1 <= j < jt -> j <= n -> agree h (q5_right3 c v2 v3 t1 t2 t3 j g).
  Proof.
    intros A Hj Hn. unfold q5_right3. pose proof (proj1 (proj2 A)) as R.
    repeat (apply agree_far; [|left; lia|rewrite ?(proj1 (mod2_shape _ _ _ _)); lia]). exact A.
  Qed.
  Lemma far_right2 h g c v2 t1 t2 j : agree h g -> 1 <= j < jt -> j <= n -> agree h (q5_right2 c v2 t1 t2 j g).
  Proof.
    intros A Hj Hn. unfold q5_right2. pose proof (proj1 (proj2 A)) as R.
    repeat (apply agree_far; [|left; lia|rewrite ?(proj1 (mod2_shape _ _ _ _)); lia]). exact A.
  Qed.
  Lemma far_left3 h g r v2 v3 t1 t2 t3 j : agree h g -> jb < j -> 1 <= r -> r + 2 <= n -> agree h (q5_left3 r v2 v3 t1 t2 t3 j g).
  Proof.
    intros A Hj H1 Hn. unfold q5_left3. pose proof (proj1 (proj2 A)) as R.
    repeat (apply agree_far; [|right; lia|rewrite ?(proj1 (mod2_shape _ _ _ _)); lia]). exact A.
  Qed.
  Lemma far_left2 h g r v2 t1 t2 j : agree h g -> jb < j -> 1 <= r -> r + 1 <= n -> agree h (q5_left2 r v2 t1 t2 j g).
  Proof.
    intros A Hj H1 Hn. unfold q5_left2. pose proof (proj1 (proj2 A)) as R.
    repeat (apply agree_far; [|right; lia|rewrite ?(proj1 (mod2_shape _ _ _ _)); lia]). exact A.
  Qed.

  (** loops: the same steps on both sides, steps on the right-hand side only *)
  Lemma agree_for (b : Z -> fa F -> fa F) is h g : agree h g -> (forall i h g, In i is -> agree h g -> agree (b i h) (b i g)) ->
    agree (for_ is h b) (for_ is g b).
  Proof.
    revert h g. induction is as [|i is IH]; intros h g A H; [exact A|]. cbn [for_ fold_left].
    apply IH; [apply H; [left; reflexivity|exact A]|]. intros. apply H; [right; assumption|assumption].
  Qed.
  Lemma agree_for_far (b : Z -> fa F -> fa F) is h g : agree h g -> (forall i h g, In i is -> agree h g -> agree h (b i g)) ->
    agree h (for_ is g b).
  Proof.
    revert g. induction is as [|i is IH]; intros g A H; [exact A|]. cbn [for_ fold_left].
    apply IH; [apply H; [left; reflexivity|exact A]|]. intros. apply H; [right; assumption|assumption].
  Qed.
  (** rows: jt..e against lo..e *)
  Lemma agree_rows_loop (b : Z -> fa F -> fa F) lo e h g : lo <= jt -> agree h g ->
    (forall i h g, jt <= i <= e -> agree h g -> agree (b i h) (b i g)) -> (forall i h g, lo <= i < jt -> i <= e -> agree h g -> agree h (b i g)) ->
    agree (for_ (range jt e) h b) (for_ (range lo e) g b).
  Proof.
    intros L A H1 H2. destruct (Z_lt_le_dec e jt).
    - rewrite (range_nil jt) by lia. rewrite for_nil. apply agree_for_far; [exact A|]. intros i h' g' Hi. apply in_range in Hi. apply H2; lia.
    - rewrite (range_app lo (jt - 1) e) by lia. rewrite for_app. replace (jt - 1 + 1) with jt by lia.
      apply agree_for; [|intros i h' g' Hi; apply in_range in Hi; apply H1; lia].
      apply agree_for_far; [exact A|]. intros i h' g' Hi. apply in_range in Hi. apply H2; lia.
  Qed.
  (** columns: s..jb against s..hi *)
  Lemma agree_cols_loop (b : Z -> fa F -> fa F) s hi h g : jb <= hi -> agree h g ->
    (forall i h g, s <= i <= jb -> agree h g -> agree (b i h) (b i g)) -> (forall i h g, jb < i <= hi -> agree h g -> agree h (b i g)) ->
    agree (for_ (range s jb) h b) (for_ (range s hi) g b).
  Proof.
    intros L A H1 H2. destruct (Z_lt_le_dec jb s).
    - rewrite (range_nil s jb) by lia. rewrite for_nil. apply agree_for_far; [exact A|]. intros i h' g' Hi. apply in_range in Hi. apply H2; lia.
    - rewrite (range_app s jb hi) by lia. rewrite for_app.
      apply agree_for_far; [|intros i h' g' Hi; apply in_range in Hi; apply H2; lia].
      apply agree_for; [exact A|]. intros i h' g' Hi. apply in_range in Hi. apply H1; lia.
  Qed.
End Near.

Section Chunk.
  Context {F : Type} {NF : Num F}.
  Context (wantt wantz : bool) (n ktop kbot : Z) (sr si : fa F) (ldh iloz ihiz ldv incol : Z) (h0 : fa F).
  Notation jt := (Z.max ktop incol).
  Notation jb := (Z.min (incol + 4) kbot).
  Notation agree := (agree n jt jb h0).
  Hypothesis (K1 : 1 <= ktop < kbot) (K2 : kbot <= n) (K3 : ktop - 1 <= incol) (L1 : ldh <> 0) (FL : full h0) (RL : rows h0 = ldh).
  Notation slo := (if wantt then 1 else ktop).
  Notation shi := (if wantt then n else kbot).

  Ltac nr := unfold near; lia.

  Lemma vigilant_agree k h g : agree h g -> ktop <= k -> incol <= k <= incol + 1 -> k <= kbot - 2 ->
    agree (q5_vigilant n ktop kbot k h) (q5_vigilant n ktop kbot k g).
  Proof.
    intros A Ka Kb Kc. pose proof (fun i j N => agree_get n jt jb h0 h g i j A N) as E.
    assert (E1 : forall t, (if ktop + 1 <=? k then fadd t (fabs (get2 h k (k - 1))) else t) = (if ktop + 1 <=? k then fadd t (fabs (get2 g k (k - 1))) else t)).
    { intros t. destruct (Z.leb_spec (ktop + 1) k); [rewrite E by nr|]; reflexivity. }
    assert (E2 : forall t, (if ktop + 2 <=? k then fadd t (fabs (get2 h k (k - 2))) else t) = (if ktop + 2 <=? k then fadd t (fabs (get2 g k (k - 2))) else t)).
    { intros t. destruct (Z.leb_spec (ktop + 2) k); [rewrite E by nr|]; reflexivity. }
    assert (E3 : forall t, (if ktop + 3 <=? k then fadd t (fabs (get2 h k (k - 3))) else t) = (if ktop + 3 <=? k then fadd t (fabs (get2 g k (k - 3))) else t)).
    { intros t. destruct (Z.leb_spec (ktop + 3) k); [rewrite E by nr|]; reflexivity. }
    assert (E4 : forall t, (if k <=? kbot - 3 then fadd t (fabs (get2 h (k + 3) (k + 1))) else t) = (if k <=? kbot - 3 then fadd t (fabs (get2 g (k + 3) (k + 1))) else t)).
    { intros t. destruct (Z.leb_spec k (kbot - 3)); [rewrite E by nr|]; reflexivity. }
    assert (E5 : forall t, (if k <=? kbot - 4 then fadd t (fabs (get2 h (k + 4) (k + 1))) else t) = (if k <=? kbot - 4 then fadd t (fabs (get2 g (k + 4) (k + 1))) else t)).
    { intros t. destruct (Z.leb_spec k (kbot - 4)); [rewrite E by nr|]; reflexivity. }
    unfold q5_vigilant. cbv zeta. rewrite E1, E2, E3, E4, E5. rewrite !(E k k), !(E (k + 1) (k + 1)), !(E (k + 1) k), !(E k (k + 1)), !(E (k + 2) (k + 1)) by nr.
    destruct (fne _ _); [|exact A]. destruct (fle _ _); [|exact A]. destruct (_ || _)%bool; [|exact A]. apply agree_set; [lia|exact A|nr].
  Qed.

  Lemma laqr1_3_ext (h g : fa F) a b c d v : (forall i j, 1 <= i <= 3 -> 1 <= j <= 3 -> get2 h i j = get2 g i j) -> laqr1_3 h a b c d v = laqr1_3 g a b c d v.
  Proof. intros E. unfold laqr1_3. rewrite !E by lia. reflexivity. Qed.

  Lemma dlaqr1_agree k h g a b c d vt : agree h g -> ktop <= k -> incol <= k -> k + 3 <= jb ->
    (t <- from2 h (k + 1) (k + 1) ;; dlaqr1 3 t ldh a b c d vt) = (t <- from2 g (k + 1) (k + 1) ;; dlaqr1 3 t ldh a b c d vt).
  Proof.
    intros A Ka Kb Kc. pose proof (proj1 A) as [SH SG].
    assert (LP : 1 <= ldh) by (destruct A as (_ & R & _); rewrite (proj1 SG), RL in R; lia).
    assert (PP : forall i j, 1 <= i -> 1 <= j -> 1 <= pos ldh i j) by (intros; unfold pos; nia).
    destruct (tail_get h (k + 1) (k + 1) ldh) as (lh & th & -> & E1 & G1); [exact (full_shape _ _ SH FL)|rewrite (proj1 SH); exact RL|exact L1|apply PP; lia|].
    destruct (tail_get g (k + 1) (k + 1) ldh) as (lg & tg & -> & E2 & G2); [exact (full_shape _ _ SG FL)|rewrite (proj1 SG); exact RL|exact L1|apply PP; lia|].
    cbn [bind]. unfold dlaqr1. cbn [to_fa_2d ToFA_vec]. rewrite E1, E2. cbn [bind Z.eqb Pos.eqb negb andb].
    rewrite (laqr1_3_ext th tg); [reflexivity|]. intros i j Hi Hj. rewrite G1, G2 by (apply PP; lia).
    apply (agree_get n jt jb h0); [exact A|]. unfold near. lia.
  Qed.

  Lemma collapsed_agree k m beta h g v vt g' v' vt' : agree h g -> ktop <= k -> incol <= k -> k + 3 <= jb ->
    q5_collapsed sr si ldh k m beta g v vt = Ok (g', v', vt') -> exists h', q5_collapsed sr si ldh k m beta h v vt = Ok (h', v', vt') /\ agree h' g'.
  Proof.
    intros A Ka Kb Kc. assert (JT : 1 <= jt) by lia. unfold q5_collapsed.
    pose proof (dlaqr1_agree k h g (get1 sr (2 * m - 1)) (get1 si (2 * m - 1)) (get1 sr (2 * m)) (get1 si (2 * m)) vt A Ka Kb Kc) as E.
    destruct (from2 h (k + 1) (k + 1)) as [th| | |]; cbn [bind] in *; destruct (from2 g (k + 1) (k + 1)) as [tg| | |]; cbn [bind] in *;
      try discriminate; try (intros X; discriminate X); try (rewrite E; intros X; discriminate X); try (rewrite <- E; intros X; discriminate X).
    rewrite E. destruct (dlaqr1 3 tg _ _ _ _ _ _) as [vt1| | |]; cbn [bind]; try discriminate.
    destruct (dlarfg 3 _ _ 1) as [[[x vt_1] vt_2]| | |]; cbn [bind]; try discriminate.
    destruct (fa_insert _ _ _) as [vt2| | |]; cbn [bind]; try discriminate.
    pose proof (fun i j N => agree_get n jt jb h0 h g i j A N) as G. rewrite !(G (k + 1) k), !(G (k + 2) k), !(G k k), !(G (k + 1) (k + 1)), !(G (k + 2) (k + 2)) by nr.
    destruct (flt _ _); intros X; injection X as <- <- <-; (eexists; split; [reflexivity|]); repeat (first [apply agree_set|apply agree_mod]; [exact JT| |nr]); exact A.
  Qed.

  Lemma chase_agree k m h g v vt g' v' vt' : agree h g -> ktop <= k -> incol <= k -> k + 3 <= jb ->
    q5_chase ktop sr si ldh ldv k m g v vt = Ok (g', v', vt') -> exists h', q5_chase ktop sr si ldh ldv k m h v vt = Ok (h', v', vt') /\ agree h' g'.
  Proof.
    intros A Ka Kb Kc. assert (JT : 1 <= jt) by lia. unfold q5_chase. destruct (Z.eqb_spec k (ktop - 1)); [lia|].
    pose proof (agree_get n jt jb h0 h g (k + 3) (k + 2) A ltac:(nr)) as E0. cbv zeta. rewrite E0.
    set (rs := fmul (get2 v 3 m) (get2 g (k + 3) (k + 2))).
    assert (A1 : agree (mod2 (set2 (set2 h (k + 3) k (fmul (fneg rs) (get2 v 1 m))) (k + 3) (k + 1) (fmul (fneg rs) (fmul (get2 v 1 m) (get2 v 2 m)))) (k + 3) (k + 2) (fun x => fsub x (fmul rs (fmul (get2 v 1 m) (get2 v 3 m)))))
                       (mod2 (set2 (set2 g (k + 3) k (fmul (fneg rs) (get2 v 1 m))) (k + 3) (k + 1) (fmul (fneg rs) (fmul (get2 v 1 m) (get2 v 2 m)))) (k + 3) (k + 2) (fun x => fsub x (fmul rs (fmul (get2 v 1 m) (get2 v 3 m)))))).
    { apply agree_mod; [exact JT| |nr]. apply agree_set; [exact JT| |nr]. apply agree_set; [exact JT| |nr]. exact A. }
    set (h1 := mod2 (set2 (set2 h _ _ _) _ _ _) _ _ _) in *. set (g1 := mod2 (set2 (set2 g _ _ _) _ _ _) _ _ _) in *. clearbody h1 g1.
    pose proof (fun i j N => agree_get n jt jb h0 h1 g1 i j A1 N) as G.
    rewrite !(G (k + 2) k), !(G (k + 3) k), !(G (k + 1) k), !(G (k + 3) (k + 1)), !(G (k + 3) (k + 2)) by nr.
    destruct (v_reflect 3 _ _ _ _) as [[v1 beta]| | |]; cbn [bind]; try discriminate.
    destruct (_ || _)%bool; [intros X; injection X as <- <- <-; eexists; split; [reflexivity|]; repeat (apply agree_set; [exact JT| |nr]); exact A1|].
    apply collapsed_agree; assumption.
  Qed.

  (** the states of the two runs *)
  Definition rel (sa sv : q5st (F := F)) : Prop := agree (qH sa) (qH sv) /\ qV sa = qV sv /\ qVt sa = qVt sv.
  (** what a column step does to U *)
  Definition upd_u (k : Z) (v u : fa F) : fa F :=
    let t1 := get2 v 1 1 in let v2 := get2 v 2 1 in let v3 := get2 v 3 1 in
    if k =? kbot - 2 then for_ (range 1 4) u (q5_right2 (k - incol + 1) v2 t1 (fmul t1 v2))
    else for_ (range 1 4) u (q5_right3 (k - incol + 1) v2 v3 t1 (fmul t1 v2) (fmul t1 v3)).

  Notation krcol_ acc := (q5_krcol wantt wantz acc n ktop kbot 1 sr si ldh iloz ihiz ldv incol).

  Lemma krcol_rel k sa sv sv' : incol <= k <= incol + 1 -> k <= kbot - 2 -> rel sa sv -> (k = ktop - 1 -> qH sa = qH sv) ->
    krcol_ false k sv = Ok sv' ->
    exists sa', krcol_ true k sa = Ok sa' /\ rel sa' sv' /\ qU sa' = upd_u k (qV sv') (qU sa) /\ qZ sa' = qZ sa /\ qWv sa' = qWv sa /\ qWh sa' = qWh sa.
  Proof.
    intros Ka Kb (A & EV & EVT) Kc. assert (JT : 1 <= jt) by lia.
    assert (SL : slo <= jt /\ 1 <= slo) by (destruct wantt; lia). assert (SHI : jb <= shi) by (destruct wantt; lia).
    unfold q5_krcol. rewrite mtop_one by lia. unfold upd_u. destruct (Z.eqb_spec k (kbot - 2)) as [EK|NK].
    - rewrite (mbot_zero kbot k) by lia. replace (k + 2 * (0 + 1 - 1)) with k by lia. rewrite EK, Z.eqb_refl, <- EK. cbn [Z.ltb Z.compare andb].
      rewrite (range_rev_nil 1 0) by lia. unfold q5_bulge22. cbn [Z.add]. cbv zeta. replace (k + 2 * (1 - 1)) with k by lia. rewrite EV.
      unfold q5_left_all, q5_acc_u, q5_acc_z, q5_jtop, q5_jbot, q5_kdu. rewrite !(range_rev_nil 1 0) by lia. cbv zeta.
      match goal with |- bind (bind ?x _) _ = _ -> _ => set (cg := x) end.
      match goal with |- _ -> exists _, bind (bind ?x _) _ = _ /\ _ => set (ch := x) end.
      assert (CC : match cg with Ok (g', v') => exists h', ch = Ok (h', v') /\ agree h' g' | _ => True end).
      { unfold cg, ch. destruct (Z.eqb_spec k (ktop - 1)) as [EF|NF'].
        - rewrite (Kc EF) in *. destruct (from2 _ (k + 1) (k + 1)) as [t| | |]; cbn [bind]; try exact I.
          destruct (from2 (qV sv) 1 1) as [t'| | |]; cbn [bind]; try exact I. destruct (dlaqr1 _ _ _ _ _ _ _ _) as [t''| | |]; cbn [bind]; try exact I.
          destruct (to_fa_2d t'' ldv) as [v1| | |]; cbn [bind]; try exact I. destruct (v_reflect _ _ _ _ _) as [[v2 b]| | |]; cbn [bind]; try exact I.
          eexists. split; [reflexivity|exact A].
        - cbv zeta. pose proof (fun i j N => agree_get n jt jb h0 _ _ i j A N) as G. rewrite !(G (k + 2) k), !(G (k + 1) k) by nr.
          destruct (v_reflect _ _ _ _ _) as [[v2 b]| | |]; cbn [bind]; try exact I.
          eexists. split; [reflexivity|]. repeat (apply agree_set; [exact JT| |nr]). exact A. }
      clearbody cg ch. destruct cg as [[g' v']| | |]; cbn [bind]; try discriminate. destruct CC as (h' & -> & A'). cbn [bind].
      set (t1 := get2 v' 1 1). set (v2 := get2 v' 2 1).
      assert (A2 : agree (for_ (range jt (Z.min kbot (k + 3))) h' (q5_right2 (k + 1) v2 t1 (fmul t1 v2))) (for_ (range slo (Z.min kbot (k + 3))) g' (q5_right2 (k + 1) v2 t1 (fmul t1 v2)))).
      { apply agree_rows_loop; [apply SL|exact A'| |]; intros i x y Hi.
        - intros Axy. apply agree_right2; [exact JT|exact Axy|lia|lia|lia].
        - intros Hi' Axy. apply far_right2; [exact JT|exact Axy|lia|lia]. }
      set (h2 := for_ (range jt _) h' _) in *. set (g2 := for_ (range slo _) g' _) in *. clearbody h2 g2.
      assert (A3 : agree (for_ (range (k + 1) jb) h2 (q5_left2 (k + 1) v2 t1 (fmul t1 v2))) (for_ (range (k + 1) shi) g2 (q5_left2 (k + 1) v2 t1 (fmul t1 v2)))).
      { apply agree_cols_loop; [exact SHI|exact A2| |]; intros i x y Hi Axy.
        - apply agree_left2; [exact JT|exact Axy|lia|lia|lia].
        - apply far_left2; [exact JT|exact Axy|lia|lia|lia]. }
      replace (incol + 4 * 1) with (incol + 4) by lia. replace (4 * 1) with 4 by lia. replace (Z.max 1 (ktop - incol)) with 1 by lia.
      set (h3 := for_ (range (k + 1) jb) h2 _) in *. set (g3 := for_ (range (k + 1) shi) g2 _) in *. clearbody h3 g3.
      assert (A4 : agree (if ktop <=? k then q5_vigilant n ktop kbot k h3 else h3) (if ktop <=? k then q5_vigilant n ktop kbot k g3 else g3)).
      { destruct (Z.leb_spec ktop k); [|exact A3]. apply vigilant_agree; [exact A3|lia|lia|lia]. }
      destruct wantz; cbn [bind for_M for_ fold_left qH qV qU qZ qWv qWh qVt]; intros X; injection X as <-; (eexists; split; [reflexivity|]; cbn [qH qV qU qZ qWv qWh qVt];
        split; [split; [exact A4|split; [reflexivity|exact EVT]]|auto]).
    - rewrite (mbot_one kbot k) by lia. rewrite Z.ltb_irrefl. cbn [andb bind]. rewrite (range_rev_cons 1 1), (range_rev_nil 1) by lia. cbn [for_M].
      unfold q5_bulge. cbv zeta. replace (k + 2 * (1 - 1)) with k by lia. rewrite EV, EVT.
      destruct (q5_chase ktop sr si ldh ldv k 1 (qH sv) (qV sv) (qVt sv)) as [[[g' v'] vt']| | |] eqn:EG; cbn [bind]; try discriminate.
      assert (CC : exists h', q5_chase ktop sr si ldh ldv k 1 (qH sa) (qV sv) (qVt sv) = Ok (h', v', vt') /\ agree h' g').
      { destruct (Z.eq_dec k (ktop - 1)) as [EF|NF'].
        - exists g'. rewrite (Kc EF) in *. split; [exact EG|]. rewrite EF in EG. unfold q5_chase in EG. rewrite Z.eqb_refl in EG.
          destruct (from2 _ ktop ktop) as [t| | |]; cbn [bind] in EG; try discriminate. destruct (from2 _ 1 1) as [t'| | |]; cbn [bind] in EG; try discriminate.
          destruct (dlaqr1 _ _ _ _ _ _ _ _) as [t''| | |]; cbn [bind] in EG; try discriminate.
          destruct (to_fa_2d t'' ldv) as [v1| | |]; cbn [bind] in EG; try discriminate. destruct (v_reflect _ _ _ _ _) as [[v2 b]| | |]; cbn [bind] in EG; try discriminate.
          injection EG as <- _ _. exact A.
        - apply (chase_agree k 1 (qH sa) (qH sv)); [exact A|lia|lia|lia|exact EG]. }
      destruct CC as (h' & -> & A'). cbn [bind].
      unfold q5_left_all, q5_acc_u, q5_acc_z, q5_jtop, q5_jbot, q5_kdu. rewrite (range_rev_cons 1 1), (range_rev_nil 1) by lia. cbn [for_ fold_left qH qV qU qZ qWv qWh qVt].
      replace (k + 2 * (1 - 1)) with k by lia. replace (k + 2 * 1) with (k + 2) by lia.
      set (t1 := get2 v' 1 1). set (v2 := get2 v' 2 1). set (v3 := get2 v' 3 1). set (t2 := fmul t1 v2). set (t3 := fmul t1 v3).
      replace (incol + 4 * 1) with (incol + 4) by lia. replace (4 * 1) with 4 by lia.
      replace (Z.max 1 (Z.max (ktop - incol) (k - incol - (k - incol) + 1))) with 1 by lia. replace (Z.min 4 (k - incol + 5)) with 4 by lia.
      assert (A2 : agree (for_ (range jt (Z.min kbot (k + 3))) h' (q5_right3 (k + 1) v2 v3 t1 t2 t3)) (for_ (range slo (Z.min kbot (k + 3))) g' (q5_right3 (k + 1) v2 v3 t1 t2 t3))).
      { apply agree_rows_loop; [apply SL|exact A'| |]; intros i x y Hi.
        - intros Axy. apply agree_right3; [exact JT|exact Axy|lia|lia|lia].
        - intros Hi' Axy. apply far_right3; [exact JT|exact Axy|lia|lia]. }
      set (h2 := for_ (range jt _) h' _) in *. set (g2 := for_ (range slo _) g' _) in *. clearbody h2 g2.
      assert (A3 : agree (q5_left3 (k + 1) v2 v3 t1 t2 t3 (k + 1) h2) (q5_left3 (k + 1) v2 v3 t1 t2 t3 (k + 1) g2)) by (apply agree_left3; [exact JT|exact A2|lia|lia|lia]).
      set (h3 := q5_left3 _ _ _ _ _ _ _ h2) in *. set (g3 := q5_left3 _ _ _ _ _ _ _ g2) in *. clearbody h3 g3.
      assert (A4 : agree (if k <? ktop then h3 else q5_vigilant n ktop kbot k h3) (if k <? ktop then g3 else q5_vigilant n ktop kbot k g3)).
      { destruct (Z.ltb_spec k ktop); [exact A3|]. apply vigilant_agree; [exact A3|lia|lia|lia]. }
      set (h4 := if k <? ktop then h3 else _) in *. set (g4 := if k <? ktop then g3 else _) in *. clearbody h4 g4.
      assert (A5 : agree (for_ (range (Z.max ktop (k + 2)) jb) h4 (q5_left3 (k + 1) v2 v3 t1 t2 t3)) (for_ (range (Z.max ktop (k + 2)) shi) g4 (q5_left3 (k + 1) v2 v3 t1 t2 t3))).
      { apply agree_cols_loop; [exact SHI|exact A4| |]; intros i x y Hi Axy.
        - apply agree_left3; [exact JT|exact Axy|lia|lia|lia].
        - apply far_left3; [exact JT|exact Axy|lia|lia|lia]. }
      destruct wantz; intros X; injection X as <-; (eexists; split; [reflexivity|]; cbn [qH qV qU qZ qWv qWh qVt];
        split; [split; [exact A5|split; [reflexivity|reflexivity]]|auto]).
  Qed.
End Chunk.
