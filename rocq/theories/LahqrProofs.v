(** dlahqr: what holds for every number type. *)
From Coq Require Import Ascii.
From Verif Require Import Base Num Array Blas Lapack Dlahqr Spec Lists FaLemmas Blas1Proofs.

(** totality of dlarfg on a FortranArray, with its shape *)
Section Larfg.
  Context {F : Type} {NF : Num F}.
  Lemma dscal_shape n da (x : fa F) incx : exists x', dscal n da x incx = Ok x' /\ same_shape x' x.
  Proof.
    destruct (dscal_spec n da x incx) as [Q U].
    destruct (Z_le_gt_dec n 0); [exists x; split; [apply Q; auto|apply same_shape_refl]|].
    destruct (Z_le_gt_dec incx 0); [exists x; split; [apply Q; auto|apply same_shape_refl]|].
    destruct (feq da f1) eqn:E; [exists x; split; [apply Q; auto|apply same_shape_refl]|].
    destruct U as (d & Ed & (Sh & _)); [lia|lia|reflexivity|]. exists d. rewrite Ed. split; [reflexivity|exact Sh].
  Qed.
  Lemma larfg_loop_shape fuel n incx s r : forall knt (x : fa F) beta alpha, (20 <= knt + fuel)%nat ->
    exists knt' x' beta' alpha', dlarfg_loop fuel n incx s r knt x beta alpha = Ok (knt', x', beta', alpha') /\ same_shape x' x.
  Proof.
    induction fuel as [|fuel IH]; intros knt x beta alpha H; cbn [dlarfg_loop];
      destruct (dscal_shape (n - 1) r x incx) as (x1 & -> & C1); cbn [bind].
    - destruct (Nat.ltb_spec 20 (S knt)); [|lia]. rewrite orb_true_r. do 4 eexists. split; [reflexivity|assumption].
    - destruct (flt _ _ || _)%bool eqn:E.
      + do 4 eexists. split; [reflexivity|assumption].
      + destruct (IH (S knt) x1 (fmul beta r) (fmul alpha r)) as (k & x' & b & a & -> & C); [lia|].
        do 4 eexists. split; [reflexivity|]. eapply same_shape_trans; eassumption.
  Qed.
  Lemma dlarfg_shape n alpha (x : fa F) incx : exists beta x' tau, dlarfg n alpha x incx = Ok (beta, x', tau) /\ same_shape x' x.
  Proof.
    unfold dlarfg. destruct (n <=? 1)%Z; [do 3 eexists; split; [reflexivity|apply same_shape_refl]|].
    destruct (feq _ _); [do 3 eexists; split; [reflexivity|apply same_shape_refl]|].
    destruct (flt _ _).
    - destruct (larfg_loop_shape 20 n incx larfg_safmin (fdiv f1 larfg_safmin) 0 x (larfg_beta alpha (dnrm2 (n - 1) x incx)) alpha)
        as (k & x1 & b & a & -> & C); [lia|]. cbn [bind].
      match goal with |- context [dscal ?n ?d x1 ?i] => destruct (dscal_shape n d x1 i) as (x2 & -> & C2) end. cbn [bind].
      do 3 eexists. split; [reflexivity|]. eapply same_shape_trans; eassumption.
    - cbn [bind]. match goal with |- context [dscal ?n ?d x ?i] => destruct (dscal_shape n d x i) as (x2 & -> & C2) end. cbn [bind].
      do 3 eexists. split; [reflexivity|assumption].
  Qed.

  Lemma dcopy_fa_shape n (dx : fa F) incx (dy : fa F) incy : same_shape (dcopy_fa n dx incx dy incy) dy.
  Proof.
    unfold dcopy_fa. destruct (_ && _)%bool.
    - set (d1 := if (_ =? 0)%Z then _ else _).
      assert (S1 : same_shape d1 dy).
      { unfold d1. destruct (_ =? 0)%Z; [apply same_shape_refl|]. apply for_shape. intros; apply set1_shape. }
      destruct (_ && _)%bool; [exact S1|]. eapply same_shape_trans; [|exact S1]. apply for_shape. intros i g _. unfold dcopy_block.
      repeat (eapply same_shape_trans; [apply set1_shape|]). apply same_shape_refl.
    - assert (G : same_shape (snd (for_ (range 1 n) (start_ix n incx, start_ix n incy, dy)
          (fun _ '(ix, iy, d) => ((ix + incx)%Z, (iy + incy)%Z, set1 d iy (get1 dx ix))))) dy).
      { apply (for_inv (fun s => same_shape (snd s) dy)); [apply same_shape_refl|].
        intros i [[ix iy] d] _ Hs. cbn [snd] in *. eapply same_shape_trans; [apply set1_shape|exact Hs]. }
      destruct (for_ _ _ _) as [[? ?] d]. exact G.
  Qed.

  Lemma drot_fa_shape n (dx : fa F) incx (dy : fa F) incy c s :
    same_shape (fst (drot_fa n dx incx dy incy c s)) dx /\ same_shape (snd (drot_fa n dx incx dy incy c s)) dy.
  Proof.
    unfold drot_fa. destruct (_ && _)%bool.
    - apply (for_inv (fun r => same_shape (fst r) dx /\ same_shape (snd r) dy)); [split; apply same_shape_refl|].
      intros i [x y] _ [H1 H2]. cbn [fst snd] in *. split; (eapply same_shape_trans; [apply set1_shape|assumption]).
    - assert (G : let r := snd (for_ (range 1 n) (start_ix n incx, start_ix n incy, (dx, dy))
          (fun _ '(ix, iy, (x, y)) => ((ix + incx)%Z, (iy + incy)%Z, drot_step c s ix iy x y))) in
          same_shape (fst r) dx /\ same_shape (snd r) dy).
      { apply (for_inv (fun st => same_shape (fst (snd st)) dx /\ same_shape (snd (snd st)) dy)); [split; apply same_shape_refl|].
        intros i [[ix iy] [x y]] _ [H1 H2]. cbn [fst snd] in *. split; (eapply same_shape_trans; [apply set1_shape|assumption]). }
      cbv zeta in G. destruct (for_ _ _ _) as [[? ?] r]. exact G.
  Qed.
  Lemma drot_lists n (x y : list F) incx incy c s : exists x' y', drot n x incx y incy c s = Ok (x', y') /\
    zlen x' = zlen x /\ zlen y' = zlen y.
  Proof.
    unfold drot. destruct (n <=? 0); [do 2 eexists; split; [reflexivity|auto]|].
    pose proof (drot_fa_shape n (to_fa x) incx (to_fa y) incy c s) as [H1 H2].
    destruct (drot_fa _ _ _ _ _ _ _) as [a b]. cbn [fst snd] in *. cbn. do 2 eexists. split; [reflexivity|].
    destruct H1 as (_ & _ & H1), H2 as (_ & _ & H2). unfold count in *. cbn in *. unfold zlen, vec_of_fa. split; lia.
  Qed.
End Larfg.

Ltac shapes := repeat first [apply same_shape_refl | eapply same_shape_trans; [first [apply set2_shape|apply set1_shape|apply mod2_shape|apply mod1_shape]|]].

Section Lahqr.
  Context {F : Type} {NF : Num F}.
  Notation fa := (fa F).

  Lemma left3_shape k a b c d e j (h : fa) : same_shape (left3 k a b c d e j h) h.
  Proof. unfold left3. shapes. Qed.
  Lemma left2_shape k a b c j (h : fa) : same_shape (left2 k a b c j h) h.
  Proof. unfold left2. shapes. Qed.
  Lemma right3_shape k a b c d e j (h : fa) : same_shape (right3 k a b c d e j h) h.
  Proof. unfold right3. shapes. Qed.
  Lemma right2_shape k a b c j (h : fa) : same_shape (right2 k a b c j h) h.
  Proof. unfold right2. shapes. Qed.

  (** reading a tail never panics when the storage matches the declared length *)
  Definition full (f : fa) : Prop := fa_len f = count f.
  Lemma full_shape f g : same_shape f g -> full g -> full f.
  Proof. unfold full, fa_len, fa_is_2d. intros (E1 & E2 & E3) H. rewrite E1, E2, E3. exact H. Qed.
  Lemma from1_ok (f : fa) s : full f -> exists l, from1 f s = Ok l /\
    (1 <= s -> s <= fa_len f -> zlen l = fa_len f - s + 1 /\ forall p, 0 <= p -> zget l p = elem f (s + p)).
  Proof.
    intros HF. unfold from1, slice_from. destruct (Z.leb_spec 1 s); destruct (Z.leb_spec s (fa_len f)); cbn [andb];
      try (eexists; split; [reflexivity|lia]).
    unfold full in HF. rewrite count_zlen in HF. destruct (Z.ltb_spec (s - 1) 0); [lia|]. destruct (Z.ltb_spec (zlen (data f)) (s - 1)); [lia|].
    cbn [orb]. eexists. split; [reflexivity|]. intros _ _. split; [rewrite zlen_skipn by lia; lia|].
    intros p Hp. rewrite zget_skipn by lia. rewrite elem_zget. f_equal. lia.
  Qed.
  Lemma from2_ok (f : fa) i j : full f -> exists l, from2 f i j = Ok l /\
    (1 <= pos (rows f) i j -> pos (rows f) i j <= fa_len f -> zlen l = fa_len f - pos (rows f) i j + 1).
  Proof. intros H. destruct (from1_ok f (pos (rows f) i j) H) as (l & E & L). exists l. split; [exact E|]. intros A B. apply L; assumption. Qed.

  (** a work vector of three elements whose declared length is 2 or 3 *)
  Definition three (v : fa) : Prop := count v = 3 /\ 2 <= fa_len v <= 3.
  Lemma three_shape v w : same_shape v w -> three w -> three v.
  Proof. unfold three, fa_len, fa_is_2d. intros (E1 & E2 & E3) H. rewrite E1, E2, E3. exact H. Qed.

  Section Params.
    Context (wantt wantz : bool) (n ilo ihi ldh iloz ihiz : Z).
    Variables (h0 wr0 wi0 z0 : fa).

    Lemma hq_clear_shape (h : fa) : same_shape (hq_clear ilo ihi h) h.
    Proof.
      unfold hq_clear. destruct (ilo <=? ihi - 2); [eapply same_shape_trans; [apply set2_shape|]|];
        (apply for_shape; intros; shapes).
    Qed.

    Lemma hq_firstcol_shape (h : fa) sh m v : same_shape (hq_firstcol h sh m v) v.
    Proof. unfold hq_firstcol. destruct sh as [[[a b] c] d]. shapes. Qed.
    Lemma hq_start_shape (h : fa) sh l i m0 v0 : same_shape (snd (hq_start h sh l i m0 v0)) v0.
    Proof.
      unfold hq_start. apply (for_brk_inv (fun s => same_shape (snd s) v0)); [apply same_shape_refl|].
      intros cm [m v] _ Hs. cbn [snd] in Hs. assert (G := hq_firstcol_shape h sh cm v).
      destruct (cm =? l); [|destruct (hq_can_start _ _ _)]; cbn [fst snd]; (eapply same_shape_trans; eassumption).
    Qed.

    Lemma hq_reflector_ok (h v : fa) t1 m i k : full h -> three v ->
      exists v' t, hq_reflector h v t1 m i k = Ok (v', t) /\ three v'.
    Proof.
      intros FH TV. unfold hq_reflector.
      assert (E1 : exists v1, (if m <? k then t <- from2 h k (k - 1);; dcopy (Z.min 3 (i - k + 1)) t 1 v 1 else Ok v) = Ok v1 /\ three v1).
      { destruct (m <? k); [|exists v; auto]. destruct (from2_ok h k (k - 1) FH) as (t & -> & _). cbn [bind]. unfold dcopy.
        destruct (_ <=? 0); [exists v; auto|]. eexists. split; [reflexivity|]. eapply three_shape; [apply dcopy_fa_shape|exact TV]. }
      destruct E1 as (v1 & -> & [C1 L1]). cbn [bind].
      assert (E2 : exists a b, from1 v1 2 = Ok [a; b]).
      { unfold from1, slice_from. destruct (Z.leb_spec 2 (fa_len v1)); [|lia]. change ((1 <=? 2) && true) with true.
        rewrite count_zlen in C1. cbn [andb]. change (2 - 1 <? 0) with false. destruct (Z.ltb_spec (zlen (data v1)) (2 - 1)); [lia|]. cbn [orb].
        unfold zlen in C1. destruct (data v1) as [|x [|y [|w [|]]]]; cbn in C1; try lia. do 2 eexists. reflexivity. }
      destruct E2 as (a & b & ->). cbn [bind].
      destruct (dlarfg_shape (Z.min 3 (i - k + 1)) (get1 v1 1) (to_fa [a; b]) 1) as (be & x' & tau & -> & (R & C & N)). cbn [bind].
      unfold fa_insert. assert (L : fa_len x' = 2) by (unfold fa_len, fa_is_2d; rewrite R, C; reflexivity). rewrite L.
      change ((1 <=? 1) && (1 <? 2)) with true. cbv iota. destruct (Z.ltb_spec (zlen (data x')) (1 - 1)); [pose proof (zlen_nonneg (data x')); lia|].
      cbn [bind]. do 2 eexists. split; [reflexivity|]. split.
      - unfold count in *. cbn [data] in *. change (Z.to_nat (1 - 1)) with 0%nat. cbn [firstn skipn app length]. rewrite Nat2Z.inj_succ. cbn in N. lia.
      - unfold fa_len, fa_is_2d in *. cbn [rows cols] in *. lia.
    Qed.

    Definition step_ok (st : fa * fa * fa * F) : Prop :=
      let '(h, z, v, _) := st in same_shape h h0 /\ same_shape z z0 /\ (wantz = false -> z = z0) /\ three v.

    Lemma hq_step_ok i1 i2 l m i k st : full h0 -> step_ok st ->
      exists st', hq_step wantz iloz ihiz i1 i2 l m i k st = Ok st' /\ step_ok st'.
    Proof.
      intros FH. destruct st as [[[h z] v] t1]. intros (SH & SZ & WZ & TV). unfold hq_step.
      destruct (hq_reflector_ok h v t1 m i k) as (v' & t & -> & TV'); [eapply full_shape; eassumption|assumption|]. cbn [bind].
      set (h1 := if m <? k then _ else _).
      assert (SH1 : same_shape h1 h0).
      { eapply same_shape_trans; [|exact SH]. unfold h1. destruct (m <? k); [destruct (k <? i - 1); shapes|]. destruct (l <? m); shapes. }
      clearbody h1.
      destruct (_ =? 3); [|destruct (_ =? 2)]; eexists; (split; [reflexivity|]); (split; [|split; [|split; [|assumption]]]).
      all: first [assumption
        | eapply same_shape_trans; [apply for_shape; intros; first [apply right3_shape|apply right2_shape]|];
          eapply same_shape_trans; [apply for_shape; intros; first [apply left3_shape|apply left2_shape]|assumption]
        | destruct wantz; [|auto]; eapply same_shape_trans; [apply for_shape; intros; first [apply right3_shape|apply right2_shape]|assumption]
        | destruct wantz; [intros X; discriminate X|auto] | idtac].
    Qed.

    (** the scan stops between l and i, or leaves k alone *)
    Lemma hq_scan_bounds (h : fa) l i k0 : (l < i -> l <= hq_scan ilo ihi h l i k0 <= i) /\ (i <= l -> hq_scan ilo ihi h l i k0 = k0).
    Proof.
      split; intros H.
      - unfold hq_scan.
        assert (G : forall j k, l <= k <= i -> l <= j <= i -> l <= for_brk (range_rev (l + 1) j) k
          (fun ck _ => if hq_small ilo ihi h ck then (ck, true) else (ck - 1, false)) <= i).
        { intros j k Hk Hj. apply (for_brk_inv (fun k => l <= k <= i)); [exact Hk|]. intros c s Hc _. apply in_range_rev in Hc.
          destruct (hq_small _ _ _ _); cbn [fst]; lia. }
        rewrite range_rev_cons by lia. cbn [for_brk]. destruct (hq_small ilo ihi h i); [lia|]. apply G; lia.
      - unfold hq_scan. rewrite range_rev_nil by lia. reflexivity.
    Qed.

    Lemma kept_set1 lo hi (f0 f : fa) i (x : F) : kept_outside lo hi f0 f -> lo <= i <= hi -> kept_outside lo hi f0 (set1 f i x).
    Proof.
      intros [S K] Hi. split; [eapply same_shape_trans; [apply set1_shape|exact S]|]. intros p Hp. unfold set1. rewrite mod1_elem.
      destruct (Z.eqb_spec p i); [lia|]. apply K. exact Hp.
    Qed.

    (** holds of the state at every moment after initialisation *)
    Definition hq_ok (st : hqst) : Prop :=
      same_shape (sH st) h0 /\ kept_outside ilo ihi wr0 (sWr st) /\ kept_outside ilo ihi wi0 (sWi st) /\
      same_shape (sZ st) z0 /\ (wantz = false -> sZ st = z0) /\ three (sV st).

    Lemma hq_iter_ok its st : full h0 -> hq_ok st -> ilo <= sI st -> ilo <= sK st <= sI st + 1 -> ilo <= sL st <= sI st + 1 ->
      exists st' b, hq_iter wantt wantz ilo ihi iloz ihiz its st = Ok (st', b) /\ hq_ok st' /\
        sI st' = sI st /\ ilo <= sK st' <= sI st + 1 /\ sL st' = sK st' /\ sIts st' = its /\ (b = false -> sL st' < sI st - 1).
    Proof.
      intros FH (SH & WR & WI & SZ & WZ & TV) Hi Hk Hl. unfold hq_iter.
      set (k := hq_scan ilo ihi (sH st) (sL st) (sI st) (sK st)).
      assert (K : ilo <= k <= sI st + 1).
      { destruct (hq_scan_bounds (sH st) (sL st) (sI st) (sK st)) as [A B]. fold k in A, B.
        destruct (Z_lt_le_dec (sL st) (sI st)); [specialize (A ltac:(lia)); lia|rewrite B by lia; lia]. }
      set (h1 := if ilo <? k then _ else _).
      assert (SH1 : same_shape h1 h0) by (unfold h1; destruct (ilo <? k); [eapply same_shape_trans; [apply set2_shape|]|]; assumption).
      destruct (Z.leb_spec (sI st - 1) k).
      { do 2 eexists. split; [reflexivity|]. cbn [sH sWr sWi sZ sV sI sK sL sIts].
        split; [exact (conj SH1 (conj WR (conj WI (conj SZ (conj WZ TV)))))|].
        repeat apply conj; try reflexivity; try lia; intros X; discriminate X. }
      destruct (if wantt then (k, sI st) else (0, 0)) as [i1 i2].
      set (sh := hq_shifts _). destruct (hq_start h1 sh k (sI st) (sM st) (sV st)) as [m v] eqn:ES.
      assert (TV1 : three v).
      { eapply three_shape; [|exact TV]. change v with (snd (m, v)). rewrite <- ES. apply hq_start_shape. }
      destruct (for_M_ok step_ok (range m (sI st - 1)) (h1, sZ st, v, sT1 st) (hq_step wantz iloz ihiz i1 i2 k m (sI st))) as (s' & -> & OK).
      { exact (conj SH1 (conj SZ (conj WZ TV1))). }
      { intros j s _ Hs. apply hq_step_ok; assumption. }
      destruct s' as [[[h2 z2] v2] t2]. destruct OK as (A & B & C & D). cbn [bind]. do 2 eexists. split; [reflexivity|].
      cbn [sH sWr sWi sZ sV sI sK sL sIts]. split; [exact (conj A (conj WR (conj WI (conj B (conj C D)))))|].
      repeat apply conj; try reflexivity; lia.
    Qed.

    Lemma write_back_ok (f : fa) lo w : full f -> (1 <= lo -> lo <= fa_len f -> zlen w = fa_len f - lo + 1) -> 1 <= lo ->
      exists f', write_back f lo w = Ok f' /\ same_shape f' f.
    Proof.
      intros FF W L. unfold write_back.
      apply (for_M_ok (fun g => same_shape g f)); [apply same_shape_refl|].
      intros p g Hp Hg. apply in_range in Hp. unfold vec_get.
      assert (P : 0 <= p - lo < zlen w) by (rewrite W by lia; lia). apply zget_Some in P as [x ->]. cbn [bind].
      eexists. split; [reflexivity|]. eapply same_shape_trans; [apply set1_shape|exact Hg].
    Qed.

    Lemma fa_len_shape (f g : fa) : same_shape f g -> fa_len f = fa_len g.
    Proof. unfold fa_len, fa_is_2d. intros (E1 & E2 & E3). rewrite E1, E2. reflexivity. Qed.

    Lemma hq_rot_rows_ok i c s (h : fa) : full h -> 0 <= rows h -> 2 <= i ->
      exists h', hq_rot_rows n ldh i c s h = Ok h' /\ same_shape h' h.
    Proof.
      intros FH R Hi. unfold hq_rot_rows. destruct (i <? n); [|eexists; split; [reflexivity|apply same_shape_refl]].
      destruct (from2_ok h (i - 1) (i + 1) FH) as (a & -> & La). destruct (from2_ok h i (i + 1) FH) as (b & -> & Lb). cbn [bind].
      destruct (drot_lists (n - i) a b ldh ldh c s) as (a' & b' & -> & Ea & Eb). cbn [bind].
      destruct (write_back_ok h (fa_idx h (i - 1) (i + 1)) a') as (h1 & -> & S1); [assumption|rewrite Ea; exact La|unfold fa_idx; nia|]. cbn [bind].
      destruct (write_back_ok h1 (fa_idx h i (i + 1)) b') as (h2 & -> & S2).
      - eapply full_shape; eassumption.
      - rewrite Eb, (fa_len_shape _ _ S1). exact Lb.
      - unfold fa_idx; nia.
      - eexists. split; [reflexivity|]. eapply same_shape_trans; eassumption.
    Qed.
    Lemma hq_rot_cols_ok i c s (h : fa) : full h -> 0 <= rows h -> 2 <= i ->
      exists h', hq_rot_cols i c s h = Ok h' /\ same_shape h' h.
    Proof.
      intros FH R Hi. unfold hq_rot_cols.
      destruct (from2_ok h 1 (i - 1) FH) as (a & -> & La). destruct (from2_ok h 1 i FH) as (b & -> & Lb). cbn [bind].
      destruct (drot_lists (i - 1 - 1) a b 1 1 c s) as (a' & b' & -> & Ea & Eb). cbn [bind].
      destruct (write_back_ok h (fa_idx h 1 (i - 1)) a) as (h1 & -> & S1); [assumption|exact La|unfold fa_idx; nia|]. cbn [bind].
      destruct (write_back_ok h1 (fa_idx h 1 i) b) as (h2 & -> & S2).
      - eapply full_shape; eassumption.
      - rewrite (fa_len_shape _ _ S1). exact Lb.
      - unfold fa_idx; nia.
      - eexists. split; [reflexivity|]. eapply same_shape_trans; eassumption.
    Qed.
    Lemma hq_rot_z_ok i c s (z : fa) : full z -> 0 <= rows z -> 2 <= i -> 1 <= iloz ->
      exists z', hq_rot_z iloz ihiz i c s z = Ok z' /\ same_shape z' z.
    Proof.
      intros FH R Hi Hz. unfold hq_rot_z.
      destruct (from2_ok z iloz (i - 1) FH) as (a & -> & La). destruct (from2_ok z iloz i FH) as (b & -> & Lb). cbn [bind].
      destruct (drot_lists (ihiz - iloz + 1) a b 1 1 c s) as (a' & b' & -> & Ea & Eb). cbn [bind].
      destruct (write_back_ok z (fa_idx z iloz (i - 1)) a') as (h1 & -> & S1); [assumption|rewrite Ea; exact La|unfold fa_idx; nia|]. cbn [bind].
      destruct (write_back_ok h1 (fa_idx z iloz i) b') as (h2 & -> & S2).
      - eapply full_shape; eassumption.
      - rewrite Eb, (fa_len_shape _ _ S1). exact Lb.
      - unfold fa_idx; nia.
      - eexists. split; [reflexivity|]. eapply same_shape_trans; eassumption.
    Qed.

    Section Loop.
      Hypothesis FH : full h0.
      Hypothesis RH : 0 <= rows h0.
      Hypothesis FZ : wantz = true -> full z0 /\ 0 <= rows z0 /\ 1 <= iloz.
      Hypothesis L1 : 1 <= ilo.

      Lemma hq_deflate_ok st : hq_ok st -> ilo <= sI st <= ihi -> ilo <= sL st <= sI st + 1 ->
        exists st', hq_deflate wantt wantz n ldh iloz ihiz st = Ok st' /\ hq_ok st' /\ sI st' = sI st /\ sL st' = sL st /\ sK st' = sK st.
      Proof.
        intros (SH & WR & WI & SZ & WZ & TV) Hi Hl. unfold hq_deflate.
        destruct (Z.eqb_spec (sL st) (sI st)) as [El|Nl].
        { eexists. split; [reflexivity|]. cbn [sH sWr sWi sZ sV sI sK sL]. split; [|auto].
          refine (conj SH (conj (kept_set1 _ _ _ _ _ _ WR _) (conj (kept_set1 _ _ _ _ _ _ WI _) (conj SZ (conj WZ TV))))); lia. }
        destruct (Z.eqb_spec (sL st) (sI st - 1)) as [El|Nl2].
        2:{ eexists. split; [reflexivity|]. split; [exact (conj SH (conj WR (conj WI (conj SZ (conj WZ TV)))))|auto]. }
        set (r := dlanv2 _ _ _ _). set (h1 := set2 (set2 _ _ _ _) _ _ _).
        assert (S1 : same_shape h1 h0) by (eapply same_shape_trans; [|exact SH]; unfold h1; shapes).
        assert (EH : exists h2, (if wantt then h' <- hq_rot_rows n ldh (sI st) (nCs r) (nSn r) h1;; hq_rot_cols (sI st) (nCs r) (nSn r) h'
            else Ok h1) = Ok h2 /\ same_shape h2 h0).
        { destruct wantt; [|eexists; split; [reflexivity|exact S1]].
          destruct (hq_rot_rows_ok (sI st) (nCs r) (nSn r) h1) as (h2 & -> & S2);
            [eapply full_shape; eassumption|destruct S1 as (-> & _); exact RH|lia|]. cbn [bind].
          assert (S20 := same_shape_trans _ _ _ S2 S1).
          destruct (hq_rot_cols_ok (sI st) (nCs r) (nSn r) h2) as (h3 & -> & S3);
            [eapply full_shape; eassumption|destruct S20 as (-> & _); exact RH|lia|].
          eexists. split; [reflexivity|]. eapply same_shape_trans; eassumption. }
        destruct EH as (h2 & -> & S2). cbn [bind].
        assert (EZ : exists z2, (if wantz then hq_rot_z iloz ihiz (sI st) (nCs r) (nSn r) (sZ st) else Ok (sZ st)) = Ok z2 /\
            same_shape z2 z0 /\ (wantz = false -> z2 = z0)).
        { destruct wantz; [|eexists; split; [reflexivity|auto]]. destruct (FZ eq_refl) as (F1 & R1 & I1).
          destruct (hq_rot_z_ok (sI st) (nCs r) (nSn r) (sZ st)) as (z2 & -> & Z2);
            [eapply full_shape; eassumption|destruct SZ as (-> & _); exact R1|lia|lia|].
          eexists. split; [reflexivity|]. split; [eapply same_shape_trans; eassumption|intros X; discriminate X]. }
        destruct EZ as (z2 & -> & SZ2 & WZ2). cbn [bind].
        eexists. split; [reflexivity|]. cbn [sH sWr sWi sZ sV sI sK sL]. split; [|auto].
        refine (conj S2 (conj (kept_set1 _ _ _ _ _ _ (kept_set1 _ _ _ _ _ _ WR _) _) (conj (kept_set1 _ _ _ _ _ _ (kept_set1 _ _ _ _ _ _ WI _) _) (conj SZ2 (conj WZ2 TV))))); lia.
      Qed.

      (** the inner loop *)
      Lemma hq_sweeps_ok : forall its st, its <> [] -> hq_ok st -> ilo <= sI st -> ilo <= sK st <= sI st + 1 -> ilo <= sL st <= sI st + 1 ->
        exists st', for_brk_M its st (hq_iter wantt wantz ilo ihi iloz ihiz) = Ok st' /\ hq_ok st' /\ sI st' = sI st /\
          ilo <= sK st' <= sI st + 1 /\ sL st' = sK st' /\ (sL st < sI st -> sL st' <= sI st) /\ In (sIts st') its.
      Proof.
        intros its. induction its as [|t its IH]; intros st NE OK Hi Hk Hl; [congruence|]. cbn [for_brk_M].
        destruct (hq_iter_ok t st FH OK Hi Hk Hl) as (st1 & b & E & OK1 & I1 & K1 & LK & T1 & B1).
        rewrite E. cbn [bind fst snd].
        assert (LT : sL st < sI st -> sL st1 <= sI st).
        { intros Q. rewrite LK. revert E. unfold hq_iter. destruct (hq_scan_bounds (sH st) (sL st) (sI st) (sK st)) as [A _].
          specialize (A Q). set (k := hq_scan _ _ _ _ _ _) in *. destruct (sI st - 1 <=? k).
          - intros [= <- _]. cbn [sK]. lia.
          - destruct (if wantt then _ else _). destruct (hq_start _ _ _ _ _ _). destruct (for_M _ _ _) as [[[[? ?] ?] ?]| | |]; cbn [bind]; try discriminate.
            intros [= <- _]. cbn [sK]. lia. }
        destruct b.
        { exists st1. split; [reflexivity|]. split; [exact OK1|]. split; [exact I1|]. split; [exact K1|]. split; [exact LK|].
          split; [exact LT|]. left. symmetry. exact T1. }
        destruct its as [|t2 its].
        { exists st1. cbn [for_brk_M]. split; [reflexivity|]. split; [exact OK1|]. split; [exact I1|]. split; [exact K1|]. split; [exact LK|].
          split; [exact LT|]. left. symmetry. exact T1. }
        specialize (B1 eq_refl).
        destruct (IH st1) as (st2 & E2 & OK2 & I2 & K2 & LK2 & LT2 & T2); try assumption; try lia; [discriminate|].
        exists st2. rewrite E2. split; [reflexivity|]. split; [exact OK2|]. split; [lia|]. split; [lia|]. split; [lia|]. split; [|right; exact T2].
        intros _. rewrite I1 in LT2. apply LT2. lia.
      Qed.

      Lemma hq_itmax_pos : 300 <= hq_itmax ilo ihi.
      Proof. unfold hq_itmax. lia. Qed.

      Context (conv : @hqst F -> outcome unit).
      Hypothesis CV : forall st, hq_ok st -> conv st = Ok tt.
      Notation loop := (hq_loop wantt wantz n ilo ihi ldh iloz ihiz conv).

      (** one turn of the outer loop: it stops, or goes on with a state satisfying the invariant *)
      Definition head_ok (st : @hqst F) : Prop :=
        hq_ok st /\ sI st <= ihi /\ (ilo <= sI st -> ilo <= sK st <= sI st + 1) /\ (sI st = ilo -> sK st = ilo + 1).

      Definition turn (st : @hqst F) : outcome (@hqst F * option Z) :=
        let st := mkHq (sH st) (sWr st) (sWi st) (sZ st) (sV st) (sT1 st) (sM st) (sK st) ilo (sI st) (sIts st) (sKdefl st) (sCs st) (sSn st) in
        st <- for_brk_M (range 0 (hq_itmax ilo ihi)) st (hq_iter wantt wantz ilo ihi iloz ihiz) ;;
        if hq_itmax ilo ihi <=? sIts st then Ok (st, Some (sI st))
        else
          st <- hq_deflate wantt wantz n ldh iloz ihiz st ;;
          let st := mkHq (sH st) (sWr st) (sWi st) (sZ st) (sV st) (sT1 st) (sM st) (sK st) (sL st) (sL st - 1) (sIts st) 0 (sCs st) (sSn st) in
          _ <- conv st ;; Ok (st, None).
      Lemma loop_turn fuel st : loop (S fuel) st =
        if sI st <? ilo then Ok (st, 0) else
        r <- turn st ;; match snd r with Some i => Ok (fst r, i) | None => loop fuel (fst r) end.
      Proof.
        cbn [hq_loop]. destruct (sI st <? ilo); [reflexivity|]. unfold turn.
        destruct (for_brk_M _ _ _) as [s1| | |]; cbn [bind]; try reflexivity.
        destruct (_ <=? sIts s1); [reflexivity|]. destruct (hq_deflate _ _ _ _ _ _ s1) as [s2| | |]; cbn [bind]; try reflexivity.
        destruct (conv _) as [[]| | |]; reflexivity.
      Qed.

      Lemma turn_ok st : head_ok st -> ilo <= sI st ->
        (exists st', turn st = Ok (st', Some (sI st)) /\ hq_ok st') \/
        (exists st', turn st = Ok (st', None) /\ head_ok st' /\ ((ilo < sI st /\ sI st' < sI st) \/ (sI st = ilo /\ sI st' = ilo))).
      Proof.
        intros (OK & IH & KB & KI) Hi. specialize (KB Hi). unfold turn.
        set (s0 := mkHq _ _ _ _ _ _ _ _ ilo _ _ _ _ _).
        assert (OK0 : hq_ok s0) by exact OK.
        assert (A0 : sI s0 = sI st) by reflexivity. assert (A1 : sK s0 = sK st) by reflexivity. assert (A2 : sL s0 = ilo) by reflexivity.
        destruct (Z.eq_dec (sI st) ilo) as [EI|NI].
        { (* stuck *) right. specialize (KI EI).
          pose proof hq_itmax_pos.
          rewrite range_cons by lia. cbn [for_brk_M].
          assert (E : hq_iter wantt wantz ilo ihi iloz ihiz 0 s0 =
            Ok (mkHq (set2 (sH st) (ilo + 1) ilo f0) (sWr st) (sWi st) (sZ st) (sV st) (sT1 st) (sM st) (ilo + 1) (ilo + 1) ilo 0 (sKdefl st) (sCs st) (sSn st), true)).
          { unfold hq_iter. rewrite A0, A1, A2, EI, KI. destruct (hq_scan_bounds (sH s0) ilo ilo (ilo + 1)) as [_ B]. rewrite B by lia.
            destruct (Z.ltb_spec ilo (ilo + 1)); [|lia]. destruct (Z.leb_spec (ilo - 1) (ilo + 1)); [|lia]. replace (ilo + 1 - 1) with ilo by lia. reflexivity. }
          rewrite E. cbn [bind fst snd sIts]. destruct (Z.leb_spec (hq_itmax ilo ihi) 0); [lia|].
          unfold hq_deflate. cbn [sL sI]. destruct (Z.eqb_spec (ilo + 1) ilo); [lia|]. destruct (Z.eqb_spec (ilo + 1) (ilo - 1)); [lia|].
          cbn [bind sH sWr sWi sZ sV sI sK sL sT1 sM sCs sSn sIts]. replace (ilo + 1 - 1) with ilo by lia.
          destruct OK as (SH & WR & WI & SZ & WZ & TV).
          assert (SH' : same_shape (set2 (sH st) (ilo + 1) ilo f0) h0) by (eapply same_shape_trans; [apply set2_shape|exact SH]).
          rewrite CV by exact (conj SH' (conj WR (conj WI (conj SZ (conj WZ TV))))). cbn [bind].
          eexists. split; [reflexivity|]. split; [|right; split; [exact EI|reflexivity]].
          split; [exact (conj SH' (conj WR (conj WI (conj SZ (conj WZ TV)))))|]. cbn [sI sK]. lia. }
        destruct (hq_sweeps_ok (range 0 (hq_itmax ilo ihi)) s0) as (s1 & -> & OK1 & I1 & K1 & LK1 & LT1 & T1); try assumption; try lia.
        { pose proof hq_itmax_pos. rewrite range_cons by lia. discriminate. }
        cbn [bind]. destruct (_ <=? sIts s1).
        { left. exists s1. rewrite I1, A0. auto. }
        right. destruct (hq_deflate_ok s1) as (s2 & -> & OK2 & I2 & L2 & K2); try assumption; try lia. cbn [bind].
        rewrite CV.
        - cbn [bind]. eexists. split; [reflexivity|]. split; [|left; cbn [sI]; rewrite L2; lia].
          split; [exact OK2|]. cbn [sI sK]. lia.
        - exact OK2.
      Qed.

      (** the whole loop never panics *)
      Lemma hq_loop_ok fuel : forall st, head_ok st ->
        loop fuel st = NoFuel \/ exists st' info, loop fuel st = Ok (st', info) /\ hq_ok st' /\ (info = 0 \/ ilo <= info <= ihi).
      Proof.
        induction fuel as [|fuel IH]; intros st HO; [cbn [hq_loop]; destruct (Z.ltb_spec (sI st) ilo); [right|left; reflexivity]|].
        - exists st, 0. split; [reflexivity|]. split; [apply HO|auto].
        - rewrite loop_turn. destruct (Z.ltb_spec (sI st) ilo) as [A|A].
          { right. exists st, 0. split; [reflexivity|]. split; [apply HO|auto]. }
          destruct (turn_ok st HO A) as [(s' & -> & OK')|(s' & -> & HO' & _)]; cbn [bind fst snd].
          + right. exists s', (sI st). destruct HO as (_ & X & _). split; [reflexivity|]. split; [exact OK'|]. lia.
          + apply IH; assumption.
      Qed.
      Lemma hq_loop_stuck fuel : forall st, head_ok st -> sI st = ilo -> loop fuel st = NoFuel.
      Proof.
        induction fuel as [|fuel IH]; intros st HO E.
        - cbn [hq_loop]. destruct (Z.ltb_spec (sI st) ilo); [lia|reflexivity].
        - rewrite loop_turn. destruct (Z.ltb_spec (sI st) ilo); [lia|].
          destruct (turn_ok st HO) as [(s' & Et & OK')|(s' & Et & HO' & [[X _]|[_ X]])]; try lia; rewrite Et; cbn [bind fst snd].
          + exfalso. (* a stuck turn never reports failure *)
            revert Et. unfold turn. set (s0 := mkHq _ _ _ _ _ _ _ _ ilo _ _ _ _ _).
            pose proof hq_itmax_pos. rewrite range_cons by lia. cbn [for_brk_M]. destruct HO as (_ & _ & _ & KI).
            unfold hq_iter at 1. replace (sI s0) with ilo by (symmetry; exact E). replace (sK s0) with (ilo + 1) by (symmetry; exact (KI E)).
            change (sL s0) with ilo.
            destruct (hq_scan_bounds (sH s0) ilo ilo (ilo + 1)) as [_ B]. rewrite B by lia.
            destruct (Z.leb_spec (ilo - 1) (ilo + 1)); [|lia]. cbn [bind fst snd sIts]. destruct (Z.leb_spec (hq_itmax ilo ihi) 0); [lia|].
            destruct (hq_deflate _ _ _ _ _ _ _); cbn [bind]; try discriminate. destruct (conv _); cbn [bind]; discriminate.
          + apply IH; assumption.
      Qed.
      Lemma hq_loop_more fuel : forall fuel' st r, loop fuel st = Ok r -> (fuel <= fuel')%nat -> loop fuel' st = Ok r.
      Proof.
        induction fuel as [|fuel IH]; intros fuel' st r.
        - cbn [hq_loop]. destruct (Z.ltb_spec (sI st) ilo); [|discriminate]. intros <- _. destruct fuel'; cbn [hq_loop];
            (destruct (Z.ltb_spec (sI st) ilo); [reflexivity|lia]).
        - intros E H'. destruct fuel' as [|fuel']; [lia|]. revert E. rewrite !loop_turn. destruct (sI st <? ilo); [auto|].
          destruct (turn st) as [[s' [i|]]| | |]; cbn [bind fst snd]; try discriminate; [auto|]. intros E. apply IH; [exact E|lia].
      Qed.
      (** ihi - ilo + 1 turns decide *)
      Lemma hq_loop_decide fuel : forall fuel' st, head_ok st -> sI st - ilo + 1 <= Z.of_nat fuel -> loop fuel st = NoFuel -> loop fuel' st = NoFuel.
      Proof.
        induction fuel as [|fuel IH]; intros fuel' st HO HF.
        - cbn [hq_loop]. destruct (Z.ltb_spec (sI st) ilo); [discriminate|lia].
        - destruct (Z.eq_dec (sI st) ilo) as [E|NE]; [intros _; apply hq_loop_stuck; assumption|].
          rewrite loop_turn. destruct (Z.ltb_spec (sI st) ilo); [discriminate|].
          destruct (turn_ok st HO) as [(s' & Et & OK')|(s' & Et & HO' & [[X Y]|[X _]])]; try lia; rewrite Et; cbn [bind fst snd]; [discriminate|].
          intros E. destruct fuel' as [|fuel']; [cbn [hq_loop]; destruct (Z.ltb_spec (sI st) ilo); [lia|reflexivity]|].
          rewrite loop_turn. destruct (Z.ltb_spec (sI st) ilo); [lia|]. rewrite Et. cbn [bind fst snd]. apply IH; [assumption|lia|exact E].
      Qed.
    End Loop.
  End Params.
End Lahqr.

Section Top.
  Context {F : Type} {NF : Num F}.
  Notation fa := (fa F).

  Lemma wf_full (f : fa) : well_formed f -> full f /\ 0 <= rows f.
  Proof.
    intros (A & B & C). split; [|exact A]. unfold full. rewrite C. unfold fa_len, fa_is_2d.
    destruct (Z.eqb_spec (cols f) 0) as [->|N]; destruct (Z.ltb_spec 0 (rows f)); cbn; try reflexivity;
      destruct (Z.ltb_spec 0 (cols f)); cbn; nia.
  Qed.
  Lemma three_zeros : three (fa_of_vec [f0; f0; f0] : fa).
  Proof. split; [reflexivity|]. cbv. split; discriminate. Qed.

  Context {H WR WI ZZ : Type} {TH : ToFA F H} {FH : FromFA F H} {TWR : ToFA F WR} {FWR : FromFA F WR}
    {TWI : ToFA F WI} {FWI : FromFA F WI} {TZ : ToFA F ZZ} {FZ : FromFA F ZZ}.
  Context (wantt wantz : bool) (n ilo ihi : Z) (h : H) (ldh : Z) (wr : WR) (wi : WI) (iloz ihiz : Z) (z : ZZ) (ldz : Z).

  Definition hq_args_ok : Prop :=
    usable TH FH h /\ usable TWR FWR wr /\ usable TWI FWI wi /\ usable TZ FZ z /\ 1 <= ilo /\ (wantz = true -> 1 <= iloz).

  Definition hq_conv (st : @hqst F) : outcome (H * WR * WI * ZZ) :=
    h' <- from_fa (sH st) ;; wr' <- from_fa (sWr st) ;; wi' <- from_fa (sWi st) ;; z' <- from_fa (sZ st) ;; Ok (h', wr', wi', z').
  Definition hq_conv1 (st : @hqst F) : outcome unit := _ <- hq_conv st ;; Ok tt.
  Notation oks := (hq_ok wantz ilo ihi (to_fa h) (to_fa wr) (to_fa wi) (to_fa z)).
  Notation heads := (head_ok wantz ilo ihi (to_fa h) (to_fa wr) (to_fa wi) (to_fa z)).
  Notation loop := (hq_loop wantt wantz n ilo ihi ldh iloz ihiz hq_conv1).
  Notation init := (hq_init ilo ihi (to_fa h) (to_fa wr) (to_fa wi) (to_fa z)).
  Notation run fuel := (dlahqr fuel wantt wantz n ilo ihi h ldh wr wi iloz ihiz z ldz).

  Lemma dlahqr_main fuel : n <> 0 -> ilo <> ihi ->
    run fuel = (r <- loop fuel init ;; c <- hq_conv (fst r) ;; let '(h', wr', wi', z') := c in Ok (h', wr', wi', z', snd r)).
  Proof.
    intros N1 N2. unfold dlahqr. destruct (Z.eqb_spec n 0); [lia|]. destruct (Z.eqb_spec ilo ihi); [lia|].
    change (fun st => _ <- _ ;; Ok tt) with hq_conv1. destruct (loop fuel init) as [[st info]| | |]; reflexivity.
  Qed.

  Lemma hq_conv_ok st : hq_args_ok -> oks st -> exists h' wr' wi' z', hq_conv st = Ok (h', wr', wi', z') /\
    from_fa (sH st) = Ok h' /\ from_fa (sWr st) = Ok wr' /\ from_fa (sWi st) = Ok wi' /\ from_fa (sZ st) = Ok z'.
  Proof.
    intros ((_ & UH) & (_ & UR) & (_ & UI) & (_ & UZ) & _) (SH & (SR & _) & (SI & _) & SZ & _). unfold hq_conv.
    destruct (UH _ SH) as [h' ->], (UR _ SR) as [wr' ->], (UI _ SI) as [wi' ->], (UZ _ SZ) as [z' ->].
    cbn [bind]. do 4 eexists. split; [reflexivity|]. auto.
  Qed.
  Lemma hq_conv1_ok st : hq_args_ok -> oks st -> hq_conv1 st = Ok tt.
  Proof. intros A B. unfold hq_conv1. destruct (hq_conv_ok st A B) as (h' & wr' & wi' & z' & -> & _). reflexivity. Qed.

  Lemma hq_init_ok : ilo <> ihi -> heads init.
  Proof.
    intros NE. unfold hq_init. split; [|cbn [sI sK]; lia].
    split; [apply hq_clear_shape|]. cbn [sWr sWi sZ sV].
    split; [split; [apply same_shape_refl|reflexivity]|]. split; [split; [apply same_shape_refl|reflexivity]|].
    split; [apply same_shape_refl|]. split; [reflexivity|apply three_zeros].
  Qed.

  Lemma hq_args_loop : hq_args_ok -> full (to_fa h) /\ 0 <= rows (to_fa h) /\
    (wantz = true -> full (to_fa z) /\ 0 <= rows (to_fa z) /\ 1 <= iloz) /\ 1 <= ilo /\ (forall st, oks st -> hq_conv1 st = Ok tt).
  Proof.
    intros A. assert (A' := A). destruct A' as ((WH & _) & _ & _ & (WZ & _) & L1 & IZ).
    split; [apply wf_full; exact WH|]. split; [apply wf_full; exact WH|].
    split; [intros E; split; [apply wf_full; exact WZ|split; [apply wf_full; exact WZ|apply IZ; exact E]]|].
    split; [exact L1|]. intros st Hst. apply hq_conv1_ok; assumption.
  Qed.

  (** it returns or it is still running; what it returns *)
  Lemma dlahqr_result fuel : hq_args_ok -> n <> 0 -> ilo <> ihi ->
    run fuel = NoFuel \/
    exists hd wrd wid zd h' wr' wi' z' info, run fuel = Ok (h', wr', wi', z', info) /\
      from_fa hd = Ok h' /\ from_fa wrd = Ok wr' /\ from_fa wid = Ok wi' /\ from_fa zd = Ok z' /\
      same_shape hd (to_fa h) /\ kept_outside ilo ihi (to_fa wr) wrd /\ kept_outside ilo ihi (to_fa wi) wid /\
      same_shape zd (to_fa z) /\ (wantz = false -> zd = to_fa z) /\ (info = 0 \/ ilo <= info <= ihi).
  Proof.
    intros A N1 N2. destruct (hq_args_loop A) as (A1 & A2 & A3 & A4 & A5). rewrite dlahqr_main by assumption.
    destruct (hq_loop_ok wantt wantz n ilo ihi ldh iloz ihiz _ _ _ _ A1 A2 A3 A4 _ A5 fuel init (hq_init_ok N2)) as [->|(st & info & -> & OK & I)];
      [left; reflexivity|right]. cbn [bind fst snd].
    destruct (hq_conv_ok st A OK) as (h' & wr' & wi' & z' & -> & B1 & B2 & B3 & B4). cbn [bind].
    destruct OK as (O1 & O2 & O3 & O4 & O5 & _).
    exists (sH st), (sWr st), (sWi st), (sZ st), h', wr', wi', z', info. repeat (split; [first [reflexivity|assumption]|]). exact I.
  Qed.

  (** ihi - ilo + 1 turns of the outer loop decide whether it returns *)
  Lemma dlahqr_decide fuel fuel' : hq_args_ok -> ihi - ilo + 1 <= Z.of_nat fuel -> run fuel = NoFuel -> run fuel' = NoFuel.
  Proof.
    intros A HF E.
    assert (N1 : n <> 0) by (intros ->; unfold dlahqr in E; cbn in E; discriminate).
    assert (N2 : ilo <> ihi).
    { intros Q. revert E. unfold dlahqr. destruct (n =? 0); [discriminate|]. destruct (Z.eqb_spec ilo ihi); [|lia].
      destruct A as (_ & (_ & UR) & (_ & UI) & _). destruct (UR (set1 (to_fa wr) ilo (get2 (to_fa h) ilo ilo))) as [x ->]; [apply set1_shape|].
      cbn [bind]. destruct (UI (set1 (to_fa wi) ilo f0)) as [y ->]; [apply set1_shape|]. cbn. discriminate. }
    destruct (hq_args_loop A) as (A1 & A2 & A3 & A4 & A5). revert E. rewrite !dlahqr_main by assumption.
    destruct (hq_loop_ok wantt wantz n ilo ihi ldh iloz ihiz _ _ _ _ A1 A2 A3 A4 _ A5 fuel init (hq_init_ok N2)) as [E|(st & info & E & OK & I)]; rewrite E.
    - intros _. rewrite (hq_loop_decide wantt wantz n ilo ihi ldh iloz ihiz _ _ _ _ A1 A2 A3 A4 _ A5 fuel fuel' init (hq_init_ok N2)); [reflexivity| |exact E].
      cbn. exact HF.
    - cbn [bind fst snd]. destruct (hq_conv_ok st A OK) as (h' & wr' & wi' & z' & -> & _). cbn [bind]. discriminate.
  Qed.
  Lemma dlahqr_more fuel fuel' r : run fuel = Ok r -> (fuel <= fuel')%nat -> run fuel' = Ok r.
  Proof.
    destruct (Z.eq_dec n 0) as [->|N1]; [intros E _; rewrite <- E; reflexivity|].
    destruct (Z.eq_dec ilo ihi) as [E0|N2].
    { intros E _. rewrite <- E. unfold dlahqr. destruct (n =? 0); [reflexivity|]. destruct (Z.eqb_spec ilo ihi); [reflexivity|lia]. }
    rewrite !dlahqr_main by assumption. destruct (loop fuel init) as [s| | |] eqn:E; cbn [bind]; try discriminate.
    intros E2 L. rewrite (hq_loop_more _ _ _ _ _ _ _ _ _ _ _ _ _ E L). exact E2.
  Qed.

  (** C37 *)
  Lemma dlahqr_n0 fuel : n = 0 -> run fuel = Ok (h, wr, wi, z, 0).
  Proof. intros ->. reflexivity. Qed.
  Lemma dlahqr_one fuel : usable TWR FWR wr -> usable TWI FWI wi -> n <> 0 -> ilo = ihi ->
    exists wr' wi' wrd wid, run fuel = Ok (h, wr', wi', z, 0) /\ from_fa wrd = Ok wr' /\ from_fa wid = Ok wi' /\
      updated (fun _ => ilo) (fun _ _ => get2 (to_fa h) ilo ilo) 1 (to_fa wr) wrd /\ updated (fun _ => ilo) (fun _ _ => f0) 1 (to_fa wi) wid.
  Proof.
    intros (_ & UR) (_ & UI) N1 N2. unfold dlahqr. destruct (Z.eqb_spec n 0); [lia|]. destruct (Z.eqb_spec ilo ihi); [|lia].
    destruct (UR (set1 (to_fa wr) ilo (get2 (to_fa h) ilo ilo)) (set1_shape _ _ _)) as [x Ex]. rewrite Ex.
    destruct (UI (set1 (to_fa wi) ilo f0) (set1_shape _ _ _)) as [y Ey]. rewrite Ey. cbn [bind].
    exists x, y. do 2 eexists. split; [reflexivity|]. split; [exact Ex|]. split; [exact Ey|].
    assert (U : forall (f : fa) v, updated (fun _ => ilo) (fun _ _ => v) 1 f (set1 f ilo v)).
    { intros f v. split; [apply set1_shape|]. unfold set1. split; intros p Hp; rewrite mod1_elem.
      - rewrite Z.eqb_refl. reflexivity.
      - destruct (Z.eqb_spec p ilo) as [->|]; [|reflexivity]. exfalso. apply (Hp 0); lia. }
    split; apply U.
  Qed.
End Top.
