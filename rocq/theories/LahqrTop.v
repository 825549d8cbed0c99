(** dlahqr: statements about whole calls. *)
From Coq Require Import Ascii.
From Verif Require Import Base Num Array Blas Lapack Dlahqr Spec Lists FaLemmas Blas1Proofs LahqrProofs LahqrStuck ArrayProofs.

Lemma for_M_app {S} is js (s : S) body : for_M (is ++ js) s body = (r <- for_M is s body ;; for_M js r body).
Proof.
  revert s. induction is as [|i is IH]; intros s; [reflexivity|]. cbn [app for_M]. destruct (body i s); cbn [bind]; auto.
Qed.

Section Calls.
  Context {F : Type} {NF : Num F}.
  Notation fa := (fa F).
  Context {H WR WI ZZ : Type} {TH : ToFA F H} {FH : FromFA F H} {TWR : ToFA F WR} {FWR : FromFA F WR}
    {TWI : ToFA F WI} {FWI : FromFA F WI} {TZ : ToFA F ZZ} {FZ : FromFA F ZZ}.
  Context (wantt wantz : bool) (n ilo ihi : Z) (h : H) (ldh : Z) (wr : WR) (wi : WI) (iloz ihiz : Z) (z : ZZ) (ldz : Z).
  Notation run fuel := (dlahqr fuel wantt wantz n ilo ihi h ldh wr wi iloz ihiz z ldz).
  Notation args := (hq_args_ok wantz ilo h wr wi iloz z).
  Notation init := (hq_init ilo ihi (to_fa h) (to_fa wr) (to_fa wi) (to_fa z)).

  Lemma no_small_factor d r c : 2 <= r -> 1 <= c <= 2 -> d * (r + 1) <> c.
  Proof. intros R C E. destruct (Z_le_gt_dec d 0); nia. Qed.
  Lemma clear_subdiag (f : fa) k : 2 <= rows f -> get2 (hq_clear ilo ihi f) k (k - 1) = get2 f k (k - 1).
  Proof.
    intros R. unfold hq_clear.
    set (g := for_ _ _ _).
    assert (G : same_shape g f /\ get2 g k (k - 1) = get2 f k (k - 1)).
    { apply (for_inv (fun g => same_shape g f /\ get2 g k (k - 1) = get2 f k (k - 1))); [split; [apply same_shape_refl|reflexivity]|].
      intros j s _ [(Rs & Cs & Ns) Es]. split; [repeat (eapply same_shape_trans; [apply set2_shape|]); exact (conj Rs (conj Cs Ns))|].
      rewrite !set2_get2_far; [exact Es| |rewrite (proj1 (set2_shape _ _ _ _))]; rewrite Rs; unfold pos; intros X.
      - apply (no_small_factor (k - j - 1) (rows f) 1); lia.
      - apply (no_small_factor (k - j - 1) (rows f) 2); lia. }
    destruct G as [(Rs & _) E]. destruct (ilo <=? ihi - 2); [|exact E].
    rewrite set2_get2_far; [exact E|]. rewrite Rs. unfold pos. intros X. apply (no_small_factor (k - ihi + 1) (rows f) 1); lia.
  Qed.

  (** every subdiagonal entry of the active block is at most smlnum: the call does not return *)
  Lemma dlahqr_triangular fuel : args -> n <> 0 -> ilo < ihi -> 2 <= rows (to_fa h) ->
    (forall k, ilo < k <= ihi -> fle (fabs (get2 (to_fa h) k (k - 1))) (hq_smlnum ilo ihi : F) = true) -> run fuel = NoFuel.
  Proof.
    intros A N IL R SM. destruct (hq_args_loop wantz ilo ihi h wr wi iloz z A) as (A1 & A2 & A3 & A4 & A5).
    rewrite dlahqr_main by lia.
    rewrite (loop_triangular wantt wantz n ilo ihi ldh iloz ihiz _ _ _ _ A1 A2 A3 A4 _ A5 fuel init R (hq_init_ok wantz ilo ihi h wr wi z ltac:(lia))); [reflexivity|cbn; lia|].
    cbn [hq_init sI sH]. intros k Hk. rewrite clear_subdiag by assumption. apply SM. lia.
  Qed.

  (** the first subdiagonal entry of the active block is at most smlnum: the call does not return with info = 0 *)
  Lemma dlahqr_split fuel h' wr' wi' z' info : args -> n <> 0 -> ilo < ihi -> ihi <= rows (to_fa h) -> fle (fabs f0) (hq_smlnum ilo ihi : F) = true ->
    fle (fabs (get2 (to_fa h) (ilo + 1) ilo)) (hq_smlnum ilo ihi : F) = true -> run fuel = Ok (h', wr', wi', z', info) -> info <> 0.
  Proof.
    intros A N IL HR Z0 SM. destruct (hq_args_loop wantz ilo ihi h wr wi iloz z A) as (A1 & A2 & A3 & A4 & A5).
    rewrite dlahqr_main by lia.
    assert (G := loop_top wantt wantz n ilo ihi ldh iloz ihiz _ _ _ _ A1 A2 A3 A4 _ A5 Z0 HR IL fuel init (hq_init_ok wantz ilo ihi h wr wi z ltac:(lia))).
    cbn [hq_init sI sH] in G. specialize (G ltac:(lia)).
    rewrite clear_subdiag in G by lia. replace (ilo + 1 - 1) with ilo in G by lia. specialize (G SM).
    destruct (hq_loop _ _ _ _ _ _ _ _ _ _ _) as [[st i]| | |]; cbn [bind]; try discriminate. specialize (G _ eq_refl). cbn [fst snd] in *.
    destruct (hq_conv st) as [[[[? ?] ?] ?]| | |]; cbn [bind]; try discriminate. intros [= _ _ _ _ <-]. exact G.
  Qed.

  Lemma set1_id (f : fa) i x : elem f i = Some x -> set1 f i x = f.
  Proof.
    intros E. unfold set1, mod1. destruct (Z.eqb_spec i 0) as [->|N]; [discriminate E|]. rewrite elem_zget in E.
    rewrite E. destruct f as [d r c v]. cbn [data rows cols dflt] in *. f_equal. apply zget_ext.
    intros p. destruct (Z.eq_dec (i - 1) p) as [<-|Np]; [|apply zset_other; exact Np].
    rewrite zset_same, E; [reflexivity|]. apply zget_Some. eauto.
  Qed.

  Lemma write_back_elem (f : fa) lo w f' : full f -> 1 <= lo -> (lo <= fa_len f -> zlen w = fa_len f - lo + 1) -> write_back f lo w = Ok f' ->
    same_shape f' f /\ forall q, elem f' q = if (lo <=? q) && (q <=? fa_len f) then zget w (q - lo) else elem f q.
  Proof.
    intros FF L W. unfold write_back.
    destruct (Z_le_gt_dec lo (fa_len f)) as [C|C].
    2:{ rewrite range_nil by lia. cbn [for_M]. intros [= <-]. split; [apply same_shape_refl|]. intros q.
        destruct (Z.leb_spec lo q), (Z.leb_spec q (fa_len f)); cbn [andb]; try reflexivity; lia. }
    specialize (W C).
    assert (G : forall k, lo - 1 <= k <= fa_len f -> exists g, for_M (range lo k) f (fun idx f => x <- vec_get w (idx - lo) ;; Ok (set1 f idx x)) = Ok g /\
      same_shape g f /\ forall q, elem g q = if (lo <=? q) && (q <=? k) then zget w (q - lo) else elem f q).
    { intros k Hk. replace k with (lo - 1 + Z.of_nat (Z.to_nat (k - lo + 1))) in * by lia. revert Hk. generalize (Z.to_nat (k - lo + 1)). clear k.
      induction n0 as [|n0 IH]; intros Hk.
      - rewrite Z.add_0_r in *. rewrite range_nil by lia. exists f. split; [reflexivity|]. split; [apply same_shape_refl|]. intros q.
        destruct (Z.leb_spec lo q), (Z.leb_spec q (lo - 1)); cbn [andb]; try reflexivity; lia.
      - destruct IH as (g & Eg & Sg & Hg); [lia|]. set (k := lo - 1 + Z.of_nat n0) in *.
        replace (lo - 1 + Z.of_nat (S n0)) with (k + 1) in * by lia. rewrite range_snoc by lia. replace (k + 1 - 1) with k by lia.
        rewrite for_M_app, Eg. cbn [bind for_M]. assert (K : lo - 1 <= k) by lia. clearbody k.
        unfold vec_get. assert (P : 0 <= k + 1 - lo < zlen w) by lia. apply zget_Some in P as [x Ex]. rewrite Ex. cbn [bind].
        eexists. split; [reflexivity|]. split; [eapply same_shape_trans; [apply set1_shape|exact Sg]|]. intros q. unfold set1. rewrite mod1_elem.
        destruct (Z.eqb_spec q (k + 1)) as [->|N].
        + rewrite Hg. destruct (Z.leb_spec lo (k + 1)); [|lia]. destruct (Z.leb_spec (k + 1) k); [lia|]. destruct (Z.leb_spec (k + 1) (k + 1)); [|lia]. cbn [andb].
          assert (Q : 1 <= k + 1 <= count f) by (unfold full in FF; lia). apply elem_Some in Q as [y ->]. cbn. symmetry. exact Ex.
        + rewrite Hg. destruct (Z.leb_spec lo q), (Z.leb_spec q k), (Z.leb_spec q (k + 1)); cbn [andb]; try reflexivity; lia. }
    destruct (G (fa_len f)) as (g & Eg & Sg & Hg); [lia|]. rewrite Eg. intros [= <-]. auto.
  Qed.

  (** lines 364-368: H is not changed *)
  Lemma hq_rot_cols_id (f : fa) i c s : full f -> 0 <= rows f -> 2 <= i -> hq_rot_cols i c s f = Ok f.
  Proof.
    intros FF R Hi. unfold hq_rot_cols.
    assert (G : forall lo, 1 <= lo -> exists w, from1 f lo = Ok w /\ write_back f lo w = Ok f).
    { intros lo L. destruct (from1_ok f lo FF) as (w & Ew & Hw). exists w. split; [exact Ew|].
      unfold write_back. destruct (Z_le_gt_dec lo (fa_len f)) as [C|C]; [|rewrite range_nil by lia; reflexivity].
      destruct (Hw L C) as [Lw Gw].
      assert (I : forall is, (forall j, In j is -> lo <= j <= fa_len f) -> for_M is f (fun idx f => x <- vec_get w (idx - lo) ;; Ok (set1 f idx x)) = Ok f).
      { induction is as [|j is IH]; intros Hj; [reflexivity|]. cbn [for_M]. assert (J := Hj j (or_introl eq_refl)).
        unfold vec_get. rewrite Gw by lia. replace (lo + (j - lo)) with j by lia.
        assert (Q : 1 <= j <= count f) by (unfold full in FF; lia). apply elem_Some in Q as [y Ey]. rewrite Ey. cbn [bind].
        rewrite (set1_id _ _ _ Ey). apply IH. intros k Hk. apply Hj. right; exact Hk. }
      apply I. intros j Hj. apply in_range in Hj. exact Hj. }
    unfold from2. fold (fa_idx f 1 (i - 1)).
    destruct (G (fa_idx f 1 (i - 1))) as (a & Ea & Wa); [unfold fa_idx; nia|].
    destruct (G (fa_idx f 1 i)) as (b & Eb & Wb); [unfold fa_idx; nia|].
    rewrite Ea. cbn [bind]. fold (fa_idx f 1 i). rewrite Eb. cbn [bind].
    destruct (drot_lists (i - 1 - 1) a b 1 1 c s) as (a' & b' & -> & _). cbn [bind]. rewrite Wa. cbn [bind]. exact Wb.
  Qed.

  (** lines 372-376: columns i-1 and i of Z are rotated *)
  Lemma hq_rot_z_spec (f : fa) i c s : full f -> 0 <= rows f -> 2 <= i -> 1 <= iloz <= ihiz -> ihiz <= rows f -> i * rows f <= count f ->
    exists f', hq_rot_z iloz ihiz i c s f = Ok f' /\ same_shape f' f /\
      (forall p, iloz <= p <= ihiz -> get2 f' p (i - 1) = fadd (fmul c (get2 f p (i - 1))) (fmul s (get2 f p i)) /\
                                      get2 f' p i = fsub (fmul c (get2 f p i)) (fmul s (get2 f p (i - 1)))) /\
      (forall q, (forall p, iloz <= p <= ihiz -> q <> pos (rows f) p (i - 1) /\ q <> pos (rows f) p i) -> elem f' q = elem f q).
  Proof.
    intros FF R Hi Hz HR HC. unfold hq_rot_z.
    set (lo1 := pos (rows f) iloz (i - 1)). set (lo2 := pos (rows f) iloz i).
    assert (LL : lo2 = lo1 + rows f) by (unfold lo1, lo2, pos; lia).
    assert (L1 : 1 <= lo1) by (unfold lo1, pos; nia).
    assert (L2 : lo2 + (ihiz - iloz) <= fa_len f) by (unfold full in FF; unfold lo2, pos; nia).
    destruct (from1_ok f lo1 FF) as (a & Ea & Ha). destruct (from1_ok f lo2 FF) as (b & Eb & Hb).
    destruct Ha as [La Ga]; [lia..|]. destruct Hb as [Lb Gb]; [lia..|].
    change (from2 f iloz (i - 1)) with (from1 f lo1). change (from2 f iloz i) with (from1 f lo2). rewrite Ea. cbn [bind]. rewrite Eb. cbn [bind].
    destruct (drot_spec (ihiz - iloz + 1) a 1 b 1 c s) as [_ D]; [discriminate..|]. destruct D as (x & y & Ed & Ux & Uy); [lia|].
    rewrite Ed. cbn [from_fa FromFA_vec bind].
    assert (Cx : zlen (vec_of_fa x) = zlen a) by (destruct Ux as ((_ & _ & N) & _); unfold count in N; cbn in N; unfold zlen, vec_of_fa; lia).
    assert (Cy : zlen (vec_of_fa y) = zlen b) by (destruct Uy as ((_ & _ & N) & _); unfold count in N; cbn in N; unfold zlen, vec_of_fa; lia).
    destruct (write_back_ok f lo1 (vec_of_fa x)) as (f1 & E1 & S1); [assumption|intros; lia|lia|].
    change (fa_idx f iloz (i - 1)) with lo1. change (fa_idx f iloz i) with lo2. rewrite E1. cbn [bind].
    destruct (write_back_ok f1 lo2 (vec_of_fa y)) as (f2 & E2 & S2); [eapply full_shape; eassumption|intros; rewrite (fa_len_shape _ _ S1); lia|lia|].
    rewrite E2. exists f2. split; [reflexivity|]. assert (S2f := same_shape_trans _ _ _ S2 S1). split; [exact S2f|].
    destruct (write_back_elem f lo1 (vec_of_fa x) f1) as [_ W1]; [assumption|lia|intros; lia|exact E1|].
    destruct (write_back_elem f1 lo2 (vec_of_fa y) f2) as [_ W2]; [eapply full_shape; eassumption|lia|intros; rewrite (fa_len_shape _ _ S1); lia|exact E2|].
    rewrite (fa_len_shape _ _ S1) in W2.
    assert (GA : forall t, get1 (to_fa a) (1 + t * 1) = get1 f (lo1 + t) \/ t < 0).
    { intros t. destruct (Z_lt_le_dec t 0); [right; assumption|left]. rewrite !get1_elem, elem_zget. cbn [to_fa ToFA_vec fa_of_vec data].
      replace (1 + t * 1 - 1) with t by lia. rewrite Ga by lia. reflexivity. }
    assert (GB : forall t, get1 (to_fa b) (1 + t * 1) = get1 f (lo2 + t) \/ t < 0).
    { intros t. destruct (Z_lt_le_dec t 0); [right; assumption|left]. rewrite !get1_elem, elem_zget. cbn [to_fa ToFA_vec fa_of_vec data].
      replace (1 + t * 1 - 1) with t by lia. rewrite Gb by lia. reflexivity. }
    assert (ST : forall t, stride (ihiz - iloz + 1) 1 t = 1 + t * 1) by (intros; reflexivity).
    assert (ZX : forall t, zget (vec_of_fa x) t = elem x (1 + t)) by (intros t; rewrite elem_zget; f_equal; lia).
    assert (ZY : forall t, zget (vec_of_fa y) t = elem y (1 + t)) by (intros t; rewrite elem_zget; f_equal; lia).
    assert (EA : forall t, 0 <= t -> elem (to_fa a) (1 + t) = elem f (lo1 + t)).
    { intros t Ht. rewrite elem_zget. cbn [to_fa ToFA_vec fa_of_vec data]. replace (1 + t - 1) with t by lia. apply Ga; lia. }
    assert (EB : forall t, 0 <= t -> elem (to_fa b) (1 + t) = elem f (lo2 + t)).
    { intros t Ht. rewrite elem_zget. cbn [to_fa ToFA_vec fa_of_vec data]. replace (1 + t - 1) with t by lia. apply Gb; lia. }
    split.
    - intros p Hp. set (t := p - iloz).
      destruct (GA t) as [GAt|]; [|lia]. destruct (GB t) as [GBt|]; [|lia].
      rewrite !get2_ent. unfold ent. rewrite (proj1 S2f).
      replace (pos (rows f) p (i - 1)) with (lo1 + t) by (unfold lo1, t, pos; lia). replace (pos (rows f) p i) with (lo2 + t) by (unfold lo2, t, pos; lia).
      rewrite !get1_elem in GAt, GBt.
      rewrite !W2, !W1.
      destruct (Z.leb_spec lo2 (lo1 + t)); [lia|]. cbn [andb]. destruct (Z.leb_spec lo1 (lo1 + t)); [|lia]. destruct (Z.leb_spec (lo1 + t) (fa_len f)); [|lia].
      destruct (Z.leb_spec lo2 (lo2 + t)); [|lia]. destruct (Z.leb_spec (lo2 + t) (fa_len f)); [|lia]. cbn [andb].
      replace (lo1 + t - lo1) with t by lia. replace (lo2 + t - lo2) with t by lia. rewrite ZX, ZY.
      destruct Ux as (_ & Ux & _). destruct Uy as (_ & Uy & _). specialize (Ux t ltac:(lia)). specialize (Uy t ltac:(lia)).
      rewrite !ST in Ux, Uy. replace (1 + t * 1) with (1 + t) in * by lia. rewrite Ux, Uy, EA, EB, !get1_elem, GAt, GBt by lia.
      assert (Q1 : 1 <= lo1 + t <= count f) by (unfold full in FF; lia). assert (Q2 : 1 <= lo2 + t <= count f) by (unfold full in FF; lia).
      apply elem_Some in Q1 as [x1 ->]. apply elem_Some in Q2 as [x2 ->]. cbn. auto.
    - intros q Hq. rewrite W2, W1.
      assert (HX : forall t, 0 <= t -> ~ (t < ihiz - iloz + 1) -> elem x (1 + t) = elem f (lo1 + t)).
      { intros t H0 Ht. rewrite <- EA by lia. apply Ux. intros t' Ht'. rewrite ST. lia. }
      assert (HY : forall t, 0 <= t -> ~ (t < ihiz - iloz + 1) -> elem y (1 + t) = elem f (lo2 + t)).
      { intros t H0 Ht. rewrite <- EB by lia. apply Uy. intros t' Ht'. rewrite ST. lia. }
      assert (Q1 : ~ lo1 <= q <= lo1 + (ihiz - iloz)).
      { intros C. destruct (Hq (iloz + (q - lo1)) ltac:(lia)) as [N _]. apply N. unfold lo1, pos in *. lia. }
      assert (Q2 : ~ lo2 <= q <= lo2 + (ihiz - iloz)).
      { intros C. destruct (Hq (iloz + (q - lo2)) ltac:(lia)) as [_ N]. apply N. unfold lo2, pos in *. lia. }
      destruct (Z.leb_spec lo2 q); cbn [andb].
      + destruct (Z.leb_spec q (fa_len f)); cbn [andb].
        * rewrite ZY, HY by lia. f_equal. lia.
        * destruct (Z.leb_spec lo1 q); cbn [andb]; reflexivity.
      + destruct (Z.leb_spec lo1 q); cbn [andb]; [|reflexivity]. destruct (Z.leb_spec q (fa_len f)); cbn [andb]; [|reflexivity].
        rewrite ZX, HX by lia. f_equal. lia.
  Qed.

  (** a 2 by 2 active block whose subdiagonal entry is not negligible: one call of dlanv2 *)
  Definition two_block : fa -> nv2 (F := F) := fun f => dlanv2 (get2 f ilo ilo) (get2 f ilo ihi) (get2 f ihi ilo) (get2 f ihi ihi).
  Lemma dlahqr_two fuel : args -> n <> 0 -> ihi = ilo + 1 -> hq_small ilo ihi (to_fa h) ihi = false ->
    let r := two_block (to_fa h) in
    exists hd zd h' wr' wi' z', run (S fuel) = Ok (h', wr', wi', z', 0) /\ from_fa hd = Ok h' /\ from_fa zd = Ok z' /\
      from_fa (set1 (set1 (to_fa wr) ilo (nrt1r r)) ihi (nrt2r r)) = Ok wr' /\
      from_fa (set1 (set1 (to_fa wi) ilo (nrt1i r)) ihi (nrt2i r)) = Ok wi' /\
      (wantt = false \/ n <= ihi -> hd = set2 (set2 (set2 (set2 (to_fa h) ilo ilo (nA r)) ilo ihi (nB r)) ihi ilo (nC r)) ihi ihi (nD r)) /\
      (wantz = false -> zd = to_fa z) /\ (wantz = true -> hq_rot_z iloz ihiz ihi (nCs r) (nSn r) (to_fa z) = Ok zd).
  Proof.
    intros A N IH SM r. destruct (hq_args_loop wantz ilo ihi h wr wi iloz z A) as (A1 & A2 & A3 & A4 & A5).
    rewrite dlahqr_main by lia. rewrite loop_turn.
    assert (CL : hq_clear ilo ihi (to_fa h) = to_fa h).
    { unfold hq_clear. rewrite range_nil by lia. cbn [for_]. destruct (Z.leb_spec ilo (ihi - 2)); [lia|reflexivity]. }
    set (st := init). assert (EI : sI st = ihi) by reflexivity. destruct (Z.ltb_spec (sI st) ilo); [lia|].
    assert (EH : sH st = to_fa h) by exact CL.
    unfold turn. set (s0 := mkHq _ _ _ _ _ _ _ _ ilo _ _ _ _ _).
    pose proof (hq_itmax_pos ilo ihi). rewrite range_cons by lia. cbn [for_brk_M].
    assert (E : hq_iter wantt wantz ilo ihi iloz ihiz 0 s0 =
      Ok (mkHq (to_fa h) (sWr st) (sWi st) (sZ st) (sV st) (sT1 st) (sM st) ilo ilo ihi 0 (sKdefl st) (sCs st) (sSn st), true)).
    { unfold hq_iter. change (sH s0) with (sH st). change (sI s0) with ihi. change (sL s0) with ilo. rewrite EH.
      assert (SC : hq_scan ilo ihi (to_fa h) ilo ihi (sK s0) = ilo).
      { unfold hq_scan. rewrite range_rev_cons by lia. cbn [for_brk]. rewrite SM. rewrite range_rev_nil by lia. cbn [for_brk]. lia. }
      rewrite SC. rewrite Z.ltb_irrefl. destruct (Z.leb_spec (ihi - 1) ilo); [|lia]. reflexivity. }
    rewrite E. cbn [bind fst snd sIts]. destruct (Z.leb_spec (hq_itmax ilo ihi) 0); [lia|].
    unfold hq_deflate. cbn [sL sI sH sWr sWi sZ sV sK sT1 sM sCs sSn sIts]. destruct (Z.eqb_spec ilo ihi); [lia|].
    replace (ihi - 1) with ilo by lia. rewrite Z.eqb_refl.
    change (dlanv2 (get2 (to_fa h) ilo ilo) (get2 (to_fa h) ilo ihi) (get2 (to_fa h) ihi ilo) (get2 (to_fa h) ihi ihi)) with r.
    set (h1 := set2 (set2 _ _ _ _) _ _ _).
    assert (S1 : same_shape h1 (to_fa h)) by (unfold h1; shapes).
    assert (F1 : full h1) by (eapply full_shape; eassumption). assert (R1 : 0 <= rows h1) by (rewrite (proj1 S1); exact A2).
    assert (EHH : exists h2, (if wantt then h' <- hq_rot_rows n ldh ihi (nCs r) (nSn r) h1;; hq_rot_cols ihi (nCs r) (nSn r) h' else Ok h1) = Ok h2 /\
      same_shape h2 (to_fa h) /\ (wantt = false \/ n <= ihi -> h2 = h1)).
    { destruct wantt; [|eexists; split; [reflexivity|split; [exact S1|reflexivity]]].
      destruct (hq_rot_rows_ok n ldh ihi (nCs r) (nSn r) h1) as (h2 & E2 & S2); [assumption|assumption|lia|]. rewrite E2. cbn [bind].
      rewrite hq_rot_cols_id; [|eapply full_shape; eassumption|rewrite (proj1 S2); assumption|lia].
      exists h2. split; [reflexivity|]. split; [eapply same_shape_trans; eassumption|]. intros [X|X]; [discriminate|].
      revert E2. unfold hq_rot_rows. destruct (Z.ltb_spec ihi n); [lia|]. intros [= <-]. reflexivity. }
    destruct EHH as (h2 & -> & S2 & P2). cbn [bind].
    assert (EZ : exists z2, (if wantz then hq_rot_z iloz ihiz ihi (nCs r) (nSn r) (sZ st) else Ok (sZ st)) = Ok z2 /\
      same_shape z2 (to_fa z) /\ (wantz = false -> z2 = to_fa z) /\ (wantz = true -> hq_rot_z iloz ihiz ihi (nCs r) (nSn r) (to_fa z) = Ok z2)).
    { change (sZ st) with (to_fa z). destruct wantz; [|eexists; split; [reflexivity|]; split; [apply same_shape_refl|split; [reflexivity|intros X; discriminate X]]].
      destruct (A3 eq_refl) as (B1 & B2 & B3).
      destruct (hq_rot_z_ok iloz ihiz ihi (nCs r) (nSn r) (to_fa z)) as (z2 & E2 & Z2); [assumption|assumption|lia|assumption|].
      exists z2. split; [exact E2|]. split; [exact Z2|]. split; [intros X; discriminate X|auto]. }
    destruct EZ as (z2 & -> & SZ & PZ1 & PZ2). cbn [bind].
    cbn [sL sI sH sWr sWi sZ sV sK sT1 sM sCs sSn sIts].
    change (sWr st) with (to_fa wr). change (sWi st) with (to_fa wi).
    set (st2 := mkHq h2 _ _ _ _ _ _ _ _ _ _ _ _ _).
    assert (OK2 : hq_ok wantz ilo ihi (to_fa h) (to_fa wr) (to_fa wi) (to_fa z) st2).
    { assert (KK : forall f : fa, kept_outside ilo ihi f f) by (intros f; split; [apply same_shape_refl|reflexivity]).
      refine (conj S2 (conj (kept_set1 _ _ _ _ _ _ (kept_set1 _ _ _ _ _ _ (KK _) _) _) (conj (kept_set1 _ _ _ _ _ _ (kept_set1 _ _ _ _ _ _ (KK _) _) _) (conj SZ (conj PZ1 three_zeros))))); lia. }
    rewrite (A5 _ OK2). cbn [bind fst snd].
    assert (LL : forall cv k, hq_loop wantt wantz n ilo ihi ldh iloz ihiz cv k st2 = Ok (st2, 0)).
    { intros cv [|k]; cbn [hq_loop]; (replace (sI st2) with (ilo - 1) by reflexivity); (destruct (Z.ltb_spec (ilo - 1) ilo); [reflexivity|lia]). }
    rewrite LL. cbn [bind fst snd].
    destruct (hq_conv_ok wantz ilo ihi h wr wi iloz z st2 A OK2) as (h' & wr' & wi' & z' & -> & C1 & C2 & C3 & C4). cbn [bind].
    exists h2, z2, h', wr', wi', z'. repeat (split; [first [reflexivity|assumption]|]). exact PZ2.
  Qed.
End Calls.

(** which containers are usable *)
Section Usable.
  Context {F : Type} {NF : Num F}.
  Lemma usable_vec (l : list F) : usable _ _ l.
  Proof.
    split; [|intros d _; eexists; reflexivity]. cbn. unfold well_formed, count. cbn [rows cols data fa_of_vec]. unfold zlen. cbn. lia.
  Qed.
  Lemma usable_fa (f : fa F) : well_formed f -> usable _ _ f.
  Proof. intros W. split; [exact W|]. intros d _. eexists. reflexivity. Qed.
  Lemma usable_nested (l : list (list F)) q : 1 <= q -> l <> [] -> Forall (fun r => zlen r = q) l -> usable _ _ l.
  Proof.
    intros Q N H. destruct (of_nested_wf l q H) as (D & R & C & W). specialize (C N). split; [apply W; left; lia|].
    intros d (R1 & C1 & N1). cbn [to_fa ToFA_nested] in *.
    assert (1 <= zlen l) by (destruct l; [congruence|]; unfold zlen; cbn [length]; lia).
    destruct (nested_of_fa_ok d) as (r & Er & _); [lia|lia| |exists r; exact Er].
    rewrite N1, R1, C1, R, C. rewrite count_zlen, D. apply concat_zlen. exact H.
  Qed.
End Usable.

(** ** The statements of PropsLahqr.v *)
Section Statements.
  Context {F : Type} {NF : Num F}.
  Context {H WR WI ZZ : Type} (TH : ToFA F H) (FH : FromFA F H) (TWR : ToFA F WR) (FWR : FromFA F WR)
    (TWI : ToFA F WI) (FWI : FromFA F WI) (TZ : ToFA F ZZ) (FZ : FromFA F ZZ).
  Variables (wantt wantz : bool) (n ilo ihi : Z) (h : H) (ldh : Z) (wr : WR) (wi : WI) (iloz ihiz : Z) (z : ZZ) (ldz : Z).
  Notation run fuel := (dlahqr fuel wantt wantz n ilo ihi h ldh wr wi iloz ihiz z ldz).

  Lemma dlahqr_returns fuel :
    usable TH FH h /\ usable TWR FWR wr /\ usable TWI FWI wi /\ usable TZ FZ z /\ 1 <= ilo /\ (wantz = true -> 1 <= iloz) ->
    run fuel = NoFuel \/ exists h' wr' wi' z' info, run fuel = Ok (h', wr', wi', z', info) /\ (info = 0 \/ ilo <= info <= ihi).
  Proof.
    intros A. destruct (Z.eq_dec n 0) as [N|N].
    { right. do 5 eexists. split; [apply dlahqr_n0; exact N|left; reflexivity]. }
    destruct (Z.eq_dec ilo ihi) as [E|E].
    { right. destruct A as (_ & UR & UI & _).
      destruct (dlahqr_one wantt wantz n ilo ihi h ldh wr wi iloz ihiz z ldz fuel UR UI N E) as (wr' & wi' & _ & _ & Er & _).
      do 5 eexists. split; [exact Er|left; reflexivity]. }
    destruct (dlahqr_result wantt wantz n ilo ihi h ldh wr wi iloz ihiz z ldz fuel A N E)
      as [R|(hd & wrd & wid & zd & h' & wr' & wi' & z' & info & R & _ & _ & _ & _ & _ & _ & _ & _ & _ & I)]; [left; exact R|right].
    do 5 eexists. split; [exact R|exact I].
  Qed.
  Lemma dlahqr_single fuel x : usable TWR FWR wr -> usable TWI FWI wi -> n <> 0 -> ilo = ihi -> ent (to_fa h) ilo ilo = Some x ->
    exists wr' wi' wrd wid, run fuel = Ok (h, wr', wi', z, 0) /\ from_fa wrd = Ok wr' /\ from_fa wid = Ok wi' /\
      updated (fun _ => ilo) (fun _ _ => x) 1 (to_fa wr) wrd /\ updated (fun _ => ilo) (fun _ _ => f0) 1 (to_fa wi) wid.
  Proof. intros UR UI N E X. rewrite <- (get2_Some _ _ _ _ X). apply dlahqr_one; assumption. Qed.
  Lemma dlahqr_kept fuel h' wr' wi' z' info :
    usable TH FH h /\ usable TWR FWR wr /\ usable TWI FWI wi /\ usable TZ FZ z /\ 1 <= ilo /\ (wantz = true -> 1 <= iloz) ->
    n <> 0 -> ilo <> ihi -> run fuel = Ok (h', wr', wi', z', info) ->
    exists hd wrd wid zd, from_fa hd = Ok h' /\ from_fa wrd = Ok wr' /\ from_fa wid = Ok wi' /\ from_fa zd = Ok z' /\
      same_shape hd (to_fa h) /\ kept_outside ilo ihi (to_fa wr) wrd /\ kept_outside ilo ihi (to_fa wi) wid /\
      same_shape zd (to_fa z) /\ (wantz = false -> zd = to_fa z).
  Proof.
    intros A N E R.
    destruct (dlahqr_result wantt wantz n ilo ihi h ldh wr wi iloz ihiz z ldz fuel A N E)
      as [R'|(hd & wrd & wid & zd & h2 & wr2 & wi2 & z2 & info2 & R' & B1 & B2 & B3 & B4 & B5 & B6 & B7 & B8 & B9 & _)]; rewrite R in R'; [discriminate|].
    injection R' as <- <- <- <- <-. exists hd, wrd, wid, zd. repeat (split; [assumption|]). assumption.
  Qed.
End Statements.

Lemma dlahqr_kept_vectors {F} {NF : Num F} wantt wantz n ilo ihi (h : list (list F)) ldh (wr wi : list F) iloz ihiz (z : list (list F)) ldz fuel h' wr' wi' z' info :
  n <> 0 -> ilo <> ihi -> 1 <= ilo -> (wantz = true -> 1 <= iloz) ->
  1 <= n -> zlen h = n -> Forall (fun r => zlen r = n) h -> zlen z = n -> Forall (fun r => zlen r = n) z ->
  dlahqr fuel wantt wantz n ilo ihi h ldh wr wi iloz ihiz z ldz = Ok (h', wr', wi', z', info) ->
  zlen h' = n /\ Forall (fun r => zlen r = n) h' /\ zlen z' = n /\ Forall (fun r => zlen r = n) z' /\ (wantz = false -> z' = z) /\
  zlen wr' = zlen wr /\ zlen wi' = zlen wi /\
  forall p, ~ ilo <= p <= ihi -> zget wr' (p - 1) = zget wr (p - 1) /\ zget wi' (p - 1) = zget wi (p - 1).
Proof.
  intros N E L1 IZ N1 LH FH LZ FZ R.
  assert (HN : h <> []) by (intros ->; unfold zlen in LH; cbn in LH; lia).
  assert (ZN : z <> []) by (intros ->; unfold zlen in LZ; cbn in LZ; lia).
  destruct (dlahqr_kept _ _ _ _ _ _ _ _ _ _ _ _ _ _ _ _ _ _ _ _ _ _ _ _ _ _ _
    (conj (usable_nested h n N1 HN FH) (conj (usable_vec wr) (conj (usable_vec wi) (conj (usable_nested z n N1 ZN FZ) (conj L1 IZ))))) N E R)
    as (hd & wrd & wid & zd & F1 & F2 & F3 & F4 & SH & (SR & KR) & (SI & KI) & SZ & KZ).
  assert (SQ : forall (l : list (list F)) d l', l <> [] -> zlen l = n -> Forall (fun r => zlen r = n) l -> same_shape d (to_fa l) -> from_fa d = Ok l' ->
    zlen l' = n /\ Forall (fun r => zlen r = n) l').
  { intros l d l' NE L FL (R1 & C1 & N2) E1. cbn [to_fa ToFA_nested] in *. destruct (of_nested_wf l n FL) as (D & R2 & C2 & _). specialize (C2 NE).
    destruct (nested_of_fa_ok d) as (r & Er & Z1 & Z2 & _); [lia|lia| |].
    { rewrite N2, R1, C1, R2, C2, count_zlen, D. apply concat_zlen. exact FL. }
    cbn [from_fa FromFA_nested] in E1. rewrite E1 in Er. injection Er as <-. rewrite C1, C2 in Z1. rewrite R1, R2, L in Z2. auto. }
  destruct (SQ _ _ _ HN LH FH SH F1) as [A1 A2]. destruct (SQ _ _ _ ZN LZ FZ SZ F4) as [A3 A4].
  split; [exact A1|]. split; [exact A2|]. split; [exact A3|]. split; [exact A4|]. split.
  { intros W. rewrite (KZ W) in F4. rewrite (proj2 (nested_roundtrip_iff z n ZN N1 FZ) LZ) in F4. congruence. }
  cbn [from_fa FromFA_vec] in F2, F3. unfold vec_of_fa in F2, F3. injection F2 as <-. injection F3 as <-.
  destruct SR as (_ & _ & CR), SI as (_ & _ & CI). rewrite !count_zlen in CR, CI. split; [exact CR|]. split; [exact CI|].
  intros p Hp. specialize (KR p Hp). specialize (KI p Hp). rewrite !elem_zget in KR, KI. split; [exact KR|exact KI].
Qed.
