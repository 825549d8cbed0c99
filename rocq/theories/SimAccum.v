(** dlaqr5 with one pair of shifts, accumulating: one chunk of the sweep as a product with U, in exact arithmetic. *)
From Coq Require Import Reals Lra Ascii.
From Flocq Require Import Core.
From Verif Require Import Base Num Array Blas Lapack Dlaqr5 Spec SpecLapack ER SpecR SpecSim Lists FaLemmas RsumLemmas RealMat LasetProofs LahqrProofs LahqrTop Laqr1Proofs Laqr5Proofs SimArray SimReflect SimSweep SimLoop SimNear SimFar.
Open Scope R_scope.

(** *** products and reflectors *)
Lemma mm_rright a b A c v2 v3 t U i j : mmul a b A (rright c v2 v3 t U) i j = rright c v2 v3 t (mmul a b A U) i j.
Proof.
  unfold mmul, rright. rewrite (Rsum_range_ext _ (fun k => A i k * U k j + (-(t * wvec c v2 v3 j)) * (A i k * U k c + v2 * (A i k * U k (c + 1)%Z) + v3 * (A i k * U k (c + 2)%Z)))) by (intros; ring).
  rewrite Rsum_range_plus, Rsum_range_scal, !Rsum_range_plus, !Rsum_range_scal. ring.
Qed.
Lemma mm_rleft a b A c v2 v3 t U i j : mmul a b (mtr (rright c v2 v3 t U)) A i j = rleft c v2 v3 t (mmul a b (mtr U) A) i j.
Proof.
  unfold mmul, rright, rleft, mtr. rewrite (Rsum_range_ext _ (fun k => U k i * A k j + (-(t * wvec c v2 v3 i)) * (U k c * A k j + v2 * (U k (c + 1)%Z * A k j) + v3 * (U k (c + 2)%Z * A k j)))) by (intros; ring).
  rewrite Rsum_range_plus, Rsum_range_scal, !Rsum_range_plus, !Rsum_range_scal. ring.
Qed.
Lemma rright_shift d c v2 v3 t U i j : rright c v2 v3 t (fun a b => U (d + a)%Z (d + b)%Z) i j = rright (d + c) v2 v3 t U (d + i)%Z (d + j)%Z.
Proof.
  unfold rright. rewrite !Z.add_assoc. f_equal. f_equal. f_equal. unfold wvec.
  replace (d + j =? d + c)%Z with (j =? c)%Z by (destruct (Z.eqb_spec j c), (Z.eqb_spec (d + j) (d + c)); reflexivity || lia).
  replace (d + j =? d + c + 1)%Z with (j =? c + 1)%Z by (destruct (Z.eqb_spec j (c + 1)), (Z.eqb_spec (d + j) (d + c + 1)); reflexivity || lia).
  replace (d + j =? d + c + 2)%Z with (j =? c + 2)%Z by (destruct (Z.eqb_spec j (c + 2)), (Z.eqb_spec (d + j) (d + c + 2)); reflexivity || lia).
  reflexivity.
Qed.
(** outside a..=b the reflector does nothing *)
Lemma wvec_clear a b c v2 v3 j : (a <= c)%Z -> (c + 1 <= b)%Z -> (c + 2 <= b)%Z \/ v3 = 0 -> (j < a \/ b < j)%Z -> wvec c v2 v3 j = 0.
Proof.
  intros H1 H2 H3 H4. destruct (Z.eq_dec j (c + 2)) as [->|]; [|apply wvec_out; lia]. rewrite wvec_2. destruct H3; [lia|assumption].
Qed.

(** the products accumulated since the start (Gs, Qs) of a chunk that works on a..=b *)
Section Words.
  Context (a b : Z) (Gs Qs : Z -> Z -> R).
  Record word (G Q U : Z -> Z -> R) : Prop := {
    w_top : forall i j, (i < a)%Z -> (a <= j <= b)%Z -> G i j = mmul a b Gs U i j;
    w_right : forall i j, (b < j)%Z -> (a <= i <= b)%Z -> G i j = mmul a b (mtr U) Gs i j;
    w_far : forall i j, (i < a)%Z /\ (j < a \/ b < j)%Z \/ (b < i)%Z /\ (b < j)%Z -> G i j = Gs i j;
    w_Q : forall i j, (a <= j <= b)%Z -> Q i j = mmul a b Qs U i j;
    w_Qo : forall i j, (j < a \/ b < j)%Z -> Q i j = Qs i j
  }.
  Lemma word_start : word Gs Qs Rid.
  Proof.
    constructor; intros; try reflexivity.
    - symmetry. apply mm_id_r. assumption.
    - symmetry. rewrite (mm_ext a b _ Rid Gs Gs); [apply mm_id_l; assumption| |reflexivity].
      intros k Hk. unfold mtr, Rid. destruct (Z.eqb_spec k i), (Z.eqb_spec i k); try reflexivity; lia.
    - symmetry. apply mm_id_r. assumption.
  Qed.
  Lemma word_step G Q U G' c v2 v3 t : word G Q U -> (a <= c)%Z -> (c + 1 <= b)%Z -> (c + 2 <= b)%Z \/ v3 = 0 ->
    (forall i j, G' i j = rleft c v2 v3 t (rright c v2 v3 t G) i j) -> word G' (rright c v2 v3 t Q) (rright c v2 v3 t U).
  Proof.
    intros W H1 H2 H3 EG. pose proof (fun j => wvec_clear a b c v2 v3 j H1 H2 H3) as WC.
    assert (L0 : forall A i j, (i < a \/ b < i)%Z -> rleft c v2 v3 t A i j = A i j) by (intros; unfold rleft; rewrite WC by assumption; ring).
    assert (R0 : forall A i j, (j < a \/ b < j)%Z -> rright c v2 v3 t A i j = A i j) by (intros; unfold rright; rewrite WC by assumption; ring).
    constructor.
    - intros i j Hi Hj. rewrite EG, L0 by lia. rewrite mm_rright. unfold rright. rewrite !(w_top _ _ _ W) by lia.
      f_equal. f_equal. f_equal. destruct H3 as [H3| ->]; [rewrite (w_top _ _ _ W) by lia; reflexivity|ring].
    - intros i j Hj Hi. rewrite EG. rewrite mm_rleft. unfold rleft. rewrite !R0 by lia. rewrite !(w_right _ _ _ W) by lia.
      f_equal. f_equal. f_equal. destruct H3 as [H3| ->]; [rewrite (w_right _ _ _ W) by lia; reflexivity|ring].
    - intros i j Hij. rewrite EG, L0 by lia. rewrite R0 by lia. apply (w_far _ _ _ W). exact Hij.
    - intros i j Hj. rewrite mm_rright. unfold rright. rewrite !(w_Q _ _ _ W) by lia.
      f_equal. f_equal. f_equal. destruct H3 as [H3| ->]; [rewrite (w_Q _ _ _ W) by lia; reflexivity|ring].
    - intros i j Hj. rewrite R0 by exact Hj. apply (w_Qo _ _ _ W). exact Hj.
  Qed.
End Words.

(** *** the invariant survives when the far entries are updated by products instead *)
Section Swap.
  Context (n lo hi ktop kbot : Z) (H0 : Z -> Z -> R) (D : R).
  Notation inr i := (lo <= i <= hi)%Z.
  Notation inv_ := (inv n lo hi ktop kbot H0 D).
  Hypothesis (Hlo : (1 <= lo <= ktop)%Z) (Hk : (ktop < kbot)%Z) (Hhi : (kbot <= hi <= n)%Z).
  Context (incol : Z) (Hc : (ktop - 1 <= incol <= kbot - 2)%Z).
  Notation jt := (Z.max ktop incol).
  Notation jb := (Z.min (incol + 4) kbot).
  Notation k' := (Z.min (incol + 2) (kbot - 1)).
  Context (Ms Gs Qs : Z -> Z -> R) (ts us2 us3 : R) (Is : inv_ incol Ms Gs Qs ts us2 us3).
  Context (Mv G Q U : Z -> Z -> R) (t u2 u3 : R) (I : inv_ k' Mv G Q t u2 u3) (W : word (incol + 1) jb Gs Qs G Q U).
  Context (M : Z -> Z -> R).
  Hypothesis (N1 : forall i j, (jt <= i <= n)%Z -> (1 <= j <= jb)%Z -> M i j = Mv i j).
  Hypothesis (N2 : forall i j, (incol + 1 <= i <= jb)%Z -> (jb < j <= hi)%Z -> M i j = mmul (incol + 1) jb (mtr U) Ms i j).
  Hypothesis (N3 : forall i j, (lo <= i < jt)%Z -> (incol + 1 <= j <= jb)%Z -> M i j = mmul (incol + 1) jb Ms U i j).
  Hypothesis (N4 : forall i j, (1 <= i <= n)%Z -> (1 <= j <= n)%Z -> ~ (jt <= i /\ j <= jb)%Z -> ~ (incol + 1 <= i <= jb /\ jb < j <= hi)%Z ->
    ~ (lo <= i < jt /\ incol + 1 <= j <= jb)%Z -> M i j = Ms i j).

  Lemma start_done i j : inr i -> inr j -> (incol <= j)%Z -> i <> (incol + 3)%Z \/ (incol + 2 < j)%Z -> Ms i j = Gs i j.
  Proof.
    intros Hi Hj H1 H2. destruct (Z.eq_dec i (incol + 3)) as [->|N].
    - rewrite (i_row _ _ _ _ _ _ _ _ _ _ _ _ _ _ Is) by assumption. unfold rright. rewrite wvec_out by lia. ring.
    - destruct (i_done _ _ _ _ _ _ _ _ _ _ _ _ _ _ Is i j Hi Hj N) as [E|[E _]]; [exact E|lia].
  Qed.

  Lemma inv_swap : inv_ k' M G Q t u2 u3.
  Proof.
    assert (TD : forall i j, inr i -> inr j -> (k' + 3 <= i)%Z -> M i j = H0 i j).
    { intros i j Hi Hj Hr. destruct (Z_le_gt_dec j jb) as [L|L].
      - rewrite N1 by lia. apply (i_todo _ _ _ _ _ _ _ _ _ _ _ _ _ _ I); lia.
      - rewrite N4 by lia. apply (i_todo _ _ _ _ _ _ _ _ _ _ _ _ _ _ Is); lia. }
    constructor.
    - apply (i_orth _ _ _ _ _ _ _ _ _ _ _ _ _ _ I).
    - apply (i_id _ _ _ _ _ _ _ _ _ _ _ _ _ _ I).
    - apply (i_sim _ _ _ _ _ _ _ _ _ _ _ _ _ _ I).
    - apply (i_low _ _ _ _ _ _ _ _ _ _ _ _ _ _ I).
    - apply (i_iso _ _ _ _ _ _ _ _ _ _ _ _ _ _ I).
    - exact TD.
    - intros j Hr Hj. rewrite (i_row _ _ _ _ _ _ _ _ _ _ _ _ _ _ I) by assumption.
      assert (E : forall x, inr x -> Mv (k' + 3)%Z x = M (k' + 3)%Z x).
      { intros x Hx. rewrite TD by lia. apply (i_todo _ _ _ _ _ _ _ _ _ _ _ _ _ _ I); lia. }
      unfold rright. rewrite !E by lia. reflexivity.
    - intros i j Hi Hj Nk. destruct (Z_le_gt_dec jt i) as [L1|L1], (Z_le_gt_dec j jb) as [L2|L2].
      + rewrite N1 by lia. apply (i_done _ _ _ _ _ _ _ _ _ _ _ _ _ _ I); assumption.
      + left. destruct (Z_le_gt_dec (incol + 1) i) as [L3|L3].
        * destruct (Z_le_gt_dec i jb) as [L4|L4].
          -- rewrite N2 by lia. rewrite (w_right _ _ _ _ _ _ _ W) by lia. apply mm_ext; [reflexivity|]. intros l Hl. apply start_done; lia.
          -- rewrite N4 by lia. rewrite (w_far _ _ _ _ _ _ _ W) by lia. apply start_done; lia.
        * rewrite N4 by lia. rewrite (w_far _ _ _ _ _ _ _ W) by lia. apply start_done; lia.
      + destruct (Z_le_gt_dec (incol + 1) j) as [L3|L3].
        * left. rewrite N3 by lia. rewrite (w_top _ _ _ _ _ _ _ W) by lia. apply mm_ext; [|reflexivity]. intros l Hl. apply start_done; lia.
        * rewrite N4 by lia. rewrite (w_far _ _ _ _ _ _ _ W) by lia.
          destruct (i_done _ _ _ _ _ _ _ _ _ _ _ _ _ _ Is i j Hi Hj ltac:(lia)) as [E|[[E1 E2] [E3 E4]]]; [left; exact E|right].
          split; [lia|]. split; assumption.
      + left. rewrite N4 by lia. rewrite (w_far _ _ _ _ _ _ _ W) by lia. apply start_done; lia.
    - intros i j Hi Hj Ho. destruct (Z_le_gt_dec jt i) as [L1|L1], (Z_le_gt_dec j jb) as [L2|L2];
        [rewrite N1 by lia; apply (i_out _ _ _ _ _ _ _ _ _ _ _ _ _ _ I); assumption|..]; rewrite N4 by lia; apply (i_out _ _ _ _ _ _ _ _ _ _ _ _ _ _ Is); assumption.
    - apply (i_nz _ _ _ _ _ _ _ _ _ _ _ _ _ _ I).
    - apply (i_t0 _ _ _ _ _ _ _ _ _ _ _ _ _ _ I).
  Qed.
End Swap.

(** *** the arrays *)
Open Scope Z_scope.
Section Acc.
  Context (wantt wantz : bool) (n ktop kbot : Z) (sr si : fa er) (ld iloz ihiz ldv ldu nv ldwv nh ldwh : Z).
  Context (h0 v0 z0 u0 wv0 wh0 : fa er) (H0 Z0 : Z -> Z -> R) (sr1 si1 sr2 si2 Nf : R).
  Notation lo := (slo wantt ktop).
  Notation hi := (shi wantt n kbot).
  Notation B := (2 ^ 500)%R.
  Hypothesis (Hk : (1 <= ktop < kbot)%Z) (Hn : (kbot <= n)%Z).
  Hypothesis (FH : full h0) (RH : rows h0 = ld) (NH : (n <= ld)%Z) (DV : dim2 ldv v0) (CV : (3 <= count v0)%Z).
  Hypothesis (HESS : hessenberg lo hi H0) (UNR : forall j, (ktop <= j < kbot)%Z -> H0 (j + 1)%Z j <> 0%R).
  Hypothesis (ISO1 : (lo < ktop)%Z -> H0 ktop (ktop - 1)%Z = 0%R) (ISO2 : (kbot < hi)%Z -> H0 (kbot + 1)%Z kbot = 0%R).
  Hypothesis (NF0 : (0 <= Nf)%R) (NFB : (Nf <= B)%R) (FRB : (frob2 lo hi H0 <= Nf * Nf)%R).
  Hypothesis (ES1 : get1 sr 1 = Fin sr1) (ES2 : get1 si 1 = Fin si1) (ES3 : get1 sr 2 = Fin sr2) (ES4 : get1 si 2 = Fin si2).
  Hypothesis (BS : (Rabs sr1 <= B /\ Rabs si1 <= B /\ Rabs sr2 <= B /\ Rabs si2 <= B)%R).
  Hypothesis (DH : dim2 ld h0) (CH : n <= cols h0).
  Hypothesis (DU : dim2 ldu u0) (U1 : 4 <= ldu) (U2 : 4 <= cols u0).
  Hypothesis (DWh : dim2 ldwh wh0) (Wh1 : 4 <= ldwh) (Wh2 : nh <= cols wh0) (NHp : 1 <= nh).
  Hypothesis (DWv : dim2 ldwv wv0) (Wv1 : nv <= ldwv) (Wv2 : 4 <= cols wv0) (NVp : 1 <= nv).
  Hypothesis (DZ : dim2 ld z0) (CZ : wantz = true -> kbot <= cols z0) (IZ : wantz = true -> 1 <= iloz /\ ihiz <= ld).
  Hypothesis (HZ : wantz = true -> forall i j, iloz <= i <= ihiz -> ktop <= j <= kbot -> ent z0 i j = Some (Fin (Z0 i j))).

  Notation sval_ := (sval wantt n ktop kbot h0 v0 H0 sr1 si1 sr2 si2 Nf).
  Notation zin := (inblk iloz ktop (ihiz - iloz + 1) (kbot - ktop + 1)).

  Definition zval (z : fa er) (Q : Z -> Z -> R) : Prop := forall i j, 1 <= i <= ld ->
    ent z i j = if zin i j then Some (Fin (mmul ktop kbot Z0 Q i j)) else ent z0 i j.
  Definition ashapes (st : q5st (F := er)) : Prop := same_shape (qZ st) z0 /\ same_shape (qU st) u0 /\ same_shape (qWv st) wv0 /\ same_shape (qWh st) wh0.
  Definition aval (k : Z) (st : q5st) (M G Q : Z -> Z -> R) (t u2 u3 : R) : Prop :=
    sval_ k st M G Q t u2 u3 /\ ashapes st /\ (wantz = true -> zval (qZ st) Q) /\ (wantz = false -> qZ st = z0).
  Definition ainv (k : Z) (st : q5st) : Prop := exists M G Q t u2 u3, aval k st M G Q t u2 u3.

  Lemma ident_u (u : fa er) : same_shape u u0 -> exists u', dlaset (chr "A") 4 4 f0 f1 u = Ok u' /\ same_shape u' u0 /\ mat_is u' 4 4 Rid.
  Proof.
    intros S. unfold dlaset. cbn [to_fa ToFA_fa from_fa FromFA_fa]. eexists. split; [reflexivity|].
    pose proof DU as (RU & _ & _ & NU).
    destruct (laset_all (chr "A") 4 4 f0 f1 u) as (S' & BL & _); [discriminate|discriminate|rewrite (proj1 S); lia|].
    split; [eapply same_shape_trans; eassumption|]. intros i j Hi Hj. rewrite BL by assumption.
    destruct (ent_Some u i j) as [x ->].
    { destruct S as (-> & _ & ->). rewrite RU, NU. unfold pos. nia. }
    cbn [option_map]. unfold laset_entry, Rid. cbn [strictly_in_part]. rewrite er_f0, er_f1. destruct (Z.eqb_spec i j); reflexivity.
  Qed.

  (** one chunk: the run from st, against the run that does not accumulate *)
  Section Chunk.
    Context (incol : Z) (Hc : ktop - 1 <= incol <= kbot - 2).
    Context (st : q5st (F := er)) (Ms Gs Qs : Z -> Z -> R) (ts us2 us3 : R) (SV : sval_ incol st Ms Gs Qs ts us2 us3) (SU : same_shape (qU st) u0).
    Notation jt := (Z.max ktop incol).
    Notation jb := (Z.min (incol + 4) kbot).
    Notation rel_ := (rel n ktop kbot incol (qH st)).

    Definition cval (k : Z) (sa sv : q5st (F := er)) (M G Q : Z -> Z -> R) (t u2 u3 : R) (U : Z -> Z -> R) : Prop :=
      sval_ k sv M G Q t u2 u3 /\ rel_ sa sv /\ word (incol + 1) jb Gs Qs G Q U /\
      (mat_is (qU sa) 4 4 (fun a b => U (incol + a) (incol + b)) /\ same_shape (qU sa) u0) /\
      (qZ sa = qZ st /\ qWv sa = qWv st /\ qWh sa = qWh st) /\ (k = ktop - 1 -> qH sa = qH sv).

    Lemma chunk_step k sa sv M G Q t u2 u3 U : incol <= k <= incol + 1 -> k <= kbot - 2 -> cval k sa sv M G Q t u2 u3 U ->
      exists sa' sv' M' G' Q' t' u2' u3' U', q5_krcol wantt wantz true n ktop kbot 1 sr si ld iloz ihiz ldv incol k sa = Ok sa' /\
        cval (k + 1) sa' sv' M' G' Q' t' u2' u3' U'.
    Proof.
      intros Ka Kb (C1 & C2 & C3 & (C4 & C5) & (C6 & C7 & C8) & C9).
      destruct (krcol_reflects wantt wantz n ktop kbot sr si ld iloz ihiz ldv h0 v0 H0 sr1 si1 sr2 si2 Nf Hk Hn FH RH NH DV CV HESS UNR ISO2 NF0 NFB FRB ES1 ES2 ES3 ES4 BS
        incol k sv M G Q t u2 u3 ltac:(lia) C1) as (sv' & M' & G' & tau & v2 & v3 & E & R1 & R2 & R3 & R4 & R5 & R6).
      destruct SV as ((_ & SH) & _).
      assert (RS : rows (qH st) = ld) by (rewrite (proj1 SH); exact RH).
      destruct (krcol_rel wantt wantz n ktop kbot sr si ld iloz ihiz ldv incol (qH st) Hk Hn ltac:(lia) ltac:(lia) (full_shape _ _ SH FH) RS k sa sv sv' ltac:(lia) ltac:(lia) C2 C9 E)
        as (sa' & E' & R' & EU & EZ & EWv & EWh).
      exists sa', sv', M', G', (rright (k + 1) v2 v3 tau Q), tau, v2, v3, (rright (k + 1) v2 v3 tau U). split; [exact E'|].
      pose proof DU as (RU & _ & _ & NU).
      split; [exact R1|]. split; [exact R'|]. split.
      { eapply word_step; [exact C3|lia|lia| |exact R2]. destruct R3; [left; lia|right; assumption]. }
      split; [|split; [split; [congruence|split; congruence]|intros X; lia]].
      assert (R0 : 4 <= rows (qU sa)) by (rewrite (proj1 C5); lia).
      rewrite EU. unfold upd_u. rewrite (get2_col1 _ 1 _ R4), (get2_col1 _ 2 _ R5), !er_mulE.
      destruct (Z.eqb_spec k (kbot - 2)) as [EK|NK].
      - destruct R3 as [R3|R3]; [lia|]. subst v3.
        destruct (right2_loop 4 (qU sa) _ (k - incol + 1) v2 tau 1 4 C4 R0) as [HM HS]; [lia|lia|lia|lia|]. cbv zeta in HM, HS.
        split; [|eapply same_shape_trans; eassumption]. intros i j Hi Hj. rewrite (HM i j Hi Hj). f_equal. f_equal. unfold rows_only.
        destruct (Z.leb_spec 1 i), (Z.leb_spec i 4); try lia. cbn [andb]. rewrite rright_shift. f_equal. lia.
      - rewrite (get2_col1 _ 3 _ (R6 ltac:(lia))), !er_mulE.
        destruct (right3_loop 4 (qU sa) _ (k - incol + 1) v2 v3 tau 1 4 C4 R0) as [HM HS]; [lia|lia|lia|lia|]. cbv zeta in HM, HS.
        split; [|eapply same_shape_trans; eassumption]. intros i j Hi Hj. rewrite (HM i j Hi Hj). f_equal. f_equal. unfold rows_only.
        destruct (Z.leb_spec 1 i), (Z.leb_spec i 4); try lia. cbn [andb]. rewrite rright_shift. f_equal. lia.
    Qed.
  End Chunk.

  Notation incol_ := (q5_incol wantt wantz true n ktop kbot 1 sr si ld iloz ihiz ld ldv ldu nv ldwv nh ldwh).
  Notation main_ := (q5_main wantt wantz true n ktop kbot 1 sr si ld iloz ihiz ld ldv ldu nv ldwv nh ldwh).

  Lemma chunk_run incol st Ms Gs Qs ts us2 us3 u1 : ktop - 1 <= incol <= kbot - 2 -> sval_ incol st Ms Gs Qs ts us2 us3 ->
    same_shape u1 u0 -> mat_is u1 4 4 Rid ->
    exists sa sv M G Q t u2 u3 U, for_M (range incol (Z.min (incol + 2 * 1 - 1) (kbot - 2))) (mkQ5 (qH st) (qZ st) (qV st) u1 (qWv st) (qWh st) (qVt st))
      (q5_krcol wantt wantz true n ktop kbot 1 sr si ld iloz ihiz ldv incol) = Ok sa /\ cval incol st Gs Qs (Z.min (incol + 2) (kbot - 1)) sa sv M G Q t u2 u3 U.
  Proof.
    intros K S SU MU. set (s1 := mkQ5 _ _ _ _ _ _ _).
    assert (C0 : cval incol st Gs Qs incol s1 s1 Ms Gs Qs ts us2 us3 Rid).
    { destruct S as (HG & S'). split; [exact (conj HG S')|]. split.
      { split; [|split; reflexivity]. unfold s1. cbn [qH]. apply agree_refl. rewrite (proj1 (proj2 HG)), RH. exact NH. }
      split; [apply word_start|]. split; [split; [|exact SU]|split; [split; [|split]; reflexivity|reflexivity]].
      intros i j Hi Hj. unfold s1. cbn [qU]. rewrite (MU i j Hi Hj). unfold Rid.
      destruct (Z.eqb_spec i j), (Z.eqb_spec (incol + i) (incol + j)); try lia; reflexivity. }
    replace (incol + 2 * 1 - 1) with (incol + 1) by lia. rewrite range_cons by lia. cbn [for_M].
    destruct (chunk_step incol K st Ms Gs Qs ts us2 us3 S incol s1 s1 Ms Gs Qs ts us2 us3 Rid ltac:(lia) ltac:(lia) C0) as (sa & sv & M & G & Q & t & u2 & u3 & U & -> & C1). cbn [bind].
    destruct (Z_lt_le_dec incol (kbot - 2)).
    - rewrite range_cons, range_nil by lia. cbn [for_M].
      destruct (chunk_step incol K st Ms Gs Qs ts us2 us3 S (incol + 1) sa sv M G Q t u2 u3 U ltac:(lia) ltac:(lia) C1) as (sa2 & sv2 & M2 & G2 & Q2 & t2 & u22 & u32 & U' & -> & C2). cbn [bind].
      replace (Z.min (incol + 2) (kbot - 1)) with (incol + 1 + 1) by lia. do 9 eexists. split; [reflexivity|exact C2].
    - rewrite range_nil by lia. cbn [for_M]. replace (Z.min (incol + 2) (kbot - 1)) with (incol + 1) by lia. do 9 eexists. split; [reflexivity|exact C1].
  Qed.

  Lemma reindex (f : Z -> R) d a m : Rsum_range (fun l => f (d + l)) a m = Rsum_range f (d + a) (d + m).
  Proof.
    unfold Rsum_range. replace (d + m - (d + a) + 1) with (m - a + 1) by lia. generalize (Z.to_nat (m - a + 1)). intros q. revert a.
    induction q as [|q IH]; intros a; [reflexivity|]. cbn [Rsum]. rewrite IH. rewrite Z.add_assoc. reflexivity.
  Qed.
  Lemma mm_assoc2 a b c d A X Y i j : mmul a b (mmul c d A X) Y i j = mmul c d A (mmul a b X Y) i j.
  Proof.
    unfold mmul. rewrite (Rsum_range_ext _ (fun k => Rsum_range (fun l => A i l * X l k * Y k j)%R c d)).
    2: { intros k _. rewrite Rmult_comm, <- Rsum_range_scal. apply Rsum_range_ext. intros. ring. }
    rewrite Rsum_range_swap. apply Rsum_range_ext. intros l _. rewrite <- Rsum_range_scal. apply Rsum_range_ext. intros. ring.
  Qed.

  Lemma acc_step incol st : ktop - 1 <= incol <= kbot - 2 -> ainv incol st -> exists st', incol_ incol st = Ok st' /\ ainv (Z.min (incol + 2) (kbot - 1)) st'.
  Proof.
    intros K (Ms & Gs & Qs & ts & us2 & us3 & S & (SZ & SU & SWv & SWh) & ZV & ZF).
    unfold q5_incol, q5_kdu. change (4 * 1) with 4. destruct (ident_u (qU st) SU) as (u1 & -> & SU1 & MU1). cbn [bind]. cbv zeta.
    destruct (chunk_run incol st Ms Gs Qs ts us2 us3 u1 K S SU1 MU1) as (sa & sv & Mv & G & Q & t & u2 & u3 & U & -> & C). cbn [bind].
    destruct C as (C1 & (C2 & CV1 & CV2) & C3 & (C4 & C5) & (C6 & C7 & C8) & _).
    set (jt := Z.max ktop incol) in *. set (jb := Z.min (incol + 4) kbot) in *. set (k' := Z.min (incol + 2) (kbot - 1)) in *.
    set (nearb := fun i j => ((jt <=? i) && (j <=? jb))%bool).
    assert (NB : forall i j, nearb i j = true <-> jt <= i /\ j <= jb) by (intros i j; unfold nearb; rewrite andb_true_iff, !Z.leb_le; reflexivity).
    assert (NB' : forall i j, nearb i j = false <-> i < jt \/ jb < j) by (intros i j; unfold nearb; rewrite andb_false_iff, !Z.leb_gt; reflexivity).
    set (Ma := fun i j => if nearb i j then Mv i j else Ms i j).
    pose proof S as ((MS & SHs) & _ & IS & _). pose proof C1 as ((MV & SHv) & SVv & IV & VG & U3 & FC & _).
    destruct C2 as ((SHa & _) & _ & NE & FE).
    assert (SHa0 : same_shape (qH sa) h0) by (eapply same_shape_trans; eassumption).
    assert (HMa : mat_is (qH sa) n n Ma).
    { intros i j Hi Hj. unfold Ma. destruct (nearb i j) eqn:E.
      - apply NB in E. rewrite NE by (split; lia). apply MV; assumption.
      - apply NB' in E. rewrite FE by (try (intros [? ?]); lia). apply MS; assumption. }
    assert (SZa : same_shape (qZ sa) z0) by (rewrite C6; exact SZ).
    destruct (far_ok wantt wantz n ktop kbot ld iloz ihiz ldu nv ldwv nh ldwh incol sa Ma (mmul ktop kbot Z0 Qs) (fun a b => U (incol + a) (incol + b))) as
      (s1 & E & EV & EU & EVT & F1 & F2 & F3 & F4 & FH1 & FZ1 & FZ2);
      [lia|lia|exact K|apply (dim2_shape _ _ _ SHa0 DH)|destruct SHa0 as (_ & -> & _); exact CH|exact HMa|apply (dim2_shape _ _ _ C5 DU)|exact U1|exact C4
      |rewrite C8; apply (dim2_shape _ _ _ SWh DWh)|exact Wh1|rewrite C8; destruct SWh as (_ & -> & _); exact Wh2|exact NHp
      |rewrite C7; apply (dim2_shape _ _ _ SWv DWv)|exact Wv1|rewrite C7; destruct SWv as (_ & -> & _); exact Wv2|exact NVp
      |apply (dim2_shape _ _ _ SZa DZ)|intros X; destruct SZa as (_ & -> & _); exact (CZ X)|exact IZ| |].
    { intros X i j Hi Hj. rewrite C6. destruct (IZ X). rewrite (ZV X) by lia. replace (zin i j) with true by (symmetry; apply inblk_true; lia). reflexivity. }
    exists s1. split; [exact E|]. fold jb jt in FH1, FZ2.
    assert (L1 : 1 <= lo <= ktop) by (unfold slo; destruct wantt; lia). assert (L2 : kbot <= hi <= n) by (unfold shi; destruct wantt; lia).
    change (if wantt then 1 else ktop) with lo in FH1. change (if wantt then n else kbot) with hi in FH1.
    set (M1 := fun i j => if inblk (incol + 1) (jb + 1) (jb - incol) (hi - jb) i j then mmul (incol + 1) jb (mtr U) Ms i j else
      if inblk lo (incol + 1) (jt - lo) (jb - incol) i j then mmul (incol + 1) jb Ms U i j else Ma i j).
    assert (HM1 : mat_is (qH s1) n n M1).
    { intros i j Hi Hj. rewrite FH1 by lia. unfold M1. destruct (inblk (incol + 1) _ _ _ i j) eqn:B1; [|destruct (inblk lo _ _ _ i j) eqn:B2; [|apply HMa; assumption]].
      - apply inblk_true in B1. f_equal. f_equal. unfold top_right, mmul, mtr. fold jb. rewrite <- (Z.add_comm 1 incol). replace jb with (incol + (jb - incol)) at 2 by lia. rewrite (Z.add_comm 1 incol).
        rewrite <- reindex. apply Rsum_range_ext. intros l Hl. replace (incol + (i - incol)) with i by lia. f_equal. unfold Ma.
        replace (nearb (incol + l) j) with false by (symmetry; apply NB'; lia). reflexivity.
      - apply inblk_true in B2. f_equal. f_equal. unfold top_left, mmul. fold jb. replace jb with (incol + (jb - incol)) at 2 by lia.
        rewrite <- reindex. apply Rsum_range_ext. intros l Hl. replace (incol + (j - incol)) with j by lia. f_equal. unfold Ma.
        replace (nearb i (incol + l)) with false by (symmetry; apply NB'; lia). reflexivity. }
    exists M1, G, Q, t, u2, u3. split; [|split; [|split]].
    - split; [split; [exact HM1|eapply same_shape_trans; eassumption]|]. split; [rewrite EV, CV1; exact SVv|]. split.
      { apply (inv_swap n lo hi ktop kbot H0 _ ltac:(lia) ltac:(lia) ltac:(lia) incol K Ms Gs Qs ts us2 us3 IS Mv G Q U t u2 u3 IV C3).
        - intros i j Hi Hj. fold jt jb in Hi, Hj. unfold M1.
          replace (inblk (incol + 1) _ _ _ i j) with false by (symmetry; apply inblk_false; lia).
          replace (inblk lo _ _ _ i j) with false by (symmetry; apply inblk_false; lia).
          unfold Ma. replace (nearb i j) with true by (symmetry; apply NB; lia). reflexivity.
        - intros i j Hi Hj. fold jb in Hi, Hj. unfold M1. replace (inblk (incol + 1) _ _ _ i j) with true by (symmetry; apply inblk_true; lia). reflexivity.
        - intros i j Hi Hj. fold jt in Hi. fold jb in Hj. unfold M1. replace (inblk (incol + 1) _ _ _ i j) with false by (symmetry; apply inblk_false; lia).
          replace (inblk lo _ _ _ i j) with true by (symmetry; apply inblk_true; lia). reflexivity.
        - intros i j Hi Hj X1 X2 X3. fold jt jb in X1, X2, X3. unfold M1.
          replace (inblk (incol + 1) _ _ _ i j) with false by (symmetry; apply inblk_false; lia).
          replace (inblk lo _ _ _ i j) with false by (symmetry; apply inblk_false; lia).
          unfold Ma. replace (nearb i j) with false by (symmetry; apply NB'; lia). reflexivity. }
      split; [rewrite EV, CV1; exact VG|]. split; [exact U3|]. split; [exact FC|]. intros X. unfold k' in X. lia.
    - split; [eapply same_shape_trans; eassumption|]. split; [rewrite EU; exact C5|]. split; (eapply same_shape_trans; [eassumption|rewrite ?C7, ?C8; assumption]).
    - intros X i j Hi. destruct (IZ X). rewrite (FZ2 X) by exact Hi. rewrite C6, (ZV X) by exact Hi. destruct (zin i j) eqn:B1.
      + apply inblk_true in B1. destruct (inblk iloz (incol + 1) _ _ i j) eqn:B2.
        * apply inblk_true in B2. f_equal. f_equal. unfold zprod. fold jb.
          rewrite (Rsum_range_ext _ (fun l => (mmul ktop kbot Z0 Qs i (incol + l)%Z * U (incol + l)%Z j)%R)) by (intros; f_equal; f_equal; lia).
          rewrite (reindex (fun l => (mmul ktop kbot Z0 Qs i l * U l j)%R)). replace (incol + (jb - incol)) with jb by lia.
          change (mmul (incol + 1) jb (mmul ktop kbot Z0 Qs) U i j = mmul ktop kbot Z0 Q i j). rewrite mm_assoc2. apply mm_ext; [reflexivity|].
          intros l Hl. symmetry. apply (w_Q _ _ _ _ _ _ _ C3). fold jb. lia.
        * apply inblk_false in B2. f_equal. f_equal. apply mm_ext; [reflexivity|]. intros l Hl. symmetry. apply (w_Qo _ _ _ _ _ _ _ C3). fold jb. lia.
      + apply inblk_false in B1. replace (inblk iloz (incol + 1) _ _ i j) with false by (symmetry; apply inblk_false; lia). reflexivity.
    - intros X. rewrite (FZ1 X), C6. exact (ZF X).
  Qed.

  Lemma acc_incols m : forall incol st, (1 <= m)%nat -> ktop - 1 <= incol -> incol + 2 * (Z.of_nat m - 1) <= kbot - 2 < incol + 2 * Z.of_nat m -> ainv incol st ->
    exists st', for_M (zup incol 2 m) st incol_ = Ok st' /\ ainv (Z.min (incol + 2 * Z.of_nat m) (kbot - 1)) st'.
  Proof.
    induction m as [|m IH]; intros incol st K0 K1 K2 Si; [lia|]. cbn [zup for_M].
    destruct (acc_step incol st) as (st1 & -> & S1); [lia|exact Si|]. cbn [bind].
    destruct m as [|m'].
    - cbn [zup for_M]. exists st1. split; [reflexivity|exact S1].
    - replace (Z.min (incol + 2) (kbot - 1)) with (incol + 2) in S1 by lia.
      destruct (IH (incol + 2) st1) as (st2 & E2 & S2); [lia|lia|lia|exact S1|]. exists st2. split; [exact E2|].
      replace (incol + 2 * Z.of_nat (S (S m'))) with (incol + 2 + 2 * Z.of_nat (S m')) by lia. exact S2.
  Qed.

  Lemma main_acc st : hgood n h0 (qH st) H0 -> same_shape (qV st) v0 -> ashapes st -> qZ st = z0 ->
    exists st', main_ st = Ok st' /\ ashapes st' /\ same_shape (qV st') v0 /\ exists M Q, hgood n h0 (qH st') M /\ orthogonal lo hi Q /\ identity_outside ktop kbot Q /\
      (forall i j, lo <= i <= hi -> lo <= j <= hi -> M i j = conj_by lo hi Q H0 i j \/ (ktop <= j <= kbot - 2 /\ i = j + 1) /\ M i j = 0%R /\
        (Rabs (conj_by lo hi Q H0 i j) <= Rmax (IZR n * bpow radix2 (-970)) (6 * bpow radix2 (-52) * Nf))%R) /\
      hessenberg lo hi M /\ (forall i j, 1 <= i <= n -> 1 <= j <= n -> ~ (lo <= i <= hi /\ lo <= j <= hi) -> M i j = H0 i j) /\ first_col ktop kbot H0 sr1 si1 sr2 si2 Q /\
      (wantz = true -> zval (qZ st') Q) /\ (wantz = false -> qZ st' = z0).
  Proof.
    intros HG SV AS EZ. assert (L1 : 1 <= lo <= ktop) by (unfold slo; destruct wantt; lia). assert (L2 : kbot <= hi <= n) by (unfold shi; destruct wantt; lia).
    unfold q5_main. replace (ktop - 2 * 1 + 1) with (ktop - 1) by lia. replace (2 * 1) with 2 by lia.
    unfold range_step. destruct (Z.ltb_spec (kbot - 2) (ktop - 1)); [lia|].
    set (m := Z.to_nat ((kbot - 2 - (ktop - 1)) / 2 + 1)).
    assert (EM : Z.of_nat m = (kbot - 2 - (ktop - 1)) / 2 + 1) by (unfold m; rewrite Z2Nat.id; [reflexivity|]; pose proof (Z.div_pos (kbot - 2 - (ktop - 1)) 2 ltac:(lia) ltac:(lia)); lia).
    pose proof (Z.div_mod (kbot - 2 - (ktop - 1)) 2 ltac:(lia)) as DM. pose proof (Z.mod_pos_bound (kbot - 2 - (ktop - 1)) 2 ltac:(lia)) as MB.
    match goal with |- context [for_M _ ?s _] => set (st1 := s) end.
    assert (S0 : ainv (ktop - 1) st1).
    { assert (HG1 : exists M, hgood n h0 (qH st1) M /\ forall i j, 1 <= i <= n -> 1 <= j <= n -> M i j = H0 i j).
      { unfold st1. cbn [qH]. destruct (Z.leb_spec (ktop + 2) kbot); [|exists H0; auto].
        rewrite er_f0. exists (rupd H0 (ktop + 2) ktop 0). split; [eapply hgood_set; [exact RH|exact NH|exact HG|lia|lia]|].
        intros i j Hi Hj. unfold rupd. destruct (Z.eqb_spec i (ktop + 2)) as [->|], (Z.eqb_spec j ktop) as [->|]; cbn [andb]; try reflexivity.
        symmetry. apply HESS; lia. }
      destruct HG1 as (M & HG1 & E1). exists M, H0, Rid, 0%R, 0%R, 0%R. split.
      { split; [exact HG1|]. split; [exact SV|].
        split; [apply inv_start; auto; lia|]. split; [intros X; lia|]. split; [lia|]. split; [lia|]. intros _. split; [exact E1|reflexivity]. }
      split; [exact AS|]. split; [|intros _; exact EZ]. intros X i j Hi. unfold st1. cbn [qZ]. rewrite EZ. destruct (zin i j) eqn:B1; [|reflexivity].
      apply inblk_true in B1. rewrite (HZ X) by lia. f_equal. f_equal. symmetry. apply mm_id_r. lia. }
    destruct (acc_incols m (ktop - 1) st1) as (st' & E & S'); [lia|lia|lia|exact S0|].
    exists st'. split; [exact E|]. replace (Z.min (ktop - 1 + 2 * Z.of_nat m) (kbot - 1)) with (kbot - 1) in S' by lia.
    destruct S' as (M & G & Q & t & u2 & u3 & (HG' & SV' & I & _ & U3 & FC & _) & AS' & Z1 & Z2). split; [exact AS'|]. split; [exact SV'|]. exists M, Q.
    destruct (inv_end n lo hi ktop kbot H0 _ L1 (proj2 Hk) L2 M G Q t u2 u3 HESS I (U3 eq_refl)) as [SIM HS].
    split; [exact HG'|]. split; [apply I|]. split; [apply I|]. split; [exact SIM|]. split; [exact HS|]. split; [apply (i_out _ _ _ _ _ _ _ _ _ _ _ _ _ _ I)|]. split; [apply FC; lia|]. split; assumption.
  Qed.
End Acc.
