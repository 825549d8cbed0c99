(** dtrmm at the level of its containers, what it reads, and exact arithmetic. *)
From Coq Require Import Ascii Reals Lra.
From Flocq Require Import Core.
From Verif Require Import Base Num Array Blas Spec SpecBlas Lists FaLemmas MatLemmas LsameProofs Checks TrmmProofs
  ER SpecR RsumLemmas B64.
Open Scope Z_scope.

Lemma block_updated_unique {F} (c0 c1 c2 : fa F) m n g g' :
  1 <= m <= rows c0 -> block_updated m n g c0 c1 -> block_updated m n g' c0 c2 ->
  (forall i j x, 1 <= i <= m -> 1 <= j <= n -> ent c0 i j = Some x -> g i j x = g' i j x) ->
  data c1 = data c2 /\ rows c1 = rows c2 /\ cols c1 = cols c2.
Proof.
  intros Hm ((R1 & C1 & N1) & U1 & O1) ((R2 & C2 & N2) & U2 & O2) E. split; [|split; congruence].
  apply elem_ext. intros p Hp.
  destruct (pos_surj (rows c0) p ltac:(lia) ltac:(lia)) as (i & j & Hi & Hj & Ep).
  destruct (Z_le_gt_dec i m), (Z_le_gt_dec j n).
  - specialize (U1 i j ltac:(lia) ltac:(lia)). specialize (U2 i j ltac:(lia) ltac:(lia)).
    unfold ent in U1, U2. rewrite R1, Ep in U1. rewrite R2, Ep in U2. rewrite U1, U2.
    apply option_map_ext. intros x Hx. apply E; try lia. unfold ent. rewrite Ep. exact Hx.
  - rewrite O1, O2; auto; intros i' j' Hi' Hj' E'; subst p; apply pos_inj in E'; lia.
  - rewrite O1, O2; auto; intros i' j' Hi' Hj' E'; subst p; apply pos_inj in E'; lia.
  - rewrite O1, O2; auto; intros i' j' Hi' Hj' E'; subst p; apply pos_inj in E'; lia.
Qed.

Lemma trmm_bounds side uplo transa diag m n lda ldb :
  none_bad (trmm_table side uplo transa diag m n lda ldb) -> 0 <= m /\ 0 <= n /\ 1 <= lda /\ 1 <= ldb /\ m <= ldb.
Proof.
  unfold none_bad, trmm_table. rewrite !Forall_cons_iff. cbn [snd].
  intros (_ & _ & _ & _ & H5 & H6 & H9 & H11 & _).
  assert (letter side LL \/ ~ letter side LL) as Da by (unfold letter; lia).
  assert (~ lda < Z.max 1 m \/ ~ lda < Z.max 1 n) by tauto.
  clear H9 Da. lia.
Qed.

Lemma lsame_is c L L' (b : bool) : L' = L -> 0 <= L < 256 -> (b = true <-> letter c L) -> lsame c L' = b.
Proof. intros -> HL H. apply eq_true_iff_eq. rewrite H. apply lsame_letter; assumption. Qed.

Section Top.
  Context {F : Type} {NF : Num F}.

  (** new value of entry (i,j) of B *)
  Definition trmm_value lside upper notrans nounit m n (alpha : F) (a b : fa F) (i j : Z) (_ : F) : F :=
    if feq alpha f0 then f0 else trmm_entry lside upper notrans nounit m n alpha (get2 a) (get2 b) i j.

  Context {A B : Type} {TA : ToFA F A} {FA : FromFA F A} {TB : ToFA F B} {FB : FromFA F B}.

  Lemma dtrmm_spec side uplo transa diag m n (alpha : F) (a : A) lda (b : B) ldb (lside upper notrans nounit : bool) :
    none_bad (trmm_table side uplo transa diag m n lda ldb) ->
    (lside = true <-> letter side LL) -> (upper = true <-> letter uplo LU) ->
    (notrans = true <-> letter transa LN) -> (nounit = true <-> letter diag LN) ->
    holds_block (to_fa b) m n ->
    exists r, block_updated m n (trmm_value lside upper notrans nounit m n alpha (to_fa a) (to_fa b)) (to_fa b) r /\
      (m = 0 \/ n = 0 -> r = to_fa b) /\
      dtrmm side uplo transa diag m n alpha a lda b ldb =
        (if (m =? 0) || (n =? 0) then Ok (a, b)
         else if feq alpha f0 then (b' <- from_fa r ;; Ok (a, b'))
         else (a' <- from_fa (to_fa a) ;; b' <- from_fa r ;; Ok (a', b'))).
  Proof.
    intros V HL HU HN HD Hb. pose proof (trmm_bounds _ _ _ _ _ _ _ _ V) as Hbd.
    assert (V0 : dtrmm_info side uplo transa diag m n lda ldb = 0).
    { destruct (trmm_checks side uplo transa diag m n lda ldb) as (bt & -> & M). eapply scan_none; eauto. }
    unfold dtrmm. rewrite V0. cbn [negb Z.eqb].
    rewrite (lsame_is _ LL (chr "L") _ eq_refl ltac:(unfold LL; lia) HL).
    rewrite (lsame_is _ LU (chr "U") _ eq_refl ltac:(unfold LU; lia) HU).
    rewrite (lsame_is _ LN (chr "N") _ eq_refl ltac:(unfold LN; lia) HN).
    rewrite (lsame_is _ LN (chr "N") _ eq_refl ltac:(unfold LN; lia) HD).
    destruct ((m =? 0) || (n =? 0)) eqn:E0.
    { exists (to_fa b). split; [|split; [auto|reflexivity]]. split; [apply same_shape_refl|]. split; [|reflexivity].
      intros i j Hi Hj. destruct (Z.eqb_spec m 0), (Z.eqb_spec n 0); cbn in E0; try discriminate; lia. }
    apply orb_false_iff in E0 as [E1 E2]. apply Z.eqb_neq in E1, E2.
    unfold trmm_value. destruct (feq alpha f0) eqn:Ea.
    - eexists. split; [|split; [intros [?|?]; contradiction|reflexivity]].
      apply mapped_block; [destruct Hb; lia|].
      apply (mapped_cols _ 1 n m (fun _ _ _ => f0)). intros j c' S' Hj.
      apply (mapped_col1 c' m j (fun _ _ => f0)). { destruct S' as [-> _]. apply Hb. }
      intros i c2 S2 Hi. apply mapped_mod2. destruct S2 as [-> _], S' as [-> _]. destruct Hb; lia.
    - eexists. split; [|split; [intros [?|?]; contradiction|reflexivity]].
      apply rep_block; [assumption|lia|]. apply dtrmm_fa_rep; [assumption|lia].
  Qed.

  Lemma dtrmm_exit side uplo transa diag m n (alpha : F) (a : A) lda (b : B) ldb i :
    first_bad (trmm_table side uplo transa diag m n lda ldb) i ->
    dtrmm side uplo transa diag m n alpha a lda b ldb = Exit "DTRMM " i.
  Proof.
    intros Hb. unfold dtrmm.
    destruct (trmm_checks side uplo transa diag m n lda ldb) as (bt & E & M).
    assert (Hi : i <> 0).
    { destruct Hb as (pre & P & post & Et & _).
      assert (I : In (i, P) (trmm_table side uplo transa diag m n lda ldb)) by (rewrite Et; apply in_or_app; right; left; reflexivity).
      intros ->. cbn in I. repeat (destruct I as [I|I]; [inversion I|]). assumption. }
    apply (scan_first _ _ i M Hi) in Hb. rewrite E, Hb.
    destruct (Z.eqb_spec i 0); [contradiction|reflexivity].
  Qed.
  Lemma dtrmm_valid side uplo transa diag m n (alpha : F) (a : A) lda (b : B) ldb s i :
    (forall f s i, from_fa (FromFA := FA) f <> Exit s i) -> (forall f s i, from_fa (FromFA := FB) f <> Exit s i) ->
    dtrmm side uplo transa diag m n alpha a lda b ldb = Exit s i ->
    s = "DTRMM "%string /\ first_bad (trmm_table side uplo transa diag m n lda ldb) i.
  Proof.
    intros HF HG. unfold dtrmm.
    destruct (trmm_checks side uplo transa diag m n lda ldb) as (bt & E & M). rewrite E.
    destruct (Z.eqb_spec (scan bt) 0) as [H0|H0]; cbn [negb].
    - intros H. exfalso. destruct (_ || _); [discriminate|]. destruct (feq alpha f0).
      + match type of H with context [from_fa ?x] => pose proof (HG x s i) as N; destruct (from_fa x) end; cbn in H; congruence.
      + pose proof (HF (to_fa a) s i) as N. destruct (from_fa (to_fa a)); cbn in H; try congruence.
        match type of H with context [from_fa ?x] => pose proof (HG x s i) as N'; destruct (from_fa x) end; cbn in H; congruence.
    - intros H. inversion H; subst. split; [reflexivity|]. apply (scan_first _ _ _ M H0). reflexivity.
  Qed.
End Top.

Section Fortran.
  Context {F : Type} {NF : Num F}.

  Lemma dtrmm_fortran side uplo transa diag m n (alpha : F) (a : fa F) lda (b : fa F) ldb (lside upper notrans nounit : bool) :
    none_bad (trmm_table side uplo transa diag m n lda ldb) ->
    (lside = true <-> letter side LL) -> (upper = true <-> letter uplo LU) ->
    (notrans = true <-> letter transa LN) -> (nounit = true <-> letter diag LN) ->
    holds_block b m n ->
    exists r, dtrmm side uplo transa diag m n alpha a lda b ldb = Ok (a, r) /\
      block_updated m n (fun i j _ => if feq alpha f0 then f0
        else trmm_entry lside upper notrans nounit m n alpha (get2 a) (get2 b) i j) b r.
  Proof.
    intros V HL HU HN HD Hb.
    destruct (dtrmm_spec (A := fa F) (TA := ToFA_fa F) (FA := FromFA_fa F) (B := fa F) (TB := ToFA_fa F) (FB := FromFA_fa F)
                side uplo transa diag m n alpha a lda b ldb _ _ _ _ V HL HU HN HD Hb)
      as (r & U & Q & E).
    exists r. split; [|exact U]. rewrite E. cbn.
    destruct (Z.eqb_spec m 0); cbn; [rewrite Q by auto; reflexivity|].
    destruct (Z.eqb_spec n 0); cbn; [rewrite Q by auto; reflexivity|].
    destruct (feq alpha f0); reflexivity.
  Qed.

  Lemma trmm_entry_triangle (lside upper notrans nounit : bool) m n (alpha : F) (a a' X : Z -> Z -> F) i j :
    1 <= i <= m -> 1 <= j <= n ->
    (forall p q, 1 <= p <= (if lside then m else n) -> 1 <= q <= (if lside then m else n) ->
       in_triangle upper nounit p q -> a p q = a' p q) ->
    trmm_entry lside upper notrans nounit m n alpha a X i j = trmm_entry lside upper notrans nounit m n alpha a' X i j.
  Proof.
    intros Hi Hj H. unfold trmm_entry.
    assert (D : nounit = true -> 1 <= (if lside then i else j) <= (if lside then m else n) ->
              a (if lside then i else j) (if lside then i else j) = a' (if lside then i else j) (if lside then i else j)).
    { intros Hn Hr. apply H; try assumption. left. split; [reflexivity|exact Hn]. }
    assert (T : forall p q, 1 <= p <= (if lside then m else n) -> 1 <= q <= (if lside then m else n) ->
              (if upper then p < q else q < p) -> a p q = a' p q).
    { intros p q Hp Hq Hpq. apply H; try assumption. right. exact Hpq. }
    clear H.
    destruct lside, notrans;
      try (match goal with |- fmul _ _ = fmul _ _ => f_equal end); apply add_terms_ext;
      try (destruct nounit; [rewrite D by (reflexivity || lia)|]; reflexivity);
      intros k Hk; destruct upper; rewrite ?in_range, ?in_range_rev in Hk; rewrite T by lia; split; reflexivity.
  Qed.

  (** only the named triangle of A is read *)
  Lemma dtrmm_triangle side uplo transa diag m n (alpha : F) (a a' : fa F) lda (b : fa F) ldb (lside upper nounit : bool) :
    none_bad (trmm_table side uplo transa diag m n lda ldb) ->
    (lside = true <-> letter side LL) -> (upper = true <-> letter uplo LU) -> (nounit = true <-> letter diag LN) ->
    holds_block b m n ->
    (forall p q, 1 <= p <= (if lside then m else n) -> 1 <= q <= (if lside then m else n) ->
       in_triangle upper nounit p q -> get2 a p q = get2 a' p q) ->
    exists r r', dtrmm side uplo transa diag m n alpha a lda b ldb = Ok (a, r) /\
      dtrmm side uplo transa diag m n alpha a' lda b ldb = Ok (a', r') /\
      data r = data r' /\ rows r = rows r' /\ cols r = cols r'.
  Proof.
    intros V HL HU HD Hb HT. pose proof (trmm_bounds _ _ _ _ _ _ _ _ V) as Hbd.
    assert (HN : lsame transa (chr "N") = true <-> letter transa LN) by (apply (lsame_letter _ LN); unfold LN; lia).
    destruct (dtrmm_fortran side uplo transa diag m n alpha a lda b ldb _ _ _ _ V HL HU HN HD Hb) as (r & E & U).
    destruct (dtrmm_fortran side uplo transa diag m n alpha a' lda b ldb _ _ _ _ V HL HU HN HD Hb) as (r' & E' & U').
    exists r, r'. split; [exact E|]. split; [exact E'|].
    destruct (Z.eq_dec m 0) as [->|].
    { destruct U as ((R1 & C1 & N1) & _ & O1), U' as ((R2 & C2 & N2) & _ & O2). split; [|split; congruence].
      apply elem_ext. intros p Hp. rewrite O1, O2; auto; intros; lia. }
    eapply (block_updated_unique b r r' m n); [destruct Hb; lia|exact U|exact U'|].
    intros i j x Hi Hj _. cbn beta. destruct (feq alpha f0); [reflexivity|].
    apply trmm_entry_triangle; assumption.
  Qed.
End Fortran.

(** ** exact arithmetic *)
Fixpoint lsum (r : Z -> R) (ks : list Z) : R := match ks with [] => 0%R | k :: ks => (r k + lsum r ks)%R end.

Lemma add_terms_er x sk t r ks :
  (forall k, In k ks -> (sk k = true /\ r k = 0%R) \/ (sk k = false /\ t k = Fin (r k))) ->
  add_terms (Fin x) sk t ks = Fin (x + lsum r ks).
Proof.
  unfold add_terms. revert x. induction ks as [|k ks IH]; intros x H; cbn [fold_left lsum].
  - f_equal. lra.
  - destruct (H k (or_introl eq_refl)) as [[-> E]|[-> E]].
    + rewrite IH by (intros; apply H; right; assumption). rewrite E. f_equal. lra.
    + rewrite E, er_addE. rewrite IH by (intros; apply H; right; assumption). f_equal. lra.
Qed.

Lemma lsum_app r l1 l2 : lsum r (l1 ++ l2) = (lsum r l1 + lsum r l2)%R.
Proof. induction l1; cbn; [lra|]. rewrite IHl1. lra. Qed.
Lemma lsum_range r lo hi : lsum r (range lo hi) = Rsum_range r lo hi.
Proof.
  unfold range, Rsum_range. generalize (Z.to_nat (hi - lo + 1)). intros k. revert lo. induction k; intros; cbn; [reflexivity|].
  rewrite IHk. reflexivity.
Qed.
Lemma lsum_rev r l : lsum r (rev l) = lsum r l.
Proof. induction l; cbn; [reflexivity|]. rewrite lsum_app, IHl. cbn. lra. Qed.
Lemma lsum_range_rev r lo hi : lsum r (range_rev lo hi) = Rsum_range r lo hi.
Proof. rewrite range_rev_rev, lsum_rev. apply lsum_range. Qed.

Lemma Rsum_range_split r lo mid hi : lo <= mid <= hi ->
  Rsum_range r lo hi = (Rsum_range r lo (mid - 1) + r mid + Rsum_range r (mid + 1) hi)%R.
Proof.
  intros H. rewrite <- !lsum_range.
  replace (range lo hi) with (range lo (mid - 1) ++ mid :: range (mid + 1) hi).
  { rewrite lsum_app. cbn. lra. }
  unfold range. replace (Z.to_nat (hi - lo + 1)) with (Z.to_nat (mid - 1 - lo + 1) + S (Z.to_nat (hi - (mid + 1) + 1)))%nat by lia.
  rewrite zup_app. cbn [zup]. replace (lo + 1 * Z.of_nat (Z.to_nat (mid - 1 - lo + 1))) with mid by lia. reflexivity.
Qed.

Lemma trmm_entry_exact (lside upper notrans nounit : bool) m n (alpha : R) a X (Am Xm : Z -> Z -> R) i j :
  1 <= i <= m -> 1 <= j <= n ->
  (forall p q, 1 <= p <= (if lside then m else n) -> 1 <= q <= (if lside then m else n) ->
       in_triangle upper nounit p q -> a p q = Fin (Am p q)) ->
  (forall p q, 1 <= p <= m -> 1 <= q <= n -> X p q = Fin (Xm p q)) ->
  trmm_entry lside upper notrans nounit m n (Fin alpha) a X i j =
  Fin (if lside then (alpha * Rsum_range (fun k => tri_op notrans upper nounit Am i k * Xm k j) 1 m)%R
       else (alpha * Rsum_range (fun k => Xm i k * tri_op notrans upper nounit Am k j) 1 n)%R).
Proof.
  intros Hi Hj HA HX. unfold trmm_entry. rewrite er_f0, er_f1.
  destruct lside.
  - rewrite (Rsum_range_split _ 1 i m) by lia. rewrite HX by lia.
    destruct notrans.
    + unfold tri_op.
      set (start := (alpha * (if nounit then Am i i else 1) * Xm i j)%R).
      assert (ST : (if feq (Fin (Xm i j)) (Fin 0) then Fin (Xm i j)
                    else if nounit then fmul (fmul (Fin alpha) (Fin (Xm i j))) (a i i) else fmul (Fin alpha) (Fin (Xm i j))) = Fin start).
      { rewrite er_eqE. unfold start. destruct (Req_bool_spec (Xm i j) 0) as [E|E]; [rewrite E; f_equal; lra|].
        destruct nounit.
        - rewrite HA by (unfold in_triangle; auto; lia). rewrite !er_mulE. f_equal. ring.
        - rewrite er_mulE. f_equal. ring. }
      rewrite ST.
      rewrite (add_terms_er _ _ _ (fun k => alpha * Am i k * Xm k j)%R).
      2:{ intros k Hk. assert (Hk' : 1 <= k <= m /\ in_triangle upper nounit i k).
          { unfold in_triangle. destruct upper; rewrite ?in_range, ?in_range_rev in Hk; lia. }
          rewrite HX by lia. rewrite er_eqE. destruct (Req_bool_spec (Xm k j) 0) as [E|E].
          - left. split; [reflexivity|]. rewrite E. lra.
          - right. split; [reflexivity|]. rewrite HA by tauto. rewrite !er_mulE. f_equal. ring. }
      f_equal. unfold tri at 2. rewrite Z.eqb_refl.
      destruct upper; rewrite ?lsum_range, ?lsum_range_rev.
      * rewrite (Rsum_range_zero (fun k => _) 1 (i - 1)).
        2:{ intros k Hk. unfold tri. destruct (Z.eqb_spec i k), (Z.ltb_spec i k); try lia; lra. }
        rewrite (Rsum_range_ext _ (fun k => alpha * (tri true nounit Am i k * Xm k j))%R (i + 1) m).
        2:{ intros k Hk. unfold tri. destruct (Z.eqb_spec i k), (Z.ltb_spec i k); try lia; lra. }
        rewrite Rsum_range_scal. unfold start. lra.
      * rewrite (Rsum_range_zero (fun k => _) (i + 1) m).
        2:{ intros k Hk. unfold tri. destruct (Z.eqb_spec i k), (Z.ltb_spec k i); try lia; lra. }
        rewrite (Rsum_range_ext _ (fun k => alpha * (tri false nounit Am i k * Xm k j))%R 1 (i - 1)).
        2:{ intros k Hk. unfold tri. destruct (Z.eqb_spec i k), (Z.ltb_spec k i); try lia; lra. }
        rewrite Rsum_range_scal. unfold start. lra.
    + unfold tri_op.
      set (start := ((if nounit then Am i i else 1) * Xm i j)%R).
      assert (ST : (if nounit then fmul (Fin (Xm i j)) (a i i) else Fin (Xm i j)) = Fin start).
      { unfold start. destruct nounit.
        - rewrite HA by (unfold in_triangle; auto; lia). rewrite !er_mulE. f_equal. ring.
        - f_equal. ring. }
      rewrite ST.
      rewrite (add_terms_er _ _ _ (fun k => Am k i * Xm k j)%R).
      2:{ intros k Hk. assert (Hk' : 1 <= k <= m /\ in_triangle upper nounit k i).
          { unfold in_triangle. destruct upper; rewrite ?in_range, ?in_range_rev in Hk; lia. }
          right. split; [reflexivity|]. rewrite HX by lia. rewrite HA by tauto. rewrite !er_mulE. f_equal. }
      rewrite er_mulE. f_equal. f_equal. unfold tri at 2. rewrite Z.eqb_refl.
      destruct upper; rewrite ?lsum_range, ?lsum_range_rev.
      * rewrite (Rsum_range_zero (fun k => _) (i + 1) m).
        2:{ intros k Hk. unfold tri. destruct (Z.eqb_spec k i), (Z.ltb_spec k i); try lia; lra. }
        rewrite (Rsum_range_ext _ (fun k => (tri true nounit Am k i * Xm k j))%R 1 (i - 1)).
        2:{ intros k Hk. unfold tri. destruct (Z.eqb_spec k i), (Z.ltb_spec k i); try lia; lra. }
        unfold start. lra.
      * rewrite (Rsum_range_zero (fun k => _) 1 (i - 1)).
        2:{ intros k Hk. unfold tri. destruct (Z.eqb_spec k i), (Z.ltb_spec i k); try lia; lra. }
        rewrite (Rsum_range_ext _ (fun k => (tri false nounit Am k i * Xm k j))%R (i + 1) m).
        2:{ intros k Hk. unfold tri. destruct (Z.eqb_spec k i), (Z.ltb_spec i k); try lia; lra. }
        unfold start. lra.
  - rewrite (Rsum_range_split _ 1 j n) by lia. rewrite HX by lia.
    destruct notrans.
    + unfold tri_op.
      set (start := (alpha * (if nounit then Am j j else 1) * Xm i j)%R).
      assert (ST : fmul (if nounit then fmul (Fin alpha) (a j j) else Fin alpha) (Fin (Xm i j)) = Fin start).
      { unfold start. destruct nounit.
        - rewrite HA by (unfold in_triangle; auto; lia). rewrite !er_mulE. f_equal.
        - rewrite er_mulE. f_equal. ring. }
      rewrite ST.
      rewrite (add_terms_er _ _ _ (fun k => alpha * Am k j * Xm i k)%R).
      2:{ intros k Hk. assert (Hk' : 1 <= k <= n /\ in_triangle upper nounit k j).
          { unfold in_triangle. destruct upper; rewrite ?in_range, ?in_range_rev in Hk; lia. }
          rewrite HA by tauto. rewrite er_eqE. destruct (Req_bool_spec (Am k j) 0) as [E|E].
          - left. split; [reflexivity|]. rewrite E. lra.
          - right. split; [reflexivity|]. rewrite HX by lia. rewrite !er_mulE. f_equal. }
      f_equal. unfold tri at 2. rewrite Z.eqb_refl.
      destruct upper; rewrite ?lsum_range, ?lsum_range_rev.
      * rewrite (Rsum_range_zero (fun k => _) (j + 1) n).
        2:{ intros k Hk. unfold tri. destruct (Z.eqb_spec k j), (Z.ltb_spec k j); try lia; lra. }
        rewrite (Rsum_range_ext _ (fun k => alpha * (Xm i k * tri true nounit Am k j))%R 1 (j - 1)).
        2:{ intros k Hk. unfold tri. destruct (Z.eqb_spec k j), (Z.ltb_spec k j); try lia; lra. }
        rewrite Rsum_range_scal. unfold start. lra.
      * rewrite (Rsum_range_zero (fun k => _) 1 (j - 1)).
        2:{ intros k Hk. unfold tri. destruct (Z.eqb_spec k j), (Z.ltb_spec j k); try lia; lra. }
        rewrite (Rsum_range_ext _ (fun k => alpha * (Xm i k * tri false nounit Am k j))%R (j + 1) n).
        2:{ intros k Hk. unfold tri. destruct (Z.eqb_spec k j), (Z.ltb_spec j k); try lia; lra. }
        rewrite Rsum_range_scal. unfold start. lra.
    + unfold tri_op. cbv zeta.
      set (start := (alpha * (if nounit then Am j j else 1) * Xm i j)%R).
      assert (ST : (if feq (if nounit then fmul (Fin alpha) (a j j) else Fin alpha) (Fin 1) then Fin (Xm i j)
                    else fmul (if nounit then fmul (Fin alpha) (a j j) else Fin alpha) (Fin (Xm i j))) = Fin start).
      { unfold start. destruct nounit.
        - rewrite HA by (unfold in_triangle; auto; lia). rewrite !er_mulE, er_eqE.
          destruct (Req_bool_spec (alpha * Am j j) 1) as [E|E]; [rewrite E; f_equal; lra|reflexivity].
        - rewrite er_mulE, er_eqE. destruct (Req_bool_spec alpha 1) as [E|E]; [rewrite E|]; f_equal; lra. }
      rewrite ST.
      rewrite (add_terms_er _ _ _ (fun k => alpha * Am j k * Xm i k)%R).
      2:{ intros k Hk. assert (Hk' : 1 <= k <= n /\ in_triangle upper nounit j k).
          { unfold in_triangle. destruct upper; rewrite ?in_range, ?in_range_rev in Hk; lia. }
          rewrite HA by tauto. rewrite er_eqE. destruct (Req_bool_spec (Am j k) 0) as [E|E].
          - left. split; [reflexivity|]. rewrite E. lra.
          - right. split; [reflexivity|]. rewrite HX by lia. rewrite !er_mulE. f_equal. }
      f_equal. unfold tri at 2. rewrite Z.eqb_refl.
      destruct upper; rewrite ?lsum_range, ?lsum_range_rev.
      * rewrite (Rsum_range_zero (fun k => _) 1 (j - 1)).
        2:{ intros k Hk. unfold tri. destruct (Z.eqb_spec j k), (Z.ltb_spec j k); try lia; lra. }
        rewrite (Rsum_range_ext _ (fun k => alpha * (Xm i k * tri true nounit Am j k))%R (j + 1) n).
        2:{ intros k Hk. unfold tri. destruct (Z.eqb_spec j k), (Z.ltb_spec j k); try lia; lra. }
        rewrite Rsum_range_scal. unfold start. lra.
      * rewrite (Rsum_range_zero (fun k => _) (j + 1) n).
        2:{ intros k Hk. unfold tri. destruct (Z.eqb_spec j k), (Z.ltb_spec k j); try lia; lra. }
        rewrite (Rsum_range_ext _ (fun k => alpha * (Xm i k * tri false nounit Am j k))%R 1 (j - 1)).
        2:{ intros k Hk. unfold tri. destruct (Z.eqb_spec j k), (Z.ltb_spec k j); try lia; lra. }
        rewrite Rsum_range_scal. unfold start. lra.
Qed.

Lemma dtrmm_exact side uplo transa diag m n (alpha : R) (a : fa er) lda (b : fa er) ldb (lside upper notrans nounit : bool)
    (Am Bm : Z -> Z -> R) :
  none_bad (trmm_table side uplo transa diag m n lda ldb) ->
  (lside = true <-> letter side LL) -> (upper = true <-> letter uplo LU) ->
  (notrans = true <-> letter transa LN) -> (nounit = true <-> letter diag LN) ->
  holds_block b m n ->
  (alpha <> 0%R -> mat_is b m n Bm) ->
  (alpha <> 0%R -> forall i j, 1 <= i <= (if lside then m else n) -> 1 <= j <= (if lside then m else n) ->
     in_triangle upper nounit i j -> ent a i j = Some (Fin (Am i j))) ->
  exists r, dtrmm side uplo transa diag m n (Fin alpha) a lda b ldb = Ok (a, r) /\
    mat_is r m n (fun i j =>
      if lside then (alpha * Rsum_range (fun k => tri_op notrans upper nounit Am i k * Bm k j) 1 m)%R
      else (alpha * Rsum_range (fun k => Bm i k * tri_op notrans upper nounit Am k j) 1 n)%R) /\
    same_shape r b /\
    (forall p, (forall i j, 1 <= i <= m -> 1 <= j <= n -> p <> pos (rows b) i j) -> elem r p = elem b p).
Proof.
  intros V HL HU HN HD Hb HB HA.
  destruct (dtrmm_fortran side uplo transa diag m n (Fin alpha) a lda b ldb _ _ _ _ V HL HU HN HD Hb) as (r & E & S1 & U & O).
  exists r. split; [exact E|]. split; [|split; [exact S1|exact O]].
  intros i j Hi Hj. rewrite U by assumption.
  rewrite (ent_get2 b i j) by (eapply holds_block_pos; eassumption). cbn [option_map]. f_equal.
  rewrite er_f0, er_eqE. destruct (Req_bool_spec alpha 0) as [Ha|Ha].
  - subst. destruct lside; f_equal; lra.
  - apply trmm_entry_exact; auto.
    + intros p q Hp Hq HT. apply get2_Some. apply HA; assumption.
    + intros p q Hp Hq. apply get2_Some. apply HB; assumption.
Qed.

(** the leading dimension of flat arguments is ignored *)
Lemma dtrmm_flat_wrong lm : let NB := B64 lm in
  let a := [f1; f0; f1; f1] in let b := [f1; f0; f0; f1] in
  match dtrmm (chr "L") (chr "U") (chr "N") (chr "N") 2 2 f1 a 2 b 2,
        dtrmm (chr "L") (chr "U") (chr "N") (chr "N") 2 2 f1 (flat 2 a) 2 (flat 2 b) 2 with
  | Ok (_, r), Ok (_, r') => list_feq r [f1; f0; f0; f1] && list_feq (data r') [f1; f0; f1; f1]
  | _, _ => false
  end = true.
Proof. vm_compute. reflexivity. Qed.

(** ** nothing outside the block is written, whatever the storage *)
Section Frame.
  Context {F : Type} {NF : Num F} (b0 : fa F) (m n : Z).

  Definition outside (p : Z) : Prop := forall i j, 1 <= i <= m -> 1 <= j <= n -> p <> pos (rows b0) i j.
  Definition kept (b : fa F) : Prop := same_shape b b0 /\ forall p, outside p -> elem b p = elem b0 p.

  Lemma kept_mod2 b i j g : kept b -> 1 <= i <= m -> 1 <= j <= n -> kept (mod2 b i j g).
  Proof.
    intros [S1 E] Hi Hj. split; [eapply same_shape_trans; [apply mod2_shape|exact S1]|].
    intros p Hp. rewrite mod2_mod1, mod1_elem. rewrite (proj1 S1).
    destruct (Z.eqb_spec p (pos (rows b0) i j)) as [->|]; [exfalso; eapply Hp; eauto|]. apply E; assumption.
  Qed.
  Lemma kept_for is b body : kept b -> (forall i b, In i is -> kept b -> kept (body i b)) -> kept (for_ is b body).
  Proof. intros H Hs. apply (for_inv kept); auto. Qed.

  Ltac rng := repeat match goal with
    | H : In _ (range _ _) |- _ => apply in_range in H
    | H : In _ (range_rev _ _) |- _ => apply in_range_rev in H end.
  Ltac kf := repeat first
    [ assumption
    | apply kept_for; [|intros ? ? ? ?]
    | apply kept_mod2; [|rng; lia|rng; lia]
    | match goal with |- kept (set2 _ _ _ _) => unfold set2 end
    | match goal with |- kept (let _ := _ in _) => cbv zeta end
    | match goal with |- kept (if ?c then _ else _) => destruct c end ].

  Lemma dtrmm_fa_kept lside upper notrans nounit alpha a : kept (dtrmm_fa lside upper notrans nounit m n alpha a b0).
  Proof.
    assert (K0 : kept b0) by (split; [apply same_shape_refl|reflexivity]).
    unfold dtrmm_fa, trmm_lnu, trmm_lnl, trmm_ltu, trmm_ltl, trmm_rnu, trmm_rnl, trmm_rtu, trmm_rtl,
      trmm_rn_diag, trmm_rn_add, trmm_rt_diag, trmm_rt_add.
    destruct lside, notrans, upper; kf.
  Qed.
End Frame.

(** flat arguments: whatever the leading dimensions, only the first m stored elements of B can change *)
Lemma dtrmm_flat_tail {F} {NF : Num F} side uplo transa diag m n (alpha : F) (a : list F) lda (b : list F) ldb :
  none_bad (trmm_table side uplo transa diag m n lda ldb) -> m <= Z.of_nat (length b) ->
  exists r, dtrmm side uplo transa diag m n alpha a lda b ldb = Ok (a, r) /\ length r = length b /\
    forall k, (Z.to_nat m <= k)%nat -> nth_error r k = nth_error b k.
Proof.
  intros V Hm. pose proof (trmm_bounds _ _ _ _ _ _ _ _ V) as Hbd.
  assert (V0 : dtrmm_info side uplo transa diag m n lda ldb = 0).
  { destruct (trmm_checks side uplo transa diag m n lda ldb) as (bt & -> & M). eapply scan_none; eauto. }
  assert (K : forall r, kept (fa_of_vec b) m n r -> (length (data r) = length b)%nat /\
             forall k, (Z.to_nat m <= k)%nat -> nth_error (data r) k = nth_error b k).
  { intros r [(_ & _ & N) E]. split; [unfold count in N; cbn in N; lia|].
    intros k Hk. destruct (Nat.lt_ge_cases k (length b)) as [Hkb|Hkb].
    2:{ unfold count in N; cbn in N. rewrite (proj2 (nth_error_None (data r) k)), (proj2 (nth_error_None b k)) by lia. reflexivity. }
    specialize (E (Z.of_nat k + 1)). unfold elem in E. cbn [data fa_of_vec] in E.
    destruct (Z.ltb_spec (Z.of_nat k + 1) 1); [lia|].
    replace (Z.to_nat (Z.of_nat k + 1 - 1)) with k in E by lia. apply E.
    intros i j Hi Hj. cbn [rows fa_of_vec]. unfold pos, zlen.
    destruct (Z.eq_dec j 1) as [->|]; [lia|]. nia. }
  unfold dtrmm. rewrite V0. cbn [negb Z.eqb].
  destruct (_ || _).
  { exists b. auto. }
  cbn [to_fa from_fa ToFA_vec FromFA_vec]. destruct (feq alpha f0); cbn [bind].
  - eexists. split; [reflexivity|]. apply K.
    apply kept_for; [split; [apply same_shape_refl|reflexivity]|]. intros j c Hj Kc.
    apply kept_for; [exact Kc|]. intros i c' Hi Kc'. apply in_range in Hi, Hj. apply kept_mod2; auto.
  - eexists. split; [reflexivity|]. apply K. apply dtrmm_fa_kept.
Qed.

Lemma dtrmm_a_unchanged {F} {NF : Num F} side uplo transa diag m n (alpha : F) (a : fa F) lda (b : fa F) ldb :
  none_bad (trmm_table side uplo transa diag m n lda ldb) ->
  exists r, dtrmm side uplo transa diag m n alpha a lda b ldb = Ok (a, r) /\ same_shape r b /\
    (forall p, (forall i j, 1 <= i <= m -> 1 <= j <= n -> p <> pos (rows b) i j) -> elem r p = elem b p).
Proof.
  intros V.
  assert (V0 : dtrmm_info side uplo transa diag m n lda ldb = 0).
  { destruct (trmm_checks side uplo transa diag m n lda ldb) as (bt & -> & M). eapply scan_none; eauto. }
  unfold dtrmm. rewrite V0. cbn [negb Z.eqb].
  destruct (_ || _).
  { exists b. split; [reflexivity|]. split; [apply same_shape_refl|reflexivity]. }
  cbn [to_fa from_fa ToFA_fa FromFA_fa]. destruct (feq alpha f0); cbn [bind].
  - eexists. split; [reflexivity|].
    apply (kept_for b m n); [split; [apply same_shape_refl|reflexivity]|]. intros j c Hj Kc.
    apply kept_for; [exact Kc|]. intros i c' Hi Kc'. apply in_range in Hi, Hj. apply kept_mod2; auto.
  - eexists. split; [reflexivity|]. apply dtrmm_fa_kept.
Qed.
