(** dlahqr, lines 356-362: what the row rotation leaves in H. *)
From Verif Require Import Base Num Array Blas Lapack Dlahqr Spec Lists FaLemmas Blas1Proofs LahqrProofs LahqrTop.

Section Rows.
  Context {F : Type} {NF : Num F}.
  Notation fa := (fa F).
  (** row i is rotated; of row i-1 only the entry in column i+1 is, the second write-back restores the others *)
  Lemma hq_rot_rows_spec n (f : fa) i c s : full f -> 2 <= i < n -> n <= rows f -> n * rows f <= count f ->
    exists f', hq_rot_rows n (rows f) i c s f = Ok f' /\ same_shape f' f /\
      (forall p, i < p <= n -> get2 f' i p = fsub (fmul c (get2 f i p)) (fmul s (get2 f (i - 1) p))) /\
      get2 f' (i - 1) (i + 1) = fadd (fmul c (get2 f (i - 1) (i + 1))) (fmul s (get2 f i (i + 1))) /\
      (forall q, q <> pos (rows f) (i - 1) (i + 1) -> (forall p, i < p <= n -> q <> pos (rows f) i p) -> elem f' q = elem f q).
  Proof.
    intros FF Hi HR HC. unfold hq_rot_rows. destruct (Z.ltb_spec i n); [|lia].
    set (r := rows f) in *.
    set (lo1 := pos r (i - 1) (i + 1)). set (lo2 := pos r i (i + 1)).
    assert (LL : lo2 = lo1 + 1) by (unfold lo1, lo2, pos; lia).
    assert (L1 : 1 <= lo1) by (unfold lo1, pos; nia).
    assert (L2 : lo2 + (n - i - 1) * r <= fa_len f) by (unfold full in FF; unfold lo2, pos; nia).
    assert (L3 : lo2 <= fa_len f) by nia.
    destruct (from1_ok f lo1 FF) as (a & Ea & Ha). destruct (from1_ok f lo2 FF) as (b & Eb & Hb).
    destruct Ha as [La Ga]; [lia..|]. destruct Hb as [Lb Gb]; [lia..|].
    change (from2 f (i - 1) (i + 1)) with (from1 f lo1). change (from2 f i (i + 1)) with (from1 f lo2). rewrite Ea. cbn [bind]. rewrite Eb. cbn [bind].
    destruct (drot_spec (n - i) a r b r c s) as [_ D]; [lia..|]. destruct D as (x & y & Ed & Ux & Uy); [lia|].
    rewrite Ed. cbn [from_fa FromFA_vec bind].
    assert (Cx : zlen (vec_of_fa x) = zlen a) by (destruct Ux as ((_ & _ & N) & _); unfold count in N; cbn in N; unfold zlen, vec_of_fa; lia).
    assert (Cy : zlen (vec_of_fa y) = zlen b) by (destruct Uy as ((_ & _ & N) & _); unfold count in N; cbn in N; unfold zlen, vec_of_fa; lia).
    destruct (write_back_ok f lo1 (vec_of_fa x)) as (f1 & E1 & S1); [assumption|intros; lia|lia|].
    change (fa_idx f (i - 1) (i + 1)) with lo1. change (fa_idx f i (i + 1)) with lo2. rewrite E1. cbn [bind].
    destruct (write_back_ok f1 lo2 (vec_of_fa y)) as (f2 & E2 & S2); [eapply full_shape; eassumption|intros; rewrite (fa_len_shape _ _ S1); lia|lia|].
    rewrite E2. exists f2. split; [reflexivity|]. assert (S2f := same_shape_trans _ _ _ S2 S1). split; [exact S2f|].
    destruct (write_back_elem f lo1 (vec_of_fa x) f1) as [_ W1]; [assumption|lia|intros; lia|exact E1|].
    destruct (write_back_elem f1 lo2 (vec_of_fa y) f2) as [_ W2]; [eapply full_shape; eassumption|lia|intros; rewrite (fa_len_shape _ _ S1); lia|exact E2|].
    rewrite (fa_len_shape _ _ S1) in W2.
    assert (ST : forall t, stride (n - i) r t = 1 + t * r).
    { intros t. unfold stride. destruct (Z.ltb_spec r 0); lia. }
    assert (ZX : forall t, zget (vec_of_fa x) t = elem x (1 + t)) by (intros t; rewrite elem_zget; f_equal; lia).
    assert (ZY : forall t, zget (vec_of_fa y) t = elem y (1 + t)) by (intros t; rewrite elem_zget; f_equal; lia).
    assert (EA : forall t, 0 <= t -> elem (to_fa a) (1 + t) = elem f (lo1 + t)).
    { intros t Ht. rewrite elem_zget. cbn [to_fa ToFA_vec fa_of_vec data]. replace (1 + t - 1) with t by lia. apply Ga; lia. }
    assert (EB : forall t, 0 <= t -> elem (to_fa b) (1 + t) = elem f (lo2 + t)).
    { intros t Ht. rewrite elem_zget. cbn [to_fa ToFA_vec fa_of_vec data]. replace (1 + t - 1) with t by lia. apply Gb; lia. }
    destruct Ux as (_ & Ux & Vx). destruct Uy as (_ & Uy & Vy).
    assert (UX : forall t, 0 <= t < n - i -> elem x (1 + t * r) = Some (fadd (fmul c (get1 f (lo1 + t * r))) (fmul s (get1 f (lo2 + t * r))))).
    { intros t Ht. specialize (Ux t Ht). rewrite !ST in Ux. rewrite Ux, EA by nia. rewrite !get1_elem, EA, EB by nia.
      assert (Q : 1 <= lo1 + t * r <= count f) by (unfold full in FF; nia). apply elem_Some in Q as [w ->]. reflexivity. }
    assert (UY : forall t, 0 <= t < n - i -> elem y (1 + t * r) = Some (fsub (fmul c (get1 f (lo2 + t * r))) (fmul s (get1 f (lo1 + t * r))))).
    { intros t Ht. specialize (Uy t Ht). rewrite !ST in Uy. rewrite Uy, EB by nia. rewrite !get1_elem, EA, EB by nia.
      assert (Q : 1 <= lo2 + t * r <= count f) by (unfold full in FF; nia). apply elem_Some in Q as [w ->]. reflexivity. }
    split; [|split].
    - intros p Hp. set (t := p - i - 1).
      rewrite !get2_ent. unfold ent. rewrite (proj1 S2f). fold r.
      replace (pos r i p) with (lo2 + t * r) by (unfold lo2, t, pos; lia). replace (pos r (i - 1) p) with (lo1 + t * r) by (unfold lo1, t, pos; lia).
      rewrite W2. destruct (Z.leb_spec lo2 (lo2 + t * r)); [|nia]. destruct (Z.leb_spec (lo2 + t * r) (fa_len f)); [|nia]. cbn [andb].
      rewrite ZY. replace (1 + (lo2 + t * r - lo2)) with (1 + t * r) by lia. rewrite UY by lia. rewrite !get1_elem. reflexivity.
    - rewrite !get2_ent. unfold ent. rewrite (proj1 S2f). fold r. fold lo1 lo2. rewrite W2, W1.
      destruct (Z.leb_spec lo2 lo1); [lia|]. cbn [andb]. destruct (Z.leb_spec lo1 lo1); [|lia]. destruct (Z.leb_spec lo1 (fa_len f)); [|lia]. cbn [andb].
      rewrite ZX. replace (1 + (lo1 - lo1)) with (1 + 0 * r) by lia. rewrite UX by lia. replace (lo1 + 0 * r) with lo1 by lia. replace (lo2 + 0 * r) with lo2 by lia. rewrite !get1_elem. reflexivity.
    - intros q Hq Hp. rewrite W2, W1. fold lo1 in Hq.
      destruct (Z.leb_spec lo2 q); cbn [andb].
      + destruct (Z.leb_spec q (fa_len f)); cbn [andb].
        * rewrite ZY. rewrite Vy, EB by (lia || (intros t Ht; rewrite ST; intros X; apply (Hp (i + 1 + t)); [lia|]; unfold lo2, pos in *; lia)). f_equal. lia.
        * destruct (Z.leb_spec lo1 q); reflexivity.
      + destruct (Z.leb_spec lo1 q); [lia|reflexivity].
  Qed.
End Rows.
