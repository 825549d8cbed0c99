(** Proofs of the array properties (C01-C03, C05-C10). *)
From Flocq Require IEEE754.BinarySingleNaN.
From Verif Require Import Base Num Array Spec Lists FaLemmas B64 B64Lemmas.

Section ArrayProofs.
  Context {F : Type} {NF : Num F}.
  Notation fa := (fa F).

  Lemma write_read_1d (f : fa) p v : 1 <= p <= count f ->
    get1 (set1 f p v) p = v /\
    (forall q, q <> p -> get1 (set1 f p v) q = get1 f q /\ elem (set1 f p v) q = elem f q) /\
    same_shape (set1 f p v) f.
  Proof.
    intros H. split; [apply (mod1_get1_same f p (fun _ => v) H)|]. split; [|apply set1_shape].
    intros q Hq. split; [apply mod1_get1_other; assumption|].
    unfold set1. rewrite mod1_elem. destruct (Z.eqb_spec q p); [lia|reflexivity].
  Qed.

  Lemma update_read_1d (f : fa) p g : 1 <= p <= count f ->
    get1 (mod1 f p g) p = g (get1 f p) /\
    (forall q, q <> p -> get1 (mod1 f p g) q = get1 f q /\ elem (mod1 f p g) q = elem f q) /\
    same_shape (mod1 f p g) f.
  Proof.
    intros H. split; [apply mod1_get1_same; assumption|]. split; [|apply mod1_shape].
    intros q Hq. split; [apply mod1_get1_other; assumption|].
    rewrite mod1_elem. destruct (Z.eqb_spec q p); [lia|reflexivity].
  Qed.

  Lemma update_read_2d (f : fa) i j g : 1 <= i <= rows f -> 1 <= pos (rows f) i j <= count f ->
    get2 (mod2 f i j g) i j = g (get2 f i j) /\
    (forall i' j', 1 <= i' <= rows f -> (i', j') <> (i, j) -> get2 (mod2 f i j g) i' j' = get2 f i' j') /\
    (forall q, q <> pos (rows f) i j -> elem (mod2 f i j g) q = elem f q) /\
    same_shape (mod2 f i j g) f.
  Proof.
    intros Hi Hp. split; [|split; [|split]].
    - rewrite mod2_get2, !Z.eqb_refl by assumption. reflexivity.
    - intros i' j' Hi' Hne. rewrite mod2_get2 by assumption.
      destruct (Z.eqb_spec i' i) as [->|]; auto. destruct (Z.eqb_spec j' j) as [->|]; auto. congruence.
    - intros q Hq. rewrite mod2_mod1, mod1_elem. destruct (Z.eqb_spec q (pos (rows f) i j)); [lia|reflexivity].
    - apply mod2_shape.
  Qed.

  Lemma write_read_2d (f : fa) i j v : 1 <= i <= rows f -> 1 <= pos (rows f) i j <= count f ->
    get2 (set2 f i j v) i j = v /\
    (forall i' j', 1 <= i' <= rows f -> (i', j') <> (i, j) -> get2 (set2 f i j v) i' j' = get2 f i' j') /\
    (forall q, q <> pos (rows f) i j -> elem (set2 f i j v) q = elem f q) /\
    same_shape (set2 f i j v) f.
  Proof. intros Hi Hp. exact (update_read_2d f i j (fun _ => v) Hi Hp). Qed.

  Lemma mod1_out (f : fa) p g : ~ 1 <= p <= count f ->
    data (mod1 f p g) = data f /\ rows (mod1 f p g) = rows f /\ cols (mod1 f p g) = cols f.
  Proof.
    intros H. split; [|split; [apply mod1_rows|apply mod1_cols]].
    unfold mod1. destruct (p =? 0); [reflexivity|].
    destruct (zget (data f) (p - 1)) eqn:E; [|reflexivity].
    exfalso. apply H. apply elem_Some. rewrite elem_zget. eauto.
  Qed.

  Lemma out_of_range_history (f : fa) (h : list access) :
    (forall a, In a h -> ~ 1 <= access_pos f a <= count f) ->
    let f' := fold_left apply_access h f in
    data f' = data f /\ rows f' = rows f /\ cols f' = cols f.
  Proof.
    cbv zeta. revert f. induction h as [|a h IH]; intros f H; cbn [fold_left]; [auto|].
    assert (E : data (apply_access f a) = data f /\ rows (apply_access f a) = rows f /\
                cols (apply_access f a) = cols f).
    { specialize (H a (or_introl eq_refl)). destruct a; cbn [apply_access access_pos] in *.
      - apply mod1_out; assumption.
      - rewrite mod2_mod1. apply mod1_out; assumption. }
    destruct E as (E1 & E2 & E3). rewrite <- E1, <- E2, <- E3. apply IH.
    intros b Hb. specialize (H b (or_intror Hb)). unfold count in *. rewrite E1.
    destruct b; cbn [access_pos] in *; [|rewrite E2]; assumption.
  Qed.

  Lemma get1_out_of_range (f : fa) p : ~ 1 <= p <= count f -> get1 f p = fMINPOS.
  Proof. apply get1_out. Qed.
  Lemma get2_out_of_range (f : fa) i j : ~ 1 <= pos (rows f) i j <= count f -> get2 f i j = fMINPOS.
  Proof. rewrite get2_get1. apply get1_out. Qed.

  Lemma reads_after_history (f : fa) (h : list access) :
    (forall a, In a h -> ~ 1 <= access_pos f a <= count f) ->
    let f' := fold_left apply_access h f in
    (forall p, get1 f' p = get1 f p) /\ (forall i j, get2 f' i j = get2 f i j).
  Proof.
    intros H f'. destruct (out_of_range_history f h H) as (E1 & E2 & E3). fold f' in E1, E2, E3.
    assert (G : forall p, get1 f' p = get1 f p).
    { intros p. unfold get1. rewrite E1. reflexivity. }
    split; [exact G|]. intros i j. rewrite !get2_get1, E2. apply G.
  Qed.

  (** C03 *)
  Lemma addressing (f : fa) : 0 <= rows f -> 0 <= cols f -> count f = rows f * cols f ->
    (forall i j, 1 <= i <= rows f -> 1 <= j <= cols f ->
       1 <= pos (rows f) i j <= count f /\
       get2 f i j = get1 f (pos (rows f) i j) /\
       fa_idx f i j = pos (rows f) i j /\
       Some (get2 f i j) = nth_error (data f) (Z.to_nat ((j - 1) * rows f + i - 1)) /\
       exists tl, from2 f i j = Ok (get2 f i j :: tl)) /\
    (forall i j i' j', 1 <= i <= rows f -> 1 <= j <= cols f -> 1 <= i' <= rows f -> 1 <= j' <= cols f ->
       pos (rows f) i j = pos (rows f) i' j' -> (i, j) = (i', j')) /\
    (forall p, 1 <= p <= count f ->
       exists i j, 1 <= i <= rows f /\ 1 <= j <= cols f /\ pos (rows f) i j = p).
  Proof.
    intros Hr Hc Hn.
    assert (Hp : forall i j, 1 <= i <= rows f -> 1 <= j <= cols f -> 1 <= pos (rows f) i j <= count f).
    { intros i j Hi Hj. unfold pos. rewrite Hn. nia. }
    split; [|split].
    - intros i j Hi Hj. specialize (Hp i j Hi Hj). split; [assumption|].
      split; [apply get2_get1|]. split; [reflexivity|].
      assert (E : elem f (pos (rows f) i j) = Some (get2 f i j)) by (rewrite get2_get1; apply elem_get1; assumption).
      assert (E' : Some (get2 f i j) = nth_error (data f) (Z.to_nat ((j - 1) * rows f + i - 1))).
      { rewrite <- E. unfold elem. destruct (Z.ltb_spec (pos (rows f) i j) 1); [lia|]. reflexivity. }
      split; [exact E'|].
      unfold from2, from1. fold (pos (rows f) i j).
      assert (Hl : fa_len f = count f).
      { unfold fa_len, fa_is_2d. destruct (Z.ltb_spec 0 (rows f)), (Z.ltb_spec 0 (cols f)); cbn [andb]; lia. }
      rewrite Hl. replace (1 <=? pos (rows f) i j) with true by (symmetry; apply Z.leb_le; lia).
      replace (pos (rows f) i j <=? count f) with true by (symmetry; apply Z.leb_le; lia). cbn [andb].
      unfold slice_from. rewrite <- count_zlen.
      destruct (Z.ltb_spec (pos (rows f) i j - 1) 0); [lia|].
      destruct (Z.ltb_spec (count f) (pos (rows f) i j - 1)); [lia|]. cbn [orb].
      unfold pos at 1. symmetry in E'. revert E'. generalize (Z.to_nat ((j - 1) * rows f + i - 1)).
      generalize (data f) as l. clear. intros l n. revert l. induction n; intros [|a l] E'; cbn in *; try discriminate.
      + injection E' as ->. eauto.
      + apply IHn in E'. exact E'.
    - intros i j i' j' Hi Hj Hi' Hj' E. apply pos_inj in E as [-> ->]; auto.
    - intros p Hpp. assert (1 <= rows f) by nia.
      destruct (pos_surj (rows f) p) as (i & j & Hi & Hj & E); [lia..|].
      exists i, j. repeat split; try lia. unfold pos in E. nia.
  Qed.

  (** C05 *)
  Lemma tail_view (f : fa) k :
    from1 f k =
    if (k <? 1) || (fa_len f <? k) then Ok []
    else if count f <? k - 1 then Panic
    else Ok (skipn (Z.to_nat (k - 1)) (data f)).
  Proof.
    unfold from1, slice_from. rewrite <- count_zlen.
    destruct (Z.leb_spec 1 k), (Z.ltb_spec k 1), (Z.leb_spec k (fa_len f)), (Z.ltb_spec (fa_len f) k); cbn [andb orb]; try lia; auto.
    destruct (Z.ltb_spec (k - 1) 0); [lia|]. reflexivity.
  Qed.

  Lemma well_formed_len (f : fa) : well_formed f -> 1 <= count f -> fa_len f = count f.
  Proof.
    unfold well_formed, fa_len, fa_is_2d. intros (Hr & Hc & Hn) H1.
    destruct (Z.eqb_spec (cols f) 0) as [E|E].
    - rewrite E. cbn [Z.ltb Z.compare]. rewrite andb_false_r. lia.
    - destruct (Z.ltb_spec 0 (rows f)), (Z.ltb_spec 0 (cols f)); cbn [andb]; try nia.
  Qed.

  (** on a well-formed array a tail view never panics *)
  Lemma tail_view_wf (f : fa) k : well_formed f ->
    from1 f k = Ok (if (1 <=? k) && (k <=? count f) then skipn (Z.to_nat (k - 1)) (data f) else []).
  Proof.
    intros W. rewrite tail_view.
    assert (fa_len f = count f \/ count f = 0).
    { assert (0 <= count f) by (unfold count; lia).
      destruct (Z.eq_dec (count f) 0); auto. left. apply well_formed_len; auto. lia. }
    destruct H as [Hl|H0].
    - rewrite Hl. destruct (Z.ltb_spec k 1), (Z.leb_spec 1 k), (Z.leb_spec k (count f)), (Z.ltb_spec (count f) k); cbn [andb orb]; try lia; auto.
      destruct (Z.ltb_spec (count f) (k - 1)); [lia|reflexivity].
    - assert (Hlen : fa_len f <= 0).
      { destruct W as (Hr & Hc & Hn). unfold fa_len, fa_is_2d.
        destruct (Z.eqb_spec (cols f) 0) as [E|E]; rewrite H0 in Hn.
        - rewrite E. cbn [Z.ltb Z.compare]. rewrite andb_false_r. lia.
        - destruct (Z.ltb_spec 0 (rows f)), (Z.ltb_spec 0 (cols f)); cbn [andb]; nia. }
      destruct (Z.ltb_spec k 1), (Z.leb_spec 1 k), (Z.leb_spec k (count f)), (Z.ltb_spec (fa_len f) k); cbn [andb orb]; try lia; auto.
  Qed.

  Lemma skipn_elem (f : fa) k t : 1 <= k -> 0 <= t ->
    nth_error (skipn (Z.to_nat (k - 1)) (data f)) (Z.to_nat t) = elem f (k + t).
  Proof.
    intros. rewrite nth_error_skipn. unfold elem. destruct (Z.ltb_spec (k + t) 1); [lia|].
    f_equal. lia.
  Qed.

  (** C06 *)
  Lemma zeros_spec r c :
    (0 <= r * c -> exists f : fa, fa_zeros r c = Ok f /\ rows f = r /\ cols f = c /\ count f = r * c /\
                 (forall p, 1 <= p <= r * c -> elem f p = Some f0)) /\
    (r * c < 0 -> @fa_zeros F _ r c = Panic).
  Proof.
    unfold fa_zeros. split; intros H; destruct (Z.ltb_spec (r * c) 0); try lia; auto.
    eexists. split; [reflexivity|]. cbn [rows cols]. repeat split.
    - unfold count. cbn [data]. rewrite repeat_length. lia.
    - intros p Hp. rewrite elem_zget. cbn [data]. apply zget_repeat. lia.
  Qed.

  Lemma matrix_spec (l : list F) r c :
    (zlen l = r * c -> exists f, fa_matrix l r c = Ok f /\ data f = l /\ rows f = r /\ cols f = c) /\
    (zlen l <> r * c -> fa_matrix l r c = Panic).
  Proof.
    unfold fa_matrix. split; intros H; destruct (Z.eqb_spec (zlen l) (r * c)); try lia; auto.
    eexists. split; [reflexivity|]. auto.
  Qed.

  Lemma vector_wf (l : list F) : data (fa_vector l) = l /\ well_formed (fa_vector l).
  Proof.
    split; [reflexivity|]. unfold well_formed, fa_vector, count; cbn. unfold zlen. lia.
  Qed.
  Lemma of_vec_wf (l : list F) : data (fa_of_vec l) = l /\ well_formed (fa_of_vec l).
  Proof. exact (vector_wf l). Qed.
  Lemma single_wf (x : F) : data (fa_single x) = [x] /\ well_formed (fa_single x).
  Proof. split; [reflexivity|]. unfold well_formed, count; cbn. lia. Qed.
  Lemma empty_wf : data (@fa_empty F _) = [] /\ well_formed fa_empty.
  Proof. split; [reflexivity|]. unfold well_formed, count; cbn. lia. Qed.

  Lemma concat_zlen (l : list (list F)) q : Forall (fun r => zlen r = q) l -> zlen (concat l) = zlen l * q.
  Proof.
    induction 1 as [|x l Hx _ IH]; [reflexivity|].
    cbn [concat]. rewrite zlen_app, IH, Hx. unfold zlen. cbn [length]. lia.
  Qed.

  Lemma of_nested_wf (l : list (list F)) q :
    Forall (fun r => zlen r = q) l ->
    data (fa_of_nested l) = concat l /\ rows (fa_of_nested l) = zlen l /\
    (l <> [] -> cols (fa_of_nested l) = q) /\
    (q <> 0 \/ l = [] -> well_formed (fa_of_nested l)).
  Proof.
    intros H. split; [reflexivity|]. split; [reflexivity|].
    assert (Hc : l <> [] -> cols (fa_of_nested l) = q).
    { destruct l as [|x l]; [congruence|]. intros _. inversion H; subst. reflexivity. }
    split; [exact Hc|].
    intros Hq. destruct l as [|x l].
    - unfold well_formed, count; cbn. lia.
    - destruct Hq as [Hq|]; [|discriminate].
      unfold well_formed. rewrite Hc by discriminate.
      unfold count. change (Z.of_nat (length (data (fa_of_nested (x :: l))))) with (zlen (concat (x :: l))).
      rewrite (concat_zlen _ q H). cbn [rows fa_of_nested].
      assert (0 <= q) by (inversion H; subst; apply zlen_nonneg).
      destruct (Z.eqb_spec q 0); [lia|]. repeat split; try lia. apply zlen_nonneg.
  Qed.

  (** C07 *)
  Lemma flat_roundtrip (l : list F) : from_fa (to_fa l) = Ok l.
  Proof. reflexivity. Qed.
  Lemma flat_2d (l : list F) ld :
    (ld <> 0 -> exists f, to_fa_2d l ld = Ok f /\ data f = l /\ rows f = ld /\ cols f = Z.quot (zlen l) ld /\
                     from_fa f = Ok l) /\
    (ld = 0 -> to_fa_2d l ld = Panic).
  Proof.
    cbn. unfold fa_as_2d. split; intros H.
    - destruct (Z.eqb_spec ld 0); [lia|]. eexists. split; [reflexivity|]. cbn. auto.
    - subst. reflexivity.
  Qed.

  (** C08: chunking *)
  Lemma zget_concat (l : list (list F)) q p : 1 <= q -> 0 <= p -> Forall (fun r => zlen r = q) l ->
    zget (concat l) p = match zget l (p / q) with Some r => zget r (p mod q) | None => None end.
  Proof.
    intros Hq Hp H. revert p Hp. induction H as [|x l Hx _ IH]; intros p Hp.
    - cbn [concat]. assert (0 <= p / q) by (apply Z.div_pos; lia).
      replace (zget [] p) with (@None F). 2:{ symmetry. apply zget_None. unfold zlen; cbn; lia. }
      replace (zget [] (p / q)) with (@None (list F)). 2:{ symmetry. apply zget_None. unfold zlen; cbn; lia. }
      reflexivity.
    - cbn [concat]. rewrite zget_app, Hx. destruct (Z.ltb_spec p q).
      + rewrite Z.div_small, Z.mod_small by lia. reflexivity.
      + rewrite IH by lia.
        assert (Ed : p / q = (p - q) / q + 1).
        { replace p with (p - q + 1 * q) at 1 by lia. apply Z.div_add. lia. }
        assert (Em : p mod q = (p - q) mod q).
        { replace p with (p - q + 1 * q) at 1 by lia. apply Z.mod_add. lia. }
        rewrite Ed, Em.
        assert (0 <= (p - q) / q) by (apply Z.div_pos; lia).
        replace (zget (x :: l) ((p - q) / q + 1)) with (zget l ((p - q) / q)); [reflexivity|].
        unfold zget. destruct (Z.ltb_spec ((p - q) / q) 0), (Z.ltb_spec ((p - q) / q + 1) 0); try lia.
        replace (Z.to_nat ((p - q) / q + 1)) with (S (Z.to_nat ((p - q) / q))) by lia. reflexivity.
  Qed.

  Lemma concat_inj (l l' : list (list F)) q : 1 <= q ->
    Forall (fun r => zlen r = q) l -> Forall (fun r => zlen r = q) l' -> concat l = concat l' -> l = l'.
  Proof.
    intros Hq H. revert l'. induction H as [|x l Hx _ IH]; intros l' H' E.
    - destruct H' as [|y l' Hy _]; auto. cbn [concat] in E.
      assert (L : zlen (y ++ concat l') = 0) by (rewrite <- E; reflexivity).
      rewrite zlen_app in L. assert (X := zlen_nonneg (concat l')). lia.
    - destruct H' as [|y l' Hy H'].
      + cbn [concat] in E. assert (L : zlen (x ++ concat l) = 0) by (rewrite E; reflexivity).
        rewrite zlen_app in L. assert (X := zlen_nonneg (concat l)). lia.
      + cbn [concat] in E.
        assert (L : length x = length y) by (unfold zlen in *; lia).
        assert (G : x = y /\ concat l = concat l').
        { clear -E L. revert y L E. induction x as [|a x IHx]; intros [|b y] L E; cbn in *; try discriminate; auto.
          injection E as -> E. apply IHx in E as [-> ->]; auto. }
        destruct G as [-> G]. f_equal. apply IH; auto.
  Qed.

  Lemma Forall_zset {A} (P : A -> Prop) l p x : Forall P l -> P x -> Forall P (zset l p x).
  Proof.
    intros H Hx. unfold zset. destruct (p <? 0); auto. revert p. intros p. generalize (Z.to_nat p). clear p.
    induction H; intros [|n]; cbn; constructor; auto.
  Qed.

  Lemma zget_Forall {A} (P : A -> Prop) (l : list A) p x : Forall P l -> zget l p = Some x -> P x.
  Proof.
    intros H E. unfold zget in E. destruct (p <? 0); [discriminate|].
    apply nth_error_In in E. rewrite Forall_forall in H. auto.
  Qed.

  Lemma nested_of_fa_ok (f : fa) : 1 <= rows f -> 0 <= cols f -> count f = rows f * cols f ->
    exists d, nested_of_fa f = Ok d /\ zlen d = cols f /\ Forall (fun r => zlen r = rows f) d /\ concat d = data f.
  Proof.
    intros Hr Hc Hn. unfold nested_of_fa.
    destruct (Z.ltb_spec (rows f) 0); [lia|]. destruct (Z.ltb_spec (cols f) 0); [lia|]. cbn [orb].
    set (body := fun (i : Z) (d : list (list F)) => _).
    set (z := repeat _ _).
    assert (G : forall n, 0 <= n <= count f ->
      exists d, for_M (range 0 (n - 1)) z body = Ok d /\ zlen d = cols f /\
        Forall (fun r => zlen r = rows f) d /\
        (forall p, 0 <= p < n -> zget (concat d) p = zget (data f) p)).
    { intros n Hnn. remember (Z.to_nat n) as k. revert n Hnn Heqk. induction k; intros n Hnn Heqk.
      - exists z. rewrite range_nil by lia. split; [reflexivity|]. subst z. rewrite zlen_repeat.
        split; [lia|]. split; [|intros; lia].
        apply Forall_forall. intros r Hin. apply repeat_spec in Hin. subst r. rewrite zlen_repeat. lia.
      - destruct (IHk (n - 1)) as (d & E & Hd & Hf & Hg); [lia..|].
        assert (Hm := Z.mod_pos_bound (n - 1) (rows f) ltac:(lia)).
        assert (Hdm := Z.div_mod (n - 1) (rows f) ltac:(lia)).
        assert (Hq0 : 0 <= (n - 1) / rows f) by (apply Z.div_pos; lia).
        assert (Hq1 : (n - 1) / rows f < cols f) by nia.
        destruct (proj2 (zget_Some d ((n - 1) / rows f))) as [c Ec]; [lia|].
        assert (Hlc : zlen c = rows f) by (eapply (zget_Forall (fun r => zlen r = rows f)); eauto).
        destruct (proj2 (zget_Some (data f) (n - 1))) as [v Ev]; [rewrite <- count_zlen; lia|].
        destruct (proj2 (zget_Some c ((n - 1) mod rows f))) as [w Ew]; [lia|].
        exists (zset d ((n - 1) / rows f) (zset c ((n - 1) mod rows f) v)).
        assert (FM : forall is js s s', for_M is s body = Ok s' -> for_M (is ++ js) s body = for_M js s' body).
        { induction is as [|i is IHi]; intros js s s' Hs; cbn [app for_M] in *.
          - injection Hs as ->. reflexivity.
          - destruct (body i s); cbn [bind] in *; try discriminate. apply IHi. exact Hs. }
        rewrite range_snoc by lia. rewrite (FM _ _ _ d E). cbn [for_M].
        unfold body at 1. destruct (Z.eqb_spec (rows f) 0); [lia|]. rewrite Ec, Ev, Ew. cbn [bind].
        assert (F1 : Forall (fun r => zlen r = rows f) (zset d ((n - 1) / rows f) (zset c ((n - 1) mod rows f) v))).
        { apply Forall_zset; auto. rewrite zset_zlen. exact Hlc. }
        split; [reflexivity|]. split; [rewrite zset_zlen; exact Hd|]. split; [exact F1|].
        intros p Hp. rewrite (zget_concat _ (rows f)) by (auto; lia).
        destruct (Z.eq_dec p (n - 1)) as [->|Hne].
        + rewrite zset_same by lia. rewrite zset_same by lia. symmetry. exact Ev.
        + assert (Hm' := Z.mod_pos_bound p (rows f) ltac:(lia)).
          assert (Hdm' := Z.div_mod p (rows f) ltac:(lia)).
          rewrite <- (Hg p) by lia. rewrite (zget_concat d (rows f)) by (auto; lia).
          destruct (Z.eq_dec (p / rows f) ((n - 1) / rows f)) as [Eq|Nq].
          * rewrite Eq, zset_same, Ec by lia. apply zset_other. intros Em. apply Hne.
            rewrite Hdm, Hdm', Eq, Em. reflexivity.
          * rewrite zset_other by congruence. reflexivity. }
    destruct (G (count f)) as (d & E & Hd & Hf & Hg). { unfold count. lia. }
    rewrite <- count_zlen. rewrite E. cbn [bind].
    exists d. split; [reflexivity|]. split; [exact Hd|]. split; [exact Hf|].
    assert (Lc : zlen (concat d) = count f) by (rewrite (concat_zlen d (rows f) Hf); nia).
    apply zget_ext. intros p. destruct (Z_lt_le_dec p 0).
    { unfold zget. destruct (Z.ltb_spec p 0); [reflexivity|lia]. }
    destruct (Z_lt_le_dec p (count f)).
    - apply Hg. lia.
    - transitivity (@None F); [|symmetry]; apply zget_None; rewrite <- ?count_zlen; lia.
  Qed.

  (** the nested round trip: p lists of q elements come back as q lists of p elements, same order *)
  Lemma nested_roundtrip (l : list (list F)) q : l <> [] -> 1 <= q -> Forall (fun r => zlen r = q) l ->
    exists l', from_fa (to_fa l) = Ok l' /\ concat l' = concat l /\ zlen l' = q /\
               Forall (fun r => zlen r = zlen l) l'.
  Proof.
    intros Hne Hq H. cbn.
    destruct (of_nested_wf l q H) as (E1 & E2 & E3 & _). specialize (E3 Hne).
    assert (1 <= zlen l) by (destruct l; [congruence|]; unfold zlen; cbn [length]; lia).
    destruct (nested_of_fa_ok (fa_of_nested l)) as (d & Ed & Hd & Hf & Hc).
    - rewrite E2. assumption.
    - rewrite E3. lia.
    - rewrite count_zlen, E1, (concat_zlen l q H), E2, E3. reflexivity.
    - exists d. rewrite E1, E2, E3 in *. auto.
  Qed.

  Lemma nested_roundtrip_iff (l : list (list F)) q : l <> [] -> 1 <= q -> Forall (fun r => zlen r = q) l ->
    (from_fa (to_fa l) = Ok l <-> zlen l = q).
  Proof.
    intros Hne Hq H. destruct (nested_roundtrip l q Hne Hq H) as (l' & E & Hc & Hl & Hf).
    rewrite E. split.
    - intros [= ->]. exact Hl.
    - intros Es. f_equal. apply (concat_inj _ _ q); auto. rewrite Es in Hf. exact Hf.
  Qed.

  (** the same for [to_fa_2d], which ignores the leading dimension on nested vectors *)
  Lemma nested_2d (l : list (list F)) ld : to_fa_2d l ld = Ok (to_fa l).
  Proof. reflexivity. Qed.

  (** C09 *)
  Lemma list_feq_Forall2 (a b : list F) : list_feq a b = true <-> Forall2 (fun x y => feq x y = true) a b.
  Proof.
    revert b; induction a as [|x a IH]; intros [|y b]; cbn [list_feq].
    - split; auto.
    - split; [discriminate|]. intros H; inversion H.
    - split; [discriminate|]. intros H; inversion H.
    - rewrite andb_true_iff, IH. split.
      + intros [H1 H2]. constructor; auto.
      + intros H. inversion H; auto.
  Qed.

  Lemma fa_eq_spec (f g : fa) :
    fa_eq f g = true <-> rows f = rows g /\ cols f = cols g /\ Forall2 (fun x y => feq x y = true) (data f) (data g).
  Proof.
    unfold fa_eq. rewrite !andb_true_iff, !Z.eqb_eq, list_feq_Forall2. tauto.
  Qed.

  Lemma fa_eq_sym (f g : fa) : (forall x y : F, feq x y = feq y x) -> fa_eq f g = fa_eq g f.
  Proof.
    intros Hs.
    assert (G : forall f g, fa_eq f g = true -> fa_eq g f = true).
    { clear f g. intros f g. rewrite !fa_eq_spec. intros (-> & -> & H). repeat split.
      induction H; constructor; auto. rewrite Hs. assumption. }
    destruct (fa_eq f g) eqn:E1, (fa_eq g f) eqn:E2; auto.
    - apply G in E1. congruence.
    - apply G in E2. congruence.
  Qed.

  Lemma fa_eq_trans (f g h : fa) :
    (forall x y z : F, feq x y = true -> feq y z = true -> feq x z = true) ->
    fa_eq f g = true -> fa_eq g h = true -> fa_eq f h = true.
  Proof.
    intros Ht. rewrite !fa_eq_spec. intros (-> & -> & H1) (-> & -> & H2). repeat split.
    revert H2. generalize (data h). induction H1; intros l2 H2; inversion H2; subst; constructor; eauto.
  Qed.

  Lemma fa_eq_refl_iff (f : fa) :
    fa_eq f f = true <-> (forall p x, elem f p = Some x -> feq x x = true).
  Proof.
    rewrite fa_eq_spec. split.
    - intros (_ & _ & H) p x E. rewrite elem_zget in E. unfold zget in E.
      destruct (p - 1 <? 0); [discriminate|]. apply nth_error_In in E.
      revert E. generalize (data f), H. clear. intros l H. induction l as [|a l IH]; [intros []|].
      inversion H; subst. intros [->|]; auto.
    - intros H. repeat split.
      assert (G : forall x, In x (data f) -> feq x x = true).
      { intros x Hx. apply In_nth_error in Hx as [n Hn]. apply (H (Z.of_nat n + 1)).
        unfold elem. destruct (Z.ltb_spec (Z.of_nat n + 1) 1); [lia|].
        replace (Z.to_nat (Z.of_nat n + 1 - 1)) with n by lia. exact Hn. }
      revert G. generalize (data f). clear. induction l; intros G; constructor.
      + apply G. left; reflexivity.
      + apply IHl. intros; apply G; right; assumption.
  Qed.

  (** C10 *)
  Section Display.
    Context (T : Type) (lb rb comma : T) (show : F -> T).

    Notation commas := (commas T comma show).
    Notation group := (group T lb rb comma show).

    Lemma disp_1d_pos i l : 1 <= i -> l <> [] -> disp_1d T comma show i l = comma :: commas l.
    Proof.
      revert i; induction l as [|x l IH]; intros i Hi Hl; [congruence|].
      cbn [disp_1d]. unfold sep. destruct (Z.eqb_spec i 0); [lia|]. cbn [app].
      f_equal. destruct l as [|y l]; [reflexivity|].
      rewrite IH by (discriminate || lia). reflexivity.
    Qed.

    Lemma disp_1d_commas l : disp_1d T comma show 0 l = commas l.
    Proof.
      destruct l as [|x l]; [reflexivity|]. cbn [disp_1d]. change (sep T comma 0) with (@nil T). cbn [app].
      destruct l as [|y l]; [reflexivity|]. rewrite disp_1d_pos by (discriminate || lia). reflexivity.
    Qed.

    Lemma commas_snoc l x : l <> [] -> commas (l ++ [x]) = commas l ++ [comma; show x].
    Proof.
      induction l as [|a l IH]; [congruence|]. intros _. destruct l as [|b l]; [reflexivity|].
      cbn [app]. change (commas (a :: b :: l ++ [x])) with (show a :: comma :: commas ((b :: l) ++ [x])).
      rewrite IH by discriminate. reflexivity.
    Qed.

    Lemma for_M_app {S} (is js : list Z) (s s' : S) body :
      for_M is s body = Ok s' -> for_M (is ++ js) s body = for_M js s' body.
    Proof.
      revert s. induction is as [|i is IH]; intros s H; cbn [app for_M] in *.
      - injection H as ->. reflexivity.
      - destruct (body i s); cbn [bind] in *; try discriminate. apply IH. exact H.
    Qed.

    Lemma disp_row_ok (f : fa) l row :
      0 <= row -> 0 <= cols f -> zlen l = cols f -> (forall c, 0 <= c < cols f -> zget (data f) (row * cols f + c) = zget l c) ->
      disp_row T lb rb comma show f row = Ok (group l).
    Proof.
      intros Hrow Hc Hl Hg. unfold disp_row.
      set (body := fun (col : Z) (acc : list T) => _).
      assert (G : forall n, 0 <= n <= cols f ->
        for_M (range 0 (n - 1)) [lb] body = Ok (lb :: commas (firstn (Z.to_nat n) l))).
      { intros n Hn. remember (Z.to_nat n) as k. revert n Hn Heqk. induction k; intros n Hn Hk.
        - rewrite range_nil by lia. reflexivity.
        - rewrite range_snoc by lia. rewrite (for_M_app _ _ _ _ _ (IHk (n - 1) ltac:(lia) ltac:(lia))).
          cbn [for_M]. unfold body at 1, vec_get. rewrite Hg by lia.
          destruct (proj2 (zget_Some l (n - 1))) as [v Ev]; [lia|]. rewrite Ev. cbn [bind].
          assert (Es : firstn (S k) l = firstn k l ++ [v]).
          { unfold zget in Ev. destruct (Z.ltb_spec (n - 1) 0); [lia|].
            replace (Z.to_nat (n - 1)) with k in Ev by lia. revert Ev. clear. revert l.
            induction k; intros [|a l] E; cbn in E; try discriminate.
            - injection E as ->. reflexivity.
            - cbn [firstn app]. f_equal. apply IHk. exact E. }
          rewrite Es. unfold sep. destruct (Z.eqb_spec (n - 1) 0) as [E0|E0].
          + replace k with O by lia. reflexivity.
          + rewrite commas_snoc. { cbn [app]. reflexivity. }
            assert (Hlen : length (firstn k l) <> O).
            { rewrite firstn_length. unfold zlen in Hl. lia. }
            destruct (firstn k l); [cbn in Hlen; congruence|discriminate]. }
      rewrite (G (cols f)) by lia. cbn [bind]. rewrite firstn_all2 by (unfold zlen in Hl; lia).
      unfold group. reflexivity.
    Qed.

    Lemma chunk_exists (l : list F) q k : 0 <= q -> zlen l = Z.of_nat k * q ->
      exists L, concat L = l /\ length L = k /\ Forall (fun r => zlen r = q) L.
    Proof.
      intros Hq. revert l. induction k; intros l H.
      - exists []. destruct l; [auto|]. unfold zlen in H; cbn in H; lia.
      - destruct (IHk (skipn (Z.to_nat q) l)) as (L & E & HL & HF).
        { rewrite zlen_skipn by lia. lia. }
        exists (firstn (Z.to_nat q) l :: L). cbn [concat length]. rewrite E, HL, firstn_skipn.
        repeat split. constructor; auto. apply zlen_firstn. nia.
    Qed.

    Lemma zget_concat0 (L : list (list F)) q row c : 0 <= q -> 0 <= c < q -> 0 <= row ->
      Forall (fun r => zlen r = q) L ->
      zget (concat L) (row * q + c) = match zget L row with Some r => zget r c | None => None end.
    Proof.
      intros Hq Hc Hr H. rewrite (zget_concat L q) by (auto; nia).
      replace (row * q + c) with (c + row * q) by lia.
      rewrite Z.div_add, Z.mod_add, Z.div_small, Z.mod_small by lia. reflexivity.
    Qed.

    Lemma display_2d (f : fa) : 0 <= rows f -> 1 <= cols f -> count f = rows f * cols f ->
      exists L, concat L = data f /\ zlen L = rows f /\ Forall (fun r => zlen r = cols f) L /\
        fa_display T lb rb comma show f = Ok (lb :: concat (map group L) ++ [rb]).
    Proof.
      intros Hr Hc Hn.
      destruct (chunk_exists (data f) (cols f) (Z.to_nat (rows f))) as (L & E & HL & HF).
      { lia. } { rewrite <- count_zlen. lia. }
      exists L. split; [exact E|]. split; [unfold zlen; lia|]. split; [exact HF|].
      unfold fa_display, fa_is_1d. destruct (Z.eqb_spec (cols f) 0); [lia|].
      set (body := fun (row : Z) (acc : list T) => _).
      assert (G : forall n, 0 <= n <= rows f ->
        for_M (range 0 (n - 1)) [lb] body = Ok (lb :: concat (map group (firstn (Z.to_nat n) L)))).
      { intros n0 Hn0. remember (Z.to_nat n0) as k. revert n0 Hn0 Heqk. induction k; intros n0 Hn0 Hk.
        - rewrite range_nil by lia. reflexivity.
        - rewrite range_snoc by lia. rewrite (for_M_app _ _ _ _ _ (IHk (n0 - 1) ltac:(lia) ltac:(lia))).
          destruct (proj2 (zget_Some L (n0 - 1))) as [l Hl]; [unfold zlen; lia|].
          cbn [for_M]. unfold body at 1.
          rewrite (disp_row_ok f l (n0 - 1)); auto; try lia.
          2:{ eapply (zget_Forall (fun r => zlen r = cols f)); eauto. }
          2:{ intros c Hcc. rewrite <- E. rewrite (zget_concat0 L) by (auto; lia). rewrite Hl. reflexivity. }
          cbn [bind].
          assert (Es : firstn (S k) L = firstn k L ++ [l]).
          { unfold zget in Hl. destruct (Z.ltb_spec (n0 - 1) 0); [lia|].
            replace (Z.to_nat (n0 - 1)) with k in Hl by lia. revert Hl. clear. revert L.
            induction k; intros [|a L] E; cbn in E; try discriminate.
            - injection E as ->. reflexivity.
            - cbn [firstn app]. f_equal. apply IHk. exact E. }
          rewrite Es, map_app, concat_app. cbn [map concat]. rewrite app_nil_r. reflexivity. }
      rewrite (G (rows f)) by lia. cbn [bind].
      rewrite firstn_all2 by lia. reflexivity.
    Qed.

    Lemma display_1d (f : fa) : cols f = 0 -> fa_display T lb rb comma show f = Ok (group (data f)).
    Proof.
      intros H. unfold fa_display, fa_is_1d. rewrite H. cbn [Z.eqb]. rewrite disp_1d_commas. reflexivity.
    Qed.
  End Display.
End ArrayProofs.

(** Witnesses *)
Section Witnesses.
  Context {F : Type} {NF : Num F}.

  Lemma tail_view_panics : exists (f : fa F) k, api_array f /\ 1 <= k /\ from1 f k = Panic.
  Proof.
    exists (mkFA [] 3 0 fnan), 2. split; [|split; [lia|reflexivity]].
    apply (api_zeros 3 0). reflexivity.
  Qed.

  Lemma tail_view_panics_2d (x : F) :
    exists f : fa F, to_fa_2d [x] 3 = Ok f /\ api_array f /\ from2 f 3 1 = Panic.
  Proof.
    exists (mkFA [x] 3 0 fnan). split; [reflexivity|]. split; [|reflexivity].
    apply (api_as_2d (fa_of_vec [x]) 3); [apply api_of_vec|reflexivity].
  Qed.

  Lemma negative_shape (x : F) :
    exists f : fa F, fa_matrix [x; x; x; x] (-2) (-2) = Ok f /\ ~ well_formed f.
  Proof.
    eexists. split; [reflexivity|]. unfold well_formed; cbn. lia.
  Qed.
  Lemma zero_columns : exists f : fa F, fa_zeros 3 0 = Ok f /\ ~ well_formed f.
  Proof. eexists. split; [reflexivity|]. unfold well_formed; cbn. lia. Qed.

  Lemma zeros_wf r c : 0 <= r -> 1 <= c -> exists f : fa F, fa_zeros r c = Ok f /\ well_formed f.
  Proof.
    intros Hr Hc. destruct (zeros_spec (F := F) r c) as [H _].
    destruct H as (f & E & H1 & H2 & H3 & _); [nia|].
    exists f. split; [exact E|]. unfold well_formed. rewrite H1, H2, H3.
    destruct (Z.eqb_spec c 0); lia.
  Qed.
  Lemma matrix_wf (l : list F) r c : 0 <= r -> 1 <= c -> zlen l = r * c ->
    exists f, fa_matrix l r c = Ok f /\ well_formed f.
  Proof.
    intros Hr Hc Hl. destruct (matrix_spec l r c) as [H _].
    destruct H as (f & E & H1 & H2 & H3); [exact Hl|].
    exists f. split; [exact E|]. unfold well_formed, count. rewrite H1, H2, H3.
    destruct (Z.eqb_spec c 0); [lia|]. repeat split; try lia. exact Hl.
  Qed.

  Lemma access_wf (f : fa F) a : well_formed f -> well_formed (apply_access f a).
  Proof.
    assert (S : same_shape (apply_access f a) f).
    { destruct a; cbn [apply_access]; [apply mod1_shape|apply mod2_shape]. }
    destruct S as (E1 & E2 & E3). unfold well_formed. rewrite E1, E2, E3. auto.
  Qed.

  Lemma nested_refuted (x : F) :
    exists l : list (list F), Forall (fun r => zlen r = 2) l /\ from_fa (to_fa l) <> Ok l.
  Proof.
    exists [[x; x]]. assert (H : Forall (fun r : list F => zlen r = 2) [[x; x]]) by (repeat constructor).
    split; [exact H|]. rewrite (nested_roundtrip_iff _ 2) by (try exact H; try lia; discriminate).
    discriminate.
  Qed.

  (** A 1-D array cannot be converted to a nested vector. *)
  Lemma nested_of_1d (f : fa F) : cols f = 0 -> 1 <= count f -> nested_of_fa f = Panic.
  Proof.
    intros Hc Hn. unfold nested_of_fa. rewrite Hc. cbn [Z.ltb Z.compare]. rewrite orb_false_r.
    destruct (rows f <? 0); [reflexivity|]. cbn [Z.to_nat repeat].
    rewrite <- count_zlen. rewrite range_cons by lia. cbn [for_M].
    destruct (rows f =? 0); [reflexivity|].
    assert (E : zget (@nil (list F)) (0 / rows f) = None).
    { apply zget_None. unfold zlen; cbn. lia. }
    rewrite E. reflexivity.
  Qed.
End Witnesses.


Lemma b64_fa_eq_refl_iff lm (f : fa b64) :
  @fa_eq b64 (B64 lm) f f = true <->
  (forall p x, elem f p = Some x -> BinarySingleNaN.is_nan x = false).
Proof.
  rewrite (@fa_eq_refl_iff b64 (B64 lm)). cbn [feq B64].
  split; intros H p x E; specialize (H p x E); rewrite b64_eqb_refl in *.
  - apply negb_true_iff. exact H.
  - apply negb_true_iff. exact H.
Qed.
