(** Laws of FortranArray reads and writes, used by the proofs about the routines. *)
From Verif Require Import Base Num Array Spec Lists.

Section FaLemmas.
  Context {F : Type} {NF : Num F}.
  Notation fa := (fa F).

  Lemma elem_zget (f : fa) p : elem f p = zget (data f) (p - 1).
  Proof.
    unfold elem, zget. destruct (Z.ltb_spec p 1), (Z.ltb_spec (p - 1) 0); auto; lia.
  Qed.

  Lemma count_zlen (f : fa) : count f = zlen (data f).
  Proof. reflexivity. Qed.

  Lemma elem_Some (f : fa) p : (exists x, elem f p = Some x) <-> 1 <= p <= count f.
  Proof. rewrite elem_zget, zget_Some, count_zlen. lia. Qed.

  Lemma elem_None (f : fa) p : elem f p = None <-> ~ 1 <= p <= count f.
  Proof. rewrite elem_zget, zget_None, count_zlen. lia. Qed.

  Lemma elem_ext (f g : fa) : (forall p, 1 <= p -> elem f p = elem g p) -> data f = data g.
  Proof.
    intros H. apply zget_ext. intros p.
    destruct (Z_lt_le_dec p 0).
    - unfold zget. destruct (Z.ltb_spec p 0); [reflexivity|lia].
    - specialize (H (p + 1)). rewrite !elem_zget in H. replace (p + 1 - 1) with p in H by lia. apply H. lia.
  Qed.

  Lemma get1_elem (f : fa) i : get1 f i = match elem f i with Some v => v | None => fMINPOS end.
  Proof.
    unfold get1. rewrite elem_zget. destruct (Z.eqb_spec i 0) as [->|]; reflexivity.
  Qed.

  Lemma get2_ent (f : fa) i j : get2 f i j = match ent f i j with Some v => v | None => fMINPOS end.
  Proof.
    unfold get2, ent, off2, pos. rewrite elem_zget.
    replace ((j - 1) * rows f + i - 1) with ((j - 1) * rows f + (i - 1)) by lia. reflexivity.
  Qed.

  Lemma get2_get1 (f : fa) i j : get2 f i j = get1 f (pos (rows f) i j).
  Proof. rewrite get2_ent, get1_elem. reflexivity. Qed.

  Lemma mod2_mod1 (f : fa) i j g : mod2 f i j g = mod1 f (pos (rows f) i j) g.
  Proof.
    unfold mod2, mod1, off2, pos.
    replace ((j - 1) * rows f + i - 1) with ((j - 1) * rows f + (i - 1)) by lia.
    destruct (Z.eqb_spec ((j - 1) * rows f + i) 0) as [E|]; [|reflexivity].
    replace ((j - 1) * rows f + (i - 1)) with (-1) by lia. reflexivity.
  Qed.

  Lemma mod1_rows (f : fa) i g : rows (mod1 f i g) = rows f.
  Proof. unfold mod1. destruct (i =? 0); [|destruct (zget _ _)]; reflexivity. Qed.
  Lemma mod1_cols (f : fa) i g : cols (mod1 f i g) = cols f.
  Proof. unfold mod1. destruct (i =? 0); [|destruct (zget _ _)]; reflexivity. Qed.
  Lemma mod1_count (f : fa) i g : count (mod1 f i g) = count f.
  Proof.
    unfold mod1. destruct (i =? 0); [reflexivity|]. destruct (zget _ _); [|reflexivity].
    rewrite !count_zlen. cbn [data]. apply zset_zlen.
  Qed.

  Lemma mod1_elem (f : fa) i g p :
    elem (mod1 f i g) p = if p =? i then option_map g (elem f i) else elem f p.
  Proof.
    rewrite !elem_zget. unfold mod1.
    destruct (Z.eqb_spec i 0) as [->|Hi].
    - cbn [data]. destruct (Z.eqb_spec p 0) as [->|]; reflexivity.
    - destruct (zget (data f) (i - 1)) as [v|] eqn:E; cbn [data option_map].
      + destruct (Z.eqb_spec p i) as [->|Hp].
        * apply zset_same. apply zget_Some. eauto.
        * apply zset_other. lia.
      + destruct (Z.eqb_spec p i) as [->|Hp]; auto.
  Qed.

  (** reads after a write at a position *)
  Lemma mod1_get1_same (f : fa) i g : 1 <= i <= count f -> get1 (mod1 f i g) i = g (get1 f i).
  Proof.
    intros H. rewrite !get1_elem, mod1_elem, Z.eqb_refl.
    apply elem_Some in H as [x ->]. reflexivity.
  Qed.
  Lemma mod1_get1_other (f : fa) i g p : p <> i -> get1 (mod1 f i g) p = get1 f p.
  Proof.
    intros H. rewrite !get1_elem, mod1_elem. destruct (Z.eqb_spec p i); [lia|reflexivity].
  Qed.

  Lemma same_shape_refl (f : fa) : same_shape f f.
  Proof. repeat split. Qed.
  Lemma same_shape_trans (f g h : fa) : same_shape f g -> same_shape g h -> same_shape f h.
  Proof. unfold same_shape. intuition congruence. Qed.
  Lemma same_shape_sym (f g : fa) : same_shape f g -> same_shape g f.
  Proof. unfold same_shape. intuition congruence. Qed.
  Lemma mod1_shape (f : fa) i g : same_shape (mod1 f i g) f.
  Proof. repeat split; [apply mod1_rows|apply mod1_cols|apply mod1_count]. Qed.
  Lemma mod2_shape (f : fa) i j g : same_shape (mod2 f i j g) f.
  Proof. rewrite mod2_mod1. apply mod1_shape. Qed.
  Lemma set1_shape (f : fa) i v : same_shape (set1 f i v) f.
  Proof. apply mod1_shape. Qed.
  Lemma set2_shape (f : fa) i j v : same_shape (set2 f i j v) f.
  Proof. apply mod2_shape. Qed.

  Lemma for_shape (is : list Z) (f : fa) body :
    (forall i g, In i is -> same_shape (body i g) g) -> same_shape (for_ is f body) f.
  Proof.
    intros H. apply (for_inv (fun g => same_shape g f)); [apply same_shape_refl|].
    intros i s Hi Hs. eapply same_shape_trans; eauto.
  Qed.

  (** column-major positions do not collide *)
  Lemma pos_inj r i j i' j' :
    1 <= i <= r -> 1 <= i' <= r -> pos r i j = pos r i' j' -> i = i' /\ j = j'.
  Proof.
    unfold pos. intros Hi Hi' E.
    assert (j = j').
    { assert (H := Z.div_add (i - 1) (j - 1) r ltac:(lia)).
      assert (H' := Z.div_add (i' - 1) (j' - 1) r ltac:(lia)).
      rewrite (Z.div_small (i - 1)) in H by lia. rewrite (Z.div_small (i' - 1)) in H' by lia.
      replace (i - 1 + (j - 1) * r) with (i' - 1 + (j' - 1) * r) in H by lia. lia. }
    subst. lia.
  Qed.

  (** every positive position is the position of a pair *)
  Lemma pos_surj r p : 1 <= r -> 1 <= p ->
    exists i j, 1 <= i <= r /\ 1 <= j /\ pos r i j = p.
  Proof.
    intros Hr Hp. exists ((p - 1) mod r + 1), ((p - 1) / r + 1).
    assert (H := Z.div_mod (p - 1) r ltac:(lia)). assert (H1 := Z.mod_pos_bound (p - 1) r ltac:(lia)).
    assert (0 <= (p - 1) / r) by (apply Z.div_pos; lia).
    unfold pos. repeat split; try lia.
  Qed.

  Lemma ent_Some (f : fa) i j : 1 <= pos (rows f) i j <= count f -> exists x, ent f i j = Some x.
  Proof. intros. apply elem_Some. assumption. Qed.

  Lemma holds_block_pos (f : fa) m n i j :
    holds_block f m n -> 1 <= i <= m -> 1 <= j <= n -> 1 <= pos (rows f) i j <= count f.
  Proof.
    intros [Hm Hb] Hi Hj. unfold pos. specialize (Hb ltac:(lia) ltac:(lia)). split; [nia|].
    assert ((j - 1) * rows f <= (n - 1) * rows f) by nia. lia.
  Qed.

  Lemma mod2_ent (f : fa) i j g i' j' :
    1 <= i <= rows f -> 1 <= i' <= rows f ->
    ent (mod2 f i j g) i' j' =
    if (i' =? i) && (j' =? j) then option_map g (ent f i j) else ent f i' j'.
  Proof.
    intros Hi Hi'. unfold ent. rewrite mod2_mod1, mod1_rows, mod1_elem.
    destruct (Z.eqb_spec (pos (rows f) i' j') (pos (rows f) i j)) as [E|E].
    - apply pos_inj in E as [-> ->]; auto. rewrite !Z.eqb_refl. reflexivity.
    - destruct (Z.eqb_spec i' i) as [->|]; auto.
      destruct (Z.eqb_spec j' j) as [->|]; auto. congruence.
  Qed.

  Lemma holds_block_shape (f g : fa) m n : same_shape f g -> holds_block f m n -> holds_block g m n.
  Proof. unfold same_shape, holds_block. intros (-> & _ & ->). auto. Qed.

  Lemma get2_Some (f : fa) i j v : ent f i j = Some v -> get2 f i j = v.
  Proof. rewrite get2_ent. intros ->. reflexivity. Qed.
  Lemma ent_get2 (f : fa) i j : 1 <= pos (rows f) i j <= count f -> ent f i j = Some (get2 f i j).
  Proof. intros H. rewrite get2_ent. apply ent_Some in H as [x ->]. reflexivity. Qed.
  Lemma elem_get1 (f : fa) p : 1 <= p <= count f -> elem f p = Some (get1 f p).
  Proof. intros H. rewrite get1_elem. apply elem_Some in H as [x ->]. reflexivity. Qed.
  Lemma get1_out (f : fa) p : ~ 1 <= p <= count f -> get1 f p = fMINPOS.
  Proof. intros H. rewrite get1_elem. apply elem_None in H as ->. reflexivity. Qed.

  (** a mod2 inside a block, read anywhere in rows 1..rows *)
  Lemma mod2_get2 (f : fa) i j g i' j' :
    1 <= pos (rows f) i j <= count f ->
    1 <= i <= rows f -> 1 <= i' <= rows f ->
    get2 (mod2 f i j g) i' j' =
    if (i' =? i) && (j' =? j) then g (get2 f i j) else get2 f i' j'.
  Proof.
    intros Hp Hi Hi'. rewrite !get2_ent, mod2_ent by assumption.
    destruct ((i' =? i) && (j' =? j)); [|reflexivity].
    rewrite <- get2_ent. rewrite ent_get2 by assumption. reflexivity.
  Qed.
End FaLemmas.
