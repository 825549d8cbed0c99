(** What a read returns after the loops of dlahqr's sweep, over any number type. *)
From Coq Require Import ZArith Lia Bool.
From Verif Require Import Base Num Array Blas Lapack Dlahqr Spec Lists FaLemmas LahqrProofs.
Open Scope Z_scope.

Section Get.
  Context {F : Type} {NF : Num F}.
  Context (n : Z).
  Notation fa := (fa F).

  (** an array that holds an n-by-n block *)
  Definition big (h : fa) : Prop := n <= rows h /\ n * rows h <= count h.
  Lemma big_shape h h' : same_shape h' h -> big h -> big h'.
  Proof. intros (E1 & _ & E3) [A B]. unfold big. rewrite E1, E3. split; assumption. Qed.
  Lemma big_pos h a b : big h -> 1 <= a <= n -> 1 <= b <= n -> 1 <= pos (rows h) a b <= count h.
  Proof. intros [A B] Ha Hb. unfold pos. split; [nia|]. assert ((b - 1) * rows h + rows h <= n * rows h) by nia. nia. Qed.
  Lemma mod2_get h i j g a b : big h -> 1 <= i <= n -> 1 <= j <= n -> 1 <= a <= n ->
    get2 (mod2 h i j g) a b = if (a =? i) && (b =? j) then g (get2 h i j) else get2 h a b.
  Proof. intros HB Hi Hj Ha. apply mod2_get2; [apply big_pos; assumption| |]; destruct HB; lia. Qed.
  Lemma set2_get h i j x a b : big h -> 1 <= i <= n -> 1 <= j <= n -> 1 <= a <= n ->
    get2 (set2 h i j x) a b = if (a =? i) && (b =? j) then x else get2 h a b.
  Proof. intros HB Hi Hj Ha. unfold set2. rewrite mod2_get by assumption. reflexivity. Qed.
  Lemma set2_big h i j x : big h -> big (set2 h i j x).
  Proof. apply big_shape, set2_shape. Qed.

  (** the entries of a column (row) after the reflector was applied to it *)
  Definition vrefl3 (v2 v3 t1 t2 t3 x1 x2 x3 : F) : F * F * F :=
    let s := fadd (fadd x1 (fmul v2 x2)) (fmul v3 x3) in
    (fsub x1 (fmul s t1), fsub x2 (fmul s t2), fsub x3 (fmul s t3)).
  Definition vrefl2 (v2 t1 t2 x1 x2 : F) : F * F :=
    let s := fadd x1 (fmul v2 x2) in (fsub x1 (fmul s t1), fsub x2 (fmul s t2)).
  Definition pick3 (k a : Z) (r : F * F * F) (x : F) : F :=
    let '(y1, y2, y3) := r in if a =? k then y1 else if a =? k + 1 then y2 else if a =? k + 2 then y3 else x.
  Definition pick2 (k a : Z) (r : F * F) (x : F) : F :=
    let '(y1, y2) := r in if a =? k then y1 else if a =? k + 1 then y2 else x.
  Definition inside (lo hi b : Z) : bool := (lo <=? b) && (b <=? hi).

  Ltac eqs := repeat match goal with |- context [?x =? ?y] => destruct (Z.eqb_spec x y); try (exfalso; lia); subst end; cbn [andb].
  Ltac getset := repeat first [rewrite set2_get by (repeat apply set2_big; first [assumption|lia])].

  Section Left.
    Context (k : Z) (v2 v3 t1 t2 t3 : F).
    Definition lval3 (h : fa) (a b : Z) : F := pick3 k a (vrefl3 v2 v3 t1 t2 t3 (get2 h k b) (get2 h (k + 1) b) (get2 h (k + 2) b)) (get2 h a b).
    Definition rval3 (h : fa) (a b : Z) : F := pick3 k b (vrefl3 v2 v3 t1 t2 t3 (get2 h a k) (get2 h a (k + 1)) (get2 h a (k + 2))) (get2 h a b).
    Definition lval2 (h : fa) (a b : Z) : F := pick2 k a (vrefl2 v2 t1 t2 (get2 h k b) (get2 h (k + 1) b)) (get2 h a b).
    Definition rval2 (h : fa) (a b : Z) : F := pick2 k b (vrefl2 v2 t1 t2 (get2 h a k) (get2 h a (k + 1))) (get2 h a b).
    Lemma left3_get h j a b : big h -> 1 <= k -> k + 2 <= n -> 1 <= j <= n -> 1 <= a <= n ->
      get2 (left3 k v2 v3 t1 t2 t3 j h) a b = if b =? j then lval3 h a b else get2 h a b.
    Proof.
      intros HB Hk Hk2 Hj Ha. unfold left3, lval3, vrefl3, pick3. cbv zeta.
      getset. eqs; reflexivity.
    Qed.
    Lemma right3_get h j a b : big h -> 1 <= k -> k + 2 <= n -> 1 <= j <= n -> 1 <= a <= n ->
      get2 (right3 k v2 v3 t1 t2 t3 j h) a b = if a =? j then rval3 h a b else get2 h a b.
    Proof.
      intros HB Hk Hk2 Hj Ha. unfold right3, rval3, vrefl3, pick3. cbv zeta.
      getset. eqs; reflexivity.
    Qed.
    Lemma left2_get h j a b : big h -> 1 <= k -> k + 1 <= n -> 1 <= j <= n -> 1 <= a <= n ->
      get2 (left2 k v2 t1 t2 j h) a b = if b =? j then lval2 h a b else get2 h a b.
    Proof.
      intros HB Hk Hk2 Hj Ha. unfold left2, lval2, vrefl2, pick2. cbv zeta.
      getset. eqs; reflexivity.
    Qed.
    Lemma right2_get h j a b : big h -> 1 <= k -> k + 1 <= n -> 1 <= j <= n -> 1 <= a <= n ->
      get2 (right2 k v2 t1 t2 j h) a b = if a =? j then rval2 h a b else get2 h a b.
    Proof.
      intros HB Hk Hk2 Hj Ha. unfold right2, rval2, vrefl2, pick2. cbv zeta.
      getset. eqs; reflexivity.
    Qed.

    (** the loops *)
    Lemma loop_get (body : Z -> fa -> fa) (val : fa -> Z -> Z -> F) (col : bool) lo hi :
      (forall j h, same_shape (body j h) h) ->
      (forall h j a b, big h -> 1 <= j <= n -> 1 <= a <= n -> 1 <= b <= n ->
        get2 (body j h) a b = if (if col then b else a) =? j then val h a b else get2 h a b) ->
      (forall h h' a b, 1 <= a <= n -> 1 <= b <= n ->
        (forall a' b', 1 <= a' <= n -> 1 <= b' <= n -> (if col then b' = b else a' = a) -> get2 h a' b' = get2 h' a' b') -> val h a b = val h' a b) ->
      1 <= lo -> hi <= n ->
      forall h a b, big h -> 1 <= a <= n -> 1 <= b <= n ->
      get2 (for_ (range lo hi) h body) a b = if inside lo hi (if col then b else a) then val h a b else get2 h a b.
    Proof.
      intros HS HG HV Hlo Hhi h a b HB Ha Hb.
      destruct (Z_lt_le_dec hi lo) as [E|E].
      { rewrite range_nil by lia. cbn [for_ fold_left]. unfold inside. destruct (Z.leb_spec lo (if col then b else a)); cbn [andb]; [|reflexivity].
        destruct (Z.leb_spec (if col then b else a) hi); [lia|reflexivity]. }
      assert (X : forall m, (m <= hi - lo + 1) -> 0 <= m -> forall a b, 1 <= a <= n -> 1 <= b <= n ->
        same_shape (for_ (range lo (lo + m - 1)) h body) h /\
        get2 (for_ (range lo (lo + m - 1)) h body) a b = if inside lo (lo + m - 1) (if col then b else a) then val h a b else get2 h a b).
      { clear a b Ha Hb. intros m Hm Hm0. revert Hm. pattern m. apply natlike_ind; [| |exact Hm0].
        - intros _ a b Ha Hb. rewrite range_nil by lia. cbn [for_ fold_left]. split; [apply same_shape_refl|]. unfold inside.
          destruct (Z.leb_spec lo (if col then b else a)), (Z.leb_spec (if col then b else a) (lo + 0 - 1)); cbn [andb]; try reflexivity; lia.
        - clear m Hm0. intros m Hm0 IH Hm a b Ha Hb. replace (lo + Z.succ m - 1) with (lo + m) by lia.
          rewrite range_snoc by lia. unfold for_ in *. rewrite fold_left_app. cbn [fold_left].
          destruct (IH ltac:(lia) a b Ha Hb) as [S1 V1].
          split; [eapply same_shape_trans; [apply HS|exact S1]|].
          rewrite HG by (assumption || lia || (eapply big_shape; eassumption)).
          unfold inside in *. destruct (Z.eqb_spec (if col then b else a) (lo + m)) as [EQ|EQ].
          + rewrite EQ. destruct (Z.leb_spec lo (lo + m)), (Z.leb_spec (lo + m) (lo + m)); try lia. cbn [andb].
            apply HV; [assumption|assumption|]. intros a' b' Ha' Hb' Hc. destruct (IH ltac:(lia) a' b' Ha' Hb') as [_ V2].
            rewrite V2. destruct col; [subst b'|subst a']; rewrite EQ; destruct (Z.leb_spec lo (lo + m)), (Z.leb_spec (lo + m) (lo + m - 1)); cbn [andb]; try reflexivity; lia.
          + rewrite V1. destruct (Z.leb_spec lo (if col then b else a)), (Z.leb_spec (if col then b else a) (lo + m - 1)), (Z.leb_spec (if col then b else a) (lo + m)); cbn [andb]; try reflexivity; lia. }
      destruct (X (hi - lo + 1) ltac:(lia) ltac:(lia) a b Ha Hb) as [_ V]. replace (lo + (hi - lo + 1) - 1) with hi in V by lia. exact V.
    Qed.
    Lemma left3_loop_get lo hi h a b : big h -> 1 <= k -> k + 2 <= n -> 1 <= lo -> hi <= n -> 1 <= a <= n -> 1 <= b <= n ->
      get2 (for_ (range lo hi) h (left3 k v2 v3 t1 t2 t3)) a b = if inside lo hi b then lval3 h a b else get2 h a b.
    Proof.
      intros HB Hk Hk2 Hlo Hhi Ha Hb. apply (loop_get _ lval3 true); try assumption.
      - intros. apply left3_shape.
      - intros. apply left3_get; assumption || lia.
      - clear h a b HB Ha Hb. intros h h' a b Ha Hb H. unfold lval3. rewrite !(H k b), (H (k + 1) b), (H (k + 2) b), (H a b) by (lia || reflexivity). reflexivity.
    Qed.
    Lemma right3_loop_get lo hi h a b : big h -> 1 <= k -> k + 2 <= n -> 1 <= lo -> hi <= n -> 1 <= a <= n -> 1 <= b <= n ->
      get2 (for_ (range lo hi) h (right3 k v2 v3 t1 t2 t3)) a b = if inside lo hi a then rval3 h a b else get2 h a b.
    Proof.
      intros HB Hk Hk2 Hlo Hhi Ha Hb. apply (loop_get _ rval3 false); try assumption.
      - intros. apply right3_shape.
      - intros. apply right3_get; assumption || lia.
      - clear h a b HB Ha Hb. intros h h' a b Ha Hb H. unfold rval3. rewrite !(H a k), (H a (k + 1)), (H a (k + 2)), (H a b) by (lia || reflexivity). reflexivity.
    Qed.
    Lemma left2_loop_get lo hi h a b : big h -> 1 <= k -> k + 1 <= n -> 1 <= lo -> hi <= n -> 1 <= a <= n -> 1 <= b <= n ->
      get2 (for_ (range lo hi) h (left2 k v2 t1 t2)) a b = if inside lo hi b then lval2 h a b else get2 h a b.
    Proof.
      intros HB Hk Hk2 Hlo Hhi Ha Hb. apply (loop_get _ lval2 true); try assumption.
      - intros. apply left2_shape.
      - intros. apply left2_get; assumption || lia.
      - clear h a b HB Ha Hb. intros h h' a b Ha Hb H. unfold lval2. rewrite !(H k b), (H (k + 1) b), (H a b) by (lia || reflexivity). reflexivity.
    Qed.
    Lemma right2_loop_get lo hi h a b : big h -> 1 <= k -> k + 1 <= n -> 1 <= lo -> hi <= n -> 1 <= a <= n -> 1 <= b <= n ->
      get2 (for_ (range lo hi) h (right2 k v2 t1 t2)) a b = if inside lo hi a then rval2 h a b else get2 h a b.
    Proof.
      intros HB Hk Hk2 Hlo Hhi Ha Hb. apply (loop_get _ rval2 false); try assumption.
      - intros. apply right2_shape.
      - intros. apply right2_get; assumption || lia.
      - clear h a b HB Ha Hb. intros h h' a b Ha Hb H. unfold rval2. rewrite !(H a k), (H a (k + 1)), (H a b) by (lia || reflexivity). reflexivity.
    Qed.
  End Left.
End Get.
