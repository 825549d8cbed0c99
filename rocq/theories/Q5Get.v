(** What a read returns after the loops of dlaqr5's sweep, over any number type. *)
From Coq Require Import ZArith Lia Bool.
From Verif Require Import Base Num Array Blas Lapack Dlahqr Dlaqr5 Spec Lists FaLemmas LahqrProofs Laqr5Proofs HqGet.
Open Scope Z_scope.

Section Get5.
  Context {F : Type} {NF : Num F}.
  Context (n : Z).
  Notation fa := (fa F).
  Notation big := (big n).
  Lemma mod2_big (h : fa) i j g : big h -> big (mod2 h i j g).
  Proof. apply big_shape, mod2_shape. Qed.

  Ltac eqs := repeat match goal with |- context [?x =? ?y] => destruct (Z.eqb_spec x y); try (exfalso; lia); subst end; cbn [andb].
  Ltac getmod := repeat first [rewrite (mod2_get n) by (repeat apply mod2_big; first [assumption|lia])].

  Section Refl.
    Context (k : Z) (v2 v3 t1 t2 t3 : F).
    Lemma q5_left3_get h j a b : big h -> 1 <= k -> k + 2 <= n -> 1 <= j <= n -> 1 <= a <= n ->
      get2 (q5_left3 k v2 v3 t1 t2 t3 j h) a b = if b =? j then lval3 k v2 v3 t1 t2 t3 h a b else get2 h a b.
    Proof.
      intros HB Hk Hk2 Hj Ha. unfold q5_left3, lval3, vrefl3, pick3. cbv zeta. getmod. eqs; reflexivity.
    Qed.
    Lemma q5_right3_get h j a b : big h -> 1 <= k -> k + 2 <= n -> 1 <= j <= n -> 1 <= a <= n ->
      get2 (q5_right3 k v2 v3 t1 t2 t3 j h) a b = if a =? j then rval3 k v2 v3 t1 t2 t3 h a b else get2 h a b.
    Proof.
      intros HB Hk Hk2 Hj Ha. unfold q5_right3, rval3, vrefl3, pick3. cbv zeta. getmod. eqs; reflexivity.
    Qed.
    Lemma q5_left2_get h j a b : big h -> 1 <= k -> k + 1 <= n -> 1 <= j <= n -> 1 <= a <= n ->
      get2 (q5_left2 k v2 t1 t2 j h) a b = if b =? j then lval2 k v2 t1 t2 h a b else get2 h a b.
    Proof.
      intros HB Hk Hk2 Hj Ha. unfold q5_left2, lval2, vrefl2, pick2. cbv zeta. getmod. eqs; reflexivity.
    Qed.
    Lemma q5_right2_get h j a b : big h -> 1 <= k -> k + 1 <= n -> 1 <= j <= n -> 1 <= a <= n ->
      get2 (q5_right2 k v2 t1 t2 j h) a b = if a =? j then rval2 k v2 t1 t2 h a b else get2 h a b.
    Proof.
      intros HB Hk Hk2 Hj Ha. unfold q5_right2, rval2, vrefl2, pick2. cbv zeta. getmod. eqs; reflexivity.
    Qed.
    Lemma q5_left3_loop_get lo hi h a b : big h -> 1 <= k -> k + 2 <= n -> 1 <= lo -> hi <= n -> 1 <= a <= n -> 1 <= b <= n ->
      get2 (for_ (range lo hi) h (q5_left3 k v2 v3 t1 t2 t3)) a b = if inside lo hi b then lval3 k v2 v3 t1 t2 t3 h a b else get2 h a b.
    Proof.
      intros HB Hk Hk2 Hlo Hhi Ha Hb. apply (loop_get n _ (lval3 k v2 v3 t1 t2 t3) true); try assumption.
      - intros. apply q5_left3_shape.
      - intros. apply q5_left3_get; assumption || lia.
      - clear h a b HB Ha Hb. intros h h' a b Ha Hb H. unfold lval3. rewrite !(H k b), (H (k + 1) b), (H (k + 2) b), (H a b) by (lia || reflexivity). reflexivity.
    Qed.
    Lemma q5_right3_loop_get lo hi h a b : big h -> 1 <= k -> k + 2 <= n -> 1 <= lo -> hi <= n -> 1 <= a <= n -> 1 <= b <= n ->
      get2 (for_ (range lo hi) h (q5_right3 k v2 v3 t1 t2 t3)) a b = if inside lo hi a then rval3 k v2 v3 t1 t2 t3 h a b else get2 h a b.
    Proof.
      intros HB Hk Hk2 Hlo Hhi Ha Hb. apply (loop_get n _ (rval3 k v2 v3 t1 t2 t3) false); try assumption.
      - intros. apply q5_right3_shape.
      - intros. apply q5_right3_get; assumption || lia.
      - clear h a b HB Ha Hb. intros h h' a b Ha Hb H. unfold rval3. rewrite !(H a k), (H a (k + 1)), (H a (k + 2)), (H a b) by (lia || reflexivity). reflexivity.
    Qed.
    Lemma q5_left2_loop_get lo hi h a b : big h -> 1 <= k -> k + 1 <= n -> 1 <= lo -> hi <= n -> 1 <= a <= n -> 1 <= b <= n ->
      get2 (for_ (range lo hi) h (q5_left2 k v2 t1 t2)) a b = if inside lo hi b then lval2 k v2 t1 t2 h a b else get2 h a b.
    Proof.
      intros HB Hk Hk2 Hlo Hhi Ha Hb. apply (loop_get n _ (lval2 k v2 t1 t2) true); try assumption.
      - intros. apply q5_left2_shape.
      - intros. apply q5_left2_get; assumption || lia.
      - clear h a b HB Ha Hb. intros h h' a b Ha Hb H. unfold lval2. rewrite !(H k b), (H (k + 1) b), (H a b) by (lia || reflexivity). reflexivity.
    Qed.
    Lemma q5_right2_loop_get lo hi h a b : big h -> 1 <= k -> k + 1 <= n -> 1 <= lo -> hi <= n -> 1 <= a <= n -> 1 <= b <= n ->
      get2 (for_ (range lo hi) h (q5_right2 k v2 t1 t2)) a b = if inside lo hi a then rval2 k v2 t1 t2 h a b else get2 h a b.
    Proof.
      intros HB Hk Hk2 Hlo Hhi Ha Hb. apply (loop_get n _ (rval2 k v2 t1 t2) false); try assumption.
      - intros. apply q5_right2_shape.
      - intros. apply q5_right2_get; assumption || lia.
      - clear h a b HB Ha Hb. intros h h' a b Ha Hb H. unfold rval2. rewrite !(H a k), (H a (k + 1)), (H a b) by (lia || reflexivity). reflexivity.
    Qed.
  End Refl.

  Lemma loop_shape (body : Z -> fa -> fa) l : (forall j h, same_shape (body j h) h) -> forall h, same_shape (for_ l h body) h.
  Proof. intros HS. unfold for_. induction l as [|x l IH]; intros h; [apply same_shape_refl|]. cbn. eapply same_shape_trans; [apply IH|apply HS]. Qed.

  (** the third row brought up to date: the first statements of a step *)
  Definition catch_up (k : Z) (t1 v2 v3 : F) (h : fa) : fa :=
    let refsum := fmul v3 (get2 h (k + 3) (k + 2)) in
    mod2 (set2 (set2 h (k + 3) k (fmul (fneg refsum) t1)) (k + 3) (k + 1) (fmul (fneg refsum) (fmul t1 v2))) (k + 3) (k + 2) (fun x => fsub x (fmul refsum (fmul t1 v3))).
  Lemma catch_up_shape k t1 v2 v3 h : same_shape (catch_up k t1 v2 v3 h) h.
  Proof. unfold catch_up. eapply same_shape_trans; [apply mod2_shape|]. eapply same_shape_trans; apply set2_shape. Qed.
  Lemma catch_up_get k t1 v2 v3 h a b : big h -> 1 <= k -> k + 3 <= n -> 1 <= a <= n ->
    let s := fmul v3 (get2 h (k + 3) (k + 2)) in
    get2 (catch_up k t1 v2 v3 h) a b =
      if (a =? k + 3) && (b =? k) then fmul (fneg s) t1
      else if (a =? k + 3) && (b =? k + 1) then fmul (fneg s) (fmul t1 v2)
      else if (a =? k + 3) && (b =? k + 2) then fsub (get2 h (k + 3) (k + 2)) (fmul s (fmul t1 v3)) else get2 h a b.
  Proof.
    intros HB Hk Hn Ha s. unfold catch_up. fold s. rewrite (mod2_get n) by (repeat apply set2_big; first [assumption|lia]).
    rewrite !(set2_get n) by (repeat apply set2_big; first [assumption|lia]). eqs; reflexivity.
  Qed.
End Get5.
