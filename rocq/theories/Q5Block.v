(** dlaqr5 with one pair of shifts, not accumulating, over any number type: two runs on windows that hold the same block. *)
From Coq Require Import ZArith Lia Bool List.
From Verif Require Import Base Num Array Blas Lapack Dlaqr5 Spec Lists FaLemmas Blas1Proofs LarfgProofs LarfgPre LahqrProofs Laqr5Proofs Laqr5Top HqGet Q5Get HqBlock.
From Verif Require Q5ErrRefl Q5ErrLoop.
Import ListNotations.
Open Scope Z_scope.

Lemma cond_add {F} {NF : Num F} (c : bool) (t t' x x' : F) : t = t' -> (c = true -> x = x') -> (if c then fadd t x else t) = (if c then fadd t' x' else t').
Proof. intros -> H. destruct c; [rewrite H by reflexivity|]; reflexivity. Qed.
Lemma oimp_eq {A} (x : outcome A) : oimp eq x x.
Proof. intros a E. exists a. auto. Qed.

(** the small-entry test written with the sum taken out *)
Definition vsum {F} {NF : Num F} (kt kb k : Z) (h : fa F) (t : F) : F :=
  let t := if kt + 1 <=? k then fadd t (fabs (get2 h k (k - 1))) else t in
  let t := if kt + 2 <=? k then fadd t (fabs (get2 h k (k - 2))) else t in
  let t := if kt + 3 <=? k then fadd t (fabs (get2 h k (k - 3))) else t in
  let t := if k <=? kb - 2 then fadd t (fabs (get2 h (k + 2) (k + 1))) else t in
  let t := if k <=? kb - 3 then fadd t (fabs (get2 h (k + 3) (k + 1))) else t in
  if k <=? kb - 4 then fadd t (fabs (get2 h (k + 4) (k + 1))) else t.
Definition vtest {F} {NF : Num F} (n : Z) (a b c e : F) (s : F -> F) : bool :=
  (* a = h(k,k), b = h(k+1,k), c = h(k,k+1), e = h(k+1,k+1) *)
  if fne b f0 then
    let tst1 := fadd (fabs a) (fabs e) in
    let tst1 := if feq tst1 f0 then s tst1 else tst1 in
    if fle (fabs b) (fmax (q5_smlnum n) (fmul q5_ulp tst1)) then
      let h12 := fmax (fabs b) (fabs c) in let h21 := fmin (fabs b) (fabs c) in
      let h11 := fmax (fabs e) (fabs (fsub a e)) in let h22 := fmin (fabs e) (fabs (fsub a e)) in
      let scl := fadd h11 h12 in let tst2 := fmul h22 (fdiv h11 scl) in
      feq tst2 f0 || fle (fmul h21 (fdiv h12 scl)) (fmax (q5_smlnum n) (fmul q5_ulp tst2))
    else false
  else false.
Lemma vigilant_eq {F} {NF : Num F} n kt kb k (h : fa F) : q5_vigilant n kt kb k h =
  if vtest n (get2 h k k) (get2 h (k + 1) k) (get2 h k (k + 1)) (get2 h (k + 1) (k + 1)) (vsum kt kb k h) then set2 h (k + 1) k f0 else h.
Proof.
  unfold q5_vigilant, vtest. destruct (fne _ _); [|reflexivity]. cbv zeta.
  change (let t := if kt + 1 <=? k then fadd (fadd (fabs (get2 h k k)) (fabs (get2 h (k + 1) (k + 1)))) (fabs (get2 h k (k - 1))) else fadd (fabs (get2 h k k)) (fabs (get2 h (k + 1) (k + 1))) in t) with
    (if kt + 1 <=? k then fadd (fadd (fabs (get2 h k k)) (fabs (get2 h (k + 1) (k + 1)))) (fabs (get2 h k (k - 1))) else fadd (fabs (get2 h k k)) (fabs (get2 h (k + 1) (k + 1)))).
  unfold vsum. cbv zeta. destruct (fle (fabs _) _); [|reflexivity]. destruct (_ || _); reflexivity.
Qed.
Lemma vtest_ext {F} {NF : Num F} n (a b c e : F) s s' : (forall t, s t = s' t) -> vtest n a b c e s = vtest n a b c e s'.
Proof. intros H. unfold vtest. rewrite H. reflexivity. Qed.

Section Rel.
  Context {F : Type} {NF : Num F}.
  Notation fa := (fa F).
  Context (n d ktop kbot : Z).
  Hypothesis (Hlo1 : 1 <= ktop + d) (Hhi1 : kbot + d <= n) (Hlo : 1 <= ktop) (Hhi : kbot <= n) (Hkk : ktop < kbot).
  Context (f0' g0 : fa).
  Hypothesis (FF : full f0') (BF : big n f0') (FG : full g0) (BG : big n g0).

  (** the window of g, moved by d, is the window of f, but for entries four or more below the diagonal *)
  Definition rel5 (f g : fa) : Prop := same_shape f f0' /\ same_shape g g0 /\
    forall a b, ktop <= a <= kbot -> ktop <= b <= kbot -> a < b + 4 -> get2 f (a + d) (b + d) = get2 g a b.
  Lemma rel_big f g : rel5 f g -> big n f /\ big n g.
  Proof. intros (A & B & _). split; eapply big_shape; eassumption. Qed.
  Lemma rel_full f g : rel5 f g -> full f /\ full g.
  Proof. intros (A & B & _). split; eapply full_shape; eassumption. Qed.
  Lemma rel_get f g a b a' b' : rel5 f g -> a' = a + d -> b' = b + d -> ktop <= a <= kbot -> ktop <= b <= kbot -> a < b + 4 -> get2 f a' b' = get2 g a b.
  Proof. intros (_ & _ & H) -> -> Ha Hb Hab. apply H; auto. Qed.
  Lemma rel_mk f g f' g' : rel5 f g -> same_shape f' f -> same_shape g' g ->
    (forall a b, ktop <= a <= kbot -> ktop <= b <= kbot -> a < b + 4 -> get2 f' (a + d) (b + d) = get2 g' a b) -> rel5 f' g'.
  Proof. intros (S1 & S2 & _) SF SG H. split; [eapply same_shape_trans; eassumption|]. split; [eapply same_shape_trans; eassumption|exact H]. Qed.
  Lemma rel_mod f g i j i' j' u v : rel5 f g -> i' = i + d -> j' = j + d -> ktop <= i <= kbot -> ktop <= j <= kbot -> u (get2 f i' j') = v (get2 g i j) ->
    rel5 (mod2 f i' j' u) (mod2 g i j v).
  Proof.
    intros H -> -> Hi Hj E. pose proof (rel_big _ _ H) as [B1 B2]. apply (rel_mk f g); [exact H|apply mod2_shape|apply mod2_shape|].
    intros a b Ha Hb G. rewrite (mod2_get n), (mod2_get n) by (assumption || lia). rewrite !eqb_shift. destruct (_ && _); [exact E|]. apply H; assumption.
  Qed.
  Lemma rel_set f g i j i' j' x : rel5 f g -> i' = i + d -> j' = j + d -> ktop <= i <= kbot -> ktop <= j <= kbot -> rel5 (set2 f i' j' x) (set2 g i j x).
  Proof. intros H E1 E2 Hi Hj. apply rel_mod; auto. Qed.

  Ltac un x := match x with context C [?y + d] => context C [y] end.

  Lemma vig_rel f g k : rel5 f g -> ktop <= k -> k + 1 <= kbot -> rel5 (q5_vigilant n (ktop + d) (kbot + d) (k + d) f) (q5_vigilant n ktop kbot k g).
  Proof.
    intros H K1 K2. rewrite !vigilant_eq.
    repeat match goal with |- context [get2 f ?a ?b] => let a' := un a in let b' := un b in rewrite (rel_get f g a' b' a b H) by lia end.
    rewrite (vtest_ext n _ _ _ _ (vsum (ktop + d) (kbot + d) (k + d) f) (vsum ktop kbot k g)).
    - destruct (vtest _ _ _ _ _ _); [|exact H]. apply rel_set; auto; lia.
    - intros t. unfold vsum.
      replace (ktop + d + 1 <=? k + d) with (ktop + 1 <=? k) by (rewrite <- (leb_shift d); f_equal; lia).
      replace (ktop + d + 2 <=? k + d) with (ktop + 2 <=? k) by (rewrite <- (leb_shift d); f_equal; lia).
      replace (ktop + d + 3 <=? k + d) with (ktop + 3 <=? k) by (rewrite <- (leb_shift d); f_equal; lia).
      replace (k + d <=? kbot + d - 2) with (k <=? kbot - 2) by (rewrite <- (leb_shift d); f_equal; lia).
      replace (k + d <=? kbot + d - 3) with (k <=? kbot - 3) by (rewrite <- (leb_shift d); f_equal; lia).
      replace (k + d <=? kbot + d - 4) with (k <=? kbot - 4) by (rewrite <- (leb_shift d); f_equal; lia).
      cbv zeta. repeat apply cond_add; try reflexivity; intros L; apply Z.leb_le in L; f_equal; apply rel_get; auto; lia.
  Qed.

  Section Two.
    Context (f g : fa).
    Hypothesis H : rel5 f g.
    Ltac rd := repeat match goal with |- context [get2 f ?a ?b] => let a' := un a in let b' := un b in rewrite (rel_get f g a' b' a b H) by lia end.

    Lemma pick3_sh k a (r : F * F * F) x : pick3 (k + d + 1) (a + d) r x = pick3 (k + 1) a r x.
    Proof. replace (k + d + 1) with (k + 1 + d) by lia. apply pick3_shift. Qed.
    Lemma pick2_sh k a (r : F * F) x : pick2 (k + d + 1) (a + d) r x = pick2 (k + 1) a r x.
    Proof. replace (k + d + 1) with (k + 1 + d) by lia. apply pick2_shift. Qed.

    Lemma right3_rel lo lo' k v2 v3 t1 t2 t3 : 1 <= lo -> lo <= ktop + d -> 1 <= lo' <= ktop -> ktop - 1 <= k -> k + 3 <= kbot ->
      rel5 (for_ (range lo (Z.min (kbot + d) (k + d + 3))) f (q5_right3 (k + d + 1) v2 v3 t1 t2 t3)) (for_ (range lo' (Z.min kbot (k + 3))) g (q5_right3 (k + 1) v2 v3 t1 t2 t3)).
    Proof.
      intros L1 L2 L3 Hk Hk2. pose proof (rel_big _ _ H) as [B1 B2]. apply (rel_mk f g); [exact H|apply for_shape; intros; apply q5_right3_shape..|].
      intros a b Ha Hb G. rewrite (q5_right3_loop_get n), (q5_right3_loop_get n) by (assumption || lia). unfold inside.
      assert (E : get2 f (a + d) (b + d) = get2 g a b) by (apply H; assumption).
      destruct (Z.leb_spec lo (a + d)), (Z.leb_spec lo' a), (Z.leb_spec (a + d) (Z.min (kbot + d) (k + d + 3))), (Z.leb_spec a (Z.min kbot (k + 3))); try lia; cbn [andb]; try exact E.
      unfold rval3. rewrite E, pick3_sh. rd. reflexivity.
    Qed.
    Lemma right2_rel lo lo' k v2 t1 t2 : 1 <= lo -> lo <= ktop + d -> 1 <= lo' <= ktop -> ktop - 1 <= k -> k + 2 <= kbot ->
      rel5 (for_ (range lo (Z.min (kbot + d) (k + d + 3))) f (q5_right2 (k + d + 1) v2 t1 t2)) (for_ (range lo' (Z.min kbot (k + 3))) g (q5_right2 (k + 1) v2 t1 t2)).
    Proof.
      intros L1 L2 L3 Hk Hk2. pose proof (rel_big _ _ H) as [B1 B2]. apply (rel_mk f g); [exact H|apply for_shape; intros; apply q5_right2_shape..|].
      intros a b Ha Hb G. rewrite (q5_right2_loop_get n), (q5_right2_loop_get n) by (assumption || lia). unfold inside.
      assert (E : get2 f (a + d) (b + d) = get2 g a b) by (apply H; assumption).
      destruct (Z.leb_spec lo (a + d)), (Z.leb_spec lo' a), (Z.leb_spec (a + d) (Z.min (kbot + d) (k + d + 3))), (Z.leb_spec a (Z.min kbot (k + 3))); try lia; cbn [andb]; try exact E.
      unfold rval2. rewrite E, pick2_sh. rd. reflexivity.
    Qed.
    Lemma left3_rel c c' hi hi' k v2 v3 t1 t2 t3 : c = c' + d -> k <= c' -> ktop <= c' -> kbot + d <= hi <= n -> kbot <= hi' <= n -> ktop - 1 <= k -> k + 3 <= kbot ->
      rel5 (for_ (range c hi) f (q5_left3 (k + d + 1) v2 v3 t1 t2 t3)) (for_ (range c' hi') g (q5_left3 (k + 1) v2 v3 t1 t2 t3)).
    Proof.
      intros -> C1 C2 L2 L3 Hk Hk2. pose proof (rel_big _ _ H) as [B1 B2]. apply (rel_mk f g); [exact H|apply for_shape; intros; apply q5_left3_shape..|].
      intros a b Ha Hb G. rewrite (q5_left3_loop_get n), (q5_left3_loop_get n) by (assumption || lia). unfold inside.
      assert (E : get2 f (a + d) (b + d) = get2 g a b) by (apply H; assumption).
      destruct (Z.leb_spec (c' + d) (b + d)), (Z.leb_spec c' b), (Z.leb_spec (b + d) hi), (Z.leb_spec b hi'); try lia; cbn [andb]; try exact E.
      unfold lval3. rewrite E, pick3_sh. rd. reflexivity.
    Qed.
    Lemma left3_one k v2 v3 t1 t2 t3 : ktop - 1 <= k -> k + 3 <= kbot ->
      rel5 (q5_left3 (k + d + 1) v2 v3 t1 t2 t3 (k + d + 1) f) (q5_left3 (k + 1) v2 v3 t1 t2 t3 (k + 1) g).
    Proof.
      intros Hk Hk2. pose proof (rel_big _ _ H) as [B1 B2]. apply (rel_mk f g); [exact H|apply q5_left3_shape..|].
      intros a b Ha Hb G. rewrite (q5_left3_get n), (q5_left3_get n) by (assumption || lia).
      assert (E : get2 f (a + d) (b + d) = get2 g a b) by (apply H; assumption).
      destruct (Z.eqb_spec (b + d) (k + d + 1)), (Z.eqb_spec b (k + 1)); try lia; [|exact E].
      unfold lval3. rewrite E, pick3_sh. rd. reflexivity.
    Qed.
    Lemma left2_rel hi hi' k v2 t1 t2 : kbot + d <= hi <= n -> kbot <= hi' <= n -> ktop - 1 <= k -> k + 2 <= kbot ->
      rel5 (for_ (range (k + d + 1) hi) f (q5_left2 (k + d + 1) v2 t1 t2)) (for_ (range (k + 1) hi') g (q5_left2 (k + 1) v2 t1 t2)).
    Proof.
      intros L2 L3 Hk Hk2. pose proof (rel_big _ _ H) as [B1 B2]. apply (rel_mk f g); [exact H|apply for_shape; intros; apply q5_left2_shape..|].
      intros a b Ha Hb G. rewrite (q5_left2_loop_get n), (q5_left2_loop_get n) by (assumption || lia). unfold inside.
      assert (E : get2 f (a + d) (b + d) = get2 g a b) by (apply H; assumption).
      destruct (Z.leb_spec (k + d + 1) (b + d)), (Z.leb_spec (k + 1) b), (Z.leb_spec (b + d) hi), (Z.leb_spec b hi'); try lia; cbn [andb]; try exact E.
      unfold lval2. rewrite E, pick2_sh. rd. reflexivity.
    Qed.
  End Two.
End Rel.
