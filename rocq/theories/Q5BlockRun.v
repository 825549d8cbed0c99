(** dlaqr5 with one pair of shifts, not accumulating, over any number type: the two runs side by side. *)
From Coq Require Import ZArith Lia Bool List.
From Verif Require Import Base Num Array Blas Lapack Dlaqr5 Spec Lists FaLemmas Blas1Proofs LarfgProofs LarfgPre LahqrProofs Laqr5Proofs Laqr5Top HqGet Q5Get HqBlock Q5Block.
From Verif Require Q5ErrRefl Q5ErrLoop.
Import ListNotations.
Open Scope Z_scope.

Section One.
  Context {F : Type} {NF : Num F}.
  Notation fa := (fa F).
  (** the two arrays have the shapes of v0 and w0 and agree in their first m elements *)
  Definition rv (v0 w0 : fa) (m : Z) (v w : fa) : Prop := same_shape v v0 /\ same_shape w w0 /\ forall p, 1 <= p <= m -> elem v p = elem w p.
  Lemma rv_get v0 w0 m v w p : rv v0 w0 m v w -> 1 <= p <= m -> get2 v p 1 = get2 w p 1.
  Proof. intros (_ & _ & H) Hp. rewrite !get2_get1, !get1_elem. unfold pos. replace ((1 - 1) * rows v + p) with p by lia. replace ((1 - 1) * rows w + p) with p by lia. rewrite H by exact Hp. reflexivity. Qed.

  Lemma reflect_rel v0 w0 ldv ldw m al v w : dim2 ldv v0 -> dim2 ldw w0 -> 3 <= count v0 -> 3 <= count w0 -> m = 2 \/ m = 3 ->
    same_shape v v0 -> same_shape w w0 -> (forall p, 2 <= p <= m -> elem v p = elem w p) ->
    exists v' w' be, v_reflect m al 1 ldv v = Ok (v', be) /\ v_reflect m al 1 ldw w = Ok (w', be) /\ rv v0 w0 m v' w'.
  Proof.
    intros DV DW CV CW Hm SV SW E.
    assert (P : pre (m - 1) (skipn 1 (data v)) (skipn 1 (data w))).
    { intros p Hp. rewrite !(elem_zget (fa_of_vec _)). cbn [data fa_of_vec]. rewrite !Q5ErrRefl.tail_get by lia. apply E. lia. }
    destruct (dlarfg_pre m al _ _ P) as (be & tau & x' & y' & Ex & Ey & P' & Lx & Ly).
    destruct (Q5ErrRefl.v_reflect_ok m ldv v al be x' tau (dim2_shape _ _ _ SV DV) ltac:(destruct SV as (_ & _ & ->); exact CV) Ex Lx) as (v' & RV & SV' & A1 & A2 & A3).
    destruct (Q5ErrRefl.v_reflect_ok m ldw w al be y' tau (dim2_shape _ _ _ SW DW) ltac:(destruct SW as (_ & _ & ->); exact CW) Ey Ly) as (w' & RW & SW' & B1 & B2 & B3).
    exists v', w', be. split; [exact RV|]. split; [exact RW|]. split; [eapply same_shape_trans; eassumption|]. split; [eapply same_shape_trans; eassumption|].
    assert (Z0 := fun (l : list F) p => elem_zget (fa_of_vec l) p). cbn [data fa_of_vec] in Z0.
    intros p Hp. assert (p = 1 \/ p = 2 \/ p = 3) as [-> | [-> | ->]] by lia.
    - rewrite A1, B1. reflexivity.
    - rewrite A2, B2. pose proof (P' 1 ltac:(lia)) as Q. rewrite !Z0 in Q. exact Q.
    - rewrite A3, B3. pose proof (P' 2 ltac:(lia)) as Q. rewrite !Z0 in Q. exact Q.
  Qed.

  (** the start vector *)
  Lemma laqr1_3_rel (h g : fa) a b c e (v w : fa) : (forall i j, 1 <= i <= 3 -> 1 <= j <= 3 -> get2 h i j = get2 g i j) -> 3 <= count v -> 3 <= count w ->
    same_shape (laqr1_3 h a b c e v) v /\ same_shape (laqr1_3 g a b c e w) w /\ forall p, 1 <= p <= 3 -> elem (laqr1_3 h a b c e v) p = elem (laqr1_3 g a b c e w) p.
  Proof.
    intros E CV CW. unfold laqr1_3. rewrite !E by lia. cbv zeta. destruct (feq _ _);
      (split; [repeat (eapply same_shape_trans; [apply set1_shape|]); apply same_shape_refl|]; split; [repeat (eapply same_shape_trans; [apply set1_shape|]); apply same_shape_refl|];
       intros p Hp; rewrite !Q5ErrLoop.set1_el;
       destruct (proj2 (elem_Some v 1) ltac:(lia)) as [? EA], (proj2 (elem_Some v 2) ltac:(lia)) as [? EB], (proj2 (elem_Some v 3) ltac:(lia)) as [? EC];
       destruct (proj2 (elem_Some w 1) ltac:(lia)) as [? EA'], (proj2 (elem_Some w 2) ltac:(lia)) as [? EB'], (proj2 (elem_Some w 3) ltac:(lia)) as [? EC'];
       assert (p = 1 \/ p = 2 \/ p = 3) as [-> | [-> | ->]] by lia; cbn [Z.eqb Pos.eqb]; rewrite ?EA, ?EB, ?EC, ?EA', ?EB', ?EC'; reflexivity).
  Qed.
  Lemma laqr1_2_rel (h g : fa) a b c e (v w : fa) : (forall i j, 1 <= i <= 2 -> 1 <= j <= 2 -> get2 h i j = get2 g i j) -> 3 <= count v -> 3 <= count w ->
    same_shape (laqr1_2 h a b c e v) v /\ same_shape (laqr1_2 g a b c e w) w /\ forall p, 1 <= p <= 2 -> elem (laqr1_2 h a b c e v) p = elem (laqr1_2 g a b c e w) p.
  Proof.
    intros E CV CW. unfold laqr1_2. rewrite !E by lia. cbv zeta. destruct (feq _ _);
      (split; [repeat (eapply same_shape_trans; [apply set1_shape|]); apply same_shape_refl|]; split; [repeat (eapply same_shape_trans; [apply set1_shape|]); apply same_shape_refl|];
       intros p Hp; rewrite !Q5ErrLoop.set1_el;
       destruct (proj2 (elem_Some v 1) ltac:(lia)) as [? EA], (proj2 (elem_Some v 2) ltac:(lia)) as [? EB];
       destruct (proj2 (elem_Some w 1) ltac:(lia)) as [? EA'], (proj2 (elem_Some w 2) ltac:(lia)) as [? EB'];
       assert (p = 1 \/ p = 2) as [-> | ->] by lia; cbn [Z.eqb Pos.eqb]; rewrite ?EA, ?EB, ?EA', ?EB'; reflexivity).
  Qed.
  Lemma laqr1_3_same (h g : fa) a b c e (v : fa) : (forall i j, 1 <= i <= 3 -> 1 <= j <= 3 -> get2 h i j = get2 g i j) -> laqr1_3 h a b c e v = laqr1_3 g a b c e v.
  Proof. intros E. unfold laqr1_3. rewrite !E by lia. reflexivity. Qed.
  (** a vector of V's length becomes a matrix of V's shape *)
  Lemma as_v v0 ldv (lv : list F) (r : fa) : dim2 ldv v0 -> zlen lv = count v0 -> same_shape r (fa_of_vec lv) ->
    exists v1, to_fa_2d (vec_of_fa r) ldv = Ok v1 /\ same_shape v1 v0 /\ forall p, elem v1 p = elem r p.
  Proof.
    intros DV LV Sr. cbn [to_fa_2d ToFA_vec]. destruct (as_2d_shape ldv v0 (fa_of_vec (vec_of_fa r)) DV) as (v1 & E & S1 & D1).
    - change (zlen (data r) = count v0). rewrite <- count_zlen, (proj2 (proj2 Sr)). exact LV.
    - exists v1. split; [exact E|]. split; [exact S1|]. intros p. rewrite !elem_zget, D1. reflexivity.
  Qed.

  (** one column of a sweep with a single bulge *)
  Definition post3 (lo hi n ktop kbot k : Z) (v h : fa) : fa :=
    let t1 := get2 v 1 1 in let v2 := get2 v 2 1 in let v3 := get2 v 3 1 in
    let h := for_ (range lo (Z.min kbot (k + 3))) h (q5_right3 (k + 1) v2 v3 t1 (fmul t1 v2) (fmul t1 v3)) in
    let h := q5_left3 (k + 1) v2 v3 t1 (fmul t1 v2) (fmul t1 v3) (k + 1) h in
    let h := if k <? ktop then h else q5_vigilant n ktop kbot k h in
    for_ (range (Z.max ktop (k + 2)) hi) h (q5_left3 (k + 1) v2 v3 t1 (fmul t1 v2) (fmul t1 v3)).
  Definition start2 (ktop : Z) (sr si : fa) (ldh ldv k : Z) (h v : fa) : outcome (fa * fa) :=
    if k =? ktop - 1 then
      h_tmp <- from2 h (k + 1) (k + 1) ;;
      v_tmp <- from2 v 1 1 ;;
      v_tmp <- dlaqr1 2 h_tmp ldh (get1 sr 1) (get1 si 1) (get1 sr 2) (get1 si 2) v_tmp ;;
      v <- to_fa_2d v_tmp ldv ;;
      r <- v_reflect 2 (get2 v 1 1) 1 ldv v ;;
      Ok (h, fst r)
    else
      let v := set2 v 2 1 (get2 h (k + 2) k) in
      r <- v_reflect 2 (get2 h (k + 1) k) 1 ldv v ;;
      let '(v, beta) := r in
      Ok (set2 (set2 h (k + 1) k beta) (k + 2) k f0, v).
  Definition post2 (lo hi n ktop kbot k : Z) (v h : fa) : fa :=
    let t1 := get2 v 1 1 in let v2 := get2 v 2 1 in
    let h := for_ (range lo (Z.min kbot (k + 3))) h (q5_right2 (k + 1) v2 t1 (fmul t1 v2)) in
    let h := for_ (range (k + 1) hi) h (q5_left2 (k + 1) v2 t1 (fmul t1 v2)) in
    if ktop <=? k then q5_vigilant n ktop kbot k h else h.

  Section Col.
    Context (wantt wantz : bool) (n ktop kbot : Z) (sr si : fa) (ldh iloz ihiz ldv : Z).
    Notation krcol_ := (q5_krcol wantt wantz false n ktop kbot 1 sr si ldh iloz ihiz ldv).
    Notation lo := (if wantt then 1 else ktop).
    Notation hi := (if wantt then n else kbot).
    Lemma mtop_one k : ktop - 1 <= k -> Z.max 1 (Z.quot (ktop - k) 2 + 1) = 1.
    Proof.
      intros K. destruct (Z.eq_dec k (ktop - 1)) as [->|]; [replace (ktop - (ktop - 1)) with 1 by lia; reflexivity|].
      pose proof (Z.quot_opp_l (k - ktop) 2 ltac:(lia)) as QE. replace (- (k - ktop)) with (ktop - k) in QE by lia.
      pose proof (Z.quot_pos (k - ktop) 2 ltac:(lia) ltac:(lia)). lia.
    Qed.
    Lemma mbot_one k : k <= kbot - 3 -> Z.min 1 (Z.quot (kbot - k - 1) 2) = 1.
    Proof. intros H. rewrite Z.quot_div_nonneg by lia. assert (1 <= (kbot - k - 1) / 2) by (apply Z.div_le_lower_bound; lia). lia. Qed.
    Lemma krcol_three incol k st : ktop - 1 <= k <= kbot - 3 -> exists zz : fa -> fa,
      krcol_ incol k st = bind (q5_chase ktop sr si ldh ldv k 1 (qH st) (qV st) (qVt st)) (fun r => let '(h, v, vt) := r in
        Ok (mkQ5 (post3 lo hi n ktop kbot k v h) (zz v) v (qU st) (qWv st) (qWh st) vt)).
    Proof.
      intros K. exists (fun v => if wantz then q5_acc_z iloz ihiz k 1 1 v (qZ st) else qZ st). unfold q5_krcol. rewrite mtop_one, mbot_one by lia. rewrite Z.ltb_irrefl. cbn [andb bind].
      rewrite range_rev_cons, range_rev_nil by lia. cbn [for_M]. unfold q5_bulge at 1. cbn [Z.sub Z.opp Z.add Z.pos_sub Z.mul]. rewrite Z.add_0_r.
      destruct (q5_chase _ _ _ _ _ _ _ _ _ _) as [[[h v] vt]| | |]; [|reflexivity..]. cbn [bind qH qV qZ qU qWv qWh qVt].
      unfold q5_left_all. rewrite range_rev_cons, range_rev_nil by lia. cbn [for_ fold_left]. cbn [Z.sub Z.opp Z.add Z.pos_sub Z.mul Pos.mul]. rewrite Z.add_0_r.
      unfold q5_jtop, q5_jbot, post3. destruct wantz; reflexivity.
    Qed.
    Lemma krcol_two incol k st : ktop - 1 <= k -> k = kbot - 2 -> exists zz : fa -> fa,
      krcol_ incol k st = bind (start2 ktop sr si ldh ldv k (qH st) (qV st)) (fun r => let '(h, v) := r in
        Ok (mkQ5 (post2 lo hi n ktop kbot k v h) (zz v) v (qU st) (qWv st) (qWh st) (qVt st))).
    Proof.
      intros K0 K. exists (fun v => if wantz then q5_acc_z iloz ihiz k 1 0 v (for_ (range iloz ihiz) (qZ st) (q5_right2 (k + 1) (get2 v 2 1) (get2 v 1 1) (fmul (get2 v 1 1) (get2 v 2 1)))) else qZ st).
      unfold q5_krcol. rewrite mtop_one by lia. replace (Z.min 1 (Z.quot (kbot - k - 1) 2)) with 0 by (subst k; replace (kbot - (kbot - 2) - 1) with 1 by lia; reflexivity).
      replace (k + 2 * (0 + 1 - 1)) with k by lia. assert (EB : (k =? kbot - 2) = true) by (apply Z.eqb_eq; exact K). rewrite EB. cbn [Z.ltb Z.compare andb].
      rewrite (range_rev_nil 1 0) by lia. unfold q5_bulge22. cbn [Z.add]. cbn [Z.sub Z.opp Z.add Z.pos_sub Z.mul Pos.mul]. rewrite Z.add_0_r. cbn [Pos.pred_double].
      match goal with |- bind (bind ?x _) _ = _ => change x with (start2 ktop sr si ldh ldv k (qH st) (qV st)) end.
      destruct (start2 _ _ _ _ _ _ _ _) as [[h v]| | |]; [|reflexivity..]. cbn [bind qH qV qZ qU qWv qWh qVt].
      unfold q5_jtop, q5_jbot, post2, q5_left_all. destruct wantz; cbn [bind for_M qH qV qZ qU qWv qWh qVt]; rewrite ?range_rev_nil by lia; reflexivity.
    Qed.
  End Col.
End One.
