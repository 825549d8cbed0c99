(** dlaqr5: the pass over the shifts (src/dlaqr5.rs:71-83), and what the sweep reads of them. *)
From Coq Require Import Ascii Permutation.
From Verif Require Import Base Num Array Blas Lapack Dlaqr5 Spec Lists FaLemmas LarfgProofs LahqrProofs Laqr5Proofs.

Section Shifts.
  Context {F : Type} {NF : Num F}.
  Notation fa := (fa F).

  (** ** the pass *)
  Lemma shuffle3_count (f : fa) i : count (shuffle3 f i) = count f.
  Proof. unfold shuffle3. assert (S : same_shape (shuffle3 f i) f) by (unfold shuffle3; shapes). apply S. Qed.
  Lemma set1_get1 (f : fa) i v p : get1 (set1 f i v) p = if ((p =? i) && (1 <=? i) && (i <=? count f))%bool then v else get1 f p.
  Proof.
    destruct (Z.eqb_spec p i) as [->|N]; cbn [andb]; [|apply mod1_get1_other; exact N].
    destruct (Z.leb_spec 1 i), (Z.leb_spec i (count f)); cbn [andb]; [apply mod1_get1_same; lia|..];
      (rewrite !get1_out; [reflexivity|lia|unfold set1; rewrite mod1_count; lia]).
  Qed.
  Lemma set1_count (f : fa) i v : count (set1 f i v) = count f.
  Proof. apply mod1_count. Qed.

  (** a step inside the array moves the first of three shifts behind the other two *)
  Lemma shuffle3_get1 (f : fa) i p : 1 <= i -> i + 2 <= count f ->
    get1 (shuffle3 f i) p = if p =? i then get1 f (i + 1) else if p =? i + 1 then get1 f (i + 2) else if p =? i + 2 then get1 f i else get1 f p.
  Proof.
    intros A B. unfold shuffle3. cbv zeta. rewrite !set1_get1, !set1_count.
    repeat match goal with |- context [?x <=? ?y] => destruct (Z.leb_spec x y); try lia end.
    repeat match goal with |- context [?x =? ?y] => destruct (Z.eqb_spec x y); subst; try lia end; cbn [andb]; reflexivity.
  Qed.
  (** the step at 0 overwrites the first two *)
  Lemma shuffle3_zero (f : fa) p : 2 <= count f ->
    get1 (shuffle3 f 0) p = if p =? 1 then get1 f 2 else if p =? 2 then fMINPOS else get1 f p.
  Proof.
    intros B. unfold shuffle3. cbv zeta. cbn [Z.add Pos.add Pos.succ]. rewrite !set1_get1, !set1_count.
    repeat match goal with |- context [?x <=? ?y] => destruct (Z.leb_spec x y); try lia end.
    replace (get1 f 0) with (fMINPOS : F) by (symmetry; apply get1_out; lia).
    cbn [Z.eqb Pos.eqb]. repeat match goal with |- context [?x =? ?y] => destruct (Z.eqb_spec x y); subst; try lia end; cbn [andb Z.eqb Pos.eqb]; reflexivity.
  Qed.

  (** the shifts numbered lo..hi *)
  Definition shifts (sr si : fa) (lo hi : Z) : list (F * F) := map (fun p => (get1 sr p, get1 si p)) (range lo hi).
  Lemma shifts_split sr si lo mid hi : lo <= mid + 1 -> mid <= hi -> shifts sr si lo hi = shifts sr si lo mid ++ shifts sr si (mid + 1) hi.
  Proof.
    intros A B. unfold shifts. rewrite <- map_app. f_equal. unfold range. replace (Z.to_nat (hi - lo + 1)) with (Z.to_nat (mid - lo + 1) + Z.to_nat (hi - (mid + 1) + 1))%nat by lia.
    rewrite zup_app. do 2 f_equal. lia.
  Qed.
  Lemma shifts_ext (sr si sr' si' : fa) lo hi : (forall p, lo <= p <= hi -> get1 sr' p = get1 sr p /\ get1 si' p = get1 si p) ->
    shifts sr' si' lo hi = shifts sr si lo hi.
  Proof. intros H. apply map_ext_in. intros p Hp. apply in_range in Hp. destruct (H p Hp) as [-> ->]. reflexivity. Qed.
  Lemma shifts_three sr si i : shifts sr si i (i + 2) = [(get1 sr i, get1 si i); (get1 sr (i + 1), get1 si (i + 1)); (get1 sr (i + 2), get1 si (i + 2))].
  Proof. unfold shifts, range. replace (Z.to_nat (i + 2 - i + 1)) with 3%nat by lia. cbn [zup map]. replace (i + 1 + 1) with (i + 2) by lia. reflexivity. Qed.

  Lemma shuffle3_perm (sr si : fa) i k : 1 <= i -> i + 2 <= k -> k <= count sr -> k <= count si ->
    Permutation (shifts (shuffle3 sr i) (shuffle3 si i) 1 k) (shifts sr si 1 k).
  Proof.
    intros A B C D. rewrite !(shifts_split _ _ 1 (i - 1) k), !(shifts_split _ _ (i - 1 + 1) (i + 2) k) by lia.
    replace (i - 1 + 1) with i by lia. rewrite !shifts_three.
    rewrite (shifts_ext sr si) with (lo := 1) (hi := i - 1).
    2: { intros p Hp. rewrite !shuffle3_get1 by lia. repeat match goal with |- context [?x =? ?y] => destruct (Z.eqb_spec x y); try lia end. auto. }
    rewrite (shifts_ext sr si) with (lo := i + 2 + 1) (hi := k).
    2: { intros p Hp. rewrite !shuffle3_get1 by lia. repeat match goal with |- context [?x =? ?y] => destruct (Z.eqb_spec x y); try lia end. auto. }
    apply Permutation_app_head. apply Permutation_app_tail.
    rewrite !shuffle3_get1 by lia. repeat match goal with |- context [?x =? ?y] => destruct (Z.eqb_spec x y); try lia end.
    apply (Permutation_app_comm [_; _] [_]).
  Qed.

  Definition shuffle_body (i : Z) (p : fa * fa) : fa * fa :=
    let '(sr, si) := p in if fne (get1 si i) (get1 si (i + 1)) then (shuffle3 sr i, shuffle3 si i) else (sr, si).
  Lemma range_step_2 hi : range_step 0 hi 2 = if hi <? 0 then [] else 0 :: range_step 2 hi 2.
  Proof. destruct (Z.ltb_spec hi 0); [apply range_step_nil; lia|]. rewrite range_step_cons by lia. reflexivity. Qed.

  Lemma shuffle_later k (p : fa * fa) : k <= count (fst p) -> k <= count (snd p) ->
    let r := for_ (range_step 2 (k - 3) 2) p shuffle_body in
    Permutation (shifts (fst r) (snd r) 1 k) (shifts (fst p) (snd p) 1 k) /\ count (fst r) = count (fst p) /\ count (snd r) = count (snd p).
  Proof.
    intros A B. cbv zeta.
    apply (for_inv (fun r => Permutation (shifts (fst r) (snd r) 1 k) (shifts (fst p) (snd p) 1 k) /\ count (fst r) = count (fst p) /\ count (snd r) = count (snd p))).
    - auto.
    - intros i [sr si] Hi (P & C1 & C2). cbn [fst snd] in *. unfold shuffle_body. destruct (fne _ _); [|auto]. cbn [fst snd].
      rewrite !shuffle3_count. split; [|auto]. eapply Permutation_trans; [|exact P].
      assert (2 <= i <= k - 3).
      { revert Hi. unfold range_step. destruct (Z.ltb_spec (k - 3) 2); [contradiction|]. intros Hi. apply in_zup in Hi as (t & Ht & ->).
        assert ((k - 3 - 2) / 2 * 2 <= k - 3 - 2) by (rewrite Z.mul_comm; apply Z.mul_div_le; lia). nia. }
      apply shuffle3_perm; lia.
  Qed.

  (** what the pass does to the list of shifts *)
  Lemma shuffle_perm k (sr si : fa) : k <= count sr -> k <= count si -> 
    let '(sr', si') := shuffle_shifts k sr si in
    (k < 3 \/ fne fMINPOS (get1 si 1) = false -> Permutation (shifts sr' si' 1 k) (shifts sr si 1 k)) /\
    (3 <= k -> fne fMINPOS (get1 si 1) = true -> Permutation (shifts sr' si' 1 k) ((fMINPOS, fMINPOS) :: shifts sr si 2 k)).
  Proof.
    intros A B. destruct (shuffle_shifts k sr si) as [sr' si'] eqn:E. revert E.
    change (shuffle_shifts k sr si) with (for_ (range_step 0 (k - 3) 2) (sr, si) shuffle_body).
    rewrite range_step_2. destruct (Z.ltb_spec (k - 3) 0).
    { cbn [for_ fold_left]. intros [= <- <-]. split; [auto|lia]. }
    rewrite for_cons.
    assert (B0 : shuffle_body 0 (sr, si) = if fne fMINPOS (get1 si 1) then (shuffle3 sr 0, shuffle3 si 0) else (sr, si)).
    { unfold shuffle_body. cbn [Z.add]. rewrite (get1_out si 0) by lia. reflexivity. }
    rewrite B0. clear B0.
    destruct (fne fMINPOS (get1 si 1)).
    - intros E. pose proof (shuffle_later k (shuffle3 sr 0, shuffle3 si 0)) as L. cbn [fst snd] in L. rewrite E, !shuffle3_count in L.
      destruct (L A B) as [P _]. cbn [fst snd] in P. split; [intros [|]; [lia|discriminate]|]. intros _ _. eapply Permutation_trans; [exact P|].
      rewrite (shifts_split _ _ 1 2 k), (shifts_split sr si 2 2 k) by lia.
      rewrite (shifts_ext sr si (shuffle3 sr 0) (shuffle3 si 0) (2 + 1) k).
      2: { intros p Hp. rewrite !shuffle3_zero by lia. destruct (Z.eqb_spec p 1), (Z.eqb_spec p 2); try lia. auto. }
      assert (E2 : forall a b : fa, shifts a b 1 2 = [(get1 a 1, get1 b 1); (get1 a 2, get1 b 2)]) by reflexivity.
      assert (E1 : forall a b : fa, shifts a b 2 2 = [(get1 a 2, get1 b 2)]) by reflexivity.
      rewrite E2, E1, !shuffle3_zero by lia. cbn [Z.eqb Pos.eqb app]. apply perm_swap.
    - intros E. pose proof (shuffle_later k (sr, si)) as L. cbn [fst snd] in L. rewrite E in L. destruct (L A B) as [P _]. cbn [fst snd] in P.
      split; [intros _; exact P|discriminate].
  Qed.

  (** ** the sweep reads the shifts by position only *)
  Section Ext.
    Context (wantt wantz accum : bool) (n ktop kbot nbmps : Z) (sr si sr' si' : fa)
            (ldh iloz ihiz ldz ldv ldu nv ldwv nh ldwh : Z).
    Hypothesis (ER : forall p, get1 sr' p = get1 sr p) (EI : forall p, get1 si' p = get1 si p).
    Lemma for_M_ext {S} is (s : S) b1 b2 : (forall i s, b1 i s = b2 i s) -> for_M is s b1 = for_M is s b2.
    Proof. intros H. revert s. induction is as [|i is IH]; intros s; cbn [for_M]; [reflexivity|]. rewrite H. destruct (b2 i s); cbn [bind]; auto. Qed.
    Lemma collapsed_ext k m be (h v vt : fa) : q5_collapsed sr' si' ldh k m be h v vt = q5_collapsed sr si ldh k m be h v vt.
    Proof. unfold q5_collapsed. rewrite !ER, !EI. reflexivity. Qed.
    Lemma chase_ext k m (h v vt : fa) : q5_chase ktop sr' si' ldh ldv k m h v vt = q5_chase ktop sr si ldh ldv k m h v vt.
    Proof.
      unfold q5_chase. rewrite !ER, !EI. destruct (_ =? _); [reflexivity|]. cbv zeta.
      destruct (v_reflect _ _ _ _ _) as [[v1 be]| | |]; cbn [bind]; try reflexivity. rewrite collapsed_ext. reflexivity.
    Qed.
    Lemma bulge_ext incol krcol m st : q5_bulge wantt accum n ktop kbot sr' si' ldh ldv incol krcol m st = q5_bulge wantt accum n ktop kbot sr si ldh ldv incol krcol m st.
    Proof. unfold q5_bulge. rewrite chase_ext. reflexivity. Qed.
    Lemma bulge22_ext incol krcol m st : q5_bulge22 wantt wantz accum n ktop kbot nbmps sr' si' ldh iloz ihiz ldv incol krcol m st =
      q5_bulge22 wantt wantz accum n ktop kbot nbmps sr si ldh iloz ihiz ldv incol krcol m st.
    Proof. unfold q5_bulge22. rewrite !ER, !EI. reflexivity. Qed.
    Lemma main_ext st : q5_main wantt wantz accum n ktop kbot nbmps sr' si' ldh iloz ihiz ldz ldv ldu nv ldwv nh ldwh st =
      q5_main wantt wantz accum n ktop kbot nbmps sr si ldh iloz ihiz ldz ldv ldu nv ldwv nh ldwh st.
    Proof.
      unfold q5_main. apply for_M_ext. intros incol s. unfold q5_incol.
      match goal with |- context [bind ?x _] => destruct x as [u| | |] end; cbn [bind]; try reflexivity.
      rewrite (for_M_ext _ _ (q5_krcol wantt wantz accum n ktop kbot nbmps sr' si' ldh iloz ihiz ldv incol)
        (q5_krcol wantt wantz accum n ktop kbot nbmps sr si ldh iloz ihiz ldv incol)); [reflexivity|].
      intros krcol s1. unfold q5_krcol. cbv zeta. rewrite bulge22_ext.
      match goal with |- context [bind ?x _] => destruct x as [s2| | |] end; cbn [bind]; try reflexivity.
      rewrite (for_M_ext _ _ (q5_bulge wantt accum n ktop kbot sr' si' ldh ldv incol krcol) (q5_bulge wantt accum n ktop kbot sr si ldh ldv incol krcol));
        [reflexivity|]. intros m s3. apply bulge_ext.
    Qed.
  End Ext.

  Definition same_reads (p q : fa * fa) : Prop :=
    (forall t, get1 (fst p) t = get1 (fst q) t) /\ (forall t, get1 (snd p) t = get1 (snd q) t) /\
    count (fst p) = count (fst q) /\ count (snd p) = count (snd q).
  Lemma set1_reads (f g : fa) i v : (forall t, get1 f t = get1 g t) -> count f = count g -> forall t, get1 (set1 f i v) t = get1 (set1 g i v) t.
  Proof. intros H C t. rewrite !set1_get1, C, H. reflexivity. Qed.
  Lemma shuffle3_reads (f g : fa) i : (forall t, get1 f t = get1 g t) -> count f = count g -> forall t, get1 (shuffle3 f i) t = get1 (shuffle3 g i) t.
  Proof.
    intros H C t. unfold shuffle3. cbv zeta. rewrite !set1_get1, !set1_count, !C, !H. reflexivity.
  Qed.
  Lemma shuffle_body_reads i p q : same_reads p q -> same_reads (shuffle_body i p) (shuffle_body i q).
  Proof.
    destruct p as [a b], q as [c d]. intros (H1 & H2 & C1 & C2). unfold shuffle_body. cbn [fst snd] in *. rewrite !H2.
    destruct (fne _ _); unfold same_reads; cbn [fst snd]; [|auto]. rewrite !shuffle3_count.
    split; [apply shuffle3_reads; assumption|]. split; [apply shuffle3_reads; assumption|auto].
  Qed.
  Lemma shuffle_for_reads is p q : same_reads p q -> same_reads (for_ is p shuffle_body) (for_ is q shuffle_body).
  Proof. revert p q. induction is as [|i is IH]; intros p q H; [exact H|]. rewrite !for_cons. apply IH. apply shuffle_body_reads. exact H. Qed.

  (** with three or more shifts the first one is never read *)
  Lemma shuffle_first k (sr si sr' si' : fa) : 3 <= k -> 3 <= count sr -> 3 <= count si -> count sr' = count sr -> count si' = count si ->
    (forall p, 2 <= p -> get1 sr' p = get1 sr p /\ get1 si' p = get1 si p) ->
    fne fMINPOS (get1 si 1) = true -> fne fMINPOS (get1 si' 1) = true ->
    same_reads (shuffle_shifts k sr' si') (shuffle_shifts k sr si).
  Proof.
    intros K C1 C2 C3 C4 H N1 N2.
    change (same_reads (for_ (range_step 0 (k - 3) 2) (sr', si') shuffle_body) (for_ (range_step 0 (k - 3) 2) (sr, si) shuffle_body)).
    rewrite range_step_2. destruct (Z.ltb_spec (k - 3) 0); [lia|]. rewrite !for_cons. apply shuffle_for_reads.
    unfold shuffle_body. cbn [Z.add]. rewrite (get1_out si 0), (get1_out si' 0), N1, N2 by lia.
    unfold same_reads. cbn [fst snd]. rewrite !shuffle3_count.
    assert (G : forall f g : fa, 3 <= count g -> count f = count g -> (forall p, 2 <= p -> get1 f p = get1 g p) -> forall t, get1 (shuffle3 f 0) t = get1 (shuffle3 g 0) t).
    { intros f g G1 G2 G3 t. rewrite !shuffle3_zero by lia. destruct (Z.eqb_spec t 1); [apply G3; lia|]. destruct (t =? 2); [reflexivity|].
      destruct (Z_le_gt_dec 2 t); [apply G3; lia|]. rewrite !get1_out by lia. reflexivity. }
    split; [apply G; [assumption..|apply H]|]. split; [apply G; [assumption..|apply H]|]. split; assumption.
  Qed.
End Shifts.
