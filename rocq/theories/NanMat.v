(** NaN in the operands of dgemm and dtrmm, in binary64. *)
From Coq Require Import Ascii.
From Verif Require Import Base Num Lists Array Blas Spec SpecBlas SpecNan B64 FaLemmas GemmTop TrmmTop.
From Flocq Require Import IEEE754.BinarySingleNaN.
Open Scope Z_scope.

Section Nan.
  Variable lm : libm.
  #[local] Instance NB : Num b64 := B64 lm.
  Notation nan := (B754_nan : b64).

  Lemma nadd_l (x : b64) : fadd nan x = nan. Proof. destruct x; reflexivity. Qed.
  Lemma nadd_r (x : b64) : fadd x nan = nan. Proof. destruct x; reflexivity. Qed.
  Lemma nmul_l (x : b64) : fmul nan x = nan. Proof. destruct x; reflexivity. Qed.
  Lemma nmul_r (x : b64) : fmul x nan = nan. Proof. destruct x; reflexivity. Qed.
  Lemma neq_l (x : b64) : feq nan x = false. Proof. destruct x; reflexivity. Qed.

  Lemma fsum_n_nan n : forall t lo, fsum_n nan t lo n = nan.
  Proof. induction n; intros t lo; cbn [fsum_n]; [reflexivity|]. rewrite nadd_l. apply IHn. Qed.
  Lemma fsum_nan_x t lo hi : fsum nan t lo hi = nan.
  Proof. apply fsum_n_nan. Qed.
  Lemma fsum_n_term n : forall x t lo l, lo <= l < lo + Z.of_nat n -> t l = nan -> fsum_n x t lo n = nan.
  Proof.
    induction n; intros x t lo l Hl E; cbn [fsum_n]; [lia|].
    destruct (Z.eq_dec l lo) as [->|Hne]; [rewrite E, nadd_r; apply fsum_n_nan|].
    apply IHn with l; [lia|exact E].
  Qed.
  Lemma fsum_term x t lo hi l : lo <= l <= hi -> t l = nan -> fsum x t lo hi = nan.
  Proof. intros H E. apply fsum_n_term with l; [lia|exact E]. Qed.

  Lemma gemm_entry_ab nota notb k alpha beta (a b : fa b64) i j x l :
    feq alpha f0 = false -> 1 <= l <= k -> op nota a i l = nan \/ op notb b l j = nan ->
    gemm_entry nota notb k alpha beta a b i j x = nan.
  Proof.
    intros Ha Hl H. unfold gemm_entry, gemm_idle. rewrite Ha. rewrite (proj2 (Z.eqb_neq k 0)) by lia. cbn [orb andb].
    destruct nota.
    - apply fsum_term with l; [lia|]. destruct H as [-> | ->]; rewrite ?nmul_r, ?nmul_l; reflexivity.
    - assert (E : fsum f0 (fun l => fmul (op false a i l) (op notb b l j)) 1 k = nan).
      { apply fsum_term with l; [lia|]. destruct H as [-> | ->]; rewrite ?nmul_r, ?nmul_l; reflexivity. }
      cbv zeta. rewrite E, nmul_r. destruct (feq beta f0); rewrite ?nadd_l; reflexivity.
  Qed.
  Lemma gemm_entry_c nota notb k alpha beta (a b : fa b64) i j :
    feq beta f0 = false -> gemm_entry nota notb k alpha beta a b i j nan = nan.
  Proof.
    intros Hb. unfold gemm_entry, scaled. rewrite Hb. destruct (gemm_idle k alpha beta); [reflexivity|].
    rewrite nmul_l, nmul_r. destruct (feq alpha f0); [reflexivity|].
    destruct nota; [destruct (feq beta f1); apply fsum_nan_x|]. cbv zeta. apply nadd_r.
  Qed.

  Theorem dgemm_nan A B (TA : ToFA b64 A) (TB : ToFA b64 B) transa transb m n k (alpha : b64) (a : A) lda (b : B) ldb beta
      (c : fa b64) ldc (nota notb : bool) af bf i j :
    none_bad (gemm_table transa transb m n k lda ldb ldc) ->
    (nota = true <-> letter transa LN) -> (notb = true <-> letter transb LN) ->
    to_fa_2d a lda = Ok af -> to_fa_2d b ldb = Ok bf ->
    holds_block c m n -> 1 <= i <= m -> 1 <= j <= n ->
    (feq alpha f0 = false /\ exists l, 1 <= l <= k /\ (op nota af i l = nan \/ op notb bf l j = nan)) \/
    (feq beta f0 = false /\ ent c i j = Some nan) ->
    exists c', dgemm transa transb m n k alpha a lda b ldb beta c ldc = Ok c' /\ ent c' i j = Some nan.
  Proof.
    intros Hv Na Nb Ea Eb Hc Hi Hj H.
    destruct (dgemm_fortran transa transb m n k alpha a lda b ldb beta c ldc nota notb af bf Hv Na Nb Ea Eb (proj1 Hc))
      as [c' [E [_ [U _]]]].
    exists c'. split; [exact E|]. rewrite U by assumption.
    assert (P : exists x, ent c i j = Some x).
    { destruct Hc as [Hc1 Hc2]. unfold ent. apply elem_Some. unfold pos in *. nia. }
    destruct P as [x P].
    destruct H as [[Ha [l [Hl H]]]|[Hb H]].
    - rewrite P. cbn [option_map]. f_equal. apply gemm_entry_ab with l; assumption.
    - rewrite H. cbn [option_map]. f_equal. apply gemm_entry_c; assumption.
  Qed.

  (** dtrmm *)
  Lemma add_terms_x skip t ks : @add_terms b64 NB nan skip t ks = nan.
  Proof.
    unfold add_terms. induction ks as [|k ks IH]; cbn [fold_left]; [reflexivity|].
    destruct (skip k); rewrite ?nadd_l; exact IH.
  Qed.
  Lemma add_terms_t skip t ks k : In k ks -> skip k = false -> t k = nan -> forall x, @add_terms b64 NB x skip t ks = nan.
  Proof.
    intros Hk Hs Ht. unfold add_terms. induction ks as [|k' ks IH]; intros x; [destruct Hk|].
    cbn [fold_left]. destruct Hk as [->|Hk]; [|apply IH; exact Hk].
    rewrite Hs, Ht, nadd_r. apply add_terms_x.
  Qed.

  Lemma trmm_entry_b_left upper notrans nounit m n alpha (a X : Z -> Z -> b64) i j k :
    1 <= i <= m -> 1 <= k <= m -> k = i \/ at_op notrans i k (in_triangle upper nounit) -> X k j = nan ->
    trmm_entry true upper notrans nounit m n alpha a X i j = nan.
  Proof.
    intros Hi Hk Hp E. unfold trmm_entry.
    destruct (Z.eq_dec k i) as [->|Hne].
    - rewrite E, neq_l. destruct notrans, nounit; rewrite ?nmul_r, ?nmul_l, add_terms_x, ?nmul_r; reflexivity.
    - destruct Hp as [Hp|Hp]; [lia|]. unfold at_op, in_triangle in Hp.
      destruct notrans.
      + apply add_terms_t with k.
        * destruct Hp as [[Hp _]|Hp]; [lia|]. destruct upper; [apply in_range|apply in_range_rev]; lia.
        * rewrite E. apply neq_l.
        * rewrite E, nmul_r. apply nmul_l.
      + rewrite (add_terms_t _ _ _ k).
        * apply nmul_r.
        * destruct Hp as [[Hp _]|Hp]; [lia|]. destruct upper; apply in_range; lia.
        * reflexivity.
        * rewrite E. apply nmul_r.
  Qed.

  Lemma trmm_entry_a_left_t upper nounit m n alpha (a X : Z -> Z -> b64) i j k :
    1 <= i <= m -> 1 <= k <= m -> in_triangle upper nounit k i -> a k i = nan ->
    trmm_entry true upper false nounit m n alpha a X i j = nan.
  Proof.
    intros Hi Hk Hp E. unfold trmm_entry. destruct Hp as [[-> ->]|Hp].
    - rewrite E, nmul_r, add_terms_x. apply nmul_r.
    - rewrite (add_terms_t _ _ _ k).
      + apply nmul_r.
      + destruct upper; apply in_range; lia.
      + reflexivity.
      + rewrite E. apply nmul_l.
  Qed.
  Lemma trmm_entry_a_left_n upper nounit m n alpha (a X : Z -> Z -> b64) i j k :
    1 <= i <= m -> 1 <= k <= m -> in_triangle upper nounit i k -> a i k = nan -> feq (X k j) f0 = false ->
    trmm_entry true upper true nounit m n alpha a X i j = nan.
  Proof.
    intros Hi Hk Hp E Z0. unfold trmm_entry. destruct Hp as [[-> ->]|Hp].
    - rewrite Z0, E, nmul_r. apply add_terms_x.
    - apply add_terms_t with k.
      + destruct upper; [apply in_range|apply in_range_rev]; lia.
      + exact Z0.
      + rewrite E. apply nmul_r.
  Qed.

  Lemma trmm_entry_a_right upper notrans nounit m n alpha (a X : Z -> Z -> b64) i j k :
    1 <= j <= n -> 1 <= k <= n -> at_op notrans k j (in_triangle upper nounit) -> at_op notrans k j (fun p q => a p q = nan) ->
    trmm_entry false upper notrans nounit m n alpha a X i j = nan.
  Proof.
    intros Hj Hk Hp E. unfold trmm_entry, at_op in *. destruct notrans.
    - destruct Hp as [[-> ->]|Hp].
      + rewrite E, nmul_r, nmul_l. apply add_terms_x.
      + apply add_terms_t with k.
        * destruct upper; apply in_range; lia.
        * rewrite E. apply neq_l.
        * rewrite E, nmul_r. apply nmul_l.
    - destruct Hp as [[-> ->]|Hp].
      + cbv zeta. rewrite E, nmul_r, neq_l, nmul_l. apply add_terms_x.
      + apply add_terms_t with k.
        * destruct upper; [apply in_range|apply in_range_rev]; lia.
        * rewrite E. apply neq_l.
        * rewrite E, nmul_r. apply nmul_l.
  Qed.
  Lemma trmm_entry_b_right upper notrans nounit m n alpha (a X : Z -> Z -> b64) i j k :
    1 <= j <= n -> 1 <= k <= n ->
    k = j \/ (at_op notrans k j (in_triangle upper nounit) /\ at_op notrans k j (fun p q => feq (a p q) f0 = false)) ->
    X i k = nan ->
    trmm_entry false upper notrans nounit m n alpha a X i j = nan.
  Proof.
    intros Hj Hk Hp E. unfold trmm_entry, at_op in *.
    destruct (Z.eq_dec k j) as [->|Hne].
    - cbv zeta. rewrite E, !nmul_r. destruct notrans; [apply add_terms_x|].
      destruct (feq _ f1); apply add_terms_x.
    - destruct Hp as [Hp|[Hp Z0]]; [lia|]. destruct notrans.
      + destruct Hp as [[Hp _]|Hp]; [lia|]. apply add_terms_t with k.
        * destruct upper; apply in_range; lia.
        * exact Z0.
        * rewrite E. apply nmul_r.
      + destruct Hp as [[Hp _]|Hp]; [lia|]. apply add_terms_t with k.
        * destruct upper; [apply in_range|apply in_range_rev]; lia.
        * exact Z0.
        * rewrite E. apply nmul_r.
  Qed.

  Lemma trmm_entry_poisoned lside upper notrans nounit m n alpha (a X : Z -> Z -> b64) i j k :
    1 <= i <= m -> 1 <= j <= n -> poisons nan lside upper notrans nounit m n a X i j k ->
    trmm_entry lside upper notrans nounit m n alpha a X i j = nan.
  Proof.
    intros Hi Hj H. unfold poisons in H. destruct lside.
    - destruct H as [Hk [[H E]|[H [E Z0]]]].
      + eapply trmm_entry_b_left; eassumption.
      + unfold at_op in *. destruct notrans.
        * eapply trmm_entry_a_left_n; eauto.
        * eapply trmm_entry_a_left_t; eassumption.
    - destruct H as [Hk [[H E]|[H E]]].
      + eapply trmm_entry_a_right; eassumption.
      + eapply trmm_entry_b_right; eassumption.
  Qed.

  Theorem dtrmm_nan side uplo transa diag m n (alpha : b64) (a : fa b64) lda (b : fa b64) ldb
      (lside upper notrans nounit : bool) i j k :
    none_bad (trmm_table side uplo transa diag m n lda ldb) ->
    (lside = true <-> letter side LL) -> (upper = true <-> letter uplo LU) ->
    (notrans = true <-> letter transa LN) -> (nounit = true <-> letter diag LN) ->
    holds_block b m n -> 1 <= i <= m -> 1 <= j <= n -> feq alpha f0 = false ->
    poisons nan lside upper notrans nounit m n (get2 a) (get2 b) i j k ->
    exists r, dtrmm side uplo transa diag m n alpha a lda b ldb = Ok (a, r) /\ ent r i j = Some nan.
  Proof.
    intros Hv Hs Hu Ht Hd Hb Hi Hj Ha H.
    destruct (dtrmm_fortran side uplo transa diag m n alpha a lda b ldb lside upper notrans nounit Hv Hs Hu Ht Hd Hb)
      as [r [E [_ [U _]]]].
    exists r. split; [exact E|]. rewrite U by assumption. rewrite Ha.
    assert (P : exists x, ent b i j = Some x).
    { destruct Hb as [H1 H2]. unfold ent. apply elem_Some. unfold pos in *. nia. }
    destruct P as [x ->]. cbn [option_map]. f_equal. eapply trmm_entry_poisoned; eassumption.
  Qed.

  (** the other factor zero: the NaN disappears (NaN times 0 is NaN) *)
  Theorem dtrmm_hides :
    (let a := mkFA [b64_dy 1 0; b64_dy 0 0; nan; b64_dy 1 0] 2 2 (b64_dy 0 0) in
     let b := mkFA [b64_dy 3 0; b64_dy 0 0] 2 1 (b64_dy 0 0) in
     get2 a 1 2 = nan /\
     match dtrmm (chr "L") (chr "U") (chr "N") (chr "N") 2 1 (b64_dy 1 0) a 2 b 2 with
     | Ok (_, r) => list_feq (data r) [b64_dy 3 0; b64_dy 0 0] | _ => false end = true /\
     match dgemm (chr "N") (chr "N") 2 1 2 (b64_dy 1 0) a 2 b 2 (b64_dy 0 0) b 2 with
     | Ok r => is_nan (get2 r 1 1) | _ => false end = true) /\
    (let a := mkFA [b64_dy 1 0; b64_dy 0 0; b64_dy 0 0; b64_dy 1 0] 2 2 (b64_dy 0 0) in
     let b := mkFA [nan; b64_dy 3 0] 1 2 (b64_dy 0 0) in
     get2 b 1 1 = nan /\
     match dtrmm (chr "R") (chr "U") (chr "N") (chr "N") 1 2 (b64_dy 1 0) a 2 b 1 with
     | Ok (_, r) => feq (get2 r 1 2) (b64_dy 3 0) | _ => false end = true /\
     match dgemm (chr "N") (chr "N") 1 2 2 (b64_dy 1 0) b 1 a 2 (b64_dy 0 0) b 1 with
     | Ok r => is_nan (get2 r 1 2) | _ => false end = true).
  Proof. cbv zeta. repeat split; vm_compute; reflexivity. Qed.
End Nan.
