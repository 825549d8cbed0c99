(** dgemm and dtrmm by panels: an entry of the result depends on its row, its column and its old value alone; splitting the inner
    dimension of dgemm changes nothing when A is not transposed. *)
From Coq Require Import ZArith Lia Bool List Ascii String.
From Flocq Require Import IEEE754.BinarySingleNaN Core.
From Verif Require Import Base Num Array Blas Spec SpecBlas B64 Lists FaLemmas GemmProofs GemmTop TrmmProofs TrmmTop.
Import ListNotations.
Open Scope list_scope.
Open Scope Z_scope.

Section Any.
  Context {F : Type} {NF : Num F}.

  Lemma add_terms_ext x (sk sk' : Z -> bool) (t t' : Z -> F) ks :
    (forall k, In k ks -> sk k = sk' k /\ t k = t' k) -> add_terms x sk t ks = add_terms x sk' t' ks.
  Proof.
    unfold add_terms. revert x. induction ks as [|k ks IH]; intros x E; [reflexivity|]. cbn [fold_left].
    destruct (E k (or_introl eq_refl)) as [-> ->]. apply IH. intros; apply E; right; assumption.
  Qed.

  Lemma fsum_n_app x (t : Z -> F) lo a b : fsum_n x t lo (a + b) = fsum_n (fsum_n x t lo a) t (lo + Z.of_nat a) b.
  Proof.
    revert x lo. induction a as [|a IH]; intros x lo; [cbn [Nat.add fsum_n Z.of_nat]; rewrite Z.add_0_r; reflexivity|].
    cbn [Nat.add fsum_n]. rewrite IH. f_equal. lia.
  Qed.
  Lemma fsum_n_shift x (t u : Z -> F) d n : forall lo, (forall l, lo <= l < lo + Z.of_nat n -> t (l + d) = u l) -> fsum_n x t (lo + d) n = fsum_n x u lo n.
  Proof.
    revert x. induction n as [|n IH]; intros x lo E; [reflexivity|]. cbn [fsum_n]. rewrite E by lia. replace (lo + d + 1) with (lo + 1 + d) by lia.
    apply IH. intros; apply E; lia.
  Qed.
  Lemma fsum_split x (t u : Z -> F) k1 k2 : 0 <= k1 -> 0 <= k2 -> (forall l, 1 <= l <= k2 -> t (l + k1) = u l) ->
    fsum x t 1 (k1 + k2) = fsum (fsum x t 1 k1) u 1 k2.
  Proof.
    intros A B E. unfold fsum. replace (Z.to_nat (k1 + k2 - 1 + 1)) with (Z.to_nat (k1 - 1 + 1) + Z.to_nat (k2 - 1 + 1))%nat by lia.
    rewrite fsum_n_app. replace (1 + Z.of_nat (Z.to_nat (k1 - 1 + 1))) with (1 + k1) by lia. apply fsum_n_shift. intros; apply E; lia.
  Qed.

  Lemma dgemm_panel {A B A' B'} (TA : ToFA F A) (TB : ToFA F B) (TA' : ToFA F A') (TB' : ToFA F B')
      transa transb m n k (alpha : F) (a : A) lda (b : B) ldb beta (c : fa F) ldc
      transa' transb' m' n' (a' : A') lda' (b' : B') ldb' (c' : fa F) ldc' (nota notb notb' : bool) af bf af' bf' :
    none_bad (gemm_table transa transb m n k lda ldb ldc) -> none_bad (gemm_table transa' transb' m' n' k lda' ldb' ldc') ->
    (nota = true <-> letter transa LN) -> (nota = true <-> letter transa' LN) -> (notb = true <-> letter transb LN) -> (notb' = true <-> letter transb' LN) ->
    to_fa_2d a lda = Ok af -> to_fa_2d b ldb = Ok bf -> to_fa_2d a' lda' = Ok af' -> to_fa_2d b' ldb' = Ok bf' ->
    m <= rows c -> m' <= rows c' ->
    exists r r', dgemm transa transb m n k alpha a lda b ldb beta c ldc = Ok r /\
      dgemm transa' transb' m' n' k alpha a' lda' b' ldb' beta c' ldc' = Ok r' /\
      forall i j i' j', 1 <= i <= m -> 1 <= j <= n -> 1 <= i' <= m' -> 1 <= j' <= n' ->
        (forall l, 1 <= l <= k -> op nota af i l = op nota af' i' l /\ op notb bf l j = op notb' bf' l j') ->
        ent c i j = ent c' i' j' -> ent r i j = ent r' i' j'.
  Proof.
    intros V V' Na Na' Nb Nb' Ea Eb Ea' Eb' Hm Hm'.
    destruct (dgemm_fortran transa transb m n k alpha a lda b ldb beta c ldc nota notb af bf V Na Nb Ea Eb Hm) as (r & E & _ & U & _).
    destruct (dgemm_fortran transa' transb' m' n' k alpha a' lda' b' ldb' beta c' ldc' nota notb' af' bf' V' Na' Nb' Ea' Eb' Hm') as (r' & E' & _ & U' & _).
    exists r, r'. split; [exact E|]. split; [exact E'|]. intros i j i' j' Hi Hj Hi' Hj' X C. rewrite U, U' by assumption. rewrite C.
    destruct (ent c' i' j') as [x|]; [|reflexivity]. cbn [option_map]. f_equal. unfold gemm_entry.
    destruct (gemm_idle _ _ _); [reflexivity|]. destruct (feq alpha f0); [reflexivity|]. destruct nota.
    - apply fsum_ext. intros l Hl. destruct (X l Hl) as [-> ->]. reflexivity.
    - replace (fsum f0 (fun l => fmul (op false af i l) (op notb bf l j)) 1 k) with (fsum f0 (fun l => fmul (op false af' i' l) (op notb' bf' l j')) 1 k); [reflexivity|].
      apply fsum_ext. intros l Hl. destruct (X l Hl) as [-> ->]. reflexivity.
  Qed.

  (** the inner dimension in two parts, A not transposed; beta' stands for the number 1 *)
  Lemma dgemm_depth {A B A1 B1 A2 B2} (TA : ToFA F A) (TB : ToFA F B) (TA1 : ToFA F A1) (TB1 : ToFA F B1) (TA2 : ToFA F A2) (TB2 : ToFA F B2)
      transa transb transb1 transb2 m n k1 k2 (alpha beta one : F) (a : A) lda (b : B) ldb (a1 : A1) lda1 (b1 : B1) ldb1 (a2 : A2) lda2 (b2 : B2) ldb2
      (c : fa F) ldc (notb notb1 notb2 : bool) af bf af1 bf1 af2 bf2 :
    feq one f1 = true -> feq one f0 = false -> (feq beta f1 = true -> feq beta f0 = false) ->
    none_bad (gemm_table transa transb m n (k1 + k2) lda ldb ldc) -> none_bad (gemm_table transa transb1 m n k1 lda1 ldb1 ldc) ->
    none_bad (gemm_table transa transb2 m n k2 lda2 ldb2 ldc) ->
    letter transa LN -> (notb = true <-> letter transb LN) -> (notb1 = true <-> letter transb1 LN) -> (notb2 = true <-> letter transb2 LN) ->
    to_fa_2d a lda = Ok af -> to_fa_2d b ldb = Ok bf -> to_fa_2d a1 lda1 = Ok af1 -> to_fa_2d b1 ldb1 = Ok bf1 -> to_fa_2d a2 lda2 = Ok af2 -> to_fa_2d b2 ldb2 = Ok bf2 ->
    (forall i l, 1 <= i <= m -> 1 <= l <= k1 -> get2 af i l = get2 af1 i l) -> (forall i l, 1 <= i <= m -> 1 <= l <= k2 -> get2 af i (l + k1) = get2 af2 i l) ->
    (forall l j, 1 <= l <= k1 -> 1 <= j <= n -> op notb bf l j = op notb1 bf1 l j) -> (forall l j, 1 <= l <= k2 -> 1 <= j <= n -> op notb bf (l + k1) j = op notb2 bf2 l j) ->
    m <= rows c ->
    exists r r1 r2, dgemm transa transb m n (k1 + k2) alpha a lda b ldb beta c ldc = Ok r /\
      dgemm transa transb1 m n k1 alpha a1 lda1 b1 ldb1 beta c ldc = Ok r1 /\
      dgemm transa transb2 m n k2 alpha a2 lda2 b2 ldb2 one r1 ldc = Ok r2 /\
      data r2 = data r /\ rows r2 = rows r /\ cols r2 = cols r.
  Proof.
    intros O1 O0 LW V V1 V2 La Nb Nb1 Nb2 Ea Eb Ea1 Eb1 Ea2 Eb2 XA1 XA2 XB1 XB2 Hm.
    assert (Na : true = true <-> letter transa LN) by tauto.
    assert (K : 0 <= m /\ 0 <= n /\ 0 <= k1 /\ 0 <= k2) by (apply none_bad_bounds in V1, V2; lia). destruct K as (Km & Kn & K1 & K2).
    destruct (dgemm_fortran transa transb m n (k1 + k2) alpha a lda b ldb beta c ldc true notb af bf V Na Nb Ea Eb Hm) as (r & E & (R & C & N) & U & O).
    destruct (dgemm_fortran transa transb1 m n k1 alpha a1 lda1 b1 ldb1 beta c ldc true notb1 af1 bf1 V1 Na Nb1 Ea1 Eb1 Hm) as (r1 & E1 & (R1 & C1 & N1) & U1 & Q1).
    destruct (dgemm_fortran transa transb2 m n k2 alpha a2 lda2 b2 ldb2 one r1 ldc true notb2 af2 bf2 V2 Na Nb2 Ea2 Eb2 ltac:(lia)) as (r2 & E2 & (R2 & C2 & N2) & U2 & Q2).
    exists r, r1, r2. split; [exact E|]. split; [exact E1|]. split; [exact E2|]. split; [|split; congruence].
    assert (YA1 : forall i l, 1 <= i <= m -> 1 <= l <= k1 -> op true af i l = op true af1 i l) by exact XA1.
    assert (YA2 : forall i l, 1 <= i <= m -> 1 <= l <= k2 -> op true af i (l + k1) = op true af2 i l) by exact XA2.
    assert (G : forall i j x, 1 <= i <= m -> 1 <= j <= n ->
      gemm_entry true notb2 k2 alpha one af2 bf2 i j (gemm_entry true notb1 k1 alpha beta af1 bf1 i j x) = gemm_entry true notb (k1 + k2) alpha beta af bf i j x).
    { intros i j x Hi Hj. unfold gemm_entry, gemm_idle. rewrite O1. destruct (feq alpha f0) eqn:A0; cbn [orb andb]; [reflexivity|]. cbv iota.
      assert (S1 : feq beta f1 = true -> scaled beta x = x) by (intros HB1; unfold scaled; rewrite (LW HB1), HB1; reflexivity).
      rewrite (fsum_split (scaled beta x) (fun l => fmul (fmul alpha (op notb bf l j)) (op true af i l)) (fun l => fmul (fmul alpha (op notb2 bf2 l j)) (op true af2 i l)) k1 k2 K1 K2)
        by (intros l Hl; cbv beta; rewrite XB2, YA2 by assumption; reflexivity).
      rewrite (fsum_ext (scaled beta x) (fun l => fmul (fmul alpha (op notb bf l j)) (op true af i l)) (fun l => fmul (fmul alpha (op notb1 bf1 l j)) (op true af1 i l)) 1 k1)
        by (intros l Hl; cbv beta; rewrite XB1, YA1 by assumption; reflexivity).
      assert (S2 : forall y, scaled one y = y) by (intros y; unfold scaled; rewrite O0, O1; reflexivity). rewrite S2.
      destruct (Z.eqb_spec k1 0) as [->|]; cbn [andb].
      - rewrite !(fsum_nil _ _ 1 0) by lia. destruct (Z.eqb_spec k2 0) as [->|]; cbn [andb].
        + change (0 + 0 =? 0) with true. cbn [andb]. reflexivity.
        + replace (0 + k2 =? 0) with false by lia. cbn [andb]. destruct (feq beta f1); [rewrite S1 by reflexivity|]; reflexivity.
      - replace (k1 + k2 =? 0) with false by lia. cbn [andb]. destruct (Z.eqb_spec k2 0) as [->|]; cbn [andb]; [rewrite (fsum_nil _ _ 1 0) by lia|]; reflexivity. }
    apply elem_ext. intros p Hp.
    destruct (Z_lt_le_dec (rows c) 1). { rewrite Q2, Q1, O by (intros; lia). reflexivity. }
    destruct (pos_surj (rows c) p ltac:(lia) ltac:(lia)) as (i & j & Hi & Hj & EP).
    assert (D : (i <= m /\ j <= n) \/ (m < i \/ n < j)) by lia. destruct D as [[Di Dj]|D].
    - specialize (U i j ltac:(lia) ltac:(lia)). specialize (U1 i j ltac:(lia) ltac:(lia)). specialize (U2 i j ltac:(lia) ltac:(lia)).
      unfold ent in U, U1, U2. rewrite R, EP in U. rewrite R1, EP in U1. rewrite R2, R1, EP in U2. rewrite U2, U1, U.
      destruct (elem c p); [|reflexivity]. cbn [option_map]. f_equal. apply G; lia.
    - assert (X : forall i' j', 1 <= i' <= m -> 1 <= j' <= n -> p <> pos (rows c) i' j').
      { intros i' j' Hi' Hj' X. rewrite <- EP in X. apply pos_inj in X; lia. }
      rewrite Q2, Q1, O; [reflexivity|..]; try rewrite R1; exact X.
  Qed.

  Lemma dtrmm_panel side uplo transa diag m n (alpha : F) (a : fa F) lda (b : fa F) ldb m' n' (a' : fa F) lda' (b' : fa F) ldb' (lside upper notrans nounit : bool) :
    none_bad (trmm_table side uplo transa diag m n lda ldb) -> none_bad (trmm_table side uplo transa diag m' n' lda' ldb') ->
    (lside = true <-> letter side LL) -> (upper = true <-> letter uplo LU) ->
    (notrans = true <-> letter transa LN) -> (nounit = true <-> letter diag LN) ->
    holds_block b m n -> holds_block b' m' n' ->
    (if lside then m = m' else n = n') ->
    (forall p q, 1 <= p <= (if lside then m else n) -> 1 <= q <= (if lside then m else n) -> in_triangle upper nounit p q -> get2 a p q = get2 a' p q) ->
    exists r r', dtrmm side uplo transa diag m n alpha a lda b ldb = Ok (a, r) /\ dtrmm side uplo transa diag m' n' alpha a' lda' b' ldb' = Ok (a', r') /\
      forall i j i' j', 1 <= i <= m -> 1 <= j <= n -> 1 <= i' <= m' -> 1 <= j' <= n' ->
        (if lside then i = i' /\ forall k, 1 <= k <= m -> ent b k j = ent b' k j' else j = j' /\ forall k, 1 <= k <= n -> ent b i k = ent b' i' k) ->
        ent r i j = ent r' i' j'.
  Proof.
    intros V V' Ns Nu Nt Nd Hb Hb' HD XA.
    destruct (dtrmm_fortran side uplo transa diag m n alpha a lda b ldb lside upper notrans nounit V Ns Nu Nt Nd Hb) as (r & E & _ & U & _).
    destruct (dtrmm_fortran side uplo transa diag m' n' alpha a' lda' b' ldb' lside upper notrans nounit V' Ns Nu Nt Nd Hb') as (r' & E' & _ & U' & _).
    exists r, r'. split; [exact E|]. split; [exact E'|]. intros i j i' j' Hi Hj Hi' Hj' X. rewrite U, U' by assumption.
    assert (EB : ent b i j = ent b' i' j') by (destruct lside; destruct X as [-> X]; apply X; lia). rewrite EB.
    destruct (ent b' i' j') as [x|]; [|reflexivity]. cbn [option_map]. f_equal. destruct (feq alpha f0); [reflexivity|].
    destruct lside; destruct X as [<- X]; subst; unfold trmm_entry.
    - assert (XB : forall k, 1 <= k <= m' -> get2 b k j = get2 b' k j') by (intros k Hk; rewrite !get2_ent, X by exact Hk; reflexivity).
      assert (DA : nounit = true -> get2 a i i = get2 a' i i) by (intros; apply XA; [lia|lia|left; auto]).
      destruct notrans.
      + rewrite XB by lia. replace (if nounit then fmul (fmul alpha (get2 b' i j')) (get2 a i i) else fmul alpha (get2 b' i j'))
          with (if nounit then fmul (fmul alpha (get2 b' i j')) (get2 a' i i) else fmul alpha (get2 b' i j')) by (destruct nounit; [rewrite DA|]; reflexivity).
        apply add_terms_ext. intros k Hk. destruct upper; [apply in_range in Hk|apply in_range_rev in Hk]; rewrite XB, XA by (try lia; right; lia); auto.
      + f_equal. rewrite XB by lia. replace (if nounit then fmul (get2 b' i j') (get2 a i i) else get2 b' i j')
          with (if nounit then fmul (get2 b' i j') (get2 a' i i) else get2 b' i j') by (destruct nounit; [rewrite DA|]; reflexivity).
        apply add_terms_ext. intros k Hk. destruct upper; apply in_range in Hk; rewrite XB, XA by (try lia; right; lia); auto.
    - assert (XB : forall k, 1 <= k <= n' -> get2 b i k = get2 b' i' k) by (intros k Hk; rewrite !get2_ent, X by exact Hk; reflexivity).
      assert (DA : nounit = true -> get2 a j j = get2 a' j j) by (intros; apply XA; [lia|lia|left; auto]).
      assert (DB : (if nounit then fmul alpha (get2 a j j) else alpha) = (if nounit then fmul alpha (get2 a' j j) else alpha)) by (destruct nounit; [rewrite DA|]; reflexivity).
      rewrite DB. destruct notrans.
      + rewrite XB by lia. apply add_terms_ext. intros k Hk. destruct upper; apply in_range in Hk; rewrite XB, XA by (try lia; right; lia); auto.
      + rewrite XB by lia. apply add_terms_ext. intros k Hk. destruct upper; [apply in_range in Hk|apply in_range_rev in Hk]; rewrite XB, XA by (try lia; right; lia); auto.
  Qed.
End Any.

Section F64.
  Context (lm : libm).
  #[local] Instance NBpan : Num b64 := B64 lm.
  Lemma depth_laws : feq (f1 : b64) f1 = true /\ feq (f1 : b64) f0 = false /\ forall beta : b64, feq beta f1 = true -> feq beta f0 = false.
  Proof.
    split; [vm_compute; reflexivity|]. split; [vm_compute; reflexivity|].
    intros beta. destruct beta as [s|s| |s m e H]; [destruct s; vm_compute; discriminate|destruct s; vm_compute; discriminate|vm_compute; discriminate|]. intros _. destruct s; reflexivity.
  Qed.

  Lemma depth_transposed :
    let d m := b64_dy m 0 in let v l := mkFA l (zlen l) 1 (d 0) in let c := v [b64_dy 1 (-60)] in
    match dgemm (chr "T") (chr "N") 1 1 2 (d 1) (v [d 1; d (-1)]) 2 (v [d 1; d 1]) 2 (d 1) c 1 with Ok r => feq (get2 r 1 1) (b64_dy 1 (-60)) | _ => false end = true /\
    match r1 <- dgemm (chr "T") (chr "N") 1 1 1 (d 1) (v [d 1]) 1 (v [d 1]) 1 (d 1) c 1 ;;
          dgemm (chr "T") (chr "N") 1 1 1 (d 1) (v [d (-1)]) 1 (v [d 1]) 1 (d 1) r1 1 with Ok r => feq (get2 r 1 1) (d 0) | _ => false end = true.
  Proof. cbv zeta. split; vm_compute; reflexivity. Qed.
End F64.

(** the product ((1,2),(3,4)) * ((5,6),(7,8)) in one call, and its second row times the second column alone, B given transposed;
    and the columns of A one at a time *)
Lemma panel_hyps {F} {NF : Num F} : let d m := fdy m 0 in
  let a := mkFA [d 1; d 3; d 2; d 4] 2 2 (d 0) in let b := mkFA [d 5; d 7; d 6; d 8] 2 2 (d 0) in let c := mkFA [d 9; d 9; d 9; d 9] 2 2 (d 0) in
  let a' := mkFA [d 3; d 4] 1 2 (d 0) in let b' := mkFA [d 6; d 8] 1 2 (d 0) in let c' := mkFA [d 9] 1 1 (d 0) in
  (none_bad (gemm_table (chr "N") (chr "N") 2 2 2 2 2 2) /\ none_bad (gemm_table (chr "N") (chr "T") 1 1 2 1 1 1) /\
    letter (chr "N") LN /\ (false = true <-> letter (chr "T") LN) /\
    (forall l, 1 <= l <= 2 -> op true a 2 l = op true a' 1 l /\ op true b l 2 = op false b' l 1) /\ ent c 2 2 = ent c' 1 1) /\
  (let a1 := mkFA [d 1; d 3] 2 1 (d 0) in let a2 := mkFA [d 2; d 4] 2 1 (d 0) in let b1 := mkFA [d 5; d 6] 1 2 (d 0) in let b2 := mkFA [d 7; d 8] 1 2 (d 0) in
    none_bad (gemm_table (chr "N") (chr "N") 2 2 1 2 1 2) /\
    (forall i l, 1 <= i <= 2 -> 1 <= l <= 1 -> get2 a i l = get2 a1 i l /\ get2 a i (l + 1) = get2 a2 i l) /\
    (forall l j, 1 <= l <= 1 -> 1 <= j <= 2 -> op true b l j = op true b1 l j /\ op true b (l + 1) j = op true b2 l j)).
Proof.
  cbv zeta. split.
  - split; [unfold gemm_table, none_bad, letter; repeat constructor; cbn; lia|]. split; [unfold gemm_table, none_bad, letter; repeat constructor; cbn; lia|].
    split; [unfold letter; cbn; lia|]. split; [unfold letter; cbn; split; [discriminate|lia]|]. split; [|reflexivity].
    intros l Hl. assert (l = 1 \/ l = 2) as [->| ->] by lia; split; reflexivity.
  - split; [unfold gemm_table, none_bad, letter; repeat constructor; cbn; lia|]. split.
    + intros i l Hi Hl. assert (l = 1) as -> by lia. assert (i = 1 \/ i = 2) as [->| ->] by lia; split; reflexivity.
    + intros l j Hl Hj. assert (l = 1) as -> by lia. assert (j = 1 \/ j = 2) as [->| ->] by lia; split; reflexivity.
Qed.

(** the columns of a 2-by-2 B one at a time, A = ((1,2),(x,3)) upper triangular with any x below the diagonal *)
Lemma trmm_panel_hyps {F} {NF : Num F} (x y : F) : let d m := fdy m 0 in
  let a := mkFA [d 1; x; d 2; d 3] 2 2 (d 0) in let a' := mkFA [d 1; y; d 2; d 3] 2 2 (d 0) in
  let b := mkFA [d 5; d 7; d 6; d 8] 2 2 (d 0) in let b' := mkFA [d 6; d 8] 2 1 (d 0) in
  none_bad (trmm_table (chr "L") (chr "U") (chr "N") (chr "N") 2 2 2 2) /\ none_bad (trmm_table (chr "L") (chr "U") (chr "N") (chr "N") 2 1 2 2) /\
  holds_block b 2 2 /\ holds_block b' 2 1 /\
  (forall p q, 1 <= p <= 2 -> 1 <= q <= 2 -> in_triangle true true p q -> get2 a p q = get2 a' p q) /\
  (forall k, 1 <= k <= 2 -> ent b k 2 = ent b' k 1).
Proof.
  cbv zeta. split; [unfold trmm_table, none_bad, letter; repeat constructor; cbn; lia|]. split; [unfold trmm_table, none_bad, letter; repeat constructor; cbn; lia|].
  split; [split; cbn; lia|]. split; [split; cbn; lia|]. split.
  - intros p q Hp Hq T. assert (p = 1 \/ p = 2) as [->| ->] by lia; assert (q = 1 \/ q = 2) as [->| ->] by lia; try reflexivity. unfold in_triangle in T. lia.
  - intros k Hk. assert (k = 1 \/ k = 2) as [->| ->] by lia; reflexivity.
Qed.
