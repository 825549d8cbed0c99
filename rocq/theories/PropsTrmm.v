(** C21-C23: dtrmm and flat storage.  Statements only; the proofs are in TrmmProofs.v and TrmmTop.v. *)
From Coq Require Import Ascii Reals Lra.
From Verif Require Import Base Num Array Blas Spec SpecBlas SpecR ER B64 Checks TrmmTop GemmTop.
Open Scope Z_scope.

(** ** C21 *)
(** every number type: the value of each entry, as dtrmm evaluates it *)
Theorem c21_dtrmm_fortran : forall F (NF : Num F) side uplo transa diag m n (alpha : F) (a : fa F) lda (b : fa F) ldb
    (lside upper notrans nounit : bool),
  none_bad (trmm_table side uplo transa diag m n lda ldb) ->
  (lside = true <-> letter side LL) -> (upper = true <-> letter uplo LU) ->
  (notrans = true <-> letter transa LN) -> (nounit = true <-> letter diag LN) ->
  holds_block b m n ->
  exists r, dtrmm side uplo transa diag m n alpha a lda b ldb = Ok (a, r) /\
    block_updated m n (fun i j _ => if feq alpha f0 then f0
      else trmm_entry lside upper notrans nounit m n alpha (get2 a) (get2 b) i j) b r.
Proof. exact @dtrmm_fortran. Qed.
Print Assumptions c21_dtrmm_fortran.

(** exact arithmetic: the triangular product; alpha = 0 looks at nothing *)
Theorem c21_dtrmm_exact : forall side uplo transa diag m n (alpha : R) (a : fa er) lda (b : fa er) ldb
    (lside upper notrans nounit : bool) (Am Bm : Z -> Z -> R),
  none_bad (trmm_table side uplo transa diag m n lda ldb) ->
  (lside = true <-> letter side LL) -> (upper = true <-> letter uplo LU) ->
  (notrans = true <-> letter transa LN) -> (nounit = true <-> letter diag LN) ->
  holds_block b m n ->
  (alpha <> 0%R -> mat_is b m n Bm) ->
  (alpha <> 0%R -> forall i j, 1 <= i <= (if lside then m else n) -> 1 <= j <= (if lside then m else n) ->
     in_triangle upper nounit i j -> ent a i j = Some (Fin (Am i j))) ->
  exists r, dtrmm side uplo transa diag m n (Fin alpha) a lda b ldb = Ok (a, r) /\
    mat_is r m n (fun i j =>
      if lside then (alpha * Rsum_range (fun k => tri_op notrans upper nounit Am i k * Bm k j) 1 m)%R
      else (alpha * Rsum_range (fun k => Bm i k * tri_op notrans upper nounit Am k j) 1 n)%R) /\
    same_shape r b /\
    (forall p, (forall i j, 1 <= i <= m -> 1 <= j <= n -> p <> pos (rows b) i j) -> elem r p = elem b p).
Proof. exact dtrmm_exact. Qed.
Print Assumptions c21_dtrmm_exact.

(** only the named triangle of A is referenced *)
Theorem c21_triangle_only : forall F (NF : Num F) side uplo transa diag m n (alpha : F) (a a' : fa F) lda (b : fa F) ldb
    (lside upper nounit : bool),
  none_bad (trmm_table side uplo transa diag m n lda ldb) ->
  (lside = true <-> letter side LL) -> (upper = true <-> letter uplo LU) -> (nounit = true <-> letter diag LN) ->
  holds_block b m n ->
  (forall p q, 1 <= p <= (if lside then m else n) -> 1 <= q <= (if lside then m else n) ->
     in_triangle upper nounit p q -> get2 a p q = get2 a' p q) ->
  exists r r', dtrmm side uplo transa diag m n alpha a lda b ldb = Ok (a, r) /\
    dtrmm side uplo transa diag m n alpha a' lda b ldb = Ok (a', r') /\
    data r = data r' /\ rows r = rows r' /\ cols r = cols r'.
Proof. exact @dtrmm_triangle. Qed.
Print Assumptions c21_triangle_only.

(** a right-hand, lower, transposed, unit product on a padded 3-row B; only the strict lower triangle of A is finite *)
Example c21_case :
  none_bad (trmm_table (chr "r") (chr "L") (chr "t") (chr "U") 2 2 2 3) /\
  (false = true <-> letter (chr "r") LL) /\ (false = true <-> letter (chr "L") LU) /\
  (false = true <-> letter (chr "t") LN) /\ (false = true <-> letter (chr "U") LN) /\
  let b := mkFA (map Fin [1; 2; 9; 3; 4; 9]%R) 3 2 ENaN in
  let a := mkFA [ENaN; Fin 5; PInf; ENaN] 2 2 ENaN in
  holds_block b 2 2 /\ mat_is b 2 2 (fun i j => IZR (i + 2 * (j - 1))) /\
  (forall i j, 1 <= i <= 2 -> 1 <= j <= 2 -> in_triangle false false i j -> ent a i j = Some (Fin 5)).
Proof.
  split; [unfold trmm_table, none_bad, letter; repeat constructor; cbn; lia|].
  do 4 (split; [unfold letter; cbn; split; [discriminate|lia]|]). cbv zeta.
  split; [split; cbn; lia|]. split.
  - intros i j Hi Hj. assert (E : i = 1 \/ i = 2) by lia. assert (E' : j = 1 \/ j = 2) by lia.
    destruct E as [-> | ->], E' as [-> | ->]; reflexivity.
  - intros i j Hi Hj [[_ H]|H]; [discriminate|]. assert (i = 2) by lia. assert (j = 1) by lia. subst. reflexivity.
Qed.

(** ** C22 *)
Theorem c22_frame : forall F (NF : Num F) (b : fa F) m n lside upper notrans nounit (alpha : F) a,
  let r := dtrmm_fa lside upper notrans nounit m n alpha a b in
  same_shape r b /\
  forall p, (forall i j, 1 <= i <= m -> 1 <= j <= n -> p <> pos (rows b) i j) -> elem r p = elem b p.
Proof. exact @dtrmm_fa_kept. Qed.
Print Assumptions c22_frame.

Theorem c22_a_unchanged : forall F (NF : Num F) side uplo transa diag m n (alpha : F) (a : fa F) lda (b : fa F) ldb,
  none_bad (trmm_table side uplo transa diag m n lda ldb) ->
  exists r, dtrmm side uplo transa diag m n alpha a lda b ldb = Ok (a, r) /\ same_shape r b /\
    (forall p, (forall i j, 1 <= i <= m -> 1 <= j <= n -> p <> pos (rows b) i j) -> elem r p = elem b p).
Proof. exact @dtrmm_a_unchanged. Qed.
Print Assumptions c22_a_unchanged.

Theorem c22_bad_argument : forall F (NF : Num F) A B (TA : ToFA F A) (FA : FromFA F A) (TB : ToFA F B) (FB : FromFA F B)
    side uplo transa diag m n (alpha : F) (a : A) lda (b : B) ldb i,
  first_bad (trmm_table side uplo transa diag m n lda ldb) i ->
  dtrmm side uplo transa diag m n alpha a lda b ldb = Exit "DTRMM " i.
Proof. exact @dtrmm_exit. Qed.
Print Assumptions c22_bad_argument.

(** [c20_containers]: no conversion of the crate exits *)
Theorem c22_only_bad_arguments : forall F (NF : Num F) A B (TA : ToFA F A) (FA : FromFA F A) (TB : ToFA F B) (FB : FromFA F B)
    side uplo transa diag m n (alpha : F) (a : A) lda (b : B) ldb s i,
  (forall f s i, @from_fa F A FA f <> Exit s i) -> (forall f s i, @from_fa F B FB f <> Exit s i) ->
  dtrmm side uplo transa diag m n alpha a lda b ldb = Exit s i ->
  s = "DTRMM "%string /\ first_bad (trmm_table side uplo transa diag m n lda ldb) i.
Proof. exact @dtrmm_valid. Qed.
Print Assumptions c22_only_bad_arguments.

Example c22_case : first_bad (trmm_table (chr "L") (chr "U") (chr "N") (chr "N") 3 2 2 3) 9.
Proof.
  destruct (trmm_checks (chr "L") (chr "U") (chr "N") (chr "N") 3 2 2 3) as (bt & E & M).
  apply (scan_first _ _ 9 M); [discriminate|]. rewrite <- E. reflexivity.
Qed.

(** ** C23 *)
(** dgemm honours the leading dimension (c17_dgemm_flat); dtrmm does not: only the first column of a flat B can change,
    whatever ldb is, *)
Theorem c23_dtrmm_flat_tail : forall F (NF : Num F) side uplo transa diag m n (alpha : F) (a : list F) lda (b : list F) ldb,
  none_bad (trmm_table side uplo transa diag m n lda ldb) -> m <= Z.of_nat (length b) ->
  exists r, dtrmm side uplo transa diag m n alpha a lda b ldb = Ok (a, r) /\ length r = length b /\
    forall k, (Z.to_nat m <= k)%nat -> nth_error r k = nth_error b k.
Proof. exact @dtrmm_flat_tail. Qed.
Print Assumptions c23_dtrmm_flat_tail.

(** so the flat and the FortranArray forms of one call disagree: A = [1 1; 0 1], B = I *)
Theorem c23_dtrmm_flat_refuted : forall lm, let NB := B64 lm in
  let a := [f1; f0; f1; f1] in let b := [f1; f0; f0; f1] in
  match dtrmm (chr "L") (chr "U") (chr "N") (chr "N") 2 2 f1 a 2 b 2,
        dtrmm (chr "L") (chr "U") (chr "N") (chr "N") 2 2 f1 (flat 2 a) 2 (flat 2 b) 2 with
  | Ok (_, r), Ok (_, r') => list_feq r [f1; f0; f0; f1] && list_feq (data r') [f1; f0; f1; f1]
  | _, _ => false
  end = true.
Proof. exact dtrmm_flat_wrong. Qed.
Print Assumptions c23_dtrmm_flat_refuted.

(** dgemm gives the same answer on flat storage and on the FortranArray it stands for *)
Theorem c23_dgemm_flat : forall F (NF : Num F)
    transa transb m n k (alpha : F) (a : list F) lda (b : list F) ldb beta (c : list F) ldc,
  none_bad (gemm_table transa transb m n k lda ldb ldc) ->
  exists r, dgemm transa transb m n k alpha a lda b ldb beta c ldc = Ok (data r) /\
    dgemm transa transb m n k alpha (flat lda a) lda (flat ldb b) ldb beta (flat ldc c) ldc = Ok r.
Proof. exact @dgemm_flat_same. Qed.
Print Assumptions c23_dgemm_flat.

Example c23_case : none_bad (trmm_table (chr "L") (chr "U") (chr "N") (chr "N") 2 2 2 2) /\
  none_bad (gemm_table (chr "N") (chr "N") 2 2 2 2 2 2).
Proof. split; unfold trmm_table, gemm_table, none_bad, letter; repeat constructor; cbn; lia. Qed.
