(** C58: NaN in the operands of dgemm and dtrmm.  Statements only. *)
From Coq Require Import Ascii.
From Verif Require Import Base Num Array Blas Spec SpecBlas SpecNan B64 NanMat.
From Flocq Require Import IEEE754.BinarySingleNaN.
Open Scope Z_scope.

(** ** C58 *)
(** dgemm: a NaN in row i of op(A) or column j of op(B) (alpha not 0), or in C(i,j) (beta not 0), makes entry (i,j) NaN *)
Theorem c58_dgemm : forall lm, let NB : Num b64 := B64 lm in
  forall A B (TA : ToFA b64 A) (TB : ToFA b64 B) transa transb m n k (alpha : b64) (a : A) lda (b : B) ldb beta
    (c : fa b64) ldc (nota notb : bool) af bf i j,
  none_bad (gemm_table transa transb m n k lda ldb ldc) ->
  (nota = true <-> letter transa LN) -> (notb = true <-> letter transb LN) ->
  to_fa_2d a lda = Ok af -> to_fa_2d b ldb = Ok bf ->
  holds_block c m n -> 1 <= i <= m -> 1 <= j <= n ->
  (feq alpha f0 = false /\ exists l, 1 <= l <= k /\ (op nota af i l = B754_nan \/ op notb bf l j = B754_nan)) \/
  (feq beta f0 = false /\ ent c i j = Some B754_nan) ->
  exists c', dgemm transa transb m n k alpha a lda b ldb beta c ldc = Ok c' /\ ent c' i j = Some B754_nan.
Proof. exact dgemm_nan. Qed.
Print Assumptions c58_dgemm.

(** dtrmm: the same for the terms it does not skip *)
Theorem c58_dtrmm : forall lm, let NB : Num b64 := B64 lm in
  forall side uplo transa diag m n (alpha : b64) (a : fa b64) lda (b : fa b64) ldb
    (lside upper notrans nounit : bool) i j k,
  none_bad (trmm_table side uplo transa diag m n lda ldb) ->
  (lside = true <-> letter side LL) -> (upper = true <-> letter uplo LU) ->
  (notrans = true <-> letter transa LN) -> (nounit = true <-> letter diag LN) ->
  holds_block b m n -> 1 <= i <= m -> 1 <= j <= n -> feq alpha f0 = false ->
  poisons B754_nan lside upper notrans nounit m n (get2 a) (get2 b) i j k ->
  exists r, dtrmm side uplo transa diag m n alpha a lda b ldb = Ok (a, r) /\ ent r i j = Some B754_nan.
Proof. exact dtrmm_nan. Qed.
Print Assumptions c58_dtrmm.

(** a NaN of A beside a zero of B (left side, not transposed) and a NaN of B beside a zero of A (right side) vanish in dtrmm;
    dgemm gives NaN for the same product *)
Theorem c58_dtrmm_refuted : forall lm, let NB : Num b64 := B64 lm in
  (let a := mkFA [b64_dy 1 0; b64_dy 0 0; B754_nan; b64_dy 1 0] 2 2 (b64_dy 0 0) in
   let b := mkFA [b64_dy 3 0; b64_dy 0 0] 2 1 (b64_dy 0 0) in
   get2 a 1 2 = B754_nan /\
   match dtrmm (chr "L") (chr "U") (chr "N") (chr "N") 2 1 (b64_dy 1 0) a 2 b 2 with
   | Ok (_, r) => list_feq (data r) [b64_dy 3 0; b64_dy 0 0] | _ => false end = true /\
   match dgemm (chr "N") (chr "N") 2 1 2 (b64_dy 1 0) a 2 b 2 (b64_dy 0 0) b 2 with
   | Ok r => is_nan (get2 r 1 1) | _ => false end = true) /\
  (let a := mkFA [b64_dy 1 0; b64_dy 0 0; b64_dy 0 0; b64_dy 1 0] 2 2 (b64_dy 0 0) in
   let b := mkFA [B754_nan; b64_dy 3 0] 1 2 (b64_dy 0 0) in
   get2 b 1 1 = B754_nan /\
   match dtrmm (chr "R") (chr "U") (chr "N") (chr "N") 1 2 (b64_dy 1 0) a 2 b 1 with
   | Ok (_, r) => feq (get2 r 1 2) (b64_dy 3 0) | _ => false end = true /\
   match dgemm (chr "N") (chr "N") 1 2 2 (b64_dy 1 0) b 1 a 2 (b64_dy 0 0) b 1 with
   | Ok r => is_nan (get2 r 1 2) | _ => false end = true).
Proof. exact dtrmm_hides. Qed.
Print Assumptions c58_dtrmm_refuted.

(** left, upper, transposed, non-unit: op(A)(2,1) = A(1,2) is NaN and B(1,1) = 0; entry (2,1) is poisoned through k = 1 *)
Example c58_hyps : let NB : Num b64 := B64 ref_libm in
  none_bad (trmm_table (chr "L") (chr "U") (chr "T") (chr "N") 2 1 2 2) /\
  (false = true <-> letter (chr "T") LN) /\
  let a := mkFA [b64_dy 1 0; b64_dy 0 0; B754_nan; b64_dy 1 0] 2 2 (b64_dy 0 0) in
  let b := mkFA [b64_dy 0 0; b64_dy 3 0] 2 1 (b64_dy 0 0) in
  holds_block b 2 1 /\ feq (b64_dy 1 0) f0 = false /\
  poisons B754_nan true true false true 2 1 (get2 a) (get2 b) 2 1 1.
Proof.
  cbv zeta. split; [unfold trmm_table, none_bad, letter; repeat constructor; cbn; lia|].
  split; [unfold letter; cbn; split; [discriminate|lia]|].
  split; [split; cbn; lia|]. split; [vm_compute; reflexivity|].
  unfold poisons, at_op, in_triangle. split; [lia|]. right. split; [right; lia|]. split; [reflexivity|discriminate].
Qed.
