(** C43-C46: how far the computed numbers are from the exact ones, in binary64.  Statements only; the proofs are in GemmErr.v,
    TrmmErr.v and Lapy2Err.v.  u64 = 2^-53, eta64 = 2^-1075, gam n = (1 + u64)^n - 1; val64 is the real number stored. *)
From Coq Require Import Ascii Reals Lra.
From Flocq Require Import IEEE754.BinarySingleNaN Core.
From Verif Require Import Base Num Array Blas Lapack Spec SpecBlas SpecR SpecErr B64 GemmErr TrmmErr Lapy2Err.
Open Scope R_scope.

(** gam n is at most n*u/(1 - n*u) *)
Theorem c43_gam : forall n, INR n * u64 < 1 -> gam n <= INR n * u64 / (1 - INR n * u64).
Proof. exact gam_linear. Qed.
Print Assumptions c43_gam.

(** ** C43: dgemm *)
(** every entry that is a finite number is within gam (k+3) of the magnitude of its terms, plus underflow, of the exact entry *)
Theorem c43_dgemm_error : forall lm, let NB : Num b64 := B64 lm in
    forall A B C (TA : ToFA b64 A) (TB : ToFA b64 B) (TC : ToFA b64 C) (FC : FromFA b64 C)
    transa transb m n k (alpha : b64) (a : A) lda (b : B) ldb beta (c : C) ldc (nota notb : bool) af bf cf (Am Bm Cm : Z -> Z -> R),
  none_bad (gemm_table transa transb m n k lda ldb ldc) ->
  (nota = true <-> letter transa LN) -> (notb = true <-> letter transb LN) ->
  to_fa_2d a lda = Ok af -> to_fa_2d b ldb = Ok bf -> to_fa_2d c ldc = Ok cf -> (m <= rows cf)%Z ->
  op_is64 nota af m k Am -> op_is64 notb bf k n Bm -> op_is64 true cf m n Cm ->
  exists c', same_shape c' cf /\
    dgemm transa transb m n k alpha a lda b ldb beta c ldc =
      (if ((m =? 0) || (n =? 0) || gemm_idle k alpha beta)%bool%Z then Ok c else from_fa c') /\
    (((m =? 0) || (n =? 0) || gemm_idle k alpha beta)%bool%Z = true -> c' = cf) /\
    forall i j, (1 <= i <= m)%Z -> (1 <= j <= n)%Z -> exists y, ent c' i j = Some y /\
      (is_finite y = true ->
       Rabs (val64 y - (val64 alpha * Rsum_range (fun l => Am i l * Bm l j) 1 k + val64 beta * Cm i j)) <=
         gam (Z.to_nat k + 3) * (Rabs (val64 alpha) * Rsum_range (fun l => Rabs (Am i l) * Rabs (Bm l j)) 1 k + Rabs (val64 beta) * Rabs (Cm i j)) +
         (1 + u64) ^ (Z.to_nat k + 3) * (eta64 * (Rsum_range (fun l => Rabs (Am i l) + Rabs (val64 alpha) + 1) 1 k + 2))).
Proof. exact @dgemm_err. Qed.
Print Assumptions c43_dgemm_error.

(** the entries are finite numbers when nothing is larger than 2^300 *)
Theorem c43_dgemm_finite : forall lm, let NB : Num b64 := B64 lm in
    forall A B C (TA : ToFA b64 A) (TB : ToFA b64 B) (TC : ToFA b64 C) (FC : FromFA b64 C)
    transa transb m n k (alpha : b64) (a : A) lda (b : B) ldb beta (c : C) ldc (nota notb : bool) af bf cf,
  none_bad (gemm_table transa transb m n k lda ldb ldc) -> (k <= 2 ^ 52)%Z ->
  (nota = true <-> letter transa LN) -> (notb = true <-> letter transb LN) ->
  to_fa_2d a lda = Ok af -> to_fa_2d b ldb = Ok bf -> to_fa_2d c ldc = Ok cf -> (m <= rows cf)%Z ->
  is_finite alpha = true -> Rabs (val64 alpha) <= 2 ^ 300 -> is_finite beta = true -> Rabs (val64 beta) <= 2 ^ 300 ->
  op_bound64 nota af m k (2 ^ 300) -> op_bound64 notb bf k n (2 ^ 300) -> op_bound64 true cf m n (2 ^ 300) ->
  exists c', same_shape c' cf /\
    dgemm transa transb m n k alpha a lda b ldb beta c ldc =
      (if ((m =? 0) || (n =? 0) || gemm_idle k alpha beta)%bool%Z then Ok c else from_fa c') /\
    (((m =? 0) || (n =? 0) || gemm_idle k alpha beta)%bool%Z = true -> c' = cf) /\
    forall i j, (1 <= i <= m)%Z -> (1 <= j <= n)%Z -> exists y, ent c' i j = Some y /\ is_finite y = true.
Proof. exact @dgemm_finite. Qed.
Print Assumptions c43_dgemm_finite.

(** A = [1 0; 1 1] with a padding row of infinities, transposed *)
Example c43_case : let NB : Num b64 := B64 ref_libm in
  let a := [f1; f1; B754_infinity false; f0; f1; B754_infinity false] in
  none_bad (gemm_table (chr "T") (chr "N") 2 2 2 3 3 3) /\ (false = true <-> letter (chr "T") LN) /\ (true = true <-> letter (chr "N") LN) /\
  to_fa_2d a 3 = Ok (flat 3 a) /\ (2 <= rows (flat 3 a))%Z /\
  op_is64 false (flat 3 a) 2 2 (fun i j => if (j =? 1)%Z && (i =? 2)%Z then 0 else 1)%bool /\
  op_bound64 false (flat 3 a) 2 2 (2 ^ 300) /\ is_finite (f1 : b64) = true /\ Rabs (val64 (f1 : b64)) <= 2 ^ 300.
Proof.
  cbv zeta. assert (L : 1 <= 2 ^ 300) by (apply pow_R1_Rle; lra).
  split; [|split; [|split; [|split; [|split; [|split; [|split; [|split]]]]]]].
  - unfold gemm_table, none_bad, letter. repeat constructor; cbn; lia.
  - unfold letter. cbn. split; [discriminate|lia].
  - unfold letter. cbn. lia.
  - reflexivity.
  - cbn. lia.
  - intros i j Hi Hj. assert (E : (i = 1 \/ i = 2)%Z) by lia. assert (E' : (j = 1 \/ j = 2)%Z) by lia.
    destruct E as [-> | ->], E' as [-> | ->]; cbn [Z.eqb Pos.eqb andb]; eexists; (split; [reflexivity|]); unfold val64; first [exact B2R_1|reflexivity].
  - intros i j Hi Hj. assert (E : (i = 1 \/ i = 2)%Z) by lia. assert (E' : (j = 1 \/ j = 2)%Z) by lia.
    destruct E as [-> | ->], E' as [-> | ->]; eexists; (split; [reflexivity|split; [reflexivity|]]); unfold val64;
      match goal with |- Rabs (B2R ?x) <= _ => (change x with (b64_dy 1 0); rewrite B2R_1, Rabs_R1; exact L) || (change (B2R x) with 0; rewrite Rabs_R0; lra) end.
  - reflexivity.
  - unfold val64. change (@f1 b64 (B64 ref_libm)) with (b64_dy 1 0). rewrite B2R_1, Rabs_R1. exact L.
Qed.

(** ** C44: dtrmm *)
Theorem c44_dtrmm_error : forall lm, let NB : Num b64 := B64 lm in
    forall side uplo transa diag m n (alpha : b64) (a : fa b64) lda (b : fa b64) ldb (lside upper notrans nounit : bool)
      (Am Bm : Z -> Z -> R),
    none_bad (trmm_table side uplo transa diag m n lda ldb) ->
    (lside = true <-> letter side LL) -> (upper = true <-> letter uplo LU) ->
    (notrans = true <-> letter transa LN) -> (nounit = true <-> letter diag LN) ->
    holds_block b m n -> op_is64 true b m n Bm ->
    (forall i j, (1 <= i <= (if lside then m else n))%Z -> (1 <= j <= (if lside then m else n))%Z ->
       in_triangle upper nounit i j -> exists v, ent a i j = Some v /\ val64 v = Am i j) ->
    exists r, dtrmm side uplo transa diag m n alpha a lda b ldb = Ok (a, r) /\ same_shape r b /\
      forall i j, (1 <= i <= m)%Z -> (1 <= j <= n)%Z -> exists y, ent r i j = Some y /\
        let Aop k := if lside then tri_op notrans upper nounit Am i k else tri_op notrans upper nounit Am k j in
        let X k := if lside then Bm k j else Bm i k in
        let K := if lside then m else n in
        (is_finite y = true ->
         Rabs (val64 y - val64 alpha * Rsum_range (fun k => Aop k * X k) 1 K) <=
           gam (Z.to_nat K + 1) * (Rabs (val64 alpha) * Rsum_range (fun k => Rabs (Aop k) * Rabs (X k)) 1 K) +
           (1 + u64) ^ (Z.to_nat K + 1) * (eta64 * Rsum_range (fun k => Rabs (Aop k) + Rabs (X k) + Rabs (val64 alpha) + 1) 1 K)).
Proof. exact @dtrmm_err. Qed.
Print Assumptions c44_dtrmm_error.

(** a right-hand, lower, transposed, unit product; A is infinite outside its strict lower triangle *)
Example c44_case : let NB : Num b64 := B64 ref_libm in
  let b := mkFA [f1; f0; f0; f1; f1; f0] 3 2 f0 in
  let a := mkFA [B754_infinity true; f1; B754_nan; B754_nan] 2 2 f0 in
  none_bad (trmm_table (chr "r") (chr "L") (chr "t") (chr "U") 2 2 2 3) /\
  (false = true <-> letter (chr "r") LL) /\ (false = true <-> letter (chr "L") LU) /\
  (false = true <-> letter (chr "t") LN) /\ (false = true <-> letter (chr "U") LN) /\
  holds_block b 2 2 /\ op_is64 true b 2 2 (fun i j => if (j =? 1)%Z && (i =? 2)%Z then 0 else 1)%bool /\
  (forall i j, (1 <= i <= 2)%Z -> (1 <= j <= 2)%Z -> in_triangle false false i j -> exists v, ent a i j = Some v /\ val64 v = 1).
Proof.
  cbv zeta. split; [unfold trmm_table, none_bad, letter; repeat constructor; cbn; lia|].
  do 4 (split; [unfold letter; cbn; split; [discriminate|lia]|]).
  split; [split; cbn; lia|]. split.
  - intros i j Hi Hj. assert (E : (i = 1 \/ i = 2)%Z) by lia. assert (E' : (j = 1 \/ j = 2)%Z) by lia.
    destruct E as [-> | ->], E' as [-> | ->]; cbn [Z.eqb Pos.eqb andb]; eexists; (split; [reflexivity|]); unfold val64; first [exact B2R_1|reflexivity].
  - intros i j Hi Hj [[_ H]|H]; [discriminate|]. assert (i = 2%Z) by lia. assert (j = 1%Z) by lia. subst. eexists. split; [reflexivity|exact B2R_1].
Qed.

(** ** C45: dscal and drot *)
Theorem c45_dscal_error : forall lm, let NB : Num b64 := B64 lm in
    forall DX (TX : ToFA b64 DX) (FX : FromFA b64 DX) n (da : b64) (dx : DX) incx, (1 <= n)%Z -> (1 <= incx)%Z ->
    exists d, dscal n da dx incx = (if feq da f1 then Ok dx else from_fa d) /\ (feq da f1 = true -> d = to_fa dx) /\
      same_shape d (to_fa dx) /\
      forall t x, (0 <= t < n)%Z -> elem (to_fa dx) (stride n incx t) = Some x ->
        exists y, elem d (stride n incx t) = Some y /\
          (is_finite y = true -> Rabs (val64 y - val64 da * val64 x) <= u64 * Rabs (val64 da * val64 x) + eta64).
Proof. exact @dscal_err. Qed.
Print Assumptions c45_dscal_error.

Theorem c45_drot_error : forall lm, let NB : Num b64 := B64 lm in
    forall DX DY (TX : ToFA b64 DX) (FX : FromFA b64 DX) (TY : ToFA b64 DY) (FY : FromFA b64 DY)
      n (dx : DX) incx (dy : DY) incy (c s : b64) (vx vy : Z -> b64), (1 <= n)%Z -> incx <> 0%Z -> incy <> 0%Z ->
    (forall t, (0 <= t < n)%Z -> elem (to_fa dx) (stride n incx t) = Some (vx t)) ->
    (forall t, (0 <= t < n)%Z -> elem (to_fa dy) (stride n incy t) = Some (vy t)) ->
    exists x y, drot n dx incx dy incy c s = (x' <- from_fa x ;; y' <- from_fa y ;; Ok (x', y')) /\
      same_shape x (to_fa dx) /\ same_shape y (to_fa dy) /\
      forall t, (0 <= t < n)%Z -> exists wx wy,
        elem x (stride n incx t) = Some wx /\ elem y (stride n incy t) = Some wy /\
        (is_finite wx = true -> Rabs (val64 wx - (val64 c * val64 (vx t) + val64 s * val64 (vy t))) <=
           gam 2 * (Rabs (val64 c * val64 (vx t)) + Rabs (val64 s * val64 (vy t))) + 2 * (1 + u64) * eta64) /\
        (is_finite wy = true -> Rabs (val64 wy - (val64 c * val64 (vy t) - val64 s * val64 (vx t))) <=
           gam 2 * (Rabs (val64 c * val64 (vy t)) + Rabs (val64 s * val64 (vx t))) + 2 * (1 + u64) * eta64).
Proof. exact @drot_err. Qed.
Print Assumptions c45_drot_error.

Example c45_case : let NB : Num b64 := B64 ref_libm in
  (forall t, (0 <= t < 2)%Z -> elem (to_fa [b64_dy 3 0; b64_dy 5 0; b64_dy 7 (-1)]) (stride 2 (-2) t) = Some (if (t =? 0)%Z then b64_dy 7 (-1) else b64_dy 3 0)) /\
  (forall t, (0 <= t < 2)%Z -> elem (to_fa [b64_dy 1 0; b64_dy 9 0]) (stride 2 1 t) = Some (if (t =? 0)%Z then b64_dy 1 0 else b64_dy 9 0)).
Proof. split; intros t Ht; assert (E : (t = 0 \/ t = 1)%Z) by lia; destruct E as [-> | ->]; reflexivity. Qed.

(** ** C46: dlapy2 *)
(** four units of roundoff, and no overflow unless the result itself is (nearly) too large *)
Theorem c46_dlapy2_error : forall lm, let NB : Num b64 := B64 lm in
  forall x y : b64, is_finite x = true -> is_finite y = true ->
  let h := sqrt (val64 x * val64 x + val64 y * val64 y) in
  let r := dlapy2 x y in
  (is_finite r = true -> Rabs (val64 r - h) <= 4 * u64 * h + eta64) /\
  ((1 + 4 * u64) * h <= val64 (fMAX : b64) -> is_finite r = true).
Proof. exact dlapy2_err. Qed.
Print Assumptions c46_dlapy2_error.

(** both squares overflow, the result does not *)
Example c46_case : let NB : Num b64 := B64 ref_libm in
  is_finite (b64_dy 3 1000) = true /\ is_finite (b64_dy 4 1000) = true /\ is_finite (dlapy2 (b64_dy 3 1000) (b64_dy 4 1000)) = true /\
  is_finite (Bmult mode_NE (b64_dy 3 1000) (b64_dy 3 1000)) = false.
Proof. vm_compute. repeat split. Qed.
