(** Property C66: dgemm and dtrmm by panels.  Statements only; the proofs are in GemmPanel.v. *)
From Coq Require Import Ascii.
From Verif Require Import Base Num Array Blas Spec SpecBlas B64.
From Verif Require GemmPanel.
From Flocq Require Import IEEE754.BinarySingleNaN.
Open Scope Z_scope.

(** ** C66 *)
(** Over any number type (in f64 bit for bit): entry (i,j) of dgemm's result depends on row i of op(A), column j of op(B), the old
    entry, alpha and beta alone.  So a product may be computed by any panels of rows and columns, from any containers and leading
    dimensions, and B may be given transposed with the other transb. *)
Theorem c66_dgemm_panel : forall F (NF : Num F) A B A' B' (TA : ToFA F A) (TB : ToFA F B) (TA' : ToFA F A') (TB' : ToFA F B')
    transa transb m n k (alpha : F) (a : A) lda (b : B) ldb beta (c : fa F) ldc
    transa' transb' m' n' (a' : A') lda' (b' : B') ldb' (c' : fa F) ldc' (nota notb notb' : bool) af bf af' bf',
  none_bad (gemm_table transa transb m n k lda ldb ldc) -> none_bad (gemm_table transa' transb' m' n' k lda' ldb' ldc') ->
  (nota = true <-> letter transa LN) -> (nota = true <-> letter transa' LN) -> (notb = true <-> letter transb LN) -> (notb' = true <-> letter transb' LN) ->
  to_fa_2d a lda = Ok af -> to_fa_2d b ldb = Ok bf -> to_fa_2d a' lda' = Ok af' -> to_fa_2d b' ldb' = Ok bf' ->
  m <= rows c -> m' <= rows c' ->
  exists r r', dgemm transa transb m n k alpha a lda b ldb beta c ldc = Ok r /\
    dgemm transa' transb' m' n' k alpha a' lda' b' ldb' beta c' ldc' = Ok r' /\
    forall i j i' j', 1 <= i <= m -> 1 <= j <= n -> 1 <= i' <= m' -> 1 <= j' <= n' ->
      (forall l, 1 <= l <= k -> op nota af i l = op nota af' i' l /\ op notb bf l j = op notb' bf' l j') ->
      ent c i j = ent c' i' j' -> ent r i j = ent r' i' j'.
Proof. exact @GemmPanel.dgemm_panel. Qed.
Print Assumptions c66_dgemm_panel.

(** With A not transposed the inner dimension may be split too: adding the second part with beta = 1 gives the very same array as
    the single call.  The three facts about 1 hold in f64 (c66_one). *)
Theorem c66_dgemm_depth : forall F (NF : Num F) A B A1 B1 A2 B2 (TA : ToFA F A) (TB : ToFA F B) (TA1 : ToFA F A1) (TB1 : ToFA F B1) (TA2 : ToFA F A2) (TB2 : ToFA F B2)
    transa transb transb1 transb2 m n k1 k2 (alpha beta one : F) (a : A) lda (b : B) ldb (a1 : A1) lda1 (b1 : B1) ldb1 (a2 : A2) lda2 (b2 : B2) ldb2
    (c : fa F) ldc (notb notb1 notb2 : bool) af bf af1 bf1 af2 bf2,
  feq one f1 = true -> feq one f0 = false -> (feq beta f1 = true -> feq beta f0 = false) ->
  none_bad (gemm_table transa transb m n (k1 + k2) lda ldb ldc) -> none_bad (gemm_table transa transb1 m n k1 lda1 ldb1 ldc) ->
  none_bad (gemm_table transa transb2 m n k2 lda2 ldb2 ldc) ->
  letter transa LN -> (notb = true <-> letter transb LN) -> (notb1 = true <-> letter transb1 LN) -> (notb2 = true <-> letter transb2 LN) ->
  to_fa_2d a lda = Ok af -> to_fa_2d b ldb = Ok bf -> to_fa_2d a1 lda1 = Ok af1 -> to_fa_2d b1 ldb1 = Ok bf1 -> to_fa_2d a2 lda2 = Ok af2 -> to_fa_2d b2 ldb2 = Ok bf2 ->
  (forall i l, 1 <= i <= m -> 1 <= l <= k1 -> get2 af i l = get2 af1 i l) -> (forall i l, 1 <= i <= m -> 1 <= l <= k2 -> get2 af i (l + k1) = get2 af2 i l) ->
  (forall l j, 1 <= l <= k1 -> 1 <= j <= n -> op notb bf l j = op notb1 bf1 l j) -> (forall l j, 1 <= l <= k2 -> 1 <= j <= n -> op notb bf (l + k1) j = op notb2 bf2 l j) ->
  m <= rows c ->
  exists r r1 r2, dgemm transa transb m n (k1 + k2) alpha a lda b ldb beta c ldc = Ok r /\
    dgemm transa transb1 m n k1 alpha a1 lda1 b1 ldb1 beta c ldc = Ok r1 /\
    dgemm transa transb2 m n k2 alpha a2 lda2 b2 ldb2 one r1 ldc = Ok r2 /\
    data r2 = data r /\ rows r2 = rows r /\ cols r2 = cols r.
Proof. exact @GemmPanel.dgemm_depth. Qed.
Print Assumptions c66_dgemm_depth.

Theorem c66_one : forall lm, let NB : Num b64 := B64 lm in
  feq (f1 : b64) f1 = true /\ feq (f1 : b64) f0 = false /\ forall beta : b64, feq beta f1 = true -> feq beta f0 = false.
Proof. exact GemmPanel.depth_laws. Qed.
Print Assumptions c66_one.

(** With A transposed it may not: (1,-1) * (1,1)^T + 2^-60 is 2^-60 in one call and 0 in two. *)
Theorem c66_transposed_differs : forall lm, let NB : Num b64 := B64 lm in
  let d m := b64_dy m 0 in let v l := mkFA l (zlen l) 1 (d 0) in let c := v [b64_dy 1 (-60)] in
  match dgemm (chr "T") (chr "N") 1 1 2 (d 1) (v [d 1; d (-1)]) 2 (v [d 1; d 1]) 2 (d 1) c 1 with Ok r => feq (get2 r 1 1) (b64_dy 1 (-60)) | _ => false end = true /\
  match r1 <- dgemm (chr "T") (chr "N") 1 1 1 (d 1) (v [d 1]) 1 (v [d 1]) 1 (d 1) c 1 ;;
        dgemm (chr "T") (chr "N") 1 1 1 (d 1) (v [d (-1)]) 1 (v [d 1]) 1 (d 1) r1 1 with Ok r => feq (get2 r 1 1) (d 0) | _ => false end = true.
Proof. exact GemmPanel.depth_transposed. Qed.
Print Assumptions c66_transposed_differs.

(** the product ((1,2),(3,4)) * ((5,6),(7,8)) in one call, and its second row times the second column alone, B given transposed;
    and the columns of A one at a time *)
Example c66_dgemm_hyps : forall F (NF : Num F), let d m := fdy m 0 in
  let a := mkFA [d 1; d 3; d 2; d 4] 2 2 (d 0) in let b := mkFA [d 5; d 7; d 6; d 8] 2 2 (d 0) in let c := mkFA [d 9; d 9; d 9; d 9] 2 2 (d 0) in
  let a' := mkFA [d 3; d 4] 1 2 (d 0) in let b' := mkFA [d 6; d 8] 1 2 (d 0) in let c' := mkFA [d 9] 1 1 (d 0) in
  (none_bad (gemm_table (chr "N") (chr "N") 2 2 2 2 2 2) /\ none_bad (gemm_table (chr "N") (chr "T") 1 1 2 1 1 1) /\
    letter (chr "N") LN /\ (false = true <-> letter (chr "T") LN) /\
    (forall l, 1 <= l <= 2 -> op true a 2 l = op true a' 1 l /\ op true b l 2 = op false b' l 1) /\ ent c 2 2 = ent c' 1 1) /\
  (let a1 := mkFA [d 1; d 3] 2 1 (d 0) in let a2 := mkFA [d 2; d 4] 2 1 (d 0) in let b1 := mkFA [d 5; d 6] 1 2 (d 0) in let b2 := mkFA [d 7; d 8] 1 2 (d 0) in
    none_bad (gemm_table (chr "N") (chr "N") 2 2 1 2 1 2) /\
    (forall i l, 1 <= i <= 2 -> 1 <= l <= 1 -> get2 a i l = get2 a1 i l /\ get2 a i (l + 1) = get2 a2 i l) /\
    (forall l j, 1 <= l <= 1 -> 1 <= j <= 2 -> op true b l j = op true b1 l j /\ op true b (l + 1) j = op true b2 l j)).
Proof. exact @GemmPanel.panel_hyps. Qed.

(** dtrmm: A applied from the left acts on each column of B by itself, from the right on each row by itself, and only the named
    triangle of A matters. *)
Theorem c66_dtrmm_panel : forall F (NF : Num F) side uplo transa diag m n (alpha : F) (a : fa F) lda (b : fa F) ldb m' n' (a' : fa F) lda' (b' : fa F) ldb' (lside upper notrans nounit : bool),
  none_bad (trmm_table side uplo transa diag m n lda ldb) -> none_bad (trmm_table side uplo transa diag m' n' lda' ldb') ->
  (lside = true <-> letter side LL) -> (upper = true <-> letter uplo LU) ->
  (notrans = true <-> letter transa LN) -> (nounit = true <-> letter diag LN) ->
  holds_block b m n -> holds_block b' m' n' ->
  (if lside then m = m' else n = n') ->
  (forall p q, 1 <= p <= (if lside then m else n) -> 1 <= q <= (if lside then m else n) -> in_triangle upper nounit p q -> get2 a p q = get2 a' p q) ->
  exists r r', dtrmm side uplo transa diag m n alpha a lda b ldb = Ok (a, r) /\ dtrmm side uplo transa diag m' n' alpha a' lda' b' ldb' = Ok (a', r') /\
    forall i j i' j', 1 <= i <= m -> 1 <= j <= n -> 1 <= i' <= m' -> 1 <= j' <= n' ->
      (if lside then i = i' /\ forall k, 1 <= k <= m -> ent b k j = ent b' k j' else j = j' /\ forall k, 1 <= k <= n -> ent b i k = ent b' i' k) ->
      ent r i j = ent r' i' j'.
Proof. exact @GemmPanel.dtrmm_panel. Qed.
Print Assumptions c66_dtrmm_panel.

(** the columns of a 2-by-2 B one at a time, A = ((1,2),(x,3)) upper triangular with any x below the diagonal *)
Example c66_dtrmm_hyps : forall F (NF : Num F) (x y : F), let d m := fdy m 0 in
  let a := mkFA [d 1; x; d 2; d 3] 2 2 (d 0) in let a' := mkFA [d 1; y; d 2; d 3] 2 2 (d 0) in
  let b := mkFA [d 5; d 7; d 6; d 8] 2 2 (d 0) in let b' := mkFA [d 6; d 8] 2 1 (d 0) in
  none_bad (trmm_table (chr "L") (chr "U") (chr "N") (chr "N") 2 2 2 2) /\ none_bad (trmm_table (chr "L") (chr "U") (chr "N") (chr "N") 2 1 2 2) /\
  holds_block b 2 2 /\ holds_block b' 2 1 /\
  (forall p q, 1 <= p <= 2 -> 1 <= q <= 2 -> in_triangle true true p q -> get2 a p q = get2 a' p q) /\
  (forall k, 1 <= k <= 2 -> ent b k 2 = ent b' k 1).
Proof. exact @GemmPanel.trmm_panel_hyps. Qed.
