(** Vocabulary for the BLAS routines: letters, argument tables, the entry formulas. *)
From Verif Require Import Base Num Array Spec.

(** ASCII case folding of a code point *)
Definition fold_case (c : Z) : Z := if (65 <=? c) && (c <=? 90) then c + 32 else c.

(** the low byte of character c is the letter with upper-case code L, in either case
    (for an ASCII character: it is that letter) *)
Definition letter (c L : Z) : Prop := fold_case (c mod 256) = fold_case L.
(** codes of the letters used as options *)
Definition LN := 78.
Definition LT := 84.
Definition LC := 67.
Definition LL := 76.
Definition LR := 82.
Definition LU := 85.

(** A table of argument checks: parameter number and "is bad".  [first_bad t i]: i is the first bad one. *)
Definition first_bad (t : list (Z * Prop)) (i : Z) : Prop :=
  exists pre P post, t = pre ++ (i, P) :: post /\ P /\ Forall (fun q => ~ snd q) pre.
Definition none_bad (t : list (Z * Prop)) : Prop := Forall (fun q => ~ snd q) t.

(** BLAS DGEMM: the documented constraints *)
Definition gemm_table (transa transb m n k lda ldb ldc : Z) : list (Z * Prop) :=
  [ (1, ~ letter transa LN /\ ~ letter transa LC /\ ~ letter transa LT);
    (2, ~ letter transb LN /\ ~ letter transb LC /\ ~ letter transb LT);
    (3, m < 0); (4, n < 0); (5, k < 0);
    (8, (letter transa LN /\ lda < Z.max 1 m) \/ (~ letter transa LN /\ lda < Z.max 1 k));
    (10, (letter transb LN /\ ldb < Z.max 1 k) \/ (~ letter transb LN /\ ldb < Z.max 1 n));
    (13, ldc < Z.max 1 m) ].

(** BLAS DTRMM: the documented constraints *)
Definition trmm_table (side uplo transa diag m n lda ldb : Z) : list (Z * Prop) :=
  [ (1, ~ letter side LL /\ ~ letter side LR);
    (2, ~ letter uplo LU /\ ~ letter uplo LL);
    (3, ~ letter transa LN /\ ~ letter transa LT /\ ~ letter transa LC);
    (4, ~ letter diag LU /\ ~ letter diag LN);
    (5, m < 0); (6, n < 0);
    (9, (letter side LL /\ lda < Z.max 1 m) \/ (~ letter side LL /\ lda < Z.max 1 n));
    (11, ldb < Z.max 1 m) ].

Section Formulas.
  Context {F : Type} {NF : Num F}.
  Local Open Scope num_scope.

  (** x + t(lo) + t(lo+1) + .. (n terms), added from left to right *)
  Fixpoint fsum_n (x : F) (t : Z -> F) (lo : Z) (n : nat) : F :=
    match n with
    | O => x
    | S n' => fsum_n (x + t lo) t (lo + 1)%Z n'
    end.
  Definition fsum (x : F) (t : Z -> F) (lo hi : Z) : F := fsum_n x t lo (Z.to_nat (hi - lo + 1)%Z).

  (** entry (i,j) of op(A) *)
  Definition op (notrans : bool) (a : fa F) (i j : Z) : F :=
    if notrans then get2 a i j else get2 a j i.

  (** beta * x, where beta = 0 does not look at x *)
  Definition scaled (beta x : F) : F :=
    if beta =? f0 then f0 else if beta =? f1 then x else x * beta.

  (** nothing to add and nothing to scale *)
  Definition gemm_idle (k : Z) (alpha beta : F) : bool := ((alpha =? f0) || (k =? 0)%Z) && (beta =? f1).

  (** the value of entry (i,j) of alpha*op(A)*op(B) + beta*C, from the old value x of C(i,j) *)
  Definition gemm_entry (nota notb : bool) (k : Z) (alpha beta : F) (a b : fa F) (i j : Z) (x : F) : F :=
    if gemm_idle k alpha beta then x
    else if alpha =? f0 then (if beta =? f0 then f0 else x * beta)
    else if nota then
      fsum (scaled beta x) (fun l => (alpha * op notb b l j) * op nota a i l) 1 k
    else
      let t := fsum f0 (fun l => op nota a i l * op notb b l j) 1 k in
      if beta =? f0 then alpha * t else alpha * t + beta * x.
End Formulas.

Section Trmm.
  Context {F : Type} {NF : Num F}.
  Local Open Scope num_scope.

  (** x plus the terms t(k) for k in ks, in that order, leaving out those marked *)
  Definition add_terms (x : F) (skip : Z -> bool) (t : Z -> F) (ks : list Z) : F :=
    fold_left (fun s k => if skip k then s else s + t k) ks x.

  (** entry (i,j) of alpha*op(A)*X or alpha*X*op(A), A triangular, as dtrmm evaluates it *)
  Definition trmm_entry (lside upper notrans nounit : bool) (m n : Z) (alpha : F) (a : Z -> Z -> F)
      (X : Z -> Z -> F) (i j : Z) : F :=
    if lside then
      if notrans then
        add_terms (if X i j =? f0 then X i j
                   else if nounit then alpha * X i j * a i i else alpha * X i j)
                  (fun k => X k j =? f0) (fun k => alpha * X k j * a i k)
                  (if upper then range (i + 1) m else range_rev 1 (i - 1))
      else
        alpha * add_terms (if nounit then X i j * a i i else X i j)
                  (fun _ => false) (fun k => a k i * X k j)
                  (if upper then range 1 (i - 1) else range (i + 1) m)
    else
      if notrans then
        add_terms ((if nounit then alpha * a j j else alpha) * X i j)
                  (fun k => a k j =? f0) (fun k => alpha * a k j * X i k)
                  (if upper then range 1 (j - 1) else range (j + 1) n)
      else
        add_terms (let t := if nounit then alpha * a j j else alpha in if t =? f1 then X i j else t * X i j)
                  (fun k => a j k =? f0) (fun k => alpha * a j k * X i k)
                  (if upper then range (j + 1) n else range_rev 1 (j - 1)).

  (** the entries of A that may be looked at: the named triangle, without the diagonal for a unit matrix *)
  Definition in_triangle (upper nounit : bool) (i j : Z) : Prop :=
    (i = j /\ nounit = true) \/ (if upper then i < j else j < i)%Z.
End Trmm.
