(** Which NaN operands reach entry (i,j) of a triangular product. *)
From Verif Require Import Base Num SpecBlas.
Open Scope Z_scope.

(** [P] holds at the row and column of A at which op(A)(i,k) is stored *)
Definition at_op (notrans : bool) (i k : Z) (P : Z -> Z -> Prop) : Prop := if notrans then P i k else P k i.

Section Poison.
  Context {F : Type} {NF : Num F}.
  Variable nan : F.
  (** the term op(A)(i,k)*B(k,j) (left) or B(i,k)*op(A)(k,j) (right) of entry (i,j) has a NaN factor, and the other factor is
      not the zero for which dtrmm skips the term *)
  Definition poisons (lside upper notrans nounit : bool) (m n : Z) (a b : Z -> Z -> F) (i j k : Z) : Prop :=
    if lside then
      1 <= k <= m /\
      ((k = i \/ at_op notrans i k (in_triangle upper nounit)) /\ b k j = nan \/
       at_op notrans i k (in_triangle upper nounit) /\ at_op notrans i k (fun p q => a p q = nan) /\
         (notrans = true -> feq (b k j) f0 = false))
    else
      1 <= k <= n /\
      (at_op notrans k j (in_triangle upper nounit) /\ at_op notrans k j (fun p q => a p q = nan) \/
       (k = j \/ at_op notrans k j (in_triangle upper nounit) /\ at_op notrans k j (fun p q => feq (a p q) f0 = false)) /\
         b i k = nan).
End Poison.
