(** Vocabulary for orthogonal similarity: real matrices are functions of (row, column), restricted to lo..=hi. *)
From Coq Require Import Reals.
From Verif Require Import Base Num Array Spec ER SpecR.

(** the identity matrix *)
Definition Rid (i j : Z) : R := if (i =? j)%Z then 1%R else 0%R.
(** entry (i,j) of A*B, the sum running over lo..=hi *)
Definition mmul (lo hi : Z) (A B : Z -> Z -> R) (i j : Z) : R := Rsum_range (fun k => A i k * B k j)%R lo hi.
Definition mtr (A : Z -> Z -> R) (i j : Z) : R := A j i.
(** Q^T*Q = Q*Q^T = I on lo..=hi *)
Definition orthogonal (lo hi : Z) (Q : Z -> Z -> R) : Prop :=
  forall i j, (lo <= i <= hi)%Z -> (lo <= j <= hi)%Z ->
    mmul lo hi (mtr Q) Q i j = Rid i j /\ mmul lo hi Q (mtr Q) i j = Rid i j.
(** Q is the identity except for its rows and columns a..=b *)
Definition identity_outside (a b : Z) (Q : Z -> Z -> R) : Prop :=
  forall i j, ~ (a <= i <= b)%Z \/ ~ (a <= j <= b)%Z -> Q i j = Rid i j.
(** Q^T*A*Q *)
Definition conj_by (lo hi : Z) (Q A : Z -> Z -> R) : Z -> Z -> R := mmul lo hi (mtr Q) (mmul lo hi A Q).
Definition trace (lo hi : Z) (A : Z -> Z -> R) : R := Rsum_range (fun i => A i i) lo hi.
(** the sum of the squares of all entries *)
Definition frob2 (lo hi : Z) (A : Z -> Z -> R) : R :=
  Rsum_range (fun i => Rsum_range (fun j => A i j * A i j)%R lo hi) lo hi.
(** zero below the first subdiagonal *)
Definition hessenberg (lo hi : Z) (A : Z -> Z -> R) : Prop :=
  forall i j, (lo <= i <= hi)%Z -> (lo <= j <= hi)%Z -> (j + 1 < i)%Z -> A i j = 0%R.
