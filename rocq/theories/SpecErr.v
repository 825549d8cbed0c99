(** Vocabulary for rounding error bounds. *)
From Coq Require Import Reals.
From Flocq Require Import Core IEEE754.BinarySingleNaN.
From Verif Require Import Base Num Array Spec SpecR B64.

(** half an ulp of 1, and half the least positive number: round to nearest moves x by at most u64*|x| + eta64 *)
Definition u64 : R := bpow radix2 (-53).
Definition eta64 : R := bpow radix2 (-1075).
(** (1 + u)^n - 1: the relative error of n roundings in a row *)
Definition gam (n : nat) : R := ((1 + u64) ^ n - 1)%R.

(** the stored value, infinities and NaN read as 0 *)
Definition val64 (x : b64) : R := B2R x.
(** op(A) has real entries M i j for 1 <= i <= m, 1 <= j <= n *)
Definition op_is64 (notrans : bool) (f : fa b64) (m n : Z) (M : Z -> Z -> R) : Prop :=
  forall i j, 1 <= i <= m -> 1 <= j <= n ->
    exists v, (if notrans then ent f i j else ent f j i) = Some v /\ val64 v = M i j.
(** the same, and every entry is a finite number of magnitude at most B *)
Definition op_bound64 (notrans : bool) (f : fa b64) (m n : Z) (B : R) : Prop :=
  forall i j, 1 <= i <= m -> 1 <= j <= n ->
    exists v, (if notrans then ent f i j else ent f j i) = Some v /\ is_finite v = true /\ (Rabs (val64 v) <= B)%R.
