(** Vocabulary for the accuracy of dlaqr1. *)
From Coq Require Import Reals.
From Verif Require Import Base SpecR.

(** the number dlaqr1 divides by *)
Definition shift_scale (n : Z) (H : Z -> Z -> R) (s2 : cplx) : R :=
  (Rabs (H 1%Z 1%Z - fst s2) + Rabs (snd s2) + Rsum_range (fun j => Rabs (H j 1%Z)) 2 n)%R.
(** the magnitude of the terms whose sum is entry i of the first column of (H - s1 I)(H - s2 I) *)
Definition shift_mag (n : Z) (H : Z -> Z -> R) (s1 s2 : cplx) (i : Z) : R :=
  if (i =? 1)%Z then
    (Rabs (H 1%Z 1%Z - fst s1) * Rabs (H 1%Z 1%Z - fst s2) + Rabs (snd s1) * Rabs (snd s2) +
     Rsum_range (fun j => Rabs (H 1%Z j) * Rabs (H j 1%Z)) 2 n)%R
  else
    (Rabs (H i 1%Z) * (Rabs (H 1%Z 1%Z) + Rabs (H i i) + Rabs (fst s1) + Rabs (fst s2)) +
     Rsum_range (fun j => if (j =? i)%Z then 0 else Rabs (H i j) * Rabs (H j 1%Z)) 2 n)%R.
