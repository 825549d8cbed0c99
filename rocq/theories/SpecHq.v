(** Vocabulary for the result of the QR iteration. *)
From Flocq Require Import Core.
From Coq Require Import Reals.
From Verif Require Import Base Num Array Spec ER SpecR SpecSim.


(** Rows j..=ihi of T are block upper triangular with diagonal blocks of order 1 and 2, and wr, wi hold at
    the positions of each block the diagonal of T and
    - 0 for a block of order 1 and for a triangular block of order 2;
    - plus and minus sqrt(-b*c) for a block (a, b; c, d) with b*c < 0, whose diagonal entries are equal up to 2^-52. *)
Inductive quasi_schur (ilo ihi : Z) (T : Z -> Z -> R) (wr wi : fa er) : Z -> Prop :=
| qs_nil : quasi_schur ilo ihi T wr wi (ihi + 1)
| qs_one j : (ilo <= j <= ihi)%Z -> ((ilo < j)%Z -> T j (j - 1)%Z = 0%R) ->
    elem wr j = Some (Fin (T j j)) -> elem wi j = Some (Fin 0) ->
    quasi_schur ilo ihi T wr wi (j + 1) -> quasi_schur ilo ihi T wr wi j
| qs_two j s : (ilo <= j)%Z -> (j + 1 <= ihi)%Z -> ((ilo < j)%Z -> T j (j - 1)%Z = 0%R) ->
    elem wr j = Some (Fin (T j j)) -> elem wr (j + 1) = Some (Fin (T (j + 1)%Z (j + 1)%Z)) ->
    elem wi j = Some (Fin s) -> elem wi (j + 1) = Some (Fin (- s)) ->
    let bc := (T j (j + 1)%Z * T (j + 1)%Z j)%R in
    (T (j + 1)%Z j = 0 /\ s = 0 \/ bc < 0 /\ s = sqrt (- bc) /\ Rabs (T j j - T (j + 1)%Z (j + 1)%Z) < bpow radix2 (-52))%R ->
    quasi_schur ilo ihi T wr wi (j + 2) -> quasi_schur ilo ihi T wr wi j.

(** M and T agree on and below the diagonal, and above the diagonal inside each block of M that no zero subdiagonal entry splits *)
Definition blocks_agree (ilo ihi : Z) (M T : Z -> Z -> R) : Prop :=
  forall a b, (ilo <= a <= ihi)%Z -> (ilo <= b <= ihi)%Z ->
    (b <= a)%Z \/ (forall s, (a < s <= b)%Z -> M s (s - 1)%Z <> 0%R) -> M a b = T a b.

(** T = Q^T*(A - E)*Q on lo..=hi with Q orthogonal, trace E = 0 and ||E||_F <= x *)
Definition nearly_similar (lo hi : Z) (x : R) (A T Q E : Z -> Z -> R) : Prop :=
  orthogonal lo hi Q /\
  (forall i j, (lo <= i <= hi)%Z -> (lo <= j <= hi)%Z -> T i j = conj_by lo hi Q (fun a b => A a b - E a b)%R i j) /\
  (frob2 lo hi E <= x * x)%R /\ trace lo hi E = 0%R.

(** l is an eigenvalue of A restricted to lo..=hi: w^T*A = l*w^T for some complex row vector w = u + i*v that is not zero *)
Definition eigenvalue_of (lo hi : Z) (A : Z -> Z -> R) (l : cplx) : Prop :=
  exists u v : Z -> R, (exists a, (lo <= a <= hi)%Z /\ (u a <> 0 \/ v a <> 0)%R) /\
    forall b, (lo <= b <= hi)%Z ->
      Rsum_range (fun a => u a * A a b)%R lo hi = (fst l * u b - snd l * v b)%R /\
      Rsum_range (fun a => v a * A a b)%R lo hi = (fst l * v b + snd l * u b)%R.

(** entry k belongs to a diagonal block (a, b; c, d) of M with b*c < 0 whose diagonal entries differ, by less than 2^-52 *)
Definition uneven_block (lo hi : Z) (M : Z -> Z -> R) (k : Z) : Prop :=
  exists p, (lo <= p)%Z /\ (p + 1 <= hi)%Z /\ (k = p \/ k = p + 1)%Z /\ (M p (p + 1)%Z * M (p + 1)%Z p < 0)%R /\
    (0 < Rabs (M p p - M (p + 1)%Z (p + 1)%Z) < bpow radix2 (-52))%R.

(** the bound on ||E||_F for a block of order nh with ||H||_F <= N: 2*nh*(30*max(nh,10)+1) perturbations, each at most
    3*2^-52*N + nh*2^-970 *)
Definition hq_error (N : R) (nh : Z) : R :=
  (2 * (3 * bpow radix2 (-52) * N + bpow radix2 (-970) * IZR nh) * IZR (30 * Z.max nh 10 + 1) * IZR nh)%R.

(** the matrix with rows (a, b) and (c, d) *)
Definition rows2 (a b c d : R) : Z -> Z -> R := fun i j => if (i =? 1)%Z then (if (j =? 1)%Z then a else b) else (if (j =? 1)%Z then c else d).
