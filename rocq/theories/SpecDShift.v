(** Vocabulary for the shifts of dlahqr. *)
From Coq Require Import Reals.
From Flocq Require Import Core.
From Verif Require Import Base SpecR.
Open Scope R_scope.

(** z is an eigenvalue of ((a, b), (c, d)): (a - z)(d - z) = b c *)
Definition eig2 (a b c d : R) (z : cplx) : Prop := cmul (csub (cre a) z) (csub (cre d) z) = cre (b * c).

(** Both shifts are eigenvalues of ((a, b), (c, d)); they are a conjugate pair that is not real, or both are the same real eigenvalue,
    and no eigenvalue is nearer to d. *)
Definition double_shift (a b c d : R) (s1 s2 : cplx) : Prop :=
  eig2 a b c d s1 /\ eig2 a b c d s2 /\
  ((s2 = (fst s1, - snd s1) /\ 0 < snd s1) \/
   (s2 = s1 /\ snd s1 = 0 /\ forall z, eig2 a b c d z -> snd z = 0 /\ Rabs (fst s1 - d) <= Rabs (fst z - d))).

(** the 3-by-3 block of the Hessenberg matrix H whose first row is row m *)
Definition hess3 (H : Z -> Z -> R) (m i j : Z) : R :=
  if ((i =? 3) && (j =? 1))%Z then 0 else H (m + i - 1)%Z (m + j - 1)%Z.

(** A sweep may start at row m although the subdiagonal entry left of it is not zero: with x the first column of (H - s1 I)(H - s2 I) there,
    |h(m,m-1)| (|x2| + |x3|) <= 2^-52 |x1| (|h(m-1,m-1)| + |h(m,m)| + |h(m+1,m+1)|). *)
Definition may_start (H : Z -> Z -> R) (s1 s2 : cplx) (m : Z) : Prop :=
  let x i := fst (shift_column 3 (hess3 H m) s1 s2 i) in
  Rabs (H m (m - 1)%Z) * (Rabs (x 2%Z) + Rabs (x 3%Z)) <=
  bpow radix2 (-52) * Rabs (x 1%Z) * (Rabs (H (m - 1)%Z (m - 1)%Z) + Rabs (H m m) + Rabs (H (m + 1)%Z (m + 1)%Z)).

(** The test of Ahues and Tisseur for setting the subdiagonal entry h(k,k-1) of rows lo..hi of a Hessenberg matrix to zero.
    2^-970 (hi - lo + 1) is the threshold below which an entry is always dropped. *)
Definition neighbours (H : Z -> Z -> R) (lo hi k : Z) : R :=
  let t := Rabs (H (k - 1)%Z (k - 1)%Z) + Rabs (H k k) in
  if Req_bool t 0
  then (if (lo <=? k - 2)%Z then Rabs (H (k - 1)%Z (k - 2)%Z) else 0) + (if (k + 1 <=? hi)%Z then Rabs (H (k + 1)%Z k) else 0)
  else t.
Definition negligible (H : Z -> Z -> R) (lo hi k : Z) : Prop :=
  let sml := bpow radix2 (-970) * IZR (hi - lo + 1) in
  let e := Rabs (H k (k - 1)%Z) in
  let f := Rabs (H (k - 1)%Z k) in
  let d := Rabs (H k k) in
  let g := Rabs (H (k - 1)%Z (k - 1)%Z - H k k) in
  let s := Rmax d g + Rmax e f in
  e <= sml \/
  (e <= bpow radix2 (-52) * neighbours H lo hi k /\
   Rmin e f * Rmax e f <= s * Rmax sml (bpow radix2 (-52) * (Rmin d g * Rmax d g / s))).

(** The shifts of the kd-th iteration on rows l..i since the last deflation: every tenth pair is exceptional. *)
Definition iteration_shifts (H : Z -> Z -> R) (l i kd : Z) (s1 s2 : cplx) : Prop :=
  if (kd mod 10 =? 0)%Z then
    let '(x, s) := if (kd mod 20 =? 0)%Z then (H i i, Rabs (H i (i - 1)%Z) + Rabs (H (i - 1)%Z (i - 2)%Z))
                   else (H l l, Rabs (H (l + 1)%Z l) + Rabs (H (l + 2)%Z (l + 1)%Z)) in
    s1 = (x + 3 / 4 * s, sqrt 7 / 4 * s) /\ s2 = (x + 3 / 4 * s, - (sqrt 7 / 4 * s))
  else double_shift (H (i - 1)%Z (i - 1)%Z) (H (i - 1)%Z i) (H i (i - 1)%Z) (H i i) s1 s2.

(** H with the entry left of row l set to zero, unless l is the first row of the block *)
Definition drop_left (H : Z -> Z -> R) (lo l a b : Z) : R :=
  if ((a =? l) && (b =? l - 1) && (lo <? l))%Z then 0 else H a b.
