(** Vocabulary for statements about exact arithmetic. *)
From Coq Require Import Reals.
From Verif Require Import Base Num Array Spec ER.

(** sum of f(lo), f(lo+1), .., n terms *)
Fixpoint Rsum (f : Z -> R) (lo : Z) (n : nat) : R :=
  match n with
  | O => 0%R
  | S n' => (f lo + Rsum f (lo + 1) n')%R
  end.
(** sum over lo..=hi *)
Definition Rsum_range (f : Z -> R) (lo hi : Z) : R := Rsum f lo (Z.to_nat (hi - lo + 1)).

(** the elements of [x] at steps 0..n-1 of increment inc are the finite reals v(0), .., v(n-1) *)
Definition vec_is (x : fa er) (n inc : Z) (v : Z -> R) : Prop :=
  forall t, (0 <= t < n)%Z -> elem x (stride n inc t) = Some (Fin (v t)).

(** entries (i,j), 1<=i<=m, 1<=j<=n, of the stored data are the finite reals M i j *)
Definition mat_is (f : fa er) (m n : Z) (M : Z -> Z -> R) : Prop :=
  forall i j, (1 <= i <= m)%Z -> (1 <= j <= n)%Z -> ent f i j = Some (Fin (M i j)).

(** op(f), f itself or its transpose, is the m-by-n real matrix M *)
Definition op_is (notrans : bool) (f : fa er) (m n : Z) (M : Z -> Z -> R) : Prop :=
  forall i j, (1 <= i <= m)%Z -> (1 <= j <= n)%Z ->
    (if notrans then ent f i j else ent f j i) = Some (Fin (M i j)).

(** the triangular matrix stored in the named triangle of M; a unit matrix has ones on its diagonal *)
Definition tri (upper nounit : bool) (M : Z -> Z -> R) (i j : Z) : R :=
  if (i =? j)%Z then (if nounit then M i i else 1%R)
  else if (if upper then i <? j else j <? i)%Z then M i j else 0%R.
Definition tri_op (notrans upper nounit : bool) (M : Z -> Z -> R) (i j : Z) : R :=
  if notrans then tri upper nounit M i j else tri upper nounit M j i.

(** complex numbers as pairs (real part, imaginary part) *)
Definition cplx : Type := (R * R)%type.
Definition cadd (a b : cplx) : cplx := (fst a + fst b, snd a + snd b)%R.
Definition csub (a b : cplx) : cplx := (fst a - fst b, snd a - snd b)%R.
Definition cmul (a b : cplx) : cplx := (fst a * fst b - snd a * snd b, fst a * snd b + snd a * fst b)%R.
Definition cre (r : R) : cplx := (r, 0%R).
(** sum over lo..=hi *)
Fixpoint Csum (f : Z -> cplx) (lo : Z) (n : nat) : cplx :=
  match n with
  | O => cre 0
  | S n' => cadd (f lo) (Csum f (lo + 1)%Z n')
  end.
Definition Csum_range (f : Z -> cplx) (lo hi : Z) : cplx := Csum f lo (Z.to_nat (hi - lo + 1)).
(** entry (i,j) of H - s*I *)
Definition shifted (H : Z -> Z -> R) (s : cplx) (i j : Z) : cplx :=
  if (i =? j)%Z then csub (cre (H i j)) s else cre (H i j).
(** entry i of the first column of (H - s1*I)(H - s2*I), H of order n *)
Definition shift_column (n : Z) (H : Z -> Z -> R) (s1 s2 : cplx) (i : Z) : cplx :=
  Csum_range (fun k => cmul (shifted H s1 i k) (shifted H s2 k 1)) 1 n.
(** two shifts that are both real or a conjugate pair *)
Definition shift_pair (s1 s2 : cplx) : Prop :=
  (snd s1 = 0%R /\ snd s2 = 0%R) \/ (fst s1 = fst s2 /\ snd s1 = (- snd s2)%R).

(** (a, v(0), v(1), ..) *)
Definition vcons (a : R) (v : Z -> R) (i : Z) : R := if (i =? 0)%Z then a else v (i - 1)%Z.
(** entry i of (I - tau w w^T) y for vectors w, y of n entries numbered from 0 *)
Definition reflect (n : Z) (tau : R) (w y : Z -> R) (i : Z) : R :=
  (y i - tau * w i * Rsum_range (fun k => w k * y k)%R 0 (n - 1))%R.
Definition sum_sq (n : Z) (y : Z -> R) : R := Rsum_range (fun k => y k * y k)%R 0 (n - 1).

(** 2-by-2 real matrices ((a,b),(c,d)) *)
Definition m2 : Type := (R * R * R * R)%type.
Definition m2mul (x y : m2) : m2 :=
  let '(a, b, c, d) := x in
  let '(a', b', c', d') := y in
  (a * a' + b * c', a * b' + b * d', c * a' + d * c', c * b' + d * d')%R.
Definition m2tr (x : m2) : m2 := let '(a, b, c, d) := x in (a, c, b, d).
(** the rotation ((cs,-sn),(sn,cs)) *)
Definition rot2 (cs sn : R) : m2 := (cs, - sn, sn, cs)%R.
(** z^2 - trace*z + det at the complex number z *)
Definition charpoly2 (x : m2) (z : cplx) : cplx :=
  let '(a, b, c, d) := x in csub (cmul (csub z (cre a)) (csub z (cre d))) (cre (b * c)).
(** l1 and l2 are the two eigenvalues of x, with multiplicity *)
Definition eigenvalues2 (x : m2) (l1 l2 : cplx) : Prop :=
  forall z, charpoly2 x z = cmul (csub z l1) (csub z l2).
(** the leading 2-by-2 block of f is x *)
Definition m2_is (f : fa er) (x : m2) : Prop :=
  let '(a, b, c, d) := x in
  ent f 1 1 = Some (Fin a) /\ ent f 1 2 = Some (Fin b) /\ ent f 2 1 = Some (Fin c) /\ ent f 2 2 = Some (Fin d).
