(** Vocabulary for the result of the QR iteration in binary64. *)
From Flocq Require Import Core IEEE754.BinarySingleNaN.
From Coq Require Import Reals.
From Verif Require Import Base Num Array Spec SpecR SpecErr SpecSim B64.
Local Open Scope R_scope.

(** f is a finite number whose value is x *)
Definition value_of (f : b64) (x : R) : Prop := is_finite f = true /\ B2R f = x.
(** position j of f holds a finite number whose value is x *)
Definition holds_at (f : fa b64) (j : Z) (x : R) : Prop := exists v, elem f j = Some v /\ value_of v x.
(** row i, column j of f holds a finite number whose value is x *)
Definition holds_ent (f : fa b64) (i j : Z) (x : R) : Prop := exists v, ent f i j = Some v /\ value_of v x.

(** Rows j..=ihi of T are block upper triangular with diagonal blocks of order 1 and 2, and wr, wi hold at
    the positions of each block the diagonal of T and
    - 0 for a block of order 1 and for a triangular block of order 2;
    - plus and minus a rounded sqrt(-b*c) for a block (a, b; c, d) with b*c < 0, whose diagonal entries are equal up to 2^-52. *)
Inductive schur64 (ilo ihi : Z) (T : Z -> Z -> R) (wr wi : fa b64) : Z -> Prop :=
| s64_nil : schur64 ilo ihi T wr wi (ihi + 1)
| s64_one j : (ilo <= j <= ihi)%Z -> ((ilo < j)%Z -> T j (j - 1)%Z = 0) ->
    holds_at wr j (T j j) -> holds_at wi j 0 ->
    schur64 ilo ihi T wr wi (j + 1) -> schur64 ilo ihi T wr wi j
| s64_two j s : (ilo <= j)%Z -> (j + 1 <= ihi)%Z -> ((ilo < j)%Z -> T j (j - 1)%Z = 0) ->
    holds_at wr j (T j j) -> holds_at wr (j + 1) (T (j + 1)%Z (j + 1)%Z) ->
    holds_at wi j s -> holds_at wi (j + 1) (- s) ->
    let b := T j (j + 1)%Z in let c := T (j + 1)%Z j in
    (c = 0 /\ s = 0 \/
     b * c < 0 /\ 0 < s /\ Rabs (s - sqrt (- (b * c))) <= 4 * u64 * sqrt (- (b * c)) + 2 * eta64 /\ Rabs (T j j - T (j + 1)%Z (j + 1)%Z) < bpow radix2 (-52)) ->
    schur64 ilo ihi T wr wi (j + 2) -> schur64 ilo ihi T wr wi j.

(** the array h holds the entries of T on and below the diagonal, and above the diagonal inside each block of T that no
    zero subdiagonal entry splits *)
Definition blocks64 (ilo ihi : Z) (h : fa b64) (T : Z -> Z -> R) : Prop :=
  forall a b, (ilo <= a <= ihi)%Z -> (ilo <= b <= ihi)%Z ->
    (b <= a)%Z \/ (forall s, (a < s <= b)%Z -> T s (s - 1)%Z <> 0) -> holds_ent h a b (T a b).

(** some diagonal entry of the active block is NaN *)
Definition nan_diag (ilo ihi : Z) (h : fa b64) : Prop := exists p, (ilo <= p <= ihi)%Z /\ ent h p p = Some B754_nan.

(** z' holds Z0*Q in rows iloz..=ihiz and columns ilo..=ihi, up to an error whose norm in each row is at most e, and
    what z holds everywhere else *)
Definition zrows64 (n ilo ihi iloz ihiz : Z) (z z' : fa b64) (Z0 Q : Z -> Z -> R) (e : R) : Prop :=
  (forall a b, (1 <= a <= n)%Z -> (1 <= b <= n)%Z -> ~ ((iloz <= a <= ihiz)%Z /\ (ilo <= b <= ihi)%Z) -> ent z' a b = ent z a b) /\
  (forall a, (iloz <= a <= ihiz)%Z -> exists r, (forall b, (ilo <= b <= ihi)%Z -> holds_ent z' a b (r b)) /\
    Rsum_range (fun b => (r b - mmul ilo ihi Z0 Q a b) * (r b - mmul ilo ihi Z0 Q a b)) ilo ihi <= e * e).

(** entry k belongs to a diagonal block (a, b; c, d) of h with b*c < 0 whose diagonal entries differ, by less than 2^-52 *)
Definition uneven64 (lo hi : Z) (h : fa b64) (k : Z) : Prop :=
  exists p a b c d, (lo <= p)%Z /\ (p + 1 <= hi)%Z /\ (k = p \/ k = p + 1)%Z /\
    holds_ent h p p a /\ holds_ent h p (p + 1) b /\ holds_ent h (p + 1) p c /\ holds_ent h (p + 1) (p + 1) d /\
    b * c < 0 /\ 0 < Rabs (a - d) < bpow radix2 (-52).

(** T = Q^T*(A - E)*Q on lo..=hi with Q orthogonal and ||E||_F <= x *)
Definition near_similar64 (lo hi : Z) (x : R) (A T Q E : Z -> Z -> R) : Prop :=
  orthogonal lo hi Q /\
  (forall i j, (lo <= i <= hi)%Z -> (lo <= j <= hi)%Z -> T i j = conj_by lo hi Q (fun a b => A a b - E a b) i j) /\
  frob2 lo hi E <= x * x.

(** the number of perturbations a call on a block of order nh can accumulate, and the bound on ||E||_F when ||H||_F <= N:
    each perturbation is at most 2^-39*sqrt(nh)*N *)
Definition hq_steps (nh : Z) : Z := nh * ((30 * Z.max nh 10 + 1) * nh + 1).
Definition hq_unit64 (nh : Z) : R := bpow radix2 (-39) * sqrt (IZR nh).
Definition hq_err64 (N : R) (nh : Z) : R := IZR (hq_steps nh) * (hq_unit64 nh * N).
(** the bound on the error in each row of Z when the rows of Z have norm at most K *)
Definition hq_zerr64 (K : R) (nh : Z) : R := IZR (hq_steps nh) * (bpow radix2 (-41) * K).

(** the matrix with rows (a1, a2, a3), (b1, b2, b3) and (c1, c2, c3) *)
Definition rows3 (a1 a2 a3 b1 b2 b3 c1 c2 c3 : R) (i j : Z) : R :=
  if (i =? 1)%Z then (if (j =? 1)%Z then a1 else if (j =? 2)%Z then a2 else a3)
  else if (i =? 2)%Z then (if (j =? 1)%Z then b1 else if (j =? 2)%Z then b2 else b3)
  else (if (j =? 1)%Z then c1 else if (j =? 2)%Z then c2 else c3).
