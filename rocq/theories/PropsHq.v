(** Property C48: what dlahqr returns with wantt = true, over exact reals. *)
From Flocq Require Import Core.
From Coq Require Import Reals Lra.
From Verif Require Import Base Num Array Blas Lapack Dlahqr Spec ER SpecR SpecSim SpecHq Lists FaLemmas LahqrProofs LahqrTop LahqrNum RealMat SimArray HqCall HqExample.
Open Scope Z_scope.

(** ** C48 *)
(** Whenever the call returns there are an orthogonal Q and a matrix E with trace 0 and ||E||_F at most hq_error such
    that T = Q^T*(H0 - E)*Q is upper Hessenberg, block triangular with standard blocks from the first converged row on,
    wr and wi are read off those blocks, the returned H agrees with T on and below the diagonal and inside the unsplit
    blocks, and the returned Z is Z0*Q. *)
Theorem c48_schur : forall H WR WI ZZ (TH : ToFA er H) (FH : FromFA er H) (TWR : ToFA er WR) (FWR : FromFA er WR)
    (TWI : ToFA er WI) (FWI : FromFA er WI) (TZ : ToFA er ZZ) (FZ : FromFA er ZZ)
    (wantz : bool) n ilo ihi (h : H) (wr : WR) (wi : WI) iloz ihiz (z : ZZ) ldz (H0 Z0 : Z -> Z -> R) (N : R)
    fuel (h' : H) (wr' : WR) (wi' : WI) (z' : ZZ) info,
  usable TH FH h -> usable TWR FWR wr -> usable TWI FWI wi -> usable TZ FZ z ->
  1 <= ilo -> ilo < ihi -> ihi <= n -> n <= rows (to_fa h) -> ihi <= count (to_fa wr) -> ihi <= count (to_fa wi) ->
  mat_is (to_fa h) n n H0 -> hessenberg ilo ihi H0 -> (0 <= N <= 2 ^ 500)%R -> (frob2 ilo ihi H0 <= N * N)%R ->
  (wantz = true -> 1 <= iloz <= ihiz /\ ihiz <= n /\ n <= rows (to_fa z) /\ mat_is (to_fa z) n n Z0) ->
  dlahqr fuel true wantz n ilo ihi h (rows (to_fa h)) wr wi iloz ihiz z ldz = Ok (h', wr', wi', z', info) ->
  exists hd wrd wid zd M T Q E,
    from_fa hd = Ok h' /\ from_fa wrd = Ok wr' /\ from_fa wid = Ok wi' /\ from_fa zd = Ok z' /\ mat_is hd n n M /\
    nearly_similar ilo ihi (hq_error N (ihi - ilo + 1)) H0 T Q E /\ hessenberg ilo ihi T /\ blocks_agree ilo ihi M T /\
    quasi_schur ilo ihi T wrd wid (if info =? 0 then ilo else info + 1) /\ (info = 0 \/ ilo <= info <= ihi) /\
    (wantz = true -> exists Z', mat_is zd n n Z' /\
      forall a b, 1 <= a <= n -> 1 <= b <= n -> Z' a b =
        if (iloz <=? a) && (a <=? ihiz) && (ilo <=? b) && (b <=? ihi) then mmul ilo ihi Z0 Q a b else Z0 a b).
Proof. exact @dlahqr_schur. Qed.
Print Assumptions c48_schur.

(** Every (wr k, wi k) reported is an eigenvalue of H0 - E, unless it belongs to a returned block with b*c < 0 whose
    diagonal entries differ by less than 2^-52; with info = 0 the real parts sum to the trace of H0. *)
Theorem c48_eigenvalues : forall H WR WI ZZ (TH : ToFA er H) (FH : FromFA er H) (TWR : ToFA er WR) (FWR : FromFA er WR)
    (TWI : ToFA er WI) (FWI : FromFA er WI) (TZ : ToFA er ZZ) (FZ : FromFA er ZZ)
    (wantz : bool) n ilo ihi (h : H) (wr : WR) (wi : WI) iloz ihiz (z : ZZ) ldz (H0 Z0 : Z -> Z -> R) (N : R)
    fuel (h' : H) (wr' : WR) (wi' : WI) (z' : ZZ) info,
  usable TH FH h -> usable TWR FWR wr -> usable TWI FWI wi -> usable TZ FZ z ->
  1 <= ilo -> ilo < ihi -> ihi <= n -> n <= rows (to_fa h) -> ihi <= count (to_fa wr) -> ihi <= count (to_fa wi) ->
  mat_is (to_fa h) n n H0 -> hessenberg ilo ihi H0 -> (0 <= N <= 2 ^ 500)%R -> (frob2 ilo ihi H0 <= N * N)%R ->
  (wantz = true -> 1 <= iloz <= ihiz /\ ihiz <= n /\ n <= rows (to_fa z) /\ mat_is (to_fa z) n n Z0) ->
  dlahqr fuel true wantz n ilo ihi h (rows (to_fa h)) wr wi iloz ihiz z ldz = Ok (h', wr', wi', z', info) ->
  exists hd wrd wid M E lr li,
    from_fa hd = Ok h' /\ from_fa wrd = Ok wr' /\ from_fa wid = Ok wi' /\ mat_is hd n n M /\
    (frob2 ilo ihi E <= hq_error N (ihi - ilo + 1) * hq_error N (ihi - ilo + 1))%R /\
    (forall k, (if info =? 0 then ilo else info + 1) <= k <= ihi -> elem wrd k = Some (Fin (lr k)) /\ elem wid k = Some (Fin (li k)) /\
      (eigenvalue_of ilo ihi (fun a b => H0 a b - E a b)%R (lr k, li k) \/ uneven_block ilo ihi M k)) /\
    (info = 0 -> Rsum_range lr ilo ihi = trace ilo ihi H0).
Proof. exact @dlahqr_eigen. Qed.
Print Assumptions c48_eigenvalues.

(** a 3-by-3 matrix on which the call returns, after splitting off a block of order 1 and one of order 2 *)
Example c48_hyps : exists (H0 I0 : Z -> Z -> R),
  let h := [[Fin 1; Fin 3; Fin 0]; [Fin 2; Fin 4; Fin 0]; [Fin 5; Fin 6; Fin 7]] in
  let z := [[Fin 1; Fin 0; Fin 0]; [Fin 0; Fin 1; Fin 0]; [Fin 0; Fin 0; Fin 1]] in
  mat_is (to_fa h) 3 3 H0 /\ mat_is (to_fa z) 3 3 I0 /\ hessenberg 1 3 H0 /\ (frob2 1 3 H0 <= 12 * 12)%R /\ (0 <= 12 <= 2 ^ 500)%R /\
  exists r, dlahqr 2 true true 3 1 3 h (rows (to_fa h)) [Fin 0; Fin 0; Fin 0] [Fin 0; Fin 0; Fin 0] 1 3 z 3 = Ok (r, 0).
Proof. exact three_hyps. Qed.

(** The exception is needed.  For a 2-by-2 matrix with b*c < 0 and 2*x < |a-d| < 2^-52 neither reported pair is an eigenvalue
    of any matrix within x of the input; x = hq_error is allowed, so the backward error of c48_eigenvalues is exceeded. *)
Theorem c48_uneven_refuted : forall a b c d x, (Rabs a <= bpow radix2 1021 /\ Rabs b <= bpow radix2 1021 /\ Rabs c <= bpow radix2 1021 /\ Rabs d <= bpow radix2 1021)%R ->
  (bpow radix2 (-969) < Rabs c)%R -> (bpow radix2 (-52) * (Rabs a + Rabs d) < Rabs c)%R -> (b * c < 0)%R -> (0 <= x)%R ->
  (2 * x < Rabs (a - d) < bpow radix2 (-52))%R ->
  exists h' z' s, dlahqr 1 true true 2 1 2 [[Fin a; Fin c]; [Fin b; Fin d]] 2 [Fin 0; Fin 0] [Fin 0; Fin 0] 1 2 [[Fin 1; Fin 0]; [Fin 0; Fin 1]] 2 =
      Ok (h', [Fin a; Fin d], [Fin s; Fin (- s)], z', 0) /\
    forall E, (frob2 1 2 E <= x * x)%R ->
      ~ eigenvalue_of 1 2 (fun i j => rows2 a b c d i j - E i j)%R (a, s) /\
      ~ eigenvalue_of 1 2 (fun i j => rows2 a b c d i j - E i j)%R (d, - s)%R.
Proof. exact dlahqr_uneven. Qed.
Print Assumptions c48_uneven_refuted.
(** ((2^-60, 2^-70), (-2^-70, -2^-60)) *)
Example c48_uneven_hyps : let e := bpow radix2 (-70) in let a := (1024 * e)%R in
  (Rabs a <= bpow radix2 1021 /\ Rabs e <= bpow radix2 1021)%R /\ (bpow radix2 (-969) < Rabs (- e))%R /\
  (bpow radix2 (-52) * (Rabs a + Rabs (- a)) < Rabs (- e))%R /\ (e * - e < 0)%R /\ (frob2 1 2 (rows2 a e (- e) (- a)) <= (2048 * e) * (2048 * e))%R /\
  (0 <= hq_error (2048 * e) 2 /\ 2 * hq_error (2048 * e) 2 < Rabs (a - - a) < bpow radix2 (-52))%R.
Proof. exact uneven_hyps. Qed.
