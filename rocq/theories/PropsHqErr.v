(** Property C55: what dlahqr returns with wantt = true, in binary64. *)
From Flocq Require Import Core BinarySingleNaN.
From Coq Require Import Reals Lra.
From Verif Require Import Base Num Array Blas Lapack Dlahqr Spec ER SpecR SpecErr SpecSim SpecHq SpecHqErr B64 B64Lemmas LahqrTop HqErrCall HqErrEig HqErrWit.
Open Scope Z_scope.

(** ** C55 *)
(** Let the active block of H, apart from the second and third subdiagonal (which the call clears first), hold an upper Hessenberg
    matrix H0 of finite numbers, of order at most 850 and norm at most N, and let the rows
    of Z that are to be updated have norm at most K.  Whenever the call returns, either some diagonal entry of the active block
    is NaN, or there are an orthogonal Q and a matrix E with ||E||_F at most hq_err64 such that T = Q^T*(H0 - E)*Q is upper
    Hessenberg, block triangular with standard blocks from the first converged row on, wr and wi are read off those blocks,
    the returned H holds T on and below the diagonal and inside the unsplit blocks, and each row of the returned Z is within
    hq_zerr64 of that row of Z0*Q. *)
Theorem c55_schur : forall lm, libm_ok lm -> let NB : Num b64 := B64 lm in
  forall H WR WI ZZ (TH : ToFA b64 H) (FH : FromFA b64 H) (TWR : ToFA b64 WR) (FWR : FromFA b64 WR)
    (TWI : ToFA b64 WI) (FWI : FromFA b64 WI) (TZ : ToFA b64 ZZ) (FZ : FromFA b64 ZZ)
    (wantz : bool) n ilo ihi (h : H) (wr : WR) (wi : WI) iloz ihiz (z : ZZ) ldz (H0 Z0 : Z -> Z -> R) (N K : R)
    fuel (h' : H) (wr' : WR) (wi' : WI) (z' : ZZ) info,
  usable TH FH h -> usable TWR FWR wr -> usable TWI FWI wi -> usable TZ FZ z ->
  1 <= ilo -> ilo < ihi -> ihi <= n -> ihi - ilo + 1 <= 850 ->
  n <= rows (to_fa h) -> n * rows (to_fa h) <= count (to_fa h) -> ihi <= count (to_fa wr) -> ihi <= count (to_fa wi) ->
  (forall a b, ilo <= a <= ihi -> ilo <= b <= ihi -> a <= b + 1 \/ b + 4 <= a -> holds_ent (to_fa h) a b (H0 a b)) -> hessenberg ilo ihi H0 ->
  (bpow radix2 (-900) <= N <= bpow radix2 398)%R -> (frob2 ilo ihi H0 <= N * N)%R ->
  (wantz = true -> 1 <= iloz <= ihiz /\ ihiz <= n /\ n <= rows (to_fa z) /\ n * rows (to_fa z) <= count (to_fa z) /\
    (bpow radix2 (-900) <= K <= bpow radix2 398)%R /\
    forall a, iloz <= a <= ihiz -> (forall b, ilo <= b <= ihi -> holds_ent (to_fa z) a b (Z0 a b)) /\ (Rsum_range (fun b => Z0 a b * Z0 a b) ilo ihi <= K * K)%R) ->
  dlahqr fuel true wantz n ilo ihi h (rows (to_fa h)) wr wi iloz ihiz z ldz = Ok (h', wr', wi', z', info) ->
  exists hd wrd wid zd,
    from_fa hd = Ok h' /\ from_fa wrd = Ok wr' /\ from_fa wid = Ok wi' /\ from_fa zd = Ok z' /\ (info = 0 \/ ilo <= info <= ihi) /\
    (nan_diag ilo ihi hd \/
     exists T Q E, near_similar64 ilo ihi (hq_err64 N (ihi - ilo + 1)) H0 T Q E /\ hessenberg ilo ihi T /\ blocks64 ilo ihi hd T /\
       schur64 ilo ihi T wrd wid (if info =? 0 then ilo else info + 1) /\
       (wantz = true -> zrows64 n ilo ihi iloz ihiz (to_fa z) zd Z0 Q (hq_zerr64 K (ihi - ilo + 1)))).
Proof. exact @dlahqr_schur64. Qed.
Print Assumptions c55_schur.

(** There is one E, of norm at most hq_err64 + hq_unit64*N, such that every (wr k, wi k) reported is an eigenvalue of H0 - E,
    unless it belongs to a returned block with b*c < 0 whose diagonal entries differ by less than 2^-52; with info = 0 the real
    parts sum to the trace of H0 - E. *)
Theorem c55_eigenvalues : forall lm, libm_ok lm -> let NB : Num b64 := B64 lm in
  forall H WR WI ZZ (TH : ToFA b64 H) (FH : FromFA b64 H) (TWR : ToFA b64 WR) (FWR : FromFA b64 WR)
    (TWI : ToFA b64 WI) (FWI : FromFA b64 WI) (TZ : ToFA b64 ZZ) (FZ : FromFA b64 ZZ)
    (wantz : bool) n ilo ihi (h : H) (wr : WR) (wi : WI) iloz ihiz (z : ZZ) ldz (H0 Z0 : Z -> Z -> R) (N K : R)
    fuel (h' : H) (wr' : WR) (wi' : WI) (z' : ZZ) info,
  usable TH FH h -> usable TWR FWR wr -> usable TWI FWI wi -> usable TZ FZ z ->
  1 <= ilo -> ilo < ihi -> ihi <= n -> ihi - ilo + 1 <= 850 ->
  n <= rows (to_fa h) -> n * rows (to_fa h) <= count (to_fa h) -> ihi <= count (to_fa wr) -> ihi <= count (to_fa wi) ->
  (forall a b, ilo <= a <= ihi -> ilo <= b <= ihi -> a <= b + 1 \/ b + 4 <= a -> holds_ent (to_fa h) a b (H0 a b)) -> hessenberg ilo ihi H0 ->
  (bpow radix2 (-900) <= N <= bpow radix2 398)%R -> (frob2 ilo ihi H0 <= N * N)%R ->
  (wantz = true -> 1 <= iloz <= ihiz /\ ihiz <= n /\ n <= rows (to_fa z) /\ n * rows (to_fa z) <= count (to_fa z) /\
    (bpow radix2 (-900) <= K <= bpow radix2 398)%R /\
    forall a, iloz <= a <= ihiz -> (forall b, ilo <= b <= ihi -> holds_ent (to_fa z) a b (Z0 a b)) /\ (Rsum_range (fun b => Z0 a b * Z0 a b) ilo ihi <= K * K)%R) ->
  dlahqr fuel true wantz n ilo ihi h (rows (to_fa h)) wr wi iloz ihiz z ldz = Ok (h', wr', wi', z', info) ->
  exists hd wrd wid, from_fa hd = Ok h' /\ from_fa wrd = Ok wr' /\ from_fa wid = Ok wi' /\
    (nan_diag ilo ihi hd \/
     exists E lr li,
       (frob2 ilo ihi E <= (hq_err64 N (ihi - ilo + 1) + hq_unit64 (ihi - ilo + 1) * N) * (hq_err64 N (ihi - ilo + 1) + hq_unit64 (ihi - ilo + 1) * N))%R /\
       (forall k, (if info =? 0 then ilo else info + 1) <= k <= ihi -> holds_at wrd k (lr k) /\ holds_at wid k (li k) /\
         (eigenvalue_of ilo ihi (fun a b => H0 a b - E a b)%R (lr k, li k) \/ uneven64 ilo ihi hd k)) /\
       (info = 0 -> Rsum_range lr ilo ihi = trace ilo ihi (fun a b => H0 a b - E a b)%R)).
Proof. exact @dlahqr_eigen64. Qed.
Print Assumptions c55_eigenvalues.

(** ((1, 2, 3), (4, 5, 6), (0, 7, 8)) and Z = I meet the hypotheses, with N = 16 and K = 1; the call returns, info is 0 and
    everything returned is finite *)
Example c55_hyps : forall lm, libm_ok lm -> let NB : Num b64 := B64 lm in let d m := b64_dy m 0 in
  let h := [[d 1; d 4; d 0]; [d 2; d 5; d 7]; [d 3; d 6; d 8]] in
  let z := [[d 1; d 0; d 0]; [d 0; d 1; d 0]; [d 0; d 0; d 1]] in
  let H0 := rows3 1 2 3 4 5 6 0 7 8 in let Z0 := rows3 1 0 0 0 1 0 0 0 1 in
  usable _ _ h /\ usable _ _ z /\ rows (to_fa h) = 3 /\ count (to_fa h) = 9 /\ rows (to_fa z) = 3 /\ count (to_fa z) = 9 /\
  (forall a b, 1 <= a <= 3 -> 1 <= b <= 3 -> holds_ent (to_fa h) a b (H0 a b)) /\ hessenberg 1 3 H0 /\
  (frob2 1 3 H0 <= 16 * 16)%R /\ (bpow radix2 (-900) <= 16 <= bpow radix2 398)%R /\
  (forall a, 1 <= a <= 3 -> (forall b, 1 <= b <= 3 -> holds_ent (to_fa z) a b (Z0 a b)) /\ (Rsum_range (fun b => Z0 a b * Z0 a b) 1 3 <= 1 * 1)%R) /\
  exists h' wr' wi' z', dlahqr 3 true true 3 1 3 h 3 [d 0; d 0; d 0] [d 0; d 0; d 0] 1 3 z 3 = Ok (h', wr', wi', z', 0) /\
    Forall (Forall (fun x => is_finite x = true)) h' /\ Forall (fun x => is_finite x = true) wr' /\ Forall (fun x => is_finite x = true) wi' /\
    Forall (Forall (fun x => is_finite x = true)) z'.
Proof.
  intros lm LM. cbv beta zeta.
  split; [apply (usable_nested _ 3); [lia|discriminate|repeat constructor]|]. split; [apply (usable_nested _ 3); [lia|discriminate|repeat constructor]|].
  do 4 (split; [reflexivity|]). destruct (conv_hyps lm) as (A1 & A2 & A3 & A4).
  split; [exact A1|]. split; [exact A2|]. split; [exact A3|]. split; [exact A4|]. split; [exact (eye_hyps lm)|].
  exact (conv_run lm LM).
Qed.

(** The NaN outcome is real: on ((0, -2^-310, 0), (2^-550, 0, -2^100), (0, 2^-960, 0)), which meets all the hypotheses, all
    three components of the first column of the shifted product are rounded to zero, the reflector becomes 0/0, and the call
    returns info = 3 with NaN on the diagonal.  "Finite input, no overflow possible, so finite output" is false. *)
Theorem c55_finite_refuted : forall lm, libm_ok lm -> let NB : Num b64 := B64 lm in let d m := b64_dy m 0 in
  let h := [[d 0; b64_dy 1 (-550); d 0]; [b64_dy (-1) (-310); d 0; b64_dy 1 (-960)]; [d 0; b64_dy (-1) 100; d 0]] in
  let z := [[d 1; d 0; d 0]; [d 0; d 1; d 0]; [d 0; d 0; d 1]] in
  let H0 := rows3 0 (- bpow radix2 (-310)) 0 (bpow radix2 (-550)) 0 (- bpow radix2 100) 0 (bpow radix2 (-960)) 0 in
  (forall a b, 1 <= a <= 3 -> 1 <= b <= 3 -> holds_ent (to_fa h) a b (H0 a b)) /\ hessenberg 1 3 H0 /\
  (frob2 1 3 H0 <= bpow radix2 101 * bpow radix2 101)%R /\ (bpow radix2 (-900) <= bpow radix2 101 <= bpow radix2 398)%R /\
  exists h' wr' wi' z', dlahqr 3 true true 3 1 3 h 3 [d 0; d 0; d 0] [d 0; d 0; d 0] 1 3 z 3 = Ok (h', wr', wi', z', 3) /\ nan_diag 1 3 (to_fa h').
Proof. exact dlahqr_nan. Qed.
Print Assumptions c55_finite_refuted.
