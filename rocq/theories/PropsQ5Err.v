(** C59: dlaqr5 with one pair of shifts, not accumulating, in binary64.  Statements only; the proofs are in Q5Get.v,
    Q5ErrReal.v, Q5ErrRefl.v, Q5ErrStep.v, Q5ErrStart.v, Q5ErrVig.v, Q5ErrCol.v, Q5ErrLoop.v, Q5ErrTop.v.
    The active block is ktop..kbot; with wantt the whole matrix 1..n is updated, otherwise only the block.  N bounds the
    Frobenius norm and the shifts; rr bounds the subdiagonal entries of the block from below relative to N. *)
From Coq Require Import Ascii Reals Lra.
From Flocq Require Import IEEE754.BinarySingleNaN Core.
From Verif Require Import Base Num Array Blas Lapack Dlaqr5 Spec ER SpecR SpecErr SpecSim SpecHq SpecHqErr B64.
From Verif Require SimTop Q5ErrTop.
Open Scope Z_scope.

(** The call returns; the H returned is finite, upper Hessenberg, and equals Q^T*(H - E)*Q for an orthogonal Q that acts on
    ktop..kbot only and an E of Frobenius norm at most 2*(kbot-ktop)*2^-39*sqrt(order)*N.  The first column of Q is, within
    2^-36*N^2 in each component, a multiple of the (real part of the) first column of (H - s1)*(H - s2).  Entries outside lo..=hi
    are bit for bit unchanged. *)
Theorem c59_similarity : forall lm, libm_ok lm -> let NB : Num b64 := B64 lm in
  forall SR SI H ZZ V U WV WH (TSR : ToFA b64 SR) (TSI : ToFA b64 SI) (TH : ToFA b64 H) (FH : FromFA b64 H)
    (TZ : ToFA b64 ZZ) (FZ : FromFA b64 ZZ) (TV : ToFA b64 V) (FV : FromFA b64 V) (TU : ToFA b64 U) (FU : FromFA b64 U)
    (TWV : ToFA b64 WV) (FWV : FromFA b64 WV) (TWH : ToFA b64 WH) (FWH : FromFA b64 WH)
    (wantt wantz : bool) kacc22 n ktop kbot (sr : SR) (si : SI) (h : H) ldh iloz ihiz (z : ZZ) ldz (v : V) ldv (u : U) ldu nv (wv : WV) ldwv nh (wh : WH) ldwh
    hf zf vf uf wvf whf H0 sr1 si1 sr2 si2 N rr,
  usable_2d TH FH h ldh hf -> usable_2d TZ FZ z ldz zf -> usable_2d TV FV v ldv vf ->
  usable_2d TU FU u ldu uf -> usable_2d TWV FWV wv ldwv wvf -> usable_2d TWH FWH wh ldwh whf ->
  1 <= ktop < kbot -> kbot <= n <= 2 ^ 25 -> kacc22 <> 1 -> kacc22 <> 2 ->
  rows hf = ldh -> n <= ldh -> n * ldh <= count hf -> rows vf = ldv -> 1 <= cols vf -> 3 <= count vf ->
  holds_at (to_fa sr) 1 sr1 -> holds_at (to_fa si) 1 si1 -> holds_at (to_fa sr) 2 sr2 -> holds_at (to_fa si) 2 si2 ->
  let lo := if wantt then 1 else ktop in let hi := if wantt then n else kbot in
  (forall a b, lo <= a <= hi -> lo <= b <= hi -> holds_ent hf a b (H0 a b)) -> hessenberg lo hi H0 ->
  (lo < ktop -> H0 ktop (ktop - 1) = 0%R) -> (kbot < hi -> H0 (kbot + 1) kbot = 0%R) ->
  (bpow radix2 (-890) <= N <= bpow radix2 397)%R -> (frob2 lo hi H0 <= N * N)%R ->
  (Rabs sr1 <= N /\ Rabs si1 <= N /\ Rabs sr2 <= N /\ Rabs si2 <= N)%R ->
  (0 < rr <= 1)%R -> (forall j, ktop <= j < kbot -> (20 * N * rr <= Rabs (H0 (j + 1)%Z j))%R) ->
  (bpow radix2 (-900) <= rr ^ Z.to_nat (kbot - ktop) /\ bpow radix2 (-900) <= N * rr ^ Z.to_nat (kbot - ktop))%R ->
  exists hd h' z' v' u' wv' wh' H1 Q E,
    dlaqr5 wantt wantz kacc22 n ktop kbot 2 sr si h ldh iloz ihiz z ldz v ldv u ldu nv wv ldwv nh wh ldwh = Ok (h', z', v', u', wv', wh') /\
    from_fa hd = Ok h' /\ same_shape hd hf /\ (forall a b, lo <= a <= hi -> lo <= b <= hi -> holds_ent hd a b (H1 a b)) /\ hessenberg lo hi H1 /\
    near_similar64 lo hi (IZR (kbot - ktop) * (2 * (hq_unit64 (hi - lo + 1)%Z * N)))%R H0 H1 Q E /\ identity_outside ktop kbot Q /\
    (forall a b, 1 <= a <= n -> 1 <= b <= n -> ~ (lo <= a <= hi /\ lo <= b <= hi) -> ent hd a b = ent hf a b) /\
    (exists c, forall i, 1 <= i <= kbot - ktop + 1 ->
      (Rabs (fst (shift_column (kbot - ktop + 1) (fun a b => H0 (ktop - 1 + a)%Z (ktop - 1 + b)%Z) (sr1, si1) (sr2, si2) i) - c * Q (ktop - 1 + i)%Z ktop) <= bpow radix2 (-36) * (N * N))%R).
Proof. exact @Q5ErrTop.dlaqr5_near. Qed.
Print Assumptions c59_similarity.

(** the matrix tridiag(1, 2, 1) of order 4 with shifts 1 and 3, N = 5 and rr = 1/100 *)
Example c59_hyps : forall lm, let NB : Num b64 := B64 lm in
  let d m := b64_dy m 0 in let h := [[d 2; d 1; d 0; d 0]; [d 1; d 2; d 1; d 0]; [d 0; d 1; d 2; d 1]; [d 0; d 0; d 1; d 2]] in
  let s := [d 1; d 3] in let z := [d 0; d 0] in let w := [d 0; d 0; d 0] in
  usable_2d _ _ h 4 (fa_of_nested h) /\ rows (fa_of_nested h) = 4 /\ 4 * 4 <= count (fa_of_nested h) /\
  (forall a b, 1 <= a <= 4 -> 1 <= b <= 4 -> holds_ent (fa_of_nested h) a b (SimTop.tri a b)) /\
  (exists vf, usable_2d _ _ w 3 vf /\ rows vf = 3 /\ 1 <= cols vf /\ 3 <= count vf) /\
  holds_at (to_fa s) 1 1 /\ holds_at (to_fa s) 2 3 /\ holds_at (to_fa z) 1 0 /\ holds_at (to_fa z) 2 0 /\
  hessenberg 1 4 SimTop.tri /\ (forall j, 1 <= j < 4 -> (20 * 5 * (1 / 100) <= Rabs (SimTop.tri (j + 1)%Z j))%R) /\ (frob2 1 4 SimTop.tri <= 5 * 5)%R /\
  (bpow radix2 (-890) <= 5 <= bpow radix2 397)%R /\ (Rabs 1 <= 5 /\ Rabs 0 <= 5 /\ Rabs 3 <= 5)%R /\ (0 < 1 / 100 <= 1)%R /\
  (bpow radix2 (-900) <= (1 / 100) ^ Z.to_nat (4 - 1) /\ bpow radix2 (-900) <= 5 * (1 / 100) ^ Z.to_nat (4 - 1))%R.
Proof. exact Q5ErrTop.tri64_hyps. Qed.

(** The spectrum of the H returned, with its trace, is exactly that of the H given plus a perturbation of that size. *)
Theorem c59_spectrum : forall lm, libm_ok lm -> let NB : Num b64 := B64 lm in
  forall SR SI H ZZ V U WV WH (TSR : ToFA b64 SR) (TSI : ToFA b64 SI) (TH : ToFA b64 H) (FH : FromFA b64 H)
    (TZ : ToFA b64 ZZ) (FZ : FromFA b64 ZZ) (TV : ToFA b64 V) (FV : FromFA b64 V) (TU : ToFA b64 U) (FU : FromFA b64 U)
    (TWV : ToFA b64 WV) (FWV : FromFA b64 WV) (TWH : ToFA b64 WH) (FWH : FromFA b64 WH)
    (wantt wantz : bool) kacc22 n ktop kbot (sr : SR) (si : SI) (h : H) ldh iloz ihiz (z : ZZ) ldz (v : V) ldv (u : U) ldu nv (wv : WV) ldwv nh (wh : WH) ldwh
    hf zf vf uf wvf whf H0 sr1 si1 sr2 si2 N rr,
  usable_2d TH FH h ldh hf -> usable_2d TZ FZ z ldz zf -> usable_2d TV FV v ldv vf ->
  usable_2d TU FU u ldu uf -> usable_2d TWV FWV wv ldwv wvf -> usable_2d TWH FWH wh ldwh whf ->
  1 <= ktop < kbot -> kbot <= n <= 2 ^ 25 -> kacc22 <> 1 -> kacc22 <> 2 ->
  rows hf = ldh -> n <= ldh -> n * ldh <= count hf -> rows vf = ldv -> 1 <= cols vf -> 3 <= count vf ->
  holds_at (to_fa sr) 1 sr1 -> holds_at (to_fa si) 1 si1 -> holds_at (to_fa sr) 2 sr2 -> holds_at (to_fa si) 2 si2 ->
  let lo := if wantt then 1 else ktop in let hi := if wantt then n else kbot in
  (forall a b, lo <= a <= hi -> lo <= b <= hi -> holds_ent hf a b (H0 a b)) -> hessenberg lo hi H0 ->
  (lo < ktop -> H0 ktop (ktop - 1) = 0%R) -> (kbot < hi -> H0 (kbot + 1) kbot = 0%R) ->
  (bpow radix2 (-890) <= N <= bpow radix2 397)%R -> (frob2 lo hi H0 <= N * N)%R ->
  (Rabs sr1 <= N /\ Rabs si1 <= N /\ Rabs sr2 <= N /\ Rabs si2 <= N)%R ->
  (0 < rr <= 1)%R -> (forall j, ktop <= j < kbot -> (20 * N * rr <= Rabs (H0 (j + 1)%Z j))%R) ->
  (bpow radix2 (-900) <= rr ^ Z.to_nat (kbot - ktop) /\ bpow radix2 (-900) <= N * rr ^ Z.to_nat (kbot - ktop))%R ->
  exists hd h' z' v' u' wv' wh' H1 E,
    dlaqr5 wantt wantz kacc22 n ktop kbot 2 sr si h ldh iloz ihiz z ldz v ldv u ldu nv wv ldwv nh wh ldwh = Ok (h', z', v', u', wv', wh') /\
    from_fa hd = Ok h' /\ (forall a b, lo <= a <= hi -> lo <= b <= hi -> holds_ent hd a b (H1 a b)) /\
    (let x := IZR (kbot - ktop) * (2 * (hq_unit64 (hi - lo + 1)%Z * N)) in frob2 lo hi E <= x * x)%R /\
    (forall l, eigenvalue_of lo hi H1 l <-> eigenvalue_of lo hi (fun a b => H0 a b - E a b)%R l) /\
    trace lo hi H1 = trace lo hi (fun a b => H0 a b - E a b)%R.
Proof. exact @Q5ErrTop.dlaqr5_spectrum64. Qed.
Print Assumptions c59_spectrum.
