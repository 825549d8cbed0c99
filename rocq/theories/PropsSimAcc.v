(** C42: dlaqr5 with one pair of shifts, accumulating (kacc22 = 1 or 2), in exact arithmetic.  Statements only; the proofs are in
    SimNear.v, SimFar.v, SimAccum.v, SimAccTop.v.  H and Z have the same leading dimension: with ldz <> ldh the code reads H at
    the wrong stride (PropsLaqr5.v).  The work arrays have the documented sizes: U 4x4, WV nv x 4, WH 4 x nh. *)
From Coq Require Import Ascii Reals Lra.
From Flocq Require Import Core.
From Verif Require Import Base Num Array Blas Lapack Dlaqr5 Spec ER SpecR SpecSim SimTop SimAccTop.
Open Scope Z_scope.

(** H becomes Q^T*H*Q as in c42_similarity, and rows iloz..=ihiz of Z are multiplied by the same Q; nothing else in Z changes.  *)
Theorem c42_accumulated : forall SR SI H ZZ V U WV WH (TSR : ToFA er SR) (TSI : ToFA er SI) (TH : ToFA er H) (FH : FromFA er H)
    (TZ : ToFA er ZZ) (FZ : FromFA er ZZ) (TV : ToFA er V) (FV : FromFA er V) (TU : ToFA er U) (FU : FromFA er U)
    (TWV : ToFA er WV) (FWV : FromFA er WV) (TWH : ToFA er WH) (FWH : FromFA er WH)
    (wantt wantz : bool) kacc22 n ktop kbot (sr : SR) (si : SI) (h : H) ld iloz ihiz (z : ZZ) (v : V) ldv (u : U) ldu nv (wv : WV) ldwv nh (wh : WH) ldwh
    hf zf vf uf wvf whf H0 Z0 sr1 si1 sr2 si2 N,
  usable_2d TH FH h ld hf -> usable_2d TZ FZ z ld zf -> usable_2d TV FV v ldv vf ->
  usable_2d TU FU u ldu uf -> usable_2d TWV FWV wv ldwv wvf -> usable_2d TWH FWH wh ldwh whf ->
  1 <= ktop < kbot -> kbot <= n -> kacc22 = 1 \/ kacc22 = 2 ->
  rows hf = ld -> n <= ld -> n <= cols hf -> mat_is hf n n H0 -> rows vf = ldv -> 1 <= cols vf -> 3 <= count vf ->
  rows uf = ldu -> 4 <= ldu -> 4 <= cols uf -> rows wvf = ldwv -> 1 <= nv <= ldwv -> 4 <= cols wvf -> rows whf = ldwh -> 4 <= ldwh -> 1 <= nh <= cols whf ->
  rows zf = ld -> 1 <= cols zf ->
  (wantz = true -> 1 <= iloz /\ ihiz <= ld /\ kbot <= cols zf /\
    forall i j, iloz <= i <= ihiz -> ktop <= j <= kbot -> ent zf i j = Some (Fin (Z0 i j))) ->
  elem (to_fa sr) 1 = Some (Fin sr1) -> elem (to_fa si) 1 = Some (Fin si1) ->
  elem (to_fa sr) 2 = Some (Fin sr2) -> elem (to_fa si) 2 = Some (Fin si2) ->
  let lo := if wantt then 1 else ktop in let hi := if wantt then n else kbot in
  hessenberg lo hi H0 -> (forall j, ktop <= j < kbot -> H0 (j + 1) j <> 0%R) ->
  (lo < ktop -> H0 ktop (ktop - 1) = 0%R) -> (kbot < hi -> H0 (kbot + 1) kbot = 0%R) ->
  (0 <= N <= 2 ^ 500)%R -> (frob2 lo hi H0 <= N * N)%R ->
  (Rabs sr1 <= 2 ^ 500 /\ Rabs si1 <= 2 ^ 500 /\ Rabs sr2 <= 2 ^ 500 /\ Rabs si2 <= 2 ^ 500)%R ->
  exists hd zd h' z' v' u' wv' wh' H1 Q,
    dlaqr5 wantt wantz kacc22 n ktop kbot 2 sr si h ld iloz ihiz z ld v ldv u ldu nv wv ldwv nh wh ldwh = Ok (h', z', v', u', wv', wh') /\
    from_fa hd = Ok h' /\ same_shape hd hf /\ mat_is hd n n H1 /\ orthogonal lo hi Q /\ identity_outside ktop kbot Q /\ hessenberg lo hi H1 /\
    (forall i j, lo <= i <= hi -> lo <= j <= hi ->
      H1 i j = conj_by lo hi Q H0 i j \/
      (ktop <= j <= kbot - 2 /\ i = j + 1) /\ H1 i j = 0%R /\
      (Rabs (conj_by lo hi Q H0 i j) <= Rmax (IZR n * bpow radix2 (-970)) (6 * bpow radix2 (-52) * N))%R) /\
    (forall i j, 1 <= i <= n -> 1 <= j <= n -> ~ (lo <= i <= hi /\ lo <= j <= hi) -> H1 i j = H0 i j) /\
    (shift_pair (sr1, si1) (sr2, si2) -> exists c, forall i, 1 <= i <= kbot - ktop + 1 ->
      shift_column (kbot - ktop + 1) (fun a b => H0 (ktop - 1 + a) (ktop - 1 + b)) (sr1, si1) (sr2, si2) i = cre (c * Q (ktop - 1 + i) ktop)) /\
    from_fa zd = Ok z' /\ same_shape zd zf /\ (wantz = false -> zd = zf) /\
    (wantz = true -> (forall i j, iloz <= i <= ihiz -> ktop <= j <= kbot -> ent zd i j = Some (Fin (mmul ktop kbot Z0 Q i j))) /\
      (forall i j, 1 <= i <= ld -> ~ (iloz <= i <= ihiz /\ ktop <= j <= kbot) -> ent zd i j = ent zf i j)).
Proof. exact dlaqr5_accum. Qed.
Print Assumptions c42_accumulated.
Example c42_accumulated_hyps : (usable_2d _ _ tri4 4 (fa_of_nested tri4) /\ 4 <= cols (fa_of_nested tri4)) /\
  (usable_2d _ _ id4 4 (fa_of_nested id4) /\ rows (fa_of_nested id4) = 4 /\ 4 <= cols (fa_of_nested id4) /\ mat_is (fa_of_nested id4) 4 4 Rid) /\
  orthogonal 1 4 Rid /\ (forall i j, 1 <= i <= 4 -> 1 <= j <= 4 -> tri i j = conj_by 1 4 Rid tri i j).
Proof. exact acc4_hyps. Qed.

(** In terms of the factorisation the caller maintains: if Z is orthogonal and H = Z^T*A*Z on entry, then on return Z is
    orthogonal, H is upper Hessenberg and H = Z^T*A*Z, up to the subdiagonal entries that were deflated.  *)
Theorem c42_schur_invariant : forall SR SI H ZZ V U WV WH (TSR : ToFA er SR) (TSI : ToFA er SI) (TH : ToFA er H) (FH : FromFA er H)
    (TZ : ToFA er ZZ) (FZ : FromFA er ZZ) (TV : ToFA er V) (FV : FromFA er V) (TU : ToFA er U) (FU : FromFA er U)
    (TWV : ToFA er WV) (FWV : FromFA er WV) (TWH : ToFA er WH) (FWH : FromFA er WH)
    kacc22 n ktop kbot (sr : SR) (si : SI) (h : H) ld (z : ZZ) (v : V) ldv (u : U) ldu nv (wv : WV) ldwv nh (wh : WH) ldwh
    hf zf vf uf wvf whf (A H0 Z0 : Z -> Z -> R) sr1 si1 sr2 si2 N,
  usable_2d TH FH h ld hf -> usable_2d TZ FZ z ld zf -> usable_2d TV FV v ldv vf ->
  usable_2d TU FU u ldu uf -> usable_2d TWV FWV wv ldwv wvf -> usable_2d TWH FWH wh ldwh whf ->
  1 <= ktop < kbot -> kbot <= n -> kacc22 = 1 \/ kacc22 = 2 ->
  rows hf = ld -> n <= ld -> n <= cols hf -> mat_is hf n n H0 -> rows vf = ldv -> 1 <= cols vf -> 3 <= count vf ->
  rows uf = ldu -> 4 <= ldu -> 4 <= cols uf -> rows wvf = ldwv -> 1 <= nv <= ldwv -> 4 <= cols wvf -> rows whf = ldwh -> 4 <= ldwh -> 1 <= nh <= cols whf ->
  rows zf = ld -> n <= cols zf -> mat_is zf n n Z0 ->
  orthogonal 1 n Z0 -> (forall i j, 1 <= i <= n -> 1 <= j <= n -> H0 i j = conj_by 1 n Z0 A i j) ->
  elem (to_fa sr) 1 = Some (Fin sr1) -> elem (to_fa si) 1 = Some (Fin si1) ->
  elem (to_fa sr) 2 = Some (Fin sr2) -> elem (to_fa si) 2 = Some (Fin si2) ->
  hessenberg 1 n H0 -> (forall j, ktop <= j < kbot -> H0 (j + 1) j <> 0%R) ->
  (1 < ktop -> H0 ktop (ktop - 1) = 0%R) -> (kbot < n -> H0 (kbot + 1) kbot = 0%R) ->
  (0 <= N <= 2 ^ 500)%R -> (frob2 1 n A <= N * N)%R ->
  (Rabs sr1 <= 2 ^ 500 /\ Rabs si1 <= 2 ^ 500 /\ Rabs sr2 <= 2 ^ 500 /\ Rabs si2 <= 2 ^ 500)%R ->
  exists hd zd h' z' v' u' wv' wh' H1 Z1,
    dlaqr5 true true kacc22 n ktop kbot 2 sr si h ld 1 n z ld v ldv u ldu nv wv ldwv nh wh ldwh = Ok (h', z', v', u', wv', wh') /\
    from_fa hd = Ok h' /\ from_fa zd = Ok z' /\ mat_is hd n n H1 /\ mat_is zd n n Z1 /\ hessenberg 1 n H1 /\ orthogonal 1 n Z1 /\
    (forall i j, 1 <= i <= n -> 1 <= j <= n ->
      H1 i j = conj_by 1 n Z1 A i j \/
      (ktop <= j <= kbot - 2 /\ i = j + 1) /\ H1 i j = 0%R /\
      (Rabs (conj_by 1 n Z1 A i j) <= Rmax (IZR n * bpow radix2 (-970)) (6 * bpow radix2 (-52) * N))%R).
Proof. exact dlaqr5_schur. Qed.
Print Assumptions c42_schur_invariant.
Example c42_schur_invariant_case : let s := [Fin 1; Fin 3] in let o := [Fin 0; Fin 0] in let w := [Fin 0; Fin 0; Fin 0] in
  exists hd zd h' z' v' u' wv' wh' H1 Z1,
    dlaqr5 true true 1 4 1 4 2 s o tri4 4 1 4 id4 4 w 3 id4 4 4 id4 4 4 id4 4 = Ok (h', z', v', u', wv', wh') /\
    from_fa hd = Ok h' /\ from_fa zd = Ok z' /\ mat_is hd 4 4 H1 /\ mat_is zd 4 4 Z1 /\ hessenberg 1 4 H1 /\ orthogonal 1 4 Z1 /\
    (forall i j, 1 <= i <= 4 -> 1 <= j <= 4 ->
      H1 i j = conj_by 1 4 Z1 tri i j \/
      (1 <= j <= 4 - 2 /\ i = j + 1) /\ H1 i j = 0%R /\
      (Rabs (conj_by 1 4 Z1 tri i j) <= Rmax (IZR 4 * bpow radix2 (-970)) (6 * bpow radix2 (-52) * 5))%R).
Proof. exact acc4_run. Qed.
