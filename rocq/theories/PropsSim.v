(** C42: dlaqr5 with one pair of shifts, not accumulating, in exact arithmetic.  Statements only; the proofs are in
    SimArray.v, SimReflect.v, SimSweep.v, SimLoop.v, SimTop.v.
    The active block is ktop..kbot; with wantt the whole matrix 1..n is updated, otherwise only the block. *)
From Coq Require Import Ascii Reals Lra.
From Flocq Require Import Core.
From Verif Require Import Base Num Array Blas Lapack Dlaqr5 Spec ER SpecR SpecSim SimTop.
Open Scope Z_scope.

(** The H returned is upper Hessenberg and equals Q^T*H*Q for an orthogonal Q that acts on ktop..kbot only, except for
    subdiagonal entries that the deflation test set to zero; those were at most max(n*2^-970, 6*2^-52*N), N bounding the
    Frobenius norm.  Entries outside lo..=hi are unchanged.  The first column of Q is parallel to the first column of
    (H - s1)*(H - s2) (the implicit-Q starting vector).  *)
Theorem c42_similarity : forall SR SI H ZZ V U WV WH (TSR : ToFA er SR) (TSI : ToFA er SI) (TH : ToFA er H) (FH : FromFA er H)
    (TZ : ToFA er ZZ) (FZ : FromFA er ZZ) (TV : ToFA er V) (FV : FromFA er V) (TU : ToFA er U) (FU : FromFA er U)
    (TWV : ToFA er WV) (FWV : FromFA er WV) (TWH : ToFA er WH) (FWH : FromFA er WH)
    (wantt wantz : bool) kacc22 n ktop kbot (sr : SR) (si : SI) (h : H) ldh iloz ihiz (z : ZZ) ldz (v : V) ldv (u : U) ldu nv (wv : WV) ldwv nh (wh : WH) ldwh
    hf zf vf uf wvf whf H0 sr1 si1 sr2 si2 N,
  usable_2d TH FH h ldh hf -> usable_2d TZ FZ z ldz zf -> usable_2d TV FV v ldv vf ->
  usable_2d TU FU u ldu uf -> usable_2d TWV FWV wv ldwv wvf -> usable_2d TWH FWH wh ldwh whf ->
  1 <= ktop < kbot -> kbot <= n -> kacc22 <> 1 -> kacc22 <> 2 ->
  rows hf = ldh -> n <= ldh -> mat_is hf n n H0 -> rows vf = ldv -> 1 <= cols vf -> 3 <= count vf ->
  elem (to_fa sr) 1 = Some (Fin sr1) -> elem (to_fa si) 1 = Some (Fin si1) ->
  elem (to_fa sr) 2 = Some (Fin sr2) -> elem (to_fa si) 2 = Some (Fin si2) ->
  let lo := if wantt then 1 else ktop in let hi := if wantt then n else kbot in
  hessenberg lo hi H0 -> (forall j, ktop <= j < kbot -> H0 (j + 1) j <> 0%R) ->
  (lo < ktop -> H0 ktop (ktop - 1) = 0%R) -> (kbot < hi -> H0 (kbot + 1) kbot = 0%R) ->
  (0 <= N <= 2 ^ 500)%R -> (frob2 lo hi H0 <= N * N)%R ->
  (Rabs sr1 <= 2 ^ 500 /\ Rabs si1 <= 2 ^ 500 /\ Rabs sr2 <= 2 ^ 500 /\ Rabs si2 <= 2 ^ 500)%R ->
  exists hd h' z' v' u' wv' wh' H1 Q,
    dlaqr5 wantt wantz kacc22 n ktop kbot 2 sr si h ldh iloz ihiz z ldz v ldv u ldu nv wv ldwv nh wh ldwh = Ok (h', z', v', u', wv', wh') /\
    from_fa hd = Ok h' /\ same_shape hd hf /\ mat_is hd n n H1 /\ orthogonal lo hi Q /\ identity_outside ktop kbot Q /\ hessenberg lo hi H1 /\
    (forall i j, lo <= i <= hi -> lo <= j <= hi ->
      H1 i j = conj_by lo hi Q H0 i j \/
      (ktop <= j <= kbot - 2 /\ i = j + 1) /\ H1 i j = 0%R /\
      (Rabs (conj_by lo hi Q H0 i j) <= Rmax (IZR n * bpow radix2 (-970)) (6 * bpow radix2 (-52) * N))%R) /\
    (forall i j, 1 <= i <= n -> 1 <= j <= n -> ~ (lo <= i <= hi /\ lo <= j <= hi) -> H1 i j = H0 i j) /\
    (shift_pair (sr1, si1) (sr2, si2) -> exists c, forall i, 1 <= i <= kbot - ktop + 1 ->
      shift_column (kbot - ktop + 1) (fun a b => H0 (ktop - 1 + a) (ktop - 1 + b)) (sr1, si1) (sr2, si2) i = cre (c * Q (ktop - 1 + i) ktop)).
Proof. exact dlaqr5_similar. Qed.
Print Assumptions c42_similarity.
Example c42_similarity_hyps : let s := [Fin 1; Fin 3] in let z := [Fin 0; Fin 0] in let w := [Fin 0; Fin 0; Fin 0] in
  usable_2d _ _ tri4 4 (fa_of_nested tri4) /\ rows (fa_of_nested tri4) = 4 /\ mat_is (fa_of_nested tri4) 4 4 tri /\
  (exists vf, usable_2d _ _ w 3 vf /\ rows vf = 3 /\ 1 <= cols vf /\ 3 <= count vf) /\
  elem (to_fa s) 1 = Some (Fin 1) /\ elem (to_fa s) 2 = Some (Fin 3) /\ elem (to_fa z) 1 = Some (Fin 0) /\ elem (to_fa z) 2 = Some (Fin 0) /\
  hessenberg 1 4 tri /\ (forall j, 1 <= j < 4 -> tri (j + 1) j <> 0%R) /\ (frob2 1 4 tri <= 5 * 5)%R /\ (0 <= 5 <= 2 ^ 500)%R /\ (Rabs 1 <= 2 ^ 500 /\ Rabs 3 <= 2 ^ 500 /\ Rabs 0 <= 2 ^ 500)%R.
Proof. exact tri4_hyps. Qed.

(** the trace is preserved exactly: no diagonal entry is touched by the deflation *)
Theorem c42_trace : forall SR SI H ZZ V U WV WH (TSR : ToFA er SR) (TSI : ToFA er SI) (TH : ToFA er H) (FH : FromFA er H)
    (TZ : ToFA er ZZ) (FZ : FromFA er ZZ) (TV : ToFA er V) (FV : FromFA er V) (TU : ToFA er U) (FU : FromFA er U)
    (TWV : ToFA er WV) (FWV : FromFA er WV) (TWH : ToFA er WH) (FWH : FromFA er WH)
    (wantt wantz : bool) kacc22 n ktop kbot (sr : SR) (si : SI) (h : H) ldh iloz ihiz (z : ZZ) ldz (v : V) ldv (u : U) ldu nv (wv : WV) ldwv nh (wh : WH) ldwh
    hf zf vf uf wvf whf H0 sr1 si1 sr2 si2 N,
  usable_2d TH FH h ldh hf -> usable_2d TZ FZ z ldz zf -> usable_2d TV FV v ldv vf ->
  usable_2d TU FU u ldu uf -> usable_2d TWV FWV wv ldwv wvf -> usable_2d TWH FWH wh ldwh whf ->
  1 <= ktop < kbot -> kbot <= n -> kacc22 <> 1 -> kacc22 <> 2 ->
  rows hf = ldh -> n <= ldh -> mat_is hf n n H0 -> rows vf = ldv -> 1 <= cols vf -> 3 <= count vf ->
  elem (to_fa sr) 1 = Some (Fin sr1) -> elem (to_fa si) 1 = Some (Fin si1) ->
  elem (to_fa sr) 2 = Some (Fin sr2) -> elem (to_fa si) 2 = Some (Fin si2) ->
  let lo := if wantt then 1 else ktop in let hi := if wantt then n else kbot in
  hessenberg lo hi H0 -> (forall j, ktop <= j < kbot -> H0 (j + 1) j <> 0%R) ->
  (lo < ktop -> H0 ktop (ktop - 1) = 0%R) -> (kbot < hi -> H0 (kbot + 1) kbot = 0%R) ->
  (0 <= N <= 2 ^ 500)%R -> (frob2 lo hi H0 <= N * N)%R ->
  (Rabs sr1 <= 2 ^ 500 /\ Rabs si1 <= 2 ^ 500 /\ Rabs sr2 <= 2 ^ 500 /\ Rabs si2 <= 2 ^ 500)%R ->
  exists hd h' z' v' u' wv' wh' H1,
    dlaqr5 wantt wantz kacc22 n ktop kbot 2 sr si h ldh iloz ihiz z ldz v ldv u ldu nv wv ldwv nh wh ldwh = Ok (h', z', v', u', wv', wh') /\
    from_fa hd = Ok h' /\ mat_is hd n n H1 /\ trace 1 n H1 = trace 1 n H0.
Proof. exact dlaqr5_trace. Qed.
Print Assumptions c42_trace.
