(** C40-C42: dlaqr5.  Statements only; the proofs are in Laqr5Proofs.v, Laqr5Shifts.v, Laqr5Four.v, Laqr5Top.v, Laqr5Wit.v.
    [usable_2d x ld f]: x, passed with leading dimension ld, becomes the well-formed array f, and converts back. *)
From Coq Require Import Ascii Reals Lia Lra Permutation.
From Flocq Require Import IEEE754.BinarySingleNaN Core.
From Verif Require Import Base Num Array Blas Lapack Dlaqr5 Spec SpecR B64 ER LahqrWit Laqr5Shifts Laqr5Four Laqr5Top Laqr5Wit WitLibm.
Open Scope Z_scope.

(** ** C40 *)
Theorem c40_quick : forall F (NF : Num F) SR SI H ZZ V U WV WH (TSR : ToFA F SR) (TSI : ToFA F SI) (TH : ToFA F H) (FH : FromFA F H)
    (TZ : ToFA F ZZ) (FZ : FromFA F ZZ) (TV : ToFA F V) (FV : FromFA F V) (TU : ToFA F U) (FU : FromFA F U)
    (TWV : ToFA F WV) (FWV : FromFA F WV) (TWH : ToFA F WH) (FWH : FromFA F WH)
    wantt wantz kacc22 n ktop kbot nshfts (sr : SR) (si : SI) (h : H) ldh iloz ihiz (z : ZZ) ldz (v : V) ldv (u : U) ldu nv (wv : WV) ldwv nh (wh : WH) ldwh
    hf zf vf uf wvf whf,
  to_fa_2d h ldh = Ok hf -> to_fa_2d z ldz = Ok zf -> to_fa_2d v ldv = Ok vf ->
  to_fa_2d u ldu = Ok uf -> to_fa_2d wv ldwv = Ok wvf -> to_fa_2d wh ldwh = Ok whf ->
  nshfts < 2 \/ kbot <= ktop ->
  dlaqr5 wantt wantz kacc22 n ktop kbot nshfts sr si h ldh iloz ihiz z ldz v ldv u ldu nv wv ldwv nh wh ldwh = Ok (h, z, v, u, wv, wh).
Proof. exact @dlaqr5_quick_returns. Qed.
Print Assumptions c40_quick.

(** one pair of shifts, not accumulating: it returns, H, Z and V keep their shapes, U, WV and WH their contents *)
Theorem c40_returns : forall F (NF : Num F) SR SI H ZZ V U WV WH (TSR : ToFA F SR) (TSI : ToFA F SI) (TH : ToFA F H) (FH : FromFA F H)
    (TZ : ToFA F ZZ) (FZ : FromFA F ZZ) (TV : ToFA F V) (FV : FromFA F V) (TU : ToFA F U) (FU : FromFA F U)
    (TWV : ToFA F WV) (FWV : FromFA F WV) (TWH : ToFA F WH) (FWH : FromFA F WH)
    wantt wantz kacc22 n ktop kbot nshfts (sr : SR) (si : SI) (h : H) ldh iloz ihiz (z : ZZ) ldz (v : V) ldv (u : U) ldu nv (wv : WV) ldwv nh (wh : WH) ldwh
    hf zf vf uf wvf whf,
  usable_2d TH FH h ldh hf -> usable_2d TZ FZ z ldz zf -> usable_2d TV FV v ldv vf ->
  usable_2d TU FU u ldu uf -> usable_2d TWV FWV wv ldwv wvf -> usable_2d TWH FWH wh ldwh whf ->
  nshfts = 2 \/ nshfts = 3 -> ktop < kbot -> kacc22 <> 1 -> kacc22 <> 2 -> ldh <> 0 -> rows vf = ldv -> 1 <= cols vf -> 3 <= count vf ->
  exists hd zd vd h' z' v' u' wv' wh',
    dlaqr5 wantt wantz kacc22 n ktop kbot nshfts sr si h ldh iloz ihiz z ldz v ldv u ldu nv wv ldwv nh wh ldwh = Ok (h', z', v', u', wv', wh') /\
    from_fa hd = Ok h' /\ from_fa zd = Ok z' /\ from_fa vd = Ok v' /\ from_fa uf = Ok u' /\ from_fa wvf = Ok wv' /\ from_fa whf = Ok wh' /\
    same_shape hd hf /\ same_shape zd zf /\ same_shape vd vf.
Proof. exact @dlaqr5_returns. Qed.
Print Assumptions c40_returns.

(** one pair of shifts, accumulating or not, the same leading dimension for H and Z: if it returns, all shapes are kept *)
Theorem c40_shapes : forall F (NF : Num F) SR SI H ZZ V U WV WH (TSR : ToFA F SR) (TSI : ToFA F SI) (TH : ToFA F H) (FH : FromFA F H)
    (TZ : ToFA F ZZ) (FZ : FromFA F ZZ) (TV : ToFA F V) (FV : FromFA F V) (TU : ToFA F U) (FU : FromFA F U)
    (TWV : ToFA F WV) (FWV : FromFA F WV) (TWH : ToFA F WH) (FWH : FromFA F WH)
    wantt wantz kacc22 n ktop kbot nshfts (sr : SR) (si : SI) (h : H) ldh iloz ihiz (z : ZZ) ldz (v : V) ldv (u : U) ldu nv (wv : WV) ldwv nh (wh : WH) ldwh
    hf zf vf uf wvf whf h' z' v' u' wv' wh',
  usable_2d TH FH h ldh hf -> usable_2d TZ FZ z ldz zf -> usable_2d TV FV v ldv vf ->
  usable_2d TU FU u ldu uf -> usable_2d TWV FWV wv ldwv wvf -> usable_2d TWH FWH wh ldwh whf ->
  nshfts = 2 \/ nshfts = 3 -> ktop < kbot -> ldh = ldz -> ldh <> 0 -> rows hf = ldh -> 1 <= cols hf -> rows zf = ldz -> 1 <= cols zf ->
  rows vf = ldv -> 1 <= cols vf -> 3 <= count vf ->
  dlaqr5 wantt wantz kacc22 n ktop kbot nshfts sr si h ldh iloz ihiz z ldz v ldv u ldu nv wv ldwv nh wh ldwh = Ok (h', z', v', u', wv', wh') ->
  exists hd zd vd ud wvd whd,
    from_fa hd = Ok h' /\ from_fa zd = Ok z' /\ from_fa vd = Ok v' /\ from_fa ud = Ok u' /\ from_fa wvd = Ok wv' /\ from_fa whd = Ok wh' /\
    same_shape hd hf /\ same_shape zd zf /\ same_shape vd vf /\ same_shape ud uf /\ same_shape wvd wvf /\ same_shape whd whf.
Proof. exact @dlaqr5_accum_shapes. Qed.
Print Assumptions c40_shapes.
Example c40_usable_vec : forall F (NF : Num F) (l : list F) ld q, 1 <= ld -> 1 <= q -> zlen l = ld * q ->
  exists f, usable_2d _ _ l ld f /\ rows f = ld /\ cols f = q /\ data f = l.
Proof. exact (fun F NF => @usable_2d_vec F NF). Qed.
Example c40_usable_nested : forall F (NF : Num F) (l : list (list F)) q ld, 1 <= q -> l <> [] -> Forall (fun r => zlen r = q) l ->
  usable_2d _ _ l ld (fa_of_nested l).
Proof. exact (fun F NF => @usable_2d_nested F NF). Qed.

(** two or more pairs of shifts: it panics whatever the data when V has at most 2*(nshfts/2) - 2 columns; nshfts/2 are documented *)
Theorem c40_four_refuted : forall F (NF : Num F) SR SI H ZZ V U WV WH (TSR : ToFA F SR) (TSI : ToFA F SI) (TH : ToFA F H) (FH : FromFA F H)
    (TZ : ToFA F ZZ) (FZ : FromFA F ZZ) (TV : ToFA F V) (FV : FromFA F V) (TU : ToFA F U) (FU : FromFA F U)
    (TWV : ToFA F WV) (FWV : FromFA F WV) (TWH : ToFA F WH) (FWH : FromFA F WH)
    wantt wantz kacc22 n ktop kbot nshfts (sr : SR) (si : SI) (h : H) ldh iloz ihiz (z : ZZ) ldz (v : V) ldv (u : U) ldu nv (wv : WV) ldwv nh (wh : WH) ldwh
    hf zf vf uf wvf whf,
  to_fa_2d h ldh = Ok hf -> to_fa_2d z ldz = Ok zf -> to_fa_2d v ldv = Ok vf ->
  to_fa_2d u ldu = Ok uf -> to_fa_2d wv ldwv = Ok wvf -> to_fa_2d wh ldwh = Ok whf ->
  4 <= nshfts -> ktop < kbot -> 3 <= ldv -> rows vf = ldv -> 1 <= cols vf -> count vf = ldv * cols vf -> cols vf <= 2 * (nshfts / 2) - 2 ->
  dlaqr5 wantt wantz kacc22 n ktop kbot nshfts sr si h ldh iloz ihiz z ldz v ldv u ldu nv wv ldwv nh wh ldwh = Panic.
Proof. exact @dlaqr5_four_panics. Qed.
Print Assumptions c40_four_refuted.
Example c40_four_hyps : forall nshfts, 4 <= nshfts -> nshfts / 2 <= 2 * (nshfts / 2) - 2.
Proof. intros k H. assert (2 <= k / 2) by (apply Z.div_le_lower_bound; lia). lia. Qed.

(** two pairs of shifts: V with its documented size, 3-by-2, panics; with 24 elements V comes back with 12 *)
Theorem c40_v_refuted : forall lm, libm_ok lm -> let NB : Num b64 := B64 lm in
  dlaqr5 true true 0 4 1 4 4 (zvec [1; 2; 3; 4]) (zeros 4) K4 4 1 4 Z4 4 (zeros 6) 3 (zsq 8) 8 8 (zsq 8) 8 8 (zsq 8) 8 = Panic /\
  exists h' z' v' u' wv' wh',
    dlaqr5 true true 0 4 1 4 4 (zvec [1; 2; 3; 4]) (zeros 4) K4 4 1 4 Z4 4 (zeros 24) 3 (zsq 8) 8 8 (zsq 8) 8 8 (zsq 8) 8 = Ok (h', z', v', u', wv', wh') /\
    length v' = 12%nat.
Proof. exact q5_v_shrinks_any. Qed.
Print Assumptions c40_v_refuted.

(** accumulating with ldh = 4 and ldz = 3: a 4-by-3 H comes back 3-by-4 *)
Theorem c40_h_refuted : forall lm, libm_ok lm -> let NB : Num b64 := B64 lm in exists h' z' v' u' wv' wh',
  dlaqr5 true true 1 3 1 2 2 (zvec [1; 2]) (zeros 2) K3f 4 1 3 Z3 3 (zeros 3) 3 (zsq 4) 4 4 (zsq 4) 4 4 (zsq 4) 4 = Ok (h', z', v', u', wv', wh') /\
  rows K3f = 4 /\ cols K3f = 3 /\ rows h' = 3 /\ cols h' = 4.
Proof. exact q5_h_reshaped_any. Qed.
Print Assumptions c40_h_refuted.

(** ** C41 *)
(** The pairing pass (src/dlaqr5.rs:71-83).  [shifts sr si lo hi] is the list of pairs (sr(p), si(p)), lo <= p <= hi.
    It permutes the shifts when there are two (or when si(1) happens to be MIN_POSITIVE); otherwise it drops the first
    shift and uses (MIN_POSITIVE, MIN_POSITIVE) in its place. *)
Theorem c41_pairing : forall F (NF : Num F) k (sr si : fa F), k <= count sr -> k <= count si ->
  let '(sr', si') := shuffle_shifts k sr si in
  (k < 3 \/ fne fMINPOS (get1 si 1) = false -> Permutation (shifts sr' si' 1 k) (shifts sr si 1 k)) /\
  (3 <= k -> fne fMINPOS (get1 si 1) = true -> Permutation (shifts sr' si' 1 k) ((fMINPOS, fMINPOS) :: shifts sr si 2 k)).
Proof. exact (fun F NF => @shuffle_perm F NF). Qed.
Print Assumptions c41_pairing.
(** with three or more shifts the result of dlaqr5 does not depend on the first shift *)
Theorem c41_first_refuted : forall F (NF : Num F) H ZZ V U WV WH (TH : ToFA F H) (FH : FromFA F H) (TZ : ToFA F ZZ) (FZ : FromFA F ZZ)
    (TV : ToFA F V) (FV : FromFA F V) (TU : ToFA F U) (FU : FromFA F U) (TWV : ToFA F WV) (FWV : FromFA F WV) (TWH : ToFA F WH) (FWH : FromFA F WH)
    wantt wantz kacc22 n ktop kbot nshfts (x y x' y' : F) (sr si : list F) (h : H) ldh iloz ihiz (z : ZZ) ldz (v : V) ldv (u : U) ldu nv (wv : WV) ldwv nh (wh : WH) ldwh,
  3 <= nshfts -> 2 <= zlen sr -> 2 <= zlen si -> fne fMINPOS y = true -> fne fMINPOS y' = true ->
  dlaqr5 wantt wantz kacc22 n ktop kbot nshfts (x :: sr) (y :: si) h ldh iloz ihiz z ldz v ldv u ldu nv wv ldwv nh wh ldwh =
  dlaqr5 wantt wantz kacc22 n ktop kbot nshfts (x' :: sr) (y' :: si) h ldh iloz ihiz z ldz v ldv u ldu nv wv ldwv nh wh ldwh.
Proof. exact @dlaqr5_first_ignored. Qed.
Print Assumptions c41_first_refuted.
Example c41_hyps : let NB : Num b64 := B64 ref_libm in fne fMINPOS (fofZ 0) = true /\ fne fMINPOS (fofZ 3) = true.
Proof. split; vm_compute; reflexivity. Qed.

(** ** C42 *)
(** Z = I, H = ((1,3),(2,4)), not accumulating: H*Z' and Z'*H' differ by more than 3 in entry (2,2) *)
Theorem c42_z_refuted : forall lm, libm_ok lm -> let NB : Num b64 := B64 lm in exists h' z' v' u' wv' wh',
  dlaqr5 true true 0 2 1 2 2 (zvec [1; 2]) (zeros 2) K2 2 1 2 Z2 2 (zeros 3) 3 (zsq 4) 4 4 (zsq 4) 4 4 (zsq 4) 4 = Ok (h', z', v', u', wv', wh') /\
  (rdot (map B2R (row K2 1)) (map B2R (col z' 1)) - rdot (map B2R (row z' 1)) (map B2R (col h' 1)) > 3)%R.
Proof. exact q5_z_wrong_any. Qed.
Print Assumptions c42_z_refuted.
(** accumulating with ldh = 7 and ldz = 6: H has trace 36, the returned array has trace below 20 (leading dimension 7) or below 0 (6) *)
Theorem c42_ldz_refuted : forall lm, libm_ok lm -> let NB : Num b64 := B64 lm in exists h' z' v' u' wv' wh',
  dlaqr5 true true 1 6 1 6 2 (zvec [1; 2]) (zeros 2) K6 7 1 6 I6 6 (zeros 3) 3 (zsq 4) 4 4 (zsq 4) 4 4 (zsq 4) 4 = Ok (h', z', v', u', wv', wh') /\
  (rsum (map B2R (map (at_ld 7 h') [0; 1; 2; 3; 4; 5]%nat)) < 20)%R /\ (rsum (map B2R (map (at_ld 6 h') [0; 1; 2; 3; 4; 5]%nat)) < 0)%R.
Proof. exact q5_ldz_wrong_any. Qed.
Print Assumptions c42_ldz_refuted.
(** four shifts, V large enough not to panic: a matrix of trace 13 becomes one of trace above 13.5 *)
Theorem c42_four_refuted : forall lm, libm_ok lm -> let NB : Num b64 := B64 lm in exists h' z' v' u' wv' wh',
  dlaqr5 true true 0 4 1 4 4 (zvec [1; 2; 3; 4]) (zeros 4) K4 4 1 4 Z4 4 (zeros 24) 3 (zsq 8) 8 8 (zsq 8) 8 8 (zsq 8) 8 = Ok (h', z', v', u', wv', wh') /\
  length v' = 12%nat /\ rsum (map B2R (diag K4)) = 13%R /\ (rsum (map B2R (diag h')) > 13.5)%R.
Proof. exact q5_four_wrong_any. Qed.
Print Assumptions c42_four_refuted.
