(** dlaqr5 with one pair of shifts, not accumulating, in binary64. *)
From Coq Require Import Reals Lra Ascii.
From Flocq Require Import IEEE754.BinarySingleNaN Core.
From Verif Require Import Base Num Array Blas Lapack Dlaqr5 Spec ER SpecR SpecErr SpecSim SpecHq SpecHqErr Lists B64 B64Lemmas B64Nn FaLemmas RsumLemmas RealMat LahqrProofs Laqr5Proofs Laqr5Top
  LanvCalc LanvStd SimSweep HqGet HqErrApp HqErrReal HqErrSweep Q5Get Q5ErrLoop.
From Verif Require HqEig HqErrWit SimTop.
Open Scope Z_scope.

Lemma unit_frob nh N : 1 <= nh -> (0 < N)%R -> let d := (2 * delta (4 * N))%R in let y := (hq_unit64 nh * N)%R in (0 < y /\ 3 * (IZR nh * (d * d)) <= y * y)%R.
Proof.
  intros Hn HN d y. assert (I1 : (1 <= IZR nh)%R) by (apply IZR_le; lia).
  assert (SQ : (sqrt (IZR nh) * sqrt (IZR nh) = IZR nh)%R) by (apply sqrt_sqrt; lra).
  assert (SP : (0 < sqrt (IZR nh))%R) by (apply sqrt_lt_R0; lra).
  assert (B39 : (0 < bpow radix2 (-39))%R) by apply bpow_gt_0.
  split; [unfold y, hq_unit64; apply Rmult_lt_0_compat; [apply Rmult_lt_0_compat|]; assumption|].
  assert (ED : (2 * d = bpow radix2 (-39) * N)%R) by (unfold d, delta; change (-39)%Z with (4 + -43)%Z; rewrite bpow_plus; change (bpow radix2 4) with 16%R; ring).
  unfold y, hq_unit64. replace (bpow radix2 (-39) * sqrt (IZR nh) * N * (bpow radix2 (-39) * sqrt (IZR nh) * N))%R
    with ((sqrt (IZR nh) * sqrt (IZR nh)) * ((bpow radix2 (-39) * N) * (bpow radix2 (-39) * N)))%R by ring.
  rewrite SQ, <- ED. assert (0 <= IZR nh * (d * d))%R by (apply Rmult_le_pos; [lra|apply Rle_0_sqr]). lra.
Qed.
Lemma unit_total nh x N : 1 <= nh <= 2 ^ 25 -> 0 <= x <= 2 ^ 25 -> (0 < N)%R -> (IZR x * (2 * (hq_unit64 nh * N)) <= N)%R.
Proof.
  intros Hn Hx HN. assert (SP : (sqrt (IZR nh) <= 8192)%R).
  { replace 8192%R with (sqrt (8192 * 8192)) by (apply sqrt_square; lra). apply sqrt_le_1_alt. rewrite <- mult_IZR. apply IZR_le. lia. }
  assert (S0 : (0 <= sqrt (IZR nh))%R) by apply sqrt_pos.
  assert (X0 : (0 <= IZR x <= 33554432)%R) by (split; apply IZR_le; lia).
  unfold hq_unit64. replace (IZR x * (2 * (bpow radix2 (-39) * sqrt (IZR nh) * N)))%R with ((IZR x * sqrt (IZR nh)) * (2 * bpow radix2 (-39)) * N)%R by ring.
  assert (P : (IZR x * sqrt (IZR nh) <= 33554432 * 8192)%R) by (apply Rmult_le_compat; lra).
  assert (B : (33554432 * 8192 * (2 * bpow radix2 (-39)) <= 1)%R).
  { replace (33554432 * 8192 * 2)%R with (bpow radix2 39) by (change (bpow radix2 39) with 549755813888%R; ring) || idtac.
    replace (33554432 * 8192 * (2 * bpow radix2 (-39)))%R with (bpow radix2 39 * bpow radix2 (-39))%R by (change (bpow radix2 39) with 549755813888%R; ring).
    rewrite <- bpow_plus. change (39 + -39)%Z with 0%Z. change (bpow radix2 0) with 1%R. lra. }
  assert (B39 : (0 < 2 * bpow radix2 (-39))%R) by (pose proof (bpow_gt_0 radix2 (-39)); lra).
  rewrite <- (Rmult_1_l N) at 2. apply Rmult_le_compat_r; [lra|]. eapply Rle_trans; [|exact B]. apply Rmult_le_compat_r; lra.
Qed.
Lemma big_ent {F} {NF : Num F} n (h : fa F) a b : big n h -> 1 <= a <= n -> 1 <= b <= n -> ent h a b = Some (get2 h a b).
Proof.
  intros [B1 B2] Ha Hb. unfold ent. rewrite get2_get1, get1_elem.
  assert (1 <= pos (rows h) a b <= count h).
  { unfold pos. assert ((b - 1) * rows h + rows h <= n * rows h) by (replace ((b - 1) * rows h + rows h) with (b * rows h) by ring; apply Z.mul_le_mono_nonneg_r; lia).
    assert (0 <= (b - 1) * rows h) by (apply Z.mul_nonneg_nonneg; lia). lia. }
  destruct (proj2 (elem_Some h (pos (rows h) a b)) H) as [x ->]. reflexivity.
Qed.
Lemma shift_ext m H H' s1 s2 i : (forall a b, 1 <= a <= m -> 1 <= b <= m -> H a b = H' a b) -> 1 <= i <= m -> shift_column m H s1 s2 i = shift_column m H' s1 s2 i.
Proof.
  intros E Hi. unfold shift_column, Csum_range.
  assert (G : forall n lo, 1 <= lo -> lo + Z.of_nat n <= m + 1 ->
    Csum (fun k => cmul (shifted H s1 i k) (shifted H s2 k 1)) lo n = Csum (fun k => cmul (shifted H' s1 i k) (shifted H' s2 k 1)) lo n).
  { induction n as [|n IH]; intros l L1 L2; [reflexivity|]. cbn [Csum]. rewrite IH by lia. unfold shifted. rewrite !E by lia. reflexivity. }
  apply G; lia.
Qed.

Section Top.
  Context (lm : libm) (LM : libm_ok lm).
  #[local] Instance NB5t : Num b64 := B64 lm.

  Lemma dlaqr5_near SR SI H ZZ V U WV WH (TSR : ToFA b64 SR) (TSI : ToFA b64 SI) (TH : ToFA b64 H) (FH : FromFA b64 H)
      (TZ : ToFA b64 ZZ) (FZ : FromFA b64 ZZ) (TV : ToFA b64 V) (FV : FromFA b64 V) (TU : ToFA b64 U) (FU : FromFA b64 U)
      (TWV : ToFA b64 WV) (FWV : FromFA b64 WV) (TWH : ToFA b64 WH) (FWH : FromFA b64 WH)
      (wantt wantz : bool) kacc22 n ktop kbot (sr : SR) (si : SI) (h : H) ldh iloz ihiz (z : ZZ) ldz (v : V) ldv (u : U) ldu nv (wv : WV) ldwv nh (wh : WH) ldwh
      hf zf vf uf wvf whf H0 sr1 si1 sr2 si2 N rr :
    usable_2d TH FH h ldh hf -> usable_2d TZ FZ z ldz zf -> usable_2d TV FV v ldv vf ->
    usable_2d TU FU u ldu uf -> usable_2d TWV FWV wv ldwv wvf -> usable_2d TWH FWH wh ldwh whf ->
    1 <= ktop < kbot -> kbot <= n <= 2 ^ 25 -> kacc22 <> 1 -> kacc22 <> 2 ->
    rows hf = ldh -> n <= ldh -> n * ldh <= count hf -> rows vf = ldv -> 1 <= cols vf -> 3 <= count vf ->
    holds_at (to_fa sr) 1 sr1 -> holds_at (to_fa si) 1 si1 -> holds_at (to_fa sr) 2 sr2 -> holds_at (to_fa si) 2 si2 ->
    let lo := if wantt then 1 else ktop in let hi := if wantt then n else kbot in
    (forall a b, lo <= a <= hi -> lo <= b <= hi -> holds_ent hf a b (H0 a b)) -> hessenberg lo hi H0 ->
    (lo < ktop -> H0 ktop (ktop - 1) = 0%R) -> (kbot < hi -> H0 (kbot + 1) kbot = 0%R) ->
    (bpow radix2 (-890) <= N <= bpow radix2 397)%R -> (frob2 lo hi H0 <= N * N)%R ->
    (Rabs sr1 <= N /\ Rabs si1 <= N /\ Rabs sr2 <= N /\ Rabs si2 <= N)%R ->
    (0 < rr <= 1)%R -> (forall j, ktop <= j < kbot -> (20 * N * rr <= Rabs (H0 (j + 1)%Z j))%R) ->
    (bpow radix2 (-900) <= rr ^ Z.to_nat (kbot - ktop) /\ bpow radix2 (-900) <= N * rr ^ Z.to_nat (kbot - ktop))%R ->
    exists hd h' z' v' u' wv' wh' H1 Q E,
      dlaqr5 wantt wantz kacc22 n ktop kbot 2 sr si h ldh iloz ihiz z ldz v ldv u ldu nv wv ldwv nh wh ldwh = Ok (h', z', v', u', wv', wh') /\
      from_fa hd = Ok h' /\ same_shape hd hf /\ (forall a b, lo <= a <= hi -> lo <= b <= hi -> holds_ent hd a b (H1 a b)) /\ hessenberg lo hi H1 /\
      near_similar64 lo hi (IZR (kbot - ktop) * (2 * (hq_unit64 (hi - lo + 1)%Z * N)))%R H0 H1 Q E /\ identity_outside ktop kbot Q /\
      (forall a b, 1 <= a <= n -> 1 <= b <= n -> ~ (lo <= a <= hi /\ lo <= b <= hi) -> ent hd a b = ent hf a b) /\
      (exists c, forall i, 1 <= i <= kbot - ktop + 1 ->
        (Rabs (fst (shift_column (kbot - ktop + 1) (fun a b => H0 (ktop - 1 + a)%Z (ktop - 1 + b)%Z) (sr1, si1) (sr2, si2) i) - c * Q (ktop - 1 + i)%Z ktop) <= bpow radix2 (-36) * (N * N))%R).
  Proof.
    intros (E1 & W1 & G1) (E2 & W2 & G2) (E3 & W3 & G3) (E4 & W4 & G4) (E5 & W5 & G5) (E6 & W6 & G6) Hk Hn K1 K2 RH NH CH RV CV C3
      (f1' & ES1 & FS1 & VS1) (f2' & ES2 & FS2 & VS2) (f3' & ES3 & FS3 & VS3) (f4' & ES4 & FS4 & VS4) lo hi MH HESS I1 I2 [NL NU] FR (BS1 & BS2 & BS3 & BS4) HR SUB [RL1 RL2].
    rewrite (dlaqr5_run TSR TSI TH FH TZ FZ TV FV TU FU TWV FWV TWH FWH wantt wantz kacc22 n ktop kbot 2 sr si h ldh iloz ihiz z ldz v ldv u ldu nv wv ldwv nh wh ldwh hf zf vf uf wvf whf E1 E2 E3 E4 E5 E6) by lia.
    rewrite nbmps_one by (left; reflexivity).
    destruct (Z.eqb_spec kacc22 1); [lia|]. destruct (Z.eqb_spec kacc22 2); [lia|]. cbn [orb].
    change (shuffle_shifts 2 (to_fa sr) (to_fa si)) with (to_fa sr, to_fa si). cbn [fst snd].
    assert (DV : dim2 ldv vf) by (apply wf_dim2; auto).
    set (st0 := mkQ5 hf zf vf uf wvf whf (fa_of_vec [f0; f0; f0])).
    assert (L1 : 1 <= lo <= ktop) by (unfold lo; destruct wantt; lia). assert (L2 : kbot <= hi <= n) by (unfold hi; destruct wantt; lia).
    assert (BIG : big n hf) by (split; [lia|rewrite RH; exact CH]).
    assert (VAL : forall a b, lo <= a <= hi -> lo <= b <= hi -> is_finite (get2 hf a b) = true /\ B2R (get2 hf a b) = H0 a b).
    { intros a b Ha Hb. destruct (MH a b Ha Hb) as (x & EX & FX & VX). rewrite (big_ent n) in EX by (assumption || lia). injection EX as ->. split; assumption. }
    assert (N0 : (0 < N)%R) by (pose proof (bpow_gt_0 radix2 (-890)); lra).
    destruct (unit_frob (hi - lo + 1) N ltac:(lia) N0) as [Y0 Y1].
    assert (Y2 := unit_total (hi - lo + 1) (kbot - ktop) N ltac:(lia) ltac:(lia) N0).
    assert (FE : frob2 lo hi (fun a b => B2R (get2 hf a b)) = frob2 lo hi H0) by (apply frob_ext; intros; apply VAL; assumption).
    destruct (main5 lm LM wantt wantz n ktop kbot (to_fa sr) (to_fa si) ldh iloz ihiz ldz ldv ldu nv ldwv nh ldwh hf vf f1' f2' f3' f4' N rr (hq_unit64 (hi - lo + 1) * N))
      with (st := st0) as (st & ES & A1 & A2 & A3 & (Q & (A4 & E & A5 & A5') & A6 & c & A7) & A8);
      try assumption; try lia; try (apply wf_full; exact W1); try reflexivity; change (Q5ErrLoop.NB5l lm) with NB5t in *.
    - intros a b Ha Hb. apply VAL; assumption.
    - intros a b Ha Hb L. cbv beta. change (B2R (get2 hf a b) = 0%R). rewrite (proj2 (VAL a b Ha Hb)). apply HESS; assumption.
    - intros L. rewrite (proj2 (VAL ktop (ktop - 1) ltac:(lia) ltac:(change (lo < ktop) in L; lia))). apply I1. exact L.
    - intros L. rewrite (proj2 (VAL (kbot + 1) kbot ltac:(change (kbot < hi) in L; lia) ltac:(lia))). apply I2. exact L.
    - split; [apply Rle_trans with (bpow radix2 (-890)); [apply bpow_le; lia|lra]|]. replace 400 with (3 + 397) by reflexivity. rewrite bpow_plus. change (bpow radix2 3) with 8%R. lra.
    - change (frob2 lo hi (fun a b => B2R (get2 hf a b)) <= N * N)%R. rewrite FE. exact FR.
    - intros j Hj. rewrite (proj2 (VAL (j + 1) j ltac:(lia) ltac:(lia))). apply SUB. exact Hj.
    - rewrite get1_elem, ES1. reflexivity.
    - rewrite get1_elem, ES2. reflexivity.
    - rewrite get1_elem, ES3. reflexivity.
    - rewrite get1_elem, ES4. reflexivity.
    - split; [exact FS1|rewrite VS1; exact BS1].
    - split; [exact FS2|rewrite VS2; exact BS2].
    - split; [exact FS3|rewrite VS3; exact BS3].
    - split; [exact FS4|rewrite VS4; exact BS4].
    - destruct (main_total wantt wantz false n ktop kbot (to_fa sr) (to_fa si)
        ldh iloz ihiz ldz ldv ldu nv ldwv nh ldwh hf zf vf uf wvf whf (proj1 (wf_full hf W1)) ltac:(lia) DV C3 st0 eq_refl) as (st' & ES' & (T1 & T2 & T3) & T4 & T5 & T6).
      { split; [split; [|split]; apply same_shape_refl|]. cbn. auto. }
      change (Q5ErrLoop.NB5l lm) with NB5t in *. rewrite ES in ES'. injection ES' as <-. rewrite ES. cbn [bind]. rewrite T4, T5, T6.
      destruct (G1 _ T1) as [h' Eh], (G2 _ T2) as [z' Ez], (G3 _ T3) as [v' Ev], (G4 _ (same_shape_refl _)) as [u' Eu],
        (G5 _ (same_shape_refl _)) as [wv' Ew], (G6 _ (same_shape_refl _)) as [wh' Ex].
      rewrite Eh, Ez, Ev, Eu, Ew, Ex. exists (qH st), h', z', v', u', wv', wh', (fun a b => B2R (get2 (qH st) a b)), Q, E.
      assert (BIG' : big n (qH st)) by (destruct A1 as (X1 & _ & X2); split; rewrite ?X1, ?X2; apply BIG).
      split; [reflexivity|]. split; [exact Eh|]. split; [exact A1|].
      split. { intros a b Ha Hb. exists (get2 (qH st) a b). split; [apply (big_ent n); [exact BIG'|lia|lia]|]. split; [apply A2; assumption|reflexivity]. }
      split; [exact A3|].
      split. { split; [exact A4|]. split; [|exact A5']. intros i j Hi Hj. rewrite A5 by assumption. apply conj_ext; [exact Hi|exact Hj|]. intros a b Ha Hb. unfold HqReal.msub. rewrite (proj2 (VAL a b Ha Hb)). reflexivity. }
      split; [exact A6|].
      split. { intros a b Ha Hb NX. rewrite !(big_ent n) by assumption. f_equal. apply A8; assumption. }
      exists c. intros i Hi. rewrite <- VS1, <- VS2, <- VS3, <- VS4.
      rewrite (shift_ext (kbot - ktop + 1) _ (fun a b => B2R (get2 hf (ktop - 1 + a) (ktop - 1 + b)))); [apply A7; exact Hi| |exact Hi].
      intros a b Ha Hb. symmetry. apply VAL; lia.
  Qed.
End Top.

(** the spectrum *)
Lemma near_eig lo hi x A T Q E : near_similar64 lo hi x A T Q E ->
  (forall l, eigenvalue_of lo hi T l <-> eigenvalue_of lo hi (fun a b => A a b - E a b)%R l) /\ trace lo hi T = trace lo hi (fun a b => A a b - E a b)%R.
Proof.
  intros (O & S & _). split.
  - intros l. split; [apply (HqEig.eigenvalue_similar lo hi _ _ Q l O S)|].
    apply (HqEig.eigenvalue_similar lo hi _ _ (mtr Q) l (HqReal.orth_tr lo hi Q O)). intros i j Hi Hj.
    rewrite (conj_ext lo hi (mtr Q) T (conj_by lo hi (mtr (mtr Q)) (fun a b => A a b - E a b)%R)) by assumption.
    rewrite HqReal.conj_back by (assumption || apply HqReal.orth_tr; assumption). reflexivity.
  - rewrite (trace_ext lo hi T (conj_by lo hi Q (fun a b => A a b - E a b)%R)) by (intros; apply S; assumption).
    apply trace_conj. exact O.
Qed.

Lemma dlaqr5_spectrum64 lm (LM : libm_ok lm) : let NB : Num b64 := B64 lm in
  forall SR SI H ZZ V U WV WH (TSR : ToFA b64 SR) (TSI : ToFA b64 SI) (TH : ToFA b64 H) (FH : FromFA b64 H)
    (TZ : ToFA b64 ZZ) (FZ : FromFA b64 ZZ) (TV : ToFA b64 V) (FV : FromFA b64 V) (TU : ToFA b64 U) (FU : FromFA b64 U)
    (TWV : ToFA b64 WV) (FWV : FromFA b64 WV) (TWH : ToFA b64 WH) (FWH : FromFA b64 WH)
    (wantt wantz : bool) kacc22 n ktop kbot (sr : SR) (si : SI) (h : H) ldh iloz ihiz (z : ZZ) ldz (v : V) ldv (u : U) ldu nv (wv : WV) ldwv nh (wh : WH) ldwh
    hf zf vf uf wvf whf H0 sr1 si1 sr2 si2 N rr,
  usable_2d TH FH h ldh hf -> usable_2d TZ FZ z ldz zf -> usable_2d TV FV v ldv vf ->
  usable_2d TU FU u ldu uf -> usable_2d TWV FWV wv ldwv wvf -> usable_2d TWH FWH wh ldwh whf ->
  1 <= ktop < kbot -> kbot <= n <= 2 ^ 25 -> kacc22 <> 1 -> kacc22 <> 2 ->
  rows hf = ldh -> n <= ldh -> n * ldh <= count hf -> rows vf = ldv -> 1 <= cols vf -> 3 <= count vf ->
  holds_at (to_fa sr) 1 sr1 -> holds_at (to_fa si) 1 si1 -> holds_at (to_fa sr) 2 sr2 -> holds_at (to_fa si) 2 si2 ->
  let lo := if wantt then 1 else ktop in let hi := if wantt then n else kbot in
  (forall a b, lo <= a <= hi -> lo <= b <= hi -> holds_ent hf a b (H0 a b)) -> hessenberg lo hi H0 ->
  (lo < ktop -> H0 ktop (ktop - 1) = 0%R) -> (kbot < hi -> H0 (kbot + 1) kbot = 0%R) ->
  (bpow radix2 (-890) <= N <= bpow radix2 397)%R -> (frob2 lo hi H0 <= N * N)%R ->
  (Rabs sr1 <= N /\ Rabs si1 <= N /\ Rabs sr2 <= N /\ Rabs si2 <= N)%R ->
  (0 < rr <= 1)%R -> (forall j, ktop <= j < kbot -> (20 * N * rr <= Rabs (H0 (j + 1)%Z j))%R) ->
  (bpow radix2 (-900) <= rr ^ Z.to_nat (kbot - ktop) /\ bpow radix2 (-900) <= N * rr ^ Z.to_nat (kbot - ktop))%R ->
  exists hd h' z' v' u' wv' wh' H1 E,
    dlaqr5 wantt wantz kacc22 n ktop kbot 2 sr si h ldh iloz ihiz z ldz v ldv u ldu nv wv ldwv nh wh ldwh = Ok (h', z', v', u', wv', wh') /\
    from_fa hd = Ok h' /\ (forall a b, lo <= a <= hi -> lo <= b <= hi -> holds_ent hd a b (H1 a b)) /\
    (let x := IZR (kbot - ktop) * (2 * (hq_unit64 (hi - lo + 1)%Z * N)) in frob2 lo hi E <= x * x)%R /\
    (forall l, eigenvalue_of lo hi H1 l <-> eigenvalue_of lo hi (fun a b => H0 a b - E a b)%R l) /\
    trace lo hi H1 = trace lo hi (fun a b => H0 a b - E a b)%R.
Proof.
  intros NB SR SI H ZZ V U WV WH TSR TSI TH FH TZ FZ TV FV TU FU TWV FWV TWH FWH wantt wantz kacc22 n ktop kbot sr si h ldh iloz ihiz z ldz v ldv u ldu nv wv ldwv nh wh ldwh hf zf vf uf wvf whf H0 sr1 si1 sr2 si2 N rr X0 X1 X2 X3 X4 X5 X6 X7 X8 X9 X10 X11 X12 X13 X14 X15 X16 X17 X18 X19 lo hi X20 X21 X22 X23 X24 X25 X26 X27 X28 X29.
  destruct (dlaqr5_near lm LM SR SI H ZZ V U WV WH TSR TSI TH FH TZ FZ TV FV TU FU TWV FWV TWH FWH wantt wantz kacc22 n ktop kbot sr si h ldh iloz ihiz z ldz v ldv u ldu nv wv ldwv nh wh ldwh hf zf vf uf wvf whf H0 sr1 si1 sr2 si2 N rr X0 X1 X2 X3 X4 X5 X6 X7 X8 X9 X10 X11 X12 X13 X14 X15 X16 X17 X18 X19 X20 X21 X22 X23 X24 X25 X26 X27 X28 X29) as (hd & h' & z' & v' & u' & wv' & wh' & G & Q & E & C1 & C2 & _ & C3 & _ & C4 & _).
  destruct (near_eig _ _ _ _ _ _ _ C4) as [D1 D2]. exists hd, h', z', v', u', wv', wh', G, E.
  split; [exact C1|]. split; [exact C2|]. split; [exact C3|]. split; [exact (proj2 (proj2 C4))|]. split; [exact D1|exact D2].
Qed.

(** ** the hypotheses can be met *)
Local Notation tri := SimTop.tri.
Section Hyps.
  Context (lm : libm).
  #[local] Instance NB5h : Num b64 := B64 lm.
  Lemma tri64_hyps : let d m := b64_dy m 0 in let h := [[d 2; d 1; d 0; d 0]; [d 1; d 2; d 1; d 0]; [d 0; d 1; d 2; d 1]; [d 0; d 0; d 1; d 2]] in
    let s := [d 1; d 3] in let z := [d 0; d 0] in let w := [d 0; d 0; d 0] in
    usable_2d _ _ h 4 (fa_of_nested h) /\ rows (fa_of_nested h) = 4 /\ 4 * 4 <= count (fa_of_nested h) /\
    (forall a b, 1 <= a <= 4 -> 1 <= b <= 4 -> holds_ent (fa_of_nested h) a b (tri a b)) /\
    (exists vf, usable_2d _ _ w 3 vf /\ rows vf = 3 /\ 1 <= cols vf /\ 3 <= count vf) /\
    holds_at (to_fa s) 1 1 /\ holds_at (to_fa s) 2 3 /\ holds_at (to_fa z) 1 0 /\ holds_at (to_fa z) 2 0 /\
    hessenberg 1 4 tri /\ (forall j, 1 <= j < 4 -> (20 * 5 * (1 / 100) <= Rabs (tri (j + 1)%Z j))%R) /\ (frob2 1 4 tri <= 5 * 5)%R /\
    (bpow radix2 (-890) <= 5 <= bpow radix2 397)%R /\ (Rabs 1 <= 5 /\ Rabs 0 <= 5 /\ Rabs 3 <= 5)%R /\ (0 < 1 / 100 <= 1)%R /\
    (bpow radix2 (-900) <= (1 / 100) ^ Z.to_nat (4 - 1) /\ bpow radix2 (-900) <= 5 * (1 / 100) ^ Z.to_nat (4 - 1))%R.
  Proof.
    intros d h s z w. assert (V : forall m, Z.abs m < 2 ^ 53 -> value_of (d m) (IZR m)) by (intros m Hm; pose proof (HqErrWit.dy_val m 0 Hm ltac:(lia)) as X; cbn [bpow] in X; rewrite Rmult_1_r in X; exact X).
    split; [apply (usable_2d_nested h 4); [lia|discriminate|repeat constructor]|]. split; [reflexivity|]. split; [reflexivity || (cbn; lia)|].
    split. { intros i j Hi Hj. assert (i = 1 \/ i = 2 \/ i = 3 \/ i = 4) as C by lia. assert (j = 1 \/ j = 2 \/ j = 3 \/ j = 4) as C' by lia.
      destruct C as [->|[->|[->| ->]]], C' as [->|[->|[->| ->]]]; (eexists; split; [reflexivity|apply V; reflexivity]). }
    split. { destruct (usable_2d_vec w 3 1) as (f & U & R & C & D); [lia|lia|reflexivity|]. exists f. split; [exact U|]. split; [exact R|]. split; [lia|]. rewrite count_zlen, D. unfold zlen. cbn. lia. }
    do 4 (split; [eexists; split; [reflexivity|apply V; reflexivity]|]).
    split. { intros i j Hi Hj L. unfold SimTop.tri. destruct (Z.eqb_spec i j); [lia|]. destruct (Z.eqb_spec (Z.abs (i - j)) 1); [lia|reflexivity]. }
    split. { intros j Hj. unfold SimTop.tri. destruct (Z.eqb_spec (j + 1) j); [lia|]. destruct (Z.eqb_spec (Z.abs (j + 1 - j)) 1); [|lia]. rewrite Rabs_pos_eq; lra. }
    split. { unfold frob2, Rsum_range, SimTop.tri. simpl. lra. }
    assert (B1 : (bpow radix2 (-890) <= 1 / 1048576)%R) by (replace (1 / 1048576)%R with (bpow radix2 (-20)) by (change (bpow radix2 (-20)) with (/ 1048576)%R; lra); apply bpow_le; lia).
    assert (B2 : (8 <= bpow radix2 397)%R) by (change 8%R with (bpow radix2 3); apply bpow_le; lia).
    assert (B3 : (bpow radix2 (-900) <= bpow radix2 (-890))%R) by (apply bpow_le; lia).
    assert (B4 : (bpow radix2 (-900) <= 1 / 1048576)%R) by lra.
    assert (B5 : (1 / 1048576 <= (1 / 100) ^ Z.to_nat (4 - 1))%R) by (change (Z.to_nat (4 - 1)) with 3%nat; cbn [pow]; lra).
    split; [lra|]. split; [rewrite !Rabs_pos_eq by lra; lra|]. split; [lra|]. lra.
  Qed.
End Hyps.
