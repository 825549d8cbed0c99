(** dlaqr5 with one pair of shifts, exact arithmetic, accumulating: an orthogonal similarity of H, applied to Z too. *)
From Coq Require Import Reals Lra Ascii.
From Flocq Require Import Core.
From Verif Require Import Base Num Array Blas Lapack Dlaqr5 Spec ER SpecR SpecSim Lists FaLemmas RsumLemmas RealMat LahqrProofs Laqr5Proofs Laqr5Top SimSweep SimLoop SimFar SimAccum SimTop.
Open Scope Z_scope.

Lemma dlaqr5_accum SR SI H ZZ V U WV WH (TSR : ToFA er SR) (TSI : ToFA er SI) (TH : ToFA er H) (FH : FromFA er H)
    (TZ : ToFA er ZZ) (FZ : FromFA er ZZ) (TV : ToFA er V) (FV : FromFA er V) (TU : ToFA er U) (FU : FromFA er U)
    (TWV : ToFA er WV) (FWV : FromFA er WV) (TWH : ToFA er WH) (FWH : FromFA er WH)
    (wantt wantz : bool) kacc22 n ktop kbot (sr : SR) (si : SI) (h : H) ld iloz ihiz (z : ZZ) (v : V) ldv (u : U) ldu nv (wv : WV) ldwv nh (wh : WH) ldwh
    hf zf vf uf wvf whf H0 Z0 sr1 si1 sr2 si2 N :
  usable_2d TH FH h ld hf -> usable_2d TZ FZ z ld zf -> usable_2d TV FV v ldv vf ->
  usable_2d TU FU u ldu uf -> usable_2d TWV FWV wv ldwv wvf -> usable_2d TWH FWH wh ldwh whf ->
  1 <= ktop < kbot -> kbot <= n -> kacc22 = 1 \/ kacc22 = 2 ->
  rows hf = ld -> n <= ld -> n <= cols hf -> mat_is hf n n H0 -> rows vf = ldv -> 1 <= cols vf -> 3 <= count vf ->
  rows uf = ldu -> 4 <= ldu -> 4 <= cols uf -> rows wvf = ldwv -> 1 <= nv <= ldwv -> 4 <= cols wvf -> rows whf = ldwh -> 4 <= ldwh -> 1 <= nh <= cols whf ->
  rows zf = ld -> 1 <= cols zf ->
  (wantz = true -> 1 <= iloz /\ ihiz <= ld /\ kbot <= cols zf /\
    forall i j, iloz <= i <= ihiz -> ktop <= j <= kbot -> ent zf i j = Some (Fin (Z0 i j))) ->
  elem (to_fa sr) 1 = Some (Fin sr1) -> elem (to_fa si) 1 = Some (Fin si1) ->
  elem (to_fa sr) 2 = Some (Fin sr2) -> elem (to_fa si) 2 = Some (Fin si2) ->
  let lo := if wantt then 1 else ktop in let hi := if wantt then n else kbot in
  hessenberg lo hi H0 -> (forall j, ktop <= j < kbot -> H0 (j + 1) j <> 0%R) ->
  (lo < ktop -> H0 ktop (ktop - 1) = 0%R) -> (kbot < hi -> H0 (kbot + 1) kbot = 0%R) ->
  (0 <= N <= 2 ^ 500)%R -> (frob2 lo hi H0 <= N * N)%R ->
  (Rabs sr1 <= 2 ^ 500 /\ Rabs si1 <= 2 ^ 500 /\ Rabs sr2 <= 2 ^ 500 /\ Rabs si2 <= 2 ^ 500)%R ->
  exists hd zd h' z' v' u' wv' wh' H1 Q,
    dlaqr5 wantt wantz kacc22 n ktop kbot 2 sr si h ld iloz ihiz z ld v ldv u ldu nv wv ldwv nh wh ldwh = Ok (h', z', v', u', wv', wh') /\
    from_fa hd = Ok h' /\ same_shape hd hf /\ mat_is hd n n H1 /\ orthogonal lo hi Q /\ identity_outside ktop kbot Q /\ hessenberg lo hi H1 /\
    (forall i j, lo <= i <= hi -> lo <= j <= hi ->
      H1 i j = conj_by lo hi Q H0 i j \/
      (ktop <= j <= kbot - 2 /\ i = j + 1) /\ H1 i j = 0%R /\
      (Rabs (conj_by lo hi Q H0 i j) <= Rmax (IZR n * bpow radix2 (-970)) (6 * bpow radix2 (-52) * N))%R) /\
    (forall i j, 1 <= i <= n -> 1 <= j <= n -> ~ (lo <= i <= hi /\ lo <= j <= hi) -> H1 i j = H0 i j) /\
    (shift_pair (sr1, si1) (sr2, si2) -> exists c, forall i, 1 <= i <= kbot - ktop + 1 ->
      shift_column (kbot - ktop + 1) (fun a b => H0 (ktop - 1 + a) (ktop - 1 + b)) (sr1, si1) (sr2, si2) i = cre (c * Q (ktop - 1 + i) ktop)) /\
    from_fa zd = Ok z' /\ same_shape zd zf /\ (wantz = false -> zd = zf) /\
    (wantz = true -> (forall i j, iloz <= i <= ihiz -> ktop <= j <= kbot -> ent zd i j = Some (Fin (mmul ktop kbot Z0 Q i j))) /\
      (forall i j, 1 <= i <= ld -> ~ (iloz <= i <= ihiz /\ ktop <= j <= kbot) -> ent zd i j = ent zf i j)).
Proof.
  intros (E1 & W1 & G1) (E2 & W2 & G2) (E3 & W3 & G3) (E4 & W4 & G4) (E5 & W5 & G5) (E6 & W6 & G6) Hk Hn KA RH NH CH MH RV CV C3 RU U1 U2 RWv NV WV2 RWh WH1 NHp RZ CZ0 ZH S1 S2 S3 S4 lo hi HESS UNR I1 I2 [N0 NB] FR BS.
  rewrite (dlaqr5_run TSR TSI TH FH TZ FZ TV FV TU FU TWV FWV TWH FWH wantt wantz kacc22 n ktop kbot 2 sr si h ld iloz ihiz z ld v ldv u ldu nv wv ldwv nh wh ldwh hf zf vf uf wvf whf E1 E2 E3 E4 E5 E6) by lia.
  rewrite nbmps_one by (left; reflexivity).
  replace ((kacc22 =? 1) || (kacc22 =? 2)) with true by (destruct KA as [-> | ->]; reflexivity).
  change (shuffle_shifts 2 (to_fa sr) (to_fa si)) with (to_fa sr, to_fa si). cbn [fst snd].
  assert (DV : dim2 ldv vf) by (apply wf_dim2; auto).
  assert (DH : dim2 ld hf) by (apply wf_dim2; auto; lia). assert (DZ : dim2 ld zf) by (apply wf_dim2; auto; lia).
  assert (DU : dim2 ldu uf) by (apply wf_dim2; auto; lia). assert (DWv : dim2 ldwv wvf) by (apply wf_dim2; auto; lia).
  assert (DWh : dim2 ldwh whf) by (apply wf_dim2; auto; lia).
  set (st0 := mkQ5 hf zf vf uf wvf whf (fa_of_vec [f0; f0; f0])).
  destruct (main_acc wantt wantz n ktop kbot (to_fa sr) (to_fa si) ld iloz ihiz ldv ldu nv ldwv nh ldwh hf vf zf uf wvf whf H0 Z0 sr1 si1 sr2 si2 N)
    with (st := st0) as (st & ES & (T2 & T4 & T5 & T6) & T3 & H1 & Q & [A1 T1] & A3 & A4 & A5 & A6 & A7 & A8 & A9 & A10);
    try assumption; try lia; try (apply wf_full; exact W1); try (rewrite get1_elem, ?S1, ?S2, ?S3, ?S4; reflexivity); try apply same_shape_refl; try reflexivity.
  { intros X. apply (ZH X). } { intros X. destruct (ZH X) as (X1 & X2 & _). auto. } { intros X. apply (ZH X). }
  { split; [exact MH|apply same_shape_refl]. } { exact (conj (same_shape_refl _) (conj (same_shape_refl _) (conj (same_shape_refl _) (same_shape_refl _)))). }
  rewrite ES. cbn [bind].
  destruct (G1 _ T1) as [h' Eh], (G2 _ T2) as [z' Ez], (G3 _ T3) as [v' Ev], (G4 _ T4) as [u' Eu], (G5 _ T5) as [wv' Ew], (G6 _ T6) as [wh' Ex].
  rewrite Eh, Ez, Ev, Eu, Ew, Ex. exists (qH st), (qZ st), h', z', v', u', wv', wh', H1, Q.
  refine (conj eq_refl (conj Eh (conj T1 (conj A1 (conj A3 (conj A4 (conj A6 (conj A5 (conj A7 (conj A8 (conj Ez (conj T2 (conj A10 _))))))))))))).
  intros X. destruct (ZH X) as (X1 & X2 & X3 & _). specialize (A9 X). split.
  - intros i j Hi Hj. rewrite A9 by lia. replace (inblk _ _ _ _ i j) with true by (symmetry; apply inblk_true; lia). reflexivity.
  - intros i j Hi Ho. rewrite A9 by lia. replace (inblk _ _ _ _ i j) with false by (symmetry; apply inblk_false; lia). reflexivity.
Qed.

Lemma mm_identity_outside n a b Z0 Q Z1 : 1 <= a -> b <= n -> a <= b -> identity_outside a b Q ->
  (forall i j, 1 <= i <= n -> a <= j <= b -> Z1 i j = mmul a b Z0 Q i j) -> (forall i j, 1 <= i <= n -> 1 <= j <= n -> ~ (a <= j <= b) -> Z1 i j = Z0 i j) ->
  forall i j, 1 <= i <= n -> 1 <= j <= n -> Z1 i j = mmul 1 n Z0 Q i j.
Proof.
  intros Ha Hb Hab IQ E1 E2 i j Hi Hj. destruct (Z_le_gt_dec a j) as [L|L]; [destruct (Z_le_gt_dec j b) as [L'|L']|].
  - rewrite E1 by lia. unfold mmul. symmetry. apply Rsum_range_sub; [lia|lia|lia|]. intros k Hk Hn. rewrite IQ by lia. unfold Rid.
    destruct (Z.eqb_spec k j); [lia|ring].
  - rewrite E2 by lia. rewrite (mm_ext 1 n Z0 Z0 Q Rid); [symmetry; apply mm_id_r; lia|reflexivity|]. intros k Hk. apply IQ. lia.
  - rewrite E2 by lia. rewrite (mm_ext 1 n Z0 Z0 Q Rid); [symmetry; apply mm_id_r; lia|reflexivity|]. intros k Hk. apply IQ. lia.
Qed.

Lemma dlaqr5_schur SR SI H ZZ V U WV WH (TSR : ToFA er SR) (TSI : ToFA er SI) (TH : ToFA er H) (FH : FromFA er H)
    (TZ : ToFA er ZZ) (FZ : FromFA er ZZ) (TV : ToFA er V) (FV : FromFA er V) (TU : ToFA er U) (FU : FromFA er U)
    (TWV : ToFA er WV) (FWV : FromFA er WV) (TWH : ToFA er WH) (FWH : FromFA er WH)
    kacc22 n ktop kbot (sr : SR) (si : SI) (h : H) ld (z : ZZ) (v : V) ldv (u : U) ldu nv (wv : WV) ldwv nh (wh : WH) ldwh
    hf zf vf uf wvf whf (A H0 Z0 : Z -> Z -> R) sr1 si1 sr2 si2 N :
  usable_2d TH FH h ld hf -> usable_2d TZ FZ z ld zf -> usable_2d TV FV v ldv vf ->
  usable_2d TU FU u ldu uf -> usable_2d TWV FWV wv ldwv wvf -> usable_2d TWH FWH wh ldwh whf ->
  1 <= ktop < kbot -> kbot <= n -> kacc22 = 1 \/ kacc22 = 2 ->
  rows hf = ld -> n <= ld -> n <= cols hf -> mat_is hf n n H0 -> rows vf = ldv -> 1 <= cols vf -> 3 <= count vf ->
  rows uf = ldu -> 4 <= ldu -> 4 <= cols uf -> rows wvf = ldwv -> 1 <= nv <= ldwv -> 4 <= cols wvf -> rows whf = ldwh -> 4 <= ldwh -> 1 <= nh <= cols whf ->
  rows zf = ld -> n <= cols zf -> mat_is zf n n Z0 ->
  orthogonal 1 n Z0 -> (forall i j, 1 <= i <= n -> 1 <= j <= n -> H0 i j = conj_by 1 n Z0 A i j) ->
  elem (to_fa sr) 1 = Some (Fin sr1) -> elem (to_fa si) 1 = Some (Fin si1) ->
  elem (to_fa sr) 2 = Some (Fin sr2) -> elem (to_fa si) 2 = Some (Fin si2) ->
  hessenberg 1 n H0 -> (forall j, ktop <= j < kbot -> H0 (j + 1) j <> 0%R) ->
  (1 < ktop -> H0 ktop (ktop - 1) = 0%R) -> (kbot < n -> H0 (kbot + 1) kbot = 0%R) ->
  (0 <= N <= 2 ^ 500)%R -> (frob2 1 n A <= N * N)%R ->
  (Rabs sr1 <= 2 ^ 500 /\ Rabs si1 <= 2 ^ 500 /\ Rabs sr2 <= 2 ^ 500 /\ Rabs si2 <= 2 ^ 500)%R ->
  exists hd zd h' z' v' u' wv' wh' H1 Z1,
    dlaqr5 true true kacc22 n ktop kbot 2 sr si h ld 1 n z ld v ldv u ldu nv wv ldwv nh wh ldwh = Ok (h', z', v', u', wv', wh') /\
    from_fa hd = Ok h' /\ from_fa zd = Ok z' /\ mat_is hd n n H1 /\ mat_is zd n n Z1 /\ hessenberg 1 n H1 /\ orthogonal 1 n Z1 /\
    (forall i j, 1 <= i <= n -> 1 <= j <= n ->
      H1 i j = conj_by 1 n Z1 A i j \/
      (ktop <= j <= kbot - 2 /\ i = j + 1) /\ H1 i j = 0%R /\
      (Rabs (conj_by 1 n Z1 A i j) <= Rmax (IZR n * bpow radix2 (-970)) (6 * bpow radix2 (-52) * N))%R).
Proof.
  intros E1 E2 E3 E4 E5 E6 Hk Hn KA RH NH CH MH RV CV C3 RU U1 U2 RWv NV WV2 RWh WH1 NHp RZ CZ MZ OZ HZ S1 S2 S3 S4 HESS UNR I1 I2 NB FR BS.
  destruct (dlaqr5_accum SR SI H ZZ V U WV WH TSR TSI TH FH TZ FZ TV FV TU FU TWV FWV TWH FWH true true kacc22 n ktop kbot sr si h ld 1 n z v ldv u ldu nv wv ldwv nh wh ldwh
    hf zf vf uf wvf whf H0 Z0 sr1 si1 sr2 si2 N) as (hd & zd & h' & z' & v' & u' & wv' & wh' & H1 & Q & A1 & A2 & A3 & A4 & A5 & A6 & A7 & A8 & A9 & A10 & A11 & A12 & _ & A13); try assumption.
  { lia. } { intros _. split; [lia|]. split; [lia|]. split; [lia|]. intros i j Hi Hj. apply MZ; lia. }
  { rewrite <- (frob_conj 1 n Z0 A OZ) in FR. apply Rle_trans with (2 := FR). right. unfold frob2. apply Rsum_range_ext. intros i Hi. apply Rsum_range_ext. intros j Hj. rewrite HZ by assumption. reflexivity. }
  destruct (A13 eq_refl) as [B1 B2]. exists hd, zd, h', z', v', u', wv', wh', H1, (mmul 1 n Z0 Q).
  split; [exact A1|]. split; [exact A2|]. split; [exact A11|]. split; [exact A4|].
  set (Z1 := fun i j => if (ktop <=? j) && (j <=? kbot) then mmul ktop kbot Z0 Q i j else Z0 i j).
  assert (EZ : forall i j, 1 <= i <= n -> 1 <= j <= n -> Z1 i j = mmul 1 n Z0 Q i j).
  { apply (mm_identity_outside n ktop kbot); [lia|lia|lia|exact A6|..]; intros i j Hi Hj; unfold Z1.
    - destruct (Z.leb_spec ktop j), (Z.leb_spec j kbot); try lia. reflexivity.
    - intros Ho. destruct (Z.leb_spec ktop j), (Z.leb_spec j kbot); try lia; reflexivity. }
  split. { intros i j Hi Hj. rewrite <- EZ by assumption. unfold Z1. destruct (Z.leb_spec ktop j), (Z.leb_spec j kbot); cbn [andb].
    - apply B1; lia. - rewrite B2 by lia. apply MZ; lia. - rewrite B2 by lia. apply MZ; lia. - rewrite B2 by lia. apply MZ; lia. }
  split; [exact A7|]. split; [apply orth_mm; assumption|].
  intros i j Hi Hj. rewrite conj_mm. rewrite <- (conj_ext 1 n Q H0 (conj_by 1 n Z0 A) i j Hi Hj HZ). apply A8; assumption.
Qed.

(** ** the hypotheses can be met *)
Definition id4 : list (list er) := [[Fin 1; Fin 0; Fin 0; Fin 0]; [Fin 0; Fin 1; Fin 0; Fin 0]; [Fin 0; Fin 0; Fin 1; Fin 0]; [Fin 0; Fin 0; Fin 0; Fin 1]]%R.
Lemma id4_is : mat_is (fa_of_nested id4) 4 4 Rid.
Proof.
  intros i j Hi Hj. assert (i = 1 \/ i = 2 \/ i = 3 \/ i = 4) as C by lia. assert (j = 1 \/ j = 2 \/ j = 3 \/ j = 4) as C' by lia.
  destruct C as [->|[->|[->| ->]]], C' as [->|[->|[->| ->]]]; reflexivity.
Qed.
Lemma acc4_hyps : (usable_2d _ _ tri4 4 (fa_of_nested tri4) /\ 4 <= cols (fa_of_nested tri4)) /\
  (usable_2d _ _ id4 4 (fa_of_nested id4) /\ rows (fa_of_nested id4) = 4 /\ 4 <= cols (fa_of_nested id4) /\ mat_is (fa_of_nested id4) 4 4 Rid) /\
  orthogonal 1 4 Rid /\ (forall i j, 1 <= i <= 4 -> 1 <= j <= 4 -> tri i j = conj_by 1 4 Rid tri i j).
Proof.
  split; [split; [apply (usable_2d_nested tri4 4); [lia|discriminate|repeat constructor]|cbn; lia]|].
  split; [split; [apply (usable_2d_nested id4 4); [lia|discriminate|repeat constructor]|split; [reflexivity|split; [cbn; lia|exact id4_is]]]|].
  split; [apply orth_id|]. intros i j Hi Hj. symmetry. apply conj_id; assumption.
Qed.

(** every hypothesis at once: the theorem applied to the 4x4 matrix tri, with Z the identity and all work arrays 4x4 *)
Lemma acc4_run : let s := [Fin 1; Fin 3] in let o := [Fin 0; Fin 0] in let w := [Fin 0; Fin 0; Fin 0] in
  exists hd zd h' z' v' u' wv' wh' H1 Z1,
    dlaqr5 true true 1 4 1 4 2 s o tri4 4 1 4 id4 4 w 3 id4 4 4 id4 4 4 id4 4 = Ok (h', z', v', u', wv', wh') /\
    from_fa hd = Ok h' /\ from_fa zd = Ok z' /\ mat_is hd 4 4 H1 /\ mat_is zd 4 4 Z1 /\ hessenberg 1 4 H1 /\ orthogonal 1 4 Z1 /\
    (forall i j, 1 <= i <= 4 -> 1 <= j <= 4 ->
      H1 i j = conj_by 1 4 Z1 tri i j \/
      (1 <= j <= 4 - 2 /\ i = j + 1) /\ H1 i j = 0%R /\
      (Rabs (conj_by 1 4 Z1 tri i j) <= Rmax (IZR 4 * bpow radix2 (-970)) (6 * bpow radix2 (-52) * 5))%R).
Proof.
  intros s o w. destruct tri4_hyps as (_ & T2 & T3 & (vf & V1 & V2 & V3 & V4) & T5 & T6 & T7 & T8 & T9 & T10 & T11 & T12 & T13 & T14 & T15).
  destruct acc4_hyps as ((A1 & A2) & (B1 & B2 & B3 & B4) & O & HZ).
  apply (dlaqr5_schur _ _ _ _ _ _ _ _ _ _ _ _ _ _ _ _ _ _ _ _ _ _ 1 4 1 4 s o tri4 4 id4 w 3 id4 4 4 id4 4 4 id4 4 _ _ vf _ _ _ tri tri Rid 1 0 3 0 5 A1 B1 V1 B1 B1 B1); try assumption; try lia; auto.
Qed.
