(** dlaqr5 with one pair of shifts, exact arithmetic, not accumulating: an orthogonal similarity of H. *)
From Coq Require Import Reals Lra Ascii.
From Flocq Require Import Core.
From Verif Require Import Base Num Array Blas Lapack Dlaqr5 Spec ER SpecR SpecSim Lists FaLemmas RsumLemmas RealMat LahqrProofs Laqr5Proofs Laqr5Top SimSweep SimLoop.
Open Scope Z_scope.

Lemma dlaqr5_similar SR SI H ZZ V U WV WH (TSR : ToFA er SR) (TSI : ToFA er SI) (TH : ToFA er H) (FH : FromFA er H)
    (TZ : ToFA er ZZ) (FZ : FromFA er ZZ) (TV : ToFA er V) (FV : FromFA er V) (TU : ToFA er U) (FU : FromFA er U)
    (TWV : ToFA er WV) (FWV : FromFA er WV) (TWH : ToFA er WH) (FWH : FromFA er WH)
    (wantt wantz : bool) kacc22 n ktop kbot (sr : SR) (si : SI) (h : H) ldh iloz ihiz (z : ZZ) ldz (v : V) ldv (u : U) ldu nv (wv : WV) ldwv nh (wh : WH) ldwh
    hf zf vf uf wvf whf H0 sr1 si1 sr2 si2 N :
  usable_2d TH FH h ldh hf -> usable_2d TZ FZ z ldz zf -> usable_2d TV FV v ldv vf ->
  usable_2d TU FU u ldu uf -> usable_2d TWV FWV wv ldwv wvf -> usable_2d TWH FWH wh ldwh whf ->
  1 <= ktop < kbot -> kbot <= n -> kacc22 <> 1 -> kacc22 <> 2 ->
  rows hf = ldh -> n <= ldh -> mat_is hf n n H0 -> rows vf = ldv -> 1 <= cols vf -> 3 <= count vf ->
  elem (to_fa sr) 1 = Some (Fin sr1) -> elem (to_fa si) 1 = Some (Fin si1) ->
  elem (to_fa sr) 2 = Some (Fin sr2) -> elem (to_fa si) 2 = Some (Fin si2) ->
  let lo := if wantt then 1 else ktop in let hi := if wantt then n else kbot in
  hessenberg lo hi H0 -> (forall j, ktop <= j < kbot -> H0 (j + 1) j <> 0%R) ->
  (lo < ktop -> H0 ktop (ktop - 1) = 0%R) -> (kbot < hi -> H0 (kbot + 1) kbot = 0%R) ->
  (0 <= N <= 2 ^ 500)%R -> (frob2 lo hi H0 <= N * N)%R ->
  (Rabs sr1 <= 2 ^ 500 /\ Rabs si1 <= 2 ^ 500 /\ Rabs sr2 <= 2 ^ 500 /\ Rabs si2 <= 2 ^ 500)%R ->
  exists hd h' z' v' u' wv' wh' H1 Q,
    dlaqr5 wantt wantz kacc22 n ktop kbot 2 sr si h ldh iloz ihiz z ldz v ldv u ldu nv wv ldwv nh wh ldwh = Ok (h', z', v', u', wv', wh') /\
    from_fa hd = Ok h' /\ same_shape hd hf /\ mat_is hd n n H1 /\ orthogonal lo hi Q /\ identity_outside ktop kbot Q /\ hessenberg lo hi H1 /\
    (forall i j, lo <= i <= hi -> lo <= j <= hi ->
      H1 i j = conj_by lo hi Q H0 i j \/
      (ktop <= j <= kbot - 2 /\ i = j + 1) /\ H1 i j = 0%R /\
      (Rabs (conj_by lo hi Q H0 i j) <= Rmax (IZR n * bpow radix2 (-970)) (6 * bpow radix2 (-52) * N))%R) /\
    (forall i j, 1 <= i <= n -> 1 <= j <= n -> ~ (lo <= i <= hi /\ lo <= j <= hi) -> H1 i j = H0 i j) /\
    (shift_pair (sr1, si1) (sr2, si2) -> exists c, forall i, 1 <= i <= kbot - ktop + 1 ->
      shift_column (kbot - ktop + 1) (fun a b => H0 (ktop - 1 + a) (ktop - 1 + b)) (sr1, si1) (sr2, si2) i = cre (c * Q (ktop - 1 + i) ktop)).
Proof.
  intros (E1 & W1 & G1) (E2 & W2 & G2) (E3 & W3 & G3) (E4 & W4 & G4) (E5 & W5 & G5) (E6 & W6 & G6) Hk Hn K1 K2 RH NH MH RV CV C3 S1 S2 S3 S4 lo hi HESS UNR I1 I2 [N0 NB] FR BS.
  rewrite (dlaqr5_run TSR TSI TH FH TZ FZ TV FV TU FU TWV FWV TWH FWH wantt wantz kacc22 n ktop kbot 2 sr si h ldh iloz ihiz z ldz v ldv u ldu nv wv ldwv nh wh ldwh hf zf vf uf wvf whf E1 E2 E3 E4 E5 E6) by lia.
  rewrite nbmps_one by (left; reflexivity).
  destruct (Z.eqb_spec kacc22 1); [lia|]. destruct (Z.eqb_spec kacc22 2); [lia|]. cbn [orb].
  change (shuffle_shifts 2 (to_fa sr) (to_fa si)) with (to_fa sr, to_fa si). cbn [fst snd].
  assert (DV : dim2 ldv vf) by (apply wf_dim2; auto).
  set (st0 := mkQ5 hf zf vf uf wvf whf (fa_of_vec [f0; f0; f0])).
  destruct (main_sim wantt wantz n ktop kbot (to_fa sr) (to_fa si) ldh iloz ihiz ldz ldv ldu nv ldwv nh ldwh hf vf H0 sr1 si1 sr2 si2 N)
    with (st := st0) as (st & ES & H1 & Q & [A1 A2] & A3 & A4 & A5 & A6 & A7 & A8);
    try assumption; try (apply wf_full; exact W1); try (unfold get1; rewrite ?S1, ?S2, ?S3, ?S4; reflexivity); try (split; [exact MH|apply same_shape_refl]); try apply same_shape_refl.
  { rewrite get1_elem, S1. reflexivity. } { rewrite get1_elem, S2. reflexivity. } { rewrite get1_elem, S3. reflexivity. } { rewrite get1_elem, S4. reflexivity. }
  destruct (main_total wantt wantz false n ktop kbot (to_fa sr) (to_fa si)
      ldh iloz ihiz ldz ldv ldu nv ldwv nh ldwh hf zf vf uf wvf whf (proj1 (wf_full hf W1)) ltac:(lia) DV C3 st0 eq_refl) as (st' & ES' & (T1 & T2 & T3) & T4 & T5 & T6).
  { split; [split; [|split]; apply same_shape_refl|]. cbn. auto. }
  rewrite ES in ES'. injection ES' as <-. rewrite ES. cbn [bind]. rewrite T4, T5, T6.
  destruct (G1 _ T1) as [h' Eh], (G2 _ T2) as [z' Ez], (G3 _ T3) as [v' Ev], (G4 _ (same_shape_refl _)) as [u' Eu],
    (G5 _ (same_shape_refl _)) as [wv' Ew], (G6 _ (same_shape_refl _)) as [wh' Ex].
  rewrite Eh, Ez, Ev, Eu, Ew, Ex. exists (qH st), h', z', v', u', wv', wh', H1, Q.
  exact (conj eq_refl (conj Eh (conj T1 (conj A1 (conj A3 (conj A4 (conj A6 (conj A5 (conj A7 A8))))))))).
Qed.

Lemma similar_trace lo hi Q A B : orthogonal lo hi Q -> (forall i, lo <= i <= hi -> B i i = conj_by lo hi Q A i i) -> trace lo hi B = trace lo hi A.
Proof. intros O E. rewrite <- (trace_conj lo hi Q A O). apply trace_ext. exact E. Qed.

Lemma dlaqr5_trace SR SI H ZZ V U WV WH (TSR : ToFA er SR) (TSI : ToFA er SI) (TH : ToFA er H) (FH : FromFA er H)
    (TZ : ToFA er ZZ) (FZ : FromFA er ZZ) (TV : ToFA er V) (FV : FromFA er V) (TU : ToFA er U) (FU : FromFA er U)
    (TWV : ToFA er WV) (FWV : FromFA er WV) (TWH : ToFA er WH) (FWH : FromFA er WH)
    (wantt wantz : bool) kacc22 n ktop kbot (sr : SR) (si : SI) (h : H) ldh iloz ihiz (z : ZZ) ldz (v : V) ldv (u : U) ldu nv (wv : WV) ldwv nh (wh : WH) ldwh
    hf zf vf uf wvf whf H0 sr1 si1 sr2 si2 N :
  usable_2d TH FH h ldh hf -> usable_2d TZ FZ z ldz zf -> usable_2d TV FV v ldv vf ->
  usable_2d TU FU u ldu uf -> usable_2d TWV FWV wv ldwv wvf -> usable_2d TWH FWH wh ldwh whf ->
  1 <= ktop < kbot -> kbot <= n -> kacc22 <> 1 -> kacc22 <> 2 ->
  rows hf = ldh -> n <= ldh -> mat_is hf n n H0 -> rows vf = ldv -> 1 <= cols vf -> 3 <= count vf ->
  elem (to_fa sr) 1 = Some (Fin sr1) -> elem (to_fa si) 1 = Some (Fin si1) ->
  elem (to_fa sr) 2 = Some (Fin sr2) -> elem (to_fa si) 2 = Some (Fin si2) ->
  let lo := if wantt then 1 else ktop in let hi := if wantt then n else kbot in
  hessenberg lo hi H0 -> (forall j, ktop <= j < kbot -> H0 (j + 1) j <> 0%R) ->
  (lo < ktop -> H0 ktop (ktop - 1) = 0%R) -> (kbot < hi -> H0 (kbot + 1) kbot = 0%R) ->
  (0 <= N <= 2 ^ 500)%R -> (frob2 lo hi H0 <= N * N)%R ->
  (Rabs sr1 <= 2 ^ 500 /\ Rabs si1 <= 2 ^ 500 /\ Rabs sr2 <= 2 ^ 500 /\ Rabs si2 <= 2 ^ 500)%R ->
  exists hd h' z' v' u' wv' wh' H1,
    dlaqr5 wantt wantz kacc22 n ktop kbot 2 sr si h ldh iloz ihiz z ldz v ldv u ldu nv wv ldwv nh wh ldwh = Ok (h', z', v', u', wv', wh') /\
    from_fa hd = Ok h' /\ mat_is hd n n H1 /\ trace 1 n H1 = trace 1 n H0.
Proof.
  intros E1 E2 E3 E4 E5 E6 Hk Hn K1 K2 RH NH MH RV CV C3 S1 S2 S3 S4 lo hi HESS UNR I1 I2 NB FR BS.
  destruct (dlaqr5_similar SR SI H ZZ V U WV WH TSR TSI TH FH TZ FZ TV FV TU FU TWV FWV TWH FWH wantt wantz kacc22 n ktop kbot sr si h ldh iloz ihiz z ldz v ldv u ldu nv wv ldwv nh wh ldwh
    hf zf vf uf wvf whf H0 sr1 si1 sr2 si2 N E1 E2 E3 E4 E5 E6 Hk Hn K1 K2 RH NH MH RV CV C3 S1 S2 S3 S4 HESS UNR I1 I2 NB FR BS)
    as (hd & h' & z' & v' & u' & wv' & wh' & H1 & Q & A1 & A2 & A3 & A4 & A5 & A6 & A7 & A8 & A9 & A10).
  fold lo hi in A5, A7, A8, A9. exists hd, h', z', v', u', wv', wh', H1. split; [exact A1|]. split; [exact A2|]. split; [exact A4|].
  assert (L : 1 <= lo <= ktop) by (unfold lo; destruct wantt; lia). assert (L' : kbot <= hi <= n) by (unfold hi; destruct wantt; lia).
  assert (T : trace lo hi H1 = trace lo hi H0).
  { apply (similar_trace lo hi Q); [exact A5|]. intros i Hi. destruct (A8 i i Hi Hi) as [E|[[_ E] _]]; [exact E|lia]. }
  unfold trace in *. assert (SP : forall f, Rsum_range f 1 n = (Rsum_range f 1 (lo - 1) + (Rsum_range f lo hi + Rsum_range f (hi + 1) n))%R).
  { intros f. rewrite (Rsum_range_split f 1 (lo - 1) n) by lia. rewrite Z.sub_add. rewrite (Rsum_range_split f lo hi n) by lia. reflexivity. }
  rewrite !SP, T. f_equal; [|f_equal]; apply Rsum_range_ext; intros i Hi; apply A9; lia.
Qed.

(** ** the hypotheses can be met *)
Definition tri (i j : Z) : R := if i =? j then 2%R else if Z.abs (i - j) =? 1 then 1%R else 0%R.
Definition tri4 : list (list er) := [[Fin 2; Fin 1; Fin 0; Fin 0]; [Fin 1; Fin 2; Fin 1; Fin 0]; [Fin 0; Fin 1; Fin 2; Fin 1]; [Fin 0; Fin 0; Fin 1; Fin 2]]%R.
Lemma tri4_is : mat_is (fa_of_nested tri4) 4 4 tri.
Proof.
  intros i j Hi Hj. assert (i = 1 \/ i = 2 \/ i = 3 \/ i = 4) as C by lia. assert (j = 1 \/ j = 2 \/ j = 3 \/ j = 4) as C' by lia.
  destruct C as [->|[->|[->| ->]]], C' as [->|[->|[->| ->]]]; reflexivity.
Qed.
Lemma tri4_hyps : let s := [Fin 1; Fin 3] in let z := [Fin 0; Fin 0] in let w := [Fin 0; Fin 0; Fin 0] in
  usable_2d _ _ tri4 4 (fa_of_nested tri4) /\ rows (fa_of_nested tri4) = 4 /\ mat_is (fa_of_nested tri4) 4 4 tri /\
  (exists vf, usable_2d _ _ w 3 vf /\ rows vf = 3 /\ 1 <= cols vf /\ 3 <= count vf) /\
  elem (to_fa s) 1 = Some (Fin 1) /\ elem (to_fa s) 2 = Some (Fin 3) /\ elem (to_fa z) 1 = Some (Fin 0) /\ elem (to_fa z) 2 = Some (Fin 0) /\
  hessenberg 1 4 tri /\ (forall j, 1 <= j < 4 -> tri (j + 1) j <> 0%R) /\ (frob2 1 4 tri <= 5 * 5)%R /\ (0 <= 5 <= 2 ^ 500)%R /\ (Rabs 1 <= 2 ^ 500 /\ Rabs 3 <= 2 ^ 500 /\ Rabs 0 <= 2 ^ 500)%R.
Proof.
  intros s z w. assert (B : (8 <= 2 ^ 500)%R) by (replace 8%R with (2 ^ 3)%R by ring; apply Rle_pow; [lra|lia]).
  split; [apply (usable_2d_nested tri4 4); [lia|discriminate|repeat constructor]|]. split; [reflexivity|]. split; [exact tri4_is|].
  split. { destruct (usable_2d_vec w 3 1) as (f & U & R & C & D); [lia|lia|reflexivity|]. exists f. split; [exact U|]. split; [exact R|]. split; [lia|]. rewrite count_zlen, D. unfold zlen. cbn. lia. }
  split; [reflexivity|]. split; [reflexivity|]. split; [reflexivity|]. split; [reflexivity|].
  split. { intros i j Hi Hj L. unfold tri. destruct (Z.eqb_spec i j); [lia|]. destruct (Z.eqb_spec (Z.abs (i - j)) 1); [lia|reflexivity]. }
  split. { intros j Hj. unfold tri. destruct (Z.eqb_spec (j + 1) j); [lia|]. destruct (Z.eqb_spec (Z.abs (j + 1 - j)) 1); [lra|lia]. }
  split. { unfold frob2, Rsum_range, tri. simpl. lra. }
  split; [lra|]. rewrite !Rabs_pos_eq by lra. lra.
Qed.
