(** dlaqr5: the statements of PropsLaqr5.v that hold for every number type. *)
From Coq Require Import Ascii Permutation.
From Verif Require Import Base Num Array Blas Lapack Dlaqr5 Spec Lists FaLemmas LarfgProofs LahqrProofs LahqrTop Laqr5Proofs Laqr5Shifts.

Lemma wf_dim2 {F} ld (f : fa F) : rows f = ld -> 1 <= cols f -> well_formed f -> 3 <= count f \/ ld <> 0 -> dim2 ld f.
Proof.
  intros R C (R0 & C0 & N) L. rewrite R in *. destruct (Z.eqb_spec (cols f) 0); [lia|]. unfold dim2. rewrite N in *.
  assert (1 <= ld) by (destruct L; nia). auto.
Qed.

Section Top.
  Context {F : Type} {NF : Num F} {SR SI H ZZ V U WV WH : Type}.
  Context (TSR : ToFA F SR) (TSI : ToFA F SI) (TH : ToFA F H) (FH : FromFA F H) (TZ : ToFA F ZZ) (FZ : FromFA F ZZ)
    (TV : ToFA F V) (FV : FromFA F V) (TU : ToFA F U) (FU : FromFA F U) (TWV : ToFA F WV) (FWV : FromFA F WV) (TWH : ToFA F WH) (FWH : FromFA F WH).
  Variables (wantt wantz : bool) (kacc22 n ktop kbot nshfts : Z) (sr : SR) (si : SI) (h : H) (ldh iloz ihiz : Z) (z : ZZ) (ldz : Z)
    (v : V) (ldv : Z) (u : U) (ldu nv : Z) (wv : WV) (ldwv nh : Z) (wh : WH) (ldwh : Z).
  Notation run := (dlaqr5 wantt wantz kacc22 n ktop kbot nshfts sr si h ldh iloz ihiz z ldz v ldv u ldu nv wv ldwv nh wh ldwh).
  Variables (hf zf vf uf wvf whf : fa F).
  Hypothesis (EH : to_fa_2d h ldh = Ok hf) (EZ : to_fa_2d z ldz = Ok zf) (EV : to_fa_2d v ldv = Ok vf) (EU : to_fa_2d u ldu = Ok uf)
    (EWV : to_fa_2d wv ldwv = Ok wvf) (EWH : to_fa_2d wh ldwh = Ok whf).

  Lemma dlaqr5_quick : nshfts < 2 \/ kbot <= ktop -> run = Ok (h, z, v, u, wv, wh).
  Proof.
    intros Q. unfold dlaqr5. rewrite EH, EZ, EV, EU, EWV, EWH. cbn [bind].
    destruct (Z.ltb_spec nshfts 2); [reflexivity|]. destruct (Z.leb_spec kbot ktop); [reflexivity|lia].
  Qed.

  Lemma nbmps_one : nshfts = 2 \/ nshfts = 3 -> Z.quot (nshfts - Z.rem nshfts 2) 2 = 1.
  Proof. intros [-> | ->]; reflexivity. Qed.

  Lemma dlaqr5_run : 2 <= nshfts -> ktop < kbot ->
    run = (st <- q5_main wantt wantz ((kacc22 =? 1) || (kacc22 =? 2)) n ktop kbot (Z.quot (nshfts - Z.rem nshfts 2) 2)
                   (fst (shuffle_shifts nshfts (to_fa sr) (to_fa si))) (snd (shuffle_shifts nshfts (to_fa sr) (to_fa si)))
                   ldh iloz ihiz ldz ldv ldu nv ldwv nh ldwh (mkQ5 hf zf vf uf wvf whf (fa_of_vec [f0; f0; f0])) ;;
           h' <- from_fa (qH st) ;; z' <- from_fa (qZ st) ;; v' <- from_fa (qV st) ;;
           u' <- from_fa (qU st) ;; wv' <- from_fa (qWv st) ;; wh' <- from_fa (qWh st) ;; Ok (h', z', v', u', wv', wh')).
  Proof.
    intros A B. unfold dlaqr5. rewrite EH, EZ, EV, EU, EWV, EWH. cbn [bind].
    destruct (Z.ltb_spec nshfts 2); [lia|]. destruct (Z.leb_spec kbot ktop); [lia|].
    destruct (shuffle_shifts nshfts (to_fa sr) (to_fa si)) as [a b]. reflexivity.
  Qed.

  (** one bulge, no accumulation: it returns, shapes are kept and the workspace is untouched *)
  Lemma dlaqr5_shapes : nshfts = 2 \/ nshfts = 3 -> ktop < kbot -> kacc22 <> 1 -> kacc22 <> 2 ->
    well_formed hf -> ldh <> 0 -> rows vf = ldv -> 1 <= cols vf -> well_formed vf -> 3 <= count vf ->
    exists hd zd vd, same_shape hd hf /\ same_shape zd zf /\ same_shape vd vf /\
      run = (h' <- from_fa hd ;; z' <- from_fa zd ;; v' <- from_fa vd ;; u' <- from_fa uf ;; wv' <- from_fa wvf ;; wh' <- from_fa whf ;;
             Ok (h', z', v', u', wv', wh')).
  Proof.
    intros NS K K1 K2 WH' LH RV CV WV' C3. rewrite dlaqr5_run by lia. rewrite nbmps_one by exact NS.
    destruct (Z.eqb_spec kacc22 1); [lia|]. destruct (Z.eqb_spec kacc22 2); [lia|]. cbn [orb].
    assert (DV : dim2 ldv vf) by (apply wf_dim2; auto).
    destruct (main_total wantt wantz false n ktop kbot (fst (shuffle_shifts nshfts (to_fa sr) (to_fa si))) (snd (shuffle_shifts nshfts (to_fa sr) (to_fa si)))
      ldh iloz ihiz ldz ldv ldu nv ldwv nh ldwh hf zf vf uf wvf whf (proj1 (wf_full hf WH')) LH DV C3
      (mkQ5 hf zf vf uf wvf whf (fa_of_vec [f0; f0; f0])) eq_refl) as (st & -> & (S1 & S2 & S3) & S4 & S5 & S6).
    - split; [split; [|split]; apply same_shape_refl|]. cbn. auto.
    - cbn [bind]. rewrite S4, S5, S6. exists (qH st), (qZ st), (qV st). auto.
  Qed.

  (** one bulge with accumulation: what is returned has the shapes supplied, when H and Z have the same leading dimension *)
  Lemma dlaqr5_shapes_accum r : nshfts = 2 \/ nshfts = 3 -> ktop < kbot -> ldh = ldz ->
    rows hf = ldh -> 1 <= cols hf -> well_formed hf -> ldh <> 0 -> rows zf = ldz -> 1 <= cols zf -> well_formed zf ->
    rows vf = ldv -> 1 <= cols vf -> well_formed vf -> 3 <= count vf -> run = Ok r ->
    exists hd zd vd ud wvd whd, same_shape hd hf /\ same_shape zd zf /\ same_shape vd vf /\ same_shape ud uf /\ same_shape wvd wvf /\ same_shape whd whf /\
      (h' <- from_fa hd ;; z' <- from_fa zd ;; v' <- from_fa vd ;; u' <- from_fa ud ;; wv' <- from_fa wvd ;; wh' <- from_fa whd ;;
             Ok (h', z', v', u', wv', wh')) = Ok r.
  Proof.
    intros NS K LL RH CH WFH LH RZ CZ WFZ RV CV WFV C3. rewrite dlaqr5_run by lia. rewrite nbmps_one by exact NS.
    pose proof (@wf_dim2 F) as D2.
    match goal with |- context [bind ?x _] => destruct x as [st| | |] eqn:E; try discriminate end. cbn [bind].
    apply main_shapes with (h0 := hf) (z0 := zf) (v0 := vf) (u0 := uf) (wv0 := wvf) (wh0 := whf) in E.
    - destruct E as ((S1 & S2 & S3) & R). intros ER. exists (qH st), (qZ st), (qV st), (qU st), (qWv st), (qWh st).
      split; [exact S1|]. split; [exact S2|]. split; [exact S3|]. unfold rest_ok in R. destruct (_ || _)%bool.
      + destruct R as (R1 & R2 & R3). auto.
      + destruct R as (R1 & R2 & R3). rewrite R1, R2, R3 in *. split; [apply same_shape_refl|]. split; [apply same_shape_refl|]. split; [apply same_shape_refl|exact ER].
    - apply wf_full. exact WFH.
    - exact LH.
    - apply D2; auto.
    - exact C3.
    - intros _. rewrite <- LL. split; [apply D2; auto|]. intros _. rewrite LL in *. apply D2; auto.
    - split; [split; [|split]; apply same_shape_refl|]. unfold rest_ok. cbn [qU qWv qWh]. destruct (_ || _)%bool; [split; [|split]; apply same_shape_refl|auto].
  Qed.
End Top.

(** the same in terms of the containers *)
Section Statements.
  Context {F : Type} {NF : Num F} {SR SI H ZZ V U WV WH : Type}.
  Context (TSR : ToFA F SR) (TSI : ToFA F SI) (TH : ToFA F H) (FH : FromFA F H) (TZ : ToFA F ZZ) (FZ : FromFA F ZZ)
    (TV : ToFA F V) (FV : FromFA F V) (TU : ToFA F U) (FU : FromFA F U) (TWV : ToFA F WV) (FWV : FromFA F WV) (TWH : ToFA F WH) (FWH : FromFA F WH).
  Variables (wantt wantz : bool) (kacc22 n ktop kbot nshfts : Z) (sr : SR) (si : SI) (h : H) (ldh iloz ihiz : Z) (z : ZZ) (ldz : Z)
    (v : V) (ldv : Z) (u : U) (ldu nv : Z) (wv : WV) (ldwv nh : Z) (wh : WH) (ldwh : Z).
  Notation run := (dlaqr5 wantt wantz kacc22 n ktop kbot nshfts sr si h ldh iloz ihiz z ldz v ldv u ldu nv wv ldwv nh wh ldwh).

  Lemma dlaqr5_quick_returns hf zf vf uf wvf whf :
    to_fa_2d h ldh = Ok hf -> to_fa_2d z ldz = Ok zf -> to_fa_2d v ldv = Ok vf -> to_fa_2d u ldu = Ok uf -> to_fa_2d wv ldwv = Ok wvf -> to_fa_2d wh ldwh = Ok whf ->
    nshfts < 2 \/ kbot <= ktop -> run = Ok (h, z, v, u, wv, wh).
  Proof. intros E1 E2 E3 E4 E5 E6. exact (dlaqr5_quick _ _ _ _ _ _ _ _ _ _ _ _ _ _ _ _ _ _ _ _ _ _ _ _ _ _ _ _ _ _ _ _ _ _ _ _ _ _ _ hf zf vf uf wvf whf E1 E2 E3 E4 E5 E6). Qed.

  Lemma dlaqr5_returns hf zf vf uf wvf whf :
    usable_2d TH FH h ldh hf -> usable_2d TZ FZ z ldz zf -> usable_2d TV FV v ldv vf ->
    usable_2d TU FU u ldu uf -> usable_2d TWV FWV wv ldwv wvf -> usable_2d TWH FWH wh ldwh whf ->
    nshfts = 2 \/ nshfts = 3 -> ktop < kbot -> kacc22 <> 1 -> kacc22 <> 2 -> ldh <> 0 -> rows vf = ldv -> 1 <= cols vf -> 3 <= count vf ->
    exists hd zd vd h' z' v' u' wv' wh', run = Ok (h', z', v', u', wv', wh') /\
      from_fa hd = Ok h' /\ from_fa zd = Ok z' /\ from_fa vd = Ok v' /\ from_fa uf = Ok u' /\ from_fa wvf = Ok wv' /\ from_fa whf = Ok wh' /\
      same_shape hd hf /\ same_shape zd zf /\ same_shape vd vf.
  Proof.
    intros (E1 & W1 & G1) (E2 & W2 & G2) (E3 & W3 & G3) (E4 & W4 & G4) (E5 & W5 & G5) (E6 & W6 & G6) NS K K1 K2 LH RV CV C3.
    destruct (dlaqr5_shapes TSR TSI TH FH TZ FZ TV FV TU FU TWV FWV TWH FWH wantt wantz kacc22 n ktop kbot nshfts sr si h ldh iloz ihiz z ldz v ldv u ldu nv wv ldwv nh wh ldwh
      hf zf vf uf wvf whf E1 E2 E3 E4 E5 E6 NS K K1 K2 W1 LH RV CV W3 C3) as (hd & zd & vd & S1 & S2 & S3 & ->).
    destruct (G1 _ S1) as [h' Eh], (G2 _ S2) as [z' Ez], (G3 _ S3) as [v' Ev], (G4 _ (same_shape_refl _)) as [u' Eu],
      (G5 _ (same_shape_refl _)) as [wv' Ew], (G6 _ (same_shape_refl _)) as [wh' Ex].
    exists hd, zd, vd, h', z', v', u', wv', wh'. rewrite Eh, Ez, Ev, Eu, Ew, Ex.
    exact (conj eq_refl (conj eq_refl (conj eq_refl (conj eq_refl (conj eq_refl (conj eq_refl (conj eq_refl (conj S1 (conj S2 S3))))))))).
  Qed.

  Lemma dlaqr5_accum_shapes hf zf vf uf wvf whf h' z' v' u' wv' wh' :
    usable_2d TH FH h ldh hf -> usable_2d TZ FZ z ldz zf -> usable_2d TV FV v ldv vf ->
    usable_2d TU FU u ldu uf -> usable_2d TWV FWV wv ldwv wvf -> usable_2d TWH FWH wh ldwh whf ->
    nshfts = 2 \/ nshfts = 3 -> ktop < kbot -> ldh = ldz -> ldh <> 0 -> rows hf = ldh -> 1 <= cols hf -> rows zf = ldz -> 1 <= cols zf ->
    rows vf = ldv -> 1 <= cols vf -> 3 <= count vf -> run = Ok (h', z', v', u', wv', wh') ->
    exists hd zd vd ud wvd whd,
      from_fa hd = Ok h' /\ from_fa zd = Ok z' /\ from_fa vd = Ok v' /\ from_fa ud = Ok u' /\ from_fa wvd = Ok wv' /\ from_fa whd = Ok wh' /\
      same_shape hd hf /\ same_shape zd zf /\ same_shape vd vf /\ same_shape ud uf /\ same_shape wvd wvf /\ same_shape whd whf.
  Proof.
    intros (E1 & W1 & G1) (E2 & W2 & G2) (E3 & W3 & G3) (E4 & W4 & G4) (E5 & W5 & G5) (E6 & W6 & G6) NS K LL LH RH CH RZ CZ RV CV C3 E.
    destruct (dlaqr5_shapes_accum TSR TSI TH FH TZ FZ TV FV TU FU TWV FWV TWH FWH wantt wantz kacc22 n ktop kbot nshfts sr si h ldh iloz ihiz z ldz v ldv u ldu nv wv ldwv nh wh ldwh
      hf zf vf uf wvf whf E1 E2 E3 E4 E5 E6 _ NS K LL RH CH W1 LH RZ CZ W2 RV CV W3 C3 E) as (hd & zd & vd & ud & wvd & whd & S1 & S2 & S3 & S4 & S5 & S6 & R).
    exists hd, zd, vd, ud, wvd, whd.
    destruct (G1 _ S1) as [h1 Eh], (G2 _ S2) as [z1 Ez], (G3 _ S3) as [v1 Ev], (G4 _ S4) as [u1 Eu], (G5 _ S5) as [wv1 Ew], (G6 _ S6) as [wh1 Ex].
    rewrite Eh, Ez, Ev, Eu, Ew, Ex in *. cbn [bind] in R. injection R as <- <- <- <- <- <-.
    exact (conj eq_refl (conj eq_refl (conj eq_refl (conj eq_refl (conj eq_refl (conj eq_refl (conj S1 (conj S2 (conj S3 (conj S4 (conj S5 S6))))))))))).
  Qed.
End Statements.

(** with three or more shifts the first shift supplied has no influence *)
Lemma dlaqr5_first_ignored {F} {NF : Num F} {H ZZ V U WV WH} (TH : ToFA F H) (FH : FromFA F H) (TZ : ToFA F ZZ) (FZ : FromFA F ZZ)
    (TV : ToFA F V) (FV : FromFA F V) (TU : ToFA F U) (FU : FromFA F U) (TWV : ToFA F WV) (FWV : FromFA F WV) (TWH : ToFA F WH) (FWH : FromFA F WH)
    wantt wantz kacc22 n ktop kbot nshfts (x y x' y' : F) (sr si : list F) (h : H) ldh iloz ihiz (z : ZZ) ldz (v : V) ldv (u : U) ldu nv (wv : WV) ldwv nh (wh : WH) ldwh :
  3 <= nshfts -> 2 <= zlen sr -> 2 <= zlen si -> fne fMINPOS y = true -> fne fMINPOS y' = true ->
  dlaqr5 wantt wantz kacc22 n ktop kbot nshfts (x :: sr) (y :: si) h ldh iloz ihiz z ldz v ldv u ldu nv wv ldwv nh wh ldwh =
  dlaqr5 wantt wantz kacc22 n ktop kbot nshfts (x' :: sr) (y' :: si) h ldh iloz ihiz z ldz v ldv u ldu nv wv ldwv nh wh ldwh.
Proof.
  intros NS L1 L2 N1 N2. unfold dlaqr5.
  destruct (to_fa_2d h ldh) as [hf| | |]; cbn [bind]; try reflexivity. destruct (to_fa_2d z ldz) as [zf| | |]; cbn [bind]; try reflexivity.
  destruct (to_fa_2d v ldv) as [vf| | |]; cbn [bind]; try reflexivity. destruct (to_fa_2d u ldu) as [uf| | |]; cbn [bind]; try reflexivity.
  destruct (to_fa_2d wv ldwv) as [wvf| | |]; cbn [bind]; try reflexivity. destruct (to_fa_2d wh ldwh) as [whf| | |]; cbn [bind]; try reflexivity.
  destruct (nshfts <? 2); [reflexivity|]. destruct (kbot <=? ktop); [reflexivity|].
  assert (G : same_reads (shuffle_shifts nshfts (to_fa (x :: sr)) (to_fa (y :: si))) (shuffle_shifts nshfts (to_fa (x' :: sr)) (to_fa (y' :: si)))).
  { assert (CN : forall (a : F) l, count (to_fa (a :: l)) = 1 + zlen l) by (intros; change (zlen (a :: l) = 1 + zlen l); unfold zlen; cbn [length]; lia).
    apply shuffle_first; rewrite ?CN; try lia; try assumption.
    intros p Hp. rewrite !get1_elem, !elem_zget. unfold zget. destruct (Z.ltb_spec (p - 1) 0); [lia|].
    replace (Z.to_nat (p - 1)) with (S (Z.to_nat (p - 2))) by lia. split; reflexivity. }
  destruct (shuffle_shifts nshfts (to_fa (x :: sr)) (to_fa (y :: si))) as [a b].
  destruct (shuffle_shifts nshfts (to_fa (x' :: sr)) (to_fa (y' :: si))) as [c d]. destruct G as (G1 & G2 & _). cbn [fst snd] in *.
  rewrite (main_ext _ _ _ _ _ _ _ c d a b) by assumption. reflexivity.
Qed.

(** which containers are usable with a leading dimension *)
Section Usable.
  Context {F : Type} {NF : Num F}.
  Lemma usable_2d_vec (l : list F) ld q : 1 <= ld -> 1 <= q -> zlen l = ld * q -> exists f, usable_2d _ _ l ld f /\ rows f = ld /\ cols f = q /\ data f = l.
  Proof.
    intros L Q E. exists (mkFA l ld q fnan). cbn [rows cols data]. unfold usable_2d, well_formed. cbn [to_fa_2d ToFA_vec]. unfold fa_as_2d.
    destruct (Z.eqb_spec ld 0); [lia|]. cbn [fa_of_vec data dflt rows cols]. rewrite E, Z.mul_comm, Z.quot_mul by lia. destruct (Z.eqb_spec q 0); [lia|].
    rewrite count_zlen. cbn [data]. rewrite E.
    split; [|auto]. split; [reflexivity|]. split; [split; [lia|split; [lia|apply Z.mul_comm]]|]. intros d _. eexists. reflexivity.
  Qed.
  Lemma usable_2d_nested (l : list (list F)) q ld : 1 <= q -> l <> [] -> Forall (fun r => zlen r = q) l -> usable_2d _ _ l ld (fa_of_nested l).
  Proof. intros Q N H. destruct (usable_nested l q Q N H) as [W G]. split; [reflexivity|]. split; [exact W|exact G]. Qed.
End Usable.
