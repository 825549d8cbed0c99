(** dlaqr5 in binary64 keeps NaN entries: the statement at the level of the call, and a call that meets the hypotheses. *)
From Coq Require Import ZArith Lia Bool List.
From Flocq Require Import IEEE754.BinarySingleNaN Core.
From Verif Require Import Base Num Array Blas Lapack Dlaqr5 Spec B64 B64Lemmas Lists FaLemmas Laqr5Top Q5Nan Q5BlockTop.
Import ListNotations.
Open Scope Z_scope.

Section Top.
  Context (lm : libm).
  #[local] Instance NBq5t : Num b64 := B64 lm.
  Context {SR SI H ZZ V U WV WH : Type} (TSR : ToFA b64 SR) (TSI : ToFA b64 SI) (TH : ToFA b64 H) (FH : FromFA b64 H) (TZ : ToFA b64 ZZ) (FZ : FromFA b64 ZZ)
    (TV : ToFA b64 V) (FV : FromFA b64 V) (TU : ToFA b64 U) (FU : FromFA b64 U) (TWV : ToFA b64 WV) (FWV : FromFA b64 WV) (TWH : ToFA b64 WH) (FWH : FromFA b64 WH).

  Lemma dlaqr5_nan (wantt wantz : bool) kacc22 n ktop kbot nshfts (sr : SR) (si : SI) (h : H) ldh iloz ihiz (z : ZZ) ldz (v : V) ldv (u : U) ldu nv (wv : WV) ldwv nh (wh : WH) ldwh (hf zf : fa b64) oh oz ov ou owv owh :
    to_fa_2d h ldh = Ok hf -> to_fa_2d z ldz = Ok zf ->
    2 <= nshfts -> 1 <= ktop < kbot -> kbot <= n -> n <= rows hf -> kacc22 <> 1 -> kacc22 <> 2 ->
    dlaqr5 wantt wantz kacc22 n ktop kbot nshfts sr si h ldh iloz ihiz z ldz v ldv u ldu nv wv ldwv nh wh ldwh = Ok (oh, oz, ov, ou, owv, owh) ->
    exists hd zd, from_fa hd = Ok oh /\ from_fa zd = Ok oz /\ same_shape hd hf /\ same_shape zd zf /\
      (forall a b, 1 <= a <= n -> 1 <= b <= n -> a <= b + 1 -> ent hf a b = Some B754_nan -> ent hd a b = Some B754_nan) /\
      (forall p, elem zf p = Some B754_nan -> elem zd p = Some B754_nan).
  Proof.
    intros EH EZ NS HT HB HR K1 K2.
    destruct (to_fa_2d v ldv) as [vf| | |] eqn:EV; [|unfold dlaqr5; rewrite EH, EZ, EV; discriminate..].
    destruct (to_fa_2d u ldu) as [uf| | |] eqn:EU; [|unfold dlaqr5; rewrite EH, EZ, EV, EU; discriminate..].
    destruct (to_fa_2d wv ldwv) as [wvf| | |] eqn:EWV; [|unfold dlaqr5; rewrite EH, EZ, EV, EU, EWV; discriminate..].
    destruct (to_fa_2d wh ldwh) as [whf| | |] eqn:EWH; [|unfold dlaqr5; rewrite EH, EZ, EV, EU, EWV, EWH; discriminate..].
    erewrite dlaqr5_run by (try eassumption; lia).
    replace (kacc22 =? 1) with false by lia. replace (kacc22 =? 2) with false by lia. cbn [orb].
    destruct (q5_main _ _ _ _ _ _ _ _ _ _ _ _ _ _ _ _ _ _ _ _) as [st| | |] eqn:E; cbn [bind]; try discriminate.
    apply (main_keep lm) in E; [|lia..|exact HR].
    destruct E as [[S1 A1] [S2 A2]]. cbn [qH qZ] in *.
    destruct (from_fa (qH st)) as [o1| | |] eqn:E1; cbn [bind]; try discriminate. destruct (from_fa (qZ st)) as [o2| | |] eqn:E2; cbn [bind]; try discriminate.
    destruct (from_fa (qV st)); cbn [bind]; try discriminate. destruct (from_fa (qU st)); cbn [bind]; try discriminate.
    destruct (from_fa (qWv st)); cbn [bind]; try discriminate. destruct (from_fa (qWh st)); cbn [bind]; try discriminate.
    intros [= <- <- _ _ _ _]. exists (qH st), (qZ st). auto 8.
  Qed.
End Top.

Lemma nan5_hyps : forall lm, let NB : Num b64 := B64 lm in let d m := b64_dy m 0 in let q := B754_nan : b64 in
  let h := [[d 1; q; d 0; d 0]; [d 2; d 5; d 7; d 0]; [d 3; d 6; d 8; d 9]; [q; d 1; d 1; d 2]] in
  to_fa_2d h 4 = Ok (fa_of_nested h) /\ rows (fa_of_nested h) = 4 /\ ent (fa_of_nested h) 2 1 = Some q /\ ent (fa_of_nested h) 1 4 = Some q /\
  exists oh oz ov ou owv owh, dlaqr5 true true 0 4 1 4 2 [d 1; d 2] [d 0; d 0] h 4 1 4 h 4 h 4 h 4 1 h 4 1 h 4 = Ok (oh, oz, ov, ou, owv, owh).
Proof.
  intros lm NB d q h. assert (E : to_fa_2d h 4 = Ok (fa_of_nested h)) by reflexivity.
  split; [exact E|]. split; [reflexivity|]. split; [reflexivity|]. split; [reflexivity|].
  assert (W : well_formed (fa_of_nested h)) by (repeat split; cbn; lia).
  assert (FR : forall f : fa b64, same_shape f (fa_of_nested h) -> exists x : list (list b64), from_fa f = Ok x).
  { assert (U : usable_2d _ _ h 4 (fa_of_nested h)) by (apply (usable_2d_nested h 4); [lia|discriminate|repeat constructor]). exact (proj2 (proj2 U)). }
  pose proof (dlaqr5_shapes (F := b64) (NF := B64 lm) _ _ _ _ _ _ _ _ _ _ _ _ _ _ true true 0 4 1 4 2 [d 1; d 2] [d 0; d 0] h 4 1 4 h 4 h 4 h 4 1 h 4 1 h 4 _ _ _ _ _ _ E E E E E E) as P.
  destruct P as (hd & zd & vd & S1 & S2 & S3 & R); try lia; try assumption; try reflexivity; try (cbn; lia).
  destruct (FR _ S1) as (o1 & E1), (FR _ S2) as (o2 & E2), (FR _ S3) as (o3 & E3), (FR _ (same_shape_refl _)) as (o4 & E4).
  rewrite E1, E2, E3, E4 in R. cbn [bind] in R. do 6 eexists. exact R.
Qed.
