(** Property C65: dlaqr5 in f64 never loses a NaN.  Statements only; the proofs are in Q5Nan.v and Q5NanTop.v. *)
From Flocq Require Import IEEE754.BinarySingleNaN Core.
From Verif Require Import Base Num Array Blas Lapack Dlaqr5 Spec B64.
From Verif Require Q5NanTop.
Import ListNotations.
Open Scope Z_scope.

(** ** C65 *)
(** In f64, without accumulation and for any number of shifts: a returning call leaves every NaN of H on or above the subdiagonal
    and every NaN stored in Z where it was.  No reflector, no store of a generated subdiagonal entry and no deflation test turns a
    NaN into a number. *)
Theorem c65_nan_kept : forall lm, let NB : Num b64 := B64 lm in
    forall SR SI H ZZ V U WV WH (TSR : ToFA b64 SR) (TSI : ToFA b64 SI) (TH : ToFA b64 H) (FH : FromFA b64 H) (TZ : ToFA b64 ZZ) (FZ : FromFA b64 ZZ)
    (TV : ToFA b64 V) (FV : FromFA b64 V) (TU : ToFA b64 U) (FU : FromFA b64 U) (TWV : ToFA b64 WV) (FWV : FromFA b64 WV) (TWH : ToFA b64 WH) (FWH : FromFA b64 WH)
    (wantt wantz : bool) kacc22 n ktop kbot nshfts (sr : SR) (si : SI) (h : H) ldh iloz ihiz (z : ZZ) ldz (v : V) ldv (u : U) ldu nv (wv : WV) ldwv nh (wh : WH) ldwh
    (hf zf : fa b64) oh oz ov ou owv owh,
  to_fa_2d h ldh = Ok hf -> to_fa_2d z ldz = Ok zf ->
  2 <= nshfts -> 1 <= ktop < kbot -> kbot <= n -> n <= rows hf -> kacc22 <> 1 -> kacc22 <> 2 ->
  dlaqr5 wantt wantz kacc22 n ktop kbot nshfts sr si h ldh iloz ihiz z ldz v ldv u ldu nv wv ldwv nh wh ldwh = Ok (oh, oz, ov, ou, owv, owh) ->
  exists hd zd, from_fa hd = Ok oh /\ from_fa zd = Ok oz /\ same_shape hd hf /\ same_shape zd zf /\
    (forall a b, 1 <= a <= n -> 1 <= b <= n -> a <= b + 1 -> ent hf a b = Some B754_nan -> ent hd a b = Some B754_nan) /\
    (forall p, elem zf p = Some B754_nan -> elem zd p = Some B754_nan).
Proof. intros lm NB SR SI H ZZ V U WV WH TSR TSI TH FH TZ FZ TV FV TU FU TWV FWV TWH FWH. exact (Q5NanTop.dlaqr5_nan lm TSR TSI TH FH TZ FZ TV FV TU FU TWV FWV TWH FWH). Qed.
Print Assumptions c65_nan_kept.

(** a 4-by-4 Hessenberg matrix with a NaN on the subdiagonal and one in its corner, passed for H, Z and the workspaces: the
    hypotheses hold and the call returns *)
Example c65_hyps : forall lm, let NB : Num b64 := B64 lm in let d m := b64_dy m 0 in let q := B754_nan : b64 in
  let h := [[d 1; q; d 0; d 0]; [d 2; d 5; d 7; d 0]; [d 3; d 6; d 8; d 9]; [q; d 1; d 1; d 2]] in
  to_fa_2d h 4 = Ok (fa_of_nested h) /\ rows (fa_of_nested h) = 4 /\ ent (fa_of_nested h) 2 1 = Some q /\ ent (fa_of_nested h) 1 4 = Some q /\
  exists oh oz ov ou owv owh, dlaqr5 true true 0 4 1 4 2 [d 1; d 2] [d 0; d 0] h 4 1 4 h 4 h 4 h 4 1 h 4 1 h 4 = Ok (oh, oz, ov, ou, owv, owh).
Proof. exact Q5NanTop.nan5_hyps. Qed.
