(** Property C62: dlaqr5's sweep of the active block depends on the block and the shifts alone.  Statements only; the proofs are
    in LarfgPre.v, Q5Block.v, Q5BlockRun.v, Q5BlockTop.v. *)
From Verif Require Import Base Num Array Blas Lapack Dlaqr5 Spec Laqr5Top.
From Verif Require LarfgPre Q5BlockTop.
Open Scope Z_scope.

(** ** C62 *)
(** Over any number type, with one pair of shifts and without accumulation: two calls, one on rows and columns ktop+d .. kbot+d of
    one matrix and one on rows and columns ktop .. kbot of another, given the same n, the same two shifts and the same block (up to
    the entries four and more below the diagonal), both return and leave the same block, bit for bit.  Nothing else matters:
    not the rest of either matrix, not its leading dimension or container, not Z, V, U, WV, WH, and not wantt or wantz - the block
    is the same whether or not the full Schur form and Z were asked for. *)
Theorem c62_window : forall F (NF : Num F) SR SI H ZZ V U WV WH SR' SI' H' ZZ' V' U' WV' WH'
    (TSR : ToFA F SR) (TSI : ToFA F SI) (TH : ToFA F H) (FH : FromFA F H) (TZ : ToFA F ZZ) (FZ : FromFA F ZZ)
    (TV : ToFA F V) (FV : FromFA F V) (TU : ToFA F U) (FU : FromFA F U) (TWV : ToFA F WV) (FWV : FromFA F WV) (TWH : ToFA F WH) (FWH : FromFA F WH)
    (TSR' : ToFA F SR') (TSI' : ToFA F SI') (TH' : ToFA F H') (FH' : FromFA F H') (TZ' : ToFA F ZZ') (FZ' : FromFA F ZZ')
    (TV' : ToFA F V') (FV' : FromFA F V') (TU' : ToFA F U') (FU' : FromFA F U') (TWV' : ToFA F WV') (FWV' : FromFA F WV') (TWH' : ToFA F WH') (FWH' : FromFA F WH')
    n d ktop kbot
    (wantt wantz : bool) kacc22 (sr : SR) (si : SI) (h : H) ldh iloz ihiz (z : ZZ) ldz (v : V) ldv (u : U) ldu nv (wv : WV) ldwv nh (wh : WH) ldwh hf zf vf uf wvf whf
    (wantt' wantz' : bool) kacc22' (sr' : SR') (si' : SI') (h' : H') ldh' iloz' ihiz' (z' : ZZ') ldz' (v' : V') ldv' (u' : U') ldu' nv' (wv' : WV') ldwv' nh' (wh' : WH') ldwh' hf' zf' vf' uf' wvf' whf',
  usable_2d TH FH h ldh hf -> usable_2d TZ FZ z ldz zf -> usable_2d TV FV v ldv vf -> usable_2d TU FU u ldu uf -> usable_2d TWV FWV wv ldwv wvf -> usable_2d TWH FWH wh ldwh whf ->
  usable_2d TH' FH' h' ldh' hf' -> usable_2d TZ' FZ' z' ldz' zf' -> usable_2d TV' FV' v' ldv' vf' -> usable_2d TU' FU' u' ldu' uf' -> usable_2d TWV' FWV' wv' ldwv' wvf' -> usable_2d TWH' FWH' wh' ldwh' whf' ->
  1 <= ktop < kbot -> kbot <= n -> 1 <= ktop + d -> kbot + d <= n -> kacc22 <> 1 -> kacc22 <> 2 -> kacc22' <> 1 -> kacc22' <> 2 ->
  rows hf = ldh -> n <= ldh -> n * ldh <= count hf -> rows vf = ldv -> 1 <= cols vf -> 3 <= count vf ->
  rows hf' = ldh' -> n <= ldh' -> n * ldh' <= count hf' -> rows vf' = ldv' -> 1 <= cols vf' -> 3 <= count vf' ->
  (forall p, 1 <= p <= 2 -> elem (to_fa sr) p = elem (to_fa sr') p /\ elem (to_fa si) p = elem (to_fa si') p) ->
  (forall a b, ktop <= a <= kbot -> ktop <= b <= kbot -> a < b + 4 -> ent hf (a + d) (b + d) = ent hf' a b) ->
  exists hd oh oz ov ou owv owh hd' oh' oz' ov' ou' owv' owh',
    dlaqr5 wantt wantz kacc22 n (ktop + d) (kbot + d) 2 sr si h ldh iloz ihiz z ldz v ldv u ldu nv wv ldwv nh wh ldwh = Ok (oh, oz, ov, ou, owv, owh) /\
    dlaqr5 wantt' wantz' kacc22' n ktop kbot 2 sr' si' h' ldh' iloz' ihiz' z' ldz' v' ldv' u' ldu' nv' wv' ldwv' nh' wh' ldwh' = Ok (oh', oz', ov', ou', owv', owh') /\
    from_fa hd = Ok oh /\ from_fa hd' = Ok oh' /\ same_shape hd hf /\ same_shape hd' hf' /\
    (forall a b, ktop <= a <= kbot -> ktop <= b <= kbot -> a < b + 4 -> ent hd (a + d) (b + d) = ent hd' a b).
Proof. exact @Q5BlockTop.dlaqr5_window. Qed.
Print Assumptions c62_window.

(** dlarfg on a list reads and writes its first n-1 elements only: two lists that agree there give the same beta and tau and lists
    that again agree there *)
Theorem c62_larfg_prefix : forall F (NF : Num F) n al (x y : list F),
  (forall p, 1 <= p <= n - 1 -> elem (fa_of_vec x) p = elem (fa_of_vec y) p) ->
  exists be tau x' y', dlarfg n al x 1 = Ok (be, x', tau) /\ dlarfg n al y 1 = Ok (be, y', tau) /\
    (forall p, 1 <= p <= n - 1 -> elem (fa_of_vec x') p = elem (fa_of_vec y') p) /\ zlen x' = zlen x /\ zlen y' = zlen y.
Proof. exact @LarfgPre.dlarfg_pre. Qed.
Print Assumptions c62_larfg_prefix.

(** the block ((1,2,3),(4,5,6),(0,7,8)) at the top left and in the middle of two 5-by-5 matrices that hold any x (say a NaN)
    elsewhere: the pair meets the hypotheses with ktop = 2, kbot = 4, d = -1 *)
Example c62_hyps : forall F (NF : Num F) (x : F), let d m := fdy m 0 in
  let h := [[d 1; d 4; d 0; x; x]; [d 2; d 5; d 7; x; x]; [d 3; d 6; d 8; x; x]; [x; x; x; x; x]; [x; x; x; x; x]] in
  let g := [[x; x; x; x; x]; [x; d 1; d 4; d 0; x]; [x; d 2; d 5; d 7; x]; [x; d 3; d 6; d 8; x]; [x; x; x; x; x]] in
  let w := [x; x; x] in
  (usable_2d _ _ h 5 (fa_of_nested h) /\ usable_2d _ _ g 5 (fa_of_nested g) /\ rows (fa_of_nested h) = 5 /\ rows (fa_of_nested g) = 5 /\ count (fa_of_nested h) = 25 /\ count (fa_of_nested g) = 25) /\
  (exists vf, usable_2d _ _ w 3 vf /\ rows vf = 3 /\ 1 <= cols vf /\ 3 <= count vf) /\
  (forall a b, 2 <= a <= 4 -> 2 <= b <= 4 -> ent (fa_of_nested h) (a + -1) (b + -1) = ent (fa_of_nested g) a b).
Proof. exact @Q5BlockTop.window5_hyps. Qed.
