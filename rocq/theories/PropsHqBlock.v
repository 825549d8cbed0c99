(** Property C60: dlahqr's results for the active block depend on the block alone. *)
From Coq Require Import Reals.
From Flocq Require Import IEEE754.BinarySingleNaN Core.
From Verif Require Import Base Num Array Blas Lapack Dlahqr Spec B64 LahqrTop HqBlock HqBlockWit.
Open Scope Z_scope.

(** ** C60 *)
(** Over any number type: if a call on rows and columns ilo+d .. ihi+d of one matrix returns, then a call on rows and columns
    ilo .. ihi of any other matrix holding the same block there returns too, whatever the orders of the two matrices, their
    leading dimensions, their entries outside the block and their containers, and whether or not Z was wanted the first time;
    the two report the same eigenvalues bit for bit, the same info up to the shift d, and leave the same block (up to the
    entries five and more below the diagonal, which are not read or written). *)
Theorem c60_window : forall F (NF : Num F) H WR WI ZZ H' WR' WI' ZZ'
    (TH : ToFA F H) (FH : FromFA F H) (TWR : ToFA F WR) (FWR : FromFA F WR) (TWI : ToFA F WI) (FWI : FromFA F WI) (TZ : ToFA F ZZ) (FZ : FromFA F ZZ)
    (TH' : ToFA F H') (FH' : FromFA F H') (TWR' : ToFA F WR') (FWR' : FromFA F WR') (TWI' : ToFA F WI') (FWI' : FromFA F WI') (TZ' : ToFA F ZZ') (FZ' : FromFA F ZZ')
    fuel (wantz : bool) n n' d ilo ihi (h : H) (wr : WR) (wi : WI) iloz ihiz (z : ZZ) ldz
    (h' : H') (wr' : WR') (wi' : WI') iloz' ihiz' (z' : ZZ') ldz' oh owr owi oz info,
  usable TH FH h -> usable TH' FH' h' -> usable TWR' FWR' wr' -> usable TWI' FWI' wi' -> usable TZ' FZ' z' ->
  1 <= ilo < ihi -> ihi <= n' -> 1 <= ilo + d -> ihi + d <= n ->
  n <= rows (to_fa h) -> n * rows (to_fa h) <= count (to_fa h) -> n' <= rows (to_fa h') -> n' * rows (to_fa h') <= count (to_fa h') ->
  ihi + d <= count (to_fa wr) -> ihi + d <= count (to_fa wi) -> ihi <= count (to_fa wr') -> ihi <= count (to_fa wi') ->
  (forall a b, ilo <= a <= ihi -> ilo <= b <= ihi -> a <= b + 1 \/ a = b + 4 -> ent (to_fa h) (a + d) (b + d) = ent (to_fa h') a b) ->
  dlahqr fuel true wantz n (ilo + d) (ihi + d) h (rows (to_fa h)) wr wi iloz ihiz z ldz = Ok (oh, owr, owi, oz, info) ->
  exists oh' owr' owi' oz' info',
    dlahqr fuel true false n' ilo ihi h' (rows (to_fa h')) wr' wi' iloz' ihiz' z' ldz' = Ok (oh', owr', owi', oz', info') /\
    (info = 0 /\ info' = 0 \/ ilo <= info' <= ihi /\ info = info' + d) /\
    exists hd wrd wid hd' wrd' wid',
      (from_fa hd = Ok oh /\ from_fa wrd = Ok owr /\ from_fa wid = Ok owi) /\
      (from_fa hd' = Ok oh' /\ from_fa wrd' = Ok owr' /\ from_fa wid' = Ok owi') /\
      same_shape hd (to_fa h) /\ same_shape hd' (to_fa h') /\
      (forall a b, ilo <= a <= ihi -> ilo <= b <= ihi -> a < b + 5 -> ent hd (a + d) (b + d) = ent hd' a b) /\
      (forall j, (if info' =? 0 then ilo else info' + 1) <= j <= ihi -> elem wrd (j + d) = elem wrd' j /\ elem wid (j + d) = elem wid' j).
Proof. exact @dlahqr_window. Qed.
Print Assumptions c60_window.

(** The matrix ((1,2,3),(4,5,6),(0,7,8)) alone, and as the middle of a 5-by-5 matrix that is NaN elsewhere: the pair meets the
    hypotheses, and the second call returns with info = 0 *)
Example c60_hyps : forall lm, libm_ok lm -> let NB : Num b64 := B64 lm in let d m := b64_dy m 0 in let q := B754_nan : b64 in
  let h := [[d 1; d 4; d 0]; [d 2; d 5; d 7]; [d 3; d 6; d 8]] in
  let g := [[q; q; q; q; q]; [q; d 1; d 4; d 0; q]; [q; d 2; d 5; d 7; q]; [q; d 3; d 6; d 8; q]; [q; q; q; q; q]] in
  let o := [d 0; d 0; d 0] in let o' := [d 0; d 0; d 0; d 0; d 0] in
  (usable _ _ h /\ usable _ _ g /\ usable _ _ o' /\ rows (to_fa h) = 3 /\ count (to_fa h) = 9 /\ rows (to_fa g) = 5 /\ count (to_fa g) = 25 /\ count (to_fa o) = 3 /\ count (to_fa o') = 5) /\
  (forall a b, 2 <= a <= 4 -> 2 <= b <= 4 -> ent (to_fa h) (a + -1) (b + -1) = ent (to_fa g) a b) /\
  exists h' wr' wi' z', dlahqr 3 true false 5 2 4 g 5 o' o' 1 5 o' 5 = Ok (h', wr', wi', z', 0).
Proof. exact window_hyps. Qed.
