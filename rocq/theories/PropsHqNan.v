(** Property C61: dlahqr does not lose a NaN. *)
From Coq Require Import Reals.
From Flocq Require Import IEEE754.BinarySingleNaN Core.
From Verif Require Import Base Num Array Blas Lapack Dlahqr Spec B64 LahqrTop HqNan HqNanWit.
Open Scope Z_scope.

(** ** C61 *)
(** In f64: if the active block holds a NaN on or above the subdiagonal, so does the block a returning call leaves; if it holds
    a NaN on the diagonal, one of the eigenvalues reported is NaN, or the call failed (info > 0) and the NaN is on the diagonal
    of the part it could not finish. *)
Theorem c61_nan_kept : forall lm, libm_ok lm -> let NB : Num b64 := B64 lm in
    forall H WR WI ZZ (TH : ToFA b64 H) (FH : FromFA b64 H) (TWR : ToFA b64 WR) (FWR : FromFA b64 WR)
    (TWI : ToFA b64 WI) (FWI : FromFA b64 WI) (TZ : ToFA b64 ZZ) (FZ : FromFA b64 ZZ)
    (wantz : bool) n ilo ihi (h : H) (wr : WR) (wi : WI) iloz ihiz (z : ZZ) ldz fuel h' wr' wi' z' info,
  usable TH FH h -> usable TWR FWR wr -> usable TWI FWI wi -> usable TZ FZ z ->
  1 <= ilo -> ilo < ihi -> ihi <= n -> n <= rows (to_fa h) -> n * rows (to_fa h) <= count (to_fa h) -> ihi <= count (to_fa wr) -> (wantz = true -> 1 <= iloz) ->
  dlahqr fuel true wantz n ilo ihi h (rows (to_fa h)) wr wi iloz ihiz z ldz = Ok (h', wr', wi', z', info) ->
  exists hd wrd, from_fa hd = Ok h' /\ from_fa wrd = Ok wr' /\ same_shape hd (to_fa h) /\
    ((exists a b, ilo <= a <= ihi /\ ilo <= b <= ihi /\ a <= b + 1 /\ ent (to_fa h) a b = Some B754_nan) ->
      exists a b, ilo <= a <= ihi /\ ilo <= b <= ihi /\ a <= b + 1 /\ ent hd a b = Some B754_nan) /\
    ((exists a, ilo <= a <= ihi /\ ent (to_fa h) a a = Some B754_nan) ->
      (exists j, (if info =? 0 then ilo else info + 1) <= j <= ihi /\ elem wrd j = Some B754_nan) \/
      (info <> 0 /\ exists a, ilo <= a <= info /\ ent hd a a = Some B754_nan)).
Proof. intros lm LM NB H WR WI ZZ TH FH TWR FWR TWI FWI TZ FZ. exact (dlahqr_nan lm). Qed.
Print Assumptions c61_nan_kept.

(** The matrices ((NaN,1),(1,2)) and ((1,0),(NaN,2)) meet the hypotheses and the calls return with info = 0.  The second one
    shows that the first clause is about H only: the eigenvalues reported for it are finite. *)
Example c61_hyps : forall lm, libm_ok lm -> let NB : Num b64 := B64 lm in let d m := b64_dy m 0 in let q := B754_nan : b64 in
  let h := [[q; d 1]; [d 1; d 2]] in let g := [[d 1; q]; [d 0; d 2]] in let o := [d 0; d 0] in
  (usable _ _ h /\ usable _ _ g /\ usable _ _ o /\ usable _ _ ([] : list b64) /\ rows (to_fa h) = 2 /\ count (to_fa h) = 4 /\ rows (to_fa g) = 2 /\ count (to_fa g) = 4 /\ count (to_fa o) = 2) /\
  (ent (to_fa h) 1 1 = Some q /\ exists h' wr' wi' z', dlahqr 2 true false 2 1 2 h 2 o o 1 2 ([] : list b64) 2 = Ok (h', wr', wi', z', 0)) /\
  (ent (to_fa g) 2 1 = Some q /\ exists g' wr' wi' z', dlahqr 2 true false 2 1 2 g 2 o o 1 2 ([] : list b64) 2 = Ok (g', wr', wi', z', 0) /\
    Forall (fun x => is_finite x = true) wr' /\ Forall (fun x => is_finite x = true) wi').
Proof. exact nan_hyps. Qed.
