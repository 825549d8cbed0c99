(** Property C56: which entries below the subdiagonal dlahqr's results depend on. *)
From Coq Require Import Reals.
From Flocq Require Import IEEE754.BinarySingleNaN Core.
From Verif Require Import Base Num Array Blas Lapack Dlahqr Spec B64 LahqrTop HqUnread HqGarbWit.
Open Scope Z_scope.

(** ** C56 *)
(** Over any number type: two calls whose matrices agree except at entries of the active block that lie two, three, or five
    and more below the diagonal return the same WR, WI, Z and info, and matrices that agree except five and more below. *)
Theorem c56_unread : forall F (NF : Num F) H WR WI ZZ (TH : ToFA F H) (FH : FromFA F H) (TWR : ToFA F WR) (FWR : FromFA F WR)
    (TWI : ToFA F WI) (FWI : FromFA F WI) (TZ : ToFA F ZZ) (FZ : FromFA F ZZ)
    (wantz : bool) n ilo ihi (h g : H) (wr : WR) (wi : WI) iloz ihiz (z : ZZ) ldz fuel h' wr' wi' z' info,
  usable TH FH h -> usable TH FH g -> same_shape (to_fa g) (to_fa h) -> 1 <= ilo -> ilo < ihi -> ihi <= n -> n <= rows (to_fa h) -> n * rows (to_fa h) <= count (to_fa h) ->
  (forall a b, 1 <= a <= n -> 1 <= b <= n -> ~ (ilo <= b /\ a <= ihi /\ (a = b + 2 \/ a = b + 3 \/ b + 5 <= a)) -> ent (to_fa h) a b = ent (to_fa g) a b) ->
  dlahqr fuel true wantz n ilo ihi h (rows (to_fa h)) wr wi iloz ihiz z ldz = Ok (h', wr', wi', z', info) ->
  exists g', dlahqr fuel true wantz n ilo ihi g (rows (to_fa h)) wr wi iloz ihiz z ldz = Ok (g', wr', wi', z', info) /\
    exists hd gd, from_fa hd = Ok h' /\ from_fa gd = Ok g' /\ same_shape hd (to_fa h) /\ same_shape gd (to_fa h) /\
      forall a b, 1 <= a <= n -> 1 <= b <= n -> ~ (ilo <= b /\ a <= ihi /\ b + 5 <= a) -> ent hd a b = ent gd a b.
Proof. exact @dlahqr_unread. Qed.
Print Assumptions c56_unread.

(** For blocks of order up to 4 everything below the subdiagonal of the block is ignored: there the routine does what its
    interface says. *)
Theorem c56_order4 : forall F (NF : Num F) H WR WI ZZ (TH : ToFA F H) (FH : FromFA F H) (TWR : ToFA F WR) (FWR : FromFA F WR)
    (TWI : ToFA F WI) (FWI : FromFA F WI) (TZ : ToFA F ZZ) (FZ : FromFA F ZZ)
    (wantz : bool) n ilo ihi (h g : H) (wr : WR) (wi : WI) iloz ihiz (z : ZZ) ldz fuel h' wr' wi' z' info,
  usable TH FH h -> usable TH FH g -> same_shape (to_fa g) (to_fa h) -> 1 <= ilo -> ilo < ihi -> ihi <= n -> n <= rows (to_fa h) -> n * rows (to_fa h) <= count (to_fa h) ->
  ihi <= ilo + 3 ->
  (forall a b, 1 <= a <= n -> 1 <= b <= n -> ~ (ilo <= b /\ a <= ihi /\ b + 2 <= a) -> ent (to_fa h) a b = ent (to_fa g) a b) ->
  dlahqr fuel true wantz n ilo ihi h (rows (to_fa h)) wr wi iloz ihiz z ldz = Ok (h', wr', wi', z', info) ->
  exists g', dlahqr fuel true wantz n ilo ihi g (rows (to_fa h)) wr wi iloz ihiz z ldz = Ok (g', wr', wi', z', info) /\
    exists hd gd, from_fa hd = Ok h' /\ from_fa gd = Ok g' /\ same_shape hd (to_fa h) /\ same_shape gd (to_fa h) /\
      forall a b, 1 <= a <= n -> 1 <= b <= n -> ent hd a b = ent gd a b.
Proof. exact @dlahqr_unread4. Qed.
Print Assumptions c56_order4.

(** A 6-by-6 pair that meets the hypotheses of the first theorem and differs at (3,1), (4,1) and (6,1), and a 4-by-4 pair for
    the second; the calls on the first ones return *)
Example c56_hyps : forall lm, libm_ok lm -> let NB : Num b64 := B64 lm in let d m := b64_dy m 0 in
  let h x y w := [[d 1; d 1; d x; d y; d 0; d w]; [d 2; d 3; d 1; d 0; d 0; d 0]; [d 3; d 1; d 6; d 1; d 0; d 0]; [d 4; d 2; d 1; d 9; d 1; d 0];
    [d 5; d 1; d 2; d 3; d 13; d 1]; [d 6; d 1; d 2; d 3; d 4; d 20]] in
  let k x y := [[d 1; d 1; d x; d y]; [d 2; d 3; d 1; d x]; [d 3; d 1; d 6; d 1]; [d 4; d 2; d 1; d 9]] in
  let o := d 0 in
  usable _ _ (h 0 0 0) /\ usable _ _ (h 7 8 9) /\ same_shape (to_fa (h 7 8 9)) (to_fa (h 0 0 0)) /\ rows (to_fa (h 0 0 0)) = 6 /\ count (to_fa (h 0 0 0)) = 36 /\
  (forall a b, 1 <= a <= 6 -> 1 <= b <= 6 -> ~ (1 <= b /\ a <= 6 /\ (a = b + 2 \/ a = b + 3 \/ b + 5 <= a)) -> ent (to_fa (h 0 0 0)) a b = ent (to_fa (h 7 8 9)) a b) /\
  usable _ _ (k 0 0) /\ usable _ _ (k 7 8) /\ same_shape (to_fa (k 7 8)) (to_fa (k 0 0)) /\ rows (to_fa (k 0 0)) = 4 /\ count (to_fa (k 0 0)) = 16 /\
  (forall a b, 1 <= a <= 4 -> 1 <= b <= 4 -> ~ (1 <= b /\ a <= 4 /\ b + 2 <= a) -> ent (to_fa (k 0 0)) a b = ent (to_fa (k 7 8)) a b) /\
  (exists r, dlahqr 7 true false 4 1 4 (k 0 0) 4 [o; o; o; o] [o; o; o; o] 1 4 ([] : list b64) 4 = Ok r) /\
  (exists r, dlahqr 7 true false 6 1 6 (h 0 0 0) 6 [o; o; o; o; o; o] [o; o; o; o; o; o] 1 6 ([] : list b64) 6 = Ok r).
Proof. exact unread_hyps. Qed.

(** "Entries below the subdiagonal are not referenced" is false: the right-hand loop runs to row k+4 instead of k+3, reads
    entry (k+4, k) and mixes it into the matrix.  For a 5-by-5 matrix the routine reports five real eigenvalues when entry
    (5,1) holds 0 and a complex pair when it holds 8, with info = 0 both times and nothing else changed. *)
Theorem c56_hessenberg_refuted : forall lm, libm_ok lm -> let NB : Num b64 := B64 lm in let d m := b64_dy m 0 in
  let h g := [[d 1; d 1; d 0; d 0; d g]; [d 2; d 3; d 1; d 0; d 0]; [d 3; d 1; d 6; d 1; d 0]; [d 4; d 2; d 1; d 9; d 1]; [d 5; d 1; d 2; d 3; d 13]] in
  (forall a b, 1 <= a <= 5 -> 1 <= b <= 5 -> ~ (a = 5 /\ b = 1) -> ent (to_fa (h 0)) a b = ent (to_fa (h 8)) a b) /\
  (exists h' wr' wi' z', dlahqr 6 true false 5 1 5 (h 0) 5 [d 0; d 0; d 0; d 0; d 0] [d 0; d 0; d 0; d 0; d 0] 1 5 ([] : list b64) 5 = Ok (h', wr', wi', z', 0) /\
    Forall (fun x => is_finite x = true /\ B2R x = 0%R) wi') /\
  (exists h' wr' wi' z', dlahqr 6 true false 5 1 5 (h 8) 5 [d 0; d 0; d 0; d 0; d 0] [d 0; d 0; d 0; d 0; d 0] 1 5 ([] : list b64) 5 = Ok (h', wr', wi', z', 0) /\
    exists x, nth_error wi' 2 = Some x /\ is_finite x = true /\ (0 < B2R x)%R).
Proof. exact dlahqr_corner. Qed.
Print Assumptions c56_hessenberg_refuted.
