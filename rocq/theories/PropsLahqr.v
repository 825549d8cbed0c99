(** C36-C39: dlahqr.  Statements only; the proofs are in LahqrProofs.v, LahqrStuck.v, LahqrTop.v, LahqrNum.v, LahqrWit.v.
    [fuel] counts the turns of the outer, unbounded loop: [NoFuel] means the call is still running after that many.
    [usable x]: x converts to a well-formed array and back (every Vec, rectangular Vec<Vec>, well-formed FortranArray). *)
From Coq Require Import Ascii Reals Lra.
From Flocq Require Import IEEE754.BinarySingleNaN Core.
From Verif Require Import Base Num Array Blas Lapack Dlahqr Spec SpecR B64 ER LahqrProofs LahqrTop LahqrNum LahqrWit WitLibm.
Open Scope Z_scope.

(** ** C36 *)
Theorem c36_no_panic : forall F (NF : Num F) H WR WI ZZ (TH : ToFA F H) (FH : FromFA F H) (TWR : ToFA F WR) (FWR : FromFA F WR)
    (TWI : ToFA F WI) (FWI : FromFA F WI) (TZ : ToFA F ZZ) (FZ : FromFA F ZZ)
    wantt wantz n ilo ihi (h : H) ldh (wr : WR) (wi : WI) iloz ihiz (z : ZZ) ldz fuel,
  usable TH FH h /\ usable TWR FWR wr /\ usable TWI FWI wi /\ usable TZ FZ z /\ 1 <= ilo /\ (wantz = true -> 1 <= iloz) ->
  dlahqr fuel wantt wantz n ilo ihi h ldh wr wi iloz ihiz z ldz = NoFuel \/
  exists h' wr' wi' z' info, dlahqr fuel wantt wantz n ilo ihi h ldh wr wi iloz ihiz z ldz = Ok (h', wr', wi', z', info) /\
    (info = 0 \/ ilo <= info <= ihi).
Proof. exact (fun F NF => @dlahqr_returns F NF). Qed.
Print Assumptions c36_no_panic.

(** ihi - ilo + 1 turns decide: a call still running then never returns, a call that returned has the same result for more turns *)
Theorem c36_decided : forall F (NF : Num F) H WR WI ZZ (TH : ToFA F H) (FH : FromFA F H) (TWR : ToFA F WR) (FWR : FromFA F WR)
    (TWI : ToFA F WI) (FWI : FromFA F WI) (TZ : ToFA F ZZ) (FZ : FromFA F ZZ)
    wantt wantz n ilo ihi (h : H) ldh (wr : WR) (wi : WI) iloz ihiz (z : ZZ) ldz fuel fuel',
  usable TH FH h /\ usable TWR FWR wr /\ usable TWI FWI wi /\ usable TZ FZ z /\ 1 <= ilo /\ (wantz = true -> 1 <= iloz) ->
  ihi - ilo + 1 <= Z.of_nat fuel ->
  dlahqr fuel wantt wantz n ilo ihi h ldh wr wi iloz ihiz z ldz = NoFuel ->
  dlahqr fuel' wantt wantz n ilo ihi h ldh wr wi iloz ihiz z ldz = NoFuel.
Proof. exact (fun F NF => @dlahqr_decide F NF). Qed.
Print Assumptions c36_decided.
Theorem c36_stable : forall F (NF : Num F) H WR WI ZZ (TH : ToFA F H) (FH : FromFA F H) (TWR : ToFA F WR) (FWR : FromFA F WR)
    (TWI : ToFA F WI) (FWI : FromFA F WI) (TZ : ToFA F ZZ) (FZ : FromFA F ZZ)
    wantt wantz n ilo ihi (h : H) ldh (wr : WR) (wi : WI) iloz ihiz (z : ZZ) ldz fuel fuel' r,
  dlahqr fuel wantt wantz n ilo ihi h ldh wr wi iloz ihiz z ldz = Ok r -> (fuel <= fuel')%nat ->
  dlahqr fuel' wantt wantz n ilo ihi h ldh wr wi iloz ihiz z ldz = Ok r.
Proof. exact (fun F NF => @dlahqr_more F NF). Qed.
Print Assumptions c36_stable.

(** it does not return on any upper triangular matrix (or one whose subdiagonal entries are at most nh*2^-970) *)
Theorem c36_triangular_refuted : forall H WR WI ZZ (TH : ToFA er H) (FH : FromFA er H) (TWR : ToFA er WR) (FWR : FromFA er WR)
    (TWI : ToFA er WI) (FWI : FromFA er WI) (TZ : ToFA er ZZ) (FZ : FromFA er ZZ)
    wantt wantz n ilo ihi (h : H) ldh (wr : WR) (wi : WI) iloz ihiz (z : ZZ) ldz,
  usable TH FH h /\ usable TWR FWR wr /\ usable TWI FWI wi /\ usable TZ FZ z /\ 1 <= ilo /\ (wantz = true -> 1 <= iloz) ->
  n <> 0 -> ilo < ihi -> 2 <= rows (to_fa h) ->
  (forall k, ilo < k <= ihi -> exists x, ent (to_fa h) k (k - 1) = Some (Fin x) /\ (Rabs x <= bpow radix2 (-970) * IZR (ihi - ilo + 1))%R) ->
  forall fuel, dlahqr fuel wantt wantz n ilo ihi h ldh wr wi iloz ihiz z ldz = NoFuel.
Proof. exact dlahqr_triangular_er. Qed.
Print Assumptions c36_triangular_refuted.
Theorem c36_triangular_b64_refuted : forall lm H WR WI ZZ (TH : ToFA b64 H) (FH : FromFA b64 H) (TWR : ToFA b64 WR) (FWR : FromFA b64 WR)
    (TWI : ToFA b64 WI) (FWI : FromFA b64 WI) (TZ : ToFA b64 ZZ) (FZ : FromFA b64 ZZ)
    wantt wantz n ilo ihi (h : H) ldh (wr : WR) (wi : WI) iloz ihiz (z : ZZ) ldz,
  usable TH FH h /\ usable TWR FWR wr /\ usable TWI FWI wi /\ usable TZ FZ z /\ 1 <= ilo /\ (wantz = true -> 1 <= iloz) ->
  n <> 0 -> ilo < ihi -> 2 <= rows (to_fa h) ->
  (forall k, ilo < k <= ihi -> exists s, ent (to_fa h) k (k - 1) = Some (B754_zero s)) ->
  forall fuel, @dlahqr b64 (B64 lm) _ _ _ _ _ _ _ _ _ _ _ _ fuel wantt wantz n ilo ihi h ldh wr wi iloz ihiz z ldz = NoFuel.
Proof. exact dlahqr_triangular_b64. Qed.
Print Assumptions c36_triangular_b64_refuted.

(** when the first subdiagonal entry H(ilo+1,ilo) is zero it never reports success *)
Theorem c36_split_refuted : forall H WR WI ZZ (TH : ToFA er H) (FH : FromFA er H) (TWR : ToFA er WR) (FWR : FromFA er WR)
    (TWI : ToFA er WI) (FWI : FromFA er WI) (TZ : ToFA er ZZ) (FZ : FromFA er ZZ)
    fuel wantt wantz n ilo ihi (h : H) ldh (wr : WR) (wi : WI) iloz ihiz (z : ZZ) ldz h' wr' wi' z' info x,
  usable TH FH h /\ usable TWR FWR wr /\ usable TWI FWI wi /\ usable TZ FZ z /\ 1 <= ilo /\ (wantz = true -> 1 <= iloz) ->
  n <> 0 -> ilo < ihi -> ihi <= rows (to_fa h) ->
  ent (to_fa h) (ilo + 1) ilo = Some (Fin x) -> (Rabs x <= bpow radix2 (-970) * IZR (ihi - ilo + 1))%R ->
  dlahqr fuel wantt wantz n ilo ihi h ldh wr wi iloz ihiz z ldz = Ok (h', wr', wi', z', info) -> info <> 0.
Proof. exact dlahqr_split_er. Qed.
Print Assumptions c36_split_refuted.
Theorem c36_split_b64_refuted : forall lm H WR WI ZZ (TH : ToFA b64 H) (FH : FromFA b64 H) (TWR : ToFA b64 WR) (FWR : FromFA b64 WR)
    (TWI : ToFA b64 WI) (FWI : FromFA b64 WI) (TZ : ToFA b64 ZZ) (FZ : FromFA b64 ZZ)
    fuel wantt wantz n ilo ihi (h : H) ldh (wr : WR) (wi : WI) iloz ihiz (z : ZZ) ldz h' wr' wi' z' info s,
  usable TH FH h /\ usable TWR FWR wr /\ usable TWI FWI wi /\ usable TZ FZ z /\ 1 <= ilo /\ (wantz = true -> 1 <= iloz) ->
  n <> 0 -> ilo < ihi -> ihi <= rows (to_fa h) -> ent (to_fa h) (ilo + 1) ilo = Some (B754_zero s) ->
  @dlahqr b64 (B64 lm) _ _ _ _ _ _ _ _ _ _ _ _ fuel wantt wantz n ilo ihi h ldh wr wi iloz ihiz z ldz = Ok (h', wr', wi', z', info) -> info <> 0.
Proof. exact dlahqr_split_b64. Qed.
Print Assumptions c36_split_b64_refuted.

(** a witness: diag(1,2), as nested vectors, whatever libm does *)
Theorem c36_refuted : exists h : list (list b64), forall lm fuel,
  @dlahqr b64 (B64 lm) _ _ _ _ (@ToFA_nested b64 (B64 lm)) (@FromFA_nested b64 (B64 lm)) (@ToFA_vec b64 (B64 lm)) _ (@ToFA_vec b64 (B64 lm)) _
    (@ToFA_nested b64 (B64 lm)) (@FromFA_nested b64 (B64 lm)) fuel true false 2 1 2 h 2 [b64_dy 0 0; b64_dy 0 0] [b64_dy 0 0; b64_dy 0 0] 1 2 h 2 = NoFuel.
Proof. exact dlahqr_diverges_witness. Qed.
Print Assumptions c36_refuted.

(** the hypotheses hold of every vector, every rectangular nested vector, every well-formed array *)
Example c36_usable_vec : forall F (NF : Num F) (l : list F), usable _ _ l.
Proof. exact (fun F NF => @usable_vec F NF). Qed.
Example c36_usable_fa : forall F (f : fa F), well_formed f -> usable _ _ f.
Proof. exact (fun F => @usable_fa F). Qed.
Example c36_usable_nested : forall F (NF : Num F) (l : list (list F)) q, 1 <= q -> l <> [] -> Forall (fun r => zlen r = q) l -> usable _ _ l.
Proof. exact (fun F NF => @usable_nested F NF). Qed.
Example c36_triangular_hyps : let h := [[Fin 1; Fin 0; Fin 0]; [Fin 5; Fin 2; Fin 0]; [Fin 6; Fin 7; Fin 3]] in
  forall k, 1 < k <= 3 -> exists x, ent (to_fa h) k (k - 1) = Some (Fin x) /\ (Rabs x <= bpow radix2 (-970) * IZR (3 - 1 + 1))%R.
Proof.
  intros h k Hk. exists 0%R. split; [assert (E : k = 2 \/ k = 3) by lia; destruct E as [-> | ->]; reflexivity|].
  rewrite Rabs_R0. apply Rmult_le_pos; [apply bpow_ge_0|]. apply IZR_le. lia.
Qed.

(** ** C37 *)
Theorem c37_empty : forall F (NF : Num F) H WR WI ZZ (TH : ToFA F H) (FH : FromFA F H) (TWR : ToFA F WR) (FWR : FromFA F WR)
    (TWI : ToFA F WI) (FWI : FromFA F WI) (TZ : ToFA F ZZ) (FZ : FromFA F ZZ)
    wantt wantz n ilo ihi (h : H) ldh (wr : WR) (wi : WI) iloz ihiz (z : ZZ) ldz fuel,
  n = 0 -> dlahqr fuel wantt wantz n ilo ihi h ldh wr wi iloz ihiz z ldz = Ok (h, wr, wi, z, 0).
Proof. exact (fun F NF => @dlahqr_n0 F NF). Qed.
Print Assumptions c37_empty.
(** [updated (fun _ => ilo) g 1 a b]: b is a with the element at position ilo, if there is one, replaced *)
Theorem c37_single : forall F (NF : Num F) H WR WI ZZ (TH : ToFA F H) (FH : FromFA F H) (TWR : ToFA F WR) (FWR : FromFA F WR)
    (TWI : ToFA F WI) (FWI : FromFA F WI) (TZ : ToFA F ZZ) (FZ : FromFA F ZZ)
    wantt wantz n ilo ihi (h : H) ldh (wr : WR) (wi : WI) iloz ihiz (z : ZZ) ldz fuel x,
  usable TWR FWR wr -> usable TWI FWI wi -> n <> 0 -> ilo = ihi -> ent (to_fa h) ilo ilo = Some x ->
  exists wr' wi' wrd wid, dlahqr fuel wantt wantz n ilo ihi h ldh wr wi iloz ihiz z ldz = Ok (h, wr', wi', z, 0) /\
    from_fa wrd = Ok wr' /\ from_fa wid = Ok wi' /\
    updated (fun _ => ilo) (fun _ _ => x) 1 (to_fa wr) wrd /\ updated (fun _ => ilo) (fun _ _ => f0) 1 (to_fa wi) wid.
Proof. exact (fun F NF => @dlahqr_single F NF). Qed.
Print Assumptions c37_single.
Example c37_hyps : forall F (NF : Num F) (a b c d : F), ent (to_fa [[a; b]; [c; d]]) 2 2 = Some d /\ usable _ _ [a; b].
Proof. intros. split; [reflexivity|apply usable_vec]. Qed.

(** ** C38 *)
Theorem c38_kept : forall F (NF : Num F) H WR WI ZZ (TH : ToFA F H) (FH : FromFA F H) (TWR : ToFA F WR) (FWR : FromFA F WR)
    (TWI : ToFA F WI) (FWI : FromFA F WI) (TZ : ToFA F ZZ) (FZ : FromFA F ZZ)
    wantt wantz n ilo ihi (h : H) ldh (wr : WR) (wi : WI) iloz ihiz (z : ZZ) ldz fuel h' wr' wi' z' info,
  usable TH FH h /\ usable TWR FWR wr /\ usable TWI FWI wi /\ usable TZ FZ z /\ 1 <= ilo /\ (wantz = true -> 1 <= iloz) ->
  n <> 0 -> ilo <> ihi ->
  dlahqr fuel wantt wantz n ilo ihi h ldh wr wi iloz ihiz z ldz = Ok (h', wr', wi', z', info) ->
  exists hd wrd wid zd, from_fa hd = Ok h' /\ from_fa wrd = Ok wr' /\ from_fa wid = Ok wi' /\ from_fa zd = Ok z' /\
    same_shape hd (to_fa h) /\ kept_outside ilo ihi (to_fa wr) wrd /\ kept_outside ilo ihi (to_fa wi) wid /\
    same_shape zd (to_fa z) /\ (wantz = false -> zd = to_fa z).
Proof. exact (fun F NF => @dlahqr_kept F NF). Qed.
Print Assumptions c38_kept.
(** for vectors this is: lengths kept, elements outside ilo..ihi kept, Z returned as it came when wantz = false *)
Theorem c38_vectors : forall F (NF : Num F) wantt wantz n ilo ihi (h : list (list F)) ldh (wr wi : list F) iloz ihiz (z : list (list F)) ldz fuel h' wr' wi' z' info,
  n <> 0 -> ilo <> ihi -> 1 <= ilo -> (wantz = true -> 1 <= iloz) ->
  1 <= n -> zlen h = n -> Forall (fun r => zlen r = n) h -> zlen z = n -> Forall (fun r => zlen r = n) z ->
  dlahqr fuel wantt wantz n ilo ihi h ldh wr wi iloz ihiz z ldz = Ok (h', wr', wi', z', info) ->
  zlen h' = n /\ Forall (fun r => zlen r = n) h' /\ zlen z' = n /\ Forall (fun r => zlen r = n) z' /\ (wantz = false -> z' = z) /\
  zlen wr' = zlen wr /\ zlen wi' = zlen wi /\
  forall p, ~ ilo <= p <= ihi -> zget wr' (p - 1) = zget wr (p - 1) /\ zget wi' (p - 1) = zget wi (p - 1).
Proof. exact (fun F NF => @dlahqr_kept_vectors F NF). Qed.
Print Assumptions c38_vectors.
Example c38_returns : let NB : Num b64 := B64 ref_libm in exists r, dlahqr 12 false false 3 1 3 H3 3 (zeros 3) (zeros 3) 1 3 Z3 3 = Ok r.
Proof. destruct hq_no_schur_wrong as (a & b & c & d & E & _). eexists. exact E. Qed.

(** ** C39 *)
(** 2-by-2 matrices over exact reals, subdiagonal entry not negligible, outside the region of c31_region_refuted *)
Theorem c39_two_by_two : forall H WR WI ZZ (TH : ToFA er H) (FH : FromFA er H) (TWR : ToFA er WR) (FWR : FromFA er WR)
    (TWI : ToFA er WI) (FWI : FromFA er WI) (TZ : ToFA er ZZ) (FZ : FromFA er ZZ)
    fuel (h : H) ldh (wr : WR) (wi : WI) (z : ZZ) ldz a b c d zm,
  usable TH FH h -> usable TWR FWR wr -> usable TWI FWI wi -> usable TZ FZ z ->
  2 <= rows (to_fa h) -> 2 <= rows (to_fa z) -> 2 <= count (to_fa wr) -> 2 <= count (to_fa wi) ->
  m2_is (to_fa h) (a, b, c, d) -> m2_is (to_fa z) zm ->
  (Rabs a <= bpow radix2 1021 /\ Rabs b <= bpow radix2 1021 /\ Rabs c <= bpow radix2 1021 /\ Rabs d <= bpow radix2 1021)%R ->
  (bpow radix2 (-969) < Rabs c)%R -> (bpow radix2 (-52) * (Rabs a + Rabs d) < Rabs c)%R ->
  (a = d \/ bpow radix2 (-52) <= Rabs (a - d) \/ 0 <= b * c)%R ->
  exists hd wrd wid zd h' wr' wi' z' (t : m2) cs sn l1 l2,
    dlahqr (S fuel) true true 2 1 2 h ldh wr wi 1 2 z ldz = Ok (h', wr', wi', z', 0) /\
    from_fa hd = Ok h' /\ from_fa wrd = Ok wr' /\ from_fa wid = Ok wi' /\ from_fa zd = Ok z' /\
    m2_is hd t /\ m2_is zd (m2mul zm (rot2 cs sn)) /\ (cs * cs + sn * sn = 1)%R /\
    (a, b, c, d) = m2mul (m2mul (rot2 cs sn) t) (m2tr (rot2 cs sn)) /\
    (let '(a', b', c', d') := t in c' = 0 \/ (a' = d' /\ b' * c' < 0))%R /\
    eigenvalues2 (a, b, c, d) l1 l2 /\
    elem wrd 1 = Some (Fin (fst l1)) /\ elem wrd 2 = Some (Fin (fst l2)) /\
    elem wid 1 = Some (Fin (snd l1)) /\ elem wid 2 = Some (Fin (snd l2)).
Proof. exact @dlahqr_2x2. Qed.
Print Assumptions c39_two_by_two.
Example c39_hyps : m2_is (to_fa [[Fin 1; Fin 3]; [Fin 2; Fin 4]]) (1, 2, 3, 4)%R /\ (bpow radix2 (-969) < Rabs 3)%R /\
  (bpow radix2 (-52) * (Rabs 1 + Rabs 4) < Rabs 3)%R /\ (bpow radix2 (-52) <= Rabs (1 - 4))%R.
Proof.
  assert (L : (bpow radix2 (-52) <= / 1024)%R) by (change (/ 1024)%R with (bpow radix2 (-10)); apply bpow_le; lia).
  assert (M : (bpow radix2 (-969) <= 1)%R) by (change 1%R with (bpow radix2 0); apply bpow_le; lia).
  pose proof (bpow_gt_0 radix2 (-52)).
  repeat split; rewrite ?(Rabs_pos_eq 3), ?(Rabs_pos_eq 1), ?(Rabs_pos_eq 4), ?(Rabs_left (1 - 4)) by lra; lra.
Qed.

(** wantt = false: H3 has trace 14, the real parts returned with info = 0 sum to less than -10.
    H3 = ((1,3,6),(2,4,7),(0,5,9)). *)
Theorem c39_eigenvalues_refuted : forall lm, libm_ok lm -> let NB : Num b64 := B64 lm in exists h' wr' wi' z',
  dlahqr 12 false false 3 1 3 H3 3 (zeros 3) (zeros 3) 1 3 Z3 3 = Ok (h', wr', wi', z', 0) /\
  Forall (fun x => is_finite x = true) wr' /\ (rsum (map B2R wr') < -10)%R.
Proof. exact hq_no_schur_wrong_any. Qed.
Print Assumptions c39_eigenvalues_refuted.

(** wantt = true, Z = I, a 4-by-4 Hessenberg matrix: H*Z and Z*T differ by more than 1 in entry (2,4) *)
Theorem c39_schur_refuted : forall lm, libm_ok lm -> let NB : Num b64 := B64 lm in exists t wr' wi' z',
  dlahqr 12 true true 4 1 4 H4 4 (zeros 4) (zeros 4) 1 4 Z4 4 = Ok (t, wr', wi', z', 0) /\
  (rdot (map B2R (row H4 1)) (map B2R (col z' 3)) - rdot (map B2R (row z' 1)) (map B2R (col t 3)) > 1)%R.
Proof. exact hq_schur_wrong_any. Qed.
Print Assumptions c39_schur_refuted.
