(** C54: dlahqr on a 2-by-2 matrix in binary64 is backward stable.  Statements only; the proofs are in HqTwoF64.v and HqTwoErr.v.
    [rot2 C S] = ((C, -S), (S, C)); [eigenvalues2 x l1 l2]: z^2 - tr x z + det x = (z - l1)(z - l2) for every complex z. *)
From Coq Require Import Reals Lra Ascii.
From Flocq Require Import Core BinarySingleNaN.
From Verif Require Import Base Num Array Blas Lapack Dlahqr Spec SpecR SpecErr B64 GemmErr LahqrProofs LahqrTop HqTwoErr.
Local Open Scope R_scope.

(** h = ((a, b), (c, d)) with entries of size at most M and c not negligible (2^-51 (|a| + |d|) < |c|, 2^-969 < |c|), outside the
    region of c31_region_refuted.  Then, for any wantt, wantz, info = 0 and
    - the returned T has standard form and is within 2^-43 M of R^T h R for an exact rotation R = rot2 C S,
    - the reported eigenvalues are exact for a matrix within 2^-42 M of h,
    - rows iloz..ihiz of Z are multiplied by R up to 2^-44 K, K bounding their entries. *)
Theorem c54_two_by_two : forall lm, libm_ok lm -> let NB : Num b64 := B64 lm in
  forall (H WR WI ZZ : Type) (TH : ToFA b64 H) (FH : FromFA b64 H) (TWR : ToFA b64 WR) (FWR : FromFA b64 WR)
    (TWI : ToFA b64 WI) (FWI : FromFA b64 WI) (TZ : ToFA b64 ZZ) (FZ : FromFA b64 ZZ)
    fuel wantt wantz (h : H) ldh (wr : WR) (wi : WI) iloz ihiz (z : ZZ) ldz (a b c d : b64) M K,
  usable TH FH h -> usable TWR FWR wr -> usable TWI FWI wi -> usable TZ FZ z ->
  (2 <= rows (to_fa h))%Z -> (2 <= count (to_fa wr))%Z -> (2 <= count (to_fa wi))%Z ->
  ent (to_fa h) 1 1 = Some a -> ent (to_fa h) 1 2 = Some b -> ent (to_fa h) 2 1 = Some c -> ent (to_fa h) 2 2 = Some d ->
  Forall (fun x => is_finite x = true /\ Rabs (val64 x) <= M) [a; b; c; d] -> M <= bpow radix2 400 ->
  bpow radix2 (-969) < Rabs (val64 c) -> bpow radix2 (-51) * (Rabs (val64 a) + Rabs (val64 d)) < Rabs (val64 c) ->
  val64 a = val64 d \/ bpow radix2 (-52) <= Rabs (val64 a - val64 d) \/ 0 <= val64 b * val64 c ->
  (wantz = true -> (1 <= iloz <= ihiz)%Z /\ (ihiz <= rows (to_fa z))%Z /\ bpow radix2 (-969) <= K <= bpow radix2 400 /\
     forall p, (iloz <= p <= ihiz)%Z -> exists x y, ent (to_fa z) p 1 = Some x /\ ent (to_fa z) p 2 = Some y /\
       Forall (fun x => is_finite x = true /\ Rabs (val64 x) <= K) [x; y]) ->
  exists hd wrd wid zd h' wr' wi' z' t1 t2 t3 t4 l1r l1i l2r l2i C S y1 y2 y3 y4 e1 e2 e3 e4,
    dlahqr (Datatypes.S fuel) wantt wantz 2 1 2 h ldh wr wi iloz ihiz z ldz = Ok (h', wr', wi', z', 0%Z) /\
    from_fa hd = Ok h' /\ from_fa wrd = Ok wr' /\ from_fa wid = Ok wi' /\ from_fa zd = Ok z' /\
    (ent hd 1 1 = Some t1 /\ ent hd 1 2 = Some t2 /\ ent hd 2 1 = Some t3 /\ ent hd 2 2 = Some t4) /\
    (elem wrd 1 = Some l1r /\ elem wrd 2 = Some l2r /\ elem wid 1 = Some l1i /\ elem wid 2 = Some l2i) /\
    Forall (fun x => is_finite x = true) [t1; t2; t3; t4; l1r; l1i; l2r; l2i] /\
    (val64 t3 = 0 \/ (val64 t1 = val64 t4 /\ val64 t2 * val64 t3 < 0)) /\
    C * C + S * S = 1 /\ (val64 a, val64 b, val64 c, val64 d) = m2mul (m2mul (rot2 C S) (y1, y2, y3, y4)) (m2tr (rot2 C S)) /\
    (Rabs (val64 t1 - y1) <= bpow radix2 (-43) * M /\ Rabs (val64 t2 - y2) <= bpow radix2 (-43) * M /\
     Rabs (val64 t3 - y3) <= bpow radix2 (-43) * M /\ Rabs (val64 t4 - y4) <= bpow radix2 (-43) * M) /\
    Forall (fun e => Rabs e <= bpow radix2 (-42) * M) [e1; e2; e3; e4] /\
    eigenvalues2 (val64 a + e1, val64 b + e2, val64 c + e3, val64 d + e4) (val64 l1r, val64 l1i) (val64 l2r, val64 l2i) /\
    (wantz = false -> zd = to_fa z) /\
    (wantz = true -> forall p x y, (iloz <= p <= ihiz)%Z -> ent (to_fa z) p 1 = Some x -> ent (to_fa z) p 2 = Some y ->
      exists x' y', ent zd p 1 = Some x' /\ ent zd p 2 = Some y' /\ is_finite x' = true /\ is_finite y' = true /\
        Rabs (val64 x' - (val64 x * C + val64 y * S)) <= bpow radix2 (-44) * K /\
        Rabs (val64 y' - (val64 y * C - val64 x * S)) <= bpow radix2 (-44) * K).
Proof. exact dlahqr_2x2_f64. Qed.
Print Assumptions c54_two_by_two.

(** ((1, -1), (1, 1)), Z = identity, M = K = 1 meet the hypotheses *)
Example c54_hyps : libm_ok ref_libm /\ let NB : Num b64 := B64 ref_libm in let o := b64_dy 1 0 in let no := Bopp o in let zz := b64_dy 0 0 in
  let h := [[o; o]; [no; o]] in let z := [[o; zz]; [zz; o]] in
  usable _ _ h /\ usable _ _ z /\ usable _ _ [o; o] /\ (2 <= rows (to_fa h))%Z /\ (2 <= count (to_fa [o; o]))%Z /\
  ent (to_fa h) 1 1 = Some o /\ ent (to_fa h) 1 2 = Some no /\ ent (to_fa h) 2 1 = Some o /\ ent (to_fa h) 2 2 = Some o /\
  Forall (fun x => is_finite x = true /\ Rabs (val64 x) <= 1) [o; no; o; o] /\ 1 <= bpow radix2 400 /\
  bpow radix2 (-969) < Rabs (val64 o) /\
  bpow radix2 (-51) * (Rabs (val64 o) + Rabs (val64 o)) < Rabs (val64 o) /\ val64 o = val64 o /\
  (2 <= rows (to_fa z))%Z /\ bpow radix2 (-969) <= 1 /\
  forall p, (1 <= p <= 2)%Z -> exists x y, ent (to_fa z) p 1 = Some x /\ ent (to_fa z) p 2 = Some y /\
    Forall (fun x => is_finite x = true /\ Rabs (val64 x) <= 1) [x; y].
Proof.
  split; [exact ref_libm_ok|]. cbv zeta. assert (V1 : val64 (b64_dy 1 0) = 1) by exact B2R_1.
  assert (VN : val64 (Bopp (b64_dy 1 0)) = -1) by (unfold val64; rewrite B2R_Bopp; unfold val64 in V1; rewrite V1; lra).
  assert (V0 : val64 (b64_dy 0 0) = 0) by reflexivity.
  assert (A1 : Rabs 1 <= 1) by (rewrite Rabs_pos_eq; lra). assert (AN : Rabs (-1) <= 1) by (rewrite Rabs_left; lra). assert (A0 : Rabs 0 <= 1) by (rewrite Rabs_R0; lra).
  assert (L : bpow radix2 (-51) <= / 1024) by (change (/ 1024) with (bpow radix2 (-10)); apply bpow_le; lia).
  assert (L9 : bpow radix2 (-969) <= / 2) by (change (/ 2) with (bpow radix2 (-1)); apply bpow_le; lia).
  assert (L4 : 1 <= bpow radix2 400) by (change 1 with (bpow radix2 0); apply bpow_le; lia).
  split; [apply (@usable_nested b64 (B64 ref_libm)) with (q := 2%Z); [lia|discriminate|repeat constructor]|].
  split; [apply (@usable_nested b64 (B64 ref_libm)) with (q := 2%Z); [lia|discriminate|repeat constructor]|].
  split; [apply usable_vec|]. split; [discriminate|]. split; [discriminate|]. do 4 (split; [reflexivity|]).
  split; [repeat (apply Forall_cons; [split; [reflexivity|rewrite ?VN, ?V1; assumption]|]); apply Forall_nil|].
  split; [exact L4|]. rewrite V1. rewrite !(Rabs_pos_eq 1) by lra.
  split; [lra|]. split; [lra|]. split; [reflexivity|]. split; [discriminate|]. split; [lra|].
  intros p Hp. assert (E : p = 1%Z \/ p = 2%Z) by lia. destruct E as [-> | ->]; do 2 eexists; (split; [reflexivity|]); (split; [reflexivity|]);
    repeat (apply Forall_cons; [split; [reflexivity|rewrite ?V0, ?V1; assumption]|]); apply Forall_nil.
Qed.
