(** dlahqr on 2-by-2 matrices in binary64: the call. *)
From Coq Require Import Reals Lra Ascii.
From Flocq Require Import Core BinarySingleNaN.
From Verif Require Import Base Num Array Blas Lapack Dlahqr Spec SpecR SpecErr Lists FaLemmas Blas1Proofs LahqrProofs LahqrStuck LahqrTop
  B64 B64Lemmas B64Nn MachProofs RoundErr AppErr LarfgErr Near LanvCalc LanvStd LanvErr LanvEig LanvWit HqTwoF64.
Local Open Scope R_scope.

Lemma wf_two_cols {F} (f : fa F) p x : well_formed f -> ent f p 2 = Some x -> (1 <= p <= rows f)%Z -> (2 * rows f <= count f)%Z.
Proof.
  intros (R & C & N) E HR. assert (P : (1 <= pos (rows f) p 2 <= count f)%Z) by (apply elem_Some; exists x; exact E).
  unfold pos in P. revert N. destruct (Z.eqb_spec (cols f) 0); intros N; [lia|]. destruct (Z.eq_dec (cols f) 1) as [E1|]; [rewrite E1 in N; lia|]. assert (2 <= cols f)%Z by lia. rewrite N. nia.
Qed.

Lemma set4_ent {F} (f : fa F) (a b c d : F) : (2 <= rows f)%Z -> (exists x, ent f 1 1 = Some x) -> (exists x, ent f 1 2 = Some x) -> (exists x, ent f 2 1 = Some x) -> (exists x, ent f 2 2 = Some x) ->
  let g := set2 (set2 (set2 (set2 f 1 1 a) 1 2 b) 2 1 c) 2 2 d in ent g 1 1 = Some a /\ ent g 1 2 = Some b /\ ent g 2 1 = Some c /\ ent g 2 2 = Some d.
Proof.
  intros R (x1 & E1) (x2 & E2) (x3 & E3) (x4 & E4). unfold set2.
  rewrite !mod2_ent by (repeat match goal with |- context [rows (mod2 ?f ?i ?j ?g)] => rewrite (proj1 (mod2_shape f i j g)) end; lia).
  cbn [andb Z.eqb Pos.eqb]. rewrite E1, E2, E3, E4. cbn. auto.
Qed.

Lemma set2_elem {F} (f : fa F) (a b : F) : (2 <= count f)%Z -> elem (set1 (set1 f 1 a) 2 b) 1 = Some a /\ elem (set1 (set1 f 1 a) 2 b) 2 = Some b.
Proof.
  intros C. unfold set1. split; repeat (rewrite mod1_elem; cbn [Z.eqb Pos.eqb]);
    match goal with |- context [elem ?f ?p] => destruct (proj2 (elem_Some f p)) as [xx ->]; [lia|] end; reflexivity.
Qed.

Lemma ent_same {F} {NF : Num F} (f g : fa F) p j : rows g = rows f -> count g = count f -> (2 * rows f <= count f)%Z -> (1 <= p <= rows f)%Z -> (1 <= j <= 2)%Z -> ent g p j = Some (get2 g p j).
Proof. intros R C Q P J. apply ent_get2. unfold pos. rewrite R, C. nia. Qed.

Lemma dlahqr_2x2_f64 lm : libm_ok lm -> let NB : Num b64 := B64 lm in
  forall (H WR WI ZZ : Type) (TH : ToFA b64 H) (FH : FromFA b64 H) (TWR : ToFA b64 WR) (FWR : FromFA b64 WR)
    (TWI : ToFA b64 WI) (FWI : FromFA b64 WI) (TZ : ToFA b64 ZZ) (FZ : FromFA b64 ZZ)
    fuel wantt wantz (h : H) ldh (wr : WR) (wi : WI) iloz ihiz (z : ZZ) ldz (a b c d : b64) M K,
  usable TH FH h -> usable TWR FWR wr -> usable TWI FWI wi -> usable TZ FZ z ->
  (2 <= rows (to_fa h))%Z -> (2 <= count (to_fa wr))%Z -> (2 <= count (to_fa wi))%Z ->
  ent (to_fa h) 1 1 = Some a -> ent (to_fa h) 1 2 = Some b -> ent (to_fa h) 2 1 = Some c -> ent (to_fa h) 2 2 = Some d ->
  Forall (fun x => is_finite x = true /\ Rabs (val64 x) <= M) [a; b; c; d] -> M <= bpow radix2 400 ->
  bpow radix2 (-969) < Rabs (val64 c) -> bpow radix2 (-51) * (Rabs (val64 a) + Rabs (val64 d)) < Rabs (val64 c) ->
  val64 a = val64 d \/ bpow radix2 (-52) <= Rabs (val64 a - val64 d) \/ 0 <= val64 b * val64 c ->
  (wantz = true -> (1 <= iloz <= ihiz)%Z /\ (ihiz <= rows (to_fa z))%Z /\ bpow radix2 (-969) <= K <= bpow radix2 400 /\
     forall p, (iloz <= p <= ihiz)%Z -> exists x y, ent (to_fa z) p 1 = Some x /\ ent (to_fa z) p 2 = Some y /\
       Forall (fun x => is_finite x = true /\ Rabs (val64 x) <= K) [x; y]) ->
  exists hd wrd wid zd h' wr' wi' z' t1 t2 t3 t4 l1r l1i l2r l2i C S y1 y2 y3 y4 e1 e2 e3 e4,
    dlahqr (Datatypes.S fuel) wantt wantz 2 1 2 h ldh wr wi iloz ihiz z ldz = Ok (h', wr', wi', z', 0%Z) /\
    from_fa hd = Ok h' /\ from_fa wrd = Ok wr' /\ from_fa wid = Ok wi' /\ from_fa zd = Ok z' /\
    (ent hd 1 1 = Some t1 /\ ent hd 1 2 = Some t2 /\ ent hd 2 1 = Some t3 /\ ent hd 2 2 = Some t4) /\
    (elem wrd 1 = Some l1r /\ elem wrd 2 = Some l2r /\ elem wid 1 = Some l1i /\ elem wid 2 = Some l2i) /\
    Forall (fun x => is_finite x = true) [t1; t2; t3; t4; l1r; l1i; l2r; l2i] /\
    (val64 t3 = 0 \/ (val64 t1 = val64 t4 /\ val64 t2 * val64 t3 < 0)) /\
    C * C + S * S = 1 /\ (val64 a, val64 b, val64 c, val64 d) = m2mul (m2mul (rot2 C S) (y1, y2, y3, y4)) (m2tr (rot2 C S)) /\
    (Rabs (val64 t1 - y1) <= bpow radix2 (-43) * M /\ Rabs (val64 t2 - y2) <= bpow radix2 (-43) * M /\
     Rabs (val64 t3 - y3) <= bpow radix2 (-43) * M /\ Rabs (val64 t4 - y4) <= bpow radix2 (-43) * M) /\
    Forall (fun e => Rabs e <= bpow radix2 (-42) * M) [e1; e2; e3; e4] /\
    eigenvalues2 (val64 a + e1, val64 b + e2, val64 c + e3, val64 d + e4) (val64 l1r, val64 l1i) (val64 l2r, val64 l2i) /\
    (wantz = false -> zd = to_fa z) /\
    (wantz = true -> forall p x y, (iloz <= p <= ihiz)%Z -> ent (to_fa z) p 1 = Some x -> ent (to_fa z) p 2 = Some y ->
      exists x' y', ent zd p 1 = Some x' /\ ent zd p 2 = Some y' /\ is_finite x' = true /\ is_finite y' = true /\
        Rabs (val64 x' - (val64 x * C + val64 y * S)) <= bpow radix2 (-44) * K /\
        Rabs (val64 y' - (val64 y * C - val64 x * S)) <= bpow radix2 (-44) * K).
Proof.
  intros LM NB H WR WI ZZ TH FH TWR FWR TWI FWI TZ FZ fuel wantt wantz h ldh wr wi iloz ihiz z ldz a b c d M K UH UR UI UZ RH CR CI E1 E2 E3 E4 AL MU NS1 NS2 RG HZ.
  assert (A : hq_args_ok wantz 1 h wr wi iloz z).
  { refine (conj UH (conj UR (conj UI (conj UZ (conj (Z.le_refl 1) _))))). intros W. apply HZ in W. lia. }
  assert (OR' : val64 b = 0 \/ val64 c = 0 \/ bpow radix2 (-969) <= Rmax (Rabs (val64 b)) (Rabs (val64 c))) by (right; right; eapply Rle_trans; [|apply Rmax_r]; apply Rlt_le; exact NS1).
  assert (NSM : hq_small 1 2 (to_fa h) 2 = false).
  { pose proof AL as AL'. repeat match goal with Q : Forall _ (_ :: _) |- _ => inversion Q; subst; clear Q end.
    refine (not_small lm _ a b c d M E1 E2 E3 E4 _ _ _ MU NS1 NS2); assumption. }
  destruct (dlahqr_two wantt wantz 2 1 2 h ldh wr wi iloz ihiz z ldz fuel A ltac:(lia) ltac:(lia) NSM)
    as (hd & zd & h' & wr' & wi' & z' & Er & F1 & F2 & F3 & F4 & Hh & Hz0 & Hz).
  specialize (Hh (or_intror (Z.le_refl 2))).
  unfold two_block in *. rewrite (get2_Some _ _ _ _ E1), (get2_Some _ _ _ _ E2), (get2_Some _ _ _ _ E3), (get2_Some _ _ _ _ E4) in *.
  destruct (lanv_backward lm LM a b c d M AL MU OR') as (FIN & C & S & y1 & y2 & y3 & y4 & ONE & SIM & B1 & B2 & B3 & B4 & BC & BS).
  pose proof (lanv_std lm LM a b c d M AL MU OR' RG) as ST.
  destruct (lanv_eigs lm LM a b c d M AL MU OR' RG) as (e1 & e2 & e3 & e4 & EB & EV).
  set (r := dlanv2 a b c d) in *.
  change (@dlanv2 b64 (B64 lm) a b c d) with r in *.
  assert (CT := wf_two_cols (to_fa h) 2 _ (proj1 UH) E4 ltac:(lia)).
  exists hd. do 2 eexists. exists zd, h', wr', wi', z', (nA r), (nB r), (nC r), (nD r), (nrt1r r), (nrt1i r), (nrt2r r), (nrt2i r), C, S, y1, y2, y3, y4, e1, e2, e3, e4.
  split; [exact Er|]. split; [exact F1|]. split; [exact F3|]. split; [exact F4|]. split; [exact F2|].
  split.
  { rewrite Hh. apply set4_ent; [exact RH|eauto..]. }
  split.
  { destruct (set2_elem (to_fa wr) (nrt1r r) (nrt2r r) CR). destruct (set2_elem (to_fa wi) (nrt1i r) (nrt2i r) CI). auto. }
  assert (FCS : is_finite (nCs r) = true /\ is_finite (nSn r) = true /\ Forall (fun x => is_finite x = true) [nA r; nB r; nC r; nD r; nrt1r r; nrt1i r; nrt2r r; nrt2i r]).
  { rewrite !Forall_cons_iff in FIN. rewrite !Forall_cons_iff. tauto. }
  destruct FCS as (FC & FS & F8). split; [exact F8|]. split; [exact ST|]. split; [exact ONE|]. split; [exact SIM|]. split; [auto|]. split; [exact EB|]. split; [exact EV|].
  split; [exact Hz0|]. intros W p x y Hp X Y. destruct (HZ W) as (RZ1 & RZ2 & KK & ZE). specialize (Hz W).
  destruct (ZE p Hp) as (x0 & y0 & X0 & Y0 & XY). pose proof (eq_trans (eq_sym X0) X) as QX. pose proof (eq_trans (eq_sym Y0) Y) as QY. injection QX as ->. injection QY as ->.
  assert (CZ := wf_two_cols (to_fa z) p _ (proj1 UZ) Y ltac:(lia)).
  destruct (hq_rot_z_spec iloz ihiz (to_fa z) 2 (nCs r) (nSn r)) as (zd2 & Ez & SZ & RT & _);
    [apply wf_full; apply UZ|apply wf_full; apply UZ|lia|lia|lia|exact CZ|].
  pose proof (eq_trans (eq_sym Ez) Hz) as QZ. injection QZ as ->.
  destruct (RT p Hp) as (R1 & R2). change (2 - 1)%Z with 1%Z in *. rewrite (get2_Some _ _ _ _ X), (get2_Some _ _ _ _ Y) in R1, R2.
  assert (RD : rows zd = rows (to_fa z)) by apply SZ. assert (CD : count zd = count (to_fa z)) by apply SZ.
  rewrite !Forall_cons_iff in XY. destruct XY as (XB & YB & _).
  destruct (rot_row lm K x y (nCs r) (nSn r) C S KK XB YB FC FS ONE BC BS) as (G1 & G2 & G3 & G4). change (@NB2 lm) with NB in *.
  exists (get2 zd p 1), (get2 zd p 2). split; [apply (ent_same (to_fa z)); [exact RD|exact CD|exact CZ|exact (conj (Z.le_trans _ _ _ (proj1 RZ1) (proj1 Hp)) (Z.le_trans _ _ _ (proj2 Hp) RZ2))|lia]|]. split; [apply (ent_same (to_fa z)); [exact RD|exact CD|exact CZ|exact (conj (Z.le_trans _ _ _ (proj1 RZ1) (proj1 Hp)) (Z.le_trans _ _ _ (proj2 Hp) RZ2))|lia]|]. rewrite R1, R2.
  split; [exact G1|]. split; [exact G2|]. split; [exact G3|exact G4].
Qed.
