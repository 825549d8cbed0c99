(** dlahqr over exact reals and over binary64. *)
From Coq Require Import Reals Lra Ascii.
From Flocq Require Import Core BinarySingleNaN.
From Verif Require Import Base Num Array Blas Lapack Dlahqr Spec Lists FaLemmas Blas1Proofs LahqrProofs LahqrStuck LahqrTop
  ER SpecR B64 B64Lemmas B64Nn MachProofs Lapy2Proofs LarfgProofs LanvProofs.
Local Open Scope R_scope.

Lemma er_ulp : (hq_ulp : er) = Fin (bpow radix2 (-52)).
Proof.
  unfold hq_ulp. change (dlamch (chr "P")) with (fmul (mach_eps : er) (fofZ 2)). rewrite er_mach_eps, er_fofZ, er_mulE. f_equal.
  change 2 with (bpow radix2 1). rewrite <- bpow_plus. reflexivity.
Qed.
Lemma er_smlnum ilo ihi : (hq_smlnum ilo ihi : er) = Fin (bpow radix2 (-970) * IZR (ihi - ilo + 1)).
Proof.
  unfold hq_smlnum. rewrite er_ulp. change (dlamch (chr "S")) with (mach_sfmin : er). rewrite er_sfmin, er_fofZ. unfold hq_nh.
  pose proof (bpow_gt_0 radix2 (-52)). rewrite er_divE by lra. rewrite er_mulE. f_equal.
  replace (bpow radix2 (-970)) with (bpow radix2 (-1022) * bpow radix2 52) by (rewrite <- bpow_plus; reflexivity).
  rewrite (bpow_opp radix2 52 : bpow radix2 (-52) = _). field. pose proof (bpow_gt_0 radix2 52). lra.
Qed.
Lemma er_small ilo ihi x : (ilo <= ihi)%Z -> Rabs x <= bpow radix2 (-970) * IZR (ihi - ilo + 1) -> fle (fabs (Fin x)) (hq_smlnum ilo ihi) = true.
Proof. intros _ H. rewrite er_smlnum, er_absE, er_leE. apply Rle_bool_true. exact H. Qed.
Lemma er_small0 ilo ihi : (ilo <= ihi)%Z -> fle (fabs (Fin 0)) (hq_smlnum ilo ihi) = true.
Proof.
  intros H. apply er_small; [exact H|]. rewrite Rabs_R0. apply Rmult_le_pos; [apply bpow_ge_0|]. apply IZR_le. lia.
Qed.

Section Bin.
  Context (lm : libm).
  #[local] Instance NBh : Num b64 := B64 lm.
  Lemma nn_ofZ z : (0 <= z)%Z -> nn (fofZ z).
  Proof.
    intros H. change (fofZ z) with (b64_dy z 0). unfold b64_dy.
    pose proof (binary_normalize_correct 53 1024 prec53 emax1024 mode_NE z 0 false) as C. cbv zeta in C.
    assert (P : 0 <= @F2R radix2 (Float radix2 z 0)) by (apply F2R_ge_0; exact H).
    destruct (Rlt_bool _ _).
    - destruct C as (_ & Fi & S). split; [apply finite_not_nan; exact Fi|]. rewrite S. destruct (Rcompare_spec (@F2R radix2 (Float radix2 z 0)) 0); try reflexivity. lra.
    - rewrite Rlt_bool_false in C by exact P. apply of_overflow in C. rewrite C. apply nn_inf.
  Qed.
  Lemma nn_smlnum ilo ihi : (ilo <= ihi)%Z -> nn (hq_smlnum ilo ihi).
  Proof.
    intros H. unfold hq_smlnum, hq_ulp, hq_nh.
    assert (FS : is_finite (dlamch (chr "S") : b64) = true) by (vm_compute; reflexivity).
    assert (FP : is_finite (dlamch (chr "P") : b64) = true) by (vm_compute; reflexivity).
    assert (NS : nn (dlamch (chr "S"))) by (split; vm_compute; reflexivity).
    assert (NP : nn (dlamch (chr "P"))) by (split; vm_compute; reflexivity).
    assert (RP : B2R (dlamch (chr "P")) <> 0) by (unfold NBh; rewrite mach_P; pose proof (bpow_gt_0 radix2 (-52)); lra).
    assert (RS : B2R (dlamch (chr "S")) <> 0) by (unfold NBh; rewrite mach_S; pose proof (bpow_gt_0 radix2 (-1022)); lra).
    apply mult_nn; [exact NS| | |].
    - apply div_nn; [apply nn_ofZ; lia|exact NP|right; exact FP|intros _; exact RP].
    - rewrite FS. discriminate.
    - intros _ _. exact RS.
  Qed.
  Lemma b64_small0 ilo ihi (x : b64) : (ilo <= ihi)%Z -> feq x f0 = true -> fle (fabs x) (hq_smlnum ilo ihi) = true.
  Proof.
    intros H E. assert (N := nn_smlnum ilo ihi H). set (s := hq_smlnum ilo ihi) in *. clearbody s.
    assert (Z : fabs x = B754_zero false).
    { destruct x as [b|b| |b m e B]; try reflexivity; cbn in E; try discriminate; destruct b; discriminate. }
    rewrite Z. destruct N as [N S]. destruct s as [b|b| |b m e B]; cbn in *; try discriminate; subst; reflexivity.
  Qed.
End Bin.

(** 2-by-2 matrices over exact reals *)
Section Two.
  Context {H WR WI ZZ : Type} {TH : ToFA er H} {FH : FromFA er H} {TWR : ToFA er WR} {FWR : FromFA er WR}
    {TWI : ToFA er WI} {FWI : FromFA er WI} {TZ : ToFA er ZZ} {FZ : FromFA er ZZ}.

  Lemma er_not_small (f : fa er) a b c d : m2_is f (a, b, c, d) -> bpow radix2 (-969) < Rabs c -> bpow radix2 (-52) * (Rabs a + Rabs d) < Rabs c ->
    hq_small 1 2 f 2 = false.
  Proof.
    intros (E1 & E2 & E3 & E4) L1 L2. unfold hq_small. change (2 - 1)%Z with 1%Z. apply get2_Some in E1, E2, E3, E4. rewrite E1, E2, E3, E4.
    rewrite er_smlnum, er_ulp, !er_absE, er_leE. change (IZR (2 - 1 + 1)) with (bpow radix2 1). rewrite <- bpow_plus. change (-970 + 1)%Z with (-969)%Z.
    rewrite Rle_bool_false by exact L1. change (1 <=? 2 - 2)%Z with false. change (2 + 1 <=? 2)%Z with false. cbv iota.
    rewrite er_addE. match goal with |- context [if ?c then ?x else ?x] => replace (if c then x else x) with x by (destruct c; reflexivity) end.
    rewrite er_mulE, er_leE, Rle_bool_false by exact L2. reflexivity.
  Qed.

  Lemma wf_two (f : fa er) x : well_formed f -> ent f 2 2 = Some x -> (2 <= rows f)%Z -> (2 * rows f <= count f)%Z.
  Proof.
    intros (R & C & N) E HR. assert (P : (1 <= pos (rows f) 2 2 <= count f)%Z) by (apply elem_Some; exists x; exact E).
    unfold pos in P. revert N. destruct (Z.eqb_spec (cols f) 0); intros N; [lia|]. destruct (Z.eq_dec (cols f) 1) as [E1|]; [rewrite E1 in N; lia|]. assert (2 <= cols f)%Z by lia. rewrite N. nia.
  Qed.

  Lemma dlahqr_2x2 fuel (h : H) ldh (wr : WR) (wi : WI) (z : ZZ) ldz a b c d zm :
    usable TH FH h -> usable TWR FWR wr -> usable TWI FWI wi -> usable TZ FZ z ->
    (2 <= rows (to_fa h))%Z -> (2 <= rows (to_fa z))%Z -> (2 <= count (to_fa wr))%Z -> (2 <= count (to_fa wi))%Z ->
    m2_is (to_fa h) (a, b, c, d) -> m2_is (to_fa z) zm ->
    Rabs a <= bpow radix2 1021 /\ Rabs b <= bpow radix2 1021 /\ Rabs c <= bpow radix2 1021 /\ Rabs d <= bpow radix2 1021 ->
    bpow radix2 (-969) < Rabs c -> bpow radix2 (-52) * (Rabs a + Rabs d) < Rabs c ->
    a = d \/ bpow radix2 (-52) <= Rabs (a - d) \/ 0 <= b * c ->
    exists hd wrd wid zd h' wr' wi' z' (t : m2) cs sn l1 l2,
      dlahqr (S fuel) true true 2 1 2 h ldh wr wi 1 2 z ldz = Ok (h', wr', wi', z', 0%Z) /\
      from_fa hd = Ok h' /\ from_fa wrd = Ok wr' /\ from_fa wid = Ok wi' /\ from_fa zd = Ok z' /\
      m2_is hd t /\ m2_is zd (m2mul zm (rot2 cs sn)) /\ cs * cs + sn * sn = 1 /\
      (a, b, c, d) = m2mul (m2mul (rot2 cs sn) t) (m2tr (rot2 cs sn)) /\
      (let '(a', b', c', d') := t in c' = 0 \/ (a' = d' /\ b' * c' < 0)) /\
      eigenvalues2 (a, b, c, d) l1 l2 /\
      elem wrd 1 = Some (Fin (fst l1)) /\ elem wrd 2 = Some (Fin (fst l2)) /\
      elem wid 1 = Some (Fin (snd l1)) /\ elem wid 2 = Some (Fin (snd l2)).
  Proof.
    intros UH UR UI UZ RH RZ CR CI MH MZ BD NS1 NS2 RG.
    assert (MH' := MH). destruct MH' as (E1 & E2 & E3 & E4).
    assert (A : hq_args_ok true 1 h wr wi 1 z) by (exact (conj UH (conj UR (conj UI (conj UZ (conj (Z.le_refl 1) (fun _ => Z.le_refl 1))))))).
    destruct (dlahqr_two true true 2 1 2 h ldh wr wi 1 2 z ldz fuel A ltac:(lia) ltac:(lia) (er_not_small _ _ _ _ _ MH NS1 NS2))
      as (hd & zd & h' & wr' & wi' & z' & Er & F1 & F2 & F3 & F4 & Hh & _ & Hz).
    specialize (Hh (or_intror (Z.le_refl 2))). specialize (Hz eq_refl).
    unfold two_block in *. rewrite (get2_Some _ _ _ _ E1), (get2_Some _ _ _ _ E2), (get2_Some _ _ _ _ E3), (get2_Some _ _ _ _ E4) in *.
    destruct (dlanv2_similarity a b c d BD) as (y & cs & sn & l1 & l2 & D1 & CS & SIM).
    destruct (dlanv2_schur a b c d BD RG) as (y2 & cs2 & sn2 & m1 & m2' & D2 & ST & EV & _).
    destruct y as [[[a' b'] c'] d'], y2 as [[[a2 b2] c2] d2]. unfold nv_out in D1, D2. rewrite D1 in D2. injection D2 as <- <- <- <- L1 L2 L3 L4 <- <-.
    assert (m1 = l1) by (destruct m1, l1; cbn in *; congruence). assert (m2' = l2) by (destruct m2', l2; cbn in *; congruence). subst m1 m2'.
    rewrite D1 in *. cbn [nA nB nC nD nrt1r nrt1i nrt2r nrt2i nCs nSn] in *.
    assert (CT := wf_two (to_fa h) _ (proj1 UH) E4 RH).
    assert (CZ : (2 * rows (to_fa z) <= count (to_fa z))%Z).
    { destruct zm as [[[za zb] zc] zd']. destruct MZ as (_ & _ & _ & M). exact (wf_two (to_fa z) _ (proj1 UZ) M RZ). }
    destruct (hq_rot_z_spec 1 2 (to_fa z) 2 (Fin cs) (Fin sn)) as (zd2 & Ez & SZ & RT & _);
      [apply wf_full; apply UZ|apply wf_full; apply UZ|lia|lia|lia|exact CZ|].
    rewrite Hz in Ez. injection Ez as <-.
    exists hd. do 2 eexists. exists zd, h', wr', wi', z', (a', b', c', d'), cs, sn, l1, l2.
    split; [exact Er|]. split; [exact F1|]. split; [exact F3|]. split; [exact F4|]. split; [exact F2|].
    split; [|split; [|split; [exact CS|split; [exact SIM|split; [exact ST|split; [exact EV|]]]]]].
    - rewrite Hh. unfold set2, m2_is.
      rewrite !mod2_ent by (repeat match goal with |- context [rows (mod2 ?f ?i ?j ?g)] => rewrite (proj1 (mod2_shape f i j g)) end; lia).
      cbn [andb Z.eqb Pos.eqb]. rewrite E1, E2, E3, E4. cbn. auto.
    - assert (R1 := RT 1%Z ltac:(lia)). assert (R2 := RT 2%Z ltac:(lia)). change (2 - 1)%Z with 1%Z in *.
      destruct zm as [[[za zb] zc] ze]. destruct MZ as (Z1 & Z2 & Z3 & Z4). apply get2_Some in Z1, Z2, Z3, Z4. rewrite Z1, Z2, Z3, Z4 in *.
      assert (RD : rows zd = rows (to_fa z)) by apply SZ. assert (CD : count zd = count (to_fa z)) by apply SZ.
      unfold m2_is, m2mul, rot2. destruct R1 as [R11 R12], R2 as [R21 R22].
      rewrite !ent_get2 by (unfold pos; rewrite RD; nia). rewrite R11, R12, R21, R22.
      rewrite !er_mulE, !er_addE, !er_subE. repeat split; do 2 f_equal; ring.
    - unfold set1.
      repeat split; repeat (rewrite mod1_elem; cbn [Z.eqb Pos.eqb]);
        match goal with |- context [elem ?f ?p] => destruct (proj2 (elem_Some f p)) as [xx ->]; [lia|] end; reflexivity.
  Qed.
End Two.

Section Stuck.
  Local Open Scope Z_scope.
  Lemma dlahqr_triangular_er (H WR WI ZZ : Type) (TH : ToFA er H) (FH : FromFA er H) (TWR : ToFA er WR) (FWR : FromFA er WR)
    (TWI : ToFA er WI) (FWI : FromFA er WI) (TZ : ToFA er ZZ) (FZ : FromFA er ZZ)
    wantt wantz n ilo ihi (h : H) ldh (wr : WR) (wi : WI) iloz ihiz (z : ZZ) ldz :
    usable TH FH h /\ usable TWR FWR wr /\ usable TWI FWI wi /\ usable TZ FZ z /\ 1 <= ilo /\ (wantz = true -> 1 <= iloz) ->
    n <> 0 -> ilo < ihi -> 2 <= rows (to_fa h) ->
    (forall k, ilo < k <= ihi -> exists x, ent (to_fa h) k (k - 1) = Some (Fin x) /\ (Rabs x <= bpow radix2 (-970) * IZR (ihi - ilo + 1))%R) ->
    forall fuel, dlahqr fuel wantt wantz n ilo ihi h ldh wr wi iloz ihiz z ldz = NoFuel.
  Proof.
    intros A N IL R SM fuel. apply dlahqr_triangular; try assumption. intros k Hk. destruct (SM k Hk) as (x & E & B).
    rewrite (get2_Some _ _ _ _ E). apply er_small; [lia|exact B].
  Qed.
  Lemma dlahqr_triangular_b64 lm (H WR WI ZZ : Type) (TH : ToFA b64 H) (FH : FromFA b64 H) (TWR : ToFA b64 WR) (FWR : FromFA b64 WR)
    (TWI : ToFA b64 WI) (FWI : FromFA b64 WI) (TZ : ToFA b64 ZZ) (FZ : FromFA b64 ZZ)
    wantt wantz n ilo ihi (h : H) ldh (wr : WR) (wi : WI) iloz ihiz (z : ZZ) ldz :
    usable TH FH h /\ usable TWR FWR wr /\ usable TWI FWI wi /\ usable TZ FZ z /\ 1 <= ilo /\ (wantz = true -> 1 <= iloz) ->
    n <> 0 -> ilo < ihi -> 2 <= rows (to_fa h) ->
    (forall k, ilo < k <= ihi -> exists s, ent (to_fa h) k (k - 1) = Some (B754_zero s)) ->
    forall fuel, @dlahqr b64 (B64 lm) _ _ _ _ _ _ _ _ _ _ _ _ fuel wantt wantz n ilo ihi h ldh wr wi iloz ihiz z ldz = NoFuel.
  Proof.
    intros A N IL R SM fuel. apply (@dlahqr_triangular b64 (B64 lm)); try assumption. intros k Hk. destruct (SM k Hk) as (s & E).
    rewrite (@get2_Some b64 (B64 lm) (@to_fa b64 _ TH h) k (k - 1) (B754_zero s) E). apply b64_small0; [lia|]. destruct s; reflexivity.
  Qed.
  Lemma dlahqr_split_er (H WR WI ZZ : Type) (TH : ToFA er H) (FH : FromFA er H) (TWR : ToFA er WR) (FWR : FromFA er WR)
    (TWI : ToFA er WI) (FWI : FromFA er WI) (TZ : ToFA er ZZ) (FZ : FromFA er ZZ)
    fuel wantt wantz n ilo ihi (h : H) ldh (wr : WR) (wi : WI) iloz ihiz (z : ZZ) ldz h' wr' wi' z' info x :
    usable TH FH h /\ usable TWR FWR wr /\ usable TWI FWI wi /\ usable TZ FZ z /\ 1 <= ilo /\ (wantz = true -> 1 <= iloz) ->
    n <> 0 -> ilo < ihi -> ihi <= rows (to_fa h) ->
    ent (to_fa h) (ilo + 1) ilo = Some (Fin x) -> (Rabs x <= bpow radix2 (-970) * IZR (ihi - ilo + 1))%R ->
    dlahqr fuel wantt wantz n ilo ihi h ldh wr wi iloz ihiz z ldz = Ok (h', wr', wi', z', info) -> info <> 0.
  Proof.
    intros A N IL R E B. apply dlahqr_split; try assumption.
    - rewrite er_f0. apply er_small0. lia.
    - rewrite (get2_Some _ _ _ _ E). apply er_small; [lia|exact B].
  Qed.
  Lemma dlahqr_split_b64 lm (H WR WI ZZ : Type) (TH : ToFA b64 H) (FH : FromFA b64 H) (TWR : ToFA b64 WR) (FWR : FromFA b64 WR)
    (TWI : ToFA b64 WI) (FWI : FromFA b64 WI) (TZ : ToFA b64 ZZ) (FZ : FromFA b64 ZZ)
    fuel wantt wantz n ilo ihi (h : H) ldh (wr : WR) (wi : WI) iloz ihiz (z : ZZ) ldz h' wr' wi' z' info s :
    usable TH FH h /\ usable TWR FWR wr /\ usable TWI FWI wi /\ usable TZ FZ z /\ 1 <= ilo /\ (wantz = true -> 1 <= iloz) ->
    n <> 0 -> ilo < ihi -> ihi <= rows (to_fa h) -> ent (to_fa h) (ilo + 1) ilo = Some (B754_zero s) ->
    @dlahqr b64 (B64 lm) _ _ _ _ _ _ _ _ _ _ _ _ fuel wantt wantz n ilo ihi h ldh wr wi iloz ihiz z ldz = Ok (h', wr', wi', z', info) -> info <> 0.
  Proof.
    intros A N IL R E. apply (@dlahqr_split b64 (B64 lm)); try assumption.
    - apply b64_small0; [lia|reflexivity].
    - rewrite (@get2_Some b64 (B64 lm) (@to_fa b64 _ TH h) (ilo + 1) ilo (B754_zero s) E). apply b64_small0; [lia|]. destruct s; reflexivity.
  Qed.
End Stuck.

Definition diag12 : list (list b64) := [[b64_dy 1 0; b64_dy 0 0]; [b64_dy 0 0; b64_dy 1 1]].
Lemma dlahqr_diverges_witness : exists h : list (list b64), forall lm fuel,
  @dlahqr b64 (B64 lm) _ _ _ _ (@ToFA_nested b64 (B64 lm)) (@FromFA_nested b64 (B64 lm)) (@ToFA_vec b64 (B64 lm)) _ (@ToFA_vec b64 (B64 lm)) _
    (@ToFA_nested b64 (B64 lm)) (@FromFA_nested b64 (B64 lm)) fuel true false 2 1 2 h 2 [b64_dy 0 0; b64_dy 0 0] [b64_dy 0 0; b64_dy 0 0] 1 2 h 2 = NoFuel.
Proof.
  exists diag12. intros lm fuel.
  assert (U : usable (@ToFA_nested b64 (B64 lm)) (@FromFA_nested b64 (B64 lm)) diag12).
  { apply usable_nested with (q := 2%Z); [lia|discriminate|repeat constructor]. }
  apply dlahqr_triangular_b64; [|lia|lia|reflexivity||discriminate|].
  - repeat (split; [first [exact U|apply usable_vec|lia]|]). discriminate.
  - intros k Hk. assert (k = 2%Z) by lia. subst k. exists false. reflexivity.
Qed.
