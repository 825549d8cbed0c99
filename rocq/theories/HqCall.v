(** dlahqr over exact reals: the call as seen by its caller. *)
From Flocq Require Import Core.
From Coq Require Import Reals Lra.
From Verif Require Import Base Num Array Blas Lapack Dlahqr Spec ER SpecR SpecSim SpecHq Lists FaLemmas RsumLemmas Nrm2Proofs B64 Nrm2F64 Blas1Proofs LarfgProofs LanvProofs
  LahqrProofs LahqrStuck LahqrTop LahqrNum RealMat SimArray SimSweep SimReflect Laqr1Proofs HqReal HqArray HqReflect HqSweep HqIter HqRotRows HqDefl HqTop HqEig.
Open Scope R_scope.

Lemma v_is_zeros : st_v (fa_of_vec [f0; f0; f0]).
Proof. exists 0, 0, 0. split; [rewrite er_f0; reflexivity|apply three_zeros]. Qed.

Lemma clear_is n ilo ihi (h : fa er) M : (1 <= ilo)%Z -> (ihi <= n)%Z -> (n <= rows h)%Z -> mat_is h n n M -> hessenberg ilo ihi M ->
  mat_is (hq_clear ilo ihi h) n n M.
Proof.
  intros Hlo Hhi HR HM HE. unfold hq_clear.
  assert (S : forall g i j, mat_is g n n M -> (n <= rows g)%Z -> (ilo <= j)%Z -> (j + 1 < i <= ihi)%Z -> mat_is (set2 g i j f0) n n M).
  { intros g i j Hg Hr Hj Hi. rewrite er_f0. eapply mat_ext; [|apply mat_set2; [exact Hg|exact Hr|lia|lia]].
    intros a b Ha Hb. unfold rupd. destruct (Z.eqb_spec a i) as [->|], (Z.eqb_spec b j) as [->|]; cbn [andb]; try reflexivity. symmetry. apply HE; lia. }
  assert (L : forall g, g = for_ (range ilo (ihi - 3)) h (fun j h => set2 (set2 h (j + 2) j f0) (j + 3) j f0) -> mat_is g n n M /\ (n <= rows g)%Z).
  { intros g ->. apply (for_inv (fun g => mat_is g n n M /\ (n <= rows g)%Z)); [auto|]. intros j s Hj [H1 H2]. apply in_range in Hj.
    split; [|rewrite !(proj1 (set2_shape _ _ _ _)); exact H2]. apply S; [apply S; [exact H1|exact H2|lia|lia]|rewrite (proj1 (set2_shape _ _ _ _)); exact H2|lia|lia]. }
  destruct (L _ eq_refl) as [L1 L2]. destruct (Z.leb_spec ilo (ihi - 2)); [|exact L1]. apply S; [exact L1|exact L2|lia|lia].
Qed.

Section Call.
  Context {H WR WI ZZ : Type} {TH : ToFA er H} {FH : FromFA er H} {TWR : ToFA er WR} {FWR : FromFA er WR}
    {TWI : ToFA er WI} {FWI : FromFA er WI} {TZ : ToFA er ZZ} {FZ : FromFA er ZZ}.
  Context (wantz : bool) (n ilo ihi : Z) (h : H) (wr : WR) (wi : WI) (iloz ihiz : Z) (z : ZZ) (ldz : Z) (H0 Z0 : Z -> Z -> R) (N : R).

  Lemma dlahqr_schur fuel h' wr' wi' z' info :
    usable TH FH h -> usable TWR FWR wr -> usable TWI FWI wi -> usable TZ FZ z ->
    (1 <= ilo)%Z -> (ilo < ihi)%Z -> (ihi <= n)%Z -> (n <= rows (to_fa h))%Z -> (ihi <= count (to_fa wr))%Z -> (ihi <= count (to_fa wi))%Z ->
    mat_is (to_fa h) n n H0 -> hessenberg ilo ihi H0 -> 0 <= N <= 2 ^ 500 -> frob2 ilo ihi H0 <= N * N ->
    (wantz = true -> (1 <= iloz <= ihiz)%Z /\ (ihiz <= n)%Z /\ (n <= rows (to_fa z))%Z /\ mat_is (to_fa z) n n Z0) ->
    dlahqr fuel true wantz n ilo ihi h (rows (to_fa h)) wr wi iloz ihiz z ldz = Ok (h', wr', wi', z', info) ->
    exists hd wrd wid zd M T Q E,
      from_fa hd = Ok h' /\ from_fa wrd = Ok wr' /\ from_fa wid = Ok wi' /\ from_fa zd = Ok z' /\ mat_is hd n n M /\
      nearly_similar ilo ihi (hq_error N (ihi - ilo + 1)) H0 T Q E /\ hessenberg ilo ihi T /\ blocks_agree ilo ihi M T /\
      quasi_schur ilo ihi T wrd wid (if (info =? 0)%Z then ilo else info + 1) /\ (info = 0 \/ ilo <= info <= ihi)%Z /\
      (wantz = true -> exists Z', mat_is zd n n Z' /\
        forall a b, (1 <= a <= n)%Z -> (1 <= b <= n)%Z -> Z' a b =
          if ((iloz <=? a) && (a <=? ihiz) && (ilo <=? b) && (b <=? ihi))%Z%bool then mmul ilo ihi Z0 Q a b else Z0 a b).
  Proof.
    intros UH UR UI UZ L1 L2 L3 L4 L5 L6 HM HE HN FN HZ.
    assert (AR : hq_args_ok wantz ilo h wr wi iloz z).
    { refine (conj UH (conj UR (conj UI (conj UZ (conj L1 _))))). intros e. destruct (HZ e) as [? _]. lia. }
    destruct (hq_args_loop wantz ilo ihi h wr wi iloz z AR) as (A1 & A2 & A3 & A4 & A5).
    rewrite dlahqr_main by lia.
    destruct (hq_loop _ _ _ _ _ _ _ _ _ _ _) as [[st i]| | |] eqn:EL; cbn [bind fst snd]; try discriminate.
    set (D := 3 * bpow radix2 (-52) * N + bpow radix2 (-970) * IZR (ihi - ilo + 1)).
    assert (HZ1 : wantz = true -> (1 <= iloz <= ihiz)%Z /\ (ihiz <= n)%Z) by (intros e; destruct (HZ e) as (? & ? & _); auto).
    assert (HZ2 : wantz = true -> (n <= rows (to_fa z))%Z /\ full (to_fa z)) by (intros e; destruct (HZ e) as (_ & _ & ? & _); split; [assumption|apply (A3 e)]).
    pose proof (hq_init_ok wantz ilo ihi h wr wi z ltac:(lia)) as HO.
    set (st0 := hq_init _ _ _ _ _ _) in *.
    assert (AH : at_head wantz n ilo ihi iloz ihiz H0 Z0 N (to_fa z) (to_fa h) 0 st0).
    { exists H0, H0, Rid, (fun _ _ => 0). split; [|split; [apply v_is_zeros|]; split; [exact L5|]; split; [exact L6|]; split; [apply qs_nil|cbn; lia]].
      constructor; cbn [st0 hq_init sH sZ sI].
      - apply clear_is; assumption.
      - apply hq_clear_shape.
      - constructor; reflexivity.
      - exact HE.
      - apply simil_start.
      - exact FN.
      - apply z_start; intros e; destruct (HZ e) as (HZA & HZB & _ & HZM); [lia|exact HZM].
      - lia.
      - lia. }
    pose proof (loop_is wantz n ilo ihi iloz ihiz L1 L2 L3 HZ1 H0 Z0 N D (to_fa z) (to_fa h) (to_fa wr) (to_fa wi) HN (Rle_refl _) HZ2 A1 L4 _ A5 fuel st0 0 st i HO AH (Rle_refl 0) EL) as AE.
    change (sI st0) with ihi in AE.
    pose proof (hq_loop_ok true wantz n ilo ihi (rows (to_fa h)) iloz ihiz _ _ _ _ A1 A2 A3 A4 _ A5 fuel st0 HO) as [X|(st1 & i1 & X & OK & IB)]; [rewrite X in EL; discriminate|].
    rewrite X in EL. injection EL as -> ->.
    destruct (hq_conv_ok wantz ilo ihi h wr wi iloz z st AR OK) as (h1 & wr1 & wi1 & z1 & -> & B1 & B2 & B3 & B4). cbn [bind].
    intros [= <- <- <- <- <-].
    destruct AE as (k & l & M & G & Q & E & I & QS). destruct I as [I1 I2 [I3 I4] I5 [S1 S2 S3 S4] I7 I8 _ _].
    exists (sH st), (sWr st), (sWi st), (sZ st), M, G, Q, E. repeat (split; [assumption|]).
    split; [|split; [exact I5|]; split; [|split; [exact QS|]; split; [exact IB|]]].
    - split; [exact S1|]. split; [exact S2|]. split; [|exact S4]. rewrite Rplus_0_l in S3. exact S3.
    - intros a b Ha Hb [C|C]; [apply I3; assumption|]. destruct (Z_le_gt_dec b a); [apply I3; assumption|apply I4; [assumption|assumption|lia|exact C]].
    - intros ->. destruct I8 as (Zc & J1 & J2 & J3 & J4). exists Zc. split; [exact J1|]. intros a b Ha Hb.
      destruct (Z.leb_spec iloz a), (Z.leb_spec a ihiz), (Z.leb_spec ilo b), (Z.leb_spec b ihi); cbn [andb]; first [apply J3; lia|apply J4; lia].
  Qed.
End Call.


Lemma qs_wr ilo ihi T wr wi j : quasi_schur ilo ihi T wr wi j -> forall a, (j <= a <= ihi)%Z -> elem wr a = Some (Fin (T a a)).
Proof.
  induction 1 as [|j H1 H2 H3 H4 H5 IH|j s H1 H2 H3 H4 H5 H6 H7 bc H8 H9 IH]; intros a Ha; [lia| |].
  - destruct (Z.eq_dec a j) as [->|]; [exact H3|apply IH; lia].
  - destruct (Z.eq_dec a j) as [->|]; [exact H4|]. destruct (Z.eq_dec a (j + 1)) as [->|]; [exact H5|apply IH; lia].
Qed.

Section Eigen.
  Context {H WR WI ZZ : Type} {TH : ToFA er H} {FH : FromFA er H} {TWR : ToFA er WR} {FWR : FromFA er WR}
    {TWI : ToFA er WI} {FWI : FromFA er WI} {TZ : ToFA er ZZ} {FZ : FromFA er ZZ}.
  Context (wantz : bool) (n ilo ihi : Z) (h : H) (wr : WR) (wi : WI) (iloz ihiz : Z) (z : ZZ) (ldz : Z) (H0 Z0 : Z -> Z -> R) (N : R).

  (** what is reported are eigenvalues of H0 - E, and the real parts sum to the trace of H0 *)
  Lemma dlahqr_eigen fuel h' wr' wi' z' info :
    usable TH FH h -> usable TWR FWR wr -> usable TWI FWI wi -> usable TZ FZ z ->
    (1 <= ilo)%Z -> (ilo < ihi)%Z -> (ihi <= n)%Z -> (n <= rows (to_fa h))%Z -> (ihi <= count (to_fa wr))%Z -> (ihi <= count (to_fa wi))%Z ->
    mat_is (to_fa h) n n H0 -> hessenberg ilo ihi H0 -> 0 <= N <= 2 ^ 500 -> frob2 ilo ihi H0 <= N * N ->
    (wantz = true -> (1 <= iloz <= ihiz)%Z /\ (ihiz <= n)%Z /\ (n <= rows (to_fa z))%Z /\ mat_is (to_fa z) n n Z0) ->
    dlahqr fuel true wantz n ilo ihi h (rows (to_fa h)) wr wi iloz ihiz z ldz = Ok (h', wr', wi', z', info) ->
    exists hd wrd wid M E lr li,
      from_fa hd = Ok h' /\ from_fa wrd = Ok wr' /\ from_fa wid = Ok wi' /\ mat_is hd n n M /\
      frob2 ilo ihi E <= hq_error N (ihi - ilo + 1) * hq_error N (ihi - ilo + 1) /\
      (forall k, ((if (info =? 0)%Z then ilo else info + 1) <= k <= ihi)%Z -> elem wrd k = Some (Fin (lr k)) /\ elem wid k = Some (Fin (li k)) /\
        (eigenvalue_of ilo ihi (fun a b => H0 a b - E a b) (lr k, li k) \/ uneven_block ilo ihi M k)) /\
      (info = 0%Z -> Rsum_range lr ilo ihi = trace ilo ihi H0).
  Proof.
    intros UH UR UI UZ L1 L2 L3 L4 L5 L6 HM HE HN FN HZ EQ.
    destruct (dlahqr_schur wantz n ilo ihi h wr wi iloz ihiz z ldz H0 Z0 N fuel h' wr' wi' z' info UH UR UI UZ L1 L2 L3 L4 L5 L6 HM HE HN FN HZ EQ)
      as (hd & wrd & wid & zd & M & T & Q & E & E1 & E2 & E3 & E4 & MM & (O1 & O2 & O3 & O4) & HT & BA & QS & IB & _).
    set (j := if (info =? 0)%Z then ilo else (info + 1)%Z) in *.
    assert (Lj : (ilo <= j)%Z) by (unfold j; destruct (Z.eqb_spec info 0); lia).
    pose proof (qs_eig ilo ihi T HT wrd wid j QS Lj) as EV.
    exists hd, wrd, wid, M, E, (fun k => T k k), (fun k => match elem wid k with Some (Fin x) => x | _ => 0 end).
    repeat (split; [assumption|]). split.
    - intros k Hk. pose proof (qs_wr _ _ _ _ _ _ QS k Hk) as W. destruct (EV k Hk) as (lr & li & X1 & X2 & X3). split; [exact W|].
      rewrite X2. split; [reflexivity|]. rewrite W in X1. injection X1 as <-. destruct X3 as [X3|(p & P1 & P2 & P3 & P4 & P5)].
      + left. eapply eigenvalue_similar; [exact O1|exact O2|]. eapply eigvec_up; [exact HT|exact QS|exact Lj|exact X3].
      + right. exists p. split; [lia|]. split; [exact P2|]. split; [exact P3|].
        assert (N0 : M (p + 1)%Z p = T (p + 1)%Z p) by (apply BA; lia). assert (N1 : M p p = T p p) by (apply BA; lia). assert (N2 : M (p + 1)%Z (p + 1)%Z = T (p + 1)%Z (p + 1)%Z) by (apply BA; lia).
        assert (N3 : M p (p + 1)%Z = T p (p + 1)%Z).
        { apply BA; [lia|lia|]. right. intros s Hs. replace s with (p + 1)%Z by lia. replace (p + 1 - 1)%Z with p by lia. rewrite N0. intros X. rewrite X in P4. lra. }
        rewrite N0, N1, N2, N3. split; [exact P4|exact P5].
    - intros ->. change (trace ilo ihi T = trace ilo ihi H0).
      rewrite (trace_ext ilo ihi T (conj_by ilo ihi Q (fun a b => H0 a b - E a b))) by (intros; apply O2; assumption).
      rewrite trace_conj by exact O1. change (fun a b => H0 a b - E a b) with (msub H0 E). rewrite trace_msub, O4. ring.
  Qed.
End Eigen.

(** a 3-by-3 block whose last subdiagonal entry is negligible and whose first is not: the call returns *)
Section Three.
  Context {F : Type} {NF : Num F}.
  Context {H WR WI ZZ : Type} {TH : ToFA F H} {FH : FromFA F H} {TWR : ToFA F WR} {FWR : FromFA F WR}
    {TWI : ToFA F WI} {FWI : FromFA F WI} {TZ : ToFA F ZZ} {FZ : FromFA F ZZ}.
  Context (wantt wantz : bool) (n ilo ihi : Z) (h : H) (ldh : Z) (wr : WR) (wi : WI) (iloz ihiz : Z) (z : ZZ) (ldz : Z).
  Open Scope Z_scope.
  Lemma dlahqr_three : hq_args_ok wantz ilo h wr wi iloz z -> n <> 0 -> ihi = ilo + 2 -> 2 <= rows (to_fa h) ->
    fle (fabs (get2 (to_fa h) ihi (ihi - 1))) (hq_smlnum ilo ihi : F) = true ->
    hq_small ilo ihi (set2 (hq_clear ilo ihi (to_fa h)) ihi (ihi - 1) f0) (ilo + 1) = false ->
    exists r, dlahqr 2 wantt wantz n ilo ihi h ldh wr wi iloz ihiz z ldz = Ok (r, 0).
  Proof.
    intros A N EI R SM NS. destruct (hq_args_loop wantz ilo ihi h wr wi iloz z A) as (A1 & A2 & A3 & A4 & A5).
    rewrite dlahqr_main by lia.
    pose proof (hq_init_ok wantz ilo ihi h wr wi z ltac:(lia)) as HO. set (st0 := hq_init _ _ _ _ _ _) in *.
    rewrite loop_turn. destruct (Z.ltb_spec (sI st0) ilo) as [X|_]; [cbn in X; lia|].
    destruct (turn_small wantt wantz n ilo ihi ldh iloz ihiz _ _ _ _ A1 A2 A3 A4 _ A5 st0 HO) as (s1 & -> & HO1 & I1 & H1).
    { cbn. lia. }
    { cbn [st0 hq_init sI sH]. rewrite clear_subdiag by assumption. exact SM. }
    cbn [bind fst snd]. change (sI st0) with ihi in *. change (sH st0) with (hq_clear ilo ihi (to_fa h)) in H1.
    rewrite loop_turn. destruct (Z.ltb_spec (sI s1) ilo) as [X|_]; [lia|].
    assert (T : exists s2, turn wantt wantz n ilo ihi ldh iloz ihiz (hq_conv1 (H:=H) (WR:=WR) (WI:=WI) (ZZ:=ZZ)) s1 = Ok (s2, None) /\ sI s2 = ilo - 1).
    { unfold turn. set (s0 := mkHq _ _ _ _ _ _ _ _ ilo _ _ _ _ _).
      pose proof (hq_itmax_pos ilo ihi). rewrite range_cons by lia. cbn [for_brk_M].
      assert (E : hq_iter wantt wantz ilo ihi iloz ihiz 0 s0 =
        Ok (mkHq (sH s1) (sWr s1) (sWi s1) (sZ s1) (sV s1) (sT1 s1) (sM s1) ilo ilo (sI s1) 0 (sKdefl s1) (sCs s1) (sSn s1), true)).
      { unfold hq_iter. change (sH s0) with (sH s1). change (sI s0) with (sI s1). change (sL s0) with ilo.
        assert (SC : hq_scan ilo ihi (sH s1) ilo (sI s1) (sK s0) = ilo).
        { unfold hq_scan. rewrite I1, range_rev_cons by lia. cbn [for_brk]. replace (ihi - 1) with (ilo + 1) by lia.
          replace (hq_small ilo ihi (sH s1) (ilo + 1)) with false by (rewrite H1; symmetry; exact NS). rewrite range_rev_nil by lia. cbn [for_brk]. lia. }
        rewrite SC. rewrite Z.ltb_irrefl. destruct (Z.leb_spec (sI s1 - 1) ilo); [reflexivity|lia]. }
      rewrite E. cbn [bind fst snd sIts]. destruct (Z.leb_spec (hq_itmax ilo ihi) 0); [lia|]. clear E.
      destruct HO1 as (OK1 & J1 & _).
      match goal with |- context [hq_deflate _ _ _ _ _ _ ?s] => set (s2 := s) end.
      destruct (hq_deflate_ok wantt wantz n ilo ihi ldh iloz ihiz (to_fa h) (to_fa wr) (to_fa wi) (to_fa z) A1 A2 A3 A4 s2) as (s3 & -> & OK3 & I3 & L3 & K3); [exact OK1|cbn; lia|cbn; lia|].
      cbn [bind]. rewrite A5 by exact OK3. cbn [bind]. eexists. split; [reflexivity|]. cbn [sI]. rewrite L3. reflexivity. }
    destruct T as (s2 & E2 & I2).
    destruct (turn_ok wantt wantz n ilo ihi ldh iloz ihiz _ _ _ _ A1 A2 A3 A4 _ A5 s1 HO1 ltac:(lia)) as [(s' & E' & _)|(s' & E' & HO2 & _)]; rewrite E2 in E'; [discriminate|].
    injection E' as <-. rewrite E2. cbn [bind fst snd hq_loop]. destruct (Z.ltb_spec (sI s2) ilo); [|lia]. cbn [bind fst snd].
    destruct (hq_conv_ok wantz ilo ihi h wr wi iloz z s2 A (proj1 HO2)) as (h' & wr' & wi' & z' & -> & _). cbn [bind]. eexists. reflexivity.
  Qed.
End Three.
