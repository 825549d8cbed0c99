(** The restart of a collapsed bulge in dlaqr5: which reflector it uses. *)
From Coq Require Import Reals Lra Lia Ascii.
From Flocq Require Import Core.
From Verif Require Import Base Num Array Blas Lapack Dlaqr5 Spec SpecR ER Lists FaLemmas Nrm2Proofs MachProofs Lapy2Proofs LarfgProofs LahqrNum Dlahqr.
Local Open Scope Z_scope.

Section Generic.
  Context {F : Type} {NF : Num F}.
  Notation fa := (fa F).

  Lemma get1_vec1 (x : F) : get1 (to_fa [x]) 1 = x.
  Proof. reflexivity. Qed.
  Lemma get1_vec1_out (x : F) i : 2 <= i -> get1 (to_fa [x]) i = fMINPOS.
  Proof. intros H. apply get1_out. unfold count. cbn. lia. Qed.
  Lemma insert_vec1 (x y : F) : fa_insert (to_fa [x]) 1 y = Ok (to_fa [x]).
  Proof. reflexivity. Qed.

  Lemma dscal_vec1 (c x : F) : dscal 2 c [x] 1 = Ok [if feq c f1 then x else fmul x c].
  Proof. unfold dscal. cbn [Z.leb Z.compare orb Pos.compare Pos.compare_cont]. destruct (feq c f1); reflexivity. Qed.
  Lemma dnrm2_vec1 (x : F) : dnrm2 2 [x] 1 = dnrm2 2 [x; fMINPOS] 1.
  Proof. reflexivity. Qed.

  Lemma loop_vec1 fuel safmin rsafmn knt (x beta alpha : F) r :
    dlarfg_loop fuel 3 1 safmin rsafmn knt [x] beta alpha = Ok r -> exists k y b a, r = (k, [y], b, a).
  Proof.
    revert knt x beta alpha. induction fuel as [|fuel IH]; intros knt x beta alpha; cbn [dlarfg_loop];
      change (3 - 1) with 2; rewrite dscal_vec1; cbn [bind]; destruct (_ || _); intros E; try discriminate; try (injection E as <-; eauto).
    apply (IH _ _ _ _ E).
  Qed.
  Lemma dlarfg_vec1 (alpha x : F) r : dlarfg 3 alpha [x] 1 = Ok r -> exists a y t, r = (a, [y], t).
  Proof.
    unfold dlarfg. cbn [Z.leb Z.compare Pos.compare Pos.compare_cont]. change (3 - 1) with 2.
    destruct (feq _ _); [intros E; injection E as <-; eauto|].
    destruct (flt _ _).
    - destruct (dlarfg_loop _ _ _ _ _ _ _ _ _) as [q| | |] eqn:L; cbn [bind]; try discriminate.
      destruct (loop_vec1 _ _ _ _ _ _ _ _ L) as (k & y & b & a & ->). cbn [bind]. rewrite dscal_vec1. cbn [bind].
      intros E. injection E as <-. eauto.
    - cbn [bind]. rewrite dscal_vec1. cbn [bind]. intros E. injection E as <-. eauto.
  Qed.

  Lemma clear_two (h : fa) k x : 1 <= k -> k + 3 <= rows h ->
    get2 (set2 (set2 h (k + 2) k x) (k + 3) k x) (k + 1) k = get2 h (k + 1) k.
  Proof. intros K R. rewrite !get2_ent. unfold set2. rewrite !mod2_ent by (rewrite ?(proj1 (mod2_shape _ _ _ _)); lia).
    destruct (Z.eqb_spec (k + 1) (k + 3)); [lia|]. destruct (Z.eqb_spec (k + 1) (k + 2)); [lia|]. reflexivity. Qed.

  (** the restart computes a reflector [dlarfg], loses its tau, and uses the second component as tau *)
  Lemma collapsed_restart sr si ldh k m (beta : F) (h v vt h' v' vt' : fa) :
    q5_collapsed sr si ldh k m beta h v vt = Ok (h', v', vt') ->
    1 <= k -> k + 3 <= rows h -> rows h * k <= count h ->
    exists hs w alpha x tau, from2 h (k + 1) (k + 1) = Ok hs /\
      dlaqr1 3 hs ldh (get1 sr (2 * m - 1)) (get1 si (2 * m - 1)) (get1 sr (2 * m)) (get1 si (2 * m)) vt = Ok w /\
      dlarfg 3 (get1 w 1) [get1 w 2] 1 = Ok (alpha, [x], tau) /\
      (v' = v /\ get2 h' (k + 1) k = beta \/
       v' = set2 (set2 (set2 v 1 m x) 2 m fMINPOS) 3 m fMINPOS /\
       get2 h' (k + 1) k = fsub (get2 h (k + 1) k) (fmul (fadd (get2 h (k + 1) k) (fmul fMINPOS (get2 h (k + 2) k))) x)).
  Proof.
    unfold q5_collapsed. destruct (from2 h (k + 1) (k + 1)) as [hs| | |]; cbn [bind]; try discriminate.
    destruct (dlaqr1 3 hs _ _ _ _ _ vt) as [w| | |] eqn:W; cbn [bind]; try discriminate.
    destruct (dlarfg 3 _ _ 1) as [r| | |] eqn:D; cbn [bind]; try discriminate.
    destruct (dlarfg_vec1 _ _ _ D) as (a & x & t & ->). rewrite insert_vec1. cbn [bind].
    rewrite get1_vec1, !get1_vec1_out by lia. intros E K R C. exists hs, w, a, x, t.
    split; [reflexivity|]. split; [exact W|]. split; [exact D|].
    assert (P : 1 <= pos (rows h) (k + 1) k <= count h) by (unfold pos; nia).
    revert E. match goal with |- context [if ?c then _ else _] => destruct c end; intros E; injection E as <- <- _; [left|right]; (split; [reflexivity|]).
    - rewrite clear_two by (rewrite ?(proj1 (set2_shape h (k + 1) k beta)); lia). rewrite get2_ent. unfold set2. rewrite mod2_ent by lia.
      rewrite !Z.eqb_refl. cbn [andb]. destruct (ent_Some h (k + 1) k P) as [y ->]. reflexivity.
    - rewrite clear_two by (rewrite ?(proj1 (mod2_shape _ _ _ _)); lia). rewrite (get2_ent (mod2 _ _ _ _)), mod2_ent by lia.
      rewrite !Z.eqb_refl. cbn [andb]. rewrite (ent_get2 h (k + 1) k P). reflexivity.
  Qed.
End Generic.

Section Exact.
  Local Open Scope R_scope.

  (** the smallest positive normal number, read in place of the missing components *)
  Definition tiny : R := bpow radix2 (-1022).

  Lemma er_tiny : (fMINPOS : er) = Fin tiny.
  Proof. unfold fMINPOS. rewrite er_dy. f_equal. unfold tiny. ring. Qed.
  Lemma tiny_range : 0 < tiny <= / 4.
  Proof. split; [apply bpow_gt_0|]. change (/ 4) with (bpow radix2 (-2)). apply bpow_le. lia. Qed.

  Lemma p505_fmax : 2 ^ 506 <= Rfmax.
  Proof.
    unfold Rfmax. change 1024%Z with (1 + 1023)%Z. rewrite bpow_plus. change (bpow radix2 1) with 2.
    assert (bpow radix2 971 <= bpow radix2 1023) by (apply bpow_le; lia).
    assert (2 ^ 506 <= bpow radix2 1023); [|lra].
    replace (2 ^ 506) with (bpow radix2 506); [apply bpow_le; lia|]. rewrite bpow_powerRZ. reflexivity.
  Qed.

  (** dlarfg with one stored element where two are expected: the second component it returns *)
  Lemma larfg_short a b : Rabs a <= 2 ^ 505 -> bpow radix2 (-969) <= Rabs b <= 2 ^ 505 ->
    exists alpha x tau, dlarfg 3 (Fin a) [Fin b] 1 = Ok (alpha, [Fin x], tau) /\ 0 < Rabs x < 1.
  Proof.
    intros Ha [Hb Hb2]. pose proof tiny_range as [T0 T1]. set (N := b * b + tiny * tiny).
    assert (B0 : 0 < bpow radix2 (-969)) by apply bpow_gt_0.
    assert (P5 : 1 <= 2 ^ 505) by (apply pow_R1_Rle; lra).
    assert (BB : Rabs b * Rabs b = b * b) by (rewrite <- Rabs_mult; apply Rabs_pos_eq, Rle_0_sqr).
    assert (N0 : 0 < N) by (unfold N; nra).
    assert (NR : dnrm2 2 [Fin b] 1 = Fin (sqrt N)).
    { rewrite dnrm2_vec1, er_tiny. unfold dnrm2. rewrite (dnrm2_exact 2 _ 1 (fun t => if Z.eqb t 0 then b else tiny)).
      - f_equal. f_equal. unfold N. unfold Rsum_range. change (Z.to_nat (2 - 1 - 0 + 1)) with 2%nat. cbn [Rsum Z.eqb]. change (0 + 1 =? 0)%Z with false. cbv iota. ring.
      - lia.
      - intros t Ht. assert (E : t = 0%Z \/ t = 1%Z) by lia. destruct E as [-> | ->]; reflexivity.
      - intros t _. destruct (Z.eqb t 0); [assumption|]. rewrite Rabs_pos_eq by lra. lra. }
    assert (SN : Rabs b < sqrt N).
    { rewrite <- (sqrt_square (Rabs b)) by apply Rabs_pos. apply sqrt_lt_1_alt. unfold N. nra. }
    assert (SF : sqrt N <= Rfmax).
    { apply Rle_trans with (2 ^ 506); [|apply p505_fmax].
      replace (2 ^ 506) with (2 * 2 ^ 505) by (cbn [pow]; ring). set (p := 2 ^ 505) in *.
      rewrite <- (sqrt_square (2 * p)) by lra. apply sqrt_le_1_alt. unfold N. nra. }
    unfold dlarfg. cbn [Z.leb Z.compare Pos.compare Pos.compare_cont]. change (3 - 1)%Z with 2%Z.
    rewrite NR, er_f0, er_eqE, Req_bool_false by (pose proof (Rabs_pos b); lra).
    rewrite larfg_beta_exact; [|lra| |assumption].
    2:{ apply Rle_trans with (2 ^ 506); [|apply p505_fmax]. replace (2 ^ 506) with (2 * 2 ^ 505) by (cbn [pow]; ring). lra. }
    set (beta := betaR a N). pose proof (betaR_sq a N ltac:(lra)) as BQ. fold beta in BQ.
    pose proof (betaR_sign a N) as BS. fold beta in BS.
    assert (BA : Rabs b < Rabs beta).
    { unfold beta. rewrite betaR_abs. apply Rlt_le_trans with (1 := SN). apply sqrt_le_1_alt. nra. }
    rewrite er_safmin, er_absE, er_ltE, Rlt_bool_false by (unfold safmin; lra). cbn [bind].
    assert (B1 : beta <> 0) by (intros E; rewrite E, Rabs_R0 in BA; pose proof (Rabs_pos b); lra).
    assert (AB : a - beta <> 0) by (intros E; replace a with beta in * by lra; nra).
    rewrite !er_subE, er_f1, !er_divE, dscal_vec1 by assumption. cbn [bind]. rewrite er_f1, er_eqE.
    eexists _, _, _. split.
    - rewrite er_mulE. replace (if Req_bool (1 / (a - beta)) 1 then Fin b else Fin (b * (1 / (a - beta)))) with (Fin (b / (a - beta))); [reflexivity|].
      replace (b / (a - beta)) with (b * (1 / (a - beta))) by (field; assumption).
      case Req_bool_spec; intros E; [|reflexivity]. f_equal. rewrite E. ring.
    - assert (D : Rabs beta <= Rabs (a - beta)).
      { apply Rsqr_le_abs_0. unfold Rsqr. nra. }
      assert (0 < Rabs b) by lra.
      unfold Rdiv. rewrite Rabs_mult, Rabs_inv. split.
      + apply Rmult_lt_0_compat; [lra|]. apply Rinv_0_lt_compat. lra.
      + apply Rmult_lt_reg_r with (Rabs (a - beta)); [lra|]. rewrite Rmult_assoc, Rinv_l by lra. lra.
  Qed.

  Lemma restart_col (v : fa er) m t : (3 <= rows v)%Z -> (1 <= m)%Z -> (rows v * m <= count v)%Z ->
    let v' := set2 (set2 (set2 v 1 m (Fin t)) 2 m (Fin tiny)) 3 m (Fin tiny) in
    ent v' 1 m = Some (Fin t) /\ ent v' 2 m = Some (Fin tiny) /\ ent v' 3 m = Some (Fin tiny).
  Proof.
    intros R3 M1 C. cbv zeta.
    set (v1 := set2 v 1 m (Fin t)). set (v2 := set2 v1 2 m (Fin tiny)).
    assert (S1 : same_shape v1 v) by apply set2_shape. assert (S2 : same_shape v2 v1) by apply set2_shape.
    destruct S1 as (S1 & _ & S1c). destruct S2 as (S2 & _ & S2c).
    assert (L : forall i, (1 <= i <= 3)%Z -> (1 <= pos (rows v) i m <= count v)%Z) by (intros i Hi; unfold pos; nia).
    destruct (ent_Some v 1 m (L 1%Z ltac:(lia))) as [y1 Y1]. destruct (ent_Some v1 2 m) as [y2 Y2]; [rewrite S1, S1c; apply L; lia|].
    destruct (ent_Some v2 3 m) as [y3 Y3]; [rewrite S2, S1, S2c, S1c; apply L; lia|].
    repeat split.
    - unfold set2 at 1. rewrite mod2_ent by (rewrite ?S2, ?S1; lia). cbn [Z.eqb Pos.eqb andb]. unfold v2, set2 at 1.
      rewrite mod2_ent by (rewrite ?S1; lia). cbn [Z.eqb Pos.eqb andb]. unfold v1, set2 at 1. rewrite mod2_ent by lia.
      rewrite !Z.eqb_refl. cbn [andb]. rewrite Y1. reflexivity.
    - unfold set2 at 1. rewrite mod2_ent by (rewrite ?S2, ?S1; lia). cbn [Z.eqb Pos.eqb andb]. unfold v2, set2 at 1.
      rewrite mod2_ent by (rewrite ?S1; lia). rewrite !Z.eqb_refl. cbn [andb]. rewrite Y2. reflexivity.
    - unfold set2 at 1. rewrite mod2_ent by (rewrite ?S2, ?S1; lia). rewrite !Z.eqb_refl. cbn [andb]. rewrite Y3. reflexivity.
  Qed.
  Lemma not_house t : 0 < Rabs t < 1 -> 0 < Rabs (t * (1 + tiny * tiny + tiny * tiny)) < 2.
  Proof.
    intros X. pose proof tiny_range as [T0 T1]. rewrite Rabs_mult, (Rabs_pos_eq (1 + _ + _)) by nra. split; [|nra].
    apply Rmult_lt_0_compat; [lra|nra].
  Qed.

  (** an accepted restart is not orthogonal *)
  Lemma collapsed_not_orthogonal sr si ldh k m (beta : er) (h v vt h' v' vt' : fa er) hs w a b :
    q5_collapsed sr si ldh k m beta h v vt = Ok (h', v', vt') ->
    (1 <= k)%Z -> (k + 3 <= rows h)%Z -> (rows h * k <= count h)%Z ->
    (3 <= rows v)%Z -> (1 <= m)%Z -> (rows v * m <= count v)%Z ->
    from2 h (k + 1) (k + 1) = Ok hs ->
    dlaqr1 3 hs ldh (get1 sr (2 * m - 1)) (get1 si (2 * m - 1)) (get1 sr (2 * m)) (get1 si (2 * m)) vt = Ok w ->
    get1 w 1 = Fin a -> get1 w 2 = Fin b -> Rabs a <= 2 ^ 505 -> bpow radix2 (-969) <= Rabs b <= 2 ^ 505 ->
    v' = v \/ exists t e, ent v' 1 m = Some (Fin t) /\ ent v' 2 m = Some (Fin e) /\ ent v' 3 m = Some (Fin e) /\
      0 < Rabs (t * (1 + e * e + e * e)) < 2.
  Proof.
    intros E K1 K2 K3 R3 M1 C Hs W Wa Wb Ha Hb. destruct (collapsed_restart _ _ _ _ _ _ _ _ _ _ _ _ E K1 K2 K3) as (hs2 & w2 & alpha & x & tau & Hs2 & W2 & D & O).
    rewrite Hs in Hs2. injection Hs2 as <-. rewrite W in W2. injection W2 as <-. rewrite Wa, Wb in D.
    destruct (larfg_short a b Ha Hb) as (al & t & ta & D2 & X). rewrite D in D2. injection D2 as -> -> ->.
    destruct O as [[-> _] | [-> _]]; [left; reflexivity|right]. exists t, tiny. rewrite er_tiny.
    destruct (restart_col v m t R3 M1 C) as (E1 & E2 & E3). split; [exact E1|]. split; [exact E2|]. split; [exact E3|]. apply not_house, X.
  Qed.

  (** when the matrix splits there, the restart is always accepted *)
  Lemma collapsed_accepts sr si ldh k m (beta : er) (h v vt : fa er) d0 d1 d2 hs w a b :
    (3 <= rows v)%Z -> (1 <= m)%Z -> (rows v * m <= count v)%Z ->
    get2 h (k + 1) k = Fin 0 -> get2 h (k + 2) k = Fin 0 ->
    get2 h k k = Fin d0 -> get2 h (k + 1) (k + 1) = Fin d1 -> get2 h (k + 2) (k + 2) = Fin d2 ->
    from2 h (k + 1) (k + 1) = Ok hs ->
    dlaqr1 3 hs ldh (get1 sr (2 * m - 1)) (get1 si (2 * m - 1)) (get1 sr (2 * m)) (get1 si (2 * m)) vt = Ok w ->
    get1 w 1 = Fin a -> get1 w 2 = Fin b -> Rabs a <= 2 ^ 505 -> bpow radix2 (-969) <= Rabs b <= 2 ^ 505 ->
    exists h' v' vt' t e, q5_collapsed sr si ldh k m beta h v vt = Ok (h', v', vt') /\
      ent v' 1 m = Some (Fin t) /\ ent v' 2 m = Some (Fin e) /\ ent v' 3 m = Some (Fin e) /\
      0 < Rabs (t * (1 + e * e + e * e)) < 2.
  Proof.
    intros R3 M1 C H1 H2 D0 D1 D2 Hs W Wa Wb Ha Hb.
    destruct (larfg_short a b Ha Hb) as (al & t & ta & D & X).
    unfold q5_collapsed. rewrite Hs. cbn [bind]. rewrite W. cbn [bind]. rewrite Wa, Wb, D. cbn [bind]. rewrite insert_vec1. cbn [bind].
    rewrite get1_vec1, !get1_vec1_out, er_tiny, H1, H2, D0, D1, D2 by lia.
    assert (U : (q5_ulp : er) = Fin (bpow radix2 (-52))) by (change (q5_ulp : er) with (hq_ulp : er); apply er_ulp).
    rewrite U. repeat (rewrite er_mulE || rewrite er_addE || rewrite er_subE || rewrite er_absE).
    rewrite er_ltE. replace (Rabs (0 - (0 + tiny * 0) * (t * tiny)) + (0 + tiny * 0) * Rabs (t * tiny)) with 0
      by (replace (0 - (0 + tiny * 0) * (t * tiny)) with 0 by ring; rewrite Rabs_R0; ring).
    pose proof (bpow_gt_0 radix2 (-52)) as P. pose proof (Rabs_pos d0). pose proof (Rabs_pos d1). pose proof (Rabs_pos d2).
    rewrite Rlt_bool_false by (apply Rmult_le_pos; lra).
    destruct (restart_col v m t R3 M1 C) as (E1 & E2 & E3).
    eexists _, _, _, t, tiny. split; [reflexivity|]. split; [exact E1|]. split; [exact E2|]. split; [exact E3|]. apply not_house, X.
  Qed.

  (** a state in which all of this happens: subdiagonal 0, 2, 2, diagonal 5, 3, 7, 4, shifts 1 and 2 *)
  Definition split4 : fa er := fa_of_nested [[Fin 5; Fin 0; Fin 0; Fin 0]; [Fin 1; Fin 3; Fin 2; Fin 0]; [Fin 1; Fin 1; Fin 7; Fin 2]; [Fin 1; Fin 1; Fin 1; Fin 4]].
  Definition shifts12 : fa er := to_fa [Fin 1; Fin 2].
  Definition zero2 : fa er := to_fa [Fin 0; Fin 0].
  Definition zero3 : fa er := to_fa [Fin 0; Fin 0; Fin 0].
  Definition vcol : fa er := mkFA [Fin 0; Fin 0; Fin 0] 3 1 ENaN.
  Lemma split4_restarts : exists hs w a b,
    (1 + 3 <= rows split4)%Z /\ (rows split4 * 1 <= count split4)%Z /\ (3 <= rows vcol)%Z /\ (rows vcol * 1 <= count vcol)%Z /\
    get2 split4 2 1 = Fin 0 /\ get2 split4 3 1 = Fin 0 /\ get2 split4 1 1 = Fin 5 /\ get2 split4 2 2 = Fin 3 /\ get2 split4 3 3 = Fin 7 /\
    from2 split4 2 2 = Ok hs /\
    dlaqr1 3 hs 4 (get1 shifts12 1) (get1 zero2 1) (get1 shifts12 2) (get1 zero2 2) zero3 = Ok w /\
    get1 w 1 = Fin a /\ get1 w 2 = Fin b /\ Rabs a <= 2 ^ 505 /\ bpow radix2 (-969) <= Rabs b <= 2 ^ 505.
  Proof.
    set (hs := [Fin 3; Fin 2; Fin 0; Fin 1; Fin 1; Fin 7; Fin 2; Fin 1; Fin 1; Fin 1; Fin 4]).
    assert (W : exists w, dlaqr1 3 hs 4 (get1 shifts12 1) (get1 zero2 1) (get1 shifts12 2) (get1 zero2 2) zero3 = Ok w /\
      get1 w 1 = Fin (4 / 3) /\ get1 w 2 = Fin (14 / 3)).
    { change (get1 shifts12 1) with (Fin 1). change (get1 shifts12 2) with (Fin 2). change (get1 zero2 1) with (Fin 0). change (get1 zero2 2) with (Fin 0).
      unfold dlaqr1. set (hf := mkFA hs 4 2 fnan). change (to_fa_2d hs 4) with (Ok hf). cbn [bind Z.eqb Pos.eqb negb andb].
      unfold laqr1_3.
      change (get2 hf 1 1) with (Fin 3). change (get2 hf 2 1) with (Fin 2). change (get2 hf 3 1) with (Fin 0). change (get2 hf 1 2) with (Fin 1).
      change (get2 hf 1 3) with (Fin 1). change (get2 hf 2 2) with (Fin 7). change (get2 hf 2 3) with (Fin 1). change (get2 hf 3 2) with (Fin 2). change (get2 hf 3 3) with (Fin 4).
      repeat (rewrite er_mulE || rewrite er_addE || rewrite er_subE || rewrite er_absE).
      replace (Rabs (3 - 2) + Rabs 0 + Rabs 2 + Rabs 0) with 3 by (rewrite Rabs_R0, !Rabs_pos_eq by lra; lra).
      rewrite er_f0, er_eqE, Req_bool_false by lra. rewrite !er_divE by lra.
      repeat (rewrite er_mulE || rewrite er_addE || rewrite er_subE).
      assert (G : forall a b c : er, get1 (set1 (set1 (set1 zero3 1 a) 2 b) 3 c) 1 = a /\ get1 (set1 (set1 (set1 zero3 1 a) 2 b) 3 c) 2 = b) by (intros; split; reflexivity).
      eexists. split; [reflexivity|]. change (to_fa zero3) with zero3. split; [rewrite (proj1 (G _ _ _))|rewrite (proj2 (G _ _ _))]; f_equal; field. }
    destruct W as (w & W & W1 & W2). exists hs, w, (4 / 3), (14 / 3).
    do 4 (split; [cbn; lia|]). do 5 (split; [reflexivity|]). split; [reflexivity|]. split; [exact W|]. split; [exact W1|]. split; [exact W2|].
    assert (B : 8 <= 2 ^ 505) by (replace 8 with (2 ^ 3) by ring; apply Rle_pow; [lra|lia]).
    assert (B2 : bpow radix2 (-969) <= 1) by (change 1 with (bpow radix2 0); apply bpow_le; lia).
    rewrite !Rabs_pos_eq by lra. lra.
  Qed.
End Exact.
