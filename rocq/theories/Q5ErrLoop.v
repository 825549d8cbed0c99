(** The sweep of dlaqr5 in binary64, one bulge, not accumulating. *)
From Coq Require Import Reals Lra Ascii.
From Flocq Require Import IEEE754.BinarySingleNaN Core.
From Verif Require Import Base Num Array Blas Lapack Dlaqr5 Spec ER SpecR SpecErr SpecSim Lists B64 B64Lemmas B64Nn RsumLemmas RoundErr AppErr Near
  FaLemmas LahqrProofs Laqr1Proofs Laqr5Proofs RealMat SimArray SimSweep SimLoop LanvCalc LanvStd HqReal HqGet HqErrApp HqErrRefl HqErrReal HqErrStep HqErrSweep
  Q5Get Q5ErrReal Q5ErrRefl Q5ErrStep Q5ErrStart Q5ErrVig Q5ErrCol.
Open Scope R_scope.

Section Gen.
  Context {F : Type} {NF : Num F}.
  Lemma tail_fa (h : fa F) n ldh t m : full h -> rows h = ldh -> big n h -> (1 <= t)%Z -> (1 <= m)%Z -> (t + m - 1 <= n)%Z ->
    exists l hf, from2 h t t = Ok l /\ to_fa_2d l ldh = Ok hf /\ forall i j, (1 <= i <= m)%Z -> (1 <= j <= m)%Z -> get2 hf i j = get2 h (t - 1 + i) (t - 1 + j) /\ ent hf i j = Some (get2 hf i j).
  Proof.
    intros HF HR [B1 B2] Ht Hm Hn. rewrite HR in B1, B2.
    destruct (from1_ok h (pos (rows h) t t) HF) as (l & E & L).
    unfold full in HF. unfold pos in L. rewrite HF, HR in L. assert (PM : forall p q, (1 <= p <= n)%Z -> (1 <= q <= n)%Z -> (1 <= (q - 1) * ldh + p <= count h)%Z).
    { intros p q Hp Hq. assert ((q - 1) * ldh + ldh <= n * ldh)%Z by (replace ((q - 1) * ldh + ldh)%Z with (q * ldh)%Z by ring; apply Z.mul_le_mono_nonneg_r; lia).
      assert (0 <= (q - 1) * ldh)%Z by (apply Z.mul_nonneg_nonneg; lia). lia. }
    pose proof (PM t t ltac:(lia) ltac:(lia)) as P0. destruct L as [_ L]; [lia|lia|].
    exists l. cbn [to_fa_2d ToFA_vec]. unfold fa_as_2d. destruct (Z.eqb_spec ldh 0); [lia|]. eexists. split; [exact E|]. split; [reflexivity|].
    intros i j Hi Hj. unfold ent. rewrite !get2_get1, !get1_elem. rewrite !(elem_zget _ (pos _ i j)). cbn [data fa_of_vec rows]. unfold pos at 1 3 4. rewrite L.
    2: { assert (0 <= (j - 1) * ldh)%Z by (apply Z.mul_nonneg_nonneg; lia). lia. }
    unfold pos. rewrite HR. replace ((t - 1) * ldh + t + ((j - 1) * ldh + i - 1))%Z with ((t - 1 + j - 1) * ldh + (t - 1 + i))%Z by ring. split; [reflexivity|].
    destruct (proj2 (elem_Some h ((t - 1 + j - 1) * ldh + (t - 1 + i))) (PM (t - 1 + i) (t - 1 + j) ltac:(lia) ltac:(lia)))%Z as [x ->]. reflexivity.
  Qed.
  Lemma v_set1 (v : fa F) i x : set2 v i 1 x = set1 v i x.
  Proof. unfold set2, set1. rewrite mod2_mod1. unfold pos. replace ((1 - 1) * rows v + i)%Z with i by lia. reflexivity. Qed.
  Lemma set1_el (f : fa F) p x q : elem (set1 f p x) q = if (q =? p)%Z then option_map (fun _ => x) (elem f p) else elem f q.
  Proof. unfold set1. rewrite mod1_elem. reflexivity. Qed.
  Lemma v_stored3 (v v0 : fa F) x2 x3 : same_shape v v0 -> (3 <= count v0)%Z ->
    let w := set2 (set2 v 2 1 x2) 3 1 x3 in same_shape w v0 /\ elem w 2 = Some x2 /\ elem w 3 = Some x3.
  Proof.
    intros SV CV w. unfold w. split; [eapply same_shape_trans; [|exact SV]; eapply same_shape_trans; [apply set2_shape|apply set2_shape]|].
    destruct SV as (_ & _ & C). rewrite !v_set1, !set1_el. cbn [Z.eqb Pos.eqb].
    destruct (proj2 (elem_Some v 2) ltac:(lia)) as [? ->], (proj2 (elem_Some v 3) ltac:(lia)) as [? ->]. split; reflexivity.
  Qed.
  Lemma v_stored2 (v v0 : fa F) x2 : same_shape v v0 -> (3 <= count v0)%Z ->
    let w := set2 v 2 1 x2 in same_shape w v0 /\ elem w 2 = Some x2.
  Proof.
    intros SV CV w. unfold w. split; [eapply same_shape_trans; [|exact SV]; apply set2_shape|].
    destruct SV as (_ & _ & C). rewrite !v_set1, !set1_el. cbn [Z.eqb Pos.eqb].
    destruct (proj2 (elem_Some v 2) ltac:(lia)) as [? ->]. reflexivity.
  Qed.
  Lemma v_whole (v v0 : fa F) ldv : same_shape v v0 -> dim2 ldv v0 -> (3 <= count v0)%Z -> exists l, from2 v 1 1 = Ok l /\ zlen l = count v0.
  Proof.
    intros SV DV CV. pose proof (dim2_shape _ _ _ SV DV) as D. destruct (from1_ok v (pos (rows v) 1 1) (dim2_full _ _ D)) as (l & E & L).
    exists l. split; [exact E|]. assert (FV := dim2_full _ _ D). unfold full in FV. rewrite FV in L. destruct SV as (_ & _ & C). rewrite C in L. unfold pos in L.
    destruct L as [L _]; [lia|lia|]. lia.
  Qed.
End Gen.
Lemma simf_extQ lo hi A x G Q Q' : simf lo hi A x G Q -> (forall i j, (lo <= i <= hi)%Z -> (lo <= j <= hi)%Z -> Q i j = Q' i j) -> simf lo hi A x G Q'.
Proof.
  intros (S1 & E & S2 & S3) H. split; [exact (orth_ext _ _ _ _ H S1)|]. exists E. split; [|exact S3]. intros i j Hi Hj. rewrite S2 by assumption. apply conj_ext_Q; assumption.
Qed.

Section Loop5.
  Context (lm : libm) (LM : libm_ok lm).
  #[local] Instance NB5l : Num b64 := B64 lm.
  Context (wantt wantz : bool) (n ktop kbot : Z) (sr si : fa b64) (ldh iloz ihiz ldz ldv ldu nv ldwv nh ldwh : Z).
  Context (h0 v0 : fa b64) (sr1 si1 sr2 si2 : b64) (N rr y : R).
  Definition lo5 : Z := if wantt then 1 else ktop.
  Definition hi5 : Z := if wantt then n else kbot.
  Notation lo := lo5.
  Notation hi := hi5.
  Notation inr i := (lo <= i <= hi)%Z.
  Notation d4 := (delta (4 * N)).
  Notation M h := (fun a b : Z => B2R (get2 h a b)).
  Notation H0 := (fun a b : Z => B2R (get2 h0 a b)).
  Notation Xm := (IZR (kbot - ktop)).
  Notation bd4 := (bnd (4 * N)).

  Hypothesis (Hk : (1 <= ktop < kbot)%Z) (Hn : (kbot <= n)%Z) (Hn31 : (n <= 2 ^ 31)%Z).
  Hypothesis (FH : full h0) (RH : rows h0 = ldh) (BIGH : big n h0) (DV : dim2 ldv v0) (CV : (3 <= count v0)%Z).
  Hypothesis (FIN : forall a b, inr a -> inr b -> is_finite (get2 h0 a b) = true).
  Hypothesis (HESS : hessenberg lo hi H0).
  Hypothesis (ISO1 : (lo < ktop)%Z -> B2R (get2 h0 ktop (ktop - 1)) = 0) (ISO2 : (kbot < hi)%Z -> B2R (get2 h0 (kbot + 1) kbot) = 0).
  Hypothesis (HN8 : mid (8 * N)) (HNl : bpow radix2 (-890) <= N) (FRB : frob2 lo hi H0 <= N * N).
  Hypothesis (Hrr : 0 < rr <= 1) (SUB : forall j, (ktop <= j < kbot)%Z -> 20 * N * rr <= Rabs (B2R (get2 h0 (j + 1) j))).
  Hypothesis (RL1 : bpow radix2 (-900) <= rr ^ Z.to_nat (kbot - ktop)) (RL2 : bpow radix2 (-900) <= N * rr ^ Z.to_nat (kbot - ktop)).
  Hypothesis (Hy : 0 < y) (HY : 3 * (IZR (hi - lo + 1) * ((2 * d4) * (2 * d4))) <= y * y) (HX : Xm * (2 * y) <= N).
  Hypothesis (ES1 : get1 sr 1 = sr1) (ES2 : get1 si 1 = si1) (ES3 : get1 sr 2 = sr2) (ES4 : get1 si 2 = si2).
  Hypothesis (S1 : bnd N sr1) (S2 : bnd N si1) (S3 : bnd N sr2) (S4 : bnd N si2).

  Lemma lo5_ok : (1 <= lo <= ktop)%Z.
  Proof. unfold lo5. destruct wantt; lia. Qed.
  Lemma hi5_ok : (kbot <= hi <= n)%Z.
  Proof. unfold hi5. destruct wantt; lia. Qed.
  Lemma N5_pos : 0 < N.
  Proof. pose proof (bpow_gt_0 radix2 (-890)). lra. Qed.
  Lemma HN4 : mid (4 * N).
  Proof.
    pose proof N5_pos. destruct HN8 as [_ U]. split; [|lra]. apply Rle_trans with (bpow radix2 (-890)); [apply bpow_le; lia|lra].
  Qed.
  Lemma N_1000 : N <= bpow radix2 1000.
  Proof. pose proof N5_pos. destruct HN8 as [_ U]. apply Rle_trans with (8 * N); [lra|]. eapply Rle_trans; [exact U|]. apply bpow_le. lia. Qed.
  Lemma big_of h : same_shape h h0 -> big n h.
  Proof. intros (E1 & _ & E2). destruct BIGH as [B1 B2]. split; [rewrite E1|rewrite E1, E2]; assumption. Qed.
  Lemma H0_bnd a b : inr a -> inr b -> bnd N (get2 h0 a b).
  Proof. intros Ha Hb. split; [apply FIN; assumption|]. pose proof N5_pos. exact (frob_bound lo hi H0 N a b Ha Hb ltac:(lra) FRB). Qed.
  Lemma pow_low m : (m <= Z.to_nat (kbot - ktop))%nat -> 0 < rr ^ m /\ bpow radix2 (-900) <= rr ^ m /\ bpow radix2 (-900) <= N * rr ^ m.
  Proof.
    intros Hm. pose proof N5_pos. assert (P : 0 < rr ^ m) by (apply pow_lt; lra).
    assert (L : rr ^ Z.to_nat (kbot - ktop) <= rr ^ m).
    { replace (Z.to_nat (kbot - ktop)) with (m + (Z.to_nat (kbot - ktop) - m))%nat by lia. rewrite pow_add.
      assert (X : rr ^ (Z.to_nat (kbot - ktop) - m) <= 1) by (rewrite <- (pow1 (Z.to_nat (kbot - ktop) - m)); apply pow_incr; lra).
      rewrite <- (Rmult_1_r (rr ^ m)) at 2. apply Rmult_le_compat_l; lra. }
    split; [exact P|]. split; [lra|]. eapply Rle_trans; [exact RL2|]. apply Rmult_le_compat_l; lra.
  Qed.

  (** the array as it stands once the row below the bulge is brought up to date *)
  Definition upd (k : Z) (tau v2 v3 : b64) (h : fa b64) : fa b64 := if ((ktop <=? k) && (k + 3 <=? kbot))%Z then catch_up k tau v2 v3 h else h.
  Lemma upd_T k tau v2 v3 h : (ktop <= k)%Z -> (k + 3 <= kbot)%Z -> upd k tau v2 v3 h = catch_up k tau v2 v3 h.
  Proof. intros. unfold upd. destruct (Z.leb_spec ktop k), (Z.leb_spec (k + 3) kbot); try lia. reflexivity. Qed.
  Lemma upd_F k tau v2 v3 h : (k < ktop \/ kbot < k + 3)%Z -> upd k tau v2 v3 h = h.
  Proof. intros. unfold upd. destruct (Z.leb_spec ktop k), (Z.leb_spec (k + 3) kbot); try lia; reflexivity. Qed.
  Lemma upd_shape k tau v2 v3 h : same_shape (upd k tau v2 v3 h) h.
  Proof. unfold upd. destruct (_ && _)%bool; [apply catch_up_shape|apply same_shape_refl]. Qed.
  Lemma upd_out k tau v2 v3 h a b : same_shape h h0 -> (1 <= a <= n)%Z -> ~ (a = k + 3 /\ ktop <= k /\ k + 3 <= kbot /\ k <= b <= k + 2)%Z -> get2 (upd k tau v2 v3 h) a b = get2 h a b.
  Proof.
    intros SH Ha H. destruct (Z_lt_le_dec k ktop); [rewrite upd_F by lia; reflexivity|]. destruct (Z_lt_le_dec kbot (k + 3)); [rewrite upd_F by lia; reflexivity|].
    rewrite upd_T by lia. pose proof (catch_up_get n k tau v2 v3 h a b (big_of h SH) ltac:(lia) ltac:(lia) Ha) as E. cbv zeta in E. rewrite E.
    destruct (Z.eqb_spec a (k + 3)); [|reflexivity]. cbn [andb]. destruct (Z.eqb_spec b k); [lia|]. destruct (Z.eqb_spec b (k + 1)); [lia|]. destruct (Z.eqb_spec b (k + 2)); [lia|]. reflexivity.
  Qed.

  (** the first column of Q is nearly parallel to that of (H - s1)(H - s2) *)
  Definition fcol (Q : Z -> Z -> R) : Prop := exists c, forall i, (1 <= i <= kbot - ktop + 1)%Z ->
    Rabs (fst (shift_column (kbot - ktop + 1) (fun a b => H0 (ktop - 1 + a)%Z (ktop - 1 + b)%Z) (B2R sr1, B2R si1) (B2R sr2, B2R si2) i) - c * Q (ktop - 1 + i)%Z ktop)
      <= bpow radix2 (-36) * (N * N).
  Lemma fcol_ext Q Q' : (forall i, (ktop <= i <= kbot)%Z -> Q i ktop = Q' i ktop) -> fcol Q -> fcol Q'.
  Proof. intros E (c & H). exists c. intros i Hi. rewrite <- E by lia. apply H. exact Hi. Qed.

  Record sval5 (k : Z) (st : q5st) (G Q : Z -> Z -> R) (tau v2 v3 : b64) : Prop := {
    s_h : same_shape (qH st) h0;
    s_v : same_shape (qV st) v0;
    s_ref : (ktop <= k)%Z -> (k + 3 <= kbot)%Z -> elem (qV st) 1 = Some tau /\ elem (qV st) 2 = Some v2 /\ elem (qV st) 3 = Some v3 /\
      bnd 2 v3 /\ bnd 3 tau /\ 0.999 <= B2R tau /\ rr ^ Z.to_nat (k - ktop + 2) <= Rabs (B2R v3);
    s_in : forall a b, inr a -> inr b -> is_finite (get2 (upd k tau v2 v3 (qH st)) a b) = true /\ B2R (get2 (upd k tau v2 v3 (qH st)) a b) = G a b;
    s_out : forall a b, (1 <= a <= n)%Z -> (1 <= b <= n)%Z -> ~ (inr a /\ inr b) -> get2 (qH st) a b = get2 h0 a b;
    s_todo : forall j, (k + 2 <= j < kbot)%Z -> get2 (qH st) (j + 1) j = get2 h0 (j + 1) j;
    s_first : (k < ktop)%Z -> forall a b, inr a -> inr b -> G a b = H0 a b;
    s_Q0 : (k < ktop)%Z -> forall i j, Q i j = Rid i j;
    s_col : (ktop <= k)%Z -> fcol Q;
    s_id : identity_outside ktop kbot Q;
    s_chase : HqReal.chase lo hi ktop kbot (k + 1) G;
    s_sim : simf lo hi H0 (IZR (k - ktop + 1) * (2 * y)) G Q
  }.

  Definition chased (k : Z) (h1 v' : fa b64) (hc : fa b64) (G : Z -> Z -> R) (tau v2 v3 : b64) (w2 w3 t : R) : Prop :=
    same_shape h1 h0 /\ same_shape v' v0 /\ elem v' 1 = Some tau /\ elem v' 2 = Some v2 /\ rapp v2 v3 tau w2 w3 t /\
    (forall a b, (1 <= a <= n)%Z -> (1 <= b <= n)%Z -> ~ (ktop <= k /\ b = k /\ k + 1 <= a <= Z.min kbot (k + 3))%Z -> get2 h1 a b = get2 hc a b) /\
    (forall a, (ktop <= k)%Z -> (k + 1 <= a <= Z.min kbot (k + 3))%Z -> near_r (get2 h1 a k) (rleft (k + 1) w2 w3 t G a k) d4 /\ ((k + 1 < a)%Z -> B2R (get2 h1 a k) = 0)) /\
    ((k < ktop)%Z -> fcol (rright ktop w2 w3 t Rid)).

  Section St.
    Context (k : Z) (st : q5st) (G Q : Z -> Z -> R) (tau v2 v3 : b64) (S : sval5 k st G Q tau v2 v3) (Kr : (ktop - 1 <= k <= kbot - 2)%Z).
    Notation hc := (upd k tau v2 v3 (qH st)).
    Lemma x_ok : 0 <= IZR (k - ktop + 1) <= Xm.
    Proof. split; apply IZR_le; lia. Qed.
    Lemma G_bd a b : inr a -> inr b -> Rabs (G a b) <= 2 * N.
    Proof. apply (G_bound lo hi H0 N y Xm HN4 FRB Hy HX _ G Q x_ok (s_sim _ _ _ _ _ _ _ S)). Qed.
    Lemma hc_bd a b : inr a -> inr b -> bd4 (get2 hc a b).
    Proof. intros Ha Hb. destruct (s_in _ _ _ _ _ _ _ S a b Ha Hb) as [F E]. split; [exact F|]. rewrite E. pose proof (G_bd a b Ha Hb). pose proof N5_pos. lra. Qed.
    Lemma hc_shape : same_shape hc h0.
    Proof. eapply same_shape_trans; [apply upd_shape|apply (s_h _ _ _ _ _ _ _ S)]. Qed.

    Lemma rapp_bds (y2 y3 ta : b64) w2 w3 t : rapp y2 y3 ta w2 w3 t -> bnd 2 y3 /\ bnd 3 ta.
    Proof.
      intros HR. pose proof u_tiny as [U0 U1]. split; (split; [apply HR|]).
      - eapply Rle_trans; [apply (ab_mag _ _ _ _ (ra_3 _ _ _ _ _ _ HR))|lra].
      - eapply Rle_trans; [apply (ab_mag _ _ _ _ (ra_1 _ _ _ _ _ _ HR))|lra].
    Qed.

    Lemma chase_mid5 : (ktop <= k <= kbot - 3)%Z -> exists h1 v' tau' v2' v3' w2 w3 t,
      q5_chase ktop sr si ldh ldv k 1 (qH st) (qV st) (qVt st) = Ok (h1, v', qVt st) /\ chased k h1 v' hc G tau' v2' v3' w2 w3 t /\
      elem v' 3 = Some v3' /\ 0.999 <= B2R tau' /\ rr ^ Z.to_nat (k - ktop + 3) <= Rabs (B2R v3').
    Proof.
      intros K. pose proof lo5_ok as L1. pose proof hi5_ok as L2. unfold q5_chase. destruct (Z.eqb_spec k (ktop - 1)); [lia|].
      destruct (s_ref _ _ _ _ _ _ _ S ltac:(lia) ltac:(lia)) as (V1 & V2 & V3 & BV & BT & LT & LV).
      rewrite !(vcol1 (qV st) _ _ V1), !(vcol1 (qV st) _ _ V2), !(vcol1 (qV st) _ _ V3).
      pose proof hc_shape as SHc. pose proof hc_bd as HB. pose proof (s_in _ _ _ _ _ _ _ S) as SI.
      rewrite upd_T in * by lia.
      pose proof (catch_up_get n k tau v2 v3 (qH st) (k + 3) k (big_of _ (s_h _ _ _ _ _ _ _ S)) ltac:(lia) ltac:(lia) ltac:(lia)) as EC. cbv zeta in EC. rewrite !Z.eqb_refl in EC. cbn [andb] in EC.
      change (mod2 (set2 (set2 (qH st) (k + 3) k (fmul (fneg (fmul v3 (get2 (qH st) (k + 3) (k + 2)))) tau)) (k + 3) (k + 1) (fmul (fneg (fmul v3 (get2 (qH st) (k + 3) (k + 2)))) (fmul tau v2)))
        (k + 3) (k + 2) (fun x : b64 => fsub x (fmul (fmul v3 (get2 (qH st) (k + 3) (k + 2))) (fmul tau v3)))) with (catch_up k tau v2 v3 (qH st)).
      set (hu := catch_up k tau v2 v3 (qH st)) in *.
      destruct (v_stored3 (qV st) v0 (get2 hu (k + 2) k) (get2 hu (k + 3) k) (s_v _ _ _ _ _ _ _ S) CV) as (SW & W2 & W3).
      set (w := set2 (set2 (qV st) 2 1 _) 3 1 _) in *. clearbody w.
      assert (CW : (3 <= count w)%Z) by (destruct SW as (_ & _ & ->); exact CV).
      destruct (vreflect_3 lm LM (4 * N) HN4 ldv w (get2 hu (k + 1) k) (get2 hu (k + 2) k) (get2 hu (k + 3) k) (dim2_shape _ _ _ SW DV) CW W2 W3)
        as (v' & b & tau' & y2 & y3 & w2 & w3 & t & EV & S' & E1 & E2 & E3 & LR & LOW); try (apply HB; lia).
      change (Q5ErrRefl.NB5v lm) with NB5l in *. rewrite EV. cbn [bind].
      pose proof N5_pos as NP. destruct (pow_low (Z.to_nat (k - ktop + 3)) ltac:(lia)) as (P0 & P1 & P2).
      assert (EP : rr ^ Z.to_nat (k - ktop + 3) = rr ^ Z.to_nat (k - ktop + 2) * rr) by (replace (Z.to_nat (k - ktop + 3)) with (Z.to_nat (k - ktop + 2) + 1)%nat by lia; rewrite pow_add; ring).
      assert (CL : 19.9 * (N * rr ^ Z.to_nat (k - ktop + 3)) <= Rabs (B2R (get2 hu (k + 3) k))).
      { rewrite EC, EP. apply (corner_low lm N HN4); try assumption; try lra.
        - replace (k + 3)%Z with (k + 2 + 1)%Z by lia. rewrite (s_todo _ _ _ _ _ _ _ S) by lia. eapply b_weak; [apply H0_bnd; lia|lra].
        - replace (k + 3)%Z with (k + 2 + 1)%Z by lia. rewrite (s_todo _ _ _ _ _ _ _ S) by lia. apply SUB. lia.
        - apply pow_le. lra.
        - rewrite <- EP. exact P2. }
      assert (B9 : bpow radix2 (-1000) <= bpow radix2 (-900)) by (apply bpow_le; lia). pose proof (bpow_gt_0 radix2 (-900)) as B90.
      rewrite (ne0 lm (get2 hu (k + 3) k)) by (first [apply HB; lia|lra]). cbn [orb].
      destruct LOW as [LT' LV']; [lra|].
      eexists. exists v', tau', y2, y3, w2, w3, t. split; [reflexivity|].
      assert (BG : big n hu) by (apply big_of; exact SHc).
      assert (GT : forall a c, (1 <= a <= n)%Z -> get2 (set2 (set2 (set2 hu (k + 1) k b) (k + 2) k f0) (k + 3) k f0) a c =
        if ((a =? k + 3) && (c =? k))%Z then f0 else if ((a =? k + 2) && (c =? k))%Z then f0 else if ((a =? k + 1) && (c =? k))%Z then b else get2 hu a c).
      { intros a c Ha. rewrite !(set2_get n) by (repeat apply set2_big; first [assumption|lia]). reflexivity. }
      set (h1 := set2 (set2 (set2 hu (k + 1) k b) (k + 2) k f0) (k + 3) k f0) in *.
      assert (SH1 : same_shape h1 h0) by (unfold h1; eapply same_shape_trans; [|exact SHc]; repeat (eapply same_shape_trans; [apply set2_shape|]); apply same_shape_refl).
      clearbody h1.
      assert (GE : forall a, (k + 1 <= a <= k + 3)%Z -> B2R (get2 hu a k) = G a k) by (intros a Ha; apply SI; lia).
      rewrite !GE in LR by lia.
      split; [split; [exact SH1|]; split; [eapply same_shape_trans; eassumption|]; split; [exact E1|]; split; [exact E2|]; split; [apply LR|]; split; [|split; [|lia]]|].
      - intros a c Ha Hc NX. rewrite GT by lia. destruct (Z.eqb_spec c k); [|rewrite !andb_false_r; reflexivity].
        destruct (Z.eqb_spec a (k + 3)); [lia|]. destruct (Z.eqb_spec a (k + 2)); [lia|]. destruct (Z.eqb_spec a (k + 1)); [lia|]. reflexivity.
      - intros a _ Ha. rewrite GT by lia. rewrite Z.eqb_refl, !andb_true_r. unfold rleft.
        replace (k + 1 + 1)%Z with (k + 2)%Z by lia. replace (k + 1 + 2)%Z with (k + 3)%Z by lia.
        assert (Z0 : zf (f0 : b64)) by (split; reflexivity).
        destruct (Z.eqb_spec a (k + 3)) as [->|]; [|destruct (Z.eqb_spec a (k + 2)) as [->|]; [|destruct (Z.eqb_spec a (k + 1)) as [->|]; [|lia]]].
        + split; [|intros _; apply Z0]. apply near_zero; [exact Z0|]. replace (wvec (k + 1) w2 w3 (k + 3)) with w3 by (replace (k + 3)%Z with (k + 1 + 2)%Z by lia; symmetry; apply wvec_2). apply (lr_3 _ _ _ _ _ _ _ _ _ _ _ LR).
        + split; [|intros _; apply Z0]. apply near_zero; [exact Z0|]. replace (wvec (k + 1) w2 w3 (k + 2)) with w2 by (replace (k + 2)%Z with (k + 1 + 1)%Z by lia; symmetry; apply wvec_1). apply (lr_2 _ _ _ _ _ _ _ _ _ _ _ LR).
        + split; [|lia]. rewrite wvec_0, Rmult_1_r. apply (lr_b _ _ _ _ _ _ _ _ _ _ _ LR).
      - split; [exact E3|]. split; [exact LT'|]. eapply Rle_trans; [|exact LV'].
        assert (XQ : 19.9 / 16 * rr ^ Z.to_nat (k - ktop + 3) <= Rabs (B2R (get2 hu (k + 3) k)) / (4 * (4 * N))).
        { apply (Rmult_le_reg_r (4 * (4 * N))); [lra|]. replace (Rabs (B2R (get2 hu (k + 3) k)) / (4 * (4 * N)) * (4 * (4 * N))) with (Rabs (B2R (get2 hu (k + 3) k))) by (field; lra). lra. }
        assert (EE : eta64 <= 0.1 * bpow radix2 (-900)).
        { apply Rle_trans with (bpow radix2 (-4) * bpow radix2 (-900)); [rewrite <- bpow_plus; unfold eta64; apply bpow_le; lia|]. apply Rmult_le_compat_r; [lra|]. change (bpow radix2 (-4)) with (/ 16). lra. }
        lra.
    Qed.

    Lemma first_in a b : (k < ktop)%Z -> inr a -> inr b -> bnd N (get2 (qH st) a b) /\ B2R (get2 (qH st) a b) = B2R (get2 h0 a b).
    Proof.
      intros K Ha Hb. destruct (s_in _ _ _ _ _ _ _ S a b Ha Hb) as [F E]. rewrite upd_F in F, E by lia. rewrite (s_first _ _ _ _ _ _ _ S K a b Ha Hb) in E. split; [|exact E].
      split; [exact F|]. rewrite E. apply H0_bnd; assumption.
    Qed.
    Lemma chased_first h1 v' tau' y2 y3 w2 w3 t : (k < ktop)%Z -> h1 = qH st -> same_shape v' v0 -> elem v' 1 = Some tau' -> elem v' 2 = Some y2 -> rapp y2 y3 tau' w2 w3 t -> fcol (rright ktop w2 w3 t Rid) ->
      chased k h1 v' hc G tau' y2 y3 w2 w3 t.
    Proof.
      intros K -> SV E1 E2 HR FC. rewrite upd_F by lia. split; [apply (s_h _ _ _ _ _ _ _ S)|]. split; [exact SV|]. split; [exact E1|]. split; [exact E2|]. split; [exact HR|]. split; [reflexivity|]. split; [lia|intros _; exact FC].
    Qed.

    Lemma chase_first5 : k = (ktop - 1)%Z -> (k <= kbot - 3)%Z -> exists h1 v' tau' v2' v3' w2 w3 t,
      q5_chase ktop sr si ldh ldv k 1 (qH st) (qV st) (qVt st) = Ok (h1, v', qVt st) /\ chased k h1 v' hc G tau' v2' v3' w2 w3 t /\ elem v' 3 = Some v3' /\ 0.999 <= B2R tau' /\ rr ^ Z.to_nat (k - ktop + 3) <= Rabs (B2R v3').
    Proof.
      intros EK K. pose proof lo5_ok as L1. pose proof hi5_ok as L2. unfold q5_chase. destruct (Z.eqb_spec k (ktop - 1)); [|lia].
      destruct (tail_fa (qH st) n ldh ktop 3) as (l & hf & -> & EL & HF0); [apply (full_shape _ _ (s_h _ _ _ _ _ _ _ S) FH)|rewrite (proj1 (s_h _ _ _ _ _ _ _ S)); exact RH|apply big_of, (s_h _ _ _ _ _ _ _ S)|lia|lia|lia|].
      destruct (v_whole (qV st) v0 ldv (s_v _ _ _ _ _ _ _ S) DV CV) as (lv & -> & LV). cbn [bind]. cbn [Z.mul Pos.mul Z.sub Z.add Z.opp Z.pos_sub Pos.pred_double].
      rewrite ES1, ES2, ES3, ES4. unfold dlaqr1. rewrite EL. cbn [bind Z.eqb Pos.eqb negb andb].
      set (r := laqr1_3 hf sr1 si1 sr2 si2 (to_fa lv)).
      assert (HF : forall i j, (1 <= i <= 3)%Z -> (1 <= j <= 3)%Z -> get2 hf i j = get2 (qH st) (ktop - 1 + i) (ktop - 1 + j)) by (intros i j Hi Hj; apply HF0; assumption).
      assert (ED : dlaqr1 3 l ldh sr1 si1 sr2 si2 lv = Ok (vec_of_fa r)) by (unfold dlaqr1; rewrite EL; reflexivity).
      assert (CL : (3 <= count (to_fa lv))%Z) by (change (3 <= zlen lv)%Z; lia).
      pose proof N5_pos as NP. destruct (pow_low 2 ltac:(lia)) as (P0 & P1 & P2). destruct (pow_low 1 ltac:(lia)) as (_ & P3 & _). rewrite pow_1 in P3.
      assert (FI := fun a b => first_in a b ltac:(lia)).
      destruct (start5_3 lm N HN4 hf (to_fa lv) sr1 si1 sr2 si2 S1 S2 S3 S4 rr CL) as (p1 & p2 & p3 & Sr & W1 & W2 & W3 & B1 & B2 & B3 & LOW3).
      { intros i j Hi Hj. rewrite HF by lia. apply FI; lia. }
      { rewrite HF by lia. rewrite (proj2 (FI (ktop - 1 + 3) (ktop - 1 + 1) ltac:(lia) ltac:(lia)))%Z. apply (HESS (ktop - 1 + 3)%Z (ktop - 1 + 1)%Z); lia. }
      { rewrite HF by lia. rewrite (proj2 (FI (ktop - 1 + 2) (ktop - 1 + 1) ltac:(lia) ltac:(lia)))%Z. replace (ktop - 1 + 2)%Z with (ktop + 1)%Z by lia. replace (ktop - 1 + 1)%Z with ktop by lia. apply SUB. lia. }
      { rewrite HF by lia. rewrite (proj2 (FI (ktop - 1 + 3) (ktop - 1 + 2) ltac:(lia) ltac:(lia)))%Z. replace (ktop - 1 + 3)%Z with (ktop + 1 + 1)%Z by lia. replace (ktop - 1 + 2)%Z with (ktop + 1)%Z by lia. apply SUB. lia. }
      { exact P3. }
      { replace (rr * rr) with (rr ^ 2) by ring. exact P2. }
      change (NB5b lm) with NB5l in *. fold r in Sr, W1, W2, W3. cbn [from_fa FromFA_vec bind to_fa_2d ToFA_vec].
      destruct (as_2d_shape ldv v0 (fa_of_vec (vec_of_fa r)) DV) as (v1 & -> & Sv1 & D1).
      { change (zlen (data r) = count v0). rewrite <- count_zlen, (proj2 (proj2 Sr)). exact LV. }
      cbn [bind].
      assert (EV : forall p, elem v1 p = elem r p) by (intros p; rewrite !elem_zget, D1; reflexivity).
      rewrite (vcol1 v1 1 p1) by (rewrite EV; exact W1).
      assert (C1 : (3 <= count v1)%Z) by (destruct Sv1 as (_ & _ & ->); exact CV).
      destruct (vreflect_3 lm LM (8 * N) HN8 ldv v1 p1 p2 p3 (dim2_shape _ _ _ Sv1 DV) C1) as (v' & b & tau' & y2 & y3 & w2 & w3 & t & E & S' & E1 & E2 & E3 & LR & LOW); try (rewrite EV; assumption); try assumption.
      change (Q5ErrRefl.NB5v lm) with NB5l in *. rewrite E. cbn [bind fst].
      replace (rr * rr) with (rr ^ 2) in LOW3 by ring.
      assert (FC : fcol (rright ktop w2 w3 t Rid)).
      { destruct (shift_near lm N NP HNl N_1000 3 l lv ldh hf r (fun i => if (i =? 1)%Z then p1 else if (i =? 2)%Z then p2 else p3) (fun a b => H0 (ktop - 1 + a)%Z (ktop - 1 + b)%Z) sr1 si1 sr2 si2)
          as (sigma & SG & SE); try assumption; [right; reflexivity| | | |].
        - intros i j Hi Hj. split; [apply HF0; assumption|]. rewrite HF by assumption. apply FI; lia.
        - cbv beta. replace (ktop - 1 + 2)%Z with (ktop + 1)%Z by lia. replace (ktop - 1 + 1)%Z with ktop by lia. pose proof (SUB ktop ltac:(lia)) as X. assert (0 < N * rr) by (apply Rmult_lt_0_compat; lra). lra.
        - intros i Hi. assert (i = 1 \/ i = 2 \/ i = 3)%Z as [-> | [-> | ->]] by lia; assumption.
        - refine (col_near N NP 3 (kbot - ktop + 1) _ _ _ ktop sigma (fun i => B2R (if (i =? 1)%Z then p1 else if (i =? 2)%Z then p2 else p3)) b y2 y3 tau' w2 w3 t _ _ _ SG SE LR); [lia|left; reflexivity|].
          intros a c Ha Hc L. apply (HESS (ktop - 1 + a)%Z (ktop - 1 + c)%Z); lia. }
      assert (B9 : bpow radix2 (-1000) <= bpow radix2 (-900)) by (apply bpow_le; lia). pose proof (bpow_gt_0 radix2 (-900)) as B90.
      destruct LOW as [LT' LV']; [lra|].
      exists (qH st), v', tau', y2, y3, w2, w3, t. split; [reflexivity|]. split; [apply chased_first; try assumption; try reflexivity; [lia|eapply same_shape_trans; eassumption|apply LR]|].
      split; [exact E3|]. split; [exact LT'|]. replace (Z.to_nat (k - ktop + 3)) with 2%nat by lia. eapply Rle_trans; [|exact LV'].
      assert (XQ : 2 * rr ^ 2 <= Rabs (B2R p3) / (4 * (8 * N))).
      { apply (Rmult_le_reg_r (4 * (8 * N))); [lra|]. replace (Rabs (B2R p3) / (4 * (8 * N)) * (4 * (8 * N))) with (Rabs (B2R p3)) by (field; lra). lra. }
      assert (EE : eta64 <= 0.1 * bpow radix2 (-900)).
      { apply Rle_trans with (bpow radix2 (-4) * bpow radix2 (-900)); [rewrite <- bpow_plus; unfold eta64; apply bpow_le; lia|]. apply Rmult_le_compat_r; [lra|]. change (bpow radix2 (-4)) with (/ 16). lra. }
      lra.
    Qed.
    Lemma chase_any5 : (k <= kbot - 3)%Z -> exists h1 v' tau' v2' v3' w2 w3 t,
      q5_chase ktop sr si ldh ldv k 1 (qH st) (qV st) (qVt st) = Ok (h1, v', qVt st) /\ chased k h1 v' hc G tau' v2' v3' w2 w3 t /\ elem v' 3 = Some v3' /\ 0.999 <= B2R tau' /\ rr ^ Z.to_nat (k - ktop + 3) <= Rabs (B2R v3').
    Proof. intros K. destruct (Z.eq_dec k (ktop - 1)); [apply chase_first5; assumption|apply chase_mid5; lia]. Qed.

    (** the reflector of the last step *)
    Notation chase2 := (if (k =? ktop - 1)%Z then
              h_tmp <- from2 (qH st) (k + 1) (k + 1) ;;
              v_tmp <- from2 (qV st) 1 1 ;;
              v_tmp <- dlaqr1 2 h_tmp ldh (get1 sr 1) (get1 si 1) (get1 sr 2) (get1 si 2) v_tmp ;;
              v <- to_fa_2d v_tmp ldv ;;
              r <- v_reflect 2 (get2 v 1 1) 1 ldv v ;;
              Ok (qH st, fst r)
            else
              let v := set2 (qV st) 2 1 (get2 (qH st) (k + 2) k) in
              r <- v_reflect 2 (get2 (qH st) (k + 1) k) 1 ldv v ;;
              let '(v, beta) := r in
              let h := set2 (qH st) (k + 1) k beta in
              let h := set2 h (k + 2) k f0 in
              Ok (h, v)).
    Lemma chase_two5 : k = (kbot - 2)%Z -> exists h1 v' tau' v2' w2 t, chase2 = Ok (h1, v') /\ chased k h1 v' hc G tau' v2' (B754_zero false) w2 0 t.
    Proof.
      intros K. pose proof lo5_ok as L1. pose proof hi5_ok as L2. pose proof N5_pos as NP. destruct (Z.eqb_spec k (ktop - 1)) as [EF|NF].
      - destruct (tail_fa (qH st) n ldh (k + 1) 2) as (l & hf & -> & EL & HF0); [apply (full_shape _ _ (s_h _ _ _ _ _ _ _ S) FH)|rewrite (proj1 (s_h _ _ _ _ _ _ _ S)); exact RH|apply big_of, (s_h _ _ _ _ _ _ _ S)|lia|lia|lia|].
        destruct (v_whole (qV st) v0 ldv (s_v _ _ _ _ _ _ _ S) DV CV) as (lv & -> & LV). cbn [bind].
        rewrite ES1, ES2, ES3, ES4. unfold dlaqr1. rewrite EL. cbn [bind Z.eqb Pos.eqb negb andb].
        set (r := laqr1_2 hf sr1 si1 sr2 si2 (to_fa lv)).
        assert (HF : forall i j, (1 <= i <= 2)%Z -> (1 <= j <= 2)%Z -> get2 hf i j = get2 (qH st) (k + 1 - 1 + i) (k + 1 - 1 + j)) by (intros i j Hi Hj; apply HF0; assumption).
        assert (ED : dlaqr1 2 l ldh sr1 si1 sr2 si2 lv = Ok (vec_of_fa r)) by (unfold dlaqr1; rewrite EL; reflexivity).
        assert (CL : (2 <= count (to_fa lv))%Z) by (change (2 <= zlen lv)%Z; lia).
        assert (FI := fun a b => first_in a b ltac:(lia)).
        destruct (start5_2 lm N HN4 hf (to_fa lv) sr1 si1 sr2 si2 S1 S2 S3 S4 CL) as (p1 & p2 & Sr & W1 & W2 & B1 & B2).
        { intros i j Hi Hj. rewrite HF by lia. apply FI; lia. }
        { rewrite HF by lia. rewrite (proj2 (FI (k + 1 - 1 + 2) (k + 1 - 1 + 1) ltac:(lia) ltac:(lia)))%Z. replace (k + 1 - 1 + 2)%Z with (ktop + 1)%Z by lia. replace (k + 1 - 1 + 1)%Z with ktop by lia.
          pose proof (SUB ktop ltac:(lia)). assert (0 < N * rr) by (apply Rmult_lt_0_compat; lra). lra. }
        change (NB5b lm) with NB5l in *. fold r in Sr, W1, W2. cbn [from_fa FromFA_vec bind to_fa_2d ToFA_vec].
        destruct (as_2d_shape ldv v0 (fa_of_vec (vec_of_fa r)) DV) as (v1 & -> & Sv1 & D1).
        { change (zlen (data r) = count v0). rewrite <- count_zlen, (proj2 (proj2 Sr)). exact LV. }
        cbn [bind].
        assert (EV : forall p, elem v1 p = elem r p) by (intros p; rewrite !elem_zget, D1; reflexivity).
        rewrite (vcol1 v1 1 p1) by (rewrite EV; exact W1).
        assert (C1 : (3 <= count v1)%Z) by (destruct Sv1 as (_ & _ & ->); exact CV).
        destruct (vreflect_2 lm LM (8 * N) HN8 ldv v1 p1 p2 (dim2_shape _ _ _ Sv1 DV) C1) as (v' & b & tau' & y2 & w2 & t & E & S' & E1 & E2 & LR); try (rewrite EV; assumption); try assumption.
        change (Q5ErrRefl.NB5v lm) with NB5l in *. rewrite E. cbn [bind fst].
        assert (FC : fcol (rright ktop w2 0 t Rid)).
        { destruct (shift_near lm N NP HNl N_1000 2 l lv ldh hf r (fun i => if (i =? 1)%Z then p1 else p2) (fun a b => H0 (ktop - 1 + a)%Z (ktop - 1 + b)%Z) sr1 si1 sr2 si2)
            as (sigma & SG & SE); try assumption; [left; reflexivity| | | |].
          - intros i j Hi Hj. split; [apply HF0; assumption|]. rewrite HF by assumption. replace (k + 1 - 1)%Z with (ktop - 1)%Z by lia. apply FI; lia.
          - cbv beta. replace (ktop - 1 + 2)%Z with (ktop + 1)%Z by lia. replace (ktop - 1 + 1)%Z with ktop by lia. pose proof (SUB ktop ltac:(lia)) as X. assert (0 < N * rr) by (apply Rmult_lt_0_compat; lra). lra.
          - intros i Hi. assert (i = 1 \/ i = 2)%Z as [-> | ->] by lia; assumption.
          - refine (col_near N NP 2 (kbot - ktop + 1) _ _ _ ktop sigma (fun i => if (i =? 3)%Z then 0 else B2R (if (i =? 1)%Z then p1 else p2)) b y2 (B754_zero false) tau' w2 0 t _ _ _ SG _ LR); [lia|right; split; [lia|split; reflexivity]| |].
            + intros a c Ha Hc L. apply (HESS (ktop - 1 + a)%Z (ktop - 1 + c)%Z); lia.
            + intros i Hi. destruct (Z.eqb_spec i 3); [lia|]. apply SE. exact Hi. }
        exists (qH st), v', tau', y2, w2, t. split; [reflexivity|]. apply chased_first; try assumption; try reflexivity; [lia|eapply same_shape_trans; eassumption|apply LR].
      - pose proof hc_shape as SHc. pose proof hc_bd as HB. pose proof (s_in _ _ _ _ _ _ _ S) as SI. rewrite upd_F in * by lia. set (hu := qH st) in *.
        destruct (v_stored2 (qV st) v0 (get2 hu (k + 2) k) (s_v _ _ _ _ _ _ _ S) CV) as (SW & W2).
        set (w := set2 (qV st) 2 1 _) in *. clearbody w.
        assert (CW : (3 <= count w)%Z) by (destruct SW as (_ & _ & ->); exact CV).
        destruct (vreflect_2 lm LM (4 * N) HN4 ldv w (get2 hu (k + 1) k) (get2 hu (k + 2) k) (dim2_shape _ _ _ SW DV) CW W2)
          as (v' & b & tau' & y2 & w2 & t & EV & S' & E1 & E2 & LR); try (apply HB; lia).
        change (Q5ErrRefl.NB5v lm) with NB5l in *. cbv zeta. rewrite EV. cbn [bind].
        eexists. exists v', tau', y2, w2, t. split; [reflexivity|].
        assert (BG : big n hu) by (apply big_of; exact SHc).
        assert (GT : forall a c, (1 <= a <= n)%Z -> get2 (set2 (set2 hu (k + 1) k b) (k + 2) k f0) a c =
          if ((a =? k + 2) && (c =? k))%Z then f0 else if ((a =? k + 1) && (c =? k))%Z then b else get2 hu a c).
        { intros a c Ha. rewrite !(set2_get n) by (repeat apply set2_big; first [assumption|lia]). reflexivity. }
        set (h1 := set2 (set2 hu (k + 1) k b) (k + 2) k f0) in *.
        assert (SH1 : same_shape h1 h0) by (unfold h1; eapply same_shape_trans; [|exact SHc]; repeat (eapply same_shape_trans; [apply set2_shape|]); apply same_shape_refl).
        clearbody h1.
        assert (GE : forall a, (k + 1 <= a <= k + 2)%Z -> B2R (get2 hu a k) = G a k) by (intros a Ha; apply SI; lia).
        rewrite !GE in LR by lia.
        split; [exact SH1|]; split; [eapply same_shape_trans; eassumption|]; split; [exact E1|]; split; [exact E2|]; split; [apply LR|]; split; [|split; [|lia]].
        + intros a c Ha Hc NX. rewrite GT by lia. destruct (Z.eqb_spec c k); [|rewrite !andb_false_r; reflexivity].
          destruct (Z.eqb_spec a (k + 2)); [lia|]. destruct (Z.eqb_spec a (k + 1)); [lia|]. reflexivity.
        + intros a _ Ha. rewrite GT by lia. rewrite Z.eqb_refl, !andb_true_r. unfold rleft.
          replace (k + 1 + 1)%Z with (k + 2)%Z by lia. replace (k + 1 + 2)%Z with (k + 3)%Z by lia. rewrite Rmult_0_l.
          assert (Z0 : zf (f0 : b64)) by (split; reflexivity).
          pose proof (lr_2 _ _ _ _ _ _ _ _ _ _ _ LR) as Q2. pose proof (lr_b _ _ _ _ _ _ _ _ _ _ _ LR) as Qb. rewrite Rmult_0_l in Q2, Qb.
          destruct (Z.eqb_spec a (k + 2)) as [->|]; [|destruct (Z.eqb_spec a (k + 1)) as [->|]; [|lia]].
          * split; [|intros _; apply Z0]. apply near_zero; [exact Z0|]. replace (wvec (k + 1) w2 0 (k + 2)) with w2 by (replace (k + 2)%Z with (k + 1 + 1)%Z by lia; symmetry; apply wvec_1). exact Q2.
          * split; [|lia]. rewrite wvec_0, Rmult_1_r. exact Qb.
    Qed.

    (** *** the two passes over the array, and the deflation test *)
    Section Fin.
      Context (h1 v' : fa b64) (tau' v2' v3' : b64) (w2 w3 t : R) (CH : chased k h1 v' hc G tau' v2' v3' w2 w3 t) (HV : (k + 3 <= kbot)%Z \/ w3 = 0).
      Context (h2 : fa b64).
      Notation r := (Z.min kbot (k + 3)).
      Hypothesis (R1 : forall a b, (lo <= a <= r)%Z -> (k + 1 <= b <= r)%Z -> (forall e, (k + 1 <= e <= r)%Z -> bd4 (get2 h1 a e)) ->
        near_r (get2 h2 a b) (rright (k + 1) w2 w3 t (M h1) a b) d4).
      Hypothesis (R2 : forall a b, (1 <= a <= n)%Z -> (1 <= b <= n)%Z -> ~ ((lo <= a <= r)%Z /\ (k + 1 <= b <= r)%Z) -> get2 h2 a b = get2 h1 a b).
      Definition leftish (h3 : fa b64) : Prop := same_shape h3 h0 /\
        (forall a b, (k + 1 <= a <= r)%Z -> (k + 1 <= b <= hi)%Z -> (forall e, (k + 1 <= e <= r)%Z -> bd4 (get2 h2 e b)) -> near_r (get2 h3 a b) (rleft (k + 1) w2 w3 t (M h2) a b) d4) /\
        (forall a b, (1 <= a <= n)%Z -> (1 <= b <= n)%Z -> ~ ((k + 1 <= a <= r)%Z /\ (k + 1 <= b <= hi)%Z) -> ~ (ktop <= k /\ a = k + 1 /\ b = k)%Z -> get2 h3 a b = get2 h2 a b).
      Notation Q' := (mmul lo hi Q (refl t (wvec (k + 1) w2 w3))).
      Notation hn h3 := (upd (k + 1) tau' v2' v3' h3).

      Lemma far_same h3 a b : leftish h3 -> (1 <= a <= n)%Z -> (1 <= b <= n)%Z -> (r < a \/ ~ (inr a /\ inr b))%Z -> get2 h3 a b = get2 hc a b.
      Proof.
        intros (_ & _ & L2) Ha Hb F. pose proof lo5_ok. pose proof hi5_ok. destruct CH as (_ & _ & _ & _ & _ & O1 & _). rewrite L2, R2, O1 by lia. reflexivity.
      Qed.
      Lemma fin5 h3 : leftish h3 -> ((ktop <= k)%Z -> get2 h3 (k + 1) k = get2 h2 (k + 1) k \/ zf (get2 h3 (k + 1) k) /\ Rabs (B2R (get2 h2 (k + 1) k)) <= d4) ->
        (simf lo hi H0 (IZR (k + 1 - ktop + 1) * (2 * y)) (M (hn h3)) Q' /\ HqReal.chase lo hi ktop kbot (k + 1 + 1) (M (hn h3))) /\
        (forall a b, inr a -> inr b -> is_finite (get2 (hn h3) a b) = true).
      Proof.
        intros LF L3. pose proof lo5_ok as X1. pose proof hi5_ok as X2. pose proof LF as LF'. destruct LF' as (SH3 & L1 & L2). pose proof CH as CH'. destruct CH' as (SH1 & SV' & E1 & E2 & HR & O1 & K1 & FC).
        assert (C1 : forall b, (k + 1 + 3 <= kbot)%Z -> (k + 1 <= b <= k + 1 + 2)%Z -> near_r (get2 (hn h3) (k + 1 + 3) b) (rright (k + 1) w2 w3 t G (k + 1 + 3)%Z b) d4).
        { intros b L4 Hb. rewrite upd_T by lia. assert (E43 : get2 h3 (k + 1 + 3) (k + 1 + 2) = get2 hc (k + 1 + 3) (k + 1 + 2)) by (apply far_same; [exact LF|lia..]).
          apply (catch_near lm N HN4 n (k + 1) tau' v2' v3' w2 w3 t h3 G HR (big_of _ SH3)); [lia|lia| | | | |lia].
          - apply (ch_low _ _ _ _ _ _ (s_chase _ _ _ _ _ _ _ S)); try lia. unfold hq_bulge. lia.
          - apply (ch_low _ _ _ _ _ _ (s_chase _ _ _ _ _ _ _ S)); try lia. unfold hq_bulge. lia.
          - change (Q5ErrVig.NB5v lm) with NB5l. rewrite E43. apply hc_bd; lia.
          - change (Q5ErrVig.NB5v lm) with NB5l. rewrite E43. apply (s_in _ _ _ _ _ _ _ S); lia. }
        assert (C2 : forall a b, inr a -> inr b -> ~ (a = k + 1 + 3 /\ k + 1 + 3 <= kbot /\ k + 1 <= b <= k + 1 + 2)%Z -> get2 (hn h3) a b = get2 h3 a b).
        { intros a b Ha Hb NX. apply upd_out; [exact SH3|lia|lia]. }
        assert (EX : IZR (k + 1 - ktop + 1) = IZR (k - ktop + 1) + 1) by (rewrite <- plus_IZR; f_equal; lia). rewrite EX.
        assert (HV' : (k + 1 + 2 <= kbot)%Z \/ w3 = 0) by (destruct HV; [left; lia|right; assumption]).
        assert (ER' : (k + 1 + 2 = k + 3)%Z) by lia. assert (EC : (k + 1 - 1 = k)%Z) by lia.
        split.
        - refine (step5 lm lo hi ktop kbot (proj2 X1) (proj1 X2) H0 N y Xm HN4 FRB Hy HY HX (IZR (k - ktop + 1)) (k + 1) hc h1 h2 h3 (hn h3) G Q w2 w3 t _ HV' (ra_house _ _ _ _ _ _ HR) x_ok
            (s_chase _ _ _ _ _ _ _ S) (s_sim _ _ _ _ _ _ _ S) (s_in _ _ _ _ _ _ _ S) _ _ _ _ _ _ _ C1 C2); rewrite ?ER', ?EC; try lia.
          + intros a b Ha Hb NX. apply O1; lia.
          + intros a La Ha. apply K1; lia.
          + exact R1.
          + intros a b Ha Hb. apply R2; lia.
          + exact L1.
          + intros a b Ha Hb NX NY. apply L2; lia.
          + intros La. apply L3. lia.
        - refine (step5_fin lm lo hi ktop kbot (proj2 X1) (proj1 X2) H0 N y Xm HN4 FRB Hy HX (IZR (k - ktop + 1)) (k + 1) hc h1 h2 h3 (hn h3) G Q w2 w3 t _ HV' (ra_house _ _ _ _ _ _ HR) x_ok
            (s_sim _ _ _ _ _ _ _ S) (s_in _ _ _ _ _ _ _ S) _ _ _ _ _ _ _ C1 C2); rewrite ?ER', ?EC; try lia.
          + intros a b Ha Hb NX. apply O1; lia.
          + intros a La Ha. apply K1; lia.
          + exact R1.
          + intros a b Ha Hb. apply R2; lia.
          + exact L1.
          + intros a b Ha Hb NX NY. apply L2; lia.
          + intros La. apply L3. lia.
      Qed.
      Lemma fin_bd h3 a b : leftish h3 -> get2 h3 (k + 1) k = get2 h2 (k + 1) k -> inr a -> inr b -> (a <= k + 4)%Z -> (b <= k + 1)%Z -> bd4 (get2 h3 a b).
      Proof.
        intros LF E Ha Hb A4 B1. pose proof lo5_ok as X1. pose proof hi5_ok as X2. destruct (Z.eq_dec a (k + 4)) as [->|].
        - rewrite (far_same h3) by (try exact LF; lia). apply hc_bd; assumption.
        - destruct (fin5 h3 LF) as [[SI _] F]; [left; exact E|]. assert (EU : get2 (hn h3) a b = get2 h3 a b) by (apply upd_out; [apply LF|lia|lia]).
          rewrite <- EU. split; [apply F; assumption|]. pose proof N5_pos.
          assert (HX2 : 0 <= IZR (k + 1 - ktop + 1) <= Xm) by (split; apply IZR_le; lia).
          pose proof (G_bound lo hi H0 N y Xm HN4 FRB Hy HX _ (M (hn h3)) Q' HX2 SI a b Ha Hb). cbv beta in *. lra.
      Qed.
      Lemma vig5 hA h25 : leftish hA -> get2 hA (k + 1) k = get2 h2 (k + 1) k -> (ktop <= k)%Z ->
        (forall a b, inr a -> inr b -> (b <= k + 1)%Z -> get2 h25 a b = get2 hA a b) ->
        q5_vigilant n ktop kbot k h25 = h25 \/ (q5_vigilant n ktop kbot k h25 = set2 h25 (k + 1) k f0 /\ Rabs (B2R (get2 h2 (k + 1) k)) <= d4).
      Proof.
        intros LF E K EA. pose proof lo5_ok as X1. pose proof hi5_ok as X2. rewrite <- E, <- (EA (k + 1) k)%Z by lia.
        apply (vigilant_near lm N HN4 n ktop kbot k h25); [lia|exact HNl|lia|..].
        - rewrite EA by lia. apply fin_bd; try assumption; lia.
        - rewrite EA by lia. apply fin_bd; try assumption; lia.
        - rewrite EA by lia. apply fin_bd; try assumption; lia.
        - intros j Hj. rewrite EA by lia. apply fin_bd; try assumption; lia.
        - intros i Hi. rewrite EA by lia. apply fin_bd; try assumption; lia.
      Qed.
      Lemma next5 st' : leftish (qH st') -> ((ktop <= k)%Z -> get2 (qH st') (k + 1) k = get2 h2 (k + 1) k \/ zf (get2 (qH st') (k + 1) k) /\ Rabs (B2R (get2 h2 (k + 1) k)) <= d4) ->
        qV st' = v' -> ((k + 3 <= kbot)%Z -> elem v' 3 = Some v3' /\ 0.999 <= B2R tau' /\ rr ^ Z.to_nat (k - ktop + 3) <= Rabs (B2R v3')) ->
        sval5 (k + 1) st' (M (hn (qH st'))) (rright (k + 1) w2 w3 t Q) tau' v2' v3'.
      Proof.
        intros LF L3 EV V3. pose proof lo5_ok as X1. pose proof hi5_ok as X2. destruct (fin5 _ LF L3) as [[SI HC] F]. pose proof CH as CH'. destruct CH' as (SH1 & SV' & E1 & E2 & HR & O1 & K1 & FC).
        split.
        - apply LF.
        - rewrite EV. exact SV'.
        - intros K K3. rewrite EV. destruct (V3 ltac:(lia)) as (V1 & V2 & V4). destruct (rapp_bds _ _ _ _ _ _ HR). repeat (split; [assumption|]).
          replace (Z.to_nat (k + 1 - ktop + 2)) with (Z.to_nat (k - ktop + 3)) by lia. exact V4.
        - intros a b Ha Hb. split; [apply F; assumption|reflexivity].
        - intros a b Ha Hb NX. rewrite (far_same _ a b LF Ha Hb) by (right; exact NX). rewrite upd_out; [apply (s_out _ _ _ _ _ _ _ S); assumption|apply (s_h _ _ _ _ _ _ _ S)|exact Ha|lia].
        - intros j Hj. rewrite (far_same _ (j + 1) j LF) by lia. rewrite upd_out; [apply (s_todo _ _ _ _ _ _ _ S); lia|apply (s_h _ _ _ _ _ _ _ S)|lia|lia].
        - intros K. lia.
        - intros K. lia.
        - intros _. destruct (Z_lt_le_dec k ktop) as [KL|KL].
          + replace (k + 1)%Z with ktop by lia. apply (fcol_ext (rright ktop w2 w3 t Rid)); [|apply FC; exact KL]. intros i Hi. unfold rright. rewrite !(s_Q0 _ _ _ _ _ _ _ S KL). reflexivity.
          + apply (fcol_ext Q); [|apply (s_col _ _ _ _ _ _ _ S KL)]. intros i Hi. unfold rright. rewrite wvec_out by lia. ring.
        - assert (W3 : (k + 3 <= kbot)%Z \/ w3 = 0) by exact HV. intros i j [NI|NJ].
          + unfold rright. rewrite !(s_id _ _ _ _ _ _ _ S) by (left; exact NI). unfold Rid. destruct (Z.eqb_spec i (k + 1)), (Z.eqb_spec i (k + 1 + 1)), (Z.eqb_spec i (k + 1 + 2)); try lia; try ring.
            destruct W3 as [W3|W3]; [lia|rewrite W3; ring].
          + unfold rright. rewrite (s_id _ _ _ _ _ _ _ S i j) by (right; exact NJ). destruct (Z_le_gt_dec (k + 1) j) as [J1|J1]; [|rewrite wvec_out by lia; ring].
            destruct (Z.eq_dec j (k + 1 + 2)) as [->|]; [|rewrite wvec_out by lia; ring]. rewrite wvec_2. destruct W3 as [W3|W3]; [lia|rewrite W3; ring].
        - exact HC.
        - refine (simf_extQ _ _ _ _ _ _ _ SI _). intros i j Hi Hj. apply rright_mm; [lia| |exact Hj]. destruct HV; [left; lia|right; split; [assumption|lia]].
      Qed.
      (** the row pass: three rows, then two *)
      Lemma pass3 h5 : (k + 3 <= kbot)%Z -> same_shape h2 h0 -> same_shape h5 h0 ->
        (forall a b, (1 <= a <= n)%Z -> (1 <= b <= n)%Z -> ~ (ktop <= k /\ a = k + 1 /\ b = k)%Z ->
           get2 h5 a b = get2 (q5_left3 (k + 1) v2' v3' tau' (fmul tau' v2') (fmul tau' v3') (k + 1) h2) a b) ->
        let h6 := for_ (range (Z.max ktop (k + 2)) hi) h5 (q5_left3 (k + 1) v2' v3' tau' (fmul tau' v2') (fmul tau' v3')) in
        leftish h6 /\ (forall a b, (1 <= a <= n)%Z -> (1 <= b <= k + 1)%Z -> get2 h6 a b = get2 h5 a b).
      Proof.
        intros K3 SH2 SH5 E5 h6. pose proof lo5_ok as X1. pose proof hi5_ok as X2. destruct CH as (_ & _ & _ & _ & HR & _).
        assert (EM : Z.max ktop (k + 2) = (k + 2)%Z) by lia. unfold h6. rewrite EM.
        assert (E5' : forall a b, (1 <= a <= n)%Z -> (1 <= b <= n)%Z -> ~ (ktop <= k /\ a = k + 1 /\ b = k)%Z ->
          get2 h5 a b = if (b =? k + 1)%Z then lval3 (k + 1) v2' v3' tau' (fmul tau' v2') (fmul tau' v3') h2 a b else get2 h2 a b).
        { intros a b Ha Hb NX. rewrite E5 by assumption. apply (q5_left3_get n); [apply big_of; exact SH2|lia..]. }
        assert (G6 := fun a b => q5_left3_loop_get n (k + 1) v2' v3' tau' (fmul tau' v2') (fmul tau' v3') (k + 2) hi h5 a b (big_of _ SH5) ltac:(lia) ltac:(lia) ltac:(lia) ltac:(lia)).
        assert (EL : forall a b, (1 <= a <= n)%Z -> (k + 2 <= b <= n)%Z -> lval3 (k + 1) v2' v3' tau' (fmul tau' v2') (fmul tau' v3') h5 a b = lval3 (k + 1) v2' v3' tau' (fmul tau' v2') (fmul tau' v3') h2 a b).
        { intros a b Ha Hb. assert (ES : forall e, (1 <= e <= n)%Z -> get2 h5 e b = get2 h2 e b) by (intros e He; rewrite E5' by lia; destruct (Z.eqb_spec b (k + 1)); [lia|reflexivity]).
          unfold lval3. rewrite !ES by lia. reflexivity. }
        split; [|intros a b Ha Hb; rewrite G6 by lia; rewrite inside_F by lia; reflexivity].
        split; [eapply same_shape_trans; [|exact SH5]; apply loop_shape; intros; apply q5_left3_shape|]. split.
        - intros a b Ha Hb BD. assert (NR : near_r (lval3 (k + 1) v2' v3' tau' (fmul tau' v2') (fmul tau' v3') h2 a b) (rleft (k + 1) w2 w3 t (M h2) a b) d4).
          { apply (lval3_near lm N HN4 (k + 1) v2' v3' tau' w2 w3 t HR h2 a b); [lia|]. intros e He. apply BD. lia. }
          rewrite G6 by lia. destruct (Z.eq_dec b (k + 1)) as [->|].
          + rewrite inside_F by lia. rewrite E5' by lia. rewrite Z.eqb_refl. exact NR.
          + rewrite inside_T by lia. rewrite EL by lia. exact NR.
        - intros a b Ha Hb NI NX. rewrite G6 by lia.
          assert (OUT : ~ (k + 1 <= a <= k + 1 + 2)%Z -> lval3 (k + 1) v2' v3' tau' (fmul tau' v2') (fmul tau' v3') h2 a b = get2 h2 a b) by (intros; apply (lval3_out lm); lia).
          destruct (Z_le_gt_dec b hi); [destruct (Z_le_gt_dec (k + 2) b)|].
          + rewrite inside_T by lia. rewrite EL by lia. apply OUT. lia.
          + rewrite inside_F by lia. rewrite E5' by lia. destruct (Z.eqb_spec b (k + 1)) as [->|]; [apply OUT; lia|reflexivity].
          + rewrite inside_F by lia. rewrite E5' by lia. destruct (Z.eqb_spec b (k + 1)) as [->|]; [lia|reflexivity].
      Qed.
      Lemma pass2 : (k + 2 = kbot)%Z -> v3' = B754_zero false -> w3 = 0 -> same_shape h2 h0 ->
        let h6 := for_ (range (k + 1) hi) h2 (q5_left2 (k + 1) v2' tau' (fmul tau' v2')) in leftish h6 /\ ((ktop <= k)%Z -> get2 h6 (k + 1) k = get2 h2 (k + 1) k).
      Proof.
        intros K2 EV EW SH2 h6. pose proof lo5_ok as X1. pose proof hi5_ok as X2. destruct CH as (_ & _ & _ & _ & HR & _). rewrite EV, EW in HR. unfold h6.
        assert (G6 := fun a b => q5_left2_loop_get n (k + 1) v2' tau' (fmul tau' v2') (k + 1) hi h2 a b (big_of _ SH2) ltac:(lia) ltac:(lia) ltac:(lia) ltac:(lia)).
        assert (L2 : forall a b, (1 <= a <= n)%Z -> (1 <= b <= n)%Z -> ~ ((k + 1 <= a <= r)%Z /\ (k + 1 <= b <= hi)%Z) ->
          get2 (for_ (range (k + 1) hi) h2 (q5_left2 (k + 1) v2' tau' (fmul tau' v2'))) a b = get2 h2 a b).
        { intros a b Ha Hb NI. rewrite G6 by lia. destruct (Z_le_gt_dec b hi); [destruct (Z_le_gt_dec (k + 1) b)|].
          - rewrite inside_T by lia. apply (lval2_out lm). lia.
          - rewrite inside_F by lia. reflexivity.
          - rewrite inside_F by lia. reflexivity. }
        split; [|intros K; apply L2; lia].
        split; [eapply same_shape_trans; [|exact SH2]; apply loop_shape; intros; apply q5_left2_shape|]. split; [|intros; apply L2; assumption].
        intros a b Ha Hb BD. rewrite EW, G6 by lia. rewrite inside_T by lia. apply (lval2_near lm N HN4 (k + 1) v2' tau' w2 t HR h2 a b); [lia|]. intros e He. apply BD. lia.
      Qed.
      Lemma leftish_set h x : leftish h -> (ktop <= k)%Z -> leftish (set2 h (k + 1) k x).
      Proof.
        intros (A1 & A2 & A3) K. pose proof lo5_ok as X1. pose proof hi5_ok as X2.
        assert (G6 : forall a b, (1 <= a <= n)%Z -> ~ (a = k + 1 /\ b = k)%Z -> get2 (set2 h (k + 1) k x) a b = get2 h a b).
        { intros a b Ha NX. rewrite (set2_get n) by (first [apply big_of; exact A1|lia]). destruct (Z.eqb_spec a (k + 1)); cbn [andb]; [|reflexivity]. destruct (Z.eqb_spec b k); [lia|reflexivity]. }
        split; [eapply same_shape_trans; [apply set2_shape|exact A1]|]. split.
        - intros a b Ha Hb BD. rewrite G6 by lia. apply A2; assumption.
        - intros a b Ha Hb N1 N2. rewrite G6 by lia. apply A3; assumption.
      Qed.
    End Fin.

    (** the column pass *)
    Lemma cols3 h1 tau' v2' v3' w2 w3 t : (k + 3 <= kbot)%Z -> same_shape h1 h0 -> rapp v2' v3' tau' w2 w3 t ->
      let h2 := for_ (range lo (Z.min kbot (k + 3))) h1 (q5_right3 (k + 1) v2' v3' tau' (fmul tau' v2') (fmul tau' v3')) in same_shape h2 h0 /\
      (forall a b, (lo <= a <= Z.min kbot (k + 3))%Z -> (k + 1 <= b <= Z.min kbot (k + 3))%Z -> (forall e, (k + 1 <= e <= Z.min kbot (k + 3))%Z -> bd4 (get2 h1 a e)) ->
        near_r (get2 h2 a b) (rright (k + 1) w2 w3 t (M h1) a b) d4) /\
      (forall a b, (1 <= a <= n)%Z -> (1 <= b <= n)%Z -> ~ ((lo <= a <= Z.min kbot (k + 3))%Z /\ (k + 1 <= b <= Z.min kbot (k + 3))%Z) -> get2 h2 a b = get2 h1 a b).
    Proof.
      intros K3 SH1 HR h2. pose proof lo5_ok as X1. pose proof hi5_ok as X2. unfold h2.
      assert (G6 := fun a b => q5_right3_loop_get n (k + 1) v2' v3' tau' (fmul tau' v2') (fmul tau' v3') lo (Z.min kbot (k + 3)) h1 a b (big_of _ SH1) ltac:(lia) ltac:(lia) ltac:(lia) ltac:(lia)).
      split; [eapply same_shape_trans; [|exact SH1]; apply loop_shape; intros; apply q5_right3_shape|]. split.
      - intros a b Ha Hb BD. rewrite G6 by lia. rewrite inside_T by lia. apply (rval3_near lm N HN4 (k + 1) v2' v3' tau' w2 w3 t HR h1 a b); [lia|]. intros e He. apply BD. lia.
      - intros a b Ha Hb NI. rewrite G6 by lia. destruct (Z_le_gt_dec lo a); [destruct (Z_le_gt_dec a (Z.min kbot (k + 3)))|].
        + rewrite inside_T by lia. apply (rval3_out lm). lia.
        + rewrite inside_F by lia. reflexivity.
        + rewrite inside_F by lia. reflexivity.
    Qed.
    Lemma cols2 h1 tau' v2' w2 t : (k + 2 = kbot)%Z -> same_shape h1 h0 -> rapp v2' (B754_zero false) tau' w2 0 t ->
      let h2 := for_ (range lo (Z.min kbot (k + 3))) h1 (q5_right2 (k + 1) v2' tau' (fmul tau' v2')) in same_shape h2 h0 /\
      (forall a b, (lo <= a <= Z.min kbot (k + 3))%Z -> (k + 1 <= b <= Z.min kbot (k + 3))%Z -> (forall e, (k + 1 <= e <= Z.min kbot (k + 3))%Z -> bd4 (get2 h1 a e)) ->
        near_r (get2 h2 a b) (rright (k + 1) w2 0 t (M h1) a b) d4) /\
      (forall a b, (1 <= a <= n)%Z -> (1 <= b <= n)%Z -> ~ ((lo <= a <= Z.min kbot (k + 3))%Z /\ (k + 1 <= b <= Z.min kbot (k + 3))%Z) -> get2 h2 a b = get2 h1 a b).
    Proof.
      intros K3 SH1 HR h2. pose proof lo5_ok as X1. pose proof hi5_ok as X2. unfold h2.
      assert (G6 := fun a b => q5_right2_loop_get n (k + 1) v2' tau' (fmul tau' v2') lo (Z.min kbot (k + 3)) h1 a b (big_of _ SH1) ltac:(lia) ltac:(lia) ltac:(lia) ltac:(lia)).
      split; [eapply same_shape_trans; [|exact SH1]; apply loop_shape; intros; apply q5_right2_shape|]. split.
      - intros a b Ha Hb BD. rewrite G6 by lia. rewrite inside_T by lia. apply (rval2_near lm N HN4 (k + 1) v2' tau' w2 t HR h1 a b); [lia|]. intros e He. apply BD. lia.
      - intros a b Ha Hb NI. rewrite G6 by lia. destruct (Z_le_gt_dec lo a); [destruct (Z_le_gt_dec a (Z.min kbot (k + 3)))|].
        + rewrite inside_T by lia. apply (rval2_out lm). lia.
        + rewrite inside_F by lia. reflexivity.
        + rewrite inside_F by lia. reflexivity.
    Qed.

    (** *** one column of the sweep *)
    Notation krcol_ := (q5_krcol wantt wantz false n ktop kbot 1 sr si ldh iloz ihiz ldv).
    Lemma mtop1 : Z.max 1 (Z.quot (ktop - k) 2 + 1) = 1%Z.
    Proof.
      destruct (Z.eq_dec k (ktop - 1)) as [->|]; [replace (ktop - (ktop - 1))%Z with 1%Z by lia; reflexivity|].
      pose proof (Z.quot_opp_l (k - ktop) 2 ltac:(lia)) as QE. replace (- (k - ktop))%Z with (ktop - k)%Z in QE by lia.
      pose proof (Z.quot_pos (k - ktop) 2 ltac:(lia) ltac:(lia)). lia.
    Qed.
    Lemma mbot1 : (k <= kbot - 3)%Z -> Z.min 1 (Z.quot (kbot - k - 1) 2) = 1%Z.
    Proof. intros H. rewrite Z.quot_div_nonneg by lia. assert (1 <= (kbot - k - 1) / 2)%Z by (apply Z.div_le_lower_bound; lia). lia. Qed.
    Lemma mbot0 : k = (kbot - 2)%Z -> Z.min 1 (Z.quot (kbot - k - 1) 2) = 0%Z.
    Proof. intros ->. replace (kbot - (kbot - 2) - 1)%Z with 1%Z by lia. reflexivity. Qed.
    Lemma jtop5 incol : q5_jtop wantt false ktop incol = lo.
    Proof. unfold q5_jtop, lo5. destruct wantt; reflexivity. Qed.
    Lemma jbot5 nd : q5_jbot wantt false n kbot nd = hi.
    Proof. unfold q5_jbot, hi5. destruct wantt; reflexivity. Qed.

    Lemma krcol5_3 incol : (k <= kbot - 3)%Z -> exists st' G' Q' tau' v2' v3', krcol_ incol k st = Ok st' /\ sval5 (k + 1) st' G' Q' tau' v2' v3'.
    Proof.
      intros K. pose proof lo5_ok as X1. pose proof hi5_ok as X2.
      destruct (chase_any5 K) as (h1 & v' & tau' & v2' & v3' & w2 & w3 & t & E & CH & E3 & T0 & V3). pose proof CH as CH'. destruct CH' as (SH1 & SV' & E1 & E2 & HR & _ & _ & _).
      unfold q5_krcol. rewrite mtop1, mbot1 by lia. rewrite Z.ltb_irrefl. cbn [andb bind].
      rewrite range_rev_cons, range_rev_nil by lia. cbn [for_M]. unfold q5_bulge at 1. cbn [Z.sub Z.opp Z.add Z.pos_sub Z.mul]. rewrite Z.add_0_r.
      rewrite E. cbn [bind]. rewrite (vcol1 v' 1 _ E1), (vcol1 v' 2 _ E2), (vcol1 v' 3 _ E3). rewrite jtop5, jbot5.
      destruct (cols3 h1 tau' v2' v3' w2 w3 t ltac:(lia) SH1 HR) as (SH2 & R1 & R2).
      set (h2 := for_ (range lo (Z.min kbot (k + 3))) h1 _) in *. clearbody h2.
      set (h25 := q5_left3 _ _ _ _ _ _ _ h2).
      assert (SH25 : same_shape h25 h0) by (eapply same_shape_trans; [apply q5_left3_shape|exact SH2]).
      set (h5 := if (k <? ktop)%Z then h25 else _). cbn [qH qV qZ qU qWv qWh qVt].
      unfold q5_left_all. rewrite range_rev_cons, range_rev_nil by lia. cbn [for_ fold_left]. cbn [Z.sub Z.opp Z.add Z.pos_sub Z.mul Pos.mul]. rewrite Z.add_0_r.
      rewrite (vcol1 v' 1 _ E1), (vcol1 v' 2 _ E2), (vcol1 v' 3 _ E3).
      assert (HV : (k + 3 <= kbot)%Z \/ w3 = 0) by (left; lia).
      destruct (pass3 h1 v' tau' v2' v3' w2 w3 t CH h2 h25 ltac:(lia) SH2 SH25) as [LA EA]; [reflexivity|]. cbv zeta in LA, EA.
      assert (E25 : (ktop <= k)%Z -> get2 h25 (k + 1) k = get2 h2 (k + 1) k).
      { intros Kt. unfold h25. rewrite (q5_left3_get n) by (first [apply big_of; exact SH2|lia]). destruct (Z.eqb_spec k (k + 1)); [lia|reflexivity]. }
      assert (VG : (ktop <= k)%Z -> q5_vigilant n ktop kbot k h25 = h25 \/ (q5_vigilant n ktop kbot k h25 = set2 h25 (k + 1) k f0 /\ Rabs (B2R (get2 h2 (k + 1) k)) <= d4)).
      { intros Kt. refine (vig5 h1 v' tau' v2' v3' w2 w3 t CH HV h2 R1 R2 _ h25 LA _ Kt _).
        - rewrite EA by lia. apply E25, Kt.
        - intros a b Ha Hb B1. symmetry. apply EA; lia. }
      assert (H5 : same_shape h5 h0 /\ (forall a b, (1 <= a <= n)%Z -> (1 <= b <= n)%Z -> ~ (ktop <= k /\ a = k + 1 /\ b = k)%Z -> get2 h5 a b = get2 h25 a b) /\
        ((ktop <= k)%Z -> get2 h5 (k + 1) k = get2 h2 (k + 1) k \/ zf (get2 h5 (k + 1) k) /\ Rabs (B2R (get2 h2 (k + 1) k)) <= d4)).
      { unfold h5. destruct (Z.ltb_spec k ktop) as [KL|KL]; [split; [exact SH25|]; split; [reflexivity|lia]|].
        destruct (VG KL) as [-> | [-> SM]]; [split; [exact SH25|]; split; [reflexivity|intros; left; apply E25; exact KL]|].
        split; [eapply same_shape_trans; [apply set2_shape|exact SH25]|].
        assert (GS := fun a b => set2_get n h25 (k + 1) k f0 a b (big_of _ SH25)).
        split.
        - intros a b Ha Hb NX. rewrite GS by lia. destruct (Z.eqb_spec a (k + 1)); cbn [andb]; [|reflexivity]. destruct (Z.eqb_spec b k); [lia|reflexivity].
        - intros _. right. split; [|exact SM]. rewrite GS by lia. rewrite !Z.eqb_refl. cbn [andb]. split; reflexivity. }
      destruct H5 as (SH5 & E5 & D5).
      destruct (pass3 h1 v' tau' v2' v3' w2 w3 t CH h2 h5 ltac:(lia) SH2 SH5 E5) as [L6 E6]. cbv zeta in L6, E6.
      match type of L6 with leftish _ _ _ _ ?x => set (h6 := x) in * end. clearbody h6 h5.
      exists (if wantz then mkQ5 h6 (q5_acc_z iloz ihiz k 1 1 v' (qZ st)) v' (qU st) (qWv st) (qWh st) (qVt st) else mkQ5 h6 (qZ st) v' (qU st) (qWv st) (qWh st) (qVt st)).
      do 2 eexists. exists tau', v2', v3'. split; [destruct wantz; reflexivity|].
      apply (next5 h1 v' tau' v2' v3' w2 w3 t CH HV h2 R1 R2).
      - destruct wantz; exact L6.
      - intros Kt. destruct wantz; cbn [qH]; rewrite E6 by lia; apply D5; exact Kt.
      - destruct wantz; reflexivity.
      - intros _. split; [exact E3|]. split; [exact T0|exact V3].
    Qed.
    Lemma krcol5_2 incol : k = (kbot - 2)%Z -> exists st' G' Q' tau' v2' v3', krcol_ incol k st = Ok st' /\ sval5 (k + 1) st' G' Q' tau' v2' v3'.
    Proof.
      intros K. pose proof lo5_ok as X1. pose proof hi5_ok as X2. pose proof (chase_two5 K) as CT.
      unfold q5_krcol. rewrite mtop1, mbot0 by lia. replace (k + 2 * (0 + 1 - 1))%Z with k by lia.
      assert (EB : (k =? kbot - 2)%Z = true) by (apply Z.eqb_eq; exact K). rewrite EB. cbn [Z.ltb Z.compare andb].
      rewrite (range_rev_nil 1 0) by lia. unfold q5_bulge22. cbn [Z.add]. cbn [Z.sub Z.opp Z.add Z.pos_sub Z.mul Pos.mul]. rewrite Z.add_0_r. cbn [Pos.pred_double].
      destruct CT as (h1 & v' & tau' & v2' & w2 & t & E & CH).
      match goal with |- context [bind (bind ?x _) _] => assert (E' : x = Ok (h1, v')) by exact E; rewrite E'; clear E E' end. cbn [bind]. pose proof CH as CH'. destruct CH' as (SH1 & SV' & E1 & E2 & HR & _ & _ & _).
      rewrite (vcol1 v' 1 _ E1), (vcol1 v' 2 _ E2). rewrite jtop5, jbot5.
      destruct (cols2 h1 tau' v2' w2 t ltac:(lia) SH1 HR) as (SH2 & R1 & R2).
      set (h2 := for_ (range lo (Z.min kbot (k + 3))) h1 _) in *. clearbody h2.
      assert (HV : (k + 3 <= kbot)%Z \/ 0 = 0) by (right; reflexivity).
      destruct (pass2 h1 v' tau' v2' (B754_zero false) w2 0 t CH h2 ltac:(lia) eq_refl eq_refl SH2) as [LA EA]. cbv zeta in LA, EA.
      match type of LA with leftish _ _ _ _ ?x => set (h4 := x) in * end. clearbody h4.
      set (h5 := if (ktop <=? k)%Z then _ else h4).
      assert (H5 : leftish w2 0 t h2 h5 /\ ((ktop <= k)%Z -> get2 h5 (k + 1) k = get2 h2 (k + 1) k \/ zf (get2 h5 (k + 1) k) /\ Rabs (B2R (get2 h2 (k + 1) k)) <= d4)).
      { unfold h5. destruct (Z.leb_spec ktop k) as [KL|KL]; [|split; [exact LA|lia]].
        destruct (vig5 h1 v' tau' v2' (B754_zero false) w2 0 t CH HV h2 R1 R2 h4 h4 LA (EA KL) KL ltac:(reflexivity)) as [-> | [-> SM]]; [split; [exact LA|intros; left; apply EA; exact KL]|].
        split; [apply leftish_set; assumption|]. intros _. right. split; [|exact SM].
        rewrite (set2_get n) by (first [apply big_of; apply LA|lia]). rewrite !Z.eqb_refl. cbn [andb]. split; reflexivity. }
      destruct H5 as (L5 & D5). clearbody h5.
      assert (NX : forall z u wv wh vt, sval5 (k + 1) (mkQ5 h5 z v' u wv wh vt) (M (upd (k + 1) tau' v2' (B754_zero false) h5)) (rright (k + 1) w2 0 t Q) tau' v2' (B754_zero false)).
      { intros z u wv wh vt. apply (next5 h1 v' tau' v2' (B754_zero false) w2 0 t CH HV h2 R1 R2 (mkQ5 h5 z v' u wv wh vt)); cbn [qH qV]; [exact L5|exact D5|reflexivity|lia]. }
      destruct wantz; (cbn [bind for_M qH qV qZ qU qWv qWh qVt]; unfold q5_left_all; rewrite range_rev_nil by lia; cbn [for_ fold_left]; do 6 eexists; split; [reflexivity|apply NX]).
    Qed.
    Lemma krcol5 incol : exists st' G' Q' tau' v2' v3', krcol_ incol k st = Ok st' /\ sval5 (k + 1) st' G' Q' tau' v2' v3'.
    Proof. destruct (Z.eq_dec k (kbot - 2)); [apply krcol5_2; assumption|apply krcol5_3; lia]. Qed.
  End St.

  Definition sinv5 (k : Z) (st : q5st) : Prop := exists G Q tau v2 v3, sval5 k st G Q tau v2 v3.
  Notation krcol_ := (q5_krcol wantt wantz false n ktop kbot 1 sr si ldh iloz ihiz ldv).
  Lemma krcol_step5 incol k st : (ktop - 1 <= k <= kbot - 2)%Z -> sinv5 k st -> exists st', krcol_ incol k st = Ok st' /\ sinv5 (k + 1) st'.
  Proof.
    intros K (G & Q & tau & v2 & v3 & S). destruct (krcol5 k st G Q tau v2 v3 S K incol) as (st' & G' & Q' & tau' & v2' & v3' & E & S').
    exists st'. split; [exact E|]. do 5 eexists. exact S'.
  Qed.
  Notation incol_ := (q5_incol wantt wantz false n ktop kbot 1 sr si ldh iloz ihiz ldz ldv ldu nv ldwv nh ldwh).
  Notation main_ := (q5_main wantt wantz false n ktop kbot 1 sr si ldh iloz ihiz ldz ldv ldu nv ldwv nh ldwh).
  Lemma incol_step5 incol st : (ktop - 1 <= incol <= kbot - 2)%Z -> sinv5 incol st ->
    exists st', incol_ incol st = Ok st' /\ sinv5 (Z.min (incol + 2) (kbot - 1)) st'.
  Proof.
    intros K S. unfold q5_incol. cbn [bind].
    assert (S' : sinv5 incol (mkQ5 (qH st) (qZ st) (qV st) (qU st) (qWv st) (qWh st) (qVt st))) by (destruct st; exact S).
    replace (incol + 2 * 1 - 1)%Z with (incol + 1)%Z by lia. rewrite range_cons by lia. cbn [for_M].
    destruct (krcol_step5 incol incol _ K S') as (st1 & -> & S1'). cbn [bind].
    destruct (Z_lt_le_dec incol (kbot - 2)).
    - rewrite range_cons, range_nil by lia. cbn [for_M]. destruct (krcol_step5 incol (incol + 1) st1) as (st2 & -> & S2'); [lia|exact S1'|]. cbn [bind].
      exists st2. split; [reflexivity|]. replace (Z.min (incol + 2) (kbot - 1)) with (incol + 1 + 1)%Z by lia. exact S2'.
    - rewrite range_nil by lia. exists st1. split; [reflexivity|]. replace (Z.min (incol + 2) (kbot - 1)) with (incol + 1)%Z by lia. exact S1'.
  Qed.
  Lemma incols5 m : forall incol st, (1 <= m)%nat -> (ktop - 1 <= incol)%Z -> (incol + 2 * (Z.of_nat m - 1) <= kbot - 2 < incol + 2 * Z.of_nat m)%Z -> sinv5 incol st ->
    exists st', for_M (zup incol 2 m) st incol_ = Ok st' /\ sinv5 (Z.min (incol + 2 * Z.of_nat m) (kbot - 1)) st'.
  Proof.
    induction m as [|m IH]; intros incol st K0 K1 K2 Si; [lia|]. cbn [zup for_M].
    destruct (incol_step5 incol st) as (st1 & -> & S1'); [lia|exact Si|]. cbn [bind].
    destruct m as [|m'].
    - cbn [zup for_M]. exists st1. split; [reflexivity|exact S1'].
    - replace (Z.min (incol + 2) (kbot - 1)) with (incol + 2)%Z in S1' by lia.
      destruct (IH (incol + 2)%Z st1) as (st2 & E2 & S2'); [lia|lia|lia|exact S1'|]. exists st2. split; [exact E2|].
      replace (incol + 2 * Z.of_nat (S (S m')))%Z with (incol + 2 + 2 * Z.of_nat (S m'))%Z by lia. exact S2'.
  Qed.

  (** the state the sweep starts from *)
  Lemma start5 st : qH st = (if (ktop + 2 <=? kbot)%Z then set2 h0 (ktop + 2) ktop f0 else h0) -> same_shape (qV st) v0 -> sinv5 (ktop - 1) st.
  Proof.
    intros EH SV. pose proof lo5_ok as X1. pose proof hi5_ok as X2. exists H0, Rid, (f0 : b64), (f0 : b64), (f0 : b64).
    assert (SH : same_shape (qH st) h0) by (rewrite EH; destruct (_ <=? _)%Z; [apply set2_shape|apply same_shape_refl]).
    assert (GE : forall a b, (1 <= a <= n)%Z -> (1 <= b <= n)%Z -> get2 (qH st) a b = if ((ktop + 2 <=? kbot) && ((a =? ktop + 2) && (b =? ktop)))%Z then f0 else get2 h0 a b).
    { intros a b Ha Hb. rewrite EH. destruct (Z.leb_spec (ktop + 2) kbot); cbn [andb]; [|reflexivity]. rewrite (set2_get n) by (first [exact BIGH|lia]). reflexivity. }
    split.
    - exact SH.
    - exact SV.
    - intros; lia.
    - intros a b Ha Hb. rewrite upd_F by lia. rewrite GE by lia. destruct (Z.leb_spec (ktop + 2) kbot); cbn [andb]; [|split; [apply FIN; assumption|reflexivity]].
      destruct (Z.eqb_spec a (ktop + 2)) as [->|]; cbn [andb]; [|split; [apply FIN; assumption|reflexivity]].
      destruct (Z.eqb_spec b ktop) as [->|]; [|split; [apply FIN; assumption|reflexivity]].
      split; [reflexivity|]. symmetry. apply (HESS (ktop + 2)%Z ktop); lia.
    - intros a b Ha Hb NX. rewrite GE by lia. destruct (Z.leb_spec (ktop + 2) kbot); cbn [andb]; [|reflexivity].
      destruct (Z.eqb_spec a (ktop + 2)) as [->|]; cbn [andb]; [|reflexivity]. destruct (Z.eqb_spec b ktop) as [->|]; [lia|reflexivity].
    - intros j Hj. rewrite GE by lia. destruct (Z.eqb_spec (j + 1) (ktop + 2)), (Z.eqb_spec j ktop); try lia; cbn [andb]; rewrite ?andb_false_r; reflexivity.
    - intros _ a b _ _. reflexivity.
    - reflexivity.
    - intros; lia.
    - intros i j _. reflexivity.
    - replace (ktop - 1 + 1)%Z with ktop by lia. apply chase_start; [lia|lia|exact HESS|exact ISO1|exact ISO2].
    - replace (ktop - 1 - ktop + 1)%Z with 0%Z by lia. rewrite Rmult_0_l. apply simf_start.
  Qed.

  Lemma main5 st : qH st = h0 -> qV st = v0 -> exists st', main_ st = Ok st' /\ same_shape (qH st') h0 /\
    (forall a b, inr a -> inr b -> is_finite (get2 (qH st') a b) = true) /\ hessenberg lo hi (M (qH st')) /\
    (exists Q, simf lo hi H0 (Xm * (2 * y)) (M (qH st')) Q /\ identity_outside ktop kbot Q /\ fcol Q) /\
    (forall a b, (1 <= a <= n)%Z -> (1 <= b <= n)%Z -> ~ (inr a /\ inr b) -> get2 (qH st') a b = get2 h0 a b).
  Proof.
    intros EH EV. pose proof lo5_ok as X1. pose proof hi5_ok as X2. unfold q5_main.
    replace (ktop - 2 * 1 + 1)%Z with (ktop - 1)%Z by lia. replace (2 * 1)%Z with 2%Z by lia.
    unfold range_step. destruct (Z.ltb_spec (kbot - 2) (ktop - 1)); [lia|].
    set (m := Z.to_nat ((kbot - 2 - (ktop - 1)) / 2 + 1)).
    assert (EM : (Z.of_nat m = (kbot - 2 - (ktop - 1)) / 2 + 1)%Z) by (unfold m; rewrite Z2Nat.id; [reflexivity|]; pose proof (Z.div_pos (kbot - 2 - (ktop - 1)) 2 ltac:(lia) ltac:(lia)); lia).
    pose proof (Z.div_mod (kbot - 2 - (ktop - 1)) 2 ltac:(lia)) as DM. pose proof (Z.mod_pos_bound (kbot - 2 - (ktop - 1)) 2 ltac:(lia)) as MB.
    match goal with |- context [for_M _ ?s _] => set (st1 := s) end.
    assert (T0 : sinv5 (ktop - 1) st1) by (apply start5; [unfold st1; cbn [qH]; rewrite EH; reflexivity|unfold st1; cbn [qV]; rewrite EV; apply same_shape_refl]).
    destruct (incols5 m (ktop - 1) st1) as (st' & E & S'); [lia|lia|lia|exact T0|].
    exists st'. split; [exact E|]. replace (Z.min (ktop - 1 + 2 * Z.of_nat m) (kbot - 1)) with (kbot - 1)%Z in S' by lia.
    destruct S' as (G & Q & tau & v2 & v3 & S'). assert (SI := s_in _ _ _ _ _ _ _ S'). rewrite upd_F in SI by lia.
    split; [apply S'|]. split; [intros a b Ha Hb; apply SI; assumption|].
    split.
    { intros a b Ha Hb L. rewrite (proj2 (SI a b Ha Hb)). pose proof (s_chase _ _ _ _ _ _ _ S') as C. replace (kbot - 1 + 1)%Z with kbot in C by lia. exact (chase_end _ _ _ _ _ C a b Ha Hb L). }
    split; [|apply (s_out _ _ _ _ _ _ _ S')].
    exists Q. split; [|split; [apply (s_id _ _ _ _ _ _ _ S')|apply (s_col _ _ _ _ _ _ _ S'); lia]].
    assert (C := s_sim _ _ _ _ _ _ _ S'). replace (kbot - 1 - ktop + 1)%Z with (kbot - ktop)%Z in C by lia.
    refine (simf_ext _ _ _ _ _ _ _ C _). intros i j Hi Hj. symmetry. apply SI; assumption.
  Qed.
End Loop5.
