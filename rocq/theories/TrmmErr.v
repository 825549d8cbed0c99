(** dtrmm, drot and dscal in binary64: bounds on the rounding error of every element. *)
From Coq Require Import Reals Lra.
From Flocq Require Import IEEE754.BinarySingleNaN Core.
From Verif Require Import Base Num Array Blas Spec SpecBlas SpecR SpecErr B64 B64Lemmas B64Nn Lists RsumLemmas RoundErr FaLemmas Blas1Proofs TrmmTop GemmErr.
Open Scope R_scope.

Section Err.
  Context (lm : libm).
  #[local] Instance NBt : Num b64 := B64 lm.

  Lemma lsum_nonneg f ks : (forall k, In k ks -> 0 <= f k) -> 0 <= lsum f ks.
  Proof. induction ks as [|k ks IH]; cbn; intros H; [lra|]. pose proof (H k (or_introl eq_refl)). specialize (IH (fun k Hk => H k (or_intror Hk))). lra. Qed.
  Lemma lsum_abs f m ks : (forall k, In k ks -> Rabs (f k) <= m k) -> Rabs (lsum f ks) <= lsum m ks.
  Proof.
    induction ks as [|k ks IH]; cbn; intros H; [rewrite Rabs_R0; lra|]. eapply Rle_trans; [apply Rabs_triang|].
    pose proof (H k (or_introl eq_refl)). specialize (IH (fun k Hk => H k (or_intror Hk))). lra.
  Qed.
  Lemma lsum_scal c f ks : lsum (fun k => c * f k) ks = c * lsum f ks.
  Proof. induction ks as [|k ks IH]; cbn; [ring|]. rewrite IH. ring. Qed.
  Lemma lsum_le f g ks : (forall k, In k ks -> f k <= g k) -> lsum f ks <= lsum g ks.
  Proof. induction ks as [|k ks IH]; cbn; intros H; [lra|]. pose proof (H k (or_introl eq_refl)). specialize (IH (fun k Hk => H k (or_intror Hk))). lra. Qed.

  Lemma add_terms_err (sk : Z -> bool) (t : Z -> b64) (T m d : Z -> R) ks : forall q (x : b64) X mX dX,
    (is_finite x = true -> Rabs (B2R x - X) <= gam q * mX + P ^ q * dX) -> Rabs X <= mX -> 0 <= dX ->
    (forall k, In k ks -> sk k = true -> T k = 0) ->
    (forall k, In k ks -> sk k = false -> is_finite (t k) = true -> Rabs (B2R (t k) - T k) <= gam q * m k + P ^ q * d k) ->
    (forall k, In k ks -> Rabs (T k) <= m k /\ 0 <= d k) ->
    is_finite (add_terms x sk t ks) = true ->
    Rabs (B2R (add_terms x sk t ks) - (X + lsum T ks)) <= gam (q + length ks) * (mX + lsum m ks) + P ^ (q + length ks) * (dX + lsum d ks).
  Proof.
    unfold add_terms. induction ks as [|k ks IH]; intros q x X mX dX Hx HX HD Hs Ht HT F; cbn [fold_left lsum length] in *.
    - rewrite Nat.add_0_r, !Rplus_0_r. apply Hx. exact F.
    - replace (X + (T k + lsum T ks)) with (X + T k + lsum T ks) by ring.
      replace (mX + (m k + lsum m ks)) with (mX + m k + lsum m ks) by ring.
      replace (dX + (d k + lsum d ks)) with (dX + d k + lsum d ks) by ring.
      rewrite <- Nat.add_succ_comm. destruct (HT k (or_introl eq_refl)) as [T0 D0]. pose proof (Rabs_pos (T k)) as T1. pose proof u64_pos as U.
      assert (HXm : 0 <= mX) by (pose proof (Rabs_pos X); lra).
      apply IH; [| | | | | |exact F].
      + destruct (sk k) eqn:SK.
        * intros Fx. rewrite (Hs k (or_introl eq_refl) SK). rewrite Rplus_0_r. eapply Rle_trans; [apply Hx; exact Fx|].
          pose proof (gam_pos q). pose proof (gam_le q (S q) ltac:(lia)). pose proof (Pn_le q (S q) ltac:(lia)). pose proof (Pn_ge q).
          apply Rplus_le_compat; apply Rmult_le_compat; lra.
        * intros Fs. change (is_finite (Bplus mode_NE x (t k)) = true) in Fs. change (x + t k)%num with (Bplus mode_NE x (t k)).
          destruct (plus_fin x (t k) Fs) as (Fx & Fl & _ & E).
          assert (E2 : Rabs (B2R x + B2R (t k) - (X + T k)) <= (gam q * mX + P ^ q * dX) + (gam q * m k + P ^ q * d k)).
          { replace (B2R x + B2R (t k) - (X + T k)) with ((B2R x - X) + (B2R (t k) - T k)) by ring.
            eapply Rle_trans; [apply Rabs_triang|]. apply Rplus_le_compat; [apply Hx; exact Fx|apply Ht; [left; reflexivity|exact SK|exact Fl]]. }
          eapply Rle_trans; [apply (err_step _ _ _ _ E E2)|]. rewrite gam_S. cbn [pow].
          assert (A : Rabs (X + T k) <= mX + m k) by (eapply Rle_trans; [apply Rabs_triang|lra]).
          assert (u64 * Rabs (X + T k) <= u64 * (mX + m k)) by (apply Rmult_le_compat_l; lra). lra.
      + eapply Rle_trans; [apply Rabs_triang|lra].
      + lra.
      + intros l Hl. apply Hs. right. exact Hl.
      + intros l Hl Sl Fl. eapply Rle_trans; [apply Ht; [right; exact Hl|exact Sl|exact Fl]|]. destruct (HT l (or_intror Hl)) as [Tl Dl].
        pose proof (Rabs_pos (T l)). apply Rplus_le_compat; (apply Rmult_le_compat_r; [lra|]); [apply gam_le; lia|apply Pn_le; lia].
      + intros l Hl. apply HT. right. exact Hl.
  Qed.

  (** the indices strictly to one side of dg *)
  Definition side_list (dg K : Z) (ks : list Z) : Prop := ks = range (dg + 1) K \/ ks = range 1 (dg - 1) \/ ks = range_rev 1 (dg - 1).
  Lemma side_le dg K ks f : (1 <= dg <= K)%Z -> side_list dg K ks -> (forall k, 0 <= f k) -> f dg + lsum f ks <= Rsum_range f 1 K.
  Proof.
    intros Hd S Hf. rewrite (Rsum_range_split f 1 dg K) by lia.
    assert (0 <= Rsum_range f 1 (dg - 1)) by (apply Rsum_range_nonneg; intros; apply Hf).
    assert (0 <= Rsum_range f (dg + 1) K) by (apply Rsum_range_nonneg; intros; apply Hf).
    destruct S as [-> | [-> | ->]]; rewrite ?lsum_range, ?lsum_range_rev; lra.
  Qed.
  Lemma side_eq dg K ks f : (1 <= dg <= K)%Z -> side_list dg K ks -> (forall k, (1 <= k <= K)%Z -> k <> dg -> ~ In k ks -> f k = 0) ->
    f dg + lsum f ks = Rsum_range f 1 K.
  Proof.
    intros Hd S Hf. rewrite (Rsum_range_split f 1 dg K) by lia.
    destruct S as [-> | [-> | ->]]; rewrite ?lsum_range, ?lsum_range_rev.
    - rewrite (Rsum_range_zero f 1 (dg - 1)); [ring|]. intros k Hk. apply Hf; [lia|lia|]. rewrite in_range. lia.
    - rewrite (Rsum_range_zero f (dg + 1) K); [ring|]. intros k Hk. apply Hf; [lia|lia|]. rewrite in_range. lia.
    - rewrite (Rsum_range_zero f (dg + 1) K); [ring|]. intros k Hk. apply Hf; [lia|lia|]. rewrite in_range_rev. lia.
  Qed.
  Lemma side_len dg K ks : (1 <= dg <= K)%Z -> side_list dg K ks -> (length ks <= Z.to_nat K - 1)%nat.
  Proof. intros Hd [-> | [-> | ->]]; rewrite ?range_rev_rev, ?rev_length; unfold range; rewrite ?zup_length; lia. Qed.

  Definition und (A X : Z -> R) (al : R) (K : Z) : R := Rsum_range (fun k => Rabs (A k) + Rabs (X k) + Rabs al + 1) 1 K.
  Definition errb (A X : Z -> R) (al : R) (K : Z) : R :=
    gam (Z.to_nat K + 1) * (Rabs al * Rsum_range (fun k => Rabs (A k) * Rabs (X k)) 1 K) + P ^ (Z.to_nat K + 1) * (eta64 * und A X al K).

  Lemma und_nonneg A X al K : 0 <= und A X al K.
  Proof. apply Rsum_range_nonneg. intros k _. pose proof (Rabs_pos (A k)). pose proof (Rabs_pos (X k)). pose proof (Rabs_pos al). lra. Qed.
  Lemma mag_nonneg A X K : 0 <= Rsum_range (fun k => Rabs (A k) * Rabs (X k)) 1 K.
  Proof. apply Rsum_range_nonneg. intros. apply Rmult_le_pos; apply Rabs_pos. Qed.

  Lemma sum_ext A X X' K : (forall k, (1 <= k <= K)%Z -> X k = X' k) -> Rsum_range (fun k => A k * X k) 1 K = Rsum_range (fun k => A k * X' k) 1 K.
  Proof. intros H. apply Rsum_range_ext. intros k Hk. rewrite H by exact Hk. reflexivity. Qed.
  Lemma errb_ext A X X' al K : (forall k, (1 <= k <= K)%Z -> X k = X' k) -> errb A X al K = errb A X' al K.
  Proof. intros H. unfold errb, und. f_equal; f_equal; f_equal; apply Rsum_range_ext; intros k Hk; rewrite H by exact Hk; reflexivity. Qed.

  (** alpha times a sum, the factor alpha in every term *)
  Lemma axpy_chain dg K ks sk t (A X : Z -> R) al (st : b64) : (1 <= dg <= K)%Z -> side_list dg K ks ->
    (forall k, (1 <= k <= K)%Z -> k <> dg -> ~ In k ks -> A k = 0) ->
    (is_finite st = true -> Rabs (B2R st - al * (A dg * X dg)) <= gam 2 * Rabs (al * (A dg * X dg)) + P ^ 2 * (eta64 * (Rabs (A dg) + Rabs (X dg) + 1))) ->
    (forall k, In k ks -> sk k = true -> A k * X k = 0) ->
    (forall k, In k ks -> sk k = false -> is_finite (t k) = true -> Rabs (B2R (t k) - al * (A k * X k)) <= gam 2 * Rabs (al * (A k * X k)) + P ^ 2 * (eta64 * (Rabs (A k) + Rabs (X k) + 1))) ->
    is_finite (add_terms st sk t ks) = true ->
    Rabs (B2R (add_terms st sk t ks) - al * Rsum_range (fun k => A k * X k) 1 K) <= errb A X al K.
  Proof.
    intros Hd S HA Hst Hsk Ht F. pose proof eta64_pos as H0. pose proof (side_len _ _ _ Hd S) as Len.
    assert (Dp : forall k, 0 <= eta64 * (Rabs (A k) + Rabs (X k) + 1)) by (intros k; apply Rmult_le_pos; [lra|]; pose proof (Rabs_pos (A k)); pose proof (Rabs_pos (X k)); lra).
    assert (Mp : forall k, 0 <= Rabs al * (Rabs (A k) * Rabs (X k))) by (intros k; apply Rmult_le_pos; [apply Rabs_pos|apply Rmult_le_pos; apply Rabs_pos]).
    pose proof (add_terms_err sk t (fun k => al * (A k * X k)) (fun k => Rabs al * (Rabs (A k) * Rabs (X k))) (fun k => eta64 * (Rabs (A k) + Rabs (X k) + 1)) ks 2 st
      (al * (A dg * X dg)) (Rabs al * (Rabs (A dg) * Rabs (X dg))) (eta64 * (Rabs (A dg) + Rabs (X dg) + 1))) as E.
    assert (E' : Rabs (B2R (add_terms st sk t ks) - (al * (A dg * X dg) + lsum (fun k => al * (A k * X k)) ks)) <=
      gam (2 + length ks) * (Rabs al * (Rabs (A dg) * Rabs (X dg)) + lsum (fun k => Rabs al * (Rabs (A k) * Rabs (X k))) ks) +
      P ^ (2 + length ks) * (eta64 * (Rabs (A dg) + Rabs (X dg) + 1) + lsum (fun k => eta64 * (Rabs (A k) + Rabs (X k) + 1)) ks)).
    { apply E; [rewrite <- !Rabs_mult; exact Hst|rewrite !Rabs_mult; lra|apply Dp| | | |exact F].
      - intros k Hk SK. rewrite (Hsk k Hk SK). ring.
      - intros k Hk SK Fk. rewrite <- !Rabs_mult. apply Ht; assumption.
      - intros k _. rewrite !Rabs_mult. split; [lra|apply Dp]. }
    clear E. rewrite (side_eq dg K ks (fun k => al * (A k * X k)) Hd S) in E' by (intros k H1 H2 H3; rewrite (HA k H1 H2 H3); ring).
    rewrite Rsum_range_scal in E'. eapply Rle_trans; [exact E'|]. unfold errb. apply Rplus_le_compat; apply Rmult_le_compat.
    - apply gam_pos.
    - apply Rplus_le_le_0_compat; [apply Mp|apply lsum_nonneg; intros; apply Mp].
    - apply gam_le. lia.
    - rewrite <- Rsum_range_scal. apply (side_le dg K ks (fun k => Rabs al * (Rabs (A k) * Rabs (X k)))); assumption.
    - pose proof (Pn_ge (2 + length ks)). lra.
    - apply Rplus_le_le_0_compat; [apply Dp|apply lsum_nonneg; intros; apply Dp].
    - apply Pn_le. lia.
    - eapply Rle_trans; [apply (side_le dg K ks (fun k => eta64 * (Rabs (A k) + Rabs (X k) + 1))); assumption|]. unfold und. rewrite Rsum_range_scal. apply Rmult_le_compat_l; [lra|].
      apply Rsum_range_le. intros k _. pose proof (Rabs_pos al). lra.
  Qed.

  (** the same, multiplied by alpha at the end *)
  Lemma dot_chain dg K ks (t : Z -> b64) (A X : Z -> R) (al st : b64) : (1 <= dg <= K)%Z -> side_list dg K ks ->
    (forall k, (1 <= k <= K)%Z -> k <> dg -> ~ In k ks -> A k = 0) ->
    (is_finite st = true -> Rabs (B2R st - A dg * X dg) <= u64 * Rabs (A dg * X dg) + eta64) ->
    (forall k, In k ks -> is_finite (t k) = true -> Rabs (B2R (t k) - A k * X k) <= u64 * Rabs (A k * X k) + eta64) ->
    is_finite (Bmult mode_NE al (add_terms st (fun _ => false) t ks)) = true ->
    Rabs (B2R (Bmult mode_NE al (add_terms st (fun _ => false) t ks)) - B2R al * Rsum_range (fun k => A k * X k) 1 K) <= errb A X (B2R al) K.
  Proof.
    intros Hd S HA Hst Ht F. pose proof eta64_pos as H0. pose proof u64_pos as U0. pose proof (side_len _ _ _ Hd S) as Len.
    destruct (mult_fin _ _ F) as (_ & FT & _ & EM).
    assert (G1 : forall z y, Rabs (z - y) <= u64 * Rabs y + eta64 -> Rabs (z - y) <= gam 1 * Rabs y + P ^ 1 * eta64).
    { intros z y H. rewrite gam1. eapply Rle_trans; [exact H|]. cbn [pow]. nra. }
    assert (E' : Rabs (B2R (add_terms st (fun _ => false) t ks) - (A dg * X dg + lsum (fun k => A k * X k) ks)) <=
      gam (1 + length ks) * (Rabs (A dg) * Rabs (X dg) + lsum (fun k => Rabs (A k) * Rabs (X k)) ks) +
      P ^ (1 + length ks) * (eta64 + lsum (fun _ => eta64) ks)).
    { apply (add_terms_err (fun _ => false) t (fun k => A k * X k) (fun k => Rabs (A k) * Rabs (X k)) (fun _ => eta64) ks 1 st); [|rewrite Rabs_mult; lra|lra|discriminate| | |exact FT].
      - intros Fs. rewrite <- Rabs_mult. apply G1. apply Hst. exact Fs.
      - intros k Hk _ Fk. rewrite <- Rabs_mult. apply G1. apply Ht; assumption.
      - intros k _. rewrite Rabs_mult. lra. }
    rewrite (side_eq dg K ks (fun k => A k * X k) Hd S) in E' by (intros k H1 H2 H3; rewrite (HA k H1 H2 H3); ring).
    set (T := add_terms _ _ _ _) in *. set (SS := Rsum_range (fun k => A k * X k) 1 K) in *.
    set (M := Rsum_range (fun k => Rabs (A k) * Rabs (X k)) 1 K).
    assert (LM : Rabs (A dg) * Rabs (X dg) + lsum (fun k => Rabs (A k) * Rabs (X k)) ks <= M)
      by (apply (side_le dg K ks (fun k => Rabs (A k) * Rabs (X k))); [assumption..|intros; apply Rmult_le_pos; apply Rabs_pos]).
    assert (LD : eta64 + lsum (fun _ => eta64) ks <= Rsum_range (fun _ => eta64) 1 K) by (apply (side_le dg K ks (fun _ => eta64)); [assumption..|intros; lra]).
    set (q := Z.to_nat K). assert (Lq : (1 + length ks <= q)%nat) by (unfold q; lia).
    assert (L0 : 0 <= lsum (fun _ => eta64) ks) by (apply lsum_nonneg; intros; lra).
    assert (M0 : 0 <= Rabs (A dg) * Rabs (X dg) + lsum (fun k => Rabs (A k) * Rabs (X k)) ks) by (apply Rplus_le_le_0_compat; [|apply lsum_nonneg; intros]; apply Rmult_le_pos; apply Rabs_pos).
    assert (E2 : Rabs (B2R T - SS) <= gam q * M + P ^ q * Rsum_range (fun _ => eta64) 1 K).
    { eapply Rle_trans; [exact E'|]. apply Rplus_le_compat; apply Rmult_le_compat; try assumption; try apply gam_pos; try (apply gam_le; exact Lq); try (apply Pn_le; exact Lq); [pose proof (Pn_ge (1 + length ks)); lra|lra]. }
    assert (E3 : Rabs (B2R al * B2R T - B2R al * SS) <= Rabs (B2R al) * (gam q * M + P ^ q * Rsum_range (fun _ => eta64) 1 K)).
    { rewrite <- Rmult_minus_distr_l, Rabs_mult. apply Rmult_le_compat_l; [apply Rabs_pos|exact E2]. }
    eapply Rle_trans; [apply (err_step_eta _ _ _ _ EM E3)|]. unfold errb. fold M q. rewrite Nat.add_1_r, gam_S. change (P ^ Datatypes.S q) with (P * P ^ q).
    assert (AS : Rabs SS <= M). { unfold SS, M. rewrite <- !lsum_range. apply lsum_abs. intros. rewrite Rabs_mult. lra. }
    rewrite Rabs_mult. pose proof (Rabs_pos (B2R al)) as Pa.
    assert (u64 * (Rabs (B2R al) * Rabs SS) <= u64 * (Rabs (B2R al) * M)) by (apply Rmult_le_compat_l; [lra|]; apply Rmult_le_compat_l; assumption).
    assert (UN : Rabs (B2R al) * Rsum_range (fun _ => eta64) 1 K + eta64 <= eta64 * und A X (B2R al) K).
    { unfold und. rewrite <- Rsum_range_scal. rewrite (Rsum_range_split (fun k => Rabs (B2R al) * eta64) 1 dg K) by lia. rewrite <- Rsum_range_scal. rewrite (Rsum_range_split _ 1 dg K) by lia.
      assert (Q : forall k, Rabs (B2R al) * eta64 <= eta64 * (Rabs (A k) + Rabs (X k) + Rabs (B2R al) + 1)).
      { intros k. pose proof (Rabs_pos (A k)). pose proof (Rabs_pos (X k)). nra. }
      pose proof (Rsum_range_le (fun _ => Rabs (B2R al) * eta64) (fun k => eta64 * (Rabs (A k) + Rabs (X k) + Rabs (B2R al) + 1)) 1 (dg - 1) (fun k _ => Q k)).
      pose proof (Rsum_range_le (fun _ => Rabs (B2R al) * eta64) (fun k => eta64 * (Rabs (A k) + Rabs (X k) + Rabs (B2R al) + 1)) (dg + 1) K (fun k _ => Q k)).
      assert (Rabs (B2R al) * eta64 + eta64 <= eta64 * (Rabs (A dg) + Rabs (X dg) + Rabs (B2R al) + 1)).
      { pose proof (Rabs_pos (A dg)). pose proof (Rabs_pos (X dg)). nra. }
      lra. }
    set (g := gam q) in *. assert (P1 : 1 <= P ^ q) by apply Pn_ge. set (p := P ^ q) in *. set (D := Rsum_range (fun _ => eta64) 1 K) in *. set (W := eta64 * und A X (B2R al) K) in *.
    assert (D0 : 0 <= Rabs (B2R al) * D) by (apply Rmult_le_pos; [exact Pa|]; clear - LD L0 H0; lra).
    assert (PP : 1 <= P * p) by (pose proof P_ge as HP; clear - P1 HP; nra).
    assert (P * p * (Rabs (B2R al) * D + eta64) <= P * p * W) by (apply Rmult_le_compat_l; lra).
    assert (1 * eta64 <= P * p * eta64) by (apply Rmult_le_compat_r; lra). lra.
  Qed.

  Lemma axpy_term' (al b a : b64) : is_finite (Bmult mode_NE (Bmult mode_NE al b) a) = true ->
    Rabs (B2R (Bmult mode_NE (Bmult mode_NE al b) a) - B2R al * (B2R a * B2R b)) <= gam 2 * Rabs (B2R al * (B2R a * B2R b)) + P ^ 2 * (eta64 * (Rabs (B2R a) + Rabs (B2R b) + 1)).
  Proof.
    intros F. eapply Rle_trans; [apply (axpy_term _ _ _ F)|]. apply Rplus_le_compat_l. apply Rmult_le_compat_l; [pose proof (Pn_ge 2); lra|].
    apply Rmult_le_compat_l; [pose proof eta64_pos; lra|]. pose proof (Rabs_pos (B2R b)). lra.
  Qed.
  Lemma axpy_term'' (al b a : b64) : is_finite (Bmult mode_NE (Bmult mode_NE al b) a) = true ->
    Rabs (B2R (Bmult mode_NE (Bmult mode_NE al b) a) - B2R al * (B2R b * B2R a)) <= gam 2 * Rabs (B2R al * (B2R b * B2R a)) + P ^ 2 * (eta64 * (Rabs (B2R b) + Rabs (B2R a) + 1)).
  Proof. intros F. rewrite (Rmult_comm (B2R b)), (Rplus_comm (Rabs (B2R b))). apply axpy_term'. exact F. Qed.
  Lemma one_mul (y al x : R) a : Rabs (y - al * x) <= u64 * Rabs (al * x) + eta64 -> 0 <= a -> Rabs (y - al * x) <= gam 2 * Rabs (al * x) + P ^ 2 * (eta64 * (a + 1)).
  Proof.
    intros H Ha. pose proof u64_pos. pose proof eta64_pos. eapply Rle_trans; [exact H|]. apply Rplus_le_compat.
    - apply Rmult_le_compat_r; [apply Rabs_pos|]. rewrite <- gam1. apply gam_le. lia.
    - assert (1 * (eta64 * 1) <= P ^ 2 * (eta64 * (a + 1))); [|lra]. apply Rmult_le_compat; [lra|lra|apply Pn_ge|]. apply Rmult_le_compat_l; lra.
  Qed.
  Lemma exact_val (y z m a : R) : y = z -> 0 <= m -> 0 <= a -> Rabs (y - z) <= gam 2 * m + P ^ 2 * (eta64 * (a + 1)).
  Proof.
    intros -> Hm Ha. replace (z - z) with 0 by ring. rewrite Rabs_R0. pose proof eta64_pos. apply Rplus_le_le_0_compat; apply Rmult_le_pos; try assumption; [apply gam_pos|pose proof (Pn_ge 2); lra|apply Rmult_le_pos; lra].
  Qed.

  (** entry (i,j) against the exact one; [Aop k] and [Xv k] are the two factors of term k *)
  Lemma trmm_err (lside upper notrans nounit : bool) m n (al : b64) a X i j (Am : Z -> Z -> R) :
    (1 <= i <= m)%Z -> (1 <= j <= n)%Z ->
    (forall p q, in_triangle upper nounit p q -> (1 <= p <= (if lside then m else n))%Z -> (1 <= q <= (if lside then m else n))%Z -> B2R (a p q) = Am p q) ->
    is_finite (trmm_entry lside upper notrans nounit m n al a X i j) = true ->
    let Aop k := if lside then tri_op notrans upper nounit Am i k else tri_op notrans upper nounit Am k j in
    let Xv k := if lside then B2R (X k j) else B2R (X i k) in
    let K := if lside then m else n in
    Rabs (B2R (trmm_entry lside upper notrans nounit m n al a X i j) - B2R al * Rsum_range (fun k => Aop k * Xv k) 1 K) <= errb Aop Xv (B2R al) K.
  Proof.
    intros Hi Hj HA F. cbv zeta. unfold trmm_entry in *. cbv zeta in *.
    destruct lside; (destruct notrans; unfold tri_op in *).
    - (* left, A *)
      apply (axpy_chain i); [exact Hi| | | | | |exact F].
      + destruct upper; [left|right; right]; reflexivity.
      + intros k Hk Nk Hin. unfold tri. destruct (Z.eqb_spec i k); [lia|]. destruct upper; rewrite ?in_range, ?in_range_rev in Hin; destruct (Z.ltb_spec i k), (Z.ltb_spec k i); try lia; reflexivity.
      + unfold tri. rewrite Z.eqb_refl. change (X i j =? f0)%num with (Beqb (X i j) (b64_dy 0 0)). destruct (Beqb (X i j) (b64_dy 0 0)) eqn:X0.
        * intros _. pose proof (b64_eqb0 _ X0) as E0. apply exact_val; [rewrite E0; ring|apply Rabs_pos|]. apply Rplus_le_le_0_compat; apply Rabs_pos.
        * destruct nounit.
          -- intros Fs. rewrite <- (HA i i) by (unfold in_triangle; auto; lia). apply axpy_term'. exact Fs.
          -- intros Fs. destruct (mult_fin _ _ Fs) as (_ & _ & _ & E). rewrite !Rmult_1_l. apply one_mul; [exact E|]. apply Rplus_le_le_0_compat; apply Rabs_pos.
      + intros k _ SK. rewrite (b64_eqb0 _ SK). ring.
      + intros k Hk _ Fk. assert (Hk' : (1 <= k <= m)%Z /\ in_triangle upper nounit i k).
        { unfold in_triangle. destruct upper; rewrite ?in_range, ?in_range_rev in Hk; lia. }
        assert (ET : tri upper nounit Am i k = B2R (a i k)).
        { rewrite HA by (tauto || lia). unfold tri. destruct upper; rewrite ?in_range, ?in_range_rev in Hk; destruct (Z.eqb_spec i k); try lia; destruct (Z.ltb_spec i k), (Z.ltb_spec k i); try lia; reflexivity. }
        rewrite ET. apply axpy_term'. exact Fk.
    - (* left, A^T *)
      change (fmul al) with (Bmult mode_NE al) in *. apply (dot_chain i); [exact Hi| | | | |exact F].
      + destruct upper; [right; left|left]; reflexivity.
      + intros k Hk Nk Hin. unfold tri. destruct (Z.eqb_spec k i); [lia|]. destruct upper; rewrite ?in_range, ?in_range_rev in Hin; destruct (Z.ltb_spec i k), (Z.ltb_spec k i); try lia; reflexivity.
      + unfold tri. rewrite Z.eqb_refl. destruct nounit.
        * intros Fs. rewrite <- (HA i i) by (unfold in_triangle; auto; lia). destruct (mult_fin _ _ Fs) as (_ & _ & _ & E). rewrite (Rmult_comm (B2R (a i i))). exact E.
        * intros _. rewrite Rmult_1_l. replace (B2R (X i j) - B2R (X i j)) with 0 by ring. rewrite Rabs_R0. pose proof u64_pos. pose proof eta64_pos. pose proof (Rabs_pos (B2R (X i j))). nra.
      + intros k Hk Fk. assert (Hk' : (1 <= k <= m)%Z /\ in_triangle upper nounit k i).
        { unfold in_triangle. destruct upper; rewrite ?in_range, ?in_range_rev in Hk; lia. }
        assert (ET : tri upper nounit Am k i = B2R (a k i)).
        { rewrite HA by (tauto || lia). unfold tri. destruct upper; rewrite ?in_range, ?in_range_rev in Hk; destruct (Z.eqb_spec k i); try lia; destruct (Z.ltb_spec i k), (Z.ltb_spec k i); try lia; reflexivity. }
        rewrite ET. destruct (mult_fin _ _ Fk) as (_ & _ & _ & E). exact E.
    - (* right, A *)
      apply (axpy_chain j); [exact Hj| | | | | |exact F].
      + destruct upper; [right; left|left]; reflexivity.
      + intros k Hk Nk Hin. unfold tri. destruct (Z.eqb_spec k j); [lia|]. destruct upper; rewrite ?in_range, ?in_range_rev in Hin; destruct (Z.ltb_spec j k), (Z.ltb_spec k j); try lia; reflexivity.
      + unfold tri. rewrite Z.eqb_refl. destruct nounit.
        * intros Fs. rewrite <- (HA j j) by (unfold in_triangle; auto; lia). apply axpy_term''. exact Fs.
        * intros Fs. destruct (mult_fin _ _ Fs) as (_ & _ & _ & E). rewrite !Rmult_1_l. apply one_mul; [exact E|]. apply Rplus_le_le_0_compat; apply Rabs_pos.
      + intros k Hk SK. assert (Hk' : (1 <= k <= n)%Z /\ in_triangle upper nounit k j).
        { unfold in_triangle. destruct upper; rewrite ?in_range, ?in_range_rev in Hk; lia. }
        assert (ET : tri upper nounit Am k j = B2R (a k j)).
        { rewrite HA by (tauto || lia). unfold tri. destruct upper; rewrite ?in_range, ?in_range_rev in Hk; destruct (Z.eqb_spec k j); try lia; destruct (Z.ltb_spec j k), (Z.ltb_spec k j); try lia; reflexivity. }
        rewrite ET, (b64_eqb0 _ SK). ring.
      + intros k Hk _ Fk. assert (Hk' : (1 <= k <= n)%Z /\ in_triangle upper nounit k j).
        { unfold in_triangle. destruct upper; rewrite ?in_range, ?in_range_rev in Hk; lia. }
        assert (ET : tri upper nounit Am k j = B2R (a k j)).
        { rewrite HA by (tauto || lia). unfold tri. destruct upper; rewrite ?in_range, ?in_range_rev in Hk; destruct (Z.eqb_spec k j); try lia; destruct (Z.ltb_spec j k), (Z.ltb_spec k j); try lia; reflexivity. }
        rewrite ET. apply axpy_term''. exact Fk.
    - (* right, A^T *)
      apply (axpy_chain j); [exact Hj| | | | | |exact F].
      + destruct upper; [left|right; right]; reflexivity.
      + intros k Hk Nk Hin. unfold tri. destruct (Z.eqb_spec j k); [lia|]. destruct upper; rewrite ?in_range, ?in_range_rev in Hin; destruct (Z.ltb_spec j k), (Z.ltb_spec k j); try lia; reflexivity.
      + unfold tri. rewrite Z.eqb_refl. set (t := if nounit then (al * a j j)%num else al). change (t =? f1)%num with (Beqb t (b64_dy 1 0)). destruct (Beqb t (b64_dy 1 0)) eqn:T1.
        * intros _. destruct (b64_eqb1 _ T1) as [T1v T1f]. unfold t in *. destruct nounit.
          -- rewrite <- (HA j j) by (unfold in_triangle; auto; lia). destruct (mult_fin _ _ T1f) as (_ & _ & _ & E). change (fmul al (a j j)) with (Bmult mode_NE al (a j j)) in *. rewrite T1v in E.
             set (z := B2R al * B2R (a j j)) in *. set (x := B2R (X i j)). replace (B2R al * (B2R (a j j) * x)) with (z * x) by (unfold z; ring).
             replace (x - z * x) with ((1 - z) * x) by ring. rewrite !Rabs_mult. pose proof (Rabs_pos x) as X0. pose proof (Rabs_pos (B2R (a j j))) as A0. pose proof (Rabs_pos z) as Z0. pose proof u64_pos. pose proof eta64_pos. pose proof (Pn_ge 2) as P2.
             apply Rle_trans with ((u64 * Rabs z + eta64) * Rabs x); [apply Rmult_le_compat_r; assumption|].
             assert (u64 * (Rabs z * Rabs x) <= gam 2 * (Rabs z * Rabs x)). { apply Rmult_le_compat_r; [nra|]. rewrite <- gam1. apply gam_le. lia. }
             assert (1 * (eta64 * Rabs x) <= P ^ 2 * (eta64 * (Rabs (B2R (a j j)) + Rabs x + 1))). { apply Rmult_le_compat; [lra|nra|exact P2|]. apply Rmult_le_compat_l; lra. }
             lra.
          -- apply exact_val; [rewrite T1v; ring|apply Rabs_pos|]. apply Rplus_le_le_0_compat; apply Rabs_pos.
        * unfold t. destruct nounit.
          -- intros Fs. rewrite <- (HA j j) by (unfold in_triangle; auto; lia). apply axpy_term''. exact Fs.
          -- intros Fs. destruct (mult_fin _ _ Fs) as (_ & _ & _ & E). rewrite !Rmult_1_l. apply one_mul; [exact E|]. apply Rplus_le_le_0_compat; apply Rabs_pos.
      + intros k Hk SK. assert (Hk' : (1 <= k <= n)%Z /\ in_triangle upper nounit j k).
        { unfold in_triangle. destruct upper; rewrite ?in_range, ?in_range_rev in Hk; lia. }
        assert (ET : tri upper nounit Am j k = B2R (a j k)).
        { rewrite HA by (tauto || lia). unfold tri. destruct upper; rewrite ?in_range, ?in_range_rev in Hk; destruct (Z.eqb_spec j k); try lia; destruct (Z.ltb_spec j k), (Z.ltb_spec k j); try lia; reflexivity. }
        rewrite ET, (b64_eqb0 _ SK). ring.
      + intros k Hk _ Fk. assert (Hk' : (1 <= k <= n)%Z /\ in_triangle upper nounit j k).
        { unfold in_triangle. destruct upper; rewrite ?in_range, ?in_range_rev in Hk; lia. }
        assert (ET : tri upper nounit Am j k = B2R (a j k)).
        { rewrite HA by (tauto || lia). unfold tri. destruct upper; rewrite ?in_range, ?in_range_rev in Hk; destruct (Z.eqb_spec j k); try lia; destruct (Z.ltb_spec j k), (Z.ltb_spec k j); try lia; reflexivity. }
        rewrite ET. apply axpy_term''. exact Fk.
  Qed.

  Lemma dtrmm_err side uplo transa diag m n (alpha : b64) (a : fa b64) lda (b : fa b64) ldb (lside upper notrans nounit : bool)
      (Am Bm : Z -> Z -> R) :
    none_bad (trmm_table side uplo transa diag m n lda ldb) ->
    (lside = true <-> letter side LL) -> (upper = true <-> letter uplo LU) ->
    (notrans = true <-> letter transa LN) -> (nounit = true <-> letter diag LN) ->
    holds_block b m n -> op_is64 true b m n Bm ->
    (forall i j, (1 <= i <= (if lside then m else n))%Z -> (1 <= j <= (if lside then m else n))%Z ->
       in_triangle upper nounit i j -> exists v, ent a i j = Some v /\ val64 v = Am i j) ->
    exists r, dtrmm side uplo transa diag m n alpha a lda b ldb = Ok (a, r) /\ same_shape r b /\
      forall i j, (1 <= i <= m)%Z -> (1 <= j <= n)%Z -> exists y, ent r i j = Some y /\
        let Aop k := if lside then tri_op notrans upper nounit Am i k else tri_op notrans upper nounit Am k j in
        let X k := if lside then Bm k j else Bm i k in
        let K := if lside then m else n in
        (is_finite y = true ->
         Rabs (val64 y - val64 alpha * Rsum_range (fun k => Aop k * X k) 1 K) <=
           gam (Z.to_nat K + 1) * (Rabs (val64 alpha) * Rsum_range (fun k => Rabs (Aop k) * Rabs (X k)) 1 K) +
           (1 + u64) ^ (Z.to_nat K + 1) * (eta64 * Rsum_range (fun k => Rabs (Aop k) + Rabs (X k) + Rabs (val64 alpha) + 1) 1 K)).
  Proof.
    intros V HL HU HN HD Hb HB HA.
    destruct (dtrmm_fortran side uplo transa diag m n alpha a lda b ldb _ _ _ _ V HL HU HN HD Hb) as (r & E & S1 & U & O).
    exists r. split; [exact E|]. split; [exact S1|]. intros i j Hi Hj. eexists. split.
    { rewrite U by assumption. rewrite (ent_get2 b i j) by (eapply holds_block_pos; eassumption). reflexivity. }
    cbv zeta. assert (XB : forall p q, (1 <= p <= m)%Z -> (1 <= q <= n)%Z -> B2R (get2 b p q) = Bm p q).
    { intros p q Hp Hq. destruct (HB p q Hp Hq) as (v & Ev & <-). cbn iota in Ev. unfold val64. rewrite get2_ent, Ev. reflexivity. }
    change (alpha =? f0)%num with (Beqb alpha (b64_dy 0 0)). destruct (Beqb alpha (b64_dy 0 0)) eqn:A0.
    - intros _. unfold val64. rewrite (b64_eqb0 _ A0). change (B2R f0) with 0. rewrite !Rmult_0_l, Rminus_0_r, Rabs_R0. rewrite Rmult_0_l, Rmult_0_r, Rplus_0_l.
      pose proof eta64_pos. apply Rmult_le_pos; [pose proof (Pn_ge (Z.to_nat (if lside then m else n) + 1)); lra|]. apply Rmult_le_pos; [lra|].
      apply Rsum_range_nonneg. intros k _. repeat apply Rplus_le_le_0_compat; try apply Rabs_pos; lra.
    - intros F. pose proof (trmm_err lside upper notrans nounit m n alpha (get2 a) (get2 b) i j Am Hi Hj) as T. cbv zeta in T.
      assert (HA' : forall p q, in_triangle upper nounit p q -> (1 <= p <= (if lside then m else n))%Z -> (1 <= q <= (if lside then m else n))%Z -> B2R (get2 a p q) = Am p q).
      { intros p q HT Hp Hq. destruct (HA p q Hp Hq HT) as (v & Ev & <-). unfold val64. rewrite get2_ent, Ev. reflexivity. }
      specialize (T HA' F). clear HA' F.
      assert (XE : forall k, (1 <= k <= (if lside then m else n))%Z -> (if lside then B2R (get2 b k j) else B2R (get2 b i k)) = (if lside then Bm k j else Bm i k)).
      { intros k Hk. destruct lside; apply XB; lia. }
      rewrite (errb_ext _ _ _ _ _ XE) in T. rewrite (sum_ext _ _ _ _ XE) in T.
      exact T.
  Qed.

  (** *** dscal and drot *)
  Lemma rot_term (c x s y : b64) (sub : bool) : let r := if sub then (c * x - s * y)%num else (c * x + s * y)%num in
    is_finite r = true ->
    Rabs (B2R r - (if sub then B2R c * B2R x - B2R s * B2R y else B2R c * B2R x + B2R s * B2R y)) <=
      gam 2 * (Rabs (B2R c * B2R x) + Rabs (B2R s * B2R y)) + 2 * (1 + u64) * eta64.
  Proof.
    cbv zeta. set (cx := B2R c * B2R x). set (sy := B2R s * B2R y). pose proof u64_pos as U. pose proof eta64_pos as H0.
    assert (G : forall z w, Rabs (z - w) <= (u64 * Rabs cx + eta64) + (u64 * Rabs sy + eta64) -> Rabs w <= Rabs cx + Rabs sy -> forall v, Rabs (v - z) <= u64 * Rabs z ->
      Rabs (v - w) <= gam 2 * (Rabs cx + Rabs sy) + 2 * (1 + u64) * eta64).
    { intros z w E1 E2 v Ev. eapply Rle_trans; [apply (err_step _ _ _ _ Ev E1)|]. rewrite gam2. assert (u64 * Rabs w <= u64 * (Rabs cx + Rabs sy)) by (apply Rmult_le_compat_l; lra). lra. }
    destruct sub; intros F.
    - change (is_finite (Bminus mode_NE (Bmult mode_NE c x) (Bmult mode_NE s y)) = true) in F. destruct (minus_fin _ _ F) as (F1 & F2 & _ & E).
      destruct (mult_fin _ _ F1) as (_ & _ & _ & E1). destruct (mult_fin _ _ F2) as (_ & _ & _ & E2). fold cx in E1. fold sy in E2.
      eapply G; [| |exact E].
      + replace (_ - (cx - sy)) with ((B2R (Bmult mode_NE c x) - cx) + - (B2R (Bmult mode_NE s y) - sy)) by ring.
        eapply Rle_trans; [apply Rabs_triang|]. rewrite Rabs_Ropp. lra.
      + unfold Rminus. eapply Rle_trans; [apply Rabs_triang|]. rewrite Rabs_Ropp. lra.
    - change (is_finite (Bplus mode_NE (Bmult mode_NE c x) (Bmult mode_NE s y)) = true) in F. destruct (plus_fin _ _ F) as (F1 & F2 & _ & E).
      destruct (mult_fin _ _ F1) as (_ & _ & _ & E1). destruct (mult_fin _ _ F2) as (_ & _ & _ & E2). fold cx in E1. fold sy in E2.
      eapply G; [| |exact E].
      + replace (_ - (cx + sy)) with ((B2R (Bmult mode_NE c x) - cx) + (B2R (Bmult mode_NE s y) - sy)) by ring.
        eapply Rle_trans; [apply Rabs_triang|]. lra.
      + apply Rabs_triang.
  Qed.

  Lemma dscal_err {DX} {TX : ToFA b64 DX} {FX : FromFA b64 DX} n (da : b64) (dx : DX) incx : (1 <= n)%Z -> (1 <= incx)%Z ->
    exists d, dscal n da dx incx = (if (da =? f1)%num then Ok dx else from_fa d) /\ ((da =? f1)%num = true -> d = to_fa dx) /\
      same_shape d (to_fa dx) /\
      forall t x, (0 <= t < n)%Z -> elem (to_fa dx) (stride n incx t) = Some x ->
        exists y, elem d (stride n incx t) = Some y /\
          (is_finite y = true -> Rabs (val64 y - val64 da * val64 x) <= u64 * Rabs (val64 da * val64 x) + eta64).
  Proof.
    intros Hn Hi. destruct (dscal_spec n da dx incx) as [S1 S2]. destruct (da =? f1)%num eqn:E1.
    - exists (to_fa dx). split; [apply S1; auto|]. split; [reflexivity|]. split; [repeat split|].
      intros t x Ht Ex. exists x. split; [exact Ex|]. intros _. change (da =? f1)%num with (Beqb da (b64_dy 1 0)) in E1. destruct (b64_eqb1 _ E1) as [V _].
      unfold val64. rewrite V, Rmult_1_l. replace (_ - _) with 0 by ring. rewrite Rabs_R0. pose proof u64_pos. pose proof eta64_pos. pose proof (Rabs_pos (B2R x)). nra.
    - destruct (S2 Hn Hi eq_refl) as (d & E & SS & U & _). exists d. split; [exact E|]. split; [discriminate|]. split; [exact SS|].
      intros t x Ht Ex. eexists. split; [rewrite U by exact Ht; rewrite Ex; reflexivity|]. intros F. destruct (mult_fin _ _ F) as (_ & _ & _ & EM).
      unfold val64. rewrite (Rmult_comm (B2R da)). exact EM.
  Qed.

  Lemma drot_err {DX DY} {TX : ToFA b64 DX} {FX : FromFA b64 DX} {TY : ToFA b64 DY} {FY : FromFA b64 DY}
      n (dx : DX) incx (dy : DY) incy (c s : b64) (vx vy : Z -> b64) : (1 <= n)%Z -> incx <> 0%Z -> incy <> 0%Z ->
    (forall t, (0 <= t < n)%Z -> elem (to_fa dx) (stride n incx t) = Some (vx t)) ->
    (forall t, (0 <= t < n)%Z -> elem (to_fa dy) (stride n incy t) = Some (vy t)) ->
    exists x y, drot n dx incx dy incy c s = (x' <- from_fa x ;; y' <- from_fa y ;; Ok (x', y')) /\
      same_shape x (to_fa dx) /\ same_shape y (to_fa dy) /\
      forall t, (0 <= t < n)%Z -> exists wx wy,
        elem x (stride n incx t) = Some wx /\ elem y (stride n incy t) = Some wy /\
        (is_finite wx = true -> Rabs (val64 wx - (val64 c * val64 (vx t) + val64 s * val64 (vy t))) <=
           gam 2 * (Rabs (val64 c * val64 (vx t)) + Rabs (val64 s * val64 (vy t))) + 2 * (1 + u64) * eta64) /\
        (is_finite wy = true -> Rabs (val64 wy - (val64 c * val64 (vy t) - val64 s * val64 (vx t))) <=
           gam 2 * (Rabs (val64 c * val64 (vy t)) + Rabs (val64 s * val64 (vx t))) + 2 * (1 + u64) * eta64).
  Proof.
    intros Hn Hx Hy Ex Ey. destruct (drot_spec n dx incx dy incy c s Hx Hy) as [_ S]. destruct (S Hn) as (x & y & E & (SX & UX & _) & (SY & UY & _)).
    exists x, y. split; [exact E|]. split; [exact SX|]. split; [exact SY|]. intros t Ht. do 2 eexists.
    split; [rewrite UX by exact Ht; rewrite Ex by exact Ht; reflexivity|]. split; [rewrite UY by exact Ht; rewrite Ey by exact Ht; reflexivity|].
    assert (GX : get1 (to_fa dx) (stride n incx t) = vx t) by (rewrite get1_elem, Ex by exact Ht; reflexivity).
    assert (GY : get1 (to_fa dy) (stride n incy t) = vy t) by (rewrite get1_elem, Ey by exact Ht; reflexivity).
    rewrite GX, GY. split; intros F.
    - exact (rot_term c (vx t) s (vy t) false F).
    - exact (rot_term c (vy t) s (vx t) true F).
  Qed.
End Err.
