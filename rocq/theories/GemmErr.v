(** dgemm in binary64: a bound on the rounding error of every entry. *)
From Coq Require Import Reals Lra.
From Flocq Require Import IEEE754.BinarySingleNaN Core.
From Verif Require Import Base Num Array Blas Spec SpecBlas SpecR SpecErr B64 B64Lemmas B64Nn RsumLemmas RoundErr FaLemmas GemmTop.
Open Scope R_scope.

Section Err.
  Context (lm : libm).
  #[local] Instance NBe : Num b64 := B64 lm.

  (** x plus n terms from left to right, each known up to q roundings *)
  Lemma fsum_err (t : Z -> b64) (T m d : Z -> R) n : forall lo q (x : b64) X mX dX,
    (is_finite x = true -> Rabs (B2R x - X) <= gam q * mX + P ^ q * dX) -> Rabs X <= mX -> 0 <= dX ->
    (forall l, (lo <= l < lo + Z.of_nat n)%Z -> is_finite (t l) = true -> Rabs (B2R (t l) - T l) <= gam q * m l + P ^ q * d l) ->
    (forall l, (lo <= l < lo + Z.of_nat n)%Z -> Rabs (T l) <= m l /\ 0 <= d l) ->
    is_finite (fsum_n x t lo n) = true ->
    Rabs (B2R (fsum_n x t lo n) - (X + Rsum T lo n)) <= gam (q + n) * (mX + Rsum m lo n) + P ^ (q + n) * (dX + Rsum d lo n).
  Proof.
    induction n as [|n IH]; intros lo q x X mX dX Hx HX HD Ht HT F; cbn [fsum_n Rsum] in *.
    - rewrite Nat.add_0_r, !Rplus_0_r. apply Hx. exact F.
    - replace (X + (T lo + Rsum T (lo + 1) n)) with (X + T lo + Rsum T (lo + 1) n) by ring.
      replace (mX + (m lo + Rsum m (lo + 1) n)) with (mX + m lo + Rsum m (lo + 1) n) by ring.
      replace (dX + (d lo + Rsum d (lo + 1) n)) with (dX + d lo + Rsum d (lo + 1) n) by ring.
      rewrite <- Nat.add_succ_comm. destruct (HT lo ltac:(lia)) as [T0 D0].
      apply IH; [| | | | |exact F].
      + intros Fs. change (is_finite (Bplus mode_NE x (t lo)) = true) in Fs. change (x + t lo)%num with (Bplus mode_NE x (t lo)).
        destruct (plus_fin x (t lo) Fs) as (Fx & Fl & _ & E).
        assert (E2 : Rabs (B2R x + B2R (t lo) - (X + T lo)) <= (gam q * mX + P ^ q * dX) + (gam q * m lo + P ^ q * d lo)).
        { replace (B2R x + B2R (t lo) - (X + T lo)) with ((B2R x - X) + (B2R (t lo) - T lo)) by ring.
          eapply Rle_trans; [apply Rabs_triang|]. apply Rplus_le_compat; [apply Hx; exact Fx|apply Ht; [lia|exact Fl]]. }
        eapply Rle_trans; [apply (err_step _ _ _ _ E E2)|]. rewrite gam_S. cbn [pow].
        assert (A : Rabs (X + T lo) <= mX + m lo) by (eapply Rle_trans; [apply Rabs_triang|lra]).
        pose proof u64_pos. assert (u64 * Rabs (X + T lo) <= u64 * (mX + m lo)) by (apply Rmult_le_compat_l; lra). lra.
      + eapply Rle_trans; [apply Rabs_triang|lra].
      + lra.
      + intros l Hl Fl. eapply Rle_trans; [apply Ht; [lia|exact Fl]|]. destruct (HT l ltac:(lia)) as [Tl Dl].
        pose proof (Rabs_pos (T l)). apply Rplus_le_compat; (apply Rmult_le_compat_r; [lra|]); [apply gam_le; lia|apply Pn_le; lia].
      + intros l Hl. apply HT. lia.
  Qed.

  Lemma gam1 : gam 1 = u64. Proof. unfold gam. cbn. ring. Qed.
  Lemma gam2 : gam 2 = u64 * P + u64. Proof. unfold gam. cbn. ring. Qed.

  (** alpha*b, then times a *)
  Lemma axpy_term (al b a : b64) : is_finite (Bmult mode_NE (Bmult mode_NE al b) a) = true ->
    Rabs (B2R (Bmult mode_NE (Bmult mode_NE al b) a) - B2R al * (B2R a * B2R b)) <= gam 2 * Rabs (B2R al * (B2R a * B2R b)) + P ^ 2 * (eta64 * (Rabs (B2R a) + 1)).
  Proof.
    intros F. destruct (mult_fin _ _ F) as (F1 & _ & _ & E). destruct (mult_fin _ _ F1) as (_ & _ & _ & E1).
    set (t := B2R (Bmult mode_NE al b)) in *. set (p := B2R (Bmult mode_NE _ a)) in *.
    replace (B2R al * (B2R a * B2R b)) with (B2R al * B2R b * B2R a) by ring. set (z := B2R al * B2R b) in *. set (x := B2R a) in *.
    assert (E2 : Rabs (t * x - z * x) <= (u64 * Rabs z + eta64) * Rabs x).
    { rewrite <- Rmult_minus_distr_r, Rabs_mult. apply Rmult_le_compat_r; [apply Rabs_pos|exact E1]. }
    eapply Rle_trans; [apply (err_step_eta _ _ _ _ E E2)|]. rewrite Rabs_mult, gam2.
    pose proof u64_pos. pose proof eta64_pos. pose proof (Rabs_pos x). pose proof (Rabs_pos z). cbn [pow]. rewrite Rmult_1_r.
    assert (0 <= u64 * (eta64 * Rabs x)) by (apply Rmult_le_pos; [lra|apply Rmult_le_pos; lra]).
    assert (0 <= u64 * eta64) by (apply Rmult_le_pos; lra). assert (0 <= u64 * (u64 * eta64)) by (apply Rmult_le_pos; lra).
    assert (0 <= u64 * (u64 * (eta64 * Rabs x))) by (apply Rmult_le_pos; lra). nra.
  Qed.

  Lemma b64_eqb0 (x : b64) : Beqb x (b64_dy 0 0) = true -> B2R x = 0.
  Proof. intros H. apply b64_eqb_cases in H as [(_ & _ & E)|(s & _ & E)]; [exact E|discriminate]. Qed.
  Lemma B2R_1 : B2R (b64_dy 1 0) = 1.
  Proof. unfold B2R. replace (b64_dy 1 0) with (b64_dy 1 0) by reflexivity. change (B2R (b64_dy 1 0) = 1). rewrite <- SF2R_B2SF. change (SF2R radix2 (B2SF (b64_dy 1 0))) with (F2R (Float radix2 4503599627370496 (-52))). unfold F2R. cbn. lra. Qed.
  Lemma b64_eqb1 (x : b64) : Beqb x (b64_dy 1 0) = true -> B2R x = 1 /\ is_finite x = true.
  Proof. intros H. apply b64_eqb_cases in H as [(F & _ & E)|(s & _ & E)]; [split; [rewrite E; apply B2R_1|exact F]|discriminate]. Qed.

  (** the entry against the exact one *)
  Definition gemm_exact (nota notb : bool) (k : Z) (al be : b64) (a b : fa b64) (i j : Z) (x : b64) : R :=
    B2R al * Rsum_range (fun l => B2R (op nota a i l) * B2R (op notb b l j)) 1 k + B2R be * B2R x.
  Definition gemm_mag (nota notb : bool) (k : Z) (al be : b64) (a b : fa b64) (i j : Z) (x : b64) : R :=
    Rabs (B2R al) * Rsum_range (fun l => Rabs (B2R (op nota a i l)) * Rabs (B2R (op notb b l j))) 1 k + Rabs (B2R be) * Rabs (B2R x).
  Definition gemm_und (nota : bool) (k : Z) (al : b64) (a : fa b64) (i : Z) : R :=
    Rsum_range (fun l => Rabs (B2R (op nota a i l)) + Rabs (B2R al) + 1) 1 k + 2.

  Lemma gemm_err nota notb k al be (a b : fa b64) i j (x : b64) : (0 <= k)%Z ->
    is_finite (gemm_entry nota notb k al be a b i j x) = true ->
    Rabs (B2R (gemm_entry nota notb k al be a b i j x) - gemm_exact nota notb k al be a b i j x) <=
      gam (Z.to_nat k + 3) * gemm_mag nota notb k al be a b i j x + P ^ (Z.to_nat k + 3) * (eta64 * gemm_und nota k al a i).
  Proof.
    intros Hk. pose proof u64_pos as U0. pose proof eta64_pos as H0.
    set (K := (Z.to_nat k + 3)%nat).
    set (fa_ := fun l => B2R (op nota a i l)). set (fb := fun l => B2R (op notb b l j)).
    assert (EX : gemm_exact nota notb k al be a b i j x = B2R al * Rsum_range (fun l => fa_ l * fb l) 1 k + B2R be * B2R x) by reflexivity.
    assert (MG : gemm_mag nota notb k al be a b i j x = Rabs (B2R al) * Rsum_range (fun l => Rabs (fa_ l) * Rabs (fb l)) 1 k + Rabs (B2R be) * Rabs (B2R x)) by reflexivity.
    assert (UN : gemm_und nota k al a i = Rsum_range (fun l => Rabs (fa_ l) + Rabs (B2R al) + 1) 1 k + 2) by reflexivity.
    rewrite EX, MG, UN. clear EX MG UN.
    assert (SM : 0 <= Rsum_range (fun l => Rabs (fa_ l) * Rabs (fb l)) 1 k) by (apply Rsum_range_nonneg; intros; apply Rmult_le_pos; apply Rabs_pos).
    assert (SU : 0 <= Rsum_range (fun l => Rabs (fa_ l) + Rabs (B2R al) + 1) 1 k)
      by (apply Rsum_range_nonneg; intros l _; pose proof (Rabs_pos (fa_ l)); pose proof (Rabs_pos (B2R al)); lra).
    pose proof (Rabs_pos (B2R al)) as A0. pose proof (Rabs_pos (B2R be)) as A1. pose proof (Rabs_pos (B2R x)) as A2.
    assert (M0 : 0 <= Rabs (B2R al) * Rsum_range (fun l => Rabs (fa_ l) * Rabs (fb l)) 1 k + Rabs (B2R be) * Rabs (B2R x)) by (apply Rplus_le_le_0_compat; apply Rmult_le_pos; assumption).
    assert (NN : 0 <= gam K * (Rabs (B2R al) * Rsum_range (fun l => Rabs (fa_ l) * Rabs (fb l)) 1 k + Rabs (B2R be) * Rabs (B2R x)) +
                      P ^ K * (eta64 * (Rsum_range (fun l => Rabs (fa_ l) + Rabs (B2R al) + 1) 1 k + 2))).
    { apply Rplus_le_le_0_compat; apply Rmult_le_pos; try assumption; try apply gam_pos; [pose proof (Pn_ge K); lra|apply Rmult_le_pos; lra]. }
    unfold gemm_entry, gemm_idle.
    change (al =? f0)%num with (Beqb al (b64_dy 0 0)). change (be =? f0)%num with (Beqb be (b64_dy 0 0)). change (be =? f1)%num with (Beqb be (b64_dy 1 0)).
    assert (KP : forall q, (q <= K)%nat -> P ^ q <= P ^ K) by (intros; apply Pn_le; assumption).
    (* beta times x *)
    assert (BX : forall y : b64, is_finite (Bmult mode_NE x be) = true -> y = Bmult mode_NE x be -> Rabs (B2R y - B2R be * B2R x) <= u64 * (Rabs (B2R be) * Rabs (B2R x)) + eta64).
    { intros y F ->. destruct (mult_fin _ _ F) as (_ & _ & _ & E). rewrite (Rmult_comm (B2R be)), <- Rabs_mult, (Rmult_comm (B2R be)). exact E. }
    destruct ((Beqb al (b64_dy 0 0) || (k =? 0)%Z) && Beqb be (b64_dy 1 0))%bool eqn:ID.
    { intros _. apply andb_prop in ID as [ID1 ID2]. destruct (b64_eqb1 _ ID2) as [EB1 _]. rewrite EB1 in NN |- *.
      replace (B2R x - _) with (- (B2R al * Rsum_range (fun l => fa_ l * fb l) 1 k)) by ring.
      replace (B2R al * Rsum_range (fun l => fa_ l * fb l) 1 k) with 0. { rewrite Ropp_0, Rabs_R0. exact NN. }
      symmetry. apply Bool.orb_prop in ID1 as [Z1|Z1]; [rewrite (b64_eqb0 _ Z1); ring|]. apply Z.eqb_eq in Z1. rewrite Rsum_range_nil by lia. ring. }
    destruct (Beqb al (b64_dy 0 0)) eqn:AL.
    { pose proof (b64_eqb0 _ AL) as EA. rewrite EA, Rabs_R0 in *. destruct (Beqb be (b64_dy 0 0)) eqn:BE.
      - intros _. rewrite (b64_eqb0 _ BE). change (B2R (f0 : b64)) with 0. replace (0 - _) with 0 by ring. rewrite (b64_eqb0 _ BE) in NN. rewrite Rabs_R0 in *. exact NN.
      - intros F. change (x * be)%num with (Bmult mode_NE x be) in *. replace (0 * Rsum_range (fun l => fa_ l * fb l) 1 k + B2R be * B2R x) with (B2R be * B2R x) by ring.
        eapply Rle_trans; [apply (BX _ F eq_refl)|]. rewrite Rmult_0_l, Rplus_0_l. apply Rplus_le_compat.
        + apply Rmult_le_compat_r; [apply Rmult_le_pos; assumption|]. rewrite <- gam1. apply gam_le. unfold K. lia.
        + pose proof (Pn_ge K). assert (eta64 * 2 <= eta64 * (Rsum_range (fun l => Rabs (fa_ l) + 0 + 1) 1 k + 2)) by (apply Rmult_le_compat_l; lra).
          assert (1 * (eta64 * 2) <= P ^ K * (eta64 * (Rsum_range (fun l => Rabs (fa_ l) + 0 + 1) 1 k + 2))) by (apply Rmult_le_compat; lra). lra. }
    destruct nota.
    - (* axpy *) intros F. unfold fsum in *.
      assert (EK : Z.to_nat (k - 1 + 1) = Z.to_nat k) by (f_equal; lia). rewrite EK in *.
      set (t := fun l : Z => (al * op notb b l j * op true a i l)%num) in *.
      pose proof (fsum_err t (fun l => B2R al * (fa_ l * fb l)) (fun l => Rabs (B2R al) * (Rabs (fa_ l) * Rabs (fb l))) (fun l => eta64 * (Rabs (fa_ l) + 1)) (Z.to_nat k) 1 2
        (scaled be x) (B2R be * B2R x) (Rabs (B2R be) * Rabs (B2R x)) eta64) as E.
      assert (E' : Rabs (B2R (fsum_n (scaled be x) t 1 (Z.to_nat k)) - (B2R be * B2R x + Rsum (fun l => B2R al * (fa_ l * fb l)) 1 (Z.to_nat k))) <=
        gam (2 + Z.to_nat k) * (Rabs (B2R be) * Rabs (B2R x) + Rsum (fun l => Rabs (B2R al) * (Rabs (fa_ l) * Rabs (fb l))) 1 (Z.to_nat k)) +
        P ^ (2 + Z.to_nat k) * (eta64 + Rsum (fun l => eta64 * (Rabs (fa_ l) + 1)) 1 (Z.to_nat k))).
      { apply E; [| | | | |exact F].
        - unfold scaled. change (be =? f0)%num with (Beqb be (b64_dy 0 0)). change (be =? f1)%num with (Beqb be (b64_dy 1 0)).
          assert (N2 : 0 <= gam 2 * (Rabs (B2R be) * Rabs (B2R x)) + P ^ 2 * eta64).
          { apply Rplus_le_le_0_compat; apply Rmult_le_pos; try apply gam_pos; try (apply Rmult_le_pos; assumption); pose proof (Pn_ge 2); lra. }
          destruct (Beqb be (b64_dy 0 0)) eqn:BE; [intros _|destruct (Beqb be (b64_dy 1 0)) eqn:BE1; [intros _|intros Fb]].
          + rewrite (b64_eqb0 _ BE) in *. change (B2R (f0 : b64)) with 0. replace (0 - 0 * B2R x) with 0 by ring. rewrite Rabs_R0 at 1. exact N2.
          + rewrite (proj1 (b64_eqb1 _ BE1)) in *. replace (B2R x - 1 * B2R x) with 0 by ring. rewrite Rabs_R0. exact N2.
          + eapply Rle_trans; [apply (BX _ Fb eq_refl)|]. apply Rplus_le_compat.
            * apply Rmult_le_compat_r; [apply Rmult_le_pos; assumption|]. rewrite <- gam1. apply gam_le. lia.
            * pose proof (Pn_ge 2). assert (1 * eta64 <= P ^ 2 * eta64) by (apply Rmult_le_compat_r; lra). lra.
        - rewrite Rabs_mult. lra.
        - lra.
        - intros l _ Fl. rewrite <- !Rabs_mult. apply axpy_term. exact Fl.
        - intros l _. rewrite !Rabs_mult. split; [lra|]. apply Rmult_le_pos; [lra|]. pose proof (Rabs_pos (fa_ l)). lra. }
      clear E. rewrite !Rsum_scal in E'.
      assert (R1 : forall f, Rsum f 1 (Z.to_nat k) = Rsum_range f 1 k) by (intros f; unfold Rsum_range; rewrite EK; reflexivity).
      rewrite !R1 in E'. rewrite (Rplus_comm (B2R al * _)), (Rplus_comm (Rabs (B2R al) * _)). eapply Rle_trans; [exact E'|].
      assert (SA : 0 <= Rsum_range (fun l => Rabs (fa_ l) + 1) 1 k) by (apply Rsum_range_nonneg; intros l _; pose proof (Rabs_pos (fa_ l)); lra).
      apply Rplus_le_compat.
      + apply Rmult_le_compat_r; [rewrite Rplus_comm; exact M0|]. apply gam_le. unfold K. lia.
      + apply Rmult_le_compat; [pose proof (Pn_ge (2 + Z.to_nat k)); lra| |apply KP; unfold K; lia|].
        * assert (0 <= eta64 * Rsum_range (fun l => Rabs (fa_ l) + 1) 1 k) by (apply Rmult_le_pos; lra). lra.
        * assert (Rsum_range (fun l => Rabs (fa_ l) + 1) 1 k <= Rsum_range (fun l => Rabs (fa_ l) + Rabs (B2R al) + 1) 1 k) by (apply Rsum_range_le; intros; lra).
          apply Rle_trans with (eta64 * (Rsum_range (fun l => Rabs (fa_ l) + 1) 1 k + 1)); [lra|]. apply Rmult_le_compat_l; lra.
    - (* dot *)
      cbv zeta. unfold fsum. assert (EK : Z.to_nat (k - 1 + 1) = Z.to_nat k) by (f_equal; lia). rewrite EK.
      set (t := fun l : Z => (op false a i l * op notb b l j)%num). set (T := fsum_n f0 t 1 (Z.to_nat k)).
      change (al * T)%num with (Bmult mode_NE al T). change (be * x)%num with (Bmult mode_NE be x). 
      change (Bmult mode_NE al T + Bmult mode_NE be x)%num with (Bplus mode_NE (Bmult mode_NE al T) (Bmult mode_NE be x)).
      assert (R1 : forall f, Rsum f 1 (Z.to_nat k) = Rsum_range f 1 k) by (intros f; unfold Rsum_range; rewrite EK; reflexivity).
      assert (ET : is_finite T = true -> Rabs (B2R T - Rsum_range (fun l => fa_ l * fb l) 1 k) <=
        gam (1 + Z.to_nat k) * Rsum_range (fun l => Rabs (fa_ l) * Rabs (fb l)) 1 k + P ^ (1 + Z.to_nat k) * Rsum_range (fun _ => eta64) 1 k).
      { intros FT. pose proof (fsum_err t (fun l => fa_ l * fb l) (fun l => Rabs (fa_ l) * Rabs (fb l)) (fun _ => eta64) (Z.to_nat k) 1 1 f0 0 0 0) as E.
        rewrite !R1, !Rplus_0_l in E. apply E; [| |lra| | |exact FT].
        - intros _. change (B2R (f0 : b64)) with 0. rewrite Rminus_0_r, Rabs_R0. lra.
        - rewrite Rabs_R0. lra.
        - intros l _ Fl. destruct (mult_fin _ _ Fl) as (_ & _ & _ & El). rewrite gam1, <- Rabs_mult. eapply Rle_trans; [exact El|]. apply Rplus_le_compat_l.
          pose proof (Pn_ge 1). assert (1 * eta64 <= P ^ 1 * eta64) by (apply Rmult_le_compat_r; lra). lra.
        - intros l _. rewrite Rabs_mult. lra. }
      set (S := Rsum_range (fun l => fa_ l * fb l) 1 k) in *. set (m := Rsum_range (fun l => Rabs (fa_ l) * Rabs (fb l)) 1 k) in *. set (d := Rsum_range (fun _ => eta64) 1 k) in *.
      assert (Sm : Rabs S <= m).
      { unfold S, m. clear - Hk. unfold Rsum_range. generalize (Z.to_nat (k - 1 + 1)) as q. generalize 1%Z as lo. intros lo q. revert lo. induction q as [|q IH]; intros lo; cbn [Rsum]; [rewrite Rabs_R0; lra|].
        eapply Rle_trans; [apply Rabs_triang|]. rewrite Rabs_mult. specialize (IH (lo + 1)%Z). lra. }
      assert (D0 : 0 <= d) by (apply Rsum_range_nonneg; intros; lra).
      assert (Dd : Rabs (B2R al) * d + 2 * eta64 <= eta64 * (Rsum_range (fun l => Rabs (fa_ l) + Rabs (B2R al) + 1) 1 k + 2)).
      { unfold d. rewrite <- Rsum_range_scal. rewrite Rmult_plus_distr_l, <- Rsum_range_scal. apply Rplus_le_compat; [|lra]. apply Rsum_range_le. intros l _.
        pose proof (Rabs_pos (fa_ l)). assert (0 <= eta64 * Rabs (fa_ l)) by (apply Rmult_le_pos; lra). nra. }
      set (q := Z.to_nat k) in *.
      assert (EA : is_finite (Bmult mode_NE al T) = true -> Rabs (B2R (Bmult mode_NE al T) - B2R al * S) <= gam (2 + q) * (Rabs (B2R al) * m) + P ^ (2 + q) * (Rabs (B2R al) * d) + eta64).
      { intros FA. destruct (mult_fin _ _ FA) as (_ & FT & _ & E). specialize (ET FT).
        assert (E2 : Rabs (B2R al * B2R T - B2R al * S) <= Rabs (B2R al) * (gam (1 + q) * m + P ^ (1 + q) * d)).
        { rewrite <- Rmult_minus_distr_l, Rabs_mult. apply Rmult_le_compat_l; [apply Rabs_pos|exact ET]. }
        eapply Rle_trans; [apply (err_step_eta _ _ _ _ E E2)|]. rewrite Rabs_mult. change (2 + q)%nat with (Datatypes.S (1 + q)). rewrite (gam_S (1 + q)). change (P ^ Datatypes.S (1 + q)) with (P * P ^ (1 + q)). set (g := gam (1 + q)). set (p := P ^ (1 + q)).
        assert (u64 * (Rabs (B2R al) * Rabs S) <= u64 * (Rabs (B2R al) * m)) by (apply Rmult_le_compat_l; [lra|]; apply Rmult_le_compat_l; assumption). 
        lra. }
      destruct (Beqb be (b64_dy 0 0)) eqn:BE.
      + intros F. pose proof (b64_eqb0 _ BE) as EB. rewrite EB, Rabs_R0 in *. replace (B2R al * S + 0 * B2R x) with (B2R al * S) by ring.
        eapply Rle_trans; [apply (EA F)|]. rewrite Rmult_0_l, Rplus_0_r, Rplus_assoc. apply Rplus_le_compat.
        * apply Rmult_le_compat_r; [apply Rmult_le_pos; assumption|]. apply gam_le. unfold K. lia.
        * assert (PK : P ^ (2 + q) <= P ^ K) by (apply KP; unfold K; lia). pose proof (Pn_ge K).
          assert (0 <= Rabs (B2R al) * d) by (apply Rmult_le_pos; assumption).
          apply Rle_trans with (P ^ K * (Rabs (B2R al) * d) + P ^ K * (2 * eta64)).
          { apply Rplus_le_compat; [apply Rmult_le_compat_r; assumption|]. assert (1 * (2 * eta64) <= P ^ K * (2 * eta64)) by (apply Rmult_le_compat_r; lra). lra. }
          rewrite <- Rmult_plus_distr_l. apply Rmult_le_compat_l; lra.
      + intros F. destruct (plus_fin _ _ F) as (FA & FB & _ & E). specialize (EA FA). destruct (mult_fin _ _ FB) as (_ & _ & _ & EB). rewrite Rabs_mult in EB.
        assert (E2 : Rabs (B2R (Bmult mode_NE al T) + B2R (Bmult mode_NE be x) - (B2R al * S + B2R be * B2R x)) <=
          gam (2 + q) * (Rabs (B2R al) * m + Rabs (B2R be) * Rabs (B2R x)) + P ^ (2 + q) * (Rabs (B2R al) * d + 2 * eta64)).
        { replace (B2R (Bmult mode_NE al T) + B2R (Bmult mode_NE be x) - (B2R al * S + B2R be * B2R x)) with ((B2R (Bmult mode_NE al T) - B2R al * S) + (B2R (Bmult mode_NE be x) - B2R be * B2R x)) by ring.
          eapply Rle_trans; [apply Rabs_triang|].
          assert (G : u64 * (Rabs (B2R be) * Rabs (B2R x)) <= gam (2 + q) * (Rabs (B2R be) * Rabs (B2R x))).
          { apply Rmult_le_compat_r; [apply Rmult_le_pos; assumption|]. rewrite <- gam1. apply gam_le. lia. }
          assert (1 * (2 * eta64) <= P ^ (2 + q) * (2 * eta64)) by (apply Rmult_le_compat_r; [lra|apply Pn_ge]). lra. }
        eapply Rle_trans; [apply (err_step _ _ _ _ E E2)|].
        assert (AB : Rabs (B2R al * S + B2R be * B2R x) <= Rabs (B2R al) * m + Rabs (B2R be) * Rabs (B2R x)).
        { eapply Rle_trans; [apply Rabs_triang|]. rewrite !Rabs_mult. apply Rplus_le_compat_r. apply Rmult_le_compat_l; assumption. }
        assert (EKK : K = Datatypes.S (2 + q)) by (unfold K, q; lia). rewrite EKK, (gam_S (2 + q)). change (P ^ Datatypes.S (2 + q)) with (P * P ^ (2 + q)).
        set (g := gam (2 + q)) in *. set (p := P ^ (2 + q)) in *. set (mm := Rabs (B2R al) * m + Rabs (B2R be) * Rabs (B2R x)) in *.
        assert (u64 * Rabs (B2R al * S + B2R be * B2R x) <= u64 * mm) by (apply Rmult_le_compat_l; lra).
        assert (p * (Rabs (B2R al) * d + 2 * eta64) <= p * (eta64 * (Rsum_range (fun l => Rabs (fa_ l) + Rabs (B2R al) + 1) 1 k + 2))).
        { apply Rmult_le_compat_l; [|exact Dd]. unfold p. pose proof (Pn_ge (2 + q)). lra. }
        set (w := p * (eta64 * _)) in *. set (w' := p * (Rabs (B2R al) * d + 2 * eta64)) in *.
        replace (P * p * (eta64 * (Rsum_range (fun l => Rabs (fa_ l) + Rabs (B2R al) + 1) 1 k + 2))) with (P * w) by (unfold w; ring).
        assert (P * w' <= P * w) by (apply Rmult_le_compat_l; lra). lra.
  Qed.

  (** *** nothing overflows when every number is at most 2^300 *)
  Lemma rnd_bound z b : generic_format radix2 (FLT_exp (-1074) 53) b -> Rabs z <= b -> Rabs (rnd z) <= b.
  Proof. intros Fb H. apply (abs_round_le_generic radix2 (FLT_exp (-1074) 53)); [auto with typeclass_instances..|exact Fb|exact H]. Qed.
  Lemma fmt_mul (q e : Z) : (Z.abs q <= 2 ^ 53)%Z -> (-1074 <= e)%Z -> generic_format radix2 (FLT_exp (-1074) 53) (IZR q * bpow radix2 e).
  Proof.
    intros Hq He. destruct (Z.eq_dec (Z.abs q) (2 ^ 53)) as [E|N].
    - replace (IZR q * bpow radix2 e) with (IZR (Z.sgn q) * bpow radix2 (e + 53)).
      + apply generic_format_FLT. exists (Float radix2 (Z.sgn q) (e + 53)); cbn; [reflexivity| |lia]. destruct q; cbn; lia.
      + assert (EQ : q = (Z.sgn q * 2 ^ 53)%Z) by (destruct q; cbn in E |- *; lia). rewrite EQ at 2. rewrite mult_IZR, bpow_plus. change (bpow radix2 53) with (IZR (2 ^ 53)). ring.
    - apply generic_format_FLT. exists (Float radix2 q e); [reflexivity|cbn in *; lia|exact He].
  Qed.
  Lemma big_lt q e : (Z.abs q <= 2 ^ 53)%Z -> (e <= 970)%Z -> IZR (Z.abs q) * bpow radix2 e < bpow radix2 1024.
  Proof.
    intros Hq He. apply Rle_lt_trans with (bpow radix2 53 * bpow radix2 e).
    - apply Rmult_le_compat_r; [apply bpow_ge_0|]. change (bpow radix2 53) with (IZR (2 ^ 53)). apply IZR_le. exact Hq.
    - rewrite <- bpow_plus. apply bpow_lt. lia.
  Qed.
  Lemma plus_bnd (x y : b64) q e : (0 <= q <= 2 ^ 53)%Z -> (-1074 <= e <= 970)%Z -> is_finite x = true -> is_finite y = true ->
    Rabs (B2R x + B2R y) <= IZR q * bpow radix2 e -> is_finite (Bplus mode_NE x y) = true /\ Rabs (B2R (Bplus mode_NE x y)) <= IZR q * bpow radix2 e.
  Proof.
    intros Hq He Fx Fy H. pose proof (rnd_bound _ _ (fmt_mul q e ltac:(lia) ltac:(lia)) H) as B. pose proof (big_lt q e ltac:(lia) ltac:(lia)) as L. rewrite Z.abs_eq in L by lia.
    pose proof (Bplus_correct 53 1024 prec53 emax1024 mode_NE x y Fx Fy) as C. change (round radix2 (SpecFloat.fexp 53 1024) (round_mode mode_NE) (B2R x + B2R y)) with (rnd (B2R x + B2R y)) in C.
    rewrite Rlt_bool_true in C by lra. destruct C as (-> & -> & _). auto.
  Qed.
  Lemma mult_bnd (x y : b64) q e : (0 <= q <= 2 ^ 53)%Z -> (-1074 <= e <= 970)%Z -> is_finite x = true -> is_finite y = true ->
    Rabs (B2R x * B2R y) <= IZR q * bpow radix2 e -> is_finite (Bmult mode_NE x y) = true /\ Rabs (B2R (Bmult mode_NE x y)) <= IZR q * bpow radix2 e.
  Proof.
    intros Hq He Fx Fy H. pose proof (rnd_bound _ _ (fmt_mul q e ltac:(lia) ltac:(lia)) H) as B. pose proof (big_lt q e ltac:(lia) ltac:(lia)) as L. rewrite Z.abs_eq in L by lia.
    pose proof (Bmult_correct 53 1024 prec53 emax1024 mode_NE x y) as C. change (round radix2 (SpecFloat.fexp 53 1024) (round_mode mode_NE) (B2R x * B2R y)) with (rnd (B2R x * B2R y)) in C.
    rewrite Rlt_bool_true in C by lra. destruct C as (-> & -> & _). rewrite Fx, Fy. auto.
  Qed.
  Lemma mult_pow (x y : b64) p q r e : (0 <= p)%Z -> (0 <= q)%Z -> (p * q <= 2 ^ 53)%Z -> (-1074 <= r + e <= 970)%Z -> is_finite x = true -> is_finite y = true ->
    Rabs (B2R x) <= IZR p * bpow radix2 r -> Rabs (B2R y) <= IZR q * bpow radix2 e ->
    is_finite (Bmult mode_NE x y) = true /\ Rabs (B2R (Bmult mode_NE x y)) <= IZR (p * q) * bpow radix2 (r + e).
  Proof.
    intros Hp Hq Hpq He Fx Fy Hx Hy. apply mult_bnd; [nia|lia|exact Fx|exact Fy|]. rewrite Rabs_mult, mult_IZR, bpow_plus.
    replace (IZR p * IZR q * (bpow radix2 r * bpow radix2 e)) with ((IZR p * bpow radix2 r) * (IZR q * bpow radix2 e)) by ring.
    apply Rmult_le_compat; try apply Rabs_pos; assumption.
  Qed.
  Lemma fsum_fin (t : Z -> b64) e n : (-1074 <= e <= 970)%Z -> forall lo (x : b64) p, (0 <= p)%Z -> (p + Z.of_nat n <= 2 ^ 53)%Z ->
    is_finite x = true -> Rabs (B2R x) <= IZR p * bpow radix2 e ->
    (forall l, (lo <= l < lo + Z.of_nat n)%Z -> is_finite (t l) = true /\ Rabs (B2R (t l)) <= bpow radix2 e) ->
    is_finite (fsum_n x t lo n) = true /\ Rabs (B2R (fsum_n x t lo n)) <= IZR (p + Z.of_nat n) * bpow radix2 e.
  Proof.
    intros He. induction n as [|n IH]; intros lo x p Hp Hn Fx Hx Ht; cbn [fsum_n]. { rewrite Z.add_0_r. auto. }
    destruct (Ht lo ltac:(lia)) as [Fl Hl].
    assert (A : is_finite (Bplus mode_NE x (t lo)) = true /\ Rabs (B2R (Bplus mode_NE x (t lo))) <= IZR (p + 1) * bpow radix2 e).
    { apply plus_bnd; [lia|exact He|exact Fx|exact Fl|]. rewrite plus_IZR. eapply Rle_trans; [apply Rabs_triang|]. lra. }
    replace (p + Z.of_nat (S n))%Z with (p + 1 + Z.of_nat n)%Z by lia. destruct A as [A1 A2]. apply IH; [lia|lia|exact A1|exact A2|]. intros l Hl'. apply Ht. lia.
  Qed.

  Lemma gemm_fin nota notb k al be (a b : fa b64) i j (x : b64) : (0 <= k <= 2 ^ 52)%Z ->
    (forall v, In v [al; be; x] -> is_finite v = true /\ Rabs (B2R v) <= bpow radix2 300) ->
    (forall l, (1 <= l <= k)%Z -> is_finite (op nota a i l) = true /\ Rabs (B2R (op nota a i l)) <= bpow radix2 300) ->
    (forall l, (1 <= l <= k)%Z -> is_finite (op notb b l j) = true /\ Rabs (B2R (op notb b l j)) <= bpow radix2 300) ->
    is_finite (gemm_entry nota notb k al be a b i j x) = true.
  Proof.
    intros Hk Hv Ha Hb. destruct (Hv al ltac:(cbn; auto)) as [Fal Mal]. destruct (Hv be ltac:(cbn; auto)) as [Fbe Mbe]. destruct (Hv x ltac:(cbn; auto)) as [Fx Mx]. clear Hv.
    assert (ML : forall (u v : b64) r e, (0 <= r)%Z -> (0 <= e)%Z -> (r + e <= 970)%Z -> is_finite u = true -> is_finite v = true -> Rabs (B2R u) <= bpow radix2 r -> Rabs (B2R v) <= bpow radix2 e ->
      is_finite (Bmult mode_NE u v) = true /\ Rabs (B2R (Bmult mode_NE u v)) <= bpow radix2 (r + e)).
    { intros u v r e Hr He Hre Fu Fv Hu Hw. destruct (mult_pow u v 1 1 r e ltac:(lia) ltac:(lia) ltac:(lia) ltac:(lia) Fu Fv ltac:(lra) ltac:(lra)) as [Q1 Q2]. split; [exact Q1|]. change (1 * 1)%Z with 1%Z in Q2. lra. }
    assert (XB : is_finite (Bmult mode_NE x be) = true /\ Rabs (B2R (Bmult mode_NE x be)) <= bpow radix2 (300 + 300)) by (apply ML; try lia; assumption).
    assert (BX : is_finite (Bmult mode_NE be x) = true /\ Rabs (B2R (Bmult mode_NE be x)) <= bpow radix2 (300 + 300)) by (apply ML; try lia; assumption).
    unfold gemm_entry. destruct (gemm_idle _ _ _); [exact Fx|]. destruct (al =? f0)%num; [destruct (be =? f0)%num; [reflexivity|exact (proj1 XB)]|].
    assert (EK : Z.to_nat (k - 1 + 1) = Z.to_nat k) by (f_equal; lia). unfold fsum. rewrite EK. destruct nota.
    - apply (fsum_fin _ 900 (Z.to_nat k) ltac:(lia) 1 (scaled be x) 1 ltac:(lia)); [rewrite Z2Nat.id; lia| | |].
      + unfold scaled. destruct (be =? f0)%num; [reflexivity|]. destruct (be =? f1)%num; [exact Fx|exact (proj1 XB)].
      + unfold scaled. rewrite Rmult_1_l. destruct (be =? f0)%num; [change (B2R (f0 : b64)) with 0; rewrite Rabs_R0; apply bpow_ge_0|].
        destruct (be =? f1)%num; [eapply Rle_trans; [exact Mx|]; apply bpow_le; lia|]. eapply Rle_trans; [exact (proj2 XB)|]. apply bpow_le. lia.
      + intros l Hl. rewrite Z2Nat.id in Hl by lia. destruct (Ha l ltac:(lia)) as [Fa Ma]. destruct (Hb l ltac:(lia)) as [Fb Mb].
        destruct (ML al _ 300 300 ltac:(lia) ltac:(lia) ltac:(lia) Fal Fb Mal Mb)%Z as [G1 G2]. exact (ML _ _ (300 + 300) 300 ltac:(lia) ltac:(lia) ltac:(lia) G1 Fa G2 Ma)%Z.
    - cbv zeta. set (T := fsum_n _ _ _ _).
      assert (FT : is_finite T = true /\ Rabs (B2R T) <= IZR (0 + Z.of_nat (Z.to_nat k)) * bpow radix2 600).
      { apply fsum_fin; [lia|lia|rewrite Z2Nat.id; lia|reflexivity| |].
        - change (B2R (f0 : b64)) with 0. rewrite Rabs_R0, Rmult_0_l. lra.
        - intros l Hl. rewrite Z2Nat.id in Hl by lia. destruct (Ha l ltac:(lia)) as [Fa Ma]. destruct (Hb l ltac:(lia)) as [Fb Mb].
          exact (ML _ _ 300 300 ltac:(lia) ltac:(lia) ltac:(lia) Fa Fb Ma Mb)%Z. }
      rewrite Z2Nat.id, Z.add_0_l in FT by lia. destruct FT as [FT MT].
      assert (AT : is_finite (Bmult mode_NE al T) = true /\ Rabs (B2R (Bmult mode_NE al T)) <= IZR (1 * k) * bpow radix2 (300 + 600)) by (apply mult_pow; try lia; try assumption; lra).
      destruct (be =? f0)%num; [exact (proj1 AT)|]. destruct AT as [AT1 AT2]. destruct BX as [BX1 BX2].
      refine (proj1 (plus_bnd _ _ (k + 1) 900 _ _ AT1 BX1 _)); [lia|lia|]. eapply Rle_trans; [apply Rabs_triang|]. rewrite plus_IZR.
      assert (bpow radix2 (300 + 300) <= bpow radix2 900) by (apply bpow_le; lia). change (300 + 600)%Z with 900%Z in AT2. rewrite Z.mul_1_l in AT2. lra.
  Qed.

  (** *** dgemm *)
  Lemma Rsum_range_ext (f g : Z -> R) lo hi : (forall l, (lo <= l <= hi)%Z -> f l = g l) -> Rsum_range f lo hi = Rsum_range g lo hi.
  Proof. intros H. apply Rle_antisym; apply Rsum_range_le; intros l Hl; rewrite H by lia; lra. Qed.

  Lemma dgemm_err {A B C} {TA : ToFA b64 A} {TB : ToFA b64 B} {TC : ToFA b64 C} {FC : FromFA b64 C}
      transa transb m n k (alpha : b64) (a : A) lda (b : B) ldb beta (c : C) ldc nota notb af bf cf (Am Bm Cm : Z -> Z -> R) :
    none_bad (gemm_table transa transb m n k lda ldb ldc) ->
    (nota = true <-> letter transa LN) -> (notb = true <-> letter transb LN) ->
    to_fa_2d a lda = Ok af -> to_fa_2d b ldb = Ok bf -> to_fa_2d c ldc = Ok cf -> (m <= rows cf)%Z ->
    op_is64 nota af m k Am -> op_is64 notb bf k n Bm -> op_is64 true cf m n Cm ->
    exists c', same_shape c' cf /\
      dgemm transa transb m n k alpha a lda b ldb beta c ldc =
        (if ((m =? 0) || (n =? 0) || gemm_idle k alpha beta)%bool%Z then Ok c else from_fa c') /\
      (((m =? 0) || (n =? 0) || gemm_idle k alpha beta)%bool%Z = true -> c' = cf) /\
      forall i j, (1 <= i <= m)%Z -> (1 <= j <= n)%Z -> exists y, ent c' i j = Some y /\
        (is_finite y = true ->
         Rabs (val64 y - (val64 alpha * Rsum_range (fun l => Am i l * Bm l j) 1 k + val64 beta * Cm i j)) <=
           gam (Z.to_nat k + 3) * (Rabs (val64 alpha) * Rsum_range (fun l => Rabs (Am i l) * Rabs (Bm l j)) 1 k + Rabs (val64 beta) * Rabs (Cm i j)) +
           (1 + u64) ^ (Z.to_nat k + 3) * (eta64 * (Rsum_range (fun l => Rabs (Am i l) + Rabs (val64 alpha) + 1) 1 k + 2))).
  Proof.
    intros NB LA LB EA EB EC Hm HA HB HC.
    assert (Hk : (0 <= k)%Z). { pose proof NB as NB'. unfold none_bad, gemm_table in NB'. rewrite Forall_forall in NB'. assert (~ (k < 0)%Z); [|lia]. intros Hk. apply (NB' (5%Z, (k < 0)%Z)); cbn; auto 10. }
    destruct (dgemm_spec transa transb m n k alpha a lda b ldb beta c ldc nota notb af bf cf NB LA LB EA EB EC Hm) as (c' & (SS & BU & _) & D & I).
    exists c'. split; [exact SS|]. split; [exact D|]. split; [exact I|]. intros i j Hi Hj.
    destruct (HC i j Hi Hj) as (x & Ex & Vx). specialize (BU i j Hi Hj). rewrite Ex in BU. eexists. split; [exact BU|]. intros F.
    pose proof (gemm_err nota notb k alpha beta af bf i j x Hk F) as E. unfold gemm_exact, gemm_mag, gemm_und in E.
    assert (OA : forall l, (1 <= l <= k)%Z -> B2R (op nota af i l) = Am i l).
    { intros l Hl. destruct (HA i l Hi Hl) as (v & Ev & <-). unfold op, val64. rewrite !get2_ent. destruct nota; rewrite Ev; reflexivity. }
    assert (OB : forall l, (1 <= l <= k)%Z -> B2R (op notb bf l j) = Bm l j).
    { intros l Hl. destruct (HB l j Hl Hj) as (v & Ev & <-). unfold op, val64. rewrite !get2_ent. destruct notb; rewrite Ev; reflexivity. }
    rewrite (Rsum_range_ext (fun l => B2R (op nota af i l) * B2R (op notb bf l j)) (fun l => Am i l * Bm l j)) in E by (intros l Hl; rewrite OA, OB by exact Hl; reflexivity).
    rewrite (Rsum_range_ext (fun l => Rabs (B2R (op nota af i l)) * Rabs (B2R (op notb bf l j))) (fun l => Rabs (Am i l) * Rabs (Bm l j))) in E by (intros l Hl; rewrite OA, OB by exact Hl; reflexivity).
    rewrite (Rsum_range_ext (fun l => Rabs (B2R (op nota af i l)) + Rabs (B2R alpha) + 1) (fun l => Rabs (Am i l) + Rabs (val64 alpha) + 1)) in E by (intros l Hl; rewrite OA by exact Hl; reflexivity).
    rewrite <- Vx. exact E.
  Qed.

  Lemma dgemm_finite {A B C} {TA : ToFA b64 A} {TB : ToFA b64 B} {TC : ToFA b64 C} {FC : FromFA b64 C}
      transa transb m n k (alpha : b64) (a : A) lda (b : B) ldb beta (c : C) ldc nota notb af bf cf :
    none_bad (gemm_table transa transb m n k lda ldb ldc) -> (k <= 2 ^ 52)%Z ->
    (nota = true <-> letter transa LN) -> (notb = true <-> letter transb LN) ->
    to_fa_2d a lda = Ok af -> to_fa_2d b ldb = Ok bf -> to_fa_2d c ldc = Ok cf -> (m <= rows cf)%Z ->
    is_finite alpha = true -> Rabs (val64 alpha) <= 2 ^ 300 -> is_finite beta = true -> Rabs (val64 beta) <= 2 ^ 300 ->
    op_bound64 nota af m k (2 ^ 300) -> op_bound64 notb bf k n (2 ^ 300) -> op_bound64 true cf m n (2 ^ 300) ->
    exists c', same_shape c' cf /\
      dgemm transa transb m n k alpha a lda b ldb beta c ldc =
        (if ((m =? 0) || (n =? 0) || gemm_idle k alpha beta)%bool%Z then Ok c else from_fa c') /\
      (((m =? 0) || (n =? 0) || gemm_idle k alpha beta)%bool%Z = true -> c' = cf) /\
      forall i j, (1 <= i <= m)%Z -> (1 <= j <= n)%Z -> exists y, ent c' i j = Some y /\ is_finite y = true.
  Proof.
    intros NB Hk2 LA LB EA EB EC Hm Fal Mal Fbe Mbe HA HB HC.
    assert (Hk : (0 <= k)%Z). { pose proof NB as NB'. unfold none_bad, gemm_table in NB'. rewrite Forall_forall in NB'. assert (~ (k < 0)%Z); [|lia]. intros Hk. apply (NB' (5%Z, (k < 0)%Z)); cbn; auto 10. }
    assert (E300 : (2 ^ 300 = bpow radix2 300)%R). { change 300%Z with (Z.of_nat 300). rewrite bpow_powerRZ, <- pow_powerRZ. reflexivity. }
    rewrite E300 in *.
    destruct (dgemm_spec transa transb m n k alpha a lda b ldb beta c ldc nota notb af bf cf NB LA LB EA EB EC Hm) as (c' & (SS & BU & _) & D & I).
    exists c'. split; [exact SS|]. split; [exact D|]. split; [exact I|]. intros i j Hi Hj.
    destruct (HC i j Hi Hj) as (x & Ex & Fx & Mx). specialize (BU i j Hi Hj). rewrite Ex in BU. eexists. split; [exact BU|]. apply gemm_fin.
    - lia.
    - intros v [<-|[<-|[<-|[]]]]; auto.
    - intros l Hl. destruct (HA i l Hi Hl) as (v & Ev & Fv). unfold op. rewrite !get2_ent. destruct nota; rewrite Ev; exact Fv.
    - intros l Hl. destruct (HB l j Hl Hj) as (v & Ev & Fv). unfold op. rewrite !get2_ent. destruct notb; rewrite Ev; exact Fv.
  Qed.
End Err.

(** the usual way of reading gam *)
Lemma gam_linear n : INR n * u64 < 1 -> gam n <= INR n * u64 / (1 - INR n * u64).
Proof.
  intros H. pose proof u64_pos as U. assert (I : (1 + u64) ^ n * (1 - INR n * u64) <= 1).
  { clear H. induction n as [|n IH]; [cbn; lra|]. rewrite S_INR. cbn [pow]. set (p := (1 + u64) ^ n) in *. assert (1 <= p) by apply Pn_ge. pose proof (pos_INR n).
    assert (0 <= INR n * u64 * u64) by (apply Rmult_le_pos; [apply Rmult_le_pos|]; lra).
    replace ((1 + u64) * p * (1 - (INR n + 1) * u64)) with (p * (1 - INR n * u64) - p * (INR n * u64 * u64 + u64 * u64)) by ring.
    assert (0 <= p * (INR n * u64 * u64 + u64 * u64)) by (apply Rmult_le_pos; [lra|]; apply Rplus_le_le_0_compat; [lra|]; apply Rmult_le_pos; lra). lra. }
  unfold gam. apply Rmult_le_reg_r with (1 - INR n * u64); [lra|]. unfold Rdiv. rewrite Rmult_assoc, Rinv_l by lra. rewrite Rmult_minus_distr_r. lra.
Qed.
