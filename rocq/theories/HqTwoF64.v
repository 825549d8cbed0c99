(** dlahqr on 2-by-2 matrices in binary64: backward stable. *)
From Coq Require Import Reals Lra Ascii.
From Flocq Require Import Core BinarySingleNaN.
From Verif Require Import Base Num Array Blas Lapack Dlahqr Spec SpecR SpecErr Lists FaLemmas Blas1Proofs LahqrProofs LahqrStuck LahqrTop
  B64 B64Lemmas B64Nn MachProofs RoundErr AppErr LarfgErr Near LanvCalc LanvStd LanvErr LanvEig LanvWit.
Local Open Scope R_scope.

Section Two.
  Context (lm : libm) (LM : libm_ok lm).
  #[local] Instance NB2 : Num b64 := B64 lm.

  Lemma smlnum2 : B2R (hq_smlnum 1 2 : b64) = bpow radix2 (-969) /\ is_finite (hq_smlnum 1 2 : b64) = true.
  Proof.
    split; [|rewrite <- is_finite_SF_B2SF; vm_compute; reflexivity]. rewrite (B2R_pow _ 4503599627370496 (-1021) 52); [reflexivity| |reflexivity]. vm_compute. reflexivity.
  Qed.
  Lemma ulp2 : B2R (hq_ulp : b64) = bpow radix2 (-52) /\ is_finite (hq_ulp : b64) = true.
  Proof.
    split; [|rewrite <- is_finite_SF_B2SF; vm_compute; reflexivity]. rewrite (B2R_pow _ 4503599627370496 (-104) 52); [reflexivity| |reflexivity]. vm_compute. reflexivity.
  Qed.

  Lemma not_small (f : fa b64) (a b c d : b64) M : ent f 1 1 = Some a -> ent f 1 2 = Some b -> ent f 2 1 = Some c -> ent f 2 2 = Some d ->
    bnd M a -> bnd M c -> bnd M d -> M <= bpow radix2 400 ->
    bpow radix2 (-969) < Rabs (B2R c) -> bpow radix2 (-51) * (Rabs (B2R a) + Rabs (B2R d)) < Rabs (B2R c) -> hq_small 1 2 f 2 = false.
  Proof.
    intros E1 E2 E3 E4 (Fa & La) (Fc & Lc) (Fd & Ld) MU L1 L2. unfold hq_small. change (2 - 1)%Z with 1%Z. apply get2_Some in E1, E2, E3, E4. rewrite E1, E2, E3, E4.
    destruct smlnum2 as (VS & FS). destruct ulp2 as (VU & FU). pose proof u_tiny as [U0 U1]. pose proof eta64_pos as EP.
    change (fle (fabs c) (hq_smlnum 1 2)) with (Bleb (Babs c) (@hq_smlnum b64 NB2 1 2)). rewrite Bleb_correct by (rewrite ?is_finite_Babs; assumption). rewrite B2R_Babs, VS, Rle_bool_false by exact L1.
    change (1 <=? 2 - 2)%Z with false. change (2 + 1 <=? 2)%Z with false. cbv iota.
    match goal with |- context [if ?c then ?x else ?x] => replace (if c then x else x) with x by (destruct c; reflexivity) end.
    set (t := fadd (fabs a) (fabs d)). pose proof (Rabs_pos (B2R a)) as A0. pose proof (Rabs_pos (B2R d)) as D0.
    assert (Ft : is_finite t = true).
    { change t with (Bplus mode_NE (Babs a) (Babs d)). apply plus_ok; rewrite ?is_finite_Babs; try assumption. rewrite !B2R_Babs. rewrite Rabs_pos_eq by lra.
      apply Rle_trans with (bpow radix2 1 * bpow radix2 400); [change (bpow radix2 1) with 2; lra|rewrite <- bpow_plus; apply bpow_le; lia]. }
    destruct (plus_fin (Babs a) (Babs d) Ft) as (_ & _ & _ & Et). rewrite !B2R_Babs in Et. change (Bplus mode_NE (Babs a) (Babs d)) with t in Et. rewrite (Rabs_pos_eq (Rabs (B2R a) + Rabs (B2R d))) in Et by lra. set (A := Rabs (B2R a) + Rabs (B2R d)) in *.
    assert (UA : 0 <= u64 * A <= / 1000 * A) by (split; [apply Rmult_le_pos; unfold A; lra|apply Rmult_le_compat_r; unfold A; lra]).
    assert (TB : 0 <= B2R t <= 1.001 * A) by (apply ab_elim in Et; unfold A in *; lra).
    set (p := fmul hq_ulp t). assert (PE : B2R (hq_ulp : b64) * B2R t = bpow radix2 (-52) * B2R t) by (rewrite VU; reflexivity).
    assert (S52 : 0 < bpow radix2 (-52) <= 1) by (split; [apply bpow_gt_0|change 1 with (bpow radix2 0); apply bpow_le; lia]).
    assert (PP : 0 <= bpow radix2 (-52) * B2R t <= 1.001 * (bpow radix2 (-52) * A)) by (split; [apply Rmult_le_pos; lra|replace (1.001 * (bpow radix2 (-52) * A)) with (bpow radix2 (-52) * (1.001 * A)) by ring; apply Rmult_le_compat_l; lra]).
    assert (SA : 0 <= bpow radix2 (-52) * A <= A) by (split; [apply Rmult_le_pos; unfold A; lra|rewrite <- (Rmult_1_l A) at 2; apply Rmult_le_compat_r; unfold A; lra]).
    assert (Fp : is_finite p = true).
    { change p with (Bmult mode_NE (@hq_ulp b64 NB2) t). apply mult_ok; [exact FU|exact Ft|]. rewrite PE, Rabs_pos_eq by lra. apply Rle_trans with (bpow radix2 2 * bpow radix2 400); [change (bpow radix2 2) with 4; unfold A in *; lra|rewrite <- bpow_plus; apply bpow_le; lia]. }
    destruct (mult_fin _ _ Fp) as (_ & _ & _ & Ep). change (Bmult mode_NE (@hq_ulp b64 NB2) t) with p in Ep. rewrite PE, (Rabs_pos_eq (bpow radix2 (-52) * B2R t)) in Ep by lra.
    assert (UP : u64 * (bpow radix2 (-52) * B2R t) <= / 1000 * (bpow radix2 (-52) * B2R t)) by (apply Rmult_le_compat_r; lra).
    assert (K : bpow radix2 (-51) * A = 2 * (bpow radix2 (-52) * A)) by (replace (bpow radix2 (-51)) with (bpow radix2 1 * bpow radix2 (-52)) by (rewrite <- bpow_plus; reflexivity); change (bpow radix2 1) with 2; ring).
    assert (EC : eta64 <= / 1000 * Rabs (B2R c)).
    { apply Rle_trans with (bpow radix2 (-20) * bpow radix2 (-969)); [unfold eta64; rewrite <- bpow_plus; apply bpow_le; lia|]. change (bpow radix2 (-20)) with (/ 1048576). pose proof (bpow_gt_0 radix2 (-969)). lra. }
    change (fle (fabs c) p) with (Bleb (Babs c) p). rewrite Bleb_correct by (rewrite ?is_finite_Babs; assumption). rewrite B2R_Babs.
    rewrite Rle_bool_false; [reflexivity|]. apply ab_elim in Ep. lra.
  Qed.

  (** one row of Z times the computed rotation *)
  Lemma rot_row K (x y cs sn : b64) C S : mid K -> bnd K x -> bnd K y -> is_finite cs = true -> is_finite sn = true -> C * C + S * S = 1 ->
    Rabs (B2R cs - C) <= bpow radix2 (-46) -> Rabs (B2R sn - S) <= bpow radix2 (-46) ->
    let p := fadd (fmul cs x) (fmul sn y) in let q := fsub (fmul cs y) (fmul sn x) in
    is_finite p = true /\ is_finite q = true /\
    Rabs (B2R p - (B2R x * C + B2R y * S)) <= bpow radix2 (-44) * K /\ Rabs (B2R q - (B2R y * C - B2R x * S)) <= bpow radix2 (-44) * K.
  Proof.
    intros HK (Fx & Lx) (Fy & Ly) Fc Fs ONE EC ES. destruct (mid_facts K HK) as (K0 & UK & UUK & ET & BIG & UKK). pose proof u_tiny as [U0 U1]. destruct (unit_abs C S ONE) as (C1 & S1). cbv zeta.
    assert (K2 : bpow radix2 (-46) = 128 * u64) by (replace (bpow radix2 (-46)) with (bpow radix2 7 * u64) by (unfold u64; rewrite <- bpow_plus; reflexivity); reflexivity).
    assert (K4 : bpow radix2 (-44) * K = 512 * (u64 * K)) by (replace (bpow radix2 (-44)) with (bpow radix2 9 * u64) by (unfold u64; rewrite <- bpow_plus; reflexivity); change (bpow radix2 9) with 512; ring).
    rewrite K2 in EC, ES. rewrite K4.
    assert (HC : ab cs C (128 * u64) 1) by (split; [exact Fc|split; assumption]). assert (HS : ab sn S (128 * u64) 1) by (split; [exact Fs|split; assumption]).
    assert (HX : ab x (B2R x) 0 K) by (apply ab_exact; assumption). assert (HY : ab y (B2R y) 0 K) by (apply ab_exact; assumption).
    assert (PR : forall (w v : b64) W, ab w W (128 * u64) 1 -> ab v (B2R v) 0 K -> ab (fmul w v) (W * B2R v) (130 * (u64 * K)) K).
    { intros w v W Hw Hv. eapply ab_weak; [eapply ab_mul; [exact Hw|exact Hv|]| |]; lra. }
    pose proof (PR _ _ _ HC HX) as P1. pose proof (PR _ _ _ HS HY) as P2. pose proof (PR _ _ _ HC HY) as P3. pose proof (PR _ _ _ HS HX) as P4. change (@NBab lm) with NB2 in *.
    destruct (ab_add lm _ _ _ _ _ _ _ _ P1 P2 ltac:(lra)) as (F1 & A1 & _). destruct (ab_sub lm _ _ _ _ _ _ _ _ P3 P4 ltac:(lra)) as (F2 & A2 & _). change (@NBab lm) with NB2 in *.
    split; [exact F1|]. split; [exact F2|]. rewrite (Rmult_comm (B2R x) C), (Rmult_comm (B2R y) S), (Rmult_comm (B2R y) C), (Rmult_comm (B2R x) S). split; (eapply Rle_trans; [eassumption|]); lra.
  Qed.
End Two.
