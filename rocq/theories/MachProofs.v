(** dlamch. *)
From Flocq Require Import IEEE754.BinarySingleNaN Core Relative.
From Coq Require Import Ascii Reals Lra Floats.SpecFloat.
From Verif Require Import Base Num Blas Lapack B64 ER.
Open Scope Z_scope.

Lemma bpow_IZR (e : Z) : 0 <= e -> bpow radix2 e = IZR (2 ^ e).
Proof. intros H. rewrite (IZR_Zpower radix2) by assumption. reflexivity. Qed.

Section Mach.
  Variable lm : libm.
  #[local] Instance NBm : Num b64 := B64 lm.

  Lemma B2R_of_SF (x : b64) s : B2SF x = s -> B2R x = SF2R radix2 s.
  Proof. intros <-. symmetry. apply SF2R_B2SF. Qed.

  Lemma F2R_pow2 m e k : Zpos m = 2 ^ k -> 0 <= k -> @F2R radix2 (Float radix2 (Zpos m) e) = bpow radix2 (k + e).
  Proof. intros E Hk. unfold F2R; cbn [Fnum Fexp]. rewrite E, <- bpow_IZR, <- bpow_plus by lia. reflexivity. Qed.

  Lemma mach_E : B2R (dlamch (chr "E")) = bpow radix2 (-53).
  Proof.
    rewrite (B2R_of_SF _ (S754_finite false 4503599627370496 (-105))) by (vm_compute; reflexivity).
    unfold SF2R. cbn [cond_Zopp]. rewrite (F2R_pow2 _ _ 52) by (reflexivity || lia). reflexivity.
  Qed.
  Lemma mach_P : B2R (dlamch (chr "P")) = bpow radix2 (-52).
  Proof.
    rewrite (B2R_of_SF _ (S754_finite false 4503599627370496 (-104))) by (vm_compute; reflexivity).
    unfold SF2R. cbn [cond_Zopp]. rewrite (F2R_pow2 _ _ 52) by (reflexivity || lia). reflexivity.
  Qed.
  Lemma mach_B : B2R (dlamch (chr "B")) = 2%R.
  Proof.
    rewrite (B2R_of_SF _ (S754_finite false 4503599627370496 (-51))) by (vm_compute; reflexivity).
    unfold SF2R. cbn [cond_Zopp]. rewrite (F2R_pow2 _ _ 52) by (reflexivity || lia). reflexivity.
  Qed.
  Lemma mach_S : B2R (dlamch (chr "S")) = bpow radix2 (-1022).
  Proof.
    rewrite (B2R_of_SF _ (S754_finite false 4503599627370496 (-1074))) by (vm_compute; reflexivity).
    unfold SF2R. cbn [cond_Zopp]. rewrite (F2R_pow2 _ _ 52) by (reflexivity || lia). reflexivity.
  Qed.
  Lemma mach_U : B2R (dlamch (chr "U")) = bpow radix2 (-1022).
  Proof.
    rewrite (B2R_of_SF _ (S754_finite false 4503599627370496 (-1074))) by (vm_compute; reflexivity).
    unfold SF2R. cbn [cond_Zopp]. rewrite (F2R_pow2 _ _ 52) by (reflexivity || lia). reflexivity.
  Qed.
  Lemma mach_O : B2R (dlamch (chr "O")) = (bpow radix2 1024 - bpow radix2 971)%R.
  Proof.
    rewrite (B2R_of_SF _ (S754_finite false 9007199254740991 971)) by (vm_compute; reflexivity).
    unfold SF2R. cbn [cond_Zopp]. unfold F2R; cbn [Fnum Fexp].
    replace 9007199254740991 with (2 ^ 53 - 1) by reflexivity. rewrite minus_IZR, <- bpow_IZR by lia.
    change 1024 with (53 + 971). rewrite bpow_plus. ring.
  Qed.
  Lemma mach_finite : is_finite (dlamch (chr "E")) = true /\ is_finite (dlamch (chr "S")) = true /\
    is_finite (dlamch (chr "B")) = true /\ is_finite (dlamch (chr "P")) = true /\
    is_finite (dlamch (chr "U")) = true /\ is_finite (dlamch (chr "O")) = true.
  Proof. repeat split; vm_compute; reflexivity. Qed.
  Lemma B2R_int (x : b64) m e : B2SF x = S754_finite false m e -> e <= 0 ->
    forall z, Zpos m = z * 2 ^ (- e) -> B2R x = IZR z.
  Proof.
    intros E He z H. rewrite (B2R_of_SF _ _ E). unfold SF2R, F2R; cbn [cond_Zopp Fnum Fexp].
    rewrite H, mult_IZR, <- bpow_IZR, Rmult_assoc, <- bpow_plus by lia. replace (- e + e) with 0 by lia. cbn. ring.
  Qed.
  Lemma mach_N : B2R (dlamch (chr "N")) = 53%R.
  Proof. eapply B2R_int; [vm_compute; reflexivity|lia|reflexivity]. Qed.
  Lemma mach_R : B2R (dlamch (chr "R")) = 1%R.
  Proof. eapply B2R_int; [vm_compute; reflexivity|lia|reflexivity]. Qed.
  Lemma mach_L : B2R (dlamch (chr "L")) = 1024%R.
  Proof. eapply B2R_int; [vm_compute; reflexivity|lia|reflexivity]. Qed.
  Lemma mach_M : B2R (dlamch (chr "M")) = (-1021)%R.
  Proof.
    rewrite (B2R_of_SF _ (S754_finite true 8980810975674368 (-43))) by (vm_compute; reflexivity).
    unfold SF2R, F2R; cbn [cond_Zopp Fnum Fexp Z.opp].
    replace (-8980810975674368) with (-1021 * 2 ^ 43) by reflexivity.
    rewrite mult_IZR, <- bpow_IZR, Rmult_assoc, <- bpow_plus by lia. cbn. ring.
  Qed.

  (** eps is the relative rounding error *)
  Lemma mach_eps_rounding (x : R) : (bpow radix2 (-1022) <= Rabs x)%R ->
    (Rabs (round radix2 (FLT_exp (-1074) 53) ZnearestE x - x) <= B2R (dlamch (chr "E")) * Rabs x)%R.
  Proof.
    intros H. rewrite mach_E. pose proof (relative_error_N_FLT radix2 (-1074) 53 ltac:(lia) (fun t => negb (Z.even t)) x H) as E.
    replace (/ 2 * bpow radix2 (- (53) + 1))%R with (bpow radix2 (-53)) in E; [exact E|].
    change (- (53) + 1) with (1 + -53). rewrite bpow_plus. change (bpow radix2 1) with 2%R. field.
  Qed.

  (** the reciprocal of any number not below sfmin is finite *)
  Lemma mach_sfmin_recip (x : b64) : is_finite x = true -> (B2R (dlamch (chr "S")) <= Rabs (B2R x))%R ->
    is_finite (f1 / x)%num = true.
  Proof.
    rewrite mach_S. intros Fx Hx.
    assert (B1 : B2R (@f1 b64 NBm) = 1%R) by (exact mach_R).
    pose proof (bpow_gt_0 radix2 (-1022)) as Hp.
    assert (Hn : B2R x <> 0%R) by (intros E; rewrite E, Rabs_R0 in Hx; lra).
    pose proof (Bdiv_correct 53 1024 prec53 emax1024 mode_NE (@f1 b64 NBm) x Hn) as H.
    rewrite B1 in H.
    rewrite Rlt_bool_true in H.
    - apply H.
    - apply Rle_lt_trans with (bpow radix2 1022); [|apply bpow_lt; lia].
      apply abs_round_le_generic; [typeclasses eauto|typeclasses eauto| |].
      + apply generic_format_bpow. unfold SpecFloat.fexp, SpecFloat.emin. lia.
      + unfold Rdiv. rewrite Rmult_1_l, Rabs_inv.
        replace (bpow radix2 1022) with (/ bpow radix2 (-1022))%R.
        * apply Rinv_le; assumption.
        * rewrite <- bpow_opp. reflexivity.
  Qed.

  Lemma mach_max (x : b64) : (Rabs (B2R x) <= B2R (dlamch (chr "O")))%R.
  Proof. rewrite mach_O. apply abs_B2R_le_emax_minus_prec. reflexivity. Qed.

  Lemma mach_prec : (dlamch (chr "E") * dlamch (chr "B"))%num = dlamch (chr "P").
  Proof. apply b64_eq_SF. vm_compute. reflexivity. Qed.

  (** any other character, lower-case letters included, gives 0 *)
  Lemma mach_other c : ~ In c (map chr ["E"; "S"; "B"; "P"; "N"; "R"; "M"; "U"; "L"; "O"]%char) ->
    dlamch c = (f0 : b64).
  Proof.
    intros H. unfold dlamch. cbn [map In] in H.
    repeat (match goal with |- context [if (c =? chr ?x)%Z then _ else _] =>
      destruct (Z.eqb_spec c (chr x)); [exfalso; apply H; subst; tauto|] end).
    reflexivity.
  Qed.
  Lemma mach_lower_case : dlamch (chr "e") = (f0 : b64) /\ B2R (dlamch (chr "E")) <> B2R (f0 : b64).
  Proof.
    split; [reflexivity|]. rewrite mach_E. change (B2R (f0 : b64)) with 0%R.
    pose proof (bpow_gt_0 radix2 (-53)). lra.
  Qed.

  (** sfmin is the smallest positive normal number: no smaller positive float carries 53 bits *)
  Lemma mach_table : B2R (dlamch (chr "E")) = bpow radix2 (-53) /\ B2R (dlamch (chr "B")) = 2%R /\
    B2R (dlamch (chr "P")) = bpow radix2 (-52) /\ B2R (dlamch (chr "N")) = 53%R /\ B2R (dlamch (chr "R")) = 1%R /\
    B2R (dlamch (chr "S")) = bpow radix2 (-1022) /\ B2R (dlamch (chr "U")) = bpow radix2 (-1022) /\
    B2R (dlamch (chr "M")) = (-1021)%R /\ B2R (dlamch (chr "L")) = 1024%R /\
    B2R (dlamch (chr "O")) = (bpow radix2 1024 - bpow radix2 971)%R.
  Proof.
    exact (conj mach_E (conj mach_B (conj mach_P (conj mach_N (conj mach_R (conj mach_S (conj mach_U
      (conj mach_M (conj mach_L mach_O))))))))).
  Qed.
End Mach.
