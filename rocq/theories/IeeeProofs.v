(** ieeeck. *)
From Flocq Require Import IEEE754.BinarySingleNaN Core.
From Coq Require Import Ascii Reals Lra Floats.SpecFloat.
From Verif Require Import Base Num Blas Lapack B64 B64Lemmas B64Nn.
Open Scope Z_scope.

Lemma ieeeck_range {F} {NF : Num F} ispec (zero one : F) : ieeeck ispec zero one = 0 \/ ieeeck ispec zero one = 1.
Proof. unfold ieeeck. repeat match goal with |- context [if ?b then _ else _] => destruct b; auto end. Qed.

Section F64.
  Variable lm : libm.
  #[local] Instance NBi : Num b64 := B64 lm.

  Lemma Beqb_true_cases (x y : b64) : Beqb x y = true ->
    (is_finite x = true /\ is_finite y = true /\ B2R x = B2R y) \/ (exists s, x = B754_infinity s /\ y = B754_infinity s).
  Proof. apply b64_eqb_cases. Qed.

  Lemma double_format (x : b64) : generic_format radix2 (FLT_exp (-1074) 53) (2 * B2R x)%R.
  Proof.
    destruct x as [s|s| |s m e B]; cbn [B2R]; rewrite ?Rmult_0_r; try apply generic_format_0.
    apply generic_format_FLT. apply andb_prop in B. destruct B as [B1 B2].
    apply Zeq_bool_eq in B1. apply Zle_bool_imp_le in B2.
    apply (FLT_spec _ _ _ _ (Float radix2 (cond_Zopp s (Zpos m)) (e + 1))).
    - unfold F2R; cbn [Fnum Fexp]. rewrite bpow_plus. change (bpow radix2 1) with 2%R. ring.
    - cbn [Fnum]. rewrite abs_cond_Zopp. unfold SpecFloat.fexp, SpecFloat.emin in B1.
      rewrite Zpos_digits2_pos in B1.
      change (Z.abs (Zpos m)) with (Zpos m).
      replace (Zpos m) with (Z.abs (Zpos m)) by reflexivity. apply (Zpower_gt_Zdigits radix2). lia.
    - cbn [Fexp]. unfold SpecFloat.fexp, SpecFloat.emin in B1. lia.
  Qed.

  (** x == z and x + z == z only for zeros and infinities *)
  Lemma same_sum (x z : b64) : Beqb x z = true -> Beqb (Bplus mode_NE x z) z = true -> is_finite z = true -> B2R z = 0%R.
  Proof.
    intros E1 E2 Fz. apply Beqb_true_cases in E1 as [(Fx & _ & E)|(s & -> & ->)]; [|discriminate].
    pose proof (Bplus_correct 53 1024 prec53 emax1024 mode_NE x z Fx Fz) as H.
    change (SpecFloat.fexp 53 1024) with (FLT_exp (-1074) 53) in H. cbn [round_mode] in H.
    apply Beqb_true_cases in E2 as [(Fs & _ & E')|(s & _ & ->)]; [|discriminate].
    destruct (Rlt_bool _ _).
    - destruct H as (ER & _). rewrite E' in ER.
      replace (B2R x + B2R z)%R with (2 * B2R z)%R in ER by (rewrite E; ring).
      rewrite round_generic in ER; [lra|typeclasses eauto|apply double_format].
    - destruct H as (EO & _). destruct (Bplus mode_NE x z) as [s|s| |s m e B]; try discriminate.
  Qed.

  (** dividing anything by a zero gives an infinity or NaN *)
  Lemma div_zero (x z : b64) : is_finite z = true -> B2R z = 0%R ->
    exists y, Bdiv mode_NE x z = y /\ (y = B754_nan \/ exists s, y = B754_infinity s).
  Proof.
    intros Fz Z. assert (exists s, z = B754_zero s) as [s ->].
    { destruct z as [s|s| |s m e B]; try discriminate; eauto. exfalso. cbn in Z. apply eq_0_F2R in Z. destruct s; discriminate. }
    eexists. split; [reflexivity|]. destruct x as [s'|s'| |s' m e B]; cbn; eauto.
  Qed.

  (** zero = +-infinity: one / ((-one)/zero + one) is not that infinity *)
  Lemma inf_zero (one : b64) s :
    Beqb (Bdiv mode_NE one (Bplus mode_NE (Bdiv mode_NE (Bopp one) (B754_infinity s)) one)) (B754_infinity s) = false.
  Proof.
    destruct one as [s'|s'| |s' m e B]; try (destruct s, s'; reflexivity); [destruct s; reflexivity|].
    assert (E : Bplus mode_NE (Bdiv mode_NE (Bopp (B754_finite s' m e B)) (B754_infinity s)) (B754_finite s' m e B) = B754_finite s' m e B)
      by reflexivity.
    rewrite E. set (x := B754_finite s' m e B : b64).
    assert (Nx : B2R x <> 0%R). { cbn. intros H. apply eq_0_F2R in H. destruct s'; discriminate. }
    pose proof (Bdiv_correct 53 1024 prec53 emax1024 mode_NE x x Nx) as H.
    unfold Rdiv in H. rewrite Rinv_r in H by assumption. rewrite Rlt_bool_true in H.
    - destruct H as (_ & F & _). cbn [is_finite x] in F. destruct (Bdiv mode_NE x x); try discriminate; destruct s; try reflexivity; destruct s0; reflexivity.
    - replace (round _ _ _ 1) with 1%R; [rewrite Rabs_R1; change 1%R with (bpow radix2 0); apply bpow_lt; lia|].
      symmetry. apply round_generic; [typeclasses eauto|]. change 1%R with (bpow radix2 0). apply generic_format_bpow.
      unfold SpecFloat.fexp, SpecFloat.emin. lia.
  Qed.

  Lemma ieeeck_nan ispec (zero one : b64) : ispec <> 0 -> ieeeck ispec zero one = 0.
  Proof.
    intros Hi. unfold ieeeck. cbn [feq fle fne fdiv fadd fmul fneg fisnan NBi B64].
    destruct (Bleb _ _); [reflexivity|]. destruct (Bleb _ _); [reflexivity|].
    unfold fne. cbn [feq NBi B64].
    destruct (Beqb (Bdiv mode_NE one (Bplus mode_NE (Bdiv mode_NE (Bopp one) zero) one)) zero) eqn:E1; [|reflexivity]. cbn [negb].
    assert (Fz : is_finite zero = true).
    { apply Beqb_true_cases in E1 as E1'. destruct E1' as [(_ & F & _)|(s & _ & ->)]; [exact F|].
      rewrite inf_zero in E1. discriminate. }
    revert E1. generalize (Bdiv mode_NE one (Bplus mode_NE (Bdiv mode_NE (Bopp one) zero) one)) as negzro. intros negzro E1.
    destruct (Bleb _ _); [reflexivity|].
    destruct (Beqb (Bplus mode_NE negzro zero) zero) eqn:E2; [|reflexivity]. cbn [negb].
    pose proof (same_sum negzro zero E1 E2 Fz) as Z.
    assert (Fn : is_finite (Bplus mode_NE negzro zero) = true /\ B2R (Bplus mode_NE negzro zero) = 0%R).
    { apply Beqb_true_cases in E2 as [(F & _ & E)|(s & _ & ->)]; [split; [exact F|lra]|discriminate]. }
    destruct (div_zero one _ (proj1 Fn) (proj2 Fn)) as (posinf & Ep & Hp). rewrite Ep.
    do 3 (destruct (Bleb _ _); [reflexivity|]).
    destruct (Z.eqb_spec ispec 0); [contradiction|].
    assert (N3 : is_nan (Bdiv mode_NE (Bmult mode_NE posinf posinf) (Bmult mode_NE posinf posinf)) = true).
    { destruct Hp as [->|[[] ->]]; reflexivity. }
    rewrite N3, !orb_true_r. cbn [orb]. reflexivity.
  Qed.
  Lemma ieeeck_inf : ieeeck 0 (f0 : b64) f1 = 1.
  Proof. vm_compute. reflexivity. Qed.
  Lemma ilaenv_ieee name opts n1 n2 n3 n4 :
    ilaenv (F := b64) 10 name opts n1 n2 n3 n4 = Ok 0 /\ ilaenv (F := b64) 11 name opts n1 n2 n3 n4 = Ok 1.
  Proof.
    unfold ilaenv. cbn [Z.leb Z.eqb Z.compare Pos.compare Pos.compare_cont Pos.eqb andb]. rewrite ieeeck_nan by discriminate.
    rewrite ieeeck_inf. split; reflexivity.
  Qed.
End F64.
