(** dlapy2. *)
From Flocq Require Import IEEE754.BinarySingleNaN Core.
From Coq Require Import Ascii Reals Lra Floats.SpecFloat.
From Verif Require Import Base Num Blas Lapack B64 B64Lemmas B64Nn ER MachProofs.
Open Scope R_scope.

(** the largest finite double, f64::MAX, as a real *)
Definition Rfmax : R := bpow radix2 1024 - bpow radix2 971.
Lemma er_fMAX : (fMAX : er) = Fin Rfmax.
Proof.
  rewrite er_fmax. f_equal. unfold Rfmax. rewrite <- bpow_powerRZ with (r := radix2) || idtac.
  rewrite minus_IZR, <- bpow_IZR by lia. change 1024%Z with (53 + 971)%Z. rewrite bpow_plus.
  replace (powerRZ 2 971) with (bpow radix2 971) by (rewrite bpow_powerRZ; reflexivity). ring.
Qed.

Lemma sqrt_split w z : 0 < w -> w * sqrt (1 + z / w * (z / w)) = sqrt (w * w + z * z).
Proof.
  intros H. rewrite <- (sqrt_square w) at 1 by lra. rewrite <- sqrt_mult_alt by nra. f_equal. field. lra.
Qed.

Lemma dlapy2_exact x y : Rabs x <= Rfmax -> Rabs y <= Rfmax ->
  dlapy2 (Fin x) (Fin y) = Fin (sqrt (x * x + y * y)).
Proof.
  intros Hx Hy. unfold dlapy2. cbn [fisnan ER er_isnan]. rewrite !er_absE, er_maxE, er_minE, er_f0, er_eqE, er_fMAX, er_ltE.
  assert (E : x * x + y * y = Rmax (Rabs x) (Rabs y) * Rmax (Rabs x) (Rabs y) + Rmin (Rabs x) (Rabs y) * Rmin (Rabs x) (Rabs y)).
  { rewrite <- (Rabs_mult_self x), <- (Rabs_mult_self y) || idtac.
    unfold Rmax, Rmin. pose proof (Rsqr_abs x) as Ex. pose proof (Rsqr_abs y) as Ey. unfold Rsqr in *. destruct (Rle_dec _ _); lra. }
  assert (Hw : Rmax (Rabs x) (Rabs y) <= Rfmax) by (apply Rmax_lub; assumption).
  assert (W0 : 0 <= Rmin (Rabs x) (Rabs y)) by (apply Rmin_glb; apply Rabs_pos).
  assert (WZ : Rmin (Rabs x) (Rabs y) <= Rmax (Rabs x) (Rabs y)).
  { eapply Rle_trans; [apply Rmin_l|apply Rmax_l]. }
  revert E W0 WZ Hw. generalize (Rmax (Rabs x) (Rabs y)) as w, (Rmin (Rabs x) (Rabs y)) as z. intros w z E W0 WZ Hw. rewrite E.
  rewrite (Rlt_bool_false Rfmax w) by lra. rewrite orb_false_r.
  case Req_bool_spec; intros Hz.
  - subst z. f_equal. rewrite Rmult_0_l, Rplus_0_r, sqrt_square; lra.
  - rewrite er_f1, er_divE by lra. rewrite er_mulE, er_addE, er_sqrtE, er_mulE.
    + rewrite sqrt_split by lra. reflexivity.
    + assert (0 <= z / w * (z / w)) by apply Rle_0_sqr. lra.
Qed.

Section F64.
  Variable lm : libm.
  #[local] Instance NBl : Num b64 := B64 lm.

  (** the two magnitudes in order *)
  Lemma max_min_abs (x y : b64) : is_nan x = false -> is_nan y = false ->
    exists w z, b64_max (Babs x) (Babs y) = w /\ b64_min (Babs x) (Babs y) = z /\
      nn w /\ nn z /\ Bltb w z = false /\
      ((w = Babs x /\ z = Babs y) \/ (w = Babs y /\ z = Babs x)).
  Proof.
    intros Nx Ny. pose proof (nn_abs x Nx) as Ax. pose proof (nn_abs y Ny) as Ay.
    revert Ax Ay. generalize (Babs x) as a, (Babs y) as b. intros a b Ha Hb. clear x y Nx Ny.
    assert (EM : b64_max a b = if Bltb a b then b else a) by (destruct Ha as [Na _], Hb as [Nb _]; destruct a, b; cbn in *; auto; discriminate).
    assert (Em : b64_min a b = if Bltb b a then b else a) by (destruct Ha as [Na _], Hb as [Nb _]; destruct a, b; cbn in *; auto; discriminate).
    rewrite EM, Em. clear EM Em.
    assert (T : Bltb a b = true -> Bltb b a = false).
    { unfold Bltb, SFltb. change (SFcompare (B2SF a) (B2SF b)) with (Bcompare a b).
      change (SFcompare (B2SF b) (B2SF a)) with (Bcompare b a). rewrite (Bcompare_swap 53 1024 a b).
      destruct (Bcompare a b) as [[]|]; cbn; congruence. }
    destruct (Bltb a b) eqn:L.
    - rewrite (T eq_refl). exists b, a. repeat (split; auto).
    - destruct (Bltb b a) eqn:L'.
      + exists a, b. repeat (split; auto).
      + assert (a = b).
        { destruct (is_finite a) eqn:Fa, (is_finite b) eqn:Fb.
          - rewrite Bltb_correct in L, L' by assumption.
            apply B2R_Bsign_inj; auto.
            + revert L L'. case Rlt_bool_spec; [discriminate|]. case Rlt_bool_spec; [discriminate|]. lra.
            + destruct Ha as [_ ->], Hb as [_ ->]. reflexivity.
          - rewrite (nn_not_finite b Hb Fb) in L. destruct a as [s|s| |s m e B], Ha as [Na Sa]; cbn in *; try discriminate; subst; discriminate.
          - rewrite (nn_not_finite a Ha Fa) in L'. destruct b as [s|s| |s m e B], Hb as [Nb Sb]; cbn in *; try discriminate; subst; discriminate.
          - rewrite (nn_not_finite a Ha Fa), (nn_not_finite b Hb Fb). reflexivity. }
        subst b. exists a, a. repeat (split; auto).
  Qed.

  (** dlapy2 after the NaN tests *)
  Definition lapy (w z : b64) : b64 :=
    (if (z =? f0) || (w >? fMAX) then w else w * fsqrt (f1 + (z / w) * (z / w)))%num.

  Lemma dlapy2_lapy (x y : b64) : is_nan x = false -> is_nan y = false ->
    dlapy2 x y = lapy (b64_max (Babs x) (Babs y)) (b64_min (Babs x) (Babs y)).
  Proof. intros Nx Ny. unfold dlapy2. cbn [fisnan NBl B64]. rewrite Nx, Ny. reflexivity. Qed.

  Lemma rnd_1 : rnd 1 = 1.
  Proof. apply round_generic; [typeclasses eauto|]. change 1 with (bpow radix2 0). apply generic_format_bpow. unfold FLT_exp. lia. Qed.
  Lemma rnd_2 : rnd 2 = 2.
  Proof. apply round_generic; [typeclasses eauto|]. change 2 with (bpow radix2 1). apply generic_format_bpow. unfold FLT_exp. lia. Qed.
  Lemma rnd_le x y : x <= y -> rnd x <= rnd y.
  Proof. intros; apply round_le; auto; typeclasses eauto. Qed.
  Lemma rnd_B2R (x : b64) : rnd (B2R x) = B2R x.
  Proof. apply round_generic; [typeclasses eauto|]. exact (generic_format_B2R 53 1024 x). Qed.

  Lemma nn_cmp_finite (x y : b64) : nn x -> nn y -> Bltb x y = false -> is_finite x = true -> is_finite y = true /\ B2R y <= B2R x.
  Proof.
    intros Hx Hy L Fx. destruct (is_finite y) eqn:Fy.
    - split; auto. rewrite Bltb_correct in L by assumption. revert L. case Rlt_bool_spec; [discriminate|lra].
    - rewrite (nn_not_finite y Hy Fy) in L. destruct x as [s|s| |s m e B], Hx as [Nx Sx]; cbn in *; try discriminate; subst; discriminate.
  Qed.

  Lemma fMAX_lt (w : b64) : nn w -> Bltb (fMAX : b64) w = negb (is_finite w).
  Proof.
    intros Hw. destruct (is_finite w) eqn:Fw.
    - rewrite Bltb_correct by (assumption || (vm_compute; reflexivity)). cbn [negb]. apply Rlt_bool_false.
      eapply Rle_trans; [apply Rle_abs|]. apply (mach_max lm).
    - rewrite (nn_not_finite w Hw Fw). vm_compute. reflexivity.
  Qed.

  (** 1 <= sqrt(1 + q^2) <= 2 after rounding *)
  Lemma root_bounds (w z : b64) : nn w -> nn z -> is_finite w = true -> is_finite z = true -> 0 < B2R z <= B2R w ->
    let s := fsqrt (f1 + (z / w) * (z / w))%num in
    nn s /\ is_finite s = true /\ 1 <= B2R s <= 2 /\
    B2R s = rnd (sqrt (rnd (1 + rnd (rnd (B2R z / B2R w) * rnd (B2R z / B2R w))))).
  Proof.
    intros Hw Hz Fw Fz H. cbv zeta. cbn [fsqrt fadd fmul fdiv NBl B64].
    assert (Q01 : 0 <= B2R z / B2R w <= 1).
    { split; [apply Rlt_le, Rdiv_lt_0_compat; lra|]. apply Rmult_le_reg_r with (B2R w); [lra|]. field_simplify; lra. }
    assert (R01 : 0 <= rnd (B2R z / B2R w) <= 1).
    { split; [apply rnd_ge_0; tauto|]. rewrite <- rnd_1. apply rnd_le. tauto. }
    (* quotient *)
    assert (Zw : B2R w <> 0) by lra.
    pose proof (Bdiv_correct 53 1024 prec53 emax1024 mode_NE z w Zw) as D. change (SpecFloat.fexp 53 1024) with (FLT_exp (-1074) 53) in D.
    cbn [round_mode] in D. rewrite Rlt_bool_true in D.
    2:{ rewrite Rabs_pos_eq by tauto. apply Rle_lt_trans with 1; [tauto|]. change 1 with (bpow radix2 0). apply bpow_lt. lia. }
    destruct D as (Ed & Fd & Sd). rewrite Fz in Fd.
    specialize (Sd (finite_not_nan _ Fd)). 
    revert Ed Fd. generalize (Bdiv mode_NE z w) as q. intros q Eq Fq.
    (* square *)
    pose proof (Bmult_correct 53 1024 prec53 emax1024 mode_NE q q) as M. change (SpecFloat.fexp 53 1024) with (FLT_exp (-1074) 53) in M.
    cbn [round_mode] in M. rewrite Eq, Fq in M.
    assert (P01 : 0 <= rnd (rnd (B2R z / B2R w) * rnd (B2R z / B2R w)) <= 1).
    { split; [apply rnd_ge_0; nra|]. rewrite <- rnd_1. apply rnd_le. nra. }
    rewrite Rlt_bool_true in M.
    2:{ rewrite Rabs_pos_eq by tauto. apply Rle_lt_trans with 1; [tauto|]. change 1 with (bpow radix2 0). apply bpow_lt. lia. }
    destruct M as (Em & Fm & Sm). cbn [andb] in Fm. specialize (Sm (finite_not_nan _ Fm)). rewrite xorb_nilpotent in Sm.
    revert Em Fm Sm. generalize (Bmult mode_NE q q) as p. intros p Ep Fp Sp. clear q Eq Fq Sd.
    assert (Hp : nn p) by (split; [apply finite_not_nan; assumption|assumption]).
    assert (B1 : B2R (@f1 b64 NBl) = 1) by exact (mach_R lm).
    assert (F1 : is_finite (@f1 b64 NBl) = true) by reflexivity.
    assert (N1 : nn (@f1 b64 NBl)) by (split; reflexivity).
    (* sum *)
    pose proof (Bplus_correct 53 1024 prec53 emax1024 mode_NE (@f1 b64 NBl) p F1 Fp) as A. change (SpecFloat.fexp 53 1024) with (FLT_exp (-1074) 53) in A.
    cbn [round_mode] in A. rewrite B1, Ep in A.
    assert (S12 : 1 <= rnd (1 + rnd (rnd (B2R z / B2R w) * rnd (B2R z / B2R w))) <= 2).
    { split; [rewrite <- rnd_1 at 1|rewrite <- rnd_2]; apply rnd_le; lra. }
    rewrite Rlt_bool_true in A.
    2:{ rewrite Rabs_pos_eq by lra. apply Rle_lt_trans with 2; [tauto|]. change 2 with (bpow radix2 1). apply bpow_lt. lia. }
    destruct A as (Ea & Fa & _). pose proof (proj1 (plus_nn _ _ N1 Hp)) as Na.
    destruct (sqrt_nn _ Na) as (Ns & Fs & Es). rewrite Fa in Fs. specialize (Es Fa). rewrite Ea in Es.
    split; [exact Ns|]. split; [exact Fs|]. split; [|exact Es].
    rewrite Es. split.
    - rewrite <- rnd_1 at 1. apply rnd_le. rewrite <- sqrt_1 at 1. apply sqrt_le_1_alt. tauto.
    - rewrite <- rnd_2. apply rnd_le. replace 2 with (sqrt (2 * 2)) by (apply sqrt_square; lra). apply sqrt_le_1_alt. lra.
  Qed.

  (** the float comparison w <= r for nonnegative values *)
  Lemma lapy_spec (w z : b64) : nn w -> nn z -> Bltb w z = false ->
    nn (lapy w z) /\ Bleb w (lapy w z) = true /\
    (is_finite w = false -> lapy w z = B754_infinity false).
  Proof.
    intros Hw Hz L. unfold lapy. cbn [feq flt NBl B64].
    assert (Lw : Bleb w w = true).
    { destruct Hw as [Nw _]. unfold Bleb, SFleb. change (SFcompare (B2SF w) (B2SF w)) with (Bcompare w w).
      rewrite Bcompare_refl || idtac.
      destruct (is_finite w) eqn:Fw.
      - rewrite Bcompare_correct by assumption. rewrite Rcompare_Eq by reflexivity. reflexivity.
      - destruct w as [s|s| |s m e B]; cbn in *; try discriminate. destruct s; reflexivity. }
    rewrite (fMAX_lt w Hw). destruct (is_finite w) eqn:Fw; cbn [negb].
    2:{ rewrite orb_true_r. split; auto. split; auto. intros _. apply nn_not_finite; assumption. }
    rewrite orb_false_r. destruct (Beqb z (@f0 b64 NBl)) eqn:Z0.
    { split; [exact Hw|]. split; [exact Lw|]. intros; congruence. }
    destruct (nn_cmp_finite w z Hw Hz L Fw) as [Fz Hle].
    assert (Hz0 : 0 < B2R z).
    { pose proof (nn_B2R z Hz). rewrite (Beqb_correct 53 1024 z (@f0 b64 NBl) Fz eq_refl) in Z0. change (B2R (@f0 b64 NBl)) with 0 in Z0.
      revert Z0. case Req_bool_spec; [discriminate|]. lra. }
    destruct (root_bounds w z Hw Hz Fw Fz (conj Hz0 Hle)) as (Ns & Fs & Bs & _). cbv zeta in *.
    revert Ns Fs Bs. set (s := fsqrt _). intros Ns Fs Bs. cbn [fmul NBl B64].
    destruct (mult_nn w s Hw Ns) as [Nr Er]; [congruence|congruence|].
    split; [exact Nr|]. split; [|discriminate].
    destruct (is_finite (Bmult mode_NE w s)) eqn:Fr.
    - destruct (Er eq_refl) as (_ & _ & E). rewrite Bleb_correct by assumption. apply Rle_bool_true.
      rewrite E. rewrite <- rnd_B2R at 1. apply rnd_le. pose proof (nn_B2R w Hw). nra.
    - rewrite (nn_not_finite _ Nr Fr). destruct w as [b|b| |b m e B]; cbn in *; try discriminate; destruct b; reflexivity.
  Qed.

  Lemma dlapy2_f64 (x y : b64) : is_nan x = false -> is_nan y = false ->
    is_nan (dlapy2 x y) = false /\ Bsign (dlapy2 x y) = false /\
    Bleb (Babs x) (dlapy2 x y) = true /\ Bleb (Babs y) (dlapy2 x y) = true /\
    (is_finite x = false \/ is_finite y = false -> dlapy2 x y = B754_infinity false).
  Proof.
    intros Nx Ny. rewrite dlapy2_lapy by assumption.
    destruct (max_min_abs x y Nx Ny) as (w & z & -> & -> & Hw & Hz & L & C).
    destruct (lapy_spec w z Hw Hz L) as (N & LE & I).
    split; [apply N|]. split; [apply N|].
    assert (LZ : Bleb z (lapy w z) = true).
    { destruct (is_finite (lapy w z)) eqn:Fr.
      - assert (Fw : is_finite w = true). { destruct (is_finite w) eqn:Fw; auto. rewrite (I eq_refl) in Fr. discriminate. }
        destruct (nn_cmp_finite w z Hw Hz L Fw) as [Fz Hle].
        rewrite Bleb_correct in LE |- * by assumption. revert LE. case Rle_bool_spec; [|discriminate]. intros. apply Rle_bool_true. lra.
      - rewrite (nn_not_finite _ N Fr). destruct Hz as [Nz Sz]. destruct z as [b|b| |b m e B]; cbn in *; try discriminate; subst; reflexivity. }
    assert (FI : is_finite x = false \/ is_finite y = false -> is_finite w = false).
    { destruct C as [[-> ->]|[-> ->]].
      - intros [H|H]; [rewrite is_finite_Babs; assumption|].
        destruct (is_finite (Babs x)) eqn:Fx; auto. destruct (nn_cmp_finite _ _ Hw Hz L Fx) as [F _]. rewrite is_finite_Babs in F. congruence.
      - intros [H|H]; [|rewrite is_finite_Babs; assumption].
        destruct (is_finite (Babs y)) eqn:Fy; auto. destruct (nn_cmp_finite _ _ Hw Hz L Fy) as [F _]. rewrite is_finite_Babs in F. congruence. }
    destruct C as [[-> ->]|[-> ->]]; auto.
  Qed.

  Lemma dlapy2_nan (x y : b64) : is_nan (dlapy2 x y) = (is_nan x || is_nan y).
  Proof.
    destruct (is_nan x) eqn:Nx; [|destruct (is_nan y) eqn:Ny].
    - unfold dlapy2. cbn [fisnan NBl B64]. rewrite Nx. assumption.
    - unfold dlapy2. cbn [fisnan NBl B64]. rewrite Nx, Ny. assumption.
    - apply dlapy2_f64; assumption.
  Qed.
  Lemma is_nan_eq (x : b64) : is_nan x = true -> x = B754_nan.
  Proof. destruct x; cbn; congruence. Qed.

  Lemma dlapy2_sym (x y : b64) : dlapy2 x y = dlapy2 y x.
  Proof.
    destruct (is_nan x) eqn:Nx, (is_nan y) eqn:Ny.
    - rewrite (is_nan_eq x Nx), (is_nan_eq y Ny). reflexivity.
    - rewrite (is_nan_eq x Nx). unfold dlapy2. cbn [fisnan NBl B64]. rewrite Ny. reflexivity.
    - rewrite (is_nan_eq y Ny). unfold dlapy2. cbn [fisnan NBl B64]. rewrite Nx. reflexivity.
    - rewrite !dlapy2_lapy by assumption.
      destruct (max_min_abs x y Nx Ny) as (w & z & -> & -> & Hw & Hz & L & C).
      destruct (max_min_abs y x Ny Nx) as (w' & z' & -> & -> & Hw' & Hz' & L' & C').
      assert (EQ : Bltb (Babs x) (Babs y) = false -> Bltb (Babs y) (Babs x) = false -> Babs x = Babs y).
      { intros L1 L2. destruct (max_min_abs x y Nx Ny) as (w1 & z1 & E1 & E2 & _).
        pose proof (nn_abs x Nx) as Ax. pose proof (nn_abs y Ny) as Ay.
        destruct (is_finite (Babs x)) eqn:Fx.
        - destruct (nn_cmp_finite _ _ Ax Ay L1 Fx) as [Fy H1]. destruct (nn_cmp_finite _ _ Ay Ax L2 Fy) as [_ H2].
          apply B2R_Bsign_inj; auto; [lra|]. destruct Ax as [_ ->], Ay as [_ ->]. reflexivity.
        - rewrite (nn_not_finite _ Ax Fx) in L2 |- *. symmetry. destruct (is_finite (Babs y)) eqn:Fy; [|apply nn_not_finite; auto].
          destruct (nn_cmp_finite _ _ Ay nn_inf L2 Fy) as [F _]. discriminate. }
      destruct C as [[-> ->]|[-> ->]], C' as [[-> ->]|[-> ->]]; auto; rewrite (EQ ltac:(assumption) ltac:(assumption)); reflexivity.
  Qed.

  Lemma dlapy2_sign (x y : b64) : dlapy2 (- x)%num y = dlapy2 x y /\ dlapy2 x (- y)%num = dlapy2 x y.
  Proof.
    assert (H : forall x y : b64, dlapy2 (- x)%num y = dlapy2 x y).
    { intros a b. cbn [fneg NBl B64]. destruct (is_nan a) eqn:Na.
      - rewrite (is_nan_eq a Na). reflexivity.
      - assert (Na' : is_nan (Bopp a) = false) by (destruct a; auto).
        destruct (is_nan b) eqn:Nb.
        + unfold dlapy2. cbn [fisnan NBl B64]. rewrite Na, Na', Nb. reflexivity.
        + rewrite !dlapy2_lapy by assumption. replace (Babs (Bopp a)) with (Babs a) by (destruct a; reflexivity). reflexivity. }
    split; [apply H|]. rewrite dlapy2_sym, H. apply dlapy2_sym.
  Qed.
End F64.
