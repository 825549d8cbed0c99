(** Sign and NaN reasoning for binary64: the values that are neither NaN nor carry a minus sign. *)
From Flocq Require Import IEEE754.BinarySingleNaN Core.
From Coq Require Import Reals Lra Floats.SpecFloat.
From Verif Require Import Base Num B64 B64Lemmas.
Open Scope R_scope.

Notation rnd := (round radix2 (FLT_exp (-1074) 53) ZnearestE).

(** +0, positive finite or +infinity *)
Definition nn (x : b64) : Prop := is_nan x = false /\ Bsign x = false.
(** nonzero: positive finite or +infinity *)
Definition pp (x : b64) : Prop := nn x /\ (is_finite x = true -> 0 < B2R x).

Lemma nn_abs x : is_nan x = false -> nn (Babs x).
Proof. destruct x; cbn; intros H; try discriminate; split; reflexivity. Qed.

Lemma nn_B2R x : nn x -> 0 <= B2R x.
Proof.
  intros [N S]. destruct x as [s|s| |s m e H]; cbn in *; try discriminate; try lra. subst s. apply F2R_ge_0. cbn. lia.
Qed.

Lemma nn_not_finite x : nn x -> is_finite x = false -> x = B754_infinity false.
Proof. intros [N S] F. destruct x as [s|s| |s m e H]; cbn in *; try discriminate. subst; reflexivity. Qed.

Lemma of_overflow (x : b64) : B2SF x = binary_overflow 53 1024 mode_NE false -> x = B754_infinity false.
Proof. intros H. destruct x as [s|s| |s m e B]; cbn in H; try discriminate. injection H as ->. reflexivity. Qed.

Lemma nn_inf : nn (B754_infinity false). Proof. split; reflexivity. Qed.
Lemma finite_not_nan (x : b64) : is_finite x = true -> is_nan x = false.
Proof. destruct x; cbn; congruence. Qed.

(** addition *)
Lemma plus_nn x y : nn x -> nn y ->
  nn (Bplus mode_NE x y) /\
  (is_finite (Bplus mode_NE x y) = true ->
     is_finite x = true /\ is_finite y = true /\ B2R (Bplus mode_NE x y) = rnd (B2R x + B2R y)).
Proof.
  intros Hx Hy. destruct (is_finite x) eqn:Fx.
  2:{ rewrite (nn_not_finite x Hx Fx). destruct Hy as [Ny Sy].
      destruct y as [s|s| |s m e B]; cbn in *; try discriminate; try (subst s; cbn); split; try (split; reflexivity); discriminate. }
  destruct (is_finite y) eqn:Fy.
  2:{ rewrite (nn_not_finite y Hy Fy). destruct Hx as [Nx Sx].
      destruct x as [s|s| |s m e B]; cbn in *; try discriminate; split; try (split; reflexivity); discriminate. }
  pose proof (Bplus_correct 53 1024 prec53 emax1024 mode_NE x y Fx Fy) as H.
  pose proof (nn_B2R x Hx). pose proof (nn_B2R y Hy).
  destruct (Rlt_bool _ _).
  - destruct H as (E & F & S). split; [split|]; auto.
    + apply finite_not_nan; assumption.
    + rewrite S. destruct Hx as [_ ->]. case Rcompare_spec; auto. lra.
  - destruct H as (E & S). destruct Hx as [_ Sx]. rewrite Sx in E. apply of_overflow in E. rewrite E.
    split; [apply nn_inf|discriminate].
Qed.

(** multiplication *)
Lemma mult_nn x y : nn x -> nn y ->
  (is_finite x = false -> is_finite y = true -> B2R y <> 0) ->
  (is_finite y = false -> is_finite x = true -> B2R x <> 0) ->
  nn (Bmult mode_NE x y) /\
  (is_finite (Bmult mode_NE x y) = true ->
     is_finite x = true /\ is_finite y = true /\ B2R (Bmult mode_NE x y) = rnd (B2R x * B2R y)).
Proof.
  intros Hx Hy Ix Iy. destruct (is_finite x) eqn:Fx.
  2:{ rewrite (nn_not_finite x Hx Fx). destruct Hy as [Ny Sy].
      destruct y as [s|s| |s m e B]; cbn in *; try discriminate; try (subst s; cbn); split; try (split; reflexivity); try discriminate.
      exfalso. apply Ix; reflexivity. }
  destruct (is_finite y) eqn:Fy.
  2:{ rewrite (nn_not_finite y Hy Fy). destruct Hx as [Nx Sx].
      destruct x as [s|s| |s m e B]; cbn in *; try discriminate; try (subst s; cbn); split; try (split; reflexivity); try discriminate.
      exfalso. apply Iy; reflexivity. }
  pose proof (Bmult_correct 53 1024 prec53 emax1024 mode_NE x y) as H.
  destruct (Rlt_bool _ _).
  - destruct H as (E & F & S). rewrite Fx, Fy in F.
    assert (N : is_nan (Bmult mode_NE x y) = false) by (apply finite_not_nan; assumption).
    split; [split|]; auto. rewrite S by assumption. destruct Hx as [_ ->], Hy as [_ ->]. reflexivity.
  - destruct Hx as [_ Sx], Hy as [_ Sy]. rewrite Sx, Sy in H. apply of_overflow in H. rewrite H.
    split; [apply nn_inf|discriminate].
Qed.

(** the square of anything that is not NaN *)
Lemma square_nn x : is_nan x = false ->
  nn (Bmult mode_NE x x) /\ (is_finite (Bmult mode_NE x x) = true -> B2R (Bmult mode_NE x x) = rnd (B2R x * B2R x)).
Proof.
  intros Nx. destruct (is_finite x) eqn:Fx.
  2:{ destruct x as [s|s| |s m e B]; cbn in *; try discriminate. destruct s; split; (split; reflexivity) || discriminate. }
  pose proof (Bmult_correct 53 1024 prec53 emax1024 mode_NE x x) as H.
  rewrite xorb_nilpotent in H. destruct (Rlt_bool _ _).
  - destruct H as (E & F & S). rewrite Fx in F.
    assert (N : is_nan (Bmult mode_NE x x) = false) by (apply finite_not_nan; assumption).
    split; [split|]; auto.
  - apply of_overflow in H. rewrite H. split; [apply nn_inf|discriminate].
Qed.

(** division *)
Lemma div_nn x y : nn x -> nn y -> is_finite x = true \/ is_finite y = true ->
  (is_finite y = true -> B2R y <> 0) ->
  nn (Bdiv mode_NE x y) /\
  (is_finite (Bdiv mode_NE x y) = true -> is_finite x = true /\
     (is_finite y = true -> B2R (Bdiv mode_NE x y) = rnd (B2R x / B2R y)) /\
     (is_finite y = false -> B2R (Bdiv mode_NE x y) = 0)).
Proof.
  intros Hx Hy I Z. destruct (is_finite x) eqn:Fx.
  2:{ destruct I as [I|Fy]; [discriminate|]. specialize (Z Fy). rewrite (nn_not_finite x Hx Fx). destruct Hy as [Ny Sy].
      destruct y as [s|s| |s m e B]; cbn in *; try discriminate; try (subst s; cbn); split; try (split; reflexivity); try discriminate. }
  destruct (is_finite y) eqn:Fy.
  2:{ rewrite (nn_not_finite y Hy Fy). destruct Hx as [Nx Sx].
      destruct x as [s|s| |s m e B]; cbn in *; try discriminate; subst s; cbn;
        (split; [split; reflexivity|intros _; split; [reflexivity|split; [discriminate|reflexivity]]]). }
  specialize (Z eq_refl).
  pose proof (Bdiv_correct 53 1024 prec53 emax1024 mode_NE x y Z) as H.
  destruct (Rlt_bool _ _).
  - destruct H as (E & F & S). rewrite Fx in F.
    assert (N : is_nan (Bdiv mode_NE x y) = false) by (apply finite_not_nan; assumption).
    split; [split|]; auto.
    + rewrite S by assumption. destruct Hx as [_ ->], Hy as [_ ->]. reflexivity.
    + intros _. split; auto. split; [intros _; exact E|discriminate].
  - destruct Hx as [_ Sx], Hy as [_ Sy]. rewrite Sx, Sy in H. apply of_overflow in H. rewrite H.
    split; [apply nn_inf|discriminate].
Qed.

(** square root *)
Lemma sqrt_nn x : nn x -> nn (Bsqrt mode_NE x) /\ is_finite (Bsqrt mode_NE x) = is_finite x /\
  (is_finite x = true -> B2R (Bsqrt mode_NE x) = rnd (sqrt (B2R x))).
Proof.
  intros [Nx Sx]. pose proof (Bsqrt_correct 53 1024 prec53 emax1024 mode_NE x) as (E & F & S).
  destruct x as [s|s| |s m e B]; cbn [Bsign is_nan is_finite] in *; try discriminate; subst.
  - split; [split; reflexivity|]. split; auto.
  - split; [split; reflexivity|]. split; [reflexivity|discriminate].
  - assert (N := finite_not_nan _ F). split; [split; auto|]. split; auto.
Qed.

Lemma nn_lt0 x : nn x -> Bltb (b64_dy 0 0) x = true <-> (is_finite x = true -> 0 < B2R x).
Proof.
  intros Hx. destruct (is_finite x) eqn:Fx.
  - rewrite Bltb_correct by (reflexivity || assumption). change (B2R (b64_dy 0 0)) with 0.
    case Rlt_bool_spec; intros H; split; auto; try discriminate. intros HH. specialize (HH eq_refl). lra.
  - rewrite (nn_not_finite x Hx Fx). split; [discriminate|reflexivity].
Qed.
Lemma nn_eq0 x : nn x -> Bltb (b64_dy 0 0) x = false -> x = B754_zero false.
Proof.
  intros Hx H. destruct (is_finite x) eqn:Fx.
  - rewrite Bltb_correct in H by (reflexivity || assumption). change (B2R (b64_dy 0 0)) with 0 in H.
    revert H. case Rlt_bool_spec; [discriminate|]. intros HH _. pose proof (nn_B2R x Hx).
    destruct Hx as [Nx Sx]. destruct x as [s|s| |s m e B]; cbn [is_finite Bsign] in *; try discriminate; subst; auto.
    exfalso. cbn [B2R cond_Zopp] in HH. assert (0 < F2R (Float radix2 (Zpos m) e)); [|lra]. apply F2R_gt_0. reflexivity.
  - rewrite (nn_not_finite x Hx Fx) in H. discriminate.
Qed.
Lemma rnd_ge_0 x : 0 <= x -> 0 <= rnd x.
Proof. intros H. rewrite <- (round_0 radix2 (FLT_exp (-1074) 53) ZnearestE). apply round_le; auto; typeclasses eauto. Qed.
