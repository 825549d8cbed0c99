(** The shifts and the starting vector of a QR iteration of dlahqr in exact arithmetic. *)
From Coq Require Import Reals Lra ZArith Lia Bool.
From Flocq Require Import Core.
From Verif Require Import Base Num Array Blas Lapack Dlahqr Spec SpecR SpecDShift ER FaLemmas LahqrProofs LahqrNum HqReflGen HqErrStart.
Open Scope R_scope.

Section Shift.
  Lemma le_fin (x y : R) : fle (Fin x) (Fin y) = Rle_bool x y.
  Proof. apply er_leE. Qed.

  Lemma shifts_exact (a b c d : R) : exists s1 s2 : cplx,
    hq_shifts (Fin a, Fin c, Fin b, Fin d) = (Fin (fst s1), Fin (snd s1), Fin (fst s2), Fin (snd s2)) /\ double_shift a b c d s1 s2.
  Proof.
    unfold hq_shifts. rewrite er_f0, er_f2. rewrite !er_absE, !er_addE, er_eqE.
    set (S := Rabs a + Rabs b + Rabs c + Rabs d).
    pose proof (Rabs_pos a). pose proof (Rabs_pos b). pose proof (Rabs_pos c). pose proof (Rabs_pos d).
    destruct (Req_bool_spec S 0) as [ES|NS].
    - assert (Z0 : forall x, Rabs x = 0 -> x = 0) by (intros x E; destruct (Req_dec x 0) as [->|N]; [reflexivity|apply Rabs_no_R0 in N; contradiction]).
      assert (a = 0) by (apply Z0; unfold S in ES; lra). assert (b = 0) by (apply Z0; unfold S in ES; lra).
      assert (c = 0) by (apply Z0; unfold S in ES; lra). assert (d = 0) by (apply Z0; unfold S in ES; lra). subst.
      exists (0, 0), (0, 0). split; [reflexivity|]. unfold double_shift, eig2, cmul, csub, cre. cbn [fst snd].
      split; [f_equal; ring|]. split; [f_equal; ring|]. right. split; [reflexivity|]. split; [reflexivity|].
      intros [x y] E. cbn [fst snd] in *. injection E as E1 E2. assert (x = 0 /\ y = 0) as [-> ->].
      { assert (x * y = 0) as P by lra. apply Rmult_integral in P as [->| ->]; split; try reflexivity; apply Rsqr_0_uniq; unfold Rsqr; lra. }
      split; [reflexivity|lra].
    - assert (SP : 0 < S) by (unfold S in *; lra).
      rewrite !er_divE by lra. rewrite !er_addE. rewrite !er_divE by lra. rewrite !er_subE, !er_mulE, !er_subE.
      set (T := (a + d) / 2). set (D := (a - T) * (d - T) - b * c).
      replace ((a / S + d / S) / 2) with (T / S) by (unfold T; field; lra).
      replace ((a / S - T / S) * (d / S - T / S) - b / S * (c / S)) with (D / (S * S)) by (unfold D; field; lra).
      set (r := sqrt (Rabs D)). assert (R0 : 0 <= r) by apply sqrt_pos. assert (RR : r * r = Rabs D) by (apply sqrt_sqrt, Rabs_pos).
      rewrite !er_absE, er_sqrtE by apply Rabs_pos.
      assert (SS : 0 < S * S) by (apply Rmult_lt_0_compat; assumption).
      replace (sqrt (Rabs (D / (S * S)))) with (r / S).
      2:{ unfold Rdiv. rewrite Rabs_mult, (Rabs_pos_eq (/ (S * S))) by (left; apply Rinv_0_lt_compat; exact SS). fold (Rabs D / (S * S)).
          rewrite sqrt_div_alt by exact SS. rewrite sqrt_square by lra. reflexivity. }
      rewrite le_fin. clearbody S.
      assert (EIG : forall z, eig2 a b c d z <-> D = snd z * snd z - (fst z - T) * (fst z - T) /\ snd z * (fst z - T) = 0).
      { intros [x y]. unfold eig2, cmul, csub, cre, D, T. cbn [fst snd]. split.
        - intros E. injection E as E1 E2. split; [|lra]. lra.
        - intros [E1 E2]. f_equal; lra. }
      destruct (Rle_bool_spec 0 (D / (S * S))) as [DP|DN].
      + assert (D0 : 0 <= D) by (replace D with (D / (S * S) * (S * S)) by (field; lra); apply Rmult_le_pos; lra).
        rewrite Rabs_pos_eq in RR by exact D0. rewrite !er_mulE, er_negE.
        exists (T, r), (T, - r). cbn [fst snd]. split.
        { replace (T / S * S) with T by (field; lra). replace (r / S * S) with r by (field; lra). reflexivity. }
        unfold double_shift. rewrite !EIG. cbn [fst snd]. split; [split; lra|]. split; [split; lra|].
        destruct (Req_dec r 0) as [->|NR].
        * right. split; [f_equal; ring|]. split; [reflexivity|]. intros [x y] E. apply EIG in E. cbn [fst snd] in *. destruct E as [E1 E2].
          assert (D = 0) by lra. assert (x = T /\ y = 0) as [-> ->]; [|split; lra].
          apply Rmult_integral in E2 as [->|E2].
          { split; [|reflexivity]. assert (x - T = 0) by (apply Rsqr_0_uniq; unfold Rsqr; lra). lra. }
          { split; [lra|]. rewrite E2 in E1. apply Rsqr_0_uniq. unfold Rsqr. lra. }
        * left. split; [reflexivity|lra].
      + assert (D0 : D < 0).
        { replace D with (D / (S * S) * (S * S)) by (field; lra). rewrite <- (Rmult_0_l (S * S)). apply Rmult_lt_compat_r; assumption. }
        rewrite Rabs_left in RR by exact D0. rewrite !er_addE, !er_subE, !er_absE, er_leE. rewrite !er_mulE.
        assert (ALL : forall z, eig2 a b c d z -> snd z = 0 /\ (fst z = T + r \/ fst z = T - r)).
        { intros [x y] E. apply EIG in E. cbn [fst snd] in *. destruct E as [E1 E2]. apply Rmult_integral in E2 as [->|E2].
          - split; [reflexivity|]. assert (Q : (x - T - r) * (x - T + r) = 0) by lra. apply Rmult_integral in Q as [Q|Q]; [left|right]; lra.
          - exfalso. rewrite E2 in E1. pose proof (Rle_0_sqr y). unfold Rsqr in *. lra. }
        assert (E1 : Rabs (T / S + r / S - d / S) = Rabs (T + r - d) / S).
        { replace (T / S + r / S - d / S) with ((T + r - d) * / S) by (field; lra). rewrite Rabs_mult, (Rabs_pos_eq (/ S)) by (left; apply Rinv_0_lt_compat; exact SP). reflexivity. }
        assert (E2 : Rabs (T / S - r / S - d / S) = Rabs (T - r - d) / S).
        { replace (T / S - r / S - d / S) with ((T - r - d) * / S) by (field; lra). rewrite Rabs_mult, (Rabs_pos_eq (/ S)) by (left; apply Rinv_0_lt_compat; exact SP). reflexivity. }
        rewrite E1, E2. assert (IS : 0 < / S) by (apply Rinv_0_lt_compat; exact SP).
        destruct (Rle_bool_spec (Rabs (T + r - d) / S) (Rabs (T - r - d) / S)) as [L|L].
        * apply Rmult_le_reg_r in L; [|exact IS]. exists (T + r, 0), (T + r, 0). cbn [fst snd]. split.
          { replace ((T / S + r / S) * S) with (T + r) by (field; lra). reflexivity. }
          unfold double_shift. rewrite !EIG. cbn [fst snd]. split; [split; lra|]. split; [split; lra|]. right. split; [reflexivity|]. split; [reflexivity|].
          intros z Ez. destruct (ALL z Ez) as [Z1 [Z2|Z2]]; (split; [exact Z1|]); rewrite Z2; lra.
        * apply Rmult_lt_reg_r in L; [|exact IS]. exists (T - r, 0), (T - r, 0). cbn [fst snd]. split.
          { replace ((T / S - r / S) * S) with (T - r) by (field; lra). reflexivity. }
          unfold double_shift. rewrite !EIG. cbn [fst snd]. split; [split; lra|]. split; [split; lra|]. right. split; [reflexivity|]. split; [reflexivity|].
          intros z Ez. destruct (ALL z Ez) as [Z1 [Z2|Z2]]; (split; [exact Z1|]); rewrite Z2; lra.
  Qed.

  Lemma get_is (h : fa er) n H i j : mat_is h n n H -> (1 <= i <= n)%Z -> (1 <= j <= n)%Z -> get2 h i j = Fin (H i j).
  Proof. intros M Hi Hj. apply get2_Some, M; assumption. Qed.

  Lemma shifts_regular (h : fa er) n H l i kd : mat_is h n n H -> (2 <= i <= n)%Z -> ~ (10 | kd)%Z -> exists s1 s2 : cplx,
    hq_shifts (hq_block h l i kd) = (Fin (fst s1), Fin (snd s1), Fin (fst s2), Fin (snd s2)) /\
    double_shift (H (i - 1)%Z (i - 1)%Z) (H (i - 1)%Z i) (H i (i - 1)%Z) (H i i) s1 s2.
  Proof.
    intros M Hi N. unfold hq_block.
    destruct (Z.eqb_spec (Z.rem kd 20) 0) as [E|_]; [exfalso; apply N; apply Z.rem_divide in E; [|lia]; apply Z.divide_trans with 20%Z; [exists 2%Z; reflexivity|exact E]|].
    destruct (Z.eqb_spec (Z.rem kd 10) 0) as [E|_]; [exfalso; apply N; apply Z.rem_divide in E; [exact E|lia]|].
    rewrite !(get_is h n H) by (assumption || lia). apply shifts_exact.
  Qed.

  (** the shifts of ((3/4 s + x, -7/16 s), (s, 3/4 s + x)) *)
  Lemma shifts_exc (x s : R) : 0 <= s ->
    hq_shifts (fadd (fmul (fdiv (fofZ 3) (fofZ 4)) (Fin s)) (Fin x), Fin s, fmul (fdy (-7) (-4)) (Fin s), fadd (fmul (fdiv (fofZ 3) (fofZ 4)) (Fin s)) (Fin x)) =
    (Fin (x + 3 / 4 * s), Fin (sqrt 7 / 4 * s), Fin (x + 3 / 4 * s), Fin (- (sqrt 7 / 4 * s))).
  Proof.
    intros Hs. rewrite !er_fofZ, er_divE by lra. change (fdy (-7) (-4)) with (Fin (-7 * powerRZ 2 (-4))). rewrite !er_mulE, !er_addE.
    replace (-7 * powerRZ 2 (-4)) with (- (7 / 16)) by (change (powerRZ 2 (-4)) with (/ (2 ^ 4)); field).
    set (w := 3 / 4 * s + x). destruct (shifts_exact w (- (7 / 16) * s) s w) as (s1 & s2 & E & E1 & E2 & C). rewrite E.
    assert (Q7 : sqrt 7 * sqrt 7 = 7) by (apply sqrt_sqrt; lra). assert (P7 : 0 < sqrt 7) by (apply sqrt_lt_R0; lra).
    assert (SQ : forall p q, 0 <= p -> 0 <= q -> p * p = q * q -> p = q) by (intros p q Hp Hq Q; apply Rsqr_inj; assumption).
    destruct s1 as [p q]. cbn [fst snd] in *. unfold eig2, cmul, csub, cre in E1. cbn [fst snd] in E1. injection E1 as R1 I1.
    assert (pw : p = w /\ q * q = 7 / 16 * (s * s)).
    { assert (I2 : q * (p - w) = 0) by lra. apply Rmult_integral in I2 as [->|I2].
      - assert (U : (p - w) * (p - w) + 7 / 16 * (s * s) = 0) by lra. pose proof (Rle_0_sqr (p - w)). pose proof (Rle_0_sqr s). unfold Rsqr in *.
        split; [|lra]. assert (p - w = 0) by (apply Rsqr_0_uniq; unfold Rsqr; lra). lra.
      - assert (p = w) by lra. subst p. split; [reflexivity|lra]. }
    destruct pw as [-> QQ]. assert (W : w = x + 3 / 4 * s) by (unfold w; ring).
    assert (Q0 : 0 <= sqrt 7 / 4 * s) by (apply Rmult_le_pos; lra).
    assert (V : q = sqrt 7 / 4 * s -> (Fin w, Fin q, Fin (fst s2), Fin (snd s2)) = (Fin (x + 3 / 4 * s), Fin (sqrt 7 / 4 * s), Fin (x + 3 / 4 * s), Fin (- (sqrt 7 / 4 * s)))).
    { intros Eq. destruct C as [[-> _]|[-> [Eq0 _]]]; cbn [fst snd]; [rewrite Eq, W; reflexivity|]. cbn [fst snd] in Eq0.
      rewrite <- Eq. rewrite Eq0 in *. rewrite W, Ropp_0. reflexivity. }
    apply V. apply SQ; [destruct C as [[_ C]|[_ [C _]]]; cbn [snd] in C; lra|exact Q0|]. rewrite QQ. replace (sqrt 7 / 4 * s * (sqrt 7 / 4 * s)) with (sqrt 7 * sqrt 7 * (s * s) / 16) by field. rewrite Q7. field.
  Qed.

  Lemma shifts_exceptional (h : fa er) n H l i kd : mat_is h n n H -> (1 <= l)%Z -> (l + 2 <= i <= n)%Z -> (10 | kd)%Z ->
    let '(x, s) := if (kd mod 20 =? 0)%Z then (H i i, Rabs (H i (i - 1)%Z) + Rabs (H (i - 1)%Z (i - 2)%Z))
                   else (H l l, Rabs (H (l + 1)%Z l) + Rabs (H (l + 2)%Z (l + 1)%Z)) in
    hq_shifts (hq_block h l i kd) =
      (Fin (x + 3 / 4 * s), Fin (sqrt 7 / 4 * s), Fin (x + 3 / 4 * s), Fin (- (sqrt 7 / 4 * s))).
  Proof.
    intros M Hl Hi D. unfold hq_block.
    assert (E20 : (Z.rem kd 20 =? 0)%Z = (kd mod 20 =? 0)%Z).
    { apply eq_true_iff_eq. rewrite !Z.eqb_eq. rewrite Z.rem_divide, Z.mod_divide by lia. reflexivity. }
    rewrite E20. destruct (kd mod 20 =? 0)%Z.
    - rewrite !(get_is h n H) by (assumption || lia). rewrite !er_absE, er_addE. apply shifts_exc. apply Rplus_le_le_0_compat; apply Rabs_pos.
    - replace (Z.rem kd 10 =? 0)%Z with true by (symmetry; apply Z.eqb_eq, Z.rem_divide; [lia|exact D]).
      rewrite !(get_is h n H) by (assumption || lia). rewrite !er_absE, er_addE. apply shifts_exc. apply Rplus_le_le_0_compat; apply Rabs_pos.
  Qed.
End Shift.
