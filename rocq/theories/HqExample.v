(** A 3-by-3 matrix on which dlahqr over exact reals returns: the concrete case for C48. *)
From Flocq Require Import Core.
From Coq Require Import Reals Lra Nsatz.
From Verif Require Import Base Num Array Blas Lapack Dlahqr Spec ER SpecR SpecSim SpecHq Lists FaLemmas LahqrProofs LahqrTop LahqrNum RealMat SimArray HqCall LarfgProofs LanvProofs.
Open Scope Z_scope.

Lemma three_hyps : exists (H0 I0 : Z -> Z -> R),
  let h := [[Fin 1; Fin 3; Fin 0]; [Fin 2; Fin 4; Fin 0]; [Fin 5; Fin 6; Fin 7]] in
  let z := [[Fin 1; Fin 0; Fin 0]; [Fin 0; Fin 1; Fin 0]; [Fin 0; Fin 0; Fin 1]] in
  mat_is (to_fa h) 3 3 H0 /\ mat_is (to_fa z) 3 3 I0 /\ hessenberg 1 3 H0 /\ (frob2 1 3 H0 <= 12 * 12)%R /\ (0 <= 12 <= 2 ^ 500)%R /\
  exists r, dlahqr 2 true true 3 1 3 h (rows (to_fa h)) [Fin 0; Fin 0; Fin 0] [Fin 0; Fin 0; Fin 0] 1 3 z 3 = Ok (r, 0).
Proof.
  exists (fun a b => if a =? 1 then (if b =? 1 then 1 else if b =? 2 then 2 else 5)%R
    else if a =? 2 then (if b =? 1 then 3 else if b =? 2 then 4 else 6)%R else (if b =? 3 then 7 else 0)%R),
    (fun a b => if a =? b then 1%R else 0%R). cbv zeta.
  set (h := [[Fin 1; Fin 3; Fin 0]; [Fin 2; Fin 4; Fin 0]; [Fin 5; Fin 6; Fin 7]]).
  set (z := [[Fin 1; Fin 0; Fin 0]; [Fin 0; Fin 1; Fin 0]; [Fin 0; Fin 0; Fin 1]]).
  split; [|split; [|split; [|split; [|split]]]].
  - intros i j Hi Hj. assert (i = 1 \/ i = 2 \/ i = 3) as [->|[->| ->]] by lia; (assert (j = 1 \/ j = 2 \/ j = 3) as [->|[->| ->]] by lia); reflexivity.
  - intros i j Hi Hj. assert (i = 1 \/ i = 2 \/ i = 3) as [->|[->| ->]] by lia; (assert (j = 1 \/ j = 2 \/ j = 3) as [->|[->| ->]] by lia); reflexivity.
  - intros i j Hi Hj Hij. assert (i = 3) as -> by lia. assert (j = 1) as -> by lia. reflexivity.
  - unfold frob2, Rsum_range. change (Z.to_nat (3 - 1 + 1)) with 3%nat. cbn. lra.
  - split; [lra|]. apply Rle_trans with (2 ^ 4)%R; [lra|]. apply Rle_pow; [lra|lia].
  - apply dlahqr_three; [|lia|reflexivity|cbn; lia| |].
    + assert (U : usable _ _ h) by (apply (usable_nested h 3); [lia|discriminate|repeat constructor]).
      assert (UZ : usable _ _ z) by (apply (usable_nested z 3); [lia|discriminate|repeat constructor]).
      refine (conj U (conj (usable_vec _) (conj (usable_vec _) (conj UZ (conj _ (fun _ => _)))))); lia.
    + change (get2 (to_fa h) 3 (3 - 1)) with (Fin 0). apply er_small0. lia.
    + set (f := set2 _ _ _ _). assert (E : get2 f 1 1 = Fin 1 /\ get2 f 2 1 = Fin 3 /\ get2 f 2 2 = Fin 4) by (repeat split; reflexivity).
      clearbody f. destruct E as (E1 & E2 & E3). unfold hq_small. change (1 + 1)%Z with 2%Z. change (2 - 1)%Z with 1%Z. rewrite E1, E2, E3.
      rewrite er_smlnum, er_ulp, !er_absE, er_leE, !Rabs_pos_eq by lra.
      assert (B : (bpow radix2 (-970) <= bpow radix2 (-52))%R) by (apply bpow_le; lia).
      assert (B2 : (bpow radix2 (-52) <= bpow radix2 (-2))%R) by (apply bpow_le; lia).
      assert (B3 : (bpow radix2 (-2) = / 4)%R) by reflexivity.
      set (u := bpow radix2 (-970)) in *. set (v := bpow radix2 (-52)) in *. clearbody u v.
      rewrite Rle_bool_false by (change (3 - 1 + 1)%Z with 3%Z; lra). rewrite er_addE, er_f0, er_eqE.
      rewrite Req_bool_false by lra. rewrite er_mulE, er_leE, Rle_bool_false by lra. reflexivity.
Qed.

(** An eigenvalue of a real 2-by-2 matrix that is not real has half the trace as its real part. *)
Lemma eig2_trace (A : Z -> Z -> R) p q : q <> 0%R -> eigenvalue_of 1 2 A (p, q) -> (2 * p = A 1%Z 1%Z + A 2%Z 2%Z)%R.
Proof.
  intros Q (u & v & (k & Hk & NZ) & EQ). pose proof (EQ 1 ltac:(lia)) as [E1 E2]. pose proof (EQ 2 ltac:(lia)) as [E3 E4].
  unfold Rsum_range in *. change (Z.to_nat (2 - 1 + 1)) with 2%nat in *. cbn [seq map fold_right fold_left fst snd Z.of_nat Z.add Pos.add Pos.of_succ_nat Pos.succ] in *.
  cbn in E1, E2, E3, E4.
  set (a := A 1 1) in *. set (b := A 1 2) in *. set (c := A 2 1) in *. set (d := A 2 2) in *.
  set (D := ((a - p) * (d - p) - q * q - b * c)%R). set (G := (q * (2 * p - (a + d)))%R).
  assert (W : forall x y, (D * x - G * y = 0 -> G * x + D * y = 0 -> x <> 0 \/ y <> 0 -> G = 0)%R).
  { clear. intros x y H1 H2 N.
    assert (X : ((D * D + G * G) * x = 0)%R) by (replace ((D * D + G * G) * x)%R with (D * (D * x - G * y) + G * (G * x + D * y))%R by ring; rewrite H1, H2; ring).
    assert (Y : ((D * D + G * G) * y = 0)%R) by (replace ((D * D + G * G) * y)%R with (D * (G * x + D * y) - G * (D * x - G * y))%R by ring; rewrite H1, H2; ring).
    assert (S : (D * D + G * G = 0)%R) by (destruct N as [N|N]; [apply Rmult_integral in X as [X|X]; [exact X|contradiction]|apply Rmult_integral in Y as [Y|Y]; [exact Y|contradiction]]).
    nra. }
  assert (G0 : (G = 0)%R).
  { assert (k = 1 \/ k = 2) as [-> | ->] by lia.
    - apply (W (u 1) (v 1)); [| |exact NZ]; unfold D, G; clear W D G NZ EQ Q; clearbody a b c d; nsatz.
    - apply (W (u 2) (v 2)); [| |exact NZ]; unfold D, G; clear W D G NZ EQ Q; clearbody a b c d; nsatz. }
  unfold G in G0. apply Rmult_integral in G0 as [G0|G0]; [contradiction|lra].
Qed.

(** The region in which dlanv2 takes its early exit with different diagonal entries: the pairs reported by dlahqr are not
    eigenvalues of any matrix within 2*x < |a-d| of the input. *)
Lemma dlahqr_uneven a b c d x : (Rabs a <= bpow radix2 1021 /\ Rabs b <= bpow radix2 1021 /\ Rabs c <= bpow radix2 1021 /\ Rabs d <= bpow radix2 1021)%R ->
  (bpow radix2 (-969) < Rabs c)%R -> (bpow radix2 (-52) * (Rabs a + Rabs d) < Rabs c)%R -> (b * c < 0)%R -> (0 <= x)%R ->
  (2 * x < Rabs (a - d) < bpow radix2 (-52))%R ->
  exists h' z' s, dlahqr 1 true true 2 1 2 [[Fin a; Fin c]; [Fin b; Fin d]] 2 [Fin 0; Fin 0] [Fin 0; Fin 0] 1 2 [[Fin 1; Fin 0]; [Fin 0; Fin 1]] 2 =
      Ok (h', [Fin a; Fin d], [Fin s; Fin (- s)], z', 0) /\
    forall E, (frob2 1 2 E <= x * x)%R ->
      ~ eigenvalue_of 1 2 (fun i j => rows2 a b c d i j - E i j)%R (a, s) /\
      ~ eigenvalue_of 1 2 (fun i j => rows2 a b c d i j - E i j)%R (d, - s)%R.
Proof.
  intros RG L1 L2 BC X AD. set (h := [[Fin a; Fin c]; [Fin b; Fin d]]). set (z := [[Fin 1; Fin 0]; [Fin 0; Fin 1]]).
  assert (MH : m2_is (to_fa h) (a, b, c, d)) by (repeat split; reflexivity).
  assert (U : usable _ _ h) by (apply (usable_nested h 2); [lia|discriminate|repeat constructor]).
  assert (UZ : usable _ _ z) by (apply (usable_nested z 2); [lia|discriminate|repeat constructor]).
  assert (A : hq_args_ok true 1 h [Fin 0; Fin 0] [Fin 0; Fin 0] 1 z) by (refine (conj U (conj (usable_vec _) (conj (usable_vec _) (conj UZ (conj _ (fun _ => _)))))); lia).
  destruct (dlahqr_two true true 2 1 2 h 2 [Fin 0; Fin 0] [Fin 0; Fin 0] 1 2 z 2 0 A ltac:(lia) ltac:(lia) (er_not_small _ _ _ _ _ MH L1 L2))
    as (hd & zd & h' & wr' & wi' & z' & Er & F1 & F2 & F3 & F4 & _).
  unfold two_block in *. change (get2 (to_fa h) 1 1) with (Fin a) in *. change (get2 (to_fa h) 1 2) with (Fin b) in *.
  change (get2 (to_fa h) 2 1) with (Fin c) in *. change (get2 (to_fa h) 2 2) with (Fin d) in *.
  assert (NE : a <> d) by (intros ->; rewrite Rminus_diag_eq, Rabs_R0 in AD by reflexivity; lra).
  assert (Hc : c <> 0%R) by (intros ->; lra). assert (Hb : b <> 0%R) by (intros ->; lra).
  assert (NV : dlanv2 (Fin a) (Fin b) (Fin c) (Fin d) = mkNv2 (Fin a) (Fin b) (Fin c) (Fin d) (Fin a) (fsqrt (fabs (Fin b)) * fsqrt (fabs (Fin c)))%num (Fin d)
    (- (fsqrt (fabs (Fin b)) * fsqrt (fabs (Fin c))))%num f1 f0).
  { apply dlanv2_early.
    - rewrite er_f0, er_eqE. apply Req_bool_false. exact Hc.
    - rewrite er_f0, er_eqE. apply Req_bool_false. exact Hb.
    - rewrite er_subE, er_absE. unfold fEPS. rewrite er_dy, Rmult_1_l, er_ltE. apply Rlt_bool_true. apply AD.
    - rewrite !er_signumE, er_eqE, sgn_eq by assumption. apply Rlt_bool_false. lra. }
  rewrite NV in F3, F4.
  cbn [nrt1r nrt1i nrt2r nrt2i] in *.
  rewrite !er_absE in *. rewrite !er_sqrtE in F4 by apply Rabs_pos. rewrite er_mulE, er_negE in F4.
  set (s := (sqrt (Rabs b) * sqrt (Rabs c))%R) in *.
  assert (S : (0 < s)%R) by (apply Rmult_lt_0_compat; apply sqrt_lt_R0, Rabs_pos_lt; assumption).
  exists h', z', s. split.
  - rewrite Er. cbn in F3, F4. injection F3 as <-. injection F4 as <-. reflexivity.
  - intros E FE.
    assert (B : (Rabs (E 1%Z 1%Z + E 2%Z 2%Z) <= 2 * x)%R).
    { unfold frob2, Rsum_range in FE. change (Z.to_nat (2 - 1 + 1)) with 2%nat in FE. cbn in FE.
      assert (SQ : forall y, (y * y <= x * x)%R -> (Rabs y <= x)%R).
      { clear -X. intros y Hy. apply Rsqr_le_abs_0 in Hy. rewrite (Rabs_pos_eq x X) in Hy. exact Hy. }
      eapply Rle_trans; [apply Rabs_triang|]. pose proof (SQ (E 1%Z 1%Z) ltac:(clear -FE; nra)). pose proof (SQ (E 2%Z 2%Z) ltac:(clear -FE; nra)). lra. }
    split; intros EV; apply eig2_trace in EV; try lra; unfold rows2 in EV; cbn in EV.
    + replace (E 1%Z 1%Z + E 2%Z 2%Z)%R with (- (a - d))%R in B by lra. rewrite Rabs_Ropp in B. lra.
    + replace (E 1%Z 1%Z + E 2%Z 2%Z)%R with (a - d)%R in B by lra. lra.
Qed.
Lemma uneven_hyps : let e := bpow radix2 (-70) in let a := (1024 * e)%R in
  (Rabs a <= bpow radix2 1021 /\ Rabs e <= bpow radix2 1021)%R /\ (bpow radix2 (-969) < Rabs (- e))%R /\
  (bpow radix2 (-52) * (Rabs a + Rabs (- a)) < Rabs (- e))%R /\ (e * - e < 0)%R /\ (frob2 1 2 (rows2 a e (- e) (- a)) <= (2048 * e) * (2048 * e))%R /\
  (0 <= hq_error (2048 * e) 2 /\ 2 * hq_error (2048 * e) 2 < Rabs (a - - a) < bpow radix2 (-52))%R.
Proof.
  cbv zeta. set (e := bpow radix2 (-70)). assert (P : (0 < e)%R) by apply bpow_gt_0.
  assert (E52 : (bpow radix2 (-52) = 262144 * e)%R) by (unfold e; change (-52)%Z with (18 + -70)%Z; rewrite bpow_plus; reflexivity).
  assert (T : (e <= / 1180591620717411303424)%R) by (unfold e; right; reflexivity).
  assert (U1 : (bpow radix2 (-969) < e)%R) by (apply bpow_lt; lia).
  assert (U2 : (bpow radix2 (-970) <= e * e * e)%R) by (unfold e; rewrite <- !bpow_plus; apply bpow_le; lia).
  assert (U3 : (1 <= bpow radix2 1021)%R) by (change 1%R with (bpow radix2 0); apply bpow_le; lia).
  pose proof (bpow_ge_0 radix2 (-970)) as Q0.
  rewrite !Rabs_Ropp. rewrite !Rabs_pos_eq by lra. unfold hq_error. change (30 * Z.max 2 10 + 1)%Z with 301%Z. rewrite E52.
  set (y := bpow radix2 (-970)) in *. set (w := bpow radix2 (-969)) in *. set (g := bpow radix2 1021) in *. clearbody y w g e.
  assert (EE : (e * e <= e * / 1180591620717411303424)%R) by (apply Rmult_le_compat_l; lra).
  assert (E3 : (e * e * e <= e * e)%R) by (rewrite <- (Rmult_1_r (e * e)) at 2; apply Rmult_le_compat_l; nra).
  repeat split; try lra; try nra.
  unfold frob2, Rsum_range. change (Z.to_nat (2 - 1 + 1)) with 2%nat. cbn. nra.
Qed.
