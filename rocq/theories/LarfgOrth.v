(** What the error bounds of dlarfg mean for the reflector it returns: nearly orthogonal, and it nearly annihilates. *)
From Coq Require Import Reals Lra.
From Flocq Require Import IEEE754.BinarySingleNaN Core.
From Verif Require Import Base Num Array Spec SpecR SpecErr B64 RsumLemmas RoundErr AppErr Lapy2Err LarfgProofs LarfgErr.
Open Scope R_scope.

Lemma cauchy n w y : Rsum_range (fun k => w k * y k) 0 (n - 1) * Rsum_range (fun k => w k * y k) 0 (n - 1) <= sum_sq n w * sum_sq n y.
Proof.
  set (B := Rsum_range (fun k => w k * y k) 0 (n - 1)). set (A := sum_sq n w). set (C := sum_sq n y).
  assert (C0 : 0 <= C) by (apply Rsum_range_nonneg; intros; apply Rle_0_sqr).
  assert (Q : 0 <= C * (A * C - B * B)).
  { replace (C * (A * C - B * B)) with (Rsum_range (fun k => (C * w k - B * y k) * (C * w k - B * y k)) 0 (n - 1)); [apply Rsum_range_nonneg; intros; apply Rle_0_sqr|].
    rewrite (Rsum_range_ext _ (fun k => C * C * (w k * w k) + (- (2 * C * B) * (w k * y k) + B * B * (y k * y k)))) by (intros; ring).
    rewrite !Rsum_range_plus, !Rsum_range_scal. fold B. fold (sum_sq n w) (sum_sq n y). fold A C. ring. }
  destruct (Rle_lt_or_eq_dec _ _ C0) as [P|E]; [nra|].
  assert (B0 : B = 0).
  { apply Rsum_range_zero. intros i Hi. assert (T : y i * y i <= C) by (apply (Rsum_range_term (fun k => y k * y k)); [intros; apply Rle_0_sqr|lia]).
    assert (y i = 0) by nra. rewrite H. ring. }
  rewrite B0, <- E. lra.
Qed.
Lemma Rsum_range_abs f lo hi : Rabs (Rsum_range f lo hi) <= Rsum_range (fun i => Rabs (f i)) lo hi.
Proof.
  unfold Rsum_range. generalize (Z.to_nat (hi - lo + 1)). intros k. revert lo. induction k; intros lo; cbn [Rsum]; [rewrite Rabs_R0; lra|].
  eapply Rle_trans; [apply Rabs_triang|]. specialize (IHk (lo + 1)%Z). lra.
Qed.
(** how far a reflection with the wrong tau is from preserving lengths *)
Lemma reflect_norm_err n tau w y : sum_sq n (reflect n tau w y) - sum_sq n y =
  tau * (tau * sum_sq n w - 2) * (Rsum_range (fun k => w k * y k) 0 (n - 1) * Rsum_range (fun k => w k * y k) 0 (n - 1)).
Proof.
  unfold sum_sq, reflect in *. set (d := Rsum_range (fun k => w k * y k) 0 (n - 1)).
  rewrite (Rsum_range_ext (fun k => (y k - tau * w k * d) * (y k - tau * w k * d)) (fun k => y k * y k + (- (2 * tau * d) * (w k * y k) + tau * tau * (d * d) * (w k * w k)))) by (intros; ring).
  rewrite !Rsum_range_plus, !Rsum_range_scal. fold d. ring.
Qed.

Section Near.
  Context (n : Z) (a s tau : R) (x w : Z -> R) (qt qw : nat).
  Hypothesis Hn : (2 <= n < 2 ^ 31)%Z.
  Hypothesis S1 : s * s = 1.
  Hypothesis SA : a = s * Rabs a.
  Let N := sum_sq (n - 1) x.
  Let h := sqrt (a * a + N).
  Let A := Rabs a.
  Hypothesis H0 : 0 < h.
  Hypothesis Hq : (Z.of_nat (qt + 2 * qw + 1) <= 2 ^ 34)%Z.
  Let ts := (A + h) / h.
  Let xs t := x t / (a - - s * h).
  Hypothesis Ht : Rabs (tau - ts) <= gam qt * ts.
  Hypothesis Hw : forall t, (0 <= t < n - 1)%Z -> Rabs (w t - xs t) <= gam qw * Rabs (xs t) + eta64.

  Lemma N_pos : 0 <= N. Proof. apply Rsum_range_nonneg. intros. apply Rle_0_sqr. Qed.
  Lemma hh : h * h = A * A + N.
  Proof. unfold h, A. rewrite sqrt_sqrt by (pose proof N_pos; nra). rewrite <- Rabs_mult, Rabs_pos_eq by nra. reflexivity. Qed.
  Lemma A_h : 0 <= A <= h.
  Proof. split; [apply Rabs_pos|]. apply Rsqr_incr_0_var; [|lra]. unfold Rsqr. rewrite hh. pose proof N_pos. lra. Qed.
  Lemma s_abs y : Rabs (s * y) = Rabs y.
  Proof. rewrite Rabs_mult. assert (E : Rabs s * Rabs s = 1) by (rewrite <- Rabs_mult, S1; apply Rabs_R1). pose proof (Rabs_pos s). assert (Rabs s = 1) by nra. rewrite H1. ring. Qed.
  Lemma xs_eq t : xs t = s * (x t / (A + h)).
  Proof.
    unfold xs. rewrite SA at 1. fold A. pose proof A_h. assert (S0 : s <> 0) by nra. replace (s * A - - s * h) with (s * (A + h)) by ring.
    transitivity (s * s * (x t / (s * (A + h)))); [rewrite S1; ring|]. field. split; [lra|exact S0].
  Qed.
  Lemma x_le t : (0 <= t < n - 1)%Z -> Rabs (x t) <= h.
  Proof.
    intros T. apply Rsqr_incr_0_var; [|lra]. unfold Rsqr. rewrite <- Rabs_mult, Rabs_pos_eq, hh by nra.
    assert (x t * x t <= N) by (apply (Rsum_range_term (fun k => x k * x k)); [intros; apply Rle_0_sqr|lia]). pose proof A_h. nra.
  Qed.
  Lemma xs_abs t : Rabs (xs t) = Rabs (x t) / (A + h).
  Proof. rewrite xs_eq, s_abs. unfold Rdiv. rewrite Rabs_mult, Rabs_inv, (Rabs_pos_eq (A + h)) by (pose proof A_h; lra). reflexivity. Qed.
  Lemma xs_le t : (0 <= t < n - 1)%Z -> Rabs (xs t) <= 1.
  Proof.
    intros T. rewrite xs_abs. pose proof A_h. apply Rmult_le_reg_r with (A + h); [lra|]. unfold Rdiv. rewrite Rmult_assoc, Rinv_l by lra. pose proof (x_le t T). lra.
  Qed.
  Lemma ts_pos : 1 <= ts <= 2.
  Proof.
    unfold ts. pose proof A_h. split; apply Rmult_le_reg_r with h; try lra; unfold Rdiv; rewrite Rmult_assoc, Rinv_l by lra; lra.
  Qed.
  Lemma ts_two : ts * (1 + sum_sq (n - 1) xs) = 2.
  Proof.
    assert (E : sum_sq (n - 1) xs = N / ((A + h) * (A + h))).
    { unfold sum_sq. rewrite (Rsum_range_ext _ (fun k => / ((A + h) * (A + h)) * (x k * x k))).
      - rewrite Rsum_range_scal. fold (sum_sq (n - 1) x). fold N. unfold Rdiv. ring.
      - intros i Hi. rewrite xs_eq. transitivity (s * s * (x i / (A + h) * (x i / (A + h)))); [ring|]. rewrite S1. field. pose proof A_h. lra. }
    rewrite E. replace N with (h * h - A * A) by (rewrite hh; ring). unfold ts. field. pose proof A_h. lra.
  Qed.
  Lemma neta : 4 * IZR n * eta64 <= u64.
  Proof.
    apply Rle_trans with (4 * bpow radix2 31 * eta64).
    - apply Rmult_le_compat_r; [left; apply eta64_pos|]. apply Rmult_le_compat_l; [lra|]. change (bpow radix2 31) with (IZR (2 ^ 31)). apply IZR_le. lia.
    - change 4 with (bpow radix2 2). unfold eta64, u64. rewrite <- !bpow_plus. apply bpow_le. lia.
  Qed.
  Lemma qs : 0 <= gam qw <= / 1000 /\ 0 <= gam qt <= / 1000.
  Proof. split; apply q_small; lia. Qed.
  Lemma nn1 : 0 <= IZR (n - 1) <= IZR n /\ 1 <= IZR n. Proof. split; [split|]; apply IZR_le; lia. Qed.

  (** tau * |(1, w)|^2 is nearly 2 *)
  Lemma sq_app : app (2 * qw + 1) (1 + sum_sq (n - 1) w) (1 + sum_sq (n - 1) xs) 0.
  Proof.
    destruct qs as [G _]. pose proof eta64_pos as EP. pose proof eta_le as EL. pose proof u64_le as UL. pose proof u64_pos as UP. pose proof nn1 as NN. pose proof neta as NE.
    assert (XP : 0 <= sum_sq (n - 1) xs) by (apply Rsum_range_nonneg; intros; apply Rle_0_sqr).
    replace (2 * qw + 1)%nat with (S (qw + qw)) by lia. apply app_absorb with (4 * IZR n * eta64); [|split; [nra|nra]].
    unfold app. rewrite gam_P, pow_add. replace (1 + sum_sq (n - 1) w - (1 + sum_sq (n - 1) xs)) with (Rsum_range (fun k => w k * w k - xs k * xs k) 0 (n - 1 - 1)).
    2:{ unfold sum_sq. rewrite (Rsum_range_ext (fun k => w k * w k - xs k * xs k) (fun k => w k * w k + -1 * (xs k * xs k))) by (intros; ring). rewrite Rsum_range_plus, Rsum_range_scal. ring. }
    pose proof (Pn_ge qw) as PG. rewrite gam_P in G. set (p := P ^ qw) in *.
    eapply Rle_trans; [apply Rsum_range_abs|]. apply Rle_trans with (Rsum_range (fun k => (p * p - 1) * (xs k * xs k) + 4 * eta64) 0 (n - 1 - 1)).
    - apply Rsum_range_le. intros t T. pose proof (Hw t ltac:(lia)) as E. rewrite gam_P in E. fold p in E. pose proof (xs_le t ltac:(lia)) as L. pose proof (Rabs_pos (xs t)) as L0.
      replace (w t * w t - xs t * xs t) with ((w t - xs t) * (2 * xs t + (w t - xs t))) by ring. rewrite Rabs_mult.
      assert (Rabs (2 * xs t + (w t - xs t)) <= 2 * Rabs (xs t) + ((p - 1) * Rabs (xs t) + eta64)).
      { eapply Rle_trans; [apply Rabs_triang|]. rewrite Rabs_mult, (Rabs_pos_eq 2) by lra. lra. }
      assert (xs t * xs t = Rabs (xs t) * Rabs (xs t)) by (rewrite <- Rabs_mult, Rabs_pos_eq by nra; reflexivity). rewrite H1.
      set (z := Rabs (xs t)) in *. set (e := Rabs (w t - xs t)) in *. assert (0 <= e) by apply Rabs_pos.
      apply Rle_trans with (((p - 1) * z + eta64) * (2 * z + ((p - 1) * z + eta64))); [apply Rmult_le_compat; try lra; apply Rabs_pos|].
      replace (((p - 1) * z + eta64) * (2 * z + ((p - 1) * z + eta64))) with ((p * p - 1) * (z * z) + eta64 * (2 * z * p + eta64)) by ring.
      apply Rplus_le_compat_l. rewrite (Rmult_comm 4). apply Rmult_le_compat_l; [lra|]. nra.
    - rewrite Rsum_range_plus, Rsum_range_scal, Rsum_range_const by lia. fold (sum_sq (n - 1) xs).
      replace (n - 1 - 1 - 0 + 1)%Z with (n - 1)%Z by ring. assert (IZR (n - 1) * (4 * eta64) <= 4 * IZR n * eta64) by nra.
      assert (4 * IZR n * eta64 <= p * p * (4 * IZR n * eta64)) by (rewrite <- (Rmult_1_l (4 * IZR n * eta64)) at 1; apply Rmult_le_compat_r; nra). nra.
  Qed.
  Lemma near_two : Rabs (tau * sum_sq n (vcons 1 w) - 2) <= 2 * gam (qt + 2 * qw + 1).
  Proof.
    assert (E : sum_sq n (vcons 1 w) = 1 + sum_sq (n - 1) w) by (unfold sum_sq; rewrite dot_vcons by lia; ring). rewrite E.
    assert (XP : 0 <= sum_sq (n - 1) xs) by (apply Rsum_range_nonneg; intros; apply Rle_0_sqr). assert (WP : 0 <= sum_sq (n - 1) w) by (apply Rsum_range_nonneg; intros; apply Rle_0_sqr).
    pose proof ts_pos. pose proof (app_mul _ _ _ _ _ _ (app_of_rel _ _ _ Ht) sq_app ltac:(lra) ltac:(lra) ltac:(lra)) as AM. rewrite ts_two in AM. apply app_to_rel in AM.
    replace (qt + 2 * qw + 1)%nat with (qt + (2 * qw + 1))%nat by lia. lra.
  Qed.
  Lemma near_orth y : Rabs (sum_sq n (reflect n tau (vcons 1 w) y) - sum_sq n y) <= 5 * gam (qt + 2 * qw + 1) * sum_sq n y.
  Proof.
    rewrite reflect_norm_err. pose proof near_two as T. pose proof (q_small _ Hq) as G. set (g := gam (qt + 2 * qw + 1)) in *. pose proof (cauchy n (vcons 1 w) y) as C.
    set (D := Rsum_range _ _ _) in *. assert (YP : 0 <= sum_sq n y) by (apply Rsum_range_nonneg; intros; apply Rle_0_sqr). assert (W0 : 0 <= sum_sq n (vcons 1 w)) by (apply Rsum_range_nonneg; intros; apply Rle_0_sqr).
    pose proof ts_pos as TS. destruct qs as [_ G2]. assert (T0 : 0 <= tau) by (pose proof Ht as E; apply ab_elim in E; nra).
    set (W := sum_sq n (vcons 1 w)) in *. set (Y := sum_sq n y) in *. pose proof (ab_elim _ _ T) as T2.
    rewrite !Rabs_mult, (Rabs_pos_eq tau) by exact T0. rewrite <- Rabs_mult, (Rabs_pos_eq (D * D)) by apply Rle_0_sqr.
    assert (D0 : 0 <= D * D) by apply Rle_0_sqr.
    apply Rle_trans with (tau * (2 * g) * (W * Y)).
    - apply Rmult_le_compat; [apply Rmult_le_pos; [exact T0|apply Rabs_pos]|exact D0|apply Rmult_le_compat_l; lra|exact C].
    - replace (tau * (2 * g) * (W * Y)) with (tau * W * (2 * g) * Y) by ring. apply Rmult_le_compat_r; [exact YP|]. nra.
  Qed.

  (** the inner product with (1, w) is nearly s * h *)
  Lemma dot_app : app (qw + 1) (s * (a + Rsum_range (fun t => w t * x t) 0 (n - 1 - 1))) h 0.
  Proof.
    destruct qs as [G _]. pose proof eta64_pos as EP. pose proof u64_pos as UP. pose proof nn1 as NN. pose proof neta as NE. pose proof A_h as AH.
    assert (XX : Rsum_range (fun t => xs t * x t) 0 (n - 1 - 1) = s * (h - A)).
    { rewrite (Rsum_range_ext _ (fun k => s * / (A + h) * (x k * x k))) by (intros i Hi; rewrite xs_eq; unfold Rdiv; ring). rewrite Rsum_range_scal. fold (sum_sq (n - 1) x). fold N.
      replace N with (h * h - A * A) by (rewrite hh; ring). field. lra. }
    assert (NP : 0 <= IZR n * eta64 <= u64) by (assert (0 <= IZR n * eta64) by (apply Rmult_le_pos; lra); lra).
    replace (qw + 1)%nat with (S qw) by lia. apply app_absorb with (IZR n * eta64 * h); [|split; [apply Rmult_le_pos; lra|apply Rmult_le_compat_r; lra]].
    unfold app. replace (s * (a + Rsum_range (fun t => w t * x t) 0 (n - 1 - 1)) - h) with (s * Rsum_range (fun t => (w t - xs t) * x t) 0 (n - 1 - 1)).
    2:{ rewrite (Rsum_range_ext (fun t => (w t - xs t) * x t) (fun t => w t * x t + -1 * (xs t * x t))) by (intros; ring). rewrite Rsum_range_plus, Rsum_range_scal, XX. rewrite SA. fold A.
        rewrite !Rmult_plus_distr_l. replace (s * (-1 * (s * (h - A)))) with (- (s * s) * (h - A)) by ring. replace (s * (s * A)) with (s * s * A) by ring. rewrite S1. ring. }
    rewrite s_abs. eapply Rle_trans; [apply Rsum_range_abs|]. rewrite gam_P. pose proof (Pn_ge qw) as PG. set (p := P ^ qw) in *.
    apply Rle_trans with (Rsum_range (fun k => (p - 1) * / (A + h) * (x k * x k) + eta64 * h) 0 (n - 1 - 1)).
    - apply Rsum_range_le. intros t T. pose proof (Hw t ltac:(lia)) as E. rewrite gam_P, xs_abs in E. fold p in E. pose proof (x_le t ltac:(lia)) as L. rewrite Rabs_mult.
      assert (Q : x t * x t = Rabs (x t) * Rabs (x t)) by (rewrite <- Rabs_mult, Rabs_pos_eq by nra; reflexivity). rewrite Q. pose proof (Rabs_pos (x t)) as X0. set (z := Rabs (x t)) in *.
      apply Rle_trans with (((p - 1) * (z / (A + h)) + eta64) * z); [apply Rmult_le_compat_r; lra|]. unfold Rdiv. rewrite Rmult_plus_distr_r. apply Rplus_le_compat; [apply Req_le; ring|apply Rmult_le_compat_l; lra].
    - rewrite Rsum_range_plus, Rsum_range_scal, Rsum_range_const by lia. fold (sum_sq (n - 1) x). fold N. replace N with (h * h - A * A) by (rewrite hh; ring).
      replace (n - 1 - 1 - 0 + 1)%Z with (n - 1)%Z by ring. replace ((p - 1) * / (A + h) * (h * h - A * A)) with ((p - 1) * (h - A)) by (field; lra).
      assert (0 <= eta64 * h) by (apply Rmult_le_pos; lra). assert (IZR (n - 1) * (eta64 * h) <= IZR n * eta64 * h) by (rewrite (Rmult_assoc (IZR n)); apply Rmult_le_compat_r; lra).
      assert (IZR n * eta64 * h <= p * (IZR n * eta64 * h)) by (rewrite <- (Rmult_1_l (IZR n * eta64 * h)) at 1; apply Rmult_le_compat_r; [apply Rmult_le_pos; lra|lra]). nra.
  Qed.
  Lemma prod_app : app (qt + (qw + 1)) (tau * (s * (a + Rsum_range (fun t => w t * x t) 0 (n - 1 - 1)))) (A + h) 0.
  Proof.
    pose proof ts_pos. pose proof A_h. pose proof dot_app as DA. assert (E : A + h = ts * h) by (unfold ts; field; lra). rewrite E. apply app_mul; [apply app_of_rel, Ht|exact DA| |lra|lra].
    pose proof (app_to_rel _ _ _ DA) as D. apply ab_elim in D. pose proof (q_small (qw + 1) ltac:(lia)). nra.
  Qed.
  Lemma near_first : Rabs (reflect n tau (vcons 1 w) (vcons a x) 0 - - s * h) <= gam (qt + qw + 1) * (A + h).
  Proof.
    unfold reflect. rewrite dot_vcons by lia. replace (vcons a x 0) with a by reflexivity. replace (vcons 1 w 0) with 1 by reflexivity. rewrite Rmult_1_l, Rmult_1_r.
    pose proof prod_app as PA. apply app_to_rel in PA. set (D := a + Rsum_range (fun t => w t * x t) 0 (n - 1 - 1)) in *.
    replace (qt + qw + 1)%nat with (qt + (qw + 1))%nat by lia. eapply Rle_trans; [|exact PA]. rewrite <- (s_abs (tau * _ - _)).
    rewrite <- Rabs_Ropp. apply Req_le. f_equal. rewrite SA at 1. fold A. replace (s * (tau * (s * D) - (A + h))) with (s * s * tau * D - s * (A + h)) by ring. rewrite S1. ring.
  Qed.
  Lemma near_rest t : (0 <= t < n - 1)%Z -> Rabs (reflect n tau (vcons 1 w) (vcons a x) (t + 1)) <= gam (qt + 2 * qw + 1) * Rabs (x t) + 3 * h * eta64.
  Proof.
    intros T. unfold reflect. rewrite dot_vcons by lia. rewrite !vcons_S by lia. rewrite Rmult_1_l.
    pose proof prod_app as PA. apply app_to_rel in PA. set (D := a + Rsum_range (fun t => w t * x t) 0 (n - 1 - 1)) in *. pose proof (Hw t T) as E. pose proof (q_small (qt + (qw + 1)) ltac:(lia)) as G.
    pose proof A_h as AH. pose proof eta64_pos as EP. pose proof qs as [G1 _].
    assert (XE : s * x t = (A + h) * (xs t)) by (rewrite xs_eq; field; lra).
    rewrite <- (s_abs (x t - _)). set (k := tau * (s * D)) in *.
    replace (s * (x t - tau * w t * D)) with (- (k * (w t - xs t)) + - ((k - (A + h)) * xs t)) by (transitivity ((A + h) * xs t - k * w t); [ring|rewrite <- XE; unfold k; ring]).
    eapply Rle_trans; [apply Rabs_triang|]. rewrite !Rabs_Ropp, !Rabs_mult.
    assert (K : Rabs k <= (1 + gam (qt + (qw + 1))) * (A + h)).
    { replace k with ((A + h) + (k - (A + h))) by ring. eapply Rle_trans; [apply Rabs_triang|]. rewrite (Rabs_pos_eq (A + h)) by lra. lra. }
    rewrite xs_abs in *. pose proof (Rabs_pos (x t)) as X0. set (z := Rabs (x t)) in *.
    replace (qt + 2 * qw + 1)%nat with ((qt + (qw + 1)) + qw)%nat by lia. rewrite gam_P in E, K, PA, G, G1 |- *. rewrite (pow_add P (qt + (qw + 1)) qw). set (p := P ^ (qt + (qw + 1))) in *. set (r := P ^ qw) in *.
    assert (ZP : 0 <= z / (A + h)) by (apply Rmult_le_pos; [exact X0|left; apply Rinv_0_lt_compat; lra]).
    apply Rle_trans with ((1 + (p - 1)) * (A + h) * ((r - 1) * (z / (A + h)) + eta64) + (p - 1) * (A + h) * (z / (A + h))).
    - apply Rplus_le_compat; [apply Rmult_le_compat; try apply Rabs_pos; assumption|apply Rmult_le_compat_r; assumption].
    - replace ((1 + (p - 1)) * (A + h) * ((r - 1) * (z / (A + h)) + eta64) + (p - 1) * (A + h) * (z / (A + h))) with ((p * r - 1) * z + p * (A + h) * eta64) by (field; lra).
      apply Rplus_le_compat_l. apply Rmult_le_compat_r; [lra|]. nra.
  Qed.
End Near.
