(** y approximates X >= 0 after q roundings, up to an absolute error. *)
From Coq Require Import Reals Lra.
From Flocq Require Import IEEE754.BinarySingleNaN Core.
From Verif Require Import Base Num Array Spec SpecR SpecErr B64 B64Lemmas B64Nn RoundErr.
Open Scope R_scope.

Definition app (q : nat) (y X D : R) : Prop := Rabs (y - X) <= gam q * X + P ^ q * D.

Lemma gam_P q : gam q = P ^ q - 1. Proof. reflexivity. Qed.
Lemma ab_elim x b : Rabs x <= b -> - b <= x <= b. Proof. intros H. unfold Rabs in H. destruct (Rcase_abs x); lra. Qed.
Lemma ab_intro x b : - b <= x -> x <= b -> Rabs x <= b. Proof. intros. apply Rabs_le. lra. Qed.
Lemma app_elim q y X D : app q y X D -> X - gam q * X - P ^ q * D <= y <= P ^ q * X + P ^ q * D.
Proof. intros H. apply ab_elim in H. rewrite gam_P in *. lra. Qed.
Lemma app_mono q q' y X D D' : (q <= q')%nat -> 0 <= X -> 0 <= D <= D' -> app q y X D -> app q' y X D'.
Proof.
  intros Hq HX HD H. unfold app in *. eapply Rle_trans; [exact H|]. pose proof (gam_le _ _ Hq). pose proof (Pn_le _ _ Hq). pose proof (gam_pos q). pose proof (Pn_ge q).
  apply Rplus_le_compat; apply Rmult_le_compat; lra.
Qed.
Lemma app_refl q X : 0 <= X -> app q X X 0.
Proof. intros H. unfold app. replace (X - X) with 0 by ring. rewrite Rabs_R0. pose proof (gam_pos q). nra. Qed.
Lemma app_comp p q y x X d D : app p y x d -> app q x X D -> 0 <= x -> 0 <= X -> 0 <= d -> 0 <= D -> app (p + q) y X (d + D).
Proof.
  intros H1 H2 Hx HX Hd HD. pose proof (app_elim _ _ _ _ H2) as E. unfold app in *. pose proof (Pn_ge p) as P1. pose proof (Pn_ge q) as P2.
  replace (y - X) with ((y - x) + (x - X)) by ring. eapply Rle_trans; [apply Rabs_triang|]. rewrite !gam_P in *. rewrite pow_add.
  set (a := P ^ p) in *. set (b := P ^ q) in *.
  assert ((a - 1) * x <= (a - 1) * (b * X + b * D)) by (apply Rmult_le_compat_l; lra).
  assert (a * d * 1 <= a * d * b) by (apply Rmult_le_compat_l; [nra|lra]). nra.
Qed.
Lemma app_sum q x t X T D d : app q x X D -> app q t T d -> app q (x + t) (X + T) (D + d).
Proof. intros H1 H2. unfold app in *. replace (x + t - (X + T)) with ((x - X) + (t - T)) by ring. eapply Rle_trans; [apply Rabs_triang|]. lra. Qed.
Lemma app_rel y x : 0 <= x -> Rabs (y - x) <= u64 * x -> app 1 y x 0.
Proof. intros H E. unfold app, gam. cbn [pow]. eapply Rle_trans; [exact E|]. lra. Qed.
Lemma app_eta y x : 0 <= x -> Rabs (y - x) <= u64 * x + eta64 -> app 1 y x eta64.
Proof. intros H E. unfold app, gam. cbn [pow]. pose proof u64_pos. pose proof eta64_pos. eapply Rle_trans; [exact E|]. nra. Qed.
Lemma app_scale c q x X D : 0 <= c -> app q x X D -> app q (c * x) (c * X) (c * D).
Proof.
  intros Hc H. unfold app in *. rewrite <- Rmult_minus_distr_l, Rabs_mult, (Rabs_pos_eq c) by exact Hc.
  replace (gam q * (c * X) + P ^ q * (c * D)) with (c * (gam q * X + P ^ q * D)) by ring. apply Rmult_le_compat_l; assumption.
Qed.
Lemma app_mul p q y z X Z : app p y X 0 -> app q z Z 0 -> 0 <= z -> 0 <= X -> 0 <= Z -> app (p + q) (y * z) (X * Z) 0.
Proof.
  intros H1 H2 Hz HX HZ. pose proof (app_elim _ _ _ _ H2) as E. unfold app in *. rewrite !Rmult_0_r, !Rplus_0_r in *. pose proof (Pn_ge p) as P1. pose proof (Pn_ge q) as P2.
  replace (y * z - X * Z) with ((y - X) * z + X * (z - Z)) by ring. eapply Rle_trans; [apply Rabs_triang|]. rewrite !Rabs_mult, (Rabs_pos_eq z), (Rabs_pos_eq X) by assumption.
  rewrite !gam_P in *. rewrite pow_add. set (a := P ^ p) in *. set (b := P ^ q) in *.
  assert (Rabs (y - X) * z <= ((a - 1) * X) * (b * Z)) by (apply Rmult_le_compat; [apply Rabs_pos|exact Hz|exact H1|lra]).
  assert (X * Rabs (z - Z) <= X * ((b - 1) * Z)) by (apply Rmult_le_compat_l; assumption). nra.
Qed.
Lemma app_absorb q y X D : app q y X D -> 0 <= D <= u64 * X -> app (S q) y X 0.
Proof.
  intros H HD. unfold app in *. eapply Rle_trans; [exact H|]. rewrite gam_S, !gam_P. cbn [pow]. pose proof (Pn_ge q).
  assert (P ^ q * D <= P ^ q * (u64 * X)) by (apply Rmult_le_compat_l; lra). nra.
Qed.
Lemma sqrt_add_le a b : 0 <= a -> 0 <= b -> sqrt (a + b) <= sqrt a + sqrt b.
Proof.
  intros Ha Hb. pose proof (sqrt_pos a) as P1. pose proof (sqrt_pos b) as P2. apply Rsqr_incr_0_var; [|lra]. unfold Rsqr. rewrite sqrt_sqrt by lra.
  pose proof (sqrt_sqrt a Ha). pose proof (sqrt_sqrt b Hb). nra.
Qed.
Lemma sqrt_sup a : 1 <= a -> sqrt a <= a.
Proof. intros H. apply Rsqr_incr_0_var; [|lra]. unfold Rsqr. rewrite sqrt_sqrt by lra. nra. Qed.
Lemma sqrt_sub a : 0 <= a <= 1 -> a <= sqrt a.
Proof. intros H. apply Rsqr_incr_0_var; [|apply sqrt_pos]. unfold Rsqr. rewrite sqrt_sqrt by lra. nra. Qed.
Lemma app_sqrt q y X D : app q y X D -> 0 <= y -> 0 <= X -> 0 <= D -> gam q <= 1 -> Rabs (sqrt y - sqrt X) <= gam q * sqrt X + sqrt (P ^ q * D).
Proof.
  intros H Hy HX HD G. pose proof (app_elim _ _ _ _ H) as [L U]. pose proof (gam_pos q) as G0. pose proof (Pn_ge q) as Pq. pose proof (sqrt_pos X) as SX.
  assert (D0 : 0 <= P ^ q * D) by nra.
  apply ab_intro.
  - assert (A : sqrt ((1 - gam q) * X) <= sqrt (y + P ^ q * D)) by (apply sqrt_le_1_alt; lra).
    pose proof (sqrt_add_le y (P ^ q * D) Hy D0) as B. rewrite sqrt_mult in A by lra.
    pose proof (sqrt_sub (1 - gam q) ltac:(lra)) as C. assert ((1 - gam q) * sqrt X <= sqrt (1 - gam q) * sqrt X) by (apply Rmult_le_compat_r; lra). lra.
  - assert (A : sqrt y <= sqrt (P ^ q * X + P ^ q * D)) by (apply sqrt_le_1_alt; lra).
    pose proof (sqrt_add_le (P ^ q * X) (P ^ q * D) ltac:(nra) D0) as B. rewrite (sqrt_mult (P ^ q) X) in B by lra.
    pose proof (sqrt_sup (P ^ q) Pq) as C. assert (sqrt (P ^ q) * sqrt X <= P ^ q * sqrt X) by (apply Rmult_le_compat_r; lra). rewrite gam_P. lra.
Qed.
Lemma app_sqrt0 q y X : app q y X 0 -> 0 <= y -> 0 <= X -> gam q <= 1 -> app q (sqrt y) (sqrt X) 0.
Proof. intros H Hy HX G. pose proof (app_sqrt q y X 0 H Hy HX ltac:(lra) G) as E. unfold app. rewrite !Rmult_0_r, ?sqrt_0 in *. exact E. Qed.

Lemma gam_linear' n : INR n * u64 <= / 2 -> gam n <= 2 * (INR n * u64).
Proof.
  intros H. pose proof u64_pos as U. assert (I : P ^ n * (1 - INR n * u64) <= 1).
  { clear H. induction n as [|n IH]; [cbn; lra|]. rewrite S_INR. cbn [pow]. pose proof (Pn_ge n). pose proof (pos_INR n). set (p := P ^ n) in *.
    assert (0 <= p * (INR n * u64 * u64 + u64 * u64)) by (apply Rmult_le_pos; [lra|]; assert (0 <= INR n * u64) by nra; nra). nra. }
  rewrite gam_P. pose proof (Pn_ge n). pose proof (pos_INR n). assert (0 <= INR n * u64) by nra. set (p := P ^ n) in *. set (w := INR n * u64) in *. nra.
Qed.
Lemma gam_small n : (Z.of_nat n <= 2 ^ 32)%Z -> gam n <= / 1000.
Proof.
  intros H. assert (I : INR n * u64 <= bpow radix2 (-21)).
  { rewrite INR_IZR_INZ. apply IZR_le in H. apply Rle_trans with (IZR (2 ^ 32) * u64); [apply Rmult_le_compat_r; [pose proof u64_pos; lra|exact H]|].
    change (IZR (2 ^ 32)) with (bpow radix2 32). unfold u64. rewrite <- bpow_plus. apply bpow_le. lia. }
  change (bpow radix2 (-21)) with (/ IZR (2 ^ 21)) in I. change (2 ^ 21)%Z with 2097152%Z in I.
  eapply Rle_trans; [apply gam_linear'; lra|]. lra.
Qed.
