(** dlanv2. *)
From Flocq Require Import Core IEEE754.BinarySingleNaN.
From Coq Require Import Ascii Reals Lra Nsatz.
From Verif Require Import Base Num Blas Lapack SpecR B64 ER MachProofs Lapy2Proofs LarfgProofs.
Open Scope R_scope.

(** *** the constants: the rescaling thresholds are 0 and infinity *)
Lemma er_nv_eps : (nv_eps : er) = Fin (bpow radix2 (-52)).
Proof.
  unfold nv_eps. change (dlamch (chr "P")) with (mach_eps * fofZ 2 : er)%num. rewrite er_mach_eps, er_fofZ, er_mulE.
  f_equal. change (-52)%Z with (-53 + 1)%Z. rewrite bpow_plus. reflexivity.
Qed.
Lemma ln_bpow e : ln (bpow radix2 e) = IZR e * ln 2.
Proof.
  assert (E : bpow radix2 e = Rpower 2 (IZR e)) by (change 2 with (IZR radix2); rewrite bpow_powerRZ, powerRZ_Rpower; [reflexivity|cbn; lra]).
  rewrite E. unfold Rpower. rewrite ln_exp. ring.
Qed.
Lemma er_safmn2 : (nv_safmn2 : er) = Fin 0.
Proof.
  unfold nv_safmn2. change (dlamch (chr "B")) with (fofZ 2 : er). change (dlamch (chr "S")) with (mach_sfmin : er).
  rewrite er_nv_eps, er_sfmin, er_fofZ. pose proof (bpow_gt_0 radix2 (-52)). rewrite er_divE by lra.
  replace (bpow radix2 (-1022) / bpow radix2 (-52)) with (bpow radix2 (-970))
    by (unfold Rdiv; rewrite <- bpow_opp, <- bpow_plus; reflexivity).
  assert (L2 : 0 < ln 2) by (rewrite <- ln_1; apply ln_increasing; lra).
  assert (EL : flog (Fin (bpow radix2 (-970))) (Fin 2) = Fin (-970)).
  { cbn [flog ER er_ln]. rewrite !Rlt_bool_true by (try apply bpow_gt_0; lra). unfold er_div. rewrite Req_bool_false by lra.
    f_equal. rewrite ln_bpow. field. lra. }
  rewrite EL, er_f2, er_divE by lra. rewrite er_powE by lra. cbn [ftrunc ER er_trunc].
  replace (Ztrunc (Rpower 2 (-970 / 2))) with 0%Z; [reflexivity|].
  assert (E : Rpower 2 (-970 / 2) = bpow radix2 (-485)).
  { replace (-970 / 2) with (IZR (-485)) by lra. rewrite <- powerRZ_Rpower by lra. rewrite bpow_powerRZ. reflexivity. }
  rewrite E. symmetry. rewrite Ztrunc_floor by apply bpow_ge_0. apply Zfloor_imp. cbn [Z.add IZR]. split; [apply bpow_ge_0|].
  change 1 with (bpow radix2 0). apply bpow_lt. lia.
Qed.
Lemma er_safmx2 : (nv_safmx2 : er) = PInf.
Proof.
  unfold nv_safmx2. rewrite er_safmn2, er_f1. cbn [fdiv ER er_div]. rewrite Req_bool_true by reflexivity.
  unfold er_inf. rewrite Rlt_bool_true by lra. reflexivity.
Qed.
Lemma nv_loop_id k s t : s <> 0 \/ t <> 0 -> nv_loop k (Fin s) (Fin t) = (Fin s, Fin t).
Proof.
  intros H. assert (M : 0 < Rmax (Rabs t) (Rabs s)).
  { destruct H as [H|H]; apply Rabs_pos_lt in H; [eapply Rlt_le_trans; [exact H|apply Rmax_r]|eapply Rlt_le_trans; [exact H|apply Rmax_l]]. }
  destruct k; cbn [nv_loop]; rewrite !er_absE, er_maxE, er_safmn2, er_safmx2, er_leE, (Rle_bool_false _ 0) by assumption; reflexivity.
Qed.

(** *** signs *)
Lemma Rmax_min_mult x y : Rmax x y * Rmin x y = x * y.
Proof. unfold Rmax, Rmin. destruct (Rle_dec x y); ring. Qed.
Lemma bc_prod b c : Rmax (Rabs b) (Rabs c) * (Rmin (Rabs b) (Rabs c) * sgn1 b * sgn1 c) = b * c.
Proof.
  rewrite <- !Rmult_assoc, Rmax_min_mult. replace (Rabs b * Rabs c * sgn1 b * sgn1 c) with ((sgn1 b * Rabs b) * (sgn1 c * Rabs c)) by ring.
  assert (S : forall x, sgn1 x * Rabs x = x).
  { intros x. rewrite <- sgn1_abs, <- Rmult_assoc, sgn1_sq. ring. }
  rewrite !S. reflexivity.
Qed.

Definition similar2 (x y : m2) (cs sn : R) : Prop := x = m2mul (m2mul (rot2 cs sn) y) (m2tr (rot2 cs sn)).
Definition standard2 (y : m2) : Prop := let '(a, b, c, d) := y in c = 0 \/ (a = d /\ b * c < 0).
Definition nv_is (st : @nvst er) (y : m2) (cs sn : R) : Prop :=
  let '(a, b, c, d) := y in st = (Fin a, Fin b, Fin c, Fin d, Fin cs, Fin sn).

Lemma m2_eq (a b c d a' b' c' d' : R) : a = a' -> b = b' -> c = c' -> d = d' -> ((a, b, c, d) : m2) = (a', b', c', d').
Proof. congruence. Qed.
Lemma similar_id x : similar2 x x 1 0.
Proof. destruct x as [[[a b] c] d]. unfold similar2. cbn. apply m2_eq; ring. Qed.

Section Real.
  Variables (a b c d : R).
  Hypotheses (Hb : b <> 0) (Hc : c <> 0).
  Let p := 1 / 2 * (a - d).
  Let s := Rmax (Rabs p) (Rmax (Rabs b) (Rabs c)).
  Lemma scale_pos : 0 < s.
  Proof. apply Rabs_pos_lt in Hb. unfold s. eapply Rlt_le_trans; [exact Hb|]. eapply Rle_trans; [apply Rmax_l|apply Rmax_r]. Qed.
  Lemma er_nv_p : nv_p (Fin a) (Fin d) = Fin p.
  Proof. unfold nv_p. rewrite er_subE, er_fhalf, er_mulE. reflexivity. Qed.
  Lemma er_nv_scale : nv_scale (Fin a) (Fin b) (Fin c) (Fin d) = Fin s.
  Proof. unfold nv_scale, nv_bcmax. rewrite er_nv_p, !er_absE, !er_maxE. reflexivity. Qed.
  Lemma er_nv_z : nv_z (Fin a) (Fin b) (Fin c) (Fin d) = Fin ((p * p + b * c) / s).
  Proof.
    pose proof scale_pos. unfold nv_z. rewrite er_nv_scale, er_nv_p. unfold nv_bcmax, nv_bcmis.
    rewrite !er_absE, !er_maxE, er_minE, !er_signumE, !er_mulE, !er_divE, !er_mulE, er_addE by lra. f_equal.
    rewrite <- (bc_prod b c). field. lra.
  Qed.

  Lemma nv_real_ok : 0 < p * p + b * c -> Rabs c <= Rfmax -> Rabs p + sqrt (p * p + b * c) <= Rfmax ->
    exists a' b' d' cs sn, nv_is (nv_real (Fin a) (Fin b) (Fin c) (Fin d)) (a', b', 0, d') cs sn /\
      cs * cs + sn * sn = 1 /\ similar2 (a, b, c, d) (a', b', 0, d') cs sn.
  Proof.
    intros P C Z. pose proof scale_pos as S. unfold nv_real. rewrite er_nv_scale, er_nv_z, er_nv_p.
    unfold nv_bcmax, nv_bcmis. rewrite !er_absE, !er_maxE, er_minE, !er_signumE, !er_mulE.
    rewrite !er_sqrtE by (first [lra|apply Rlt_le, Rdiv_lt_0_compat; lra]).
    rewrite er_mulE, er_copysignE, er_addE.
    set (q := sqrt s * sqrt ((p * p + b * c) / s)).
    assert (Eq : q = sqrt (p * p + b * c)).
    { unfold q. rewrite <- sqrt_mult_alt by lra. f_equal. field. lra. }
    assert (Q0 : 0 < q) by (rewrite Eq; apply sqrt_lt_R0; assumption).
    assert (QQ : q * q = p * p + b * c) by (rewrite Eq; apply sqrt_sqrt; lra).
    rewrite (Rabs_pos_eq q) by lra.
    set (z := p + sgn1 p * q).
    assert (ZA : Rabs z = Rabs p + q).
    { rewrite <- (Rmult_1_l (Rabs z)), <- (Rabs_sgn1 p), <- Rabs_mult. unfold z.
      replace (sgn1 p * (p + sgn1 p * q)) with (sgn1 p * p + (sgn1 p * sgn1 p) * q) by ring. rewrite sgn1_abs, sgn1_sq.
      rewrite Rabs_pos_eq; [ring|]. pose proof (Rabs_pos p). lra. }
    assert (Z0 : z <> 0) by (intros E; rewrite E, Rabs_R0 in ZA; pose proof (Rabs_pos p); lra).
    assert (ZZ : z * z = 2 * p * z + b * c).
    { unfold z. transitivity (p * p + 2 * p * (sgn1 p * q) + (sgn1 p * sgn1 p) * (q * q)); [ring|]. rewrite sgn1_sq, QQ. ring. }
    rewrite er_addE, er_divE, er_mulE, !er_subE, dlapy2_exact by (try assumption; lra).
    assert (T0 : 0 < c * c + z * z) by nra.
    set (tau := sqrt (c * c + z * z)). assert (TT : tau * tau = c * c + z * z) by (apply sqrt_sqrt; lra).
    assert (TP : 0 < tau) by (apply sqrt_lt_R0; assumption).
    rewrite !er_divE by lra. rewrite er_f0. do 5 eexists. split; [reflexivity|].
    assert (CS : z / tau * (z / tau) + c / tau * (c / tau) = 1) by (transitivity ((c * c + z * z) / (tau * tau)); [field; lra|rewrite <- TT; field; lra]).
    split; [exact CS|].
    replace (d - Rmax (Rabs b) (Rabs c) / z * (Rmin (Rabs b) (Rabs c) * sgn1 b * sgn1 c)) with (a - z).
    2:{ unfold Rdiv. rewrite (Rmult_comm (Rmax _ _)), (Rmult_assoc (/ z)), bc_prod. apply (Rmult_eq_reg_r z); [|assumption].
        replace ((d - / z * (b * c)) * z) with (d * z - b * c) by (field; assumption). unfold p in ZZ. lra. }
    unfold similar2, rot2, m2tr, m2mul.
    assert (Ec : c / tau = c * / tau) by reflexivity. assert (Ez : z / tau = z * / tau) by reflexivity.
    assert (IT : / tau * / tau * (c * c + z * z) = 1) by (rewrite <- TT; field; lra).
    rewrite Ec, Ez. set (it := / tau) in *. clearbody it. unfold p in ZZ.
    assert (Z3 : z * z = (a - d) * z + b * c) by (rewrite ZZ; field).
    clear - IT Z3.
    apply m2_eq; nsatz.
  Qed.
End Real.

Lemma similar_comp x y w cs sn cs1 sn1 : similar2 x y cs sn -> similar2 y w cs1 sn1 ->
  similar2 x w (cs * cs1 - sn * sn1) (cs * sn1 + sn * cs1).
Proof.
  destruct x as [[[a b] c] d], y as [[[a1 b1] c1] d1], w as [[[a2 b2] c2] d2]. unfold similar2. intros H1 H2. rewrite H1, H2.
  unfold rot2, m2tr, m2mul. apply m2_eq; ring.
Qed.
Lemma rot_comp cs sn cs1 sn1 : cs * cs + sn * sn = 1 -> cs1 * cs1 + sn1 * sn1 = 1 ->
  (cs * cs1 - sn * sn1) * (cs * cs1 - sn * sn1) + (cs * sn1 + sn * cs1) * (cs * sn1 + sn * cs1) = 1.
Proof.
  intros H1 H2. transitivity ((cs * cs + sn * sn) * (cs1 * cs1 + sn1 * sn1)); [ring|]. rewrite H1, H2. ring.
Qed.

Lemma nv_equalise_ok a b c d : b + c <> 0 \/ a - d <> 0 -> Rabs (b + c) <= Rfmax -> Rabs (a - d) <= Rfmax ->
  exists t b' c' cs sn, nv_equalise (Fin (b + c)) (Fin (a - d)) (Fin a) (Fin b) (Fin c) (Fin d) =
      (Fin t, (Fin t, Fin b', Fin c', Fin t, Fin cs, Fin sn)) /\
    cs * cs + sn * sn = 1 /\ similar2 (a, b, c, d) (t, b', c', t) cs sn.
Proof.
  intros NZ Hs Ht. unfold nv_equalise. rewrite dlapy2_exact by assumption.
  set (sg := b + c) in *. set (t := a - d) in *.
  assert (T0 : 0 < sg * sg + t * t) by nra.
  set (tau := sqrt (sg * sg + t * t)). assert (TT : tau * tau = sg * sg + t * t) by (apply sqrt_sqrt; lra).
  assert (TP : 0 < tau) by (apply sqrt_lt_R0; assumption).
  rewrite er_fhalf, er_f1, er_absE, er_divE, er_addE, er_mulE by lra.
  assert (U : 0 <= Rabs sg / tau) by (apply Rmult_le_pos; [apply Rabs_pos|apply Rlt_le, Rinv_0_lt_compat; assumption]).
  rewrite er_sqrtE by lra. set (cs := sqrt ((1 + Rabs sg / tau) * (1 / 2))).
  assert (CC : cs * cs = (1 + Rabs sg / tau) * (1 / 2)) by (apply sqrt_sqrt; lra).
  assert (CP : 0 < cs) by (apply sqrt_lt_R0; lra).
  rewrite !er_mulE, er_divE by nra. rewrite er_negE, er_signumE, er_mulE.
  set (sn := - (1 / 2 * t / (tau * cs)) * sgn1 sg).
  assert (CN : cs * sn = - (t / (2 * tau)) * sgn1 sg) by (unfold sn; field; lra).
  assert (SA : Rabs sg * Rabs sg = sg * sg) by (rewrite <- Rabs_mult, Rabs_pos_eq; [reflexivity|apply Rle_0_sqr]).
  assert (SN : sn * sn = (1 - Rabs sg / tau) * (1 / 2)).
  { apply (Rmult_eq_reg_l (cs * cs)); [|nra]. rewrite CC at 2.
    transitivity ((cs * sn) * (cs * sn)); [ring|]. rewrite CN.
    transitivity (t * t / (4 * (tau * tau)) * (sgn1 sg * sgn1 sg)); [field; lra|]. rewrite sgn1_sq.
    transitivity ((tau * tau - Rabs sg * Rabs sg) / (4 * (tau * tau))); [|field; lra].
    rewrite SA, TT. field. lra. }
  assert (ONE : cs * cs + sn * sn = 1) by (rewrite CC, SN; field; lra).
  assert (K : t * (cs * cs - sn * sn) + 2 * sg * (cs * sn) = 0).
  { rewrite CC, SN, CN. rewrite <- (sgn1_abs sg). field. lra. }
  clearbody sn cs. repeat (rewrite er_mulE || rewrite er_addE || rewrite er_negE).
  do 5 eexists. split; [reflexivity|]. split; [exact ONE|].
  set (t' := 1 / 2 * _).
  assert (E2 : 2 * t' = a + d) by (unfold t'; transitivity ((cs * cs + sn * sn) * (a + d)); [field|rewrite ONE; ring]).
  assert (E1 : t' = (a * cs + b * sn) * cs + (c * cs + d * sn) * sn) by (unfold t, sg in K; clear - K ONE E2; nsatz).
  unfold similar2, rot2, m2tr, m2mul. unfold t, sg in K. clearbody t'. clear - K ONE E1 E2. apply m2_eq; nsatz.
Qed.

Lemma sgn_eq b c : b <> 0 -> c <> 0 -> Req_bool (sgn1 b) (sgn1 c) = Rlt_bool 0 (b * c).
Proof.
  intros Hb Hc. unfold sgn1. case (Rlt_bool_spec b 0); case (Rlt_bool_spec c 0); intros;
  ((rewrite Req_bool_true by lra) || (rewrite Req_bool_false by lra)); symmetry;
  (apply Rlt_bool_true; nra) || (apply Rlt_bool_false; nra).
Qed.

Lemma nv_offdiag_ok x t b c cs sn : cs * cs + sn * sn = 1 -> similar2 x (t, b, c, t) cs sn ->
  exists y cs' sn', nv_is (nv_offdiag (Fin t) (Fin t, Fin b, Fin c, Fin t, Fin cs, Fin sn)) y cs' sn' /\
    cs' * cs' + sn' * sn' = 1 /\ similar2 x y cs' sn' /\ standard2 y.
Proof.
  intros ONE SIM. unfold nv_offdiag. rewrite !er_f0, !er_neE.
  case (Req_bool_spec c 0); intros Hc; cbn [negb].
  { exists (t, b, c, t), cs, sn. split; [reflexivity|]. split; [assumption|]. split; [assumption|]. left; assumption. }
  case (Req_bool_spec b 0); intros Hb; cbn [negb].
  { rewrite !er_negE. exists (t, - c, 0, t), (- sn), cs. split; [reflexivity|]. split; [lra|]. split; [|left; reflexivity].
    replace (- sn) with (cs * 0 - sn * 1) by ring. replace cs with (cs * 1 + sn * 0) at 2 by ring.
    apply similar_comp with (t, b, c, t); [assumption|]. subst b. unfold similar2. cbn. apply m2_eq; ring. }
  rewrite !er_signumE, er_eqE, sgn_eq by assumption. case Rlt_bool_spec; intros P.
  - rewrite !er_absE, !er_sqrtE by apply Rabs_pos. rewrite er_addE, er_absE, er_sqrtE by apply Rabs_pos.
    assert (AB : Rabs (b + c) = Rabs b + Rabs c).
    { destruct (Rle_dec 0 b).
      - rewrite !Rabs_pos_eq by nra. ring.
      - rewrite !Rabs_left by nra. ring. }
    pose proof (Rabs_pos_lt b Hb) as PB. pose proof (Rabs_pos_lt c Hc) as PC.
    set (sab := sqrt (Rabs b)). set (sac := sqrt (Rabs c)). set (w := sqrt (Rabs (b + c))).
    assert (WP : 0 < w) by (apply sqrt_lt_R0; lra).
    assert (BB : sab * sab = Rabs b) by (apply sqrt_sqrt; lra). assert (CC : sac * sac = Rabs c) by (apply sqrt_sqrt; lra).
    assert (WW : w * w = Rabs b + Rabs c) by (rewrite <- AB; apply sqrt_sqrt; lra).
    rewrite er_f1, er_divE by lra. repeat (rewrite er_mulE || rewrite er_addE || rewrite er_subE).
    set (p := sgn1 c * sab * sac). set (v := 1 / w).
    assert (VV : v * v * (sab * sab + sac * sac) = 1) by (rewrite BB, CC, <- WW; unfold v; field; lra).
    exists (t + p, b - c, 0, t - p), (cs * (sab * v) - sn * (sac * v)), (cs * (sac * v) + sn * (sab * v)).
    split; [reflexivity|]. split; [apply rot_comp; [assumption|nsatz]|]. split; [|left; reflexivity].
    apply similar_comp with (t, b, c, t); [assumption|].
    assert (SB : sgn1 c * (sab * sab) = b).
    { rewrite BB. unfold sgn1. case Rlt_bool_spec; intros; [rewrite Rabs_left by nra; ring|rewrite Rabs_pos_eq by nra; ring]. }
    assert (SC : sgn1 c * (sac * sac) = c).
    { rewrite CC. unfold sgn1. case Rlt_bool_spec; intros; [rewrite Rabs_left by nra; ring|rewrite Rabs_pos_eq by nra; ring]. }
    pose proof (sgn1_sq c) as S2. unfold p. set (s := sgn1 c) in *. clearbody sab sac v s. clear - VV S2 SB SC.
    unfold similar2, rot2, m2tr, m2mul. apply m2_eq; nsatz.
  - exists (t, b, c, t), cs, sn. split; [reflexivity|]. split; [assumption|]. split; [assumption|]. right. split; [reflexivity|].
    destruct P as [P|P]; [assumption|]. apply Rmult_integral in P. tauto.
Qed.

(** *** the whole routine *)
Definition nv_range (a b c d : R) : Prop :=
  Rabs a <= bpow radix2 1021 /\ Rabs b <= bpow radix2 1021 /\ Rabs c <= bpow radix2 1021 /\ Rabs d <= bpow radix2 1021.

Lemma range_facts a b c d : nv_range a b c d ->
  Rabs (a - d) <= bpow radix2 1022 /\ Rabs (b + c) <= bpow radix2 1022 /\
  (forall q, 0 <= q -> q * q = 1 / 2 * (a - d) * (1 / 2 * (a - d)) + b * c -> Rabs (1 / 2 * (a - d)) + q <= bpow radix2 1023) /\
  bpow radix2 1021 <= bpow radix2 1022 <= bpow radix2 1023 /\ bpow radix2 1023 <= Rfmax.
Proof.
  intros (A & B & C & D).
  assert (E2 : bpow radix2 1022 = 2 * bpow radix2 1021) by (change 1022%Z with (1 + 1021)%Z; rewrite bpow_plus; reflexivity).
  assert (E3 : bpow radix2 1023 = 4 * bpow radix2 1021) by (change 1023%Z with (2 + 1021)%Z; rewrite bpow_plus; reflexivity).
  assert (E4 : bpow radix2 1024 = 8 * bpow radix2 1021) by (change 1024%Z with (3 + 1021)%Z; rewrite bpow_plus; reflexivity).
  assert (L : bpow radix2 971 <= bpow radix2 1021) by (apply bpow_le; lia).
  pose proof (bpow_gt_0 radix2 1021). set (M := bpow radix2 1021) in *.
  apply Rabs_le_inv in A, B, C, D.
  split; [rewrite E2; apply Rabs_le; lra|]. split; [rewrite E2; apply Rabs_le; lra|]. split; [|unfold Rfmax; lra].
  intros q Hq Q. rewrite E3. set (p := 1 / 2 * (a - d)) in *. assert (P : - M <= p <= M) by (unfold p; lra).
  assert (Rabs p <= M) by (apply Rabs_le; lra). assert (q <= 2 * M) by nra. lra.
Qed.

Lemma nv_main_cases a b c d : nv_range a b c d ->
  (exists y cs sn, nv_is (nv_main (Fin a) (Fin b) (Fin c) (Fin d)) y cs sn /\ cs * cs + sn * sn = 1 /\
     similar2 (a, b, c, d) y cs sn /\ standard2 y) \/
  (nv_is (nv_main (Fin a) (Fin b) (Fin c) (Fin d)) (a, b, c, d) 1 0 /\ b * c < 0 /\ 0 < Rabs (a - d) < bpow radix2 (-52)).
Proof.
  intros R. unfold nv_main. rewrite er_f0, er_f1, !er_eqE, er_subE, er_absE, !er_signumE, er_neE, er_negE.
  case (Req_bool_spec c 0); intros Hc.
  { left. exists (a, b, c, d), 1, 0. split; [reflexivity|]. split; [ring|]. split; [apply similar_id|left; assumption]. }
  case (Req_bool_spec b 0); intros Hb.
  { left. exists (d, - c, 0, a), 0, 1. split; [reflexivity|]. split; [ring|]. split; [|left; reflexivity].
    unfold similar2; cbn. apply m2_eq; subst; ring. }
  rewrite sgn_eq by assumption. unfold fEPS. rewrite er_dy, Rmult_1_l, er_ltE.
  assert (P52 := bpow_gt_0 radix2 (-52)).
  assert (BC : b * c <> 0) by (intros E; apply Rmult_integral in E; tauto).
  destruct (range_facts a b c d R) as (RT & RS & RQ & RO & RF).
  case (Rlt_bool_spec (Rabs (a - d)) _); intros HT; case (Rlt_bool_spec 0 (b * c)); intros HS; cbn [negb andb].
  2:{ destruct (Req_dec a d) as [E|E].
      - left. exists (a, b, c, d), 1, 0. split; [reflexivity|]. split; [ring|]. split; [apply similar_id|right; split; [assumption|lra]].
      - right. split; [reflexivity|]. split; [lra|]. split; [apply Rabs_pos_lt; lra|assumption]. }
  all: left; rewrite er_nv_z, er_f4, er_nv_eps, er_mulE, er_leE by assumption;
    set (p := 1 / 2 * (a - d)); pose proof (scale_pos a b c d Hb) as SP; fold p in SP; set (s := Rmax _ _) in *;
    case Rle_bool_spec; intros HZ.
  1,3,5: assert (PQ : 0 < p * p + b * c) by
      (replace (p * p + b * c) with ((p * p + b * c) / s * s) by (field; lra); apply Rmult_lt_0_compat; lra);
    destruct (nv_real_ok a b c d) as (a' & b' & d' & cs & sn & N & ONE & SIM); [assumption|assumption| | |
      exists (a', b', 0, d'), cs, sn; split; [exact N|]; split; [assumption|]; split; [assumption|left; reflexivity]];
    [destruct R as (_ & _ & R & _); lra|
     apply Rle_trans with (bpow radix2 1023); [apply RQ; [apply sqrt_pos|apply sqrt_sqrt; fold p; lra]|assumption]].
  all: rewrite er_addE;
    assert (NZ : b + c <> 0 \/ a - d <> 0) by
      (destruct (Req_dec (a - d) 0) as [E|E]; [left|right; assumption]; rewrite E, Rabs_R0 in *; nra);
    rewrite nv_loop_id by assumption;
    destruct (nv_equalise_ok a b c d) as (t & b' & c' & cs & sn & -> & ONE & SIM); [assumption|lra|lra|];
    apply nv_offdiag_ok; assumption.
Qed.

Lemma charpoly_similar x y cs sn z : cs * cs + sn * sn = 1 -> similar2 x y cs sn -> charpoly2 x z = charpoly2 y z.
Proof.
  intros ONE. destruct x as [[[a b] c] d], y as [[[a' b'] c'] d'], z as [u v]. unfold similar2, rot2, m2tr, m2mul. intros E.
  injection E as -> -> -> ->. unfold charpoly2, csub, cmul, cre; cbn [fst snd]. f_equal; nsatz.
Qed.

Definition nv_out (a b c d : R) (y : m2) (cs sn : R) (l1 l2 : cplx) : Prop :=
  let '(a', b', c', d') := y in
  dlanv2 (Fin a) (Fin b) (Fin c) (Fin d) =
    mkNv2 (Fin a') (Fin b') (Fin c') (Fin d') (Fin (fst l1)) (Fin (snd l1)) (Fin (fst l2)) (Fin (snd l2)) (Fin cs) (Fin sn).

Lemma nv_out_of a b c d y cs sn : nv_is (nv_main (Fin a) (Fin b) (Fin c) (Fin d)) y cs sn ->
  let '(a', b', c', d') := y in
  nv_out a b c d y cs sn (a', if Req_bool c' 0 then 0 else sqrt (Rabs b') * sqrt (Rabs c'))
                         (d', if Req_bool c' 0 then 0 else - (sqrt (Rabs b') * sqrt (Rabs c'))).
Proof.
  destruct y as [[[a' b'] c'] d']. unfold nv_is, nv_out. intros E. unfold dlanv2. rewrite E, er_f0, er_eqE.
  case Req_bool_spec; intros Hc; cbn [fst snd]; [reflexivity|]. rewrite !er_absE, !er_sqrtE, er_mulE, er_negE by apply Rabs_pos. reflexivity.
Qed.

Lemma eig_standard a b c d : standard2 (a, b, c, d) ->
  eigenvalues2 (a, b, c, d) (a, if Req_bool c 0 then 0 else sqrt (Rabs b) * sqrt (Rabs c))
                            (d, if Req_bool c 0 then 0 else - (sqrt (Rabs b) * sqrt (Rabs c))).
Proof.
  intros S [u v]. unfold charpoly2, csub, cmul, cre; cbn [fst snd]. case Req_bool_spec; intros Hc.
  - rewrite Hc. f_equal; ring.
  - destruct S as [S|[-> S]]; [contradiction|].
    assert (E : (sqrt (Rabs b) * sqrt (Rabs c)) * (sqrt (Rabs b) * sqrt (Rabs c)) = - (b * c)).
    { transitivity ((sqrt (Rabs b) * sqrt (Rabs b)) * (sqrt (Rabs c) * sqrt (Rabs c))); [ring|].
      rewrite !sqrt_sqrt, <- Rabs_mult by apply Rabs_pos. apply Rabs_left. assumption. }
    set (w := sqrt _ * sqrt _) in *. f_equal; [|ring]. rewrite <- (Ropp_involutive (b * c)), <- E. ring.
Qed.

Lemma dlanv2_similarity a b c d : nv_range a b c d -> exists y cs sn l1 l2, nv_out a b c d y cs sn l1 l2 /\
  cs * cs + sn * sn = 1 /\ (a, b, c, d) = m2mul (m2mul (rot2 cs sn) y) (m2tr (rot2 cs sn)).
Proof.
  intros R. destruct (nv_main_cases a b c d R) as [(y & cs & sn & N & ONE & SIM & _)|(N & _)]; apply nv_out_of in N.
  - destruct y as [[[a' b'] c'] d']. do 5 eexists. split; [exact N|]. split; assumption.
  - do 5 eexists. split; [exact N|]. split; [ring|apply similar_id].
Qed.

Lemma dlanv2_schur a b c d : nv_range a b c d -> a = d \/ bpow radix2 (-52) <= Rabs (a - d) \/ 0 <= b * c ->
  exists y cs sn l1 l2, nv_out a b c d y cs sn l1 l2 /\ standard2 y /\ eigenvalues2 (a, b, c, d) l1 l2 /\
    snd l2 = - snd l1 /\ (snd l1 = 0 \/ fst l1 = fst l2).
Proof.
  intros R H. destruct (nv_main_cases a b c d R) as [(y & cs & sn & N & ONE & SIM & ST)|(N & B & L1 & L2)]; apply nv_out_of in N.
  - destruct y as [[[a' b'] c'] d']. do 5 eexists. split; [exact N|]. split; [exact ST|]. split.
    + intros z. rewrite (charpoly_similar _ _ _ _ z ONE SIM). apply (eig_standard a' b' c' d' ST).
    + cbn [fst snd]. destruct ST as [->|[-> ST]].
      * rewrite Req_bool_true by reflexivity. split; [ring|left; reflexivity].
      * case Req_bool_spec; intros; (split; [ring|]); right; reflexivity.
  - exfalso. destruct H as [->|[H|H]]; [|lra|lra]. unfold Rminus in L1. rewrite Rplus_opp_r, Rabs_R0 in L1. lra.
Qed.

(** in the remaining region the result is never a Schur form and the eigenvalues are always wrong *)
Lemma dlanv2_wrong a b c d : nv_range a b c d -> a <> d -> Rabs (a - d) < bpow radix2 (-52) -> b * c < 0 ->
  exists l1 l2, nv_out a b c d (a, b, c, d) 1 0 l1 l2 /\ ~ standard2 (a, b, c, d) /\ ~ eigenvalues2 (a, b, c, d) l1 l2.
Proof.
  intros R N L B. assert (Hc : c <> 0) by (intros ->; lra). assert (Hb : b <> 0) by (intros ->; lra).
  assert (M : nv_is (nv_main (Fin a) (Fin b) (Fin c) (Fin d)) (a, b, c, d) 1 0).
  { unfold nv_main. rewrite er_f0, er_f1, !er_eqE, er_subE, er_absE, !er_signumE, er_neE.
    rewrite !Req_bool_false by assumption. fold (Req_bool (sgn1 b) (sgn1 c)). unfold fEPS. rewrite er_dy, Rmult_1_l, er_ltE, Rlt_bool_true by assumption.
    rewrite Req_bool_false.
    - reflexivity.
    - intros E. pose proof (sgn_eq b c Hb Hc) as S. rewrite E, Req_bool_true in S by reflexivity. symmetry in S.
      revert S. case Rlt_bool_spec; intros; [lra|discriminate]. }
  apply nv_out_of in M. do 2 eexists. split; [exact M|]. split.
  - intros [S|[S _]]; contradiction.
  - rewrite Req_bool_false by assumption. intros E. specialize (E (0, 0)). unfold charpoly2, csub, cmul, cre in E; cbn [fst snd] in E.
    injection E as _ E. set (w := sqrt _ * sqrt _) in E.
    assert (W : 0 < w) by (apply Rmult_lt_0_compat; apply sqrt_lt_R0, Rabs_pos_lt; assumption).
    assert (w * (a - d) = 0) by lra. apply Rmult_integral in H. destruct H; lra.
Qed.

(** *** every number type *)
Section Generic.
  Context {F : Type} {NF : Num F}.
  Lemma dlanv2_upper (a b c d : F) : feq c f0 = true -> dlanv2 a b c d = mkNv2 a b c d a f0 d f0 f1 f0.
  Proof. intros H. unfold dlanv2, nv_main. rewrite H, H. reflexivity. Qed.
  Lemma dlanv2_lower (a b c d : F) : feq (f0 : F) f0 = true -> feq c f0 = false -> feq b f0 = true ->
    dlanv2 a b c d = mkNv2 d (- c)%num f0 a d f0 a f0 f0 f1.
  Proof. intros Z C B. unfold dlanv2, nv_main. rewrite C, B, Z. reflexivity. Qed.
  Lemma dlanv2_early (a b c d : F) : feq c f0 = false -> feq b f0 = false -> flt (fabs (a - d)%num) fEPS = true ->
    feq (fsignum b) (fsignum c) = false ->
    dlanv2 a b c d = mkNv2 a b c d a (fsqrt (fabs b) * fsqrt (fabs c))%num d (- (fsqrt (fabs b) * fsqrt (fabs c)))%num f1 f0.
  Proof. intros C B E S. unfold dlanv2, nv_main. rewrite C, B, E. unfold fne. rewrite S. cbn [negb andb]. rewrite C. reflexivity. Qed.
  (** the two reported eigenvalues are real, or have opposite imaginary parts *)
  Lemma dlanv2_reports (a b c d : F) : let r := dlanv2 a b c d in
    nrt1r r = nA r /\ nrt2r r = nD r /\
    ((feq (nC r) f0 = true /\ nrt1i r = f0 /\ nrt2i r = f0) \/ (feq (nC r) f0 = false /\ nrt2i r = (- nrt1i r)%num)).
  Proof.
    unfold dlanv2. destruct (nv_main a b c d) as [[[[[a' b'] c'] d'] cs] sn]. destruct (feq c' f0) eqn:E; cbv zeta; cbn; rewrite E; auto 6.
  Qed.
End Generic.

Lemma dlanv2_wrong_witness : exists a b c d l1 l2,
  dlanv2 (Fin a) (Fin b) (Fin c) (Fin d) =
    mkNv2 (Fin a) (Fin b) (Fin c) (Fin d) (Fin (fst l1)) (Fin (snd l1)) (Fin (fst l2)) (Fin (snd l2)) (Fin 1) (Fin 0) /\
  c <> 0 /\ a <> d /\ ~ eigenvalues2 (a, b, c, d) l1 l2 /\ eigenvalues2 (a, b, c, d) (sqrt (a * a + b * c), 0) (- sqrt (a * a + b * c), 0).
Proof.
  pose proof (bpow_gt_0 radix2 (-70)) as P. set (e := bpow radix2 (-70)) in *.
  assert (E1 : bpow radix2 (-52) = 262144 * e) by (change (-52)%Z with (18 + -70)%Z; rewrite bpow_plus; reflexivity).
  assert (L : e <= bpow radix2 (-40)) by (apply bpow_le; lia).
  assert (R : 1024 * e <= bpow radix2 1021).
  { replace (1024 * e) with (bpow radix2 (-60)) by (change (-60)%Z with (10 + -70)%Z; rewrite bpow_plus; reflexivity). apply bpow_le. lia. }
  destruct (dlanv2_wrong (1024 * e) e (- e) (- (1024 * e))) as (l1 & l2 & O & _ & W).
  - repeat split; apply Rabs_le; lra.
  - lra.
  - rewrite E1, Rabs_pos_eq by lra. lra.
  - nra.
  - exists (1024 * e), e, (- e), (- (1024 * e)), l1, l2. split; [exact O|]. split; [lra|]. split; [lra|]. split; [exact W|].
    set (q := 1024 * e * (1024 * e) + e * - e). assert (Q : 0 <= q) by (unfold q; nra). pose proof (sqrt_sqrt q Q) as S.
    intros [u v]. unfold charpoly2, csub, cmul, cre; cbn [fst snd].
    f_equal; [|ring]. transitivity (u * u - v * v - q); [unfold q; ring|]. set (r := sqrt q) in *. rewrite <- S. ring.
Qed.

Lemma dlanv2_wrong_b64 lm :
  let r := @dlanv2 b64 (B64 lm) (b64_dy 1 (-60)) (b64_dy 1 (-70)) (b64_dy (-1) (-70)) (b64_dy (-1) (-60)) in
  B2R (nA r) = bpow radix2 (-60) /\ B2R (nD r) = - bpow radix2 (-60) /\
  B2R (nC r) = - bpow radix2 (-70) /\ B2R (nB r) = bpow radix2 (-70) /\ B2R (nrt1i r) = bpow radix2 (-70).
Proof.
  assert (P : forall e, @F2R radix2 (Float radix2 4503599627370496 e) = bpow radix2 (52 + e)) by (intros e; apply (F2R_pow2 _ _ 52); [reflexivity|lia]).
  assert (N : forall e, @F2R radix2 (Float radix2 (-4503599627370496) e) = - bpow radix2 (52 + e)) by (intros e; rewrite <- P; unfold F2R; cbn [Fnum Fexp]; change (-4503599627370496)%Z with (- (4503599627370496))%Z; rewrite opp_IZR; ring).
  rewrite (@dlanv2_early b64 (B64 lm)) by (vm_compute; reflexivity). cbn [nA nB nC nD nrt1i].
  repeat apply conj.
  - rewrite (B2R_of_SF _ (SpecFloat.S754_finite false 4503599627370496 (-112))) by (vm_compute; reflexivity). apply P.
  - rewrite (B2R_of_SF _ (SpecFloat.S754_finite true 4503599627370496 (-112))) by (vm_compute; reflexivity). apply N.
  - rewrite (B2R_of_SF _ (SpecFloat.S754_finite true 4503599627370496 (-122))) by (vm_compute; reflexivity). apply N.
  - rewrite (B2R_of_SF _ (SpecFloat.S754_finite false 4503599627370496 (-122))) by (vm_compute; reflexivity). apply P.
  - rewrite (B2R_of_SF _ (SpecFloat.S754_finite false 4503599627370496 (-122))) by (vm_compute; reflexivity). apply P.
Qed.
