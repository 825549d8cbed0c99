(** dlahqr's shifts, starting row and reflectors over exact reals. *)
From Flocq Require Import Core.
From Coq Require Import Reals Lra.
From Verif Require Import Base Num Array Blas Lapack Dlahqr Spec ER SpecR SpecSim Lists FaLemmas RsumLemmas Nrm2Proofs B64 Nrm2F64 Blas1Proofs LarfgProofs
  LahqrProofs LahqrNum RealMat SimArray SimReflect HqReal HqArray.
Open Scope R_scope.

Definition v_is (v : fa er) (x1 x2 x3 : R) : Prop := data v = [Fin x1; Fin x2; Fin x3] /\ three v.

Lemma v_get v x1 x2 x3 : v_is v x1 x2 x3 -> get1 v 1 = Fin x1 /\ get1 v 2 = Fin x2 /\ get1 v 3 = Fin x3.
Proof. intros [E _]. unfold get1. rewrite E. repeat split; reflexivity. Qed.
Lemma v_set v x1 x2 x3 y : v_is v x1 x2 x3 -> v_is (set1 v 1 (Fin y)) y x2 x3 /\ v_is (set1 v 2 (Fin y)) x1 y x3 /\ v_is (set1 v 3 (Fin y)) x1 x2 y.
Proof.
  intros [E T]. unfold v_is. repeat split; try (unfold set1, mod1; rewrite E; reflexivity); try (eapply three_shape; [apply set1_shape|exact T]).
Qed.
Lemma v_of v : three v -> (forall p, (1 <= p <= 3)%Z -> exists x, elem v p = Some (Fin x)) -> exists x1 x2 x3, v_is v x1 x2 x3.
Proof.
  intros T H. destruct (H 1%Z ltac:(lia)) as (x1 & E1). destruct (H 2%Z ltac:(lia)) as (x2 & E2). destruct (H 3%Z ltac:(lia)) as (x3 & E3).
  exists x1, x2, x3. split; [|exact T]. destruct T as [C _]. rewrite count_zlen in C. unfold elem in *. unfold zlen in C.
  destruct (data v) as [|a [|b [|c [|]]]]; cbn in C; try lia. compute in E1, E2, E3. congruence.
Qed.

(** what is known of the reflector beyond [kills] *)
Lemma kills_facts a x2 x3 beta t v2 v3 : kills a x2 x3 beta t v2 v3 ->
  a * a + x2 * x2 + x3 * x3 = beta * beta /\ beta * beta * (t * t * (v2 * v2 + v3 * v3)) = x2 * x2 + x3 * x3.
Proof.
  intros (H & E1 & E2 & E3). unfold house in H.
  set (s := a + v2 * x2 + v3 * x3) in *.
  assert (X2 : x2 = s * t * v2) by (rewrite Rmult_assoc; lra). assert (X3 : x3 = s * t * v3) by (rewrite Rmult_assoc; lra).
  assert (D : t = 0 \/ t * (1 + v2 * v2 + v3 * v3) = 2).
  { destruct (Req_dec t 0) as [|N]; [left; assumption|right]. apply Rmult_eq_reg_l with t; [|exact N]. lra. }
  destruct D as [T|T].
  - subst t. rewrite Rmult_0_r, Rmult_0_l in X2, X3. rewrite X2, X3. replace a with beta by lra. split; ring.
  - assert (S : s = a + s * (2 - t)).
    { unfold s at 1. rewrite X2, X3. replace (2 - t) with (t * (v2 * v2 + v3 * v3)) by lra. ring. }
    assert (A : a = s * (t - 1)) by lra.
    assert (B : beta = - s) by lra.
    assert (Q : x2 * x2 + x3 * x3 = s * s * (t * (2 - t))).
    { rewrite X2, X3. replace (2 - t) with (t * (v2 * v2 + v3 * v3)) by lra. ring. }
    split.
    + transitivity (a * a + (x2 * x2 + x3 * x3)); [ring|]. rewrite Q, A, B. ring.
    + rewrite Q, B. replace (2 - t) with (t * (v2 * v2 + v3 * v3)) by lra. ring.
Qed.

Lemma larfg_fa3 (x : fa er) a x2 x3 : data x = [Fin x2; Fin x3] -> Rabs a <= 2 ^ 505 -> Rabs x2 <= 2 ^ 505 -> Rabs x3 <= 2 ^ 505 ->
  exists beta x' tau v2 v3, dlarfg 3 (Fin a) x 1 = Ok (Fin beta, x', Fin tau) /\ same_shape x' x /\ data x' = [Fin v2; Fin v3] /\ kills a x2 x3 beta tau v2 v3.
Proof.
  intros D Ba B2 B3.
  assert (V : vec_is (to_fa x) 2 1 (fun t => if (t =? 0)%Z then x2 else x3)).
  { intros t Ht. unfold elem. cbn [to_fa ToFA_fa]. rewrite D. assert (t = 0 \/ t = 1)%Z as [-> | ->] by lia; reflexivity. }
  destruct (dlarfg_shape 3 (Fin a) x 1) as (be & y & ta & E0 & Sh).
  assert (P : x2 * x2 + x3 * x3 = 0 \/ 0 < x2 * x2 + x3 * x3) by (assert (0 <= x2 * x2 + x3 * x3) by nra; lra).
  destruct P as [Z|P].
  - assert (x2 = 0 /\ x3 = 0) as [-> ->] by (split; nra).
    exists a, x, 0, 0, 0. rewrite (dlarfg_zero_exact (fa er) _ _ 3 (Fin a) x 1).
    + split; [reflexivity|]. split; [apply same_shape_refl|]. split; [exact D|]. split; [apply house_zero|]. cbv zeta. repeat split; ring.
    + intros t Ht. refine (eq_trans (V t Ht) _). destruct (t =? 0)%Z; reflexivity.
  - assert (EF : sum_sq (3 - 1) (fun t => if (t =? 0)%Z then x2 else x3) = x2 * x2 + x3 * x3) by (change (3 - 1)%Z with 2%Z; rewrite sum_sq_2; reflexivity).
    destruct (dlarfg_exact flat_fa 3 a x 1 (fun t => if (t =? 0)%Z then x2 else x3)) as (x' & E & V' & C & _).
    + lia.
    + lia.
    + exact V.
    + pose proof big_ok. lra.
    + intros t Ht. destruct (t =? 0)%Z; assumption.
    + rewrite EF. exact P.
    + rewrite EF in E, V'. destruct (kills_values a x2 x3 P) as (K & T & AB). set (beta := betaR a (x2 * x2 + x3 * x3)) in *.
      exists beta, x', ((beta - a) / beta), (x2 / (a - beta)), (x3 / (a - beta)). split; [exact E|].
      assert (x' = y) as <- by congruence. split; [exact Sh|]. split; [|exact K].
      pose proof (V' 0%Z ltac:(lia)) as W0. pose proof (V' 1%Z ltac:(lia)) as W1. unfold elem in W0, W1. cbn [to_fa ToFA_fa] in W0, W1.
      destruct Sh as (_ & _ & CC). unfold count in CC. rewrite D in CC. cbn in CC.
      destruct (data x') as [|p [|q [|]]]; cbn in CC; try lia. change (Some p = Some (Fin (x2 / (a - beta)))) in W0. change (Some q = Some (Fin (x3 / (a - beta)))) in W1. congruence.
Qed.
Lemma larfg_fa2 (x : fa er) a x2 x3 : data x = [Fin x2; Fin x3] -> Rabs a <= 2 ^ 505 -> Rabs x2 <= 2 ^ 505 ->
  exists beta x' tau v2 v3, dlarfg 2 (Fin a) x 1 = Ok (Fin beta, x', Fin tau) /\ same_shape x' x /\ data x' = [Fin v2; Fin v3] /\ kills a x2 0 beta tau v2 0.
Proof.
  intros D Ba B2.
  assert (V : vec_is (to_fa x) 1 1 (fun t => x2)).
  { intros t Ht. unfold elem. cbn [to_fa ToFA_fa]. rewrite D. assert (t = 0)%Z as -> by lia; reflexivity. }
  destruct (dlarfg_shape 2 (Fin a) x 1) as (be & y & ta & E0 & Sh).
  destruct (Req_dec x2 0) as [->|P].
  - exists a, x, 0, 0, x3. rewrite (dlarfg_zero_exact (fa er) _ _ 2 (Fin a) x 1).
    + split; [reflexivity|]. split; [apply same_shape_refl|]. split; [exact D|]. split; [apply house_zero|]. cbv zeta. repeat split; ring.
    + exact V.
  - assert (P' : 0 < x2 * x2 + 0 * 0) by nra.
    assert (EF : sum_sq (2 - 1) (fun t => x2) = x2 * x2 + 0 * 0) by (change (2 - 1)%Z with 1%Z; rewrite sum_sq_1; ring).
    destruct (dlarfg_exact flat_fa 2 a x 1 (fun t => x2)) as (x' & E & V' & C & U).
    + lia.
    + lia.
    + exact V.
    + pose proof big_ok. lra.
    + intros t Ht. assumption.
    + rewrite EF. exact P'.
    + rewrite EF in E, V'. destruct (kills_values a x2 0 P') as (K & T & AB). set (beta := betaR a (x2 * x2 + 0 * 0)) in *.
      exists beta, x', ((beta - a) / beta), (x2 / (a - beta)), x3. split; [exact E|].
      assert (x' = y) as <- by congruence. split; [exact Sh|].
      replace (0 / (a - beta)) with 0 in K by (field; assumption). split; [|exact K].
      pose proof (V' 0%Z ltac:(lia)) as W0. assert (W1 : elem (to_fa x') 2 = elem (to_fa x) 2).
      { apply U. intros t Ht. unfold stride. assert (t = 0)%Z as -> by lia. cbn. lia. }
      unfold elem in W0, W1. cbn [to_fa ToFA_fa] in W0, W1. rewrite D in W1.
      destruct Sh as (_ & _ & CC). unfold count in CC. rewrite D in CC. cbn in CC.
      destruct (data x') as [|p [|q [|]]]; cbn in CC; try lia. change (Some p = Some (Fin (x2 / (a - beta)))) in W0. change (Some q = Some (Fin x3)) in W1. congruence.
Qed.

(** the last entry of a vector counts only when the reflector has order 3 *)
Definition third (i k : Z) (x : R) : R := if (k + 2 <=? i)%Z then x else 0.

Section Reflector.
  Context (n : Z) (h : fa er) (M : Z -> Z -> R).
  Hypothesis (FH : full h) (HM : mat_is h n n M) (Hr : (n <= rows h)%Z).

  Lemma from2_col k : (1 <= k)%Z -> exists t, from2 h k (k - 1) = Ok t /\ forall p, (0 <= p)%Z -> (2 <= k)%Z -> (k + p <= n)%Z -> zget t p = Some (Fin (M (k + p) (k - 1)%Z)).
  Proof.
    intros Hk. destruct (Z.le_gt_cases 2 k) as [K|K]; [destruct (Z.le_gt_cases k n) as [K2|K2]|].
    - destruct (from1_ok h (pos (rows h) k (k - 1)) FH) as (t & E & L). exists t. split; [exact E|].
      assert (EL : forall p, (0 <= p)%Z -> (k + p <= n)%Z -> elem h (pos (rows h) k (k - 1) + p) = Some (Fin (M (k + p)%Z (k - 1)%Z))).
      { intros p Hp Hpn. rewrite <- (HM (k + p)%Z (k - 1)%Z) by lia. unfold ent. f_equal. unfold pos. lia. }
      intros p Hp _ Hpn. destruct L as [_ L].
      + unfold pos. nia.
      + pose proof (EL 0%Z ltac:(lia) ltac:(lia)) as E0. unfold full in FH. rewrite FH.
        pose proof (proj1 (elem_Some h _) (ex_intro _ _ E0)). lia.
      + rewrite L by lia. apply EL; assumption.
    - destruct (from2_ok h k (k - 1) FH) as (t & E & _). exists t. split; [exact E|]. lia.
    - destruct (from2_ok h k (k - 1) FH) as (t & E & _). exists t. split; [exact E|]. lia.
  Qed.

  Lemma hq_copy v w1 w2 w3 k i : v_is v w1 w2 w3 -> (2 <= k)%Z -> (k + 1 <= i <= n)%Z ->
    exists v', (t <- from2 h k (k - 1) ;; dcopy (Z.min 3 (i - k + 1)) t 1 v 1) = Ok v' /\
      v_is v' (M k (k - 1)%Z) (M (k + 1)%Z (k - 1)%Z) (if (k + 2 <=? i)%Z then M (k + 2)%Z (k - 1)%Z else w3).
  Proof.
    intros [D T] Hk Hi. destruct (from2_col k) as (t & -> & L); [lia|]. cbn [bind].
    destruct (dcopy_spec (Z.min 3 (i - k + 1)) t 1 v 1) as (d & -> & (Sh & U1 & U2)); [lia|].
    destruct (Z.leb_spec (Z.min 3 (i - k + 1)) 0); [lia|]. exists d. split; [reflexivity|]. split; [|eapply three_shape; eassumption].
    rewrite Z.max_r in U1, U2 by lia. set (nr := Z.min 3 (i - k + 1)) in *.
    assert (EV : forall p, elem v p = elem (mkFA [Fin w1; Fin w2; Fin w3] 0 0 (Fin 0)) p) by (intros; apply elem_data; exact D).
    assert (ST : forall t, stride nr 1 t = (t + 1)%Z) by (intros; rewrite stride_pos by lia; lia).
    assert (G : forall p, (0 <= p < nr)%Z -> elem d (p + 1) = Some (Fin (M (k + p)%Z (k - 1)%Z))).
    { intros p Hp. specialize (U1 p Hp). cbn [to_fa ToFA_fa] in U1. rewrite !ST in U1.
      rewrite EV in U1. assert (EX : exists y, elem (mkFA [Fin w1; Fin w2; Fin w3] 0 0 (Fin 0)) (p + 1) = Some y).
      { assert (p = 0 \/ p = 1 \/ p = 2)%Z as [-> | [-> | ->]] by lia; eexists; reflexivity. }
      destruct EX as (y & EX). rewrite EX in U1. cbn in U1. rewrite U1. f_equal. rewrite get1_elem, elem_zget. cbn [to_fa ToFA_vec data fa_of_vec].
      replace (p + 1 - 1)%Z with p by lia. rewrite L by lia. reflexivity. }
    pose proof (G 0%Z ltac:(lia)) as G0. pose proof (G 1%Z ltac:(lia)) as G1.
    assert (G2 : elem d 3 = Some (Fin (if (k + 2 <=? i)%Z then M (k + 2)%Z (k - 1)%Z else w3))).
    { destruct (Z.leb_spec (k + 2) i); [apply (G 2%Z); lia|]. rewrite U2; [cbn [to_fa ToFA_fa]; rewrite EV; reflexivity|].
      intros t0 Ht. rewrite ST. lia. }
    destruct Sh as (_ & _ & CC). cbn [to_fa ToFA_fa] in CC. unfold count in CC. rewrite D in CC. cbn in CC. rewrite Z.add_0_r in G0. unfold elem in G0, G1, G2.
    destruct (data d) as [|p [|q [|r [|]]]]; cbn in CC; try lia.
    change (Some p = Some (Fin (M k (k - 1)%Z))) in G0. change (Some q = Some (Fin (M (k + 1)%Z (k - 1)%Z))) in G1.
    change (Some r = Some (Fin (if (k + 2 <=? i)%Z then M (k + 2)%Z (k - 1)%Z else w3))) in G2. congruence.
  Qed.

  Lemma hq_reflector_is v t1 w1 w2 w3 m k i : v_is v w1 w2 w3 -> (1 <= m <= k)%Z -> (k + 1 <= i <= n)%Z ->
    (forall a, (m < k)%Z -> (k <= a <= i)%Z -> Rabs (M a (k - 1)%Z) <= 2 ^ 505) ->
    ((k <= m)%Z -> Rabs w1 <= 2 ^ 505 /\ Rabs w2 <= 2 ^ 505 /\ Rabs w3 <= 2 ^ 505) ->
    let a := if (m <? k)%Z then M k (k - 1)%Z else w1 in
    let x2 := if (m <? k)%Z then M (k + 1)%Z (k - 1)%Z else w2 in
    let x3 := if (m <? k)%Z then M (k + 2)%Z (k - 1)%Z else w3 in
    exists v' beta tau v2 v3, hq_reflector h v t1 m i k = Ok (v', Fin tau) /\ v_is v' beta v2 v3 /\
      kills a x2 (third i k x3) beta tau v2 (third i k v3).
  Proof.
    intros V Hm Hi HB HW a x2 x3. unfold hq_reflector.
    assert (E1 : exists v1 y3, (if (m <? k)%Z then t <- from2 h k (k - 1);; dcopy (Z.min 3 (i - k + 1)) t 1 v 1 else Ok v) = Ok v1 /\
      v_is v1 a x2 y3 /\ third i k y3 = third i k x3).
    { unfold a, x2, x3. destruct (Z.ltb_spec m k).
      - destruct (hq_copy v w1 w2 w3 k i V) as (v1 & -> & V1); [lia|lia|]. do 2 eexists. split; [reflexivity|]. split; [exact V1|].
        unfold third. destruct (k + 2 <=? i)%Z; reflexivity.
      - do 2 eexists. split; [reflexivity|]. split; [exact V|reflexivity]. }
    destruct E1 as (v1 & y3 & -> & V1 & T3). cbn [bind]. pose proof V1 as [D1 [C1 L1]].
    assert (E2 : from1 v1 2 = Ok [Fin x2; Fin y3]).
    { unfold from1, slice_from. destruct (Z.leb_spec 2 (fa_len v1)); [|lia]. change ((1 <=? 2) && true) with true.
      cbn [andb]. rewrite D1. reflexivity. }
    rewrite E2. cbn [bind]. destruct (v_get _ _ _ _ V1) as (G1 & _ & _). rewrite G1.
    assert (BA : Rabs a <= 2 ^ 505) by (unfold a; destruct (Z.ltb_spec m k); [apply HB; lia|apply HW; lia]).
    assert (BX : Rabs x2 <= 2 ^ 505) by (unfold x2; destruct (Z.ltb_spec m k); [apply HB; lia|apply HW; lia]).
    assert (R : exists beta x' tau v2 v3, dlarfg (Z.min 3 (i - k + 1)) (Fin a) (to_fa [Fin x2; Fin y3]) 1 = Ok (Fin beta, x', Fin tau) /\
       same_shape x' (to_fa [Fin x2; Fin y3]) /\ data x' = [Fin v2; Fin v3] /\ kills a x2 (third i k x3) beta tau v2 (third i k v3)).
    { unfold third in *. destruct (Z.leb_spec (k + 2) i) as [K|K].
      - rewrite Z.min_l by lia. subst y3. apply larfg_fa3; [reflexivity|exact BA|exact BX|].
        unfold x3. destruct (Z.ltb_spec m k); [apply HB; lia|apply HW; lia].
      - replace (Z.min 3 (i - k + 1)) with 2%Z by lia. apply larfg_fa2 with (x3 := y3); [reflexivity|exact BA|exact BX]. }
    destruct R as (beta & x' & tau & v2 & v3 & -> & (R & C & N) & D' & K). cbn [bind].
    unfold fa_insert. assert (L : fa_len x' = 2%Z) by (unfold fa_len, fa_is_2d; rewrite R, C; reflexivity). rewrite L.
    change ((1 <=? 1) && (1 <? 2))%Z with true. cbv iota. destruct (Z.ltb_spec (zlen (data x')) (1 - 1)); [pose proof (zlen_nonneg (data x')); lia|].
    cbn [bind]. exists (mkFA (firstn (Z.to_nat (1 - 1)) (data x') ++ Fin beta :: skipn (Z.to_nat (1 - 1)) (data x')) (rows x') (cols x') (dflt x')), beta, tau, v2, v3.
    split; [reflexivity|]. split; [|exact K]. split; [rewrite D'; reflexivity|]. split.
    - unfold count. cbn [data]. rewrite D'. reflexivity.
    - unfold fa_len, fa_is_2d in *. cbn [rows cols] in *. lia.
  Qed.

  Ltac fin := rewrite ?er_f0, ?er_f2, ?er_addE, ?er_subE, ?er_mulE, ?er_absE, ?er_negE.
  Lemma hq_block_fin l i kd : (1 <= l)%Z -> (l + 2 <= i <= n)%Z -> exists a b c d, hq_block h l i kd = (Fin a, Fin b, Fin c, Fin d).
  Proof.
    intros Hl Hi. unfold hq_block. rewrite !(mat_get n h M) by (assumption || lia).
    rewrite !er_fofZ, er_divE by (apply IZR_neq; lia). change (fdy (-7) (-4) : er) with (Fin (IZR (-7) * powerRZ 2 (-4))).
    destruct (Z.rem kd 20 =? 0)%Z; [repeat fin; do 4 eexists; reflexivity|].
    destruct (Z.rem kd 10 =? 0)%Z; repeat fin; do 4 eexists; reflexivity.
  Qed.
  Lemma hq_shifts_fin a b c d : exists r1 r2 r3 r4, hq_shifts (Fin a, Fin b, Fin c, Fin d) = (Fin r1, Fin r2, Fin r3, Fin r4).
  Proof.
    unfold hq_shifts. cbv zeta. rewrite er_f0, er_f2. fin. fin. fin. rewrite er_eqE. destruct (Req_bool_spec (Rabs a + Rabs c + Rabs b + Rabs d) 0) as [|NZ]; [do 4 eexists; reflexivity|].
    rewrite !er_divE by assumption. fin. rewrite er_divE by lra. repeat fin. rewrite er_sqrtE by apply Rabs_pos. repeat fin.
    match goal with |- context [if ?c then _ else _] => destruct c end; [do 4 eexists; reflexivity|]. match goal with |- context [if ?c then _ else _] => destruct c end; repeat fin; do 4 eexists; reflexivity.
  Qed.

  Lemma hq_firstcol_is r1 r2 r3 r4 m v x1 x2 x3 : v_is v x1 x2 x3 -> (1 <= m)%Z -> (m + 2 <= n)%Z -> M (m + 1)%Z m <> 0 -> M (m + 2)%Z (m + 1)%Z <> 0 ->
    exists w1 w2 w3, v_is (hq_firstcol h (Fin r1, Fin r2, Fin r3, Fin r4) m v) w1 w2 w3 /\ Rabs w1 + Rabs w2 + Rabs w3 = 1.
  Proof.
    intros V Hm Hn N1 N2. unfold hq_firstcol. cbv zeta. rewrite !(mat_get n h M) by (assumption || lia). repeat fin.
    set (s := Rabs (M m m - r3) + Rabs r4 + Rabs (M (m + 1)%Z m)).
    assert (S0 : s <> 0) by (pose proof (Rabs_pos (M m m - r3)); pose proof (Rabs_pos r4); pose proof (Rabs_pos_lt _ N1); unfold s; lra).
    rewrite !er_divE by assumption. repeat fin.
    match goal with |- context [set1 v 1 (Fin ?a)] => set (y1 := a) end. 
    match goal with |- context [set1 (set1 v 1 (Fin y1)) 2 (Fin ?a)] => set (y2 := a) end. 
    match goal with |- context [set1 (set1 (set1 v 1 (Fin y1)) 2 (Fin y2)) 3 (Fin ?a)] => set (y3 := a) end.
    assert (Y3 : y3 <> 0).
    { unfold y3. apply Rmult_integral_contrapositive_currified; [|exact N2]. apply Rmult_integral_contrapositive_currified; [exact N1|]. apply Rinv_neq_0_compat. exact S0. }
    assert (V3 : v_is (set1 (set1 (set1 v 1 (Fin y1)) 2 (Fin y2)) 3 (Fin y3)) y1 y2 y3).
    { apply (v_set _ y1 y2 x3). apply (v_set _ y1 x2 x3). apply (v_set _ x1 x2 x3). exact V. }
    set (u := set1 (set1 (set1 v 1 (Fin y1)) 2 (Fin y2)) 3 (Fin y3)) in *. 
    destruct (v_get _ _ _ _ V3) as (G1 & G2 & G3). rewrite G1, G2, G3. repeat fin. set (q := Rabs y1 + Rabs y2 + Rabs y3).
    assert (Q : 0 < q) by (pose proof (Rabs_pos y1); pose proof (Rabs_pos y2); pose proof (Rabs_pos_lt _ Y3); unfold q; lra).
    rewrite !er_divE by lra.
    assert (V4 := proj1 (v_set _ _ _ _ (y1 / q) V3)). destruct (v_get _ _ _ _ V4) as (_ & G2' & _). rewrite G2'. rewrite er_divE by lra.
    assert (V5 := proj1 (proj2 (v_set _ _ _ _ (y2 / q) V4))). destruct (v_get _ _ _ _ V5) as (_ & _ & G3'). rewrite G3'. rewrite er_divE by lra.
    exists (y1 / q), (y2 / q), (y3 / q). split; [apply (v_set _ _ _ y3); exact V5|].
    unfold Rdiv. rewrite !Rabs_mult, (Rabs_pos_eq (/ q)) by (apply Rlt_le, Rinv_0_lt_compat; exact Q).
    transitivity (q * / q); [unfold q at 4; ring|]. apply Rinv_r. lra.
  Qed.

  (** the row where the sweep starts *)
  Lemma hq_start_is N r1 r2 r3 r4 l i m0 v0 x1 x2 x3 : v_is v0 x1 x2 x3 -> (1 <= l)%Z -> (l + 2 <= i <= n)%Z ->
    (forall a, (l < a <= i)%Z -> M a (a - 1)%Z <> 0) -> (forall a, (l <= a <= i)%Z -> Rabs (M a a) <= N) ->
    exists m v w1 w2 w3, hq_start h (Fin r1, Fin r2, Fin r3, Fin r4) l i m0 v0 = (m, v) /\ (l <= m <= i - 2)%Z /\ v_is v w1 w2 w3 /\
      Rabs w1 + Rabs w2 + Rabs w3 = 1 /\
      (m = l \/ Rabs (M m (m - 1)%Z) * (Rabs w2 + Rabs w3) <= bpow radix2 (-52) * Rabs w1 * (3 * N)).
  Proof.
    intros V Hl Hi NZ HN. unfold hq_start.
    set (body := fun (cm : Z) (st : Z * fa er) => _).
    assert (G : forall d cur m v y1 y2 y3, v_is v y1 y2 y3 -> (cur = l + Z.of_nat d)%Z -> (cur <= i - 2)%Z ->
      exists m' v' w1 w2 w3, for_brk (range_rev l cur) (m, v) body = (m', v') /\ (l <= m' <= i - 2)%Z /\ v_is v' w1 w2 w3 /\
      Rabs w1 + Rabs w2 + Rabs w3 = 1 /\ (m' = l \/ Rabs (M m' (m' - 1)%Z) * (Rabs w2 + Rabs w3) <= bpow radix2 (-52) * Rabs w1 * (3 * N))).
    { induction d as [|d IH]; intros cur m v y1 y2 y3 VV Ec Hc.
      - rewrite range_rev_cons by lia. cbn [for_brk]. unfold body at 1.
        destruct (hq_firstcol_is r1 r2 r3 r4 cur v y1 y2 y3 VV) as (w1 & w2 & w3 & W & SW); [lia|lia| | |].
        { replace cur with (cur + 1 - 1)%Z at 2 by lia. apply NZ. lia. }
        { replace (cur + 1)%Z with (cur + 2 - 1)%Z by lia. apply NZ. lia. }
        replace (cur =? l)%Z with true by (symmetry; apply Z.eqb_eq; lia).
        exists cur. do 4 eexists. split; [reflexivity|]. split; [lia|]. split; [exact W|]. split; [exact SW|left; lia].
      - rewrite range_rev_cons by lia. cbn [for_brk]. unfold body at 1.
        destruct (hq_firstcol_is r1 r2 r3 r4 cur v y1 y2 y3 VV) as (w1 & w2 & w3 & W & SW); [lia|lia| | |].
        { replace cur with (cur + 1 - 1)%Z at 2 by lia. apply NZ. lia. }
        { replace (cur + 1)%Z with (cur + 2 - 1)%Z by lia. apply NZ. lia. }
        replace (cur =? l)%Z with false by (symmetry; apply Z.eqb_neq; lia).
        destruct (hq_can_start h _ cur) eqn:CS.
        + exists cur. do 4 eexists. split; [reflexivity|]. split; [lia|]. split; [exact W|]. split; [exact SW|right].
          destruct (v_get _ _ _ _ W) as (G1 & G2 & G3). unfold hq_can_start in CS. rewrite G1, G2, G3, er_ulp, !(mat_get n h M) in CS by (assumption || lia).
          revert CS. repeat fin. rewrite er_leE. case Rle_bool_spec; [|discriminate]. intros CS _.
          eapply Rle_trans; [exact CS|]. apply Rmult_le_compat_l.
          { apply Rmult_le_pos; [apply bpow_ge_0|apply Rabs_pos]. }
          pose proof (HN (cur - 1)%Z ltac:(lia)). pose proof (HN cur ltac:(lia)). pose proof (HN (cur + 1)%Z ltac:(lia)). lra.
        + eapply (IH (cur - 1)%Z); [exact W|lia|lia]. }
    destruct (G (Z.to_nat (i - 2 - l)) (i - 2)%Z m0 v0 x1 x2 x3 V ltac:(lia) ltac:(lia)) as (m & v & w1 & w2 & w3 & E & Q).
    exists m, v, w1, w2, w3. split; [exact E|exact Q].
  Qed.
End Reflector.
