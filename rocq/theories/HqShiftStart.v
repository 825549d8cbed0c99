(** The vector with which a QR iteration of dlahqr starts, in exact arithmetic. *)
From Coq Require Import Reals Lra ZArith Lia Bool.
From Flocq Require Import Core.
From Verif Require Import Base Num Array Blas Lapack Dlahqr Spec SpecR SpecDShift ER FaLemmas LahqrProofs LahqrNum HqReflGen HqErrStart HqShift Lists.
Open Scope R_scope.

Section Start.
  Context (h : fa er) (n : Z) (H : Z -> Z -> R) (M : mat_is h n n H).
  Notation fshift s1 s2 := (Fin (fst s1), Fin (snd s1), Fin (fst s2), Fin (snd s2)).

  Lemma column3 m s1 s2 : shift_pair s1 s2 ->
    shift_column 3 (hess3 H m) s1 s2 1 = cre ((H m m - fst s1) * (H m m - fst s2) - snd s1 * snd s2 + H m (m + 1)%Z * H (m + 1)%Z m) /\
    shift_column 3 (hess3 H m) s1 s2 2 = cre (H (m + 1)%Z m * (H m m + H (m + 1)%Z (m + 1)%Z - fst s1 - fst s2)) /\
    shift_column 3 (hess3 H m) s1 s2 3 = cre (H (m + 1)%Z m * H (m + 2)%Z (m + 1)%Z).
  Proof.
    intros P. destruct s1 as [r1 i1], s2 as [r2 i2].
    unfold shift_column, Csum_range. change (Z.to_nat (3 - 1 + 1)) with 3%nat. cbn [Csum]. unfold shifted, hess3. cbn [Z.add Z.eqb Pos.eqb Pos.add Pos.succ andb].
    replace (m + 1 - 1)%Z with m by lia. replace (m + 2 - 1)%Z with (m + 1)%Z by lia. replace (m + 3 - 1)%Z with (m + 2)%Z by lia.
    unfold cadd, cmul, csub, cre. cbn [fst snd]. unfold shift_pair in P. cbn [fst snd] in P.
    destruct P as [[-> ->]|[-> ->]]; (split; [f_equal; ring|]; split; f_equal; ring).
  Qed.

  Lemma firstcol_exact m s1 s2 v : (1 <= m)%Z -> (m + 2 <= n)%Z -> H (m + 1)%Z m <> 0 -> H (m + 2)%Z (m + 1)%Z <> 0 -> shift_pair s1 s2 -> three v ->
    exists k (w : Z -> R), 0 < k /\ v3s (hq_firstcol h (fshift s1 s2) m v) (Fin (w 1%Z)) (Fin (w 2%Z)) (Fin (w 3%Z)) /\
      (forall i, (1 <= i <= 3)%Z -> shift_column 3 (hess3 H m) s1 s2 i = cre (k * w i)) /\
      Rabs (w 1%Z) + Rabs (w 2%Z) + Rabs (w 3%Z) = 1.
  Proof.
    intros Hm Hn N1 N2 P T. destruct (v3s_of v T) as (x1 & x2 & x3 & V). destruct (column3 m s1 s2 P) as (C1 & C2 & C3).
    destruct s1 as [r1 i1], s2 as [r2 i2]. cbn [fst snd] in *.
    pose proof (firstcol_get h v (Fin r1) (Fin i1) (Fin r2) (Fin i2) m x1 x2 x3 V) as G. cbv zeta in G.
    rewrite !(get_is h n H) in G by (exact M || lia). rewrite !er_subE, !er_absE, !er_addE in G.
    set (s := Rabs (H m m - r2) + Rabs i2 + Rabs (H (m + 1)%Z m)) in *.
    assert (SP : 0 < s). { pose proof (Rabs_pos (H m m - r2)). pose proof (Rabs_pos i2). pose proof (Rabs_pos_lt _ N1). unfold s. lra. }
    rewrite !er_divE in G by lra. rewrite !er_mulE, !er_addE, !er_subE, !er_mulE, !er_absE, !er_addE in G.
    set (A := _ - i1 * (i2 / s)) in G. set (B := H (m + 1)%Z m / s * (_ - r1 - r2)) in G. set (C := H (m + 1)%Z m / s * H (m + 2)%Z (m + 1)%Z) in G.
    set (t := Rabs A + Rabs B + Rabs C) in *.
    assert (C0 : C <> 0). { unfold C. apply Rmult_integral_contrapositive_currified; [|exact N2]. apply Rmult_integral_contrapositive_currified; [exact N1|apply Rinv_neq_0_compat; lra]. }
    assert (TP : 0 < t). { pose proof (Rabs_pos A). pose proof (Rabs_pos B). pose proof (Rabs_pos_lt _ C0). unfold t. lra. }
    rewrite !er_divE in G by lra. exists (s * t), (fun i => if (i =? 1)%Z then A / t else if (i =? 2)%Z then B / t else C / t). cbn [Z.eqb Pos.eqb].
    split; [apply Rmult_lt_0_compat; assumption|]. split; [exact G|]. split.
    - intros i Hi. assert (i = 1 \/ i = 2 \/ i = 3)%Z as [-> | [-> | ->]] by lia; cbn [Z.eqb Pos.eqb]; [rewrite C1|rewrite C2|rewrite C3]; f_equal; unfold A, B, C; clearbody t s; field; lra.
    - assert (Q : forall x, Rabs (x / t) = Rabs x * / t) by (intros x; unfold Rdiv; rewrite Rabs_mult, (Rabs_pos_eq (/ t)) by (left; apply Rinv_0_lt_compat; exact TP); reflexivity).
      rewrite !Q. replace (Rabs A * / t + Rabs B * / t + Rabs C * / t) with (t * / t) by (unfold t; ring). apply Rinv_r. lra.
  Qed.

  Lemma can_start_exact m s1 s2 v k (w : Z -> R) : (2 <= m)%Z -> (m + 1 <= n)%Z -> 0 < k ->
    v3s v (Fin (w 1%Z)) (Fin (w 2%Z)) (Fin (w 3%Z)) -> (forall i, (1 <= i <= 3)%Z -> shift_column 3 (hess3 H m) s1 s2 i = cre (k * w i)) ->
    hq_can_start h v m = true <-> may_start H s1 s2 m.
  Proof.
    intros Hm Hn K V E. unfold hq_can_start. destruct (v3s_get _ _ _ _ V) as (-> & -> & ->).
    rewrite !(get_is h n H) by (exact M || lia). rewrite er_ulp, !er_absE, !er_addE, !er_mulE, er_leE.
    unfold may_start. rewrite !E by lia. unfold cre. cbn [fst]. rewrite !Rabs_mult, !(Rabs_pos_eq k) by lra.
    set (x := Rabs (H m (m - 1)%Z)). set (y := _ + Rabs (H (m + 1)%Z (m + 1)%Z)). clearbody x y.
    split; intros L.
    - destruct (Rle_bool_spec (x * (Rabs (w 2%Z) + Rabs (w 3%Z))) (bpow radix2 (-52) * Rabs (w 1%Z) * y)) as [Q|]; [|discriminate].
      replace (x * (k * Rabs (w 2%Z) + k * Rabs (w 3%Z))) with (k * (x * (Rabs (w 2%Z) + Rabs (w 3%Z)))) by ring.
      replace (bpow radix2 (-52) * (k * Rabs (w 1%Z)) * y) with (k * (bpow radix2 (-52) * Rabs (w 1%Z) * y)) by ring. apply Rmult_le_compat_l; lra.
    - apply Rle_bool_true. apply Rmult_le_reg_l with k; [exact K|].
      replace (k * (x * (Rabs (w 2%Z) + Rabs (w 3%Z)))) with (x * (k * Rabs (w 2%Z) + k * Rabs (w 3%Z))) by ring.
      replace (k * (bpow radix2 (-52) * Rabs (w 1%Z) * y)) with (bpow radix2 (-52) * (k * Rabs (w 1%Z)) * y) by ring. exact L.
  Qed.

  Lemma start_exact s1 s2 l i m0 v0 : (1 <= l <= i - 2)%Z -> (i <= n)%Z -> (forall j, (l <= j < i)%Z -> H (j + 1)%Z j <> 0) ->
    shift_pair s1 s2 -> three v0 ->
    exists m v k (w : Z -> R), hq_start h (fshift s1 s2) l i m0 v0 = (m, v) /\ (l <= m <= i - 2)%Z /\ 0 < k /\
      data v = [Fin (w 1%Z); Fin (w 2%Z); Fin (w 3%Z)] /\
      (forall q, (1 <= q <= 3)%Z -> shift_column 3 (hess3 H m) s1 s2 q = cre (k * w q)) /\
      Rabs (w 1%Z) + Rabs (w 2%Z) + Rabs (w 3%Z) = 1 /\
      (m = l \/ may_start H s1 s2 m) /\ (forall p, (m < p <= i - 2)%Z -> ~ may_start H s1 s2 p).
  Proof.
    intros Hl Hi U P T0. unfold hq_start.
    assert (G : forall d cur m0 v0, (cur = l + Z.of_nat d)%Z -> (cur <= i - 2)%Z -> three v0 -> (forall p, (cur < p <= i - 2)%Z -> ~ may_start H s1 s2 p) ->
      exists m v k (w : Z -> R), for_brk (range_rev l cur) (m0, v0) (fun cm '(_, v) => let v := hq_firstcol h (fshift s1 s2) cm v in
        if (cm =? l)%Z then ((cm, v), true) else if hq_can_start h v cm then ((cm, v), true) else ((cm, v), false)) = (m, v) /\ (l <= m <= i - 2)%Z /\ 0 < k /\
      data v = [Fin (w 1%Z); Fin (w 2%Z); Fin (w 3%Z)] /\
      (forall q, (1 <= q <= 3)%Z -> shift_column 3 (hess3 H m) s1 s2 q = cre (k * w q)) /\
      Rabs (w 1%Z) + Rabs (w 2%Z) + Rabs (w 3%Z) = 1 /\
      (m = l \/ may_start H s1 s2 m) /\ (forall p, (m < p <= i - 2)%Z -> ~ may_start H s1 s2 p)).
    { induction d as [|d IH]; intros cur m1 v1 Ec Hc Tv Np.
      - rewrite range_rev_cons by lia. cbn [for_brk]. cbv zeta. replace (cur =? l)%Z with true by (symmetry; apply Z.eqb_eq; lia).
        destruct (firstcol_exact cur s1 s2 v1 ltac:(lia) ltac:(lia) (U cur ltac:(lia)) ltac:(replace (cur + 2)%Z with (cur + 1 + 1)%Z by lia; apply U; lia) P Tv) as (k & w & K & V & E & S).
        exists cur, (hq_firstcol h (fshift s1 s2) cur v1), k, w. split; [reflexivity|]. split; [lia|]. split; [exact K|]. split; [apply V|]. split; [exact E|]. split; [exact S|]. split; [left; lia|exact Np].
      - rewrite range_rev_cons by lia. cbn [for_brk]. cbv zeta. replace (cur =? l)%Z with false by (symmetry; apply Z.eqb_neq; lia).
        destruct (firstcol_exact cur s1 s2 v1 ltac:(lia) ltac:(lia) (U cur ltac:(lia)) ltac:(replace (cur + 2)%Z with (cur + 1 + 1)%Z by lia; apply U; lia) P Tv) as (k & w & K & V & E & S).
        pose proof (can_start_exact cur s1 s2 _ k w ltac:(lia) ltac:(lia) K V E) as CS.
        destruct (hq_can_start h (hq_firstcol h (fshift s1 s2) cur v1) cur) eqn:C.
        + exists cur, (hq_firstcol h (fshift s1 s2) cur v1), k, w. split; [reflexivity|]. split; [lia|]. split; [exact K|]. split; [apply V|]. split; [exact E|]. split; [exact S|]. split; [right; apply CS; reflexivity|exact Np].
        + apply (IH (cur - 1)%Z); [lia|lia|apply V|]. intros p Hp Q. destruct (Z.eq_dec p cur) as [->|]; [apply CS in Q; discriminate|apply (Np p); [lia|exact Q]]. }
    apply (G (Z.to_nat (i - 2 - l))); [lia|lia|exact T0|intros; lia].
  Qed.
End Start.
