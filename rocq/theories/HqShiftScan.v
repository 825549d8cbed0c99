(** The search for a negligible subdiagonal entry in dlahqr, in exact arithmetic. *)
From Coq Require Import Reals Lra ZArith Lia Bool.
From Flocq Require Import Core.
From Verif Require Import Base Num Array Blas Lapack Dlahqr Spec SpecR SpecDShift ER FaLemmas LahqrProofs LahqrNum HqIter HqShift.
Open Scope R_scope.

Section Scan.
  Context (h : fa er) (n : Z) (H : Z -> Z -> R) (M : mat_is h n n H) (ilo ihi : Z) (I1 : (1 <= ilo <= ihi)%Z) (I2 : (ihi <= n)%Z).
  Lemma small_exact k : (ilo < k <= ihi)%Z -> hq_small ilo ihi h k = true <-> negligible H ilo ihi k.
  Proof.
    intros Hk. unfold hq_small. cbv zeta.
    rewrite !(get_is h n H (k - 1) (k - 1)), !(get_is h n H (k - 1) k), !(get_is h n H k (k - 1)), !(get_is h n H k k) by (exact M || lia).
    rewrite er_smlnum, er_ulp, er_f0, !er_subE, !er_absE, !er_addE, er_leE, er_eqE, !er_maxE, !er_minE, !er_addE.
    unfold negligible. cbv zeta. set (sml := bpow radix2 (-970) * IZR (ihi - ilo + 1)).
    assert (SP : 0 < sml) by (apply Rmult_lt_0_compat; [apply bpow_gt_0|apply IZR_lt; lia]).
    set (e := Rabs (H k (k - 1)%Z)). set (f := Rabs (H (k - 1)%Z k)). set (d := Rabs (H k k)). set (g := Rabs (_ - _)).
    destruct (Rle_bool_spec e sml) as [L|L]; [split; [intros _; left; exact L|reflexivity]|].
    assert (TS : (if Req_bool (Rabs (H (k - 1)%Z (k - 1)%Z) + d) 0
       then let tst := if (ilo <=? k - 2)%Z then fadd (Fin (Rabs (H (k - 1)%Z (k - 1)%Z) + d)) (fabs (get2 h (k - 1) (k - 2))) else Fin (Rabs (H (k - 1)%Z (k - 1)%Z) + d) in
            if (k + 1 <=? ihi)%Z then fadd tst (fabs (get2 h (k + 1) k)) else tst
       else Fin (Rabs (H (k - 1)%Z (k - 1)%Z) + d)) = Fin (neighbours H ilo ihi k)).
    { unfold neighbours. fold d. cbv zeta. destruct (Req_bool_spec (Rabs (H (k - 1)%Z (k - 1)%Z) + d) 0) as [E|E]; [|reflexivity]. rewrite E.
      destruct (Z.leb_spec ilo (k - 2)) as [Q|Q]; destruct (Z.leb_spec (k + 1) ihi) as [Q'|Q']; rewrite ?(get_is h n H) by (exact M || lia); rewrite ?er_absE, ?er_addE; f_equal; lra. }
    cbv zeta in TS. rewrite TS. clear TS. set (t := neighbours H ilo ihi k). rewrite er_mulE, er_leE.
    destruct (Rle_bool_spec e (bpow radix2 (-52) * t)) as [L2|L2]; [|split; [discriminate|intros [Q|[Q _]]; lra]].
    set (s := Rmax d g + Rmax e f). assert (S0 : 0 < s). { pose proof (Rmax_l e f). pose proof (Rmax_l d g). assert (0 <= d) by apply Rabs_pos. unfold s. lra. }
    rewrite !er_divE by lra. rewrite !er_mulE, er_maxE, er_leE.
    replace (bpow radix2 (-52) * (Rmin d g * (Rmax d g / s))) with (bpow radix2 (-52) * (Rmin d g * Rmax d g / s)) by (field; lra).
    set (X := Rmax sml _). clearbody X.
    destruct (Rle_bool_spec (Rmin e f * (Rmax e f / s)) X) as [L3|L3].
    - split; [|reflexivity]. intros _. right. split; [exact L2|]. replace (Rmin e f * Rmax e f) with (s * (Rmin e f * (Rmax e f / s))) by (field; lra). apply Rmult_le_compat_l; lra.
    - split; [discriminate|]. intros [Q|[_ Q]]; [lra|]. exfalso. replace (Rmin e f * Rmax e f) with (s * (Rmin e f * (Rmax e f / s))) in Q by (field; lra). apply Rmult_le_reg_l in Q; [lra|exact S0].
  Qed.

  Lemma scan_exact l i k0 : (ilo <= l < i)%Z -> (i <= ihi)%Z -> let k := hq_scan ilo ihi h l i k0 in
    (l <= k <= i)%Z /\ (k = l \/ negligible H ilo ihi k) /\ (forall p, (k < p <= i)%Z -> ~ negligible H ilo ihi p).
  Proof.
    intros Hl Hi. unfold hq_scan.
    assert (G : forall dd cur k1, (cur = l + Z.of_nat dd)%Z -> (cur <= i)%Z -> (dd = O -> k1 = l) -> (forall p, (cur < p <= i)%Z -> ~ negligible H ilo ihi p) ->
      let k := for_brk (range_rev (l + 1) cur) k1 (fun ck _ => if hq_small ilo ihi h ck then (ck, true) else ((ck - 1)%Z, false)) in
      (l <= k <= i)%Z /\ (k = l \/ negligible H ilo ihi k) /\ (forall p, (k < p <= i)%Z -> ~ negligible H ilo ihi p)).
    { induction dd as [|dd IH]; intros cur k1 Ec Hc E1 Np.
      - rewrite Lists.range_rev_nil by lia. cbn [for_brk]. rewrite (E1 eq_refl). split; [lia|]. split; [left; reflexivity|]. intros p Hp. apply Np. lia.
      - rewrite Lists.range_rev_cons by lia. cbn [for_brk]. pose proof (small_exact cur ltac:(lia)) as SE.
        destruct (hq_small ilo ihi h cur) eqn:C.
        + split; [lia|]. split; [right; apply SE; reflexivity|exact Np].
        + apply (IH (cur - 1)%Z); [lia|lia|lia|]. intros p Hp Q. destruct (Z.eq_dec p cur) as [->|]; [apply SE in Q; discriminate|apply (Np p); [lia|exact Q]]. }
    apply (G (Z.to_nat (i - l))); [lia|lia|lia|intros; lia].
  Qed.
End Scan.
