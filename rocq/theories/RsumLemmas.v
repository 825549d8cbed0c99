(** Lemmas on sums of reals. *)
From Coq Require Import Reals Lra.
From Verif Require Import Base Num Array Spec ER SpecR Lists.
Open Scope R_scope.

Lemma Rsum_ext f g lo n : (forall i, (lo <= i < lo + Z.of_nat n)%Z -> f i = g i) -> Rsum f lo n = Rsum g lo n.
Proof.
  revert lo; induction n; intros lo H; [reflexivity|]. cbn [Rsum]. rewrite (H lo) by lia.
  f_equal. apply IHn. intros; apply H; lia.
Qed.
Lemma Rsum_plus f g lo n : Rsum (fun i => f i + g i) lo n = Rsum f lo n + Rsum g lo n.
Proof. revert lo; induction n; intros lo; cbn [Rsum]; [lra|]. rewrite IHn. lra. Qed.
Lemma Rsum_scal c f lo n : Rsum (fun i => c * f i) lo n = c * Rsum f lo n.
Proof. revert lo; induction n; intros lo; cbn [Rsum]; [lra|]. rewrite IHn. lra. Qed.
Lemma Rsum_snoc f lo n : Rsum f lo (S n) = Rsum f lo n + f (lo + Z.of_nat n)%Z.
Proof.
  revert lo; induction n; intros lo.
  - cbn [Rsum]. replace (lo + Z.of_nat 0)%Z with lo by lia. lra.
  - change (Rsum f lo (S (S n))) with (f lo + Rsum f (lo + 1) (S n)). rewrite IHn. cbn [Rsum].
    replace (lo + Z.of_nat (S n))%Z with (lo + 1 + Z.of_nat n)%Z by lia. lra.
Qed.
Lemma Rsum_nonneg f lo n : (forall i, (lo <= i < lo + Z.of_nat n)%Z -> 0 <= f i) -> 0 <= Rsum f lo n.
Proof.
  revert lo; induction n; intros lo H; cbn [Rsum]; [lra|].
  assert (0 <= f lo) by (apply H; lia). assert (0 <= Rsum f (lo + 1) n) by (apply IHn; intros; apply H; lia). lra.
Qed.
Lemma Rsum_zero f lo n : (forall i, (lo <= i < lo + Z.of_nat n)%Z -> f i = 0) -> Rsum f lo n = 0.
Proof.
  revert lo; induction n; intros lo H; cbn [Rsum]; [reflexivity|]. rewrite (H lo) by lia.
  rewrite IHn by (intros; apply H; lia). lra.
Qed.
Lemma Rsum_zero_inv f lo n : (forall i, (lo <= i < lo + Z.of_nat n)%Z -> 0 <= f i) -> Rsum f lo n = 0 ->
  forall i, (lo <= i < lo + Z.of_nat n)%Z -> f i = 0.
Proof.
  revert lo; induction n; intros lo H E i Hi; [lia|]. cbn [Rsum] in E.
  assert (H0 : 0 <= f lo) by (apply H; lia).
  assert (H1 : 0 <= Rsum f (lo + 1) n) by (apply Rsum_nonneg; intros; apply H; lia).
  destruct (Z.eq_dec i lo) as [->|Hne]; [lra|].
  apply (IHn (lo + 1)%Z); [intros; apply H; lia|lra|lia].
Qed.
Lemma Rsum_range_cons f lo hi : (lo <= hi)%Z -> Rsum_range f lo hi = f lo + Rsum_range f (lo + 1) hi.
Proof.
  intros H. unfold Rsum_range. replace (Z.to_nat (hi - lo + 1)) with (S (Z.to_nat (hi - (lo + 1) + 1))) by lia. reflexivity.
Qed.
Lemma Rsum_range_snoc f lo hi : (lo <= hi)%Z -> Rsum_range f lo hi = Rsum_range f lo (hi - 1) + f hi.
Proof.
  intros H. unfold Rsum_range. replace (Z.to_nat (hi - lo + 1)) with (S (Z.to_nat (hi - 1 - lo + 1))) by lia.
  rewrite Rsum_snoc. f_equal. f_equal. lia.
Qed.
Lemma Rsum_range_nil f lo hi : (hi < lo)%Z -> Rsum_range f lo hi = 0.
Proof. intros H. unfold Rsum_range. replace (Z.to_nat (hi - lo + 1)) with O by lia. reflexivity. Qed.
Lemma Rsum_range_ext f g lo hi : (forall i, (lo <= i <= hi)%Z -> f i = g i) -> Rsum_range f lo hi = Rsum_range g lo hi.
Proof. intros H. apply Rsum_ext. intros; apply H; lia. Qed.
Lemma Rsum_range_scal c f lo hi : Rsum_range (fun i => c * f i) lo hi = c * Rsum_range f lo hi.
Proof. apply Rsum_scal. Qed.
Lemma Rsum_range_plus f g lo hi : Rsum_range (fun i => f i + g i) lo hi = Rsum_range f lo hi + Rsum_range g lo hi.
Proof. apply Rsum_plus. Qed.
Lemma Rsum_range_nonneg f lo hi : (forall i, (lo <= i <= hi)%Z -> 0 <= f i) -> 0 <= Rsum_range f lo hi.
Proof. intros H. apply Rsum_nonneg. intros; apply H; lia. Qed.
Lemma Rsum_range_zero f lo hi : (forall i, (lo <= i <= hi)%Z -> f i = 0) -> Rsum_range f lo hi = 0.
Proof. intros H. apply Rsum_zero. intros i Hi. apply H. lia. Qed.
Lemma Rsum_range_le f g lo hi : (forall i, (lo <= i <= hi)%Z -> f i <= g i) -> Rsum_range f lo hi <= Rsum_range g lo hi.
Proof.
  intros H. assert (E : 0 <= Rsum_range (fun i => g i + -1 * f i) lo hi) by (apply Rsum_range_nonneg; intros i Hi; specialize (H i Hi); lra).
  rewrite Rsum_range_plus, Rsum_range_scal in E. lra.
Qed.
Lemma Rsum_range_const c lo hi : (lo <= hi + 1)%Z -> Rsum_range (fun _ => c) lo hi = IZR (hi - lo + 1) * c.
Proof.
  intros H. unfold Rsum_range. rewrite <- (Z2Nat.id (hi - lo + 1)) at 2 by lia. generalize (Z.to_nat (hi - lo + 1)) as k. clear H.
  intros k. revert lo. induction k; intros lo; [cbn; ring|]. cbn [Rsum]. rewrite IHk, Nat2Z.inj_succ, succ_IZR. ring.
Qed.
Lemma Rsum_range_term f lo hi t : (forall i, 0 <= f i) -> (lo <= t <= hi)%Z -> f t <= Rsum_range f lo hi.
Proof.
  intros H Ht.
  apply Rle_trans with (Rsum_range (fun i => if (i =? t)%Z then f t else 0) lo hi).
  - unfold Rsum_range. assert (G : forall k l, (l <= t < l + Z.of_nat k)%Z -> f t <= Rsum (fun i => if (i =? t)%Z then f t else 0) l k).
    { induction k; intros l Hl; [lia|]. cbn [Rsum]. destruct (Z.eqb_spec l t) as [->|].
      - assert (0 <= Rsum (fun i => if (i =? t)%Z then f t else 0) (t + 1) k); [|lra].
        apply Rsum_nonneg. intros i _. specialize (H t). destruct (i =? t)%Z; lra.
      - specialize (IHk (l + 1)%Z ltac:(lia)). lra. }
    apply G. lia.
  - apply Rsum_range_le. intros i _. destruct (Z.eqb_spec i t) as [->|]; [lra|apply H].
Qed.
