(** Products, orthogonal matrices and Householder reflectors over lo..=hi. *)
From Coq Require Import Reals Lra.
From Verif Require Import Base Num Array Spec ER SpecR SpecSim Lists RsumLemmas.
Open Scope R_scope.

Lemma Rsum_swap (f : Z -> Z -> R) lo n lo' n' :
  Rsum (fun i => Rsum (fun j => f i j) lo' n') lo n = Rsum (fun j => Rsum (fun i => f i j) lo n) lo' n'.
Proof.
  revert lo. induction n; intros lo; cbn [Rsum].
  - symmetry. apply Rsum_zero. reflexivity.
  - rewrite IHn, <- Rsum_plus. reflexivity.
Qed.
Lemma Rsum_range_swap (f : Z -> Z -> R) lo hi lo' hi' :
  Rsum_range (fun i => Rsum_range (fun j => f i j) lo' hi') lo hi = Rsum_range (fun j => Rsum_range (fun i => f i j) lo hi) lo' hi'.
Proof. apply Rsum_swap. Qed.
Lemma Rsum_range_split f lo mid hi : (lo <= mid + 1)%Z -> (mid <= hi)%Z ->
  Rsum_range f lo hi = Rsum_range f lo mid + Rsum_range f (mid + 1) hi.
Proof.
  intros H1 H2. remember (Z.to_nat (mid - lo + 1)) as k eqn:E. revert lo H1 E. induction k; intros lo H1 E.
  - rewrite (Rsum_range_nil f lo mid) by lia. replace (mid + 1)%Z with lo by lia. lra.
  - rewrite (Rsum_range_cons f lo hi), (Rsum_range_cons f lo mid) by lia. rewrite (IHk (lo + 1)%Z) by lia. lra.
Qed.
(** a sum whose terms vanish except at one index *)
Lemma Rsum_range_one f lo hi t : (lo <= t <= hi)%Z -> (forall i, (lo <= i <= hi)%Z -> i <> t -> f i = 0) -> Rsum_range f lo hi = f t.
Proof.
  intros Ht Hz. rewrite (Rsum_range_split f lo (t - 1) hi) by lia. replace (t - 1 + 1)%Z with t by lia.
  rewrite (Rsum_range_cons f t hi) by lia. rewrite (Rsum_range_zero f lo (t - 1)), (Rsum_range_zero f (t + 1) hi).
  - lra.
  - intros; apply Hz; lia.
  - intros; apply Hz; lia.
Qed.
(** ... except within c..c+2 *)
Lemma Rsum_range_sub f lo hi a b : (lo <= a)%Z -> (b <= hi)%Z -> (a <= b + 1)%Z ->
  (forall i, (lo <= i <= hi)%Z -> ~ (a <= i <= b)%Z -> f i = 0) -> Rsum_range f lo hi = Rsum_range f a b.
Proof.
  intros Ha Hb Hab Hz. rewrite (Rsum_range_split f lo (a - 1) hi) by lia. replace (a - 1 + 1)%Z with a by lia.
  rewrite (Rsum_range_split f a b hi) by lia. rewrite (Rsum_range_zero f lo (a - 1)), (Rsum_range_zero f (b + 1) hi).
  - lra.
  - intros; apply Hz; lia.
  - intros; apply Hz; lia.
Qed.

Section Mat.
  Context (lo hi : Z).
  Notation mm := (mmul lo hi).
  Notation inr i := (lo <= i <= hi)%Z.

  Lemma mm_ext A A' B B' i j : (forall k, inr k -> A i k = A' i k) -> (forall k, inr k -> B k j = B' k j) -> mm A B i j = mm A' B' i j.
  Proof. intros HA HB. apply Rsum_range_ext. intros k Hk. rewrite HA, HB by assumption. reflexivity. Qed.
  Lemma mm_assoc A B C i j : mm (mm A B) C i j = mm A (mm B C) i j.
  Proof.
    unfold mmul.
    transitivity (Rsum_range (fun k => Rsum_range (fun l => A i l * B l k * C k j) lo hi) lo hi).
    - apply Rsum_range_ext. intros k _. rewrite Rmult_comm, <- Rsum_range_scal. apply Rsum_range_ext. intros; ring.
    - rewrite Rsum_range_swap. apply Rsum_range_ext. intros l _. rewrite <- Rsum_range_scal. apply Rsum_range_ext. intros; ring.
  Qed.
  Lemma mm_id_l A i j : inr i -> mm Rid A i j = A i j.
  Proof.
    intros Hi. unfold mmul. rewrite (Rsum_range_one _ lo hi i Hi).
    - unfold Rid. rewrite Z.eqb_refl. ring.
    - intros k _ Hk. unfold Rid. destruct (Z.eqb_spec i k); [congruence|ring].
  Qed.
  Lemma mm_id_r A i j : inr j -> mm A Rid i j = A i j.
  Proof.
    intros Hi. unfold mmul. rewrite (Rsum_range_one _ lo hi j Hi).
    - unfold Rid. rewrite Z.eqb_refl. ring.
    - intros k _ Hk. unfold Rid. destruct (Z.eqb_spec k j); [congruence|ring].
  Qed.
  Lemma mm_tr A B i j : mm A B j i = mm (mtr B) (mtr A) i j.
  Proof. apply Rsum_range_ext. intros. unfold mtr. ring. Qed.

  Lemma orth_id : orthogonal lo hi Rid.
  Proof.
    assert (E : forall i j, mtr Rid i j = Rid i j) by (intros; unfold mtr, Rid; rewrite Z.eqb_sym; reflexivity).
    intros i j Hi Hj. split.
    - rewrite mm_id_r by assumption. apply E.
    - rewrite mm_id_l by assumption. apply E.
  Qed.
  Lemma orth_mm Q P : orthogonal lo hi Q -> orthogonal lo hi P -> orthogonal lo hi (mm Q P).
  Proof.
    intros HQ HP i j Hi Hj.
    assert (T : forall i j, mtr (mm Q P) i j = mm (mtr P) (mtr Q) i j) by (intros; unfold mtr at 1; apply mm_tr).
    split.
    - rewrite (mm_ext _ (mm (mtr P) (mtr Q)) _ (mm Q P)) by (intros; auto).
      rewrite mm_assoc. rewrite (mm_ext _ (mtr P) _ P); [apply HP; assumption|auto|].
      intros k Hk. rewrite <- mm_assoc. rewrite (mm_ext _ Rid _ P); [apply mm_id_l; assumption| |auto].
      intros l Hl. apply HQ; assumption.
    - rewrite (mm_ext _ (mm Q P) _ (mm (mtr P) (mtr Q))) by (intros; auto).
      rewrite mm_assoc. rewrite (mm_ext _ Q _ (mtr Q)); [apply HQ; assumption|auto|].
      intros k Hk. rewrite <- mm_assoc. rewrite (mm_ext _ Rid _ (mtr Q)); [apply mm_id_l; assumption| |auto].
      intros l Hl. apply HP; assumption.
  Qed.
  Lemma conj_ext Q A A' i j : inr i -> inr j -> (forall k l, inr k -> inr l -> A k l = A' k l) -> conj_by lo hi Q A i j = conj_by lo hi Q A' i j.
  Proof. intros Hi Hj H. apply mm_ext; [auto|]. intros k Hk. apply mm_ext; auto. Qed.
  Lemma conj_id A i j : inr i -> inr j -> conj_by lo hi Rid A i j = A i j.
  Proof.
    intros Hi Hj. unfold conj_by. rewrite (mm_ext _ Rid _ A).
    - apply mm_id_l; assumption.
    - intros. unfold mtr, Rid. rewrite Z.eqb_sym. reflexivity.
    - intros. apply mm_id_r; assumption.
  Qed.
  Lemma conj_mm Q P A i j : conj_by lo hi (mm Q P) A i j = conj_by lo hi P (conj_by lo hi Q A) i j.
  Proof.
    unfold conj_by.
    assert (T : forall i j, mtr (mm Q P) i j = mm (mtr P) (mtr Q) i j) by (intros; unfold mtr at 1; apply mm_tr).
    rewrite (mm_ext _ (mm (mtr P) (mtr Q)) _ (mm A (mm Q P))) by (intros; auto).
    rewrite mm_assoc. apply mm_ext; [auto|]. intros k Hk.
    rewrite mm_assoc. apply mm_ext; [auto|]. intros l Hl. symmetry. apply mm_assoc.
  Qed.

  (** traces and norms *)
  Lemma trace_comm A B : trace lo hi (mm A B) = trace lo hi (mm B A).
  Proof. unfold trace, mmul. rewrite Rsum_range_swap. apply Rsum_range_ext. intros. apply Rsum_range_ext. intros. ring. Qed.
  Lemma trace_ext A B : (forall i, inr i -> A i i = B i i) -> trace lo hi A = trace lo hi B.
  Proof. apply Rsum_range_ext. Qed.
  Lemma trace_conj Q A : orthogonal lo hi Q -> trace lo hi (conj_by lo hi Q A) = trace lo hi A.
  Proof.
    intros HQ. unfold conj_by. rewrite trace_comm. apply trace_ext. intros i Hi.
    rewrite mm_assoc. rewrite (mm_ext _ A _ Rid); [apply mm_id_r; assumption|auto|]. intros. apply HQ; assumption.
  Qed.
  Lemma frob_trace A : frob2 lo hi A = trace lo hi (mm A (mtr A)).
  Proof. reflexivity. Qed.
  Lemma frob_conj Q A : orthogonal lo hi Q -> frob2 lo hi (conj_by lo hi Q A) = frob2 lo hi A.
  Proof.
    intros HQ. rewrite !frob_trace. rewrite <- (trace_conj Q (mm A (mtr A)) HQ). apply trace_ext. intros i Hi.
    unfold conj_by. rewrite mm_assoc. apply mm_ext; [auto|]. intros k Hk.
    transitivity (mm (mm A Q) (mm (mtr Q) (mm (mtr A) Q)) k i).
    - apply mm_ext; [auto|]. intros l Hl.
      change (mtr (mm (mtr Q) (mm A Q)) l i) with (mm (mtr Q) (mm A Q) i l). rewrite mm_tr.
      transitivity (mm (mm (mtr Q) (mtr A)) Q l i).
      + apply mm_ext; [|intros; reflexivity]. intros. unfold mtr at 1. apply mm_tr.
      + apply mm_assoc.
    - rewrite mm_assoc. rewrite mm_assoc. apply mm_ext; [auto|]. intros l Hl.
      rewrite <- mm_assoc. rewrite (mm_ext _ Rid _ (mm (mtr A) Q)); [apply mm_id_l; assumption| |auto]. intros. apply HQ; assumption.
  Qed.
  Lemma frob_entry A i j : inr i -> inr j -> A i j * A i j <= frob2 lo hi A.
  Proof.
    intros Hi Hj. unfold frob2.
    apply Rle_trans with (Rsum_range (fun j => A i j * A i j) lo hi).
    - apply (Rsum_range_term (fun j => A i j * A i j)); [|assumption]. intros. nra.
    - apply (Rsum_range_term (fun i => Rsum_range (fun j => A i j * A i j) lo hi)); [|assumption].
      intros. apply Rsum_range_nonneg. intros; nra.
  Qed.
  Lemma frob_bound A B i j : inr i -> inr j -> 0 <= B -> frob2 lo hi A <= B * B -> Rabs (A i j) <= B.
  Proof.
    intros Hi Hj HB HF. pose proof (frob_entry A i j Hi Hj). apply Rsqr_incr_0_var; [|exact HB].
    rewrite <- Rsqr_abs. unfold Rsqr. lra.
  Qed.

  (** the reflector I - tau*w*w^T *)
  Definition refl (tau : R) (w : Z -> R) (i j : Z) : R := Rid i j - tau * w i * w j.
  Lemma refl_tr tau w i j : mtr (refl tau w) i j = refl tau w i j.
  Proof. unfold mtr, refl, Rid. rewrite Z.eqb_sym. ring. Qed.
  Lemma mm_refl_r tau w A i j : inr j -> mm A (refl tau w) i j = A i j - Rsum_range (fun k => A i k * w k) lo hi * (tau * w j).
  Proof.
    intros Hj. transitivity (mm A Rid i j + - (tau * w j) * Rsum_range (fun k => A i k * w k) lo hi).
    - unfold mmul. rewrite <- Rsum_range_scal, <- Rsum_range_plus. apply Rsum_range_ext. intros. unfold refl. ring.
    - rewrite mm_id_r by assumption. ring.
  Qed.
  Lemma mm_refl_l tau w A i j : inr i -> mm (refl tau w) A i j = A i j - Rsum_range (fun k => w k * A k j) lo hi * (tau * w i).
  Proof.
    intros Hi. transitivity (mm Rid A i j + - (tau * w i) * Rsum_range (fun k => w k * A k j) lo hi).
    - unfold mmul. rewrite <- Rsum_range_scal, <- Rsum_range_plus. apply Rsum_range_ext. intros. unfold refl. ring.
    - rewrite mm_id_l by assumption. ring.
  Qed.
  Lemma refl_sq tau w i j : tau * (tau * Rsum_range (fun k => w k * w k) lo hi - 2) = 0 -> inr i -> inr j ->
    mm (refl tau w) (refl tau w) i j = Rid i j.
  Proof.
    intros E Hi Hj. rewrite mm_refl_r by assumption.
    replace (Rsum_range (fun k => refl tau w i k * w k) lo hi) with (w i - tau * w i * Rsum_range (fun k => w k * w k) lo hi).
    - unfold refl. transitivity (Rid i j + w i * w j * (tau * (tau * Rsum_range (fun k => w k * w k) lo hi - 2))); [ring|].
      rewrite E. ring.
    - transitivity (mm Rid (fun k _ => w k) i j + - (tau * w i) * Rsum_range (fun k => w k * w k) lo hi).
      + rewrite mm_id_l by assumption. ring.
      + unfold mmul. rewrite <- Rsum_range_scal, <- Rsum_range_plus. apply Rsum_range_ext. intros. unfold refl. ring.
  Qed.
  Lemma refl_orth tau w : tau * (tau * Rsum_range (fun k => w k * w k) lo hi - 2) = 0 -> orthogonal lo hi (refl tau w).
  Proof.
    intros E i j Hi Hj. split.
    - rewrite (mm_ext _ (refl tau w) _ (refl tau w)); [apply refl_sq; assumption| |auto]. intros; apply refl_tr.
    - rewrite (mm_ext _ (refl tau w) _ (refl tau w)); [apply refl_sq; assumption|auto|]. intros; apply refl_tr.
  Qed.
  Lemma conj_refl tau w A i j : conj_by lo hi (refl tau w) A i j = mm (refl tau w) (mm A (refl tau w)) i j.
  Proof. apply mm_ext; [|auto]. intros; apply refl_tr. Qed.
End Mat.

(** the vector (1, v2, v3) placed at c, c+1, c+2 *)
Definition wvec (c : Z) (v2 v3 : R) (j : Z) : R :=
  if (j =? c)%Z then 1 else if (j =? c + 1)%Z then v2 else if (j =? c + 2)%Z then v3 else 0.
Lemma wvec_0 c v2 v3 : wvec c v2 v3 c = 1.
Proof. unfold wvec. rewrite Z.eqb_refl. reflexivity. Qed.
Lemma wvec_1 c v2 v3 : wvec c v2 v3 (c + 1) = v2.
Proof. unfold wvec. destruct (Z.eqb_spec (c + 1) c); [lia|]. rewrite Z.eqb_refl. reflexivity. Qed.
Lemma wvec_2 c v2 v3 : wvec c v2 v3 (c + 2) = v3.
Proof. unfold wvec. destruct (Z.eqb_spec (c + 2) c); [lia|]. destruct (Z.eqb_spec (c + 2) (c + 1)); [lia|]. rewrite Z.eqb_refl. reflexivity. Qed.
Lemma wvec_out c v2 v3 j : (j < c \/ c + 2 < j)%Z -> wvec c v2 v3 j = 0.
Proof.
  intros H. unfold wvec. destruct (Z.eqb_spec j c); [lia|]. destruct (Z.eqb_spec j (c + 1)); [lia|].
  destruct (Z.eqb_spec j (c + 2)); [lia|reflexivity].
Qed.
Lemma wvec_sum lo hi c v2 v3 f : (lo <= c)%Z -> (c + 2 <= hi)%Z \/ v3 = 0 /\ (c + 1 <= hi)%Z ->
  Rsum_range (fun k => f k * wvec c v2 v3 k) lo hi = f c + v2 * f (c + 1)%Z + v3 * f (c + 2)%Z.
Proof.
  intros Hc [H | [E H]].
  - rewrite (Rsum_range_sub _ lo hi c (c + 2)) by (try lia; intros; rewrite wvec_out by lia; ring).
    rewrite !Rsum_range_cons by lia. rewrite Rsum_range_nil by lia. replace (c + 1 + 1)%Z with (c + 2)%Z by lia.
    rewrite wvec_0, wvec_1, wvec_2. ring.
  - rewrite (Rsum_range_sub _ lo hi c (c + 1)).
    + rewrite !Rsum_range_cons by lia. rewrite Rsum_range_nil by lia. rewrite wvec_0, wvec_1, E. ring.
    + lia.
    + lia.
    + lia.
    + intros i Hi Hn. destruct (Z.eq_dec i (c + 2)) as [->|]; [rewrite wvec_2, E; ring|]. rewrite wvec_out by lia. ring.
Qed.

(** one reflector of three (or, with v3 = 0, two) consecutive columns / rows *)
Definition rright (c : Z) (v2 v3 tau : R) (A : Z -> Z -> R) (i j : Z) : R :=
  A i j - (A i c + v2 * A i (c + 1)%Z + v3 * A i (c + 2)%Z) * (tau * wvec c v2 v3 j).
Definition rleft (c : Z) (v2 v3 tau : R) (A : Z -> Z -> R) (i j : Z) : R :=
  A i j - (A c j + v2 * A (c + 1)%Z j + v3 * A (c + 2)%Z j) * (tau * wvec c v2 v3 i).
Definition house (v2 v3 tau : R) : Prop := tau * (tau * (1 + v2 * v2 + v3 * v3) - 2) = 0.

Section Step.
  Context (lo hi c : Z) (v2 v3 tau : R).
  Hypothesis (HC : (lo <= c)%Z) (HE : (c + 2 <= hi)%Z \/ v3 = 0 /\ (c + 1 <= hi)%Z) (HH : house v2 v3 tau).
  Notation P := (refl tau (wvec c v2 v3)).
  Lemma house_orth : orthogonal lo hi P.
  Proof.
    apply refl_orth. rewrite wvec_sum by assumption. rewrite wvec_0, wvec_1, wvec_2.
    unfold house in HH. rewrite <- HH. ring.
  Qed.
  Lemma rright_mm A i j : (lo <= j <= hi)%Z -> mmul lo hi A P i j = rright c v2 v3 tau A i j.
  Proof. intros. rewrite mm_refl_r by assumption. rewrite wvec_sum by assumption. reflexivity. Qed.
  Lemma rleft_mm A i j : (lo <= i <= hi)%Z -> mmul lo hi P A i j = rleft c v2 v3 tau A i j.
  Proof.
    intros. rewrite mm_refl_l by assumption. rewrite (Rsum_range_ext _ (fun k => A k j * wvec c v2 v3 k)) by (intros; ring).
    rewrite wvec_sum by assumption. reflexivity.
  Qed.
  Lemma conj_step A i j : (lo <= i <= hi)%Z -> (lo <= j <= hi)%Z ->
    conj_by lo hi P A i j = rleft c v2 v3 tau (rright c v2 v3 tau A) i j.
  Proof.
    intros Hi Hj. rewrite conj_refl. rewrite (mm_ext lo hi _ P _ (rright c v2 v3 tau A)).
    - apply rleft_mm; assumption.
    - auto.
    - intros. apply rright_mm; assumption.
  Qed.
End Step.
