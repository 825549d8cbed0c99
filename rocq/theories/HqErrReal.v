(** One step of dlahqr's sweep with errors: real matrices only. *)
From Coq Require Import Reals Lra.
From Flocq Require Import Core.
From Verif Require Import Base Num Array Spec ER SpecR SpecSim Lists RsumLemmas RealMat SimArray SimSweep HqReal.
Open Scope R_scope.

Section SimF.
  Context (lo hi : Z).
  Notation inr i := (lo <= i <= hi)%Z.
  Notation mm := (mmul lo hi).
  Notation conj Q A := (conj_by lo hi Q A).

  Lemma frob_ext_sq A A' : (forall i j, inr i -> inr j -> A i j * A i j = A' i j * A' i j) -> frob2 lo hi A = frob2 lo hi A'.
  Proof. intros H. unfold frob2. apply Rsum_range_ext. intros i Hi. apply Rsum_range_ext. intros j Hj. apply H; assumption. Qed.
  (** multiplication by an orthogonal matrix keeps the length of every row *)
  Definition rowsq (A : Z -> Z -> R) (i : Z) : R := Rsum_range (fun j => A i j * A i j) lo hi.
  Lemma row_orth A P i : orthogonal lo hi P -> rowsq (mm A P) i = rowsq A i.
  Proof.
    intros HP. change (mm (mm A P) (mtr (mm A P)) i i = mm A (mtr A) i i).
    transitivity (mm (mm A P) (mm (mtr P) (mtr A)) i i).
    - apply mm_ext; [auto|]. intros k Hk. unfold mtr at 1. apply mm_tr.
    - rewrite mm_assoc. apply mm_ext; [auto|]. intros k Hk. rewrite <- mm_assoc.
      rewrite (mm_ext lo hi _ Rid _ (mtr A)); [apply mm_id_l; assumption| |auto]. intros. apply HP; assumption.
  Qed.
  Lemma frob_right A P : orthogonal lo hi P -> frob2 lo hi (mm A P) = frob2 lo hi A.
  Proof. intros HP. unfold frob2. apply Rsum_range_ext. intros i Hi. apply (row_orth A P i HP). Qed.
  Lemma frob_mtr A : frob2 lo hi (mtr A) = frob2 lo hi A.
  Proof. unfold frob2, mtr. apply Rsum_range_swap. Qed.
  Lemma frob_left A P : orthogonal lo hi P -> frob2 lo hi (mm P A) = frob2 lo hi A.
  Proof.
    intros HP. rewrite <- (frob_mtr (mm P A)), <- (frob_mtr A). rewrite (frob_ext lo hi _ (mm (mtr A) (mtr P))).
    - apply frob_right. apply orth_tr. exact HP.
    - intros i j Hi Hj. unfold mtr at 1. apply mm_tr.
  Qed.
  (** a matrix that is nonzero in three rows (columns) only *)
  Lemma one_of (k : Z) c : 0 <= c -> Rsum_range (fun a => if (a =? k)%Z then c else 0) lo hi <= c.
  Proof.
    intros Hc. destruct (Z_le_gt_dec lo k) as [A|A]; [destruct (Z_le_gt_dec k hi) as [B|B]|].
    - rewrite (Rsum_range_one _ lo hi k); [rewrite Z.eqb_refl; lra|lia|]. intros i _ Hi. destruct (Z.eqb_spec i k); [lia|reflexivity].
    - rewrite Rsum_range_zero; [exact Hc|]. intros i Hi. destruct (Z.eqb_spec i k); [lia|reflexivity].
    - rewrite Rsum_range_zero; [exact Hc|]. intros i Hi. destruct (Z.eqb_spec i k); [lia|reflexivity].
  Qed.
  Lemma three_of (k : Z) c (f : Z -> R) : 0 <= c -> (forall a, inr a -> f a <= c) -> (forall a, inr a -> ~ (k <= a <= k + 2)%Z -> f a <= 0) -> Rsum_range f lo hi <= 3 * c.
  Proof.
    intros Hc H1 H2.
    apply Rle_trans with (Rsum_range (fun a => (if (a =? k)%Z then c else 0) + ((if (a =? k + 1)%Z then c else 0) + (if (a =? k + 2)%Z then c else 0))) lo hi).
    - apply Rsum_range_le. intros a Ha. destruct (Z.eqb_spec a k), (Z.eqb_spec a (k + 1)), (Z.eqb_spec a (k + 2)); try lia;
        first [pose proof (H1 a Ha); lra | pose proof (H2 a Ha ltac:(lia)); lra].
    - rewrite !Rsum_range_plus. pose proof (one_of k c Hc). pose proof (one_of (k + 1) c Hc). pose proof (one_of (k + 2) c Hc). lra.
  Qed.
  Lemma row_le A d a : (lo <= hi)%Z -> (forall b, inr b -> A a b * A a b <= d * d) -> rowsq A a <= IZR (hi - lo + 1) * (d * d).
  Proof. intros HL H. unfold rowsq. rewrite <- (Rsum_range_const (d * d) lo hi) by lia. apply Rsum_range_le. intros b Hb. apply H; assumption. Qed.
  Lemma frob_rows3 A k d : (lo <= hi)%Z -> (forall a b, inr a -> inr b -> Rabs (A a b) <= d) -> (forall a b, inr a -> inr b -> ~ (k <= a <= k + 2)%Z -> A a b = 0) ->
    frob2 lo hi A <= 3 * (IZR (hi - lo + 1) * (d * d)).
  Proof.
    intros HL H1 H2. assert (Q : forall a b, inr a -> inr b -> A a b * A a b <= d * d) by (intros a b Ha Hb; specialize (H1 a b Ha Hb); apply Rabs_le_inv in H1; nra).
    assert (0 <= IZR (hi - lo + 1)) by (apply IZR_le; lia). assert (0 <= d * d) by nra.
    apply (three_of k); [apply Rmult_le_pos; assumption| |].
    - intros a Ha. apply (row_le A d a HL). intros; apply Q; assumption.
    - intros a Ha Hn. right. apply Rsum_range_zero. intros b Hb. rewrite H2 by assumption. ring.
  Qed.
  Lemma frob_cols3 A k d : (lo <= hi)%Z -> (forall a b, inr a -> inr b -> Rabs (A a b) <= d) -> (forall a b, inr a -> inr b -> ~ (k <= b <= k + 2)%Z -> A a b = 0) ->
    frob2 lo hi A <= 3 * (IZR (hi - lo + 1) * (d * d)).
  Proof. intros HL H1 H2. rewrite <- frob_mtr. apply (frob_rows3 (mtr A) k d HL); intros a b Ha Hb; unfold mtr; [apply H1; assumption|intros; apply H2; assumption]. Qed.

  (** G = Q^T*(A - E)*Q, Q orthogonal, E of norm at most x *)
  Definition simf (A : Z -> Z -> R) (x : R) (G Q : Z -> Z -> R) : Prop :=
    orthogonal lo hi Q /\ exists E, (forall i j, inr i -> inr j -> G i j = conj Q (msub A E) i j) /\ frob2 lo hi E <= x * x.
  Lemma simf_start A : simf A 0 A Rid.
  Proof.
    split; [apply orth_id|]. exists (fun _ _ => 0). split.
    - intros i j Hi Hj. rewrite conj_id by assumption. unfold msub. ring.
    - unfold frob2. rewrite Rsum_range_zero; [lra|]. intros. apply Rsum_range_zero. intros. ring.
  Qed.
  Lemma simf_weaken A x y G Q : simf A x G Q -> 0 <= x <= y -> simf A y G Q.
  Proof. intros (S1 & E & S2 & S3) H. split; [exact S1|]. exists E. split; [exact S2|]. nra. Qed.
  Lemma simf_ext A x G Q G' : simf A x G Q -> (forall i j, inr i -> inr j -> G i j = G' i j) -> simf A x G' Q.
  Proof. intros (S1 & E & S2 & S3) H. split; [exact S1|]. exists E. split; [|exact S3]. intros. rewrite <- H by assumption. apply S2; assumption. Qed.
  Lemma simf_conj A x G Q P : simf A x G Q -> orthogonal lo hi P -> simf A x (conj P G) (mm Q P).
  Proof.
    intros (S1 & E & S2 & S3) HP. split; [apply orth_mm; assumption|]. exists E. split; [|exact S3].
    intros i j Hi Hj. rewrite conj_mm. apply conj_ext; assumption.
  Qed.
  Lemma simf_add A x G Q e y : simf A x G Q -> 0 <= x -> 0 < y -> frob2 lo hi e <= y * y -> simf A (x + y) (madd G e) Q.
  Proof.
    intros (S1 & E & S2 & S3) Hx Hy He. split; [exact S1|]. exists (madd E (conj (mtr Q) (fun a b => - e a b))). split.
    - intros i j Hi Hj. transitivity (conj Q (msub A E) i j - conj Q (conj (mtr Q) (fun a b => - e a b)) i j).
      + unfold madd. rewrite S2, conj_back by assumption. ring.
      + rewrite <- conj_sub. apply conj_ext; [assumption|assumption|]. intros. unfold msub, madd. ring.
    - apply frob_add; [assumption|assumption|assumption|]. rewrite frob_conj by (apply orth_tr; assumption).
      rewrite (frob_ext_sq (fun a b => - e a b) e); [exact He|]. intros. ring.
  Qed.
  Lemma simf_norm A x G Q N : simf A x G Q -> 0 <= x -> 0 < N -> frob2 lo hi A <= N * N -> frob2 lo hi G <= (N + x) * (N + x).
  Proof.
    intros (S1 & E & S2 & S3) Hx HN HA. rewrite (frob_ext lo hi G (conj Q (msub A E))) by (intros; apply S2; assumption).
    rewrite frob_conj by exact S1. rewrite (frob_ext lo hi (msub A E) (madd (fun a b => - E a b) A)) by (intros; unfold msub, madd; ring).
    rewrite Rplus_comm. apply frob_add; [exact Hx|exact HN| |exact HA]. rewrite (frob_ext_sq (fun a b => - E a b) E); [exact S3|]. intros. ring.
  Qed.
End SimF.

(** ** one step: [V1] are the block's entries after the left stage, [V2] those after the right stage *)
Section StepF.
  Context (lo hi l i : Z).
  Hypothesis (Hl : (lo <= l)%Z) (Hi : (i <= hi)%Z).
  Notation inr a := (lo <= a <= hi)%Z.
  Notation inb a := (l <= a <= i)%Z.
  Notation mm := (mmul lo hi).
  Context (k : Z) (G : Z -> Z -> R) (v2 v3 t : R).
  Hypothesis (HC : chase lo hi l i k G) (Hk : (l <= k < i)%Z) (HV : (k + 2 <= i)%Z \/ v3 = 0) (HH : house v2 v3 t).
  Notation L := (rleft k v2 v3 t G).
  Notation G' := (rright k v2 v3 t L).
  Notation P := (refl t (wvec k v2 v3)).
  Context (V1 V2 : Z -> Z -> R) (d y : R).
  Hypothesis (Hd : 0 <= d).
  Hypothesis (A1 : forall a b, inb a -> inb b -> Rabs (V1 a b - L a b) <= d).
  Hypothesis (A2 : forall a b, inb a -> inb b -> ~ (k <= a <= k + 2)%Z -> V1 a b = L a b).
  Hypothesis (B1 : forall a b, inb a -> inb b -> Rabs (V2 a b - rright k v2 v3 t V1 a b) <= d).
  Hypothesis (B2 : forall a b, inb a -> inb b -> ~ (k <= b <= k + 2)%Z -> V2 a b = rright k v2 v3 t V1 a b).
  Hypothesis (C1 : forall a b, inb a -> inb b -> (b + 1 < a)%Z -> ~ hq_bulge (k + 1) a b -> V2 a b = 0).
  Hypothesis (Hy : 0 < y) (HY : 3 * (IZR (hi - lo + 1) * (d * d)) <= y * y).

  Definition inbb (a b : Z) : bool := ((l <=? a) && (a <=? i) && (l <=? b) && (b <=? i))%Z%bool.
  Lemma inbb_spec a b : Bool.reflect (inb a /\ inb b) (inbb a b).
  Proof. apply Bool.iff_reflect. unfold inbb. rewrite !Bool.andb_true_iff, !Z.leb_le. tauto. Qed.
  Definition G2 (a b : Z) : R := if inbb a b then V2 a b else G' a b.
  Definition e1 (a b : Z) : R := if inbb a b then V1 a b - L a b else 0.
  Definition e2 (a b : Z) : R := if inbb a b then V2 a b - rright k v2 v3 t V1 a b else 0.

  Lemma HV' : (k + 2 <= hi)%Z \/ v3 = 0 /\ (k + 1 <= hi)%Z.
  Proof. destruct HV; [left|right; split]; (assumption || lia). Qed.
  Lemma P_orth : orthogonal lo hi P.
  Proof. apply house_orth; [lia|apply HV'|exact HH]. Qed.

  Lemma G2_eq a b : inr a -> inr b -> G2 a b = madd (conj_by lo hi P G) (madd (mm e1 P) e2) a b.
  Proof.
    intros Ha Hb. unfold madd. rewrite (conj_step lo hi k v2 v3 t ltac:(lia) HV') by assumption. rewrite rlr_comm.
    rewrite (rright_mm lo hi k v2 v3 t ltac:(lia) HV') by assumption. unfold G2, e2. destruct (inbb_spec a b) as [[Ia Ib]|N].
    - unfold rright, e1. destruct (inbb_spec a b) as [_|]; [|tauto]. destruct (inbb_spec a k) as [_|]; [|lia]. destruct (inbb_spec a (k + 1)) as [_|]; [|lia].
      rewrite (hq_third l i k v3 Hk HV (if inbb a (k + 2) then V1 a (k + 2)%Z - L a (k + 2)%Z else 0) (V1 a (k + 2)%Z - L a (k + 2)%Z)); [ring|].
      intros H2. destruct (inbb_spec a (k + 2)); [reflexivity|lia].
    - transitivity (G' a b); [reflexivity|]. unfold rright at 3. unfold e1. destruct (inbb_spec a b) as [|_]; [tauto|].
      assert (Z0 : ((if inbb a k then V1 a k - L a k else 0) + v2 * (if inbb a (k + 1) then V1 a (k + 1)%Z - L a (k + 1)%Z else 0) + v3 * (if inbb a (k + 2) then V1 a (k + 2)%Z - L a (k + 2)%Z else 0)) * (t * wvec k v2 v3 b) = 0).
      { destruct (Z_le_gt_dec l b) as [X1|X1]; [destruct (Z_le_gt_dec b i) as [X2|X2]|].
        - destruct (inbb_spec a k); [lia|]. destruct (inbb_spec a (k + 1)); [lia|]. destruct (inbb_spec a (k + 2)); [lia|]. ring.
        - rewrite (hq_w_out l i k v2 v3 Hk HV b) by lia. ring.
        - rewrite (hq_w_out l i k v2 v3 Hk HV b) by lia. ring. }
      rewrite Z0. ring.
  Qed.
  Lemma e1_frob : frob2 lo hi e1 <= y * y.
  Proof.
    eapply Rle_trans; [apply (frob_rows3 lo hi e1 k d); [lia| |]|exact HY].
    - intros a b Ha Hb. unfold e1. destruct (inbb_spec a b) as [[Ia Ib]|]; [apply A1; assumption|rewrite Rabs_R0; exact Hd].
    - intros a b Ha Hb Hn. unfold e1. destruct (inbb_spec a b) as [[Ia Ib]|]; [rewrite A2 by assumption; ring|reflexivity].
  Qed.
  Lemma e2_frob : frob2 lo hi e2 <= y * y.
  Proof.
    eapply Rle_trans; [apply (frob_cols3 lo hi e2 k d); [lia| |]|exact HY].
    - intros a b Ha Hb. unfold e2. destruct (inbb_spec a b) as [[Ia Ib]|]; [apply B1; assumption|rewrite Rabs_R0; exact Hd].
    - intros a b Ha Hb Hn. unfold e2. destruct (inbb_spec a b) as [[Ia Ib]|]; [rewrite B2 by assumption; ring|reflexivity].
  Qed.
  Lemma step_simf A x Q : simf lo hi A x G Q -> 0 <= x -> simf lo hi A (x + 2 * y) G2 (mm Q P).
  Proof.
    intros S Hx. apply simf_ext with (madd (conj_by lo hi P G) (madd (mm e1 P) e2)); [|intros; symmetry; apply G2_eq; assumption].
    apply simf_add; [apply simf_conj; [exact S|exact P_orth]|exact Hx|lra|].
    replace (2 * y) with (y + y) by ring. apply frob_add; [lra|exact Hy| |exact e2_frob]. rewrite frob_right by exact P_orth. exact e1_frob.
  Qed.
  Lemma step_chase : chase lo hi l i (k + 1) G2.
  Proof.
    constructor.
    - intros a b Ha Hb Hlt Hn. unfold G2. destruct (inbb_spec a b) as [[Ia Ib]|N]; [apply C1; assumption|].
      destruct (Z_lt_le_dec b k) as [Bk|Bk].
      + rewrite (hq_G'_left l i k G v2 v3 t Hk HV) by assumption. destruct (Z.eq_dec b (k - 1)) as [->|].
        * destruct (Z_lt_le_dec l k).
          { rewrite (hq_L_rows l i k G v2 v3 t Hk HV) by lia. apply (ch_bot _ _ _ _ _ _ HC); lia. }
          rewrite (hq_L_cols lo hi l i Hl Hi k G v2 v3 t HC Hk HV) by lia. apply (ch_top _ _ _ _ _ _ HC); lia.
        * rewrite (hq_L_cols lo hi l i Hl Hi k G v2 v3 t HC Hk HV) by lia. apply (ch_low _ _ _ _ _ _ HC); [assumption|assumption|assumption|]. unfold hq_bulge. lia.
      + assert (k + 4 <= a)%Z. { destruct (Z_le_gt_dec (k + 4) a); [assumption|]. exfalso. apply Hn. unfold hq_bulge. lia. }
        unfold rright. rewrite (hq_row_zero4 lo hi l i Hl Hi k G v2 v3 t HC Hk HV) by lia. rewrite hq_L_rows3 by lia.
        rewrite (ch_low _ _ _ _ _ _ HC a b); [ring|assumption|assumption|assumption|]. unfold hq_bulge. lia.
    - intros a b Ha Hb H. unfold G2. destruct (inbb_spec a b) as [[Ia Ib]|N]; [lia|]. rewrite (hq_G'_left l i k G v2 v3 t Hk HV) by lia.
      rewrite (hq_L_cols lo hi l i Hl Hi k G v2 v3 t HC Hk HV) by lia. apply (ch_top _ _ _ _ _ _ HC); lia.
    - intros a b Ha Hb H. unfold G2. destruct (inbb_spec a b) as [[Ia Ib]|N]; [lia|]. unfold rright.
      rewrite (hq_row_zero lo hi l i Hl Hi k G v2 v3 t HC Hk HV) by lia. rewrite (hq_L_rows l i k G v2 v3 t Hk HV) by lia. rewrite (ch_bot _ _ _ _ _ _ HC a b) by lia. ring.
  Qed.
  Lemma step_far a b : ~ inb a -> ~ inb b -> G2 a b = G a b.
  Proof. intros Na Nb. unfold G2. destruct (inbb_spec a b) as [[Ia Ib]|N]; [tauto|]. apply (hq_far l i k G v2 v3 t Hk HV); lia. Qed.
  Lemma step_L_frob : frob2 lo hi L = frob2 lo hi G.
  Proof. rewrite <- (frob_left lo hi G P P_orth). apply frob_ext. intros a b Ha Hb. symmetry. apply rleft_mm; [lia|apply HV'|assumption]. Qed.
End StepF.
