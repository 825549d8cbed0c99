(** Orthogonal similarity up to a bounded perturbation; one step of dlahqr's sweep.  Real matrices only. *)
From Coq Require Import Reals Lra.
From Verif Require Import Base Num Array Spec ER SpecR SpecSim Lists RsumLemmas RealMat SimArray SimSweep.
Open Scope R_scope.

Definition msub (A B : Z -> Z -> R) (i j : Z) : R := A i j - B i j.
Definition madd (A B : Z -> Z -> R) (i j : Z) : R := A i j + B i j.

Section Sim.
  Context (lo hi : Z).
  Notation inr i := (lo <= i <= hi)%Z.
  Notation mm := (mmul lo hi).
  Notation conj Q A := (conj_by lo hi Q A).

  Lemma mm_sub_l A B C i j : mm (msub A B) C i j = mm A C i j - mm B C i j.
  Proof.
    unfold mmul. replace (Rsum_range (fun k => A i k * C k j) lo hi - Rsum_range (fun k => B i k * C k j) lo hi)
      with (Rsum_range (fun k => A i k * C k j) lo hi + (-1) * Rsum_range (fun k => B i k * C k j) lo hi) by ring.
    rewrite <- Rsum_range_scal, <- Rsum_range_plus. apply Rsum_range_ext. intros. unfold msub. ring.
  Qed.
  Lemma mm_sub_r A B C i j : mm C (msub A B) i j = mm C A i j - mm C B i j.
  Proof.
    unfold mmul. replace (Rsum_range (fun k => C i k * A k j) lo hi - Rsum_range (fun k => C i k * B k j) lo hi)
      with (Rsum_range (fun k => C i k * A k j) lo hi + (-1) * Rsum_range (fun k => C i k * B k j) lo hi) by ring.
    rewrite <- Rsum_range_scal, <- Rsum_range_plus. apply Rsum_range_ext. intros. unfold msub. ring.
  Qed.
  Lemma conj_sub Q A B i j : conj Q (msub A B) i j = conj Q A i j - conj Q B i j.
  Proof.
    unfold conj_by. rewrite <- mm_sub_r. apply mm_ext; [auto|]. intros k Hk. apply mm_sub_l.
  Qed.
  Lemma orth_tr Q : orthogonal lo hi Q -> orthogonal lo hi (mtr Q).
  Proof. intros H i j Hi Hj. destruct (H i j Hi Hj) as [H1 H2]. split; assumption. Qed.
  Lemma conj_back Q e i j : orthogonal lo hi Q -> inr i -> inr j -> conj Q (conj (mtr Q) e) i j = e i j.
  Proof.
    intros HQ Hi Hj. rewrite <- conj_mm. rewrite (conj_ext_Q lo hi _ Rid); [apply conj_id; assumption| |assumption|assumption].
    intros; apply HQ; assumption.
  Qed.

  (** the triangle inequality for the norm sqrt(frob2) *)
  Lemma frob_zero A : frob2 lo hi A <= 0 -> forall i j, inr i -> inr j -> A i j = 0.
  Proof. intros H i j Hi Hj. pose proof (frob_entry lo hi A i j Hi Hj). nra. Qed.
  Lemma frob_mono (f : Z -> Z -> R) A : (forall i j, inr i -> inr j -> A i j * A i j <= f i j) ->
    frob2 lo hi A <= Rsum_range (fun i => Rsum_range (fun j => f i j) lo hi) lo hi.
  Proof. intros H. unfold frob2. apply Rsum_range_le. intros i Hi. apply Rsum_range_le. intros j Hj. apply H; assumption. Qed.
  Lemma frob_lin A B s t : Rsum_range (fun i => Rsum_range (fun j => s * (A i j * A i j) + t * (B i j * B i j)) lo hi) lo hi =
    s * frob2 lo hi A + t * frob2 lo hi B.
  Proof.
    unfold frob2. rewrite <- !Rsum_range_scal, <- Rsum_range_plus. apply Rsum_range_ext. intros i _.
    rewrite <- !Rsum_range_scal, <- Rsum_range_plus. reflexivity.
  Qed.
  Lemma frob_add A B x y : 0 <= x -> 0 < y -> frob2 lo hi A <= x * x -> frob2 lo hi B <= y * y -> frob2 lo hi (madd A B) <= (x + y) * (x + y).
  Proof.
    intros Hx Hy HA HB. destruct (Req_dec x 0) as [->|Nx].
    - rewrite (frob_ext lo hi (madd A B) B); [lra|]. intros i j Hi Hj. unfold madd. rewrite (frob_zero A) by (assumption || lra). ring.
    - assert (Px : 0 < x) by lra.
      apply Rle_trans with ((1 + y / x) * frob2 lo hi A + (1 + x / y) * frob2 lo hi B).
      + rewrite <- frob_lin. apply frob_mono. intros i j _ _. unfold madd. set (a := A i j). set (b := B i j).
        assert (0 <= (y * a - x * b) * (y * a - x * b) / (x * y)).
        { apply Rmult_le_pos; [apply Rle_0_sqr|]. apply Rlt_le, Rinv_0_lt_compat. apply Rmult_lt_0_compat; assumption. }
        replace ((1 + y / x) * (a * a) + (1 + x / y) * (b * b)) with ((a + b) * (a + b) + (y * a - x * b) * (y * a - x * b) / (x * y)); [lra|].
        field. lra.
      + assert (0 < y / x) by (apply Rdiv_lt_0_compat; assumption). assert (0 < x / y) by (apply Rdiv_lt_0_compat; assumption).
        apply Rle_trans with ((1 + y / x) * (x * x) + (1 + x / y) * (y * y)); [apply Rplus_le_compat; apply Rmult_le_compat_l; lra|].
        right. field. lra.
  Qed.
  Lemma trace_add A B : trace lo hi (madd A B) = trace lo hi A + trace lo hi B.
  Proof. unfold trace. rewrite <- Rsum_range_plus. reflexivity. Qed.
  Lemma trace_msub A B : trace lo hi (msub A B) = trace lo hi A - trace lo hi B.
  Proof.
    unfold trace. transitivity (Rsum_range (fun i => A i i) lo hi + -1 * Rsum_range (fun i => B i i) lo hi); [|ring].
    rewrite <- Rsum_range_scal, <- Rsum_range_plus. apply Rsum_range_ext. intros. unfold msub. ring.
  Qed.

  (** G = Q^T*(A - E)*Q, Q orthogonal, E of norm at most x and trace 0 *)
  Record simil (A : Z -> Z -> R) (x : R) (G Q E : Z -> Z -> R) : Prop := {
    s_orth : orthogonal lo hi Q;
    s_eq : forall i j, inr i -> inr j -> G i j = conj Q (msub A E) i j;
    s_small : frob2 lo hi E <= x * x;
    s_tr : trace lo hi E = 0
  }.
  Lemma simil_start A : simil A 0 A Rid (fun _ _ => 0).
  Proof.
    constructor.
    - apply orth_id.
    - intros i j Hi Hj. rewrite conj_id by assumption. unfold msub. ring.
    - unfold frob2. rewrite Rsum_range_zero; [lra|]. intros. apply Rsum_range_zero. intros. ring.
    - unfold trace. apply Rsum_range_zero. reflexivity.
  Qed.
  Lemma simil_weaken A x y G Q E : simil A x G Q E -> 0 <= x <= y -> simil A y G Q E.
  Proof. intros [S1 S2 S3 S4] H. constructor; try assumption. nra. Qed.
  Lemma simil_ext A x G Q E G' Q' : simil A x G Q E -> (forall i j, inr i -> inr j -> G i j = G' i j) ->
    (forall i j, inr i -> inr j -> Q i j = Q' i j) -> simil A x G' Q' E.
  Proof.
    intros [S1 S2 S3 S4] HG HQ. constructor; [eapply orth_ext; eassumption| |assumption|assumption].
    intros i j Hi Hj. rewrite <- HG by assumption. rewrite S2 by assumption. apply conj_ext_Q; assumption.
  Qed.
  Lemma simil_conj A x G Q E P : simil A x G Q E -> orthogonal lo hi P -> simil A x (conj P G) (mm Q P) E.
  Proof.
    intros [S1 S2 S3 S4] HP. constructor; [apply orth_mm; assumption| |assumption|assumption].
    intros i j Hi Hj. rewrite conj_mm. apply conj_ext; assumption.
  Qed.
  Lemma simil_drop A x G Q E e y : simil A x G Q E -> 0 <= x -> 0 < y -> frob2 lo hi e <= y * y -> trace lo hi e = 0 ->
    simil A (x + y) (msub G e) Q (madd E (conj (mtr Q) e)).
  Proof.
    intros [S1 S2 S3 S4] Hx Hy He Ht. constructor; [assumption| | |].
    - intros i j Hi Hj. transitivity (conj Q (msub A E) i j - conj Q (conj (mtr Q) e) i j).
      + unfold msub at 1. rewrite S2, conj_back by assumption. reflexivity.
      + rewrite <- conj_sub. apply conj_ext; [assumption|assumption|]. intros. unfold msub, madd. ring.
    - apply frob_add; [assumption|assumption|assumption|]. rewrite frob_conj; [assumption|apply orth_tr; assumption].
    - rewrite trace_add, S4, trace_conj by (apply orth_tr; assumption). rewrite Ht. ring.
  Qed.
  Lemma simil_trace A x G Q E : simil A x G Q E -> trace lo hi G = trace lo hi A.
  Proof.
    intros [S1 S2 S3 S4]. rewrite (trace_ext lo hi G (conj Q (msub A E))) by (intros; apply S2; assumption).
    rewrite trace_conj by assumption. rewrite trace_msub, S4. ring.
  Qed.
End Sim.

Lemma rlr_comm c v2 v3 t A i j : rleft c v2 v3 t (rright c v2 v3 t A) i j = rright c v2 v3 t (rleft c v2 v3 t A) i j.
Proof. unfold rleft, rright. ring. Qed.

(** ** One step of the chase: the ideal matrix G over lo..=hi, the array only over the active block l..=i *)
Section Block.
  Context (lo hi l i : Z).
  Hypothesis (Hl : (lo <= l)%Z) (Hi : (i <= hi)%Z).
  Notation inr a := (lo <= a <= hi)%Z.
  Notation inb a := (l <= a <= i)%Z.

  (** entries that may be filled before step k *)
  Definition hq_bulge (k a b : Z) : Prop := ((a = k + 1 /\ b = k - 1) \/ (a = k + 2 /\ b = k - 1) \/ (a = k + 2 /\ b = k))%Z.
  Record chase (k : Z) (G : Z -> Z -> R) : Prop := {
    ch_low : forall a b, inr a -> inr b -> (b + 1 < a)%Z -> ~ hq_bulge k a b -> G a b = 0;
    ch_top : forall a b, inr a -> inr b -> (b < l <= a)%Z -> G a b = 0;
    ch_bot : forall a b, inr a -> inr b -> (b <= i < a)%Z -> G a b = 0
  }.

  Section Step.
    Context (k : Z) (G : Z -> Z -> R) (v2 v3 t : R).
    Hypothesis (HC : chase k G) (Hk : (l <= k < i)%Z) (HV : (k + 2 <= i)%Z \/ v3 = 0).
    Hypothesis (KILL : (l < k)%Z -> forall a, inr a -> (k < a)%Z -> rleft k v2 v3 t G a (k - 1)%Z = 0).
    Notation L := (rleft k v2 v3 t G).
    Notation G' := (rright k v2 v3 t L).

    Lemma hq_w_out a : ~ (k <= a <= i)%Z -> wvec k v2 v3 a = 0.
    Proof.
      intros H. destruct (Z.eq_dec a (k + 2)) as [->|]; [|apply wvec_out; lia]. rewrite wvec_2. destruct HV; [lia|assumption].
    Qed.
    Lemma hq_third f g : (inb (k + 2) -> f = g) -> v3 * f = v3 * g.
    Proof. intros H. destruct HV as [|E]; [rewrite H by lia; reflexivity|rewrite E; ring]. Qed.
    Lemma hq_L_rows a b : ~ (k <= a <= i)%Z -> L a b = G a b.
    Proof. intros H. unfold rleft. rewrite hq_w_out by assumption. ring. Qed.
    Lemma hq_L_cols a b : inr b -> (b < k - 1 \/ b < l)%Z -> L a b = G a b.
    Proof.
      intros Hb H. unfold rleft.
      assert (Z0 : forall c, inr c -> (k <= c)%Z -> G c b = 0).
      { intros c Hc Hkc. destruct (Z_lt_le_dec b l); [apply (ch_top _ _ HC); lia|].
        apply (ch_low _ _ HC); [assumption|assumption|lia|]. unfold hq_bulge. lia. }
      rewrite (Z0 k), (Z0 (k + 1)%Z) by lia. rewrite (hq_third (G (k + 2)%Z b) 0) by (intros; apply Z0; lia). ring.
    Qed.
    Lemma hq_L_rows3 a b : (k + 3 <= a)%Z -> L a b = G a b.
    Proof. intros H. unfold rleft. rewrite wvec_out by lia. ring. Qed.
    Lemma hq_row_zero a : inr a -> (i < a \/ k + 4 <= a)%Z -> L a k + v2 * L a (k + 1)%Z + v3 * L a (k + 2)%Z = 0.
    Proof.
      intros Ha H.
      assert (Z0 : forall b, inb b -> (k <= b <= k + 2)%Z -> L a b = 0).
      { intros b Hb Hkb. destruct (Z_lt_le_dec i a); [rewrite hq_L_rows by lia; apply (ch_bot _ _ HC); lia|].
        rewrite hq_L_rows3 by lia. apply (ch_low _ _ HC); [assumption|lia|lia|]. unfold hq_bulge. lia. }
      rewrite (Z0 k), (Z0 (k + 1)%Z) by lia. rewrite (hq_third (L a (k + 2)%Z) 0) by (intros; apply Z0; lia). ring.
    Qed.
    Lemma hq_row_zero4 a : inr a -> (k + 4 <= a)%Z -> L a k + v2 * L a (k + 1)%Z + v3 * L a (k + 2)%Z = 0.
    Proof. intros. apply hq_row_zero; [assumption|lia]. Qed.
    Lemma hq_G'_left a b : (b < k)%Z -> G' a b = L a b.
    Proof. intros H. unfold rright. rewrite (hq_w_out b) by lia. ring. Qed.

    Lemma hq_chase_step : chase (k + 1) G'.
    Proof.
      constructor.
      - intros a b Ha Hb Hlt Hn. destruct (Z_lt_le_dec b k) as [Bk|Bk].
        + rewrite hq_G'_left by assumption. destruct (Z.eq_dec b (k - 1)) as [->|].
          * destruct (Z_lt_le_dec l k); [apply KILL; lia|]. rewrite hq_L_cols by lia. apply (ch_top _ _ HC); lia.
          * rewrite hq_L_cols by lia. apply (ch_low _ _ HC); [assumption|assumption|assumption|]. unfold hq_bulge. lia.
        + assert (k + 4 <= a)%Z. { destruct (Z_le_gt_dec (k + 4) a); [assumption|]. exfalso. apply Hn. unfold hq_bulge. lia. }
          unfold rright. rewrite hq_row_zero4 by lia. rewrite hq_L_rows3 by lia.
          rewrite (ch_low _ _ HC a b); [ring|assumption|assumption|assumption|]. unfold hq_bulge. lia.
      - intros a b Ha Hb H. rewrite hq_G'_left by lia. rewrite hq_L_cols by lia. apply (ch_top _ _ HC); lia.
      - intros a b Ha Hb H. unfold rright. rewrite hq_row_zero by lia. rewrite hq_L_rows by lia. rewrite (ch_bot _ _ HC a b) by lia. ring.
    Qed.

    (** away from the block the ideal matrix is not changed *)
    Lemma hq_far a b : ~ (k <= a <= i)%Z -> ~ (k <= b <= i)%Z -> G' a b = G a b.
    Proof. intros Ha Hb. unfold rright. rewrite (hq_w_out b) by assumption. rewrite hq_L_rows by assumption. ring. Qed.

    (** the array: column k-1 is stored, columns k..=i and then rows l..=r are updated *)
    Context (M1 : Z -> Z -> R) (r : Z).
    Hypothesis (A1 : forall a b, inb a -> inb b -> (k <= b)%Z -> M1 a b = G a b).
    Hypothesis (A2 : forall a b, inb a -> inb b -> (b < k)%Z -> M1 a b = L a b).
    Hypothesis (HR : (r <= i)%Z) (HR2 : r = i \/ (k + 3 <= r)%Z).
    Notation ML := (cols_only k i (rleft k v2 v3 t M1) M1).
    Notation MR := (rows_only l r (rright k v2 v3 t ML) ML).
    Lemma hq_ML a b : inb a -> inb b -> ML a b = L a b.
    Proof.
      intros Ha Hb. unfold cols_only. destruct (Z.leb_spec k b), (Z.leb_spec b i); cbn [andb]; try lia.
      - unfold rleft. rewrite (A1 a b), (A1 k b), (A1 (k + 1)%Z b) by lia.
        rewrite (hq_third (M1 (k + 2)%Z b) (G (k + 2)%Z b)) by (intros; apply A1; lia). reflexivity.
      - apply A2; lia.
    Qed.
    Lemma hq_MR a b : inb a -> inb b -> MR a b = G' a b.
    Proof.
      intros Ha Hb. unfold rows_only. destruct (Z.leb_spec l a), (Z.leb_spec a r); cbn [andb]; try lia.
      - unfold rright. rewrite !hq_ML by lia. rewrite (hq_third (ML a (k + 2)%Z) (L a (k + 2)%Z)) by (intros; apply hq_ML; lia). reflexivity.
      - rewrite hq_ML by assumption. unfold rright. rewrite hq_row_zero4 by lia. ring.
    Qed.
    Lemma hq_MR_out a b : ~ (inb a /\ inb b) -> MR a b = M1 a b.
    Proof.
      intros Ho.
      assert (X : forall b, ~ (inb a /\ inb b) -> ML a b = M1 a b).
      { intros b' Hb'. unfold cols_only. destruct (Z.leb_spec k b'), (Z.leb_spec b' i); cbn [andb]; try reflexivity.
        unfold rleft. rewrite (hq_w_out a) by lia. ring. }
      unfold rows_only. destruct (Z.leb_spec l a), (Z.leb_spec a r); cbn [andb]; try (apply X; assumption).
      unfold rright. rewrite (hq_w_out b) by lia. rewrite X by assumption. ring.
    Qed.
  End Step.
End Block.

(** the first reflector when the sweep starts below the top of the block: dropping [hq_drop] makes it act on column m-1 as the code does *)
Definition hq_drop (m : Z) (x t v2 v3 : R) (a b : Z) : R :=
  if (b =? m - 1)%Z then x * t * ((if (a =? m)%Z then 1 else 0) + (1 - t) * wvec m v2 v3 a) else 0.
Section Drop.
  Context (lo hi m : Z) (x t v2 v3 : R) (Gs : Z -> Z -> R).
  Hypothesis (HH : house v2 v3 t) (Hm : (lo < m)%Z) (Hm2 : (m + 2 <= hi)%Z) (HX : Gs m (m - 1)%Z = x).
  Hypothesis (Hcol : forall a, (m < a <= m + 2)%Z -> Gs a (m - 1)%Z = 0).
  Notation e := (hq_drop m x t v2 v3).
  Lemma house_cases : t = 0 \/ t * (1 + v2 * v2 + v3 * v3) = 2.
  Proof. unfold house in HH. apply Rmult_integral in HH as [E|E]; [left|right]; lra. Qed.
  Lemma house_range : 0 <= t <= 2.
  Proof. destruct house_cases as [->|E]; [lra|]. assert (0 <= v2 * v2 + v3 * v3) by nra. assert (0 < t) by nra. split; nra. Qed.
  Lemma drop_0 : e m (m - 1)%Z = x * t * (2 - t).
  Proof. unfold hq_drop. rewrite !Z.eqb_refl, wvec_0. ring. Qed.
  Lemma drop_1 : e (m + 1)%Z (m - 1)%Z = x * t * (1 - t) * v2.
  Proof. unfold hq_drop. rewrite !Z.eqb_refl, wvec_1. destruct (Z.eqb_spec (m + 1) m); [lia|]. ring. Qed.
  Lemma drop_2 : e (m + 2)%Z (m - 1)%Z = x * t * (1 - t) * v3.
  Proof. unfold hq_drop. rewrite !Z.eqb_refl, wvec_2. destruct (Z.eqb_spec (m + 2) m); [lia|]. ring. Qed.
  Lemma drop_far a b : (b <> m - 1 \/ a < m \/ m + 2 < a)%Z -> e a b = 0.
  Proof.
    intros H. unfold hq_drop. destruct (Z.eqb_spec b (m - 1)); [|reflexivity]. destruct (Z.eqb_spec a m); [lia|]. rewrite wvec_out by lia. ring.
  Qed.
  Lemma drop_left a : (m <= a <= m + 2)%Z -> rleft m v2 v3 t (msub Gs e) a (m - 1)%Z = if (a =? m)%Z then x * (1 - t) else 0.
  Proof.
    intros Ha. unfold rleft, msub. rewrite drop_0, drop_1, drop_2, HX, (Hcol (m + 1)%Z), (Hcol (m + 2)%Z) by lia.
    set (u := v2 * v2 + v3 * v3).
    replace (x - x * t * (2 - t) + v2 * (0 - x * t * (1 - t) * v2) + v3 * (0 - x * t * (1 - t) * v3)) with (x * ((1 - t) * (1 - t) - t * (1 - t) * u)) by (unfold u; ring).
    assert (S : ((1 - t) * (1 - t) - t * (1 - t) * u) * t = t * (t - 1)).
    { destruct house_cases as [->|E]; [ring|]. replace (t * (1 - t) * u) with ((1 - t) * (2 - t)) by (unfold u; nra). ring. }
    assert (a = m \/ a = m + 1 \/ a = m + 2)%Z as [-> | [-> | ->]] by lia.
    - rewrite Z.eqb_refl, wvec_0, HX, drop_0. transitivity (x - x * t * (2 - t) - x * (((1 - t) * (1 - t) - t * (1 - t) * u) * t)); [ring|]. rewrite S. ring.
    - destruct (Z.eqb_spec (m + 1) m); [lia|]. rewrite wvec_1, drop_1, (Hcol (m + 1)%Z) by lia.
      transitivity (- (x * t * (1 - t) * v2) - x * (((1 - t) * (1 - t) - t * (1 - t) * u) * t) * v2); [ring|]. rewrite S. ring.
    - destruct (Z.eqb_spec (m + 2) m); [lia|]. rewrite wvec_2, drop_2, (Hcol (m + 2)%Z) by lia.
      transitivity (- (x * t * (1 - t) * v3) - x * (((1 - t) * (1 - t) - t * (1 - t) * u) * t) * v3); [ring|]. rewrite S. ring.
  Qed.
  (** squares of a matrix that is zero outside rows m..m+2 of column m-1 *)
  Lemma frob_col3 A : (forall a b, (b <> m - 1 \/ a < m \/ m + 2 < a)%Z -> A a b = 0) ->
    frob2 lo hi A = A m (m - 1)%Z * A m (m - 1)%Z + A (m + 1)%Z (m - 1)%Z * A (m + 1)%Z (m - 1)%Z + A (m + 2)%Z (m - 1)%Z * A (m + 2)%Z (m - 1)%Z.
  Proof.
    intros HZ. unfold frob2. transitivity (Rsum_range (fun a => A a (m - 1)%Z * A a (m - 1)%Z) lo hi).
    - apply Rsum_range_ext. intros a _. apply (Rsum_range_one (fun j => A a j * A a j) lo hi (m - 1)); [lia|].
      intros b _ Hb. rewrite HZ by lia. ring.
    - rewrite (Rsum_range_sub _ lo hi m (m + 2)) by (lia || (intros; rewrite HZ by lia; ring)).
      rewrite !Rsum_range_cons, Rsum_range_nil by lia. replace (m + 1 + 1)%Z with (m + 2)%Z by lia. ring.
  Qed.
  Lemma drop_frob : frob2 lo hi e = x * x * (t * t * (v2 * v2 + v3 * v3)).
  Proof.
    rewrite (frob_col3 e) by apply drop_far. rewrite drop_0, drop_1, drop_2.
    destruct house_cases as [->|E]; [ring|]. set (u := v2 * v2 + v3 * v3). assert (EU : t * u = 2 - t) by (unfold u; lra).
    transitivity (x * x * ((t * (2 - t)) * (t * (2 - t)) + (1 - t) * (1 - t) * t * (t * u))); [unfold u; ring|].
    rewrite EU. transitivity (x * x * (t * (2 - t))); [ring|]. rewrite <- EU. ring.
  Qed.
  Lemma drop_trace : trace lo hi e = 0.
  Proof. unfold trace. apply Rsum_range_zero. intros a Ha. apply drop_far. lia. Qed.
  (** the matrix does not grow *)
  Lemma drop_norm : frob2 lo hi (msub Gs e) <= frob2 lo hi Gs.
  Proof.
    set (B := fun a b => if ((b =? m - 1) && (m <=? a) && (a <=? m + 2))%Z%bool then 0 else Gs a b).
    set (inC := fun a b : Z => ((b =? m - 1) && (m <=? a) && (a <=? m + 2))%Z%bool).
    assert (SP : forall A, (forall a b, (lo <= a <= hi)%Z -> (lo <= b <= hi)%Z -> inC a b = false -> A a b = Gs a b) ->
      frob2 lo hi A = frob2 lo hi B + frob2 lo hi (fun a b => if inC a b then A a b else 0)).
    { intros A HA. unfold frob2. rewrite <- Rsum_range_plus. apply Rsum_range_ext. intros a Ha. rewrite <- Rsum_range_plus.
      apply Rsum_range_ext. intros b Hb. unfold B. fold (inC a b). destruct (inC a b) eqn:E; [ring|]. rewrite HA by assumption. ring. }
    assert (Z0 : forall (A : Z -> Z -> R) a b, (b <> m - 1 \/ a < m \/ m + 2 < a)%Z -> (if inC a b then A a b else 0) = 0).
    { intros A a b H. unfold inC. destruct (Z.eqb_spec b (m - 1)), (Z.leb_spec m a), (Z.leb_spec a (m + 2)); cbn; try reflexivity; lia. }
    assert (I : forall a, (m <= a <= m + 2)%Z -> inC a (m - 1)%Z = true).
    { intros a Ha. unfold inC. rewrite Z.eqb_refl. destruct (Z.leb_spec m a), (Z.leb_spec a (m + 2)); cbn; try reflexivity; lia. }
    rewrite (SP (msub Gs e)), (SP Gs).
    - apply Rplus_le_compat_l. rewrite !frob_col3 by (intros; apply Z0; assumption). rewrite !I by lia.
      unfold msub. rewrite HX, (Hcol (m + 1)%Z), (Hcol (m + 2)%Z) by lia. rewrite drop_0, drop_1, drop_2.
      pose proof house_range as T.
      destruct house_cases as [->|E]; [lra|]. set (u := v2 * v2 + v3 * v3). assert (EU : t * u = 2 - t) by (unfold u; lra).
      apply Rle_trans with (x * x * ((1 - t) * (1 - t))); [|nra].
      right. transitivity (x * x * (((1 - t) * (1 - t)) * ((1 - t) * (1 - t)) + (1 - t) * (1 - t) * t * (t * u))); [unfold u; ring|].
      rewrite EU. ring.
    - reflexivity.
    - intros a b Ha Hb H. unfold msub. rewrite drop_far; [ring|]. unfold inC in H.
      destruct (Z.eqb_spec b (m - 1)), (Z.leb_spec m a), (Z.leb_spec a (m + 2)); cbn in H; try discriminate; lia.
  Qed.
End Drop.

(** ** the rotation of columns / rows c, c+1 *)
Definition rotm (c : Z) (cs sn : R) (a b : Z) : R :=
  if (a =? c)%Z then (if (b =? c)%Z then cs else if (b =? c + 1)%Z then - sn else 0)
  else if (a =? c + 1)%Z then (if (b =? c)%Z then sn else if (b =? c + 1)%Z then cs else 0)
  else Rid a b.
Definition rotr (c : Z) (cs sn : R) (A : Z -> Z -> R) (a b : Z) : R :=
  if (b =? c)%Z then cs * A a c + sn * A a (c + 1)%Z else if (b =? c + 1)%Z then cs * A a (c + 1)%Z - sn * A a c else A a b.
Definition rotl (c : Z) (cs sn : R) (A : Z -> Z -> R) (a b : Z) : R :=
  if (a =? c)%Z then cs * A c b + sn * A (c + 1)%Z b else if (a =? c + 1)%Z then cs * A (c + 1)%Z b - sn * A c b else A a b.
Section Rot.
  Context (lo hi c : Z) (cs sn : R).
  Hypothesis (Hc : (lo <= c)%Z) (Hc2 : (c + 1 <= hi)%Z) (CS : cs * cs + sn * sn = 1).
  Notation P := (rotm c cs sn).
  Ltac zc := repeat match goal with
    | |- context [(?a =? ?b)%Z] => destruct (Z.eqb_spec a b); try (exfalso; lia); subst
    end.
  Lemma rotr_mm A a b : (lo <= b <= hi)%Z -> mmul lo hi A P a b = rotr c cs sn A a b.
  Proof.
    intros Hb. unfold mmul, rotr.
    destruct (Z.eqb_spec b c) as [->|N1]; [|destruct (Z.eqb_spec b (c + 1)) as [->|N2]].
    - rewrite (Rsum_range_sub _ lo hi c (c + 1)); try lia.
      + rewrite !Rsum_range_cons, Rsum_range_nil by lia. unfold rotm. zc. ring.
      + intros j Hj Hn. unfold rotm, Rid. zc. ring.
    - rewrite (Rsum_range_sub _ lo hi c (c + 1)); try lia.
      + rewrite !Rsum_range_cons, Rsum_range_nil by lia. unfold rotm. zc. ring.
      + intros j Hj Hn. unfold rotm, Rid. zc. ring.
    - rewrite (Rsum_range_one _ lo hi b) by (assumption || (intros; unfold rotm, Rid; zc; ring)). unfold rotm, Rid. zc. ring.
  Qed.
  Lemma rotl_mm A a b : (lo <= a <= hi)%Z -> mmul lo hi (mtr P) A a b = rotl c cs sn A a b.
  Proof.
    intros Ha. rewrite mm_tr. change (mmul lo hi (mtr A) (mtr (mtr P)) b a) with (mmul lo hi (mtr A) P b a). rewrite rotr_mm by assumption. reflexivity.
  Qed.
  Lemma rotm_orth : orthogonal lo hi P.
  Proof.
    intros a b Ha Hb. split.
    - rewrite rotl_mm by assumption. unfold rotl, rotm, Rid. zc; try reflexivity; nra.
    - rewrite mm_tr.
      change (mmul lo hi (mtr (mtr P)) (mtr P) b a) with (mmul lo hi P (mtr P) b a).
      unfold mmul. 
      assert (X : forall a b, (lo <= a <= hi)%Z -> (lo <= b <= hi)%Z -> Rsum_range (fun k => P a k * mtr P k b) lo hi = Rid a b).
      { clear a b Ha Hb. intros a b Ha Hb. unfold mtr.
        assert (FAR : forall a b, (lo <= a <= hi)%Z -> (lo <= b <= hi)%Z -> ~ (c <= a <= c + 1)%Z -> Rsum_range (fun k => P a k * P b k) lo hi = Rid a b).
        { clear a b Ha Hb. intros a b Ha Hb Na. rewrite (Rsum_range_one _ lo hi a) by (assumption || (intros; unfold rotm, Rid; zc; ring)). unfold rotm, Rid. zc; ring. }
        destruct (Z_le_gt_dec c a) as [A1|A1]; [destruct (Z_le_gt_dec a (c + 1)) as [A2|A2]|]; [|apply FAR; lia|apply FAR; lia].
        destruct (Z_le_gt_dec c b) as [B1|B1]; [destruct (Z_le_gt_dec b (c + 1)) as [B2|B2]|];
          try (rewrite (Rsum_range_ext _ (fun k => P b k * P a k)) by (intros; ring); rewrite FAR by lia; unfold Rid; rewrite Z.eqb_sym; reflexivity).
        rewrite (Rsum_range_sub _ lo hi c (c + 1)) by (lia || (intros; unfold rotm, Rid; zc; ring)).
        rewrite !Rsum_range_cons, Rsum_range_nil by lia. unfold rotm, Rid. zc; nra. }
      rewrite X by assumption. unfold Rid. rewrite Z.eqb_sym. reflexivity.
  Qed.
  Lemma rot_conj A a b : (lo <= a <= hi)%Z -> (lo <= b <= hi)%Z -> conj_by lo hi P A a b = rotl c cs sn (rotr c cs sn A) a b.
  Proof.
    intros Ha Hb. unfold conj_by. rewrite (mm_ext lo hi _ (mtr P) _ (rotr c cs sn A)); [apply rotl_mm; assumption|auto|].
    intros. apply rotr_mm; assumption.
  Qed.
End Rot.
