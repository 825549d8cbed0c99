(** One step of dlahqr's sweep in binary64: the block of H undergoes an orthogonal similarity up to a small perturbation. *)
From Coq Require Import Reals Lra.
From Flocq Require Import IEEE754.BinarySingleNaN Core.
From Verif Require Import Base Num Array Blas Lapack Dlahqr Spec SpecR SpecErr SpecSim B64 B64Lemmas B64Nn RsumLemmas RoundErr Near
  FaLemmas LahqrProofs RealMat SimArray SimSweep LanvCalc LanvStd HqReal HqGet HqErrApp HqErrReal.
Open Scope R_scope.

Section Core.
  Context (lm : libm).
  #[local] Instance NBhs : Num b64 := B64 lm.
  Context (n ilo ihi : Z).
  Hypothesis (Hlo : (1 <= ilo)%Z) (Hhi : (ihi <= n)%Z).
  Notation inr a := (ilo <= a <= ihi)%Z.
  Notation mm := (mmul ilo ihi).
  Context (A : Z -> Z -> R) (N y Xm : R).
  Hypothesis (HN : mid (4 * N)) (HA : frob2 ilo ihi A <= N * N).
  Hypothesis (Hy : 0 < y) (HY : 3 * (IZR (ihi - ilo + 1) * (delta (4 * N) * delta (4 * N))) <= y * y) (HX : Xm * (2 * y) <= N).
  Context (ZP : R -> fa b64 -> (Z -> Z -> R) -> Prop).
  Context (l i : Z).
  Hypothesis (Hl : (ilo <= l)%Z) (Hi : (i <= ihi)%Z).
  Notation inb a := (l <= a <= i)%Z.
  Context (hs : fa b64) (Gs : Z -> Z -> R).
  Hypothesis (HBg : big n hs).

  Record wf (x : R) (k : Z) (h z : fa b64) (G Q : Z -> Z -> R) : Prop := {
    f_shape : same_shape h hs;
    f_in : forall a b, inb a -> inb b -> is_finite (get2 h a b) = true /\ B2R (get2 h a b) = G a b;
    f_out : forall a b, (1 <= a <= n)%Z -> (1 <= b <= n)%Z -> ~ (inb a /\ inb b) -> get2 h a b = get2 hs a b;
    f_far : forall a b, inr a -> inr b -> ~ inb a -> ~ inb b -> G a b = Gs a b;
    f_chase : chase ilo ihi l i k G;
    f_sim : simf ilo ihi A (x * (2 * y)) G Q;
    f_z : ZP x z Q
  }.

  Lemma N_pos : 0 < N.
  Proof. destruct (mid_facts _ HN) as (M0 & _). lra. Qed.
  Lemma delta_N : 0 <= delta (4 * N) <= N.
  Proof. rewrite delta_u. destruct (mid_facts _ HN) as (M0 & UM & _ & _ & _ & UMM). lra. Qed.
  Lemma sim_bound x G Q : simf ilo ihi A (x * (2 * y)) G Q -> 0 <= x <= Xm -> frob2 ilo ihi G <= (2 * N) * (2 * N).
  Proof.
    intros S Hx. pose proof N_pos as NP. assert (X0 : 0 <= x * (2 * y)) by (apply Rmult_le_pos; lra). assert (X1 : x * (2 * y) <= N).
    { eapply Rle_trans; [|exact HX]. apply Rmult_le_compat_r; lra. }
    pose proof (simf_norm ilo ihi A _ G Q N S X0 NP HA). nra.
  Qed.

  Section Tail.
    Context (x : R) (k : Z) (h1 h2 h3 z z' : fa b64) (G Q : Z -> Z -> R) (w2 w3 t : R) (r : Z).
    Notation top := (Z.min (k + 2) i).
    Notation L := (rleft k w2 w3 t G).
    Notation P := (refl t (wvec k w2 w3)).
    Notation M h := (fun a b : Z => B2R (get2 h a b)).
    Hypothesis (Hk : (l <= k < i)%Z) (HV : (k + 2 <= i)%Z \/ w3 = 0) (HH : house w2 w3 t) (Hx : 0 <= x <= Xm).
    Hypothesis (HC : chase ilo ihi l i k G) (SI : simf ilo ihi A (x * (2 * y)) G Q).
    (** the array after column k-1 was stored *)
    Hypothesis (S1 : same_shape h1 hs).
    Hypothesis (I1 : forall a b, inb a -> inb b -> (k <= b)%Z -> is_finite (get2 h1 a b) = true /\ B2R (get2 h1 a b) = G a b).
    Hypothesis (I2 : forall a b, inb a -> inb b -> (b < k)%Z -> near_r (get2 h1 a b) (L a b) (delta (4 * N))).
    Hypothesis (I3 : forall a b, inb a -> inb b -> (b < k)%Z -> ~ (k <= a <= k + 2)%Z -> B2R (get2 h1 a b) = L a b).
    Hypothesis (I4 : forall a b, inb a -> inb b -> (b < k)%Z -> (b + 1 < a)%Z -> B2R (get2 h1 a b) = 0).
    Hypothesis (O1 : forall a b, (1 <= a <= n)%Z -> (1 <= b <= n)%Z -> ~ (inb a /\ inb b) -> get2 h1 a b = get2 hs a b).
    Hypothesis (FA : forall a b, inr a -> inr b -> ~ inb a -> ~ inb b -> G a b = Gs a b).
    (** the left stage *)
    Hypothesis (S2 : same_shape h2 h1).
    Hypothesis (L1 : forall a b, (k <= a <= top)%Z -> (k <= b <= i)%Z -> (forall c, (k <= c <= top)%Z -> bnd (4 * N) (get2 h1 c b)) ->
      near_r (get2 h2 a b) (rleft k w2 w3 t (M h1) a b) (delta (4 * N))).
    Hypothesis (L2 : forall a b, (1 <= a <= n)%Z -> (1 <= b <= n)%Z -> ~ ((k <= a <= top)%Z /\ (k <= b <= i)%Z) -> get2 h2 a b = get2 h1 a b).
    (** the right stage *)
    Hypothesis (S3 : same_shape h3 h2) (Hr : (r <= i)%Z) (Hr2 : r = i \/ (k + 3 <= r)%Z).
    Hypothesis (R1 : forall a b, (l <= a <= r)%Z -> (k <= b <= top)%Z -> (forall c, (k <= c <= top)%Z -> bnd (4 * N) (get2 h2 a c)) ->
      near_r (get2 h3 a b) (rright k w2 w3 t (M h2) a b) (delta (4 * N))).
    Hypothesis (R2 : forall a b, (1 <= a <= n)%Z -> (1 <= b <= n)%Z -> ~ ((l <= a <= r)%Z /\ (k <= b <= top)%Z) -> get2 h3 a b = get2 h2 a b).
    Hypothesis (R3 : forall a b, (l <= a <= r)%Z -> (k <= b <= top)%Z -> (forall c, (k <= c <= top)%Z -> zf (get2 h2 a c)) -> zf (get2 h3 a b)).
    Hypothesis (ZI : ZP (x + 1) z' (mm Q P)).

    Lemma G_bound a b : inr a -> inr b -> Rabs (G a b) <= 2 * N.
    Proof. intros Ha Hb. apply (frob_bound ilo ihi); [assumption|assumption|pose proof N_pos; lra|]. apply (sim_bound x G Q); assumption. Qed.
    Lemma L_bound a b : inr a -> inr b -> Rabs (L a b) <= 2 * N.
    Proof.
      intros Ha Hb. apply (frob_bound ilo ihi); [assumption|assumption|pose proof N_pos; lra|].
      rewrite (step_L_frob ilo ihi l i Hl Hi k G w2 w3 t Hk HV HH). apply (sim_bound x G Q); assumption.
    Qed.
    Lemma h1_bnd c b : inb c -> (k <= b <= i)%Z -> bnd (4 * N) (get2 h1 c b).
    Proof. intros Hc Hb. destruct (I1 c b) as [F E]; [lia|lia|lia|]. split; [exact F|]. rewrite E. pose proof (G_bound c b ltac:(lia) ltac:(lia)). pose proof N_pos. lra. Qed.
    (** rleft of the array equals rleft of G in columns k..i *)
    Lemma left_eq a b : inb a -> (k <= b <= i)%Z -> rleft k w2 w3 t (M h1) a b = L a b.
    Proof.
      intros Ha Hb. unfold rleft. cbv beta. rewrite (proj2 (I1 a b ltac:(lia) ltac:(lia) ltac:(lia))), (proj2 (I1 k b ltac:(lia) ltac:(lia) ltac:(lia))), (proj2 (I1 (k + 1)%Z b ltac:(lia) ltac:(lia) ltac:(lia))).
      rewrite (hq_third l i k w3 Hk HV (B2R (get2 h1 (k + 2) b)) (G (k + 2)%Z b)); [reflexivity|]. intros. apply I1; lia.
    Qed.
    Lemma h2_near a b : inb a -> inb b -> near_r (get2 h2 a b) (L a b) (delta (4 * N)).
    Proof.
      intros Ha Hb. pose proof delta_N as [D0 _]. destruct (Z_lt_le_dec b k) as [Bk|Bk].
      - rewrite L2 by lia. apply I2; assumption.
      - destruct (Z_le_gt_dec k a) as [X1|X1]; [destruct (Z_le_gt_dec a top) as [X2|X2]|].
        + rewrite <- (left_eq a b) by lia. apply L1; [lia|lia|]. intros c Hc. apply h1_bnd; lia.
        + rewrite L2 by lia. destruct (I1 a b) as [F E]; [lia|lia|lia|]. split; [exact F|]. rewrite E. rewrite hq_L_rows3 by lia. rewrite Rminus_diag_eq, Rabs_R0 by reflexivity. exact D0.
        + rewrite L2 by lia. destruct (I1 a b) as [F E]; [lia|lia|lia|]. split; [exact F|]. rewrite E. rewrite (hq_L_rows l i k G w2 w3 t Hk HV) by lia. rewrite Rminus_diag_eq, Rabs_R0 by reflexivity. exact D0.
    Qed.
    Lemma h2_eq a b : inb a -> inb b -> ~ (k <= a <= k + 2)%Z -> B2R (get2 h2 a b) = L a b.
    Proof.
      intros Ha Hb Hn. rewrite L2 by lia. destruct (Z_lt_le_dec b k) as [Bk|Bk]; [apply I3; assumption|].
      destruct (I1 a b) as [F E]; [lia|lia|lia|]. rewrite E. unfold rleft. rewrite wvec_out by lia. ring.
    Qed.
    Lemma h2_bnd a b : inb a -> inb b -> bnd (4 * N) (get2 h2 a b).
    Proof.
      intros Ha Hb. destruct (h2_near a b Ha Hb) as [F E]. split; [exact F|]. pose proof (L_bound a b ltac:(lia) ltac:(lia)). pose proof delta_N.
      replace (B2R (get2 h2 a b)) with (L a b + (B2R (get2 h2 a b) - L a b)) by ring. eapply Rle_trans; [apply Rabs_triang|]. lra.
    Qed.
    Lemma low_row a b : inb a -> (k + 4 <= a)%Z -> (k <= b <= top)%Z -> zf (get2 h2 a b).
    Proof.
      intros Ha H4 Hb. split; [apply h2_near; lia|]. rewrite h2_eq by lia. rewrite hq_L_rows3 by lia.
      apply (ch_low _ _ _ _ _ _ HC); [lia|lia|lia|]. unfold hq_bulge. lia.
    Qed.
    Lemma right_id a b : inb a -> (k + 4 <= a)%Z -> rright k w2 w3 t (M h2) a b = B2R (get2 h2 a b).
    Proof.
      intros Ha H4. unfold rright. cbv beta. rewrite (proj2 (low_row a k ltac:(lia) ltac:(lia) ltac:(lia))), (proj2 (low_row a (k + 1)%Z ltac:(lia) ltac:(lia) ltac:(lia))).
      rewrite (hq_third l i k w3 Hk HV (B2R (get2 h2 a (k + 2))) 0); [ring|]. intros. apply low_row; lia.
    Qed.
    Lemma right_out a b : inb a -> ~ (k <= b <= top)%Z -> rright k w2 w3 t (M h2) a b = B2R (get2 h2 a b).
    Proof. intros Ha Hn. unfold rright. cbv beta.
      assert (W : wvec k w2 w3 b = 0) by (destruct (Z_le_gt_dec k b), (Z_le_gt_dec b (k + 2)); try (apply wvec_out; lia); apply (hq_w_out l i k w2 w3 Hk HV b); lia).
      rewrite W. ring. Qed.
    Lemma h3_near a b : inb a -> inb b -> near_r (get2 h3 a b) (rright k w2 w3 t (M h2) a b) (delta (4 * N)).
    Proof.
      intros Ha Hb. pose proof delta_N as [D0 _].
      assert (ID : get2 h3 a b = get2 h2 a b -> rright k w2 w3 t (M h2) a b = B2R (get2 h2 a b) -> near_r (get2 h3 a b) (rright k w2 w3 t (M h2) a b) (delta (4 * N))).
      { intros E1 E2. rewrite E1, E2. split; [apply h2_near; assumption|]. rewrite Rminus_diag_eq, Rabs_R0 by reflexivity. exact D0. }
      destruct (Z_le_gt_dec k b) as [X1|X1]; [destruct (Z_le_gt_dec b top) as [X2|X2]|].
      - destruct (Z_le_gt_dec a r) as [Y1|Y1]; [apply R1; [lia|lia|]; intros c Hc; apply h2_bnd; lia|]. apply ID; [apply R2; lia|apply right_id; lia].
      - apply ID; [apply R2; lia|apply right_out; lia].
      - apply ID; [apply R2; lia|apply right_out; lia].
    Qed.
    Lemma h3_zero a b : inb a -> inb b -> (b + 1 < a)%Z -> ~ hq_bulge (k + 1) a b -> B2R (get2 h3 a b) = 0.
    Proof.
      intros Ha Hb Hlt Hn. destruct (Z_lt_le_dec b k) as [Bk|Bk].
      - rewrite R2 by lia. rewrite L2 by lia. apply I4; assumption.
      - assert (H4 : (k + 4 <= a)%Z). { destruct (Z_le_gt_dec (k + 4) a); [assumption|]. exfalso. apply Hn. unfold hq_bulge. lia. }
        destruct (Z_le_gt_dec b top) as [X2|X2].
        + destruct (Z_le_gt_dec a r) as [Y1|Y1].
          * apply R3; [lia|lia|]. intros c Hc. apply low_row; lia.
          * rewrite R2 by lia. apply low_row; lia.
        + rewrite R2 by lia. rewrite h2_eq by lia. rewrite hq_L_rows3 by lia. apply (ch_low _ _ _ _ _ _ HC); [lia|lia|lia|]. unfold hq_bulge. lia.
    Qed.

    Lemma tail_core : exists G', wf (x + 1) (k + 1) h3 z' G' (mm Q P).
    Proof.
      set (V1 := M h2). set (V2 := M h3).
      pose proof delta_N as [D0 _].
      exists (G2 l i k G w2 w3 t V2). constructor.
      - eapply same_shape_trans; [exact S3|]. eapply same_shape_trans; [exact S2|exact S1].
      - intros a b Ha Hb. split; [apply h3_near; assumption|]. unfold G2. destruct (inbb_spec l i k w3 Hk HV a b); [reflexivity|tauto].
      - intros a b Ha Hb Ho. rewrite R2, L2 by lia. apply O1; assumption.
      - intros a b Ha Hb Na Nb. rewrite (step_far l i k G w2 w3 t Hk HV V2 a b Na Nb). apply FA; assumption.
      - apply (step_chase ilo ihi l i Hl Hi k G w2 w3 t HC Hk HV V2). intros. apply h3_zero; assumption.
      - replace ((x + 1) * (2 * y)) with (x * (2 * y) + 2 * y) by ring.
        apply (step_simf ilo ihi l i Hl Hi k G w2 w3 t Hk HV HH V1 V2 (delta (4 * N)) y D0); try assumption.
        + intros. apply h2_near; assumption.
        + intros. apply h2_eq; assumption.
        + intros. apply h3_near; assumption.
        + intros a b Ha Hb Hn. unfold V2. rewrite R2 by lia. symmetry. apply right_out; lia.
        + apply Rmult_le_pos; lra.
      - exact ZI.
    Qed.
  End Tail.
End Core.
