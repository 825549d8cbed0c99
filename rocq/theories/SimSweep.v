(** One step of the bulge chase as a similarity: no arrays, real matrices only. *)
From Coq Require Import Reals Lra.
From Verif Require Import Base Num Array Spec ER SpecR SpecSim Lists RsumLemmas RealMat SimArray.
Open Scope R_scope.

Lemma orth_ext lo hi Q Q' : (forall i j, (lo <= i <= hi)%Z -> (lo <= j <= hi)%Z -> Q i j = Q' i j) -> orthogonal lo hi Q -> orthogonal lo hi Q'.
Proof.
  intros E H i j Hi Hj. destruct (H i j Hi Hj) as [H1 H2]. split.
  - rewrite <- H1. apply mm_ext; intros; unfold mtr; symmetry; apply E; assumption.
  - rewrite <- H2. apply mm_ext; intros; unfold mtr; symmetry; apply E; assumption.
Qed.
Lemma conj_ext_Q lo hi Q Q' A i j : (forall i j, (lo <= i <= hi)%Z -> (lo <= j <= hi)%Z -> Q i j = Q' i j) ->
  (lo <= i <= hi)%Z -> (lo <= j <= hi)%Z -> conj_by lo hi Q A i j = conj_by lo hi Q' A i j.
Proof.
  intros E Hi Hj. apply mm_ext.
  - intros; unfold mtr; apply E; assumption.
  - intros. apply mm_ext; [reflexivity|]. intros; apply E; assumption.
Qed.

Lemma frob_ext lo hi A A' : (forall i j, (lo <= i <= hi)%Z -> (lo <= j <= hi)%Z -> A i j = A' i j) -> frob2 lo hi A = frob2 lo hi A'.
Proof.
  intros E. unfold frob2. apply Rsum_range_ext. intros i Hi. apply Rsum_range_ext. intros j Hj. rewrite E by assumption. reflexivity.
Qed.

Section Sweep.
  Context (n lo hi ktop kbot : Z) (H0 : Z -> Z -> R) (D : R).
  Notation inr i := (lo <= i <= hi)%Z.
  Hypothesis (Hlo : (1 <= lo <= ktop)%Z) (Hk : (ktop < kbot)%Z) (Hhi : (kbot <= hi <= n)%Z).

  (** entries that the travelling bulge may fill before step k *)
  Definition bulge_at (k i j : Z) : Prop :=
    (ktop <= k)%Z /\ ((i = k + 2 /\ j = k) \/ (i = k + 3 /\ j = k) \/ (i = k + 3 /\ j = k + 1))%Z.

  Record inv (k : Z) (M G Q : Z -> Z -> R) (t u2 u3 : R) : Prop := {
    i_orth : orthogonal lo hi Q;
    i_id : identity_outside ktop kbot Q;
    i_sim : forall i j, inr i -> inr j -> G i j = conj_by lo hi Q H0 i j;
    i_low : forall i j, inr i -> inr j -> (j + 1 < i)%Z -> ~ bulge_at k i j -> G i j = 0;
    i_iso : forall i j, inr i -> inr j -> (kbot < i /\ j <= kbot \/ ktop <= i /\ j < ktop)%Z -> G i j = 0;
    i_todo : forall i j, inr i -> inr j -> (k + 3 <= i)%Z -> M i j = H0 i j;
    i_row : forall j, inr (k + 3) -> inr j -> G (k + 3)%Z j = rright k u2 u3 t M (k + 3)%Z j;
    i_done : forall i j, inr i -> inr j -> i <> (k + 3)%Z -> M i j = G i j \/ (ktop <= j < k /\ i = j + 1)%Z /\ M i j = 0 /\ Rabs (G i j) <= D;
    i_out : forall i j, (1 <= i <= n)%Z -> (1 <= j <= n)%Z -> ~ (inr i /\ inr j) -> M i j = H0 i j;
    i_nz : (ktop <= k)%Z -> (k + 3 <= kbot)%Z -> t <> 0 /\ u3 <> 0;
    i_t0 : (k < ktop)%Z -> t = 0
  }.

  Lemma inv_row_low k M G Q t u2 u3 j : inv k M G Q t u2 u3 -> inr (k + 3) -> inr j -> (j < k)%Z -> M (k + 3)%Z j = G (k + 3)%Z j.
  Proof.
    intros I Hr Hj Hlt. rewrite (i_row _ _ _ _ _ _ _ I j Hr Hj). unfold rright. rewrite (wvec_out k u2 u3 j) by lia. ring.
  Qed.

  Section Step.
    Context (k : Z) (M G Q : Z -> Z -> R) (t u2 u3 : R) (I : inv k M G Q t u2 u3) (Hkk : (ktop - 1 <= k <= kbot - 2)%Z).
    Context (v2 v3 tau : R) (HH : house v2 v3 tau) (HV : (k + 3 <= kbot)%Z \/ v3 = 0).
    Context (M2 M6 : Z -> Z -> R).
    Notation c := (k + 1)%Z.
    Hypothesis (A1 : forall i j, inr i -> inr j -> (c <= j)%Z -> M2 i j = G i j).
    Hypothesis (A2 : forall i, inr i -> inr k -> M2 i k = rleft c v2 v3 tau G i k).
    Hypothesis (A3 : forall i j, inr i -> inr j -> (j < k)%Z -> M2 i j = M i j).
    Hypothesis (A4 : forall i j, inr i -> inr j -> (k + 4 <= i)%Z -> M2 i j = M i j).
    Hypothesis (A5 : forall i j, (1 <= i <= n)%Z -> (1 <= j <= n)%Z -> ~ (inr i /\ inr j) -> M2 i j = H0 i j).
    Notation rb := (Z.min kbot (k + 3)).
    Notation M3 := (rows_only lo rb (rright c v2 v3 tau M2) M2).
    Hypothesis (E1 : forall i j, (1 <= i <= n)%Z -> (1 <= j <= n)%Z -> (c <= j <= hi)%Z -> M6 i j = rleft c v2 v3 tau M3 i j).
    Hypothesis (E2 : forall i j, (1 <= i <= n)%Z -> (1 <= j <= n)%Z -> (j <= k \/ hi < j)%Z ->
      M6 i j = M3 i j \/ (ktop <= k /\ i = c /\ j = k)%Z /\ M6 i j = 0 /\ Rabs (M3 i j) <= D).
    Hypothesis (NZ : (k + 4 <= kbot)%Z -> tau <> 0 /\ v3 <> 0).
    Notation R1 := (rright c v2 v3 tau G).
    Notation G' := (rleft c v2 v3 tau R1).

    Lemma c_in : inr c /\ inr (k + 2).
    Proof. lia. Qed.
    (** the third row / column is inside, or has no weight *)
    Lemma third f g : (inr (c + 2) -> f = g) -> v3 * f = v3 * g.
    Proof. intros H. destruct HV as [|E]; [rewrite H by lia; reflexivity|rewrite E; ring]. Qed.

    (** rows below the bulge do not meet the reflector *)
    Lemma below i : inr i -> (rb < i)%Z -> i <> (k + 4)%Z \/ (kbot <= k + 3)%Z -> G i c + v2 * G i (c + 1)%Z + v3 * G i (c + 2)%Z = 0.
    Proof.
      intros Hi Hb Hn.
      assert (Z0 : forall j, inr j -> (c <= j <= c + 1)%Z \/ (j = c + 2 /\ k + 3 <= kbot)%Z -> G i j = 0).
      { intros j Hj Hjr. destruct (Z_le_gt_dec i kbot).
        - apply (i_low _ _ _ _ _ _ _ I); [assumption|assumption|lia|]. unfold bulge_at. lia.
        - apply (i_iso _ _ _ _ _ _ _ I); [assumption|assumption|lia]. }
      rewrite (Z0 c) by lia. rewrite (Z0 (c + 1)%Z) by lia.
      destruct HV as [|E]; [rewrite (Z0 (c + 2)%Z) by lia; ring|rewrite E; ring].
    Qed.
    (** the array after the column pass *)
    Lemma M3_R1 i j : inr i -> inr j -> (c <= j)%Z -> (i <= k + 3)%Z \/ i <> (k + 4)%Z -> M3 i j = R1 i j.
    Proof.
      intros Hi Hj Hc Hn. unfold rows_only. destruct (Z.leb_spec lo i); [|lia]. destruct (Z.leb_spec i rb); cbn [andb].
      - unfold rright. rewrite (A1 i j), (A1 i c), (A1 i (c + 1)%Z) by lia.
        rewrite (third (M2 i (c + 2)%Z) (G i (c + 2)%Z)) by (intros; apply A1; lia). reflexivity.
      - rewrite A1 by lia. unfold rright. rewrite below by lia. ring.
    Qed.
    Lemma R1_left i j : (j < c)%Z -> R1 i j = G i j.
    Proof. intros H. unfold rright. rewrite wvec_out by lia. ring. Qed.
    Lemma M3_left i j : (j < c)%Z -> M3 i j = M2 i j.
    Proof. intros H. unfold rows_only. destruct (_ && _); [|reflexivity]. unfold rright. rewrite wvec_out by lia. ring. Qed.
    Lemma col_zero j : inr j -> (j < k \/ j < ktop)%Z -> G c j + v2 * G (c + 1)%Z j + v3 * G (c + 2)%Z j = 0.
    Proof.
      intros Hj Hlt.
      assert (Z0 : forall i, inr i -> (c <= i)%Z -> G i j = 0).
      { intros i Hi Hc. destruct (Z_lt_le_dec j ktop).
        - apply (i_iso _ _ _ _ _ _ _ I); [assumption|assumption|lia].
        - apply (i_low _ _ _ _ _ _ _ I); [assumption|assumption|lia|]. unfold bulge_at. lia. }
      rewrite (Z0 c), (Z0 (c + 1)%Z) by lia. destruct HV as [|E]; [rewrite (Z0 (c + 2)%Z) by lia; ring|rewrite E; ring].
    Qed.
    Lemma G'_col i j : (j < c)%Z -> G' i j = rleft c v2 v3 tau G i j.
    Proof. intros Hj. unfold rleft. rewrite !R1_left by lia. reflexivity. Qed.
    Lemma G'_early i j : inr j -> (j < k \/ j < ktop)%Z -> G' i j = G i j.
    Proof.
      intros Hj Hlt. rewrite G'_col by lia. unfold rleft. rewrite (col_zero j Hj Hlt). ring.
    Qed.
    Lemma G'_rows i j : (i < c \/ c + 2 < i)%Z -> G' i j = R1 i j.
    Proof. intros H. unfold rleft. rewrite wvec_out by lia. ring. Qed.
    (** without the third row the reflector has no weight there *)
    Lemma w3 i : ~ (c <= i <= c + 1)%Z -> (kbot < i)%Z -> wvec c v2 v3 i = 0.
    Proof.
      intros H1 H2. destruct (Z.eq_dec i (c + 2)) as [->|]; [|apply wvec_out; lia]. rewrite wvec_2. destruct HV; [lia|assumption].
    Qed.
    Lemma G'_iso i j : inr i -> inr j -> (kbot < i /\ j <= kbot \/ ktop <= i /\ j < ktop)%Z -> G' i j = 0.
    Proof.
      intros Hi Hj [[H1 H2]|[H1 H2]].
      - unfold rleft. rewrite (w3 i) by lia. unfold rright at 1. rewrite below by lia. rewrite (i_iso _ _ _ _ _ _ _ I i j) by (assumption || lia). ring.
      - rewrite G'_early by lia. apply (i_iso _ _ _ _ _ _ _ I); [assumption|assumption|lia].
    Qed.
    Lemma M6_row i j : inr i -> inr j -> (k + 4 <= i)%Z -> M6 i j = M i j.
    Proof.
      intros Hi Hj Hr.
      assert (X : forall j, inr j -> M3 i j = M i j).
      { intros j' Hj'. unfold rows_only. destruct (Z.leb_spec i rb); [lia|]. rewrite andb_false_r. apply A4; assumption. }
      destruct (Z_le_gt_dec c j).
      - rewrite E1 by lia. unfold rleft. rewrite (wvec_out c v2 v3 i) by lia. rewrite X by assumption. ring.
      - destruct (E2 i j) as [E|[E _]]; [lia|lia|lia| |lia]. rewrite E. apply X. assumption.
    Qed.
    Lemma pass_G' i j : inr i -> inr j -> (c <= j)%Z -> i <> (k + 4)%Z -> rleft c v2 v3 tau M3 i j = G' i j.
    Proof.
      intros Hi Hj Hc Hn. unfold rleft. rewrite (M3_R1 i j), (M3_R1 c j), (M3_R1 (c + 1) j) by lia.
      rewrite (third (M3 (c + 2)%Z j) (R1 (c + 2)%Z j)) by (intros; apply M3_R1; lia). reflexivity.
    Qed.
    Lemma M6_match i j : inr i -> inr j -> i <> (k + 4)%Z -> M6 i j = G' i j \/ (ktop <= j < k + 1 /\ i = j + 1)%Z /\ M6 i j = 0 /\ Rabs (G' i j) <= D.
    Proof.
      intros Hi Hj Hn. destruct (Z_le_gt_dec c j) as [Hc|Hc].
      - left. rewrite E1 by lia. unfold rleft. rewrite (M3_R1 i j), (M3_R1 c j), (M3_R1 (c + 1) j) by lia.
        rewrite (third (M3 (c + 2)%Z j) (R1 (c + 2)%Z j)) by (intros; apply M3_R1; lia). reflexivity.
      - destruct (E2 i j) as [E|[(K1 & K2 & K3) [E ED]]]; [lia|lia|lia| |right; split; [lia|split; [exact E|]]].
        2:{ subst j. rewrite M3_left, A2 in ED by lia. rewrite G'_col by lia. exact ED. }
        rewrite M3_left in E by lia. destruct (Z.eq_dec j k) as [->|].
        + left. rewrite E, A2 by lia. rewrite G'_col by lia. reflexivity.
        + rewrite A3 in E by lia. rewrite G'_early by lia. rewrite E.
          destruct (Z.eq_dec i (k + 3)) as [->|N3].
          * left. eapply inv_row_low; [exact I|lia|lia|lia].
          * destruct (i_done _ _ _ _ _ _ _ I i j Hi Hj N3) as [Dn|[D1 D2]]; [left; exact Dn|right; split; [lia|exact D2]].
    Qed.

    Lemma G'_low i j : inr i -> inr j -> (j + 1 < i)%Z -> ~ bulge_at (k + 1) i j ->
      ((ktop <= k)%Z -> inr k -> forall i, inr i -> (k + 1 < i)%Z -> rleft c v2 v3 tau G i k = 0) -> G' i j = 0.
    Proof.
      intros Hi Hj Hl Hb K. destruct (Z_lt_le_dec j k) as [Hjk|Hjk].
      - rewrite G'_early by lia. apply (i_low _ _ _ _ _ _ _ I); [assumption|assumption|lia|]. unfold bulge_at. lia.
      - destruct (Z.eq_dec j k) as [->|].
        + destruct (Z_lt_le_dec k ktop).
          * rewrite G'_early by lia. apply (i_iso _ _ _ _ _ _ _ I); [assumption|assumption|lia].
          * rewrite G'_col by lia. apply K; lia.
        + assert (i > k + 3)%Z. { destruct (Z_le_gt_dec i (k + 3)); [|assumption]. exfalso. apply Hb. unfold bulge_at. lia. }
          rewrite G'_rows by lia.
          assert (N4 : i = (k + 4)%Z -> (k + 3 <= j)%Z). { intros ->. destruct (Z_le_gt_dec (k + 3) j); [assumption|]. exfalso. apply Hb. unfold bulge_at. lia. }
          unfold rright. rewrite below; [|assumption|lia|].
          * rewrite (i_low _ _ _ _ _ _ _ I i j); [ring|assumption|assumption|lia|]. unfold bulge_at. lia.
          * left. intros ->. specialize (N4 eq_refl). lia.
    Qed.

    (** an orthogonal similarity keeps the norm *)
    Lemma G'_frob : frob2 lo hi G' = frob2 lo hi H0.
    Proof.
      assert (HE : (c + 2 <= hi)%Z \/ v3 = 0 /\ (c + 1 <= hi)%Z) by (destruct HV as [|E]; [left; lia|right; split; [exact E|lia]]).
      rewrite <- (frob_conj lo hi Q H0 (i_orth _ _ _ _ _ _ _ I)).
      rewrite <- (frob_ext lo hi G (conj_by lo hi Q H0)) by (apply I).
      rewrite <- (frob_conj lo hi (refl tau (wvec c v2 v3)) G) by (apply house_orth; [lia|exact HE|exact HH]).
      apply frob_ext. intros i j Hi Hj. symmetry. apply conj_step; (lia || exact HE || assumption).
    Qed.

    Lemma Q'_eq i j : inr j -> mmul lo hi Q (refl tau (wvec c v2 v3)) i j = rright c v2 v3 tau Q i j.
    Proof. intros. apply rright_mm; [lia| |assumption]. destruct HV as [|E]; [left; lia|right; split; [exact E|lia]]. Qed.

    Lemma inv_step : ((ktop <= k)%Z -> inr k -> forall i, inr i -> (k + 1 < i)%Z -> rleft c v2 v3 tau G i k = 0) ->
      inv (k + 1) M6 G' (rright c v2 v3 tau Q) tau v2 v3.
    Proof.
      intros KILL. 
      assert (HE : (c + 2 <= hi)%Z \/ v3 = 0 /\ (c + 1 <= hi)%Z) by (destruct HV as [|E]; [left; lia|right; split; [exact E|lia]]).
      constructor.
      - apply (orth_ext lo hi (mmul lo hi Q (refl tau (wvec c v2 v3)))); [intros; apply Q'_eq; assumption|].
        apply orth_mm; [apply I|]. apply house_orth; [lia|exact HE|exact HH].
      - intros i j Ho. pose proof (i_id _ _ _ _ _ _ _ I) as ID. unfold rright.
        destruct (Z_le_gt_dec ktop j) as [J1|J1]; [destruct (Z_le_gt_dec j kbot) as [J2|J2]|].
        + assert (Hi : ~ (ktop <= i <= kbot)%Z) by lia.
          rewrite (ID i j), (ID i c), (ID i (c + 1)%Z) by (left; exact Hi).
          replace (v3 * Q i (c + 2)%Z) with 0.
          * unfold Rid. destruct (Z.eqb_spec i c); [lia|]. destruct (Z.eqb_spec i (c + 1)); [lia|]. ring.
          * destruct HV as [|E]; [|rewrite E; ring]. rewrite (ID i (c + 2)%Z) by (left; exact Hi). unfold Rid. destruct (Z.eqb_spec i (c + 2)); [lia|]. ring.
        + rewrite (w3 j) by lia. rewrite (ID i j) by lia. ring.
        + rewrite wvec_out by lia. rewrite (ID i j) by lia. ring.
      - intros i j Hi Hj. rewrite <- (conj_step lo hi c v2 v3 tau) by (lia || exact HE || assumption).
        rewrite <- (conj_ext_Q lo hi (mmul lo hi Q (refl tau (wvec c v2 v3))) (rright c v2 v3 tau Q)) by (assumption || (intros; apply Q'_eq; assumption)).
        rewrite conj_mm. apply conj_ext; [assumption|assumption|]. apply I.
      - intros i j Hi Hj Hl Hb. apply G'_low; assumption.
      - apply G'_iso.
      - intros i j Hi Hj Hr. rewrite M6_row by lia. apply (i_todo _ _ _ _ _ _ _ I); [assumption|assumption|lia].
      - replace (k + 1 + 3)%Z with (k + 4)%Z by lia. intros j Hr Hj. rewrite G'_rows by lia.
        assert (X : forall j, inr j -> G (k + 4)%Z j = M6 (k + 4)%Z j).
        { intros j' Hj'. rewrite M6_row by lia. destruct (i_done _ _ _ _ _ _ _ I (k + 4)%Z j') as [Dn|[Dn _]]; [assumption|assumption|lia|symmetry; exact Dn|lia]. }
        unfold rright. rewrite (X j), (X c), (X (c + 1)%Z) by lia.
        rewrite (third (G (k + 4)%Z (c + 2)%Z) (M6 (k + 4)%Z (c + 2)%Z)) by (intros; apply X; lia). reflexivity.
      - replace (k + 1 + 3)%Z with (k + 4)%Z by lia. apply M6_match.
      - intros i j Hi Hj Ho.
        assert (X : M3 i j = H0 i j).
        { unfold rows_only. destruct (Z.leb_spec lo i), (Z.leb_spec i rb); cbn [andb]; try (apply A5; assumption).
          unfold rright. rewrite A5 by assumption.
          assert (J : ~ inr j) by (intros J; apply Ho; lia). destruct (Z_lt_le_dec j c).
          - rewrite wvec_out by lia. ring.
          - rewrite (w3 j) by lia. ring. }
        destruct (Z_le_gt_dec c j) as [J1|J1]; [destruct (Z_le_gt_dec j hi) as [J2|J2]|].
        + rewrite E1 by lia. unfold rleft. rewrite X. assert (~ inr i) by (intros K; apply Ho; lia).
          replace (wvec c v2 v3 i) with 0; [ring|]. symmetry. destruct (Z_lt_le_dec i c); [apply wvec_out; lia|apply w3; lia].
        + destruct (E2 i j) as [E|[E _]]; [lia|lia|lia|rewrite E; exact X|lia].
        + destruct (E2 i j) as [E|[(E3 & E4 & E5) _]]; [lia|lia|lia|rewrite E; exact X|]. exfalso. apply Ho. lia.
      - intros _ Hb. apply NZ. lia.
      - lia.
    Qed.
  End Step.

  (** the first column of Q is set by the first reflector only *)
  Lemma first_col_kept c v2 v3 tau Q i : (ktop < c)%Z -> rright c v2 v3 tau Q i ktop = Q i ktop.
  Proof. intros H. unfold rright. rewrite wvec_out by lia. ring. Qed.

  (** before the first step *)
  Lemma inv_start M : hessenberg lo hi H0 -> ((lo < ktop)%Z -> H0 ktop (ktop - 1)%Z = 0) -> ((kbot < hi)%Z -> H0 (kbot + 1)%Z kbot = 0) ->
    (forall i j, (1 <= i <= n)%Z -> (1 <= j <= n)%Z -> M i j = H0 i j) -> inv (ktop - 1) M H0 Rid 0 0 0.
  Proof.
    intros HS T1 T2 E. constructor.
    - apply orth_id.
    - intros i j _. reflexivity.
    - intros i j Hi Hj. symmetry. apply conj_id; assumption.
    - intros i j Hi Hj Hl _. apply HS; assumption.
    - intros i j Hi Hj [[X1 X2]|[X1 X2]].
      + destruct (Z.eq_dec j kbot) as [->|]; [|apply HS; lia]. destruct (Z.eq_dec i (kbot + 1)) as [->|]; [apply T2; lia|apply HS; lia].
      + destruct (Z.eq_dec j (ktop - 1)) as [->|]; [|apply HS; lia]. destruct (Z.eq_dec i ktop) as [->|]; [apply T1; lia|apply HS; lia].
    - intros. apply E; lia.
    - intros j Hr Hj. unfold rright. rewrite E by lia. ring.
    - intros i j Hi Hj _. left. apply E; lia.
    - intros. apply E; assumption.
    - lia.
    - reflexivity.
  Qed.

  (** after the last step *)
  Lemma inv_end M G Q t u2 u3 : hessenberg lo hi H0 -> inv (kbot - 1) M G Q t u2 u3 -> u3 = 0 ->
    (forall i j, inr i -> inr j -> M i j = conj_by lo hi Q H0 i j \/ (ktop <= j <= kbot - 2 /\ i = j + 1)%Z /\ M i j = 0 /\ Rabs (conj_by lo hi Q H0 i j) <= D) /\
    hessenberg lo hi M.
  Proof.
    intros HS I U.
    assert (X : forall i j, inr i -> inr j -> M i j = G i j \/ (ktop <= j <= kbot - 2 /\ i = j + 1)%Z /\ M i j = 0 /\ Rabs (G i j) <= D).
    { intros i j Hi Hj. destruct (Z.eq_dec i (kbot - 1 + 3)) as [->|N].
      - left. rewrite (i_row _ _ _ _ _ _ _ I j) by assumption. unfold rright.
        assert (Z0 : forall j, inr j -> (j <= kbot)%Z -> M (kbot - 1 + 3)%Z j = 0).
        { intros j' Hj' Hb. rewrite (i_todo _ _ _ _ _ _ _ I) by (assumption || lia). apply HS; lia. }
        rewrite (Z0 (kbot - 1)%Z), (Z0 (kbot - 1 + 1)%Z), U by lia. ring.
      - destruct (i_done _ _ _ _ _ _ _ I i j Hi Hj N) as [Dn|[D1 D2]]; [left; exact Dn|right; split; [lia|exact D2]]. }
    split.
    - intros i j Hi Hj. rewrite <- (i_sim _ _ _ _ _ _ _ I) by assumption. apply X; assumption.
    - intros i j Hi Hj Hl. destruct (X i j Hi Hj) as [E|[E _]]; [|lia]. rewrite E. 
      destruct (Z_le_gt_dec i kbot).
      + apply (i_low _ _ _ _ _ _ _ I); [assumption|assumption|assumption|]. unfold bulge_at. lia.
      + destruct (Z_le_gt_dec j kbot); [apply (i_iso _ _ _ _ _ _ _ I); lia|].
        apply (i_low _ _ _ _ _ _ _ I); [assumption|assumption|assumption|]. unfold bulge_at. lia.
  Qed.
End Sweep.
