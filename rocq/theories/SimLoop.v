(** The sweep of dlaqr5 in exact arithmetic, one bulge, not accumulating: the arrays follow SimSweep.v. *)
From Coq Require Import Reals Lra Ascii.
From Flocq Require Import Core.
From Verif Require Import Base Num Array Blas Lapack Dlaqr5 Spec ER SpecR SpecSim Lists FaLemmas RsumLemmas RealMat LahqrProofs LahqrTop LarfgProofs Laqr1Proofs Laqr5Proofs SimArray SimReflect SimSweep.
Open Scope R_scope.

(** the tail of H from (t,t), seen as a matrix with the same leading dimension *)
Lemma tail_is (h : fa er) n ldh t m M : full h -> rows h = ldh -> (1 <= ldh)%Z -> mat_is h n n M -> (1 <= t)%Z -> (1 <= m)%Z -> (t + m - 1 <= n <= ldh)%Z ->
  exists l hf, from2 h t t = Ok l /\ to_fa_2d l ldh = Ok hf /\ mat_is hf m m (fun i j => M (t - 1 + i) (t - 1 + j))%Z.
Proof.
  intros HF HR HL HM Ht Hm Hn.
  assert (X : exists x, ent h (t + m - 1) (t + m - 1) = Some x) by (eexists; apply HM; lia).
  unfold ent in X. apply elem_Some in X. unfold pos in X. rewrite HR in X.
  destruct (from1_ok h (pos (rows h) t t) HF) as (l & E & L).
  unfold full in HF. unfold pos in L. rewrite HF, HR in L. destruct L as [_ L]; [nia|nia|].
  exists l. cbn [to_fa_2d ToFA_vec]. unfold fa_as_2d. destruct (Z.eqb_spec ldh 0); [lia|]. eexists. split; [exact E|]. split; [reflexivity|].
  intros i j Hi Hj. unfold ent. rewrite elem_zget. cbn [data fa_of_vec rows]. unfold pos at 1. rewrite L by nia.
  rewrite <- (HM (t - 1 + i)%Z (t - 1 + j)%Z) by lia. unfold ent, pos. rewrite HR. f_equal. lia.
Qed.

(** the vector that a reflector annihilates is a multiple of the reflector's first column *)
Lemma kills_column c a x2 x3 beta tau v2 v3 i : kills a x2 x3 beta tau v2 v3 ->
  (if (i =? c)%Z then a else if (i =? c + 1)%Z then x2 else if (i =? c + 2)%Z then x3 else 0) = beta * rright c v2 v3 tau Rid i c.
Proof.
  intros (HH & K1 & K2 & K3). set (s := a + v2 * x2 + v3 * x3) in *.
  assert (T : tau = 0 \/ s = - beta).
  { destruct (Req_dec tau 0) as [|N]; [left; assumption|right]. unfold house in HH.
    assert (W : tau * (1 + v2 * v2 + v3 * v3) = 2) by (apply Rmult_integral in HH as [|]; [contradiction|nra]).
    assert (s = beta + s * tau + v2 * (s * (tau * v2)) + v3 * (s * (tau * v3))).
    { replace (beta + s * tau) with a by lra. replace (s * (tau * v2)) with x2 by lra. replace (s * (tau * v3)) with x3 by lra. reflexivity. }
    assert (s = beta + s * (tau * (1 + v2 * v2 + v3 * v3))) by lra. rewrite W in *. lra. }
  unfold rright, Rid. rewrite wvec_0.
  assert (Ea : a = beta * (1 - tau)) by (destruct T as [T|T]; rewrite T in *; lra).
  assert (E2 : x2 = - (beta * v2 * tau)) by (destruct T as [T|T]; rewrite T in *; lra).
  assert (E3 : x3 = - (beta * v3 * tau)) by (destruct T as [T|T]; rewrite T in *; lra).
  destruct (Z.eqb_spec i c) as [->|].
  - destruct (Z.eqb_spec c (c + 1)); [lia|]. destruct (Z.eqb_spec c (c + 2)); [lia|]. rewrite Ea. ring.
  - destruct (Z.eqb_spec i (c + 1)) as [->|].
    + destruct (Z.eqb_spec (c + 1) (c + 2)); [lia|]. rewrite E2. ring.
    + destruct (Z.eqb_spec i (c + 2)) as [->|]; [rewrite E3|]; ring.
Qed.

Lemma vigilant_cases {F} {NF : Num F} n ktop kbot k (h : fa F) :
  q5_vigilant n ktop kbot k h = h \/ q5_vigilant n ktop kbot k h = set2 h (k + 1) k f0.
Proof.
  unfold q5_vigilant. destruct (fne _ _); [|auto]. destruct (fle _ _); [|auto]. destruct (_ || _)%bool; auto.
Qed.

(** in a Hessenberg matrix only the leading entries matter for the first column of (H - s1)(H - s2) *)
Lemma Csum_zero f lo n : (forall i, (lo <= i)%Z -> f i = cre 0) -> Csum f lo n = cre 0.
Proof.
  revert lo. induction n as [|n IH]; intros lo H; [reflexivity|]. cbn [Csum]. rewrite H by lia. rewrite IH by (intros; apply H; lia).
  unfold cadd, cre. cbn. apply ceq; cbn; ring.
Qed.
Lemma Csum_app f lo n m : Csum f lo (n + m) = cadd (Csum f lo n) (Csum f (lo + Z.of_nat n) m).
Proof.
  revert lo. induction n as [|n IH]; intros lo.
  - cbn [Nat.add Csum]. rewrite Z.add_0_r. apply ceq; cbn; ring.
  - cbn [Nat.add Csum]. rewrite IH. replace (lo + 1 + Z.of_nat n)%Z with (lo + Z.of_nat (S n))%Z by lia.
    apply ceq; cbn; ring.
Qed.
Lemma Csum_ext f g lo n : (forall i, (lo <= i < lo + Z.of_nat n)%Z -> f i = g i) -> Csum f lo n = Csum g lo n.
Proof.
  revert lo. induction n as [|n IH]; intros lo H; [reflexivity|]. cbn [Csum]. rewrite H by lia. rewrite IH by (intros; apply H; lia). reflexivity.
Qed.
Lemma shift_column_lead N m H H' s1 s2 i : (2 <= m <= N)%Z -> (forall k, (3 <= k <= N)%Z -> H k 1%Z = 0) -> 
  (forall a b, (1 <= a <= m)%Z -> (1 <= b <= m)%Z -> H a b = H' a b) -> (1 <= i <= m)%Z -> shift_column N H s1 s2 i = shift_column m H' s1 s2 i.
Proof.
  intros Hm HZ HE Hi. unfold shift_column, Csum_range.
  replace (Z.to_nat (N - 1 + 1)) with (Z.to_nat (m - 1 + 1) + Z.to_nat (N - m))%nat by lia. rewrite Csum_app.
  assert (E : Csum (fun k => cmul (shifted H s1 i k) (shifted H s2 k 1)) (1 + Z.of_nat (Z.to_nat (m - 1 + 1))) (Z.to_nat (N - m)) = cre 0).
  { rewrite <- (Csum_zero (fun _ => cre 0) (1 + Z.of_nat (Z.to_nat (m - 1 + 1))) (Z.to_nat (N - m))) by reflexivity. apply Csum_ext. intros k Hk.
    unfold shifted at 2. destruct (Z.eqb_spec k 1); [lia|]. rewrite HZ by lia. apply ceq; cbn; ring. }
  rewrite E. transitivity (Csum (fun k => cmul (shifted H s1 i k) (shifted H s2 k 1)) 1 (Z.to_nat (m - 1 + 1))); [apply ceq; cbn; ring|].
  apply Csum_ext. intros k Hk. unfold shifted. rewrite !HE by lia. reflexivity.
Qed.
Lemma shift_column_low N H s1 s2 i : (forall a b, (1 <= a <= N)%Z -> (1 <= b <= N)%Z -> (b + 1 < a)%Z -> H a b = 0) -> (3 < i <= N)%Z -> shift_column N H s1 s2 i = cre 0.
Proof.
  intros HZ Hi. unfold shift_column, Csum_range.
  rewrite <- (Csum_zero (fun _ => cre 0) 1 (Z.to_nat (N - 1 + 1))) by reflexivity. apply Csum_ext. intros k Hk.
  destruct (Z_lt_le_dec k 3).
  - unfold shifted at 1. destruct (Z.eqb_spec i k); [lia|]. rewrite HZ by lia. apply ceq; cbn; ring.
  - unfold shifted at 2. destruct (Z.eqb_spec k 1); [lia|]. rewrite (HZ k 1%Z) by lia. apply ceq; cbn; ring.
Qed.

Section Loop.
  Context (wantt wantz : bool) (n ktop kbot : Z) (sr si : fa er) (ldh iloz ihiz ldz ldv ldu nv ldwv nh ldwh : Z).
  Context (h0 v0 : fa er) (H0 : Z -> Z -> R) (sr1 si1 sr2 si2 Nf : R).
  Definition slo : Z := if wantt then 1 else ktop.
  Definition shi : Z := if wantt then n else kbot.
  Notation lo := slo.
  Notation hi := shi.
  Notation inr i := (lo <= i <= hi)%Z.
  Notation B := (2 ^ 500).
  Notation D := (Rmax (IZR n * bpow radix2 (-970)) (6 * bpow radix2 (-52) * Nf)).
  Notation inv_ := (inv n lo hi ktop kbot H0 D).

  Hypothesis (Hk : (1 <= ktop < kbot)%Z) (Hn : (kbot <= n)%Z).
  Hypothesis (FH : full h0) (RH : rows h0 = ldh) (NH : (n <= ldh)%Z) (DV : dim2 ldv v0) (CV : (3 <= count v0)%Z).
  Hypothesis (HESS : hessenberg lo hi H0) (UNR : forall j, (ktop <= j < kbot)%Z -> H0 (j + 1)%Z j <> 0).
  Hypothesis (ISO1 : (lo < ktop)%Z -> H0 ktop (ktop - 1)%Z = 0) (ISO2 : (kbot < hi)%Z -> H0 (kbot + 1)%Z kbot = 0).
  Hypothesis (NF0 : 0 <= Nf) (NFB : Nf <= B) (FRB : frob2 lo hi H0 <= Nf * Nf).
  Hypothesis (ES1 : get1 sr 1 = Fin sr1) (ES2 : get1 si 1 = Fin si1) (ES3 : get1 sr 2 = Fin sr2) (ES4 : get1 si 2 = Fin si2).
  Hypothesis (BS : Rabs sr1 <= B /\ Rabs si1 <= B /\ Rabs sr2 <= B /\ Rabs si2 <= B).

  Lemma slo_ok : (1 <= lo <= ktop)%Z.
  Proof. unfold slo. destruct wantt; lia. Qed.
  Lemma shi_ok : (kbot <= hi <= n)%Z.
  Proof. unfold shi. destruct wantt; lia. Qed.
  Notation LO := slo_ok.
  Notation HI := shi_ok.
  Lemma jtop_lo incol : q5_jtop wantt false ktop incol = lo.
  Proof. reflexivity. Qed.
  Lemma jbot_hi nd : q5_jbot wantt false n kbot nd = hi.
  Proof. reflexivity. Qed.

  Lemma B_pos : 0 <= B.
  Proof. apply pow_le. lra. Qed.
  Lemma B_big x : Rabs x <= B -> Rabs x <= 2 ^ 505.
  Proof. intros H. eapply Rle_trans; [exact H|]. apply Rle_pow; [lra|lia]. Qed.
  Lemma B5_big x : Rabs x <= 5 * B -> Rabs x <= 2 ^ 505.
  Proof. intros H. eapply Rle_trans; [exact H|]. assert (E : 2 ^ 505 = 2 ^ 5 * 2 ^ 500) by (rewrite <- pow_add; reflexivity). rewrite E. pose proof B_pos. set (b := 2 ^ 500) in *. clearbody b. lra. Qed.
  Lemma G_bound k M G Q t u2 u3 i j : inv_ k M G Q t u2 u3 -> inr i -> inr j -> Rabs (G i j) <= Nf.
  Proof.
    intros I Hi Hj. rewrite (i_sim _ _ _ _ _ _ _ _ _ _ _ _ _ _ I) by assumption.
    apply (frob_bound lo hi); [assumption|assumption|exact NF0|]. rewrite frob_conj; [exact FRB|apply I].
  Qed.
  Lemma H0_bound i j : inr i -> inr j -> Rabs (H0 i j) <= B.
  Proof. intros. apply Rle_trans with Nf; [|exact NFB]. apply (frob_bound lo hi); [assumption|assumption|exact NF0|exact FRB]. Qed.

  (** M2 holds, beside the reflector (tau, v2, v3), what SimSweep.inv_step asks of it *)
  Record after (k : Z) (M G : Z -> Z -> R) (v2 v3 tau : R) (M2 : Z -> Z -> R) : Prop := {
    a_house : house v2 v3 tau;
    a_third : (k + 3 <= kbot)%Z \/ v3 = 0;
    a_right : forall i j, inr i -> inr j -> (k + 1 <= j)%Z -> M2 i j = G i j;
    a_col : forall i, inr i -> inr k -> M2 i k = rleft (k + 1) v2 v3 tau G i k;
    a_left : forall i j, inr i -> inr j -> (j < k)%Z -> M2 i j = M i j;
    a_below : forall i j, inr i -> inr j -> (k + 4 <= i)%Z -> M2 i j = M i j;
    a_out : forall i j, (1 <= i <= n)%Z -> (1 <= j <= n)%Z -> ~ (inr i /\ inr j) -> M2 i j = H0 i j;
    a_kill : (ktop <= k)%Z -> inr k -> forall i, inr i -> (k + 1 < i)%Z -> rleft (k + 1) v2 v3 tau G i k = 0;
    a_nz : (k + 4 <= kbot)%Z -> tau <> 0 /\ v3 <> 0
  }.

  (** *** the reflector of a step in the middle *)
  Section Mid.
    Context (k : Z) (M G Q : Z -> Z -> R) (t u2 u3 : R) (I : inv_ k M G Q t u2 u3).
    Lemma mid_done i j : inr i -> inr j -> (k <= j)%Z -> i <> (k + 3)%Z -> M i j = G i j.
    Proof. intros Hi Hj H3 H4. destruct (i_done _ _ _ _ _ _ _ _ _ _ _ _ _ _ I i j Hi Hj H4) as [E|[E _]]; [exact E|lia]. Qed.

    (** below the block nothing happens *)
    Lemma row_last j : (k + 3 = kbot + 1)%Z -> inr (k + 3) -> inr j -> M (k + 3)%Z j = G (k + 3)%Z j.
    Proof.
      intros E Hr Hj. pose proof LO. pose proof HI. rewrite (i_row _ _ _ _ _ _ _ _ _ _ _ _ _ _ I j) by assumption. unfold rright.
      destruct (Z_lt_le_dec k ktop); [rewrite (i_t0 _ _ _ _ _ _ _ _ _ _ _ _ _ _ I) by assumption; ring|].
      assert (Z0 : forall b, (k <= b <= k + 2)%Z -> M (k + 3)%Z b = 0).
      { intros b Hb. rewrite (i_todo _ _ _ _ _ _ _ _ _ _ _ _ _ _ I) by lia. destruct (Z.eq_dec b (k + 2)) as [->|]; [|apply HESS; lia].
        replace (k + 3)%Z with (kbot + 1)%Z by lia. replace (k + 2)%Z with kbot by lia. apply ISO2. lia. }
      rewrite (Z0 k), (Z0 (k + 1)%Z), (Z0 (k + 2)%Z) by lia. ring.
    Qed.

    Lemma mid2_after beta tau v2 : (ktop <= k)%Z -> k = (kbot - 2)%Z -> kills (G (k + 1)%Z k) (G (k + 2)%Z k) 0 beta tau v2 0 ->
      after k M G v2 0 tau (rupd (rupd M (k + 1) k beta) (k + 2) k 0).
    Proof.
      intros Hk1 Hk2 (HH & K1 & K2 & K3). pose proof LO. pose proof HI.
      assert (W : forall i, rleft (k + 1) v2 0 tau G i k = if (i =? k + 1)%Z then beta else if (i =? k + 2)%Z then 0 else G i k).
      { intros i. unfold rleft. destruct (Z.eqb_spec i (k + 1)) as [->|].
        - rewrite wvec_0. replace (k + 1 + 1)%Z with (k + 2)%Z by lia. lra.
        - destruct (Z.eqb_spec i (k + 2)) as [->|].
          + replace (k + 2)%Z with (k + 1 + 1)%Z by lia. rewrite wvec_1. replace (k + 1 + 1)%Z with (k + 2)%Z by lia. lra.
          + destruct (Z.eq_dec i (k + 1 + 2)) as [->|]; [rewrite wvec_2|rewrite wvec_out by lia]; ring. }
      constructor.
      - exact HH.
      - right. reflexivity.
      - intros i j Hi Hj Hc. rewrite !rupd_other by lia. destruct (Z.eq_dec i (k + 3)) as [->|]; [apply row_last; lia|apply mid_done; lia].
      - intros i Hi _. rewrite W. unfold rupd. rewrite Z.eqb_refl, !andb_true_r.
        destruct (Z.eqb_spec i (k + 2)) as [->|]; [destruct (Z.eqb_spec (k + 2) (k + 1)); [lia|reflexivity]|].
        destruct (Z.eqb_spec i (k + 1)) as [->|]; [reflexivity|]. destruct (Z.eq_dec i (k + 3)) as [->|]; [apply row_last; lia|apply mid_done; lia].
      - intros i j Hi Hj Hl. rewrite !rupd_other by lia. reflexivity.
      - intros i j Hi Hj Hl. rewrite !rupd_other by lia. reflexivity.
      - intros i j Hi Hj Ho. assert (i <> k + 1 /\ i <> k + 2 \/ j <> k)%Z by lia. rewrite !rupd_other by lia. apply (i_out _ _ _ _ _ _ _ _ _ _ _ _ _ _ I); assumption.
      - intros _ _ i Hi Hl. rewrite W. destruct (Z.eqb_spec i (k + 1)); [lia|]. destruct (Z.eqb_spec i (k + 2)); [reflexivity|].
        destruct (Z_le_gt_dec i kbot); [lia|]. apply (i_iso _ _ _ _ _ _ _ _ _ _ _ _ _ _ I); lia.
      - lia.
    Qed.

    (** the third row is brought up to date *)
    Definition caught_up : Z -> Z -> R :=
      rupd (rupd (rupd M (k + 3) k (- (u3 * M (k + 3)%Z (k + 2)%Z) * t)) (k + 3) (k + 1) (- (u3 * M (k + 3)%Z (k + 2)%Z) * (t * u2)))
        (k + 3) (k + 2) (M (k + 3)%Z (k + 2)%Z - u3 * M (k + 3)%Z (k + 2)%Z * (t * u3)).
    Lemma caught_up_row j : (ktop <= k)%Z -> (k + 3 <= kbot)%Z -> inr j -> caught_up (k + 3)%Z j = G (k + 3)%Z j.
    Proof.
      intros K1 K2 Hj. pose proof LO. pose proof HI. rewrite (i_row _ _ _ _ _ _ _ _ _ _ _ _ _ _ I j) by lia.
      assert (Z0 : forall b, (k <= b <= k + 1)%Z -> M (k + 3)%Z b = 0).
      { intros b Hb. rewrite (i_todo _ _ _ _ _ _ _ _ _ _ _ _ _ _ I) by lia. apply HESS; lia. }
      unfold rright. rewrite (Z0 k), (Z0 (k + 1)%Z) by lia. unfold caught_up, rupd. rewrite Z.eqb_refl. cbn [andb].
      destruct (Z.eqb_spec j (k + 2)) as [->|]; [rewrite wvec_2; ring|]. destruct (Z.eqb_spec j (k + 1)) as [->|].
      { rewrite wvec_1, (Z0 (k + 1)%Z) by lia. ring. }
      destruct (Z.eqb_spec j k) as [->|]; [rewrite wvec_0, (Z0 k) by lia; ring|]. rewrite wvec_out by lia. ring.
    Qed.
    Lemma caught_up_other i j : i <> (k + 3)%Z -> caught_up i j = M i j.
    Proof. intros Hi. unfold caught_up. rewrite !rupd_other by lia. reflexivity. Qed.
    Lemma caught_up_far i j : (j < k \/ k + 2 < j)%Z -> caught_up i j = M i j.
    Proof. intros Hi. unfold caught_up. rewrite !rupd_other by lia. reflexivity. Qed.
    Lemma caught_up_done i j : (ktop <= k)%Z -> (k + 3 <= kbot)%Z -> inr i -> inr j -> (k <= j)%Z -> caught_up i j = G i j.
    Proof.
      intros K1 K2 Hi Hj Hc. destruct (Z.eq_dec i (k + 3)) as [->|N]; [apply caught_up_row; assumption|].
      rewrite caught_up_other by assumption. apply mid_done; assumption.
    Qed.

    Lemma mid3_after beta tau v2 v3 : (ktop <= k)%Z -> (k + 3 <= kbot)%Z -> kills (G (k + 1)%Z k) (G (k + 2)%Z k) (G (k + 3)%Z k) beta tau v2 v3 ->
      (tau <> 0 /\ v3 <> 0) ->
      after k M G v2 v3 tau (rupd (rupd (rupd caught_up (k + 1) k beta) (k + 2) k 0) (k + 3) k 0).
    Proof.
      intros Hk1 Hk2 (HH & K1 & K2 & K3) NZ. pose proof LO. pose proof HI.
      assert (W : forall i, rleft (k + 1) v2 v3 tau G i k = if (i =? k + 1)%Z then beta else if (i =? k + 2)%Z then 0 else if (i =? k + 3)%Z then 0 else G i k).
      { intros i. unfold rleft. replace (k + 1 + 1)%Z with (k + 2)%Z by lia. replace (k + 1 + 2)%Z with (k + 3)%Z by lia.
        destruct (Z.eqb_spec i (k + 1)) as [->|]; [rewrite wvec_0; lra|]. destruct (Z.eqb_spec i (k + 2)) as [->|].
        { replace (wvec (k + 1) v2 v3 (k + 2)) with v2; [lra|]. replace (k + 2)%Z with (k + 1 + 1)%Z by lia. symmetry. apply wvec_1. }
        destruct (Z.eqb_spec i (k + 3)) as [->|].
        { replace (wvec (k + 1) v2 v3 (k + 3)) with v3; [lra|]. replace (k + 3)%Z with (k + 1 + 2)%Z by lia. symmetry. apply wvec_2. }
        rewrite wvec_out by lia. ring. }
      constructor.
      - exact HH.
      - left. exact Hk2.
      - intros i j Hi Hj Hc. rewrite !rupd_other by lia. apply caught_up_done; lia.
      - intros i Hi _. rewrite W. unfold rupd. rewrite Z.eqb_refl, !andb_true_r.
        destruct (Z.eqb_spec i (k + 1)), (Z.eqb_spec i (k + 2)), (Z.eqb_spec i (k + 3)); try lia; try reflexivity. apply caught_up_done; lia.
      - intros i j Hi Hj Hl. rewrite !rupd_other by lia. apply caught_up_far. lia.
      - intros i j Hi Hj Hl. rewrite !rupd_other by lia. apply caught_up_other. lia.
      - intros i j Hi Hj Ho. rewrite !rupd_other by lia. transitivity (M i j); [|apply (i_out _ _ _ _ _ _ _ _ _ _ _ _ _ _ I); assumption].
        unfold caught_up. rewrite !rupd_other by lia. reflexivity.
      - intros _ _ i Hi Hl. rewrite W. destruct (Z.eqb_spec i (k + 1)); [lia|]. destruct (Z.eqb_spec i (k + 2)); [reflexivity|]. destruct (Z.eqb_spec i (k + 3)); [reflexivity|].
        apply (i_low _ _ _ _ _ _ _ _ _ _ _ _ _ _ I); [assumption|lia|lia|]. unfold bulge_at. lia.
      - intros _. exact NZ.
    Qed.

    (** the first step leaves H alone before the reflector is applied *)
    Lemma first_after tau v2 v3 : k = (ktop - 1)%Z -> house v2 v3 tau -> (k + 3 <= kbot)%Z \/ v3 = 0 -> ((k + 4 <= kbot)%Z -> tau <> 0 /\ v3 <> 0) ->
      after k M G v2 v3 tau M.
    Proof.
      intros E HH HV NZ. pose proof LO. pose proof HI.
      assert (X : forall i j, inr i -> inr j -> M i j = G i j).
      { intros i j Hi Hj. destruct (Z.eq_dec i (k + 3)) as [->|N].
        - rewrite (i_row _ _ _ _ _ _ _ _ _ _ _ _ _ _ I j) by assumption. unfold rright. rewrite (i_t0 _ _ _ _ _ _ _ _ _ _ _ _ _ _ I) by lia. ring.
        - destruct (i_done _ _ _ _ _ _ _ _ _ _ _ _ _ _ I i j Hi Hj N) as [D|[D _]]; [exact D|lia]. }
      constructor; try assumption.
      - intros. apply X; assumption.
      - intros i Hi Hj. rewrite X by assumption. unfold rleft.
        assert (Z0 : forall b, (ktop <= b <= kbot)%Z -> G b k = 0) by (intros; apply (i_iso _ _ _ _ _ _ _ _ _ _ _ _ _ _ I); lia).
        rewrite (Z0 (k + 1)%Z), (Z0 (k + 1 + 1)%Z) by lia. destruct HV as [HV|HV]; [rewrite (Z0 (k + 1 + 2)%Z) by lia|rewrite HV]; ring.
      - reflexivity.
      - reflexivity.
      - apply (i_out _ _ _ _ _ _ _ _ _ _ _ _ _ _ I).
      - lia.
    Qed.
  End Mid.

  (** *** the arrays *)
  Definition first_col (Q : Z -> Z -> R) : Prop := shift_pair (sr1, si1) (sr2, si2) ->
    exists c, forall i, (1 <= i <= kbot - ktop + 1)%Z ->
      shift_column (kbot - ktop + 1) (fun a b => H0 (ktop - 1 + a) (ktop - 1 + b))%Z (sr1, si1) (sr2, si2) i = cre (c * Q (ktop - 1 + i)%Z ktop).
  Definition vgood (k : Z) (v : fa er) (t u2 u3 : R) : Prop := (ktop <= k)%Z ->
    elem v 1 = Some (Fin t) /\ elem v 2 = Some (Fin u2) /\ ((k + 3 <= kbot)%Z -> elem v 3 = Some (Fin u3)).
  Definition hgood (h : fa er) (M : Z -> Z -> R) : Prop := mat_is h n n M /\ same_shape h h0.
  Lemma hgood_rows h M : hgood h M -> (n <= rows h)%Z.
  Proof. intros (_ & E & _). rewrite E, RH. exact NH. Qed.
  Lemma hgood_get h M i j : hgood h M -> (1 <= i <= n)%Z -> (1 <= j <= n)%Z -> get2 h i j = Fin (M i j).
  Proof. intros (E & _). apply mat_get. exact E. Qed.
  Lemma hgood_set h M i j x : hgood h M -> (1 <= i <= n)%Z -> (1 <= j <= n)%Z -> hgood (set2 h i j (Fin x)) (rupd M i j x).
  Proof.
    intros E Hi Hj. pose proof (hgood_rows h M E). destruct E as (E1 & E2). split; [apply mat_set2; assumption|].
    eapply same_shape_trans; [apply set2_shape|exact E2].
  Qed.
  Lemma hgood_mod h M i j g x : hgood h M -> (1 <= i <= n)%Z -> (1 <= j <= n)%Z -> g (Fin (M i j)) = Fin x -> hgood (mod2 h i j g) (rupd M i j x).
  Proof.
    intros E Hi Hj Hg. pose proof (hgood_rows h M E). destruct E as (E1 & E2). split; [apply mat_mod2; assumption|].
    eapply same_shape_trans; [apply mod2_shape|exact E2].
  Qed.
  Lemma set2_col1 (v : fa er) i x : set2 v i 1 x = set1 v i x.
  Proof. unfold set2, set1. rewrite mod2_mod1. unfold pos. replace ((1 - 1) * rows v + i)%Z with i by lia. reflexivity. Qed.

  (** a reflector for the column (a, x2, x3) after x2 and x3 are stored in V *)
  Lemma stored3 (v : fa er) x2 x3 : same_shape v v0 ->
    let w := set2 (set2 v 2 1 (Fin x2)) 3 1 (Fin x3) in same_shape w v0 /\ elem w 2 = Some (Fin x2) /\ elem w 3 = Some (Fin x3).
  Proof.
    intros SV w. unfold w. split; [eapply same_shape_trans; [|exact SV]; eapply same_shape_trans; [apply set2_shape|apply set2_shape]|].
    destruct SV as (_ & _ & C). rewrite !set2_col1, !set1_get. cbn [Z.eqb Pos.eqb].
    destruct (proj2 (elem_Some v 2) ltac:(lia)) as [? ->], (proj2 (elem_Some v 3) ltac:(lia)) as [? ->]. split; reflexivity.
  Qed.
  Lemma stored2 (v : fa er) x2 : same_shape v v0 ->
    let w := set2 v 2 1 (Fin x2) in same_shape w v0 /\ elem w 2 = Some (Fin x2).
  Proof.
    intros SV w. unfold w. split; [eapply same_shape_trans; [|exact SV]; apply set2_shape|].
    destruct SV as (_ & _ & C). rewrite !set2_col1, !set1_get. cbn [Z.eqb Pos.eqb].
    destruct (proj2 (elem_Some v 2) ltac:(lia)) as [? ->]. reflexivity.
  Qed.

  Lemma chase_mid k (h v vt : fa er) M G Q t u2 u3 : (ktop <= k <= kbot - 3)%Z -> hgood h M -> same_shape v v0 -> inv_ k M G Q t u2 u3 -> vgood k v t u2 u3 ->
    exists h' v' M2 tau v2 v3, q5_chase ktop sr si ldh ldv k 1 h v vt = Ok (h', v', vt) /\ hgood h' M2 /\ same_shape v' v0 /\
      elem v' 1 = Some (Fin tau) /\ elem v' 2 = Some (Fin v2) /\ elem v' 3 = Some (Fin v3) /\ after k M G v2 v3 tau M2.
  Proof.
    intros K HG SV I VG. pose proof LO as L1. pose proof HI as L2. unfold q5_chase. destruct (Z.eqb_spec k (ktop - 1)); [lia|].
    destruct (VG ltac:(lia)) as (V1 & V2 & V3). specialize (V3 ltac:(lia)).
    rewrite !(get2_col1 v _ _ V1), !(get2_col1 v _ _ V2), !(get2_col1 v _ _ V3). rewrite !er_mulE.
    rewrite (hgood_get h M) by (assumption || lia). rewrite !er_mulE, er_negE, !er_mulE.
    set (r := u3 * M (k + 3)%Z (k + 2)%Z).
    assert (H1 : hgood (set2 h (k + 3) k (Fin (- r * t))) (rupd M (k + 3) k (- r * t))) by (apply hgood_set; (assumption || lia)).
    set (h1 := set2 h (k + 3) k (Fin (- r * t))) in *.
    assert (H2 : hgood (set2 h1 (k + 3) (k + 1) (Fin (- r * (t * u2)))) (rupd (rupd M (k + 3) k (- r * t)) (k + 3) (k + 1) (- r * (t * u2)))) by (apply hgood_set; (assumption || lia)).
    set (h2 := set2 h1 (k + 3) (k + 1) _) in *.
    assert (H3 : hgood (mod2 h2 (k + 3) (k + 2) (fun x => fsub x (Fin (r * (t * u3))))) (caught_up k M t u2 u3)).
    { apply hgood_mod; [exact H2|lia|lia|]. rewrite !rupd_other by lia. reflexivity. }
    set (h3 := mod2 h2 (k + 3) (k + 2) _) in *. clearbody h3. clear H1 H2 h1 h2.
    rewrite !(hgood_get h3 (caught_up k M t u2 u3)) by (assumption || lia).
    rewrite !(caught_up_done k M G Q t u2 u3 I) by lia.
    destruct (stored3 v (G (k + 2)%Z k) (G (k + 3)%Z k) SV) as (SW & W2 & W3).
    set (w := set2 (set2 v 2 1 _) 3 1 _) in *. clearbody w.
    assert (BG : forall i, inr i -> Rabs (G i k) <= 2 ^ 505) by (intros i Hi; apply B_big; eapply Rle_trans; [|exact NFB]; eapply G_bound; [exact I|exact Hi|lia]).
    assert (CW : (3 <= count w)%Z) by (destruct SW as (_ & _ & ->); exact CV).
    destruct (reflect3 ldv w (G (k + 1)%Z k) (G (k + 2)%Z k) (G (k + 3)%Z k) (dim2_shape _ _ _ SW DV) CW W2 W3) as (v' & beta & tau & v2 & v3 & -> & S' & E1 & E2 & E3 & KL & NZ);
      try (apply BG; lia).
    cbn [bind].
    assert (X3 : G (k + 3)%Z k <> 0).
    { rewrite <- (caught_up_row k M G Q t u2 u3 I) by lia. unfold caught_up. rewrite rupd_other by lia. rewrite rupd_other by lia. rewrite rupd_same.
      destruct (i_nz _ _ _ _ _ _ _ _ _ _ _ _ _ _ I) as [N1 N2]; [lia|lia|].
      rewrite (i_todo _ _ _ _ _ _ _ _ _ _ _ _ _ _ I) by lia.
      assert (N3 : H0 (k + 3)%Z (k + 2)%Z <> 0) by (replace (k + 3)%Z with (k + 2 + 1)%Z by lia; apply UNR; lia).
      apply Rmult_integral_contrapositive_currified; [apply Ropp_neq_0_compat; apply Rmult_integral_contrapositive_currified; assumption|assumption]. }
    rewrite er_f0, er_neE. destruct (Req_bool_spec (G (k + 3)%Z k) 0); [contradiction|]. cbn [negb orb].
    do 6 eexists. split; [reflexivity|].
    split; [apply hgood_set; [apply hgood_set; [apply hgood_set; [exact H3|lia|lia]|lia|lia]|lia|lia]|].
    split; [eapply same_shape_trans; eassumption|]. split; [exact E1|]. split; [exact E2|]. split; [exact E3|].
    apply (mid3_after k M G Q t u2 u3 I); [lia|lia|exact KL|apply NZ; exact X3].
  Qed.

  (** *** the first step *)
  Lemma block_hess a b : (1 <= a <= kbot - ktop + 1)%Z -> (1 <= b <= kbot - ktop + 1)%Z -> (b + 1 < a)%Z -> H0 (ktop - 1 + a)%Z (ktop - 1 + b)%Z = 0.
  Proof. intros. pose proof LO. pose proof HI. apply HESS; lia. Qed.
  Lemma whole_v (v : fa er) : same_shape v v0 -> exists l, from2 v 1 1 = Ok l /\ zlen l = count v0.
  Proof.
    intros SV. pose proof (dim2_shape _ _ _ SV DV) as D. destruct (from1_ok v (pos (rows v) 1 1) (dim2_full _ _ D)) as (l & E & L).
    exists l. split; [exact E|]. assert (FV := dim2_full _ _ D). unfold full in FV. rewrite FV in L. destruct SV as (_ & _ & C). rewrite C in L. unfold pos in L.
    destruct L as [L _]; [lia|lia|]. lia.
  Qed.
  Lemma first_col_of c a x2 x3 beta tau v2 v3 m : (2 <= m <= 3)%Z -> (m <= kbot - ktop + 1)%Z -> (m = 3 \/ kbot - ktop + 1 = 2 /\ x3 = 0%R)%Z -> kills a x2 x3 beta tau v2 v3 ->
    (forall i, (1 <= i <= m)%Z -> shift_column m (fun a b => H0 (ktop - 1 + a) (ktop - 1 + b))%Z (sr1, si1) (sr2, si2) i =
       cre (c * (if (i =? 1)%Z then a else if (i =? 2)%Z then x2 else x3))) ->
    exists c, forall i, (1 <= i <= kbot - ktop + 1)%Z ->
      shift_column (kbot - ktop + 1) (fun a b => H0 (ktop - 1 + a) (ktop - 1 + b))%Z (sr1, si1) (sr2, si2) i = cre (c * rright ktop v2 v3 tau Rid (ktop - 1 + i)%Z ktop).
  Proof.
    intros Hm HN HX KL E. exists (c * beta). intros i Hi. rewrite Rmult_assoc, <- (kills_column ktop a x2 x3) by exact KL.
    destruct (Z_le_gt_dec i m).
    - rewrite (shift_column_lead _ m _ (fun a b => H0 (ktop - 1 + a) (ktop - 1 + b))%Z) by (try lia; try reflexivity; intros; apply block_hess; lia).
      rewrite E by lia. f_equal. f_equal.
      destruct (Z.eqb_spec i 1), (Z.eqb_spec (ktop - 1 + i) ktop); try lia; [reflexivity|].
      destruct (Z.eqb_spec i 2), (Z.eqb_spec (ktop - 1 + i) (ktop + 1)); try lia; [reflexivity|].
      destruct (Z.eqb_spec (ktop - 1 + i) (ktop + 2)); [reflexivity|lia].
    - rewrite shift_column_low; [|apply block_hess|lia].
      destruct (Z.eqb_spec (ktop - 1 + i) ktop); [lia|]. destruct (Z.eqb_spec (ktop - 1 + i) (ktop + 1)); [lia|].
      destruct (Z.eqb_spec (ktop - 1 + i) (ktop + 2)); [lia|]. rewrite Rmult_0_r. reflexivity.
  Qed.

  Lemma chase_first (h v vt : fa er) : (ktop + 2 <= kbot)%Z -> hgood h H0 -> same_shape v v0 ->
    exists v' tau v2 v3, q5_chase ktop sr si ldh ldv (ktop - 1) 1 h v vt = Ok (h, v', vt) /\ same_shape v' v0 /\
      elem v' 1 = Some (Fin tau) /\ elem v' 2 = Some (Fin v2) /\ elem v' 3 = Some (Fin v3) /\ house v2 v3 tau /\ (tau <> 0 /\ v3 <> 0) /\
      first_col (rright ktop v2 v3 tau Rid).
  Proof.
    intros K HG SV. pose proof LO as L1. pose proof HI as L2. unfold q5_chase. rewrite Z.eqb_refl.
    destruct HG as (HM & SH).
    destruct (tail_is h n ldh ktop 3 H0 (full_shape _ _ SH FH) ltac:(rewrite (proj1 SH); exact RH) ltac:(lia) HM ltac:(lia) ltac:(lia) ltac:(lia)) as (l & hf & -> & EL & HF).
    destruct (whole_v v SV) as (lv & -> & LV). cbn [bind]. cbn [Z.mul Pos.mul Z.sub Z.add Z.opp Z.pos_sub Pos.pred_double].
    rewrite ES1, ES2, ES3, ES4. unfold dlaqr1. rewrite EL. cbn [bind Z.eqb Pos.eqb negb andb].
    set (r := laqr1_3 hf (Fin sr1) (Fin si1) (Fin sr2) (Fin si2) (to_fa lv)).
    assert (CL : (3 <= count (to_fa lv))%Z) by (change (3 <= zlen lv)%Z; lia).
    destruct (start3 _ hf (to_fa lv) sr1 si1 sr2 si2 B BS HF CL) as (w1 & w2 & w3 & Sr & W1 & W2 & W3 & B1 & B2 & B3 & NZ3).
    { intros i j Hi Hj. apply H0_bound; lia. }
    { replace (ktop - 1 + 2)%Z with (ktop + 1)%Z by lia. replace (ktop - 1 + 1)%Z with ktop by lia. apply UNR. lia. }
    fold r in Sr, W1, W2, W3. cbn [from_fa FromFA_vec bind to_fa_2d ToFA_vec].
    destruct (as_2d_shape ldv v0 (fa_of_vec (vec_of_fa r)) DV) as (v1 & -> & S1 & D1).
    { change (zlen (data r) = count v0). rewrite <- count_zlen, (proj2 (proj2 Sr)). exact LV. }
    cbn [bind].
    assert (EV : forall p, elem v1 p = elem r p) by (intros p; rewrite !elem_zget, D1; reflexivity).
    rewrite (get2_col1 v1 1 (Fin w1)) by (rewrite EV; exact W1).
    assert (C1 : (3 <= count v1)%Z) by (destruct S1 as (_ & _ & ->); exact CV).
    assert (X3 : w3 <> 0).
    { apply NZ3; [apply HESS; lia|]. replace (ktop - 1 + 3)%Z with (ktop + 1 + 1)%Z by lia. replace (ktop - 1 + 2)%Z with (ktop + 1)%Z by lia. apply UNR. lia. }
    destruct (reflect3 ldv v1 w1 w2 w3 (dim2_shape _ _ _ S1 DV) C1) as (v' & beta & tau & v2 & v3 & -> & S' & E1 & E2 & E3 & KL & NZ);
      try (apply B5_big; assumption); try (rewrite EV; assumption).
    cbn [bind fst]. exists v', tau, v2, v3. split; [reflexivity|]. split; [eapply same_shape_trans; eassumption|].
    split; [exact E1|]. split; [exact E2|]. split; [exact E3|]. split; [apply KL|]. split; [apply NZ; exact X3|].
    intros SP. destruct (laqr1_3_exact _ hf (to_fa lv) sr1 si1 sr2 si2 HF CL SP) as (_ & _ & c & w & _ & EW). fold r in EW.
    apply (first_col_of c w1 w2 w3 beta tau v2 v3 3); [lia|lia|lia|exact KL|].
    intros i Hi. destruct (EW i Hi) as [X Y]. rewrite Y. f_equal. f_equal.
    assert (i = 1 \/ i = 2 \/ i = 3)%Z as [-> | [-> | ->]] by lia; cbn [Z.eqb Pos.eqb]; congruence.
  Qed.

  (** *** one step *)
  Definition sval (k : Z) (st : q5st) (M G Q : Z -> Z -> R) (t u2 u3 : R) : Prop :=
    hgood (qH st) M /\ same_shape (qV st) v0 /\ inv_ k M G Q t u2 u3 /\ vgood k (qV st) t u2 u3 /\ (k = (kbot - 1)%Z -> u3 = 0) /\
    ((ktop <= k)%Z -> first_col Q) /\ ((k < ktop)%Z -> (forall i j, (1 <= i <= n)%Z -> (1 <= j <= n)%Z -> M i j = H0 i j) /\ (forall i j, Q i j = Rid i j)).

  Definition sinv (k : Z) (st : q5st) : Prop := exists M G Q t u2 u3, sval k st M G Q t u2 u3.
  (** the step from k to k + 1 multiplies by the reflector (tau, v2, v3), which is left in V *)
  Definition reflected (k : Z) (st' : q5st) (M G Q M' G' : Z -> Z -> R) (tau v2 v3 : R) : Prop :=
    sval (k + 1) st' M' G' (rright (k + 1) v2 v3 tau Q) tau v2 v3 /\
    (forall i j, G' i j = rleft (k + 1) v2 v3 tau (rright (k + 1) v2 v3 tau G) i j) /\ ((k + 3 <= kbot)%Z \/ v3 = 0) /\
    elem (qV st') 1 = Some (Fin tau) /\ elem (qV st') 2 = Some (Fin v2) /\ ((k + 3 <= kbot)%Z -> elem (qV st') 3 = Some (Fin v3)).

  Lemma first_col_ext Q Q' : (forall i, Q i ktop = Q' i ktop) -> first_col Q -> first_col Q'.
  Proof. intros E H SP. destruct (H SP) as (c & Hc). exists c. intros i Hi. rewrite Hc by exact Hi. rewrite E. reflexivity. Qed.

  Lemma chase_any k (st : q5st) M G Q t u2 u3 : (ktop - 1 <= k <= kbot - 3)%Z ->
    hgood (qH st) M -> same_shape (qV st) v0 -> inv_ k M G Q t u2 u3 -> vgood k (qV st) t u2 u3 ->
    ((ktop <= k)%Z -> first_col Q) -> ((k < ktop)%Z -> (forall i j, (1 <= i <= n)%Z -> (1 <= j <= n)%Z -> M i j = H0 i j) /\ (forall i j, Q i j = Rid i j)) ->
    exists h' v' M2 tau v2 v3, q5_chase ktop sr si ldh ldv k 1 (qH st) (qV st) (qVt st) = Ok (h', v', qVt st) /\ hgood h' M2 /\ same_shape v' v0 /\
      elem v' 1 = Some (Fin tau) /\ elem v' 2 = Some (Fin v2) /\ elem v' 3 = Some (Fin v3) /\ after k M G v2 v3 tau M2 /\
      first_col (rright (k + 1) v2 v3 tau Q).
  Proof.
    intros K HG SV I VG FC FS. destruct (Z_lt_le_dec k ktop) as [L|L].
    - assert (k = ktop - 1)%Z as -> by lia. destruct (FS L) as [EM EQ].
      assert (HG' : hgood (qH st) H0) by (destruct HG as [A C]; split; [refine (mat_ext n _ _ _ EM A)|exact C]).
      destruct (chase_first (qH st) (qV st) (qVt st)) as (v' & tau & v2 & v3 & E & S' & E1 & E2 & E3 & HH & NZ & F); [lia|exact HG'|exact SV|].
      exists (qH st), v', M, tau, v2, v3. split; [exact E|]. split; [exact HG|]. split; [exact S'|]. split; [exact E1|]. split; [exact E2|]. split; [exact E3|].
      split; [apply (first_after _ M G Q t u2 u3 I); [reflexivity|exact HH|left; lia|intros _; exact NZ]|].
      replace (ktop - 1 + 1)%Z with ktop by lia. refine (first_col_ext _ _ _ F). intros i. unfold rright. rewrite !EQ. reflexivity.
    - destruct (chase_mid k (qH st) (qV st) (qVt st) M G Q t u2 u3) as (h' & v' & M2 & tau & v2 & v3 & E & H1 & S' & E1 & E2 & E3 & A); [lia|assumption..|].
      exists h', v', M2, tau, v2, v3. split; [exact E|]. split; [exact H1|]. split; [exact S'|]. split; [exact E1|]. split; [exact E2|]. split; [exact E3|]. split; [exact A|].
      refine (first_col_ext _ _ _ (FC L)). intros i. symmetry. apply first_col_kept. lia.
  Qed.

  Notation krcol_ := (q5_krcol wantt wantz false n ktop kbot 1 sr si ldh iloz ihiz ldv).
  Lemma mtop_one k : (ktop - 1 <= k)%Z -> Z.max 1 (Z.quot (ktop - k) 2 + 1) = 1%Z.
  Proof.
    intros H. destruct (Z.eq_dec k (ktop - 1)) as [->|]; [replace (ktop - (ktop - 1))%Z with 1%Z by lia; reflexivity|].
    pose proof (Z.quot_opp_l (k - ktop) 2 ltac:(lia)) as Q. replace (- (k - ktop))%Z with (ktop - k)%Z in Q by lia.
    pose proof (Z.quot_pos (k - ktop) 2 ltac:(lia) ltac:(lia)). lia.
  Qed.
  Lemma mbot_one k : (k <= kbot - 3)%Z -> Z.min 1 (Z.quot (kbot - k - 1) 2) = 1%Z.
  Proof. intros H. rewrite Z.quot_div_nonneg by lia. assert (1 <= (kbot - k - 1) / 2)%Z by (apply Z.div_le_lower_bound; lia). lia. Qed.
  Lemma mbot_zero k : (kbot - 2 = k)%Z -> Z.min 1 (Z.quot (kbot - k - 1) 2) = 0%Z.
  Proof. intros <-. replace (kbot - (kbot - 2) - 1)%Z with 1%Z by lia. reflexivity. Qed.

  (** what remains of the column pass, the row pass and the deflation test *)
  Section Apply.
    Context (k : Z) (M G Q : Z -> Z -> R) (t u2 u3 : R) (I : inv_ k M G Q t u2 u3) (Kr : (ktop - 1 <= k <= kbot - 2)%Z).
    Context (M2 : Z -> Z -> R) (v2 v3 tau : R) (A : after k M G v2 v3 tau M2).
    Notation M3 := (rows_only lo (Z.min kbot (k + 3)) (rright (k + 1) v2 v3 tau M2) M2).
    Lemma apply_inv M6 :
      (forall i j, (1 <= i <= n)%Z -> (1 <= j <= n)%Z -> (k + 1 <= j <= hi)%Z -> M6 i j = rleft (k + 1) v2 v3 tau M3 i j) ->
      (forall i j, (1 <= i <= n)%Z -> (1 <= j <= n)%Z -> (j <= k \/ hi < j)%Z -> M6 i j = M3 i j \/ (ktop <= k /\ i = k + 1 /\ j = k)%Z /\ M6 i j = 0 /\ Rabs (M3 i j) <= D) ->
      exists G', inv_ (k + 1) M6 G' (rright (k + 1) v2 v3 tau Q) tau v2 v3 /\ forall i j, G' i j = rleft (k + 1) v2 v3 tau (rright (k + 1) v2 v3 tau G) i j.
    Proof.
      intros E1 E2. eexists. split; [|intros i j; reflexivity]. refine (inv_step n lo hi ktop kbot H0 D LO (proj2 Hk) HI k M G Q t u2 u3 I Kr v2 v3 tau (a_house _ _ _ _ _ _ _ A) (a_third _ _ _ _ _ _ _ A) M2 M6
        (a_right _ _ _ _ _ _ _ A) (a_col _ _ _ _ _ _ _ A) (a_left _ _ _ _ _ _ _ A) (a_below _ _ _ _ _ _ _ A) (a_out _ _ _ _ _ _ _ A) E1 E2 (a_nz _ _ _ _ _ _ _ A) (a_kill _ _ _ _ _ _ _ A)).
    Qed.

    Lemma pre_bounds X : (forall i, (1 <= i <= n)%Z -> X i (k + 1)%Z = rleft (k + 1) v2 v3 tau M3 i (k + 1)%Z) ->
      (forall i j, (1 <= i <= n)%Z -> (1 <= j <= n)%Z -> (j <= k)%Z -> X i j = M3 i j) -> (ktop <= k)%Z ->
      Rabs (X k k) <= Nf /\ Rabs (X (k + 1)%Z (k + 1)%Z) <= Nf /\
      (forall j, (ktop <= j < k)%Z -> Rabs (X k j) <= Nf) /\ (forall i, (k + 2 <= i <= kbot)%Z -> Rabs (X i (k + 1)%Z) <= Nf).
    Proof.
      intros X1 X2 K. pose proof LO as L1. pose proof HI as L2.
      assert (Y1 : forall i, (lo <= i <= kbot)%Z -> Rabs (X i (k + 1)%Z) <= Nf).
      { intros i Hi. rewrite X1 by lia. destruct (Z.eq_dec i (k + 4)) as [->|N4].
        - unfold rleft. rewrite (wvec_out (k + 1) v2 v3 (k + 4)) by lia. unfold rows_only at 1.
          destruct (Z.leb_spec (k + 4) (Z.min kbot (k + 3))); [lia|]. rewrite andb_false_r.
          rewrite (a_below _ _ _ _ _ _ _ A) by lia. rewrite (i_todo _ _ _ _ _ _ _ _ _ _ _ _ _ _ I) by lia. rewrite (HESS (k + 4)%Z (k + 1)%Z) by lia.
          rewrite !Rmult_0_r, Rminus_0_r, Rabs_R0. exact NF0.
        - rewrite (pass_G' n lo hi ktop kbot H0 D LO (proj2 Hk) HI k M G Q t u2 u3 I Kr v2 v3 tau (a_third _ _ _ _ _ _ _ A) M2 (a_right _ _ _ _ _ _ _ A)) by lia.
          apply (frob_bound lo hi); [lia|lia|exact NF0|].
          rewrite (G'_frob n lo hi ktop kbot H0 D LO HI k M G Q t u2 u3 I Kr v2 v3 tau (a_house _ _ _ _ _ _ _ A) (a_third _ _ _ _ _ _ _ A)). exact FRB. }
      assert (R3 : forall j, (j <= k)%Z -> M3 k j = M2 k j).
      { intros j Hj. unfold rows_only. destruct (_ && _); [|reflexivity]. unfold rright. rewrite wvec_out by lia. ring. }
      split; [|split; [apply Y1; lia|split; [|intros; apply Y1; lia]]].
      - rewrite X2, R3, (a_col _ _ _ _ _ _ _ A) by lia. unfold rleft. rewrite wvec_out by lia. rewrite Rmult_0_r, Rmult_0_r, Rminus_0_r. eapply G_bound; [exact I|lia|lia].
      - intros j Hj. rewrite X2, R3, (a_left _ _ _ _ _ _ _ A) by lia.
        destruct (i_done _ _ _ _ _ _ _ _ _ _ _ _ _ _ I k j) as [E|[_ [E _]]]; [lia|lia|lia| |].
        + rewrite E. eapply G_bound; [exact I|lia|lia].
        + rewrite E, Rabs_R0. exact NF0.
    Qed.
  End Apply.

  (** the deflation test only clears entries that are small beside the norm *)
  Lemma vigilant_small k h M : (ktop <= k <= kbot - 2)%Z -> hgood h M -> Rabs (M k k) <= Nf -> Rabs (M (k + 1)%Z (k + 1)%Z) <= Nf ->
    (forall j, (ktop <= j < k)%Z -> Rabs (M k j) <= Nf) -> (forall i, (k + 2 <= i <= kbot)%Z -> Rabs (M i (k + 1)%Z) <= Nf) ->
    q5_vigilant n ktop kbot k h = h \/ (q5_vigilant n ktop kbot k h = set2 h (k + 1) k f0 /\ Rabs (M (k + 1)%Z k) <= D).
  Proof.
    intros K HG B1 B2 B3 B4. unfold q5_vigilant. destruct (fne _ _); [|auto].
    match goal with |- context [fle (fabs _) (fmax _ (fmul _ ?x))] => assert (ET : exists T, x = Fin T /\ T <= 6 * Nf) end.
    { rewrite !(hgood_get h M k k), !(hgood_get h M (k + 1) (k + 1)) by (assumption || lia). rewrite !er_absE, er_addE, er_f0, er_eqE.
      destruct (Req_bool_spec (Rabs (M k k) + Rabs (M (k + 1)%Z (k + 1)%Z)) 0) as [E0|_]; [|eexists; split; [reflexivity|lra]].
      rewrite E0.
      assert (S1 : forall x m, x <= m * Nf -> forall (b : bool) i j, (b = true -> Rabs (M i j) <= Nf /\ (1 <= i <= n)%Z /\ (1 <= j <= n)%Z) ->
        exists y, (if b then fadd (Fin x) (fabs (get2 h i j)) else Fin x) = Fin y /\ y <= (m + 1) * Nf).
      { intros x m Hx [|] i j Hb; [|exists x; split; [reflexivity|lra]]. destruct (Hb eq_refl) as (Hb1 & Hb2 & Hb3).
        rewrite (hgood_get h M) by assumption. rewrite er_absE, er_addE. eexists. split; [reflexivity|lra]. }
      destruct (S1 0 0 ltac:(lra) (ktop + 1 <=? k)%Z k (k - 1)%Z) as (y1 & -> & Y1). { intros X. apply Z.leb_le in X. split; [apply B3|]; lia. }
      destruct (S1 y1 _ Y1 (ktop + 2 <=? k)%Z k (k - 2)%Z) as (y2 & -> & Y2). { intros X. apply Z.leb_le in X. split; [apply B3|]; lia. }
      destruct (S1 y2 _ Y2 (ktop + 3 <=? k)%Z k (k - 3)%Z) as (y3 & -> & Y3). { intros X. apply Z.leb_le in X. split; [apply B3|]; lia. }
      destruct (S1 y3 _ Y3 (k <=? kbot - 2)%Z (k + 2)%Z (k + 1)%Z) as (y4 & -> & Y4). { intros X. apply Z.leb_le in X. split; [apply B4|]; lia. }
      destruct (S1 y4 _ Y4 (k <=? kbot - 3)%Z (k + 3)%Z (k + 1)%Z) as (y5 & -> & Y5). { intros X. apply Z.leb_le in X. split; [apply B4|]; lia. }
      destruct (S1 y5 _ Y5 (k <=? kbot - 4)%Z (k + 4)%Z (k + 1)%Z) as (y6 & -> & Y6). { intros X. apply Z.leb_le in X. split; [apply B4|]; lia. }
      exists y6. split; [reflexivity|lra]. }
    destruct ET as (T & -> & HT).
    assert (EU : (q5_ulp : er) = Fin (bpow radix2 (-52))).
    { unfold q5_ulp. change (dlamch (chr "P")) with (fmul mach_eps (fofZ 2) : er). rewrite er_mach_eps, er_fofZ, er_mulE. f_equal. change 2 with (bpow radix2 1). rewrite <- bpow_plus. reflexivity. }
    assert (ES : (q5_smlnum n : er) = Fin (IZR n * bpow radix2 (-970))).
    { unfold q5_smlnum. rewrite EU. change (dlamch (chr "S")) with (mach_sfmin : er). rewrite er_sfmin, er_fofZ, er_divE, er_mulE by (apply Rgt_not_eq, bpow_gt_0).
      f_equal. replace (-970)%Z with (-1022 + 52)%Z by lia. rewrite bpow_plus. replace (-52)%Z with (- (52))%Z by lia. rewrite bpow_opp. field. apply Rgt_not_eq, bpow_gt_0. }
    rewrite EU, ES, er_mulE, er_maxE, !(hgood_get h M (k + 1) k) by (assumption || lia). rewrite er_absE, er_leE.
    destruct (Rle_bool_spec (Rabs (M (k + 1)%Z k)) (Rmax (IZR n * bpow radix2 (-970)) (bpow radix2 (-52) * T))) as [LE|_]; [|auto].
    destruct (_ || _)%bool; [|auto]. right. split; [reflexivity|]. eapply Rle_trans; [exact LE|]. apply Rle_max_compat_l.
    pose proof (bpow_gt_0 radix2 (-52)). nra.
  Qed.

  Lemma deflate_good k h M : (ktop - 1 <= k <= kbot - 2)%Z -> hgood h M ->
    ((ktop <= k)%Z -> Rabs (M k k) <= Nf /\ Rabs (M (k + 1)%Z (k + 1)%Z) <= Nf /\
      (forall j, (ktop <= j < k)%Z -> Rabs (M k j) <= Nf) /\ (forall i, (k + 2 <= i <= kbot)%Z -> Rabs (M i (k + 1)%Z) <= Nf)) ->
    exists M', hgood (if (k <? ktop)%Z then h else q5_vigilant n ktop kbot k h) M' /\
      forall i j, (1 <= i <= n)%Z -> (1 <= j <= n)%Z -> M' i j = M i j \/ (ktop <= k /\ i = k + 1 /\ j = k)%Z /\ M' i j = 0 /\ Rabs (M i j) <= D.
  Proof.
    intros K HG HB. destruct (Z.ltb_spec k ktop); [exists M; auto|]. destruct (HB ltac:(lia)) as (B1 & B2 & B3 & B4).
    destruct (vigilant_small k h M ltac:(lia) HG B1 B2 B3 B4) as [-> | [-> SM]]; [exists M; auto|].
    rewrite er_f0. exists (rupd M (k + 1) k 0). split; [apply hgood_set; [exact HG|lia|lia]|].
    intros i j Hi Hj. unfold rupd. destruct (Z.eqb_spec i (k + 1)) as [->|], (Z.eqb_spec j k) as [->|]; cbn [andb]; auto.
  Qed.

  Lemma krcol_step3 incol k st : (ktop - 1 <= k <= kbot - 3)%Z -> forall M G Q t u2 u3, sval k st M G Q t u2 u3 ->
    exists st' M' G' tau v2 v3, krcol_ incol k st = Ok st' /\ reflected k st' M G Q M' G' tau v2 v3.
  Proof.
    intros K M G Q t u2 u3 (HG & SV & I & VG & _ & FC & FS). pose proof LO as L1. pose proof HI as L2.
    destruct (chase_any k st M G Q t u2 u3 K HG SV I VG FC FS) as (h' & v' & M2 & tau & v2 & v3 & E & H1 & S' & E1 & E2 & E3 & A & F).
    unfold q5_krcol. rewrite mtop_one, mbot_one by lia. rewrite Z.ltb_irrefl. cbn [andb bind].
    rewrite range_rev_cons, range_rev_nil by lia. cbn [for_M]. unfold q5_bulge at 1. cbn [Z.sub Z.opp Z.add Z.pos_sub Z.mul]. rewrite Z.add_0_r.
    rewrite E. cbn [bind]. rewrite (get2_col1 v' 1 _ E1), (get2_col1 v' 2 _ E2), (get2_col1 v' 3 _ E3). rewrite !er_mulE.
    rewrite jtop_lo, jbot_hi.
    destruct H1 as [HM2 SH2].
    assert (R2 : (n <= rows h')%Z) by (rewrite (proj1 SH2), RH; exact NH).
    destruct (right3_loop n h' M2 (k + 1) v2 v3 tau lo (Z.min kbot (k + 3)) HM2 R2) as [HM3 SH3]; [lia|lia|lia|lia|].
    set (h3 := for_ (range lo (Z.min kbot (k + 3))) h' _) in *. clearbody h3.
    set (M3 := rows_only lo (Z.min kbot (k + 3)) (rright (k + 1) v2 v3 tau M2) M2) in *.
    assert (S3 : same_shape h3 h0) by (eapply same_shape_trans; eassumption).
    assert (R3 : (n <= rows h3)%Z) by (rewrite (proj1 S3), RH; exact NH).
    pose proof (left3_is n h3 M3 (k + 1) v2 v3 tau (k + 1) HM3 R3 ltac:(lia) ltac:(lia) ltac:(lia)) as HM4.
    pose proof (q5_left3_shape (k + 1) (Fin v2) (Fin v3) (Fin tau) (Fin (tau * v2)) (Fin (tau * v3)) (k + 1) h3) as SH4.
    set (h4 := q5_left3 _ _ _ _ _ _ _ h3) in *. clearbody h4.
    assert (HG4 : hgood h4 (col_only (k + 1) (rleft (k + 1) v2 v3 tau M3) M3)) by (split; [exact HM4|eapply same_shape_trans; eassumption]).
    assert (PB := pre_bounds k M G Q t u2 u3 I ltac:(lia) M2 v2 v3 tau A (col_only (k + 1) (rleft (k + 1) v2 v3 tau M3) M3)). fold M3 in PB.
    destruct (deflate_good k h4 _ ltac:(lia) HG4) as (M5 & HG5 & E5).
    { intros K'. apply PB; [| |exact K'].
      - intros i Hi. unfold col_only. rewrite Z.eqb_refl. reflexivity.
      - intros i j Hi Hj Hjk. unfold col_only. destruct (Z.eqb_spec j (k + 1)); [lia|]. reflexivity. }
    set (h5 := if (k <? ktop)%Z then h4 else _) in *. clearbody h5. cbn [qH qV qZ qU qWv qWh qVt].
    unfold q5_left_all. rewrite range_rev_cons, range_rev_nil by lia. cbn [for_ fold_left]. cbn [Z.sub Z.opp Z.add Z.pos_sub Z.mul Pos.mul]. rewrite Z.add_0_r.
    rewrite (get2_col1 v' 1 _ E1), (get2_col1 v' 2 _ E2), (get2_col1 v' 3 _ E3), !er_mulE.
    destruct (left3_loop n h5 M5 (k + 1) v2 v3 tau (Z.max ktop (k + 2)) hi (proj1 HG5) (hgood_rows _ _ HG5)) as [HM6 SH6]; [lia|lia|lia|lia|].
    match type of SH6 with same_shape ?x _ => set (h6 := x) in * end.
    change (fold_left (fun s i => q5_left3 (k + 1) (Fin v2) (Fin v3) (Fin tau) (Fin (tau * v2)) (Fin (tau * v3)) i s) (range (Z.max ktop (k + 2)) hi) h5) with h6.
    clearbody h6.
    assert (S6 : same_shape h6 h0) by (eapply same_shape_trans; [exact SH6|apply HG5]).
    destruct (apply_inv k M G Q t u2 u3 I ltac:(lia) M2 v2 v3 tau A (cols_only (Z.max ktop (k + 2)) hi (rleft (k + 1) v2 v3 tau M5) M5)) as (G' & I' & EG').
    { intros i j Hi Hj Hc. fold M3. unfold cols_only.
      assert (X : forall a b, (1 <= a <= n)%Z -> (1 <= b <= n)%Z -> (k + 1 <= b)%Z -> M5 a b = col_only (k + 1) (rleft (k + 1) v2 v3 tau M3) M3 a b).
      { intros a b Ha Hb Hab. destruct (E5 a b Ha Hb) as [X|[X _]]; [exact X|lia]. }
      destruct (Z.eq_dec j (k + 1)) as [->|].
      - destruct (Z.leb_spec (Z.max ktop (k + 2)) (k + 1)); [lia|]. cbn [andb]. rewrite X by lia. unfold col_only. rewrite Z.eqb_refl. reflexivity.
      - destruct (Z.leb_spec (Z.max ktop (k + 2)) j); [|lia]. destruct (Z.leb_spec j hi); [|lia]. cbn [andb].
        unfold rleft. rewrite !X by lia. unfold col_only. destruct (Z.eqb_spec j (k + 1)); [lia|]. reflexivity. }
    { intros i j Hi Hj Hc. fold M3. unfold cols_only.
      assert (Y : ((Z.max ktop (k + 2) <=? j) && (j <=? hi))%Z = false) by (destruct (Z.leb_spec (Z.max ktop (k + 2)) j), (Z.leb_spec j hi); try reflexivity; lia).
      rewrite Y. pose proof (E5 i j Hi Hj) as E5'. assert (Z4 : col_only (k + 1) (rleft (k + 1) v2 v3 tau M3) M3 i j = M3 i j) by (unfold col_only; destruct (Z.eqb_spec j (k + 1)); [lia|]; reflexivity).
      rewrite Z4 in E5'. exact E5'. }
    destruct wantz; (eexists; eexists; exists G', tau, v2, v3; split; [reflexivity|]; unfold reflected, sval; cbn [qH qV];
      split; [|split; [exact EG'|split; [left; lia|split; [exact E1|split; [exact E2|intros _; exact E3]]]]];
      split; [split; [exact HM6|exact S6]|]; split; [exact S'|]; split; [exact I'|]; split; [intros _; split; [exact E1|split; [exact E2|intros _; exact E3]]|];
      split; [lia|]; split; [intros _; exact F|lia]).
  Qed.

  (** the last step: a 2-by-2 reflector *)
  Lemma krcol_step2 incol st : forall M G Q t u2 u3, sval (kbot - 2) st M G Q t u2 u3 ->
    exists st' M' G' tau v2 v3, krcol_ incol (kbot - 2) st = Ok st' /\ reflected (kbot - 2) st' M G Q M' G' tau v2 v3.
  Proof.
    set (k := (kbot - 2)%Z). assert (EK : (kbot - 2)%Z = k) by reflexivity. clearbody k.
    intros M G Q t u2 u3 (HG & SV & I & VG & _ & FC & FS). pose proof LO as L1. pose proof HI as L2.
    unfold q5_krcol. rewrite mtop_one by lia. rewrite (mbot_zero k EK). replace (k + 2 * (0 + 1 - 1))%Z with k by lia. rewrite EK, Z.eqb_refl. cbn [Z.ltb Z.compare andb].
    rewrite (range_rev_nil 1 0) by lia. unfold q5_bulge22. cbn [Z.add]. cbn [Z.sub Z.opp Z.add Z.pos_sub Z.mul Pos.mul]. rewrite Z.add_0_r. cbn [Pos.pred_double].
    match goal with |- context [bind (bind ?x _) _] => set (chase := x) end.
    assert (CH : exists h' v' M2 tau v2, chase = Ok (h', v') /\ hgood h' M2 /\ same_shape v' v0 /\ elem v' 1 = Some (Fin tau) /\ elem v' 2 = Some (Fin v2) /\
      after k M G v2 0 tau M2 /\ first_col (rright (k + 1) v2 0 tau Q)).
    { unfold chase. destruct (Z.eqb_spec k (ktop - 1)) as [EF|NF].
      - destruct (FS ltac:(lia)) as [EM EQ].
        destruct (tail_is (qH st) n ldh (k + 1) 2 M (full_shape _ _ (proj2 HG) FH) ltac:(rewrite (proj1 (proj2 HG)); exact RH) ltac:(lia) (proj1 HG) ltac:(lia) ltac:(lia) ltac:(lia)) as (l & hf & -> & EL & HF0).
        assert (HF : mat_is hf 2 2 (fun a b => H0 (ktop - 1 + a) (ktop - 1 + b))%Z).
        { intros i j Hi Hj. rewrite HF0 by assumption. replace (k + 1 - 1)%Z with (ktop - 1)%Z by lia. rewrite EM by lia. reflexivity. }
        destruct (whole_v (qV st) SV) as (lv & -> & LV). cbn [bind].
        rewrite ES1, ES2, ES3, ES4. unfold dlaqr1. rewrite EL. cbn [bind Z.eqb Pos.eqb negb andb].
        set (r := laqr1_2 hf (Fin sr1) (Fin si1) (Fin sr2) (Fin si2) (to_fa lv)).
        assert (CL : (2 <= count (to_fa lv))%Z) by (change (2 <= zlen lv)%Z; lia).
        destruct (start2 _ hf (to_fa lv) sr1 si1 sr2 si2 B BS HF CL) as (w1 & w2 & Sr & W1 & W2 & B1 & B2).
        { intros i j Hi Hj. apply H0_bound; lia. }
        { replace (ktop - 1 + 2)%Z with (ktop + 1)%Z by lia. replace (ktop - 1 + 1)%Z with ktop by lia. apply UNR. lia. }
        fold r in Sr, W1, W2. cbn [from_fa FromFA_vec bind to_fa_2d ToFA_vec].
        destruct (as_2d_shape ldv v0 (fa_of_vec (vec_of_fa r)) DV) as (v1 & -> & S1 & D1).
        { change (zlen (data r) = count v0). rewrite <- count_zlen, (proj2 (proj2 Sr)). exact LV. }
        cbn [bind].
        assert (EV : forall p, elem v1 p = elem r p) by (intros p; rewrite !elem_zget, D1; reflexivity).
        rewrite (get2_col1 v1 1 (Fin w1)) by (rewrite EV; exact W1).
        assert (C1 : (3 <= count v1)%Z) by (destruct S1 as (_ & _ & ->); exact CV).
        destruct (reflect2 ldv v1 w1 w2 (dim2_shape _ _ _ S1 DV) C1) as (v' & beta & tau & v2 & -> & S' & E1 & E2 & KL);
          try (apply B5_big; assumption); try (rewrite EV; assumption).
        cbn [bind fst]. exists (qH st), v', M, tau, v2. split; [reflexivity|]. split; [exact HG|]. split; [eapply same_shape_trans; eassumption|].
        split; [exact E1|]. split; [exact E2|]. split; [apply (first_after k M G Q t u2 u3 I); [lia|apply KL|right; reflexivity|lia]|].
        replace (k + 1)%Z with ktop by lia. apply (first_col_ext (rright ktop v2 0 tau Rid)); [intros i; unfold rright; rewrite !EQ; reflexivity|].
        intros SP. destruct (laqr1_2_exact _ hf (to_fa lv) sr1 si1 sr2 si2 HF CL SP) as (_ & _ & c & w & _ & EW). fold r in EW.
        apply (first_col_of c w1 w2 0 beta tau v2 0 2); [lia|lia|right; split; [lia|reflexivity]|exact KL|].
        intros i Hi. destruct (EW i Hi) as [X Y]. rewrite Y. f_equal. f_equal.
        assert (i = 1 \/ i = 2)%Z as [-> | ->] by lia; cbn [Z.eqb Pos.eqb]; congruence.
      - rewrite !(hgood_get _ M) by (assumption || lia).
        rewrite !(mid_done k M G Q t u2 u3 I) by lia.
        destruct (stored2 (qV st) (G (k + 2)%Z k) SV) as (SW & W2). cbv zeta in SW, W2. set (w := set2 (qV st) 2 1 (Fin (G (k + 2)%Z k))) in *. clearbody w.
        assert (BG : forall i, inr i -> Rabs (G i k) <= 2 ^ 505) by (intros i Hi; apply B_big; eapply Rle_trans; [|exact NFB]; eapply G_bound; [exact I|exact Hi|lia]).
        assert (CW : (3 <= count w)%Z) by (destruct SW as (_ & _ & ->); exact CV).
        destruct (reflect2 ldv w (G (k + 1)%Z k) (G (k + 2)%Z k) (dim2_shape _ _ _ SW DV) CW W2) as (v' & beta & tau & v2 & -> & S' & E1 & E2 & KL); try (apply BG; lia).
        cbn [bind]. rewrite er_f0. do 5 eexists. split; [reflexivity|].
        split; [apply hgood_set; [apply hgood_set; [exact HG|lia|lia]|lia|lia]|]. split; [eapply same_shape_trans; eassumption|].
        split; [exact E1|]. split; [exact E2|]. split; [apply (mid2_after k M G Q t u2 u3 I); [lia|lia|exact KL]|].
        refine (first_col_ext _ _ _ (FC ltac:(lia))). intros i. symmetry. apply first_col_kept. lia. }
    destruct CH as (h' & v' & M2 & tau & v2 & E & H1 & S' & E1 & E2 & A & F). rewrite E. clear chase E. cbn [bind].
    rewrite (get2_col1 v' 1 _ E1), (get2_col1 v' 2 _ E2), !er_mulE. rewrite jtop_lo, jbot_hi.
    destruct H1 as [HM2 SH2].
    assert (R2 : (n <= rows h')%Z) by (rewrite (proj1 SH2), RH; exact NH).
    destruct (right2_loop n h' M2 (k + 1) v2 tau lo (Z.min kbot (k + 3)) HM2 R2) as [HM3 SH3]; [lia|lia|lia|lia|].
    set (h3 := for_ (range lo (Z.min kbot (k + 3))) h' _) in *. clearbody h3.
    set (M3 := rows_only lo (Z.min kbot (k + 3)) (rright (k + 1) v2 0 tau M2) M2) in *.
    assert (S3 : same_shape h3 h0) by (eapply same_shape_trans; eassumption).
    assert (R3 : (n <= rows h3)%Z) by (rewrite (proj1 S3), RH; exact NH).
    destruct (left2_loop n h3 M3 (k + 1) v2 tau (k + 1) hi HM3 R3) as [HM4 SH4]; [lia|lia|lia|lia|].
    set (h4 := for_ (range (k + 1) hi) h3 _) in *. clearbody h4.
    assert (HG4 : hgood h4 (cols_only (k + 1) hi (rleft (k + 1) v2 0 tau M3) M3)) by (split; [exact HM4|eapply same_shape_trans; eassumption]).
    assert (PB := pre_bounds k M G Q t u2 u3 I ltac:(lia) M2 v2 0 tau A (cols_only (k + 1) hi (rleft (k + 1) v2 0 tau M3) M3)). fold M3 in PB.
    destruct (deflate_good k h4 _ ltac:(lia) HG4) as (M5 & HG5 & E5).
    { intros K'. apply PB; [| |exact K'].
      - intros i Hi. unfold cols_only. destruct (Z.leb_spec (k + 1) (k + 1)), (Z.leb_spec (k + 1) hi); try lia. reflexivity.
      - intros i j Hi Hj Hjk. unfold cols_only. destruct (Z.leb_spec (k + 1) j); [lia|]. reflexivity. }
    assert (EI : (if (ktop <=? k)%Z then q5_vigilant n ktop kbot k h4 else h4) = (if (k <? ktop)%Z then h4 else q5_vigilant n ktop kbot k h4)).
    { destruct (Z.leb_spec ktop k), (Z.ltb_spec k ktop); try lia; reflexivity. }
    rewrite EI. set (h5 := if (k <? ktop)%Z then h4 else _) in *. clearbody h5.
    destruct (apply_inv k M G Q t u2 u3 I ltac:(lia) M2 v2 0 tau A M5) as (G' & I' & EG').
    { intros i j Hi Hj Hc. fold M3. destruct (E5 i j Hi Hj) as [X|[X _]]; [|lia]. rewrite X. unfold cols_only.
      destruct (Z.leb_spec (k + 1) j), (Z.leb_spec j hi); try lia. reflexivity. }
    { intros i j Hi Hj Hc. fold M3. pose proof (E5 i j Hi Hj) as E5'.
      assert (Z4 : cols_only (k + 1) hi (rleft (k + 1) v2 0 tau M3) M3 i j = M3 i j) by (unfold cols_only; destruct (Z.leb_spec (k + 1) j), (Z.leb_spec j hi); try lia; reflexivity).
      rewrite Z4 in E5'. exact E5'. }
    assert (SI : forall z u wv wh vt, reflected k (mkQ5 h5 z v' u wv wh vt) M G Q M5 G' tau v2 0).
    { intros. unfold reflected, sval. cbn [qH qV]. split; [|split; [exact EG'|split; [right; reflexivity|split; [exact E1|split; [exact E2|lia]]]]]. split; [exact HG5|]. split; [exact S'|]. split; [exact I'|].
      split; [intros _; split; [exact E1|split; [exact E2|lia]]|]. split; [reflexivity|]. split; [intros _; exact F|lia]. }
    destruct wantz; (cbn [bind for_M qH qV qZ qU qWv qWh qVt]; unfold q5_left_all; rewrite range_rev_nil by lia; cbn [for_ fold_left]; eexists; exists M5, G', tau, v2, 0; split; [reflexivity|apply SI]).
  Qed.

  (** *** the whole sweep *)
  Lemma krcol_reflects incol k st M G Q t u2 u3 : (ktop - 1 <= k <= kbot - 2)%Z -> sval k st M G Q t u2 u3 ->
    exists st' M' G' tau v2 v3, krcol_ incol k st = Ok st' /\ reflected k st' M G Q M' G' tau v2 v3.
  Proof.
    intros K S. destruct (Z.eq_dec k (kbot - 2)) as [->|].
    - eapply krcol_step2. exact S.
    - eapply krcol_step3; [lia|exact S].
  Qed.
  Lemma krcol_step incol k st : (ktop - 1 <= k <= kbot - 2)%Z -> sinv k st -> exists st', krcol_ incol k st = Ok st' /\ sinv (k + 1) st'.
  Proof.
    intros K (M & G & Q & t & u2 & u3 & S). destruct (krcol_reflects incol k st M G Q t u2 u3 K S) as (st' & M' & G' & tau & v2 & v3 & E & R & _).
    exists st'. split; [exact E|]. do 6 eexists. exact R.
  Qed.
  Notation incol_ := (q5_incol wantt wantz false n ktop kbot 1 sr si ldh iloz ihiz ldz ldv ldu nv ldwv nh ldwh).
  Notation main_ := (q5_main wantt wantz false n ktop kbot 1 sr si ldh iloz ihiz ldz ldv ldu nv ldwv nh ldwh).
  Lemma incol_step incol st : (ktop - 1 <= incol <= kbot - 2)%Z -> sinv incol st ->
    exists st', incol_ incol st = Ok st' /\ sinv (Z.min (incol + 2) (kbot - 1)) st'.
  Proof.
    intros K S. unfold q5_incol. cbn [bind].
    assert (S' : sinv incol (mkQ5 (qH st) (qZ st) (qV st) (qU st) (qWv st) (qWh st) (qVt st))) by (destruct st; exact S).
    replace (incol + 2 * 1 - 1)%Z with (incol + 1)%Z by lia. rewrite range_cons by lia. cbn [for_M].
    destruct (krcol_step incol incol _ K S') as (st1 & -> & S1). cbn [bind].
    destruct (Z_lt_le_dec incol (kbot - 2)).
    - rewrite range_cons, range_nil by lia. cbn [for_M]. destruct (krcol_step incol (incol + 1) st1) as (st2 & -> & S2); [lia|exact S1|]. cbn [bind].
      exists st2. split; [reflexivity|]. replace (Z.min (incol + 2) (kbot - 1)) with (incol + 1 + 1)%Z by lia. exact S2.
    - rewrite range_nil by lia. exists st1. split; [reflexivity|]. replace (Z.min (incol + 2) (kbot - 1)) with (incol + 1)%Z by lia. exact S1.
  Qed.
  Lemma incols m : forall incol st, (1 <= m)%nat -> (ktop - 1 <= incol)%Z -> (incol + 2 * (Z.of_nat m - 1) <= kbot - 2 < incol + 2 * Z.of_nat m)%Z -> sinv incol st ->
    exists st', for_M (zup incol 2 m) st incol_ = Ok st' /\ sinv (Z.min (incol + 2 * Z.of_nat m) (kbot - 1)) st'.
  Proof.
    induction m as [|m IH]; intros incol st K0 K1 K2 Si; [lia|]. cbn [zup for_M].
    destruct (incol_step incol st) as (st1 & -> & S1); [lia|exact Si|]. cbn [bind].
    destruct m as [|m'].
    - cbn [zup for_M]. exists st1. split; [reflexivity|exact S1].
    - replace (Z.min (incol + 2) (kbot - 1)) with (incol + 2)%Z in S1 by lia.
      destruct (IH (incol + 2)%Z st1) as (st2 & E2 & S2); [lia|lia|lia|exact S1|]. exists st2. split; [exact E2|].
      replace (incol + 2 * Z.of_nat (S (S m')))%Z with (incol + 2 + 2 * Z.of_nat (S m'))%Z by lia. exact S2.
  Qed.

  Lemma main_sim st : hgood (qH st) H0 -> same_shape (qV st) v0 ->
    exists st', main_ st = Ok st' /\ exists M Q, hgood (qH st') M /\ orthogonal lo hi Q /\ identity_outside ktop kbot Q /\
      (forall i j, inr i -> inr j -> M i j = conj_by lo hi Q H0 i j \/ (ktop <= j <= kbot - 2 /\ i = j + 1)%Z /\ M i j = 0 /\ Rabs (conj_by lo hi Q H0 i j) <= D) /\
      hessenberg lo hi M /\ (forall i j, (1 <= i <= n)%Z -> (1 <= j <= n)%Z -> ~ (inr i /\ inr j) -> M i j = H0 i j) /\ first_col Q.
  Proof.
    intros HG SV. pose proof LO as L1. pose proof HI as L2. unfold q5_main.
    replace (ktop - 2 * 1 + 1)%Z with (ktop - 1)%Z by lia. replace (2 * 1)%Z with 2%Z by lia.
    unfold range_step. destruct (Z.ltb_spec (kbot - 2) (ktop - 1)); [lia|].
    set (m := Z.to_nat ((kbot - 2 - (ktop - 1)) / 2 + 1)).
    assert (EM : (Z.of_nat m = (kbot - 2 - (ktop - 1)) / 2 + 1)%Z) by (unfold m; rewrite Z2Nat.id; [reflexivity|]; pose proof (Z.div_pos (kbot - 2 - (ktop - 1)) 2 ltac:(lia) ltac:(lia)); lia).
    pose proof (Z.div_mod (kbot - 2 - (ktop - 1)) 2 ltac:(lia)) as DM. pose proof (Z.mod_pos_bound (kbot - 2 - (ktop - 1)) 2 ltac:(lia)) as MB.
    match goal with |- context [for_M _ ?s _] => set (st1 := s) end.
    assert (S0 : sinv (ktop - 1) st1).
    { assert (HG1 : exists M, hgood (qH st1) M /\ forall i j, (1 <= i <= n)%Z -> (1 <= j <= n)%Z -> M i j = H0 i j).
      { unfold st1. cbn [qH]. destruct (Z.leb_spec (ktop + 2) kbot); [|exists H0; auto].
        rewrite er_f0. exists (rupd H0 (ktop + 2) ktop 0). split; [apply hgood_set; [exact HG|lia|lia]|].
        intros i j Hi Hj. unfold rupd. destruct (Z.eqb_spec i (ktop + 2)) as [->|], (Z.eqb_spec j ktop) as [->|]; cbn [andb]; try reflexivity.
        symmetry. apply HESS; lia. }
      destruct HG1 as (M & HG1 & E1). exists M, H0, Rid, 0, 0, 0. split; [exact HG1|]. split; [exact SV|].
      split; [apply inv_start; auto; lia|]. split; [intros X; lia|]. split; [lia|]. split; [lia|]. intros _. split; [exact E1|reflexivity]. }
    destruct (incols m (ktop - 1) st1) as (st' & E & S'); [lia|lia|lia|exact S0|].
    exists st'. split; [exact E|]. replace (Z.min (ktop - 1 + 2 * Z.of_nat m) (kbot - 1)) with (kbot - 1)%Z in S' by lia.
    destruct S' as (M & G & Q & t & u2 & u3 & HG' & _ & I & _ & U3 & FC & _). exists M, Q.
    destruct (inv_end n lo hi ktop kbot H0 D L1 (proj2 Hk) L2 M G Q t u2 u3 HESS I (U3 eq_refl)) as [SIM HS].
    split; [exact HG'|]. split; [apply I|]. split; [apply I|]. split; [exact SIM|]. split; [exact HS|]. split; [apply (i_out _ _ _ _ _ _ _ _ _ _ _ _ _ _ I)|]. apply FC. lia.
  Qed.
End Loop.
