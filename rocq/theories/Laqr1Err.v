(** dlaqr1 in binary64: the computed vector is a multiple of a vector close to the exact one. *)
From Coq Require Import Reals Lra.
From Flocq Require Import IEEE754.BinarySingleNaN Core.
From Verif Require Import Base Num Array Blas Lapack Spec SpecR SpecErr B64 B64Lemmas B64Nn FaLemmas RoundErr AppErr Lapy2Err LarfgErr Near Laqr1Proofs SpecShift.
Open Scope R_scope.

Lemma T1000 : 1 <= bpow radix2 1000 /\ bpow radix2 1023 = 8388608 * bpow radix2 1000.
Proof.
  split; [change 1 with (bpow radix2 0); apply bpow_le; lia|]. change 1023%Z with (23 + 1000)%Z. rewrite bpow_plus. f_equal.
Qed.
Lemma eta_tiny : eta64 <= / 1000000 /\ eta64 * bpow radix2 1000 <= / 1000000.
Proof.
  unfold eta64. rewrite <- bpow_plus. assert (G : forall e, (e <= -20)%Z -> bpow radix2 e <= / 1000000).
  { intros e H. apply Rle_trans with (bpow radix2 (-20)); [apply bpow_le; lia|]. change (bpow radix2 (-20)) with (/ 1048576). lra. }
  split; apply G; lia.
Qed.

Section L1.
  Context (lm : libm).
  #[local] Instance NBl : Num b64 := B64 lm.
  Context (m : R) (M0 : 0 <= m <= bpow radix2 1000).
  Definition inr (x : b64) : Prop := is_finite x = true /\ Rabs (B2R x) <= m.

  Lemma inr_diff x y : inr x -> inr y -> near 1 (fsub x y) (B2R x - B2R y) (Rabs (B2R x - B2R y)) 0 /\ Rabs (B2R x - B2R y) <= 2 * m.
  Proof.
    intros (F & X) (F' & Y). destruct T1000 as (T & E).
    assert (B : Rabs (B2R x - B2R y) <= 2 * m) by (unfold Rminus; eapply Rle_trans; [apply Rabs_triang|]; rewrite Rabs_Ropp; lra).
    split; [|exact B]. apply near_diff; [exact F|exact F'|]. lra.
  Qed.
  Lemma inr_exact x : inr x -> near 0 x (B2R x) (Rabs (B2R x)) 0.
  Proof. intros (F & _). apply near_exact, F. Qed.

  (** the scale *)
  Lemma scale2 a b c d : inr a -> inr b -> inr c -> inr d ->
    near 3 (fadd (fadd (fabs (fsub a b)) (fabs c)) (fabs d)) (Rabs (B2R a - B2R b) + Rabs (B2R c) + Rabs (B2R d))
      (Rabs (B2R a - B2R b) + Rabs (B2R c) + Rabs (B2R d)) 0.
  Proof.
    intros A B C D. destruct (inr_diff a b A B) as (N1 & L1). destruct T1000 as (T & E).
    pose proof (inr_exact c C) as N2. pose proof (inr_exact d D) as N3. destruct C as (_ & LC), D as (_ & LD).
    apply near_abs with (lm := lm) in N1, N2, N3.
    apply near_weak with (n' := 1%nat) (A' := Rabs (B2R c)) (e' := 0) in N2; [|lia|lra|lra].
    apply near_weak with (n' := 2%nat) (A' := Rabs (B2R d)) (e' := 0) in N3; [|lia|lra|lra].
    eapply near_eq; [eapply near_add; [eapply near_add; [exact N1|exact N2|lia|]|exact N3|lia|]| | |]; try reflexivity; lra.
  Qed.
  Lemma scale3 a b c d e : inr a -> inr b -> inr c -> inr d -> inr e ->
    near 4 (fadd (fadd (fadd (fabs (fsub a b)) (fabs c)) (fabs d)) (fabs e)) (Rabs (B2R a - B2R b) + Rabs (B2R c) + Rabs (B2R d) + Rabs (B2R e))
      (Rabs (B2R a - B2R b) + Rabs (B2R c) + Rabs (B2R d) + Rabs (B2R e)) 0.
  Proof.
    intros A B C D G. pose proof (scale2 a b c d A B C D) as N. pose proof (inr_diff a b A B) as (_ & L1). destruct T1000 as (T & E).
    pose proof (inr_exact e G) as N3. destruct C as (_ & LC), D as (_ & LD), G as (_ & LE).
    apply near_abs with (lm := lm) in N3. apply near_weak with (n' := 3%nat) (A' := Rabs (B2R e)) (e' := 0) in N3; [|lia|lra|lra].
    eapply near_eq; [eapply near_add; [exact N|exact N3|lia|]| | |]; try reflexivity; lra.
  Qed.

  (** with the scale s: quotients, products, sums *)
  Context (s : b64) (S0 : 0 < B2R s).
  Notation sg := (B2R s).

  Lemma quot1 x : inr x -> Rabs (B2R x) <= 2 * sg -> near 1 (fdiv x s) (B2R x / sg) (Rabs (B2R x) / sg) eta64.
  Proof.
    intros X L. destruct T1000 as (T & E). eapply near_eq; [eapply near_div; [apply inr_exact, X|exact S0|lia|]| | |]; try reflexivity.
    - assert ((Rabs (B2R x) + 0) / sg <= 2); [|lra]. apply Rmult_le_reg_r with sg; [exact S0|]. unfold Rdiv. rewrite Rmult_assoc, Rinv_l by lra. lra.
    - unfold Rdiv. rewrite Rmult_0_l. ring.
  Qed.
  Lemma quot2 x y : inr x -> inr y -> Rabs (B2R x - B2R y) <= 2 * sg -> near 2 (fdiv (fsub x y) s) ((B2R x - B2R y) / sg) (Rabs (B2R x - B2R y) / sg) eta64.
  Proof.
    intros X Y L. destruct T1000 as (T & E). eapply near_eq; [eapply near_div; [apply inr_diff; assumption|exact S0|lia|]| | |]; try reflexivity.
    - assert ((Rabs (B2R x - B2R y) + 0) / sg <= 2); [|lra]. apply Rmult_le_reg_r with sg; [exact S0|]. unfold Rdiv. rewrite Rmult_assoc, Rinv_l by lra. lra.
    - unfold Rdiv. rewrite Rmult_0_l. ring.
  Qed.
  Lemma quot_le a : a <= 2 * sg -> a / sg <= 2.
  Proof. intros L. apply Rmult_le_reg_r with sg; [exact S0|]. unfold Rdiv. rewrite Rmult_assoc, Rinv_l by lra. lra. Qed.
  (** a product with such a quotient *)
  Lemma prod_near n k y x A q xq Aq : near n y x A 0 -> near k q (xq / sg) (Aq / sg) eta64 -> A <= 8 * m -> 0 <= Aq <= 2 * sg -> (n <= 10)%nat -> (k <= 10)%nat ->
    near (S (n + k)) (fmul y q) (x * xq / sg) (A * Aq / sg) (eta64 * (A + 1)) /\ A * Aq / sg <= 16 * m.
  Proof.
    intros Y Q LA LQ N K. destruct T1000 as (T & E), eta_tiny as (ET & _). pose proof (quot_le Aq ltac:(lra)) as L. pose proof (near_nn _ _ _ _ _ Y) as (A0 & _). pose proof eta64_pos as EP.
    pose proof (near_nn _ _ _ _ _ Q) as (Q0 & _). set (z := Aq / sg) in *.
    split.
    - eapply near_eq; [eapply near_mul; [exact Y|exact Q|lia|lia|]| | |].
      + assert ((A + 0) * (z + eta64) <= 8 * m * 3) by (apply Rmult_le_compat; lra). lra.
      + unfold Rdiv. ring.
      + unfold z, Rdiv. ring.
      + ring.
    - replace (A * Aq / sg) with (A * z) by (unfold z, Rdiv; ring). replace (16 * m) with (8 * m * 2) by ring. apply Rmult_le_compat; lra.
  Qed.
  (** and with the quotient first *)
  Lemma mul_comm_near n (y q : b64) x A e : near n (fmul y q) x A e -> near n (fmul q y) x A e.
  Proof.
    intros H. assert (E : B2R (fmul q y) = B2R (fmul y q) /\ is_finite (fmul q y) = is_finite (fmul y q)); [|destruct E as (E1 & E2); unfold near; rewrite E1, E2; exact H].
    destruct H as (F & _). change (is_finite (Bmult mode_NE y q) = true) in F. change (B2R (Bmult mode_NE q y) = B2R (Bmult mode_NE y q) /\ is_finite (Bmult mode_NE q y) = is_finite (Bmult mode_NE y q)).
    destruct (mult_fin _ _ F) as (Fy & Fq & E & _).
    pose proof (Bmult_correct 53 1024 prec53 emax1024 mode_NE y q) as C1. pose proof (Bmult_correct 53 1024 prec53 emax1024 mode_NE q y) as C2. rewrite (Rmult_comm (B2R q)) in C2.
    destruct (Rlt_bool _ _).
    - destruct C1 as (E1 & F1 & _), C2 as (E2 & F2 & _). rewrite E1, E2, F1, F2, Fy, Fq. split; reflexivity.
    - apply of_overflow_any in C1. congruence.
  Qed.

  (** the four-term sum *)
  Lemma trace_near a b c d : inr a -> inr b -> inr c -> inr d ->
    near 3 (fsub (fsub (fadd a b) c) d) (B2R a + B2R b - B2R c - B2R d) (Rabs (B2R a) + Rabs (B2R b) + Rabs (B2R c) + Rabs (B2R d)) 0.
  Proof.
    intros A B C D. destruct T1000 as (T & E). pose proof (inr_exact _ A) as N1. pose proof (inr_exact _ B) as N2. pose proof (inr_exact _ C) as N3. pose proof (inr_exact _ D) as N4.
    destruct A as (_ & LA), B as (_ & LB), C as (_ & LC), D as (_ & LD).
    apply near_weak with (n' := 1%nat) (A' := Rabs (B2R c)) (e' := 0) in N3; [|lia|lra|lra].
    apply near_weak with (n' := 2%nat) (A' := Rabs (B2R d)) (e' := 0) in N4; [|lia|lra|lra].
    eapply near_eq; [eapply near_sub; [eapply near_sub; [eapply near_add; [exact N1|exact N2|lia|]|exact N3|lia|]|exact N4|lia|]| | |]; try reflexivity; lra.
  Qed.
End L1.

Section Comp.
  Context (lm : libm).
  #[local] Instance NBc : Num b64 := B64 lm.
  Context (m : R) (M0 : 0 <= m <= bpow radix2 1000).
  Context (s : b64) (S0 : 0 < B2R s).
  Notation sg := (B2R s).
  Notation inr := (inr m).
  Context (h11 h12 h13 h21 h22 h23 h31 h32 h33 sr1 si1 sr2 si2 : b64)
    (I11 : inr h11) (I12 : inr h12) (I13 : inr h13) (I21 : inr h21) (I22 : inr h22) (I23 : inr h23) (I31 : inr h31) (I32 : inr h32) (I33 : inr h33)
    (J1 : inr sr1) (J2 : inr si1) (J3 : inr sr2) (J4 : inr si2).
  Hypothesis (Q1 : Rabs (B2R h11 - B2R sr2) <= 2 * sg) (Q2 : Rabs (B2R si2) <= 2 * sg) (Q3 : Rabs (B2R h21) <= 2 * sg) (Q4 : Rabs (B2R h31) <= 2 * sg).

  Local Ltac eb := let A := fresh in let B := fresh in pose proof eta64_pos as A; destruct eta_tiny as (_ & B);
    assert (0 <= eta64 * m <= / 1000000) by (split; [apply Rmult_le_pos; lra|]; apply Rle_trans with (eta64 * bpow radix2 1000); [apply Rmult_le_compat_l; lra|exact B]); destruct eta_tiny as (? & _).

  (** (h11 - sr1)*((h11 - sr2)/s) - si1*(si2/s) *)
  Lemma part_d : near 5 (fsub (fmul (fsub h11 sr1) (fdiv (fsub h11 sr2) s)) (fmul si1 (fdiv si2 s)))
      (((B2R h11 - B2R sr1) * (B2R h11 - B2R sr2) - B2R si1 * B2R si2) / sg)
      ((Rabs (B2R h11 - B2R sr1) * Rabs (B2R h11 - B2R sr2) + Rabs (B2R si1) * Rabs (B2R si2)) / sg)
      (eta64 * (3 * m + 2)) /\
    (Rabs (B2R h11 - B2R sr1) * Rabs (B2R h11 - B2R sr2) + Rabs (B2R si1) * Rabs (B2R si2)) / sg <= 32 * m.
  Proof.
    destruct (inr_diff lm m M0 _ _ I11 J1) as (N1 & L1). destruct T1000 as (T & E).
    destruct (prod_near lm m M0 s S0 _ _ _ _ _ _ _ _ N1 (quot2 lm m M0 s S0 _ _ I11 J3 Q1)) as (P1 & B1); [lra|pose proof (Rabs_pos (B2R h11 - B2R sr2)); lra|lia|lia|].
    destruct (prod_near lm m M0 s S0 _ _ _ _ _ _ _ _ (inr_exact m _ J2) (quot1 lm m s S0 _ J4 Q2)) as (P2 & B2); [destruct J2; lra|pose proof (Rabs_pos (B2R si2)); lra|lia|lia|].
    pose proof (proj2 J2) as L2. eb.
    apply near_weak with (n' := 4%nat) (A' := Rabs (B2R h11 - B2R sr1) * Rabs (B2R h11 - B2R sr2) / sg) (e' := eta64 * (2 * m + 1)) in P1; [|lia|lra|nra].
    apply near_weak with (n' := 4%nat) (A' := Rabs (B2R si1) * Rabs (B2R si2) / sg) (e' := eta64 * (m + 1)) in P2; [|lia|lra|nra].
    split; [|unfold Rdiv in *; lra].
    eapply near_eq; [eapply near_sub; [exact P1|exact P2|lia|lra]| | |]; unfold Rdiv; ring.
  Qed.

  (** a product h*(x/s), either way round *)
  Lemma part_p h x : inr h -> inr x -> Rabs (B2R x) <= 2 * sg ->
    near 2 (fmul h (fdiv x s)) (B2R h * B2R x / sg) (Rabs (B2R h) * Rabs (B2R x) / sg) (eta64 * (m + 1)) /\
    near 2 (fmul (fdiv x s) h) (B2R h * B2R x / sg) (Rabs (B2R h) * Rabs (B2R x) / sg) (eta64 * (m + 1)) /\
    Rabs (B2R h) * Rabs (B2R x) / sg <= 16 * m.
  Proof.
    intros H X L.
    destruct (prod_near lm m M0 s S0 _ _ _ _ _ _ _ _ (inr_exact m _ H) (quot1 lm m s S0 _ X L)) as (P2 & B2); [destruct H; lra|pose proof (Rabs_pos (B2R x)); lra|lia|lia|].
    pose proof (proj2 H) as L2. eb.
    apply near_weak with (n' := 2%nat) (A' := Rabs (B2R h) * Rabs (B2R x) / sg) (e' := eta64 * (m + 1)) in P2; [|lia|lra|nra].
    split; [exact P2|]. split; [apply mul_comm_near, P2|exact B2].
  Qed.
  (** (x/s) * (h11 + h - sr1 - sr2) *)
  Lemma part_t h x : inr h -> inr x -> Rabs (B2R x) <= 2 * sg ->
    near 5 (fmul (fdiv x s) (fsub (fsub (fadd h11 h) sr1) sr2)) ((B2R h11 + B2R h - B2R sr1 - B2R sr2) * B2R x / sg)
      ((Rabs (B2R h11) + Rabs (B2R h) + Rabs (B2R sr1) + Rabs (B2R sr2)) * Rabs (B2R x) / sg) (eta64 * (4 * m + 1)) /\
    (Rabs (B2R h11) + Rabs (B2R h) + Rabs (B2R sr1) + Rabs (B2R sr2)) * Rabs (B2R x) / sg <= 16 * m.
  Proof.
    intros H X L. pose proof (proj2 I11) as L1. pose proof (proj2 H) as L2. pose proof (proj2 J1) as L3. pose proof (proj2 J3) as L4.
    destruct (prod_near lm m M0 s S0 _ _ _ _ _ _ _ _ (trace_near lm m M0 h11 h sr1 sr2 I11 H J1 J3) (quot1 lm m s S0 _ X L)) as (P2 & B2); [lra|pose proof (Rabs_pos (B2R x)); lra|lia|lia|].
    eb. split; [|exact B2]. apply mul_comm_near. eapply near_weak; [| | |exact P2]; [lia|lra|nra].
  Qed.

  Lemma comp31 : near 7 (fadd (fadd (fsub (fmul (fsub h11 sr1) (fdiv (fsub h11 sr2) s)) (fmul si1 (fdiv si2 s))) (fmul h12 (fdiv h21 s))) (fmul h13 (fdiv h31 s)))
     (((B2R h11 - B2R sr1) * (B2R h11 - B2R sr2) - B2R si1 * B2R si2 + B2R h12 * B2R h21 + B2R h13 * B2R h31) / sg)
     ((Rabs (B2R h11 - B2R sr1) * Rabs (B2R h11 - B2R sr2) + Rabs (B2R si1) * Rabs (B2R si2) + Rabs (B2R h12) * Rabs (B2R h21) + Rabs (B2R h13) * Rabs (B2R h31)) / sg)
     (eta64 * (5 * m + 4)).
  Proof.
    destruct part_d as (N1 & B1). destruct (part_p h12 h21 I12 I21 Q3) as (N2 & _ & B2). destruct (part_p h13 h31 I13 I31 Q4) as (N3 & _ & B3). destruct T1000 as (T & E).
    apply near_weak with (n' := 5%nat) (A' := Rabs (B2R h12) * Rabs (B2R h21) / sg) (e' := eta64 * (m + 1)) in N2; [|lia|lra|lra].
    apply near_weak with (n' := 6%nat) (A' := Rabs (B2R h13) * Rabs (B2R h31) / sg) (e' := eta64 * (m + 1)) in N3; [|lia|lra|lra]. eb.
    eapply near_eq; [eapply near_add; [eapply near_add; [exact N1|exact N2|lia|lra]|exact N3|lia|lra]| | |]; unfold Rdiv; ring.
  Qed.
  Lemma comp21 : near 7 (fsub (fadd (fmul (fdiv h21 s) h12) (fmul (fsub h11 sr1) (fdiv (fsub h11 sr2) s))) (fmul si1 (fdiv si2 s)))
     (((B2R h11 - B2R sr1) * (B2R h11 - B2R sr2) - B2R si1 * B2R si2 + B2R h12 * B2R h21) / sg)
     ((Rabs (B2R h11 - B2R sr1) * Rabs (B2R h11 - B2R sr2) + Rabs (B2R si1) * Rabs (B2R si2) + Rabs (B2R h12) * Rabs (B2R h21)) / sg)
     (eta64 * (5 * m + 4)).
  Proof.
    destruct (part_p h12 h21 I12 I21 Q3) as (_ & N2 & B2). destruct (part_p si1 si2 J2 J4 Q2) as (N3 & _ & B3). destruct T1000 as (T & E).
    destruct (inr_diff lm m M0 _ _ I11 J1) as (N1 & L1).
    destruct (prod_near lm m M0 s S0 _ _ _ _ _ _ _ _ N1 (quot2 lm m M0 s S0 _ _ I11 J3 Q1)) as (P1 & B1); [lra|pose proof (Rabs_pos (B2R h11 - B2R sr2)); lra|lia|lia|]. eb.
    apply near_weak with (n' := 4%nat) (A' := Rabs (B2R h11 - B2R sr1) * Rabs (B2R h11 - B2R sr2) / sg) (e' := eta64 * (2 * m + 1)) in P1; [|lia|lra|nra].
    apply near_weak with (n' := 4%nat) (A' := Rabs (B2R h12) * Rabs (B2R h21) / sg) (e' := eta64 * (m + 1)) in N2; [|lia|lra|lra].
    apply near_weak with (n' := 5%nat) (A' := Rabs (B2R si1) * Rabs (B2R si2) / sg) (e' := eta64 * (m + 1)) in N3; [|lia|lra|lra].
    apply near_weak with (n := 6%nat) (A := Rabs (B2R h12) * Rabs (B2R h21) / sg + Rabs (B2R h11 - B2R sr1) * Rabs (B2R h11 - B2R sr2) / sg + Rabs (B2R si1) * Rabs (B2R si2) / sg)
      (e := eta64 * (m + 1) + eta64 * (2 * m + 1) + eta64 * (m + 1)); [lia|unfold Rdiv; lra|nra|].
    eapply near_eq; [eapply near_sub; [eapply near_add; [exact N2|exact P1|lia|lra]|exact N3|lia|lra]| | |]; unfold Rdiv; ring.
  Qed.
  Lemma comp22 : near 7 (fmul (fdiv h21 s) (fsub (fsub (fadd h11 h22) sr1) sr2))
     (((B2R h11 + B2R h22 - B2R sr1 - B2R sr2) * B2R h21) / sg)
     (((Rabs (B2R h11) + Rabs (B2R h22) + Rabs (B2R sr1) + Rabs (B2R sr2)) * Rabs (B2R h21)) / sg)
     (eta64 * (5 * m + 4)).
  Proof. destruct (part_t h22 h21 I22 I21 Q3) as (N & _). eb. eapply near_weak; [| | |exact N]; [lia|lra|nra]. Qed.
  Lemma comp32 : near 7 (fadd (fmul (fdiv h21 s) (fsub (fsub (fadd h11 h22) sr1) sr2)) (fmul h23 (fdiv h31 s)))
     (((B2R h11 + B2R h22 - B2R sr1 - B2R sr2) * B2R h21 + B2R h23 * B2R h31) / sg)
     (((Rabs (B2R h11) + Rabs (B2R h22) + Rabs (B2R sr1) + Rabs (B2R sr2)) * Rabs (B2R h21) + Rabs (B2R h23) * Rabs (B2R h31)) / sg)
     (eta64 * (5 * m + 4)).
  Proof.
    destruct (part_t h22 h21 I22 I21 Q3) as (N1 & B1). destruct (part_p h23 h31 I23 I31 Q4) as (N2 & _ & B2). destruct T1000 as (T & E). eb.
    apply near_weak with (n' := 5%nat) (A' := Rabs (B2R h23) * Rabs (B2R h31) / sg) (e' := eta64 * (m + 1)) in N2; [|lia|lra|lra].
    eapply near_weak; cycle 3; [eapply near_eq; [eapply near_add; [exact N1|exact N2|lia|lra]|unfold Rdiv; ring|reflexivity|reflexivity]|lia|unfold Rdiv; lra|nra].
  Qed.
  Lemma comp33 : near 7 (fadd (fmul (fdiv h31 s) (fsub (fsub (fadd h11 h33) sr1) sr2)) (fmul (fdiv h21 s) h32))
     (((B2R h11 + B2R h33 - B2R sr1 - B2R sr2) * B2R h31 + B2R h32 * B2R h21) / sg)
     (((Rabs (B2R h11) + Rabs (B2R h33) + Rabs (B2R sr1) + Rabs (B2R sr2)) * Rabs (B2R h31) + Rabs (B2R h32) * Rabs (B2R h21)) / sg)
     (eta64 * (5 * m + 4)).
  Proof.
    destruct (part_t h33 h31 I33 I31 Q4) as (N1 & B1). destruct (part_p h32 h21 I32 I21 Q3) as (_ & N2 & B2). destruct T1000 as (T & E). eb.
    apply near_weak with (n' := 5%nat) (A' := Rabs (B2R h32) * Rabs (B2R h21) / sg) (e' := eta64 * (m + 1)) in N2; [|lia|lra|lra].
    eapply near_weak; cycle 3; [eapply near_eq; [eapply near_add; [exact N1|exact N2|lia|lra]|unfold Rdiv; ring|reflexivity|reflexivity]|lia|unfold Rdiv; lra|nra].
  Qed.
End Comp.

Section Top.
  Context (lm : libm).
  #[local] Instance NBt : Num b64 := B64 lm.

  Lemma feq_zero (x : b64) : is_finite x = true -> feq x f0 = Req_bool (B2R x) 0.
  Proof.
    intros F. exact (Beqb_correct 53 1024 x (b64_dy 0 0) F eq_refl).
  Qed.

  Lemma near_final m (s y : b64) w W : 0 < B2R s -> near 7 y (w / B2R s) (W / B2R s) (eta64 * (5 * m + 4)) ->
    is_finite y = true /\ Rabs (B2R s * B2R y - w) <= gam 7 * W + P ^ 7 * (eta64 * B2R s * (5 * m + 4)).
  Proof.
    intros S0 (F & E & _ & _). split; [exact F|]. set (q := B2R s) in *.
    replace (q * B2R y - w) with (q * (B2R y - w / q)) by (field; lra). rewrite Rabs_mult, (Rabs_pos_eq q) by lra.
    eapply Rle_trans; [apply Rmult_le_compat_l; [lra|exact E]|]. right. field. lra.
  Qed.

  (** the scale decides which branch runs *)
  Lemma scale_cases n (s : b64) S : near n s S S 0 -> (n <= 10)%nat ->
    (feq s f0 = true /\ S = 0) \/ (feq s f0 = false /\ 0 < B2R s /\ S <= 2 * B2R s /\ Rabs (B2R s - S) <= gam n * S).
  Proof.
    intros (F & E & A & _) N. rewrite feq_zero by exact F. rewrite Rmult_0_r, Rplus_0_r in E. pose proof (Rabs_pos S).
    pose proof (gam_small n ltac:(lia)) as G. pose proof (gam_pos n). apply ab_elim in E as E'.
    unfold Req_bool. destruct (Rcompare_spec (B2R s) 0) as [L|L|L].
    - right. exfalso. nra.
    - left. split; [reflexivity|]. nra.
    - right. split; [reflexivity|]. split; [exact L|]. split; [nra|exact E].
  Qed.

  Lemma sum3_zero a b c : 0 <= a -> 0 <= b -> 0 <= c -> a + b + c = 0 -> a = 0 /\ b = 0 /\ c = 0. Proof. intros; lra. Qed.
  Lemma abs_zero x : Rabs x = 0 -> x = 0. Proof. intros H. destruct (Req_dec x 0) as [|N]; [assumption|apply Rabs_no_R0 in N; contradiction]. Qed.

  Lemma set1_get64 (f : fa b64) p v q : elem (set1 f p v) q = if (q =? p)%Z then option_map (fun _ => v) (elem f p) else elem f q.
  Proof. apply mod1_elem. Qed.

  Lemma sum22 f : Rsum_range f 2 2 = f 2%Z + 0. Proof. reflexivity. Qed.
  Lemma sum23 f : Rsum_range f 2 3 = f 2%Z + (f 3%Z + 0). Proof. reflexivity. Qed.

  Theorem dlaqr1_err Ht Vt (TH : ToFA b64 Ht) (TV : ToFA b64 Vt) (FV : FromFA b64 Vt)
      n (h : Ht) ldh hf (sr1 si1 sr2 si2 : b64) (v : Vt) H m :
    (n = 2 \/ n = 3)%Z -> to_fa_2d h ldh = Ok hf -> op_is64 true hf n n H -> op_bound64 true hf n n m -> m <= bpow radix2 1000 ->
    Forall (fun x => is_finite x = true /\ Rabs (val64 x) <= m) [sr1; si1; sr2; si2] -> (n <= count (to_fa v))%Z ->
    let s1 := (val64 sr1, val64 si1) in let s2 := (val64 sr2, val64 si2) in
    exists r sigma, dlaqr1 n h ldh sr1 si1 sr2 si2 v = from_fa r /\ same_shape r (to_fa v) /\
      (forall p, (p < 1 \/ n < p)%Z -> elem r p = elem (to_fa v) p) /\ 0 < sigma /\
      (shift_scale n H s2 <> 0 -> Rabs (sigma - shift_scale n H s2) <= gam 4 * shift_scale n H s2) /\
      forall i, (1 <= i <= n)%Z -> exists y, elem r i = Some y /\ is_finite y = true /\
        Rabs (sigma * val64 y - fst (shift_column n H s1 s2 i)) <=
          gam 7 * shift_mag n H s1 s2 i + (1 + u64) ^ 7 * (eta64 * sigma * (5 * m + 4)).
  Proof.
    intros Hn Eh HI HB M FS CV s1 s2. cbv zeta. unfold dlaqr1. rewrite Eh. cbn [bind].
    assert (G : forall i j, (1 <= i <= n)%Z -> (1 <= j <= n)%Z -> exists x, get2 hf i j = x /\ inr m x /\ B2R x = H i j).
    { intros i j Hi Hj. destruct (HI i j Hi Hj) as (x & E & V). destruct (HB i j Hi Hj) as (x' & E' & F & B). cbv iota beta in E, E'. assert (x' = x) by congruence. subst x'.
      exists x. split; [apply get2_Some, E|]. split; [split; assumption|exact V]. }
    inversion FS as [|? ? F1 FS1]; subst. inversion FS1 as [|? ? F2 FS2]; subst. inversion FS2 as [|? ? F3 FS3]; subst. inversion FS3 as [|? ? F4 _]; subst. clear FS FS1 FS2 FS3.
    assert (M0 : 0 <= m <= bpow radix2 1000) by (split; [eapply Rle_trans; [apply Rabs_pos|exact (proj2 F1)]|exact M]).
    assert (Z7 : forall sigma, 0 < sigma -> forall W, 0 <= W -> Rabs (sigma * val64 (f0 : b64) - 0) <= gam 7 * W + P ^ 7 * (eta64 * sigma * (5 * m + 4))).
    { intros sigma S0 W W0. change (val64 f0) with 0. rewrite Rmult_0_r, Rminus_0_r, Rabs_R0. pose proof (gam_pos 7). pose proof (Pn_ge 7). pose proof eta64_pos.
      apply Rplus_le_le_0_compat; [apply Rmult_le_pos; lra|]. apply Rmult_le_pos; [lra|]. apply Rmult_le_pos; [|lra]. apply Rmult_le_pos; lra. }
    assert (MG : forall i, 0 <= shift_mag n H s1 s2 i).
    { intros i. unfold shift_mag. pose proof (Rabs_pos (H 1%Z 1%Z - fst s1)). pose proof (Rabs_pos (H 1%Z 1%Z - fst s2)). pose proof (Rabs_pos (snd s1)). pose proof (Rabs_pos (snd s2)).
      destruct (i =? 1)%Z.
      - apply Rplus_le_le_0_compat; [apply Rplus_le_le_0_compat; apply Rmult_le_pos; assumption|].
        destruct Hn as [-> | ->]; rewrite ?sum22, ?sum23; repeat apply Rplus_le_le_0_compat; try lra; apply Rmult_le_pos; apply Rabs_pos.
      - apply Rplus_le_le_0_compat; [apply Rmult_le_pos; [apply Rabs_pos|]; repeat apply Rplus_le_le_0_compat; apply Rabs_pos|].
        destruct Hn as [-> | ->]; rewrite ?sum22, ?sum23; repeat apply Rplus_le_le_0_compat; try lra; destruct (_ =? _)%Z; try lra; apply Rmult_le_pos; apply Rabs_pos. }
    assert (FV1 : exists x1, elem (to_fa v) 1 = Some x1) by (apply elem_Some; destruct Hn; lia). destruct FV1 as (x1 & FV1).
    assert (FV2 : exists x2, elem (to_fa v) 2 = Some x2) by (apply elem_Some; destruct Hn; lia). destruct FV2 as (x2 & FV2).
    destruct Hn as [-> | ->]; cbn [Z.eqb Pos.eqb negb andb].
    - assert (FR : forall a b : b64, let r := set1 (set1 (to_fa v) 1 a) 2 b in same_shape r (to_fa v) /\
        (forall p, (p < 1 \/ 2 < p)%Z -> elem r p = elem (to_fa v) p) /\ elem r 1 = Some a /\ elem r 2 = Some b).
      { intros a b. cbv zeta. split; [eapply same_shape_trans; apply set1_shape|]. split; [|split].
        - intros p Hp. rewrite !set1_get64. destruct (Z.eqb_spec p 2), (Z.eqb_spec p 1); try lia; reflexivity.
        - rewrite !set1_get64. cbn [Z.eqb Pos.eqb]. rewrite FV1. reflexivity.
        - rewrite !set1_get64. cbn [Z.eqb Pos.eqb]. rewrite FV2. reflexivity. }
      destruct (G 1 1 ltac:(lia) ltac:(lia))%Z as (h11 & E11 & I11 & V11). destruct (G 2 1 ltac:(lia) ltac:(lia))%Z as (h21 & E21 & I21 & V21).
      destruct (G 1 2 ltac:(lia) ltac:(lia))%Z as (h12 & E12 & I12 & V12). destruct (G 2 2 ltac:(lia) ltac:(lia))%Z as (h22 & E22 & I22 & V22).
      unfold laqr1_2. rewrite E11, E12, E21, E22.
      pose proof (scale2 lm m M0 h11 sr2 si2 h21 I11 F3 F4 I21) as SC. cbv zeta.
      set (s := fadd (fadd (fabs (fsub h11 sr2)) (fabs si2)) (fabs h21)) in *.
      assert (SS : shift_scale 2 H s2 = Rabs (B2R h11 - B2R sr2) + Rabs (B2R si2) + Rabs (B2R h21)) by (unfold shift_scale, s2; rewrite ?sum22, ?sum23; cbn [fst snd]; rewrite V11, V21; unfold val64; ring).
      pose proof (Rabs_pos (B2R h11 - B2R sr2)) as A1. pose proof (Rabs_pos (B2R si2)) as A2. pose proof (Rabs_pos (B2R h21)) as A3.
      destruct (scale_cases 3 s _ SC ltac:(lia)) as [(E & S0)|(E & S0 & S2 & S4)]; rewrite E.
      + destruct (FR f0 f0) as (R1 & R2 & R3 & R4). exists (set1 (set1 (to_fa v) 1 f0) 2 f0), 1. split; [reflexivity|]. split; [exact R1|]. split; [exact R2|]. split; [lra|].
        split; [intros N; rewrite SS in N; lra|].
        apply sum3_zero in S0 as (Z1 & Z2 & Z3); try assumption. apply abs_zero in Z1, Z2, Z3.
        intros i Hi. assert (i = 1 \/ i = 2)%Z as [-> | ->] by lia; (exists f0; split; [assumption|]; split; [reflexivity|]);
        match goal with |- Rabs (_ - ?c) <= _ => replace c with 0; [apply Z7; [lra|apply MG]|] end;
        rewrite shift_col2; unfold shifted, s1, s2, cadd, csub, cmul, cre; cbn [fst snd Z.eqb Pos.eqb]; unfold val64; rewrite <- ?V11, <- ?V12, <- ?V21, <- ?V22, Z2, Z3; replace (B2R h11) with (B2R sr2) by lra; ring.
      + match goal with |- context [set1 (set1 (to_fa v) 1 ?a) 2 ?b] => destruct (FR a b) as (R1 & R2 & R3 & R4); exists (set1 (set1 (to_fa v) 1 a) 2 b), (B2R s) end.
        split; [reflexivity|]. split; [exact R1|]. split; [exact R2|]. split; [exact S0|].
        split. { intros _. rewrite SS. eapply Rle_trans; [exact S4|]. apply Rmult_le_compat_r; [lra|apply gam_le; lia]. }
        assert (K1 := comp21 lm m M0 s S0 h11 h12 h21 sr1 si1 sr2 si2 I11 I12 I21 F1 F2 F3 F4 ltac:(lra) ltac:(lra) ltac:(lra)).
        assert (K2 := comp22 lm m M0 s S0 h11 h21 h22 sr1 sr2 I11 I21 I22 F1 F3 ltac:(lra)).
        apply near_final in K1, K2; try assumption. destruct K1 as (K1 & K1'), K2 as (K2 & K2').
        intros i Hi. assert (i = 1 \/ i = 2)%Z as [-> | ->] by lia.
        * eexists. split; [exact R3|]. split; [exact K1|]. rewrite shift_col2. unfold shifted, shift_mag. rewrite ?sum22, ?sum23. unfold s1, s2, cadd, csub, cmul, cre. cbn [fst snd Z.eqb Pos.eqb]. unfold val64. rewrite <- V11, <- V12, <- V21.
          match goal with |- Rabs (_ - ?a) <= gam 7 * ?b + _ => match type of K1' with Rabs (_ - ?a') <= gam 7 * ?b' + _ => replace a with a' by ring; replace b with b' by ring end end. exact K1'.
        * eexists. split; [exact R4|]. split; [exact K2|]. rewrite shift_col2. unfold shifted, shift_mag. rewrite ?sum22, ?sum23. unfold s1, s2, cadd, csub, cmul, cre. cbn [fst snd Z.eqb Pos.eqb]. unfold val64. rewrite <- V11, <- V22, <- V21.
          match goal with |- Rabs (_ - ?a) <= gam 7 * ?b + _ => match type of K2' with Rabs (_ - ?a') <= gam 7 * ?b' + _ => replace a with a' by ring; replace b with b' by ring end end. exact K2'.
    - assert (FV3 : exists x3, elem (to_fa v) 3 = Some x3) by (apply elem_Some; lia). destruct FV3 as (x3 & FV3).
      assert (FR : forall a b c : b64, let r := set1 (set1 (set1 (to_fa v) 1 a) 2 b) 3 c in same_shape r (to_fa v) /\
        (forall p, (p < 1 \/ 3 < p)%Z -> elem r p = elem (to_fa v) p) /\ elem r 1 = Some a /\ elem r 2 = Some b /\ elem r 3 = Some c).
      { intros a b c. cbv zeta. split; [eapply same_shape_trans; [|eapply same_shape_trans]; apply set1_shape|]. split; [|split; [|split]].
        - intros p Hp. rewrite !set1_get64. destruct (Z.eqb_spec p 2), (Z.eqb_spec p 1), (Z.eqb_spec p 3); try lia; reflexivity.
        - rewrite !set1_get64. cbn [Z.eqb Pos.eqb]. rewrite FV1. reflexivity.
        - rewrite !set1_get64. cbn [Z.eqb Pos.eqb]. rewrite FV2. reflexivity.
        - rewrite !set1_get64. cbn [Z.eqb Pos.eqb]. rewrite FV3. reflexivity. }
      destruct (G 1 1 ltac:(lia) ltac:(lia))%Z as (h11 & E11 & I11 & V11). destruct (G 2 1 ltac:(lia) ltac:(lia))%Z as (h21 & E21 & I21 & V21).
      destruct (G 1 2 ltac:(lia) ltac:(lia))%Z as (h12 & E12 & I12 & V12). destruct (G 2 2 ltac:(lia) ltac:(lia))%Z as (h22 & E22 & I22 & V22).
      destruct (G 3 1 ltac:(lia) ltac:(lia))%Z as (h31 & E31 & I31 & V31). destruct (G 3 2 ltac:(lia) ltac:(lia))%Z as (h32 & E32 & I32 & V32).
      destruct (G 1 3 ltac:(lia) ltac:(lia))%Z as (h13 & E13 & I13 & V13). destruct (G 2 3 ltac:(lia) ltac:(lia))%Z as (h23 & E23 & I23 & V23).
      destruct (G 3 3 ltac:(lia) ltac:(lia))%Z as (h33 & E33 & I33 & V33).
      unfold laqr1_3. rewrite E11, E12, E21, E22, E31, E32, E13, E23, E33.
      pose proof (scale3 lm m M0 h11 sr2 si2 h21 h31 I11 F3 F4 I21 I31) as SC. cbv zeta.
      set (s := fadd (fadd (fadd (fabs (fsub h11 sr2)) (fabs si2)) (fabs h21)) (fabs h31)) in *.
      assert (SS : shift_scale 3 H s2 = Rabs (B2R h11 - B2R sr2) + Rabs (B2R si2) + Rabs (B2R h21) + Rabs (B2R h31)) by (unfold shift_scale, s2; rewrite ?sum22, ?sum23; cbn [fst snd]; rewrite V11, V21, V31; unfold val64; ring).
      pose proof (Rabs_pos (B2R h11 - B2R sr2)) as A1. pose proof (Rabs_pos (B2R si2)) as A2. pose proof (Rabs_pos (B2R h21)) as A3. pose proof (Rabs_pos (B2R h31)) as A4.
      destruct (scale_cases 4 s _ SC ltac:(lia)) as [(E & S0)|(E & S0 & S2 & S4)]; rewrite E.
      + destruct (FR f0 f0 f0) as (R1 & R2 & R3 & R4 & R5). exists (set1 (set1 (set1 (to_fa v) 1 f0) 2 f0) 3 f0), 1. split; [reflexivity|]. split; [exact R1|]. split; [exact R2|]. split; [lra|].
        split; [intros N; rewrite SS in N; lra|].
        assert (Z4 : Rabs (B2R h31) = 0) by lra. rewrite Z4, Rplus_0_r in S0.
        apply sum3_zero in S0 as (Z1 & Z2 & Z3); try assumption. apply abs_zero in Z1, Z2, Z3, Z4.
        intros i Hi. assert (i = 1 \/ i = 2 \/ i = 3)%Z as [-> | [-> | ->]] by lia; (exists f0; split; [assumption|]; split; [reflexivity|]);
        match goal with |- Rabs (_ - ?c) <= _ => replace c with 0; [apply Z7; [lra|apply MG]|] end;
        rewrite shift_col3; unfold shifted, s1, s2, cadd, csub, cmul, cre; cbn [fst snd Z.eqb Pos.eqb]; unfold val64; rewrite <- ?V11, <- ?V12, <- ?V21, <- ?V22, <- ?V31, Z2, Z3, Z4; replace (B2R h11) with (B2R sr2) by lra; ring.
      + match goal with |- context [set1 (set1 (set1 (to_fa v) 1 ?a) 2 ?b) 3 ?c] => destruct (FR a b c) as (R1 & R2 & R3 & R4 & R5); exists (set1 (set1 (set1 (to_fa v) 1 a) 2 b) 3 c), (B2R s) end.
        split; [reflexivity|]. split; [exact R1|]. split; [exact R2|]. split; [exact S0|].
        split. { intros _. rewrite SS. exact S4. }
        assert (K1 := comp31 lm m M0 s S0 h11 h12 h13 h21 h31 sr1 si1 sr2 si2 I11 I12 I13 I21 I31 F1 F2 F3 F4 ltac:(lra) ltac:(lra) ltac:(lra) ltac:(lra)).
        assert (K2 := comp32 lm m M0 s S0 h11 h21 h22 h23 h31 sr1 sr2 I11 I21 I22 I23 I31 F1 F3 ltac:(lra) ltac:(lra)).
        assert (K3 := comp33 lm m M0 s S0 h11 h21 h31 h32 h33 sr1 sr2 I11 I21 I31 I32 I33 F1 F3 ltac:(lra) ltac:(lra)).
        apply near_final in K1, K2, K3; try assumption. destruct K1 as (K1 & K1'), K2 as (K2 & K2'), K3 as (K3 & K3').
        intros i Hi. assert (i = 1 \/ i = 2 \/ i = 3)%Z as [-> | [-> | ->]] by lia.
        * eexists. split; [exact R3|]. split; [exact K1|]. rewrite shift_col3. unfold shifted, shift_mag. rewrite ?sum22, ?sum23. unfold s1, s2, cadd, csub, cmul, cre. cbn [fst snd Z.eqb Pos.eqb]. unfold val64. rewrite <- V11, <- V12, <- V21, <- V13, <- V31.
          match goal with |- Rabs (_ - ?a) <= gam 7 * ?b + _ => match type of K1' with Rabs (_ - ?a') <= gam 7 * ?b' + _ => replace a with a' by ring; replace b with b' by ring end end. exact K1'.
        * eexists. split; [exact R4|]. split; [exact K2|]. rewrite shift_col3. unfold shifted, shift_mag. rewrite ?sum22, ?sum23. unfold s1, s2, cadd, csub, cmul, cre. cbn [fst snd Z.eqb Pos.eqb]. unfold val64. rewrite <- V11, <- V22, <- V21, <- V23, <- V31.
          match goal with |- Rabs (_ - ?a) <= gam 7 * ?b + _ => match type of K2' with Rabs (_ - ?a') <= gam 7 * ?b' + _ => replace a with a' by ring; replace b with b' by ring end end. exact K2'.
        * eexists. split; [exact R5|]. split; [exact K3|]. rewrite shift_col3. unfold shifted, shift_mag. rewrite ?sum22, ?sum23. unfold s1, s2, cadd, csub, cmul, cre. cbn [fst snd Z.eqb Pos.eqb]. unfold val64. rewrite <- V11, <- V33, <- V21, <- V32, <- V31.
          match goal with |- Rabs (_ - ?a) <= gam 7 * ?b + _ => match type of K3' with Rabs (_ - ?a') <= gam 7 * ?b' + _ => replace a with a' by ring; replace b with b' by ring end end. exact K3'.
  Qed.
End Top.
