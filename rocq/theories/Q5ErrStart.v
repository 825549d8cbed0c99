(** The vector dlaqr1 starts dlaqr5's sweep with, in binary64: its size, and a lower bound on its third entry. *)
From Coq Require Import Reals Lra.
From Flocq Require Import IEEE754.BinarySingleNaN Core.
From Verif Require Import Base Num Array Blas Lapack Spec SpecR SpecErr B64 B64Lemmas B64Nn Lists RoundErr AppErr Lapy2Err LarfgErr Near
  FaLemmas LahqrProofs Laqr5Proofs LanvCalc LanvStd HqErrApp.
Open Scope R_scope.

Section Bd.
  Context (lm : libm).
  #[local] Instance NB5b : Num b64 := B64 lm.

  Lemma b_abs X (x : b64) : bnd X x -> bnd X (fabs x) /\ 0 <= B2R (fabs x) /\ B2R (fabs x) = Rabs (B2R x).
  Proof.
    intros [F L]. change (fabs x) with (Babs x). unfold bnd. rewrite is_finite_Babs, B2R_Babs, Rabs_Rabsolu. repeat split; try assumption. apply Rabs_pos.
  Qed.
  Lemma b_add X Y (x y : b64) : bnd X x -> bnd Y y -> X + Y <= bpow radix2 1023 -> bnd (1.0001 * (X + Y)) (fadd x y).
  Proof.
    intros [F L] [F' L'] B. pose proof u_tiny as [U0 U1]. pose proof (Rabs_pos (B2R x)). pose proof (Rabs_pos (B2R y)).
    destruct (ab_add lm _ _ _ _ _ _ _ _ (ab_exact x X F L) (ab_exact y Y F' L')) as (Z & E & _); [lra|].
    split; [exact Z|]. set (z := B2R (fadd x y)) in *. replace z with ((B2R x + B2R y) + (z - (B2R x + B2R y))) by ring.
    eapply Rle_trans; [apply Rabs_triang|]. pose proof (Rabs_triang (B2R x) (B2R y)). assert (u64 * (X + 0 + (Y + 0)) <= / 1000000000000 * (X + Y)) by (rewrite !Rplus_0_r; apply Rmult_le_compat_r; lra). lra.
  Qed.
  Lemma b_sub X Y (x y : b64) : bnd X x -> bnd Y y -> X + Y <= bpow radix2 1023 -> bnd (1.0001 * (X + Y)) (fsub x y).
  Proof.
    intros [F L] [F' L'] B. pose proof u_tiny as [U0 U1]. pose proof (Rabs_pos (B2R x)). pose proof (Rabs_pos (B2R y)).
    destruct (ab_sub lm _ _ _ _ _ _ _ _ (ab_exact x X F L) (ab_exact y Y F' L')) as (Z & E & _); [lra|].
    split; [exact Z|]. set (z := B2R (fsub x y)) in *. replace z with ((B2R x - B2R y) + (z - (B2R x - B2R y))) by ring.
    eapply Rle_trans; [apply Rabs_triang|]. pose proof (Rabs_triang (B2R x) (- B2R y)) as T. rewrite Rabs_Ropp in T. assert (u64 * (X + 0 + (Y + 0)) <= / 1000000000000 * (X + Y)) by (rewrite !Rplus_0_r; apply Rmult_le_compat_r; lra). unfold Rminus at 1. lra.
  Qed.
  Lemma b_mul X Y (x y : b64) : bnd X x -> bnd Y y -> X * Y <= bpow radix2 1023 -> bnd (1.0001 * (X * Y) + eta64) (fmul x y).
  Proof.
    intros [F L] [F' L'] B. pose proof u_tiny as [U0 U1]. pose proof (Rabs_pos (B2R x)). pose proof (Rabs_pos (B2R y)).
    destruct (ab_mul lm _ _ _ _ _ _ _ _ (ab_exact x X F L) (ab_exact y Y F' L')) as (Z & E & _); [lra|].
    split; [exact Z|]. set (z := B2R (fmul x y)) in *. replace z with ((B2R x * B2R y) + (z - (B2R x * B2R y))) by ring.
    eapply Rle_trans; [apply Rabs_triang|]. assert (T : Rabs (B2R x * B2R y) <= X * Y) by (rewrite Rabs_mult; apply Rmult_le_compat; assumption).
    assert (0 <= X * Y) by (apply Rmult_le_pos; lra). assert (u64 * ((X + 0) * (Y + 0)) <= / 1000000000000 * (X * Y)) by (rewrite !Rplus_0_r; apply Rmult_le_compat_r; lra). lra.
  Qed.
  Lemma b_weak X Y (x : b64) : bnd X x -> X <= Y -> bnd Y x.
  Proof. intros [F L] H. split; [exact F|lra]. Qed.
  (** sums of numbers that are not negative *)
  Lemma nn_add (x y : b64) : is_finite x = true -> is_finite y = true -> 0 <= B2R x -> 0 <= B2R y -> B2R x + B2R y <= bpow radix2 1023 ->
    is_finite (fadd x y) = true /\ 0.9999 * (B2R x + B2R y) <= B2R (fadd x y) <= 1.0001 * (B2R x + B2R y).
  Proof.
    intros F F' P P' B. pose proof u_tiny as [U0 U1]. change (fadd x y) with (Bplus mode_NE x y).
    assert (FF : is_finite (Bplus mode_NE x y) = true) by (apply plus_ok; [exact F|exact F'|rewrite Rabs_pos_eq; lra]).
    split; [exact FF|]. destruct (plus_fin _ _ FF) as (_ & _ & _ & R). rewrite (Rabs_pos_eq (B2R x + B2R y)) in R by lra. apply Rabs_le_inv in R.
    assert (u64 * (B2R x + B2R y) <= / 1000000000000 * (B2R x + B2R y)) by (apply Rmult_le_compat_r; lra). lra.
  Qed.
  Lemma ratio (x s : b64) : is_finite x = true -> 0 < B2R s -> 0.99 * Rabs (B2R x) <= B2R s -> bnd 1.02 (fdiv x s) /\ Rabs (B2R (fdiv x s) - B2R x / B2R s) <= u64 * Rabs (B2R x / B2R s) + eta64.
  Proof.
    intros F P L. pose proof u_tiny as [U0 U1]. pose proof eta64_pos. assert (ET : eta64 <= / 1000000000000) by (apply Rle_trans with (bpow radix2 (-40)); [unfold eta64; apply bpow_le; lia|change (bpow radix2 (-40)) with (/ 1099511627776); lra]).
    assert (Q : Rabs (B2R x / B2R s) <= 1.011).
    { unfold Rdiv. rewrite Rabs_mult, Rabs_inv, (Rabs_pos_eq (B2R s)) by lra. apply Rmult_le_reg_r with (B2R s); [exact P|]. rewrite Rmult_assoc, Rinv_l by lra. lra. }
    assert (FF : is_finite (Bdiv mode_NE x s) = true).
    { apply quot_ok; [exact F|lra|]. eapply Rle_trans; [exact Q|]. apply Rle_trans with (bpow radix2 4); [change (bpow radix2 4) with 16; lra|apply bpow_le; lia]. }
    change (fdiv x s) with (Bdiv mode_NE x s). destruct (div_fin _ _ FF ltac:(lra)) as (_ & _ & E). split; [|exact E]. split; [exact FF|].
    set (z := B2R (Bdiv mode_NE x s)) in *. replace z with ((B2R x / B2R s) + (z - B2R x / B2R s)) by ring. eapply Rle_trans; [apply Rabs_triang|].
    pose proof (Rabs_pos (B2R x / B2R s)). assert (u64 * Rabs (B2R x / B2R s) <= / 1000000000000 * Rabs (B2R x / B2R s)) by (apply Rmult_le_compat_r; lra). lra.
  Qed.
  (** a product that is not small *)
  Lemma mul_low (x y : b64) X : is_finite (fmul x y) = true -> X <= Rabs (B2R x * B2R y) -> bpow radix2 (-1010) <= X -> 0.999 * X <= Rabs (B2R (fmul x y)).
  Proof.
    intros FF L B. change (fmul x y) with (Bmult mode_NE x y) in *. destruct (mult_fin _ _ FF) as (_ & _ & _ & E). pose proof u_tiny as [U0 U1].
    assert (ET : eta64 <= / 1000000000000 * X).
    { apply Rle_trans with (bpow radix2 (-40) * bpow radix2 (-1010)); [rewrite <- bpow_plus; unfold eta64; apply bpow_le; lia|]. apply Rmult_le_compat; try apply bpow_ge_0; [|exact B].
      change (bpow radix2 (-40)) with (/ 1099511627776). lra. }
    set (p := B2R x * B2R y) in *. set (z := B2R (Bmult mode_NE x y)) in *. pose proof (bpow_gt_0 radix2 (-1010)).
    assert (u64 * Rabs p <= / 1000000000000 * Rabs p) by (apply Rmult_le_compat_r; [apply Rabs_pos|lra]).
    assert (Rabs p <= Rabs z + Rabs (z - p)). { replace p with (z - (z - p)) at 1 by ring. eapply Rle_trans; [apply Rabs_triang|]. rewrite Rabs_Ropp. lra. }
    lra.
  Qed.

  Context (N : R) (HN : mid (4 * N)).
  Context (h v : fa b64) (sr1 si1 sr2 si2 : b64).
  Hypothesis (S1 : bnd N sr1) (S2 : bnd N si1) (S3 : bnd N sr2) (S4 : bnd N si2).
  Notation g i j := (get2 h i j).

  Lemma eq0_not (x : b64) : is_finite x = true -> 0 < B2R x -> feq x f0 = false.
  Proof.
    intros F P. change (feq x f0) with (Beqb x (b64_dy 0 0)). rewrite Beqb_correct by (assumption || reflexivity).
    assert (Z0 : B2R (b64_dy 0 0) = 0) by reflexivity. rewrite Z0. apply Req_bool_false. lra.
  Qed.
  Lemma eta_N : 0 <= eta64 <= / 1000000000 * N.
  Proof. destruct (mid_facts _ HN) as (M0 & UM & _ & ET & _ & UMM). lra. Qed.
  Lemma big_N : 0 < N /\ 1000000 * N <= bpow radix2 1023.
  Proof. destruct (mid_facts _ HN) as (M0 & _ & _ & _ & BG & _). lra. Qed.

  (** the scale *)
  Lemma scale2 (h11 h21 : b64) : bnd N h11 -> bnd N h21 -> let d := fsub h11 sr2 in let s := fadd (fadd (fabs d) (fabs si2)) (fabs h21) in
    bnd (2.001 * N) d /\ is_finite s = true /\ 0.995 * Rabs (B2R d) <= B2R s /\ 0.995 * Rabs (B2R si2) <= B2R s /\ 0.995 * Rabs (B2R h21) <= B2R s /\ B2R s <= 4.1 * N.
  Proof.
    intros B11 B21 d s. destruct big_N as [NP NB].
    assert (D : bnd (2.001 * N) d) by (eapply b_weak; [apply (b_sub N N); [assumption|assumption|lra]|lra]).
    destruct (b_abs _ _ D) as (A1 & A2 & A3). destruct (b_abs _ _ S4) as (B1 & B2 & B3). destruct (b_abs _ _ B21) as (C1 & C2 & C3).
    pose proof D as [D1 D2]. pose proof S4 as [_ L4]. pose proof B21 as [_ L21].
    destruct (nn_add (fabs d) (fabs si2) (proj1 A1) (proj1 B1) A2 B2) as (F1 & E1); [lra|].
    destruct (nn_add (fadd (fabs d) (fabs si2)) (fabs h21) F1 (proj1 C1)) as (F2 & E2); [lra|exact C2|lra|]. fold s in F2, E2.
    repeat split; try assumption; lra.
  Qed.
  Lemma scale3 (h11 h21 h31 : b64) : bnd N h11 -> bnd N h21 -> bnd N h31 -> let d := fsub h11 sr2 in let s := fadd (fadd (fadd (fabs d) (fabs si2)) (fabs h21)) (fabs h31) in
    bnd (2.001 * N) d /\ is_finite s = true /\ 0.99 * Rabs (B2R d) <= B2R s /\ 0.99 * Rabs (B2R si2) <= B2R s /\ 0.99 * Rabs (B2R h21) <= B2R s /\ 0.99 * Rabs (B2R h31) <= B2R s /\ B2R s <= 5.2 * N.
  Proof.
    intros B11 B21 B31 d s. destruct big_N as [NP NB]. destruct (scale2 h11 h21 B11 B21) as (D & F2 & E1 & E2 & E3 & E4). fold d in D, E1, F2, E2, E3, E4. 
    destruct (b_abs _ _ B31) as (C1 & C2 & C3). pose proof B31 as [_ L31]. pose proof (Rabs_pos (B2R d)). pose proof (Rabs_pos (B2R si2)). pose proof (Rabs_pos (B2R h21)). pose proof (Rabs_pos (B2R h31)).
    destruct (nn_add (fadd (fadd (fabs d) (fabs si2)) (fabs h21)) (fabs h31) F2 (proj1 C1)) as (F3 & E5); [lra|exact C2|lra|]. fold s in F3, E5.
    repeat split; try assumption; try apply D; lra.
  Qed.

  (** set entries of V *)
  Lemma set1_e (f : fa b64) p x q : elem (set1 f p x) q = if (q =? p)%Z then option_map (fun _ => x) (elem f p) else elem f q.
  Proof. apply mod1_elem. Qed.
  Lemma set3_e a b c : (3 <= count v)%Z -> let r := set1 (set1 (set1 v 1 a) 2 b) 3 c in same_shape r v /\ elem r 1 = Some a /\ elem r 2 = Some b /\ elem r 3 = Some c.
  Proof.
    intros H. cbv zeta. split; [eapply same_shape_trans; [|eapply same_shape_trans]; apply set1_shape|]. rewrite !set1_e. cbn [Z.eqb Pos.eqb].
    destruct (proj2 (elem_Some v 1) ltac:(lia)) as [? ->], (proj2 (elem_Some v 2) ltac:(lia)) as [? ->], (proj2 (elem_Some v 3) ltac:(lia)) as [? ->].
    repeat split.
  Qed.
  Lemma set2_e a b : (2 <= count v)%Z -> let r := set1 (set1 v 1 a) 2 b in same_shape r v /\ elem r 1 = Some a /\ elem r 2 = Some b.
  Proof.
    intros H. cbv zeta. split; [eapply same_shape_trans; apply set1_shape|]. rewrite !set1_e. cbn [Z.eqb Pos.eqb].
    destruct (proj2 (elem_Some v 1) ltac:(lia)) as [? ->], (proj2 (elem_Some v 2) ltac:(lia)) as [? ->]. repeat split.
  Qed.
  Ltac bb := pose proof eta_N as [ET0 ET1]; destruct big_N as [NP NB];
    repeat first [eassumption | eapply b_add | eapply b_sub | eapply b_mul].

  Lemma sum4 (a b : b64) : bnd N a -> bnd N b -> bnd (4.1 * N) (fsub (fsub (fadd a b) sr1) sr2).
  Proof.
    intros Ba Bb. destruct big_N as [NP NB]. eapply b_weak; [eapply b_sub; [eapply b_sub; [eapply b_add; [exact Ba|exact Bb|]|exact S1|]|exact S3|]|]; lra.
  Qed.
  Lemma rmul (a r : b64) X : bnd (X * N) a -> bnd 1.02 r -> 0 <= X <= 100 -> bnd (1.03 * X * N + 0.01 * N) (fmul a r) /\ bnd (1.03 * X * N + 0.01 * N) (fmul r a).
  Proof.
    intros Ba Br HX. pose proof eta_N as [ET0 ET1]. destruct big_N as [NP NB]. assert (XN : 0 <= X * N <= 100 * N) by nra.
    split; (eapply b_weak; [eapply b_mul; [eassumption|eassumption|]|]); lra.
  Qed.

  Lemma start5_2 : (2 <= count v)%Z -> (forall i j, (1 <= i <= 2)%Z -> (1 <= j <= 2)%Z -> bnd N (g i j)) -> 0 < Rabs (B2R (g 2 1)) ->
    exists p1 p2, let r := laqr1_2 h sr1 si1 sr2 si2 v in same_shape r v /\ elem r 1 = Some p1 /\ elem r 2 = Some p2 /\ bnd (8 * N) p1 /\ bnd (8 * N) p2.
  Proof.
    intros HV HB NZ. unfold laqr1_2. cbv zeta. destruct big_N as [NP NB].
    pose proof (HB 1 1 ltac:(lia) ltac:(lia))%Z as B11. pose proof (HB 1 2 ltac:(lia) ltac:(lia))%Z as B12. pose proof (HB 2 1 ltac:(lia) ltac:(lia))%Z as B21. pose proof (HB 2 2 ltac:(lia) ltac:(lia))%Z as B22.
    destruct (scale2 (g 1 1) (g 2 1) B11 B21) as (D & FS & E1 & E2 & E3 & E4). set (s := fadd _ (fabs (g 2 1))) in *. clearbody s.
    rewrite eq0_not by (assumption || lra).
    destruct (ratio (g 2 1) s (proj1 B21) ltac:(lra) ltac:(lra)) as [Q1 _]. destruct (ratio (fsub (g 1 1) sr2) s (proj1 D) ltac:(lra) ltac:(pose proof (Rabs_pos (B2R (fsub (g 1 1) sr2))); lra)) as [Q2 _].
    destruct (ratio si2 s (proj1 S4) ltac:(lra) ltac:(pose proof (Rabs_pos (B2R si2)); lra)) as [Q3 _].
    match goal with |- context [set1 (set1 v 1 ?a) 2 ?b] => exists a, b; destruct (set2_e a b HV) as (SH & V1 & V2) end.
    split; [exact SH|]. split; [exact V1|]. split; [exact V2|]. clear SH V1 V2.
    assert (N1 : forall z, bnd N z -> bnd (1 * N) z) by (intros z; rewrite Rmult_1_l; auto).
    assert (D1 : bnd (2.001 * N) (fsub (g 1 1) sr1)) by (eapply b_weak; [apply (b_sub N N); [assumption|assumption|lra]|lra]).
    destruct (rmul (g 1 2) (fdiv (g 2 1) s) 1 (N1 _ B12) Q1 ltac:(lra)) as [_ M1].
    destruct (rmul _ (fdiv (fsub (g 1 1) sr2) s) 2.001 D1 Q2 ltac:(lra)) as [M2 _].
    destruct (rmul si1 (fdiv si2 s) 1 (N1 _ S2) Q3 ltac:(lra)) as [M3 _].
    destruct (rmul _ (fdiv (g 2 1) s) 4.1 (sum4 _ _ B11 B22) Q1 ltac:(lra)) as [_ M4].
    split; [|eapply b_weak; [exact M4|lra]].
    eapply b_weak; [eapply b_sub; [eapply b_add; [exact M1|exact M2|]|exact M3|]|]; lra.
  Qed.

  (** [rr] stands for a lower bound on the subdiagonal over 20 N *)
  Lemma start5_3 rr : (3 <= count v)%Z -> (forall i j, (1 <= i <= 3)%Z -> (1 <= j <= 3)%Z -> bnd N (g i j)) -> B2R (g 3 1) = 0 ->
    20 * N * rr <= Rabs (B2R (g 2 1)) -> 20 * N * rr <= Rabs (B2R (g 3 2)) -> bpow radix2 (-900) <= rr -> bpow radix2 (-900) <= N * (rr * rr) ->
    exists p1 p2 p3, let r := laqr1_3 h sr1 si1 sr2 si2 v in same_shape r v /\ elem r 1 = Some p1 /\ elem r 2 = Some p2 /\ elem r 3 = Some p3 /\
      bnd (8 * N) p1 /\ bnd (8 * N) p2 /\ bnd (8 * N) p3 /\ 64 * (N * (rr * rr)) <= Rabs (B2R p3).
  Proof.
    intros HV HB Z31 L21 L32 RL NRL. unfold laqr1_3. cbv zeta. destruct big_N as [NP NB]. pose proof (bpow_gt_0 radix2 (-900)) as PP.
    assert (RP : 0 < N * rr) by (apply Rmult_lt_0_compat; lra).
    pose proof (HB 1 1 ltac:(lia) ltac:(lia))%Z as B11. pose proof (HB 1 2 ltac:(lia) ltac:(lia))%Z as B12. pose proof (HB 1 3 ltac:(lia) ltac:(lia))%Z as B13. pose proof (HB 2 1 ltac:(lia) ltac:(lia))%Z as B21. pose proof (HB 2 2 ltac:(lia) ltac:(lia))%Z as B22.
    pose proof (HB 2 3 ltac:(lia) ltac:(lia))%Z as B23. pose proof (HB 3 1 ltac:(lia) ltac:(lia))%Z as B31. pose proof (HB 3 2 ltac:(lia) ltac:(lia))%Z as B32. pose proof (HB 3 3 ltac:(lia) ltac:(lia))%Z as B33.
    destruct (scale3 (g 1 1) (g 2 1) (g 3 1) B11 B21 B31) as (D & FS & E1 & E2 & E3 & E5 & E4). set (s := fadd _ (fabs (g 3 1))) in *. clearbody s.
    assert (SP : 0 < B2R s) by lra.
    rewrite eq0_not by (assumption || lra).
    destruct (ratio (g 2 1) s (proj1 B21) SP E3) as [Q1 T1]. destruct (ratio (fsub (g 1 1) sr2) s (proj1 D) SP E1) as [Q2 _].
    destruct (ratio si2 s (proj1 S4) SP E2) as [Q3 _]. destruct (ratio (g 3 1) s (proj1 B31) SP E5) as [Q4 _].
    match goal with |- context [set1 (set1 (set1 v 1 ?a) 2 ?b) 3 ?c] => exists a, b, c; destruct (set3_e a b c HV) as (SH & V1 & V2 & V3) end.
    split; [exact SH|]. split; [exact V1|]. split; [exact V2|]. split; [exact V3|]. clear SH V1 V2 V3.
    assert (N1 : forall z, bnd N z -> bnd (1 * N) z) by (intros z; rewrite Rmult_1_l; auto).
    assert (D1 : bnd (2.001 * N) (fsub (g 1 1) sr1)) by (eapply b_weak; [apply (b_sub N N); [assumption|assumption|lra]|lra]).
    destruct (rmul (g 1 2) (fdiv (g 2 1) s) 1 (N1 _ B12) Q1 ltac:(lra)) as [M1 _].
    destruct (rmul _ (fdiv (fsub (g 1 1) sr2) s) 2.001 D1 Q2 ltac:(lra)) as [M2 _].
    destruct (rmul si1 (fdiv si2 s) 1 (N1 _ S2) Q3 ltac:(lra)) as [M3 _].
    destruct (rmul (g 1 3) (fdiv (g 3 1) s) 1 (N1 _ B13) Q4 ltac:(lra)) as [M5 _].
    destruct (rmul (g 2 3) (fdiv (g 3 1) s) 1 (N1 _ B23) Q4 ltac:(lra)) as [M6 _].
    destruct (rmul _ (fdiv (g 2 1) s) 4.1 (sum4 _ _ B11 B22) Q1 ltac:(lra)) as [_ M4].
    destruct (rmul _ (fdiv (g 3 1) s) 4.1 (sum4 _ _ B11 B33) Q4 ltac:(lra)) as [_ M7].
    destruct (rmul (g 3 2) (fdiv (g 2 1) s) 1 (N1 _ B32) Q1 ltac:(lra)) as [_ M8].
    split; [eapply b_weak; [eapply b_add; [eapply b_add; [eapply b_sub; [exact M2|exact M3|]|exact M1|]|exact M5|]|]; lra|].
    split; [eapply b_weak; [eapply b_add; [exact M4|exact M6|]|]; lra|].
    assert (P3 : bnd (8 * N) (fadd (fmul (fdiv (g 3 1) s) (fsub (fsub (fadd (g 1 1) (g 3 3)) sr1) sr2)) (fmul (fdiv (g 2 1) s) (g 3 2)))) by (eapply b_weak; [eapply b_add; [exact M7|exact M8|]|]; lra).
    split; [exact P3|].
    (* the lower bound *)
    assert (Z1 : B2R (fdiv (g 3 1) s) = 0).
    { destruct (div_fin _ _ (proj1 Q4) ltac:(lra)) as (_ & R & _). etransitivity; [exact R|]. rewrite Z31. unfold Rdiv. rewrite Rmult_0_l. apply round_0. apply valid_rnd_N. }
    assert (Z2 : B2R (fmul (fdiv (g 3 1) s) (fsub (fsub (fadd (g 1 1) (g 3 3)) sr1) sr2)) = 0) by (apply (mul_zero lm); [apply Q4|apply (sum4 _ _ B11 B33)|exact Z1]).
    set (z := fmul (fdiv (g 3 1) s) _) in *. clearbody z. set (q := fmul (fdiv (g 2 1) s) (g 3 2)) in *.
    pose proof u_tiny as [U0 U1].
    assert (H21 : 3.8 * rr <= Rabs (B2R (fdiv (g 2 1) s))).
    { assert (X : 3.84 * rr <= Rabs (B2R (g 2 1) / B2R s)).
      { unfold Rdiv. rewrite Rabs_mult, Rabs_inv, (Rabs_pos_eq (B2R s)) by lra. apply Rmult_le_reg_r with (B2R s); [exact SP|]. replace (Rabs (B2R (g 2 1)) * / B2R s * B2R s) with (Rabs (B2R (g 2 1))) by (field; lra). assert (rr * B2R s <= rr * (5.2 * N)) by (apply Rmult_le_compat_l; lra). lra. }
      assert (ET : eta64 <= / 1000000000000 * rr).
      { apply Rle_trans with (bpow radix2 (-40) * bpow radix2 (-900)); [rewrite <- bpow_plus; unfold eta64; apply bpow_le; lia|]. apply Rmult_le_compat; try apply bpow_ge_0; [|exact RL].
        change (bpow radix2 (-40)) with (/ 1099511627776). lra. }
      set (w := B2R (fdiv (g 2 1) s)) in *. set (e := B2R (g 2 1) / B2R s) in *.
      assert (u64 * Rabs e <= / 1000000000000 * Rabs e) by (apply Rmult_le_compat_r; [apply Rabs_pos|lra]).
      assert (Rabs e <= Rabs w + Rabs (w - e)). { replace e with (w - (w - e)) at 1 by ring. eapply Rle_trans; [apply Rabs_triang|]. rewrite Rabs_Ropp. lra. }
      lra. }
    assert (LQ : 0.999 * (76 * (N * (rr * rr))) <= Rabs (B2R q)).
    { apply mul_low; [apply M8| |].
      - rewrite Rabs_mult. replace (76 * (N * (rr * rr))) with (3.8 * rr * (20 * N * rr)) by lra. apply Rmult_le_compat; lra.
      - apply Rle_trans with (bpow radix2 (-900)); [apply bpow_le; lia|]. lra. }
    destruct (plus_fin _ _ (proj1 P3)) as (_ & _ & _ & R). rewrite Z2, Rplus_0_l in R.
    change (fadd z q) with (Bplus mode_NE z q). set (w := B2R (Bplus mode_NE z q)) in *. set (e := B2R q) in *.
    assert (u64 * Rabs e <= / 1000000000000 * Rabs e) by (apply Rmult_le_compat_r; [apply Rabs_pos|lra]).
    assert (Rabs e <= Rabs w + Rabs (w - e)). { replace e with (w - (w - e)) at 1 by ring. eapply Rle_trans; [apply Rabs_triang|]. rewrite Rabs_Ropp. lra. }
    lra.
  Qed.
End Bd.
