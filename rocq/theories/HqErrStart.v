(** The shifts and the first column of dlahqr's sweep in binary64. *)
From Coq Require Import Reals Lra Ascii.
From Flocq Require Import IEEE754.BinarySingleNaN Core.
From Verif Require Import Base Num Array Blas Lapack Dlahqr Spec SpecR SpecErr Lists B64 B64Lemmas B64Nn MachProofs RoundErr AppErr Near LarfgErr GemmErr
  FaLemmas LahqrProofs LanvCalc LanvStd LanvErr LanvWit HqTwoF64 HqGet HqReflGen HqErrApp HqErrRefl.
Open Scope R_scope.

(** ** a number of magnitude at most 2^e *)
Definition bd (e : Z) (x : b64) : Prop := is_finite x = true /\ Rabs (B2R x) <= bpow radix2 e.
Lemma rnd_bd r e : (-1074 <= e)%Z -> Rabs r <= bpow radix2 e -> Rabs (rnd r) <= bpow radix2 e.
Proof. intros He H. apply abs_round_le_generic; auto with typeclass_instances. apply generic_format_bpow. unfold FLT_exp. lia. Qed.
Lemma bd_weak e e' x : bd e x -> (e <= e')%Z -> bd e' x.
Proof. intros [F B] H. split; [exact F|]. eapply Rle_trans; [exact B|apply bpow_le; lia]. Qed.
Lemma bd_top e : (e <= 1023)%Z -> bpow radix2 e <= bpow radix2 1023.
Proof. intros. apply bpow_le. lia. Qed.

Lemma B2R_zero_inv (x : b64) : is_finite x = true -> B2R x = 0 -> exists s, x = B754_zero s.
Proof.
  intros F E. destruct x as [s|s| |s m e B]; try discriminate F; [exists s; reflexivity|]. exfalso. cbn in E. apply eq_0_F2R in E. destruct s; discriminate E.
Qed.

Section Calc.
  Context (lm : libm).
  #[local] Instance NBst : Num b64 := B64 lm.

  Lemma bd_add e x y : bd e x -> bd e y -> (-1000 <= e <= 1000)%Z -> bd (e + 1) (fadd x y).
  Proof.
    intros [Fx Bx] [Fy By] He. change (fadd x y) with (Bplus mode_NE x y).
    assert (S : Rabs (B2R x + B2R y) <= bpow radix2 (e + 1)).
    { eapply Rle_trans; [apply Rabs_triang|]. rewrite bpow_plus. change (bpow radix2 1) with 2. lra. }
    assert (FF : is_finite (Bplus mode_NE x y) = true) by (apply plus_ok; [assumption|assumption|]; eapply Rle_trans; [exact S|apply bd_top; lia]).
    split; [exact FF|]. destruct (plus_fin _ _ FF) as (_ & _ & -> & _). apply rnd_bd; [lia|exact S].
  Qed.
  Lemma bd_abs e x : bd e x -> bd e (fabs x).
  Proof. intros [F B]. change (fabs x) with (Babs x). split; [rewrite is_finite_Babs; exact F|rewrite B2R_Babs, Rabs_Rabsolu; exact B]. Qed.
  Lemma bd_neg e x : bd e x -> bd e (fneg x).
  Proof. intros [F B]. change (fneg x) with (Bopp x). split; [rewrite is_finite_Bopp; exact F|rewrite B2R_Bopp, Rabs_Ropp; exact B]. Qed.
  Lemma bd_sub e x y : bd e x -> bd e y -> (-1000 <= e <= 1000)%Z -> bd (e + 1) (fsub x y).
  Proof.
    intros X Y He. assert (EM : fsub x y = fadd x (fneg y)).
    { change (Bminus mode_NE x y = Bplus mode_NE x (Bopp y)). destruct x as [[]|[]| |[]], y as [[]|[]| |[]]; reflexivity. }
    rewrite EM. apply bd_add; [exact X|apply bd_neg, Y|exact He].
  Qed.
  Lemma bd_mul e e' x y : bd e x -> bd e' y -> (-1000 <= e + e' <= 1000)%Z -> bd (e + e') (fmul x y).
  Proof.
    intros [Fx Bx] [Fy By] He. change (fmul x y) with (Bmult mode_NE x y).
    assert (S : Rabs (B2R x * B2R y) <= bpow radix2 (e + e')) by (rewrite Rabs_mult, bpow_plus; apply Rmult_le_compat; try assumption; apply Rabs_pos).
    destruct (mult_ok x y Fx Fy) as (F & E & _); [eapply Rle_trans; [exact S|apply bd_top; lia]|]. split; [exact F|]. rewrite E. apply rnd_bd; [lia|exact S].
  Qed.
  Lemma bd_div e (x y : b64) : is_finite x = true -> B2R y <> 0 -> Rabs (B2R x) <= bpow radix2 e * Rabs (B2R y) -> (-1000 <= e <= 1000)%Z -> bd e (fdiv x y).
  Proof.
    intros Fx Ny B He. change (fdiv x y) with (Bdiv mode_NE x y). assert (P : 0 < Rabs (B2R y)) by (apply Rabs_pos_lt; exact Ny).
    assert (S : Rabs (B2R x / B2R y) <= bpow radix2 e).
    { unfold Rdiv. rewrite Rabs_mult, Rabs_inv. apply Rmult_le_reg_r with (Rabs (B2R y)); [exact P|]. rewrite Rmult_assoc, Rinv_l by lra. lra. }
    assert (FF : is_finite (Bdiv mode_NE x y) = true) by (apply quot_ok; [exact Fx|exact Ny|eapply Rle_trans; [exact S|apply bd_top; lia]]).
    split; [exact FF|]. destruct (div_fin _ _ FF Ny) as (_ & -> & _). apply rnd_bd; [lia|exact S].
  Qed.
  Lemma bd_div1 (x y : b64) : is_finite x = true -> B2R y <> 0 -> Rabs (B2R x) <= Rabs (B2R y) -> bd 0 (fdiv x y).
  Proof. intros F Ny B. apply bd_div; [exact F|exact Ny|change (bpow radix2 0) with 1; lra|lia]. Qed.
  Lemma bd_sqrt e x : bd (e + e) x -> 0 <= B2R x -> (-500 <= e <= 500)%Z -> bd e (fsqrt x).
  Proof.
    intros [F B] P He. change (fsqrt x) with (Bsqrt mode_NE x). split.
    - destruct (Bsqrt_correct 53 1024 prec53 emax1024 mode_NE x) as (_ & E & _). rewrite E. destruct x as [s|s| |s m ee Bx]; try discriminate F; [reflexivity|].
      destruct s; [|reflexivity]. exfalso. cbn in P. assert (F2R (Float radix2 (Z.neg m) ee) < 0) by (apply F2R_lt_0; reflexivity). lra.
    - destruct (sqrt_fin x) as (-> & _). apply rnd_bd; [lia|]. rewrite Rabs_pos_eq by apply sqrt_pos. rewrite <- (sqrt_square (bpow radix2 e)) by apply bpow_ge_0.
      apply sqrt_le_1_alt. rewrite <- bpow_plus. rewrite Rabs_pos_eq in B by exact P. exact B.
  Qed.
  (** a sum of nonnegative numbers is no smaller than its terms *)
  Lemma add_ge (x y : b64) : is_finite x = true -> is_finite y = true -> is_finite (fadd x y) = true -> 0 <= B2R x -> 0 <= B2R y -> B2R x <= B2R (fadd x y) /\ B2R y <= B2R (fadd x y).
  Proof.
    intros Fx Fy FF Px Py. change (fadd x y) with (Bplus mode_NE x y) in *. destruct (plus_fin _ _ FF) as (_ & _ & -> & _).
    split; (apply round_ge_generic; [auto with typeclass_instances|auto with typeclass_instances|apply generic_format_B2R|lra]).
  Qed.
  Lemma abs_val (x : b64) : B2R (fabs x) = Rabs (B2R x).
  Proof. change (fabs x) with (Babs x). apply B2R_Babs. Qed.

  Lemma eq0_false (x : b64) : is_finite x = true -> feq x f0 = false -> B2R x <> 0.
  Proof.
    intros F E X. change (feq x f0) with (Beqb x (b64_dy 0 0)) in E. rewrite Beqb_correct in E by (assumption || reflexivity).
    assert (Z0 : B2R (b64_dy 0 0) = 0) by reflexivity. rewrite Z0, X in E. rewrite Req_bool_true in E by reflexivity. discriminate E.
  Qed.
  Lemma bd0 : bd (-1000) (f0 : b64).
  Proof. split; [reflexivity|]. change (B2R (f0 : b64)) with 0. rewrite Rabs_R0. apply bpow_ge_0. Qed.
  Lemma B2R_2 : B2R (f2 : b64) = 2.
  Proof. change (f2 : b64) with (b64_dy 2 0). rewrite (B2R_pow _ 4503599627370496 (-51) 52); [reflexivity| |reflexivity]. vm_compute. reflexivity. Qed.

  Ltac w := first [solve [eapply bd_weak; [exact bd0|lia]] | match goal with H : bd ?e ?x |- bd _ ?x => solve [apply (bd_weak e); [exact H|lia]] end].

  Lemma shifts_bd e (a b c d : b64) : (0 <= e <= 900)%Z -> bd e a -> bd e b -> bd e c -> bd e d ->
    let '(r1, i1, r2, i2) := hq_shifts (a, b, c, d) in bd (e + 6) r1 /\ bd (e + 6) i1 /\ bd (e + 6) r2 /\ bd (e + 6) i2.
  Proof.
    intros He Ha Hb Hc Hd. unfold hq_shifts.
    assert (S1 : bd (e + 1) (fadd (fabs a) (fabs c))) by (apply bd_add; [apply bd_abs, Ha|apply bd_abs, Hc|lia]).
    assert (S2 : bd (e + 2) (fadd (fadd (fabs a) (fabs c)) (fabs b))).
    { replace (e + 2)%Z with (e + 1 + 1)%Z by lia. apply bd_add; [exact S1|eapply bd_weak; [apply bd_abs, Hb|lia]|lia]. }
    assert (S3 : bd (e + 3) (fadd (fadd (fadd (fabs a) (fabs c)) (fabs b)) (fabs d))).
    { replace (e + 3)%Z with (e + 2 + 1)%Z by lia. apply bd_add; [exact S2|eapply bd_weak; [apply bd_abs, Hd|lia]|lia]. }
    pose proof (proj1 (bd_abs _ _ Ha)) as FA. pose proof (proj1 (bd_abs _ _ Hb)) as FB. pose proof (proj1 (bd_abs _ _ Hc)) as FC. pose proof (proj1 (bd_abs _ _ Hd)) as FD.
    destruct (add_ge _ _ FA FC (proj1 S1)) as [G1 G2]; [rewrite abs_val; apply Rabs_pos|rewrite abs_val; apply Rabs_pos|].
    assert (P1 : 0 <= B2R (fadd (fabs a) (fabs c))) by (rewrite abs_val in G1; pose proof (Rabs_pos (B2R a)); lra).
    destruct (add_ge _ _ (proj1 S1) FB (proj1 S2) P1) as [G3 G4]; [rewrite abs_val; apply Rabs_pos|].
    assert (P2 : 0 <= B2R (fadd (fadd (fabs a) (fabs c)) (fabs b))) by lra.
    destruct (add_ge _ _ (proj1 S2) FD (proj1 S3) P2) as [G5 G6]; [rewrite abs_val; apply Rabs_pos|].
    rewrite abs_val in G1, G2, G4, G6.
    set (s := fadd (fadd (fadd (fabs a) (fabs c)) (fabs b)) (fabs d)) in *. clearbody s.
    destruct (feq s f0) eqn:E0; [pose proof bd0; repeat split; w|].
    apply eq0_false in E0; [|apply S3]. cbv zeta.
    assert (PS : Rabs (B2R s) = B2R s) by (apply Rabs_pos_eq; lra).
    assert (A1 : bd 0 (fdiv a s)) by (apply bd_div1; [apply Ha|exact E0|rewrite PS; lra]).
    assert (B1 : bd 0 (fdiv b s)) by (apply bd_div1; [apply Hb|exact E0|rewrite PS; lra]).
    assert (C1 : bd 0 (fdiv c s)) by (apply bd_div1; [apply Hc|exact E0|rewrite PS; lra]).
    assert (D1 : bd 0 (fdiv d s)) by (apply bd_div1; [apply Hd|exact E0|rewrite PS; lra]).
    set (a1 := fdiv a s) in *. set (b1 := fdiv b s) in *. set (c1 := fdiv c s) in *. set (d1 := fdiv d s) in *. clearbody a1 b1 c1 d1.
    assert (T : bd 0 (fdiv (fadd a1 d1) f2)).
    { pose proof (bd_add _ _ _ A1 D1 ltac:(lia)) as [F B]. apply bd_div; [exact F|rewrite B2R_2; lra| |lia]. rewrite B2R_2. change (bpow radix2 (0 + 1)) with 2 in B. change (bpow radix2 0) with 1. rewrite (Rabs_pos_eq 2) by lra. lra. }
    set (tr := fdiv (fadd a1 d1) f2) in *. clearbody tr.
    assert (DT : bd 3 (fsub (fmul (fsub a1 tr) (fsub d1 tr)) (fmul c1 b1))).
    { change 3%Z with (2 + 1)%Z. apply bd_sub; [|eapply bd_weak; [apply (bd_mul 0 0); [exact C1|exact B1|lia]|lia]|lia].
      change 2%Z with (1 + 1)%Z. apply bd_mul; [apply (bd_sub 0); [exact A1|exact T|lia]|apply (bd_sub 0); [exact D1|exact T|lia]|lia]. }
    set (det := fsub (fmul (fsub a1 tr) (fsub d1 tr)) (fmul c1 b1)) in *. clearbody det.
    assert (RT : bd 2 (fsqrt (fabs det))).
    { apply bd_sqrt; [eapply bd_weak; [apply bd_abs, DT|lia]|rewrite abs_val; apply Rabs_pos|lia]. }
    set (rd := fsqrt (fabs det)) in *. clearbody rd.
    assert (M : forall p, bd 3 p -> bd (e + 6) (fmul p s)) by (intros p Hp; replace (e + 6)%Z with (3 + (e + 3))%Z by lia; apply bd_mul; [exact Hp|exact S3|lia]).
    assert (T3 : bd 3 tr) by w. assert (R3 : bd 3 rd) by w.
    destruct (fle f0 det).
    - split; [apply M; exact T3|]. split; [apply M; exact R3|]. split; [apply M; exact T3|apply bd_neg, M; exact R3].
    - pose proof bd0 as Z0.
      assert (X1 : bd 3 (fadd tr rd)) by (change 3%Z with (2 + 1)%Z; apply bd_add; [w|exact RT|lia]).
      assert (X2 : bd 3 (fsub tr rd)) by (change 3%Z with (2 + 1)%Z; apply bd_sub; [w|exact RT|lia]).
      destruct (fle _ _); (split; [apply M; assumption|]; split; [w|]; split; [apply M; assumption|w]).
  Qed.

  (** three numbers divided by the sum of their magnitudes *)
  Lemma norm3 e (a b c : b64) : (0 <= e <= 900)%Z -> bd e a -> bd e b -> bd e c -> let s := fadd (fadd (fabs a) (fabs b)) (fabs c) in
    (fdiv a s = B754_nan /\ fdiv b s = B754_nan /\ fdiv c s = B754_nan) \/
    (bnd 1 (fdiv a s) /\ bnd 1 (fdiv b s) /\ bnd 1 (fdiv c s) /\
     / 4 <= B2R (fdiv a s) * B2R (fdiv a s) + B2R (fdiv b s) * B2R (fdiv b s) + B2R (fdiv c s) * B2R (fdiv c s)).
  Proof.
    intros He Ha Hb Hc s.
    assert (S1 : bd (e + 1) (fadd (fabs a) (fabs b))) by (apply bd_add; [apply bd_abs, Ha|apply bd_abs, Hb|lia]).
    assert (S2 : bd (e + 2) s).
    { replace (e + 2)%Z with (e + 1 + 1)%Z by lia. apply bd_add; [exact S1|eapply bd_weak; [apply bd_abs, Hc|lia]|lia]. }
    pose proof (proj1 (bd_abs _ _ Ha)) as FA. pose proof (proj1 (bd_abs _ _ Hb)) as FB. pose proof (proj1 (bd_abs _ _ Hc)) as FC.
    destruct (add_ge _ _ FA FB (proj1 S1)) as [G1 G2]; [rewrite abs_val; apply Rabs_pos|rewrite abs_val; apply Rabs_pos|].
    assert (P1 : 0 <= B2R (fadd (fabs a) (fabs b))) by (rewrite abs_val in G1; pose proof (Rabs_pos (B2R a)); lra).
    destruct (add_ge _ _ (proj1 S1) FC (proj1 S2) P1) as [G3 G4]; [rewrite abs_val; apply Rabs_pos|]. change (fadd (fadd (fabs a) (fabs b)) (fabs c)) with s in G3, G4.
    destruct (plus_fin _ _ (proj1 S1)) as (_ & _ & _ & E1). destruct (plus_fin _ _ (proj1 S2)) as (_ & _ & _ & E2).
    change (Bplus mode_NE (fabs a) (fabs b)) with (fadd (fabs a) (fabs b)) in E1. change (Bplus mode_NE (fadd (fabs a) (fabs b)) (fabs c)) with s in E2.
    rewrite !abs_val in G1, G2, G4. rewrite !abs_val in E1. rewrite !abs_val in E2.
    pose proof (Rabs_pos (B2R a)) as A0. pose proof (Rabs_pos (B2R b)) as B0. pose proof (Rabs_pos (B2R c)) as C0. pose proof u_tiny as [U0 U1].
    set (p := fadd (fabs a) (fabs b)) in *.
    rewrite (Rabs_pos_eq (Rabs (B2R a) + Rabs (B2R b))) in E1 by lra. rewrite (Rabs_pos_eq (B2R p + Rabs (B2R c))) in E2 by lra.
    destruct (Req_dec (B2R s) 0) as [ES|ES].
    - left. assert (NN : forall q : b64, is_finite q = true -> Rabs (B2R q) <= B2R s -> fdiv q s = B754_nan).
      { intros q Fq Bq. rewrite ES in Bq. assert (Q0 : B2R q = 0) by (pose proof (Rabs_pos (B2R q)); destruct (Req_dec (B2R q) 0); [assumption|]; apply Rabs_pos_lt in H0; lra).
        change (fdiv q s) with (Bdiv mode_NE q s).
        destruct (B2R_zero_inv q Fq Q0) as [s1 ->]. destruct (B2R_zero_inv s (proj1 S2) ES) as [s2 ->]. reflexivity. }
      split; [|split]; apply NN; try apply Ha; try apply Hb; try apply Hc; lra.
    - right. assert (SP : 0 < B2R s) by lra. assert (PS : Rabs (B2R s) = B2R s) by (apply Rabs_pos_eq; lra).
      assert (Q : forall q : b64, is_finite q = true -> Rabs (B2R q) <= B2R s -> bnd 1 (fdiv q s) /\ Rabs (B2R q) / B2R s - / 1000 * (Rabs (B2R q) / B2R s) - / 1000 <= Rabs (B2R (fdiv q s))).
      { intros q Fq Bq. destruct (bd_div1 q s Fq ES ltac:(rewrite PS; exact Bq)) as [F B]. change (bpow radix2 0) with 1 in B. split; [split; assumption|].
        change (fdiv q s) with (Bdiv mode_NE q s) in *. destruct (div_fin _ _ F ES) as (_ & _ & E).
        assert (AQ : Rabs (B2R q / B2R s) = Rabs (B2R q) / B2R s) by (unfold Rdiv; rewrite Rabs_mult, Rabs_inv, PS; reflexivity). rewrite AQ in E.
        assert (Q0 : 0 <= Rabs (B2R q) / B2R s) by (apply Rmult_le_pos; [apply Rabs_pos|left; apply Rinv_0_lt_compat; exact SP]).
        assert (UQ : u64 * (Rabs (B2R q) / B2R s) <= / 1000 * (Rabs (B2R q) / B2R s)) by (apply Rmult_le_compat_r; lra).
        assert (ET : eta64 <= / 1000) by (apply Rle_trans with (bpow radix2 (-10)); [unfold eta64; apply bpow_le; lia|change (bpow radix2 (-10)) with (/ 1024); lra]).
        pose proof (Rabs_triang_inv (B2R q / B2R s) (B2R q / B2R s - B2R (Bdiv mode_NE q s))) as T. replace (B2R q / B2R s - (B2R q / B2R s - B2R (Bdiv mode_NE q s))) with (B2R (Bdiv mode_NE q s)) in T by ring.
        rewrite (Rabs_minus_sym (B2R q / B2R s)) in T. rewrite AQ in T. lra. }
      destruct (Q a (proj1 Ha) ltac:(lra)) as [Qa La]. destruct (Q b (proj1 Hb) ltac:(lra)) as [Qb Lb]. destruct (Q c (proj1 Hc) ltac:(lra)) as [Qc Lc].
      split; [exact Qa|]. split; [exact Qb|]. split; [exact Qc|].
      assert (ST : B2R s <= 1.01 * (Rabs (B2R a) + Rabs (B2R b) + Rabs (B2R c))).
      { apply ab_elim in E1, E2.
        assert (u64 * (Rabs (B2R a) + Rabs (B2R b)) <= / 1000 * (Rabs (B2R a) + Rabs (B2R b))) by (apply Rmult_le_compat_r; lra).
        assert (u64 * (B2R p + Rabs (B2R c)) <= / 1000 * (B2R p + Rabs (B2R c))) by (apply Rmult_le_compat_r; lra). lra. }
      assert (SS : 0.99 <= Rabs (B2R a) / B2R s + Rabs (B2R b) / B2R s + Rabs (B2R c) / B2R s).
      { apply Rmult_le_reg_r with (B2R s); [exact SP|]. replace ((Rabs (B2R a) / B2R s + Rabs (B2R b) / B2R s + Rabs (B2R c) / B2R s) * B2R s) with (Rabs (B2R a) + Rabs (B2R b) + Rabs (B2R c)) by (field; lra). lra. }
      assert (SQ : forall q, Rabs q * Rabs q = q * q) by (intros q; rewrite <- Rabs_mult; apply Rabs_pos_eq, Rle_0_sqr).
      rewrite <- (SQ (B2R (fdiv a s))), <- (SQ (B2R (fdiv b s))), <- (SQ (B2R (fdiv c s))).
      set (xa := Rabs (B2R (fdiv a s))) in *. set (xb := Rabs (B2R (fdiv b s))) in *. set (xc := Rabs (B2R (fdiv c s))) in *.
      assert (LL : 0.9 <= xa + xb + xc) by lra. clear - LL. clearbody xa xb xc.
      assert (0 <= (xa - xb) * (xa - xb)) by apply Rle_0_sqr. assert (0 <= (xa - xc) * (xa - xc)) by apply Rle_0_sqr. assert (0 <= (xb - xc) * (xb - xc)) by apply Rle_0_sqr.
      assert (0.81 <= (xa + xb + xc) * (xa + xb + xc)) by nra. nra.
  Qed.
End Calc.

Section Start.
  Context {F : Type} {NF : Num F}.
  Lemma firstcol_get (h v : fa F) r1 i1 r2 i2 m x1 x2 x3 : v3s v x1 x2 x3 ->
    let s := fadd (fadd (fabs (fsub (get2 h m m) r2)) (fabs i2)) (fabs (get2 h (m + 1) m)) in
    let q := fdiv (get2 h (m + 1) m) s in
    let a := fsub (fadd (fmul q (get2 h m (m + 1))) (fmul (fsub (get2 h m m) r1) (fdiv (fsub (get2 h m m) r2) s))) (fmul i1 (fdiv i2 s)) in
    let b := fmul q (fsub (fsub (fadd (get2 h m m) (get2 h (m + 1) (m + 1))) r1) r2) in
    let c := fmul q (get2 h (m + 2) (m + 1)) in
    let t := fadd (fadd (fabs a) (fabs b)) (fabs c) in
    v3s (hq_firstcol h (r1, i1, r2, i2) m v) (fdiv a t) (fdiv b t) (fdiv c t).
  Proof.
    intros V s q a b c t. unfold hq_firstcol. fold s. fold q. fold a. fold b. fold c. cbv zeta.
    destruct (v3s_set v x1 x2 x3 a V) as (V1 & _ & _). set (va := set1 v 1 a) in *. clearbody va.
    destruct (v3s_set _ _ _ _ b V1) as (_ & V2 & _). set (vb := set1 va 2 b) in *. clearbody vb.
    destruct (v3s_set _ _ _ _ c V2) as (_ & _ & V3). set (vc := set1 vb 3 c) in *. clearbody vc.
    destruct (v3s_get _ _ _ _ V3) as (-> & -> & ->). fold t.
    destruct (v3s_set _ _ _ _ (fdiv a t) V3) as (V4 & _ & _). set (vd := set1 vc 1 (fdiv a t)) in *. clearbody vd.
    destruct (v3s_get _ _ _ _ V4) as (_ & -> & _).
    destruct (v3s_set _ _ _ _ (fdiv b t) V4) as (_ & V5 & _). set (ve := set1 vd 2 (fdiv b t)) in *. clearbody ve.
    destruct (v3s_get _ _ _ _ V5) as (_ & _ & ->). apply (v3s_set _ _ _ _ (fdiv c t) V5).
  Qed.
  Lemma start_gen (h : fa F) sh l i m0 v0 : (l <= i - 2)%Z -> three v0 ->
    exists v1, three v1 /\ let '(m, v) := hq_start h sh l i m0 v0 in (l <= m <= i - 2)%Z /\ v = hq_firstcol h sh m v1 /\ (m = l \/ hq_can_start h v m = true).
  Proof.
    intros Hl T0. unfold hq_start.
    assert (G : forall d cur m0 v0, (cur = l + Z.of_nat d)%Z -> (cur <= i - 2)%Z -> three v0 -> exists v1, three v1 /\
      let '(m, v) := for_brk (range_rev l cur) (m0, v0) (fun cm '(_, v) => let v := hq_firstcol h sh cm v in
        if (cm =? l)%Z then ((cm, v), true) else if hq_can_start h v cm then ((cm, v), true) else ((cm, v), false)) in
      (l <= m <= i - 2)%Z /\ v = hq_firstcol h sh m v1 /\ (m = l \/ hq_can_start h v m = true)).
    { induction d as [|d IH]; intros cur m1 v1 Ec Hc Tv.
      - rewrite range_rev_cons by lia. cbn [for_brk]. replace (cur =? l)%Z with true by (symmetry; apply Z.eqb_eq; lia). exists v1. split; [exact Tv|]. split; [lia|]. split; [reflexivity|left; lia].
      - rewrite range_rev_cons by lia. cbn [for_brk]. cbv zeta. replace (cur =? l)%Z with false by (symmetry; apply Z.eqb_neq; lia).
        destruct (hq_can_start h (hq_firstcol h sh cur v1) cur) eqn:C.
        + exists v1. split; [exact Tv|]. split; [lia|]. split; [reflexivity|right; exact C].
        + apply (IH (cur - 1)%Z); [lia|lia|]. destruct (v3s_of v1 Tv) as (x1 & x2 & x3 & V). destruct sh as [[[r1 i1] r2] i2].
          apply (firstcol_get h v1 r1 i1 r2 i2 cur x1 x2 x3 V). }
    apply (G (Z.to_nat (i - 2 - l))); [lia|lia|exact T0].
  Qed.
End Start.
