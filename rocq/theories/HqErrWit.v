(** dlahqr in binary64: a 3-by-3 matrix on which it converges and one on which it produces NaN. *)
From Coq Require Import Reals Lra.
From Flocq Require Import IEEE754.BinarySingleNaN Core.
From Verif Require Import Base Num Array Blas Lapack Dlahqr Spec SpecR SpecErr SpecSim SpecHqErr B64 B64Lemmas LibmFree.
Open Scope Z_scope.

Definition fin3 (l : list b64) : bool := forallb is_finite l.
Notation run3 h lm := (let NB : Num b64 := B64 lm in
  dlahqr 3 true true 3 1 3 h 3 [b64_dy 0 0; b64_dy 0 0; b64_dy 0 0] [b64_dy 0 0; b64_dy 0 0; b64_dy 0 0] 1 3
    [[b64_dy 1 0; b64_dy 0 0; b64_dy 0 0]; [b64_dy 0 0; b64_dy 1 0; b64_dy 0 0]; [b64_dy 0 0; b64_dy 0 0; b64_dy 1 0]] 3).
Lemma run3_libm (h : list (list b64)) lm : libm_ok lm -> run3 h lm = run3 h ref_libm.
Proof.
  intros LM. cbv zeta. rewrite (dlahqr_libm lm ref_libm LM ref_libm_ok). reflexivity.
Qed.


(** ((1, 2, 3), (4, 5, 6), (0, 7, 8)) by columns *)
Definition conv3 : list (list b64) := [[b64_dy 1 0; b64_dy 4 0; b64_dy 0 0]; [b64_dy 2 0; b64_dy 5 0; b64_dy 7 0]; [b64_dy 3 0; b64_dy 6 0; b64_dy 8 0]].
Lemma conv_ref : match run3 conv3 ref_libm with
  | Ok (h, wr, wi, z, i) => forallb fin3 h && fin3 wr && fin3 wi && forallb fin3 z && (i =? 0)
  | _ => false end = true.
Proof. vm_compute. reflexivity. Qed.
(** ((0, -2^-310, 0), (2^-550, 0, -2^100), (0, 2^-960, 0)) by columns *)
Definition nan3 : list (list b64) :=
  [[b64_dy 0 0; b64_dy 1 (-550); b64_dy 0 0]; [b64_dy (-1) (-310); b64_dy 0 0; b64_dy 1 (-960)]; [b64_dy 0 0; b64_dy (-1) 100; b64_dy 0 0]].
Definition isn (x : b64) : bool := match x with B754_nan => true | _ => false end.
Lemma nan_ref : match run3 nan3 ref_libm with
  | Ok (h, wr, wi, z, i) => match h with [[_; _; _]; [_; d; _]; [_; _; _]] => isn d | _ => false end && (i =? 3)
  | _ => false end = true.
Proof. vm_compute. reflexivity. Qed.

Lemma fin3_all l : fin3 l = true -> Forall (fun x => is_finite x = true) l.
Proof. intros H. apply Forall_forall. intros x Hx. unfold fin3 in H. rewrite forallb_forall in H. apply H. exact Hx. Qed.
Lemma fin33_all l : forallb fin3 l = true -> Forall (Forall (fun x => is_finite x = true)) l.
Proof. intros H. apply Forall_forall. intros x Hx. rewrite forallb_forall in H. apply fin3_all, H. exact Hx. Qed.

Lemma conv_run lm : libm_ok lm -> exists h wr wi z, run3 conv3 lm = Ok (h, wr, wi, z, 0) /\
  Forall (Forall (fun x => is_finite x = true)) h /\ Forall (fun x => is_finite x = true) wr /\ Forall (fun x => is_finite x = true) wi /\
  Forall (Forall (fun x => is_finite x = true)) z.
Proof.
  intros LM. rewrite (run3_libm conv3 lm LM). pose proof conv_ref as X. destruct (run3 conv3 ref_libm) as [[[[[h wr] wi] z] i]| | |]; try discriminate X.
  apply andb_prop in X as [X X5]. apply andb_prop in X as [X X4]. apply andb_prop in X as [X X3]. apply andb_prop in X as [X1 X2]. apply Z.eqb_eq in X5. subst i.
  exists h, wr, wi, z. split; [reflexivity|]. split; [apply fin33_all; exact X1|]. split; [apply fin3_all; exact X2|]. split; [apply fin3_all; exact X3|apply fin33_all; exact X4].
Qed.
Lemma nan_run lm : libm_ok lm -> exists h wr wi z, run3 nan3 lm = Ok (h, wr, wi, z, 3) /\ (let NB : Num b64 := B64 lm in nan_diag 1 3 (to_fa h)).
Proof.
  intros LM. rewrite (run3_libm nan3 lm LM). pose proof nan_ref as X. destruct (run3 nan3 ref_libm) as [[[[[h wr] wi] z] i]| | |]; try discriminate X.
  apply andb_prop in X as [X X5]. apply Z.eqb_eq in X5. subst i. exists h, wr, wi, z. split; [reflexivity|].
  destruct h as [|[|a1 [|a2 [|a3 [|]]]] [|[|b1 [|b2 [|b3 [|]]]] [|[|c1 [|c2 [|c3 [|]]]] [|]]]]; try discriminate X.
  exists 2. split; [lia|]. destruct b2; try discriminate X. reflexivity.
Qed.

Lemma dy_val m e : Z.abs m < 2 ^ 53 -> -1074 <= e <= 900 -> value_of (b64_dy m e) (IZR m * bpow radix2 e).
Proof.
  intros Hm He. pose proof (binary_normalize_correct 53 1024 prec53 emax1024 mode_NE m e false) as X. fold (b64_dy m e) in X.
  assert (G : generic_format radix2 (SpecFloat.fexp 53 1024) (F2R (Float radix2 m e))).
  { change (SpecFloat.fexp 53 1024) with (FLT_exp (-1074) 53). apply generic_format_FLT. exists (Float radix2 m e); [reflexivity|exact Hm|cbn; lia]. }
  cbv zeta in X. rewrite round_generic in X by (auto with typeclass_instances). rewrite Rlt_bool_true in X; [split; apply X|].
  apply Rlt_le_trans with (bpow radix2 (53 + e)); [|apply bpow_le; lia]. apply F2R_lt_bpow. cbn [Fnum Fexp]. replace (53 + e - e) with 53 by ring. exact Hm.
Qed.

Ltac each3 a Ha := let A := fresh in assert (A : a = 1 \/ a = 2 \/ a = 3) by lia; clear Ha; destruct A as [->|[->| ->]].

Section Hyps.
  Context (lm : libm) (LM : libm_ok lm).
  #[local] Instance NBwt : Num b64 := B64 lm.
  Lemma conv_hyps : let H0 := rows3 1 2 3 4 5 6 0 7 8 in
    (forall a b, 1 <= a <= 3 -> 1 <= b <= 3 -> holds_ent (to_fa conv3) a b (H0 a b)) /\ hessenberg 1 3 H0 /\ (frob2 1 3 H0 <= 16 * 16)%R /\
    (bpow radix2 (-900) <= 16 <= bpow radix2 398)%R.
  Proof.
    cbv zeta. split; [|split; [|split]].
    - assert (V : forall m, Z.abs m < 2 ^ 53 -> value_of (b64_dy m 0) (IZR m)) by (intros m Hm; pose proof (dy_val m 0 Hm ltac:(lia)) as X; cbn [bpow] in X; rewrite Rmult_1_r in X; exact X).
      intros a b Ha Hb. each3 a Ha; each3 b Hb; (eexists; split; [reflexivity|apply V; reflexivity]).
    - intros i j Hi Hj Hij. assert (i = 3) as -> by lia. assert (j = 1) as -> by lia. reflexivity.
    - unfold frob2, Rsum_range. change (Z.to_nat (3 - 1 + 1)) with 3%nat. cbn. lra.
    - change 16%R with (bpow radix2 4). split; apply bpow_le; lia.
  Qed.
  Lemma eye_hyps : let o := b64_dy 0 0 in let e := b64_dy 1 0 in
    forall a, 1 <= a <= 3 -> (forall b, 1 <= b <= 3 -> holds_ent (to_fa [[e; o; o]; [o; e; o]; [o; o; e]]) a b (rows3 1 0 0 0 1 0 0 0 1 a b)) /\
      (Rsum_range (fun b => rows3 1 0 0 0 1 0 0 0 1 a b * rows3 1 0 0 0 1 0 0 0 1 a b)%R 1 3 <= 1 * 1)%R.
  Proof.
    cbv zeta. intros a Ha. assert (V : forall m, Z.abs m < 2 ^ 53 -> value_of (b64_dy m 0) (IZR m)) by (intros m Hm; pose proof (dy_val m 0 Hm ltac:(lia)) as X; cbn [bpow] in X; rewrite Rmult_1_r in X; exact X).
    split.
    - intros b Hb. each3 a Ha; each3 b Hb; (eexists; split; [reflexivity|apply V; reflexivity]).
    - unfold Rsum_range. change (Z.to_nat (3 - 1 + 1)) with 3%nat. each3 a Ha; cbn; lra.
  Qed.
  Lemma nan_hyps : let H0 := rows3 0 (- bpow radix2 (-310)) 0 (bpow radix2 (-550)) 0 (- bpow radix2 100) 0 (bpow radix2 (-960)) 0 in
    (forall a b, 1 <= a <= 3 -> 1 <= b <= 3 -> holds_ent (to_fa nan3) a b (H0 a b)) /\ hessenberg 1 3 H0 /\ (frob2 1 3 H0 <= bpow radix2 101 * bpow radix2 101)%R /\
    (bpow radix2 (-900) <= bpow radix2 101 <= bpow radix2 398)%R.
  Proof.
    cbv zeta. split; [|split; [|split]].
    - assert (V : value_of (b64_dy 0 0) 0) by (split; reflexivity).
      assert (V1 : forall e, -1074 <= e <= 900 -> value_of (b64_dy 1 e) (bpow radix2 e)) by (intros e He; pose proof (dy_val 1 e eq_refl He) as X; rewrite Rmult_1_l in X; exact X).
      assert (V2 : forall e, -1074 <= e <= 900 -> value_of (b64_dy (-1) e) (- bpow radix2 e)).
      { intros e He. pose proof (dy_val (-1) e eq_refl He) as X. replace (- bpow radix2 e)%R with (-1 * bpow radix2 e)%R by ring. exact X. }
      intros a b Ha Hb. each3 a Ha; each3 b Hb; unfold rows3; cbn [Z.eqb Pos.eqb]; (eexists; split; [reflexivity|]).
      + exact V.
      + apply (V2 (-310)). lia.
      + exact V.
      + apply (V1 (-550)). lia.
      + exact V.
      + apply (V2 100). lia.
      + exact V.
      + apply (V1 (-960)). lia.
      + exact V.
    - intros i j Hi Hj Hij. assert (i = 3) as -> by lia. assert (j = 1) as -> by lia. reflexivity.
    - assert (L : forall e, e <= 100 -> (0 <= bpow radix2 e * bpow radix2 e <= bpow radix2 200)%R).
      { intros e He. rewrite <- bpow_plus. split; [apply bpow_ge_0|apply bpow_le; lia]. }
      replace (bpow radix2 101 * bpow radix2 101)%R with (4 * bpow radix2 200)%R by (rewrite <- bpow_plus; change 4%R with (bpow radix2 2); rewrite <- bpow_plus; reflexivity).
      pose proof (L (-310) ltac:(lia)). pose proof (L (-550) ltac:(lia)). pose proof (L 100 ltac:(lia)). pose proof (L (-960) ltac:(lia)).
      unfold frob2, Rsum_range. change (Z.to_nat (3 - 1 + 1)) with 3%nat. cbn [seq map fold_right Nat.add rows3].
      set (x := bpow radix2 (-310)) in *. set (y := bpow radix2 (-550)) in *. set (w := bpow radix2 100) in *. set (v := bpow radix2 (-960)) in *. set (t := bpow radix2 200) in *. clearbody x y w v t.
      unfold rows3. cbn. lra.
    - split; apply bpow_le; lia.
  Qed.
End Hyps.

Lemma dlahqr_nan lm : libm_ok lm -> let NB : Num b64 := B64 lm in let d m := b64_dy m 0 in
  let h := [[d 0; b64_dy 1 (-550); d 0]; [b64_dy (-1) (-310); d 0; b64_dy 1 (-960)]; [d 0; b64_dy (-1) 100; d 0]] in
  let z := [[d 1; d 0; d 0]; [d 0; d 1; d 0]; [d 0; d 0; d 1]] in
  let H0 := rows3 0 (- bpow radix2 (-310)) 0 (bpow radix2 (-550)) 0 (- bpow radix2 100) 0 (bpow radix2 (-960)) 0 in
  (forall a b, 1 <= a <= 3 -> 1 <= b <= 3 -> holds_ent (to_fa h) a b (H0 a b)) /\ hessenberg 1 3 H0 /\
  (frob2 1 3 H0 <= bpow radix2 101 * bpow radix2 101)%R /\ (bpow radix2 (-900) <= bpow radix2 101 <= bpow radix2 398)%R /\
  exists h' wr' wi' z', dlahqr 3 true true 3 1 3 h 3 [d 0; d 0; d 0] [d 0; d 0; d 0] 1 3 z 3 = Ok (h', wr', wi', z', 3) /\ nan_diag 1 3 (to_fa h').
Proof.
  intros LM. cbv beta zeta. destruct (nan_hyps lm) as (A1 & A2 & A3 & A4). split; [exact A1|]. split; [exact A2|]. split; [exact A3|]. split; [exact A4|].
  exact (nan_run lm LM).
Qed.
