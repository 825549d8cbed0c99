(** dlaqr1 when its scale overflows. *)
From Coq Require Import Reals Lra.
From Flocq Require Import IEEE754.BinarySingleNaN Core.
From Verif Require Import Base Num Array Blas Lapack Spec SpecR SpecErr SpecShift B64 Laqr1Proofs.
Open Scope R_scope.

#[local] Instance NBw : Num b64 := B64 ref_libm.
Definition big : b64 := b64_dy 1 1023.
Lemma laqr1_big_ref : dlaqr1 2 [big; big; f0; f0] 2 f0 f0 f0 f0 [f1; f1] = Ok [f0; f0].
Proof. vm_compute. reflexivity. Qed.
Lemma laqr1_big lm : let NB : Num b64 := B64 lm in dlaqr1 2 [big; big; f0; f0] 2 f0 f0 f0 f0 [f1; f1] = Ok [f0; f0].
Proof. exact laqr1_big_ref. Qed.
Lemma big_val : val64 big = bpow radix2 1023.
Proof.
  unfold val64, big. rewrite <- SF2R_B2SF. assert (E : B2SF (b64_dy 1 1023) = SpecFloat.S754_finite false 4503599627370496 971) by (vm_compute; reflexivity). rewrite E.
  cbn [SF2R SpecFloat.cond_Zopp]. unfold F2R. cbn [Fnum Fexp]. replace (IZR 4503599627370496) with (bpow radix2 52) by (cbn [bpow]; f_equal; vm_compute; reflexivity).
  rewrite <- bpow_plus. reflexivity.
Qed.
Definition big_mat (i j : Z) : R := if (j =? 1)%Z then bpow radix2 1023 else 0.
Lemma big_col : op_is64 true (flat 2 [big; big; f0; f0]) 2 2 big_mat /\ 1 < fst (shift_column 2 big_mat (0, 0) (0, 0) 1) /\ 1 < fst (shift_column 2 big_mat (0, 0) (0, 0) 2).
Proof.
  split.
  - intros i j Hi Hj. assert (i = 1 \/ i = 2)%Z as [-> | ->] by lia; assert (j = 1 \/ j = 2)%Z as [-> | ->] by lia;
    [exists big|exists f0|exists big|exists f0]; (split; [reflexivity|]); try exact big_val; reflexivity.
  - assert (B : 2 <= bpow radix2 1023) by (change 2 with (bpow radix2 1); apply bpow_le; lia).
    rewrite !shift_col2. unfold shifted, big_mat, cadd, csub, cmul, cre. cbn [fst snd Z.eqb Pos.eqb]. set (T := bpow radix2 1023) in *. split; nra.
Qed.
Lemma laqr1_huge lm : let NB : Num b64 := B64 lm in
  dlaqr1 2 [big; big; f0; f0] 2 f0 f0 f0 f0 [f1; f1] = Ok [f0; f0] /\ op_is64 true (flat 2 [big; big; f0; f0]) 2 2 big_mat /\ 1 < fst (shift_column 2 big_mat (0, 0) (0, 0) 1) /\ 1 < fst (shift_column 2 big_mat (0, 0) (0, 0) 2).
Proof. split; [exact (laqr1_big lm)|exact big_col]. Qed.
