(** dlanv2 is idempotent: applied to its own result it returns it, with the identity rotation. *)
From Coq Require Import ZArith Lia Bool List Reals Lra.
From Flocq Require Import IEEE754.BinarySingleNaN Core.
From Verif Require Import Base Num Array Blas Lapack Spec B64 B64Lemmas LanvProofs LibmFree.
Open Scope Z_scope.

Section Any.
  Context {F : Type} {NF : Num F}.
  Local Open Scope num_scope.
  Hypothesis (Z0 : feq (f0 : F) f0 = true).

  (** what can come out: upper triangular, or two nonzero off-diagonal entries whose signs differ and a diagonal that is the input's
      (and passes the test of line 42) or constant *)
  Lemma nv_main_form (a b c d : F) : let '(a', b', c', d', cs, sn) := nv_main a b c d in
    feq c' f0 = true \/
    (feq c' f0 = false /\ feq b' f0 = false /\ feq (fsignum b') (fsignum c') = false /\ (flt (fabs (a' - d')) fEPS = true \/ a' = d')).
  Proof.
    unfold nv_main. destruct (feq c f0) eqn:C; [left; exact C|]. destruct (feq b f0) eqn:B; [left; exact Z0|].
    destruct (flt (fabs (a - d)) fEPS) eqn:E; cbn [andb]; [unfold fne; destruct (feq (fsignum b) (fsignum c)) eqn:S; cbn [negb]|].
    2: { right. auto. }
    all: match goal with |- context [if ?t then nv_real _ _ _ _ else _] => destruct t end; [unfold nv_real; left; exact Z0|].
    all: destruct (nv_loop 20 (b + c) (a - d)) as [sigma temp]; unfold nv_equalise; cbv zeta; unfold nv_offdiag, fne.
    all: match goal with |- context [if negb (feq ?x f0) then (if negb (feq ?y f0) then _ else _) else _] => destruct (feq x f0) eqn:C'; cbn [negb]; [left; exact C'|destruct (feq y f0) eqn:B'; cbn [negb]] end.
    1, 3: left; exact Z0.
    all: match goal with |- context [if feq (fsignum ?x) (fsignum ?y) then _ else _] => destruct (feq (fsignum x) (fsignum y)) eqn:S' end; [left; exact Z0|right; auto].
  Qed.

  Lemma dlanv2_idem (a b c d : F) : let r := dlanv2 a b c d in
    (feq (nC r) f0 = true \/ flt (fabs (nA r - nA r)) fEPS = true) ->
    dlanv2 (nA r) (nB r) (nC r) (nD r) = mkNv2 (nA r) (nB r) (nC r) (nD r) (nrt1r r) (nrt1i r) (nrt2r r) (nrt2i r) f1 f0.
  Proof.
    cbv zeta. pose proof (nv_main_form a b c d) as P.
    assert (R : exists a' b' c' d' cs sn, nv_main a b c d = (a', b', c', d', cs, sn)) by (destruct (nv_main a b c d) as [[[[[a' b'] c'] d'] cs] sn]; eauto 10).
    destruct R as (a' & b' & c' & d' & cs & sn & R). rewrite R in P.
    assert (D : dlanv2 a b c d = (if feq c' f0 then mkNv2 a' b' c' d' a' f0 d' f0 cs sn
      else mkNv2 a' b' c' d' a' (fsqrt (fabs b') * fsqrt (fabs c')) d' (- (fsqrt (fabs b') * fsqrt (fabs c'))) cs sn)) by (unfold dlanv2; rewrite R; reflexivity).
    rewrite D. destruct P as [C|(C & B & S & T)]; rewrite C; cbn [nA nB nC nD nrt1r nrt1i nrt2r nrt2i].
    - intros _. apply dlanv2_upper. exact C.
    - intros [X|X]; [congruence|]. apply dlanv2_early; try assumption. destruct T as [T|<-]; assumption.
  Qed.
End Any.

Section F64.
  Context (lm : libm).
  #[local] Instance NBidem : Num b64 := B64 lm.
  Lemma feq00 : feq (f0 : b64) f0 = true. Proof. reflexivity. Qed.
  Lemma self_sub (x : b64) : is_finite x = true -> flt (fabs (fsub x x)) fEPS = true.
  Proof.
    intros FX. assert (E : fsub x x = B754_zero false).
    { destruct x as [s| | |s m e H]; try discriminate FX; [destruct s; reflexivity|].
      pose proof (Bminus_correct 53 1024 eq_refl eq_refl mode_NE (B754_finite s m e H) (B754_finite s m e H) eq_refl eq_refl) as P.
      rewrite Rminus_diag_eq, round_0 in P by (reflexivity || apply valid_rnd_round_mode). rewrite Rabs_R0 in P.
      rewrite Rlt_bool_true in P by apply bpow_gt_0. destruct P as (P1 & P2 & P3).
      change (fsub (B754_finite s m e H) (B754_finite s m e H)) with (Bminus mode_NE (B754_finite s m e H) (B754_finite s m e H)).
      rewrite Rcompare_Eq in P3 by reflexivity. destruct (Bminus mode_NE (B754_finite s m e H) (B754_finite s m e H)) as [s'| | |s' m' e' H'] eqn:EM; try discriminate P2.
      - cbn in P3. destruct s, s'; cbn in P3; try discriminate P3; reflexivity.
      - exfalso. cbn [B2R] in P1. apply eq_0_F2R in P1. destruct s'; discriminate P1. }
    rewrite E. vm_compute. reflexivity.
  Qed.
  (** two finite nonzero numbers whose signums differ have a negative product *)
  Lemma signs_differ (x y : b64) : is_finite x = true -> is_finite y = true -> feq x f0 = false -> feq y f0 = false -> feq (fsignum x) (fsignum y) = false -> (B2R x * B2R y < 0)%R.
  Proof.
    intros FX FY X Y S. destruct x as [s| | |s m e H]; try discriminate FX; [destruct s; discriminate X|].
    destruct y as [t| | |t n g K]; try discriminate FY; [destruct t; discriminate Y|]. assert (st : s = negb t) by (destruct s, t; try reflexivity; vm_compute in S; discriminate S). subst s. cbn [B2R].
    assert (P : (0 < F2R (Float radix2 (Zpos m) e))%R) by (apply F2R_gt_0; reflexivity). assert (Q : (0 < F2R (Float radix2 (Zpos n) g))%R) by (apply F2R_gt_0; reflexivity).
    destruct t; cbn [negb cond_Zopp]; change (Z.neg n) with (- Z.pos n); change (Z.neg m) with (- Z.pos m); rewrite ?F2R_Zopp; nra.
  Qed.
  Lemma dlanv2_form_b64 (a b c d : b64) : let r := dlanv2 a b c d in is_finite (nB r) = true -> is_finite (nC r) = true ->
    B2R (nC r) = 0%R \/ ((B2R (nB r) * B2R (nC r) < 0)%R /\ (nA r = nD r \/ flt (fabs (fsub (nA r) (nD r))) fEPS = true)).
  Proof.
    cbv zeta. pose proof (nv_main_form feq00 a b c d) as P. unfold dlanv2. destruct (nv_main a b c d) as [[[[[a' b'] c'] d'] cs] sn].
    destruct P as [C|(C & B & S & T)]; rewrite C; cbv zeta; cbn [nA nB nC nD]; intros FB FC.
    - left. destruct c' as [s| | |s m e H]; try discriminate FC; [reflexivity|destruct s; discriminate C].
    - right. split; [apply signs_differ; assumption|tauto].
  Qed.
  Lemma dlanv2_idem_b64 (a b c d : b64) : let r := dlanv2 a b c d in is_finite (nA r) = true \/ feq (nC r) f0 = true ->
    dlanv2 (nA r) (nB r) (nC r) (nD r) = mkNv2 (nA r) (nB r) (nC r) (nD r) (nrt1r r) (nrt1i r) (nrt2r r) (nrt2i r) f1 f0.
  Proof.
    cbv zeta. intros H. apply (dlanv2_idem feq00). destruct H as [H|H]; [right; apply self_sub; exact H|left; exact H].
  Qed.
End F64.

Lemma idem_hyps : forall lm, libm_ok lm -> let NB : Num b64 := B64 lm in let d m := b64_dy m 0 in
  (let r := dlanv2 (d 1) (d 2) (d (-3)) (d 4) in is_finite (nA r) = true /\ is_finite (nB r) = true /\ is_finite (nC r) = true /\ feq (nC r) f0 = false) /\
  (let r := dlanv2 (d 1) (d 2) (d 3) (d 4) in is_finite (nA r) = true /\ is_finite (nB r) = true /\ is_finite (nC r) = true /\ feq (nC r) f0 = true).
Proof.
  intros lm LM. cbv zeta. assert (E : @dlanv2 b64 (B64 lm) = @dlanv2 b64 (B64 ref_libm)).
  { pose proof (nv_loop_libm lm ref_libm LM ref_libm_ok) as E2. rewrite (B64_libm lm ref_libm) in E2 |- *. apply g_dlanv2. exact E2. }
  rewrite E. repeat split; vm_compute; reflexivity.
Qed.
