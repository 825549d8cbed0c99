(** Facts about binary64 used by the proofs. *)
From Flocq Require Import IEEE754.BinarySingleNaN Core.
From Coq Require Import Reals Lra Floats.SpecFloat.
From Verif Require Import Base Num B64.

Lemma b64_eqb_sym (x y : b64) : Beqb x y = Beqb y x.
Proof.
  unfold Beqb, SFeqb. change (SFcompare (B2SF x) (B2SF y)) with (Bcompare x y).
  change (SFcompare (B2SF y) (B2SF x)) with (Bcompare y x).
  rewrite (Bcompare_swap 53 1024 x y). destruct (Bcompare x y) as [[]|]; reflexivity.
Qed.

Lemma b64_eqb_cases (x y : b64) : Beqb x y = true ->
  (is_finite x = true /\ is_finite y = true /\ B2R x = B2R y) \/
  (exists s, x = B754_infinity s /\ y = B754_infinity s).
Proof.
  intros H. destruct (is_finite x) eqn:Fx, (is_finite y) eqn:Fy.
  - left. repeat split; auto. rewrite (Beqb_correct 53 1024 x y Fx Fy) in H.
    revert H. case Req_bool_spec; auto; discriminate.
  - destruct x as [[]|[]| |[]], y as [[]|[]| |[]]; cbn in *; try discriminate.
  - destruct x as [[]|[]| |[]], y as [[]|[]| |[]]; cbn in *; try discriminate.
  - right. destruct x as [[]|[]| |[]], y as [[]|[]| |[]]; cbn in *; try discriminate; eauto.
Qed.

Lemma b64_eqb_trans (x y z : b64) : Beqb x y = true -> Beqb y z = true -> Beqb x z = true.
Proof.
  intros H1 H2. apply b64_eqb_cases in H1 as [(Fx & Fy & E)|(s & -> & ->)];
  apply b64_eqb_cases in H2 as [(Fy' & Fz & E')|(s' & E1 & E2)].
  - rewrite (Beqb_correct 53 1024 x z Fx Fz). apply Req_bool_true. congruence.
  - subst y. discriminate.
  - discriminate.
  - subst z. injection E1 as ->. rewrite Beqb_refl. reflexivity.
Qed.

Lemma b64_eqb_refl (x : b64) : Beqb x x = negb (is_nan x).
Proof. apply Beqb_refl. Qed.
