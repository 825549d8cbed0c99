(** Proofs about lsame (C16). *)
From Coq Require Import Ascii.
From Verif Require Import Base Blas SpecBlas.

Lemma lsame_lower ca cb : lsame ca cb = (fold_case (ca mod 256) =? fold_case (cb mod 256)).
Proof.
  unfold lsame, as_u8, is_alpha, lower, fold_case.
  generalize (ca mod 256) (cb mod 256). intros a b.
  destruct (Z.leb_spec 65 a), (Z.leb_spec a 90), (Z.leb_spec 97 a), (Z.leb_spec a 122); cbn [andb orb]; try lia;
  destruct (Z.leb_spec 65 b), (Z.leb_spec b 90), (Z.leb_spec 97 b), (Z.leb_spec b 122); cbn [andb orb]; try lia;
  repeat match goal with |- context [Z.eqb ?x ?y] => destruct (Z.eqb_spec x y) end; cbn [orb]; try reflexivity; lia.
Qed.

Lemma lsame_byte ca cb : 0 <= ca < 256 -> 0 <= cb < 256 ->
  (lsame ca cb = true <-> fold_case ca = fold_case cb).
Proof.
  intros Ha Hb. rewrite lsame_lower, !Z.mod_small by assumption. apply Z.eqb_eq.
Qed.

Lemma lsame_refl c : lsame c c = true.
Proof. rewrite lsame_lower. apply Z.eqb_refl. Qed.
Lemma lsame_sym a b : lsame a b = lsame b a.
Proof. rewrite !lsame_lower. apply Z.eqb_sym. Qed.
Lemma lsame_trans a b c : lsame a b = true -> lsame b c = true -> lsame a c = true.
Proof. rewrite !lsame_lower, !Z.eqb_eq. congruence. Qed.

Lemma lsame_truncates : exists a b, 0 <= a < 1114112 /\ 0 <= b < 128 /\ fold_case a <> fold_case b /\ lsame a b = true.
Proof. exists 332, (chr "L"). vm_compute. intuition discriminate. Qed.

(** among ASCII characters no false match *)
Lemma lsame_all a b : lsame a b = true <-> fold_case (a mod 256) = fold_case (b mod 256).
Proof. rewrite lsame_lower. apply Z.eqb_eq. Qed.

Lemma lsame_letter c L : 0 <= L < 256 -> (lsame c L = true <-> letter c L).
Proof. intros H. rewrite lsame_all. unfold letter. rewrite (Z.mod_small L) by assumption. reflexivity. Qed.
Lemma lsame_letter_false c L : 0 <= L < 256 -> (lsame c L = false <-> ~ letter c L).
Proof. intros H. rewrite <- lsame_letter by assumption. destruct (lsame c L); intuition congruence. Qed.
