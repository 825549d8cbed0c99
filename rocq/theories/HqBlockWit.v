(** A window of a matrix that is NaN everywhere else. *)
From Coq Require Import Reals.
From Flocq Require Import IEEE754.BinarySingleNaN Core.
From Verif Require Import Base Num Array Blas Lapack Dlahqr Spec B64 FaLemmas LahqrTop HqErrWit HqBlock.
Open Scope Z_scope.

Section Wit.
  Context (lm : libm) (LM : libm_ok lm).
  #[local] Instance NBwi : Num b64 := B64 lm.
  Lemma window_hyps : let d m := b64_dy m 0 in let q := B754_nan : b64 in
    let h := [[d 1; d 4; d 0]; [d 2; d 5; d 7]; [d 3; d 6; d 8]] in
    let g := [[q; q; q; q; q]; [q; d 1; d 4; d 0; q]; [q; d 2; d 5; d 7; q]; [q; d 3; d 6; d 8; q]; [q; q; q; q; q]] in
    let o := [d 0; d 0; d 0] in let o' := [d 0; d 0; d 0; d 0; d 0] in
    (usable _ _ h /\ usable _ _ g /\ usable _ _ o' /\ rows (to_fa h) = 3 /\ count (to_fa h) = 9 /\ rows (to_fa g) = 5 /\ count (to_fa g) = 25 /\ count (to_fa o) = 3 /\ count (to_fa o') = 5) /\
    (forall a b, 2 <= a <= 4 -> 2 <= b <= 4 -> ent (to_fa h) (a + -1) (b + -1) = ent (to_fa g) a b) /\
    exists h' wr' wi' z', dlahqr 3 true false 5 2 4 g 5 o' o' 1 5 o' 5 = Ok (h', wr', wi', z', 0).
  Proof.
    intros d q h g o o'.
    assert (A1 : usable _ _ h) by (apply (usable_nested _ 3); [lia|discriminate|repeat constructor]).
    assert (A2 : usable _ _ g) by (apply (usable_nested _ 5); [lia|discriminate|repeat constructor]).
    assert (A3 : usable _ _ o') by (apply usable_vec; discriminate).
    assert (A4 : forall a b, 2 <= a <= 4 -> 2 <= b <= 4 -> ent (to_fa h) (a + -1) (b + -1) = ent (to_fa g) a b).
    { intros a b Ha Hb. assert (a = 2 \/ a = 3 \/ a = 4) as C by lia. assert (b = 2 \/ b = 3 \/ b = 4) as C' by lia.
      destruct C as [->|[->| ->]], C' as [->|[->| ->]]; reflexivity. }
    split; [repeat (split; [assumption || reflexivity|]); reflexivity|]. split; [exact A4|].
    destruct (conv_run lm LM) as (x & wr & wi & z & E & _).
    set (z0 := [[d 1; d 0; d 0]; [d 0; d 1; d 0]; [d 0; d 0; d 1]]).
    destruct (dlahqr_window _ _ _ _ _ _ _ _ _ _ _ _ _ _ _ _ 3 true 3 5 (-1) 2 4 h o o 1 3 z0 3 g o' o' 1 5 o' 5 x wr wi z 0 A1 A2 A3 A3 A3) with (14 := E)
      as (oh & owr & owi & oz & info & EO & [[_ ->]|[X Y]] & _); try lia; try (cbn; lia).
    - intros a b Ha Hb _. apply A4; assumption.
    - exists oh, owr, owi, oz. exact EO.
  Qed.
End Wit.
