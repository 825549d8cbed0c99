(** dlahqr in binary64 on small matrices with a NaN in them. *)
From Coq Require Import Reals.
From Flocq Require Import IEEE754.BinarySingleNaN Core.
From Verif Require Import Base Num Array Blas Lapack Dlahqr Spec B64 LibmFree LahqrTop HqNan.
Open Scope Z_scope.

(** ((1, 0), (NaN, 2)) and ((NaN, 1), (1, 2)) by columns *)
Definition sub2 : list (list b64) := [[b64_dy 1 0; B754_nan]; [b64_dy 0 0; b64_dy 2 0]].
Definition dia2 : list (list b64) := [[B754_nan; b64_dy 1 0]; [b64_dy 1 0; b64_dy 2 0]].
Notation run2 h lm := (let NB : Num b64 := B64 lm in let o := b64_dy 0 0 in dlahqr 2 true false 2 1 2 h 2 [o; o] [o; o] 1 2 ([] : list b64) 2).
Lemma run2_libm (h : list (list b64)) lm : libm_ok lm -> run2 h lm = run2 h ref_libm.
Proof. intros LM. cbv zeta. rewrite (dlahqr_libm lm ref_libm LM ref_libm_ok). reflexivity. Qed.
Lemma sub_ref : match run2 sub2 ref_libm with Ok (h, wr, wi, z, i) => forallb is_finite wr && forallb is_finite wi && (i =? 0) | _ => false end = true.
Proof. vm_compute. reflexivity. Qed.
Lemma dia_ref : match run2 dia2 ref_libm with Ok (h, wr, wi, z, i) => (i =? 0) | _ => false end = true.
Proof. vm_compute. reflexivity. Qed.

Lemma fin_all (l : list b64) : forallb is_finite l = true -> Forall (fun x => is_finite x = true) l.
Proof. intros H. apply Forall_forall. intros x Hx. rewrite forallb_forall in H. exact (H x Hx). Qed.
Lemma sub_run lm : libm_ok lm -> exists h wr wi z, run2 sub2 lm = Ok (h, wr, wi, z, 0) /\ Forall (fun x => is_finite x = true) wr /\ Forall (fun x => is_finite x = true) wi.
Proof.
  intros LM. rewrite (run2_libm sub2 lm LM). pose proof sub_ref as X. destruct (run2 sub2 ref_libm) as [[[[[h wr] wi] z] i]| | |]; try discriminate X.
  apply andb_prop in X as [X X3]. apply andb_prop in X as [X1 X2]. apply Z.eqb_eq in X3. subst i. exists h, wr, wi, z. split; [reflexivity|]. split; apply fin_all; assumption.
Qed.
Lemma dia_run lm : libm_ok lm -> exists h wr wi z, run2 dia2 lm = Ok (h, wr, wi, z, 0).
Proof.
  intros LM. rewrite (run2_libm dia2 lm LM). pose proof dia_ref as X. destruct (run2 dia2 ref_libm) as [[[[[h wr] wi] z] i]| | |]; try discriminate X.
  apply Z.eqb_eq in X. subst i. exists h, wr, wi, z. reflexivity.
Qed.
Lemma nan_hyps lm : libm_ok lm -> let NB : Num b64 := B64 lm in let d m := b64_dy m 0 in let q := B754_nan : b64 in
  let h := [[q; d 1]; [d 1; d 2]] in let g := [[d 1; q]; [d 0; d 2]] in let o := [d 0; d 0] in
  (usable _ _ h /\ usable _ _ g /\ usable _ _ o /\ usable _ _ ([] : list b64) /\ rows (to_fa h) = 2 /\ count (to_fa h) = 4 /\ rows (to_fa g) = 2 /\ count (to_fa g) = 4 /\ count (to_fa o) = 2) /\
  (ent (to_fa h) 1 1 = Some q /\ exists h' wr' wi' z', dlahqr 2 true false 2 1 2 h 2 o o 1 2 ([] : list b64) 2 = Ok (h', wr', wi', z', 0)) /\
  (ent (to_fa g) 2 1 = Some q /\ exists g' wr' wi' z', dlahqr 2 true false 2 1 2 g 2 o o 1 2 ([] : list b64) 2 = Ok (g', wr', wi', z', 0) /\
    Forall (fun x => is_finite x = true) wr' /\ Forall (fun x => is_finite x = true) wi').
Proof.
  intros LM NB d q h g o.
  split; [|split; [split; [reflexivity|exact (dia_run lm LM)]|split; [reflexivity|exact (sub_run lm LM)]]].
  split; [apply (usable_nested _ 2); [lia|discriminate|repeat constructor]|]. split; [apply (usable_nested _ 2); [lia|discriminate|repeat constructor]|].
  split; [apply usable_vec|]. split; [apply usable_vec|]. repeat (split; [reflexivity|]). reflexivity.
Qed.
