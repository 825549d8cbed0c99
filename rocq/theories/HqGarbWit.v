(** dlahqr in binary64: two 5-by-5 matrices that differ only in entry (5, 1), four below the diagonal, and the eigenvalues the
    routine reports for them. *)
From Coq Require Import Reals.
From Flocq Require Import IEEE754.BinarySingleNaN Core.
From Verif Require Import Base Num Array Blas Lapack Dlahqr Spec B64 LibmFree LahqrTop.
Open Scope Z_scope.

(** by columns: upper Hessenberg but for [g] in the lower left corner *)
Definition corner (g : Z) : list (list b64) := let d m := b64_dy m 0 in
  [[d 1; d 1; d 0; d 0; d g]; [d 2; d 3; d 1; d 0; d 0]; [d 3; d 1; d 6; d 1; d 0]; [d 4; d 2; d 1; d 9; d 1]; [d 5; d 1; d 2; d 3; d 13]].
Notation run5 h lm := (let NB : Num b64 := B64 lm in let d m := b64_dy m 0 in
  dlahqr 6 true false 5 1 5 h 5 [d 0; d 0; d 0; d 0; d 0] [d 0; d 0; d 0; d 0; d 0] 1 5 ([] : list b64) 5).
Definition zer (x : b64) : bool := match x with B754_zero _ => true | _ => false end.
Definition pos64 (x : b64) : bool := match x with B754_finite false _ _ _ => true | _ => false end.

Lemma run5_libm (h : list (list b64)) lm : libm_ok lm -> run5 h lm = run5 h ref_libm.
Proof. intros LM. cbv zeta. rewrite (dlahqr_libm lm ref_libm LM ref_libm_ok). reflexivity. Qed.

Lemma clean_ref : match run5 (corner 0) ref_libm with Ok (h, wr, wi, z, i) => forallb zer wi && (i =? 0) | _ => false end = true.
Proof. vm_compute. reflexivity. Qed.
Lemma dirty_ref : match run5 (corner 8) ref_libm with
  | Ok (h, wr, wi, z, i) => match wi with [_; _; x; _; _] => pos64 x | _ => false end && (i =? 0) | _ => false end = true.
Proof. vm_compute. reflexivity. Qed.

Lemma zer_all l : forallb zer l = true -> Forall (fun x => is_finite x = true /\ B2R x = 0%R) l.
Proof. intros H. apply Forall_forall. intros x Hx. rewrite forallb_forall in H. specialize (H x Hx). destruct x; try discriminate H. split; reflexivity. Qed.
Lemma pos64_pos x : pos64 x = true -> is_finite x = true /\ (0 < B2R x)%R.
Proof. destruct x as [| | |[|] m e B]; try discriminate. intros _. split; [reflexivity|]. unfold B2R. apply F2R_gt_0. reflexivity. Qed.

Lemma clean_run lm : libm_ok lm -> exists h wr wi z, run5 (corner 0) lm = Ok (h, wr, wi, z, 0) /\ Forall (fun x => is_finite x = true /\ B2R x = 0%R) wi.
Proof.
  intros LM. rewrite (run5_libm (corner 0) lm LM). pose proof clean_ref as X. destruct (run5 (corner 0) ref_libm) as [[[[[h wr] wi] z] i]| | |]; try discriminate X.
  apply andb_prop in X as [X1 X2]. apply Z.eqb_eq in X2. subst i. exists h, wr, wi, z. split; [reflexivity|apply zer_all; exact X1].
Qed.
Lemma dirty_run lm : libm_ok lm -> exists h wr wi z, run5 (corner 8) lm = Ok (h, wr, wi, z, 0) /\ exists x, nth_error wi 2 = Some x /\ is_finite x = true /\ (0 < B2R x)%R.
Proof.
  intros LM. rewrite (run5_libm (corner 8) lm LM). pose proof dirty_ref as X. destruct (run5 (corner 8) ref_libm) as [[[[[h wr] wi] z] i]| | |]; try discriminate X.
  apply andb_prop in X as [X1 X2]. apply Z.eqb_eq in X2. subst i. exists h, wr, wi, z. split; [reflexivity|].
  destruct wi as [|a [|b [|x [|c [|d [|]]]]]]; try discriminate X1. exists x. split; [reflexivity|apply pos64_pos; exact X1].
Qed.

Ltac each5 a Ha := let A := fresh in assert (A : a = 1 \/ a = 2 \/ a = 3 \/ a = 4 \/ a = 5) by lia; clear Ha; destruct A as [->|[->|[->|[->| ->]]]].
Lemma corner_only lm : let NB : Num b64 := B64 lm in
  forall a b, 1 <= a <= 5 -> 1 <= b <= 5 -> ~ (a = 5 /\ b = 1) -> ent (to_fa (corner 0)) a b = ent (to_fa (corner 8)) a b.
Proof. intros NB a b Ha Hb N. each5 a Ha; each5 b Hb; try (exfalso; lia); reflexivity. Qed.

Lemma dlahqr_corner lm : libm_ok lm -> let NB : Num b64 := B64 lm in let d m := b64_dy m 0 in
  let h g := [[d 1; d 1; d 0; d 0; d g]; [d 2; d 3; d 1; d 0; d 0]; [d 3; d 1; d 6; d 1; d 0]; [d 4; d 2; d 1; d 9; d 1]; [d 5; d 1; d 2; d 3; d 13]] in
  (forall a b, 1 <= a <= 5 -> 1 <= b <= 5 -> ~ (a = 5 /\ b = 1) -> ent (to_fa (h 0)) a b = ent (to_fa (h 8)) a b) /\
  (exists h' wr' wi' z', dlahqr 6 true false 5 1 5 (h 0) 5 [d 0; d 0; d 0; d 0; d 0] [d 0; d 0; d 0; d 0; d 0] 1 5 ([] : list b64) 5 = Ok (h', wr', wi', z', 0) /\
    Forall (fun x => is_finite x = true /\ B2R x = 0%R) wi') /\
  (exists h' wr' wi' z', dlahqr 6 true false 5 1 5 (h 8) 5 [d 0; d 0; d 0; d 0; d 0] [d 0; d 0; d 0; d 0; d 0] 1 5 ([] : list b64) 5 = Ok (h', wr', wi', z', 0) /\
    exists x, nth_error wi' 2 = Some x /\ is_finite x = true /\ (0 < B2R x)%R).
Proof.
  intros LM. cbv beta zeta. split; [exact (corner_only lm)|]. split; [exact (clean_run lm LM)|exact (dirty_run lm LM)].
Qed.

(** matrices for the positive statements *)
Definition six (x y w : Z) : list (list b64) := let d m := b64_dy m 0 in
  [[d 1; d 1; d x; d y; d 0; d w]; [d 2; d 3; d 1; d 0; d 0; d 0]; [d 3; d 1; d 6; d 1; d 0; d 0]; [d 4; d 2; d 1; d 9; d 1; d 0];
    [d 5; d 1; d 2; d 3; d 13; d 1]; [d 6; d 1; d 2; d 3; d 4; d 20]].
Definition four (x y : Z) : list (list b64) := let d m := b64_dy m 0 in
  [[d 1; d 1; d x; d y]; [d 2; d 3; d 1; d x]; [d 3; d 1; d 6; d 1]; [d 4; d 2; d 1; d 9]].
Notation run4 h lm := (let NB : Num b64 := B64 lm in let d m := b64_dy m 0 in let o := d 0 in
  dlahqr 7 true false 4 1 4 h 4 [o; o; o; o] [o; o; o; o] 1 4 ([] : list b64) 4).
Notation run6 h lm := (let NB : Num b64 := B64 lm in let d m := b64_dy m 0 in let o := d 0 in
  dlahqr 7 true false 6 1 6 h 6 [o; o; o; o; o; o] [o; o; o; o; o; o] 1 6 ([] : list b64) 6).
Definition returns {A} (o : outcome A) : bool := match o with Ok _ => true | _ => false end.
Lemma four_ref : returns (run4 (four 0 0) ref_libm) = true.
Proof. vm_compute. reflexivity. Qed.
Lemma six_ref : returns (run6 (six 0 0 0) ref_libm) = true.
Proof. vm_compute. reflexivity. Qed.
Lemma returns_ex {A} (o : outcome A) : returns o = true -> exists r, o = Ok r.
Proof. destruct o; try discriminate. intros _. eexists. reflexivity. Qed.
Lemma four_run lm : libm_ok lm -> exists r, run4 (four 0 0) lm = Ok r.
Proof. intros LM. apply returns_ex. cbv beta zeta. rewrite (dlahqr_libm lm ref_libm LM ref_libm_ok). exact four_ref. Qed.
Lemma six_run lm : libm_ok lm -> exists r, run6 (six 0 0 0) lm = Ok r.
Proof. intros LM. apply returns_ex. cbv beta zeta. rewrite (dlahqr_libm lm ref_libm LM ref_libm_ok). exact six_ref. Qed.
Lemma six_agree lm : let NB : Num b64 := B64 lm in forall a b, 1 <= a <= 6 -> 1 <= b <= 6 -> ~ (1 <= b /\ a <= 6 /\ (a = b + 2 \/ a = b + 3 \/ b + 5 <= a)) ->
  ent (to_fa (six 0 0 0)) a b = ent (to_fa (six 7 8 9)) a b.
Proof.
  intros NB a b Ha Hb N. assert (A : a = 6 \/ 1 <= a <= 5) by lia. assert (B : b = 6 \/ 1 <= b <= 5) by lia. clear Ha Hb.
  destruct A as [->|A]; [|each5 a A]; (destruct B as [->|B]; [|each5 b B]); try (exfalso; lia); reflexivity.
Qed.
Lemma four_agree lm : let NB : Num b64 := B64 lm in forall a b, 1 <= a <= 4 -> 1 <= b <= 4 -> ~ (1 <= b /\ a <= 4 /\ b + 2 <= a) ->
  ent (to_fa (four 0 0)) a b = ent (to_fa (four 7 8)) a b.
Proof.
  intros NB a b Ha Hb N. assert (A : a = 1 \/ a = 2 \/ a = 3 \/ a = 4) by lia. assert (B : b = 1 \/ b = 2 \/ b = 3 \/ b = 4) by lia. clear Ha Hb.
  destruct A as [->|[->|[->| ->]]]; destruct B as [->|[->|[->| ->]]]; try (exfalso; lia); reflexivity.
Qed.
Lemma unread_hyps lm : libm_ok lm -> let NB : Num b64 := B64 lm in let d m := b64_dy m 0 in
  let h x y w := [[d 1; d 1; d x; d y; d 0; d w]; [d 2; d 3; d 1; d 0; d 0; d 0]; [d 3; d 1; d 6; d 1; d 0; d 0]; [d 4; d 2; d 1; d 9; d 1; d 0];
    [d 5; d 1; d 2; d 3; d 13; d 1]; [d 6; d 1; d 2; d 3; d 4; d 20]] in
  let k x y := [[d 1; d 1; d x; d y]; [d 2; d 3; d 1; d x]; [d 3; d 1; d 6; d 1]; [d 4; d 2; d 1; d 9]] in
  let o := d 0 in
  usable _ _ (h 0 0 0) /\ usable _ _ (h 7 8 9) /\ same_shape (to_fa (h 7 8 9)) (to_fa (h 0 0 0)) /\ rows (to_fa (h 0 0 0)) = 6 /\ count (to_fa (h 0 0 0)) = 36 /\
  (forall a b, 1 <= a <= 6 -> 1 <= b <= 6 -> ~ (1 <= b /\ a <= 6 /\ (a = b + 2 \/ a = b + 3 \/ b + 5 <= a)) -> ent (to_fa (h 0 0 0)) a b = ent (to_fa (h 7 8 9)) a b) /\
  usable _ _ (k 0 0) /\ usable _ _ (k 7 8) /\ same_shape (to_fa (k 7 8)) (to_fa (k 0 0)) /\ rows (to_fa (k 0 0)) = 4 /\ count (to_fa (k 0 0)) = 16 /\
  (forall a b, 1 <= a <= 4 -> 1 <= b <= 4 -> ~ (1 <= b /\ a <= 4 /\ b + 2 <= a) -> ent (to_fa (k 0 0)) a b = ent (to_fa (k 7 8)) a b) /\
  (exists r, dlahqr 7 true false 4 1 4 (k 0 0) 4 [o; o; o; o] [o; o; o; o] 1 4 ([] : list b64) 4 = Ok r) /\
  (exists r, dlahqr 7 true false 6 1 6 (h 0 0 0) 6 [o; o; o; o; o; o] [o; o; o; o; o; o] 1 6 ([] : list b64) 6 = Ok r).
Proof.
  intros LM. cbv beta zeta.
  split; [apply (usable_nested _ 6); [lia|discriminate|repeat constructor]|]. split; [apply (usable_nested _ 6); [lia|discriminate|repeat constructor]|].
  split; [repeat split|]. do 2 (split; [reflexivity|]). split; [exact (six_agree lm)|].
  split; [apply (usable_nested _ 4); [lia|discriminate|repeat constructor]|]. split; [apply (usable_nested _ 4); [lia|discriminate|repeat constructor]|].
  split; [repeat split|]. do 2 (split; [reflexivity|]). split; [exact (four_agree lm)|]. split; [exact (four_run lm LM)|exact (six_run lm LM)].
Qed.
