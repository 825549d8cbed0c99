(** Square vectors of vectors: entry (p,q) of the nested vector is entry (q,p) of the array. *)
From Coq Require Import Ascii.
From Verif Require Import Base Num Array Blas Lapack Spec SpecLapack Lists FaLemmas MatLemmas ArrayProofs LasetProofs.

Section Nested.
  Context {F : Type} {NF : Num F}.
  Notation fa := (fa F).

  Lemma nested_entry_concat (l : list (list F)) n p q : Forall (fun r => zlen r = n) l ->
    1 <= p -> 1 <= q <= n ->
    nested_entry l p q = nth_error (concat l) (Z.to_nat ((p - 1) * n + (q - 1))).
  Proof.
    intros H Hp Hq. unfold nested_entry. replace p with (Z.of_nat (Z.to_nat (p - 1)) + 1) by lia.
    generalize (Z.to_nat (p - 1)). clear p Hp. intros k. replace (Z.to_nat (Z.of_nat k + 1 - 1)) with k by lia.
    revert k. induction H as [|r l Hr H IH]; intros k.
    - cbn [concat]. rewrite !(proj2 (nth_error_None _ _)) by (cbn; lia). reflexivity.
    - cbn [concat]. unfold zlen in Hr. destruct k.
      + cbn [nth_error]. rewrite nth_error_app1 by lia. f_equal.
      + cbn [nth_error]. rewrite nth_error_app2 by nia. rewrite IH. f_equal. nia.
  Qed.

  Lemma nested_square (l : list (list F)) n g (c : fa) :
    1 <= n -> zlen l = n -> Forall (fun r => zlen r = n) l ->
    block_updated n n g (fa_of_nested l) c ->
    exists r, nested_of_fa c = Ok r /\ zlen r = n /\ Forall (fun r => zlen r = n) r /\
      forall p q, 1 <= p <= n -> 1 <= q <= n ->
        nested_entry r p q = option_map (g q p) (nested_entry l p q).
  Proof.
    intros Hn Hl H ((R1 & C1 & N1) & E1 & _).
    destruct (of_nested_wf l n H) as (D & R & C & _).
    assert (Hne : l <> []) by (intros ->; cbn in Hl; lia). specialize (C Hne).
    assert (N : count (fa_of_nested l) = n * n).
    { unfold count. rewrite D. change (zlen (concat l) = n * n). rewrite (concat_zlen _ n H). nia. }
    destruct (nested_of_fa_ok c) as (d & Ed & Hd & Hf & Hc); [lia..|].
    exists d. rewrite Ed. split; [reflexivity|]. split; [lia|].
    replace (rows c) with n in Hf by lia. split; [exact Hf|].
    intros p q Hp Hq. rewrite (nested_entry_concat d n), (nested_entry_concat l n), Hc, <- D by (assumption || lia).
    specialize (E1 q p Hq Hp). unfold ent, elem, pos in E1. rewrite R1, R, Hl in E1.
    destruct (Z.ltb_spec ((p - 1) * n + q) 1); [nia|].
    replace ((p - 1) * n + (q - 1)) with ((p - 1) * n + q - 1) by lia. exact E1.
  Qed.

  Lemma laset_entry_swap q' (alpha beta x : F) p q : laset_entry q' alpha beta q p x =
    laset_entry (match q' with Upper => Lower | Lower => Upper | All => All end) alpha beta p q x.
  Proof. unfold laset_entry, strictly_in_part. rewrite (Z.eqb_sym q p). destruct q'; reflexivity. Qed.

  Lemma dlaset_nested (l : list (list F)) n uplo alpha beta :
    1 <= n -> zlen l = n -> Forall (fun r => zlen r = n) l ->
    exists r, dlaset uplo n n alpha beta l = Ok r /\ zlen r = n /\ Forall (fun r => zlen r = n) r /\
      forall p q, 1 <= p <= n -> 1 <= q <= n ->
        nested_entry r p q =
        option_map (laset_entry (if uplo =? 85 then Upper else if uplo =? 76 then Lower else All) alpha beta p q)
                   (nested_entry l p q).
  Proof.
    intros Hn Hl H. unfold dlaset. cbn [to_fa ToFA_nested from_fa FromFA_nested].
    assert (R : n <= rows (fa_of_nested l)) by (change (n <= zlen l); lia). pose proof (Z.le_refl n) as Rn.
    destruct (Z.eqb_spec uplo 85) as [->|NU]; [|destruct (Z.eqb_spec uplo 76) as [->|NL]].
    - destruct (nested_square l n _ _ Hn Hl H (laset_U n n alpha beta (fa_of_nested l) R)) as (r & E & L & Q & X).
      exists r. split; [exact E|]. split; [exact L|]. split; [exact Q|]. intros. rewrite X by assumption.
      apply option_map_ext. intros. apply (laset_entry_swap Lower).
    - destruct (nested_square l n _ _ Hn Hl H (laset_L n n alpha beta (fa_of_nested l) Rn R)) as (r & E & L & Q & X).
      exists r. split; [exact E|]. split; [exact L|]. split; [exact Q|]. intros. rewrite X by assumption.
      apply option_map_ext. intros. apply (laset_entry_swap Upper).
    - destruct (nested_square l n _ _ Hn Hl H (laset_all uplo n n alpha beta (fa_of_nested l) NU NL R)) as (r & E & L & Q & X).
      exists r. split; [exact E|]. split; [exact L|]. split; [exact Q|]. intros. rewrite X by assumption.
      apply option_map_ext. intros. apply (laset_entry_swap All).
  Qed.

  Lemma nested_get2 (l : list (list F)) n p q : zlen l = n -> Forall (fun r => zlen r = n) l ->
    1 <= p <= n -> 1 <= q <= n -> nested_entry l p q = Some (get2 (fa_of_nested l) q p).
  Proof.
    intros Hl H Hp Hq. destruct (of_nested_wf l n H) as (D & R & _).
    rewrite (nested_entry_concat l n) by (assumption || lia).
    rewrite get2_ent. unfold ent, elem, pos. rewrite R, Hl, D.
    destruct (Z.ltb_spec ((p - 1) * n + q) 1); [nia|].
    replace ((p - 1) * n + (q - 1)) with ((p - 1) * n + q - 1) by lia.
    destruct (nth_error _ _) eqn:E; [reflexivity|]. apply nth_error_None in E.
    pose proof (concat_zlen _ n H) as L. unfold zlen in L at 1. nia.
  Qed.

  Lemma dlacpy_nested (a b : list (list F)) n uplo lda ldb :
    1 <= n -> zlen b = n -> Forall (fun r => zlen r = n) b -> zlen a = n -> Forall (fun r => zlen r = n) a ->
    exists r, dlacpy uplo n n a lda b ldb = Ok r /\ zlen r = n /\ Forall (fun r => zlen r = n) r /\
      forall p q, 1 <= p <= n -> 1 <= q <= n ->
        nested_entry r p q =
        if in_part (if uplo =? 85 then Upper else if uplo =? 76 then Lower else All) p q
        then nested_entry a p q else nested_entry b p q.
  Proof.
    intros Hn Hb HB Ha HA. unfold dlacpy. cbn [to_fa_2d ToFA_nested from_fa FromFA_nested bind].
    assert (R : n <= rows (fa_of_nested b)) by (change (n <= zlen b); lia). pose proof (Z.le_refl n) as Rn.
    assert (EQ : forall p q q', 1 <= p <= n -> 1 <= q <= n ->
      option_map (lacpy_entry q' (fun i j => get2 (fa_of_nested a) i j) q p) (nested_entry b p q)
      = if in_part q' q p then nested_entry a p q else nested_entry b p q).
    { intros p q q' Hp Hq. unfold lacpy_entry. destruct (in_part q' q p).
      - rewrite (nested_get2 a n p q), (nested_get2 b n p q) by assumption. reflexivity.
      - destruct (nested_entry b p q); reflexivity. }
    destruct (Z.eqb_spec uplo 85) as [->|NU]; [|destruct (Z.eqb_spec uplo 76) as [->|NL]].
    - destruct (nested_square b n _ _ Hn Hb HB (lacpy_U n n (fun i j => get2 (fa_of_nested a) i j) (fa_of_nested b) R)) as (r & E & L & Q & X).
      exists r. split; [exact E|]. split; [exact L|]. split; [exact Q|]. intros. rewrite X, EQ by assumption. reflexivity.
    - destruct (nested_square b n _ _ Hn Hb HB (lacpy_L n n (fun i j => get2 (fa_of_nested a) i j) (fa_of_nested b) Rn R)) as (r & E & L & Q & X).
      exists r. split; [exact E|]. split; [exact L|]. split; [exact Q|]. intros. rewrite X, EQ by assumption. reflexivity.
    - destruct (nested_square b n _ _ Hn Hb HB (lacpy_all uplo n n (fun i j => get2 (fa_of_nested a) i j) (fa_of_nested b) NU NL R)) as (r & E & L & Q & X).
      exists r. split; [exact E|]. split; [exact L|]. split; [exact Q|]. intros. rewrite X, EQ by assumption. reflexivity.
  Qed.

  (** Any containers *)
  Lemma dlaset_any {A} (TA : ToFA F A) (FA : FromFA F A) uplo m n alpha beta (a : A) :
    m <= rows (to_fa a) -> (uplo = 76 -> n <= m) ->
    exists c, block_updated m n
        (laset_entry (if uplo =? 85 then Lower else if uplo =? 76 then Upper else All) alpha beta) (to_fa a) c /\
      dlaset uplo m n alpha beta a = from_fa c.
  Proof.
    intros Hm HL. eexists; split; [|reflexivity].
    destruct (Z.eqb_spec uplo 85) as [->|NU]; [|destruct (Z.eqb_spec uplo 76) as [->|NL]].
    - apply laset_U; assumption.
    - apply laset_L; auto.
    - apply laset_all; assumption.
  Qed.

  Lemma dlacpy_any {A B} (TA : ToFA F A) (TB : ToFA F B) (FB : FromFA F B) uplo m n (a : A) lda (b : B) ldb af bf :
    to_fa_2d a lda = Ok af -> to_fa_2d b ldb = Ok bf ->
    m <= rows bf -> (uplo = 76 -> n <= m) ->
    exists c, block_updated m n
        (lacpy_entry (if uplo =? 85 then Lower else if uplo =? 76 then Upper else All) (get2 af)) bf c /\
      dlacpy uplo m n a lda b ldb = from_fa c.
  Proof.
    intros Ea Eb Hm HL. unfold dlacpy. rewrite Ea, Eb. cbn [bind]. eexists; split; [|reflexivity].
    destruct (Z.eqb_spec uplo 85) as [->|NU]; [|destruct (Z.eqb_spec uplo 76) as [->|NL]].
    - apply lacpy_U; assumption.
    - apply lacpy_L; auto.
    - apply lacpy_all; assumption.
  Qed.

  (** the wide 'L' case: the columns run past row m *)
  Lemma dlaset_lower_wide m n (alpha beta : F) (a : fa) : 0 <= m < n -> n <= rows a ->
    exists c, dlaset 76 m n alpha beta a = Ok c /\
      block_updated n n (fun i j x => if (i =? j) && (i <=? m) then beta else if i <=? j then alpha else x) a c.
  Proof. intros H R. eexists; split; [reflexivity|]. apply laset_L_shape; cbn; lia. Qed.
  Lemma dlacpy_lower_wide m n (a : fa) lda (b : fa) ldb : 0 <= m < n -> n <= rows b ->
    exists c, dlacpy 76 m n a lda b ldb = Ok c /\ block_updated n n (lacpy_entry Upper (get2 a)) b c.
  Proof. intros H R. eexists; split; [reflexivity|]. apply lacpy_L_shape; cbn; lia. Qed.

  (** witnesses *)
  Lemma dlaset_upper_wrong (alpha beta x : F) : alpha <> x -> exists r,
    dlaset 85 2 2 alpha beta (mkFA [x; x; x; x] 2 2 x) = Ok r /\ ent r 1 2 = Some x /\ ent r 2 1 = Some alpha.
  Proof. intros H. eexists. split; [reflexivity|]. split; reflexivity. Qed.
  Lemma dlaset_lower_wrong (alpha beta x : F) : alpha <> x -> exists r,
    dlaset 76 2 2 alpha beta (mkFA [x; x; x; x] 2 2 x) = Ok r /\ ent r 2 1 = Some x /\ ent r 1 2 = Some alpha.
  Proof. intros H. eexists. split; [reflexivity|]. split; reflexivity. Qed.
  Lemma dlaset_lower_case (alpha beta x : F) : alpha <> x -> exists r,
    dlaset 117 2 2 alpha beta (mkFA [x; x; x; x] 2 2 x) = Ok r /\ ent r 2 1 = Some alpha /\ ent r 1 2 = Some alpha.
  Proof. intros H. eexists. split; [reflexivity|]. split; reflexivity. Qed.
  (** m = 1, n = 2 in a 2-by-2 array: row 2 is written *)
  Lemma dlaset_outside (alpha beta x : F) : exists r,
    dlaset 76 1 2 alpha beta (mkFA [x; x; x; x] 2 2 x) = Ok r /\ ent r 2 2 = Some alpha.
  Proof. eexists. split; reflexivity. Qed.
  Lemma dlacpy_upper_wrong (x y : F) : exists r,
    dlacpy 85 2 2 (mkFA [y; y; y; y] 2 2 x) 2 (mkFA [x; x; x; x] 2 2 x) 2 = Ok r /\ ent r 1 2 = Some x /\ ent r 2 1 = Some y.
  Proof. eexists. split; [reflexivity|]. split; reflexivity. Qed.
  Lemma dlacpy_lower_wrong (x y : F) : exists r,
    dlacpy 76 2 2 (mkFA [y; y; y; y] 2 2 x) 2 (mkFA [x; x; x; x] 2 2 x) 2 = Ok r /\ ent r 2 1 = Some x /\ ent r 1 2 = Some y.
  Proof. eexists. split; [reflexivity|]. split; reflexivity. Qed.
  Lemma dlacpy_outside (x y : F) : exists r,
    dlacpy 76 1 2 (mkFA [y; y; y; y] 2 2 x) 2 (mkFA [x; x; x; x] 2 2 x) 2 = Ok r /\ ent r 2 2 = Some y.
  Proof. eexists. split; reflexivity. Qed.
End Nested.
