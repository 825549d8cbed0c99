(** Reflectors applied to arrays of exact reals (dlaqr5's loops). *)
From Coq Require Import Reals Lra.
From Verif Require Import Base Num Array Blas Lapack Dlaqr5 Spec ER SpecR SpecSim Lists FaLemmas RsumLemmas RealMat Laqr5Proofs.
Open Scope R_scope.

Definition rupd (M : Z -> Z -> R) (i j : Z) (x : R) (a b : Z) : R := if ((a =? i) && (b =? j))%Z then x else M a b.
Lemma rupd_same M i j x : rupd M i j x i j = x.
Proof. unfold rupd. rewrite !Z.eqb_refl. reflexivity. Qed.
Lemma rupd_other M i j x a b : (a <> i \/ b <> j)%Z -> rupd M i j x a b = M a b.
Proof. intros H. unfold rupd. destruct (Z.eqb_spec a i), (Z.eqb_spec b j); cbn; try reflexivity. lia. Qed.

Section ArrayOps.
  Context (n : Z).

  Lemma mat_ext h M M' : (forall i j, (1 <= i <= n)%Z -> (1 <= j <= n)%Z -> M i j = M' i j) -> mat_is h n n M -> mat_is h n n M'.
  Proof. intros E H i j Hi Hj. rewrite <- E by assumption. apply H; assumption. Qed.
  Lemma mat_get h M i j : mat_is h n n M -> (1 <= i <= n)%Z -> (1 <= j <= n)%Z -> get2 h i j = Fin (M i j).
  Proof. intros H Hi Hj. apply get2_Some. apply H; assumption. Qed.
  Lemma mat_mod2 h M i j (g : er -> er) x : mat_is h n n M -> (n <= rows h)%Z -> (1 <= i <= n)%Z -> (1 <= j <= n)%Z -> g (Fin (M i j)) = Fin x ->
    mat_is (mod2 h i j g) n n (rupd M i j x).
  Proof.
    intros H Hr Hi Hj E a b Ha Hb. rewrite mod2_ent by lia. unfold rupd.
    destruct (Z.eqb_spec a i) as [->|], (Z.eqb_spec b j) as [->|]; cbn; try (apply H; assumption).
    rewrite (H i j) by assumption. cbn. rewrite E. reflexivity.
  Qed.
  Lemma mat_set2 h M i j x : mat_is h n n M -> (n <= rows h)%Z -> (1 <= i <= n)%Z -> (1 <= j <= n)%Z ->
    mat_is (set2 h i j (Fin x)) n n (rupd M i j x).
  Proof. intros. apply mat_mod2; auto. Qed.

  Definition row_only (r : Z) (M' M : Z -> Z -> R) (a b : Z) : R := if (a =? r)%Z then M' a b else M a b.
  Definition col_only (r : Z) (M' M : Z -> Z -> R) (a b : Z) : R := if (b =? r)%Z then M' a b else M a b.
  Definition rows_only (lo hi : Z) (M' M : Z -> Z -> R) (a b : Z) : R := if ((lo <=? a) && (a <=? hi))%Z then M' a b else M a b.
  Definition cols_only (lo hi : Z) (M' M : Z -> Z -> R) (a b : Z) : R := if ((lo <=? b) && (b <=? hi))%Z then M' a b else M a b.

  Ltac zcase := repeat match goal with
    | |- context [(?a =? ?b)%Z] => destruct (Z.eqb_spec a b); try (exfalso; lia)
    end.

  Lemma right3_is h M c v2 v3 t j : mat_is h n n M -> (n <= rows h)%Z -> (1 <= j <= n)%Z -> (1 <= c)%Z -> (c + 2 <= n)%Z ->
    mat_is (q5_right3 c (Fin v2) (Fin v3) (Fin t) (Fin (t * v2)) (Fin (t * v3)) j h) n n (row_only j (rright c v2 v3 t M) M).
  Proof.
    intros H Hr Hj Hc Hn. unfold q5_right3. rewrite !(mat_get h M) by (assumption || lia). rewrite !er_mulE, !er_addE.
    set (s := M j c + v2 * M j (c + 1)%Z + v3 * M j (c + 2)%Z).
    pose proof (mat_mod2 h M j c (fun x => fsub x (fmul (Fin s) (Fin t))) (M j c - s * t) H Hr Hj ltac:(lia) eq_refl) as H1.
    match type of H1 with mat_is ?f _ _ _ => assert (R1 : (n <= rows f)%Z) by (rewrite (proj1 (mod2_shape _ _ _ _)); exact Hr) end.
    pose proof (mat_mod2 _ _ j (c + 1) (fun x => fsub x (fmul (Fin s) (Fin (t * v2)))) (M j (c + 1)%Z - s * (t * v2)) H1 R1 Hj ltac:(lia)
      ltac:(rewrite rupd_other by lia; reflexivity)) as H2.
    match type of H2 with mat_is ?f _ _ _ => assert (R2 : (n <= rows f)%Z) by (rewrite (proj1 (mod2_shape _ _ _ _)); exact R1) end.
    pose proof (mat_mod2 _ _ j (c + 2) (fun x => fsub x (fmul (Fin s) (Fin (t * v3)))) (M j (c + 2)%Z - s * (t * v3)) H2 R2 Hj ltac:(lia)
      ltac:(rewrite !rupd_other by lia; reflexivity)) as H3.
    refine (mat_ext _ _ _ _ H3). intros a b Ha Hb. unfold rupd, row_only, rright, wvec. fold s.
    destruct (Z.eqb_spec a j) as [->|]; cbn [andb]; [|reflexivity]. fold s. zcase; subst; try ring.
  Qed.
  Lemma left3_is h M c v2 v3 t j : mat_is h n n M -> (n <= rows h)%Z -> (1 <= j <= n)%Z -> (1 <= c)%Z -> (c + 2 <= n)%Z ->
    mat_is (q5_left3 c (Fin v2) (Fin v3) (Fin t) (Fin (t * v2)) (Fin (t * v3)) j h) n n (col_only j (rleft c v2 v3 t M) M).
  Proof.
    intros H Hr Hj Hc Hn. unfold q5_left3. rewrite !(mat_get h M) by (assumption || lia). rewrite !er_mulE, !er_addE.
    set (s := M c j + v2 * M (c + 1)%Z j + v3 * M (c + 2)%Z j).
    pose proof (mat_mod2 h M c j (fun x => fsub x (fmul (Fin s) (Fin t))) (M c j - s * t) H Hr ltac:(lia) ltac:(lia) eq_refl) as H1.
    match type of H1 with mat_is ?f _ _ _ => assert (R1 : (n <= rows f)%Z) by (rewrite (proj1 (mod2_shape _ _ _ _)); exact Hr) end.
    pose proof (mat_mod2 _ _ (c + 1) j (fun x => fsub x (fmul (Fin s) (Fin (t * v2)))) (M (c + 1)%Z j - s * (t * v2)) H1 R1 ltac:(lia) ltac:(lia)
      ltac:(rewrite rupd_other by lia; reflexivity)) as H2.
    match type of H2 with mat_is ?f _ _ _ => assert (R2 : (n <= rows f)%Z) by (rewrite (proj1 (mod2_shape _ _ _ _)); exact R1) end.
    pose proof (mat_mod2 _ _ (c + 2) j (fun x => fsub x (fmul (Fin s) (Fin (t * v3)))) (M (c + 2)%Z j - s * (t * v3)) H2 R2 ltac:(lia) ltac:(lia)
      ltac:(rewrite !rupd_other by lia; reflexivity)) as H3.
    refine (mat_ext _ _ _ _ H3). intros a b Ha Hb. unfold rupd, col_only, rleft, wvec.
    destruct (Z.eqb_spec b j) as [->|]; rewrite ?andb_false_r, ?andb_true_r; [|reflexivity]. fold s. zcase; subst; try ring.
  Qed.
  Lemma right2_is h M c v2 t j : mat_is h n n M -> (n <= rows h)%Z -> (1 <= j <= n)%Z -> (1 <= c)%Z -> (c + 1 <= n)%Z ->
    mat_is (q5_right2 c (Fin v2) (Fin t) (Fin (t * v2)) j h) n n (row_only j (rright c v2 0 t M) M).
  Proof.
    intros H Hr Hj Hc Hn. unfold q5_right2. rewrite !(mat_get h M) by (assumption || lia). rewrite !er_mulE, !er_addE.
    set (s := M j c + v2 * M j (c + 1)%Z).
    pose proof (mat_mod2 h M j c (fun x => fsub x (fmul (Fin s) (Fin t))) (M j c - s * t) H Hr Hj ltac:(lia) eq_refl) as H1.
    match type of H1 with mat_is ?f _ _ _ => assert (R1 : (n <= rows f)%Z) by (rewrite (proj1 (mod2_shape _ _ _ _)); exact Hr) end.
    pose proof (mat_mod2 _ _ j (c + 1) (fun x => fsub x (fmul (Fin s) (Fin (t * v2)))) (M j (c + 1)%Z - s * (t * v2)) H1 R1 Hj ltac:(lia)
      ltac:(rewrite rupd_other by lia; reflexivity)) as H2.
    refine (mat_ext _ _ _ _ H2). intros a b Ha Hb. unfold rupd, row_only, rright, wvec.
    destruct (Z.eqb_spec a j) as [->|]; cbn [andb]; [|reflexivity]. unfold s. zcase; subst; try ring.
  Qed.
  Lemma left2_is h M c v2 t j : mat_is h n n M -> (n <= rows h)%Z -> (1 <= j <= n)%Z -> (1 <= c)%Z -> (c + 1 <= n)%Z ->
    mat_is (q5_left2 c (Fin v2) (Fin t) (Fin (t * v2)) j h) n n (col_only j (rleft c v2 0 t M) M).
  Proof.
    intros H Hr Hj Hc Hn. unfold q5_left2. rewrite !(mat_get h M) by (assumption || lia). rewrite !er_mulE, !er_addE.
    set (s := M c j + v2 * M (c + 1)%Z j).
    pose proof (mat_mod2 h M c j (fun x => fsub x (fmul (Fin s) (Fin t))) (M c j - s * t) H Hr ltac:(lia) ltac:(lia) eq_refl) as H1.
    match type of H1 with mat_is ?f _ _ _ => assert (R1 : (n <= rows f)%Z) by (rewrite (proj1 (mod2_shape _ _ _ _)); exact Hr) end.
    pose proof (mat_mod2 _ _ (c + 1) j (fun x => fsub x (fmul (Fin s) (Fin (t * v2)))) (M (c + 1)%Z j - s * (t * v2)) H1 R1 ltac:(lia) ltac:(lia)
      ltac:(rewrite rupd_other by lia; reflexivity)) as H2.
    refine (mat_ext _ _ _ _ H2). intros a b Ha Hb. unfold rupd, col_only, rleft, wvec.
    destruct (Z.eqb_spec b j) as [->|]; rewrite ?andb_false_r, ?andb_true_r; [|reflexivity]. unfold s. zcase; subst; try ring.
  Qed.

  (** loops over rows (columns): each step transforms its own row (column) by an operation that works row by row *)
  Definition row_wise (T : (Z -> Z -> R) -> Z -> Z -> R) : Prop :=
    forall M M' a, (forall b, M a b = M' a b) -> forall b, T M a b = T M' a b.
  Definition col_wise (T : (Z -> Z -> R) -> Z -> Z -> R) : Prop :=
    forall M M' b, (forall a, M a b = M' a b) -> forall a, T M a b = T M' a b.
  Lemma rright_row c v2 v3 t : row_wise (rright c v2 v3 t).
  Proof. intros M M' a E b. unfold rright. rewrite !E. reflexivity. Qed.
  Lemma rleft_col c v2 v3 t : col_wise (rleft c v2 v3 t).
  Proof. intros M M' a E b. unfold rleft. rewrite !E. reflexivity. Qed.

  Lemma rows_loop T (body : Z -> fa er -> fa er) lo hi h M : row_wise T -> mat_is h n n M -> (n <= rows h)%Z -> (1 <= lo)%Z -> (hi <= n)%Z ->
    (forall j g, same_shape (body j g) g) ->
    (forall j g N, (lo <= j <= hi)%Z -> mat_is g n n N -> (n <= rows g)%Z -> mat_is (body j g) n n (row_only j (T N) N)) ->
    mat_is (for_ (range lo hi) h body) n n (rows_only lo hi (T M) M) /\ same_shape (for_ (range lo hi) h body) h.
  Proof.
    intros HT H Hr Hlo Hhi Sh Hb.
    split; [|apply for_shape; auto].
    destruct (Z_lt_le_dec hi lo).
    { rewrite range_nil, for_nil by lia. refine (mat_ext _ _ _ _ H). intros a b _ _. unfold rows_only.
      destruct (Z.leb_spec lo a), (Z.leb_spec a hi); cbn; auto; lia. }
    enough (G : mat_is (for_ (range lo hi) h body) n n (rows_only lo (hi + 1 - 1) (T M) M) /\ (n <= rows (for_ (range lo hi) h body))%Z).
    { replace (hi + 1 - 1)%Z with hi in G by lia. apply G. }
    apply (for_range_ind (fun k g => mat_is g n n (rows_only lo (k - 1) (T M) M) /\ (n <= rows g)%Z)).
    - lia.
    - split; [|exact Hr]. refine (mat_ext _ _ _ _ H). intros a b _ _. unfold rows_only.
      destruct (Z.leb_spec lo a), (Z.leb_spec a (lo - 1)); cbn; auto; lia.
    - intros j g Hj [Hg Rg]. split; [|rewrite (proj1 (Sh j g)); exact Rg].
      refine (mat_ext _ _ _ _ (Hb j g _ Hj Hg Rg)). intros a b _ _. unfold row_only, rows_only.
      destruct (Z.eqb_spec a j) as [->|].
      + destruct (Z.leb_spec lo j), (Z.leb_spec j (j + 1 - 1)); cbn; try lia. apply HT. intros b'. unfold rows_only.
        destruct (Z.leb_spec lo j), (Z.leb_spec j (j - 1)); cbn; auto; lia.
      + destruct (Z.leb_spec lo a), (Z.leb_spec a (j - 1)), (Z.leb_spec a (j + 1 - 1)); cbn; auto; lia.
  Qed.
  Lemma cols_loop T (body : Z -> fa er -> fa er) lo hi h M : col_wise T -> mat_is h n n M -> (n <= rows h)%Z -> (1 <= lo)%Z -> (hi <= n)%Z ->
    (forall j g, same_shape (body j g) g) ->
    (forall j g N, (lo <= j <= hi)%Z -> mat_is g n n N -> (n <= rows g)%Z -> mat_is (body j g) n n (col_only j (T N) N)) ->
    mat_is (for_ (range lo hi) h body) n n (cols_only lo hi (T M) M) /\ same_shape (for_ (range lo hi) h body) h.
  Proof.
    intros HT H Hr Hlo Hhi Sh Hb.
    split; [|apply for_shape; auto].
    destruct (Z_lt_le_dec hi lo).
    { rewrite range_nil, for_nil by lia. refine (mat_ext _ _ _ _ H). intros a b _ _. unfold cols_only.
      destruct (Z.leb_spec lo b), (Z.leb_spec b hi); cbn; auto; lia. }
    enough (G : mat_is (for_ (range lo hi) h body) n n (cols_only lo (hi + 1 - 1) (T M) M) /\ (n <= rows (for_ (range lo hi) h body))%Z).
    { replace (hi + 1 - 1)%Z with hi in G by lia. apply G. }
    apply (for_range_ind (fun k g => mat_is g n n (cols_only lo (k - 1) (T M) M) /\ (n <= rows g)%Z)).
    - lia.
    - split; [|exact Hr]. refine (mat_ext _ _ _ _ H). intros a b _ _. unfold cols_only.
      destruct (Z.leb_spec lo b), (Z.leb_spec b (lo - 1)); cbn; auto; lia.
    - intros j g Hj [Hg Rg]. split; [|rewrite (proj1 (Sh j g)); exact Rg].
      refine (mat_ext _ _ _ _ (Hb j g _ Hj Hg Rg)). intros a b _ _. unfold col_only, cols_only.
      destruct (Z.eqb_spec b j) as [->|].
      + destruct (Z.leb_spec lo j), (Z.leb_spec j (j + 1 - 1)); cbn; try lia. apply HT. intros b'. unfold cols_only.
        destruct (Z.leb_spec lo j), (Z.leb_spec j (j - 1)); cbn; auto; lia.
      + destruct (Z.leb_spec lo b), (Z.leb_spec b (j - 1)), (Z.leb_spec b (j + 1 - 1)); cbn; auto; lia.
  Qed.

  Lemma right3_loop h M c v2 v3 t lo hi : mat_is h n n M -> (n <= rows h)%Z -> (1 <= lo)%Z -> (hi <= n)%Z -> (1 <= c)%Z -> (c + 2 <= n)%Z ->
    let h' := for_ (range lo hi) h (q5_right3 c (Fin v2) (Fin v3) (Fin t) (Fin (t * v2)) (Fin (t * v3))) in
    mat_is h' n n (rows_only lo hi (rright c v2 v3 t M) M) /\ same_shape h' h.
  Proof.
    intros. apply rows_loop; try assumption; [apply rright_row|intros; apply q5_right3_shape|intros; apply right3_is; lia || assumption].
  Qed.
  Lemma left3_loop h M c v2 v3 t lo hi : mat_is h n n M -> (n <= rows h)%Z -> (1 <= lo)%Z -> (hi <= n)%Z -> (1 <= c)%Z -> (c + 2 <= n)%Z ->
    let h' := for_ (range lo hi) h (q5_left3 c (Fin v2) (Fin v3) (Fin t) (Fin (t * v2)) (Fin (t * v3))) in
    mat_is h' n n (cols_only lo hi (rleft c v2 v3 t M) M) /\ same_shape h' h.
  Proof.
    intros. apply cols_loop; try assumption; [apply rleft_col|intros; apply q5_left3_shape|intros; apply left3_is; lia || assumption].
  Qed.
  Lemma right2_loop h M c v2 t lo hi : mat_is h n n M -> (n <= rows h)%Z -> (1 <= lo)%Z -> (hi <= n)%Z -> (1 <= c)%Z -> (c + 1 <= n)%Z ->
    let h' := for_ (range lo hi) h (q5_right2 c (Fin v2) (Fin t) (Fin (t * v2))) in
    mat_is h' n n (rows_only lo hi (rright c v2 0 t M) M) /\ same_shape h' h.
  Proof.
    intros. apply rows_loop; try assumption; [apply rright_row|intros; apply q5_right2_shape|intros; apply right2_is; lia || assumption].
  Qed.
  Lemma left2_loop h M c v2 t lo hi : mat_is h n n M -> (n <= rows h)%Z -> (1 <= lo)%Z -> (hi <= n)%Z -> (1 <= c)%Z -> (c + 1 <= n)%Z ->
    let h' := for_ (range lo hi) h (q5_left2 c (Fin v2) (Fin t) (Fin (t * v2))) in
    mat_is h' n n (cols_only lo hi (rleft c v2 0 t M) M) /\ same_shape h' h.
  Proof.
    intros. apply cols_loop; try assumption; [apply rleft_col|intros; apply q5_left2_shape|intros; apply left2_is; lia || assumption].
  Qed.
End ArrayOps.
