(** dlahqr's array loops over exact reals. *)
From Flocq Require Import Core.
From Coq Require Import Reals Lra.
From Verif Require Import Base Num Array Blas Lapack Dlahqr Spec ER SpecR SpecSim Lists FaLemmas RsumLemmas RealMat SimArray LahqrProofs.
Open Scope R_scope.

Section Ops.
  Context (n : Z).
  Ltac zcase := repeat match goal with
    | |- context [(?a =? ?b)%Z] => destruct (Z.eqb_spec a b); try (exfalso; lia)
    end.
  Lemma set2_rows (h : fa er) i j x : (n <= rows h)%Z -> (n <= rows (set2 h i j x))%Z.
  Proof. intros. rewrite (proj1 (set2_shape _ _ _ _)). assumption. Qed.

  Lemma hq_right3_is h M c v2 v3 t j : mat_is h n n M -> (n <= rows h)%Z -> (1 <= j <= n)%Z -> (1 <= c)%Z -> (c + 2 <= n)%Z ->
    mat_is (right3 c (Fin v2) (Fin v3) (Fin t) (Fin (t * v2)) (Fin (t * v3)) j h) n n (row_only j (rright c v2 v3 t M) M).
  Proof.
    intros H Hr Hj Hc Hn. unfold right3. cbv zeta. rewrite !(mat_get n h M) by (assumption || lia). rewrite !er_mulE, !er_addE, !er_mulE, !er_subE.
    set (s := M j c + v2 * M j (c + 1)%Z + v3 * M j (c + 2)%Z).
    pose proof (mat_set2 n h M j c (M j c - s * t) H Hr Hj ltac:(lia)) as H1.
    rewrite (mat_get n _ _ j (c + 1) H1) by lia. rewrite rupd_other by lia. rewrite er_subE.
    pose proof (mat_set2 n _ _ j (c + 1) (M j (c + 1)%Z - s * (t * v2)) H1 ltac:(apply set2_rows; exact Hr) Hj ltac:(lia)) as H2.
    rewrite (mat_get n _ _ j (c + 2) H2) by lia. rewrite !rupd_other by lia. rewrite er_subE.
    pose proof (mat_set2 n _ _ j (c + 2) (M j (c + 2)%Z - s * (t * v3)) H2 ltac:(do 2 apply set2_rows; exact Hr) Hj ltac:(lia)) as H3.
    refine (mat_ext n _ _ _ _ H3). intros a b Ha Hb. unfold rupd, row_only, rright, wvec. fold s.
    destruct (Z.eqb_spec a j) as [->|]; cbn [andb]; [|reflexivity]. fold s. zcase; subst; try ring.
  Qed.
  Lemma hq_left3_is h M c v2 v3 t j : mat_is h n n M -> (n <= rows h)%Z -> (1 <= j <= n)%Z -> (1 <= c)%Z -> (c + 2 <= n)%Z ->
    mat_is (left3 c (Fin v2) (Fin v3) (Fin t) (Fin (t * v2)) (Fin (t * v3)) j h) n n (col_only j (rleft c v2 v3 t M) M).
  Proof.
    intros H Hr Hj Hc Hn. unfold left3. cbv zeta. rewrite !(mat_get n h M) by (assumption || lia). rewrite !er_mulE, !er_addE, !er_mulE, !er_subE.
    set (s := M c j + v2 * M (c + 1)%Z j + v3 * M (c + 2)%Z j).
    pose proof (mat_set2 n h M c j (M c j - s * t) H Hr ltac:(lia) ltac:(lia)) as H1.
    rewrite (mat_get n _ _ (c + 1) j H1) by lia. rewrite rupd_other by lia. rewrite er_subE.
    pose proof (mat_set2 n _ _ (c + 1) j (M (c + 1)%Z j - s * (t * v2)) H1 ltac:(apply set2_rows; exact Hr) ltac:(lia) ltac:(lia)) as H2.
    rewrite (mat_get n _ _ (c + 2) j H2) by lia. rewrite !rupd_other by lia. rewrite er_subE.
    pose proof (mat_set2 n _ _ (c + 2) j (M (c + 2)%Z j - s * (t * v3)) H2 ltac:(do 2 apply set2_rows; exact Hr) ltac:(lia) ltac:(lia)) as H3.
    refine (mat_ext n _ _ _ _ H3). intros a b Ha Hb. unfold rupd, col_only, rleft, wvec.
    destruct (Z.eqb_spec b j) as [->|]; rewrite ?andb_false_r, ?andb_true_r; [|reflexivity]. fold s. zcase; subst; try ring.
  Qed.
  Lemma hq_right2_is h M c v2 t j : mat_is h n n M -> (n <= rows h)%Z -> (1 <= j <= n)%Z -> (1 <= c)%Z -> (c + 1 <= n)%Z ->
    mat_is (right2 c (Fin v2) (Fin t) (Fin (t * v2)) j h) n n (row_only j (rright c v2 0 t M) M).
  Proof.
    intros H Hr Hj Hc Hn. unfold right2. cbv zeta. rewrite !(mat_get n h M) by (assumption || lia). rewrite !er_mulE, !er_addE, !er_mulE, !er_subE.
    set (s := M j c + v2 * M j (c + 1)%Z).
    pose proof (mat_set2 n h M j c (M j c - s * t) H Hr Hj ltac:(lia)) as H1.
    rewrite (mat_get n _ _ j (c + 1) H1) by lia. rewrite rupd_other by lia. rewrite er_subE.
    pose proof (mat_set2 n _ _ j (c + 1) (M j (c + 1)%Z - s * (t * v2)) H1 ltac:(apply set2_rows; exact Hr) Hj ltac:(lia)) as H2.
    refine (mat_ext n _ _ _ _ H2). intros a b Ha Hb. unfold rupd, row_only, rright, wvec.
    destruct (Z.eqb_spec a j) as [->|]; cbn [andb]; [|reflexivity]. unfold s. zcase; subst; try ring.
  Qed.
  Lemma hq_left2_is h M c v2 t j : mat_is h n n M -> (n <= rows h)%Z -> (1 <= j <= n)%Z -> (1 <= c)%Z -> (c + 1 <= n)%Z ->
    mat_is (left2 c (Fin v2) (Fin t) (Fin (t * v2)) j h) n n (col_only j (rleft c v2 0 t M) M).
  Proof.
    intros H Hr Hj Hc Hn. unfold left2. cbv zeta. rewrite !(mat_get n h M) by (assumption || lia). rewrite !er_mulE, !er_addE, !er_mulE, !er_subE.
    set (s := M c j + v2 * M (c + 1)%Z j).
    pose proof (mat_set2 n h M c j (M c j - s * t) H Hr ltac:(lia) ltac:(lia)) as H1.
    rewrite (mat_get n _ _ (c + 1) j H1) by lia. rewrite rupd_other by lia. rewrite er_subE.
    pose proof (mat_set2 n _ _ (c + 1) j (M (c + 1)%Z j - s * (t * v2)) H1 ltac:(apply set2_rows; exact Hr) ltac:(lia) ltac:(lia)) as H2.
    refine (mat_ext n _ _ _ _ H2). intros a b Ha Hb. unfold rupd, col_only, rleft, wvec.
    destruct (Z.eqb_spec b j) as [->|]; rewrite ?andb_false_r, ?andb_true_r; [|reflexivity]. unfold s. zcase; subst; try ring.
  Qed.

  Lemma hq_right3_loop h M c v2 v3 t lo hi : mat_is h n n M -> (n <= rows h)%Z -> (1 <= lo)%Z -> (hi <= n)%Z -> (1 <= c)%Z -> (c + 2 <= n)%Z ->
    let h' := for_ (range lo hi) h (right3 c (Fin v2) (Fin v3) (Fin t) (Fin (t * v2)) (Fin (t * v3))) in
    mat_is h' n n (rows_only lo hi (rright c v2 v3 t M) M) /\ same_shape h' h.
  Proof.
    intros. apply rows_loop; try assumption; [apply rright_row|intros; apply right3_shape|intros; apply hq_right3_is; lia || assumption].
  Qed.
  Lemma hq_left3_loop h M c v2 v3 t lo hi : mat_is h n n M -> (n <= rows h)%Z -> (1 <= lo)%Z -> (hi <= n)%Z -> (1 <= c)%Z -> (c + 2 <= n)%Z ->
    let h' := for_ (range lo hi) h (left3 c (Fin v2) (Fin v3) (Fin t) (Fin (t * v2)) (Fin (t * v3))) in
    mat_is h' n n (cols_only lo hi (rleft c v2 v3 t M) M) /\ same_shape h' h.
  Proof.
    intros. apply cols_loop; try assumption; [apply rleft_col|intros; apply left3_shape|intros; apply hq_left3_is; lia || assumption].
  Qed.
  Lemma hq_right2_loop h M c v2 t lo hi : mat_is h n n M -> (n <= rows h)%Z -> (1 <= lo)%Z -> (hi <= n)%Z -> (1 <= c)%Z -> (c + 1 <= n)%Z ->
    let h' := for_ (range lo hi) h (right2 c (Fin v2) (Fin t) (Fin (t * v2))) in
    mat_is h' n n (rows_only lo hi (rright c v2 0 t M) M) /\ same_shape h' h.
  Proof.
    intros. apply rows_loop; try assumption; [apply rright_row|intros; apply right2_shape|intros; apply hq_right2_is; lia || assumption].
  Qed.
  Lemma hq_left2_loop h M c v2 t lo hi : mat_is h n n M -> (n <= rows h)%Z -> (1 <= lo)%Z -> (hi <= n)%Z -> (1 <= c)%Z -> (c + 1 <= n)%Z ->
    let h' := for_ (range lo hi) h (left2 c (Fin v2) (Fin t) (Fin (t * v2))) in
    mat_is h' n n (cols_only lo hi (rleft c v2 0 t M) M) /\ same_shape h' h.
  Proof.
    intros. apply cols_loop; try assumption; [apply rleft_col|intros; apply left2_shape|intros; apply hq_left2_is; lia || assumption].
  Qed.
End Ops.
