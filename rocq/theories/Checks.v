(** A chain of argument checks against its table. *)
From Coq Require Import Ascii.
From Verif Require Import Base Blas SpecBlas LsameProofs.

Fixpoint scan (t : list (Z * bool)) : Z :=
  match t with
  | [] => 0
  | (i, b) :: t' => if b then i else scan t'
  end.

Definition matches (c : Z * bool) (q : Z * Prop) : Prop :=
  fst c = fst q /\ fst c <> 0 /\ (snd c = true <-> snd q).

Lemma scan_none bt pt : Forall2 matches bt pt -> (scan bt = 0 <-> none_bad pt).
Proof.
  induction 1 as [|[i b] [i' P] bt pt (E & N & I) _ IH]; cbn in *; subst.
  - split; [constructor|reflexivity].
  - destruct b.
    + split; [congruence|]. intros H. inversion H; subst. cbn in *. tauto.
    + rewrite IH. split; [intros; constructor; cbn; [intros HP; apply I in HP; discriminate|assumption]|intros H; inversion H; assumption].
Qed.
Lemma scan_first bt pt i : Forall2 matches bt pt -> i <> 0 -> (scan bt = i <-> first_bad pt i).
Proof.
  intros H Hi. induction H as [|[k b] [k' P] bt pt (E & N & I) Hf IH]; cbn in *; subst.
  - split; [congruence|]. intros (pre & P & post & E & _). destruct pre; discriminate.
  - destruct b.
    + split.
      * intros <-. exists [], P, pt. repeat split; [apply I; reflexivity|constructor].
      * intros (pre & Q & post & E & HQ & Hpre). destruct pre as [|[k1 P1] pre]; cbn in E; inversion E; subst; [reflexivity|].
        inversion Hpre; subst. cbn in *. tauto.
    + rewrite IH. split.
      * intros (pre & Q & post & -> & HQ & Hpre). exists ((k', P) :: pre), Q, post. repeat split; auto.
        constructor; auto. cbn. intros HP. apply I in HP. discriminate.
      * intros (pre & Q & post & E & HQ & Hpre). destruct pre as [|[k1 P1] pre]; cbn in E; inversion E; subst.
        { apply I in HQ. discriminate. }
        exists pre, Q, post. inversion Hpre; subst. auto.
Qed.

Lemma letterb c L : 0 <= L < 256 -> (lsame c L = true <-> letter c L).
Proof. apply lsame_letter. Qed.

Lemma gemm_checks transa transb m n k lda ldb ldc :
  exists bt, dgemm_info transa transb m n k lda ldb ldc = scan bt /\
             Forall2 matches bt (gemm_table transa transb m n k lda ldb ldc).
Proof.
  eexists [(1, _); (2, _); (3, _); (4, _); (5, _); (8, _); (10, _); (13, _)]. split; [reflexivity|].
  assert (N : forall c, lsame c (chr "N") = true <-> letter c LN) by (intros; apply (letterb c LN); unfold LN; lia).
  assert (C : forall c, lsame c (chr "C") = true <-> letter c LC) by (intros; apply (letterb c LC); unfold LC; lia).
  assert (T : forall c, lsame c (chr "T") = true <-> letter c LT) by (intros; apply (letterb c LT); unfold LT; lia).
  unfold gemm_table. repeat (apply Forall2_cons; [split; [reflexivity|split; [discriminate|cbn [fst snd]]]|]); try apply Forall2_nil;
    rewrite ?andb_true_iff, ?negb_true_iff, ?Z.ltb_lt, <- ?N, <- ?C, <- ?T, ?not_true_iff_false; try tauto.
  - destruct (lsame transa (chr "N")); split; intros H; auto; destruct H as [[? ?]|[? ?]]; congruence || assumption.
  - destruct (lsame transb (chr "N")); split; intros H; auto; destruct H as [[? ?]|[? ?]]; congruence || assumption.
Qed.

Lemma trmm_checks side uplo transa diag m n lda ldb :
  exists bt, dtrmm_info side uplo transa diag m n lda ldb = scan bt /\
             Forall2 matches bt (trmm_table side uplo transa diag m n lda ldb).
Proof.
  eexists [(1, _); (2, _); (3, _); (4, _); (5, _); (6, _); (9, _); (11, _)]. split; [reflexivity|].
  assert (N : forall c, lsame c (chr "N") = true <-> letter c LN) by (intros; apply (letterb c LN); unfold LN; lia).
  assert (C : forall c, lsame c (chr "C") = true <-> letter c LC) by (intros; apply (letterb c LC); unfold LC; lia).
  assert (T : forall c, lsame c (chr "T") = true <-> letter c LT) by (intros; apply (letterb c LT); unfold LT; lia).
  assert (L : forall c, lsame c (chr "L") = true <-> letter c LL) by (intros; apply (letterb c LL); unfold LL; lia).
  assert (R : forall c, lsame c (chr "R") = true <-> letter c LR) by (intros; apply (letterb c LR); unfold LR; lia).
  assert (U : forall c, lsame c (chr "U") = true <-> letter c LU) by (intros; apply (letterb c LU); unfold LU; lia).
  unfold trmm_table. repeat (apply Forall2_cons; [split; [reflexivity|split; [discriminate|cbn [fst snd]]]|]); try apply Forall2_nil;
    rewrite ?andb_true_iff, ?negb_true_iff, ?Z.ltb_lt, <- ?N, <- ?C, <- ?T, <- ?L, <- ?R, <- ?U, ?not_true_iff_false; try tauto.
  - destruct (lsame side (chr "L")); split; intros H; auto; destruct H as [[? ?]|[? ?]]; congruence || assumption.
Qed.
