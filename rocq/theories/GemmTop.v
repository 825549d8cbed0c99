(** dgemm at the level of its containers, and in exact arithmetic. *)
From Coq Require Import Ascii Reals Lra.
From Flocq Require Import Core.
From Verif Require Import Base Num Array Blas Spec SpecBlas Lists FaLemmas MatLemmas LsameProofs GemmProofs Checks
  ER SpecR RsumLemmas.
Open Scope Z_scope.

Lemma none_bad_bounds transa transb m n k lda ldb ldc :
  none_bad (gemm_table transa transb m n k lda ldb ldc) ->
  0 <= m /\ 0 <= n /\ 0 <= k /\ 1 <= lda /\ 1 <= ldb /\ 1 <= ldc /\ m <= ldc.
Proof.
  unfold none_bad, gemm_table. rewrite !Forall_cons_iff. cbn [snd].
  intros (_ & _ & H3 & H4 & H5 & H8 & H10 & H13 & _).
  assert (letter transa LN \/ ~ letter transa LN) as Da by (unfold letter; lia).
  assert (letter transb LN \/ ~ letter transb LN) as Db by (unfold letter; lia).
  assert (~ lda < Z.max 1 m \/ ~ lda < Z.max 1 k) by tauto.
  assert (~ ldb < Z.max 1 k \/ ~ ldb < Z.max 1 n) by tauto.
  clear H8 H10 Da Db. lia.
Qed.

Section GemmTop.
  Context {F : Type} {NF : Num F}.
  Context {A B C : Type} {TA : ToFA F A} {TB : ToFA F B} {TC : ToFA F C} {FC : FromFA F C}.

  Lemma none_bad_info transa transb m n k lda ldb ldc :
    none_bad (gemm_table transa transb m n k lda ldb ldc) -> dgemm_info transa transb m n k lda ldb ldc = 0.
  Proof.
    destruct (gemm_checks transa transb m n k lda ldb ldc) as (bt & -> & M). intros H. eapply scan_none; eauto.
  Qed.

  Lemma lsame_bool c (b : bool) : (b = true <-> letter c LN) -> lsame c (chr "N") = b.
  Proof.
    intros H. apply eq_true_iff_eq. rewrite H. apply (lsame_letter c LN). unfold LN; lia.
  Qed.

  Lemma dgemm_spec transa transb m n k (alpha : F) (a : A) lda (b : B) ldb beta (c : C) ldc nota notb af bf cf :
    none_bad (gemm_table transa transb m n k lda ldb ldc) ->
    (nota = true <-> letter transa LN) -> (notb = true <-> letter transb LN) ->
    to_fa_2d a lda = Ok af -> to_fa_2d b ldb = Ok bf -> to_fa_2d c ldc = Ok cf -> m <= rows cf ->
    exists c', block_updated m n (gemm_entry nota notb k alpha beta af bf) cf c' /\
      dgemm transa transb m n k alpha a lda b ldb beta c ldc =
        (if (m =? 0) || (n =? 0) || gemm_idle k alpha beta then Ok c else from_fa c') /\
      ((m =? 0) || (n =? 0) || gemm_idle k alpha beta = true -> c' = cf).
  Proof.
    intros V Na Nb Ea Eb Ec Hm.
    assert (Hmn : 0 <= m /\ 0 <= n).
    { apply none_bad_bounds in V. lia. }
    unfold dgemm. rewrite Ea, Eb, Ec. cbn [bind]. rewrite (none_bad_info _ _ _ _ _ _ _ _ V). cbn [negb Z.eqb].
    rewrite (lsame_bool _ _ Na), (lsame_bool _ _ Nb).
    destruct (dgemm_fa_spec nota notb m n k alpha af bf beta cf ltac:(lia) ltac:(lia)) as (c' & U & E & Q).
    exists c'. split; [exact U|]. rewrite E. unfold gemm_quick in *.
    destruct (_ || _); split; auto.
  Qed.

  (** exactly the documented argument errors *)
  Lemma dgemm_exit transa transb m n k (alpha : F) (a : A) lda (b : B) ldb beta (c : C) ldc af bf cf i :
    to_fa_2d a lda = Ok af -> to_fa_2d b ldb = Ok bf -> to_fa_2d c ldc = Ok cf ->
    first_bad (gemm_table transa transb m n k lda ldb ldc) i ->
    dgemm transa transb m n k alpha a lda b ldb beta c ldc = Exit "DGEMM " i.
  Proof.
    intros Ea Eb Ec Hb. unfold dgemm. rewrite Ea, Eb, Ec. cbn [bind].
    destruct (gemm_checks transa transb m n k lda ldb ldc) as (bt & E & M).
    assert (Hi : i <> 0).
    { destruct Hb as (pre & P & post & Et & _).
      assert (I : In (i, P) (gemm_table transa transb m n k lda ldb ldc)) by (rewrite Et; apply in_or_app; right; left; reflexivity).
      intros ->. cbn in I. repeat (destruct I as [I|I]; [inversion I|]). assumption. }
    apply (scan_first _ _ i M Hi) in Hb. rewrite E, Hb.
    destruct (Z.eqb_spec i 0); [contradiction|reflexivity].
  Qed.
  Lemma dgemm_valid transa transb m n k (alpha : F) (a : A) lda (b : B) ldb beta (c : C) ldc af bf cf s i :
    (forall f s i, from_fa (FromFA := FC) f <> Exit s i) ->
    to_fa_2d a lda = Ok af -> to_fa_2d b ldb = Ok bf -> to_fa_2d c ldc = Ok cf ->
    dgemm transa transb m n k alpha a lda b ldb beta c ldc = Exit s i ->
    s = "DGEMM "%string /\ first_bad (gemm_table transa transb m n k lda ldb ldc) i.
  Proof.
    intros HF Ea Eb Ec. unfold dgemm. rewrite Ea, Eb, Ec. cbn [bind].
    destruct (gemm_checks transa transb m n k lda ldb ldc) as (bt & E & M). rewrite E.
    destruct (Z.eqb_spec (scan bt) 0) as [H0|H0]; cbn [negb].
    - intros H. exfalso. destruct (dgemm_fa _ _ _ _ _ _ _ _ _ _) in H; [eapply HF; eauto|discriminate].
    - intros H. inversion H; subst. split; [reflexivity|]. apply (scan_first _ _ _ M H0). reflexivity.
  Qed.

  (** alpha = 0: A and B are not looked at *)
  Lemma dgemm_alpha0 {A' B' : Type} {TA' : ToFA F A'} {TB' : ToFA F B'}
      transa transb m n k (alpha : F) (a : A) (a' : A') lda (b : B) (b' : B') ldb beta (c : C) ldc af bf af' bf' :
    feq alpha f0 = true ->
    to_fa_2d a lda = Ok af -> to_fa_2d b ldb = Ok bf -> to_fa_2d a' lda = Ok af' -> to_fa_2d b' ldb = Ok bf' ->
    dgemm transa transb m n k alpha a lda b ldb beta c ldc =
    dgemm transa transb m n k alpha a' lda b' ldb beta c ldc.
  Proof.
    intros Z Ea Eb Ea' Eb'. unfold dgemm. rewrite Ea, Eb, Ea', Eb'. cbn [bind].
    unfold dgemm_fa. rewrite Z. reflexivity.
  Qed.
End GemmTop.

Section Containers.
  Context {F : Type} {NF : Num F}.

  Lemma dgemm_fortran {A B} {TA : ToFA F A} {TB : ToFA F B}
      transa transb m n k (alpha : F) (a : A) lda (b : B) ldb beta (c : fa F) ldc nota notb af bf :
    none_bad (gemm_table transa transb m n k lda ldb ldc) ->
    (nota = true <-> letter transa LN) -> (notb = true <-> letter transb LN) ->
    to_fa_2d a lda = Ok af -> to_fa_2d b ldb = Ok bf -> m <= rows c ->
    exists c', dgemm transa transb m n k alpha a lda b ldb beta c ldc = Ok c' /\
      block_updated m n (gemm_entry nota notb k alpha beta af bf) c c'.
  Proof.
    intros V Na Nb Ea Eb Hm.
    destruct (dgemm_spec (A := A) (B := B) (C := fa F) (TC := ToFA_fa F) (FC := FromFA_fa F) transa transb m n k alpha a lda b ldb beta c ldc nota notb af bf c V Na Nb Ea Eb eq_refl Hm)
      as (c' & U & E & Q).
    exists c'. split; [|exact U]. rewrite E. destruct (_ || _); [|reflexivity]. rewrite Q; reflexivity.
  Qed.

  Lemma flat_2d ld (l : list F) : ld <> 0 -> to_fa_2d l ld = Ok (flat ld l).
  Proof. intros H. cbn. unfold fa_as_2d, flat. destruct (Z.eqb_spec ld 0); [contradiction|reflexivity]. Qed.

  Lemma dgemm_flat transa transb m n k (alpha : F) (a : list F) lda (b : list F) ldb beta (c : list F) ldc nota notb :
    none_bad (gemm_table transa transb m n k lda ldb ldc) ->
    (nota = true <-> letter transa LN) -> (notb = true <-> letter transb LN) ->
    exists c', dgemm transa transb m n k alpha a lda b ldb beta c ldc = Ok c' /\
      block_updated m n (gemm_entry nota notb k alpha beta (flat lda a) (flat ldb b)) (flat ldc c) (flat ldc c').
  Proof.
    intros V Na Nb.
    assert (L : 1 <= lda /\ 1 <= ldb /\ 1 <= ldc /\ m <= ldc).
    { apply none_bad_bounds in V. lia. }
    destruct (dgemm_spec (A := list F) (B := list F) (C := list F) transa transb m n k alpha a lda b ldb beta c ldc nota notb
                (flat lda a) (flat ldb b) (flat ldc c) V Na Nb)
      as (c' & U & E & Q); try (apply flat_2d; lia); [cbn; lia|].
    exists (data c'). split.
    - rewrite E. destruct (_ || _); [|reflexivity]. rewrite Q; reflexivity.
    - destruct U as ((R & Co & Cn) & U1 & U2). unfold block_updated, same_shape in *.
      unfold ent, elem, count in *. cbn [flat rows cols data] in *. unfold flat in *. cbn [rows cols data] in *.
      rewrite R in *. repeat split; auto. f_equal. exact Cn.
  Qed.

  (** a zero leading dimension of a flat argument panics before it is checked *)
  Lemma dgemm_flat_ld0 transa transb m n k (alpha : F) (a b : list F) ldb beta (c : list F) ldc :
    dgemm transa transb m n k alpha a 0 b ldb beta c ldc = Panic.
  Proof. reflexivity. Qed.

  (** beta = 0: the old block of C is not looked at *)
  Lemma dgemm_beta0 {A B} {TA : ToFA F A} {TB : ToFA F B}
      transa transb m n k (alpha : F) (a : A) lda (b : B) ldb beta (c1 c2 : fa F) ldc af bf :
    none_bad (gemm_table transa transb m n k lda ldb ldc) ->
    feq beta f0 = true -> feq beta f1 = false ->
    to_fa_2d a lda = Ok af -> to_fa_2d b ldb = Ok bf -> m <= rows c1 -> same_shape c1 c2 ->
    (forall p, (forall i j, 1 <= i <= m -> 1 <= j <= n -> p <> pos (rows c1) i j) -> elem c1 p = elem c2 p) ->
    exists r1 r2, dgemm transa transb m n k alpha a lda b ldb beta c1 ldc = Ok r1 /\
      dgemm transa transb m n k alpha a lda b ldb beta c2 ldc = Ok r2 /\
      data r1 = data r2 /\ rows r1 = rows r2 /\ cols r1 = cols r2.
  Proof.
    intros V B0 B1 Ea Eb Hm (SR & SC & SN) Hout.
    assert (Da : exists nota : bool, nota = true <-> letter transa LN).
    { exists (lsame transa (chr "N")). apply (lsame_letter transa LN). unfold LN; lia. }
    assert (Db : exists notb : bool, notb = true <-> letter transb LN).
    { exists (lsame transb (chr "N")). apply (lsame_letter transb LN). unfold LN; lia. }
    destruct Da as [nota Na], Db as [notb Nb].
    destruct (dgemm_fortran transa transb m n k alpha a lda b ldb beta c1 ldc nota notb af bf V Na Nb Ea Eb Hm) as (r1 & E1 & (R1 & C1 & N1) & U1 & O1).
    destruct (dgemm_fortran transa transb m n k alpha a lda b ldb beta c2 ldc nota notb af bf V Na Nb Ea Eb ltac:(lia)) as (r2 & E2 & (R2 & C2 & N2) & U2 & O2).
    exists r1, r2. split; [exact E1|]. split; [exact E2|]. split; [|split; congruence].
    assert (Hmn : 0 <= m /\ 0 <= n).
    { apply none_bad_bounds in V. lia. }
    assert (Hin : forall i j x y, gemm_entry nota notb k alpha beta af bf i j x = gemm_entry nota notb k alpha beta af bf i j y).
    { intros. unfold gemm_entry, scaled, gemm_idle. rewrite B0, B1, andb_false_r. reflexivity. }
    apply elem_ext. intros p Hp.
    destruct (Z_lt_le_dec (rows c1) 1).
    { rewrite O1, O2, Hout by (intros; lia). reflexivity. }
    destruct (pos_surj (rows c1) p ltac:(lia) ltac:(lia)) as (i & j & Hi & Hj & E).
    destruct (Z_le_gt_dec i m), (Z_le_gt_dec j n).
    - specialize (U1 i j ltac:(lia) ltac:(lia)). specialize (U2 i j ltac:(lia) ltac:(lia)).
      unfold ent in U1, U2. rewrite R1, E in U1. rewrite R2, <- SR, E in U2. rewrite U1, U2.
      assert (Hc : (exists x, elem c1 p = Some x) <-> (exists x, elem c2 p = Some x)) by (rewrite !elem_Some, SN; reflexivity).
      destruct (elem c1 p), (elem c2 p); cbn; try reflexivity; try (f_equal; apply Hin).
      + destruct (proj1 Hc); [eauto|discriminate].
      + destruct (proj2 Hc); [eauto|discriminate].
    - rewrite O1, O2, Hout; auto; intros i' j' Hi' Hj' E'; rewrite ?SR in *; subst p; apply pos_inj in E'; lia.
    - rewrite O1, O2, Hout; auto; intros i' j' Hi' Hj' E'; rewrite ?SR in *; subst p; apply pos_inj in E'; lia.
    - rewrite O1, O2, Hout; auto; intros i' j' Hi' Hj' E'; rewrite ?SR in *; subst p; apply pos_inj in E'; lia.
  Qed.
End Containers.

(** ** exact arithmetic *)
Lemma fsum_er x (t : Z -> er) (r : Z -> R) lo hi :
  (forall l, (lo <= l <= hi)%Z -> t l = Fin (r l)) -> fsum (Fin x) t lo hi = Fin (x + Rsum_range r lo hi).
Proof.
  intros H. unfold fsum, Rsum_range. set (n := Z.to_nat (hi - lo + 1)).
  assert (H' : forall l, (lo <= l < lo + Z.of_nat n)%Z -> t l = Fin (r l)) by (intros; apply H; unfold n in *; lia).
  clearbody n. clear H. revert x lo H'. induction n; intros x lo H'; cbn [fsum_n Rsum].
  - f_equal. lra.
  - rewrite H' by lia. rewrite er_addE, IHn by (intros; apply H'; lia). f_equal. lra.
Qed.

Section Exact.
  Context {A B C : Type} {TA : ToFA er A} {TB : ToFA er B} {TC : ToFA er C} {FC : FromFA er C}.

  Lemma gemm_entry_exact nota notb m n k (alpha beta : R) af bf (Am Bm : Z -> Z -> R) i j x y :
    0 <= k -> 1 <= i <= m -> 1 <= j <= n ->
    (alpha <> 0%R -> op_is nota af m k Am) -> (alpha <> 0%R -> op_is notb bf k n Bm) ->
    (beta <> 0%R -> x = Fin y) ->
    (gemm_entry nota notb k (Fin alpha) (Fin beta) af bf i j x =
    Fin (alpha * Rsum_range (fun l => Am i l * Bm l j) 1 k + beta * y))%R.
  Proof.
    intros Hk Hi Hj HA HB Hx.
    assert (SA : alpha <> 0%R -> forall l, 1 <= l <= k -> op nota af i l = Fin (Am i l)).
    { intros Ha l Hl. specialize (HA Ha i l Hi Hl). unfold op. rewrite !get2_ent. destruct nota; rewrite HA; reflexivity. }
    assert (SB : alpha <> 0%R -> forall l, 1 <= l <= k -> op notb bf l j = Fin (Bm l j)).
    { intros Ha l Hl. specialize (HB Ha l j Hl Hj). unfold op. rewrite !get2_ent. destruct notb; rewrite HB; reflexivity. }
    unfold gemm_entry, gemm_idle, scaled. rewrite er_f0, er_f1, !er_eqE.
    destruct (Req_bool_spec alpha 0) as [Ha|Ha].
    - subst alpha. cbn [orb]. destruct (Req_bool_spec beta 1) as [Hb|Hb]; cbn [andb].
      + rewrite Hx by lra. subst. f_equal. lra.
      + destruct (Req_bool_spec beta 0) as [Hb0|Hb0].
        * subst. f_equal. lra.
        * rewrite Hx by assumption. rewrite er_mulE. f_equal. lra.
    - specialize (SA Ha). specialize (SB Ha). cbn [orb].
      destruct (Z.eqb_spec k 0) as [->|Hk0]; cbn [andb].
      + rewrite Rsum_range_nil by lia.
        destruct (Req_bool_spec beta 1) as [Hb|Hb].
        { rewrite Hx by lra. subst. f_equal. lra. }
        rewrite !fsum_nil by lia.
        destruct nota; destruct (Req_bool_spec beta 0) as [Hb0|Hb0]; subst; try rewrite Hx by assumption;
          rewrite ?er_mulE, ?er_addE; f_equal; lra.
      + destruct nota.
        * assert (E : (if Req_bool beta 0 then Fin 0 else if Req_bool beta 1 then x else fmul x (Fin beta)) = Fin (beta * y)).
          { destruct (Req_bool_spec beta 0) as [Hb0|Hb0]; [subst; f_equal; lra|]. rewrite Hx by assumption.
            destruct (Req_bool_spec beta 1) as [Hb1|Hb1]; [subst; f_equal; lra|]. rewrite er_mulE. f_equal. lra. }
          rewrite E. rewrite (fsum_er _ _ (fun l => alpha * (Am i l * Bm l j))%R).
          2:{ intros l Hl. rewrite SA, SB by assumption. rewrite !er_mulE. f_equal. lra. }
          rewrite Rsum_range_scal. f_equal. lra.
        * cbv zeta. rewrite (fsum_er _ _ (fun l => (Am i l * Bm l j))%R).
          2:{ intros l Hl. rewrite SA, SB by assumption. rewrite !er_mulE. reflexivity. }
          destruct (Req_bool_spec beta 0) as [Hb0|Hb0].
          { rewrite er_mulE. subst. f_equal. lra. }
          rewrite Hx by assumption. rewrite !er_mulE, er_addE. f_equal. lra.
  Qed.

  Lemma dgemm_exact transa transb m n k (alpha beta : R) (a : A) lda (b : B) ldb (c : C) ldc nota notb af bf cf
      (Am Bm Cm : Z -> Z -> R) :
    none_bad (gemm_table transa transb m n k lda ldb ldc) ->
    (nota = true <-> letter transa LN) -> (notb = true <-> letter transb LN) ->
    to_fa_2d a lda = Ok af -> to_fa_2d b ldb = Ok bf -> to_fa_2d c ldc = Ok cf ->
    holds_block cf m n ->
    (alpha <> 0%R -> op_is nota af m k Am) -> (alpha <> 0%R -> op_is notb bf k n Bm) ->
    (beta <> 0%R -> mat_is cf m n Cm) ->
    exists c', 
      dgemm transa transb m n k (Fin alpha) a lda b ldb (Fin beta) c ldc =
        (if (m =? 0) || (n =? 0) || gemm_idle k (Fin alpha) (Fin beta) then Ok c else from_fa c') /\
      ((m =? 0) || (n =? 0) || gemm_idle k (Fin alpha) (Fin beta) = true -> c' = cf) /\
      mat_is c' m n (fun i j => alpha * Rsum_range (fun l => Am i l * Bm l j) 1 k + beta * Cm i j)%R /\
      same_shape c' cf /\
      (forall p, (forall i j, 1 <= i <= m -> 1 <= j <= n -> p <> pos (rows cf) i j) -> elem c' p = elem cf p).
  Proof.
    intros V Na Nb Ea Eb Ec Hb HA HB HC.
    destruct (dgemm_spec transa transb m n k (Fin alpha) a lda b ldb (Fin beta) c ldc nota notb af bf cf V Na Nb Ea Eb Ec (proj1 Hb))
      as (c' & (S1 & U & O) & E & Q).
    assert (Hk : 0 <= k).
    { apply none_bad_bounds in V. lia. }
    exists c'. split; [exact E|]. split; [exact Q|]. split; [|split; [exact S1|exact O]].
    intros i j Hi Hj. rewrite U by assumption.
    rewrite (ent_get2 cf i j) by (eapply holds_block_pos; eassumption). cbn [option_map]. f_equal.
    apply (gemm_entry_exact nota notb m n); auto.
    intros H. apply get2_Some. apply HC; assumption.
  Qed.
End Exact.

Section Frames.
  Context {F : Type} {NF : Num F}.

  Lemma dgemm_frame {A B} {TA : ToFA F A} {TB : ToFA F B}
      transa transb m n k (alpha : F) (a : A) lda (b : B) ldb beta (c : fa F) ldc af bf :
    none_bad (gemm_table transa transb m n k lda ldb ldc) ->
    to_fa_2d a lda = Ok af -> to_fa_2d b ldb = Ok bf -> m <= rows c ->
    exists c', dgemm transa transb m n k alpha a lda b ldb beta c ldc = Ok c' /\ same_shape c' c /\
      (forall p, (forall i j, 1 <= i <= m -> 1 <= j <= n -> p <> pos (rows c) i j) -> elem c' p = elem c p).
  Proof.
    intros V Ea Eb Hm.
    destruct (dgemm_fortran transa transb m n k alpha a lda b ldb beta c ldc (lsame transa (chr "N")) (lsame transb (chr "N")) af bf V)
      as (c' & E & S1 & U & O); auto; try (apply (lsame_letter _ LN); unfold LN; lia).
    exists c'. auto.
  Qed.

  Lemma dgemm_frame_flat transa transb m n k (alpha : F) (a : list F) lda (b : list F) ldb beta (c : list F) ldc :
    none_bad (gemm_table transa transb m n k lda ldb ldc) ->
    exists c', dgemm transa transb m n k alpha a lda b ldb beta c ldc = Ok c' /\ length c' = length c /\
      (forall i j, 1 <= i <= ldc -> 1 <= j -> (i <= m -> n < j) ->
         ent (flat ldc c') i j = ent (flat ldc c) i j).
  Proof.
    intros V.
    destruct (dgemm_flat transa transb m n k alpha a lda b ldb beta c ldc (lsame transa (chr "N")) (lsame transb (chr "N")) V)
      as (c' & E & S1 & U & O); auto; try (apply (lsame_letter _ LN); unfold LN; lia).
    exists c'. split; [exact E|]. split; [destruct S1 as (_ & _ & Hc); unfold count in Hc; cbn in Hc; lia|].
    intros i j Hi Hj Hij. unfold ent. cbn [flat rows]. apply O. intros i' j' Hi' Hj' Ep. cbn [flat rows] in Ep.
    apply none_bad_bounds in V. apply pos_inj in Ep; lia.
  Qed.


  Lemma from_fa_no_exit :
    (forall f s i, @from_fa F (fa F) _ f <> Exit s i) /\
    (forall f s i, @from_fa F (list F) _ f <> Exit s i) /\
    (forall f s i, @from_fa F (list (list F)) _ f <> Exit s i).
  Proof.
    repeat split; try discriminate.
    intros f s i. cbn. unfold nested_of_fa. destruct (_ || _); [discriminate|].
    match goal with |- context [for_M ?is ?z ?b] => 
      assert (H : for_M is z b <> Exit s i) end.
    { generalize (repeat (repeat (f0 (NF := NF)) (Z.to_nat (rows f))) (Z.to_nat (cols f))).
      induction (range 0 (zlen (data f) - 1)) as [|x l IH]; intros d; cbn [for_M]; [discriminate|].
      destruct (rows f =? 0); [discriminate|].
      destruct (zget d _) as [c|]; [|discriminate]. destruct (zget (data f) x); [|discriminate].
      destruct (zget c _); [|discriminate]. cbn [bind]. apply IH. }
    destruct (for_M _ _ _); cbn; congruence.
  Qed.

  Lemma dgemm_ld_zero (alpha beta : F) (a b c : list F) :
    first_bad (gemm_table (chr "N") (chr "N") 1 1 1 0 1 1) 8 /\
    dgemm (chr "N") (chr "N") 1 1 1 alpha a 0 b 1 beta c 1 = Panic.
  Proof.
    split; [|reflexivity].
    destruct (gemm_checks (chr "N") (chr "N") 1 1 1 0 1 1) as (bt & E & M).
    apply (scan_first _ _ 8 M ltac:(lia)). rewrite <- E. reflexivity.
  Qed.
End Frames.

Lemma dgemm_flat_same {F} {NF : Num F}
    transa transb m n k (alpha : F) (a : list F) lda (b : list F) ldb beta (c : list F) ldc :
  none_bad (gemm_table transa transb m n k lda ldb ldc) ->
  exists r, dgemm transa transb m n k alpha a lda b ldb beta c ldc = Ok (data r) /\
    dgemm transa transb m n k alpha (flat lda a) lda (flat ldb b) ldb beta (flat ldc c) ldc = Ok r.
Proof.
  intros V. pose proof (none_bad_bounds _ _ _ _ _ _ _ _ V) as Hb. apply none_bad_info in V.
  unfold dgemm. rewrite !flat_2d by lia. cbn [bind to_fa_2d ToFA_fa]. rewrite V. cbn [negb Z.eqb].
  destruct (dgemm_fa _ _ _ _ _ _ _ _ _ _) as [r|]; cbn [from_fa FromFA_fa FromFA_vec].
  - exists r. split; reflexivity.
  - exists (flat ldc c). split; reflexivity.
Qed.
