(** Proofs about dgemm (C17-C20), for every number type. *)
From Coq Require Import Ascii.
From Verif Require Import Base Num Array Blas Spec SpecBlas Lists FaLemmas MatLemmas LsameProofs.

Section Gemm.
  Context {F : Type} {NF : Num F}.
  Local Open Scope num_scope.
  Notation fa := (fa F).

  Lemma fsum_nil x (t : Z -> F) lo hi : (hi < lo)%Z -> fsum x t lo hi = x.
  Proof. intros. unfold fsum. replace (Z.to_nat _) with O by lia. reflexivity. Qed.
  Lemma fsum_n_for x (t : Z -> F) lo n : fsum_n x t lo n = for_ (zup lo 1 n) x (fun l s => s + t l).
  Proof. revert x lo; induction n; intros; cbn; [reflexivity|]. apply IHn. Qed.
  Lemma fsum_for x (t : Z -> F) lo hi : fsum x t lo hi = for_ (range lo hi) x (fun l s => s + t l).
  Proof. apply fsum_n_for. Qed.
  Lemma fsum_ext x (t u : Z -> F) lo hi : (forall l, (lo <= l <= hi)%Z -> t l = u l) -> fsum x t lo hi = fsum x u lo hi.
  Proof. intros H. rewrite !fsum_for. apply for_ext. intros l s Hl. apply in_range in Hl. rewrite H by assumption. reflexivity. Qed.

  Lemma dgemm_scale_mapped m beta j c : (m <= rows c)%Z ->
    mapped c (fun i' j' x => if (i' <=? m)%Z && (j' =? j)%Z then scaled beta x else x) (dgemm_scale m beta j c).
  Proof.
    intros Hm. unfold dgemm_scale, scaled, fne. destruct (beta =? f0).
    - apply (mapped_col1 c m j (fun _ _ => f0)); [assumption|]. intros i c' S' Hi.
      apply mapped_mod2. destruct S' as [-> _]; lia.
    - destruct (beta =? f1); cbn [negb].
      + eapply mapped_ext; [|apply mapped_refl]. intros. destruct (_ && _); reflexivity.
      + apply (mapped_col1 c m j (fun _ x => x * beta)); [assumption|]. intros i c' S' Hi.
        apply mapped_mod2. destruct S' as [-> _]; lia.
  Qed.

  Lemma dgemm_axpy_mapped m n k alpha beta a b c : (m <= rows c)%Z ->
    mapped c (fun i j x => if (i <=? m)%Z && (1 <=? j)%Z && (j <=? n)%Z
                           then fsum (scaled beta x) (fun l => (alpha * b l j) * get2 a i l) 1 k else x)
           (dgemm_axpy m n k alpha beta a b c).
  Proof.
    intros Hm. unfold dgemm_axpy.
    apply (mapped_cols c 1 n m (fun i j x => fsum (scaled beta x) (fun l => (alpha * b l j) * get2 a i l) 1 k)).
    intros j c' S' Hj.
    assert (Hm' : (m <= rows c')%Z) by (destruct S' as [-> _]; lia).
    pose proof (dgemm_scale_mapped m beta j c' Hm') as H1.
    eapply mapped_ext; [|eapply mapped_trans; [exact H1|]].
    2:{ apply (mapped_iter _ (range 1 k) m j (fun l i x => x + (alpha * b l j) * get2 a i l)).
        intros l c2 S2 Hl.
        apply (mapped_col1 c2 m j (fun i x => x + (alpha * b l j) * get2 a i l)).
        { destruct S2 as [-> _]. destruct H1 as [[-> _] _]. assumption. }
        intros i c3 S3 Hi. apply (mapped_mod2 c3 i j (fun x => x + (alpha * b l j) * get2 a i l)).
        destruct S3 as [-> _], S2 as [-> _], H1 as [[-> _] _]. lia. }
    intros i' j' x Hi' _. cbn.
    destruct (i' <=? m)%Z; cbn; [|reflexivity].
    destruct (Z.eqb_spec j' j) as [->|]; cbn; [|reflexivity].
    rewrite fsum_for. reflexivity.
  Qed.

  Lemma dgemm_dot_mapped m n k alpha beta a b c : (m <= rows c)%Z ->
    mapped c (fun i j x => if (i <=? m)%Z && (1 <=? j)%Z && (j <=? n)%Z
                           then (let t := fsum f0 (fun l => get2 a l i * b l j) 1 k in
                                 if beta =? f0 then alpha * t else alpha * t + beta * x) else x)
           (dgemm_dot m n k alpha beta a b c).
  Proof.
    intros Hm. unfold dgemm_dot.
    apply (mapped_cols c 1 n m (fun i j x => let t := fsum f0 (fun l => get2 a l i * b l j) 1 k in
                                 if beta =? f0 then alpha * t else alpha * t + beta * x)).
    intros j c' S' Hj.
    apply (mapped_col1 c' m j (fun i x => let t := fsum f0 (fun l => get2 a l i * b l j) 1 k in
                                 if beta =? f0 then alpha * t else alpha * t + beta * x)).
    { destruct S' as [-> _]; lia. }
    intros i c2 S2 Hi. cbv zeta. rewrite fsum_for.
    set (t := for_ _ _ _).
    assert (Hi2 : (1 <= i <= rows c2)%Z) by (destruct S2 as [-> _], S' as [-> _]; lia).
    destruct (beta =? f0).
    - apply (mapped_set2 c2 i j (fun _ => alpha * t)); assumption.
    - apply (mapped_set2 c2 i j (fun x => alpha * t + beta * x)); assumption.
  Qed.

  Definition gemm_quick (m n k : Z) (alpha beta : F) : bool :=
    (m =? 0)%Z || (n =? 0)%Z || gemm_idle k alpha beta.

  (** what happens to C after validation *)
  Lemma dgemm_fa_spec nota notb m n k alpha a b beta c :
    (0 <= m <= rows c)%Z -> (0 <= n)%Z ->
    exists c', block_updated m n (gemm_entry nota notb k alpha beta a b) c c' /\
      dgemm_fa nota notb m n k alpha a b beta c = (if gemm_quick m n k alpha beta then None else Some c') /\
      (gemm_quick m n k alpha beta = true -> c' = c).
  Proof.
    intros Hm Hn. unfold dgemm_fa.
    change (((alpha =? f0) || (k =? 0)%Z) && (beta =? f1)) with (gemm_idle k alpha beta).
    fold (gemm_quick m n k alpha beta).
    destruct (gemm_quick m n k alpha beta) eqn:Q.
    - exists c. split; [|split; reflexivity]. split; [apply same_shape_refl|]. split; [|reflexivity].
      intros i j Hi Hj. rewrite option_map_id; [reflexivity|]. intros x _. unfold gemm_entry.
      unfold gemm_quick in Q. destruct (gemm_idle k alpha beta); [reflexivity|].
      destruct (Z.eqb_spec m 0), (Z.eqb_spec n 0); cbn in Q; try discriminate; lia.
    - unfold gemm_quick in Q. apply orb_false_iff in Q as [Q1 Q2]. apply orb_false_iff in Q1 as [Q0 Q1].
      apply Z.eqb_neq in Q0, Q1.
      assert (U : forall c' g, mapped c (fun i j x => if (i <=? m)%Z && (1 <=? j)%Z && (j <=? n)%Z then g i j x else x) c' ->
                (forall i j x, (1 <= i <= m)%Z -> (1 <= j <= n)%Z -> g i j x = gemm_entry nota notb k alpha beta a b i j x) ->
                exists c'', block_updated m n (gemm_entry nota notb k alpha beta a b) c c'' /\ Some c' = Some c'' /\ (false = true -> c'' = c)).
      { intros c' g M E. exists c'. split; [|split; [reflexivity|discriminate]].
        destruct (mapped_block c m n g c' ltac:(lia) M) as (S1 & E1 & F1). split; [assumption|]. split; [|assumption].
        intros i j Hi Hj. rewrite E1 by assumption. apply option_map_ext. intros. apply E; assumption. }
      unfold gemm_entry, op in *. rewrite Q2 in *.
      destruct (alpha =? f0) eqn:Ea.
      { destruct (beta =? f0) eqn:Eb.
        - eapply (U _ (fun _ _ _ => f0)); [|reflexivity].
          apply (mapped_cols c 1 n m (fun _ _ _ => f0)). intros j c' S' Hj.
          apply (mapped_col1 c' m j (fun _ _ => f0)). { destruct S' as [-> _]; lia. }
          intros i c2 S2 Hi. apply mapped_mod2. destruct S2 as [-> _], S' as [-> _]; lia.
        - eapply (U _ (fun _ _ x => x * beta)); [|reflexivity].
          apply (mapped_cols c 1 n m (fun _ _ x => x * beta)). intros j c' S' Hj.
          apply (mapped_col1 c' m j (fun _ x => x * beta)). { destruct S' as [-> _]; lia. }
          intros i c2 S2 Hi. apply mapped_mod2. destruct S2 as [-> _], S' as [-> _]; lia. }
      destruct nota, notb; (eapply U;
        [first [apply dgemm_axpy_mapped; lia | apply dgemm_dot_mapped; lia] | intros; cbn beta; reflexivity ]).
  Qed.

End Gemm.
