(** Proofs about i32 index arithmetic (C04). *)
From Verif Require Import Base Num Array Blas Spec Lists FaLemmas I32.

Lemma i32_of_in pr z : in_i32 z -> i32_of pr z = Ok z.
Proof.
  unfold in_i32, i32_of, in_i32b. intros [H1 H2].
  apply Z.leb_le in H1, H2. rewrite H1, H2. reflexivity.
Qed.

Lemma off2_i32_exact pr r c i j :
  0 <= r -> 0 <= c -> r * c <= 2 ^ 31 - 1 -> r <= 2 ^ 31 - 1 -> c <= 2 ^ 31 - 1 ->
  1 <= i <= r -> 1 <= j <= c ->
  off2_i32 pr r i j = Ok (pos r i j - 1).
Proof.
  intros Hr Hc Hrc Hrm Hcm Hi Hj. unfold off2_i32, pos.
  rewrite i32_of_in by (unfold in_i32; lia). cbn [bind].
  assert (0 <= (j - 1) * r <= r * c - r) by nia.
  rewrite i32_of_in by (unfold in_i32; lia). cbn [bind].
  rewrite i32_of_in by (unfold in_i32; lia). cbn [bind].
  rewrite i32_of_in by (unfold in_i32; lia). f_equal. lia.
Qed.

(** without any guard: when every intermediate value is representable the two agree *)
Lemma off2_i32_agree pr r i j :
  in_i32 (j - 1) -> in_i32 ((j - 1) * r) -> in_i32 (i - 1) -> in_i32 ((j - 1) * r + (i - 1)) ->
  off2_i32 pr r i j = Ok (off2 r i j).
Proof.
  intros H1 H2 H3 H4. unfold off2_i32. rewrite (i32_of_in pr (j - 1)) by assumption. cbn [bind].
  rewrite (i32_of_in pr ((j - 1) * r)) by assumption. cbn [bind].
  rewrite (i32_of_in pr (i - 1)) by assumption. cbn [bind].
  rewrite i32_of_in by assumption. reflexivity.
Qed.

Section I32Proofs.
  Context {F : Type} {NF : Num F}.

  Lemma get2_i32_exact pr (f : fa F) i j :
    well_formed f -> count f <= 2 ^ 31 - 1 -> 1 <= rows f <= 2 ^ 31 - 1 -> cols f <= 2 ^ 31 - 1 ->
    1 <= i <= rows f -> 1 <= j <= cols f ->
    get2_i32 pr f i j = Ok (get2 f i j) /\ (forall g, mod2_i32 pr f i j g = Ok (mod2 f i j g)).
  Proof.
    intros (Hr & Hc & Hn) Hb Hrb Hcb Hi Hj.
    destruct (Z.eqb_spec (cols f) 0); [lia|]. rewrite Hn in Hb.
    assert (E : off2_i32 pr (rows f) i j = Ok (off2 (rows f) i j)).
    { rewrite (off2_i32_exact pr (rows f) (cols f) i j) by lia. unfold pos, off2. f_equal. lia. }
    split; [|intros g]; unfold get2_i32, mod2_i32, get2, mod2; rewrite E; reflexivity.
  Qed.

  (** the strided loop of dscal: the counter overflows exactly one step after the last element *)
  Lemma dscal_while_i32_agree pr fuel (da : F) incx nincx i dx :
    1 <= incx -> in_i32 (nincx - 1 + incx) -> in_i32 i ->
    dscal_while_i32 pr fuel da incx nincx i dx = dscal_while fuel da incx nincx i dx.
  Proof.
    intros Hx Hn. revert i dx. induction fuel; intros i dx Hi; cbn; destruct (Z.ltb_spec i nincx); auto.
    rewrite i32_of_in by (unfold in_i32 in *; lia). cbn [bind]. apply IHfuel. unfold in_i32 in *. lia.
  Qed.
End I32Proofs.

(** A pair far outside the array: the exact offset is beyond the data, the i32 offset is 0. *)
Lemma i32_alias {F} {NF : Num F} (x y z t : F) :
  let f := mkFA [x; y; z; t] 4 1 fnan in
  get2_i32 Debug f 1 (2 ^ 30 + 1) = Panic /\
  get2_i32 Release f 1 (2 ^ 30 + 1) = Ok x /\
  get2 f 1 (2 ^ 30 + 1) = fMINPOS.
Proof. cbv zeta. repeat split. Qed.

(** dscal with one element and the largest increment overflows its counter after the last element *)
Lemma dscal_counter_overflow {F} {NF : Num F} (x da : F) :
  dscal_loop_i32 Debug 1 1 da (fa_of_vec [x]) (2 ^ 31 - 1) = Panic /\
  dscal_fa 1 da (fa_of_vec [x]) (2 ^ 31 - 1) = Ok (fa_of_vec [fmul x da]).
Proof. split; reflexivity. Qed.
