(** dlaset and dlacpy. *)
From Coq Require Import Ascii.
From Verif Require Import Base Num Array Blas Lapack Spec SpecLapack Lists FaLemmas MatLemmas.

Section Laset.
  Context {F : Type} {NF : Num F}.
  Notation fa := (fa F).

  (** columns 1..n, rows lo j..hi j *)
  Lemma fill_mapped (c : fa) n lo hi (w : Z -> Z -> F) :
    (forall j, 1 <= j <= n -> 1 <= lo j /\ hi j <= rows c) ->
    mapped c (fun i j x => if (1 <=? j) && (j <=? n) && ((lo j <=? i) && (i <=? hi j)) then w i j else x)
      (for_ (range 1 n) c (fun j c => for_ (range (lo j) (hi j)) c (fun i c => set2 c i j (w i j)))).
  Proof.
    intros Hb. eapply mapped_ext; [|apply (mapped_cols c 1 n (rows c)
      (fun i j x => if (lo j <=? i) && (i <=? hi j) then w i j else x))].
    - intros i j x Hi _. cbn. destruct (Z.leb_spec i (rows c)); [|lia]. cbn.
      destruct (1 <=? j), (j <=? n); cbn; reflexivity.
    - intros j c' S' Hj. destruct (Hb j Hj) as [L1 L2].
      eapply mapped_ext; [|apply (mapped_col c' (lo j) (hi j) j (fun i _ => w i j))].
      + intros i' j' x Hi' _. cbn. destruct S' as [R' _]. destruct (Z.leb_spec i' (rows c)); [|lia]. cbn.
        destruct (Z.eqb_spec j' j) as [->|]; rewrite ?andb_true_r, ?andb_false_r; [|reflexivity].
        destruct (_ && _); reflexivity.
      + assumption.
      + destruct S' as [-> _]; assumption.
      + intros i c'' S'' Hi. apply (mapped_set2 c'' i j (fun _ => w i j)).
        destruct S'' as [-> _], S' as [-> _]. lia.
  Qed.

  Lemma diag_mapped (c : fa) k (beta : F) : k <= rows c ->
    mapped c (fun i j x => if (1 <=? j) && (j <=? k) && (i =? j) then beta else x)
      (for_ (range 1 k) c (fun i c => set2 c i i beta)).
  Proof.
    intros Hk. eapply mapped_ext; [|apply (mapped_cols c 1 k (rows c) (fun i j x => if i =? j then beta else x))].
    - intros i j x Hi _. cbn. destruct (Z.leb_spec i (rows c)); [|lia]. cbn.
      destruct (1 <=? j), (j <=? k), (i =? j); reflexivity.
    - intros j c' S' Hj. eapply mapped_ext; [|apply (mapped_set2 c' j j (fun _ => beta))].
      + intros i' j' x Hi' _. cbn. destruct S' as [R' _]. destruct (Z.leb_spec i' (rows c)); [|lia]. cbn.
        destruct (Z.eqb_spec j' j) as [->|]; rewrite ?andb_true_r, ?andb_false_r; reflexivity.
      + destruct S' as [-> _]. lia.
  Qed.

  Lemma block_none m n (g : Z -> Z -> F -> F) (c : fa) : m < 1 -> block_updated m n g c c.
  Proof. intros H. split; [apply same_shape_refl|]. split; [intros; lia|reflexivity]. Qed.

  Lemma for_id {S} is (s : S) body : (forall i, In i is -> body i s = s) -> for_ is s body = s.
  Proof.
    induction is as [|i is IH]; intros H; [reflexivity|]. rewrite for_cons, H by (left; reflexivity).
    apply IH. intros; apply H; right; assumption.
  Qed.

  Lemma chrU : chr "U" = 85. Proof. reflexivity. Qed.
  Lemma chrL : chr "L" = 76. Proof. reflexivity. Qed.

  Lemma laset_U m n (alpha beta : F) (a : fa) : m <= rows a ->
    block_updated m n (laset_entry Lower alpha beta) a (dlaset_fa (chr "U") m n alpha beta a).
  Proof.
    intros Hm. unfold dlaset_fa, tri_fill. cbn [Z.eqb].
    rewrite Z.eqb_refl.
    destruct (Z_lt_le_dec m 1).
    { rewrite (range_nil 1 (Z.min n m)), for_nil by lia. rewrite for_id; [apply block_none; assumption|].
      intros j Hj. apply in_range in Hj. rewrite range_nil by lia. reflexivity. }
    apply mapped_block; [lia|].
    eapply mapped_ext; [|eapply mapped_trans;
      [apply (fill_mapped a n (fun j => j) (fun _ => m) (fun _ _ => alpha)); lia|apply diag_mapped]].
    - intros i j x Hi _. cbn. unfold laset_entry, strictly_in_part.
      destruct (Z.leb_spec 1 j), (Z.leb_spec j n), (Z.leb_spec i m), (Z.leb_spec j i), (Z.leb_spec j (Z.min n m)),
        (Z.eqb_spec i j), (Z.ltb_spec j i); cbn; auto; lia.
    - match goal with |- _ <= rows ?c => assert (S' : same_shape c a) end.
      { apply for_shape. intros j g _. apply for_shape. intros. apply set2_shape. }
      destruct S' as [-> _]. lia.
  Qed.

  Lemma laset_L_shape k m n (alpha beta : F) (a : fa) : n <= k -> Z.min n m <= rows a -> 1 <= k <= rows a ->
    block_updated k n (fun i j x => if (i =? j) && (i <=? m) then beta else if i <=? j then alpha else x)
      a (dlaset_fa (chr "L") m n alpha beta a).
  Proof.
    intros Hk Hm Hr. unfold dlaset_fa, tri_fill. rewrite chrL, chrU. change (76 =? 85) with false. cbn [Z.eqb Pos.eqb].
    apply mapped_block; [lia|].
    eapply mapped_ext; [|eapply mapped_trans;
      [apply (fill_mapped a n (fun _ => 1) (fun j => j) (fun _ _ => alpha)); lia|apply diag_mapped]].
    - intros i j x Hi _. cbn.
      destruct (Z.leb_spec 1 j), (Z.leb_spec j n), (Z.leb_spec i m), (Z.leb_spec i k), (Z.leb_spec 1 i), (Z.leb_spec i j), (Z.leb_spec j (Z.min n m)),
        (Z.eqb_spec i j); cbn; auto; lia.
    - match goal with |- _ <= rows ?c => assert (S' : same_shape c a) end.
      { apply for_shape. intros j g _. apply for_shape. intros. apply set2_shape. }
      destruct S' as [-> _]. lia.
  Qed.

  Lemma laset_L m n (alpha beta : F) (a : fa) : n <= m -> m <= rows a ->
    block_updated m n (laset_entry Upper alpha beta) a (dlaset_fa (chr "L") m n alpha beta a).
  Proof.
    intros Hn Hm. destruct (Z_lt_le_dec m 1).
    { unfold dlaset_fa, tri_fill. cbn [Z.eqb].
      rewrite !(range_nil 1) by lia. rewrite !for_nil. cbn. apply block_none; assumption. }
    destruct (laset_L_shape m m n alpha beta a) as (S1 & E1 & R1); try lia.
    split; [assumption|]. split; [|assumption].
    intros i j Hi Hj. rewrite E1 by lia. apply option_map_ext. intros x _. unfold laset_entry, strictly_in_part.
    destruct (Z.eqb_spec i j), (Z.leb_spec i m), (Z.leb_spec i j), (Z.ltb_spec i j); cbn; auto; lia.
  Qed.

  Lemma laset_all uplo m n (alpha beta : F) (a : fa) : uplo <> chr "U" -> uplo <> chr "L" -> m <= rows a ->
    block_updated m n (laset_entry All alpha beta) a (dlaset_fa uplo m n alpha beta a).
  Proof.
    intros NU NL Hm. unfold dlaset_fa, tri_fill.
    destruct (Z.eqb_spec uplo (chr "U")); [contradiction|]. destruct (Z.eqb_spec uplo (chr "L")); [contradiction|].
    destruct (Z_lt_le_dec m 1).
    { rewrite (range_nil 1 (Z.min n m)), for_nil by lia. rewrite for_id; [apply block_none; assumption|].
      intros j Hj. rewrite range_nil by lia. reflexivity. }
    apply mapped_block; [lia|].
    eapply mapped_ext; [|eapply mapped_trans;
      [apply (fill_mapped a n (fun _ => 1) (fun _ => m) (fun _ _ => alpha)); lia|apply diag_mapped]].
    - intros i j x Hi _. cbn. unfold laset_entry, strictly_in_part.
      destruct (Z.leb_spec 1 j), (Z.leb_spec j n), (Z.leb_spec i m), (Z.leb_spec 1 i), (Z.leb_spec j (Z.min n m)),
        (Z.eqb_spec i j); cbn; auto; lia.
    - match goal with |- _ <= rows ?c => assert (S' : same_shape c a) end.
      { apply for_shape. intros j g _. apply for_shape. intros. apply set2_shape. }
      destruct S' as [-> _]. lia.
  Qed.

  Lemma lacpy_U m n (w : Z -> Z -> F) (b : fa) : m <= rows b ->
    block_updated m n (lacpy_entry Lower w) b (tri_fill (chr "U") m n w b).
  Proof.
    intros Hm. unfold tri_fill. rewrite Z.eqb_refl.
    destruct (Z_lt_le_dec m 1).
    { rewrite for_id; [apply block_none; assumption|].
      intros j Hj. apply in_range in Hj. rewrite range_nil by lia. reflexivity. }
    apply mapped_block; [lia|].
    eapply mapped_ext; [|apply (fill_mapped b n (fun j => j) (fun _ => m) w); lia].
    intros i j x Hi _. cbn. unfold lacpy_entry, in_part.
    destruct (Z.leb_spec 1 j), (Z.leb_spec j n), (Z.leb_spec i m), (Z.leb_spec j i); cbn; auto; lia.
  Qed.

  Lemma lacpy_L_shape k m n (w : Z -> Z -> F) (b : fa) : n <= k -> 1 <= k <= rows b ->
    block_updated k n (lacpy_entry Upper w) b (tri_fill (chr "L") m n w b).
  Proof.
    intros Hk Hr. unfold tri_fill. rewrite chrL, chrU. change (76 =? 85) with false. cbn [Z.eqb Pos.eqb].
    apply mapped_block; [lia|].
    eapply mapped_ext; [|apply (fill_mapped b n (fun _ => 1) (fun j => j) w); lia].
    intros i j x Hi _. cbn. unfold lacpy_entry, in_part.
    destruct (Z.leb_spec 1 j), (Z.leb_spec j n), (Z.leb_spec i k), (Z.leb_spec 1 i), (Z.leb_spec i j); cbn; auto; lia.
  Qed.

  Lemma lacpy_L m n (w : Z -> Z -> F) (b : fa) : n <= m -> m <= rows b ->
    block_updated m n (lacpy_entry Upper w) b (tri_fill (chr "L") m n w b).
  Proof.
    intros Hn Hm. destruct (Z_lt_le_dec m 1).
    { unfold tri_fill. rewrite !(range_nil 1) by lia. cbn. apply block_none; assumption. }
    apply lacpy_L_shape; lia.
  Qed.

  Lemma lacpy_all uplo m n (w : Z -> Z -> F) (b : fa) : uplo <> chr "U" -> uplo <> chr "L" -> m <= rows b ->
    block_updated m n (lacpy_entry All w) b (tri_fill uplo m n w b).
  Proof.
    intros NU NL Hm. unfold tri_fill.
    destruct (Z.eqb_spec uplo (chr "U")); [contradiction|]. destruct (Z.eqb_spec uplo (chr "L")); [contradiction|].
    destruct (Z_lt_le_dec m 1).
    { rewrite for_id; [apply block_none; assumption|]. intros j Hj. rewrite range_nil by lia. reflexivity. }
    apply mapped_block; [lia|].
    eapply mapped_ext; [|apply (fill_mapped b n (fun _ => 1) (fun _ => m) w); lia].
    intros i j x Hi _. cbn. unfold lacpy_entry, in_part.
    destruct (Z.leb_spec 1 j), (Z.leb_spec j n), (Z.leb_spec i m), (Z.leb_spec 1 i); cbn; auto; lia.
  Qed.
End Laset.
