(** FortranArray::insert, as_2d and idx. *)
From Coq Require Import ZArith Lia List Bool.
From Verif Require Import Base Num Array Spec Lists FaLemmas.
Import ListNotations.
Open Scope Z_scope.

Section Insert.
  Context {F : Type}.
  Notation fa := (fa F).
  Lemma elem_nth (f : fa) p : 1 <= p -> elem f p = nth_error (data f) (Z.to_nat (p - 1)).
  Proof. intros H. unfold elem. replace (p <? 1) with false by (symmetry; apply Z.ltb_ge; lia). reflexivity. Qed.

  Lemma insert_at (f : fa) k v : 1 <= k < fa_len f -> k <= count f + 1 -> exists f', fa_insert f k v = Ok f' /\
    rows f' = rows f /\ cols f' = cols f /\ dflt f' = dflt f /\ count f' = count f + 1 /\
    (forall p, p < k -> elem f' p = elem f p) /\ elem f' k = Some v /\ (forall p, k <= p -> elem f' (p + 1) = elem f p).
  Proof.
    intros H1 H2. unfold fa_insert. replace ((1 <=? k) && (k <? fa_len f)) with true by (symmetry; apply andb_true_iff; split; [apply Z.leb_le|apply Z.ltb_lt]; lia).
    replace (zlen (data f) <? k - 1) with false by (symmetry; apply Z.ltb_ge; unfold zlen, count in *; lia).
    eexists. split; [reflexivity|]. cbn [rows cols dflt]. do 3 (split; [reflexivity|]). unfold count in *. cbn [data].
    set (q := Z.to_nat (k - 1)). assert (Q : (q <= length (data f))%nat) by lia.
    assert (LF : length (firstn q (data f)) = q) by (apply firstn_length_le; exact Q).
    split; [rewrite app_length; cbn [length]; rewrite LF, skipn_length; lia|].
    split; [|split].
    - intros p Hp. destruct (Z_lt_le_dec p 1) as [L|L]; [unfold elem; replace (p <? 1) with true by (symmetry; apply Z.ltb_lt; exact L); reflexivity|].
      rewrite !elem_nth by exact L. cbn [data]. rewrite nth_error_app1 by (rewrite LF; lia). apply nth_error_firstn. lia.
    - rewrite elem_nth by lia. cbn [data]. fold q. rewrite nth_error_app2 by (rewrite LF; lia). rewrite LF, Nat.sub_diag. reflexivity.
    - intros p Hp. rewrite !elem_nth by lia. cbn [data]. rewrite nth_error_app2 by (rewrite LF; lia). rewrite LF.
      replace (Z.to_nat (p + 1 - 1) - q)%nat with (S (Z.to_nat (p - 1) - q))%nat by lia. cbn [nth_error]. rewrite nth_error_skipn. f_equal. lia.
  Qed.

  Lemma insert_ignored (f : fa) k v : ~ 1 <= k < fa_len f -> fa_insert f k v = Ok f.
  Proof.
    intros H. unfold fa_insert. destruct (Z.leb_spec 1 k), (Z.ltb_spec k (fa_len f)); cbn [andb]; try reflexivity. lia.
  Qed.

  Lemma insert_panics (f : fa) k v : fa_insert f k v = Panic <-> 1 <= k < fa_len f /\ count f + 1 < k.
  Proof.
    split.
    - intros E. destruct (Z_lt_le_dec k 1); [rewrite insert_ignored in E by lia; discriminate|].
      destruct (Z_lt_le_dec k (fa_len f)); [|rewrite insert_ignored in E by lia; discriminate]. split; [lia|].
      destruct (Z_lt_le_dec (count f + 1) k); [assumption|]. destruct (insert_at f k v) as (f' & E' & _); [lia|lia|]. congruence.
    - intros [H1 H2]. unfold fa_insert. replace ((1 <=? k) && (k <? fa_len f)) with true by (symmetry; apply andb_true_iff; split; [apply Z.leb_le|apply Z.ltb_lt]; lia).
      replace (zlen (data f) <? k - 1) with true by (symmetry; apply Z.ltb_lt; unfold zlen, count in *; lia). reflexivity.
  Qed.

  Lemma wf_len (f : fa) : well_formed f -> fa_len f = count f.
  Proof.
    intros (R & C & E). unfold fa_len, fa_is_2d. rewrite E. destruct (Z.eqb_spec (cols f) 0) as [->|N].
    - replace (0 <? 0) with false by reflexivity. rewrite andb_false_r. reflexivity.
    - replace (0 <? cols f) with true by (symmetry; apply Z.ltb_lt; lia). rewrite andb_true_r. destruct (Z.ltb_spec 0 (rows f)); [reflexivity|]. replace (rows f) with 0 by lia. reflexivity.
  Qed.

  (** an insertion into a well-formed array that is not ignored leaves it with one element more than its length says;
      that element can be read by its index and is part of the tail from 1, but the tail from its own index is empty *)
  Lemma insert_breaks (f : fa) k v : well_formed f -> 1 <= k < count f -> exists f', fa_insert f k v = Ok f' /\ ~ well_formed f' /\
    fa_len f' = count f /\ elem f' (count f + 1) = elem f (count f) /\ from1 f' 1 = Ok (data f') /\ from1 f' (count f + 1) = Ok [].
  Proof.
    intros W H. pose proof (wf_len f W) as L. destruct (insert_at f k v) as (f' & E & R & C & D & N & _ & _ & T); [lia|lia|].
    exists f'. split; [exact E|]. assert (L' : fa_len f' = count f) by (rewrite <- L; unfold fa_len, fa_is_2d; rewrite R, C; reflexivity).
    split; [intros W'; apply wf_len in W'; lia|]. split; [exact L'|]. split; [apply T; lia|]. unfold from1. rewrite L'.
    split.
    - replace ((1 <=? 1) && (1 <=? count f)) with true by (symmetry; apply andb_true_iff; split; apply Z.leb_le; lia). unfold slice_from. replace (zlen (data f') <? 1 - 1) with false by (symmetry; apply Z.ltb_ge; unfold zlen; lia). reflexivity.
    - replace (count f + 1 <=? count f) with false by (symmetry; apply Z.leb_gt; lia). rewrite andb_false_r. reflexivity.
  Qed.

  Lemma as_2d_spec (f : fa) r : (fa_as_2d f r = Panic <-> r = 0) /\
    (r <> 0 -> exists f', fa_as_2d f r = Ok f' /\ data f' = data f /\ dflt f' = dflt f /\ rows f' = r /\ cols f' = Z.quot (count f) r /\
       (forall i j, ent f' i j = elem f (pos r i j)) /\ (0 < r -> (r | count f) -> 0 < count f -> well_formed f')).
  Proof.
    unfold fa_as_2d. destruct (Z.eqb_spec r 0) as [->|N]; [split; [tauto|intros; contradiction]|]. split; [split; [discriminate|contradiction]|].
    intros _. eexists. split; [reflexivity|]. cbn [data dflt rows cols]. do 4 (split; [reflexivity|]). split; [reflexivity|].
    intros R [q Q] P. unfold well_formed, count in *. cbn [data rows cols]. unfold zlen. rewrite Q. rewrite Z.quot_mul by exact N.
    assert (0 < q) by nia. split; [lia|]. split; [lia|]. replace (q =? 0) with false by (symmetry; apply Z.eqb_neq; lia). lia.
  Qed.

  Lemma idx_spec {NF : Num F} (f : fa) i j : fa_idx f i j = pos (rows f) i j /\ (1 <= fa_idx f i j <= count f -> get1 f (fa_idx f i j) = get2 f i j).
  Proof. split; [reflexivity|]. intros _. rewrite get2_ent, get1_elem. reflexivity. Qed.
End Insert.
