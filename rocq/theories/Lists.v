(** Lemmas on ranges, loops, list lookup and update. *)
From Verif Require Import Base.

Lemma zup_length lo st n : length (zup lo st n) = n.
Proof. revert lo; induction n; simpl; auto. Qed.

Lemma zup_app lo st n m :
  zup lo st (n + m) = zup lo st n ++ zup (lo + st * Z.of_nat n) st m.
Proof.
  revert lo; induction n; intros lo.
  - simpl. f_equal. lia.
  - cbn [zup Nat.add app]. f_equal. rewrite IHn. f_equal. f_equal. lia.
Qed.

Lemma in_zup x lo st n : In x (zup lo st n) <-> exists k, 0 <= k < Z.of_nat n /\ x = lo + st * k.
Proof.
  revert lo; induction n; intros lo; cbn [zup In].
  - split; [tauto|]. intros (k & H & _). lia.
  - rewrite IHn. split.
    + intros [<- | (k & H & ->)]; [exists 0 | exists (k + 1)]; lia.
    + intros (k & H & ->). destruct (Z.eq_dec k 0) as [->|]; [left; lia|].
      right. exists (k - 1). lia.
Qed.

Lemma in_range x lo hi : In x (range lo hi) <-> lo <= x <= hi.
Proof.
  unfold range. rewrite in_zup. split.
  - intros (k & H & ->). lia.
  - intros H. exists (x - lo). lia.
Qed.

Lemma in_range_rev x lo hi : In x (range_rev lo hi) <-> lo <= x <= hi.
Proof.
  unfold range_rev. rewrite in_zup. split.
  - intros (k & H & ->). lia.
  - intros H. exists (hi - x). lia.
Qed.

Lemma range_nil lo hi : hi < lo -> range lo hi = [].
Proof. intros. unfold range. replace (Z.to_nat _) with O by lia. reflexivity. Qed.

Lemma range_rev_nil lo hi : hi < lo -> range_rev lo hi = [].
Proof. intros. unfold range_rev. replace (Z.to_nat _) with O by lia. reflexivity. Qed.

Lemma range_cons lo hi : lo <= hi -> range lo hi = lo :: range (lo + 1) hi.
Proof.
  intros. unfold range. replace (Z.to_nat (hi - lo + 1)) with (S (Z.to_nat (hi - (lo + 1) + 1))) by lia.
  reflexivity.
Qed.

Lemma range_snoc lo hi : lo <= hi -> range lo hi = range lo (hi - 1) ++ [hi].
Proof.
  intros. unfold range.
  replace (Z.to_nat (hi - lo + 1)) with (Z.to_nat (hi - 1 - lo + 1) + 1)%nat by lia.
  rewrite zup_app. f_equal. cbn [zup]. f_equal. lia.
Qed.

Lemma range_rev_cons lo hi : lo <= hi -> range_rev lo hi = hi :: range_rev lo (hi - 1).
Proof.
  intros. unfold range_rev. replace (Z.to_nat (hi - lo + 1)) with (S (Z.to_nat (hi - 1 - lo + 1))) by lia.
  reflexivity.
Qed.

Lemma range_rev_snoc lo hi : lo <= hi -> range_rev lo hi = range_rev (lo + 1) hi ++ [lo].
Proof.
  intros. unfold range_rev.
  replace (Z.to_nat (hi - lo + 1)) with (Z.to_nat (hi - (lo + 1) + 1) + 1)%nat by lia.
  rewrite zup_app. f_equal. cbn [zup]. f_equal. lia.
Qed.

Lemma range_rev_rev lo hi : range_rev lo hi = rev (range lo hi).
Proof.
  destruct (Z_lt_le_dec hi lo).
  { rewrite range_nil, range_rev_nil by lia. reflexivity. }
  remember (Z.to_nat (hi - lo)) as n. revert hi l Heqn.
  induction n; intros hi l Heqn.
  - replace hi with lo by lia. unfold range, range_rev.
    replace (lo - lo + 1) with 1 by lia. reflexivity.
  - rewrite range_rev_cons, range_snoc by lia. rewrite rev_app_distr. cbn [rev app].
    f_equal. apply IHn; lia.
Qed.

Lemma range_step_nil lo hi st : hi < lo -> range_step lo hi st = [].
Proof. intros. unfold range_step. destruct (Z.ltb_spec hi lo); [reflexivity|lia]. Qed.

Lemma range_step_cons lo hi st :
  1 <= st -> lo <= hi -> range_step lo hi st = lo :: range_step (lo + st) hi st.
Proof.
  intros Hst H. unfold range_step.
  destruct (Z.ltb_spec hi lo); [lia|].
  destruct (Z.ltb_spec hi (lo + st)).
  - rewrite Z.div_small by lia. reflexivity.
  - replace (hi - lo) with ((hi - (lo + st)) + 1 * st) by lia.
    rewrite Z.div_add by lia.
    assert (0 <= (hi - (lo + st)) / st) by (apply Z.div_pos; lia).
    replace (Z.to_nat ((hi - (lo + st)) / st + 1 + 1)) with (S (Z.to_nat ((hi - (lo + st)) / st + 1))) by lia.
    reflexivity.
Qed.

(** Loops *)
Lemma for_nil {S} (s : S) body : for_ [] s body = s.
Proof. reflexivity. Qed.
Lemma for_cons {S} i is (s : S) body : for_ (i :: is) s body = for_ is (body i s) body.
Proof. reflexivity. Qed.
Lemma for_app {S} is js (s : S) body : for_ (is ++ js) s body = for_ js (for_ is s body) body.
Proof. apply fold_left_app. Qed.

Lemma for_ind {S} (P : list Z -> S -> Prop) is (s : S) body :
  P [] s ->
  (forall pre i s, In i is -> P pre s -> P (pre ++ [i]) (body i s)) ->
  P is (for_ is s body).
Proof.
  intros H0 Hs.
  assert (G : forall post pre s, (forall i, In i post -> In i is) -> P pre s -> P (pre ++ post) (for_ post s body)).
  { induction post as [|i post IH]; intros pre s' Hin HP.
    - rewrite app_nil_r. exact HP.
    - rewrite for_cons. replace (pre ++ i :: post) with ((pre ++ [i]) ++ post).
      2:{ rewrite <- app_assoc. reflexivity. }
      apply IH. { intros; apply Hin; right; assumption. }
      apply Hs; auto. apply Hin; left; reflexivity. }
  apply (G is [] s); auto.
Qed.

(** an invariant kept by every iteration *)
Lemma for_inv {S} (P : S -> Prop) is (s : S) body :
  P s -> (forall i s, In i is -> P s -> P (body i s)) -> P (for_ is s body).
Proof.
  intros H0 Hs. apply (for_ind (fun _ => P)); auto.
Qed.

Lemma for_range_ind {S} (P : Z -> S -> Prop) lo hi (s : S) body :
  lo <= hi + 1 -> P lo s ->
  (forall i s, lo <= i <= hi -> P i s -> P (i + 1) (body i s)) ->
  P (hi + 1) (for_ (range lo hi) s body).
Proof.
  intros Hle H0 Hs.
  remember (Z.to_nat (hi + 1 - lo)) as n. revert lo s Hle H0 Hs Heqn.
  induction n; intros lo s Hle H0 Hs Heqn.
  - rewrite range_nil by lia. replace (hi + 1) with lo by lia. exact H0.
  - rewrite range_cons, for_cons by lia. apply IHn; try lia.
    + apply Hs; [lia|exact H0].
    + intros; apply Hs; [lia|assumption].
Qed.

Lemma for_range_rev_ind {S} (P : Z -> S -> Prop) lo hi (s : S) body :
  lo - 1 <= hi -> P hi s ->
  (forall i s, lo <= i <= hi -> P i s -> P (i - 1) (body i s)) ->
  P (lo - 1) (for_ (range_rev lo hi) s body).
Proof.
  intros Hle H0 Hs.
  remember (Z.to_nat (hi + 1 - lo)) as n. revert hi s Hle H0 Hs Heqn.
  induction n; intros hi s Hle H0 Hs Heqn.
  - rewrite range_rev_nil by lia. replace (lo - 1) with hi by lia. exact H0.
  - rewrite range_rev_cons, for_cons by lia. apply IHn; try lia.
    + apply Hs; [lia|exact H0].
    + intros; apply Hs; [lia|assumption].
Qed.

Lemma for_ext {S} is (s : S) b1 b2 :
  (forall i s, In i is -> b1 i s = b2 i s) -> for_ is s b1 = for_ is s b2.
Proof.
  revert s; induction is as [|i is IH]; intros s H; [reflexivity|].
  rewrite !for_cons, (H i) by (left; reflexivity). apply IH. intros; apply H; right; assumption.
Qed.

Lemma for_M_ok {S} (P : S -> Prop) is (s : S) body :
  P s -> (forall i s, In i is -> P s -> exists s', body i s = Ok s' /\ P s') ->
  exists s', for_M is s body = Ok s' /\ P s'.
Proof.
  revert s; induction is as [|i is IH]; intros s H0 Hs; cbn [for_M].
  - exists s. auto.
  - destruct (Hs i s) as (s' & -> & HP); [left; reflexivity|assumption|].
    cbn [bind]. apply IH; auto. intros; apply Hs; auto. right; assumption.
Qed.

(** a property preserved whenever the body returns normally *)
Lemma for_M_inv {S} (P : S -> Prop) is (s : S) body s' :
  P s -> (forall i s s', In i is -> P s -> body i s = Ok s' -> P s') ->
  for_M is s body = Ok s' -> P s'.
Proof.
  revert s; induction is as [|i is IH]; intros s H0 Hs; cbn [for_M].
  - intros [= <-]. assumption.
  - destruct (body i s) as [s1| | |] eqn:E; cbn [bind]; try discriminate.
    apply IH; [eapply Hs; eauto; left; reflexivity|].
    intros; eapply Hs; eauto; right; assumption.
Qed.

Lemma for_brk_M_inv {S} (P : S -> Prop) is (s : S) body s' :
  P s -> (forall i s r, In i is -> P s -> body i s = Ok r -> P (fst r)) ->
  for_brk_M is s body = Ok s' -> P s'.
Proof.
  revert s; induction is as [|i is IH]; intros s H0 Hs; cbn [for_brk_M].
  - intros [= <-]. assumption.
  - destruct (body i s) as [[s1 b]| | |] eqn:E; cbn [bind]; try discriminate.
    cbn [snd fst].
    assert (P s1) by (apply (Hs i s (s1, b)); auto; left; reflexivity).
    destruct b; [intros [= <-]; assumption|].
    apply IH; auto. intros; eapply Hs; eauto; right; assumption.
Qed.

Lemma for_brk_inv {S} (P : S -> Prop) is (s : S) body :
  P s -> (forall i s, In i is -> P s -> P (fst (body i s))) -> P (for_brk is s body).
Proof.
  revert s; induction is as [|i is IH]; intros s H0 Hs; cbn [for_brk]; auto.
  destruct (body i s) as [s' b] eqn:E.
  assert (P s') by (change s' with (fst (s', b)); rewrite <- E; apply Hs; auto; left; reflexivity).
  destruct b; auto. apply IH; auto. intros; apply Hs; auto; right; assumption.
Qed.

(** Lookup and update *)
Lemma zlen_nonneg {A} (l : list A) : 0 <= zlen l.
Proof. unfold zlen. lia. Qed.

Lemma zget_Some {A} (l : list A) p : (exists x, zget l p = Some x) <-> 0 <= p < zlen l.
Proof.
  unfold zget, zlen. destruct (Z.ltb_spec p 0).
  - split; [intros [x H']; discriminate | lia].
  - split.
    + intros [x Hx]. assert (nth_error l (Z.to_nat p) <> None) by congruence.
      apply nth_error_Some in H0. lia.
    + intros Hp. destruct (nth_error l (Z.to_nat p)) eqn:E; [eauto|].
      apply nth_error_None in E. lia.
Qed.

Lemma zget_None {A} (l : list A) p : zget l p = None <-> ~ 0 <= p < zlen l.
Proof.
  rewrite <- zget_Some. destruct (zget l p).
  - split; [discriminate|]. intros H; exfalso; apply H; eauto.
  - split; auto. intros _ [x H]; discriminate.
Qed.

Lemma upd_length {A} (l : list A) n x : length (upd l n x) = length l.
Proof. revert n; induction l; intros [|n]; simpl; auto. Qed.

Lemma zset_zlen {A} (l : list A) p x : zlen (zset l p x) = zlen l.
Proof. unfold zset, zlen. destruct (p <? 0); rewrite ?upd_length; reflexivity. Qed.

Lemma upd_same {A} (l : list A) n x : (n < length l)%nat -> nth_error (upd l n x) n = Some x.
Proof. revert n; induction l; intros [|n] H; simpl in *; try lia; auto. apply IHl. lia. Qed.

Lemma upd_other {A} (l : list A) n m x : n <> m -> nth_error (upd l n x) m = nth_error l m.
Proof.
  revert n m; induction l; intros [|n] [|m] H; simpl; auto; try congruence.
Qed.

Lemma zset_same {A} (l : list A) p x : 0 <= p < zlen l -> zget (zset l p x) p = Some x.
Proof.
  unfold zget, zset, zlen. intros H. destruct (Z.ltb_spec p 0); [lia|].
  apply upd_same. lia.
Qed.

Lemma zset_other {A} (l : list A) p q x : p <> q -> zget (zset l p x) q = zget l q.
Proof.
  unfold zget, zset. intros H. destruct (Z.ltb_spec p 0), (Z.ltb_spec q 0); auto.
  apply upd_other. lia.
Qed.

Lemma zset_out {A} (l : list A) p x : ~ 0 <= p < zlen l -> zset l p x = l.
Proof.
  unfold zset, zlen. intros H. destruct (Z.ltb_spec p 0); auto.
  assert (Hl : (length l <= Z.to_nat p)%nat) by lia. clear H. generalize dependent (Z.to_nat p).
  induction l; intros [|n] Hl; simpl in *; auto; try lia. f_equal. apply IHl. lia.
Qed.

Lemma nth_error_ext {A} (l l' : list A) : (forall n, nth_error l n = nth_error l' n) -> l = l'.
Proof.
  revert l'; induction l as [|a l IH]; intros [|b l'] H; auto.
  - specialize (H O); discriminate.
  - specialize (H O); discriminate.
  - f_equal; [specialize (H O); simpl in H; congruence|].
    apply IH. intros n. exact (H (S n)).
Qed.

Lemma zget_ext {A} (l l' : list A) : (forall p, zget l p = zget l' p) -> l = l'.
Proof.
  intros H. apply nth_error_ext. intros n. specialize (H (Z.of_nat n)).
  unfold zget in H. destruct (Z.ltb_spec (Z.of_nat n) 0); [lia|].
  rewrite Nat2Z.id in H. exact H.
Qed.

Lemma zget_app {A} (l l' : list A) p :
  zget (l ++ l') p = if p <? zlen l then zget l p else zget l' (p - zlen l).
Proof.
  unfold zget, zlen. destruct (Z.ltb_spec p 0), (Z.ltb_spec p (Z.of_nat (length l))); auto; try lia.
  - rewrite nth_error_app1 by lia. reflexivity.
  - destruct (Z.ltb_spec (p - Z.of_nat (length l)) 0); [lia|].
    rewrite nth_error_app2 by lia. f_equal. lia.
Qed.

Lemma zlen_app {A} (l l' : list A) : zlen (l ++ l') = zlen l + zlen l'.
Proof. unfold zlen. rewrite app_length. lia. Qed.

Lemma nth_error_skipn {A} (l : list A) n m : nth_error (skipn n l) m = nth_error l (n + m).
Proof. revert l; induction n; intros [|a l]; simpl; auto. destruct m; reflexivity. Qed.

Lemma zget_skipn {A} (l : list A) n p : 0 <= n -> 0 <= p -> zget (skipn (Z.to_nat n) l) p = zget l (n + p).
Proof.
  intros. unfold zget. destruct (Z.ltb_spec p 0), (Z.ltb_spec (n + p) 0); try lia.
  rewrite nth_error_skipn. f_equal. lia.
Qed.

Lemma nth_error_firstn {A} (l : list A) n m : (m < n)%nat -> nth_error (firstn n l) m = nth_error l m.
Proof. revert l m; induction n; intros [|a l] [|m] H; simpl; auto; try lia. apply IHn. lia. Qed.

Lemma zlen_skipn {A} (l : list A) n : 0 <= n <= zlen l -> zlen (skipn (Z.to_nat n) l) = zlen l - n.
Proof. unfold zlen. intros. rewrite skipn_length. lia. Qed.

Lemma zlen_firstn {A} (l : list A) n : 0 <= n <= zlen l -> zlen (firstn (Z.to_nat n) l) = n.
Proof. unfold zlen. intros. rewrite firstn_length. lia. Qed.

Lemma zlen_repeat {A} (x : A) n : zlen (repeat x n) = Z.of_nat n.
Proof. unfold zlen. rewrite repeat_length. reflexivity. Qed.

Lemma zget_repeat {A} (x : A) n p : 0 <= p < Z.of_nat n -> zget (repeat x n) p = Some x.
Proof.
  intros. unfold zget. destruct (Z.ltb_spec p 0); [lia|].
  assert (E : (Z.to_nat p < n)%nat) by lia. revert E. generalize (Z.to_nat p) as m. clear.
  induction n; intros [|m] E; simpl; auto; try lia. apply IHn. lia.
Qed.
