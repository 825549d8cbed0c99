(** Proofs about dtrmm (C21-C22), for every number type. *)
From Coq Require Import Ascii.
From Verif Require Import Base Num Array Blas Spec SpecBlas Lists FaLemmas MatLemmas LsameProofs Checks.

Section Rep.
  Context {F : Type} {NF : Num F}.
  Notation fa := (fa F).
  Context (b0 : fa) (m n : Z).

  (** [b] is [b0] with the block 1..m, 1..n holding M *)
  Definition rep (M : Z -> Z -> F) (b : fa) : Prop :=
    same_shape b b0 /\
    forall i j, 1 <= i <= rows b0 ->
      ent b i j = if (i <=? m) && (1 <=? j) && (j <=? n) then Some (M i j) else ent b0 i j.

  Context (Hb : holds_block b0 m n).

  Lemma rep_init : rep (get2 b0) b0.
  Proof.
    split; [apply same_shape_refl|]. intros i j Hi.
    destruct (Z.leb_spec i m), (Z.leb_spec 1 j), (Z.leb_spec j n); cbn; auto.
    apply ent_get2. eapply holds_block_pos; eauto; lia.
  Qed.
  Lemma rep_ext M M' b : (forall i j, 1 <= i <= m -> 1 <= j <= n -> M i j = M' i j) -> rep M b -> rep M' b.
  Proof.
    intros E [S1 H]. split; [assumption|]. intros i j Hi. rewrite H by assumption.
    destruct (Z.leb_spec i m), (Z.leb_spec 1 j), (Z.leb_spec j n); cbn; auto. rewrite E by lia. reflexivity.
  Qed.
  Lemma rep_get2 M b i j : rep M b -> 1 <= i <= m -> 1 <= j <= n -> get2 b i j = M i j.
  Proof.
    intros [S1 H] Hi Hj. apply get2_Some. rewrite H by (destruct Hb; lia).
    destruct (Z.leb_spec i m), (Z.leb_spec 1 j), (Z.leb_spec j n); cbn; auto; lia.
  Qed.
  Lemma rep_mod2 M b i j g v : rep M b -> 1 <= i <= m -> 1 <= j <= n -> g (M i j) = v ->
    rep (fun i' j' => if (i' =? i) && (j' =? j) then v else M i' j') (mod2 b i j g).
  Proof.
    intros [S1 H] Hi Hj Hv. split; [eapply same_shape_trans; [apply mod2_shape|exact S1]|].
    intros i' j' Hi'. destruct Hb as [Hm _]. assert (R : rows b = rows b0) by apply S1.
    rewrite mod2_ent by lia.
    rewrite !H by lia.
    destruct (Z.eqb_spec i' i) as [->|], (Z.eqb_spec j' j) as [->|]; cbn; auto.
    destruct (Z.leb_spec i m), (Z.leb_spec 1 j), (Z.leb_spec j n); cbn; try lia. subst v. reflexivity.
  Qed.
  Lemma rep_set2 M b i j v : rep M b -> 1 <= i <= m -> 1 <= j <= n ->
    rep (fun i' j' => if (i' =? i) && (j' =? j) then v else M i' j') (set2 b i j v).
  Proof. intros. apply (rep_mod2 M b i j (fun _ => v) v); auto. Qed.

  Lemma rep_block M b : 1 <= m -> rep M b -> block_updated m n (fun i j _ => M i j) b0 b.
  Proof.
    intros Hm [S1 H]. split; [assumption|]. destruct Hb as [Hm' Hb'].
    split.
    - intros i j Hi Hj. rewrite H by lia.
      destruct (Z.leb_spec i m), (Z.leb_spec 1 j), (Z.leb_spec j n); cbn; try lia.
      rewrite (ent_get2 b0 i j); [reflexivity|]. apply (holds_block_pos b0 m n); try lia. split; auto.
    - intros p Hp. destruct (Z_lt_le_dec p 1).
      { rewrite !(proj2 (elem_None _ _)); auto; lia. }
      destruct (pos_surj (rows b0) p ltac:(lia) ltac:(lia)) as (i & j & Hi & Hj & E).
      specialize (H i j Hi). unfold ent in H. destruct S1 as [R1 _]. rewrite R1, E in H. rewrite H.
      destruct (Z.leb_spec i m), (Z.leb_spec 1 j), (Z.leb_spec j n); cbn; auto.
      exfalso. apply (Hp i j); lia.
  Qed.

  (** a loop over part of one column *)
  Lemma rep_col lo hi j M b h body :
    1 <= lo -> hi <= m -> 1 <= j <= n -> rep M b ->
    (forall i M' b', lo <= i <= hi -> rep M' b' ->
       (forall i' j', (j' <> j \/ i <= i') -> M' i' j' = M i' j') ->
       rep (fun i' j' => if (i' =? i) && (j' =? j) then h i else M' i' j') (body i b')) ->
    rep (fun i' j' => if (lo <=? i') && (i' <=? hi) && (j' =? j) then h i' else M i' j') (for_ (range lo hi) b body).
  Proof.
    intros Hlo Hhi Hj HM Hs.
    destruct (Z_lt_le_dec hi lo).
    { rewrite range_nil, for_nil by lia. eapply rep_ext; [|exact HM]. intros i' j' Hi' _.
      destruct (Z.leb_spec lo i'), (Z.leb_spec i' hi); cbn; auto; lia. }
    apply (rep_ext (fun i' j' => if (lo <=? i') && (i' <? hi + 1) && (j' =? j) then h i' else M i' j')).
    { intros i' j' _ _. replace (i' <? hi + 1) with (i' <=? hi); [reflexivity|]. destruct (Z.leb_spec i' hi), (Z.ltb_spec i' (hi + 1)); auto; lia. }
    apply (for_range_ind (fun k b' => rep (fun i' j' => if (lo <=? i') && (i' <? k) && (j' =? j) then h i' else M i' j') b')).
    - lia.
    - eapply rep_ext; [|exact HM]. intros i' j' _ _. destruct (Z.leb_spec lo i'), (Z.ltb_spec i' lo); cbn; auto; lia.
    - intros i b' Hi HP.
      eapply rep_ext; [|apply (Hs i _ b' Hi HP)].
      + intros i' j' _ _. cbn beta. destruct (Z.eqb_spec i' i) as [->|], (Z.eqb_spec j' j) as [->|]; cbn; rewrite ?andb_false_r; auto.
        * destruct (Z.leb_spec lo i), (Z.ltb_spec i (i + 1)); cbn; auto; lia.
        * destruct (Z.leb_spec lo i'), (Z.ltb_spec i' i), (Z.ltb_spec i' (i + 1)); cbn; auto; lia.
      + intros i' j' Hij. cbn beta. destruct (Z.eqb_spec j' j), (Z.ltb_spec i' i); rewrite ?andb_false_r; cbn; auto; lia.
  Qed.
End Rep.

Section Trmm.
  Context {F : Type} {NF : Num F}.
  Local Open Scope num_scope.
  Notation fa := (fa F).
  Context (b0 : fa) (m n : Z) (Hb : holds_block b0 m n) (Hm : (1 <= m)%Z).
  Notation rep := (rep b0 m n).
  Context (nounit : bool) (alpha : F) (a : fa).
  Local Notation X := (get2 b0).

  Lemma add_terms_snoc (x : F) sk t ks k : add_terms x sk t (ks ++ [k]) = if sk k then add_terms x sk t ks else add_terms x sk t ks + t k.
  Proof. unfold add_terms. rewrite fold_left_app. reflexivity. Qed.

  Lemma add_terms_ext (x x' : F) sk sk' t t' ks : x = x' ->
    (forall k, In k ks -> sk k = sk' k /\ t k = t' k) -> add_terms x sk t ks = add_terms x' sk' t' ks.
  Proof.
    intros <-. unfold add_terms. revert x. induction ks as [|k ks IH]; intros x H; [reflexivity|]. cbn [fold_left].
    destruct (H k (or_introl eq_refl)) as [-> ->]. apply IH. intros; apply H; right; assumption.
  Qed.

  Ltac cases := repeat match goal with
    | |- context [Z.eqb ?x ?y] => destruct (Z.eqb_spec x y); subst
    | |- context [Z.leb ?x ?y] => destruct (Z.leb_spec x y)
    | |- context [Z.ltb ?x ?y] => destruct (Z.ltb_spec x y)
    end; cbn [andb orb negb]; try lia.

  (** *** column by column: the left-hand variants *)
  Lemma rep_cols (h : Z -> Z -> F) body :
    (forall j M b, (1 <= j <= n)%Z -> rep M b -> (forall i, (1 <= i <= m)%Z -> M i j = X i j) ->
       rep (fun i' j' => if (j' =? j)%Z then h i' j else M i' j') (body j b)) ->
    rep h (for_ (range 1 n) b0 body).
  Proof.
    intros Hs. destruct (Z_lt_le_dec n 1).
    { rewrite range_nil, for_nil by lia. eapply rep_ext; [|apply rep_init; assumption]. intros; lia. }
    eapply (rep_ext b0 m n (fun i' j' => if (j' <? n + 1)%Z then h i' j' else X i' j')).
    { intros. cases. reflexivity. }
    apply (for_range_ind (fun k b => rep (fun i' j' => if (j' <? k)%Z then h i' j' else X i' j') b)); [lia| |].
    - eapply rep_ext; [|apply rep_init; assumption]. intros. cases. reflexivity.
    - intros j b Hj HP. eapply rep_ext; [|apply (Hs j _ b Hj HP)].
      + intros i' j' _ _. cbn beta. cases; reflexivity.
      + intros i Hi. cases. reflexivity.
  Qed.

  Lemma lnu_rep : rep (trmm_entry true true true nounit m n alpha (get2 a) X) (trmm_lnu nounit m n alpha a b0).
  Proof.
    unfold trmm_lnu. apply rep_cols. intros j M b Hj HM HX.
    set (st := fun i => if X i j =? f0 then X i j else if nounit then alpha * X i j * get2 a i i else alpha * X i j).
    set (T := fun i k => add_terms (st i) (fun k => X k j =? f0) (fun k => alpha * X k j * get2 a i k) (range (i + 1) (k - 1))).
    eapply (rep_ext b0 m n (fun i' j' => if (j' =? j)%Z && (i' <? m + 1)%Z then T i' (m + 1)%Z else M i' j')).
    { intros i' j' Hi' Hj'. cases; try reflexivity. unfold T, trmm_entry. cbv iota zeta beta.
      replace (m + 1 - 1)%Z with m by lia. reflexivity. }
    apply (for_range_ind (fun k b' => rep (fun i' j' => if (j' =? j)%Z && (i' <? k)%Z then T i' k else M i' j') b')); [lia| |].
    { eapply rep_ext; [|exact HM]. intros. cases; reflexivity. }
    intros k b' Hk HP.
    assert (G : get2 b' k j = X k j).
    { rewrite (rep_get2 b0 m n Hb _ _ _ _ HP) by lia. cases. apply HX; lia. }
    rewrite G. unfold fne.
    assert (TS : forall i, (i < k)%Z -> T i (k + 1)%Z = if X k j =? f0 then T i k else T i k + alpha * X k j * get2 a i k).
    { intros i Hi. unfold T. replace (k + 1 - 1)%Z with k by lia. rewrite range_snoc by lia. apply add_terms_snoc. }
    assert (TK : T k (k + 1)%Z = st k).
    { unfold T. rewrite range_nil by lia. reflexivity. }
    destruct (X k j =? f0) eqn:E0; cbn [negb].
    { eapply rep_ext; [|exact HP]. intros i' j' Hi' Hj'. cbn beta. cases; try reflexivity.
      - symmetry. apply TS. lia.
      - rewrite HX by lia. replace i' with k by lia. rewrite TK. unfold st. rewrite E0. reflexivity. }
    eapply rep_ext; [|apply (rep_set2 b0 m n Hb); [|lia|lia]].
    2:{ eapply (rep_col b0 m n 1 (k - 1) j _ b' (fun i => T i k + alpha * X k j * get2 a i k)); [lia|lia|lia|exact HP|].
        intros i M' b2 Hi HM' HE. eapply (rep_mod2 b0 m n Hb); [exact HM'|lia|lia|].
        cbn beta. rewrite HE by lia. cases. reflexivity. }
    intros i' j' Hi' Hj'. cbn beta. cases; try reflexivity.
    - rewrite TK. unfold st. rewrite E0. reflexivity.
    - symmetry. apply TS. lia.
  Qed.

  Lemma lnl_rep : rep (trmm_entry true false true nounit m n alpha (get2 a) X) (trmm_lnl nounit m n alpha a b0).
  Proof.
    unfold trmm_lnl. apply rep_cols. intros j M b Hj HM HX.
    set (st := fun i => if X i j =? f0 then X i j else if nounit then alpha * X i j * get2 a i i else alpha * X i j).
    set (T := fun i k => add_terms (st i) (fun k => X k j =? f0) (fun k => alpha * X k j * get2 a i k) (range_rev (k + 1) (i - 1))).
    eapply (rep_ext b0 m n (fun i' j' => if (j' =? j)%Z && (1 - 1 <? i')%Z then T i' (1 - 1)%Z else M i' j')).
    { intros i' j' Hi' Hj'. cases; reflexivity. }
    apply (for_range_rev_ind (fun k b' => rep (fun i' j' => if (j' =? j)%Z && (k <? i')%Z then T i' k else M i' j') b')); [lia| |].
    { eapply rep_ext; [|exact HM]. intros. cases; reflexivity. }
    intros k b' Hk HP.
    assert (G : get2 b' k j = X k j).
    { rewrite (rep_get2 b0 m n Hb _ _ _ _ HP) by lia. cases. apply HX; lia. }
    rewrite G. unfold fne.
    assert (TS : forall i, (k < i)%Z -> T i (k - 1)%Z = if X k j =? f0 then T i k else T i k + alpha * X k j * get2 a i k).
    { intros i Hi. unfold T. replace (k - 1 + 1)%Z with k by lia. rewrite range_rev_snoc by lia. apply add_terms_snoc. }
    assert (TK : T k (k - 1)%Z = st k).
    { unfold T. rewrite range_rev_nil by lia. reflexivity. }
    destruct (X k j =? f0) eqn:E0; cbn [negb].
    { eapply rep_ext; [|exact HP]. intros i' j' Hi' Hj'. cbn beta. cases; try reflexivity.
      - symmetry. apply TS. lia.
      - rewrite HX by lia. replace i' with k by lia. rewrite TK. unfold st. rewrite E0. reflexivity. }
    eapply rep_ext; [|eapply (rep_col b0 m n (k + 1) m j _ _ (fun i => T i k + alpha * X k j * get2 a i k)); [lia|lia|lia| |]].
    2:{ instantiate (1 := fun i' j' => if (i' =? k)%Z && (j' =? j)%Z then st k else if (j' =? j)%Z && (k <? i')%Z then T i' k else M i' j').
        pose proof (rep_set2 b0 m n Hb _ b' k j (alpha * X k j) HP ltac:(lia) Hj) as H1. unfold st. rewrite E0.
        destruct nounit; [|exact H1].
        eapply rep_ext; [|eapply (rep_mod2 b0 m n Hb); [exact H1|lia|lia|reflexivity]].
        intros i' j' Hi' Hj'. cbn beta. cases; reflexivity. }
    2:{ intros i M' b2 Hi HM' HE. eapply (rep_mod2 b0 m n Hb); [exact HM'|lia|lia|].
        cbn beta. rewrite HE by lia. cases. reflexivity. }
    intros i' j' Hi' Hj'. cbn beta. cases; try reflexivity.
    - symmetry. exact TK.
    - symmetry. apply TS. lia.
  Qed.

  Lemma add_terms_for (x : F) (t : Z -> F) ks : add_terms x (fun _ => false) t ks = for_ ks x (fun k s => s + t k).
  Proof. reflexivity. Qed.

  Lemma ltu_rep : rep (trmm_entry true true false nounit m n alpha (get2 a) X) (trmm_ltu nounit m n alpha a b0).
  Proof.
    unfold trmm_ltu. apply rep_cols. intros j M b Hj HM HX.
    set (h := fun i => alpha * add_terms (if nounit then X i j * get2 a i i else X i j) (fun _ => false) (fun k => get2 a k i * X k j) (range 1 (i - 1))).
    eapply (rep_ext b0 m n (fun i' j' => if (j' =? j)%Z && (1 - 1 <? i')%Z then h i' else M i' j')).
    { intros i' j' Hi' Hj'. cases; reflexivity. }
    apply (for_range_rev_ind (fun k b' => rep (fun i' j' => if (j' =? j)%Z && (k <? i')%Z then h i' else M i' j') b')); [lia| |].
    { eapply rep_ext; [|exact HM]. intros. cases; reflexivity. }
    intros i b' Hi HP.
    assert (G : forall k, (1 <= k <= i)%Z -> get2 b' k j = X k j).
    { intros k Hk. rewrite (rep_get2 b0 m n Hb _ _ _ _ HP) by lia. cases. apply HX; lia. }
    eapply rep_ext; [|apply (rep_set2 b0 m n Hb _ b' i j _ HP); lia].
    intros i' j' Hi' Hj'. cbn beta. cases; try reflexivity.
    unfold h. f_equal. rewrite add_terms_for, G by lia. apply for_ext. intros k s Hk. apply in_range in Hk. rewrite G by lia. reflexivity.
  Qed.

  Lemma ltl_rep : rep (trmm_entry true false false nounit m n alpha (get2 a) X) (trmm_ltl nounit m n alpha a b0).
  Proof.
    unfold trmm_ltl. apply rep_cols. intros j M b Hj HM HX.
    set (h := fun i => alpha * add_terms (if nounit then X i j * get2 a i i else X i j) (fun _ => false) (fun k => get2 a k i * X k j) (range (i + 1) m)).
    eapply (rep_ext b0 m n (fun i' j' => if (j' =? j)%Z && (i' <? m + 1)%Z then h i' else M i' j')).
    { intros i' j' Hi' Hj'. cases; reflexivity. }
    apply (for_range_ind (fun k b' => rep (fun i' j' => if (j' =? j)%Z && (i' <? k)%Z then h i' else M i' j') b')); [lia| |].
    { eapply rep_ext; [|exact HM]. intros. cases; reflexivity. }
    intros i b' Hi HP.
    assert (G : forall k, (i <= k <= m)%Z -> get2 b' k j = X k j).
    { intros k Hk. rewrite (rep_get2 b0 m n Hb _ _ _ _ HP) by lia. cases. apply HX; lia. }
    eapply rep_ext; [|apply (rep_set2 b0 m n Hb _ b' i j _ HP); lia].
    intros i' j' Hi' Hj'. cbn beta. cases; try reflexivity.
    unfold h. f_equal. rewrite add_terms_for, G by lia. apply for_ext. intros k s Hk. apply in_range in Hk. rewrite G by lia. reflexivity.
  Qed.

  (** *** the right-hand variants *)
  Lemma rn_diag_rep j M b : (1 <= j <= n)%Z -> rep M b ->
    rep (fun i' j' => if (j' =? j)%Z then (if nounit then alpha * get2 a j j else alpha) * M i' j else M i' j')
        (trmm_rn_diag nounit m alpha a j b).
  Proof.
    intros Hj HM. unfold trmm_rn_diag.
    eapply rep_ext; [|eapply (rep_col b0 m n 1 m j _ _ (fun i => (if nounit then alpha * get2 a j j else alpha) * M i j)); [lia|lia|lia|exact HM|]].
    { intros i' j' Hi' Hj'. cbn beta. cases; reflexivity. }
    intros i M' b2 Hi HM' HE. cbv zeta.
    replace ((if nounit then alpha * get2 a j j else alpha) * M i j) with ((if nounit then alpha * get2 a j j else alpha) * get2 b2 i j).
    - apply (rep_set2 b0 m n Hb); [exact HM'|lia|lia].
    - f_equal. rewrite (rep_get2 b0 m n Hb _ _ _ _ HM') by lia. apply HE. lia.
  Qed.

  Lemma rn_add_rep j k M b : (1 <= j <= n)%Z -> (1 <= k <= n)%Z -> k <> j -> rep M b ->
    rep (fun i' j' => if (j' =? j)%Z then (if get2 a k j =? f0 then M i' j else M i' j + alpha * get2 a k j * M i' k) else M i' j')
        (trmm_rn_add m alpha a j k b).
  Proof.
    intros Hj Hk Hne HM. unfold trmm_rn_add, fne. destruct (get2 a k j =? f0); cbn [negb].
    { eapply rep_ext; [|exact HM]. intros. cases; reflexivity. }
    eapply rep_ext; [|eapply (rep_col b0 m n 1 m j _ _ (fun i => M i j + alpha * get2 a k j * M i k)); [lia|lia|lia|exact HM|]].
    { intros i' j' Hi' Hj'. cbn beta. cases; reflexivity. }
    intros i M' b2 Hi HM' HE. cbv zeta. eapply (rep_mod2 b0 m n Hb); [exact HM'|lia|lia|].
    cbn beta. rewrite HE by lia. rewrite (rep_get2 b0 m n Hb _ _ _ _ HM') by lia. rewrite HE by lia. reflexivity.
  Qed.

  (** adding terms to column j from a list of other columns *)
  Lemma rn_adds_rep j ks M b : (1 <= j <= n)%Z -> (forall k, In k ks -> (1 <= k <= n)%Z /\ k <> j) -> rep M b ->
    rep (fun i' j' => if (j' =? j)%Z then add_terms (M i' j) (fun k => get2 a k j =? f0) (fun k => alpha * get2 a k j * M i' k) ks
                      else M i' j')
        (for_ ks b (trmm_rn_add m alpha a j)).
  Proof.
    intros Hj. revert M b. induction ks as [|k ks IH]; intros M b Hks HM.
    - rewrite for_nil. eapply rep_ext; [|exact HM]. intros. cases; reflexivity.
    - rewrite for_cons. destruct (Hks k (or_introl eq_refl)) as [Hk Hne].
      eapply rep_ext; [|apply (IH _ _ (fun k' Hk' => Hks k' (or_intror Hk')) (rn_add_rep j k M b Hj Hk Hne HM))].
      intros i' j' Hi' Hj'. cbn beta. cases; try reflexivity. cbn [add_terms]. unfold add_terms. cbn [fold_left].
      apply (add_terms_ext _ _ _ _ _ _ ks); [reflexivity|]. intros k' Hk'. split; [reflexivity|].
      destruct (Hks k' (or_intror Hk')) as [_ Hn']. cases. reflexivity.
  Qed.

  (** one column finished: column j from its own old value and the columns ks *)
  Lemma rn_column_rep j ks M b : (1 <= j <= n)%Z -> (forall k, In k ks -> (1 <= k <= n)%Z /\ k <> j) -> rep M b ->
    (forall i k, (1 <= i <= m)%Z -> k = j \/ In k ks -> M i k = X i k) ->
    rep (fun i' j' => if (j' =? j)%Z
           then add_terms ((if nounit then alpha * get2 a j j else alpha) * X i' j)
                  (fun k => get2 a k j =? f0) (fun k => alpha * get2 a k j * X i' k) ks
           else M i' j')
        (for_ ks (trmm_rn_diag nounit m alpha a j b) (trmm_rn_add m alpha a j)).
  Proof.
    intros Hj Hks HM HX. eapply rep_ext; [|apply (rn_adds_rep j _ _ _ Hj Hks (rn_diag_rep j M b Hj HM))].
    intros i' j' Hi' Hj'. cbn beta. destruct (Z.eqb_spec j' j) as [->|]; [|reflexivity].
    apply add_terms_ext.
    - rewrite Z.eqb_refl. rewrite HX by auto. reflexivity.
    - intros k Hk. split; [reflexivity|]. destruct (Hks k Hk). cases. rewrite HX by auto. reflexivity.
  Qed.

  Lemma rnu_rep : rep (trmm_entry false true true nounit m n alpha (get2 a) X) (trmm_rnu nounit m n alpha a b0).
  Proof.
    unfold trmm_rnu. set (h := trmm_entry false true true nounit m n alpha (get2 a) X).
    destruct (Z_lt_le_dec n 1).
    { rewrite range_rev_nil, for_nil by lia. eapply rep_ext; [|apply rep_init; assumption]. intros; lia. }
    eapply (rep_ext b0 m n (fun i' j' => if (1 - 1 <? j')%Z then h i' j' else X i' j')).
    { intros. cases. reflexivity. }
    apply (for_range_rev_ind (fun k b => rep (fun i' j' => if (k <? j')%Z then h i' j' else X i' j') b)); [lia| |].
    { eapply rep_ext; [|apply rep_init; assumption]. intros. cases; reflexivity. }
    intros j b Hj HP.
    assert (Hks : forall k, In k (range 1 (j - 1)) -> (1 <= k <= n)%Z /\ k <> j) by (intros k Hk; apply in_range in Hk; lia).
    eapply rep_ext; [|apply (rn_column_rep j _ _ _ Hj Hks HP)].
    - intros i' j' Hi' Hj'. cbn beta. cases; reflexivity.
    - intros i k Hi [->|Hk]; [|apply in_range in Hk]; cases; reflexivity.
  Qed.

  Lemma rnl_rep : rep (trmm_entry false false true nounit m n alpha (get2 a) X) (trmm_rnl nounit m n alpha a b0).
  Proof.
    unfold trmm_rnl. set (h := trmm_entry false false true nounit m n alpha (get2 a) X).
    destruct (Z_lt_le_dec n 1).
    { rewrite range_nil, for_nil by lia. eapply rep_ext; [|apply rep_init; assumption]. intros; lia. }
    eapply (rep_ext b0 m n (fun i' j' => if (j' <? n + 1)%Z then h i' j' else X i' j')).
    { intros. cases. reflexivity. }
    apply (for_range_ind (fun k b => rep (fun i' j' => if (j' <? k)%Z then h i' j' else X i' j') b)); [lia| |].
    { eapply rep_ext; [|apply rep_init; assumption]. intros. cases; reflexivity. }
    intros j b Hj HP.
    assert (Hks : forall k, In k (range (j + 1) n) -> (1 <= k <= n)%Z /\ k <> j) by (intros k Hk; apply in_range in Hk; lia).
    eapply rep_ext; [|apply (rn_column_rep j _ _ _ Hj Hks HP)].
    - intros i' j' Hi' Hj'. cbn beta. cases; reflexivity.
    - intros i k Hi [->|Hk]; [|apply in_range in Hk]; cases; reflexivity.
  Qed.

  Lemma rt_add_rep k j M b : (1 <= j <= n)%Z -> (1 <= k <= n)%Z -> k <> j -> rep M b ->
    rep (fun i' j' => if (j' =? j)%Z then (if get2 a j k =? f0 then M i' j else M i' j + alpha * get2 a j k * M i' k) else M i' j')
        (trmm_rt_add m alpha a k j b).
  Proof.
    intros Hj Hk Hne HM. unfold trmm_rt_add, fne. destruct (get2 a j k =? f0); cbn [negb].
    { eapply rep_ext; [|exact HM]. intros. cases; reflexivity. }
    eapply rep_ext; [|eapply (rep_col b0 m n 1 m j _ _ (fun i => M i j + alpha * get2 a j k * M i k)); [lia|lia|lia|exact HM|]].
    { intros i' j' Hi' Hj'. cbn beta. cases; reflexivity. }
    intros i M' b2 Hi HM' HE. cbv zeta.
    replace (M i j + alpha * get2 a j k * M i k) with (get2 b2 i j + alpha * get2 a j k * get2 b2 i k).
    - apply (rep_set2 b0 m n Hb); [exact HM'|lia|lia].
    - rewrite !(rep_get2 b0 m n Hb _ _ _ _ HM') by lia. rewrite !HE by lia. reflexivity.
  Qed.

  (** column k added to the columns js *)
  Lemma rt_adds_rep k js M b : (1 <= k <= n)%Z -> NoDup js -> (forall j, In j js -> (1 <= j <= n)%Z /\ k <> j) -> rep M b ->
    exists M', rep M' (for_ js b (trmm_rt_add m alpha a k)) /\
      forall i j, M' i j = if in_dec Z.eq_dec j js then (if get2 a j k =? f0 then M i j else M i j + alpha * get2 a j k * M i k)
                           else M i j.
  Proof.
    intros Hk. revert M b. induction js as [|j js IH]; intros M b ND Hjs HM.
    - exists M. split; [exact HM|]. intros; destruct (in_dec _ _ _) as [[]|]; reflexivity.
    - rewrite for_cons. destruct (Hjs j (or_introl eq_refl)) as [Hj Hne]. inversion ND; subst.
      destruct (IH _ _ H2 (fun j' Hj' => Hjs j' (or_intror Hj')) (rt_add_rep k j M b Hj Hk Hne HM)) as (M' & HM' & E).
      exists M'. split; [exact HM'|]. intros i j'. rewrite E. cbn beta.
      destruct (in_dec Z.eq_dec j' js) as [I1|I1], (in_dec Z.eq_dec j' (j :: js)) as [I2|I2].
      + destruct (Z.eqb_spec j' j) as [->|]; [contradiction|]. destruct (Z.eqb_spec k j); [lia|]. reflexivity.
      + exfalso. apply I2. right; assumption.
      + destruct I2 as [->|]; [|contradiction]. rewrite Z.eqb_refl. reflexivity.
      + destruct (Z.eqb_spec j' j) as [->|]; [exfalso; apply I2; left; reflexivity|]. reflexivity.
  Qed.

  Lemma rt_diag_rep k M b : (1 <= k <= n)%Z -> rep M b ->
    rep (fun i' j' => if (j' =? k)%Z
           then (let t := if nounit then alpha * get2 a k k else alpha in if t =? f1 then M i' k else t * M i' k)
           else M i' j') (trmm_rt_diag nounit m alpha a k b).
  Proof.
    intros Hk HM. unfold trmm_rt_diag, fne. cbv zeta. set (t := if nounit then _ else _).
    destruct (t =? f1); cbn [negb].
    { eapply rep_ext; [|exact HM]. intros. cases; reflexivity. }
    eapply rep_ext; [|eapply (rep_col b0 m n 1 m k _ _ (fun i => t * M i k)); [lia|lia|lia|exact HM|]].
    { intros i' j' Hi' Hj'. cbn beta. cases; reflexivity. }
    intros i M' b2 Hi HM' HE. replace (t * M i k) with (t * get2 b2 i k).
    - apply (rep_set2 b0 m n Hb); [exact HM'|lia|lia].
    - f_equal. rewrite (rep_get2 b0 m n Hb _ _ _ _ HM') by lia. apply HE. lia.
  Qed.

  Lemma NoDup_zup lo st k : (st <> 0)%Z -> NoDup (zup lo st k).
  Proof.
    intros Hst. revert lo. induction k; intros lo; cbn [zup]; constructor; auto.
    rewrite in_zup. intros (q & Hq & E). nia.
  Qed.

  Lemma NoDup_range lo hi : NoDup (range lo hi).
  Proof. apply NoDup_zup. lia. Qed.

  Lemma rtu_rep : rep (trmm_entry false true false nounit m n alpha (get2 a) X) (trmm_rtu nounit m n alpha a b0).
  Proof.
    unfold trmm_rtu.
    destruct (Z_lt_le_dec n 1).
    { rewrite range_nil, for_nil by lia. eapply rep_ext; [|apply rep_init; assumption]. intros; lia. }
    set (st := fun i j => let t := if nounit then alpha * get2 a j j else alpha in if t =? f1 then X i j else t * X i j).
    set (T := fun i j k => add_terms (st i j) (fun k => get2 a j k =? f0) (fun k => alpha * get2 a j k * X i k) (range (j + 1) (k - 1))).
    eapply (rep_ext b0 m n (fun i' j' => if (j' <? n + 1)%Z then T i' j' (n + 1)%Z else X i' j')).
    { intros. cases. unfold T. replace (n + 1 - 1)%Z with n by lia. reflexivity. }
    apply (for_range_ind (fun k b => rep (fun i' j' => if (j' <? k)%Z then T i' j' k else X i' j') b)); [lia| |].
    { eapply rep_ext; [|apply rep_init; assumption]. intros. cases; reflexivity. }
    intros k b Hk HP.
    destruct (rt_adds_rep k (range 1 (k - 1)) _ b Hk (NoDup_range _ _)
       (fun j Hj => ltac:(apply in_range in Hj; lia)) HP) as (M1 & HM1 & E1).
    eapply rep_ext; [|apply (rt_diag_rep k M1 _ Hk HM1)].
    intros i' j' Hi' Hj'. cbn beta. rewrite !E1.
    destruct (Z.eqb_spec j' k) as [->|].
    - destruct (in_dec Z.eq_dec k (range 1 (k - 1))) as [I|I]; [apply in_range in I; lia|].
      cases. unfold T. rewrite range_nil by lia. reflexivity.
    - destruct (in_dec Z.eq_dec j' (range 1 (k - 1))) as [I|I]; rewrite in_range in I.
      + cases. unfold T. replace (k + 1 - 1)%Z with k by lia. rewrite (range_snoc (j' + 1) k) by lia. rewrite add_terms_snoc. reflexivity.
      + cases; reflexivity.
  Qed.

  Lemma rtl_rep : rep (trmm_entry false false false nounit m n alpha (get2 a) X) (trmm_rtl nounit m n alpha a b0).
  Proof.
    unfold trmm_rtl.
    destruct (Z_lt_le_dec n 1).
    { rewrite range_rev_nil, for_nil by lia. eapply rep_ext; [|apply rep_init; assumption]. intros; lia. }
    set (st := fun i j => let t := if nounit then alpha * get2 a j j else alpha in if t =? f1 then X i j else t * X i j).
    set (T := fun i j k => add_terms (st i j) (fun k => get2 a j k =? f0) (fun k => alpha * get2 a j k * X i k) (range_rev (k + 1) (j - 1))).
    eapply (rep_ext b0 m n (fun i' j' => if (1 - 1 <? j')%Z then T i' j' (1 - 1)%Z else X i' j')).
    { intros. cases. reflexivity. }
    apply (for_range_rev_ind (fun k b => rep (fun i' j' => if (k <? j')%Z then T i' j' k else X i' j') b)); [lia| |].
    { eapply rep_ext; [|apply rep_init; assumption]. intros. cases; reflexivity. }
    intros k b Hk HP.
    destruct (rt_adds_rep k (range (k + 1) n) _ b Hk (NoDup_range _ _)
       (fun j Hj => ltac:(apply in_range in Hj; lia)) HP) as (M1 & HM1 & E1).
    eapply rep_ext; [|apply (rt_diag_rep k M1 _ Hk HM1)].
    intros i' j' Hi' Hj'. cbn beta. rewrite !E1.
    destruct (Z.eqb_spec j' k) as [->|].
    - destruct (in_dec Z.eq_dec k (range (k + 1) n)) as [I|I]; [apply in_range in I; lia|].
      cases. unfold T. rewrite range_rev_nil by lia. reflexivity.
    - destruct (in_dec Z.eq_dec j' (range (k + 1) n)) as [I|I]; rewrite in_range in I.
      + cases. unfold T. replace (k - 1 + 1)%Z with k by lia. rewrite (range_rev_snoc k (j' - 1)) by lia. rewrite add_terms_snoc. reflexivity.
      + cases; reflexivity.
  Qed.

  Lemma dtrmm_fa_rep lside upper notrans :
    rep (trmm_entry lside upper notrans nounit m n alpha (get2 a) X) (dtrmm_fa lside upper notrans nounit m n alpha a b0).
  Proof.
    unfold dtrmm_fa. destruct lside, notrans, upper;
      [apply lnu_rep|apply lnl_rep|apply ltu_rep|apply ltl_rep|apply rnu_rep|apply rnl_rep|apply rtu_rep|apply rtl_rep].
  Qed.
End Trmm.
