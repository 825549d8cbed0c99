(** Loops over the entries of a matrix. *)
From Verif Require Import Base Num Array Spec Lists FaLemmas.

Section MatLemmas.
  Context {F : Type} {NF : Num F}.
  Notation fa := (fa F).

  (** [c] is [c0] with entry (i,j) mapped by G i j, for all entries of rows 1..rows *)
  Definition mapped (c0 : fa) (G : Z -> Z -> F -> F) (c : fa) : Prop :=
    same_shape c c0 /\
    forall i j, 1 <= i <= rows c0 -> ent c i j = option_map (G i j) (ent c0 i j).

  Lemma option_map_ext {A B} (g h : A -> B) o : (forall x, o = Some x -> g x = h x) -> option_map g o = option_map h o.
  Proof. destruct o; cbn; intros H; [rewrite H|]; reflexivity. Qed.
  Lemma option_map_id {A} (g : A -> A) o : (forall x, o = Some x -> g x = x) -> option_map g o = o.
  Proof. destruct o; cbn; intros H; [rewrite H|]; reflexivity. Qed.
  Lemma option_map_comp {A B C} (g : B -> C) (h : A -> B) o : option_map g (option_map h o) = option_map (fun x => g (h x)) o.
  Proof. destruct o; reflexivity. Qed.

  Lemma mapped_refl c : mapped c (fun _ _ x => x) c.
  Proof. split; [apply same_shape_refl|]. intros. rewrite option_map_id; auto. Qed.
  Lemma mapped_trans c0 G c1 H c2 : mapped c0 G c1 -> mapped c1 H c2 -> mapped c0 (fun i j x => H i j (G i j x)) c2.
  Proof.
    intros [S1 E1] [S2 E2]. split; [eapply same_shape_trans; eassumption|].
    intros i j Hi. rewrite E2 by (destruct S1 as [-> _]; lia). rewrite E1 by lia. apply option_map_comp.
  Qed.
  Lemma mapped_ext c0 G H c : (forall i j x, 1 <= i <= rows c0 -> ent c0 i j = Some x -> G i j x = H i j x) ->
    mapped c0 G c -> mapped c0 H c.
  Proof.
    intros E [S1 E1]. split; [assumption|]. intros i j Hi. rewrite E1 by lia.
    apply option_map_ext. intros. apply E; assumption.
  Qed.
  Lemma mapped_mod2 c i j g : 1 <= i <= rows c ->
    mapped c (fun i' j' x => if (i' =? i) && (j' =? j) then g x else x) (mod2 c i j g).
  Proof.
    intros Hi. split; [apply mod2_shape|]. intros i' j' Hi'. rewrite mod2_ent by lia.
    destruct (Z.eqb_spec i' i) as [->|], (Z.eqb_spec j' j) as [->|]; cbn; try reflexivity;
      rewrite option_map_id; auto.
  Qed.
  (** assignment whose right-hand side reads the place itself *)
  Lemma mapped_set2 c i j g : 1 <= i <= rows c ->
    mapped c (fun i' j' x => if (i' =? i) && (j' =? j) then g x else x) (set2 c i j (g (get2 c i j))).
  Proof.
    intros Hi. destruct (mapped_mod2 c i j (fun _ => g (get2 c i j)) Hi) as [S1 E1]. split; [exact S1|].
    intros i' j' Hi'. unfold set2. rewrite E1 by lia. apply option_map_ext. intros x Hx.
    destruct (Z.eqb_spec i' i) as [->|], (Z.eqb_spec j' j) as [->|]; cbn; auto.
    rewrite (get2_Some _ _ _ _ Hx). reflexivity.
  Qed.

  (** one column, rows lo..hi, each step mapping its own entry *)
  Lemma mapped_col c lo hi j g body : 1 <= lo -> hi <= rows c ->
    (forall i c', same_shape c' c -> lo <= i <= hi ->
       mapped c' (fun i' j' x => if (i' =? i) && (j' =? j) then g i x else x) (body i c')) ->
    mapped c (fun i' j' x => if (lo <=? i') && (i' <=? hi) && (j' =? j) then g i' x else x) (for_ (range lo hi) c body).
  Proof.
    intros Hlo Hhi Hb.
    destruct (Z_lt_le_dec hi lo).
    { rewrite range_nil, for_nil by lia. eapply mapped_ext; [|apply mapped_refl]. intros. cbn.
      destruct (Z.leb_spec lo i), (Z.leb_spec i hi); cbn; auto; lia. }
    apply (mapped_ext _ (fun i' j' x => if (lo <=? i') && (i' <? hi + 1) && (j' =? j) then g i' x else x)).
    { intros. replace (i <? hi + 1) with (i <=? hi); [reflexivity|]. destruct (Z.leb_spec i hi), (Z.ltb_spec i (hi + 1)); auto; lia. }
    apply (for_range_ind (fun k c' => mapped c (fun i' j' x => if (lo <=? i') && (i' <? k) && (j' =? j) then g i' x else x) c')).
    - lia.
    - eapply mapped_ext; [|apply mapped_refl]. intros. cbn.
      destruct (Z.leb_spec lo i), (Z.ltb_spec i lo); cbn; auto; lia.
    - intros i s Hi HP. eapply mapped_ext; [|eapply mapped_trans; [exact HP|apply Hb; [apply HP|lia]]].
      intros i' j' x Hi' _. cbn.
      destruct (Z.eqb_spec i' i) as [->|], (Z.eqb_spec j' j) as [->|]; cbn; rewrite ?andb_false_r; auto.
      + destruct (Z.leb_spec lo i), (Z.ltb_spec i i), (Z.ltb_spec i (i + 1)); cbn; auto; lia.
      + destruct (Z.leb_spec lo i'), (Z.ltb_spec i' i), (Z.ltb_spec i' (i + 1)); cbn; auto; lia.
  Qed.

  Lemma mapped_col1 c m j g body : m <= rows c ->
    (forall i c', same_shape c' c -> 1 <= i <= m ->
       mapped c' (fun i' j' x => if (i' =? i) && (j' =? j) then g i x else x) (body i c')) ->
    mapped c (fun i' j' x => if (i' <=? m) && (j' =? j) then g i' x else x) (for_ (range 1 m) c body).
  Proof.
    intros Hm Hb. eapply mapped_ext; [|apply (mapped_col c 1 m j g body); [lia|assumption|exact Hb]].
    intros. cbn. destruct (Z.leb_spec 1 i); [reflexivity|lia].
  Qed.

  (** columns lo..hi, each step mapping rows 1..m of its own column *)
  Lemma mapped_cols c lo hi m g body :
    (forall j c', same_shape c' c -> lo <= j <= hi ->
       mapped c' (fun i' j' x => if (i' <=? m) && (j' =? j) then g i' j x else x) (body j c')) ->
    mapped c (fun i' j' x => if (i' <=? m) && (lo <=? j') && (j' <=? hi) then g i' j' x else x) (for_ (range lo hi) c body).
  Proof.
    intros Hb.
    destruct (Z_lt_le_dec hi lo).
    { rewrite range_nil, for_nil by lia. eapply mapped_ext; [|apply mapped_refl]. intros. cbn.
      destruct (Z.leb_spec lo j), (Z.leb_spec j hi); rewrite ?andb_false_r; cbn; auto; lia. }
    apply (mapped_ext _ (fun i' j' x => if (i' <=? m) && (lo <=? j') && (j' <? hi + 1) then g i' j' x else x)).
    { intros. replace (j <? hi + 1) with (j <=? hi); [reflexivity|]. destruct (Z.leb_spec j hi), (Z.ltb_spec j (hi + 1)); auto; lia. }
    apply (for_range_ind (fun k c' => mapped c (fun i' j' x => if (i' <=? m) && (lo <=? j') && (j' <? k) then g i' j' x else x) c')).
    - lia.
    - eapply mapped_ext; [|apply mapped_refl]. intros. cbn.
      destruct (Z.leb_spec lo j), (Z.ltb_spec j lo); rewrite ?andb_false_r; cbn; auto; lia.
    - intros j s Hj HP. eapply mapped_ext; [|eapply mapped_trans; [exact HP|apply Hb; [apply HP|lia]]].
      intros i' j' x Hi' _. cbn.
      destruct (Z.leb_spec i' m), (Z.eqb_spec j' j) as [->|]; cbn; rewrite ?andb_false_r; auto.
      + destruct (Z.leb_spec lo j), (Z.ltb_spec j j), (Z.ltb_spec j (j + 1)); cbn; auto; lia.
      + destruct (Z.leb_spec lo j'), (Z.ltb_spec j' j), (Z.ltb_spec j' (j + 1)); cbn; auto; lia.
  Qed.

  (** a loop each of whose steps maps column j *)
  Lemma mapped_iter c is m j (g : Z -> Z -> F -> F) body :
    (forall l c', same_shape c' c -> In l is ->
       mapped c' (fun i' j' x => if (i' <=? m) && (j' =? j) then g l i' x else x) (body l c')) ->
    mapped c (fun i' j' x => if (i' <=? m) && (j' =? j) then for_ is x (fun l x => g l i' x) else x) (for_ is c body).
  Proof.
    revert c. induction is as [|l is IH]; intros c Hb.
    - rewrite for_nil. eapply mapped_ext; [|apply mapped_refl]. intros. cbn. destruct (_ && _); reflexivity.
    - rewrite for_cons. pose proof (Hb l c (same_shape_refl _) (or_introl eq_refl)) as H1.
      eapply mapped_ext; [|eapply mapped_trans; [exact H1|apply IH]].
      + intros i' j' x _ _. cbn. destruct (_ && _); reflexivity.
      + intros l' c' S' Hl'. apply Hb; [|right; assumption]. eapply same_shape_trans; [exact S'|apply H1].
  Qed.

  Lemma mapped_block c0 m n g c : 1 <= m <= rows c0 ->
    mapped c0 (fun i j x => if (i <=? m) && (1 <=? j) && (j <=? n) then g i j x else x) c ->
    block_updated m n g c0 c.
  Proof.
    intros Hm [S1 E1]. split; [assumption|]. split.
    - intros i j Hi Hj. rewrite E1 by lia. apply option_map_ext. intros x _.
      destruct (Z.leb_spec i m), (Z.leb_spec 1 j), (Z.leb_spec j n); cbn; auto; lia.
    - intros p Hp. destruct (Z_lt_le_dec p 1).
      { rewrite !(proj2 (elem_None _ _)); auto; lia. }
      destruct (pos_surj (rows c0) p ltac:(lia) ltac:(lia)) as (i & j & Hi & Hj & E).
      specialize (E1 i j Hi). unfold ent in E1. destruct S1 as [R1 _]. rewrite R1, E in E1. rewrite E1.
      apply option_map_id. intros x _.
      destruct (Z.leb_spec i m), (Z.leb_spec 1 j), (Z.leb_spec j n); cbn; auto.
      exfalso. apply (Hp i j); lia.
  Qed.
End MatLemmas.
