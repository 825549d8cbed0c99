(** The reflector step of dlahqr over any number type: which values go into dlarfg and where its results go. *)
From Coq Require Import ZArith Lia Bool List.
From Verif Require Import Base Num Array Blas Lapack Dlahqr Spec Lists FaLemmas Blas1Proofs LarfgProofs LahqrProofs HqGet.
Import ListNotations.
Open Scope Z_scope.

Section Gen.
  Context {F : Type} {NF : Num F}.
  Notation fa := (fa F).
  Definition v3s (v : fa) (x1 x2 x3 : F) : Prop := data v = [x1; x2; x3] /\ three v.
  Lemma v3s_get v x1 x2 x3 : v3s v x1 x2 x3 -> get1 v 1 = x1 /\ get1 v 2 = x2 /\ get1 v 3 = x3.
  Proof. intros [E _]. unfold get1. rewrite E. repeat split; reflexivity. Qed.
  Lemma v3s_set v x1 x2 x3 y : v3s v x1 x2 x3 -> v3s (set1 v 1 y) y x2 x3 /\ v3s (set1 v 2 y) x1 y x3 /\ v3s (set1 v 3 y) x1 x2 y.
  Proof.
    intros [E T]. unfold v3s. repeat split; try (unfold set1, mod1; rewrite E; reflexivity); try (eapply three_shape; [apply set1_shape|exact T]).
  Qed.
  Lemma v3s_of v : three v -> exists x1 x2 x3, v3s v x1 x2 x3.
  Proof.
    intros T. pose proof T as [C _]. rewrite count_zlen in C. unfold zlen in C.
    destruct (data v) as [|a [|b [|c [|]]]] eqn:E; cbn in C; try lia. exists a, b, c. split; assumption.
  Qed.

  Context (n : Z) (h : fa).
  Hypothesis (FH : full h) (HB : big n h).

  Lemma from2_col_get k : 1 <= k -> exists t, from2 h k (k - 1) = Ok t /\ forall p, 0 <= p -> 2 <= k -> k + p <= n -> zget t p = Some (get2 h (k + p) (k - 1)).
  Proof.
    intros Hk. destruct (Z.le_gt_cases 2 k) as [K|K]; [destruct (Z.le_gt_cases k n) as [K2|K2]|].
    - destruct (from1_ok h (pos (rows h) k (k - 1)) FH) as (t & E & L). exists t. split; [exact E|].
      assert (EL : forall p, 0 <= p -> k + p <= n -> elem h (pos (rows h) k (k - 1) + p) = Some (get2 h (k + p) (k - 1))).
      { intros p Hp Hpn. rewrite <- (ent_get2 h (k + p) (k - 1)) by (apply (big_pos n); [exact HB|lia|lia]). unfold ent. f_equal. unfold pos. lia. }
      intros p Hp _ Hpn. destruct L as [_ L].
      + unfold pos. destruct HB. nia.
      + pose proof (EL 0 ltac:(lia) ltac:(lia)) as E0. unfold full in FH. rewrite FH.
        pose proof (proj1 (elem_Some h _) (ex_intro _ _ E0)). lia.
      + rewrite L by lia. apply EL; assumption.
    - destruct (from2_ok h k (k - 1) FH) as (t & E & _). exists t. split; [exact E|]. lia.
    - destruct (from2_ok h k (k - 1) FH) as (t & E & _). exists t. split; [exact E|]. lia.
  Qed.

  Lemma hq_copy_get v w1 w2 w3 k i : v3s v w1 w2 w3 -> 2 <= k -> k + 1 <= i <= n ->
    exists v', (t <- from2 h k (k - 1) ;; dcopy (Z.min 3 (i - k + 1)) t 1 v 1) = Ok v' /\
      v3s v' (get2 h k (k - 1)) (get2 h (k + 1) (k - 1)) (if k + 2 <=? i then get2 h (k + 2) (k - 1) else w3).
  Proof.
    intros [D T] Hk Hi. destruct (from2_col_get k) as (t & -> & L); [lia|]. cbn [bind].
    destruct (dcopy_spec (Z.min 3 (i - k + 1)) t 1 v 1) as (d & -> & (Sh & U1 & U2)); [lia|].
    destruct (Z.leb_spec (Z.min 3 (i - k + 1)) 0); [lia|]. exists d. split; [reflexivity|]. split; [|eapply three_shape; eassumption].
    rewrite Z.max_r in U1, U2 by lia. set (nr := Z.min 3 (i - k + 1)) in *.
    assert (EV : forall p, elem v p = elem (mkFA [w1; w2; w3] 0 0 w1) p) by (intros; apply elem_data; exact D).
    assert (ST : forall t, stride nr 1 t = t + 1) by (intros; rewrite stride_pos by lia; lia).
    assert (G : forall p, 0 <= p < nr -> elem d (p + 1) = Some (get2 h (k + p) (k - 1))).
    { intros p Hp. specialize (U1 p Hp). cbn [to_fa ToFA_fa] in U1. rewrite !ST in U1.
      rewrite EV in U1. assert (EX : exists y, elem (mkFA [w1; w2; w3] 0 0 w1) (p + 1) = Some y).
      { assert (p = 0 \/ p = 1 \/ p = 2) as [-> | [-> | ->]] by lia; eexists; reflexivity. }
      destruct EX as (y & EX). rewrite EX in U1. cbn in U1. rewrite U1. f_equal. rewrite get1_elem, elem_zget. cbn [to_fa ToFA_vec data fa_of_vec].
      replace (p + 1 - 1) with p by lia. rewrite L by lia. reflexivity. }
    pose proof (G 0 ltac:(lia)) as G0. pose proof (G 1 ltac:(lia)) as G1.
    assert (G2 : elem d 3 = Some (if k + 2 <=? i then get2 h (k + 2) (k - 1) else w3)).
    { destruct (Z.leb_spec (k + 2) i); [apply (G 2); lia|]. rewrite U2; [cbn [to_fa ToFA_fa]; rewrite EV; reflexivity|].
      intros t0 Ht. rewrite ST. lia. }
    destruct Sh as (_ & _ & CC). cbn [to_fa ToFA_fa] in CC. unfold count in CC. rewrite D in CC. cbn in CC. rewrite Z.add_0_r in G0. unfold elem in G0, G1, G2.
    destruct (data d) as [|p [|q [|r [|]]]]; cbn in CC; try lia.
    change (Some p = Some (get2 h k (k - 1))) in G0. change (Some q = Some (get2 h (k + 1) (k - 1))) in G1.
    change (Some r = Some (if k + 2 <=? i then get2 h (k + 2) (k - 1) else w3)) in G2. congruence.
  Qed.

  (** the vector handed to dlarfg *)
  Lemma hq_reflector_get v t1 w1 w2 w3 m k i : v3s v w1 w2 w3 -> 1 <= m <= k -> k + 1 <= i <= n ->
    let a := if m <? k then get2 h k (k - 1) else w1 in
    let x2 := if m <? k then get2 h (k + 1) (k - 1) else w2 in
    let x3 := if m <? k then (if k + 2 <=? i then get2 h (k + 2) (k - 1) else w3) else w3 in
    exists v' beta tau y2 y3 x', dlarfg (Z.min 3 (i - k + 1)) a (to_fa [x2; x3]) 1 = Ok (beta, x', tau) /\ data x' = [y2; y3] /\
      hq_reflector h v t1 m i k = Ok (v', tau) /\ v3s v' beta y2 y3.
  Proof.
    intros V Hm Hi a x2 x3. unfold hq_reflector.
    assert (E1 : exists v1, (if m <? k then t <- from2 h k (k - 1);; dcopy (Z.min 3 (i - k + 1)) t 1 v 1 else Ok v) = Ok v1 /\ v3s v1 a x2 x3).
    { unfold a, x2, x3. destruct (Z.ltb_spec m k).
      - destruct (hq_copy_get v w1 w2 w3 k i V) as (v1 & -> & V1); [lia|lia|]. eexists. split; [reflexivity|]. exact V1.
      - eexists. split; [reflexivity|]. exact V. }
    destruct E1 as (v1 & -> & V1). cbn [bind]. pose proof V1 as [D1 [C1 L1]].
    assert (E2 : from1 v1 2 = Ok [x2; x3]).
    { unfold from1, slice_from. destruct (Z.leb_spec 2 (fa_len v1)); [|lia]. change ((1 <=? 2) && true) with true.
      cbn [andb]. rewrite D1. reflexivity. }
    rewrite E2. cbn [bind]. destruct (v3s_get _ _ _ _ V1) as (G1 & _ & _). rewrite G1.
    destruct (dlarfg_shape (Z.min 3 (i - k + 1)) a (to_fa [x2; x3]) 1) as (beta & x' & tau & E & (R & C & N)). rewrite E. cbn [bind].
    assert (D' : exists y2 y3, data x' = [y2; y3]).
    { unfold count in N. cbn in N. destruct (data x') as [|p [|q [|]]]; cbn in N; try lia. exists p, q. reflexivity. }
    destruct D' as (y2 & y3 & D').
    unfold fa_insert. assert (L : fa_len x' = 2) by (unfold fa_len, fa_is_2d; rewrite R, C; reflexivity). rewrite L.
    change ((1 <=? 1) && (1 <? 2)) with true. cbv iota. destruct (Z.ltb_spec (zlen (data x')) (1 - 1)); [pose proof (zlen_nonneg (data x')); lia|].
    cbn [bind]. exists (mkFA (firstn (Z.to_nat (1 - 1)) (data x') ++ beta :: skipn (Z.to_nat (1 - 1)) (data x')) (rows x') (cols x') (dflt x')), beta, tau, y2, y3, x'.
    split; [reflexivity|]. split; [exact D'|]. split; [reflexivity|]. split; [cbn [data]; rewrite D'; reflexivity|]. split.
    - unfold count. cbn [data]. rewrite D'. reflexivity.
    - unfold fa_len, fa_is_2d in *. cbn [rows cols] in *. lia.
  Qed.
End Gen.
