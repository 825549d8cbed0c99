(** Proofs about dcopy, dscal and drot (C11-C13). *)
From Verif Require Import Base Num Array Blas Spec Lists FaLemmas.

Section Blas1.
  Context {F : Type} {NF : Num F}.
  Notation fa := (fa F).
  Notation updated := (@updated F).

  Lemma updated_0 a g (d0 : fa) : updated a g 0 d0 d0.
  Proof. split; [apply same_shape_refl|]. split; intros; [lia|reflexivity]. Qed.

  Lemma updated_step a g k n (d0 d : fa) :
    (forall t t', 0 <= t < n -> 0 <= t' < n -> a t = a t' -> t = t') ->
    0 <= k < n -> updated a g k d0 d -> updated a g (k + 1) d0 (mod1 d (a k) (g k)).
  Proof.
    intros Hinj Hk (Hs & Hu & Hf). split; [|split].
    - eapply same_shape_trans; [apply mod1_shape|exact Hs].
    - intros t Ht. rewrite mod1_elem. destruct (Z.eqb_spec (a t) (a k)) as [E|E].
      + apply Hinj in E; [|lia|lia]. subst t. rewrite Hf; [reflexivity|].
        intros t Ht' E. apply Hinj in E; lia.
      + apply Hu. destruct (Z.eq_dec t k) as [->|]; [congruence|lia].
    - intros p Hp. rewrite mod1_elem. destruct (Z.eqb_spec p (a k)) as [E|E].
      + exfalso. apply (Hp k); [lia|exact E].
      + apply Hf. intros t Ht. apply Hp. lia.
  Qed.

  Lemma updated_get1_fresh a g k n (d0 d : fa) t :
    (forall t t', 0 <= t < n -> 0 <= t' < n -> a t = a t' -> t = t') ->
    0 <= k <= t -> t < n -> updated a g k d0 d -> get1 d (a t) = get1 d0 (a t).
  Proof.
    intros Hinj Hk Ht (_ & _ & Hf). rewrite !get1_elem, Hf; [reflexivity|].
    intros t' Ht' E. apply Hinj in E; lia.
  Qed.

  Lemma updated_set1 a k d0 d g v n :
    (forall t t', 0 <= t < n -> 0 <= t' < n -> a t = a t' -> t = t') ->
    0 <= k < n -> g k = (fun _ => v) ->
    updated a g k d0 d -> updated a g (k + 1) d0 (set1 d (a k) v).
  Proof.
    intros Hinj Hk Hg H. unfold set1. rewrite <- Hg. eapply updated_step; eauto.
  Qed.

  Lemma stride_inj n inc t t' : inc <> 0 -> stride n inc t = stride n inc t' -> t = t'.
  Proof. unfold stride. destruct (inc <? 0); nia. Qed.

  Lemma start_stride n inc : start_ix n inc = stride n inc 0.
  Proof. unfold start_ix, stride. destruct (inc <? 0); lia. Qed.
  Lemma stride_step n inc t : stride n inc t + inc = stride n inc (t + 1).
  Proof. unfold stride. destruct (inc <? 0); lia. Qed.

  Lemma stride_pos n inc : 1 <= inc -> forall t, stride n inc t = 1 + t * inc.
  Proof. intros H t. unfold stride. destruct (Z.ltb_spec inc 0); lia. Qed.

  (** [for i in (lo..=hi).step_by(st)] when st divides the length *)
  Lemma for_range_step_ind {S} (P : Z -> S -> Prop) lo st k (s : S) body :
    1 <= st -> P lo s ->
    (forall i s, lo <= i -> i + st <= lo + st * Z.of_nat k -> P i s -> P (i + st) (body i s)) ->
    P (lo + st * Z.of_nat k) (for_ (range_step lo (lo + st * Z.of_nat k - 1) st) s body).
  Proof.
    intros Hst. revert lo s. induction k; intros lo s H0 Hs.
    - rewrite range_step_nil by lia. replace (lo + st * Z.of_nat 0) with lo by lia. exact H0.
    - rewrite range_step_cons, for_cons by lia.
      replace (lo + st * Z.of_nat (Datatypes.S k)) with (lo + st + st * Z.of_nat k) by lia.
      apply IHk; [apply Hs; [lia|lia|exact H0]|].
      intros i s' Hi Hi'. apply Hs; lia.
  Qed.

  Lemma rem_quot_split n b : 1 <= b -> 0 <= n ->
    0 <= Z.rem n b < b /\ exists k, n = Z.rem n b + b * Z.of_nat k.
  Proof.
    intros Hb Hn. split; [apply Z.rem_bound_pos; lia|].
    exists (Z.to_nat (Z.quot n b)). assert (0 <= Z.quot n b) by (apply Z.quot_pos; lia).
    rewrite Z2Nat.id by assumption. rewrite (Z.quot_rem' n b) at 1. lia.
  Qed.

  (** ** dcopy *)
  Lemma dcopy_fa_updated n dx incx dy incy : 0 <= n -> incy <> 0 ->
    updated (stride n incy) (fun t _ => get1 dx (stride n incx t)) n dy (dcopy_fa n dx incx dy incy).
  Proof.
    intros Hn Hy.
    assert (Hinj : forall t t', 0 <= t < n -> 0 <= t' < n -> stride n incy t = stride n incy t' -> t = t').
    { intros; eapply stride_inj; eauto. }
    unfold dcopy_fa. destruct ((incx =? 1) && (incy =? 1)) eqn:E11.
    { apply andb_true_iff in E11 as [E1 E2]. apply Z.eqb_eq in E1, E2. subst incx incy.
      set (a := stride n 1). set (g := fun t (_ : F) => get1 dx (a t)).
      assert (Ha : forall i, a (i - 1) = i) by (intros; unfold a; rewrite stride_pos by lia; lia).
      assert (Hg : forall i, g (i - 1) = fun _ => get1 dx i) by (intros; unfold g; rewrite Ha; reflexivity).
      assert (Hstep : forall i d, 1 <= i <= n -> updated a g (i - 1) dy d -> updated a g i dy (set1 d i (get1 dx i))).
      { intros i d Hi Hd. assert (U := updated_set1 a (i - 1) dy d g (get1 dx i) n Hinj ltac:(lia) (Hg i) Hd).
        rewrite Ha in U. replace (i - 1 + 1) with i in U by lia. exact U. }
      destruct (rem_quot_split n 7 ltac:(lia) Hn) as [Hm [k Hk]].
      set (m := Z.rem n 7) in *.
      assert (H1 : updated a g m dy
        (if m =? 0 then dy else for_ (range 1 m) dy (fun i d => set1 d i (get1 dx i)))).
      { destruct (Z.eqb_spec m 0) as [->|Hm0]; [apply updated_0|].
        assert (G := for_range_ind (fun i d => updated a g (i - 1) dy d) 1 m dy (fun i d => set1 d i (get1 dx i))).
        cbv beta in G. replace (m + 1 - 1) with m in G by lia. apply G.
        - lia.
        - apply updated_0.
        - intros i d Hi Hd. replace (i + 1 - 1) with i by lia. apply Hstep; [lia|exact Hd]. }
      destruct (negb (m =? 0) && (n <? 7)) eqn:E.
      { apply andb_true_iff in E as [_ E]. apply Z.ltb_lt in E.
        assert (Enm : n = m) by lia. fold g. rewrite Enm at 1. exact H1. }
      clear E. revert H1. generalize (if m =? 0 then dy else for_ (range 1 m) dy (fun i d => set1 d i (get1 dx i))).
      intros d1 H1.
      assert (G : updated a g (m + 1 + 7 * Z.of_nat k - 1) dy
        (for_ (range_step (m + 1) (m + 1 + 7 * Z.of_nat k - 1) 7) d1 (dcopy_block dx))).
      { apply (for_range_step_ind (fun i d => updated a g (i - 1) dy d)); [lia| |].
        - replace (m + 1 - 1) with m by lia. exact H1.
        - intros i d Hi Hi' Hd. unfold dcopy_block.
          replace (i + 7 - 1) with (i + 6) by lia.
          apply Hstep; [lia|]. replace (i + 6 - 1) with (i + 5) by lia.
          apply Hstep; [lia|]. replace (i + 5 - 1) with (i + 4) by lia.
          apply Hstep; [lia|]. replace (i + 4 - 1) with (i + 3) by lia.
          apply Hstep; [lia|]. replace (i + 3 - 1) with (i + 2) by lia.
          apply Hstep; [lia|]. replace (i + 2 - 1) with (i + 1) by lia.
          apply Hstep; [lia|]. replace (i + 1 - 1) with i by lia.
          apply Hstep; [lia|]. exact Hd. }
      replace (m + 1 + 7 * Z.of_nat k - 1) with n in G by lia. exact G. }
    set (body := fun (_ : Z) '(ix, iy, d) => _).
    assert (G : (fun i '(ix, iy, d) => ix = stride n incx (i - 1) /\ iy = stride n incy (i - 1) /\
          updated (stride n incy) (fun t _ => get1 dx (stride n incx t)) (i - 1) dy d) (n + 1)
          (for_ (range 1 n) (start_ix n incx, start_ix n incy, dy) body)).
    { apply for_range_ind; [lia| |].
      - rewrite !start_stride. split; [reflexivity|]. split; [reflexivity|]. apply updated_0.
      - intros i [[ix iy] d] Hi (-> & -> & Hd). unfold body. rewrite !stride_step.
        replace (i + 1 - 1) with (i - 1 + 1) by lia. split; [reflexivity|]. split; [reflexivity|].
        apply (updated_set1 _ _ _ _ _ _ n); auto. lia. }
    destruct (for_ (range 1 n) (start_ix n incx, start_ix n incy, dy) body) as [[ix iy] d]. destruct G as (_ & _ & G).
    replace (n + 1 - 1) with n in G by lia. exact G.
  Qed.

  (** ** dscal *)
  Lemma dscal_while_updated fuel n da incx k d0 d :
    2 <= incx -> 0 <= k <= n -> (Z.to_nat (n - k) <= fuel)%nat ->
    updated (fun t => 1 + t * incx) (fun _ x => fmul x da) k d0 d ->
    exists d', dscal_while fuel da incx (n * incx) (1 + k * incx) d = Ok d' /\
      updated (fun t => 1 + t * incx) (fun _ x => fmul x da) n d0 d'.
  Proof.
    intros Hx. revert k d. induction fuel; intros k d Hk Hf Hd; cbn [dscal_while].
    - destruct (Z.ltb_spec (1 + k * incx) (n * incx)); [nia|]. replace k with n in Hd by nia. eauto.
    - destruct (Z.ltb_spec (1 + k * incx) (n * incx)) as [Hlt|Hge].
      + assert (k < n) by nia.
        replace (1 + k * incx + incx) with (1 + (k + 1) * incx) by lia.
        apply IHfuel; [lia|lia|].
        apply (updated_step (fun t => 1 + t * incx) (fun _ x => fmul x da) k n); auto; [|lia].
        intros; nia.
      + replace k with n in Hd by nia. eauto.
  Qed.

  Lemma updated_ext a a' g k (d0 d : fa) : (forall t, 0 <= t < k -> a t = a' t) -> updated a g k d0 d -> updated a' g k d0 d.
  Proof.
    intros E (H1 & H2 & H3). split; [exact H1|]. split.
    - intros t Ht. rewrite <- E by assumption. apply H2. exact Ht.
    - intros p Hp. apply H3. intros t Ht. rewrite E by assumption. apply Hp. exact Ht.
  Qed.

  Lemma dscal_fa_updated n da dx incx : 0 <= n -> 1 <= incx ->
    exists d, dscal_fa n da dx incx = Ok d /\
      updated (stride n incx) (fun _ x => fmul x da) n dx d.
  Proof.
    intros Hn Hx. unfold dscal_fa. destruct (Z.eqb_spec incx 1) as [->|Hx1].
    2:{ destruct (dscal_while_updated (Z.to_nat n) n da incx 0 dx dx) as (d & E & Hd); [lia|lia|lia|apply updated_0|].
        replace (1 + 0 * incx) with 1 in E by lia. exists d. split; [exact E|].
        eapply updated_ext; [|exact Hd]. intros. rewrite stride_pos by lia. reflexivity. }
    set (a := stride n 1). set (g := fun (_ : Z) (x : F) => fmul x da).
    assert (Ha : forall i, a (i - 1) = i) by (intros; unfold a; rewrite stride_pos by lia; lia).
    assert (Hinj : forall t t', 0 <= t < n -> 0 <= t' < n -> a t = a t' -> t = t').
    { intros; eapply stride_inj; eauto; lia. }
    assert (Hstep : forall i d, 1 <= i <= n -> updated a g (i - 1) dx d -> updated a g i dx (mod1 d i (fun x => fmul x da))).
    { intros i d Hi Hd. assert (U := updated_step a g (i - 1) n dx d Hinj ltac:(lia) Hd).
      rewrite Ha in U. replace (i - 1 + 1) with i in U by lia. exact U. }
    destruct (rem_quot_split n 5 ltac:(lia) Hn) as [Hm [k Hk]].
    set (m := Z.rem n 5) in *.
    assert (H1 : updated a g m dx
      (if m =? 0 then dx else for_ (range 1 m) dx (fun i d => mod1 d i (fun x => fmul x da)))).
    { destruct (Z.eqb_spec m 0) as [->|Hm0]; [apply updated_0|].
      assert (G := for_range_ind (fun i d => updated a g (i - 1) dx d) 1 m dx (fun i d => mod1 d i (fun x => fmul x da))).
        cbv beta in G. replace (m + 1 - 1) with m in G by lia. apply G.
      - lia.
      - apply updated_0.
      - intros i d Hi Hd. replace (i + 1 - 1) with i by lia. apply Hstep; [lia|exact Hd]. }
    destruct (negb (m =? 0) && (n <? 5)) eqn:E.
    { apply andb_true_iff in E as [_ E]. apply Z.ltb_lt in E.
      eexists. split; [reflexivity|]. replace n with m; [exact H1|]. lia. }
    clear E. revert H1. generalize (if m =? 0 then dx else for_ (range 1 m) dx (fun i d => mod1 d i (fun x => fmul x da))).
    intros d1 H1. eexists. split; [reflexivity|].
    assert (G : updated a g (m + 1 + 5 * Z.of_nat k - 1) dx
      (for_ (range_step (m + 1) (m + 1 + 5 * Z.of_nat k - 1) 5) d1 (dscal_block da))).
    { apply (for_range_step_ind (fun i d => updated a g (i - 1) dx d)); [lia| |].
      - replace (m + 1 - 1) with m by lia. exact H1.
      - intros i d Hi Hi' Hd. unfold dscal_block.
        replace (i + 5 - 1) with (i + 4) by lia.
        apply Hstep; [lia|]. replace (i + 4 - 1) with (i + 3) by lia.
        apply Hstep; [lia|]. replace (i + 3 - 1) with (i + 2) by lia.
        apply Hstep; [lia|]. replace (i + 2 - 1) with (i + 1) by lia.
        apply Hstep; [lia|]. replace (i + 1 - 1) with i by lia.
        apply Hstep; [lia|]. exact Hd. }
    replace (m + 1 + 5 * Z.of_nat k - 1) with n in G by lia. exact G.
  Qed.

  (** ** drot *)
  Lemma drot_step_updated n incx incy c s dx dy k x y :
    incx <> 0 -> incy <> 0 -> 0 <= k < n ->
    let gx := fun t (_ : F) => fadd (fmul c (get1 dx (stride n incx t))) (fmul s (get1 dy (stride n incy t))) in
    let gy := fun t (_ : F) => fsub (fmul c (get1 dy (stride n incy t))) (fmul s (get1 dx (stride n incx t))) in
    updated (stride n incx) gx k dx x -> updated (stride n incy) gy k dy y ->
    let '(x', y') := drot_step c s (stride n incx k) (stride n incy k) x y in
    updated (stride n incx) gx (k + 1) dx x' /\ updated (stride n incy) gy (k + 1) dy y'.
  Proof.
    intros Hx Hy Hk gx gy Ux Uy. unfold drot_step.
    assert (Ix : forall t t', 0 <= t < n -> 0 <= t' < n -> stride n incx t = stride n incx t' -> t = t')
      by (intros t t' _ _; apply (stride_inj n incx); assumption).
    assert (Iy : forall t t', 0 <= t < n -> 0 <= t' < n -> stride n incy t = stride n incy t' -> t = t')
      by (intros t t' _ _; apply (stride_inj n incy); assumption).
    rewrite (updated_get1_fresh _ _ k n dx x k Ix ltac:(lia) ltac:(lia) Ux).
    rewrite (updated_get1_fresh _ _ k n dy y k Iy ltac:(lia) ltac:(lia) Uy).
    split; (apply (updated_set1 _ _ _ _ _ _ n); [assumption|assumption|reflexivity|assumption]).
  Qed.

  Lemma drot_fa_updated n dx incx dy incy c s : 0 <= n -> incx <> 0 -> incy <> 0 ->
    let '(x, y) := drot_fa n dx incx dy incy c s in
    updated (stride n incx) (fun t _ => fadd (fmul c (get1 dx (stride n incx t))) (fmul s (get1 dy (stride n incy t)))) n dx x /\
    updated (stride n incy) (fun t _ => fsub (fmul c (get1 dy (stride n incy t))) (fmul s (get1 dx (stride n incx t)))) n dy y.
  Proof.
    intros Hn Hx Hy. unfold drot_fa.
    assert (St := fun k x y Hk => drot_step_updated n incx incy c s dx dy k x y Hx Hy Hk). cbv zeta in St.
    set (gx := fun t (_ : F) => fadd (fmul c (get1 dx (stride n incx t))) (fmul s (get1 dy (stride n incy t)))) in *.
    set (gy := fun t (_ : F) => fsub (fmul c (get1 dy (stride n incy t))) (fmul s (get1 dx (stride n incx t)))) in *.
    destruct ((incx =? 1) && (incy =? 1)) eqn:E11.
    { apply andb_true_iff in E11 as [E1 E2]. apply Z.eqb_eq in E1, E2. subst incx incy.
      set (body := fun (i : Z) '(x, y) => _).
      assert (G : (fun i '(x, y) => updated (stride n 1) gx (i - 1) dx x /\ updated (stride n 1) gy (i - 1) dy y) (n + 1)
                  (for_ (range 1 n) (dx, dy) body)).
      { apply for_range_ind; [lia| |].
        - split; apply updated_0.
        - intros i [x y] Hi [Ux Uy]. unfold body.
          specialize (St (i - 1) x y ltac:(lia) Ux Uy).
          assert (Ei : stride n 1 (i - 1) = i) by (rewrite stride_pos; lia).
          rewrite Ei in St. replace (i + 1 - 1) with (i - 1 + 1) by lia. exact St. }
      destruct (for_ (range 1 n) (dx, dy) body) as [x y]. replace (n + 1 - 1) with n in G by lia. exact G. }
    set (body := fun (_ : Z) '(ix, iy, (x, y)) => _).
    assert (G : (fun i '(ix, iy, (x, y)) => ix = stride n incx (i - 1) /\ iy = stride n incy (i - 1) /\
          updated (stride n incx) gx (i - 1) dx x /\ updated (stride n incy) gy (i - 1) dy y) (n + 1)
          (for_ (range 1 n) (start_ix n incx, start_ix n incy, (dx, dy)) body)).
    { apply for_range_ind; [lia| |].
      - rewrite !start_stride. split; [reflexivity|]. split; [reflexivity|]. split; apply updated_0.
      - intros i [[ix iy] [x y]] Hi (-> & -> & Ux & Uy). unfold body. rewrite !stride_step.
        replace (i + 1 - 1) with (i - 1 + 1) by lia.
        specialize (St (i - 1) x y ltac:(lia) Ux Uy).
        destruct (drot_step c s (stride n incx (i - 1)) (stride n incy (i - 1)) x y) as [x' y'].
        destruct St. split; [reflexivity|]. split; [reflexivity|]. split; assumption. }
    destruct (for_ (range 1 n) (start_ix n incx, start_ix n incy, (dx, dy)) body) as [[ix iy] [x y]].
    destruct G as (_ & _ & G). replace (n + 1 - 1) with n in G by lia. exact G.
  Qed.
End Blas1.

Section Containers.
  Context {F : Type} {NF : Num F}.

  Lemma dcopy_spec {DX DY} `{ToFA F DX} `{ToFA F DY} `{FromFA F DY} n (dx : DX) incx (dy : DY) incy :
    incy <> 0 ->
    exists d, dcopy n dx incx dy incy = (if n <=? 0 then Ok dy else from_fa d) /\
      updated (stride n incy) (fun t _ => get1 (to_fa dx) (stride n incx t)) (Z.max 0 n) (to_fa dy) d.
  Proof.
    intros Hy. unfold dcopy. destruct (Z.leb_spec n 0) as [Hn|Hn].
    - exists (to_fa dy). split; [reflexivity|]. rewrite Z.max_l by lia. apply updated_0.
    - eexists. split; [reflexivity|]. rewrite Z.max_r by lia. apply dcopy_fa_updated; [lia|exact Hy].
  Qed.

  Lemma dscal_spec {DX} `{ToFA F DX} `{FromFA F DX} n da (dx : DX) incx :
    (n <= 0 \/ incx <= 0 \/ feq da f1 = true -> dscal n da dx incx = Ok dx) /\
    (1 <= n -> 1 <= incx -> feq da f1 = false ->
     exists d, dscal n da dx incx = from_fa d /\
       updated (stride n incx) (fun _ x => fmul x da) n (to_fa dx) d).
  Proof.
    unfold dscal. split.
    - intros Hq.
      assert (E : ((n <=? 0)%Z || (incx <=? 0)%Z || feq da f1)%bool = true).
      { destruct Hq as [Hq|[Hq|Hq]].
        - apply Z.leb_le in Hq. rewrite Hq. reflexivity.
        - apply Z.leb_le in Hq. rewrite Hq, orb_true_r. reflexivity.
        - rewrite Hq, orb_true_r. reflexivity. }
      rewrite E. reflexivity.
    - intros Hn Hx Ha. destruct (Z.leb_spec n 0); [lia|]. destruct (Z.leb_spec incx 0); [lia|].
      rewrite Ha. cbn [orb]. destruct (dscal_fa_updated n da (to_fa dx) incx) as (d & E & U); [lia|lia|].
      rewrite E. cbn [bind]. eauto.
  Qed.

  Lemma drot_spec {DX DY} `{ToFA F DX} `{FromFA F DX} `{ToFA F DY} `{FromFA F DY} n (dx : DX) incx (dy : DY) incy c s :
    incx <> 0 -> incy <> 0 ->
    (n <= 0 -> drot n dx incx dy incy c s = Ok (dx, dy)) /\
    (1 <= n -> exists x y,
      drot n dx incx dy incy c s = (x' <- from_fa x ;; y' <- from_fa y ;; Ok (x', y')) /\
      updated (stride n incx)
        (fun t _ => fadd (fmul c (get1 (to_fa dx) (stride n incx t))) (fmul s (get1 (to_fa dy) (stride n incy t))))
        n (to_fa dx) x /\
      updated (stride n incy)
        (fun t _ => fsub (fmul c (get1 (to_fa dy) (stride n incy t))) (fmul s (get1 (to_fa dx) (stride n incx t))))
        n (to_fa dy) y).
  Proof.
    intros Hx Hy. unfold drot. split; intros Hn; destruct (Z.leb_spec n 0); try lia; [reflexivity|].
    assert (G := drot_fa_updated n (to_fa dx) incx (to_fa dy) incy c s ltac:(lia) Hx Hy).
    destruct (drot_fa n (to_fa dx) incx (to_fa dy) incy c s) as [x y]. destruct G as [G1 G2].
    exists x, y. auto.
  Qed.

  (** on flat vectors nothing can fail *)
  Lemma dcopy_vec n (x : list F) incx (y : list F) incy : incy <> 0 ->
    exists y', dcopy n x incx y incy = Ok y' /\
      updated (stride n incy) (fun t _ => get1 (fa_of_vec x) (stride n incx t)) (Z.max 0 n) (fa_of_vec y) (fa_of_vec y').
  Proof.
    intros Hy. destruct (dcopy_spec n x incx y incy Hy) as (d & E & U). rewrite E.
    destruct (Z.leb_spec n 0).
    - exists y. split; [reflexivity|]. rewrite Z.max_l by lia. apply updated_0.
    - exists (data d). split; [reflexivity|]. destruct U as ((E1 & E2 & E3) & U2 & U3).
      split; [|split; [exact U2|exact U3]]. unfold same_shape, count in *. cbn in *. unfold zlen. lia.
  Qed.

  Lemma dscal_vec n da (x : list F) incx : 1 <= n -> 1 <= incx -> feq da f1 = false ->
    exists x', dscal n da x incx = Ok x' /\
      updated (stride n incx) (fun _ v => fmul v da) n (fa_of_vec x) (fa_of_vec x').
  Proof.
    intros Hn Hx Ha. destruct (proj2 (dscal_spec n da x incx) Hn Hx Ha) as (d & E & U).
    exists (data d). split; [exact E|]. destruct U as ((E1 & E2 & E3) & U2 & U3).
    split; [|split; [exact U2|exact U3]]. unfold same_shape, count in *. cbn in *. unfold zlen. lia.
  Qed.

  (** the n strided elements exist *)
  Lemma updated_get1 a g k (d0 d : fa F) t :
    updated a g k d0 d -> 0 <= t < k -> 1 <= a t <= count d0 -> get1 d (a t) = g t (get1 d0 (a t)).
  Proof.
    intros (_ & H & _) Ht Ha. rewrite !get1_elem, (H t Ht). apply elem_Some in Ha as [x ->]. reflexivity.
  Qed.
End Containers.
