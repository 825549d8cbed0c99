(** Proofs about Blas1I32.v: the release build is the unbounded model whenever every position the call uses is an i32; the
    debug build panics exactly when the position after the last one is not. *)
From Verif Require Import Base Num Lists Array Blas Spec FaLemmas I32 Blas1I32.
From Coq Require Import Lia Znumtheory.

(** largest position used by [n] elements with increment [inc] *)
Definition last_pos (n inc : Z) : Z := 1 + (n - 1) * Z.abs inc.
(** the position after the last one, as the loop's final increment computes it *)
Definition next_fits (n inc : Z) : bool := (inc <=? 0) || (1 + n * inc <=? 2 ^ 31 - 1).

Lemma i32_of_in pr z : in_i32 z -> i32_of pr z = Ok z.
Proof.
  unfold in_i32, i32_of, in_i32b. intros [A B].
  rewrite (proj2 (Z.leb_le _ _) A), (proj2 (Z.leb_le _ _) B). reflexivity.
Qed.
Lemma i32_of_rel z : exists w, i32_of Release z = Ok w.
Proof. unfold i32_of. destruct (in_i32b z); eauto. Qed.
Lemma i32_of_dbg z : ~ in_i32 z -> i32_of Debug z = Panic.
Proof.
  unfold in_i32, i32_of, in_i32b. intros H.
  destruct (Z.leb_spec (- 2 ^ 31) z); destruct (Z.leb_spec z (2 ^ 31 - 1)); cbn [andb]; try reflexivity. lia.
Qed.

Lemma start_ix_i32_ok pr n inc : 1 <= n -> in_i32 n -> in_i32 (last_pos n inc) ->
  start_ix_i32 pr n inc = Ok (start_ix n inc).
Proof.
  unfold start_ix_i32, start_ix, last_pos, in_i32. intros Hn [_ Hn'] H.
  destruct (Z.ltb_spec inc 0); [|reflexivity].
  rewrite (i32_of_in pr (- n)) by (unfold in_i32; lia). cbn [bind].
  rewrite (i32_of_in pr (- n + 1)) by (unfold in_i32; lia). cbn [bind].
  rewrite Z.abs_neq in H by lia.
  rewrite (i32_of_in pr ((- n + 1) * inc)) by (unfold in_i32; nia). cbn [bind].
  apply i32_of_in. unfold in_i32. nia.
Qed.
Lemma start_nrm_i32_ok pr n inc : 1 <= n -> in_i32 n -> in_i32 (last_pos n inc) ->
  start_nrm_i32 pr n inc = Ok (if inc <? 0 then 1 - (n - 1) * inc else 1).
Proof.
  unfold start_nrm_i32, last_pos, in_i32. intros Hn [_ Hn'] H.
  destruct (Z.ltb_spec inc 0); [|reflexivity].
  rewrite (i32_of_in pr (n - 1)) by (unfold in_i32; lia). cbn [bind].
  rewrite Z.abs_neq in H by lia.
  rewrite (i32_of_in pr ((n - 1) * inc)) by (unfold in_i32; nia). cbn [bind].
  apply i32_of_in. unfold in_i32. nia.
Qed.
Lemma start_nrm_eq n inc : (if inc <? 0 then 1 - (n - 1) * inc else 1) = start_ix n inc.
Proof. unfold start_ix. destruct (inc <? 0); lia. Qed.

(** all positions of the walk *)
Lemma walk_in n inc t : 1 <= n -> in_i32 (last_pos n inc) -> 0 <= t <= n - 1 -> in_i32 (start_ix n inc + t * inc).
Proof.
  unfold last_pos, in_i32, start_ix. intros Hn H Ht.
  destruct (Z.ltb_spec inc 0); [rewrite Z.abs_neq in H by lia | rewrite Z.abs_eq in H by lia]; nia.
Qed.
Lemma walk_next n inc : 1 <= n -> in_i32 inc -> in_i32 (last_pos n inc) ->
  if next_fits n inc then in_i32 (start_ix n inc + n * inc) else ~ in_i32 (start_ix n inc + n * inc).
Proof.
  unfold last_pos, next_fits, in_i32, start_ix. intros Hn Hi H.
  destruct (Z.ltb_spec inc 0); destruct (Z.leb_spec inc 0); try lia; cbn [orb].
  - replace ((- n + 1) * inc + 1 + n * inc) with (inc + 1) by ring. lia.
  - assert (inc = 0) by lia. subst inc. lia.
  - destruct (Z.leb_spec (1 + n * inc) (2 ^ 31 - 1)); nia.
Qed.

Section Loops.
  Context {F : Type} {NF : Num F}.
  Notation fa := (fa F).

  (** the unbounded loops *)
  Definition pair_U {S} (l : list Z) (incx incy : Z) (step : Z -> Z -> S -> S) (ix iy : Z) (s : S) : Z * Z * S :=
    for_ l (ix, iy, s) (fun _ '(ix, iy, s) => (ix + incx, iy + incy, step ix iy s)).
  Definition pair_body {S} (pr : profile) (incx incy : Z) (step : Z -> Z -> S -> S) : Z -> Z * Z * S -> outcome (Z * Z * S) :=
    fun _ '(ix, iy, s) =>
      let s := step ix iy s in
      ix <- i32_of pr (ix + incx) ;; iy <- i32_of pr (iy + incy) ;; Ok (ix, iy, s).

  Lemma pair_pref {S} pr incx incy (step : Z -> Z -> S -> S) l : forall ix iy s,
    (forall t, 1 <= t <= Z.of_nat (length l) -> in_i32 (ix + t * incx) /\ in_i32 (iy + t * incy)) ->
    for_M l (ix, iy, s) (pair_body pr incx incy step) = Ok (pair_U l incx incy step ix iy s) /\
    fst (pair_U l incx incy step ix iy s) =
      (ix + Z.of_nat (length l) * incx, iy + Z.of_nat (length l) * incy).
  Proof.
    induction l as [|i l IH]; intros ix iy s H; cbn [for_M length].
    - split; [reflexivity|]. cbn. f_equal; lia.
    - unfold pair_body at 1. cbv beta iota zeta.
      assert (H1 := H 1). rewrite !Z.mul_1_l in H1.
      destruct H1 as [A B]; [cbn [length]; lia|].
      rewrite (i32_of_in pr _ A). cbn [bind]. rewrite (i32_of_in pr _ B). cbn [bind].
      destruct (IH (ix + incx) (iy + incy) (step ix iy s)) as [E1 E2].
      { intros t Ht. replace (ix + incx + t * incx) with (ix + (t + 1) * incx) by ring.
        replace (iy + incy + t * incy) with (iy + (t + 1) * incy) by ring. apply H. cbn [length]. lia. }
      rewrite E1. split; [reflexivity|].
      change (pair_U (i :: l) incx incy step ix iy s) with (pair_U l incx incy step (ix + incx) (iy + incy) (step ix iy s)).
      rewrite E2. f_equal; lia.
  Qed.

  Lemma for_M_snoc {S} (l : list Z) x (s : S) body :
    for_M (l ++ [x]) s body = (r <- for_M l s body ;; body x r).
  Proof.
    revert s. induction l as [|i l IH]; intros s; cbn [app for_M bind].
    - destruct (body x s); reflexivity.
    - destruct (body i s); cbn [bind]; try reflexivity. apply IH.
  Qed.
  Lemma for_snoc {S} (l : list Z) x (s : S) body : for_ (l ++ [x]) s body = body x (for_ l s body).
  Proof. unfold for_. rewrite fold_left_app. reflexivity. Qed.

  Lemma range_len n : 1 <= n -> Z.of_nat (length (range 1 (n - 1))) = n - 1.
  Proof. intros H. unfold range. rewrite zup_length. lia. Qed.

  Theorem pair_loop_i32 {S} pr n incx incy (step : Z -> Z -> S -> S) s :
    1 <= n -> in_i32 incx -> in_i32 incy -> in_i32 (last_pos n incx) -> in_i32 (last_pos n incy) ->
    (r <- pair_loop pr n incx incy step (start_ix n incx) (start_ix n incy) s ;; Ok (snd r)) =
    match pr with
    | Debug => if next_fits n incx && next_fits n incy
               then Ok (snd (pair_U (range 1 n) incx incy step (start_ix n incx) (start_ix n incy) s)) else Panic
    | Release => Ok (snd (pair_U (range 1 n) incx incy step (start_ix n incx) (start_ix n incy) s))
    end.
  Proof.
    intros Hn Ix Iy Hx Hy. unfold pair_loop.
    change (fun _ '(ix, iy, s) => _) with (pair_body pr incx incy step).
    rewrite (range_snoc 1 n) by lia. rewrite for_M_snoc.
    destruct (pair_pref pr incx incy step (range 1 (n - 1)) (start_ix n incx) (start_ix n incy) s) as [E1 E2].
    { rewrite range_len by lia. intros t Ht. split; apply walk_in; trivial; lia. }
    rewrite E1. cbn [bind]. unfold pair_U at 2 3. rewrite for_snoc. fold (pair_U (range 1 (n - 1)) incx incy step (start_ix n incx) (start_ix n incy) s).
    rewrite (range_len n Hn) in E2.
    destruct (pair_U (range 1 (n - 1)) incx incy step (start_ix n incx) (start_ix n incy) s) as [[a b] r].
    cbn [fst] in E2. injection E2 as -> ->. unfold pair_body. cbv beta iota zeta. cbn [snd].
    replace (start_ix n incx + (n - 1) * incx + incx) with (start_ix n incx + n * incx) by ring.
    replace (start_ix n incy + (n - 1) * incy + incy) with (start_ix n incy + n * incy) by ring.
    assert (Wx := walk_next n incx Hn Ix Hx). assert (Wy := walk_next n incy Hn Iy Hy).
    destruct pr.
    - destruct (next_fits n incx); cbn [andb].
      + rewrite (i32_of_in Debug _ Wx). cbn [bind]. destruct (next_fits n incy).
        * rewrite (i32_of_in Debug _ Wy). reflexivity.
        * rewrite (i32_of_dbg _ Wy). reflexivity.
      + rewrite (i32_of_dbg _ Wx). reflexivity.
    - destruct (i32_of_rel (start_ix n incx + n * incx)) as [w1 ->]. cbn [bind].
      destruct (i32_of_rel (start_ix n incy + n * incy)) as [w2 ->]. reflexivity.
  Qed.

  Lemma pair_U_fun {S} (l : list Z) incx incy (step : Z -> Z -> S -> S) ix iy s :
    pair_U l incx incy step ix iy s =
    for_ l (ix, iy, s) (fun _ '(ix, iy, s) => (ix + incx, iy + incy, step ix iy s)).
  Proof. reflexivity. Qed.

  Theorem drot_i32_spec pr n (dx : fa) incx dy incy c s :
    1 <= n -> in_i32 n -> in_i32 incx -> in_i32 incy -> in_i32 (last_pos n incx) -> in_i32 (last_pos n incy) ->
    drot_i32 pr n dx incx dy incy c s =
    match pr with
    | Release => Ok (drot_fa n dx incx dy incy c s)
    | Debug => if ((incx =? 1) && (incy =? 1)) || (next_fits n incx && next_fits n incy)
               then Ok (drot_fa n dx incx dy incy c s) else Panic
    end.
  Proof.
    intros Hn In Ix Iy Hx Hy. unfold drot_i32, drot_fa.
    destruct ((incx =? 1) && (incy =? 1)); cbn [orb]; [destruct pr; reflexivity|].
    rewrite !start_ix_i32_ok by assumption. cbn [bind].
    rewrite pair_loop_i32 by assumption.
    assert (E : (let '(_, _, r) := for_ (range 1 n) (start_ix n incx, start_ix n incy, (dx, dy))
          (fun _ '(ix, iy, (x, y)) => ((ix + incx)%Z, (iy + incy)%Z, drot_step c s ix iy x y)) in r) =
       snd (pair_U (range 1 n) incx incy (fun ix iy '(x, y) => drot_step c s ix iy x y) (start_ix n incx) (start_ix n incy) (dx, dy))).
    { assert (E : for_ (range 1 n) (start_ix n incx, start_ix n incy, (dx, dy))
          (fun _ '(ix, iy, (x, y)) => ((ix + incx)%Z, (iy + incy)%Z, drot_step c s ix iy x y)) =
        pair_U (range 1 n) incx incy (fun ix iy '(x, y) => drot_step c s ix iy x y) (start_ix n incx) (start_ix n incy) (dx, dy)).
      { unfold pair_U, for_. generalize (start_ix n incx, start_ix n incy, (dx, dy)) as st.
        induction (range 1 n) as [|i l IH]; intros st; cbn [fold_left]; [reflexivity|].
        rewrite IH. destruct st as [[a b] [x y]]; reflexivity. }
      rewrite E. destruct (pair_U _ _ _ _ _ _ _) as [[a b] r]. reflexivity. }
    rewrite E. reflexivity.
  Qed.

  Lemma dcopy_block_i32_ok pr (dx : fa) i dy : 1 <= i -> in_i32 (i + 6) ->
    dcopy_block_i32 pr dx i dy = Ok (dcopy_block dx i dy).
  Proof.
    unfold in_i32. intros Hi H. unfold dcopy_block_i32.
    change (range 0 6) with [0; 1; 2; 3; 4; 5; 6]. cbn [for_M]. unfold copy_at_i32.
    rewrite !(i32_of_in pr) by (unfold in_i32; lia). cbn [bind]. rewrite Z.add_0_r. reflexivity.
  Qed.
  Lemma for_M_Ok_in {S} (l : list Z) body (f : Z -> S -> S) : forall s,
    (forall i s, In i l -> body i s = Ok (f i s)) -> for_M l s body = Ok (for_ l s f).
  Proof.
    unfold for_. induction l as [|i l IH]; intros s H; cbn [for_M fold_left]; [reflexivity|].
    rewrite H by (left; reflexivity). cbn [bind]. apply IH. intros; apply H; right; assumption.
  Qed.

  Theorem dcopy_i32_spec pr n (dx : fa) incx dy incy :
    1 <= n -> in_i32 n -> in_i32 incx -> in_i32 incy -> in_i32 (last_pos n incx) -> in_i32 (last_pos n incy) ->
    dcopy_i32 pr n dx incx dy incy =
    match pr with
    | Release => Ok (dcopy_fa n dx incx dy incy)
    | Debug => if ((incx =? 1) && (incy =? 1)) || (next_fits n incx && next_fits n incy)
               then Ok (dcopy_fa n dx incx dy incy) else Panic
    end.
  Proof.
    intros Hn In Ix Iy Hx Hy. unfold dcopy_i32, dcopy_fa.
    destruct ((incx =? 1) && (incy =? 1)); cbn [orb].
    - match goal with |- context [negb (?m =? 0)] => set (mm := m) end.
      assert (Hm : 0 <= mm < 7). { unfold mm. apply Z.rem_bound_pos; lia. }
      destruct (negb (mm =? 0) && (n <? 7)); [destruct pr; reflexivity|].
      unfold in_i32 in In.
      rewrite (i32_of_in pr (mm + 1)) by (unfold in_i32; lia). cbn [bind].
      match goal with |- for_M _ ?s _ = _ => rewrite (for_M_Ok_in _ _ (dcopy_block dx) s) end; [destruct pr; reflexivity|].
      intros i s Hi. unfold range_step in Hi. destruct (Z.ltb_spec n (mm + 1)) as [L|L]; [destruct Hi|].
      apply in_zup in Hi. destruct Hi as [k [Hk ->]].
      assert (D : n = 7 * (n ÷ 7) + mm) by (unfold mm; apply Z.quot_rem'; lia).
      assert (Q : (n - (mm + 1)) / 7 = n ÷ 7 - 1).
      { replace (n - (mm + 1)) with ((n ÷ 7 - 1) * 7 + 6) by lia.
        rewrite Z.div_add_l by lia. change (6 / 7) with 0. lia. }
      rewrite Q in Hk. rewrite Z2Nat.id in Hk by lia.
      apply dcopy_block_i32_ok; unfold in_i32; lia.
    - rewrite !start_ix_i32_ok by assumption. cbn [bind].
      rewrite pair_loop_i32 by assumption.
      assert (E : (let '(_, _, d) := for_ (range 1 n) (start_ix n incx, start_ix n incy, dy)
          (fun _ '(ix, iy, d) => ((ix + incx)%Z, (iy + incy)%Z, set1 d iy (get1 dx ix))) in d) =
       snd (pair_U (range 1 n) incx incy (fun ix iy d => set1 d iy (get1 dx ix)) (start_ix n incx) (start_ix n incy) dy)).
      { unfold pair_U. destruct (for_ _ _ _) as [[a b] r]. reflexivity. }
      rewrite E. reflexivity.
  Qed.

  Theorem dnrm2_i32_spec pr n (x : fa) incx :
    in_i32 n -> in_i32 incx -> in_i32 (last_pos n incx) ->
    dnrm2_i32 pr n x incx =
    match pr with
    | Release => Ok (dnrm2_fa n x incx)
    | Debug => if (n <=? 0) || next_fits n incx then Ok (dnrm2_fa n x incx) else Panic
    end.
  Proof.
    intros In Ix Hx. unfold dnrm2_i32, dnrm2_fa.
    destruct (Z.leb_spec n 0) as [Hn|Hn]; cbn [orb]; [destruct pr; reflexivity|].
    rewrite start_nrm_i32_ok by (trivial; lia). cbn [bind]. rewrite start_nrm_eq.
    set (acc0 := mkAcc true f0 f0 f0).
    set (st := fun (ix iy : Z) a => nrm_step (get1 x ix) a).
    assert (G : forall l ix a,
      (r <- for_M l (ix, a) (fun _ '(ix, a) => let a := nrm_step (get1 x ix) a in
             ix <- i32_of pr (ix + incx) ;; Ok (ix, a)) ;; Ok (nrm_finish (snd r))) =
      (r <- for_M l (ix, 1, a) (pair_body pr incx 0 st) ;; Ok (nrm_finish (snd r)))).
    { induction l as [|i l IH]; intros ix a; cbn [for_M bind]; [reflexivity|].
      unfold pair_body at 1. cbv beta iota zeta.
      destruct (i32_of pr (ix + incx)) as [v| | |]; cbn [bind]; try reflexivity.
      change (i32_of pr (1 + 0)) with (@Ok Z 1). cbn [bind]. apply IH. }
    rewrite G.
    assert (P := pair_loop_i32 pr n incx 0 st acc0 ltac:(lia) Ix ltac:(unfold in_i32; lia) Hx
      ltac:(unfold in_i32, last_pos; change (Z.abs 0) with 0; rewrite Z.mul_0_r; lia)).
    unfold pair_loop in P. change (fun _ '(ix, iy, s) => _) with (pair_body pr incx 0 st) in P.
    change (start_ix n 0) with 1 in P.
    assert (E : (let '(_, a) := for_ (range 1 n) (start_ix n incx, acc0)
          (fun _ '(ix, a) => ((ix + incx)%Z, nrm_step (get1 x ix) a)) in nrm_finish a) =
       nrm_finish (snd (pair_U (range 1 n) incx 0 st (start_ix n incx) 1 acc0))).
    { clear P. unfold pair_U, for_. generalize (range 1 n) as l. generalize (start_ix n incx) as ix, 1 as iy, acc0 as a.
      intros ix iy a l. revert ix iy a.
      induction l as [|i l IH]; intros ix iy a; cbn [fold_left]; [reflexivity|]. apply IH. }
    rewrite E. change (next_fits n 0) with true in P. rewrite andb_true_r in P.
    revert P. destruct (for_M (range 1 n) (start_ix n incx, 1, acc0) (pair_body pr incx 0 st)) as [v| | |]; cbn [bind];
      destruct pr; try destruct (next_fits n incx); try discriminate; try reflexivity;
      intros P; injection P as ->; reflexivity.
  Qed.
End Loops.

(** ** readable forms *)
Section Readable.
  Context {F : Type} {NF : Num F}.
  Notation fa := (fa F).

  Theorem blas1_release n (dx : fa) incx dy incy c s :
    1 <= n <= 2 ^ 31 - 1 -> - 2 ^ 31 <= incx -> - 2 ^ 31 <= incy ->
    1 + (n - 1) * Z.abs incx <= 2 ^ 31 - 1 -> 1 + (n - 1) * Z.abs incy <= 2 ^ 31 - 1 ->
    incx <= 2 ^ 31 - 1 -> incy <= 2 ^ 31 - 1 ->
    dcopy_i32 Release n dx incx dy incy = Ok (dcopy_fa n dx incx dy incy) /\
    drot_i32 Release n dx incx dy incy c s = Ok (drot_fa n dx incx dy incy c s) /\
    dnrm2_i32 Release n dx incx = Ok (dnrm2_fa n dx incx).
  Proof.
    intros. repeat split;
      [apply (dcopy_i32_spec Release) | apply (drot_i32_spec Release) | apply (dnrm2_i32_spec Release)];
      unfold in_i32, last_pos; try lia; nia.
  Qed.

  Theorem blas1_debug n (dx : fa) incx dy incy c s :
    1 <= n <= 2 ^ 31 - 1 -> - 2 ^ 31 <= incx -> - 2 ^ 31 <= incy ->
    1 + n * Z.max 0 incx <= 2 ^ 31 - 1 -> 1 + n * Z.max 0 incy <= 2 ^ 31 - 1 ->
    1 + (n - 1) * Z.abs incx <= 2 ^ 31 - 1 -> 1 + (n - 1) * Z.abs incy <= 2 ^ 31 - 1 ->
    dcopy_i32 Debug n dx incx dy incy = Ok (dcopy_fa n dx incx dy incy) /\
    drot_i32 Debug n dx incx dy incy c s = Ok (drot_fa n dx incx dy incy c s) /\
    dnrm2_i32 Debug n dx incx = Ok (dnrm2_fa n dx incx).
  Proof.
    intros Hn Ix Iy Nx Ny Lx Ly.
    assert (Fx : next_fits n incx = true).
    { unfold next_fits. destruct (Z.leb_spec incx 0); [reflexivity|]. cbn [orb]. apply Z.leb_le. lia. }
    assert (Fy : next_fits n incy = true).
    { unfold next_fits. destruct (Z.leb_spec incy 0); [reflexivity|]. cbn [orb]. apply Z.leb_le. lia. }
    assert (incx <= 2 ^ 31 - 1) by nia. assert (incy <= 2 ^ 31 - 1) by nia.
    assert (0 <= (n - 1) * Z.abs incx) by nia. assert (0 <= (n - 1) * Z.abs incy) by nia.
    repeat split;
      [rewrite (dcopy_i32_spec Debug) | rewrite (drot_i32_spec Debug) | rewrite (dnrm2_i32_spec Debug)];
      unfold in_i32, last_pos; rewrite ?Fx, ?Fy, ?orb_true_r; try reflexivity; try lia.
  Qed.

  (** a debug build panics on every call with a non-unit increment whose vector ends less than one increment below 2^31 *)
  Theorem blas1_debug_panic n (dx : fa) incx dy incy c s :
    1 <= n <= 2 ^ 31 - 1 -> 2 <= incx <= 2 ^ 31 - 1 -> - 2 ^ 31 <= incy <= 2 ^ 31 - 1 ->
    1 + (n - 1) * incx <= 2 ^ 31 - 1 < 1 + n * incx -> 1 + (n - 1) * Z.abs incy <= 2 ^ 31 - 1 ->
    dcopy_i32 Debug n dx incx dy incy = Panic /\
    drot_i32 Debug n dx incx dy incy c s = Panic /\
    dnrm2_i32 Debug n dx incx = Panic.
  Proof.
    intros Hn Ix Iy Nx Ly.
    assert (Fx : next_fits n incx = false).
    { unfold next_fits. destruct (Z.leb_spec incx 0); [lia|]. cbn [orb]. apply Z.leb_gt. lia. }
    assert (U : (incx =? 1) = false) by (apply Z.eqb_neq; lia).
    assert (0 <= (n - 1) * incx) by nia. assert (0 <= (n - 1) * Z.abs incy) by nia.
    assert (Hn0 : (n <=? 0) = false) by (apply Z.leb_gt; lia).
    repeat split;
      [rewrite (dcopy_i32_spec Debug) | rewrite (drot_i32_spec Debug) | rewrite (dnrm2_i32_spec Debug)];
      unfold in_i32, last_pos; rewrite ?(Z.abs_eq incx) by lia; rewrite ?Fx, ?U, ?Hn0; try reflexivity; try lia.
  Qed.

  (** a vector of one element, copied with the increment i32::MAX *)
  Theorem dcopy_debug_one (x y : F) :
    dcopy_i32 Debug 1 (fa_of_vec [x]) (2 ^ 31 - 1) (fa_of_vec [y]) 1 = Panic /\
    dcopy_i32 Release 1 (fa_of_vec [x]) (2 ^ 31 - 1) (fa_of_vec [y]) 1 = Ok (fa_of_vec [x]) /\
    dcopy_fa 1 (fa_of_vec [x]) (2 ^ 31 - 1) (fa_of_vec [y]) 1 = fa_of_vec [x].
  Proof. repeat split; reflexivity. Qed.

  (** beyond that range the release build comes back round to the beginning of the vector *)
  Theorem dcopy_release_wraps (x y1 y2 y3 y4 y5 : F) :
    dcopy_i32 Release 5 (fa_of_vec [x]) (2 ^ 30) (fa_of_vec [y1; y2; y3; y4; y5]) 1
      = Ok (fa_of_vec [x; fMINPOS; fMINPOS; fMINPOS; x]) /\
    dcopy_fa 5 (fa_of_vec [x]) (2 ^ 30) (fa_of_vec [y1; y2; y3; y4; y5]) 1
      = fa_of_vec [x; fMINPOS; fMINPOS; fMINPOS; fMINPOS].
  Proof. split; reflexivity. Qed.
End Readable.

(** ** dscal in a release build *)
Section Dscal.
  Context {F : Type} {NF : Num F}.
  Notation fa := (fa F).
  Notation M := (2 ^ 31 - 1).

  Lemma wr_big z : 2 ^ 31 <= z < 2 ^ 32 + 2 ^ 31 -> i32_of Release z = Ok (z - 2 ^ 32).
  Proof.
    intros H. unfold i32_of, in_i32b.
    replace (z <=? 2 ^ 31 - 1) with false by (symmetry; apply Z.leb_gt; lia).
    rewrite andb_false_r. unfold wrap32. f_equal.
    replace (z + 2 ^ 31) with ((z - 2 ^ 31) + 1 * 2 ^ 32) by lia.
    rewrite Z_mod_plus_full, Z.mod_small; lia.
  Qed.
  Lemma wr_small z : in_i32 z -> i32_of Release z = Ok z.
  Proof. apply i32_of_in. Qed.

  Lemma while_step fuel (da : F) inc lim i dx i' : i < lim -> i32_of Release (i + inc) = Ok i' ->
    dscal_while_i32 Release (S fuel) da inc lim i dx = dscal_while_i32 Release fuel da inc lim i' (mod1 dx i (fun x => fmul x da)).
  Proof.
    intros H E. cbn [dscal_while_i32]. rewrite (proj2 (Z.ltb_lt _ _) H), E. reflexivity.
  Qed.
  Lemma while_stop fuel (da : F) inc lim i dx : lim <= i ->
    dscal_while_i32 Release fuel da inc lim i dx = Ok dx.
  Proof. intros H. destruct fuel; cbn [dscal_while_i32]; rewrite (proj2 (Z.ltb_ge _ _) H); reflexivity. Qed.

  Definition scaled (b : bool) (da : F) (o : option F) : option F := if b then option_map (fun x => fmul x da) o else o.

  Lemma evens (da : F) m : forall s dx fuel, 1 <= s -> s + Z.of_nat m = 2 ^ 30 -> (2 * m + 2 <= fuel)%nat ->
    exists f, dscal_while_i32 Release fuel da M M (1 - 2 * s) dx = Ok f /\
      forall q, 1 <= q -> elem f q = scaled (Z.even q && (q <=? 2 ^ 31 - 2 * s)) da (elem dx q).
  Proof.
    induction m as [|m IH]; intros s dx fuel Hs Hm Hf.
    - assert (s = 2 ^ 30) by lia. subst s. destruct fuel as [|[|fuel]]; [lia|lia|].
      rewrite (while_step _ _ _ _ _ _ 0) by (try lia; reflexivity).
      rewrite (while_step _ _ _ _ _ _ M) by (try lia; reflexivity).
      rewrite while_stop by lia. eexists. split; [reflexivity|].
      intros q Hq. rewrite !mod1_elem.
      destruct (Z.eqb_spec q 0); [lia|]. destruct (Z.eqb_spec q (1 - 2 * 2 ^ 30)); [lia|].
      replace (q <=? 2 ^ 31 - 2 * 2 ^ 30) with false by (symmetry; apply Z.leb_gt; lia).
      rewrite andb_false_r. reflexivity.
    - destruct fuel as [|[|fuel]]; [lia|lia|].
      rewrite (while_step _ _ _ _ _ _ (2 ^ 31 - 2 * s)).
      2: lia.
      2: { rewrite wr_small by (unfold in_i32; lia). f_equal. lia. }
      rewrite (while_step _ _ _ _ _ _ (1 - 2 * (s + 1))).
      2: lia.
      2: { rewrite wr_big by lia. f_equal. lia. }
      edestruct (IH (s + 1)) as [f [E G]]; [| | |exists f; split; [exact E|]]; try lia.
      intros q Hq. rewrite G by exact Hq. rewrite !mod1_elem.
      destruct (Z.eqb_spec q (1 - 2 * s)); [lia|].
      destruct (Z.eqb_spec q (2 ^ 31 - 2 * s)) as [->|Hne].
      + replace (2 ^ 31 - 2 * s <=? 2 ^ 31 - 2 * (s + 1)) with false by (symmetry; apply Z.leb_gt; lia).
        rewrite Z.leb_refl, andb_false_r, andb_true_r.
        rewrite (proj2 (Z.eqb_neq (2 ^ 31 - 2 * s) (1 - 2 * s))) by lia.
        replace (Z.even (2 ^ 31 - 2 * s)) with true; [reflexivity|].
        replace (2 ^ 31 - 2 * s) with (2 * (2 ^ 30 - s)) by lia. rewrite Z.even_mul. reflexivity.
      + f_equal. destruct (Z.even q) eqn:Ev; [|reflexivity]. cbn [andb].
        apply Z.even_spec in Ev. destruct Ev as [c ->].
        destruct (Z.leb_spec (2 * c) (2 ^ 31 - 2 * (s + 1))); destruct (Z.leb_spec (2 * c) (2 ^ 31 - 2 * s)); lia || reflexivity.
  Qed.

  (** n = 1, incx = i32::MAX: the counter goes round many times; besides the first element every even position is scaled *)
  Theorem dscal_release_evens fuel (da : F) (dx : fa) : (Z.to_nat (2 ^ 31 + 2) <= fuel)%nat -> count dx <= 2 ^ 31 - 1 ->
    exists f, dscal_loop_i32 Release fuel 1 da dx M = Ok f /\
      forall q, 1 <= q -> elem f q = scaled ((q =? 1) || Z.even q) da (elem dx q).
  Proof.
    intros Hf Hc. unfold dscal_loop_i32. change (i32_of Release (1 * M)) with (Ok M). cbn [bind].
    destruct fuel as [|[|fuel]]; [lia|lia|].
    rewrite (while_step _ _ _ _ _ _ (- 2 ^ 31)) by (try lia; reflexivity).
    rewrite (while_step _ _ _ _ _ _ (1 - 2 * 1)) by (try lia; reflexivity).
    destruct (evens da (Z.to_nat (2 ^ 30 - 1)) 1
                (mod1 (mod1 dx 1 (fun x => fmul x da)) (- 2 ^ 31) (fun x => fmul x da)) fuel) as [f [E G]]; try lia.
    exists f. split; [exact E|]. intros q Hq. rewrite G by exact Hq. rewrite !mod1_elem.
    destruct (Z.eqb_spec q (- 2 ^ 31)); [lia|].
    destruct (Z.eqb_spec q 1) as [->|H1]; [reflexivity|]. cbn [orb].
    destruct (Z.leb_spec q (2 ^ 31 - 2 * 1)) as [L|L]; [rewrite andb_true_r; reflexivity|].
    rewrite andb_false_r. destruct (elem dx q) eqn:Eq; [|destruct (Z.even q); reflexivity].
    assert (q <= count dx).
    { unfold elem in Eq. destruct (Z.ltb_spec q 1); [discriminate|]. unfold count.
      assert (Hl : (Z.to_nat (q - 1) < length (data dx))%nat) by (apply nth_error_Some; rewrite Eq; discriminate). lia. }
    assert (q = 2 ^ 31 - 1) by lia. subst q. reflexivity.
  Qed.

  (** two elements 2^30 apart: [n * incx] wraps to a negative number and nothing is scaled *)
  Theorem dscal_release_nothing fuel (da : F) (dx : fa) :
    dscal_loop_i32 Release fuel 2 da dx (2 ^ 30) = Ok dx /\ dscal_loop_i32 Debug fuel 2 da dx (2 ^ 30) = Panic.
  Proof. split; [|reflexivity]. unfold dscal_loop_i32. change (i32_of Release (2 * 2 ^ 30)) with (Ok (- 2 ^ 31)). cbn [bind]. apply while_stop. lia. Qed.
End Dscal.
