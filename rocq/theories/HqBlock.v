(** dlahqr over any number type: two runs on windows that hold the same block, at different places of different matrices. *)
From Coq Require Import ZArith Lia Bool List.
From Verif Require Import Base Num Array Blas Lapack Dlahqr Spec Lists FaLemmas Blas1Proofs LarfgProofs LahqrProofs LahqrStuck LahqrTop HqGet HqRotRows HqReflGen HqUnread.
Import ListNotations.
Open Scope Z_scope.

(** if the first run returns, the second returns a related result *)
Definition oimp {A B} (P : A -> B -> Prop) (x : outcome A) (y : outcome B) : Prop :=
  forall a, x = Ok a -> exists b, y = Ok b /\ P a b.
Lemma oimp_ok {A B} (P : A -> B -> Prop) a b : P a b -> oimp P (Ok a) (Ok b).
Proof. intros H a' [= <-]. eauto. Qed.
Lemma oimp_bind {A B C D} (P : A -> B -> Prop) (Q : C -> D -> Prop) x y f g :
  oimp P x y -> (forall a b, y = Ok b -> P a b -> oimp Q (f a) (g b)) -> oimp Q (bind x f) (bind y g).
Proof.
  intros H HF c E. destruct x as [a| | |]; cbn in E; try discriminate. destruct (H a eq_refl) as (b & -> & HP). cbn. exact (HF a b eq_refl HP c E).
Qed.
Lemma for_M_imp {A B} (P : A -> B -> Prop) d f g : forall is a b, P a b -> (forall i a b, In i is -> P a b -> oimp P (f (i + d) a) (g i b)) ->
  oimp P (for_M (map (fun q => q + d) is) a f) (for_M is b g).
Proof.
  induction is as [|i is IH]; intros a b HP HF; [apply oimp_ok; exact HP|]. cbn [for_M map]. eapply oimp_bind; [apply HF; [left; reflexivity|exact HP]|].
  intros a' b' _ HP'. apply IH; [exact HP'|]. intros j x y Hj. apply HF. right. exact Hj.
Qed.
Lemma for_brk_M_imp {A B} (P : A -> B -> Prop) f g : forall is a b, P a b ->
  (forall i a b, In i is -> P a b -> oimp (fun x y => P (fst x) (fst y) /\ snd x = snd y) (f i a) (g i b)) ->
  oimp P (for_brk_M is a f) (for_brk_M is b g).
Proof.
  induction is as [|i is IH]; intros a b HP HF; [apply oimp_ok; exact HP|]. cbn [for_brk_M]. eapply oimp_bind; [apply HF; [left; reflexivity|exact HP]|].
  intros [a' c] [b' e] _ [HP' E]. cbn [fst snd] in *. subst e. destruct c; [apply oimp_ok; exact HP'|]. apply IH; [exact HP'|]. intros j x y Hj. apply HF. right. exact Hj.
Qed.
(** how a loop that may break ends *)
Lemma for_brk_M_end {S} (f : Z -> S -> outcome (S * bool)) : forall is a r, for_brk_M is a f = Ok r -> is <> [] ->
  (exists i a', f i a' = Ok (r, true)) \/ (exists a', f (last is 0) a' = Ok (r, false)).
Proof.
  induction is as [|i is IH]; intros a r E N; [congruence|]. cbn [for_brk_M] in E. destruct (f i a) as [[s b]| | |] eqn:Ef; cbn [bind fst snd] in E; try discriminate.
  destruct b; [injection E as <-; left; eauto|]. destruct is as [|i' is']; [injection E as <-; right; exists a; exact Ef|].
  destruct (IH s r E ltac:(discriminate)) as [X|X]; [left; exact X|right; exact X].
Qed.
Lemma for_brk_imp {A B} (P : A -> B -> Prop) d f g : forall is a b, P a b ->
  (forall i a b, In i is -> P a b -> P (fst (f (i + d) a)) (fst (g i b)) /\ snd (f (i + d) a) = snd (g i b)) ->
  P (for_brk (map (fun q => q + d) is) a f) (for_brk is b g).
Proof.
  induction is as [|i is IH]; intros a b HP HF; [exact HP|]. cbn [for_brk map]. destruct (HF i a b (or_introl eq_refl) HP) as [X Y].
  destruct (f (i + d) a) as [a' c], (g i b) as [b' e]. cbn [fst snd] in *. subst e. destruct c; [exact X|]. apply IH; [exact X|]. intros j x y Hj. apply HF. right. exact Hj.
Qed.
Lemma zup_shift d s : forall c lo, zup (lo + d) s c = map (fun q => q + d) (zup lo s c).
Proof. induction c as [|c IH]; intros lo; [reflexivity|]. cbn [zup map]. f_equal. rewrite <- IH. f_equal. lia. Qed.
Lemma range_shift d a b : range (a + d) (b + d) = map (fun q => q + d) (range a b).
Proof. unfold range. rewrite zup_shift. do 3 f_equal. lia. Qed.
Lemma range_rev_shift d a b : range_rev (a + d) (b + d) = map (fun q => q + d) (range_rev a b).
Proof. unfold range_rev. rewrite zup_shift. do 3 f_equal. lia. Qed.
Lemma leb_shift d a b : (a + d <=? b + d) = (a <=? b).
Proof. destruct (Z.leb_spec (a + d) (b + d)), (Z.leb_spec a b); reflexivity || lia. Qed.
Lemma ltb_shift d a b : (a + d <? b + d) = (a <? b).
Proof. destruct (Z.ltb_spec (a + d) (b + d)), (Z.ltb_spec a b); reflexivity || lia. Qed.
Lemma eqb_shift d a b : (a + d =? b + d) = (a =? b).
Proof. destruct (Z.eqb_spec (a + d) (b + d)), (Z.eqb_spec a b); reflexivity || lia. Qed.

Section Block.
  Context {F : Type} {NF : Num F}.
  Notation fa := (fa F).
  Context (wantz : bool) (n1 n2 d ilo ihi iloz ihiz iloz' ihiz' : Z).
  Hypothesis (Hlo1 : 1 <= ilo + d) (Hhi1 : ihi + d <= n1) (Hlo : 1 <= ilo) (Hhi : ihi <= n2).
  Context (f0' g0 : fa).

  (** the window of g, moved by d, is the window of f, but for entries five or more below the diagonal *)
  Definition rel (f g : fa) : Prop := (full f /\ same_shape f f0' /\ big n1 f) /\ (full g /\ same_shape g g0 /\ big n2 g) /\
    forall a b, ilo <= a <= ihi -> ilo <= b <= ihi -> a < b + 5 -> get2 f (a + d) (b + d) = get2 g a b.
  Lemma rel_get f g a b a' b' : rel f g -> a' = a + d -> b' = b + d -> ilo <= a <= ihi -> ilo <= b <= ihi -> a < b + 5 -> get2 f a' b' = get2 g a b.
  Proof. intros (_ & _ & H) -> -> Ha Hb Hab. apply H; auto. Qed.
  Lemma rel_mk f g f' g' : rel f g -> same_shape f' f -> same_shape g' g ->
    (forall a b, ilo <= a <= ihi -> ilo <= b <= ihi -> a < b + 5 -> get2 f' (a + d) (b + d) = get2 g' a b) -> rel f' g'.
  Proof.
    intros ((F1 & S1 & B1) & (F2 & S2 & B2) & _) SF SG H.
    split; [split; [eapply full_shape; eassumption|split; [eapply same_shape_trans; eassumption|eapply big_shape; eassumption]]|].
    split; [split; [eapply full_shape; eassumption|split; [eapply same_shape_trans; eassumption|eapply big_shape; eassumption]]|exact H].
  Qed.
  Lemma rel_mod f g i j i' j' u v : rel f g -> i' = i + d -> j' = j + d -> ilo <= i <= ihi -> ilo <= j <= ihi -> u (get2 f i' j') = v (get2 g i j) ->
    rel (mod2 f i' j' u) (mod2 g i j v).
  Proof.
    intros H -> -> Hi Hj E. pose proof H as ((_ & _ & B1) & (_ & _ & B2) & HG). apply (rel_mk f g); [exact H|apply mod2_shape|apply mod2_shape|].
    intros a b Ha Hb G. rewrite (mod2_get n1), (mod2_get n2) by (assumption || lia). rewrite !eqb_shift. destruct (_ && _); [exact E|]. apply HG; assumption.
  Qed.
  Lemma rel_set f g i j i' j' x : rel f g -> i' = i + d -> j' = j + d -> ilo <= i <= ihi -> ilo <= j <= ihi -> rel (set2 f i' j' x) (set2 g i j x).
  Proof. intros H E1 E2 Hi Hj. apply rel_mod; auto. Qed.
  Lemma smlnum_shift : hq_smlnum (ilo + d) (ihi + d) = hq_smlnum ilo ihi :> F.
  Proof. unfold hq_smlnum, hq_nh. do 3 f_equal. lia. Qed.
  Lemma itmax_shift : hq_itmax (ilo + d) (ihi + d) = hq_itmax ilo ihi.
  Proof. unfold hq_itmax, hq_nh. do 2 f_equal. lia. Qed.

  Section Two.
    Context (f g : fa).
    Hypothesis H : rel f g.
    Ltac un x := match x with context C [?y + d] => context C [y] end.
    Ltac rd := repeat match goal with |- context [get2 f ?a ?b] => let a' := un a in let b' := un b in rewrite (rel_get f g a' b' a b H) by lia end.

    Lemma small_rel k : ilo < k <= ihi -> hq_small (ilo + d) (ihi + d) f (k + d) = hq_small ilo ihi g k.
    Proof.
      intros Hk. unfold hq_small. rewrite smlnum_shift. destruct (Z.leb_spec (ilo + d) (k + d - 2)), (Z.leb_spec ilo (k - 2)); try lia;
        destruct (Z.leb_spec (k + d + 1) (ihi + d)), (Z.leb_spec (k + 1) ihi); try lia; rd; reflexivity.
    Qed.
    Lemma scan_rel l i k0 : ilo <= l -> i <= ihi -> hq_scan (ilo + d) (ihi + d) f (l + d) (i + d) (k0 + d) = hq_scan ilo ihi g l i k0 + d.
    Proof.
      intros Hl Hi. unfold hq_scan. replace (l + d + 1) with (l + 1 + d) by lia. rewrite range_rev_shift.
      apply (for_brk_imp (fun a b => a = b + d)); [reflexivity|]. intros c a b Hc _. apply in_range_rev in Hc.
      rewrite small_rel by lia. destruct (hq_small _ _ _ _); cbn; split; reflexivity || lia.
    Qed.
    Lemma block_rel l i kd : ilo <= l -> l + 2 <= i -> i <= ihi -> hq_block f (l + d) (i + d) kd = hq_block g l i kd.
    Proof. intros Hl Hli Hi. unfold hq_block. rd. reflexivity. Qed.
    Lemma firstcol_rel sh m v w : ilo <= m -> m + 2 <= ihi -> relv v w -> relv (hq_firstcol f sh (m + d) v) (hq_firstcol g sh m w).
    Proof.
      intros Hm Hm2 V. unfold hq_firstcol. destruct sh as [[[a b] c] e]. rd. cbv zeta.
      repeat match goal with |- context [set1 v 1 ?x] => match x with context [get1] => fail 1 | _ =>
        let V1 := fresh "V" in pose proof (proj1 (relv_set v w x V)) as V1; set (v1 := set1 v 1 x) in *; set (w1 := set1 w 1 x) in * end end.
      match goal with |- context [set1 v1 2 ?x] => pose proof (proj1 (proj2 (relv_set v1 w1 x V0))) as V2; set (v2 := set1 v1 2 x) in *; set (w2 := set1 w1 2 x) in * end.
      match goal with |- context [set1 v2 3 ?x] => pose proof (proj2 (proj2 (relv_set v2 w2 x V2))) as V3; set (v3 := set1 v2 3 x) in *; set (w3 := set1 w2 3 x) in * end.
      clearbody v3 w3. clear v1 w1 v2 w2 V0 V2.
      destruct (relv_get _ _ V3) as (-> & -> & ->). set (s := fadd _ _).
      set (x := fdiv (get1 w3 1) s). pose proof (proj1 (relv_set v3 w3 x V3)) as V4.
      destruct (relv_get _ _ V4) as (_ & -> & _). set (y := fdiv (get1 (set1 w3 1 x) 2) s). pose proof (proj1 (proj2 (relv_set _ _ y V4))) as V5.
      destruct (relv_get _ _ V5) as (_ & _ & ->). apply relv_set. exact V5.
    Qed.
    Lemma can_rel v w m : ilo < m -> m + 1 <= ihi -> relv v w -> hq_can_start f v (m + d) = hq_can_start g w m.
    Proof. intros Hm Hm1 V. unfold hq_can_start. destruct (relv_get _ _ V) as (-> & -> & ->). rd. reflexivity. Qed.
    Lemma start_rel sh l i m0 m0' v w : ilo <= l -> l + 2 <= i -> i <= ihi -> relv v w ->
      fst (hq_start f sh (l + d) (i + d) m0 v) = fst (hq_start g sh l i m0' w) + d /\ relv (snd (hq_start f sh (l + d) (i + d) m0 v)) (snd (hq_start g sh l i m0' w)).
    Proof.
      intros Hl Hli Hi V. unfold hq_start. replace (i + d - 2) with (i - 2 + d) by lia. rewrite range_rev_shift. rewrite range_rev_cons by lia. cbn [for_brk map].
      pose proof (firstcol_rel sh (i - 2) v w ltac:(lia) ltac:(lia) V) as E'. rewrite !eqb_shift.
      destruct (Z.eqb_spec (i - 2) l); [auto|]. rewrite (can_rel _ _ (i - 2) ltac:(lia) ltac:(lia) E'). destruct (hq_can_start _ _ _); [auto|].
      apply (for_brk_imp (fun a b => fst a = fst b + d /\ relv (snd a) (snd b))); [auto|].
      intros c [a x] [b y] Hc [_ E]. apply in_range_rev in Hc. cbn [snd] in E. pose proof (firstcol_rel sh c x y ltac:(lia) ltac:(lia) E) as E2. rewrite !eqb_shift.
      destruct (Z.eqb_spec c l); [auto|]. rewrite (can_rel _ _ c ltac:(lia) ltac:(lia) E2). destruct (hq_can_start _ _ _); auto.
    Qed.
    Lemma reflector_rel v w t1 m i k : relv v w -> ilo <= m <= k -> k + 1 <= i <= ihi ->
      exists v' w' t, hq_reflector f v t1 (m + d) (i + d) (k + d) = Ok (v', t) /\ hq_reflector g w t1 m i k = Ok (w', t) /\ relv v' w'.
    Proof.
      intros (x1 & x2 & x3 & A & B) Hm Hi. pose proof H as ((F1 & _ & B1) & (F2 & _ & B2) & _).
      destruct (hq_reflector_get n1 f F1 B1 v t1 _ _ _ (m + d) (k + d) (i + d) A ltac:(lia) ltac:(lia)) as (v' & beta & tau & y2 & y3 & x' & DL & DX & ER & V').
      destruct (hq_reflector_get n2 g F2 B2 w t1 _ _ _ m k i B ltac:(lia) ltac:(lia)) as (w' & beta' & tau' & y2' & y3' & x'' & DL' & DX' & ER' & W').
      replace (i + d - (k + d) + 1) with (i - k + 1) in DL by lia. rewrite ltb_shift in DL.
      destruct (Z.ltb_spec m k) as [C|C].
      - rewrite <- !(rel_get f g k (k - 1) (k + d) (k + d - 1) H), <- !(rel_get f g (k + 1) (k - 1) (k + d + 1) (k + d - 1) H) in DL' by lia.
        assert (X : (if k + d + 2 <=? i + d then get2 f (k + d + 2) (k + d - 1) else x3) = (if k + 2 <=? i then get2 g (k + 2) (k - 1) else x3)).
        { destruct (Z.leb_spec (k + d + 2) (i + d)), (Z.leb_spec (k + 2) i); try lia; [rd; reflexivity|reflexivity]. }
        rewrite <- X in DL'. rewrite DL in DL'. injection DL' as <- <- <-. rewrite DX in DX'. injection DX' as <- <-.
        exists v', w', tau. split; [exact ER|]. split; [exact ER'|]. do 3 eexists. split; eassumption.
      - rewrite DL in DL'. injection DL' as <- <- <-. rewrite DX in DX'. injection DX' as <- <-.
        exists v', w', tau. split; [exact ER|]. split; [exact ER'|]. do 3 eexists. split; eassumption.
    Qed.
    Lemma pick3_shift k a (r : F * F * F) x : pick3 (k + d) (a + d) r x = pick3 k a r x.
    Proof. unfold pick3. replace (k + d + 1) with (k + 1 + d) by lia. replace (k + d + 2) with (k + 2 + d) by lia. rewrite !eqb_shift. reflexivity. Qed.
    Lemma pick2_shift k a (r : F * F) x : pick2 (k + d) (a + d) r x = pick2 k a r x.
    Proof. unfold pick2. replace (k + d + 1) with (k + 1 + d) by lia. rewrite !eqb_shift. reflexivity. Qed.
    Lemma left3_rel k v2 v3 t1 t2 t3 hi : ilo <= k -> k + 2 <= ihi -> hi <= ihi ->
      rel (for_ (range (k + d) (hi + d)) f (left3 (k + d) v2 v3 t1 t2 t3)) (for_ (range k hi) g (left3 k v2 v3 t1 t2 t3)).
    Proof.
      intros Hk Hk2 Hh. pose proof H as ((_ & _ & B1) & (_ & _ & B2) & HG). apply (rel_mk f g); [exact H|apply for_shape; intros; apply left3_shape..|].
      intros a b Ha Hb G. rewrite (left3_loop_get n1), (left3_loop_get n2) by (assumption || lia). unfold inside. rewrite !leb_shift.
      assert (E : get2 f (a + d) (b + d) = get2 g a b) by (apply HG; assumption). destruct (Z.leb_spec k b); cbn [andb]; [|exact E]. destruct (Z.leb_spec b hi); [|exact E].
      unfold lval3. rewrite E, pick3_shift. rd. reflexivity.
    Qed.
    Lemma left2_rel k v2 t1 t2 hi : ilo <= k -> k + 1 <= ihi -> hi <= ihi ->
      rel (for_ (range (k + d) (hi + d)) f (left2 (k + d) v2 t1 t2)) (for_ (range k hi) g (left2 k v2 t1 t2)).
    Proof.
      intros Hk Hk2 Hh. pose proof H as ((_ & _ & B1) & (_ & _ & B2) & HG). apply (rel_mk f g); [exact H|apply for_shape; intros; apply left2_shape..|].
      intros a b Ha Hb G. rewrite (left2_loop_get n1), (left2_loop_get n2) by (assumption || lia). unfold inside. rewrite !leb_shift.
      assert (E : get2 f (a + d) (b + d) = get2 g a b) by (apply HG; assumption). destruct (Z.leb_spec k b); cbn [andb]; [|exact E]. destruct (Z.leb_spec b hi); [|exact E].
      unfold lval2. rewrite E, pick2_shift. rd. reflexivity.
    Qed.
    Lemma right3_rel lo k v2 v3 t1 t2 t3 hi : ilo <= lo -> ilo <= k -> k + 2 <= ihi -> hi <= ihi -> hi <= k + 4 ->
      rel (for_ (range (lo + d) (hi + d)) f (right3 (k + d) v2 v3 t1 t2 t3)) (for_ (range lo hi) g (right3 k v2 v3 t1 t2 t3)).
    Proof.
      intros Hl Hk Hk2 Hh Hh4. pose proof H as ((_ & _ & B1) & (_ & _ & B2) & HG). apply (rel_mk f g); [exact H|apply for_shape; intros; apply right3_shape..|].
      intros a b Ha Hb G. rewrite (right3_loop_get n1), (right3_loop_get n2) by (assumption || lia). unfold inside. rewrite !leb_shift.
      assert (E : get2 f (a + d) (b + d) = get2 g a b) by (apply HG; assumption). destruct (Z.leb_spec lo a); cbn [andb]; [|exact E]. destruct (Z.leb_spec a hi); [|exact E].
      unfold rval3. rewrite E, pick3_shift. rd. reflexivity.
    Qed.
    Lemma right2_rel lo k v2 t1 t2 hi : ilo <= lo -> ilo <= k -> k + 1 <= ihi -> hi <= ihi -> hi <= k + 4 ->
      rel (for_ (range (lo + d) (hi + d)) f (right2 (k + d) v2 t1 t2)) (for_ (range lo hi) g (right2 k v2 t1 t2)).
    Proof.
      intros Hl Hk Hk2 Hh Hh4. pose proof H as ((_ & _ & B1) & (_ & _ & B2) & HG). apply (rel_mk f g); [exact H|apply for_shape; intros; apply right2_shape..|].
      intros a b Ha Hb G. rewrite (right2_loop_get n1), (right2_loop_get n2) by (assumption || lia). unfold inside. rewrite !leb_shift.
      assert (E : get2 f (a + d) (b + d) = get2 g a b) by (apply HG; assumption). destruct (Z.leb_spec lo a); cbn [andb]; [|exact E]. destruct (Z.leb_spec a hi); [|exact E].
      unfold rval2. rewrite E, pick2_shift. rd. reflexivity.
    Qed.
    (** what the rotation of the rows does to one array *)
    Lemma rot_one n (x : fa) i c s : full x -> big n x -> 2 <= i <= n ->
      exists x', hq_rot_rows n (rows x) i c s x = Ok x' /\ same_shape x' x /\
        forall a b, 1 <= a <= n -> 1 <= b <= n -> get2 x' a b =
          if (a =? i) && (i <? b) then fsub (fmul c (get2 x i b)) (fmul s (get2 x (i - 1) b))
          else if (a =? i - 1) && (b =? i + 1) then fadd (fmul c (get2 x (i - 1) (i + 1))) (fmul s (get2 x i (i + 1))) else get2 x a b.
    Proof.
      intros FX BX Hi. destruct (Z.eq_dec i n) as [->|Ni].
      { exists x. unfold hq_rot_rows. rewrite Z.ltb_irrefl. split; [reflexivity|]. split; [apply same_shape_refl|]. intros a b Ha Hb.
        destruct (Z.ltb_spec n b), (Z.eqb_spec b (n + 1)); try lia. rewrite !andb_false_r. reflexivity. }
      destruct (hq_rot_rows_spec n x i c s FX) as (x' & E & Sh & R1 & R2 & R3); [lia|apply BX|apply BX|]. exists x'. split; [exact E|]. split; [exact Sh|].
      intros a b Ha Hb.
      assert (K : ~ (a = i /\ i < b) -> ~ (a = i - 1 /\ b = i + 1) -> get2 x' a b = get2 x a b).
      { intros N1 N2. rewrite !get2_ent. unfold ent. rewrite (proj1 Sh). rewrite R3; [reflexivity|..]; destruct BX; try (intros p Hp); intros X; apply pos_inj in X; lia. }
      destruct (Z.eqb_spec a i) as [->|Na]; cbn [andb].
      - destruct (Z.ltb_spec i b); [apply R1; lia|]. destruct (Z.eqb_spec i (i - 1)); [lia|]. apply K; lia.
      - destruct (Z.eqb_spec a (i - 1)) as [->|Na2]; cbn [andb]; [destruct (Z.eqb_spec b (i + 1)) as [->|Nb]|]; [exact R2|apply K; lia|apply K; lia].
    Qed.
    Lemma rot_rel i c s : ilo + 1 <= i <= ihi ->
      exists f' g', hq_rot_rows n1 (rows f) (i + d) c s f = Ok f' /\ hq_rot_rows n2 (rows g) i c s g = Ok g' /\ rel f' g'.
    Proof.
      intros Hi. pose proof H as ((F1 & _ & B1) & (F2 & _ & B2) & HG).
      destruct (rot_one n1 f (i + d) c s F1 B1) as (f' & Ef & Sf & Vf); [lia|]. destruct (rot_one n2 g i c s F2 B2) as (g' & Eg & Sg & Vg); [lia|].
      exists f', g'. split; [exact Ef|]. split; [exact Eg|]. apply (rel_mk f g); [exact H|exact Sf|exact Sg|]. intros a b Ha Hb G.
      rewrite Vf, Vg by lia. replace (i + d - 1) with (i - 1 + d) by lia. replace (i + d + 1) with (i + 1 + d) by lia. rewrite !eqb_shift, ltb_shift.
      destruct (Z.eqb_spec a i), (Z.ltb_spec i b), (Z.eqb_spec a (i - 1)), (Z.eqb_spec b (i + 1)); cbn [andb]; try lia; rd; reflexivity.
    Qed.
  End Two.

  Definition reqs (a b : fa * fa * fa * F) : Prop :=
    let '(h, z, v, t) := a in let '(h', z', v', t') := b in rel h h' /\ relv v v' /\ t = t'.
  Lemma step_rel z0 l m i k a b : ilo <= l <= m -> m <= k -> k + 1 <= i -> i <= ihi -> reqs a b /\ snd (fst (fst b)) = z0 ->
    oimp (fun a b => reqs a b /\ snd (fst (fst b)) = z0) (hq_step wantz iloz ihiz (l + d) (i + d) (l + d) (m + d) (i + d) (k + d) a) (hq_step false iloz' ihiz' l i l m i k b).
  Proof.
    intros Hl Hm Hk Hi. destruct a as [[[h z] v] t1], b as [[[h' z'] v'] t1']. cbn [fst snd]. intros [(RH & RV & <-) EZ]. unfold hq_step.
    destruct (reflector_rel h h' RH v v' t1 m i k RV) as (w & w' & t & -> & -> & RW); [lia|lia|]. cbn [bind].
    destruct (relv_get _ _ RW) as (W1 & W2 & W3). rewrite W1, W2, W3.
    set (mid := fun (e : Z) (h : fa) => if m + e <? k + e then let h := set2 h (k + e) (k + e - 1) (get1 w' 1) in let h := set2 h (k + e + 1) (k + e - 1) f0 in
      if k + e <? i + e - 1 then set2 h (k + e + 2) (k + e - 1) f0 else h else if l + e <? m + e then mod2 h (k + e) (k + e - 1) (fun x => fmul x (fsub f1 t)) else h).
    set (mid' := fun h : fa => if m <? k then let h := set2 h k (k - 1) (get1 w' 1) in let h := set2 h (k + 1) (k - 1) f0 in
      if k <? i - 1 then set2 h (k + 2) (k - 1) f0 else h else if l <? m then mod2 h k (k - 1) (fun x => fmul x (fsub f1 t)) else h).
    assert (RG : rel (mid d h) (mid' h')).
    { unfold mid, mid'. rewrite !ltb_shift. replace (i + d - 1) with (i - 1 + d) by lia. rewrite ltb_shift. destruct (Z.ltb_spec m k); [|destruct (Z.ltb_spec l m)].
      - cbv zeta. destruct (Z.ltb_spec k (i - 1)); repeat (apply rel_set; [|lia|lia|lia|lia]); exact RH.
      - apply rel_mod; [exact RH|lia|lia|lia|lia|]. f_equal. apply rel_get; [exact RH|lia|lia|lia|lia|lia].
      - exact RH. }
    fold (mid d h). fold (mid' h'). cbv zeta. set (g := mid d h) in *. set (g' := mid' h') in *. clearbody g g'. clear mid mid'.
    replace (i + d - (k + d) + 1) with (i - k + 1) by lia.
    destruct (Z.eqb_spec (Z.min 3 (i - k + 1)) 3); [|destruct (Z.eqb_spec (Z.min 3 (i - k + 1)) 2)]; (apply oimp_ok; split; [split; [|auto]|exact EZ]).
    - replace (Z.min (i + d) (k + d + 4)) with (Z.min i (k + 4) + d) by lia. apply right3_rel; try lia. apply left3_rel; try lia. exact RG.
    - apply right2_rel; try lia. apply left2_rel; try lia. exact RG.
    - exact RG.
  Qed.

  (** eigenvalues stored at the places in P agree *)
  Context (r0 r0' i0 i0' z0 : fa).
  Definition relw (u0 w0 : fa) (P : Z -> Prop) (u w : fa) : Prop := same_shape u u0 /\ same_shape w w0 /\ ihi + d <= count u /\ ihi <= count w /\
    forall j, P j -> ilo <= j <= ihi -> elem u (j + d) = elem w j.
  Lemma relw_set u0 w0 (P Q : Z -> Prop) u w j j' x : relw u0 w0 P u w -> j' = j + d -> ilo <= j <= ihi -> (forall q, Q q -> ilo <= q <= ihi -> P q \/ q = j) ->
    relw u0 w0 Q (set1 u j' x) (set1 w j x).
  Proof.
    intros (S1 & S2 & C1 & C2 & H) -> Hj HQ. assert (T1 := set1_shape u (j + d) x). assert (T2 := set1_shape w j x).
    split; [eapply same_shape_trans; eassumption|]. split; [eapply same_shape_trans; eassumption|].
    split; [destruct T1 as (_ & _ & ->); exact C1|]. split; [destruct T2 as (_ & _ & ->); exact C2|].
    intros q Hq Hr. unfold set1. rewrite !mod1_elem, eqb_shift. destruct (Z.eqb_spec q j) as [->|N].
    - destruct (proj2 (elem_Some u (j + d)) ltac:(lia)) as (y & ->). destruct (proj2 (elem_Some w j) ltac:(lia)) as (y' & ->). reflexivity.
    - apply H; [|exact Hr]. destruct (HQ q Hq Hr); [assumption|contradiction].
  Qed.
  Lemma relw_weak u0 w0 (P Q : Z -> Prop) u w : relw u0 w0 P u w -> (forall q, Q q -> P q) -> relw u0 w0 Q u w.
  Proof. intros (S1 & S2 & C1 & C2 & H) HQ. do 4 (split; [assumption|]). intros j Hj Hr. apply H; auto. Qed.

  Definition within (s : @hqst F) : Prop := ilo <= sK s <= ihi /\ ilo <= sL s <= ihi /\ sI s <= ihi.
  Definition srel (P : Z -> Prop) (s t : @hqst F) : Prop :=
    rel (sH s) (sH t) /\ relw r0 r0' P (sWr s) (sWr t) /\ relw i0 i0' P (sWi s) (sWi t) /\ sZ t = z0 /\ relv (sV s) (sV t) /\ sT1 s = sT1 t /\
    sK s = sK t + d /\ sL s = sL t + d /\ sI s = sI t + d /\ sIts s = sIts t /\ sKdefl s = sKdefl t /\ within t.

  Ltac flds := cbn [sH sWr sWi sZ sV sT1 sM sK sL sI sIts sKdefl sCs sSn].
  Ltac flds_in X := cbn [sH sWr sWi sZ sV sT1 sM sK sL sI sIts sKdefl sCs sSn] in X.
  Lemma iter_rel P its s t : srel P s t ->
    oimp (fun a b => srel P (fst a) (fst b) /\ snd a = snd b) (hq_iter true wantz (ilo + d) (ihi + d) iloz ihiz its s) (hq_iter true false ilo ihi iloz' ihiz' its t).
  Proof.
    destruct s as [h wr wi z v t1 m k l i is kd cs sn], t as [h' wr' wi' z' v' t1' m' k' l' i' is' kd' cs' sn']. unfold srel, within. flds.
    intros (RH & RR & RI & EZ & RV & -> & -> & -> & -> & -> & -> & HK & HL & HI). unfold hq_iter. flds.
    rewrite (scan_rel _ _ RH) by lia. set (c := hq_scan ilo ihi h' l' i' k').
    assert (K : ilo <= c <= ihi).
    { destruct (hq_scan_bounds ilo ihi h' l' i' k') as [A B]. fold c in A, B.
      destruct (Z_lt_le_dec l' i'); [specialize (A ltac:(lia)); lia|rewrite B by lia; lia]. }
    clearbody c. rewrite ltb_shift. replace (i' + d - 1) with (i' - 1 + d) by lia. rewrite leb_shift.
    set (g := if ilo <? c then set2 h (c + d) (c + d - 1) f0 else h). set (g' := if ilo <? c then set2 h' c (c - 1) f0 else h').
    assert (RG : rel g g') by (unfold g, g'; destruct (Z.ltb_spec ilo c); [apply rel_set; [exact RH|lia|lia|lia|lia]|exact RH]). clearbody g g'.
    destruct (Z.leb_spec (i' - 1) c).
    { apply oimp_ok. cbn [fst snd]. flds. split; [|reflexivity]. do 4 (split; [assumption|]). repeat split; (assumption || reflexivity || lia). }
    rewrite (block_rel _ _ RG) by lia. set (sh := hq_shifts _).
    destruct (start_rel _ _ RG sh c i' m m' v v') as [E1 E2]; [lia|lia|lia|exact RV|].
    pose proof (hq_start_m g' sh c i' m' v' ltac:(lia)) as HM.
    destruct (hq_start g sh (c + d) (i' + d) m v) as [q w], (hq_start g' sh c i' m' v') as [q' w']. cbn [fst snd] in *. subst q.
    apply oimp_bind with (P := fun a b => reqs a b /\ snd (fst (fst b)) = z0).
    - rewrite range_shift. apply for_M_imp; [split; [split; auto|exact EZ]|]. intros j a b Hj HP. apply in_range in Hj. apply step_rel; (lia || exact HP).
    - intros [[[h1 z1] v1] u1] [[[h2 z2] v2] u2] _ [(A & B & <-) C]. cbn [fst snd] in C. apply oimp_ok. cbn [fst snd]. flds. split; [|reflexivity].
      do 4 (split; [assumption|]). repeat split; (assumption || reflexivity || lia).
  Qed.
  (** how the iteration ends *)
  Lemma iters_end t b : for_brk_M (range 0 (hq_itmax ilo ihi)) t (hq_iter true false ilo ihi iloz' ihiz') = Ok b ->
    hq_itmax ilo ihi <= sIts b \/ sI b - 1 <= sL b.
  Proof.
    intros E. assert (IM : 0 <= hq_itmax ilo ihi) by (unfold hq_itmax; lia). destruct (for_brk_M_end _ _ _ _ E) as [(i & a & Ei)|(a & Ei)].
    - rewrite range_cons by lia. discriminate.
    - right. unfold hq_iter in Ei. match type of Ei with (if ?c then _ else _) = _ => destruct c eqn:C end.
      + injection Ei as <-. flds. apply Z.leb_le in C. exact C.
      + destruct (hq_start _ _ _ _ _ _). destruct (for_M _ _ _) as [[[[? ?] ?] ?]| | |]; cbn [bind] in Ei; try discriminate.
    - left. replace (last (range 0 (hq_itmax ilo ihi)) 0) with (hq_itmax ilo ihi) in Ei.
      2: { rewrite range_snoc by lia. rewrite last_last. reflexivity. }
      unfold hq_iter in Ei. match type of Ei with (if ?c then _ else _) = _ => destruct c eqn:C end.
      + discriminate.
      + destruct (hq_start _ _ _ _ _ _). destruct (for_M _ _ _) as [[[[? ?] ?] ?]| | |]; cbn [bind] in Ei; try discriminate. injection Ei as <-. flds. lia.
  Qed.

  Lemma deflate_rel s t : srel (fun q => sI t < q) s t -> ilo <= sI t -> sI t - 1 <= sL t ->
    oimp (fun a b => srel (fun q => sL b - 1 < q) a b) (hq_deflate true wantz n1 (rows f0') iloz ihiz s) (hq_deflate true false n2 (rows g0) iloz' ihiz' t).
  Proof.
    destruct s as [h wr wi z v t1 m k l i is kd cs sn], t as [h' wr' wi' z' v' t1' m' k' l' i' is' kd' cs' sn']. unfold srel, within. flds.
    intros (RH & RR & RI & EZ & RV & -> & -> & -> & -> & -> & -> & HK & HL & HI) Hi Hb. unfold hq_deflate. flds. replace (i' + d - 1) with (i' - 1 + d) by lia. rewrite !eqb_shift.
    destruct (Z.eqb_spec l' i') as [El|Nl].
    { apply oimp_ok. flds. rewrite (rel_get h h' i' i' (i' + d) (i' + d) RH) by lia. split; [exact RH|].
      split; [eapply relw_set; [exact RR|reflexivity|lia|intros; cbv beta in *; lia]|]. split; [eapply relw_set; [exact RI|reflexivity|lia|intros; cbv beta in *; lia]|].
      repeat split; (assumption || reflexivity || lia). }
    destruct (Z.eqb_spec l' (i' - 1)) as [El|Nl2].
    2: { apply oimp_ok. flds. split; [exact RH|]. split; [eapply relw_weak; [exact RR|intros; cbv beta in *; lia]|]. split; [eapply relw_weak; [exact RI|intros; cbv beta in *; lia]|].
      repeat split; (assumption || reflexivity || lia). }
    rewrite (rel_get h h' (i' - 1) (i' - 1) (i' - 1 + d) (i' - 1 + d) RH), (rel_get h h' (i' - 1) i' (i' - 1 + d) (i' + d) RH),
      (rel_get h h' i' (i' - 1) (i' + d) (i' - 1 + d) RH), (rel_get h h' i' i' (i' + d) (i' + d) RH) by lia. set (r := dlanv2 _ _ _ _).
    set (g := set2 (set2 (set2 (set2 h _ _ _) _ _ _) _ _ _) _ _ _). set (g' := set2 (set2 (set2 (set2 h' _ _ _) _ _ _) _ _ _) _ _ _).
    assert (RG : rel g g') by (unfold g, g'; repeat (apply rel_set; [|lia|lia|lia|lia]); exact RH).
    assert (E1 : rows f0' = rows g) by (symmetry; apply RG). assert (E2 : rows g0 = rows g') by (symmetry; apply RG). rewrite E1, E2. clearbody g g'.
    destruct (rot_rel g g' RG i' (nCs r) (nSn r)) as (x & y & -> & -> & RF); [lia|]. cbn [bind].
    pose proof RF as ((F1 & _ & B1) & (F2 & _ & B2) & _).
    rewrite !hq_rot_cols_id by (assumption || lia || (destruct B1, B2; lia)). cbn [bind].
    intros a Ea. destruct (if wantz then _ else _) as [zz| | |]; cbn [bind] in Ea; try discriminate. injection Ea as <-. eexists. split; [reflexivity|]. flds.
    split; [exact RF|].
    split; [eapply relw_set with (P := fun q => i' < q \/ q = i' - 1); [eapply relw_set; [exact RR|reflexivity|lia|intros; cbv beta in *; lia]|reflexivity|lia|intros; cbv beta in *; lia]|].
    split; [eapply relw_set with (P := fun q => i' < q \/ q = i' - 1); [eapply relw_set; [exact RI|reflexivity|lia|intros; cbv beta in *; lia]|reflexivity|lia|intros; cbv beta in *; lia]|].
    repeat split; (assumption || reflexivity || lia).
  Qed.
  Lemma clear_get n lo hi (x : fa) a b : 1 <= lo -> hi <= n -> big n x -> 1 <= a <= n -> 1 <= b <= n ->
    get2 (hq_clear lo hi x) a b = if (lo <=? b) && (a <=? hi) && ((a =? b + 2) || (a =? b + 3)) then f0 else get2 x a b.
  Proof.
    intros L1 H1 Bx Ha Hb. unfold hq_clear. set (body := fun j h => set2 (set2 h (j + 2) j f0) (j + 3) j f0).
      assert (L : forall q, 0 <= q -> lo + q - 1 <= hi - 3 -> big n (for_ (range lo (lo + q - 1)) x body) /\
        get2 (for_ (range lo (lo + q - 1)) x body) a b = if (lo <=? b) && (b <=? lo + q - 1) && ((a =? b + 2) || (a =? b + 3)) then f0 else get2 x a b).
      { intros q Hq. pattern q. apply natlike_ind; [| |exact Hq].
        - intros _. rewrite range_nil by lia. cbn [for_ fold_left]. split; [exact Bx|]. destruct (Z.leb_spec lo b), (Z.leb_spec b (lo + 0 - 1)); cbn [andb]; reflexivity || lia.
        - clear q Hq. intros q Hq IQ Hle. destruct (IQ ltac:(lia)) as [BQ VQ]. replace (lo + Z.succ q - 1) with (lo + q) by lia. rewrite range_snoc by lia.
          unfold for_ in *. rewrite fold_left_app. cbn [fold_left]. unfold body at 1 3. split; [apply set2_big, set2_big; exact BQ|].
          rewrite !(set2_get n) by (apply set2_big || idtac; assumption || lia). rewrite VQ.
          destruct (Z.eqb_spec a (lo + q + 3)), (Z.eqb_spec a (lo + q + 2)), (Z.eqb_spec b (lo + q)), (Z.leb_spec lo b), (Z.leb_spec b (lo + q)), (Z.leb_spec b (lo + q - 1)),
            (Z.eqb_spec a (b + 2)), (Z.eqb_spec a (b + 3)); cbn [andb orb]; reflexivity || lia. }
      assert (L2 : big n (for_ (range lo (hi - 3)) x body) /\
        get2 (for_ (range lo (hi - 3)) x body) a b = if (lo <=? b) && (b <=? hi - 3) && ((a =? b + 2) || (a =? b + 3)) then f0 else get2 x a b).
      { destruct (Z_le_gt_dec lo (hi - 3)) as [C|C].
        - destruct (L (hi - 3 - lo + 1)) as [X Y]; [lia|lia|]. replace (lo + (hi - 3 - lo + 1) - 1) with (hi - 3) in * by lia. auto.
        - rewrite range_nil by lia. cbn [for_ fold_left]. split; [exact Bx|]. destruct (Z.leb_spec lo b), (Z.leb_spec b (hi - 3)); cbn [andb]; reflexivity || lia. }
      destruct L2 as [BL VL]. destruct (Z.leb_spec lo (hi - 2)).
      - rewrite (set2_get n) by (assumption || lia). rewrite VL.
        destruct (Z.eqb_spec a hi), (Z.eqb_spec b (hi - 2)), (Z.leb_spec lo b), (Z.leb_spec b (hi - 3)), (Z.leb_spec a hi),
            (Z.eqb_spec a (b + 2)), (Z.eqb_spec a (b + 3)); cbn [andb orb]; reflexivity || lia.
      - rewrite VL. destruct (Z.leb_spec lo b), (Z.leb_spec b (hi - 3)), (Z.leb_spec a hi),
            (Z.eqb_spec a (b + 2)), (Z.eqb_spec a (b + 3)); cbn [andb orb]; reflexivity || lia.
  Qed.
  Lemma clear_rel f g : full f -> same_shape f f0' -> big n1 f -> full g -> same_shape g g0 -> big n2 g ->
    (forall a b, ilo <= a <= ihi -> ilo <= b <= ihi -> a <= b + 1 \/ a = b + 4 -> get2 f (a + d) (b + d) = get2 g a b) ->
    rel (hq_clear (ilo + d) (ihi + d) f) (hq_clear ilo ihi g).
  Proof.
    intros F1 S1 B1 F2 S2 B2 HG. assert (SC : forall lo hi (x : fa), same_shape (hq_clear lo hi x) x) by (intros; apply hq_clear_shape).
    split; [split; [eapply full_shape; [apply SC|exact F1]|split; [eapply same_shape_trans; [apply SC|exact S1]|eapply big_shape; [apply SC|exact B1]]]|].
    split; [split; [eapply full_shape; [apply SC|exact F2]|split; [eapply same_shape_trans; [apply SC|exact S2]|eapply big_shape; [apply SC|exact B2]]]|].
    intros a b Ha Hb G. rewrite (clear_get n1), (clear_get n2) by (assumption || lia).
    rewrite !leb_shift. replace (b + d + 2) with (b + 2 + d) by lia. replace (b + d + 3) with (b + 3 + d) by lia. rewrite !eqb_shift.
    destruct (Z.leb_spec ilo b), (Z.leb_spec a ihi), (Z.eqb_spec a (b + 2)), (Z.eqb_spec a (b + 3)); cbn [andb orb]; try reflexivity; try lia; apply HG; lia.
  Qed.

  Context (conv1 conv2 : @hqst F -> outcome unit).
  Hypothesis CV : forall P s t, srel P s t -> exists u, conv2 t = Ok u.
  Lemma loop_rel fuel : forall s t, srel (fun q => sI t < q) s t ->
    oimp (fun a b => srel (fun q => sI (fst b) < q) (fst a) (fst b) /\ (snd a = 0 /\ snd b = 0 /\ sI (fst b) < ilo \/ snd b = sI (fst b) /\ ilo <= snd b /\ snd a = snd b + d))
      (hq_loop true wantz n1 (ilo + d) (ihi + d) (rows f0') iloz ihiz conv1 fuel s)
      (hq_loop true false n2 ilo ihi (rows g0) iloz' ihiz' conv2 fuel t).
  Proof.
    induction fuel as [|fuel IH]; intros s t B; pose proof B as (RH & RR & RI & EZ & RV & ET & EK & EL & EI & EIt & EKd & HK & HL & HI); cbn [hq_loop]; rewrite EI, ltb_shift.
    { destruct (Z.ltb_spec (sI t) ilo) as [C|C]; [apply oimp_ok; cbn [fst snd]; auto|]. intros a Ea. discriminate. }
    destruct (Z.ltb_spec (sI t) ilo) as [C|C]; [apply oimp_ok; cbn [fst snd]; auto|]. rewrite itmax_shift. flds.
    apply oimp_bind with (P := fun a b => srel (fun q => sI b < q) a b /\ sI b = sI t).
    - intros a Ea. refine (_ (for_brk_M_imp (fun a b => srel (fun q => sI t < q) a b /\ sI b = sI t) _ (hq_iter true false ilo ihi iloz' ihiz') _ _
        (mkHq (sH t) (sWr t) (sWi t) (sZ t) (sV t) (sT1 t) (sM t) (sK t) ilo (sI t) (sIts t) (sKdefl t) (sCs t) (sSn t)) _ _ a Ea)).
      + intros (b & Eb & Hb & Ib). exists b. split; [exact Eb|]. rewrite Ib. auto.
      + unfold srel, within. flds. split; [|reflexivity]. do 6 (split; [assumption|]). repeat split; (assumption || lia).
      + intros j x y _ [HX EX] r Er. destruct (iter_rel _ j x y HX r Er) as ([y' b] & Ey & HY & EB). exists (y', b). split; [exact Ey|]. cbn [fst snd] in *. split; [|exact EB]. split; [exact HY|].
        rewrite <- EX. clear - Ey. unfold hq_iter in Ey. destruct (sI y - 1 <=? _); [injection Ey as <- _; reflexivity|]. destruct (hq_start _ _ _ _ _ _).
        destruct (for_M _ _ _) as [[[[? ?] ?] ?]| | |]; cbn [bind] in Ey; try discriminate. injection Ey as <- _. reflexivity.
    - intros a b Eb [HB EIb]. pose proof HB as (_ & _ & _ & _ & _ & _ & _ & _ & EI2 & EIt2 & _ & _ & _ & HIb). rewrite EIt2.
      destruct (Z.leb_spec (hq_itmax ilo ihi) (sIts b)) as [D|D].
      { apply oimp_ok. cbn [fst snd]. split; [exact HB|]. right. rewrite EIb. split; [reflexivity|]. split; [lia|]. rewrite EI2, EIb. reflexivity. }
      pose proof (iters_end _ _ Eb) as [X|X]; [lia|].
      apply oimp_bind with (P := fun a b => srel (fun q => sL b - 1 < q) a b); [apply deflate_rel; [exact HB|lia|exact X]|].
      intros a' b' _ HB'. flds. set (s2 := mkHq _ _ _ _ _ _ _ _ _ _ _ _ _ _). set (t2 := mkHq (sH b') _ _ _ _ _ _ _ _ _ _ _ _ _).
      assert (HD : srel (fun q => sI t2 < q) s2 t2).
      { unfold s2, t2. destruct HB' as (A1 & A2 & A3 & A4 & A5 & A6 & A7 & A8 & A9 & A10 & A11 & W1 & W2 & W3). unfold srel, within. flds. rewrite A8. repeat split; (assumption || lia || apply A2 || apply A3 || apply A1). }
      intros r Er. destruct (conv1 s2) as [u1| | |]; cbn [bind] in Er; try discriminate. destruct (CV _ _ _ HD) as (u & ->). cbn [bind].
      exact (IH _ _ HD r Er).
  Qed.
End Block.

Lemma dlahqr_window {F} {NF : Num F} {H WR WI ZZ H' WR' WI' ZZ'} (TH : ToFA F H) (FH : FromFA F H) (TWR : ToFA F WR) (FWR : FromFA F WR)
    (TWI : ToFA F WI) (FWI : FromFA F WI) (TZ : ToFA F ZZ) (FZ : FromFA F ZZ)
    (TH' : ToFA F H') (FH' : FromFA F H') (TWR' : ToFA F WR') (FWR' : FromFA F WR') (TWI' : ToFA F WI') (FWI' : FromFA F WI') (TZ' : ToFA F ZZ') (FZ' : FromFA F ZZ')
    fuel (wantz : bool) n n' d ilo ihi (h : H) (wr : WR) (wi : WI) iloz ihiz (z : ZZ) ldz (h' : H') (wr' : WR') (wi' : WI') iloz' ihiz' (z' : ZZ') ldz' oh owr owi oz info :
  usable TH FH h -> usable TH' FH' h' -> usable TWR' FWR' wr' -> usable TWI' FWI' wi' -> usable TZ' FZ' z' ->
  1 <= ilo < ihi -> ihi <= n' -> 1 <= ilo + d -> ihi + d <= n ->
  n <= rows (to_fa h) -> n * rows (to_fa h) <= count (to_fa h) -> n' <= rows (to_fa h') -> n' * rows (to_fa h') <= count (to_fa h') ->
  ihi + d <= count (to_fa wr) -> ihi + d <= count (to_fa wi) -> ihi <= count (to_fa wr') -> ihi <= count (to_fa wi') ->
  (forall a b, ilo <= a <= ihi -> ilo <= b <= ihi -> a <= b + 1 \/ a = b + 4 -> ent (to_fa h) (a + d) (b + d) = ent (to_fa h') a b) ->
  dlahqr fuel true wantz n (ilo + d) (ihi + d) h (rows (to_fa h)) wr wi iloz ihiz z ldz = Ok (oh, owr, owi, oz, info) ->
  exists oh' owr' owi' oz' info',
    dlahqr fuel true false n' ilo ihi h' (rows (to_fa h')) wr' wi' iloz' ihiz' z' ldz' = Ok (oh', owr', owi', oz', info') /\
    (info = 0 /\ info' = 0 \/ ilo <= info' <= ihi /\ info = info' + d) /\
    exists hd wrd wid hd' wrd' wid',
      (from_fa hd = Ok oh /\ from_fa wrd = Ok owr /\ from_fa wid = Ok owi) /\ (from_fa hd' = Ok oh' /\ from_fa wrd' = Ok owr' /\ from_fa wid' = Ok owi') /\
      same_shape hd (to_fa h) /\ same_shape hd' (to_fa h') /\
      (forall a b, ilo <= a <= ihi -> ilo <= b <= ihi -> a < b + 5 -> ent hd (a + d) (b + d) = ent hd' a b) /\
      (forall j, (if info' =? 0 then ilo else info' + 1) <= j <= ihi -> elem wrd (j + d) = elem wrd' j /\ elem wid (j + d) = elem wid' j).
Proof.
  intros [W1 U1] [W2 U2] [_ U3] [_ U4] [_ U5] Hlh Hhi Hlo1 Hhi1 HR HC HR' HC' C1 C2 C3 C4 HE E. set (x := to_fa h) in *. set (y := to_fa h') in *.
  destruct (wf_full _ W1) as [F1 _]. destruct (wf_full _ W2) as [F2 _].
  assert (B1 : big n x) by (split; assumption). assert (B2 : big n' y) by (split; assumption).
  assert (CR : rel n n' d ilo ihi x y (hq_clear (ilo + d) (ihi + d) x) (hq_clear ilo ihi y)).
  { apply clear_rel; try assumption; try lia; try apply same_shape_refl. intros a b Ha Hb G. rewrite !get2_ent, HE by assumption. 
    destruct (proj2 (elem_Some y _) (big_pos n' _ a b B2 ltac:(lia) ltac:(lia))) as (q & Q). unfold ent. rewrite Q. reflexivity. }
  unfold dlahqr in E |- *. cbv zeta in E |- *. destruct (Z.eqb_spec n 0); [lia|]. destruct (Z.eqb_spec n' 0); [lia|]. destruct (Z.eqb_spec (ilo + d) (ihi + d)); [lia|]. destruct (Z.eqb_spec ilo ihi); [lia|]. fold x in E. fold y.
  set (cv := fun st : hqst => h' <- @from_fa F H FH (sH st) ;; wr' <- @from_fa F WR FWR (sWr st) ;; wi' <- @from_fa F WI FWI (sWi st) ;; z' <- @from_fa F ZZ FZ (sZ st) ;; Ok (h', wr', wi', z')) in *.
  set (cv' := fun st : hqst => h' <- @from_fa F H' FH' (sH st) ;; wr' <- @from_fa F WR' FWR' (sWr st) ;; wi' <- @from_fa F WI' FWI' (sWi st) ;; z' <- @from_fa F ZZ' FZ' (sZ st) ;; Ok (h', wr', wi', z')) in *.
  set (SR := srel n n' d ilo ihi x y (to_fa wr) (to_fa wr') (to_fa wi) (to_fa wi') (to_fa z')).
  assert (CV : forall P s t, SR P s t -> exists a b c e, cv' t = Ok (a, b, c, e) /\ from_fa (sH t) = Ok a /\ from_fa (sWr t) = Ok b /\ from_fa (sWi t) = Ok c).
  { intros P s t ((_ & (_ & S0 & _) & _) & (_ & S1 & _) & (_ & S2 & _) & EZ & _). unfold cv'. destruct (U2 _ S0) as (a & ->). destruct (U3 _ S1) as (b & ->). destruct (U4 _ S2) as (c & ->).
    rewrite EZ. destruct (U5 _ (same_shape_refl _)) as (e & ->). cbn [bind]. exists a, b, c, e. auto. }
  assert (B0 : SR (fun q => ihi < q) (hq_init (ilo + d) (ihi + d) x (to_fa wr) (to_fa wi) (to_fa z)) (hq_init ilo ihi y (to_fa wr') (to_fa wi') (to_fa z'))).
  { unfold SR, srel, hq_init, within. cbn [sH sWr sWi sZ sV sT1 sM sK sL sI sIts sKdefl sCs sSn]. split; [exact CR|].
    split; [repeat split; (assumption || lia)|]. split; [repeat split; (assumption || lia)|]. split; [reflexivity|].
    split; [exists f0, f0, f0; split; (split; [reflexivity|repeat split; (reflexivity || (cbn; lia))])|]. repeat split; lia. }
  set (c1 := fun st : hqst => _ <- cv st ;; Ok tt) in *. set (c2 := fun st : hqst => _ <- cv' st ;; Ok tt) in *.
  assert (CV2 : forall P s t, SR P s t -> exists u, c2 t = Ok u) by (intros P s t HS; destruct (CV P s t HS) as (a & b & c & e & X & _); unfold c2; rewrite X; exists tt; reflexivity).
  pose proof (loop_rel wantz n n' d ilo ihi iloz ihiz iloz' ihiz' Hlo1 Hhi1 (proj1 Hlh) Hhi x y (to_fa wr) (to_fa wr') (to_fa wi) (to_fa wi') (to_fa z') c1 c2 CV2 fuel _ _ B0) as L.
  match type of E with context [hq_loop true wantz n (ilo + d) (ihi + d) (rows x) iloz ihiz ?c fuel _] => change c with c1 in E end.
  destruct (hq_loop _ _ n _ _ _ _ _ c1 fuel _) as [[s i]| | |]; cbn [bind] in E; try discriminate.
  destruct (L (s, i) eq_refl) as ([t j] & ES & HS & HI). cbn [fst snd] in HS, HI.
  match goal with |- context [hq_loop true false n' ilo ihi (rows y) iloz' ihiz' ?c fuel _] => change c with c2 end. rewrite ES. cbn [bind].
  destruct (CV _ _ _ HS) as (a & b & c & e & X0 & X1 & X2 & X3). fold (cv' t). rewrite X0. cbn [bind].
  destruct (@from_fa F H FH (sH s)) as [r1| | |] eqn:Y1; cbn [bind] in E; try discriminate. destruct (@from_fa F WR FWR (sWr s)) as [r2| | |] eqn:Y2; cbn [bind] in E; try discriminate.
  destruct (@from_fa F WI FWI (sWi s)) as [r3| | |] eqn:Y3; cbn [bind] in E; try discriminate. destruct (@from_fa F ZZ FZ (sZ s)) as [r4| | |]; cbn [bind] in E; try discriminate.
  injection E as <- <- <- <- <-. exists a, b, c, e, j. split; [reflexivity|].
  destruct HS as (((_ & S1 & _) & (_ & S2 & _) & HG) & (_ & _ & _ & _ & GR) & (_ & _ & _ & _ & GI) & _ & _ & _ & _ & _ & _ & _ & _ & _ & _ & HIt).
  split. { destruct HI as [(-> & -> & _)|(P1 & P2 & P3)]; [left; auto|right; split; [lia|exact P3]]. }
  exists (sH s), (sWr s), (sWi s), (sH t), (sWr t), (sWi t). do 2 (split; [auto|]). split; [exact S1|]. split; [exact S2|].
  split. { intros p q Hp Hq G. rewrite (ent_get2 (sH s)), (ent_get2 (sH t)) by (eapply big_pos; [eapply big_shape; eassumption|lia|lia]). f_equal. apply HG; assumption. }
  intros q Hq. assert (GQ : sI t < q /\ ilo <= q <= ihi) by (destruct HI as [(P0 & P1 & P2)|(P1 & P2 & P3)]; destruct (Z.eqb_spec j 0); lia).
  split; [apply GR; apply GQ|apply GI; apply GQ].
Qed.
