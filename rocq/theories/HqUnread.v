(** dlahqr over any number type: which entries of H the results do not depend on.  Two runs side by side. *)
From Coq Require Import ZArith Lia Bool List.
From Verif Require Import Base Num Array Blas Lapack Dlahqr Spec Lists FaLemmas Blas1Proofs LarfgProofs LahqrProofs LahqrStuck LahqrTop HqGet HqRotRows HqReflGen.
Import ListNotations.
Open Scope Z_scope.

(** both runs end the same way, with related results *)
Definition orel {A B} (P : A -> B -> Prop) (x : outcome A) (y : outcome B) : Prop :=
  match x, y with
  | Ok a, Ok b => P a b
  | Panic, Panic => True
  | Exit s i, Exit s' i' => s = s' /\ i = i'
  | NoFuel, NoFuel => True
  | _, _ => False
  end.
Lemma orel_bind {A B C D} (P : A -> B -> Prop) (Q : C -> D -> Prop) x y f g :
  orel P x y -> (forall a b, P a b -> orel Q (f a) (g b)) -> orel Q (bind x f) (bind y g).
Proof. intros H HF. destruct x, y; cbn in *; try contradiction; auto. Qed.
Lemma orel_same {A} (x : outcome A) : orel eq x x.
Proof. destruct x; cbn; auto. Qed.
Lemma for_M_rel {A B} (P : A -> B -> Prop) f g : forall is a b, P a b -> (forall i a b, In i is -> P a b -> orel P (f i a) (g i b)) ->
  orel P (for_M is a f) (for_M is b g).
Proof.
  induction is as [|i is IH]; intros a b HP HF; [exact HP|]. cbn [for_M]. eapply orel_bind; [apply HF; [left; reflexivity|exact HP]|].
  intros a' b' HP'. apply IH; [exact HP'|]. intros j x y Hj. apply HF. right. exact Hj.
Qed.
Lemma for_brk_M_rel {A B} (P : A -> B -> Prop) f g : forall is a b, P a b ->
  (forall i a b, In i is -> P a b -> orel (fun x y => P (fst x) (fst y) /\ snd x = snd y) (f i a) (g i b)) ->
  orel P (for_brk_M is a f) (for_brk_M is b g).
Proof.
  induction is as [|i is IH]; intros a b HP HF; [exact HP|]. cbn [for_brk_M]. eapply orel_bind; [apply HF; [left; reflexivity|exact HP]|].
  intros [a' c] [b' d] [HP' E]. cbn [fst snd] in *. subst d. destruct c; [exact HP'|]. apply IH; [exact HP'|]. intros j x y Hj. apply HF. right. exact Hj.
Qed.
Lemma for_brk_rel {A B} (P : A -> B -> Prop) f g : forall is a b, P a b ->
  (forall i a b, In i is -> P a b -> P (fst (f i a)) (fst (g i b)) /\ snd (f i a) = snd (g i b)) ->
  P (for_brk is a f) (for_brk is b g).
Proof.
  induction is as [|i is IH]; intros a b HP HF; [exact HP|]. cbn [for_brk]. destruct (HF i a b (or_introl eq_refl) HP) as [X Y].
  destruct (f i a) as [a' c], (g i b) as [b' d]. cbn [fst snd] in *. subst d. destruct c; [exact X|]. apply IH; [exact X|]. intros j x y Hj. apply HF. right. exact Hj.
Qed.

Section Unread.
  Context {F : Type} {NF : Num F}.
  Notation fa := (fa F).
  Context (wantz : bool) (n ilo ihi iloz ihiz : Z).
  Hypothesis (Hlo : 1 <= ilo) (Hhi : ihi <= n).
  Context (h0 : fa).

  (** equal but for the entries five or more below the diagonal of the active block *)
  Definition rel (f g : fa) : Prop := same_shape g f /\ (full f /\ same_shape f h0) /\ big n f /\
    forall a b, 1 <= a <= n -> 1 <= b <= n -> b < ilo \/ a < b + 5 \/ ihi < a -> get2 f a b = get2 g a b.
  Lemma rel_big f g : rel f g -> big n f /\ big n g.
  Proof. intros (S & _ & B & _). split; [exact B|eapply big_shape; eassumption]. Qed.
  Lemma rel_full f g : rel f g -> full f /\ full g.
  Proof. intros (S & (FF & _) & _). split; [exact FF|eapply full_shape; eassumption]. Qed.
  Lemma rel_get f g a b : rel f g -> 1 <= a <= n -> 1 <= b <= n -> a < b + 5 -> get2 f a b = get2 g a b.
  Proof. intros (_ & _ & _ & H) Ha Hb Hab. apply H; auto. Qed.
  Lemma rel_mk f g f' g' : rel f g -> same_shape f' f -> same_shape g' g ->
    (forall a b, 1 <= a <= n -> 1 <= b <= n -> b < ilo \/ a < b + 5 \/ ihi < a -> get2 f' a b = get2 g' a b) -> rel f' g'.
  Proof.
    intros (S & (FF & S0) & B & _) S1 S2 H. split; [|split; [split; [eapply full_shape; eassumption|eapply same_shape_trans; eassumption]|split; [eapply big_shape; eassumption|exact H]]].
    eapply same_shape_trans; [exact S2|]. eapply same_shape_trans; [exact S|]. destruct S1 as (A1 & A2 & A3). repeat split; symmetry; assumption.
  Qed.
  Lemma rel_mod f g i j u v : rel f g -> 1 <= i <= n -> 1 <= j <= n -> u (get2 f i j) = v (get2 g i j) -> rel (mod2 f i j u) (mod2 g i j v).
  Proof.
    intros H Hi Hj E. destruct (rel_big _ _ H) as [B1 B2]. apply (rel_mk f g); [exact H|apply mod2_shape|apply mod2_shape|].
    intros a b Ha Hb G. rewrite !(mod2_get n) by assumption. destruct (_ && _); [exact E|]. apply H; assumption.
  Qed.
  Lemma rel_set f g i j x : rel f g -> 1 <= i <= n -> 1 <= j <= n -> rel (set2 f i j x) (set2 g i j x).
  Proof. intros H Hi Hj. apply rel_mod; auto. Qed.

  (** the working vector *)
  Definition relv (v w : fa) : Prop := exists x1 x2 x3, v3s v x1 x2 x3 /\ v3s w x1 x2 x3.
  Lemma relv_get v w : relv v w -> get1 v 1 = get1 w 1 /\ get1 v 2 = get1 w 2 /\ get1 v 3 = get1 w 3.
  Proof.
    intros (x1 & x2 & x3 & A & B). destruct (v3s_get _ _ _ _ A) as (-> & -> & ->). destruct (v3s_get _ _ _ _ B) as (-> & -> & ->). auto.
  Qed.
  Lemma relv_set v w x : relv v w -> relv (set1 v 1 x) (set1 w 1 x) /\ relv (set1 v 2 x) (set1 w 2 x) /\ relv (set1 v 3 x) (set1 w 3 x).
  Proof.
    intros (x1 & x2 & x3 & A & B). destruct (v3s_set _ _ _ _ x A) as (A1 & A2 & A3). destruct (v3s_set _ _ _ _ x B) as (B1 & B2 & B3).
    repeat split; (do 3 eexists; split; eassumption).
  Qed.

  Section Two.
    Context (f g : fa).
    Hypothesis H : rel f g.
    Ltac rd := repeat match goal with |- context [get2 f ?a ?b] => rewrite (rel_get f g a b H) by lia end.

    Lemma small_rel k : ilo < k <= ihi -> hq_small ilo ihi f k = hq_small ilo ihi g k.
    Proof. intros Hk. unfold hq_small. destruct (Z.leb_spec ilo (k - 2)), (Z.leb_spec (k + 1) ihi); rd; reflexivity. Qed.
    Lemma scan_rel l i k0 : ilo <= l -> i <= ihi -> hq_scan ilo ihi f l i k0 = hq_scan ilo ihi g l i k0.
    Proof.
      intros Hl Hi. unfold hq_scan. apply (for_brk_rel eq); [reflexivity|]. intros c a b Hc _. apply in_range_rev in Hc.
      rewrite small_rel by lia. destruct (hq_small _ _ _ _); auto.
    Qed.
    Lemma block_rel l i kd : ilo <= l -> l + 2 <= i -> i <= ihi -> hq_block f l i kd = hq_block g l i kd.
    Proof. intros Hl Hli Hi. unfold hq_block. rd. reflexivity. Qed.
    Lemma firstcol_rel sh m v w : ilo <= m -> m + 2 <= ihi -> relv v w -> relv (hq_firstcol f sh m v) (hq_firstcol g sh m w).
    Proof.
      intros Hm Hm2 V. unfold hq_firstcol. destruct sh as [[[a b] c] d]. rd. cbv zeta.
      repeat match goal with |- context [set1 v 1 ?x] => match x with context [get1] => fail 1 | _ =>
        let V1 := fresh "V" in pose proof (proj1 (relv_set v w x V)) as V1; set (v1 := set1 v 1 x) in *; set (w1 := set1 w 1 x) in * end end.
      match goal with |- context [set1 v1 2 ?x] => pose proof (proj1 (proj2 (relv_set v1 w1 x V0))) as V2; set (v2 := set1 v1 2 x) in *; set (w2 := set1 w1 2 x) in * end.
      match goal with |- context [set1 v2 3 ?x] => pose proof (proj2 (proj2 (relv_set v2 w2 x V2))) as V3; set (v3 := set1 v2 3 x) in *; set (w3 := set1 w2 3 x) in * end.
      clearbody v3 w3. clear v1 w1 v2 w2 V0 V2.
      destruct (relv_get _ _ V3) as (-> & -> & ->). set (s := fadd _ _).
      set (x := fdiv (get1 w3 1) s). pose proof (proj1 (relv_set v3 w3 x V3)) as V4.
      destruct (relv_get _ _ V4) as (_ & -> & _). set (y := fdiv (get1 (set1 w3 1 x) 2) s). pose proof (proj1 (proj2 (relv_set _ _ y V4))) as V5.
      destruct (relv_get _ _ V5) as (_ & _ & ->). apply relv_set. exact V5.
    Qed.
    Lemma can_rel v w m : ilo < m -> m + 1 <= ihi -> relv v w -> hq_can_start f v m = hq_can_start g w m.
    Proof. intros Hm Hm1 V. unfold hq_can_start. destruct (relv_get _ _ V) as (-> & -> & ->). rd. reflexivity. Qed.
    Lemma start_rel sh l i m0 v w : ilo <= l -> i <= ihi -> relv v w ->
      fst (hq_start f sh l i m0 v) = fst (hq_start g sh l i m0 w) /\ relv (snd (hq_start f sh l i m0 v)) (snd (hq_start g sh l i m0 w)).
    Proof.
      intros Hl Hi V. unfold hq_start. apply (for_brk_rel (fun a b => fst a = fst b /\ relv (snd a) (snd b))); [auto|].
      intros c [a x] [b y] Hc [_ E]. apply in_range_rev in Hc. cbn [snd] in E. pose proof (firstcol_rel sh c x y ltac:(lia) ltac:(lia) E) as E'.
      destruct (Z.eqb_spec c l); [auto|]. rewrite (can_rel _ _ c ltac:(lia) ltac:(lia) E'). destruct (hq_can_start _ _ _); auto.
    Qed.
    Lemma reflector_rel v w t1 m i k : relv v w -> 1 <= m <= k -> k + 1 <= i <= n ->
      exists v' w' t, hq_reflector f v t1 m i k = Ok (v', t) /\ hq_reflector g w t1 m i k = Ok (w', t) /\ relv v' w'.
    Proof.
      intros (x1 & x2 & x3 & A & B) Hm Hi. destruct (rel_big _ _ H) as [B1 B2]. destruct (rel_full _ _ H) as [F1 F2].
      destruct (hq_reflector_get n f F1 B1 v t1 _ _ _ m k i A Hm Hi) as (v' & beta & tau & y2 & y3 & x' & DL & DX & ER & V').
      destruct (hq_reflector_get n g F2 B2 w t1 _ _ _ m k i B Hm Hi) as (w' & beta' & tau' & y2' & y3' & x'' & DL' & DX' & ER' & W').
      destruct (Z.ltb_spec m k) as [C|C].
      - rewrite <- !(rel_get f g) in DL' by (assumption || lia).
        assert (X : (if k + 2 <=? i then get2 f (k + 2) (k - 1) else x3) = (if k + 2 <=? i then get2 g (k + 2) (k - 1) else x3)).
        { destruct (Z.leb_spec (k + 2) i); [apply (rel_get f g); [exact H|lia|lia|lia]|reflexivity]. }
        rewrite <- X in DL'. rewrite DL in DL'. injection DL' as <- <- <-. rewrite DX in DX'. injection DX' as <- <-.
        exists v', w', tau. split; [exact ER|]. split; [exact ER'|]. do 3 eexists. split; eassumption.
      - rewrite DL in DL'. injection DL' as <- <- <-. rewrite DX in DX'. injection DX' as <- <-.
        exists v', w', tau. split; [exact ER|]. split; [exact ER'|]. do 3 eexists. split; eassumption.
    Qed.
    Lemma left3_rel k v2 v3 t1 t2 t3 hi : 1 <= k -> k + 2 <= n -> hi <= n ->
      rel (for_ (range k hi) f (left3 k v2 v3 t1 t2 t3)) (for_ (range k hi) g (left3 k v2 v3 t1 t2 t3)).
    Proof.
      intros Hk Hk2 Hh. destruct (rel_big _ _ H) as [B1 B2]. apply (rel_mk f g); [exact H|apply for_shape; intros; apply left3_shape..|].
      intros a b Ha Hb G. rewrite !(left3_loop_get n) by (assumption || lia). unfold inside. destruct (Z.leb_spec k b); cbn [andb]; [|apply H; assumption].
      assert (E : get2 f a b = get2 g a b) by (apply H; assumption). destruct (b <=? hi); [|exact E]. unfold lval3. rewrite E. rd. reflexivity.
    Qed.
    Lemma left2_rel k v2 t1 t2 hi : 1 <= k -> k + 1 <= n -> hi <= n ->
      rel (for_ (range k hi) f (left2 k v2 t1 t2)) (for_ (range k hi) g (left2 k v2 t1 t2)).
    Proof.
      intros Hk Hk2 Hh. destruct (rel_big _ _ H) as [B1 B2]. apply (rel_mk f g); [exact H|apply for_shape; intros; apply left2_shape..|].
      intros a b Ha Hb G. rewrite !(left2_loop_get n) by (assumption || lia). unfold inside. destruct (Z.leb_spec k b); cbn [andb]; [|apply H; assumption].
      assert (E : get2 f a b = get2 g a b) by (apply H; assumption). destruct (b <=? hi); [|exact E]. unfold lval2. rewrite E. rd. reflexivity.
    Qed.
    Lemma right3_rel lo k v2 v3 t1 t2 t3 hi : 1 <= lo -> 1 <= k -> k + 2 <= n -> hi <= n -> hi <= k + 4 ->
      rel (for_ (range lo hi) f (right3 k v2 v3 t1 t2 t3)) (for_ (range lo hi) g (right3 k v2 v3 t1 t2 t3)).
    Proof.
      intros Hl Hk Hk2 Hh Hh4. destruct (rel_big _ _ H) as [B1 B2]. apply (rel_mk f g); [exact H|apply for_shape; intros; apply right3_shape..|].
      intros a b Ha Hb G. rewrite !(right3_loop_get n) by (assumption || lia). unfold inside.
      assert (E : get2 f a b = get2 g a b) by (apply H; assumption). destruct (lo <=? a); cbn [andb]; [|exact E]. destruct (Z.leb_spec a hi); [|exact E].
      unfold rval3. rewrite E. rd. reflexivity.
    Qed.
    Lemma right2_rel lo k v2 t1 t2 hi : 1 <= lo -> 1 <= k -> k + 1 <= n -> hi <= n -> hi <= k + 4 ->
      rel (for_ (range lo hi) f (right2 k v2 t1 t2)) (for_ (range lo hi) g (right2 k v2 t1 t2)).
    Proof.
      intros Hl Hk Hk2 Hh Hh4. destruct (rel_big _ _ H) as [B1 B2]. apply (rel_mk f g); [exact H|apply for_shape; intros; apply right2_shape..|].
      intros a b Ha Hb G. rewrite !(right2_loop_get n) by (assumption || lia). unfold inside.
      assert (E : get2 f a b = get2 g a b) by (apply H; assumption). destruct (lo <=? a); cbn [andb]; [|exact E]. destruct (Z.leb_spec a hi); [|exact E].
      unfold rval2. rewrite E. rd. reflexivity.
    Qed.
    Lemma rot_rel i c s : 2 <= i <= n ->
      exists f' g', hq_rot_rows n (rows f) i c s f = Ok f' /\ hq_rot_rows n (rows f) i c s g = Ok g' /\ rel f' g'.
    Proof.
      intros Hi. destruct (rel_big _ _ H) as [B1 B2]. destruct (rel_full _ _ H) as [F1 F2]. assert (RR : rows g = rows f) by apply H.
      destruct (Z.eq_dec i n) as [->|Ni].
      { exists f, g. unfold hq_rot_rows. rewrite Z.ltb_irrefl. auto. }
      destruct (hq_rot_rows_spec n f i c s F1) as (f' & E & Sh & R1 & R2 & R3); [lia|apply B1|apply B1|].
      destruct (hq_rot_rows_spec n g i c s F2) as (g' & E' & Sh' & R1' & R2' & R3'); [lia|apply B2|apply B2|]. rewrite RR in E', R3'.
      exists f', g'. split; [exact E|]. split; [exact E'|]. apply (rel_mk f g); [exact H|exact Sh|exact Sh'|].
      intros a b Ha Hb G. assert (G0 : get2 f a b = get2 g a b) by (apply H; assumption).
      assert (K : ~ (a = i /\ i < b) -> ~ (a = i - 1 /\ b = i + 1) -> get2 f' a b = get2 g' a b).
      { intros N1 N2. rewrite !get2_ent in G0 |- *. unfold ent in *. rewrite (proj1 Sh), (proj1 Sh'). rewrite RR in G0 |- *.
        rewrite R3, R3'; [exact G0|..]; destruct B1; try (intros p Hp); intros X; apply pos_inj in X; lia. }
      destruct (Z.eq_dec a i) as [->|Na]; [destruct (Z_lt_le_dec i b)|].
      - rewrite R1, R1' by lia. rd. reflexivity.
      - apply K; lia.
      - destruct (Z.eq_dec a (i - 1)) as [->|Na2]; [destruct (Z.eq_dec b (i + 1)) as [->|Nb]|]; [|apply K; lia|apply K; lia].
        rewrite R2, R2'. rd. reflexivity.
    Qed.
  End Two.

  Definition reqs (a b : fa * fa * fa * F) : Prop :=
    let '(h, z, v, t) := a in let '(h', z', v', t') := b in rel h h' /\ relv v v' /\ z = z' /\ t = t'.
  Lemma step_rel l m i k a b : ilo <= l <= m -> m <= k -> k + 1 <= i -> i <= ihi -> reqs a b ->
    orel reqs (hq_step wantz iloz ihiz l i l m i k a) (hq_step wantz iloz ihiz l i l m i k b).
  Proof.
    intros Hl Hm Hk Hi. destruct a as [[[h z] v] t1], b as [[[h' z'] v'] t1']. intros (RH & RV & <- & <-). unfold hq_step.
    destruct (reflector_rel h h' RH v v' t1 m i k RV) as (w & w' & t & -> & -> & RW); [lia|lia|]. cbn [bind].
    destruct (relv_get _ _ RW) as (<- & <- & <-).
    set (mid := fun h : fa => if m <? k then let h := set2 h k (k - 1) (get1 w 1) in let h := set2 h (k + 1) (k - 1) f0 in
      if k <? i - 1 then set2 h (k + 2) (k - 1) f0 else h else if l <? m then mod2 h k (k - 1) (fun x => fmul x (fsub f1 t)) else h).
    assert (RG : rel (mid h) (mid h')).
    { unfold mid. destruct (Z.ltb_spec m k); [|destruct (Z.ltb_spec l m)].
      - cbv zeta. destruct (Z.ltb_spec k (i - 1)); repeat (apply rel_set; [|lia|lia]); exact RH.
      - apply rel_mod; [exact RH|lia|lia|]. f_equal. apply rel_get; [exact RH|lia|lia|lia].
      - exact RH. }
    fold (mid h). fold (mid h'). cbv zeta. set (g := mid h) in *. set (g' := mid h') in *. clearbody g g'. clear mid.
    destruct (Z.eqb_spec (Z.min 3 (i - k + 1)) 3); [|destruct (Z.eqb_spec (Z.min 3 (i - k + 1)) 2)]; (split; [|auto]).
    - apply right3_rel; try lia. apply left3_rel; try lia. exact RG.
    - apply right2_rel; try lia. apply left2_rel; try lia. exact RG.
    - exact RG.
  Qed.

  (** the state: the same but for H and the working vector *)
  Definition srel (s t : @hqst F) : Prop := exists h v,
    t = mkHq h (sWr s) (sWi s) (sZ s) v (sT1 s) (sM s) (sK s) (sL s) (sI s) (sIts s) (sKdefl s) (sCs s) (sSn s) /\ rel (sH s) h /\ relv (sV s) v.
  Definition within (s : @hqst F) : Prop := ilo <= sK s <= ihi /\ ilo <= sL s <= ihi /\ sI s <= ihi.
  Definition both (s t : @hqst F) : Prop := srel s t /\ within s.

  Lemma iter_rel its s t : both s t ->
    orel (fun a b => both (fst a) (fst b) /\ snd a = snd b) (hq_iter true wantz ilo ihi iloz ihiz its s) (hq_iter true wantz ilo ihi iloz ihiz its t).
  Proof.
    intros [(h & v & -> & RH & RV) (HK & HL & HI)]. unfold hq_iter. cbn [sH sWr sWi sZ sV sT1 sM sK sL sI sIts sKdefl sCs sSn].
    rewrite <- (scan_rel _ _ RH) by lia. set (k := hq_scan ilo ihi (sH s) (sL s) (sI s) (sK s)).
    assert (K : ilo <= k <= ihi).
    { destruct (hq_scan_bounds ilo ihi (sH s) (sL s) (sI s) (sK s)) as [A B]. fold k in A, B.
      destruct (Z_lt_le_dec (sL s) (sI s)); [specialize (A ltac:(lia)); lia|rewrite B by lia; lia]. }
    clearbody k. set (g := if ilo <? k then set2 (sH s) k (k - 1) f0 else sH s). set (g' := if ilo <? k then set2 h k (k - 1) f0 else h).
    assert (RG : rel g g') by (unfold g, g'; destruct (Z.ltb_spec ilo k); [apply rel_set; [exact RH|lia|lia]|exact RH]). clearbody g g'.
    destruct (Z.leb_spec (sI s - 1) k).
    { cbn [orel fst snd]. split; [|reflexivity]. split; [|unfold within; cbn; lia]. exists g', v. auto. }
    rewrite <- (block_rel _ _ RG) by lia. set (sh := hq_shifts _).
    destruct (start_rel _ _ RG sh k (sI s) (sM s) (sV s) v) as [E1 E2]; [lia|lia|exact RV|].
    pose proof (hq_start_m g sh k (sI s) (sM s) (sV s) ltac:(lia)) as HM.
    destruct (hq_start g sh k (sI s) (sM s) (sV s)) as [m w], (hq_start g' sh k (sI s) (sM s) v) as [m' w']. cbn [fst snd] in *. subst m'.
    apply orel_bind with (P := reqs).
    - apply for_M_rel; [split; auto|]. intros q a b Hq HP. apply in_range in Hq. apply step_rel; (lia || exact HP).
    - intros [[[h1 z1] v1] t1] [[[h2 z2] v2] t2] (A & B & <- & <-). cbn [orel fst snd]. split; [|reflexivity]. split; [|unfold within; cbn; lia]. exists h2, v2. auto.
  Qed.
  Lemma iter_I its s s' b : hq_iter true wantz ilo ihi iloz ihiz its s = Ok (s', b) -> sI s' = sI s.
  Proof.
    unfold hq_iter. destruct (sI s - 1 <=? _); [intros [= <- _]; reflexivity|]. destruct (hq_start _ _ _ _ _ _).
    destruct (for_M _ _ _) as [[[[? ?] ?] ?]| | |]; cbn [bind]; try discriminate. intros [= <- _]; reflexivity.
  Qed.

  Lemma deflate_rel s t : both s t -> ilo <= sI s ->
    orel both (hq_deflate true wantz n (rows h0) iloz ihiz s) (hq_deflate true wantz n (rows h0) iloz ihiz t).
  Proof.
    intros [(h & v & -> & RH & RV) (HK & HL & HI)] Hi. unfold hq_deflate. cbn [sH sWr sWi sZ sV sT1 sM sK sL sI sIts sKdefl sCs sSn].
    destruct (Z.eqb_spec (sL s) (sI s)) as [El|Nl].
    { cbn [orel]. split; [|unfold within; cbn; lia]. exists h, v. cbn [sH sWr sWi sZ sV sT1 sM sK sL sI sIts sKdefl sCs sSn].
      rewrite (rel_get (sH s) h (sI s) (sI s) RH) by lia. auto. }
    destruct (Z.eqb_spec (sL s) (sI s - 1)) as [El|Nl2].
    2: { cbn [orel]. split; [|unfold within; lia]. exists h, v. auto. }
    rewrite !(rel_get (sH s) h _ _ RH) by lia. set (r := dlanv2 _ _ _ _).
    set (g := set2 (set2 (set2 (set2 (sH s) _ _ _) _ _ _) _ _ _) _ _ _). set (g' := set2 (set2 (set2 (set2 h _ _ _) _ _ _) _ _ _) _ _ _).
    assert (RG : rel g g') by (unfold g, g'; repeat (apply rel_set; [|lia|lia]); exact RH).
    assert (ER : rows h0 = rows g) by (symmetry; apply RG). rewrite ER. clearbody g g'.
    destruct (rot_rel g g' RG (sI s) (nCs r) (nSn r)) as (f & f' & -> & -> & RF); [lia|]. cbn [bind].
    destruct (rel_full _ _ RF) as [F1 F2]. destruct (rel_big _ _ RF) as [B1 B2].
    rewrite !hq_rot_cols_id by (assumption || lia || (destruct B1, B2; lia)). cbn [bind].
    eapply orel_bind; [apply orel_same|]. intros z z' <-. cbn [orel]. split; [|unfold within; cbn; lia]. exists f', v. auto.
  Qed.
  Context (conv : @hqst F -> outcome unit).
  Hypothesis CV : forall s t, both s t -> orel eq (conv s) (conv t).
  Lemma loop_rel fuel : forall s t, both s t ->
    orel (fun a b => both (fst a) (fst b) /\ snd a = snd b) (hq_loop true wantz n ilo ihi (rows h0) iloz ihiz conv fuel s)
      (hq_loop true wantz n ilo ihi (rows h0) iloz ihiz conv fuel t).
  Proof.
    induction fuel as [|fuel IH]; intros s t B; pose proof B as [(h & v & -> & RH & RV) (HK & HL & HI)]; cbn [hq_loop sH sWr sWi sZ sV sT1 sM sK sL sI sIts sKdefl sCs sSn].
    { destruct (sI s <? ilo); cbn; auto. }
    destruct (Z.ltb_spec (sI s) ilo) as [C|C]; [cbn; auto|].
    apply orel_bind with (P := fun a b => both a b /\ sI a = sI s).
    - apply for_brk_M_rel.
      + split; [|reflexivity]. split; [|unfold within; cbn; lia]. exists h, v. auto.
      + intros j a b _ [HB E]. pose proof (iter_rel j a b HB) as X. pose proof (iter_I j a) as Y.
        destruct (hq_iter true wantz ilo ihi iloz ihiz j a) as [[a' x]| | |], (hq_iter true wantz ilo ihi iloz ihiz j b) as [[b' y]| | |]; cbn [orel fst snd] in *; try contradiction; auto.
        destruct X as [X1 X2]. split; [|exact X2]. split; [exact X1|]. rewrite (Y a' x eq_refl). exact E.
    - intros a b [HB E]. assert (EI : sIts b = sIts a /\ sI b = sI a) by (destruct HB as [(h1 & v1 & -> & _) _]; auto). destruct EI as [-> EI2].
      destruct (_ <=? sIts a); [cbn; auto|]. apply orel_bind with (P := both); [apply deflate_rel; [exact HB|lia]|].
      intros c d HC. pose proof HC as [(h1 & v1 & -> & RH1 & RV1) (HK1 & HL1 & HI1)]. cbn [sH sWr sWi sZ sV sT1 sM sK sL sI sIts sKdefl sCs sSn].
      match goal with |- orel _ (bind (conv ?x) _) (bind (conv ?y) _) => assert (HD : both x y) end.
      { split; [|unfold within; cbn; lia]. exists h1, v1. auto. }
      apply orel_bind with (P := eq); [apply CV; exact HD|]. intros _ _ _. apply IH. exact HD.
  Qed.

  (** the entries cleared before the loop do not matter either *)
  Lemma clear_rel f g : same_shape g f -> full f -> same_shape f h0 -> big n f ->
    (forall a b, 1 <= a <= n -> 1 <= b <= n -> ~ (ilo <= b /\ a <= ihi /\ (a = b + 2 \/ a = b + 3 \/ b + 5 <= a)) -> get2 f a b = get2 g a b) ->
    rel (hq_clear ilo ihi f) (hq_clear ilo ihi g).
  Proof.
    intros S FF S0 B HG. assert (BG : big n g) by (eapply big_shape; eassumption).
    assert (SC : forall x : fa, same_shape (hq_clear ilo ihi x) x) by (intros; apply hq_clear_shape).
    split; [|split; [split; [eapply full_shape; [apply SC|exact FF]|eapply same_shape_trans; [apply SC|exact S0]]|split; [eapply big_shape; [apply SC|exact B]|]]].
    { eapply same_shape_trans; [apply SC|]. eapply same_shape_trans; [exact S|]. destruct (SC f) as (A1 & A2 & A3). repeat split; symmetry; assumption. }
    intros a b Ha Hb G.
    assert (V : forall x : fa, big n x -> get2 (hq_clear ilo ihi x) a b = if (ilo <=? b) && (a <=? ihi) && ((a =? b + 2) || (a =? b + 3)) then f0 else get2 x a b).
    { intros x Bx. unfold hq_clear. set (body := fun j h => set2 (set2 h (j + 2) j f0) (j + 3) j f0).
      assert (L : forall q, 0 <= q -> ilo + q - 1 <= ihi - 3 -> big n (for_ (range ilo (ilo + q - 1)) x body) /\
        get2 (for_ (range ilo (ilo + q - 1)) x body) a b = if (ilo <=? b) && (b <=? ilo + q - 1) && ((a =? b + 2) || (a =? b + 3)) then f0 else get2 x a b).
      { intros q Hq. pattern q. apply natlike_ind; [| |exact Hq].
        - intros _. rewrite range_nil by lia. cbn [for_ fold_left]. split; [exact Bx|]. destruct (Z.leb_spec ilo b), (Z.leb_spec b (ilo + 0 - 1)); cbn [andb]; reflexivity || lia.
        - clear q Hq. intros q Hq IQ Hle. destruct (IQ ltac:(lia)) as [BQ VQ]. replace (ilo + Z.succ q - 1) with (ilo + q) by lia. rewrite range_snoc by lia.
          unfold for_ in *. rewrite fold_left_app. cbn [fold_left]. unfold body at 1 3. split; [apply set2_big, set2_big; exact BQ|].
          rewrite !(set2_get n) by (apply set2_big || idtac; assumption || lia). rewrite VQ.
          destruct (Z.eqb_spec a (ilo + q + 3)), (Z.eqb_spec a (ilo + q + 2)), (Z.eqb_spec b (ilo + q)), (Z.leb_spec ilo b), (Z.leb_spec b (ilo + q)), (Z.leb_spec b (ilo + q - 1)),
            (Z.eqb_spec a (b + 2)), (Z.eqb_spec a (b + 3)); cbn [andb orb]; reflexivity || lia. }
      assert (L2 : big n (for_ (range ilo (ihi - 3)) x body) /\
        get2 (for_ (range ilo (ihi - 3)) x body) a b = if (ilo <=? b) && (b <=? ihi - 3) && ((a =? b + 2) || (a =? b + 3)) then f0 else get2 x a b).
      { destruct (Z_le_gt_dec ilo (ihi - 3)) as [C|C].
        - destruct (L (ihi - 3 - ilo + 1)) as [X Y]; [lia|lia|]. replace (ilo + (ihi - 3 - ilo + 1) - 1) with (ihi - 3) in * by lia. auto.
        - rewrite range_nil by lia. cbn [for_ fold_left]. split; [exact Bx|]. destruct (Z.leb_spec ilo b), (Z.leb_spec b (ihi - 3)); cbn [andb]; reflexivity || lia. }
      destruct L2 as [BL VL]. destruct (Z.leb_spec ilo (ihi - 2)).
      - rewrite (set2_get n) by (assumption || lia). rewrite VL.
        destruct (Z.eqb_spec a ihi), (Z.eqb_spec b (ihi - 2)), (Z.leb_spec ilo b), (Z.leb_spec b (ihi - 3)), (Z.leb_spec a ihi),
            (Z.eqb_spec a (b + 2)), (Z.eqb_spec a (b + 3)); cbn [andb orb]; reflexivity || lia.
      - rewrite VL. destruct (Z.leb_spec ilo b), (Z.leb_spec b (ihi - 3)), (Z.leb_spec a ihi),
            (Z.eqb_spec a (b + 2)), (Z.eqb_spec a (b + 3)); cbn [andb orb]; reflexivity || lia. }
    rewrite !V by assumption. destruct (Z.leb_spec ilo b), (Z.leb_spec a ihi), (Z.eqb_spec a (b + 2)), (Z.eqb_spec a (b + 3)); cbn [andb orb]; try reflexivity; apply HG; lia.
  Qed.
End Unread.

Lemma dlahqr_unread {F} {NF : Num F} {H WR WI ZZ} (TH : ToFA F H) (FH : FromFA F H) (TWR : ToFA F WR) (FWR : FromFA F WR)
    (TWI : ToFA F WI) (FWI : FromFA F WI) (TZ : ToFA F ZZ) (FZ : FromFA F ZZ)
    (wantz : bool) n ilo ihi (h g : H) (wr : WR) (wi : WI) iloz ihiz (z : ZZ) ldz fuel h' wr' wi' z' info :
  usable TH FH h -> usable TH FH g -> same_shape (to_fa g) (to_fa h) -> 1 <= ilo -> ilo < ihi -> ihi <= n -> n <= rows (to_fa h) -> n * rows (to_fa h) <= count (to_fa h) ->
  (forall a b, 1 <= a <= n -> 1 <= b <= n -> ~ (ilo <= b /\ a <= ihi /\ (a = b + 2 \/ a = b + 3 \/ b + 5 <= a)) -> ent (to_fa h) a b = ent (to_fa g) a b) ->
  dlahqr fuel true wantz n ilo ihi h (rows (to_fa h)) wr wi iloz ihiz z ldz = Ok (h', wr', wi', z', info) ->
  exists g', dlahqr fuel true wantz n ilo ihi g (rows (to_fa h)) wr wi iloz ihiz z ldz = Ok (g', wr', wi', z', info) /\
    exists hd gd, from_fa hd = Ok h' /\ from_fa gd = Ok g' /\ same_shape hd (to_fa h) /\ same_shape gd (to_fa h) /\
      forall a b, 1 <= a <= n -> 1 <= b <= n -> ~ (ilo <= b /\ a <= ihi /\ b + 5 <= a) -> ent hd a b = ent gd a b.
Proof.
  intros [W1 U1] [W2 U2] SH Hlo Hlh Hhi HR HC HE E. set (h0 := to_fa h) in *. destruct (wf_full _ W1) as [F1 _].
  assert (B1 : big n h0) by (split; assumption). assert (B2 : big n (to_fa g)) by (eapply big_shape; eassumption).
  assert (CR : rel n ilo ihi h0 (hq_clear ilo ihi h0) (hq_clear ilo ihi (to_fa g))).
  { apply clear_rel; try assumption; [apply same_shape_refl|]. intros a b Ha Hb G. rewrite !get2_ent, HE by assumption. 
    destruct (proj2 (elem_Some (to_fa g) _) (big_pos n _ a b B2 Ha Hb)) as (y & Y). unfold ent. rewrite Y. reflexivity. }
  unfold dlahqr in E |- *. destruct (Z.eqb_spec n 0); [lia|]. destruct (Z.eqb_spec ilo ihi); [lia|]. fold h0 in E.
  set (cv := fun st : hqst => h' <- @from_fa F H FH (sH st) ;; wr' <- @from_fa F WR FWR (sWr st) ;; wi' <- @from_fa F WI FWI (sWi st) ;; z' <- @from_fa F ZZ FZ (sZ st) ;; Ok (h', wr', wi', z')) in *.
  assert (C1 : forall s t, both n ilo ihi h0 s t -> orel eq (_ <- cv s ;; Ok tt) (_ <- cv t ;; Ok tt)).
  { intros s t [(x & v & -> & (S & (_ & S0) & _) & _) _]. unfold cv. cbn [sH sWr sWi sZ]. destruct (U1 _ S0) as (a & ->). destruct (U1 x (same_shape_trans _ _ _ S S0)) as (b & ->). cbn [bind].
    destruct (@from_fa F WR FWR (sWr s)); cbn [bind]; cbn [orel]; auto. destruct (@from_fa F WI FWI (sWi s)); cbn [bind]; cbn [orel]; auto. destruct (@from_fa F ZZ FZ (sZ s)); cbn [bind]; cbn [orel]; auto. }
  assert (B0 : both n ilo ihi h0 (hq_init ilo ihi h0 (to_fa wr) (to_fa wi) (to_fa z)) (hq_init ilo ihi (to_fa g) (to_fa wr) (to_fa wi) (to_fa z))).
  { split; [|unfold within; cbn; lia]. exists (hq_clear ilo ihi (to_fa g)), (fa_of_vec [f0; f0; f0]). split; [reflexivity|]. split; [exact CR|].
    exists f0, f0, f0. split; (split; [reflexivity|repeat split; (reflexivity || (cbn; lia))]). }
  pose proof (loop_rel wantz n ilo ihi iloz ihiz Hlo Hhi h0 _ C1 fuel _ _ B0) as L.
  destruct (hq_loop _ _ _ _ _ _ _ _ _ fuel (hq_init ilo ihi h0 _ _ _)) as [[s i]| | |]; cbn [bind] in E; try discriminate.
  destruct (hq_loop _ _ _ _ _ _ _ _ _ fuel (hq_init ilo ihi (to_fa g) _ _ _)) as [[t j]| | |]; cbn [orel fst snd] in L; try contradiction. destruct L as [BT <-]. cbn [bind].
  destruct BT as [(x & v & -> & (S & (_ & S0) & _ & G) & _) _]. unfold cv in *. cbn [sH sWr sWi sZ]. destruct (U1 _ S0) as (p & Ep). destruct (U1 x (same_shape_trans _ _ _ S S0)) as (q & Eq).
  rewrite Ep in E. rewrite Eq. cbn [bind] in *. destruct (@from_fa F WR FWR (sWr s)) as [r1| | |]; cbn [bind] in *; try discriminate.
  destruct (@from_fa F WI FWI (sWi s)) as [r2| | |]; cbn [bind] in *; try discriminate. destruct (@from_fa F ZZ FZ (sZ s)) as [r3| | |]; cbn [bind] in *; try discriminate.
  injection E as <- <- <- <- <-. exists q. split; [reflexivity|]. exists (sH s), x. split; [exact Ep|]. split; [exact Eq|]. split; [exact S0|]. split; [eapply same_shape_trans; eassumption|].
  intros a b Ha Hb N. rewrite !ent_get2 by (apply (big_pos n); [eapply big_shape; [|exact B1]; (exact S0 || (eapply same_shape_trans; eassumption))|lia|lia]).
  f_equal. apply G; [assumption|assumption|lia].
Qed.
(** blocks of order at most 4 *)
Lemma dlahqr_unread4 {F} {NF : Num F} {H WR WI ZZ} (TH : ToFA F H) (FH : FromFA F H) (TWR : ToFA F WR) (FWR : FromFA F WR)
    (TWI : ToFA F WI) (FWI : FromFA F WI) (TZ : ToFA F ZZ) (FZ : FromFA F ZZ)
    (wantz : bool) n ilo ihi (h g : H) (wr : WR) (wi : WI) iloz ihiz (z : ZZ) ldz fuel h' wr' wi' z' info :
  usable TH FH h -> usable TH FH g -> same_shape (to_fa g) (to_fa h) -> 1 <= ilo -> ilo < ihi -> ihi <= n -> n <= rows (to_fa h) -> n * rows (to_fa h) <= count (to_fa h) ->
  ihi <= ilo + 3 ->
  (forall a b, 1 <= a <= n -> 1 <= b <= n -> ~ (ilo <= b /\ a <= ihi /\ b + 2 <= a) -> ent (to_fa h) a b = ent (to_fa g) a b) ->
  dlahqr fuel true wantz n ilo ihi h (rows (to_fa h)) wr wi iloz ihiz z ldz = Ok (h', wr', wi', z', info) ->
  exists g', dlahqr fuel true wantz n ilo ihi g (rows (to_fa h)) wr wi iloz ihiz z ldz = Ok (g', wr', wi', z', info) /\
    exists hd gd, from_fa hd = Ok h' /\ from_fa gd = Ok g' /\ same_shape hd (to_fa h) /\ same_shape gd (to_fa h) /\
      forall a b, 1 <= a <= n -> 1 <= b <= n -> ent hd a b = ent gd a b.
Proof.
  intros U1 U2 SH Hlo Hlh Hhi HR HC H4 HE E.
  destruct (dlahqr_unread TH FH TWR FWR TWI FWI TZ FZ wantz n ilo ihi h g wr wi iloz ihiz z ldz fuel h' wr' wi' z' info U1 U2 SH Hlo Hlh Hhi HR HC) as (g' & EG & hd & gd & A1 & A2 & A3 & A4 & A5).
  - intros a b Ha Hb N. apply HE; [assumption|assumption|lia].
  - exact E.
  - exists g'. split; [exact EG|]. exists hd, gd. do 4 (split; [assumption|]). intros a b Ha Hb. apply A5; [assumption|assumption|lia].
Qed.
