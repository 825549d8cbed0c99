(** One sweep of dlahqr over exact reals: H and Z undergo the same orthogonal similarity. *)
From Flocq Require Import Core.
From Coq Require Import Reals Lra.
From Verif Require Import Base Num Array Blas Lapack Dlahqr Spec ER SpecR SpecSim Lists FaLemmas RsumLemmas Nrm2Proofs B64 Nrm2F64 Blas1Proofs LarfgProofs
  LahqrProofs LahqrNum RealMat SimArray SimSweep SimReflect HqReal HqArray HqReflect.
Open Scope R_scope.

Section Sweep.
  Context (wantz : bool) (n ilo ihi iloz ihiz : Z).
  Hypothesis (Hlo : (1 <= ilo)%Z) (Hhi : (ihi <= n)%Z).
  Hypothesis (HZ : wantz = true -> (1 <= iloz)%Z /\ (ihiz <= n)%Z).
  Notation inr a := (ilo <= a <= ihi)%Z.
  Notation mm := (mmul ilo ihi).

  (** Z holds Z0*Q in rows iloz..=ihiz, columns ilo..=ihi, and Z0 elsewhere *)
  Definition z_is (zin : fa er) (Z0 : Z -> Z -> R) (z : fa er) (Q : Z -> Z -> R) : Prop :=
    if wantz then exists Zc, mat_is z n n Zc /\ same_shape z zin /\
      (forall a b, (iloz <= a <= ihiz)%Z -> inr b -> Zc a b = mm Z0 Q a b) /\
      (forall a b, (1 <= a <= n)%Z -> (1 <= b <= n)%Z -> ~ ((iloz <= a <= ihiz)%Z /\ inr b) -> Zc a b = Z0 a b)
    else z = zin.

  Lemma z_start zin Z0 : (wantz = true -> mat_is zin n n Z0) -> z_is zin Z0 zin Rid.
  Proof.
    intros H. unfold z_is. destruct wantz; [|reflexivity]. exists Z0. split; [apply H; reflexivity|]. split; [apply same_shape_refl|].
    split; [|reflexivity]. intros. rewrite mm_id_r by assumption. reflexivity.
  Qed.
  Lemma z_step zin Z0 z Q k v2 v3 t (body : Z -> fa er -> fa er) : (wantz = true -> (n <= rows zin)%Z) -> z_is zin Z0 z Q ->
    (ilo <= k)%Z -> (k + 2 <= ihi)%Z \/ v3 = 0 /\ (k + 1 <= ihi)%Z -> 
    (forall f M, mat_is f n n M -> (n <= rows f)%Z -> (1 <= iloz)%Z -> (ihiz <= n)%Z ->
      mat_is (for_ (range iloz ihiz) f body) n n (rows_only iloz ihiz (rright k v2 v3 t M) M) /\ same_shape (for_ (range iloz ihiz) f body) f) ->
    z_is zin Z0 (if wantz then for_ (range iloz ihiz) z body else z) (mm Q (refl t (wvec k v2 v3))).
  Proof.
    intros HR H Hk Hv HB. unfold z_is in *. destruct wantz; [|exact H].
    destruct H as (Zc & HM & Sh & E1 & E2). destruct (HZ eq_refl) as [Z1 Z2].
    destruct (HB z Zc HM) as [M' S']; [destruct Sh as (-> & _); exact (HR eq_refl)|assumption|assumption|].
    exists (rows_only iloz ihiz (rright k v2 v3 t Zc) Zc). split; [exact M'|]. split; [eapply same_shape_trans; eassumption|]. split.
    - intros a b Ha Hb. unfold rows_only. destruct (Z.leb_spec iloz a), (Z.leb_spec a ihiz); try lia. cbn [andb].
      transitivity (mm (mm Z0 Q) (refl t (wvec k v2 v3)) a b); [|apply mm_assoc].
      rewrite (rright_mm ilo ihi k v2 v3 t Hk Hv) by assumption. unfold rright. rewrite !E1 by lia.
      assert (T : v3 * Zc a (k + 2)%Z = v3 * mm Z0 Q a (k + 2)%Z) by (destruct Hv as [|[-> _]]; [rewrite E1 by lia; reflexivity|ring]).
      rewrite T. reflexivity.
    - intros a b Ha Hb Ho. unfold rows_only. destruct (Z.leb_spec iloz a), (Z.leb_spec a ihiz); cbn [andb]; try (apply E2; assumption).
      unfold rright. assert (W : wvec k v2 v3 b = 0).
      { destruct (Z.eq_dec b (k + 2)) as [->|]; [|apply wvec_out; lia]. rewrite wvec_2. destruct Hv as [|[-> _]]; [lia|reflexivity]. }
      rewrite W. rewrite E2 by assumption. ring.
  Qed.

  Section Fixed.
  Context (A Z0 : Z -> Z -> R) (N D : R) (zin : fa er).
  Hypothesis (HN : 0 <= N <= 2 ^ 500) (HD : 3 * bpow radix2 (-52) * N <= D) (HD0 : 0 < D).
  Hypothesis (HRZ : wantz = true -> (n <= rows zin)%Z).
  Context (l i : Z).
  Hypothesis (Hl : (ilo <= l)%Z) (Hi : (i <= ihi)%Z) (Hli : (l + 2 <= i)%Z).
  Notation inb a := (l <= a <= i)%Z.
  Context (hs : fa er) (Ms Gs : Z -> Z -> R).
  Hypothesis (FH : full hs) (HR : (n <= rows hs)%Z).

  Record swp_ (x : R) (k : Z) (h z : fa er) (M G Q E : Z -> Z -> R) : Prop := {
    w_mat : mat_is h n n M;
    w_shape : same_shape h hs;
    w_in : forall a b, inb a -> inb b -> M a b = G a b;
    w_out : forall a b, (1 <= a <= n)%Z -> (1 <= b <= n)%Z -> ~ (inb a /\ inb b) -> M a b = Ms a b;
    w_far : forall a b, inr a -> inr b -> ~ inb a -> ~ inb b -> G a b = Gs a b;
    w_chase : chase ilo ihi l i k G;
    w_sim : simil ilo ihi A x G Q E;
    w_norm : frob2 ilo ihi G <= N * N;
    w_z : z_is zin Z0 z Q
  }.

  (** the two loops over H and the loop over Z *)
  Lemma hq_tail x k h1 z M1 G Q E v beta v2 v3 t (st : outcome (fa er * fa er * fa er * er)) :
    (l <= k < i)%Z -> v_is v beta v2 v3 -> house v2 (third i k v3) t ->
    mat_is h1 n n M1 -> same_shape h1 hs ->
    (forall a b, inb a -> inb b -> (k <= b)%Z -> M1 a b = G a b) ->
    (forall a b, inb a -> inb b -> (b < k)%Z -> M1 a b = rleft k v2 (third i k v3) t G a b) ->
    (forall a b, (1 <= a <= n)%Z -> (1 <= b <= n)%Z -> ~ (inb a /\ inb b) -> M1 a b = Ms a b) ->
    (forall a b, inr a -> inr b -> ~ inb a -> ~ inb b -> G a b = Gs a b) ->
    chase ilo ihi l i k G ->
    ((l < k)%Z -> forall a, inr a -> (k < a)%Z -> rleft k v2 (third i k v3) t G a (k - 1)%Z = 0) ->
    simil ilo ihi A x G Q E -> frob2 ilo ihi G <= N * N -> z_is zin Z0 z Q ->
    exists h' z' M' G' Q', 
      (let v2 := get1 v 2 in
      let t2 := fmul (Fin t) v2 in
      let nr := Z.min 3 (i - k + 1) in
      if (nr =? 3)%Z then
        let v3 := get1 v 3 in
        let t3 := fmul (Fin t) v3 in
        let h := for_ (range k i) h1 (left3 k v2 v3 (Fin t) t2 t3) in
        let h := for_ (range l (Z.min i (k + 4))) h (right3 k v2 v3 (Fin t) t2 t3) in
        let z := if wantz then for_ (range iloz ihiz) z (right3 k v2 v3 (Fin t) t2 t3) else z in
        Ok (h, z, v, Fin t)
      else if (nr =? 2)%Z then
        let h := for_ (range k i) h1 (left2 k v2 (Fin t) t2) in
        let h := for_ (range l i) h (right2 k v2 (Fin t) t2) in
        let z := if wantz then for_ (range iloz ihiz) z (right2 k v2 (Fin t) t2) else z in
        Ok (h, z, v, Fin t)
      else Ok (h1, z, v, Fin t)) = Ok (h', z', v, Fin t) /\ swp_ x (k + 1) h' z' M' G' Q' E.
  Proof.
    intros Hk V HH HM Sh A1 A2 J2 J3 HC KILL SI NO ZI. cbv zeta. destruct (v_get _ _ _ _ V) as (_ & -> & ->). rewrite !er_mulE.
    assert (R1 : (n <= rows h1)%Z) by (destruct Sh as (-> & _); exact HR).
    assert (HV : (k + 2 <= i)%Z \/ third i k v3 = 0) by (unfold third; destruct (Z.leb_spec (k + 2) i); auto).
    assert (HV' : (k + 2 <= ihi)%Z \/ third i k v3 = 0 /\ (k + 1 <= ihi)%Z) by (destruct HV; [left|right; split]; (assumption || lia)).
    set (w3 := third i k v3) in *.
    set (G' := rright k v2 w3 t (rleft k v2 w3 t G)). set (P := refl t (wvec k v2 w3)).
    assert (FIN : forall r h' z', (r <= i)%Z -> r = i \/ (k + 3 <= r)%Z ->
      mat_is h' n n (rows_only l r (rright k v2 w3 t (cols_only k i (rleft k v2 w3 t M1) M1)) (cols_only k i (rleft k v2 w3 t M1) M1)) ->
      same_shape h' hs -> z_is zin Z0 z' (mm Q P) ->
      swp_ x (k + 1) h' z' (rows_only l r (rright k v2 w3 t (cols_only k i (rleft k v2 w3 t M1) M1)) (cols_only k i (rleft k v2 w3 t M1) M1)) G' (mm Q P) E).
    { intros r h' z' Hr1 Hr2 HM' Sh' ZI'. constructor.
      - exact HM'.
      - exact Sh'.
      - intros a b Ha Hb. apply (hq_MR ilo ihi l i Hl Hi k G v2 w3 t HC Hk HV M1 r A1 A2 Hr2 a b Ha Hb).
      - intros a b Ha Hb Ho. rewrite (hq_MR_out l i k v2 w3 t Hk HV M1 r Hr1 a b Ho). apply J2; assumption.
      - intros a b Ha Hb Na Nb. unfold G'. rewrite (hq_far l i k G v2 w3 t Hk HV a b) by lia. apply J3; assumption.
      - apply (hq_chase_step ilo ihi l i Hl Hi k G v2 w3 t HC Hk HV KILL).
      - eapply simil_ext; [apply (simil_conj _ _ _ _ _ _ _ P SI); apply house_orth; [lia|assumption|assumption]| |reflexivity].
        intros a b Ha Hb. unfold P. rewrite conj_step by (assumption || lia). apply rlr_comm.
      - rewrite (frob_ext ilo ihi _ (conj_by ilo ihi P G)); [rewrite frob_conj; [exact NO|apply house_orth; [lia|assumption|assumption]]|].
        intros a b Ha Hb. unfold P. rewrite conj_step by (assumption || lia). symmetry. apply rlr_comm.
      - exact ZI'. }
    destruct (Z.eqb_spec (Z.min 3 (i - k + 1)) 3) as [E3|E3].
    - assert (W3 : w3 = v3) by (unfold w3, third; destruct (Z.leb_spec (k + 2) i); [reflexivity|lia]). clearbody w3. subst w3.
      destruct (hq_left3_loop n h1 M1 k v2 v3 t k i HM R1) as [H2 S2]; [lia|lia|lia|lia|].
      set (h2 := for_ (range k i) h1 _) in *.
      destruct (hq_right3_loop n h2 _ k v2 v3 t l (Z.min i (k + 4)) H2) as [H3 S3]; [destruct S2 as (-> & _); exact R1|lia|lia|lia|lia|].
      do 5 eexists. split; [reflexivity|]. apply (FIN (Z.min i (k + 4))); [lia|lia|exact H3|eapply same_shape_trans; [exact S3|eapply same_shape_trans; eassumption]|].
      apply z_step; [exact HRZ|exact ZI|lia|assumption|]. intros. apply hq_right3_loop; lia || assumption.
    - assert (E2 : Z.min 3 (i - k + 1) = 2%Z) by lia. rewrite E2. cbn [Z.eqb Pos.eqb].
      assert (W3 : w3 = 0) by (unfold w3, third; destruct (Z.leb_spec (k + 2) i); [lia|reflexivity]). clearbody w3. subst w3.
      destruct (hq_left2_loop n h1 M1 k v2 t k i HM R1) as [H2 S2]; [lia|lia|lia|lia|].
      set (h2 := for_ (range k i) h1 _) in *.
      destruct (hq_right2_loop n h2 _ k v2 t l i H2) as [H3 S3]; [destruct S2 as (-> & _); exact R1|lia|lia|lia|lia|].
      do 5 eexists. split; [reflexivity|]. apply (FIN i); [lia|lia|exact H3|eapply same_shape_trans; [exact S3|eapply same_shape_trans; eassumption]|].
      apply z_step; [exact HRZ|exact ZI|lia|assumption|]. intros. apply hq_right2_loop; lia || assumption.
  Qed.
  Lemma pow500 : 2 ^ 500 <= 2 ^ 505.
  Proof. apply Rle_pow; [lra|lia]. Qed.
  Lemma w_bound x k h z M G Q E a b : swp_ x k h z M G Q E -> inb a -> inb b -> Rabs (M a b) <= N.
  Proof. intros W Ha Hb. rewrite (w_in _ _ _ _ _ _ _ _ W) by assumption. apply (frob_bound ilo ihi G N a b); [lia|lia|apply HN|apply (w_norm _ _ _ _ _ _ _ _ W)]. Qed.

  Lemma hq_later x m k h z M G Q E v t1 w1 w2 w3 : swp_ x k h z M G Q E -> v_is v w1 w2 w3 -> (l <= m < k)%Z -> (k < i)%Z ->
    exists h' z' v' t' M' G' Q' y1 y2 y3, hq_step wantz iloz ihiz l i l m i k (h, z, v, t1) = Ok (h', z', v', t') /\ swp_ x (k + 1) h' z' M' G' Q' E /\ v_is v' y1 y2 y3.
  Proof.
    intros W V Hm Hk. pose proof W as [HM Sh J1 J2 J3 HC SI NO ZI].
    assert (R1 : (n <= rows h)%Z) by (destruct Sh as (-> & _); exact HR).
    assert (FH1 : full h) by (eapply full_shape; eassumption).
    destruct (hq_reflector_is n h M FH1 HM R1 v t1 w1 w2 w3 m k i V) as (v' & beta & t & v2 & v3 & ER & V' & K).
    { lia. }
    { lia. }
    { intros a _ Ha. eapply Rle_trans; [eapply w_bound; [exact W|lia|lia]|]. pose proof pow500. lra. }
    { lia. }
    replace (m <? k)%Z with true in K by (symmetry; apply Z.ltb_lt; lia).
    unfold hq_step. rewrite ER. cbn [bind].
    replace (m <? k)%Z with true by (symmetry; apply Z.ltb_lt; lia). cbv iota.
    destruct (v_get _ _ _ _ V') as (-> & _ & _). rewrite er_f0.
    assert (K3 : third i k (M (k + 2)%Z (k - 1)%Z) = third i k (G (k + 2)%Z (k - 1)%Z)).
    { unfold third. destruct (Z.leb_spec (k + 2) i); [apply J1; lia|reflexivity]. }
    rewrite K3, (J1 k), (J1 (k + 1)%Z) in K by lia. destruct K as (HH & K1 & K2 & K4).
    set (u3 := third i k v3) in *.
    assert (HV : (k + 2 <= i)%Z \/ u3 = 0) by (unfold u3, third; destruct (Z.leb_spec (k + 2) i); auto).
    assert (S3 : third i k (G (k + 2)%Z (k - 1)%Z) * u3 = G (k + 2)%Z (k - 1)%Z * u3).
    { unfold u3, third. destruct (Z.leb_spec (k + 2) i); ring. }
    assert (SS : G k (k - 1)%Z + v2 * G (k + 1)%Z (k - 1)%Z + u3 * third i k (G (k + 2)%Z (k - 1)%Z) = G k (k - 1)%Z + v2 * G (k + 1)%Z (k - 1)%Z + u3 * G (k + 2)%Z (k - 1)%Z).
    { rewrite (Rmult_comm u3 (third _ _ _)), S3. ring. }
    rewrite SS in K1, K2, K4. clear SS S3 K3.
    assert (L0 : rleft k v2 u3 t G k (k - 1)%Z = beta) by (unfold rleft; rewrite wvec_0, Rmult_1_r; exact K1).
    assert (L1 : rleft k v2 u3 t G (k + 1)%Z (k - 1)%Z = 0) by (unfold rleft; rewrite wvec_1; exact K2).
    assert (L2 : (k + 2 <= i)%Z -> rleft k v2 u3 t G (k + 2)%Z (k - 1)%Z = 0).
    { intros Hk2. unfold rleft. rewrite wvec_2. unfold third in K4 at 1. destruct (Z.leb_spec (k + 2) i); [exact K4|lia]. }
    assert (LL : forall a, inr a -> (k + 2 < a)%Z -> rleft k v2 u3 t G a (k - 1)%Z = 0).
    { intros a Ha Hka. rewrite hq_L_rows3 by lia. apply (ch_low _ _ _ _ _ _ HC); [lia|lia|lia|]. unfold hq_bulge. lia. }
    assert (LI : forall a, inr a -> (i < a)%Z -> rleft k v2 u3 t G a (k - 1)%Z = 0).
    { intros a Ha Hka. rewrite (hq_L_rows l i k G v2 u3 t) by (assumption || lia). apply (ch_bot _ _ _ _ _ _ HC); lia. }
    set (M1 := fun a b => if (b =? k - 1)%Z && (k <=? a)%Z && (a <=? Z.min i (k + 2))%Z then (if (a =? k)%Z then beta else 0) else M a b).
    match goal with |- context [for_ (range k i) ?hh (left3 _ _ _ _ _ _)] => set (h1 := hh) end.
    assert (HM1 : mat_is h1 n n M1 /\ same_shape h1 hs).
    { assert (B1 := mat_set2 n h M k (k - 1) beta HM R1 ltac:(lia) ltac:(lia)).
      assert (R2 := set2_rows n h k (k - 1) (Fin beta) R1).
      assert (B2 := mat_set2 n _ _ (k + 1) (k - 1) 0 B1 R2 ltac:(lia) ltac:(lia)).
      assert (R3 := set2_rows n _ (k + 1) (k - 1) (Fin 0) R2).
      unfold h1. destruct (Z.ltb_spec k (i - 1)) as [Kl|Kl].
      - assert (B3 := mat_set2 n _ _ (k + 2) (k - 1) 0 B2 R3 ltac:(lia) ltac:(lia)).
        split; [|do 3 (eapply same_shape_trans; [apply set2_shape|]); exact Sh]. refine (mat_ext n _ _ _ _ B3).
        intros a b Ha Hb. unfold rupd, M1. destruct (Z.eqb_spec b (k - 1)); rewrite ?andb_false_r; cbn [andb]; [|reflexivity]. rewrite !andb_true_r.
        destruct (Z.leb_spec k a), (Z.leb_spec a (Z.min i (k + 2))), (Z.eqb_spec a k), (Z.eqb_spec a (k + 1)), (Z.eqb_spec a (k + 2)); cbn [andb]; try lia; reflexivity.
      - split; [|do 2 (eapply same_shape_trans; [apply set2_shape|]); exact Sh]. refine (mat_ext n _ _ _ _ B2).
        intros a b Ha Hb. unfold rupd, M1. destruct (Z.eqb_spec b (k - 1)); rewrite ?andb_false_r; cbn [andb]; [|reflexivity]. rewrite !andb_true_r.
        destruct (Z.leb_spec k a), (Z.leb_spec a (Z.min i (k + 2))), (Z.eqb_spec a k), (Z.eqb_spec a (k + 1)); cbn [andb]; try lia; reflexivity. }
    destruct HM1 as [HM1 Sh1].
    destruct (hq_tail x k h1 z M1 G Q E v' beta v2 v3 t (Ok (h, z, v, t1))) as (h' & z' & M' & G' & Q' & EQ & W'); try assumption.
    { lia. }
    { intros a b Ha Hb Hkb. unfold M1. destruct (Z.eqb_spec b (k - 1)); [lia|]. cbn [andb]. apply J1; assumption. }
    { intros a b Ha Hb Hkb. fold u3. unfold M1. destruct (Z.eqb_spec b (k - 1)) as [->|].
      - cbn [andb]. destruct (Z.leb_spec k a), (Z.leb_spec a (Z.min i (k + 2))); cbn [andb]; try lia.
        + destruct (Z.eqb_spec a k) as [->|]; [symmetry; exact L0|]. assert (a = k + 1 \/ a = k + 2)%Z as [-> | ->] by lia; symmetry; [exact L1|apply L2; lia].
        + rewrite LL by lia. rewrite J1 by lia. apply (ch_low _ _ _ _ _ _ HC); [lia|lia|lia|]. unfold hq_bulge. lia.
        + rewrite (hq_L_rows l i k G v2 u3 t) by (assumption || lia). apply J1; lia.
      - cbn [andb]. rewrite (hq_L_cols ilo ihi l i Hl Hi k G v2 u3 t) by (assumption || lia). apply J1; assumption. }
    { intros a b Ha Hb Ho. unfold M1. destruct (Z.eqb_spec b (k - 1)); cbn [andb]; [|apply J2; assumption].
      destruct (Z.leb_spec k a), (Z.leb_spec a (Z.min i (k + 2))); cbn [andb]; try lia; apply J2; assumption. }
    { intros _ a Ha Hka. fold u3. destruct (Z.le_gt_cases a i) as [Ai|Ai]; [|apply LI; assumption].
      assert (a = k + 1 \/ a = k + 2 \/ k + 2 < a)%Z as [-> | [-> | X]] by lia; [exact L1|apply L2; exact Ai|apply LL; assumption]. }
    exists h', z', v', (Fin t), M', G', Q', beta, v2, v3. split; [exact EQ|]. split; [exact W'|exact V'].
  Qed.

  Lemma drop_size X w1 w2 w3 beta t v2 v3 : kills w1 w2 w3 beta t v2 v3 -> Rabs w1 + Rabs w2 + Rabs w3 = 1 ->
    Rabs X * (Rabs w2 + Rabs w3) <= bpow radix2 (-52) * Rabs w1 * (3 * N) -> X * X * (t * t * (v2 * v2 + v3 * v3)) <= D * D.
  Proof.
    intros K SW C. destruct (kills_facts _ _ _ _ _ _ _ K) as [B1 B2]. set (q := t * t * (v2 * v2 + v3 * v3)) in *.
    assert (BP : 0 < beta * beta).
    { rewrite <- B1. destruct (Req_dec w1 0) as [->|N1]; [|nra]. destruct (Req_dec w2 0) as [->|N2]; [|nra].
      destruct (Req_dec w3 0) as [->|N3]; [|nra]. rewrite Rabs_R0 in SW. lra. }
    apply Rmult_le_reg_l with (beta * beta); [exact BP|].
    replace (beta * beta * (X * X * q)) with (X * X * (beta * beta * q)) by ring. rewrite B2.
    assert (C2 : Rabs X * (Rabs w2 + Rabs w3) <= Rabs w1 * D).
    { eapply Rle_trans; [exact C|]. replace (bpow radix2 (-52) * Rabs w1 * (3 * N)) with (Rabs w1 * (3 * bpow radix2 (-52) * N)) by ring.
      apply Rmult_le_compat_l; [apply Rabs_pos|exact HD]. }
    assert (P0 : 0 <= Rabs X * (Rabs w2 + Rabs w3)).
    { apply Rmult_le_pos; [apply Rabs_pos|]. pose proof (Rabs_pos w2). pose proof (Rabs_pos w3). lra. }
    assert (C3 : (Rabs X * (Rabs w2 + Rabs w3)) * (Rabs X * (Rabs w2 + Rabs w3)) <= (Rabs w1 * D) * (Rabs w1 * D)) by (apply Rmult_le_compat; assumption).
    assert (SQ : forall y, Rabs y * Rabs y = y * y) by (intros y; rewrite <- Rabs_mult; apply Rabs_pos_eq; nra).
    replace ((Rabs w1 * D) * (Rabs w1 * D)) with (w1 * w1 * (D * D)) in C3 by (rewrite <- (SQ w1); ring).
    apply Rle_trans with (w1 * w1 * (D * D)).
    - eapply Rle_trans; [|exact C3]. rewrite <- (SQ X), <- (SQ w2), <- (SQ w3).
      replace (Rabs X * (Rabs w2 + Rabs w3) * (Rabs X * (Rabs w2 + Rabs w3))) with ((Rabs X * Rabs X) * ((Rabs w2 + Rabs w3) * (Rabs w2 + Rabs w3))) by ring.
      apply Rmult_le_compat_l; [apply Rle_0_sqr|]. pose proof (Rabs_pos w2). pose proof (Rabs_pos w3). nra.
    - apply Rmult_le_compat_r; [apply Rle_0_sqr|]. nra.
  Qed.

  Lemma hq_first x m h z M G Q E v t1 w1 w2 w3 : swp_ x m h z M G Q E -> hessenberg ilo ihi G -> v_is v w1 w2 w3 -> (l <= m <= i - 2)%Z -> 0 <= x ->
    Rabs w1 + Rabs w2 + Rabs w3 = 1 -> (m = l \/ Rabs (M m (m - 1)%Z) * (Rabs w2 + Rabs w3) <= bpow radix2 (-52) * Rabs w1 * (3 * N)) ->
    exists h' z' v' t' M' G' Q' E' y1 y2 y3, hq_step wantz iloz ihiz l i l m i m (h, z, v, t1) = Ok (h', z', v', t') /\ swp_ (x + D) (m + 1) h' z' M' G' Q' E' /\ v_is v' y1 y2 y3.
  Proof.
    intros W HE V Hm Hx SW ST. pose proof W as [HM Sh J1 J2 J3 HC SI NO ZI].
    assert (R1 : (n <= rows h)%Z) by (destruct Sh as (-> & _); exact HR).
    assert (FH1 : full h) by (eapply full_shape; eassumption).
    destruct (hq_reflector_is n h M FH1 HM R1 v t1 w1 w2 w3 m m i V) as (v' & beta & t & v2 & v3 & ER & V' & K).
    { lia. }
    { lia. }
    { lia. }
    { intros _. pose proof (Rabs_pos w1). pose proof (Rabs_pos w2). pose proof (Rabs_pos w3).
      assert (1 <= 2 ^ 505) by (apply pow_R1_Rle; lra). repeat split; lra. }
    rewrite Z.ltb_irrefl in K.
    assert (T3 : forall y, third i m y = y) by (intros; unfold third; destruct (Z.leb_spec (m + 2) i); [reflexivity|lia]). rewrite !T3 in K.
    unfold hq_step. rewrite ER. cbn [bind]. rewrite Z.ltb_irrefl.
    destruct (Z.eq_dec m l) as [->|Nl].
    - rewrite Z.ltb_irrefl.
      destruct (hq_tail (x + D) l h z M G Q E v' beta v2 v3 t (Ok (h, z, v, t1))) as (h' & z' & M' & G' & Q' & EQ & W'); try assumption; try lia.
      { rewrite T3. apply K. }
      { intros a b Ha Hb _. apply J1; assumption. }
      { eapply simil_weaken; [exact SI|lra]. }
      exists h', z', v', (Fin t), M', G', Q', E, beta, v2, v3. split; [exact EQ|]. split; [exact W'|exact V'].
    - replace (l <? m)%Z with true by (symmetry; apply Z.ltb_lt; lia). destruct ST as [|ST]; [lia|].
      rewrite (J1 m (m - 1)%Z) in ST by lia.
      set (X := G m (m - 1)%Z) in *. set (e := hq_drop m X t v2 v3).
      assert (HH : house v2 v3 t) by apply K.
      assert (HCOL : forall a, (m < a <= m + 2)%Z -> G a (m - 1)%Z = 0) by (intros; apply HE; lia).
      assert (DL := drop_left m X t v2 v3 G HH eq_refl HCOL).
      assert (DF := fun a b => drop_far m X t v2 v3 a b). fold e in DF, DL.
      rewrite er_f1. rewrite er_subE.
      set (h1 := mod2 h m (m - 1) _).
      assert (HM1 : mat_is h1 n n (rupd M m (m - 1) (M m (m - 1)%Z * (1 - t)))).
      { unfold h1. apply (mat_mod2 n h M m (m - 1) (fun y => fmul y (Fin (1 - t))) (M m (m - 1)%Z * (1 - t)) HM R1); [lia|lia|reflexivity]. }
      assert (Sh1 : same_shape h1 hs) by (eapply same_shape_trans; [apply mod2_shape|exact Sh]).
      set (M1 := rupd M m (m - 1) (M m (m - 1)%Z * (1 - t))) in *.
      set (G0 := msub G e).
      assert (HC0 : chase ilo ihi l i m G0).
      { constructor; intros a b Ha Hb H; unfold G0, msub.
        - intros NB. rewrite (ch_low _ _ _ _ _ _ HC a b Ha Hb H NB). rewrite DF; [ring|]. unfold hq_bulge in NB. lia.
        - rewrite (ch_top _ _ _ _ _ _ HC a b Ha Hb H). rewrite DF; [ring|]. lia.
        - rewrite (ch_bot _ _ _ _ _ _ HC a b Ha Hb H). rewrite DF; [ring|]. lia. }
      assert (EG : forall a b, b <> (m - 1)%Z -> G0 a b = G a b) by (intros a b Hb; unfold G0, msub; rewrite DF by lia; ring).
      destruct (hq_tail (x + D) m h1 z M1 G0 Q (madd E (conj_by ilo ihi (mtr Q) e)) v' beta v2 v3 t (Ok (h, z, v, t1))) as (h' & z' & M' & G' & Q' & EQ & W'); rewrite ?T3; try assumption; try lia.
      { intros a b Ha Hb Hmb. rewrite EG by lia. unfold M1. rewrite rupd_other by lia. apply J1; assumption. }
      { intros a b Ha Hb Hmb. destruct (Z.eq_dec b (m - 1)) as [->|Nb].
        - destruct (Z_lt_le_dec a m) as [Q1|Q1]; [|destruct (Z_le_gt_dec a (m + 2)) as [Q2|Q2]].
          + rewrite (hq_L_rows l i m G0 v2 v3 t) by lia. unfold M1. rewrite rupd_other by lia. unfold G0, msub. rewrite DF by lia. rewrite Rminus_0_r. apply J1; lia.
          + unfold G0. rewrite DL by lia. destruct (Z.eqb_spec a m) as [->|].
            * unfold M1. rewrite rupd_same. rewrite J1 by lia. reflexivity.
            * unfold M1. rewrite rupd_other by lia. rewrite J1 by lia. apply HCOL. lia.
          + rewrite hq_L_rows3 by lia. unfold M1. rewrite rupd_other by lia. unfold G0, msub. rewrite DF by lia. rewrite Rminus_0_r. apply J1; lia.
        - rewrite (hq_L_cols ilo ihi l i Hl Hi m G0 v2 v3 t) by (assumption || lia). rewrite EG by lia. unfold M1. rewrite rupd_other by lia. apply J1; assumption. }
      { intros a b Ha Hb Ho. unfold M1. rewrite rupd_other by lia. apply J2; assumption. }
      { intros a b Ha Hb Na Nb. rewrite EG by lia. apply J3; assumption. }
      { intros _ a Ha Hma. destruct (Z_le_gt_dec a (m + 2)) as [Q2|Q2].
        - unfold G0. rewrite DL by lia. destruct (Z.eqb_spec a m); [lia|reflexivity].
        - rewrite hq_L_rows3 by lia. unfold G0, msub. rewrite DF by lia. rewrite HE by lia. ring. }
      { apply simil_drop; [exact SI|exact Hx|exact HD0| |].
        - unfold e. rewrite (drop_frob ilo ihi m X t v2 v3) by (assumption || lia). eapply drop_size; eassumption.
        - unfold e. apply drop_trace; lia. }
      { eapply Rle_trans; [apply (drop_norm ilo ihi m X t v2 v3 G HH); (assumption || lia || reflexivity)|exact NO]. }
      do 11 eexists. split; [exact EQ|]. split; [exact W'|exact V'].
  Qed.

  (** the whole sweep *)
  Lemma hq_sweep_is x m h z M G Q E v t1 w1 w2 w3 : swp_ x m h z M G Q E -> hessenberg ilo ihi G -> v_is v w1 w2 w3 -> (l <= m <= i - 2)%Z -> 0 <= x ->
    Rabs w1 + Rabs w2 + Rabs w3 = 1 -> (m = l \/ Rabs (M m (m - 1)%Z) * (Rabs w2 + Rabs w3) <= bpow radix2 (-52) * Rabs w1 * (3 * N)) ->
    exists h' z' v' t' M' G' Q' E' y1 y2 y3, for_M (range m (i - 1)) (h, z, v, t1) (hq_step wantz iloz ihiz l i l m i) = Ok (h', z', v', t') /\ swp_ (x + D) i h' z' M' G' Q' E' /\ v_is v' y1 y2 y3.
  Proof.
    intros W HE V Hm Hx SW ST. rewrite range_cons by lia. cbn [for_M].
    destruct (hq_first x m h z M G Q E v t1 w1 w2 w3 W HE V Hm Hx SW ST) as (h1 & z1 & v1 & t1' & M1 & G1 & Q1 & E1 & y1 & y2 & y3 & -> & W1 & V1). cbn [bind].
    assert (L : forall d k h z M G Q v t1 w1 w2 w3, (k + Z.of_nat d = i)%Z -> (m < k)%Z -> swp_ (x + D) k h z M G Q E1 -> v_is v w1 w2 w3 ->
      exists h' z' v' t' M' G' Q' y1 y2 y3, for_M (range k (i - 1)) (h, z, v, t1) (hq_step wantz iloz ihiz l i l m i) = Ok (h', z', v', t') /\ swp_ (x + D) i h' z' M' G' Q' E1 /\ v_is v' y1 y2 y3).
    { clear - Hl Hi Hli FH HR HN HRZ Hlo Hhi HZ Hm. induction d as [|d IH]; intros k h z M G Q v t1 w1 w2 w3 Ek Hk W V.
      - rewrite range_nil by lia. cbn [for_M]. assert (k = i) as <- by lia. do 10 eexists. split; [reflexivity|]. split; eassumption.
      - rewrite range_cons by lia. cbn [for_M].
        destruct (hq_later (x + D) m k h z M G Q E1 v t1 w1 w2 w3 W V) as (h2 & z2 & v2 & t2 & M2 & G2 & Q2 & u1 & u2 & u3 & -> & W2 & V2); [lia|lia|]. cbn [bind].
        eapply IH; [lia|lia|exact W2|exact V2]. }
    destruct (L (Z.to_nat (i - (m + 1))) (m + 1)%Z h1 z1 M1 G1 Q1 v1 t1' y1 y2 y3) as (h2 & z2 & v2 & t2 & M2 & G2 & Q2 & u1 & u2 & u3 & EQ & W2 & V2); [lia|lia|exact W1|exact V1|].
    do 11 eexists. split; [exact EQ|]. split; eassumption.
  Qed.
  End Fixed.
End Sweep.
