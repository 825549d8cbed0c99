(** Block triangular matrices: what quasi_schur reports are eigenvalues. *)
From Flocq Require Import Core.
From Coq Require Import Reals Lra.
From Coquelicot Require Import Complex.
From Verif Require Import Base Num Array Spec ER SpecR SpecSim SpecHq Lists RsumLemmas RealMat.
Notation C := Complex.C.
Open Scope R_scope.

Definition Csum (f : Z -> C) (lo hi : Z) : C := (Rsum_range (fun a => fst (f a)) lo hi, Rsum_range (fun a => snd (f a)) lo hi).
Lemma Csum_cons f lo hi : (lo <= hi)%Z -> Csum f lo hi = Cplus (f lo) (Csum f (lo + 1) hi).
Proof. intros L. unfold Csum. rewrite !(Rsum_range_cons _ lo hi) by assumption. reflexivity. Qed.
Lemma Csum_ext f g lo hi : (forall a, (lo <= a <= hi)%Z -> f a = g a) -> Csum f lo hi = Csum g lo hi.
Proof. intros E. unfold Csum. f_equal; apply Rsum_range_ext; intros; rewrite E by assumption; reflexivity. Qed.
Lemma Csum_zero f lo hi : (forall a, (lo <= a <= hi)%Z -> f a = RtoC 0) -> Csum f lo hi = RtoC 0.
Proof. intros E. unfold Csum, RtoC. f_equal; apply Rsum_range_zero; intros; rewrite E by assumption; reflexivity. Qed.

Lemma C_one_nz : RtoC 1 <> RtoC 0.
Proof. intros X. apply (f_equal fst) in X. cbn in X. lra. Qed.
Lemma C_dec (x y : C) : {x = y} + {x <> y}.
Proof.
  destruct x as [a b], y as [c d]. destruct (Req_EM_T a c) as [->|N]; [|right; congruence]. destruct (Req_EM_T b d) as [->|N]; [left; reflexivity|right; congruence].
Qed.

Section Eig.
  Context (ilo ihi : Z) (T : Z -> Z -> R) (HE : hessenberg ilo ihi T).
  Open Scope C_scope.
  (** entry b of y^T*T, the rows from j on *)
  Definition act (j : Z) (y : Z -> C) (b : Z) : C := Csum (fun a => y a * RtoC (T a b)) j ihi.
  Definition eigvec (lam : C) (j : Z) : Prop := exists y, (exists a, (j <= a <= ihi)%Z /\ y a <> RtoC 0) /\ forall b, (j <= b <= ihi)%Z -> act j y b = lam * y b.
  Definition solvable (lam : C) (j : Z) : Prop := forall r : Z -> C, exists y, forall b, (j <= b <= ihi)%Z -> act j y b = lam * y b + r b.

  Lemma act_one j y b : (j <= ihi)%Z -> act j y b = y j * RtoC (T j b) + act (j + 1) y b.
  Proof. intros L. unfold act. rewrite Csum_cons by assumption. reflexivity. Qed.
  Lemma act_ext j y y' b : (forall a, (j <= a <= ihi)%Z -> y a = y' a) -> act j y b = act j y' b.
  Proof. intros E. apply Csum_ext. intros. rewrite E by assumption. reflexivity. Qed.
  Lemma act_zero j y b : (forall a, (j <= a <= ihi)%Z -> T a b = 0%R) -> act j y b = RtoC 0.
  Proof. intros E. apply Csum_zero. intros. rewrite E by assumption. apply injective_projections; cbn; ring. Qed.

  Definition put (y : Z -> C) (j : Z) (x : C) (a : Z) : C := if (a =? j)%Z then x else y a.
  Lemma put_same y j x : put y j x j = x.
  Proof. unfold put. rewrite Z.eqb_refl. reflexivity. Qed.
  Lemma put_other y j x a : a <> j -> put y j x a = y a.
  Proof. unfold put. destruct (Z.eqb_spec a j); [contradiction|reflexivity]. Qed.

  (** a row that is zero to the left of the diagonal *)
  Lemma lift_one lam j : (j <= ihi)%Z -> (forall a, (j < a <= ihi)%Z -> T a j = 0%R) -> eigvec lam (j + 1) -> eigvec lam j.
  Proof.
    intros L Z1 (y & (a & Ha & Na) & Hy). exists (put y j (RtoC 0)). split.
    - exists a. split; [lia|]. rewrite put_other by lia. exact Na.
    - intros b Hb. rewrite act_one by assumption. rewrite put_same. rewrite (act_ext (j + 1) _ y) by (intros; rewrite put_other by lia; reflexivity).
      destruct (Z.eq_dec b j) as [->|Nb].
      + rewrite put_same, act_zero by (intros; apply Z1; lia). ring.
      + rewrite put_other by assumption. rewrite Hy by lia. ring.
  Qed.
  Lemma fill_one lam j (x : C) r : (j <= ihi)%Z -> (forall a, (j < a <= ihi)%Z -> T a j = 0%R) -> solvable lam (j + 1) -> x * RtoC (T j j) = lam * x + r j ->
    exists y, y j = x /\ forall b, (j <= b <= ihi)%Z -> act j y b = lam * y b + r b.
  Proof.
    intros L Z1 S X. destruct (S (fun b => r b - x * RtoC (T j b))) as (y & Hy). exists (put y j x). split; [apply put_same|].
    intros b Hb. rewrite act_one by assumption. rewrite put_same. rewrite (act_ext (j + 1) _ y) by (intros; rewrite put_other by lia; reflexivity).
    destruct (Z.eq_dec b j) as [->|Nb].
    - rewrite put_same, act_zero by (intros; apply Z1; lia). rewrite X. ring.
    - rewrite put_other by assumption. rewrite Hy by lia. ring.
  Qed.
  Lemma lift_two lam j : (j + 1 <= ihi)%Z -> (forall a b, (j + 1 < a <= ihi)%Z -> (j <= b <= j + 1)%Z -> T a b = 0%R) -> eigvec lam (j + 2) -> eigvec lam j.
  Proof.
    intros L Z1 (y & (a & Ha & Na) & Hy). exists (put (put y (j + 1) (RtoC 0)) j (RtoC 0)). split.
    - exists a. split; [lia|]. rewrite !put_other by lia. exact Na.
    - intros b Hb. rewrite act_one, act_one by lia. replace (j + 1 + 1)%Z with (j + 2)%Z by lia. rewrite put_same. rewrite (put_other _ j _ (j + 1)), put_same by lia.
      rewrite (act_ext (j + 2) _ y) by (intros; rewrite !put_other by lia; reflexivity).
      destruct (Z.eq_dec b j) as [->|Nb]; [|destruct (Z.eq_dec b (j + 1)) as [->|Nb2]].
      + rewrite put_same, act_zero by (intros; apply Z1; lia). ring.
      + rewrite put_other, put_same by lia. rewrite act_zero by (intros; apply Z1; lia). ring.
      + rewrite !put_other by assumption. rewrite Hy by lia. ring.
  Qed.
  Lemma fill_two lam j (x1 x2 : C) r : (j + 1 <= ihi)%Z -> (forall a b, (j + 1 < a <= ihi)%Z -> (j <= b <= j + 1)%Z -> T a b = 0%R) -> solvable lam (j + 2) ->
    x1 * RtoC (T j j) + x2 * RtoC (T (j + 1)%Z j) = lam * x1 + r j -> x1 * RtoC (T j (j + 1)%Z) + x2 * RtoC (T (j + 1)%Z (j + 1)%Z) = lam * x2 + r (j + 1)%Z ->
    exists y, y j = x1 /\ y (j + 1)%Z = x2 /\ forall b, (j <= b <= ihi)%Z -> act j y b = lam * y b + r b.
  Proof.
    intros L Z1 S X1 X2. destruct (S (fun b => r b - x1 * RtoC (T j b) - x2 * RtoC (T (j + 1)%Z b))) as (y & Hy). exists (put (put y (j + 1) x2) j x1).
    split; [apply put_same|]. split; [rewrite put_other, put_same by lia; reflexivity|].
    intros b Hb. rewrite act_one, act_one by lia. replace (j + 1 + 1)%Z with (j + 2)%Z by lia. rewrite put_same. rewrite (put_other _ j _ (j + 1)), put_same by lia.
    rewrite (act_ext (j + 2) _ y) by (intros; rewrite !put_other by lia; reflexivity).
    destruct (Z.eq_dec b j) as [->|Nb]; [|destruct (Z.eq_dec b (j + 1)) as [->|Nb2]].
    - rewrite put_same, act_zero by (intros; apply Z1; lia). rewrite Cplus_0_r, X1. reflexivity.
    - rewrite put_other, put_same by lia. rewrite act_zero by (intros; apply Z1; lia). rewrite Cplus_0_r, X2. reflexivity.
    - rewrite !put_other by assumption. rewrite Hy by lia. ring.
  Qed.

  Definition det2 (lam : C) (j : Z) : C :=
    (RtoC (T j j) - lam) * (RtoC (T (j + 1)%Z (j + 1)%Z) - lam) - RtoC (T j (j + 1)%Z) * RtoC (T (j + 1)%Z j).
  Lemma step_one lam j : (j <= ihi)%Z -> (forall a, (j < a <= ihi)%Z -> T a j = 0%R) -> eigvec lam (j + 1) \/ solvable lam (j + 1) ->
    (eigvec lam j \/ solvable lam j) /\ (RtoC (T j j) = lam -> eigvec lam j).
  Proof.
    intros L Z1 P.
    assert (S : RtoC (T j j) = lam -> eigvec lam j).
    { intros E. destruct P as [P|P]; [apply lift_one; assumption|].
      destruct (fill_one lam j (RtoC 1) (fun _ => RtoC 0) L Z1 P) as (y & Y1 & Y2); [rewrite E; ring|].
      exists y. split; [exists j; split; [lia|rewrite Y1; apply C_one_nz]|]. intros b Hb. rewrite Y2 by assumption. ring. }
    split; [|exact S]. destruct P as [P|P]; [left; apply lift_one; assumption|].
    destruct (C_dec (RtoC (T j j)) lam) as [E|NE]; [left; apply S; exact E|right].
    intros r. destruct (fill_one lam j (r j / (RtoC (T j j) - lam)) r L Z1 P) as (y & _ & Y2); [|exists y; exact Y2].
    field. intros X. apply NE. replace (RtoC (T j j)) with (RtoC (T j j) - lam + lam) by ring. rewrite X. ring.
  Qed.
  Lemma Cmult_zero (x y : C) : x * y = RtoC 0 -> x = RtoC 0 \/ y = RtoC 0.
  Proof.
    intros E. destruct (C_dec x (RtoC 0)) as [|Nx]; [left; assumption|right]. replace y with (/ x * (x * y)) by (field; exact Nx). rewrite E. ring.
  Qed.
  Lemma step_two lam j : (j + 1 <= ihi)%Z -> (forall a b, (j + 1 < a <= ihi)%Z -> (j <= b <= j + 1)%Z -> T a b = 0%R) -> eigvec lam (j + 2) \/ solvable lam (j + 2) ->
    (eigvec lam j \/ solvable lam j) /\ (det2 lam j = RtoC 0 -> eigvec lam j).
  Proof.
    intros L Z1 P. unfold det2. set (a := RtoC (T j j)). set (b := RtoC (T j (j + 1)%Z)). set (c := RtoC (T (j + 1)%Z j)). set (d := RtoC (T (j + 1)%Z (j + 1)%Z)).
    assert (S : (a - lam) * (d - lam) - b * c = RtoC 0 -> eigvec lam j).
    { intros E. destruct P as [P|P]; [apply lift_two; assumption|].
      assert (V : forall x1 x2, x1 <> RtoC 0 \/ x2 <> RtoC 0 -> x1 * a + x2 * c = lam * x1 -> x1 * b + x2 * d = lam * x2 -> eigvec lam j).
      { intros x1 x2 NZ E1 E2. destruct (fill_two lam j x1 x2 (fun _ => RtoC 0) L Z1 P) as (y & Y1 & Y2 & Y3); [fold a c; rewrite E1; ring|fold b d; rewrite E2; ring|].
        exists y. split.
        - destruct NZ as [NZ|NZ]; [exists j; split; [lia|rewrite Y1; exact NZ]|exists (j + 1)%Z; split; [lia|rewrite Y2; exact NZ]].
        - intros k Hk. rewrite Y3 by assumption. ring. }
      destruct (C_dec c (RtoC 0)) as [Ec|Nc].
      - destruct (C_dec (a - lam) (RtoC 0)) as [Ea|Na].
        + assert (Ea' : a = lam) by (replace a with (a - lam + lam) by ring; rewrite Ea; ring).
          destruct (C_dec (a - d) (RtoC 0)) as [Ed|Nd].
          * destruct (C_dec b (RtoC 0)) as [Eb|Nb].
            -- apply (V (RtoC 1) (RtoC 0)); [left; apply C_one_nz|rewrite Ea'; ring|rewrite Eb; ring].
            -- apply (V (a - d) b); [right; exact Nb|rewrite Ec, Ea'; ring|rewrite Ea'; ring].
          * apply (V (a - d) b); [left; exact Nd|rewrite Ec, Ea'; ring|rewrite Ea'; ring].
        + apply (V c (lam - a)); [right|ring|].
          * intros X. apply Na. replace (a - lam) with (- (lam - a)) by ring. rewrite X. ring.
          * replace (c * b + (lam - a) * d) with (lam * (lam - a) - ((a - lam) * (d - lam) - b * c)) by ring. rewrite E. ring.
      - apply (V c (lam - a)); [left; exact Nc|ring|].
        replace (c * b + (lam - a) * d) with (lam * (lam - a) - ((a - lam) * (d - lam) - b * c)) by ring. rewrite E. ring. }
    split; [|exact S]. destruct P as [P|P]; [left; apply lift_two; assumption|].
    destruct (C_dec ((a - lam) * (d - lam) - b * c) (RtoC 0)) as [E|NE]; [left; apply S; exact E|right].
    intros r. set (dt := (a - lam) * (d - lam) - b * c) in *.
    destruct (fill_two lam j ((r j * (d - lam) - c * r (j + 1)%Z) / dt) (((a - lam) * r (j + 1)%Z - b * r j) / dt) r L Z1 P) as (y & _ & _ & Y3); [| |exists y; exact Y3];
      fold a b c d; unfold dt; field; exact NE.
  Qed.

  Lemma qs_couple wr wi j : quasi_schur ilo ihi T wr wi j -> (ilo < j <= ihi)%Z -> T j (j - 1)%Z = 0%R.
  Proof. intros QS L. inversion QS; subst; try lia; match goal with H : (_ -> _ = 0%R) |- _ => apply H; lia end. Qed.
  Lemma qs_le wr wi j : quasi_schur ilo ihi T wr wi j -> (j <= ihi + 1)%Z.
  Proof. induction 1; lia. Qed.
  (** rows from j on are zero to the left of column j *)
  Lemma qs_left wr wi j a b : quasi_schur ilo ihi T wr wi j -> (ilo <= b < j)%Z -> (j <= a <= ihi)%Z -> T a b = 0%R.
  Proof.
    intros QS Hb Ha. destruct (Z_lt_le_dec (b + 1) a) as [C|C]; [apply HE; lia|]. assert (a = j) as -> by lia. assert (b = (j - 1)%Z) as -> by lia.
    eapply qs_couple; [exact QS|lia].
  Qed.

  Lemma qs_solve wr wi lam j : quasi_schur ilo ihi T wr wi j -> (ilo <= j)%Z -> eigvec lam j \/ solvable lam j.
  Proof.
    induction 1 as [|j H1 H2 H3 H4 H5 IH|j s H1 H2 H3 H4 H5 H6 H7 bc H8 H9 IH]; intros Lj.
    - right. intros r. exists (fun _ => RtoC 0). intros b Hb. lia.
    - apply step_one; [lia| |apply IH; lia]. intros a Ha. eapply qs_left; [exact H5|lia|lia].
    - apply step_two; [lia| |apply IH; lia]. intros a b Ha Hb. eapply qs_left; [exact H9|lia|lia].
  Qed.

  Notation uneven j k := (uneven_block j ihi T k).
  Lemma qs_eig wr wi j : quasi_schur ilo ihi T wr wi j -> (ilo <= j)%Z -> forall k, (j <= k <= ihi)%Z ->
    exists lr li, elem wr k = Some (Fin lr) /\ elem wi k = Some (Fin li) /\ (eigvec (lr, li) j \/ uneven j k).
  Proof.
    induction 1 as [|j H1 H2 H3 H4 H5 IH|j s H1 H2 H3 H4 H5 H6 H7 bc H8 H9 IH]; intros Lj k Hk; [lia| |].
    - assert (Z1 : forall a, (j < a <= ihi)%Z -> T a j = 0%R) by (intros a Ha; eapply qs_left; [exact H5|lia|lia]).
      destruct (Z.eq_dec k j) as [->|Nk].
      + do 2 eexists. split; [exact H3|]. split; [exact H4|]. left. apply step_one; [lia|exact Z1|eapply qs_solve; [exact H5|lia]|reflexivity].
      + destruct (IH ltac:(lia) k ltac:(lia)) as (lr & li & E1 & E2 & E3). exists lr, li. split; [exact E1|]. split; [exact E2|].
        destruct E3 as [E3|(p & P1 & P2)]; [left; apply lift_one; [lia|exact Z1|exact E3]|right; exists p; split; [lia|exact P2]].
    - assert (Z1 : forall a b, (j + 1 < a <= ihi)%Z -> (j <= b <= j + 1)%Z -> T a b = 0%R) by (intros a b Ha Hb; eapply qs_left; [exact H9|lia|lia]).
      pose proof (qs_solve _ _ (T j j, s) _ H9 ltac:(lia)) as S1. pose proof (qs_solve _ _ (T (j + 1)%Z (j + 1)%Z, - s)%R _ H9 ltac:(lia)) as S2.
      destruct (Z.eq_dec k j) as [->|Nk]; [|destruct (Z.eq_dec k (j + 1)) as [->|Nk2]].
      + do 2 eexists. split; [exact H4|]. split; [exact H6|].
        destruct H8 as [[C0 S0]|(C0 & S0 & A0)].
        * left. apply (step_two _ j H2 Z1 S1). unfold det2. rewrite C0, S0. apply injective_projections; cbn; ring.
        * destruct (Req_dec (T j j) (T (j + 1)%Z (j + 1)%Z)) as [EQ|NE].
          -- left. apply (step_two _ j H2 Z1 S1). unfold det2. rewrite <- EQ. apply injective_projections; cbn; [|ring].
             assert (SS : (s * s = - bc)%R) by (rewrite S0; apply sqrt_sqrt; lra). unfold bc in SS. lra.
          -- right. exists j. split; [lia|]. split; [lia|]. split; [auto|]. split; [exact C0|]. split; [apply Rabs_pos_lt; lra|exact A0].
      + do 2 eexists. split; [exact H5|]. split; [exact H7|].
        destruct H8 as [[C0 S0]|(C0 & S0 & A0)].
        * left. apply (step_two _ j H2 Z1 S2). unfold det2. rewrite C0, S0. apply injective_projections; cbn; ring.
        * destruct (Req_dec (T j j) (T (j + 1)%Z (j + 1)%Z)) as [EQ|NE].
          -- left. apply (step_two _ j H2 Z1 S2). unfold det2. rewrite <- EQ. apply injective_projections; cbn; [|ring].
             assert (SS : (s * s = - bc)%R) by (rewrite S0; apply sqrt_sqrt; lra). unfold bc in SS. lra.
          -- right. exists j. split; [lia|]. split; [lia|]. split; [auto|]. split; [exact C0|]. split; [apply Rabs_pos_lt; lra|exact A0].
      + destruct (IH ltac:(lia) k ltac:(lia)) as (lr & li & E1 & E2 & E3). exists lr, li. split; [exact E1|]. split; [exact E2|].
        destruct E3 as [E3|(p & P1 & P2)]; [left; apply lift_two; [lia|exact Z1|exact E3]|right; exists p; split; [lia|exact P2]].
  Qed.

  Lemma eigvec_up wr wi lam j : quasi_schur ilo ihi T wr wi j -> (ilo <= j)%Z -> eigvec lam j -> eigenvalue_of ilo ihi T lam.
  Proof.
    intros QS Lj (y & (a & Ha & Na) & Hy).
    exists (fun k => if (k <? j)%Z then 0%R else fst (y k)), (fun k => if (k <? j)%Z then 0%R else snd (y k)). split.
    - exists a. split; [lia|]. destruct (Z.ltb_spec a j); [lia|]. destruct (Req_dec (fst (y a)) 0) as [E1|]; [|left; assumption]. right. intros E2. apply Na. apply injective_projections; assumption.
    - assert (RS : forall (f : C -> R) b, Rsum_range (fun a => (if (a <? j)%Z then 0 else f (y a)) * T a b)%R ilo ihi = Rsum_range (fun a => f (y a) * T a b)%R j ihi).
      { intros f b. destruct (Z_le_gt_dec j ihi) as [J|J]; [|lia]. rewrite (Rsum_range_sub _ ilo ihi j ihi); [|lia|lia|lia|].
        - apply Rsum_range_ext. intros k Hk. destruct (Z.ltb_spec k j); [lia|reflexivity].
        - intros k Hk Nk. destruct (Z.ltb_spec k j); [ring|lia]. }
      intros b Hb. rewrite !RS.
      destruct (Z.ltb_spec b j) as [Lb|Lb].
      + split; rewrite ?Rmult_0_r; rewrite Rsum_range_zero by (intros k Hk; rewrite (qs_left wr wi j k b QS) by lia; ring); ring.
      + pose proof (Hy b ltac:(lia)) as E. unfold act, Csum in E. apply (f_equal (fun c : C => (fst c, snd c))) in E. cbn in E. injection E as E1 E2. split.
        * rewrite <- E1. apply Rsum_range_ext. intros. ring.
        * rewrite (Rplus_comm (fst lam * _)) , (Rplus_comm (snd lam * _)). rewrite <- E2. apply Rsum_range_ext. intros. ring.
  Qed.
End Eig.

Lemma Rsum_nz (f : Z -> R) lo hi : (exists k, (lo <= k <= hi)%Z /\ f k <> 0) \/ (forall k, (lo <= k <= hi)%Z -> f k = 0).
Proof.
  destruct (Z_lt_le_dec hi lo) as [L|L]; [right; intros; lia|].
  replace hi with (lo + Z.of_nat (Z.to_nat (hi - lo)))%Z by lia. generalize (Z.to_nat (hi - lo)). clear L. intros m. induction m as [|m IH].
  - destruct (Req_dec (f lo) 0) as [E|E]; [right|left; exists lo; split; [lia|exact E]]. intros k Hk. replace k with lo by lia. exact E.
  - destruct IH as [(k & Hk & Nk)|IH]; [left; exists k; split; [lia|exact Nk]|].
    destruct (Req_dec (f (lo + Z.of_nat (S m))%Z) 0) as [E|E]; [right|left; eexists; split; [|exact E]; lia].
    intros k Hk. destruct (Z.eq_dec k (lo + Z.of_nat (S m))) as [->|]; [exact E|apply IH; lia].
Qed.

(** similarity *)
Lemma eigenvalue_similar lo hi B T Q l : orthogonal lo hi Q -> (forall i j, (lo <= i <= hi)%Z -> (lo <= j <= hi)%Z -> T i j = conj_by lo hi Q B i j) ->
  eigenvalue_of lo hi T l -> eigenvalue_of lo hi B l.
Proof.
  intros OQ ET (u & v & (a & Ha & Na) & HT).
  pose (row := fun (u : Z -> R) (_ : Z) (b : Z) => u b).
  pose (up := fun u : Z -> R => fun b => mmul lo hi (row u) (mtr Q) 0%Z b).
  assert (BACK : forall u b, (lo <= b <= hi)%Z -> Rsum_range (fun k => up u k * Q k b) lo hi = u b).
  { intros w b Hb. change (mmul lo hi (mmul lo hi (row w) (mtr Q)) Q 0%Z b = w b). rewrite mm_assoc.
    rewrite (mm_ext lo hi _ (row w) _ Rid) by (reflexivity || (intros; apply OQ; assumption)). rewrite mm_id_r by assumption. reflexivity. }
  assert (ACT : forall w b, (lo <= b <= hi)%Z -> Rsum_range (fun k => up w k * B k b) lo hi = Rsum_range (fun k => Rsum_range (fun a => w a * T a k) lo hi * Q b k) lo hi).
  { intros w b Hb.
    transitivity (mmul lo hi (mmul lo hi (row w) T) (mtr Q) 0%Z b); [|reflexivity].
    transitivity (mmul lo hi (mmul lo hi (row w) (mmul lo hi (mtr Q) (mmul lo hi B Q))) (mtr Q) 0%Z b).
    2:{ apply mm_ext; [|reflexivity]. intros k Hk. apply mm_ext; [reflexivity|]. intros m Hm. symmetry. apply ET; assumption. }
    transitivity (mmul lo hi (mmul lo hi (row w) (mtr Q)) B 0%Z b); [reflexivity|].
    transitivity (mmul lo hi (mmul lo hi (row w) (mtr Q)) (mmul lo hi B (mmul lo hi Q (mtr Q))) 0%Z b).
    { apply mm_ext; [reflexivity|]. intros k Hk. rewrite (mm_ext lo hi B B _ Rid) by (reflexivity || (intros; apply OQ; assumption)). rewrite mm_id_r by assumption. reflexivity. }
    rewrite mm_assoc.
    transitivity (mmul lo hi (row w) (mmul lo hi (mtr Q) (mmul lo hi (mmul lo hi B Q) (mtr Q))) 0%Z b).
    { apply mm_ext; [reflexivity|]. intros k Hk. apply mm_ext; [reflexivity|]. intros m Hm. symmetry. apply mm_assoc. }
    rewrite mm_assoc. apply mm_ext; [reflexivity|]. intros k Hk. symmetry. apply mm_assoc. }
  assert (LIN : forall x y w t b, Rsum_range (fun k => (x * w k + y * t k) * Q b k) lo hi = x * up w b + y * up t b).
  { intros x y w t b. unfold up, mmul, row, mtr. rewrite <- !Rsum_range_scal, <- Rsum_range_plus. apply Rsum_range_ext. intros. ring. }
  exists (up u), (up v). split.
  - assert (NZ : forall w, w a <> 0 -> exists k, (lo <= k <= hi)%Z /\ up w k <> 0).
    { intros w Nw. destruct (Rsum_nz (fun k => up w k) lo hi) as [X|X]; [exact X|]. exfalso. apply Nw. rewrite <- BACK by assumption.
      apply Rsum_range_zero. intros k Hk. rewrite X by assumption. ring. }
    destruct Na as [Na|Na]; destruct (NZ _ Na) as (k & Hk & Nk); exists k; auto.
  - intros b Hb. rewrite !ACT by assumption. split.
    + rewrite (Rsum_range_ext _ (fun k => (fst l * u k + - snd l * v k) * Q b k)); [rewrite LIN; ring|]. intros k Hk. destruct (HT k Hk) as [-> _]. ring.
    + rewrite (Rsum_range_ext _ (fun k => (fst l * v k + snd l * u k) * Q b k)); [rewrite LIN; ring|]. intros k Hk. destruct (HT k Hk) as [_ ->]. ring.
Qed.
