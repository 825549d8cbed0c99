(** dnrm2: the loop as an induction over the elements visited, and its value in exact arithmetic. *)
From Flocq Require Import Core.
From Coq Require Import Reals Lra.
From Verif Require Import Base Num Array Blas Spec SpecR ER Lists FaLemmas Blas1Proofs Blas1Real RsumLemmas.
Open Scope Z_scope.

Section Loop.
  Context {F : Type} {NF : Num F}.

  (** induction over the elements visited *)
  Lemma dnrm2_loop (P : Z -> nrm_acc -> Prop) n (x : fa F) incx : 1 <= n ->
    P 0 (mkAcc true f0 f0 f0) ->
    (forall t a, 0 <= t < n -> P t a -> P (t + 1) (nrm_step (get1 x (stride n incx t)) a)) ->
    exists a, P n a /\ dnrm2_fa n x incx = nrm_finish a.
  Proof.
    intros Hn H0 HS. unfold dnrm2_fa. destruct (Z.leb_spec n 0); [lia|].
    set (ix0 := if incx <? 0 then _ else _).
    assert (E0 : ix0 = stride n incx 0) by (unfold ix0, stride; destruct (incx <? 0); lia).
    assert (L : let s := for_ (range 1 n) (ix0, mkAcc true f0 f0 f0)
      (fun _ '(ix, a) => ((ix + incx)%Z, nrm_step (get1 x ix) a)) in fst s = stride n incx (n + 1 - 1) /\ P (n + 1 - 1) (snd s)).
    { cbv zeta. apply (for_range_ind (fun i s => fst s = stride n incx (i - 1) /\ P (i - 1) (snd s)) 1 n); [lia|split; assumption|].
      intros i [ix a] Hi [Ei Pi]. cbn [fst snd] in *. subst ix. rewrite stride_step.
      replace (i + 1 - 1) with (i - 1 + 1) by lia. split; [reflexivity|]. apply HS; [lia|assumption]. }
    cbv zeta in L. destruct (for_ _ _ _) as [ix a]. destruct L as [_ L]. cbn [snd] in L.
    replace (n + 1 - 1) with n in L by lia. exists a. split; [exact L|reflexivity].
  Qed.
  Lemma dnrm2_empty n (x : fa F) incx : n <= 0 -> dnrm2_fa n x incx = f0.
  Proof. intros H. unfold dnrm2_fa. destruct (Z.leb_spec n 0); [reflexivity|lia]. Qed.
End Loop.

Open Scope R_scope.
Definition tsml : R := / 2 ^ 511.
Definition tbig : R := 2 ^ 505.
Definition ssml : R := 2 ^ 518.
Definition sbig : R := / 2 ^ 519.
Lemma Rpower_nat n : Rpower 2 (INR n) = 2 ^ n.
Proof. apply Rpower_pow. lra. Qed.
Lemma er_tsml : nrm_tsml = Fin tsml.
Proof.
  unfold nrm_tsml, tsml. rewrite !er_fofZ, er_f1, er_fhalf, er_subE, er_mulE, er_powE by lra. f_equal.
  rewrite <- (Rpower_nat 511), <- Rpower_Ropp. f_equal. rewrite INR_IZR_INZ. cbn. lra.
Qed.
Lemma er_tbig : nrm_tbig = Fin tbig.
Proof.
  unfold nrm_tbig, tbig. rewrite !er_fofZ, er_f1, er_fhalf, er_subE, er_addE, er_mulE, er_powE by lra. f_equal.
  rewrite <- (Rpower_nat 505). f_equal. rewrite INR_IZR_INZ. cbn. lra.
Qed.
Lemma er_ssml : nrm_ssml = Fin ssml.
Proof.
  unfold nrm_ssml, ssml. rewrite !er_fofZ, er_fhalf, er_subE, er_negE, er_mulE, er_powE by lra. f_equal.
  rewrite <- (Rpower_nat 518). f_equal. rewrite INR_IZR_INZ. cbn. lra.
Qed.
Lemma er_sbig : nrm_sbig = Fin sbig.
Proof.
  unfold nrm_sbig, sbig. rewrite !er_fofZ, er_f1, er_fhalf, er_addE, er_subE, er_negE, er_mulE, er_powE by lra. f_equal.
  rewrite <- (Rpower_nat 519), <- Rpower_Ropp. f_equal. rewrite INR_IZR_INZ. cbn. lra.
Qed.
Lemma tsml_pos : 0 < tsml. Proof. apply Rinv_0_lt_compat, pow_lt; lra. Qed.
Lemma tbig_pos : 0 < tbig. Proof. apply pow_lt; lra. Qed.
Lemma ssml_pos : 0 < ssml. Proof. apply pow_lt; lra. Qed.
Lemma sbig_pos : 0 < sbig. Proof. apply Rinv_0_lt_compat, pow_lt; lra. Qed.
Lemma tsml_tbig : tsml < tbig.
Proof.
  apply Rlt_trans with 1.
  - unfold tsml. rewrite <- Rinv_1. apply Rinv_lt_contravar; [rewrite Rmult_1_l; apply pow_lt; lra|]. apply Rlt_pow_R1; [lra|lia].
  - unfold tbig. apply Rlt_pow_R1; [lra|lia].
Qed.
#[local] Opaque tsml tbig ssml sbig.

Section Exact.
  Variable v : Z -> R.
  Definition is_big t := Rlt_bool tbig (Rabs (v t)).
  Definition is_small t := Rlt_bool (Rabs (v t)) tsml.
  Definition bg t := if is_big t then v t * v t else 0.
  Definition sm t := if is_small t then v t * v t else 0.
  Definition md t := if is_big t then 0 else if is_small t then 0 else v t * v t.

  Lemma classes t : bg t + sm t + md t = v t * v t.
  Proof.
    unfold bg, sm, md. destruct (is_big t) eqn:B, (is_small t) eqn:S; try lra.
    exfalso. unfold is_big, is_small in *. revert B S. pose proof tsml_tbig.
    case Rlt_bool_spec; [|discriminate]. intros. revert S. case Rlt_bool_spec; [|discriminate]. lra.
  Qed.
  Lemma sq_nonneg t : 0 <= v t * v t. Proof. apply Rle_0_sqr. Qed.
  Lemma bg_nonneg t : 0 <= bg t. Proof. unfold bg. pose proof (sq_nonneg t). destruct (is_big t); lra. Qed.
  Lemma sm_nonneg t : 0 <= sm t. Proof. unfold sm. pose proof (sq_nonneg t). destruct (is_small t); lra. Qed.
  Lemma md_nonneg t : 0 <= md t. Proof. unfold md. pose proof (sq_nonneg t). destruct (is_big t), (is_small t); lra. Qed.
  Lemma bg_pos t : is_big t = true -> 0 < bg t.
  Proof.
    intros H. unfold bg. rewrite H. unfold is_big in H. revert H. case Rlt_bool_spec; [|discriminate]. intros L _.
    pose proof tbig_pos. rewrite <- Rabs_mult_sqr || idtac. assert (v t <> 0). { intros E. rewrite E, Rabs_R0 in L. lra. }
    pose proof (Rsqr_pos_lt _ H0) as P. unfold Rsqr in P. exact P.
  Qed.

  Let S f k := Rsum_range f 0 (k - 1).
  Lemma S_step f t : (0 <= t)%Z -> S f (t + 1) = S f t + f t.
  Proof. intros H. unfold S. replace (t + 1 - 1)%Z with t by lia. apply Rsum_range_snoc. assumption. Qed.
  Lemma S_nonneg f k : (forall t, 0 <= f t) -> 0 <= S f k.
  Proof. intros H. apply Rsum_range_nonneg. auto. Qed.

  Definition acc_is (k : Z) (a : @nrm_acc er) : Prop :=
    amed a = Fin (S md k) /\ abig a = Fin (sbig * sbig * S bg k) /\
    (exists s, asml a = Fin (ssml * ssml * s) /\ 0 <= s /\ (notbig a = true -> s = S sm k)) /\
    (if notbig a then forall t, (0 <= t < k)%Z -> is_big t = false else 0 < S bg k).

  Lemma acc_is_step k a : (0 <= k)%Z -> acc_is k a -> acc_is (k + 1) (nrm_step (Fin (v k)) a).
  Proof.
    intros Hk (Em & Eb & (s & Es & Hs & Ns) & Hb). unfold nrm_step. rewrite er_absE, er_tbig, er_tsml, er_sbig, er_ssml, !er_ltE.
    fold (is_big k). fold (is_small k).
    assert (SQ : Rabs (v k) * Rabs (v k) = v k * v k).
    { rewrite <- Rabs_mult. apply Rabs_pos_eq, sq_nonneg. }
    unfold acc_is. rewrite !S_step by assumption.
    assert (C : bg k + sm k + md k = v k * v k) by apply classes.
    destruct (is_big k) eqn:B; [|destruct (is_small k) eqn:SM].
    - assert (Hsm : sm k = 0).
      { unfold sm, is_small. case Rlt_bool_spec; auto. intros. unfold is_big in B. revert B. case Rlt_bool_spec; [|discriminate].
        pose proof tsml_tbig. lra. }
      assert (Hmd : md k = 0) by (unfold md; rewrite B; reflexivity).
      cbn [amed abig asml notbig]. rewrite Em, Eb, Es, er_mulE, er_sqE, er_addE.
      split; [f_equal; lra|]. split; [f_equal|split].
      + transitivity (sbig * sbig * S bg k + sbig * sbig * (Rabs (v k) * Rabs (v k))); [ring|]. rewrite SQ. rewrite Hsm, Hmd in C. rewrite <- C. ring.
      + exists s. split; [reflexivity|]. split; [assumption|discriminate].
      + pose proof (bg_pos k B). pose proof (S_nonneg bg k bg_nonneg). lra.
    - assert (Hbg : bg k = 0) by (unfold bg; rewrite B; reflexivity).
      assert (Hmd : md k = 0) by (unfold md; rewrite B, SM; reflexivity).
      destruct (notbig a) eqn:NB.
      + cbn [amed abig asml notbig]. rewrite Em, Eb, Es, er_mulE, er_sqE, er_addE. rewrite Hbg, Hmd, !Rplus_0_r.
        split; [reflexivity|]. split; [reflexivity|]. split.
        * exists (s + sm k). rewrite (Ns eq_refl) in *. pose proof (sm_nonneg k). split; [f_equal|split; [lra|reflexivity]].
          transitivity (ssml * ssml * S sm k + ssml * ssml * (Rabs (v k) * Rabs (v k))); [ring|]. rewrite SQ, Hbg, Hmd in *. rewrite <- C. ring.
        * intros t Ht. destruct (Z.eq_dec t k) as [->|]; [assumption|]. apply Hb. lia.
      + rewrite Em, Eb, Es, NB. rewrite Hbg, Hmd, !Rplus_0_r. split; [reflexivity|]. split; [reflexivity|]. split; [|assumption].
        exists s. split; [reflexivity|]. split; [assumption|discriminate].
    - assert (Hbg : bg k = 0) by (unfold bg; rewrite B; reflexivity).
      assert (Hsm : sm k = 0) by (unfold sm; rewrite SM; reflexivity).
      cbn [amed abig asml notbig]. rewrite Em, Eb, Es, er_sqE, er_addE. rewrite Hbg, Hsm, !Rplus_0_r.
      split; [f_equal; lra|]. split; [reflexivity|]. split; [exists s; auto|].
      destruct (notbig a); [|assumption]. intros t Ht. destruct (Z.eq_dec t k) as [->|]; [assumption|]. apply Hb. lia.
  Qed.

  Lemma sqrt_scaled c s : 0 < c -> 0 <= s -> sqrt (c * c * s) = c * sqrt s.
  Proof. intros Hc Hs. rewrite sqrt_mult, sqrt_square by nra. reflexivity. Qed.

  Lemma finish_exact k a : acc_is k a ->
    nrm_finish a = Fin (sqrt (if notbig a then S sm k + S md k else S bg k + S md k)).
  Proof.
    intros (Em & Eb & (s & Es & Hs & Ns) & Hb). unfold nrm_finish. rewrite Em, Eb, Es.
    rewrite er_f0, er_f1, er_sbig, er_ssml, er_neE, Req_bool_true, !er_ltE by reflexivity. cbn [negb]. rewrite orb_false_r.
    pose proof (S_nonneg bg k bg_nonneg) as B0. pose proof (S_nonneg md k md_nonneg) as M0. pose proof sbig_pos as P1. pose proof ssml_pos as P2.
    assert (MC : (Rlt_bool 0 (S md k) || flt fMAX (Fin (S md k)))%bool = Rlt_bool 0 (S md k)).
    { case Rlt_bool_spec; auto. intros H. cbn [orb]. rewrite er_fmax, er_ltE. apply Rlt_bool_false.
      eapply Rle_trans; [exact H|]. apply Rmult_le_pos; [apply IZR_le; lia|apply powerRZ_le; lra] || idtac.
      all: try (cbn; lra). }
    rewrite MC. clear MC.
    assert (SB : 0 < sbig * sbig) by nra. assert (SS : 0 < ssml * ssml) by nra.
    case (Rlt_bool_spec 0 (sbig * sbig * S bg k)); intros HB.
    - assert (0 < S bg k) by nra.
      assert (NB : notbig a = false).
      { destruct (notbig a); auto. exfalso. assert (S bg k = 0); [|lra]. apply Rsum_range_zero. intros t Ht. unfold bg. rewrite Hb; [reflexivity|lia]. }
      rewrite NB.
      assert (E : (if Rlt_bool 0 (S md k) then fadd (Fin (sbig * sbig * S bg k)) (fmul (fmul (Fin (S md k)) (Fin sbig)) (Fin sbig)) else Fin (sbig * sbig * S bg k))
        = Fin (sbig * sbig * (S bg k + S md k))).
      { case Rlt_bool_spec; intros; rewrite ?er_mulE, ?er_addE; f_equal; [ring|]. replace (S md k) with 0 by lra. ring. }
      rewrite E, er_divE, er_sqrtE, er_mulE, sqrt_scaled by (try apply Rmult_le_pos; lra). f_equal. field. lra.
    - assert (Z : S bg k = 0) by nra.
      assert (NB : notbig a = true) by (destruct (notbig a); auto; lra). rewrite NB in *.
      specialize (Ns eq_refl). subst s. rename Hs into S0.
      case (Rlt_bool_spec 0 (ssml * ssml * S sm k)); intros HS.
      + assert (0 < S sm k) by nra.
        case (Rlt_bool_spec 0 (S md k)); intros HM.
        * rewrite !er_sqrtE, er_divE by nra. rewrite sqrt_scaled by lra.
          replace (ssml * sqrt (S sm k) / ssml) with (sqrt (S sm k)) by (field; lra).
          rewrite er_ltE.
          assert (Q1 : 0 < sqrt (S sm k)) by (apply sqrt_lt_R0; lra). assert (Q2 : 0 < sqrt (S md k)) by (apply sqrt_lt_R0; lra).
          assert (Q3 : sqrt (S sm k) * sqrt (S sm k) = S sm k) by (apply sqrt_sqrt; lra).
          assert (Q4 : sqrt (S md k) * sqrt (S md k) = S md k) by (apply sqrt_sqrt; lra).
          assert (G : forall a b, 0 < a -> 0 < b -> fmul (Fin 1) (fsqrt (fmul (fpowf (Fin b) f2) (fadd (Fin 1) (fpowf (fdiv (Fin a) (Fin b)) f2))))
            = Fin (sqrt (a * a + b * b))).
          { intros a' b' Ha' Hb'. rewrite er_divE by lra. rewrite !er_sqE, er_addE, er_mulE.
            replace (b' * b' * (1 + a' / b' * (a' / b'))) with (a' * a' + b' * b') by (field; lra).
            rewrite er_sqrtE, er_mulE by nra. f_equal. ring. }
          case Rlt_bool_spec; intros; rewrite G by assumption; rewrite Q3, Q4; do 2 f_equal; ring.
        * rewrite er_divE, er_sqrtE, er_mulE, sqrt_scaled by lra. f_equal.
          replace (S md k) with 0 by lra. rewrite Rplus_0_r. field. lra.
      + rewrite er_sqrtE, er_mulE by lra. f_equal. replace (S sm k) with 0 by nra. rewrite Rplus_0_l, Rmult_1_l. reflexivity.
  Qed.

  (** what dnrm2 returns in exact arithmetic *)
  Lemma dnrm2_value n (x : fa er) incx : (0 <= n)%Z -> vec_is x n incx v ->
    exists nb : bool, dnrm2_fa n x incx = Fin (sqrt (if nb then S (fun t => v t * v t) n else S (fun t => if is_small t then 0 else v t * v t) n)) /\
      (if nb then forall t, (0 <= t < n)%Z -> Rabs (v t) <= tbig else exists t, (0 <= t < n)%Z /\ tbig < Rabs (v t)).
  Proof.
    intros Hn V. destruct (Z.eq_dec n 0) as [->|].
    { exists true. rewrite dnrm2_empty by lia. unfold S. rewrite Rsum_range_nil, sqrt_0, er_f0 by lia. split; [reflexivity|]. lia. }
    destruct (dnrm2_loop acc_is n x incx) as (a & A & E); [lia| | |].
    - unfold acc_is, S. cbn [amed abig asml notbig]. rewrite er_f0, !Rsum_range_nil by lia.
      split; [reflexivity|]. split; [f_equal; ring|]. split; [|intros; lia].
      exists 0. split; [f_equal; ring|]. split; [lra|reflexivity].
    - intros t a Ht A. rewrite (vec_is_get1 x n incx v t V Ht). apply acc_is_step; [lia|assumption].
    - exists (notbig a). rewrite E, (finish_exact n a A). destruct A as (_ & _ & _ & Hb). destruct (notbig a).
      + split.
        * do 2 f_equal. unfold S. rewrite <- Rsum_range_plus. apply Rsum_range_ext. intros t Ht. rewrite <- (classes t).
          unfold bg. rewrite Hb by lia. ring.
        * intros t Ht. specialize (Hb t Ht). unfold is_big in Hb. revert Hb. case Rlt_bool_spec; [discriminate|auto].
      + split.
        * do 2 f_equal. unfold S. rewrite <- Rsum_range_plus. apply Rsum_range_ext. intros t Ht.
          pose proof (classes t) as C. unfold sm in C. destruct (is_small t); lra.
        * assert (D : (forall t, (0 <= t < n)%Z -> is_big t = false) \/ exists t, (0 <= t < n)%Z /\ is_big t = true).
          { clear. assert (G : forall k, (forall t, (0 <= t < Z.of_nat k)%Z -> is_big t = false) \/ exists t, (0 <= t < Z.of_nat k)%Z /\ is_big t = true).
            { induction k as [|k [IH|(t & Ht & B)]]; [left; intros; lia| |right; exists t; split; [lia|assumption]].
              destruct (is_big (Z.of_nat k)) eqn:B; [right; exists (Z.of_nat k); split; [lia|assumption]|].
              left. intros t Ht. destruct (Z.eq_dec t (Z.of_nat k)) as [->|]; [assumption|]. apply IH. lia. }
            destruct (Z.le_gt_cases 0 n); [specialize (G (Z.to_nat n)); rewrite Z2Nat.id in G by assumption; exact G|left; intros; lia]. }
          destruct D as [D|(t & Ht & B)].
          -- exfalso. assert (Z : S bg n = 0); [|lra]. apply Rsum_range_zero. intros t Ht. unfold bg. rewrite D by lia. reflexivity.
          -- exists t. split; [assumption|]. unfold is_big in B. revert B. case Rlt_bool_spec; [auto|discriminate].
  Qed.
End Exact.

(** the norm when no element exceeds tbig *)
Lemma dnrm2_exact n (x : fa er) incx v : (0 <= n)%Z -> vec_is x n incx v ->
  (forall t, (0 <= t < n)%Z -> Rabs (v t) <= 2 ^ 505) ->
  dnrm2_fa n x incx = Fin (sqrt (Rsum_range (fun t => v t * v t) 0 (n - 1))).
Proof.
  intros Hn V H. destruct (dnrm2_value v n x incx Hn V) as ([|] & E & B); [exact E|].
  destruct B as (t & Ht & B). specialize (H t Ht). change (2 ^ 505) with tbig in H. lra.
Qed.
(** otherwise elements below tsml do not count *)
Lemma dnrm2_big n (x : fa er) incx v t0 : vec_is x n incx v -> (0 <= t0 < n)%Z -> 2 ^ 505 < Rabs (v t0) ->
  dnrm2_fa n x incx =
    Fin (sqrt (Rsum_range (fun t => if Rlt_bool (Rabs (v t)) (/ 2 ^ 511) then 0 else v t * v t) 0 (n - 1))).
Proof.
  intros V H0 H. destruct (dnrm2_value v n x incx ltac:(lia) V) as ([|] & E & B); [|exact E].
  specialize (B t0 H0). change (2 ^ 505) with tbig in H. lra.
Qed.
(** so the square of the result is at most n 2^-1022 below the sum of squares *)
Lemma dnrm2_error n (x : fa er) incx v : (0 <= n)%Z -> vec_is x n incx v ->
  exists r, dnrm2_fa n x incx = Fin r /\ 0 <= r /\
    r * r <= Rsum_range (fun t => v t * v t) 0 (n - 1) <= r * r + IZR n * / 2 ^ 1022.
Proof.
  intros Hn V. destruct (dnrm2_value v n x incx Hn V) as (nb & -> & B). eexists. split; [reflexivity|]. split; [apply sqrt_pos|].
  assert (T2 : tsml * tsml = / 2 ^ 1022).
  { change tsml with (/ 2 ^ 511). rewrite <- Rinv_mult, <- pow_add. reflexivity. }
  pose proof tsml_pos as TP.
  assert (N0 : 0 <= IZR n * / 2 ^ 1022) by (rewrite <- T2; apply Rmult_le_pos; [apply IZR_le; lia|nra]).
  rewrite sqrt_sqrt.
  2:{ destruct nb; apply Rsum_range_nonneg; intros i _; [apply Rle_0_sqr|destruct (is_small v i); [lra|apply Rle_0_sqr]]. }
  destruct nb; [lra|]. split.
  - apply Rsum_range_le. intros t Ht. pose proof (sq_nonneg v t). destruct (is_small v t); lra.
  - replace (IZR n * / 2 ^ 1022) with (Rsum_range (fun _ => / 2 ^ 1022) 0 (n - 1)).
    2:{ rewrite Rsum_range_const by lia. do 2 f_equal. lia. }
    rewrite <- Rsum_range_plus. apply Rsum_range_le. intros t Ht. rewrite <- T2. unfold is_small. case Rlt_bool_spec; intros H.
    + rewrite Rplus_0_l. pose proof (Rabs_pos (v t)).
      replace (v t * v t) with (Rabs (v t) * Rabs (v t)); [nra|]. rewrite <- Rabs_mult. apply Rabs_pos_eq, Rle_0_sqr.
    + nra.
Qed.
(** the tiny elements are really dropped *)
Lemma dnrm2_drops : dnrm2_fa 2 (mkFA [Fin (2 ^ 600); Fin (/ 2 ^ 600)] 1 2 (Fin 0)) 1 = Fin (2 ^ 600).
Proof.
  assert (P6 : 0 < 2 ^ 600) by (apply pow_lt; lra).
  set (v := fun t => if (t =? 0)%Z then 2 ^ 600 else / 2 ^ 600).
  rewrite (dnrm2_big 2 _ 1 v 0).
  - f_equal. transitivity (sqrt (2 ^ 600 * 2 ^ 600)); [|apply sqrt_square; lra].
    f_equal. unfold Rsum_range. change (Z.to_nat (2 - 1 - 0 + 1)) with 2%nat. cbn [Rsum].
    change (v 0%Z) with (2 ^ 600). change (v (0 + 1)%Z) with (/ 2 ^ 600). rewrite Rlt_bool_false, Rlt_bool_true.
    + ring.
    + rewrite Rabs_pos_eq by (apply Rlt_le, Rinv_0_lt_compat; lra).
      apply Rinv_lt_contravar; [apply Rmult_lt_0_compat; apply pow_lt; lra|]. apply Rlt_pow; [lra|lia].
    + rewrite Rabs_pos_eq by lra. apply Rlt_le. apply Rlt_trans with 1.
      * rewrite <- Rinv_1. apply Rinv_lt_contravar; [rewrite Rmult_1_l; apply pow_lt; lra|]. apply Rlt_pow_R1; [lra|lia].
      * apply Rlt_pow_R1; [lra|lia].
  - intros t Ht. assert (t = 0 \/ t = 1)%Z as [-> | ->] by lia; reflexivity.
  - lia.
  - change (v 0%Z) with (2 ^ 600). rewrite Rabs_pos_eq by lra. apply Rlt_pow; [lra|lia].
Qed.
