(** dnrm2, dlapy2 and dlarfg in binary64 when the signs of the arguments are changed. *)
From Coq Require Import ZArith Lia Bool List Reals.
From Flocq Require Import IEEE754.BinarySingleNaN Core.
From Verif Require Import Base Num Array Blas Lapack Spec Lists FaLemmas Blas1Proofs B64 B64Lemmas SignLaws.
Import ListNotations.
Open Scope Z_scope.

Lemma ok3 {A B C} (a a' : A) (b b' : B) (c c' : C) : Ok (a, b, c) = Ok (a', b', c') -> a = a' /\ b = b' /\ c = c'.
Proof. intros E. injection E as -> -> ->. auto. Qed.

Lemma zero_div (p b : b64) : is_zero p = true -> is_zero (Bdiv mode_NE p b) = false -> is_nan (Bdiv mode_NE p b) = false -> False.
Proof. destruct p; intros Z; try discriminate Z. destruct b; cbn; discriminate. Qed.

Section Sign.
  Variable lm : libm.
  #[local] Instance NBs : Num b64 := B64 lm.

  Lemma nrm_step_abs (x y : b64) a : Babs x = Babs y -> nrm_step x a = nrm_step y a.
  Proof. intros E. unfold nrm_step. change (fabs x) with (Babs x). change (fabs y) with (Babs y). rewrite E. reflexivity. Qed.

  Lemma nrm_loop_abs (fx fy : fa b64) incx : forall l ix a,
    (forall t, 0 <= t < Z.of_nat (length l) -> Babs (get1 fx (ix + t * incx)) = Babs (get1 fy (ix + t * incx))) ->
    for_ l (ix, a) (fun _ '(ix, a) => (ix + incx, nrm_step (get1 fx ix) a)) = for_ l (ix, a) (fun _ '(ix, a) => (ix + incx, nrm_step (get1 fy ix) a)).
  Proof.
    induction l as [|i l IH]; intros ix a H; [reflexivity|]. unfold for_ in *. cbn [fold_left].
    assert (E : nrm_step (get1 fx ix) a = nrm_step (get1 fy ix) a).
    { apply nrm_step_abs. specialize (H 0 ltac:(cbn [length]; lia)). rewrite Z.mul_0_l, Z.add_0_r in H. exact H. }
    rewrite E. apply IH. intros t Ht. specialize (H (t + 1) ltac:(cbn [length]; lia)).
    replace (ix + incx + t * incx) with (ix + (t + 1) * incx) by lia. exact H.
  Qed.

  Lemma dnrm2_abs {X} {TX : ToFA b64 X} {Y} {TY : ToFA b64 Y} n (x : X) (y : Y) incx :
    (forall t, 0 <= t < n -> Babs (get1 (to_fa x) (stride n incx t)) = Babs (get1 (to_fa y) (stride n incx t))) ->
    dnrm2 n x incx = dnrm2 n y incx.
  Proof.
    intros H. unfold dnrm2, dnrm2_fa. destruct (Z.leb_spec n 0) as [|P]; [reflexivity|]. cbv zeta.
    rewrite (nrm_loop_abs (to_fa x) (to_fa y) incx); [reflexivity|].
    intros t Ht. assert (LR : forall k lo st, length (zup lo st k) = k) by (induction k as [|k IH]; intros; cbn [zup length]; [|rewrite IH]; reflexivity). unfold range in Ht. rewrite LR in Ht. specialize (H t ltac:(lia)). unfold stride in H.
    destruct (incx <? 0).
    - replace (1 - (n - 1) * incx + t * incx) with ((1 - n) * incx + 1 + t * incx) by lia. exact H.
    - exact H.
  Qed.

  Lemma nan_abs (x y : b64) : Babs x = Babs y -> is_nan x = is_nan y.
  Proof. destruct x, y; intros E; try discriminate E; reflexivity. Qed.

  Lemma lapy2_abs (x y x' y' : b64) : Babs x = Babs x' -> Babs y = Babs y' -> dlapy2 x y = dlapy2 x' y'.
  Proof.
    intros EX EY. unfold dlapy2. change (fisnan (F := b64)) with (@is_nan 53 1024). change (fabs (F := b64)) with (@Babs 53 1024).
    assert (NX : is_nan x = is_nan x') by (apply nan_abs; exact EX).
    assert (NY : is_nan y = is_nan y') by (apply nan_abs; exact EY).
    rewrite <- NX, <- NY. destruct (is_nan x) eqn:AX.
    - destruct x; try discriminate AX. destruct x'; try discriminate NX. reflexivity.
    - destruct (is_nan y) eqn:AY.
      + destruct y; try discriminate AY. destruct y'; try discriminate NY. reflexivity.
      + rewrite EX, EY. reflexivity.
  Qed.

  (** helper of the proofs, models no code: every element negated *)
  Definition negl (x : list b64) : list b64 := map (fun v : b64 => Bopp v : b64) x.

  Lemma elem_neg x p : elem (fa_of_vec (negl x)) p = option_map (fun v : b64 => Bopp v : b64) (elem (fa_of_vec x) p).
  Proof. unfold elem, fa_of_vec, negl. cbn [data]. destruct (p <? 1); [reflexivity|]. apply nth_error_map. Qed.

  Lemma get1_neg x p : Babs (get1 (fa_of_vec (negl x)) p) = Babs (get1 (fa_of_vec x) p).
  Proof. rewrite !get1_elem, elem_neg. destruct (elem (fa_of_vec x) p); cbn [option_map]; [apply Babs_Bopp|reflexivity]. Qed.

  Lemma dnrm2_neg n (x : list b64) incx : dnrm2 n (negl x) incx = dnrm2 n x incx.
  Proof. apply dnrm2_abs. intros t _. apply get1_neg. Qed.

  Lemma feq_one (s : b64) : Beqb s (b64_dy 1 0) = true -> s = b64_dy 1 0.
  Proof.
    assert (FO : is_finite_strict (b64_dy 1 0) = true) by (vm_compute; reflexivity).
    generalize dependent (b64_dy 1 0). intros o FO E. destruct (is_finite s) eqn:FS.
    - assert (O : is_finite o = true) by (clear -FO; destruct o; try discriminate FO; reflexivity).
      rewrite (Beqb_correct _ _ _ _ FS O) in E. assert (E2 : B2R s = B2R o) by (destruct (Req_bool_spec (B2R s) (B2R o)); [assumption|discriminate E]). clear E; rename E2 into E. apply B2R_inj; [|exact FO|exact E].
      apply strict; [exact FS|]. destruct (is_zero s) eqn:Z; [|reflexivity]. exfalso. apply (strict_val _ FO). rewrite <- E. destruct s; try discriminate Z. reflexivity.
    - destruct s; try discriminate FS; destruct o; try discriminate FO; [destruct s|]; discriminate E.
  Qed.

  (** dscal in f64, the quick return included: 1 * v is v *)
  Lemma dscal_val m (s : b64) (x : list b64) incx : 1 <= m -> 1 <= incx ->
    exists y : list b64, dscal m s x incx = Ok y /\ updated (stride m incx) (fun _ (v : b64) => Bmult mode_NE v s : b64) m (fa_of_vec x) (fa_of_vec y).
  Proof.
    intros Hm Hi. destruct (feq s f1) eqn:E.
    - exists x. split; [apply (proj1 (dscal_spec m s x incx)); auto|]. apply feq_one in E. subst s. split; [repeat split|]. split; [|reflexivity].
      intros t _. match goal with |- context [option_map _ (elem ?f ?p)] => destruct (elem f p) end; [|reflexivity]. cbn [option_map]. rewrite mul_1_r. reflexivity.
    - apply (dscal_vec m s x incx Hm Hi E).
  Qed.

  Lemma vec_ext (x y : list b64) : (forall p, elem (fa_of_vec x) p = elem (fa_of_vec y) p) -> x = y.
  Proof. intros H. apply (elem_ext (fa_of_vec x) (fa_of_vec y)). intros p _. apply H. Qed.

  Lemma on_stride m incx p : (exists t, 0 <= t < m /\ p = stride m incx t) \/ (forall t, 0 <= t < m -> p <> stride m incx t).
  Proof.
    destruct (Z_le_gt_dec m 0) as [L|G]; [right; intros; lia|].
    destruct (in_dec Z.eq_dec p (map (stride m incx) (range 0 (m - 1)))) as [I|I].
    - left. apply in_map_iff in I as (t & <- & T). apply in_range in T. exists t. split; [lia|reflexivity].
    - right. intros t Ht ->. apply I. apply in_map. apply in_range. lia.
  Qed.

  Lemma dscal_neg m (s : b64) (x : list b64) incx : 1 <= m -> 1 <= incx ->
    exists y : list b64, dscal m s x incx = Ok y /\ dscal m s (negl x) incx = Ok (negl y).
  Proof.
    intros Hm Hi. destruct (dscal_val m s x incx Hm Hi) as (y & E & _ & U1 & U2). destruct (dscal_val m s (negl x) incx Hm Hi) as (z & E' & _ & V1 & V2).
    exists y. split; [exact E|]. etransitivity; [exact E'|]. f_equal. apply vec_ext. intros p. rewrite elem_neg. destruct (on_stride m incx p) as [(t & T & ->)|O].
    - rewrite (V1 t T), (U1 t T), elem_neg. match goal with |- context [option_map _ (elem ?f ?p)] => destruct (elem f p) end; [|reflexivity]. cbn [option_map]. rewrite mul_opp_l. reflexivity.
    - rewrite (V2 p O), (U2 p O). apply elem_neg.
  Qed.

  Lemma dscal_neg2 m (s : b64) (x : list b64) incx : 1 <= m -> 1 <= incx ->
    exists y z : list b64, dscal m s x incx = Ok y /\ dscal m (Bopp s : b64) (negl x) incx = Ok z /\
      updated (stride m incx) (fun _ (v : b64) => Bopp v : b64) m (fa_of_vec (negl y)) (fa_of_vec z).
  Proof.
    intros Hm Hi. destruct (dscal_val m s x incx Hm Hi) as (y & E & Y & U1 & U2). destruct (dscal_val m (Bopp s : b64) (negl x) incx Hm Hi) as (z & E' & Z & V1 & V2).
    exists y, z. split; [exact E|]. split; [exact E'|]. split.
    - unfold same_shape, count, fa_of_vec, negl, zlen in *. cbn [rows cols data] in *. rewrite !map_length in *. lia.
    - split.
      + intros t T. rewrite (V1 t T), !elem_neg, (U1 t T). match goal with |- context [option_map _ (elem ?f ?p)] => destruct (elem f p) end; [|reflexivity]. cbn [option_map].
        rewrite mul_opp_l, mul_opp_r. reflexivity.
      + intros p O. rewrite (V2 p O), !elem_neg, (U2 p O). reflexivity.
  Qed.

  Local Notation ng v := (fneg (F := b64) v).

  Lemma signum_neg (a : b64) : fsignum (ng a) = ng (fsignum a).
  Proof.
    change (b64_signum (Bopp a) = Bopp (b64_signum a)). unfold b64_signum. assert (F1 : is_finite_strict (b64_dy 1 0) = true) by (vm_compute; reflexivity).
    generalize dependent (b64_dy 1 0). intros o F1. destruct o; try discriminate F1. destruct a; reflexivity.
  Qed.

  Lemma fmul_neg (x y : b64) : fmul (ng x) y = ng (fmul x y).
  Proof. apply mul_opp_l. Qed.
  Lemma fabs_neg (x : b64) : fabs (ng x) = fabs x.
  Proof. apply Babs_Bopp. Qed.

  Lemma beta_neg (a xn : b64) : larfg_beta (ng a) xn = ng (larfg_beta a xn).
  Proof.
    unfold larfg_beta. rewrite (lapy2_abs (ng a) xn a xn) by (try apply Babs_Bopp; reflexivity). rewrite signum_neg.
    apply mul_opp_l.
  Qed.

  Lemma mul_times_neg k s : forall b : b64, mul_times k s (ng b) = ng (mul_times k s b).
  Proof.
    induction k as [|k IH]; intros b; [reflexivity|]. cbn [mul_times]. rewrite fmul_neg. apply IH.
  Qed.

  Lemma loop_neg n incx safmin rsafmn : 2 <= n -> 1 <= incx -> forall fuel knt (x : list b64) beta alpha,
    dlarfg_loop fuel n incx safmin rsafmn knt (negl x) (ng beta) (ng alpha) =
    match dlarfg_loop fuel n incx safmin rsafmn knt x beta alpha with
    | Ok (k, x', b', a') => Ok (k, negl x', ng b', ng a') | o => o end.
  Proof.
    intros Hn Hi.
    induction fuel as [|fuel IH]; intros knt x beta alpha; cbn [dlarfg_loop];
      destruct (dscal_neg (n - 1) rsafmn x incx ltac:(lia) Hi) as (y & E & E'); rewrite E, E'; cbn [bind];
      rewrite !fmul_neg, fabs_neg;
      match goal with |- context [if ?c then _ else _] => destruct c end; try reflexivity.
    apply IH.
  Qed.

  Theorem dlarfg_neg n (alpha : b64) (x : list b64) incx beta y tau : 1 <= incx ->
    dlarfg n alpha x incx = Ok (beta, y, tau) -> feq tau f0 = false -> is_nan tau = false ->
    exists z : list b64, dlarfg n (ng alpha) (negl x) incx = Ok (ng beta, z, tau) /\
      updated (stride (n - 1) incx) (fun _ (v : b64) => Bopp v : b64) (n - 1) (fa_of_vec (negl y)) (fa_of_vec z).
  Proof.
    intros Hi. unfold dlarfg. destruct (Z.leb_spec n 1) as [|Hn]; [intros E; injection E as <- <- <-; discriminate|]. cbv zeta.
    rewrite dnrm2_neg. destruct (feq (dnrm2 (n - 1) x incx) f0); [intros E; injection E as <- <- <-; discriminate|].
    rewrite beta_neg, fabs_neg.
    set (r := if flt (fabs (larfg_beta alpha (dnrm2 (n - 1) x incx))) larfg_safmin then _ else Ok (O, x, _, _)).
    set (r' := if flt (fabs (larfg_beta alpha (dnrm2 (n - 1) x incx))) larfg_safmin then _ else _).
    assert (R : r' = match r with Ok (k, x', b', a') => Ok (k, negl x', ng b', ng a') | o => o end).
    { unfold r, r'. clear r r'. destruct (flt _ _); [|reflexivity]. rewrite (loop_neg n incx) by lia.
      match goal with |- context [dlarfg_loop ?a1 ?a2 ?a3 ?a4 ?a5 ?a6 ?a7 ?a8 ?a9] => generalize (dlarfg_loop a1 a2 a3 a4 a5 a6 a7 a8 a9) end. intros o. destruct o as [[[[k x'] b'] a']| | |]; cbn [bind]; [|reflexivity..]. rewrite dnrm2_neg, beta_neg. reflexivity. }
    rewrite R. clear R r'. destruct r as [[[[k x'] b'] a']| | |]; cbn [bind]; [|discriminate..].
    destruct (dscal_neg2 (n - 1) (fdiv f1 (fsub a' b')) x' incx ltac:(lia) Hi) as (y1 & z & E & E' & U).
    rewrite E. cbn [bind]. intros Q. apply ok3 in Q as (<- & <- & <-). intros T0 TN.
    assert (NZ : is_zero (Bminus mode_NE b' a') = false).
    { destruct (is_zero (Bminus mode_NE b' a')) eqn:Z; [|reflexivity]. exfalso. change (feq (F := b64)) with (@Beqb 53 1024) in T0. change (f0 (F := b64)) with (b64_dy 0 0) in T0. rewrite feq_zero in T0.
      exact (zero_div _ _ Z T0 TN). }
    assert (E1 : fsub (ng b') (ng a') = ng (fsub b' a')) by exact (sub_opp b' a' NZ).
    assert (E2 : fsub (ng a') (ng b') = ng (fsub a' b')) by (apply (sub_opp a' b'); rewrite sub_swap; exact NZ).
    assert (E3 : fdiv (ng (fsub b' a')) (ng b') = fdiv (fsub b' a') b') by (etransitivity; [apply div_opp_l|]; etransitivity; [apply f_equal, div_opp_r|apply opp_opp]).
    assert (E4 : fdiv f1 (ng (fsub a' b')) = ng (fdiv f1 (fsub a' b'))) by apply div_opp_r.
    rewrite E1, E2, E3, E4. change (Bopp (fdiv f1 (fsub a' b')) : b64) with (ng (fdiv f1 (fsub a' b'))) in E'. rewrite E'. cbn [bind].
    rewrite mul_times_neg. exists z. split; [reflexivity|exact U].
  Qed.
  Lemma dlarfg_neg_zero n (alpha : b64) (x : list b64) incx : n <= 1 \/ feq (dnrm2 (n - 1) x incx) f0 = true ->
    dlarfg n (ng alpha) (negl x) incx = Ok (ng alpha, negl x, f0).
  Proof.
    intros H. unfold dlarfg. destruct (Z.leb_spec n 1) as [|Hn]; [reflexivity|]. destruct H as [H|H]; [lia|]. cbv zeta. rewrite dnrm2_neg, H. reflexivity.
  Qed.
End Sign.

Lemma lapy2_even lm : let NB : Num b64 := B64 lm in forall x y x' y' : b64, fabs x = fabs x' -> fabs y = fabs y' -> dlapy2 x y = dlapy2 x' y'.
Proof. cbv zeta. intros x y x' y'. apply lapy2_abs. Qed.

Lemma nrm2_even lm : let NB : Num b64 := B64 lm in forall (X : Type) (TX : ToFA b64 X) (Y : Type) (TY : ToFA b64 Y) n (x : X) (y : Y) incx,
  (forall t, 0 <= t < n -> fabs (get1 (to_fa x) (stride n incx t)) = fabs (get1 (to_fa y) (stride n incx t))) -> dnrm2 n x incx = dnrm2 n y incx.
Proof. cbv zeta. intros X TX Y TY n x y incx. apply dnrm2_abs. Qed.

Lemma larfg_odd lm : let NB : Num b64 := B64 lm in forall n (alpha : b64) (x : list b64) incx beta y tau, 1 <= incx ->
  dlarfg n alpha x incx = Ok (beta, y, tau) -> feq tau f0 = false -> is_nan tau = false ->
  exists z, dlarfg n (fneg alpha) (map fneg x) incx = Ok (fneg beta, z, tau) /\
    updated (stride (n - 1) incx) (fun _ v => fneg v) (n - 1) (fa_of_vec (map fneg y)) (fa_of_vec z).
Proof. cbv zeta. intros n alpha x incx beta y tau. apply dlarfg_neg. Qed.

Lemma larfg_odd_zero lm : let NB : Num b64 := B64 lm in forall n (alpha : b64) (x : list b64) incx,
  n <= 1 \/ feq (dnrm2 (n - 1) x incx) f0 = true -> dlarfg n (fneg alpha) (map fneg x) incx = Ok (fneg alpha, map fneg x, f0).
Proof.
  cbv zeta. intros n alpha x incx. apply dlarfg_neg_zero.
Qed.

From Verif Require Import LibmFree.
(** alpha = 3, x = (4): beta = -5, tau is neither zero nor NaN *)
Lemma sign_hyps lm : libm_ok lm -> let NB : Num b64 := B64 lm in let d m := b64_dy m 0 in
  match dlarfg 2 (d 3) [d 4] 1 with Ok (beta, y, tau) => beta = d (-5) /\ feq tau f0 = false /\ is_nan tau = false | _ => False end.
Proof.
  intros LM. cbv zeta.
  assert (C : match @dlarfg b64 (B64 ref_libm) (list b64) (ToFA_vec b64 (B64 ref_libm)) (FromFA_vec b64) 2 (b64_dy 3 0) [b64_dy 4 0] 1 with
    | Ok (beta, y, tau) => B2SF beta = B2SF (b64_dy (-5) 0) /\ Beqb tau (b64_dy 0 0) = false /\ is_nan tau = false | _ => False end) by (vm_compute; repeat split).
  rewrite <- (dlarfg_libm lm ref_libm LM ref_libm_ok) in C. rewrite <- (ToFA_vec_libm lm ref_libm) in C.
  destruct (dlarfg _ _ _ _) as [[[beta y] tau]| | |]; try contradiction. destruct C as (C1 & C2 & C3).
  split; [apply B2SF_inj; exact C1|]. split; [exact C2|exact C3].
Qed.

Lemma zero_hyps lm : libm_ok lm -> let NB : Num b64 := B64 lm in feq (dnrm2 (2 - 1) [b64_dy 0 0] 1) f0 = true.
Proof.
  intros LM. cbv zeta. rewrite (dnrm2_libm lm ref_libm LM ref_libm_ok), (ToFA_vec_libm lm ref_libm). vm_compute. reflexivity.
Qed.
