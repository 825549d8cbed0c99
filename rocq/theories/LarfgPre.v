(** dlarfg on a list, over any number type: nothing after the first n-1 elements is read. *)
From Coq Require Import ZArith Lia Bool List.
From Verif Require Import Base Num Array Blas Lapack Spec Lists FaLemmas Blas1Proofs LarfgProofs.
Import ListNotations.
Open Scope Z_scope.

Section Prefix.
  Context {F : Type} {NF : Num F}.
  (** x and y agree in their first m elements *)
  Definition pre (m : Z) (x y : list F) : Prop := forall p, 1 <= p <= m -> elem (fa_of_vec x) p = elem (fa_of_vec y) p.

  Lemma dnrm2_pre m x y : pre m x y -> dnrm2 m x 1 = dnrm2 m y 1.
  Proof.
    intros H. unfold dnrm2, dnrm2_fa. cbn [to_fa ToFA_vec]. destruct (Z.leb_spec m 0); [reflexivity|]. cbn [Z.ltb Z.compare].
    assert (G : forall c i ix a, 1 <= ix -> ix + Z.of_nat c <= m + 1 ->
      for_ (zup i 1 c) (ix, a) (fun _ '(ix, a) => (ix + 1, nrm_step (get1 (fa_of_vec x) ix) a)) =
      for_ (zup i 1 c) (ix, a) (fun _ '(ix, a) => (ix + 1, nrm_step (get1 (fa_of_vec y) ix) a))).
    { induction c as [|c IH]; intros i ix a L1 L2; [reflexivity|]. cbn [zup for_ fold_left]. rewrite (get1_elem (fa_of_vec x)), (H ix) by lia. rewrite <- get1_elem. apply IH; lia. }
    unfold range. rewrite G; [reflexivity|lia|lia].
  Qed.
  Lemma dscal_one m c (x : list F) : exists x', dscal m c x 1 = Ok x' /\ zlen x' = zlen x /\
    forall p, 1 <= p <= m -> elem (fa_of_vec x') p = if feq c f1 then elem (fa_of_vec x) p else option_map (fun a => fmul a c) (elem (fa_of_vec x) p).
  Proof.
    destruct (dscal_spec m c x 1) as [Q U].
    destruct (Z_le_gt_dec m 0); [exists x; split; [apply Q; auto|split; [reflexivity|intros; lia]]|].
    destruct (feq c f1) eqn:E; [exists x; split; [apply Q; auto|auto]|].
    destruct U as (d & Ed & (Sh & U & _)); [lia|lia|reflexivity|]. exists (data d). rewrite Ed. split; [reflexivity|].
    split; [destruct Sh as (_ & _ & Sh); exact Sh|]. intros p Hp. specialize (U (p - 1) ltac:(lia)). unfold stride in U. cbn [Z.ltb Z.compare] in U.
    replace (1 + (p - 1) * 1) with p in U by lia. rewrite <- (elem_data d (fa_of_vec (data d))) by reflexivity. exact U.
  Qed.
  Lemma dscal_pre m c x y : pre m x y -> exists x' y', dscal m c x 1 = Ok x' /\ dscal m c y 1 = Ok y' /\ pre m x' y' /\ zlen x' = zlen x /\ zlen y' = zlen y.
  Proof.
    intros H. destruct (dscal_one m c x) as (x' & Ex & Lx & Vx), (dscal_one m c y) as (y' & Ey & Ly & Vy). exists x', y'. split; [exact Ex|]. split; [exact Ey|].
    split; [|split; assumption]. intros p Hp. rewrite Vx, Vy, H by exact Hp. reflexivity.
  Qed.
  Lemma larfg_loop_pre n s r : forall fuel knt x y be al, pre (n - 1) x y -> (20 <= knt + fuel)%nat -> exists k x' y' be' al',
    dlarfg_loop fuel n 1 s r knt x be al = Ok (k, x', be', al') /\ dlarfg_loop fuel n 1 s r knt y be al = Ok (k, y', be', al') /\ pre (n - 1) x' y' /\ zlen x' = zlen x /\ zlen y' = zlen y.
  Proof.
    induction fuel as [|fuel IH]; intros knt x y be al H K; cbn [dlarfg_loop]; destruct (dscal_pre (n - 1) r x y H) as (x1 & y1 & -> & -> & H1 & L1 & L2); cbn [bind].
    - destruct (Nat.ltb_spec 20 (S knt)); [|lia]. rewrite orb_true_r. do 5 eexists. split; [reflexivity|]. split; [reflexivity|]. auto.
    - destruct (flt _ _ || _)%bool eqn:E; [do 5 eexists; split; [reflexivity|]; split; [reflexivity|]; auto|].
      destruct (IH (S knt) x1 y1 (fmul be r) (fmul al r) H1 ltac:(lia)) as (k & x' & y' & b' & a' & -> & -> & H' & L3 & L4).
      do 5 eexists. split; [reflexivity|]. split; [reflexivity|]. split; [exact H'|]. split; congruence.
  Qed.
  Lemma dlarfg_pre n al x y : pre (n - 1) x y -> exists be tau x' y',
    dlarfg n al x 1 = Ok (be, x', tau) /\ dlarfg n al y 1 = Ok (be, y', tau) /\ pre (n - 1) x' y' /\ zlen x' = zlen x /\ zlen y' = zlen y.
  Proof.
    intros H. unfold dlarfg. destruct (n <=? 1)%Z; [do 4 eexists; split; [reflexivity|]; split; [reflexivity|]; auto|].
    rewrite (dnrm2_pre (n - 1) x y H). destruct (feq _ _); [do 4 eexists; split; [reflexivity|]; split; [reflexivity|]; auto|].
    set (be0 := larfg_beta al (dnrm2 (n - 1) y 1)). destruct (flt _ _).
    - destruct (larfg_loop_pre n larfg_safmin (fdiv f1 larfg_safmin) 20 0 x y be0 al H ltac:(lia)) as (k & x1 & y1 & b & a & -> & -> & H1 & L1 & L2). cbn [bind].
      rewrite (dnrm2_pre (n - 1) x1 y1 H1). destruct (dscal_pre (n - 1) (fdiv f1 (fsub a (larfg_beta a (dnrm2 (n - 1) y1 1)))) x1 y1 H1) as (x2 & y2 & -> & -> & H2 & L3 & L4). cbn [bind].
      do 4 eexists. split; [reflexivity|]. split; [reflexivity|]. split; [exact H2|]. split; congruence.
    - cbn [bind]. destruct (dscal_pre (n - 1) (fdiv f1 (fsub al be0)) x y H) as (x2 & y2 & -> & -> & H2 & L3 & L4). cbn [bind].
      do 4 eexists. split; [reflexivity|]. split; [reflexivity|]. auto.
  Qed.
End Prefix.
