(** One step of dlaqr5's sweep with errors: real matrices only. *)
From Coq Require Import Reals Lra.
From Flocq Require Import Core.
From Verif Require Import Base Num Array Spec ER SpecR SpecSim Lists RsumLemmas RealMat SimArray SimSweep HqReal HqErrReal.
Open Scope R_scope.

Section StepG.
  Context (lo hi l i : Z).
  Hypothesis (Hl : (lo <= l)%Z) (Hi : (i <= hi)%Z).
  Notation inr a := (lo <= a <= hi)%Z.
  Notation mm := (mmul lo hi).
  Context (c : Z) (G : Z -> Z -> R) (w2 w3 t : R).
  Hypothesis (HC : chase lo hi l i c G) (Hc : (l <= c < i)%Z) (HV : (c + 2 <= i)%Z \/ w3 = 0) (HH : house w2 w3 t).
  Notation P := (refl t (wvec c w2 w3)).
  Notation r := (Z.min i (c + 2)).
  (** [R1] after the columns, [V2] at the end of the step (row c+3 brought up to date) *)
  Context (R1 V2 : Z -> Z -> R) (d y : R).
  Hypothesis (Hd : 0 <= d).
  Hypothesis (E1 : forall a b, (lo <= a <= r)%Z -> (c <= b <= r)%Z -> Rabs (R1 a b - rright c w2 w3 t G a b) <= d).
  Hypothesis (E2 : forall a b, (lo <= a <= r)%Z -> (r < b <= hi)%Z -> R1 a b = G a b).
  Hypothesis (E3 : forall a b, (c <= a <= r)%Z -> (c <= b <= hi)%Z -> Rabs (V2 a b - rleft c w2 w3 t R1 a b) <= d).
  Hypothesis (E4 : forall a b, (lo <= a < c)%Z -> (c <= b <= hi)%Z -> V2 a b = R1 a b).
  Hypothesis (E5 : forall b, (c + 3 <= i)%Z -> (c <= b <= c + 2)%Z -> Rabs (V2 (c + 3)%Z b - rright c w2 w3 t G (c + 3)%Z b) <= d).
  Hypothesis (E6 : forall a b, (r < a <= hi)%Z -> (c <= b <= hi)%Z -> ~ (a = c + 3 /\ c + 3 <= i /\ b <= c + 2)%Z -> V2 a b = G a b).
  Hypothesis (E7 : forall a b, inr a -> inr b -> (b < c)%Z -> ~ (l < c /\ b = c - 1 /\ c <= a <= r)%Z -> V2 a b = G a b).
  Hypothesis (E8 : forall a, (l < c)%Z -> (c <= a <= r)%Z -> Rabs (V2 a (c - 1)%Z - rleft c w2 w3 t G a (c - 1)%Z) <= d /\ ((c < a)%Z -> V2 a (c - 1)%Z = 0)).
  Hypothesis (Hy : 0 < y) (HY : 3 * (IZR (hi - lo + 1) * (d * d)) <= y * y).

  Definition V1g (a b : Z) : R := if (b <? c)%Z then G a b else if (a <=? r)%Z then R1 a b else V2 a b.
  Definition e1g (a b : Z) : R := V1g a b - rright c w2 w3 t G a b.
  Definition e2g (a b : Z) : R := V2 a b - rleft c w2 w3 t V1g a b.

  Lemma HVg : (c + 2 <= hi)%Z \/ w3 = 0 /\ (c + 1 <= hi)%Z.
  Proof. destruct HV; [left|right; split]; (assumption || lia). Qed.
  Lemma Pg_orth : orthogonal lo hi P.
  Proof. apply house_orth; [lia|apply HVg|exact HH]. Qed.
  Lemma w_outr a : ~ (c <= a <= r)%Z -> wvec c w2 w3 a = 0.
  Proof. intros H. destruct (Z.eq_dec a (c + 2)) as [->|]; [|apply wvec_out; lia]. rewrite wvec_2. destruct HV; [lia|assumption]. Qed.
  Lemma w3_third (f g : R) : ((c + 2 <= i)%Z -> f = g) -> w3 * f = w3 * g.
  Proof. intros H. destruct HV as [|E]; [rewrite H by lia; reflexivity|rewrite E; ring]. Qed.
  Lemma rr_out a b : ~ (c <= b <= r)%Z -> rright c w2 w3 t G a b = G a b.
  Proof. intros H. unfold rright. rewrite w_outr by assumption. ring. Qed.
  Lemma rl_out X a b : ~ (c <= a <= r)%Z -> rleft c w2 w3 t X a b = X a b.
  Proof. intros H. unfold rleft. rewrite w_outr by assumption. ring. Qed.
  Lemma G_row_zero a b : (r < a <= hi)%Z -> ~ (a = c + 3 /\ c + 3 <= i)%Z -> (c <= b <= r)%Z -> G a b = 0.
  Proof.
    intros Ha N Hb. destruct (Z_lt_le_dec i a); [apply (ch_bot _ _ _ _ _ _ HC); lia|].
    apply (ch_low _ _ _ _ _ _ HC); [lia|lia|lia|]. unfold hq_bulge. lia.
  Qed.
  Lemma rr_row a b : (r < a <= hi)%Z -> ~ (a = c + 3 /\ c + 3 <= i)%Z -> rright c w2 w3 t G a b = G a b.
  Proof.
    intros Ha N. unfold rright. rewrite (G_row_zero a c), (G_row_zero a (c + 1)%Z) by (assumption || lia).
    rewrite (w3_third (G a (c + 2)%Z) 0) by (intros; apply G_row_zero; (assumption || lia)). ring.
  Qed.
  Lemma G_col_zero a b : (c <= a <= hi)%Z -> inr b -> (b < c - 1 \/ b < l)%Z -> G a b = 0.
  Proof.
    intros Ha Hb H. destruct (Z_lt_le_dec b l); [apply (ch_top _ _ _ _ _ _ HC); lia|].
    apply (ch_low _ _ _ _ _ _ HC); [lia|lia|lia|]. unfold hq_bulge. lia.
  Qed.
  Lemma rl_col a b : inr b -> (b < c - 1 \/ b < l)%Z -> rleft c w2 w3 t G a b = G a b.
  Proof.
    intros Hb H. unfold rleft. rewrite (G_col_zero c b), (G_col_zero (c + 1)%Z b) by (assumption || lia).
    rewrite (w3_third (G (c + 2)%Z b) 0) by (intros; apply G_col_zero; (assumption || lia)). ring.
  Qed.

  Lemma A1g a b : inr a -> inr b -> Rabs (e1g a b) <= d.
  Proof.
    intros Ha Hb. unfold e1g, V1g. destruct (Z.ltb_spec b c) as [X|X].
    - rewrite rr_out by lia. rewrite Rminus_diag_eq, Rabs_R0 by reflexivity. exact Hd.
    - destruct (Z.leb_spec a r) as [Y|Y].
      + destruct (Z_le_gt_dec b r); [apply E1; lia|]. rewrite E2, rr_out, Rminus_diag_eq, Rabs_R0 by (lia || reflexivity). exact Hd.
      + destruct (Z.eq_dec a (c + 3)) as [Ea|Na]; [destruct (Z_le_gt_dec (c + 3) i); [destruct (Z_le_gt_dec b (c + 2))|]|].
        * rewrite Ea. apply E5; lia.
        * rewrite E6, rr_out, Rminus_diag_eq, Rabs_R0 by (lia || reflexivity). exact Hd.
        * rewrite E6, rr_row, Rminus_diag_eq, Rabs_R0 by (lia || reflexivity). exact Hd.
        * rewrite E6, rr_row, Rminus_diag_eq, Rabs_R0 by (lia || reflexivity). exact Hd.
  Qed.
  Lemma A2g a b : inr a -> inr b -> ~ (c <= b <= c + 2)%Z -> e1g a b = 0.
  Proof.
    intros Ha Hb N. unfold e1g, V1g. rewrite rr_out by lia. destruct (Z.ltb_spec b c) as [X|X]; [ring|].
    destruct (Z.leb_spec a r); [rewrite E2 by lia; ring|]. rewrite E6 by lia. ring.
  Qed.
  Lemma V1g_low a b : inr a -> inr b -> (c <= b)%Z -> rleft c w2 w3 t V1g a b = rleft c w2 w3 t R1 a b \/ ~ (c <= a <= r)%Z.
  Proof.
    intros Ha Hb X. destruct (Z_le_gt_dec c a); [destruct (Z_le_gt_dec a r)|]; [|right; lia|right; lia]. left.
    assert (Y : forall a', (a' <= r)%Z -> V1g a' b = R1 a' b).
    { intros a' H. unfold V1g. destruct (Z.ltb_spec b c); [lia|]. destruct (Z.leb_spec a' r); [reflexivity|lia]. }
    unfold rleft. rewrite (Y a), (Y c), (Y (c + 1)%Z) by lia. rewrite (w3_third (V1g (c + 2)%Z b) (R1 (c + 2)%Z b)) by (intros; apply Y; lia). reflexivity.
  Qed.
  Lemma rl_V1g_left a b : (b < c)%Z -> rleft c w2 w3 t V1g a b = rleft c w2 w3 t G a b.
  Proof. intros X. unfold rleft, V1g. destruct (Z.ltb_spec b c); [reflexivity|lia]. Qed.
  Lemma B2g a b : inr a -> inr b -> ~ (c <= a <= r)%Z -> e2g a b = 0.
  Proof.
    intros Ha Hb N. unfold e2g. rewrite rl_out by exact N. unfold V1g. destruct (Z.ltb_spec b c) as [X|X]; [rewrite E7 by lia; ring|].
    destruct (Z.leb_spec a r) as [Y|Y]; [rewrite E4 by lia|]; ring.
  Qed.
  Lemma B1g a b : inr a -> inr b -> Rabs (e2g a b) <= d.
  Proof.
    intros Ha Hb. destruct (Z_le_gt_dec c a) as [C1|C1]; [destruct (Z_le_gt_dec a r) as [C2|C2]|]; [|rewrite B2g, Rabs_R0 by lia; exact Hd|rewrite B2g, Rabs_R0 by lia; exact Hd].
    unfold e2g. destruct (Z_lt_le_dec b c) as [X|X].
    - rewrite rl_V1g_left by exact X. destruct (Z.eq_dec b (c - 1)) as [->|]; [destruct (Z_lt_le_dec l c); [apply E8; lia|]|].
      + rewrite rl_col, E7, Rminus_diag_eq, Rabs_R0 by (lia || reflexivity). exact Hd.
      + rewrite rl_col, E7, Rminus_diag_eq, Rabs_R0 by (lia || reflexivity). exact Hd.
    - destruct (V1g_low a b Ha Hb X) as [->|]; [apply E3; lia|lia].
  Qed.
  Lemma V2_eq a b : inr a -> inr b -> V2 a b = madd (conj_by lo hi P G) (madd (mm P e1g) e2g) a b.
  Proof.
    intros Ha Hb. unfold madd. rewrite (conj_step lo hi c w2 w3 t ltac:(lia) HVg) by assumption.
    rewrite (rleft_mm lo hi c w2 w3 t ltac:(lia) HVg) by assumption. unfold e2g. unfold rleft. unfold e1g. ring.
  Qed.
  Lemma e1g_frob : frob2 lo hi e1g <= y * y.
  Proof. eapply Rle_trans; [apply (frob_cols3 lo hi e1g c d); [lia|exact A1g|exact A2g]|exact HY]. Qed.
  Lemma e2g_frob : frob2 lo hi e2g <= y * y.
  Proof. eapply Rle_trans; [apply (frob_rows3 lo hi e2g c d); [lia|exact B1g|intros a b Ha Hb N; apply B2g; lia]|exact HY]. Qed.
  Lemma stepg_simf A x Q : simf lo hi A x G Q -> 0 <= x -> simf lo hi A (x + 2 * y) V2 (mm Q P).
  Proof.
    intros S Hx. apply simf_ext with (madd (conj_by lo hi P G) (madd (mm P e1g) e2g)); [|intros; symmetry; apply V2_eq; assumption].
    apply simf_add; [apply simf_conj; [exact S|exact Pg_orth]|exact Hx|lra|].
    replace (2 * y) with (y + y) by ring. apply frob_add; [lra|exact Hy| |exact e2g_frob]. rewrite frob_left by exact Pg_orth. exact e1g_frob.
  Qed.
  Lemma stepg_chase : chase lo hi l i (c + 1) V2.
  Proof.
    constructor.
    - intros a b Ha Hb Hlt Hn. destruct (Z_lt_le_dec b c) as [X|X].
      + destruct (Z.eq_dec b (c - 1)) as [Eb|Nb]; [destruct (Z_lt_le_dec l c); [destruct (Z_le_gt_dec a r)|]|].
        * rewrite Eb. apply E8; lia.
        * rewrite E7 by lia. destruct (Z_lt_le_dec i a); [apply (ch_bot _ _ _ _ _ _ HC); lia|]. apply (ch_low _ _ _ _ _ _ HC); [assumption|assumption|assumption|]. unfold hq_bulge. lia.
        * rewrite E7 by lia. apply (ch_top _ _ _ _ _ _ HC); lia.
        * rewrite E7 by lia. apply (ch_low _ _ _ _ _ _ HC); [assumption|assumption|assumption|]. unfold hq_bulge. lia.
      + assert (D : (c + 4 <= a)%Z). { destruct (Z_le_gt_dec (c + 4) a); [assumption|]. exfalso. apply Hn. unfold hq_bulge. lia. }
        rewrite E6 by lia. apply (ch_low _ _ _ _ _ _ HC); [assumption|assumption|assumption|]. unfold hq_bulge. lia.
    - intros a b Ha Hb H. rewrite E7 by lia. apply (ch_top _ _ _ _ _ _ HC); lia.
    - intros a b Ha Hb H. destruct (Z_lt_le_dec b c); [rewrite E7 by lia|rewrite E6 by lia]; apply (ch_bot _ _ _ _ _ _ HC); lia.
  Qed.
  Lemma rrG_frob : frob2 lo hi (rright c w2 w3 t G) = frob2 lo hi G.
  Proof. rewrite <- (frob_right lo hi G P Pg_orth). apply frob_ext. intros a b Ha Hb. symmetry. apply rright_mm; [lia|apply HVg|assumption]. Qed.
End StepG.

Lemma chase_start lo hi l i G : (lo <= l)%Z -> (i <= hi)%Z -> hessenberg lo hi G -> ((lo < l)%Z -> G l (l - 1)%Z = 0) -> ((i < hi)%Z -> G (i + 1)%Z i = 0) -> chase lo hi l i l G.
Proof.
  intros Hl Hi HS I1 I2. constructor.
  - intros a b Ha Hb L _. apply HS; assumption.
  - intros a b Ha Hb L. destruct (Z_lt_le_dec (b + 1) a); [apply HS; assumption|]. assert (a = l /\ b = l - 1)%Z as [-> ->] by lia. apply I1. lia.
  - intros a b Ha Hb L. destruct (Z_lt_le_dec (b + 1) a); [apply HS; assumption|]. assert (a = i + 1 /\ b = i)%Z as [-> ->] by lia. apply I2. lia.
Qed.
Lemma chase_end lo hi l i G : chase lo hi l i i G -> hessenberg lo hi G.
Proof.
  intros HC a b Ha Hb L. destruct (Z_le_gt_dec a i) as [X|X]; [apply (ch_low _ _ _ _ _ _ HC); [assumption|assumption|assumption|]; unfold hq_bulge; lia|].
  destruct (Z_le_gt_dec b i); [apply (ch_bot _ _ _ _ _ _ HC); lia|]. apply (ch_low _ _ _ _ _ _ HC); [assumption|assumption|assumption|]. unfold hq_bulge. lia.
Qed.
