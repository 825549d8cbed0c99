(** dlaqr1. *)
From Flocq Require Import Core.
From Coq Require Import Reals Lra.
From Verif Require Import Base Num Array Blas Lapack Spec ER SpecR FaLemmas.
Open Scope R_scope.

Lemma set1_get (f : fa er) p v q : elem (set1 f p v) q = if (q =? p)%Z then option_map (fun _ => v) (elem f p) else elem f q.
Proof. apply mod1_elem. Qed.

Lemma ceq (a b : cplx) : fst a = fst b -> snd a = snd b -> a = b.
Proof. destruct a, b; cbn. intros -> ->. reflexivity. Qed.

Lemma shift_col2 H s1 s2 i : shift_column 2 H s1 s2 i =
  cadd (cmul (shifted H s1 i 1) (shifted H s2 1 1)) (cadd (cmul (shifted H s1 i 2) (shifted H s2 2 1)) (cre 0)).
Proof. reflexivity. Qed.
Lemma shift_col3 H s1 s2 i : shift_column 3 H s1 s2 i =
  cadd (cmul (shifted H s1 i 1) (shifted H s2 1 1)) (cadd (cmul (shifted H s1 i 2) (shifted H s2 2 1))
    (cadd (cmul (shifted H s1 i 3) (shifted H s2 3 1)) (cre 0))).
Proof. reflexivity. Qed.

Section Laqr1.
  Variables (Hm : Z -> Z -> R) (h v : fa er) (sr1 si1 sr2 si2 : R).

  Lemma laqr1_scale_zero a b c : Rabs a + Rabs b + Rabs c = 0 -> a = 0 /\ b = 0 /\ c = 0.
  Proof.
    pose proof (Rabs_pos a). pose proof (Rabs_pos b). pose proof (Rabs_pos c). intros E.
    repeat split;
    match goal with |- ?x = 0 => destruct (Req_dec x 0) as [|N]; [assumption|apply Rabs_pos_lt in N; lra] end.
  Qed.

  Lemma laqr1_2_exact :
    mat_is h 2 2 Hm -> (2 <= count v)%Z -> shift_pair (sr1, si1) (sr2, si2) ->
    let r := laqr1_2 h (Fin sr1) (Fin si1) (Fin sr2) (Fin si2) v in
    same_shape r v /\ (forall p, (p < 1 \/ 2 < p)%Z -> elem r p = elem v p) /\
    exists k w, 0 < k /\ (forall i, (1 <= i <= 2)%Z -> elem r i = Some (Fin (w i)) /\
      shift_column 2 Hm (sr1, si1) (sr2, si2) i = cre (k * w i)).
  Proof.
    intros MH Hv SP. cbv zeta. unfold laqr1_2.
    rewrite (get2_Some h 1 1 _ (MH 1 1 ltac:(lia) ltac:(lia))%Z), (get2_Some h 2 1 _ (MH 2 1 ltac:(lia) ltac:(lia))%Z),
      (get2_Some h 1 2 _ (MH 1 2 ltac:(lia) ltac:(lia))%Z), (get2_Some h 2 2 _ (MH 2 2 ltac:(lia) ltac:(lia))%Z).
    rewrite !er_subE, !er_absE, !er_addE, er_f0, er_eqE, ?er_subE.
    assert (V1 : exists x, elem v 1 = Some x) by (apply elem_Some; lia).
    assert (V2 : exists x, elem v 2 = Some x) by (apply elem_Some; lia).
    destruct V1 as [x1 V1], V2 as [x2 V2].
    assert (FR : forall a b : er, same_shape (set1 (set1 v 1 a) 2 b) v /\
      (forall p, (p < 1 \/ 2 < p)%Z -> elem (set1 (set1 v 1 a) 2 b) p = elem v p) /\
      elem (set1 (set1 v 1 a) 2 b) 1 = Some a /\ elem (set1 (set1 v 1 a) 2 b) 2 = Some b).
    { intros a b. split; [eapply same_shape_trans; apply set1_shape|]. split; [|split].
      - intros p Hp. rewrite !set1_get. destruct (Z.eqb_spec p 2), (Z.eqb_spec p 1); try lia; reflexivity.
      - rewrite !set1_get. cbn [Z.eqb Pos.eqb]. rewrite V1. reflexivity.
      - rewrite !set1_get. cbn [Z.eqb Pos.eqb]. rewrite V2. reflexivity. }
    case Req_bool_spec; intros Hs.
    - destruct (FR (Fin 0) (Fin 0)) as (S1 & F1 & E1 & E2). split; [exact S1|]. split; [exact F1|].
      exists 1, (fun _ => 0). split; [lra|]. intros i Hi.
      apply laqr1_scale_zero in Hs as (A & B & C).
      assert (i = 1 \/ i = 2)%Z as [-> | ->] by lia; (split; [assumption|]);
      apply ceq; rewrite shift_col2; unfold shifted; cbn; rewrite ?C, ?B;
      replace (Hm 1%Z 1%Z) with sr2 by lra; ring.
    - match goal with |- context [set1 (set1 v 1 ?a) 2 ?b] => set (A := a); set (B := b) end.
      destruct (FR A B) as (S1 & F1 & E1 & E2). split; [exact S1|]. split; [exact F1|].
      set (s := Rabs (Hm 1%Z 1%Z - sr2) + Rabs si2 + Rabs (Hm 2%Z 1%Z)) in *.
      assert (Ps : 0 < s).
      { pose proof (Rabs_pos (Hm 1%Z 1%Z - sr2)). pose proof (Rabs_pos si2). pose proof (Rabs_pos (Hm 2%Z 1%Z)). unfold s in *. lra. }
      exists s, (fun i => fst (shift_column 2 Hm (sr1, si1) (sr2, si2) i) / s). split; [exact Ps|].
      assert (IM : sr1 * si2 + si1 * sr2 = 0 /\ si1 + si2 = 0).
      { destruct SP as [[P Q]|[P Q]]; cbn in P, Q; rewrite P, Q; split; ring. }
      intros i Hi. assert (i = 1 \/ i = 2)%Z as [-> | ->] by lia.
      + split.
        * rewrite E1. unfold A. rewrite !er_divE, !er_mulE, !er_addE, ?er_subE by assumption. do 2 f_equal.
          rewrite shift_col2; unfold shifted; cbn. field. assumption.
        * apply ceq; rewrite shift_col2; unfold shifted; cbn.
          -- field. assumption.
          -- replace ((Hm 1%Z 1%Z - sr1) * (0 - si2) + (0 - si1) * (Hm 1%Z 1%Z - sr2) + (Hm 1%Z 2%Z * 0 + 0 * Hm 2%Z 1%Z + 0))
               with ((sr1 * si2 + si1 * sr2) - (si1 + si2) * Hm 1%Z 1%Z) by ring.
             destruct IM as [-> ->]. ring.
      + split.
        * rewrite E2. unfold B. rewrite !er_divE, ?er_addE, ?er_subE, !er_mulE by assumption. do 2 f_equal.
          rewrite shift_col2; unfold shifted; cbn. field. assumption.
        * apply ceq; rewrite shift_col2; unfold shifted; cbn.
          -- field. assumption.
          -- transitivity (- (si1 + si2) * Hm 2%Z 1%Z); [ring|]. destruct IM as [_ ->]. ring.
  Qed.

  Lemma laqr1_scale_zero3 a b c d : Rabs a + Rabs b + Rabs c + Rabs d = 0 -> a = 0 /\ b = 0 /\ c = 0 /\ d = 0.
  Proof.
    pose proof (Rabs_pos a). pose proof (Rabs_pos b). pose proof (Rabs_pos c). pose proof (Rabs_pos d). intros E.
    destruct (laqr1_scale_zero a b c) as (? & ? & ?); [lra|]. repeat split; try assumption.
    destruct (Req_dec d 0) as [|N]; [assumption|apply Rabs_pos_lt in N; lra].
  Qed.

  Lemma laqr1_3_exact :
    mat_is h 3 3 Hm -> (3 <= count v)%Z -> shift_pair (sr1, si1) (sr2, si2) ->
    let r := laqr1_3 h (Fin sr1) (Fin si1) (Fin sr2) (Fin si2) v in
    same_shape r v /\ (forall p, (p < 1 \/ 3 < p)%Z -> elem r p = elem v p) /\
    exists k w, 0 < k /\ (forall i, (1 <= i <= 3)%Z -> elem r i = Some (Fin (w i)) /\
      shift_column 3 Hm (sr1, si1) (sr2, si2) i = cre (k * w i)).
  Proof.
    intros MH Hv SP. cbv zeta. unfold laqr1_3.
    rewrite (get2_Some h 1 1 _ (MH 1 1 ltac:(lia) ltac:(lia))%Z), (get2_Some h 2 1 _ (MH 2 1 ltac:(lia) ltac:(lia))%Z),
      (get2_Some h 3 1 _ (MH 3 1 ltac:(lia) ltac:(lia))%Z),
      (get2_Some h 1 2 _ (MH 1 2 ltac:(lia) ltac:(lia))%Z), (get2_Some h 2 2 _ (MH 2 2 ltac:(lia) ltac:(lia))%Z),
      (get2_Some h 3 2 _ (MH 3 2 ltac:(lia) ltac:(lia))%Z),
      (get2_Some h 1 3 _ (MH 1 3 ltac:(lia) ltac:(lia))%Z), (get2_Some h 2 3 _ (MH 2 3 ltac:(lia) ltac:(lia))%Z),
      (get2_Some h 3 3 _ (MH 3 3 ltac:(lia) ltac:(lia))%Z).
    rewrite !er_subE, !er_absE, !er_addE, er_f0, er_eqE, ?er_subE.
    assert (V1 : exists x, elem v 1 = Some x) by (apply elem_Some; lia).
    assert (V2 : exists x, elem v 2 = Some x) by (apply elem_Some; lia).
    assert (V3 : exists x, elem v 3 = Some x) by (apply elem_Some; lia).
    destruct V1 as [x1 V1], V2 as [x2 V2], V3 as [x3 V3].
    assert (FR : forall a b c : er, same_shape (set1 (set1 (set1 v 1 a) 2 b) 3 c) v /\
      (forall p, (p < 1 \/ 3 < p)%Z -> elem (set1 (set1 (set1 v 1 a) 2 b) 3 c) p = elem v p) /\
      elem (set1 (set1 (set1 v 1 a) 2 b) 3 c) 1 = Some a /\ elem (set1 (set1 (set1 v 1 a) 2 b) 3 c) 2 = Some b /\
      elem (set1 (set1 (set1 v 1 a) 2 b) 3 c) 3 = Some c).
    { intros a b c. split; [eapply same_shape_trans; [|eapply same_shape_trans]; apply set1_shape|]. split; [|split; [|split]].
      - intros p Hp. rewrite !set1_get. destruct (Z.eqb_spec p 2), (Z.eqb_spec p 1), (Z.eqb_spec p 3); try lia; reflexivity.
      - rewrite !set1_get. cbn [Z.eqb Pos.eqb]. rewrite V1. reflexivity.
      - rewrite !set1_get. cbn [Z.eqb Pos.eqb]. rewrite V2. reflexivity.
      - rewrite !set1_get. cbn [Z.eqb Pos.eqb]. rewrite V3. reflexivity. }
    case Req_bool_spec; intros Hs.
    - destruct (FR (Fin 0) (Fin 0) (Fin 0)) as (S1 & F1 & E1 & E2 & E3). split; [exact S1|]. split; [exact F1|].
      exists 1, (fun _ => 0). split; [lra|]. intros i Hi.
      apply laqr1_scale_zero3 in Hs as (A & B & C & D).
      assert (i = 1 \/ i = 2 \/ i = 3)%Z as [-> | [-> | ->]] by lia; (split; [assumption|]);
      apply ceq; rewrite shift_col3; unfold shifted; cbn; rewrite ?D, ?C, ?B;
      replace (Hm 1%Z 1%Z) with sr2 by lra; ring.
    - match goal with |- context [set1 (set1 (set1 v 1 ?a) 2 ?b) 3 ?c] => set (A := a); set (B := b); set (D := c) end.
      destruct (FR A B D) as (S1 & F1 & E1 & E2 & E3). split; [exact S1|]. split; [exact F1|].
      set (s := Rabs (Hm 1%Z 1%Z - sr2) + Rabs si2 + Rabs (Hm 2%Z 1%Z) + Rabs (Hm 3%Z 1%Z)) in *.
      assert (Ps : 0 < s).
      { pose proof (Rabs_pos (Hm 1%Z 1%Z - sr2)). pose proof (Rabs_pos si2). pose proof (Rabs_pos (Hm 2%Z 1%Z)).
        pose proof (Rabs_pos (Hm 3%Z 1%Z)). unfold s in *. lra. }
      exists s, (fun i => fst (shift_column 3 Hm (sr1, si1) (sr2, si2) i) / s). split; [exact Ps|].
      assert (IM : sr1 * si2 + si1 * sr2 = 0 /\ si1 + si2 = 0).
      { destruct SP as [[P Q]|[P Q]]; cbn in P, Q; rewrite P, Q; split; ring. }
      intros i Hi. assert (i = 1 \/ i = 2 \/ i = 3)%Z as [-> | [-> | ->]] by lia.
      + split.
        * rewrite E1. unfold A. rewrite !er_divE, ?er_subE, !er_mulE, ?er_addE, ?er_subE, !er_addE by assumption. do 2 f_equal.
          rewrite shift_col3; unfold shifted; cbn. field. assumption.
        * apply ceq; rewrite shift_col3; unfold shifted; cbn.
          -- field. assumption.
          -- transitivity ((sr1 * si2 + si1 * sr2) - (si1 + si2) * Hm 1%Z 1%Z); [ring|].
             destruct IM as [-> ->]. ring.
      + split.
        * rewrite E2. unfold B. rewrite !er_divE, ?er_addE, ?er_subE, !er_mulE, ?er_addE by assumption. do 2 f_equal.
          rewrite shift_col3; unfold shifted; cbn. field. assumption.
        * apply ceq; rewrite shift_col3; unfold shifted; cbn.
          -- field. assumption.
          -- transitivity (- (si1 + si2) * Hm 2%Z 1%Z); [ring|]. destruct IM as [_ ->]. ring.
      + split.
        * rewrite E3. unfold D. rewrite !er_divE, ?er_addE, ?er_subE, !er_mulE, ?er_addE by assumption. do 2 f_equal.
          rewrite shift_col3; unfold shifted; cbn. field. assumption.
        * apply ceq; rewrite shift_col3; unfold shifted; cbn.
          -- field. assumption.
          -- transitivity (- (si1 + si2) * Hm 3%Z 1%Z); [ring|]. destruct IM as [_ ->]. ring.
  Qed.
End Laqr1.

Lemma dlaqr1_exact (Ht Vt : Type) (TH : ToFA er Ht) (TV : ToFA er Vt) (FV : FromFA er Vt)
    n (h : Ht) ldh hf sr1 si1 sr2 si2 (v : Vt) Hm :
  (n = 2 \/ n = 3)%Z -> to_fa_2d h ldh = Ok hf -> mat_is hf n n Hm -> (n <= count (to_fa v))%Z ->
  shift_pair (sr1, si1) (sr2, si2) ->
  exists r, dlaqr1 n h ldh (Fin sr1) (Fin si1) (Fin sr2) (Fin si2) v = from_fa r /\
    same_shape r (to_fa v) /\ (forall p, (p < 1 \/ n < p)%Z -> elem r p = elem (to_fa v) p) /\
    exists k w, 0 < k /\ (forall i, (1 <= i <= n)%Z -> elem r i = Some (Fin (w i)) /\
      shift_column n Hm (sr1, si1) (sr2, si2) i = cre (k * w i)).
Proof.
  intros Hn Eh MH Hv SP. unfold dlaqr1. rewrite Eh. cbn [bind].
  destruct Hn as [-> | ->]; cbn [Z.eqb Pos.eqb negb andb]; eexists; (split; [reflexivity|]).
  - apply laqr1_2_exact; assumption.
  - apply laqr1_3_exact; assumption.
Qed.

Lemma dlaqr1_other (F Ht Vt : Type) (NF : Num F) (TH : ToFA F Ht) (TV : ToFA F Vt) (FV : FromFA F Vt)
    n (h : Ht) ldh hf sr1 si1 sr2 si2 (v : Vt) :
  (n <> 2)%Z -> (n <> 3)%Z -> to_fa_2d h ldh = Ok hf -> dlaqr1 n h ldh sr1 si1 sr2 si2 v = Ok v.
Proof.
  intros H2 H3 E. unfold dlaqr1. rewrite E. cbn [bind].
  destruct (Z.eqb_spec n 2); [contradiction|]. destruct (Z.eqb_spec n 3); [contradiction|]. reflexivity.
Qed.
