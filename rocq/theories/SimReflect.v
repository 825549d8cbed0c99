(** The reflectors of dlaqr5 in exact arithmetic. *)
From Flocq Require Import Core.
From Coq Require Import Reals Lra.
From Verif Require Import Base Num Array Blas Lapack Dlaqr5 Spec ER SpecR SpecSim Lists FaLemmas RsumLemmas Nrm2Proofs B64 Nrm2F64 Lapy2Proofs LarfgProofs
  LahqrProofs Laqr1Proofs RealMat SimArray Laqr5Proofs.
Open Scope R_scope.

Lemma house_zero v2 v3 : house v2 v3 0.
Proof. unfold house. ring. Qed.

(** what the scalars of dlarfg do to (a, x2, x3) *)
Definition kills (a x2 x3 beta tau v2 v3 : R) : Prop :=
  house v2 v3 tau /\ let s := a + v2 * x2 + v3 * x3 in
  a - s * tau = beta /\ x2 - s * (tau * v2) = 0 /\ x3 - s * (tau * v3) = 0.

Lemma kills_values a x2 x3 : let N := x2 * x2 + x3 * x3 in 0 < N -> let beta := betaR a N in
  kills a x2 x3 beta ((beta - a) / beta) (x2 / (a - beta)) (x3 / (a - beta)) /\ (beta - a) / beta <> 0 /\ a - beta <> 0.
Proof.
  intros N HN beta. pose proof (betaR_sq a N ltac:(lra)) as BQ. fold beta in BQ.
  assert (B0 : beta <> 0) by (intros E; rewrite E in BQ; nra).
  assert (AB : a - beta <> 0) by (intros E; replace a with beta in * by lra; nra).
  assert (S : a + x2 / (a - beta) * x2 + x3 / (a - beta) * x3 = - beta).
  { replace (a + x2 / (a - beta) * x2 + x3 / (a - beta) * x3) with (a + N / (a - beta)) by (unfold N; field; assumption).
    replace N with (beta * beta - a * a) by lra. field. assumption. }
  split; [|split; [|exact AB]].
  - split.
    + unfold house. replace (1 + x2 / (a - beta) * (x2 / (a - beta)) + x3 / (a - beta) * (x3 / (a - beta)))
        with (1 + N / ((a - beta) * (a - beta))) by (unfold N; field; assumption).
      replace N with (beta * beta - a * a) by lra. field. split; assumption.
    + cbv zeta. rewrite S. split; [field; assumption|]. split; field; split; assumption.
  - intros E. apply AB. assert (beta - a = 0); [|lra]. replace (beta - a) with ((beta - a) / beta * beta) by (field; assumption). rewrite E. ring.
Qed.

Lemma big_ok : 2 ^ 505 <= Rfmax.
Proof.
  unfold Rfmax. change 1024%Z with (1 + 1023)%Z. rewrite bpow_plus. change (bpow radix2 1) with 2.
  assert (bpow radix2 971 <= bpow radix2 1023) by (apply bpow_le; lia).
  assert (2 ^ 505 <= bpow radix2 1023); [|lra].
  replace (2 ^ 505) with (bpow radix2 505); [apply bpow_le; lia|]. rewrite bpow_powerRZ. reflexivity.
Qed.

Lemma vec_is_two l x2 x3 : zget l 0 = Some (Fin x2) -> zget l 1 = Some (Fin x3) -> vec_is (to_fa l) 2 1 (fun t => if (t =? 0)%Z then x2 else x3).
Proof.
  intros E0 E1 t Ht. rewrite elem_zget. cbn [to_fa ToFA_vec data fa_of_vec].
  assert (t = 0 \/ t = 1)%Z as [-> | ->] by lia; assumption.
Qed.
Lemma vec_is_one l x2 : zget l 0 = Some (Fin x2) -> vec_is (to_fa l) 1 1 (fun _ => x2).
Proof.
  intros E0 t Ht. rewrite elem_zget. cbn [to_fa ToFA_vec data fa_of_vec]. assert (t = 0)%Z as -> by lia. assumption.
Qed.
Lemma sum_sq_2 f : sum_sq 2 f = f 0%Z * f 0%Z + f 1%Z * f 1%Z.
Proof. unfold sum_sq. rewrite !Rsum_range_cons, Rsum_range_nil by lia. cbn [Z.add Pos.add]. ring. Qed.
Lemma sum_sq_1 f : sum_sq 1 f = f 0%Z * f 0%Z.
Proof. unfold sum_sq. rewrite !Rsum_range_cons, Rsum_range_nil by lia. ring. Qed.

Lemma larfg3 l a x2 x3 : zget l 0 = Some (Fin x2) -> zget l 1 = Some (Fin x3) -> Rabs a <= 2 ^ 505 -> Rabs x2 <= 2 ^ 505 -> Rabs x3 <= 2 ^ 505 ->
  exists beta l' tau v2 v3, dlarfg 3 (Fin a) l 1 = Ok (Fin beta, l', Fin tau) /\ zlen l' = zlen l /\
    zget l' 0 = Some (Fin v2) /\ zget l' 1 = Some (Fin v3) /\ kills a x2 x3 beta tau v2 v3 /\ (x3 <> 0 -> tau <> 0 /\ v3 <> 0).
Proof.
  intros E0 E1 Ba B2 B3.
  pose proof (vec_is_two l x2 x3 E0 E1) as V.
  assert (D : x2 * x2 + x3 * x3 = 0 \/ 0 < x2 * x2 + x3 * x3) by (assert (0 <= x2 * x2 + x3 * x3) by nra; lra).
  destruct D as [Z|P].
  - assert (x2 = 0 /\ x3 = 0) as [-> ->] by (split; nra).
    exists a, l, 0, 0, 0. rewrite (dlarfg_zero_exact (list er) _ _ 3 (Fin a) l 1).
    + split; [reflexivity|]. split; [reflexivity|]. split; [exact E0|]. split; [exact E1|].
      split; [|intros N; congruence]. split; [apply house_zero|]. cbv zeta. repeat split; ring.
    + intros t Ht. refine (eq_trans (V t Ht) _). destruct (t =? 0)%Z; reflexivity.
  - assert (EF : sum_sq (3 - 1) (fun t => if (t =? 0)%Z then x2 else x3) = x2 * x2 + x3 * x3) by (change (3 - 1)%Z with 2%Z; rewrite sum_sq_2; reflexivity).
    destruct (dlarfg_exact flat_vec 3 a l 1 (fun t => if (t =? 0)%Z then x2 else x3)) as (l' & E & V' & C & _).
    + lia.
    + lia.
    + exact V.
    + pose proof big_ok. lra.
    + intros t Ht. destruct (t =? 0)%Z; assumption.
    + rewrite EF. exact P.
    + rewrite EF in E, V'. destruct (kills_values a x2 x3 P) as (K & T & AB). set (beta := betaR a (x2 * x2 + x3 * x3)) in *.
      exists beta, l', ((beta - a) / beta), (x2 / (a - beta)), (x3 / (a - beta)). split; [exact E|].
      split; [exact C|].
      pose proof (V' 0%Z ltac:(lia)) as W0. pose proof (V' 1%Z ltac:(lia)) as W1. rewrite elem_zget in W0, W1.
      split; [exact W0|]. split; [exact W1|]. split; [exact K|]. intros N. split; [exact T|].
      intros Q. apply N. replace x3 with (x3 / (a - beta) * (a - beta)) by (field; assumption). rewrite Q. ring.
Qed.

Lemma larfg2 l a x2 : zget l 0 = Some (Fin x2) -> Rabs a <= 2 ^ 505 -> Rabs x2 <= 2 ^ 505 ->
  exists beta l' tau v2, dlarfg 2 (Fin a) l 1 = Ok (Fin beta, l', Fin tau) /\ zlen l' = zlen l /\
    zget l' 0 = Some (Fin v2) /\ kills a x2 0 beta tau v2 0.
Proof.
  intros E0 Ba B2.
  pose proof (vec_is_one l x2 E0) as V.
  destruct (Req_dec x2 0) as [->|P].
  - exists a, l, 0, 0. rewrite (dlarfg_zero_exact (list er) _ _ 2 (Fin a) l 1).
    + split; [reflexivity|]. split; [reflexivity|]. split; [exact E0|]. 
      split; [apply house_zero|]. cbv zeta. repeat split; ring.
    + exact V.
  - assert (P' : 0 < x2 * x2 + 0 * 0) by nra.
    assert (EF : sum_sq (2 - 1) (fun t => x2) = x2 * x2 + 0 * 0) by (change (2 - 1)%Z with 1%Z; rewrite sum_sq_1; ring).
    destruct (dlarfg_exact flat_vec 2 a l 1 (fun t => x2)) as (l' & E & V' & C & _).
    + lia.
    + lia.
    + exact V.
    + pose proof big_ok. lra.
    + intros t Ht. assumption.
    + rewrite EF. exact P'.
    + rewrite EF in E, V'. destruct (kills_values a x2 0 P') as (K & T & AB). set (beta := betaR a (x2 * x2 + 0 * 0)) in *.
      exists beta, l', ((beta - a) / beta), (x2 / (a - beta)). split; [exact E|].
      split; [exact C|]. pose proof (V' 0%Z ltac:(lia)) as W0. rewrite elem_zget in W0.
      split; [exact W0|]. replace (0 / (a - beta)) with 0 in K by (field; assumption). exact K.
Qed.

(** column 1 of V *)
Lemma get2_col1 (v : fa er) i x : elem v i = Some x -> get2 v i 1 = x.
Proof. intros E. rewrite get2_get1, get1_elem. unfold pos. replace ((1 - 1) * rows v + i)%Z with i by lia. rewrite E. reflexivity. Qed.

Lemma reflect3 ldv (v : fa er) a x2 x3 : dim2 ldv v -> (3 <= count v)%Z -> elem v 2 = Some (Fin x2) -> elem v 3 = Some (Fin x3) ->
  Rabs a <= 2 ^ 505 -> Rabs x2 <= 2 ^ 505 -> Rabs x3 <= 2 ^ 505 ->
  exists v' beta tau v2 v3, v_reflect 3 (Fin a) 1 ldv v = Ok (v', Fin beta) /\ same_shape v' v /\
    elem v' 1 = Some (Fin tau) /\ elem v' 2 = Some (Fin v2) /\ elem v' 3 = Some (Fin v3) /\
    kills a x2 x3 beta tau v2 v3 /\ (x3 <> 0 -> tau <> 0 /\ v3 <> 0).
Proof.
  intros D C E2 E3 Ba B2 B3. unfold v_reflect.
  assert (FV := dim2_full _ _ D).
  assert (P1 : ((1 - 1) * rows v + 2 = 2)%Z) by lia.
  assert (F2 : from2 v 2 1 = Ok (skipn 1 (data v))).
  { unfold from2, from1, slice_from. rewrite P1. unfold full in FV. rewrite FV. rewrite count_zlen in *.
    destruct (Z.leb_spec 2 (zlen (data v))); [|lia]. destruct (Z.ltb_spec (zlen (data v)) (2 - 1)); [lia|]. reflexivity. }
  rewrite F2. cbn [bind]. rewrite elem_zget in E2, E3. rewrite count_zlen in C.
  assert (G : forall p, (0 <= p)%Z -> zget (skipn 1 (data v)) p = zget (data v) (1 + p)) by (intros p Hp; apply (zget_skipn (data v) 1 p); lia).
  assert (L : zlen (skipn 1 (data v)) = (zlen (data v) - 1)%Z) by (apply (zlen_skipn (data v) 1); lia).
  destruct (larfg3 (skipn 1 (data v)) a x2 x3) as (beta & l' & tau & v2 & v3 & -> & LL & W0 & W1 & K & NZ).
  { rewrite G by lia. exact E2. }
  { rewrite G by lia. exact E3. }
  1-3: assumption.
  cbn [bind]. unfold fa_insert. cbn [to_fa ToFA_vec]. unfold fa_len, fa_is_2d. cbn [rows cols fa_of_vec data].
  rewrite andb_false_r. destruct (Z.ltb_spec 1 (zlen l')); [|lia]. destruct (Z.ltb_spec (zlen l') (1 - 1)); [lia|].
  cbn [andb Z.leb Z.compare Pos.compare Pos.compare_cont bind Z.sub Z.add Z.opp Z.pos_sub Z.to_nat firstn skipn app].
  match goal with |- context [fa_as_2d ?g ldv] => destruct (as_2d_shape ldv v g D) as (r & -> & Sh & ED) end.
  { rewrite !count_zlen in *. cbn [data]. unfold zlen in *. cbn [length]. lia. }
  cbn [bind]. cbn [data] in ED. exists r, beta, tau, v2, v3. split; [reflexivity|]. split; [exact Sh|].
  rewrite !elem_zget, ED. split; [reflexivity|].
  assert (GC : forall p, (0 <= p)%Z -> zget (Fin tau :: l') (p + 1) = zget l' p).
  { intros p Hp. unfold zget. destruct (Z.ltb_spec (p + 1) 0), (Z.ltb_spec p 0); try lia. replace (Z.to_nat (p + 1)) with (S (Z.to_nat p)) by lia. reflexivity. }
  split; [rewrite <- W0; apply (GC 0%Z); lia|]. split; [rewrite <- W1; apply (GC 1%Z); lia|]. split; assumption.
Qed.
Lemma reflect2 ldv (v : fa er) a x2 : dim2 ldv v -> (3 <= count v)%Z -> elem v 2 = Some (Fin x2) ->
  Rabs a <= 2 ^ 505 -> Rabs x2 <= 2 ^ 505 ->
  exists v' beta tau v2, v_reflect 2 (Fin a) 1 ldv v = Ok (v', Fin beta) /\ same_shape v' v /\
    elem v' 1 = Some (Fin tau) /\ elem v' 2 = Some (Fin v2) /\ kills a x2 0 beta tau v2 0.
Proof.
  intros D C E2 Ba B2. unfold v_reflect.
  assert (FV := dim2_full _ _ D).
  assert (P1 : ((1 - 1) * rows v + 2 = 2)%Z) by lia.
  assert (F2 : from2 v 2 1 = Ok (skipn 1 (data v))).
  { unfold from2, from1, slice_from. rewrite P1. unfold full in FV. rewrite FV. rewrite count_zlen in *.
    destruct (Z.leb_spec 2 (zlen (data v))); [|lia]. destruct (Z.ltb_spec (zlen (data v)) (2 - 1)); [lia|]. reflexivity. }
  rewrite F2. cbn [bind]. rewrite elem_zget in E2. rewrite count_zlen in C.
  assert (G : forall p, (0 <= p)%Z -> zget (skipn 1 (data v)) p = zget (data v) (1 + p)) by (intros p Hp; apply (zget_skipn (data v) 1 p); lia).
  assert (L : zlen (skipn 1 (data v)) = (zlen (data v) - 1)%Z) by (apply (zlen_skipn (data v) 1); lia).
  destruct (larfg2 (skipn 1 (data v)) a x2) as (beta & l' & tau & v2 & -> & LL & W0 & K).
  { rewrite G by lia. exact E2. }
  1-2: assumption.
  cbn [bind]. unfold fa_insert. cbn [to_fa ToFA_vec]. unfold fa_len, fa_is_2d. cbn [rows cols fa_of_vec data].
  rewrite andb_false_r. destruct (Z.ltb_spec 1 (zlen l')); [|lia]. destruct (Z.ltb_spec (zlen l') (1 - 1)); [lia|].
  cbn [andb Z.leb Z.compare Pos.compare Pos.compare_cont bind Z.sub Z.add Z.opp Z.pos_sub Z.to_nat firstn skipn app].
  match goal with |- context [fa_as_2d ?g ldv] => destruct (as_2d_shape ldv v g D) as (r & -> & Sh & ED) end.
  { rewrite !count_zlen in *. cbn [data]. unfold zlen in *. cbn [length]. lia. }
  cbn [bind]. cbn [data] in ED. exists r, beta, tau, v2. split; [reflexivity|]. split; [exact Sh|].
  rewrite !elem_zget, ED. split; [reflexivity|].
  assert (GC : forall p, (0 <= p)%Z -> zget (Fin tau :: l') (p + 1) = zget l' p).
  { intros p Hp. unfold zget. destruct (Z.ltb_spec (p + 1) 0), (Z.ltb_spec p 0); try lia. replace (Z.to_nat (p + 1)) with (S (Z.to_nat p)) by lia. reflexivity. }
  split; [rewrite <- W0; apply (GC 0%Z); lia|]. exact K.
Qed.

(** the starting vector: sizes, and its last entry *)
Lemma ratio_le x y s : 0 < s -> Rabs x <= s -> Rabs (y * (x / s)) <= Rabs y.
Proof.
  intros Hs Hx. rewrite Rabs_mult. unfold Rdiv. rewrite Rabs_mult, (Rabs_pos_eq (/ s)) by (apply Rlt_le, Rinv_0_lt_compat; assumption).
  assert (Rabs x * / s <= 1).
  { apply Rmult_le_reg_r with s; [assumption|]. rewrite Rmult_assoc, Rinv_l by lra. lra. }
  pose proof (Rabs_pos y). assert (0 <= Rabs x * / s) by (apply Rmult_le_pos; [apply Rabs_pos|apply Rlt_le, Rinv_0_lt_compat; assumption]). nra.
Qed.
Lemma abs_add a b x y : Rabs a <= x -> Rabs b <= y -> Rabs (a + b) <= x + y.
Proof. pose proof (Rabs_triang a b). lra. Qed.
Lemma abs_sub a b x y : Rabs a <= x -> Rabs b <= y -> Rabs (a - b) <= x + y.
Proof. pose proof (Rabs_triang a (- b)) as H. rewrite Rabs_Ropp in H. unfold Rminus. lra. Qed.
Ltac absle := eapply Rle_trans; [repeat first [eassumption | eapply abs_sub | eapply abs_add]|lra].
Lemma set3_elems (v : fa er) a b c : (3 <= count v)%Z -> elem (set1 (set1 (set1 v 1 a) 2 b) 3 c) 1 = Some a /\
  elem (set1 (set1 (set1 v 1 a) 2 b) 3 c) 2 = Some b /\ elem (set1 (set1 (set1 v 1 a) 2 b) 3 c) 3 = Some c.
Proof.
  intros H. rewrite !set1_get. cbn [Z.eqb Pos.eqb].
  destruct (proj2 (elem_Some v 1) ltac:(lia)) as [? ->], (proj2 (elem_Some v 2) ltac:(lia)) as [? ->], (proj2 (elem_Some v 3) ltac:(lia)) as [? ->].
  repeat split.
Qed.
Lemma set2_elems (v : fa er) a b : (2 <= count v)%Z -> elem (set1 (set1 v 1 a) 2 b) 1 = Some a /\ elem (set1 (set1 v 1 a) 2 b) 2 = Some b.
Proof.
  intros H. rewrite !set1_get. cbn [Z.eqb Pos.eqb].
  destruct (proj2 (elem_Some v 1) ltac:(lia)) as [? ->], (proj2 (elem_Some v 2) ltac:(lia)) as [? ->]. repeat split.
Qed.

Section Start.
  Variables (Hm : Z -> Z -> R) (h v : fa er) (sr1 si1 sr2 si2 B : R).
  Hypotheses (Bs : Rabs sr1 <= B /\ Rabs si1 <= B /\ Rabs sr2 <= B /\ Rabs si2 <= B).

  Lemma start3 : mat_is h 3 3 Hm -> (3 <= count v)%Z -> (forall i j, (1 <= i <= 3)%Z -> (1 <= j <= 3)%Z -> Rabs (Hm i j) <= B) ->
    Hm 2%Z 1%Z <> 0 -> exists w1 w2 w3,
    let r := laqr1_3 h (Fin sr1) (Fin si1) (Fin sr2) (Fin si2) v in
    same_shape r v /\ elem r 1 = Some (Fin w1) /\ elem r 2 = Some (Fin w2) /\ elem r 3 = Some (Fin w3) /\
    Rabs w1 <= 5 * B /\ Rabs w2 <= 5 * B /\ Rabs w3 <= 5 * B /\ (Hm 3%Z 1%Z = 0 -> Hm 3%Z 2%Z <> 0 -> w3 <> 0).
  Proof.
    intros MH Hv BH NZ. unfold laqr1_3.
    rewrite (get2_Some h 1 1 _ (MH 1 1 ltac:(lia) ltac:(lia))%Z), (get2_Some h 2 1 _ (MH 2 1 ltac:(lia) ltac:(lia))%Z),
      (get2_Some h 3 1 _ (MH 3 1 ltac:(lia) ltac:(lia))%Z),
      (get2_Some h 1 2 _ (MH 1 2 ltac:(lia) ltac:(lia))%Z), (get2_Some h 2 2 _ (MH 2 2 ltac:(lia) ltac:(lia))%Z),
      (get2_Some h 3 2 _ (MH 3 2 ltac:(lia) ltac:(lia))%Z),
      (get2_Some h 1 3 _ (MH 1 3 ltac:(lia) ltac:(lia))%Z), (get2_Some h 2 3 _ (MH 2 3 ltac:(lia) ltac:(lia))%Z),
      (get2_Some h 3 3 _ (MH 3 3 ltac:(lia) ltac:(lia))%Z).
    rewrite !er_subE, !er_absE, !er_addE, er_f0, er_eqE, ?er_subE.
    set (s := Rabs (Hm 1%Z 1%Z - sr2) + Rabs si2 + Rabs (Hm 2%Z 1%Z) + Rabs (Hm 3%Z 1%Z)).
    pose proof (Rabs_pos (Hm 1%Z 1%Z - sr2)) as P1. pose proof (Rabs_pos si2) as P2. pose proof (Rabs_pos (Hm 3%Z 1%Z)) as P3.
    apply Rabs_pos_lt in NZ as P4. assert (Ps : 0 < s) by (unfold s; lra). rewrite Req_bool_false by lra.
    rewrite !er_divE by lra. rewrite ?er_subE, ?er_addE, ?er_mulE, ?er_subE, ?er_addE, ?er_mulE, ?er_addE, ?er_subE, ?er_addE.
    match goal with |- context [set1 (set1 (set1 v 1 (Fin ?a)) 2 (Fin ?b)) 3 (Fin ?c)] => exists a, b, c; pose proof (set3_elems v (Fin a) (Fin b) (Fin c) Hv) as (E1 & E2 & E3) end.
    cbv zeta. split; [eapply same_shape_trans; [|eapply same_shape_trans]; apply set1_shape|]. split; [exact E1|]. split; [exact E2|]. split; [exact E3|]. clear E1 E2 E3.
    destruct Bs as (S1 & S2 & S3 & S4).
    pose proof (BH 1 1 ltac:(lia) ltac:(lia))%Z as B11. pose proof (BH 1 2 ltac:(lia) ltac:(lia))%Z as B12. pose proof (BH 1 3 ltac:(lia) ltac:(lia))%Z as B13.
    pose proof (BH 2 2 ltac:(lia) ltac:(lia))%Z as B22. pose proof (BH 2 3 ltac:(lia) ltac:(lia))%Z as B23. pose proof (BH 3 2 ltac:(lia) ltac:(lia))%Z as B32.
    pose proof (BH 3 3 ltac:(lia) ltac:(lia))%Z as B33.
    assert (R1 : forall y, Rabs (y * ((Hm 1%Z 1%Z - sr2) / s)) <= Rabs y) by (intros; apply ratio_le; [assumption|unfold s; lra]).
    assert (R2 : forall y, Rabs (y * (si2 / s)) <= Rabs y) by (intros; apply ratio_le; [assumption|unfold s; lra]).
    assert (R3 : forall y, Rabs (y * (Hm 2%Z 1%Z / s)) <= Rabs y) by (intros; apply ratio_le; [assumption|unfold s; lra]).
    assert (R4 : forall y, Rabs (y * (Hm 3%Z 1%Z / s)) <= Rabs y) by (intros; apply ratio_le; [assumption|unfold s; lra]).
    split; [|split; [|split]].
    - specialize (R1 (Hm 1%Z 1%Z - sr1)). specialize (R2 si1). specialize (R3 (Hm 1%Z 2%Z)). specialize (R4 (Hm 1%Z 3%Z)).
      assert (Rabs (Hm 1%Z 1%Z - sr1) <= 2 * B) by absle. absle.
    - specialize (R3 (Hm 1%Z 1%Z + Hm 2%Z 2%Z - sr1 - sr2)). specialize (R4 (Hm 2%Z 3%Z)). rewrite Rmult_comm in R3.
      assert (Rabs (Hm 1%Z 1%Z + Hm 2%Z 2%Z - sr1 - sr2) <= 4 * B) by absle. absle.
    - specialize (R3 (Hm 3%Z 2%Z)). specialize (R4 (Hm 1%Z 1%Z + Hm 3%Z 3%Z - sr1 - sr2)). rewrite Rmult_comm in R3. rewrite Rmult_comm in R4.
      assert (Rabs (Hm 1%Z 1%Z + Hm 3%Z 3%Z - sr1 - sr2) <= 4 * B) by absle. absle.
    - intros Z31 N32 E. rewrite Z31 in E. assert (Q : Hm 2%Z 1%Z * Hm 3%Z 2%Z = 0).
      { replace (Hm 2%Z 1%Z * Hm 3%Z 2%Z) with ((0 / s * (Hm 1%Z 1%Z + Hm 3%Z 3%Z - sr1 - sr2) + Hm 2%Z 1%Z / s * Hm 3%Z 2%Z) * s) by (field; lra).
        rewrite E. ring. }
      apply Rmult_integral in Q as [Q|Q]; contradiction.
  Qed.

  Lemma start2 : mat_is h 2 2 Hm -> (2 <= count v)%Z -> (forall i j, (1 <= i <= 2)%Z -> (1 <= j <= 2)%Z -> Rabs (Hm i j) <= B) ->
    Hm 2%Z 1%Z <> 0 -> exists w1 w2,
    let r := laqr1_2 h (Fin sr1) (Fin si1) (Fin sr2) (Fin si2) v in
    same_shape r v /\ elem r 1 = Some (Fin w1) /\ elem r 2 = Some (Fin w2) /\ Rabs w1 <= 5 * B /\ Rabs w2 <= 5 * B.
  Proof.
    intros MH Hv BH NZ. unfold laqr1_2.
    rewrite (get2_Some h 1 1 _ (MH 1 1 ltac:(lia) ltac:(lia))%Z), (get2_Some h 2 1 _ (MH 2 1 ltac:(lia) ltac:(lia))%Z),
      (get2_Some h 1 2 _ (MH 1 2 ltac:(lia) ltac:(lia))%Z), (get2_Some h 2 2 _ (MH 2 2 ltac:(lia) ltac:(lia))%Z).
    rewrite !er_subE, !er_absE, !er_addE, er_f0, er_eqE, ?er_subE.
    set (s := Rabs (Hm 1%Z 1%Z - sr2) + Rabs si2 + Rabs (Hm 2%Z 1%Z)).
    pose proof (Rabs_pos (Hm 1%Z 1%Z - sr2)) as P1. pose proof (Rabs_pos si2) as P2.
    apply Rabs_pos_lt in NZ as P4. assert (Ps : 0 < s) by (unfold s; lra). rewrite Req_bool_false by lra.
    rewrite !er_divE by lra. rewrite ?er_subE, ?er_addE, ?er_mulE, ?er_subE, ?er_addE, ?er_mulE, ?er_addE, ?er_subE, ?er_addE.
    match goal with |- context [set1 (set1 v 1 (Fin ?a)) 2 (Fin ?b)] => exists a, b; pose proof (set2_elems v (Fin a) (Fin b) Hv) as (E1 & E2) end.
    cbv zeta. split; [eapply same_shape_trans; apply set1_shape|]. split; [exact E1|]. split; [exact E2|]. clear E1 E2.
    destruct Bs as (S1 & S2 & S3 & S4).
    pose proof (BH 1 1 ltac:(lia) ltac:(lia))%Z as B11. pose proof (BH 1 2 ltac:(lia) ltac:(lia))%Z as B12.
    pose proof (BH 2 2 ltac:(lia) ltac:(lia))%Z as B22.
    assert (R1 : forall y, Rabs (y * ((Hm 1%Z 1%Z - sr2) / s)) <= Rabs y) by (intros; apply ratio_le; [assumption|unfold s; lra]).
    assert (R2 : forall y, Rabs (y * (si2 / s)) <= Rabs y) by (intros; apply ratio_le; [assumption|unfold s; lra]).
    assert (R3 : forall y, Rabs (y * (Hm 2%Z 1%Z / s)) <= Rabs y) by (intros; apply ratio_le; [assumption|unfold s; lra]).
    split.
    - specialize (R1 (Hm 1%Z 1%Z - sr1)). specialize (R2 si1). specialize (R3 (Hm 1%Z 2%Z)). rewrite Rmult_comm in R3.
      pose proof (Rabs_pos sr1). assert (Rabs (Hm 1%Z 1%Z - sr1) <= 2 * B) by absle. absle.
    - specialize (R3 (Hm 1%Z 1%Z + Hm 2%Z 2%Z - sr1 - sr2)). rewrite Rmult_comm in R3. pose proof (Rabs_pos sr1).
      assert (Rabs (Hm 1%Z 1%Z + Hm 2%Z 2%Z - sr1 - sr2) <= 4 * B) by absle. absle.
  Qed.
End Start.
