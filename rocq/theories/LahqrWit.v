(** dlahqr on concrete binary64 matrices. *)
From Coq Require Import Reals Lra Ascii.
From Flocq Require Import Core BinarySingleNaN.
From Verif Require Import Base Num Array Blas Lapack Dlahqr Spec Lists ER SpecR B64.
Local Open Scope Z_scope.

#[local] Instance NBw : Num b64 := B64 ref_libm.

(** a finite binary64 number as a multiple of 2^-1074 *)
Definition b64_scaled (x : b64) : option Z :=
  match x with
  | B754_zero _ => Some 0
  | B754_finite s m e _ => if -1074 <=? e then Some ((if s then Zneg m else Zpos m) * 2 ^ (e + 1074)) else None
  | _ => None
  end.
Lemma b64_scaled_ok x k : b64_scaled x = Some k -> is_finite x = true /\ B2R x = (IZR k * bpow radix2 (-1074)%Z)%R.
Proof.
  destruct x as [s|s| |s m e B]; cbn [b64_scaled is_finite B2R]; try discriminate.
  - intros [= <-]. split; [reflexivity|ring].
  - destruct (Z.leb_spec (-1074) e) as [E|]; [|discriminate]. intros K. assert (K2 : (if s then Zneg m else Zpos m) * 2 ^ (e + 1074) = k) by congruence.
    split; [reflexivity|]. rewrite <- K2, mult_IZR. change 2 with (radix_val radix2). rewrite IZR_Zpower by lia.
    rewrite Rmult_assoc, <- bpow_plus. replace (e + 1074 + -1074) with e by lia. unfold F2R; cbn [Fnum Fexp]. destruct s; reflexivity.
Qed.
Fixpoint all_scaled (l : list b64) : option (list Z) :=
  match l with
  | [] => Some []
  | x :: l => match b64_scaled x, all_scaled l with Some k, Some ks => Some (k :: ks) | _, _ => None end
  end.
Definition rsum (l : list R) : R := fold_right Rplus 0%R l.
Definition rdot (l m : list R) : R := rsum (map (fun p => fst p * snd p)%R (combine l m)).
Lemma all_scaled_sum l ks : all_scaled l = Some ks -> Forall (fun x => is_finite x = true) l /\
  rsum (map B2R l) = (IZR (fold_right Z.add 0%Z ks) * bpow radix2 (-1074)%Z)%R.
Proof.
  revert ks. induction l as [|x l IH]; intros ks; cbn [all_scaled].
  - intros E. injection E as <-. split; [constructor|]. unfold rsum. cbn [fold_right map]. ring.
  - destruct (b64_scaled x) as [k|] eqn:E; [|discriminate]. destruct (all_scaled l) as [ks'|]; [|discriminate]. intros K.
    assert (K2 : k :: ks' = ks) by congruence. subst ks. apply b64_scaled_ok in E as [F E]. destruct (IH ks' eq_refl) as [FF S].
    split; [constructor; assumption|]. unfold rsum in *. cbn [fold_right map]. rewrite E, S, plus_IZR. ring.
Qed.
Definition zdot (l m : list Z) : Z := fold_right Z.add 0 (map (fun p => fst p * snd p) (combine l m)).
Lemma all_scaled_dot l ks : all_scaled l = Some ks -> forall m js, all_scaled m = Some js ->
  rdot (map B2R l) (map B2R m) = (IZR (zdot ks js) * bpow radix2 (-2148)%Z)%R.
Proof.
  revert ks. unfold rdot, rsum, zdot. induction l as [|x l IH]; intros ks; cbn [all_scaled].
  - intros E. injection E as <-. intros m js _. cbn [map combine fold_right]. ring.
  - destruct (b64_scaled x) as [k|] eqn:E; [|discriminate]. destruct (all_scaled l) as [ks'|]; [|discriminate]. intros K.
    assert (K2 : k :: ks' = ks) by congruence. subst ks. apply b64_scaled_ok in E as [_ E].
    intros [|y m] js; cbn [all_scaled].
    + intros J. injection J as <-. cbn [map combine fold_right]. ring.
    + destruct (b64_scaled y) as [j|] eqn:Ey; [|discriminate]. destruct (all_scaled m) as [js'|] eqn:Em; [|discriminate]. intros J.
      assert (J2 : j :: js' = js) by congruence. subst js. apply b64_scaled_ok in Ey as [_ Ey].
      cbn [map combine fold_right fst snd]. rewrite (IH ks' eq_refl m js' Em), E, Ey, plus_IZR, mult_IZR.
      replace (bpow radix2 (-2148)) with (bpow radix2 (-1074) * bpow radix2 (-1074))%R by (rewrite <- bpow_plus; reflexivity). ring.
Qed.

(** integer matrices, listed by columns as the crate stores Vec<Vec<f64>> *)
Definition zmat (l : list (list Z)) : list (list b64) := map (map (fun z => fofZ z)) l.
Definition H3 : list (list b64) := zmat [[1; 2; 0]; [3; 4; 5]; [6; 7; 9]].
Definition Z3 : list (list b64) := zmat [[1; 0; 0]; [0; 1; 0]; [0; 0; 1]].
Definition zeros (k : nat) : list b64 := repeat (fofZ 0) k.
Definition H4 : list (list b64) := zmat [[1; 2; 0; 0]; [3; 4; 5; 0]; [6; 7; 9; 1]; [2; 1; 3; 8]].
Definition Z4 : list (list b64) := zmat [[1; 0; 0; 0]; [0; 1; 0; 0]; [0; 0; 1; 0]; [0; 0; 0; 1]].

Lemma hq_no_schur_wrong : exists h' wr' wi' z',
  dlahqr 12 false false 3 1 3 H3 3 (zeros 3) (zeros 3) 1 3 Z3 3 = Ok (h', wr', wi', z', 0) /\
  Forall (fun x => is_finite x = true) wr' /\ (rsum (map B2R wr') < -10)%R.
Proof.
  set (o := dlahqr _ _ _ _ _ _ _ _ _ _ _ _ _ _).
  assert (T : match o with
    | Ok (h', wr', wi', z', i) => (i =? 0) && match all_scaled wr' with Some ks => fold_right Z.add 0 ks <? -10 * 2 ^ 1074 | None => false end
    | _ => false end = true) by (vm_compute; reflexivity).
  revert T. destruct o as [[[[[h' wr'] wi'] z'] i]| | |]; try discriminate. intros T. apply andb_prop in T as [T1 T2].
  destruct (all_scaled wr') as [ks|] eqn:E; [|discriminate]. destruct (all_scaled_sum _ _ E) as [FF S].
  apply Z.eqb_eq in T1. subst i. exists h', wr', wi', z'. split; [reflexivity|]. split; [exact FF|]. rewrite S.
  apply Z.ltb_lt in T2. apply IZR_lt in T2. rewrite mult_IZR in T2. change 2 with (radix_val radix2) in T2. rewrite IZR_Zpower in T2 by lia.
  assert (P : (0 < bpow radix2 (-1074)%Z)%R) by apply bpow_gt_0.
  apply Rmult_lt_compat_r with (1 := P) in T2. rewrite (Rmult_assoc (-10)), <- bpow_plus in T2. change (bpow radix2 (1074 + -1074)) with 1%R in T2. lra.
Qed.

Definition row (l : list (list b64)) (i : nat) : list b64 := map (fun c => nth i c (fofZ 0)) l.
Definition col (l : list (list b64)) (j : nat) : list b64 := nth j l [].
Definition zres (h z t : list (list b64)) (i j : nat) : option Z :=
  match all_scaled (row h i), all_scaled (col z j), all_scaled (row z i), all_scaled (col t j) with
  | Some a, Some b, Some c, Some d => Some (zdot a b - zdot c d)
  | _, _, _, _ => None
  end.
Lemma hq_schur_wrong : exists t wr' wi' z',
  dlahqr 12 true true 4 1 4 H4 4 (zeros 4) (zeros 4) 1 4 Z4 4 = Ok (t, wr', wi', z', 0) /\
  (rdot (map B2R (row H4 1)) (map B2R (col z' 3)) - rdot (map B2R (row z' 1)) (map B2R (col t 3)) > 1)%R.
Proof.
  set (o := dlahqr _ _ _ _ _ _ _ _ _ _ _ _ _ _).
  assert (T : match o with
    | Ok (t, wr', wi', z', i) => (i =? 0) && match zres H4 z' t 1 3 with Some k => 2 ^ 2148 <? k | None => false end
    | _ => false end = true) by (vm_compute; reflexivity).
  revert T. destruct o as [[[[[t wr'] wi'] z'] i]| | |]; try discriminate. intros T. apply andb_prop in T as [T1 T2].
  apply Z.eqb_eq in T1. subst i. exists t, wr', wi', z'. split; [reflexivity|]. revert T2. unfold zres.
  destruct (all_scaled (row H4 1)) as [ka|] eqn:Ea; [|discriminate]. destruct (all_scaled (col z' 3)) as [kb|] eqn:Eb; [|discriminate].
  destruct (all_scaled (row z' 1)) as [kc|] eqn:Ec; [|discriminate]. destruct (all_scaled (col t 3)) as [kd|] eqn:Ed; [|discriminate].
  intros T2. rewrite (all_scaled_dot _ _ Ea _ _ Eb), (all_scaled_dot _ _ Ec _ _ Ed), <- Rmult_minus_distr_r, <- minus_IZR.
  apply Z.ltb_lt in T2. apply IZR_lt in T2. change 2 with (radix_val radix2) in T2. rewrite IZR_Zpower in T2 by lia.
  assert (P : (0 < bpow radix2 (-2148))%R) by apply bpow_gt_0.
  apply Rmult_lt_compat_r with (1 := P) in T2. rewrite <- bpow_plus in T2. change (bpow radix2 (2148 + -2148)) with 1%R in T2. lra.
Qed.
