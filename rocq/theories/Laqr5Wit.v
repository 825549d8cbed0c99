(** dlaqr5 on concrete binary64 matrices. *)
From Coq Require Import Reals Lra Ascii.
From Flocq Require Import Core BinarySingleNaN.
From Verif Require Import Base Num Array Blas Lapack Dlaqr5 Spec Lists ER SpecR B64 LahqrWit.
Local Open Scope Z_scope.

#[local] Instance NBq : Num b64 := B64 ref_libm.

Definition zvec (l : list Z) : list b64 := map (fun z => fofZ z) l.
Definition Z2 : list (list b64) := zmat [[1; 0]; [0; 1]].
Definition K2 : list (list b64) := zmat [[1; 2]; [3; 4]].
(** columns (1,2,0), (3,4,0), (5,6,7), stored with leading dimension 4 *)
Definition K3 : list b64 := zvec [1; 2; 0; 0; 3; 4; 0; 0; 5; 6; 7; 0].
(** a 6-by-6 Hessenberg matrix with diagonal 1, 4, 9, 8, 7, 7, stored with leading dimension 7 *)
Definition K6 : list b64 := zvec [1; 2; 0; 0; 0; 0; 0;  3; 4; 5; 0; 0; 0; 0;  6; 7; 9; 1; 0; 0; 0;
  2; 1; 3; 8; 2; 0; 0;  1; 4; 2; 3; 7; 4; 0;  2; 3; 4; 5; 6; 7; 0].
Definition I6 : list b64 := zvec [1; 0; 0; 0; 0; 0;  0; 1; 0; 0; 0; 0;  0; 0; 1; 0; 0; 0;  0; 0; 0; 1; 0; 0;  0; 0; 0; 0; 1; 0;  0; 0; 0; 0; 0; 1].
Definition K3f : fa b64 := mkFA K3 4 3 fnan.
Definition K4 : list (list b64) := zmat [[1; 2; 0; 0]; [3; 4; 5; 0]; [1; 7; 2; 3]; [4; 3; 1; 6]].
Definition zsq (k : nat) : list (list b64) := repeat (zeros k) k.
Definition diag (m : list (list b64)) : list b64 := map (fun i => nth i (nth i m []) (fofZ 0)) (seq 0 (length m)).

(** one column of three rows per pair of shifts is not enough storage for four shifts *)
Lemma q5_four_panics : dlaqr5 true true 0 4 1 4 4 (zvec [1; 2; 3; 4]) (zeros 4) K4 4 1 4 Z4 4 (zeros 6) 3 (zsq 8) 8 8 (zsq 8) 8 8 (zsq 8) 8 = Panic.
Proof. vm_compute. reflexivity. Qed.

(** with more storage the returned V is shorter and the trace of H has changed *)
Lemma q5_four_wrong : exists h' z' v' u' wv' wh',
  dlaqr5 true true 0 4 1 4 4 (zvec [1; 2; 3; 4]) (zeros 4) K4 4 1 4 Z4 4 (zeros 24) 3 (zsq 8) 8 8 (zsq 8) 8 8 (zsq 8) 8 = Ok (h', z', v', u', wv', wh') /\
  length v' = 12%nat /\ rsum (map B2R (diag K4)) = 13%R /\ (rsum (map B2R (diag h')) > 13.5)%R.
Proof.
  set (o := dlaqr5 _ _ _ _ _ _ _ _ _ _ _ _ _ _ _ _ _ _ _ _ _ _ _ _ _).
  assert (T : match o with
    | Ok (h', z', v', u', wv', wh') => Nat.eqb (length v') 12 && match all_scaled (diag h') with Some ks => 27 * 2 ^ 1073 <? fold_right Z.add 0 ks | None => false end
    | _ => false end = true) by (vm_compute; reflexivity).
  revert T. destruct o as [[[[[[h' z'] v'] u'] wv'] wh']| | |]; try discriminate. intros T. apply andb_prop in T as [T1 T2].
  destruct (all_scaled (diag h')) as [ks|] eqn:E; [|discriminate]. destruct (all_scaled_sum _ _ E) as [_ S].
  apply Nat.eqb_eq in T1. exists h', z', v', u', wv', wh'. split; [reflexivity|]. split; [exact T1|].
  assert (X : all_scaled (diag K4) = Some (map (fun z => z * 2 ^ 1074) [1; 4; 2; 6])) by (vm_compute; reflexivity).
  destruct (all_scaled_sum _ _ X) as [_ S4]. rewrite S, S4. clear S S4 X E T1.
  assert (P : (0 < bpow radix2 (-1074)%Z)%R) by apply bpow_gt_0. split.
  - cbn [map fold_right]. replace (1 * 2 ^ 1074 + (4 * 2 ^ 1074 + (2 * 2 ^ 1074 + (6 * 2 ^ 1074 + 0)))) with (13 * 2 ^ 1074) by ring.
    rewrite mult_IZR. change 2 with (radix_val radix2). rewrite IZR_Zpower by lia. rewrite Rmult_assoc, <- bpow_plus.
    change (bpow radix2 (1074 + -1074)) with 1%R. ring.
  - apply Z.ltb_lt in T2. apply IZR_lt in T2. rewrite mult_IZR in T2. change 2 with (radix_val radix2) in T2. rewrite IZR_Zpower in T2 by lia.
    apply Rmult_lt_compat_r with (1 := P) in T2. rewrite (Rmult_assoc 27), <- bpow_plus in T2. change (bpow radix2 (1073 + -1074)) with (/ 2)%R in T2. lra.
Qed.

(** accumulating, ldh = 4 and ldz = 3: the 4-by-3 H comes back 3-by-4 *)
Lemma q5_h_reshaped : exists h' z' v' u' wv' wh',
  dlaqr5 true true 1 3 1 2 2 (zvec [1; 2]) (zeros 2) K3f 4 1 3 Z3 3 (zeros 3) 3 (zsq 4) 4 4 (zsq 4) 4 4 (zsq 4) 4 = Ok (h', z', v', u', wv', wh') /\
  rows K3f = 4 /\ cols K3f = 3 /\ rows h' = 3 /\ cols h' = 4.
Proof.
  set (o := dlaqr5 _ _ _ _ _ _ _ _ _ _ _ _ _ _ _ _ _ _ _ _ _ _ _ _ _).
  assert (T : match o with
    | Ok (h', z', v', u', wv', wh') => (rows h' =? 3) && (cols h' =? 4)
    | _ => false end = true) by (vm_compute; reflexivity).
  revert T. destruct o as [[[[[[h' z'] v'] u'] wv'] wh']| | |]; try discriminate. intros T. apply andb_prop in T as [T1 T2].
  apply Z.eqb_eq in T1, T2. exists h', z', v', u', wv', wh'. split; [reflexivity|]. split; [reflexivity|]. split; [reflexivity|]. split; assumption.
Qed.

(** a 2-by-2 matrix, Z = I, not accumulating: H*Z' and Z'*H' differ by more than 3 in entry (2,2) *)
Lemma q5_z_wrong : exists h' z' v' u' wv' wh',
  dlaqr5 true true 0 2 1 2 2 (zvec [1; 2]) (zeros 2) K2 2 1 2 Z2 2 (zeros 3) 3 (zsq 4) 4 4 (zsq 4) 4 4 (zsq 4) 4 = Ok (h', z', v', u', wv', wh') /\
  (rdot (map B2R (row K2 1)) (map B2R (col z' 1)) - rdot (map B2R (row z' 1)) (map B2R (col h' 1)) > 3)%R.
Proof.
  set (o := dlaqr5 _ _ _ _ _ _ _ _ _ _ _ _ _ _ _ _ _ _ _ _ _ _ _ _ _).
  assert (T : match o with
    | Ok (h', z', v', u', wv', wh') => match zres K2 z' h' 1 1 with Some k => 3 * 2 ^ 2148 <? k | None => false end
    | _ => false end = true) by (vm_compute; reflexivity).
  revert T. destruct o as [[[[[[h' z'] v'] u'] wv'] wh']| | |]; try discriminate. intros T2.
  exists h', z', v', u', wv', wh'. split; [reflexivity|]. revert T2. unfold zres.
  destruct (all_scaled (row K2 1)) as [ka|] eqn:Ea; [|discriminate]. destruct (all_scaled (col z' 1)) as [kb|] eqn:Eb; [|discriminate].
  destruct (all_scaled (row z' 1)) as [kc|] eqn:Ec; [|discriminate]. destruct (all_scaled (col h' 1)) as [kd|] eqn:Ed; [|discriminate].
  intros T2. rewrite (all_scaled_dot _ _ Ea _ _ Eb), (all_scaled_dot _ _ Ec _ _ Ed), <- Rmult_minus_distr_r, <- minus_IZR.
  apply Z.ltb_lt in T2. apply IZR_lt in T2. rewrite mult_IZR in T2. change 2 with (radix_val radix2) in T2. rewrite IZR_Zpower in T2 by lia.
  assert (P : (0 < bpow radix2 (-2148))%R) by apply bpow_gt_0.
  apply Rmult_lt_compat_r with (1 := P) in T2. rewrite (Rmult_assoc 3), <- bpow_plus in T2. change (bpow radix2 (2148 + -2148)) with 1%R in T2. lra.
Qed.

(** accumulating, ldh = 7 and ldz = 6: the trace of the returned matrix is not 36, read with either leading dimension *)
Definition at_ld (ld : nat) (m : list b64) (i : nat) : b64 := nth (i * ld + i)%nat m (fofZ 0).
Lemma q5_ldz_wrong : exists h' z' v' u' wv' wh',
  dlaqr5 true true 1 6 1 6 2 (zvec [1; 2]) (zeros 2) K6 7 1 6 I6 6 (zeros 3) 3 (zsq 4) 4 4 (zsq 4) 4 4 (zsq 4) 4 = Ok (h', z', v', u', wv', wh') /\
  (rsum (map B2R (map (at_ld 7 h') [0; 1; 2; 3; 4; 5]%nat)) < 20)%R /\ (rsum (map B2R (map (at_ld 6 h') [0; 1; 2; 3; 4; 5]%nat)) < 0)%R.
Proof.
  set (o := dlaqr5 _ _ _ _ _ _ _ _ _ _ _ _ _ _ _ _ _ _ _ _ _ _ _ _ _).
  assert (T : match o with
    | Ok (h', z', v', u', wv', wh') => match all_scaled (map (at_ld 7 h') [0; 1; 2; 3; 4; 5]%nat), all_scaled (map (at_ld 6 h') [0; 1; 2; 3; 4; 5]%nat) with
       | Some ks, Some js => (fold_right Z.add 0 ks <? 20 * 2 ^ 1074) && (fold_right Z.add 0 js <? 0 * 2 ^ 1074) | _, _ => false end
    | _ => false end = true) by (vm_compute; reflexivity).
  revert T. destruct o as [[[[[[h' z'] v'] u'] wv'] wh']| | |]; try discriminate.
  destruct (all_scaled (map (at_ld 7 h') [0; 1; 2; 3; 4; 5]%nat)) as [ks|] eqn:E; [|discriminate].
  destruct (all_scaled (map (at_ld 6 h') [0; 1; 2; 3; 4; 5]%nat)) as [js|] eqn:E2; [|discriminate].
  destruct (all_scaled_sum _ _ E) as [_ S]. destruct (all_scaled_sum _ _ E2) as [_ S2]. intros T. apply andb_prop in T as [T1 T2].
  exists h', z', v', u', wv', wh'. split; [reflexivity|]. rewrite S, S2. clear S S2 E E2.
  assert (P : (0 < bpow radix2 (-1074)%Z)%R) by apply bpow_gt_0.
  split; [clear T2; rename T1 into T|clear T1; rename T2 into T]; apply Z.ltb_lt in T; apply IZR_lt in T; rewrite mult_IZR in T;
    change 2 with (radix_val radix2) in T; rewrite IZR_Zpower in T by lia;
    apply Rmult_lt_compat_r with (1 := P) in T; rewrite ?(Rmult_assoc 20), ?(Rmult_assoc 0), <- bpow_plus in T; change (bpow radix2 (1074 + -1074)) with 1%R in T; lra.
Qed.

Lemma q5_v_shrinks :
  dlaqr5 true true 0 4 1 4 4 (zvec [1; 2; 3; 4]) (zeros 4) K4 4 1 4 Z4 4 (zeros 6) 3 (zsq 8) 8 8 (zsq 8) 8 8 (zsq 8) 8 = Panic /\
  exists h' z' v' u' wv' wh',
    dlaqr5 true true 0 4 1 4 4 (zvec [1; 2; 3; 4]) (zeros 4) K4 4 1 4 Z4 4 (zeros 24) 3 (zsq 8) 8 8 (zsq 8) 8 8 (zsq 8) 8 = Ok (h', z', v', u', wv', wh') /\
    length v' = 12%nat.
Proof.
  split; [exact q5_four_panics|]. destruct q5_four_wrong as (a & b & c & d & e & f & E & L & _). exists a, b, c, d, e, f. split; [exact E|exact L].
Qed.
