(** dlaqr5 on a reducible Hessenberg matrix, binary64. *)
From Coq Require Import Reals Lra Ascii.
From Flocq Require Import Core BinarySingleNaN.
From Verif Require Import Base Num Array Blas Lapack Dlaqr5 Spec Lists ER SpecR B64 LahqrWit Laqr5Wit WitLibm.
Local Open Scope Z_scope.

#[local] Instance NBc : Num b64 := B64 ref_libm.

(** 4-by-4 Hessenberg, subdiagonal 0, 2, 2, diagonal 5, 3, 7, 4 *)
Definition R4 : list (list b64) := zmat [[5; 0; 0; 0]; [1; 3; 2; 0]; [1; 1; 7; 2]; [1; 1; 1; 4]].

Lemma q5_reducible_wrong kacc22 : kacc22 = 0 \/ kacc22 = 1 -> exists h' z' v' u' wv' wh',
  dlaqr5 true true kacc22 4 1 4 2 (zvec [1; 2]) (zeros 2) R4 4 1 4 Z4 4 (zeros 3) 3 (zsq 4) 4 4 (zsq 4) 4 4 (zsq 4) 4 = Ok (h', z', v', u', wv', wh') /\
  Forall (fun x => is_finite x = true) (diag h' ++ col z' 1) /\
  rsum (map B2R (diag R4)) = 19%R /\ (rsum (map B2R (diag h')) < 17)%R /\ (rdot (map B2R (col z' 1)) (map B2R (col z' 1)) < / 4)%R.
Proof.
  intros K. set (o := dlaqr5 _ _ _ _ _ _ _ _ _ _ _ _ _ _ _ _ _ _ _ _ _ _ _ _ _).
  assert (T : match o with
    | Ok (h', z', v', u', wv', wh') =>
        match all_scaled (diag h'), all_scaled (col z' 1) with Some ks, Some zs =>
          (fold_right Z.add 0 ks <? 17 * 2 ^ 1074) && (zdot zs zs <? 2 ^ 2146) | _, _ => false end
    | _ => false end = true) by (destruct K as [-> | ->]; vm_compute; reflexivity).
  revert T. destruct o as [[[[[[h' z'] v'] u'] wv'] wh']| | |]; try discriminate.
  destruct (all_scaled (diag h')) as [ks|] eqn:E; [|discriminate]. destruct (all_scaled (col z' 1)) as [zs|] eqn:Ez; [|discriminate].
  intros T. apply andb_prop in T as [T1 T2]. destruct (all_scaled_sum _ _ E) as [F1 S]. destruct (all_scaled_sum _ _ Ez) as [F2 _].
  exists h', z', v', u', wv', wh'. split; [reflexivity|]. split; [apply Forall_app; split; assumption|].
  assert (X : all_scaled (diag R4) = Some (map (fun z => z * 2 ^ 1074) [5; 3; 7; 4])) by (vm_compute; reflexivity).
  destruct (all_scaled_sum _ _ X) as [_ S4]. rewrite S, S4, (all_scaled_dot _ _ Ez _ _ Ez). clear S S4 X E Ez F1 F2.
  assert (P : (0 < bpow radix2 (-1074)%Z)%R) by apply bpow_gt_0. assert (P2 : (0 < bpow radix2 (-2148)%Z)%R) by apply bpow_gt_0. split; [|split].
  - cbn [map fold_right]. replace (5 * 2 ^ 1074 + (3 * 2 ^ 1074 + (7 * 2 ^ 1074 + (4 * 2 ^ 1074 + 0)))) with (19 * 2 ^ 1074) by ring.
    rewrite mult_IZR. change 2 with (radix_val radix2). rewrite IZR_Zpower by lia. rewrite Rmult_assoc, <- bpow_plus.
    change (bpow radix2 (1074 + -1074)) with 1%R. ring.
  - apply Z.ltb_lt in T1. apply IZR_lt in T1. rewrite mult_IZR in T1. change 2 with (radix_val radix2) in T1. rewrite IZR_Zpower in T1 by lia.
    apply Rmult_lt_compat_r with (1 := P) in T1. rewrite (Rmult_assoc 17), <- bpow_plus in T1. change (bpow radix2 (1074 + -1074)) with 1%R in T1. lra.
  - apply Z.ltb_lt in T2. apply IZR_lt in T2. change 2 with (radix_val radix2) in T2. rewrite IZR_Zpower in T2 by lia.
    apply Rmult_lt_compat_r with (1 := P2) in T2. rewrite <- bpow_plus in T2. change (bpow radix2 (2146 + -2148)) with (/ 4)%R in T2. exact T2.
Qed.

Lemma q5_reducible_wrong_any lm kacc22 : libm_ok lm -> kacc22 = 0 \/ kacc22 = 1 -> let NB : Num b64 := B64 lm in exists h' z' v' u' wv' wh',
  dlaqr5 true true kacc22 4 1 4 2 (zvec [1; 2]) (zeros 2) R4 4 1 4 Z4 4 (zeros 3) 3 (zsq 4) 4 4 (zsq 4) 4 4 (zsq 4) 4 = Ok (h', z', v', u', wv', wh') /\
  Forall (fun x => is_finite x = true) (diag h' ++ col z' 1) /\
  rsum (map B2R (diag R4)) = 19%R /\ (rsum (map B2R (diag h')) < 17)%R /\ (rdot (map B2R (col z' 1)) (map B2R (col z' 1)) < / 4)%R.
Proof. intros LM K. to_ref lm LM. exact (q5_reducible_wrong kacc22 K). Qed.
