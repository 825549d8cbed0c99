(** The binary64 witnesses hold for every libm that meets the contract. *)
From Coq Require Import Reals Lra Ascii.
From Flocq Require Import Core BinarySingleNaN.
From Verif Require Import Base Num Array Blas Lapack Dlahqr Dlaqr5 Spec SpecR B64 ER LibmFree LahqrWit Laqr5Wit.
Local Open Scope Z_scope.

Ltac to_ref lm LM := cbv zeta;
  rewrite ?(dlahqr_libm lm ref_libm LM ref_libm_ok), ?(dlaqr5_libm lm ref_libm LM ref_libm_ok),
          ?(ToFA_vec_libm lm ref_libm), ?(ToFA_nested_libm lm ref_libm), ?(FromFA_nested_libm lm ref_libm).

Lemma hq_no_schur_wrong_any lm : libm_ok lm -> let NB : Num b64 := B64 lm in exists h' wr' wi' z',
  dlahqr 12 false false 3 1 3 H3 3 (zeros 3) (zeros 3) 1 3 Z3 3 = Ok (h', wr', wi', z', 0) /\
  Forall (fun x => is_finite x = true) wr' /\ (rsum (map B2R wr') < -10)%R.
Proof. intros LM. to_ref lm LM. exact hq_no_schur_wrong. Qed.
Lemma hq_schur_wrong_any lm : libm_ok lm -> let NB : Num b64 := B64 lm in exists t wr' wi' z',
  dlahqr 12 true true 4 1 4 H4 4 (zeros 4) (zeros 4) 1 4 Z4 4 = Ok (t, wr', wi', z', 0) /\
  (rdot (map B2R (row H4 1)) (map B2R (col z' 3)) - rdot (map B2R (row z' 1)) (map B2R (col t 3)) > 1)%R.
Proof. intros LM. to_ref lm LM. exact hq_schur_wrong. Qed.
Lemma q5_v_shrinks_any lm : libm_ok lm -> let NB : Num b64 := B64 lm in
  dlaqr5 true true 0 4 1 4 4 (zvec [1; 2; 3; 4]) (zeros 4) K4 4 1 4 Z4 4 (zeros 6) 3 (zsq 8) 8 8 (zsq 8) 8 8 (zsq 8) 8 = Panic /\
  exists h' z' v' u' wv' wh',
    dlaqr5 true true 0 4 1 4 4 (zvec [1; 2; 3; 4]) (zeros 4) K4 4 1 4 Z4 4 (zeros 24) 3 (zsq 8) 8 8 (zsq 8) 8 8 (zsq 8) 8 = Ok (h', z', v', u', wv', wh') /\
    length v' = 12%nat.
Proof. intros LM. to_ref lm LM. exact q5_v_shrinks. Qed.
Lemma q5_h_reshaped_any lm : libm_ok lm -> let NB : Num b64 := B64 lm in exists h' z' v' u' wv' wh',
  dlaqr5 true true 1 3 1 2 2 (zvec [1; 2]) (zeros 2) K3f 4 1 3 Z3 3 (zeros 3) 3 (zsq 4) 4 4 (zsq 4) 4 4 (zsq 4) 4 = Ok (h', z', v', u', wv', wh') /\
  rows K3f = 4 /\ cols K3f = 3 /\ rows h' = 3 /\ cols h' = 4.
Proof. intros LM. to_ref lm LM. exact q5_h_reshaped. Qed.
Lemma q5_z_wrong_any lm : libm_ok lm -> let NB : Num b64 := B64 lm in exists h' z' v' u' wv' wh',
  dlaqr5 true true 0 2 1 2 2 (zvec [1; 2]) (zeros 2) K2 2 1 2 Z2 2 (zeros 3) 3 (zsq 4) 4 4 (zsq 4) 4 4 (zsq 4) 4 = Ok (h', z', v', u', wv', wh') /\
  (rdot (map B2R (row K2 1)) (map B2R (col z' 1)) - rdot (map B2R (row z' 1)) (map B2R (col h' 1)) > 3)%R.
Proof. intros LM. to_ref lm LM. exact q5_z_wrong. Qed.
Lemma q5_ldz_wrong_any lm : libm_ok lm -> let NB : Num b64 := B64 lm in exists h' z' v' u' wv' wh',
  dlaqr5 true true 1 6 1 6 2 (zvec [1; 2]) (zeros 2) K6 7 1 6 I6 6 (zeros 3) 3 (zsq 4) 4 4 (zsq 4) 4 4 (zsq 4) 4 = Ok (h', z', v', u', wv', wh') /\
  (rsum (map B2R (map (at_ld 7 h') [0; 1; 2; 3; 4; 5]%nat)) < 20)%R /\ (rsum (map B2R (map (at_ld 6 h') [0; 1; 2; 3; 4; 5]%nat)) < 0)%R.
Proof. intros LM. to_ref lm LM. exact q5_ldz_wrong. Qed.
Lemma q5_four_wrong_any lm : libm_ok lm -> let NB : Num b64 := B64 lm in exists h' z' v' u' wv' wh',
  dlaqr5 true true 0 4 1 4 4 (zvec [1; 2; 3; 4]) (zeros 4) K4 4 1 4 Z4 4 (zeros 24) 3 (zsq 8) 8 8 (zsq 8) 8 8 (zsq 8) 8 = Ok (h', z', v', u', wv', wh') /\
  length v' = 12%nat /\ rsum (map B2R (diag K4)) = 13%R /\ (rsum (map B2R (diag h')) > 13.5)%R.
Proof. intros LM. to_ref lm LM. exact q5_four_wrong. Qed.
