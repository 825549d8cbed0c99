(** The crate's own unit-test vectors (the [mod tests] of each file in /repo/src), run through the
    model in binary64 and compared the way the Rust test compares them.  These are tests of the
    transcription, not theorems about the properties.  Decimal literals are written as the exact
    dyadic value of the nearest double.  The FortranArray tests are at the end. *)
From Coq Require Import Ascii.
From Verif Require Import Base Num Array Blas Lapack Dlahqr Dlaqr5 B64.

#[local] Existing Instance B64.
#[local] Instance NB : Num b64 := B64 ref_libm.

Definition okb {A} (eqb : A -> A -> bool) (o : outcome A) (x : A) : bool :=
  match o with Ok a => eqb a x | _ => false end.
Definition okb2 {A B} (eqb : A -> B -> bool) (o : outcome A) (x : B) : bool :=
  match o with Ok a => eqb a x | _ => false end.
Fixpoint nest_feq (a b : list (list b64)) : bool :=
  match a, b with
  | [], [] => true
  | x :: a', y :: b' => list_feq x y && nest_feq a' b'
  | _, _ => false
  end.
Definition hq_feq (p q : list (list b64) * list b64 * list b64 * list (list b64) * Z) : bool :=
  let '(h, wr, wi, z, i) := p in
  let '(h', wr', wi', z', i') := q in
  nest_feq h h' && list_feq wr wr' && list_feq wi wi' && nest_feq z z' && (i =? i').
Notation nst := (list (list b64)).
Definition q5_feq (p q : nst * nst * nst * nst * nst * nst) : bool :=
  let '(a, b, c, d, e, f) := p in
  let '(a', b', c', d', e', f') := q in
  nest_feq a a' && nest_feq b b' && nest_feq c c' && nest_feq d d' && nest_feq e e' && nest_feq f f'.

Example t_dcopy_1 : okb list_feq (dcopy (0) [f0] (1) [f0] (1)) [f0] = true.
Proof. vm_compute. reflexivity. Qed.

Example t_dcopy_2 : okb list_feq (dcopy (1) [(fdy (1) (0)); (fdy (1) (1)); (fdy (3) (0))] (1) [f0; f0; f0] (1)) [(fdy (1) (0)); f0; f0] = true.
Proof. vm_compute. reflexivity. Qed.

Example t_dcopy_3 : okb list_feq (dcopy (2) [(fdy (1) (0)); (fdy (1) (1)); (fdy (3) (0)); (fdy (1) (2)); (fdy (5) (0)); (fdy (3) (1)); (fdy (7) (0)); (fdy (1) (3))] (2) [f0; f0; f0; f0; f0; f0; f0; f0] (2)) [(fdy (1) (0)); f0; (fdy (3) (0)); f0; f0; f0; f0; f0] = true.
Proof. vm_compute. reflexivity. Qed.

Example t_dcopy_4 : okb list_feq (dcopy (3) [(fdy (2476979795053773) (-51)); (fdy (2476979795053773) (-50)); (fdy (3715469692580659) (-50)); (fdy (2476979795053773) (-49))] (1) [f0; f0; f0; f0] (1)) [(fdy (2476979795053773) (-51)); (fdy (2476979795053773) (-50)); (fdy (3715469692580659) (-50)); f0] = true.
Proof. vm_compute. reflexivity. Qed.

Example t_dcopy_5 : okb list_feq (dcopy (4) [(fdy (11) (-1)); (fdy (3715469692580659) (-49)); (fdy (8669429282688205) (-50)); (fdy (2476979795053773) (-48))] (2) [f0; f0; f0; f0] (3)) [(fdy (11) (-1)); f0; f0; (fdy (8669429282688205) (-50))] = true.
Proof. vm_compute. reflexivity. Qed.

Example t_dcopy_6 : okb list_feq (dcopy (5) [(fdy (5573204538870989) (-49)); (fdy (5685794529555251) (-49)); (fdy (6248744482976563) (-49)); (fdy (6811694436397875) (-49))] (4) [f0; f0; f0; f0] (4)) [(fdy (5573204538870989) (-49)); f0; f0; f0] = true.
Proof. vm_compute. reflexivity. Qed.

Example t_dscal_1 : okb list_feq (dscal (0) (fdy (1) (0)) ([]:list b64) (1)) [] = true.
Proof. vm_compute. reflexivity. Qed.

Example t_dscal_2 : okb list_feq (dscal (1) (fdy (1) (1)) ([(fdy (1) (0))]:list b64) (1)) [(fdy (1) (1))] = true.
Proof. vm_compute. reflexivity. Qed.

Example t_dscal_3 : okb list_feq (dscal (2) (fdy (-1) (0)) ([(fdy (1) (0)); (fdy (1) (1))]:list b64) (1)) [(fdy (-1) (0)); (fdy (-1) (1))] = true.
Proof. vm_compute. reflexivity. Qed.

Example t_dscal_4 : okb list_feq (dscal (5) f0 ([(fdy (1) (0)); (fdy (1) (1)); (fdy (3) (0)); (fdy (1) (2)); (fdy (5) (0))]:list b64) (1)) [f0; f0; f0; f0; f0] = true.
Proof. vm_compute. reflexivity. Qed.

Example t_dscal_5 : okb list_feq (dscal (3) (fdy (5) (0)) ([(fdy (1) (0)); (fdy (1) (1)); (fdy (3) (0))]:list b64) (2)) [(fdy (5) (0)); (fdy (1) (1)); (fdy (15) (0))] = true.
Proof. vm_compute. reflexivity. Qed.

Example t_dscal_6 : okb list_feq (dscal (4) (fdy (-1) (1)) ([(fdy (1) (0)); (fdy (1) (1)); (fdy (3) (0)); (fdy (1) (2))]:list b64) (2)) [(fdy (-1) (1)); (fdy (1) (1)); (fdy (-3) (1)); (fdy (1) (2))] = true.
Proof. vm_compute. reflexivity. Qed.

Example t_dscal_7 : okb list_feq (dscal (4) (fdy (3) (0)) ([(fdy (1) (0)); (fdy (1) (1)); (fdy (3) (0)); (fdy (1) (2))]:list b64) (3)) [(fdy (3) (0)); (fdy (1) (1)); (fdy (3) (0)); (fdy (3) (2))] = true.
Proof. vm_compute. reflexivity. Qed.

Example t_dscal_8 : okb list_feq (dscal (0) (fdy (1) (0)) ([(fdy (1) (0)); (fdy (1) (1)); (fdy (3) (0)); (fdy (1) (2)); (fdy (5) (0))]:list b64) (2)) [(fdy (1) (0)); (fdy (1) (1)); (fdy (3) (0)); (fdy (1) (2)); (fdy (5) (0))] = true.
Proof. vm_compute. reflexivity. Qed.

Example t_dscal_9 : okb list_feq (dscal (5) (fdy (1) (0)) ([(fdy (1) (0)); (fdy (1) (1)); (fdy (3) (0)); (fdy (1) (2)); (fdy (5) (0))]:list b64) (0)) [(fdy (1) (0)); (fdy (1) (1)); (fdy (3) (0)); (fdy (1) (2)); (fdy (5) (0))] = true.
Proof. vm_compute. reflexivity. Qed.

Example t_dscal_10 : okb list_feq (dscal (5) f0 ([(fdy (1) (0)); (fdy (1) (1)); (fdy (3) (0)); (fdy (1) (2)); (fdy (5) (0))]:list b64) (-1)) [(fdy (1) (0)); (fdy (1) (1)); (fdy (3) (0)); (fdy (1) (2)); (fdy (5) (0))] = true.
Proof. vm_compute. reflexivity. Qed.

Example t_drot_1 : okb (fun p q => list_feq (fst p) (fst q) && list_feq (snd p) (snd q)) (drot (4) [(fdy (1) (0)); (fdy (1) (1)); (fdy (3) (0)); (fdy (1) (2))] (1) [(fdy (5) (0)); (fdy (3) (1)); (fdy (7) (0)); (fdy (1) (3))] (1) (fdy (1) (1)) (fdy (3) (0))) ([(fdy (17) (0)); (fdy (11) (1)); (fdy (27) (0)); (fdy (1) (5))], [(fdy (7) (0)); (fdy (3) (1)); (fdy (5) (0)); (fdy (1) (2))]) = true.
Proof. vm_compute. reflexivity. Qed.

Example t_drot_2 : okb (fun p q => list_feq (fst p) (fst q) && list_feq (snd p) (snd q)) (drot (4) [(fdy (1) (1)); (fdy (1) (2)); (fdy (3) (1)); (fdy (1) (3))] (1) [(fdy (1) (2)); (fdy (5) (0)); (fdy (1) (2)); (fdy (5) (0))] (1) (fdy (1) (2)) (fdy (1) (2))) ([(fdy (3) (3)); (fdy (9) (2)); (fdy (5) (3)); (fdy (13) (2))], [(fdy (1) (3)); (fdy (1) (2)); (fdy (-1) (3)); (fdy (-3) (2))]) = true.
Proof. vm_compute. reflexivity. Qed.

Example t_drot_3 : okb (fun p q => list_feq (fst p) (fst q) && list_feq (snd p) (snd q)) (drot (4) [(fdy (1) (-1)); (fdy (3) (-1)); (fdy (5) (-1)); (fdy (7) (-1))] (1) [(fdy (9) (-1)); (fdy (11) (-1)); (fdy (13) (-1)); (fdy (15) (-1))] (1) (fdy (1) (1)) (fdy (3) (0))) ([(fdy (29) (-1)); (fdy (39) (-1)); (fdy (49) (-1)); (fdy (59) (-1))], [(fdy (15) (-1)); (fdy (13) (-1)); (fdy (11) (-1)); (fdy (9) (-1))]) = true.
Proof. vm_compute. reflexivity. Qed.

Example t_drot_4 : okb (fun p q => list_feq (fst p) (fst q) && list_feq (snd p) (snd q)) (drot (2) [(fdy (1) (0)); (fdy (3) (0)); (fdy (5) (0)); (fdy (7) (0))] (1) [(fdy (1) (1)); (fdy (1) (2)); (fdy (3) (1)); (fdy (1) (3))] (1) (fdy (1) (1)) (fdy (1) (1))) ([(fdy (3) (1)); (fdy (7) (1)); (fdy (5) (0)); (fdy (7) (0))], [(fdy (1) (1)); (fdy (1) (1)); (fdy (3) (1)); (fdy (1) (3))]) = true.
Proof. vm_compute. reflexivity. Qed.

Example t_drot_5 : okb (fun p q => list_feq (fst p) (fst q) && list_feq (snd p) (snd q)) (drot (3) [(fdy (3602879701896397) (-55)); (fdy (3602879701896397) (-54)); (fdy (5404319552844595) (-54)); (fdy (3602879701896397) (-53))] (1) [(fdy (1) (-1)); (fdy (5404319552844595) (-53)); (fdy (3152519739159347) (-52)); (fdy (3602879701896397) (-52))] (1) (fdy (3) (0)) (fdy (1) (2))) ([(fdy (2589569785738035) (-50)); (fdy (3) (0)); (fdy (8331659310635417) (-51)); (fdy (3602879701896397) (-53))], [(fdy (2476979795053773) (-51)); (fdy (4503599627370495) (-52)); (fdy (4053239664633445) (-52)); (fdy (3602879701896397) (-52))]) = true.
Proof. vm_compute. reflexivity. Qed.

Example t_dnrm2_1 : flt (fabs (fsub (dnrm2 (2) [(fdy (1) (1)); (fdy (3) (0))] (1)) (fdy (8118979690322419) (-51)))) (fdy (2535301200456459) (-101)) = true.
Proof. vm_compute. reflexivity. Qed.

Example t_dnrm2_2 : flt (fabs (fsub (dnrm2 (3) [(fdy (1) (2)); (fdy (3) (0)); (fdy (1) (1))] (1)) (fdy (6063156554684915) (-50)))) (fdy (2535301200456459) (-101)) = true.
Proof. vm_compute. reflexivity. Qed.

Example t_dnrm2_3 : flt (fabs (fsub (dnrm2 (1) [(fdy (5) (0))] (1)) (fdy (5) (0)))) (fdy (2535301200456459) (-101)) = true.
Proof. vm_compute. reflexivity. Qed.

Example t_dnrm2_4 : flt (fabs (fsub (dnrm2 (1) [f0] (1)) f0)) (fdy (2535301200456459) (-101)) = true.
Proof. vm_compute. reflexivity. Qed.

Example t_dnrm2_5 : flt (fabs (fsub (dnrm2 (2) [f0; f0] (1)) f0)) (fdy (2535301200456459) (-101)) = true.
Proof. vm_compute. reflexivity. Qed.

Example t_dnrm2_6 : flt (fabs (fsub (dnrm2 (2) [(fdy (-1) (0)); (fdy (-1) (0))] (1)) (fdy (6369051672525773) (-52)))) (fdy (2535301200456459) (-101)) = true.
Proof. vm_compute. reflexivity. Qed.

Example t_dnrm2_7 : flt (fabs (fsub (dnrm2 (2) [(fdy (-1) (0)); f0] (1)) (fdy (1) (0)))) (fdy (2535301200456459) (-101)) = true.
Proof. vm_compute. reflexivity. Qed.

Example t_dnrm2_8 : flt (fabs (fsub (dnrm2 (2) [(fdy (5854679515581645) (-51)); (fdy (8782019273372467) (-50)); (fdy (3602879701896397) (-50))] (2)) (fdy (4642204239785223) (-50)))) (fdy (2535301200456459) (-101)) = true.
Proof. vm_compute. reflexivity. Qed.

Example t_dnrm2_9 : flt (fabs (fsub (dnrm2 (3) [(fdy (-1) (0)); f0; (fdy (1) (0))] (1)) (fdy (6369051672525773) (-52)))) (fdy (2535301200456459) (-101)) = true.
Proof. vm_compute. reflexivity. Qed.

Example t_dnrm2_10 : flt (fabs (fsub (dnrm2 (3) [(fdy (-1) (0)); f0; (fdy (1) (0))] (2)) (fdy (6369051672525773) (-52)))) (fdy (2535301200456459) (-101)) = true.
Proof. vm_compute. reflexivity. Qed.

Example t_lsame_1 : eqb (lsame (chr "A"%char) (chr "A"%char)) true = true.
Proof. vm_compute. reflexivity. Qed.

Example t_lsame_2 : eqb (lsame (chr "A"%char) (chr "a"%char)) true = true.
Proof. vm_compute. reflexivity. Qed.

Example t_lsame_3 : eqb (lsame (chr "a"%char) (chr "A"%char)) true = true.
Proof. vm_compute. reflexivity. Qed.

Example t_lsame_4 : eqb (lsame (chr "a"%char) (chr "a"%char)) true = true.
Proof. vm_compute. reflexivity. Qed.

Example t_lsame_5 : eqb (lsame (chr "a"%char) (chr "b"%char)) false = true.
Proof. vm_compute. reflexivity. Qed.

Example t_lsame_6 : eqb (lsame (chr "A"%char) (chr "B"%char)) false = true.
Proof. vm_compute. reflexivity. Qed.

Example t_dgemm_1 : okb nest_feq (dgemm (chr "T"%char) (chr "T"%char) 2 2 2 (fdy (1) (-1)) [[(fdy (3) (0)); (fdy (5) (0))]; [(fdy (7) (0)); (fdy (11) (0))]] 2 [[(fdy (13) (0)); (fdy (17) (0))]; [(fdy (19) (0)); (fdy (23) (0))]] 2 (fdy (1) (-1)) [[(fdy (1) (0)); (fdy (1) (0))]; [(fdy (1) (0)); (fdy (1) (0))]] 2) [[(fdy (135) (-1)); (fdy (301) (-1))]; [(fdy (167) (-1)); (fdy (373) (-1))]] = true.
Proof. vm_compute. reflexivity. Qed.

Example t_dgemm_2 : okb nest_feq (dgemm (chr "T"%char) (chr "N"%char) 2 2 2 (fdy (1) (-1)) [[(fdy (3) (0)); (fdy (5) (0))]; [(fdy (7) (0)); (fdy (11) (0))]] 2 [[(fdy (13) (0)); (fdy (17) (0))]; [(fdy (19) (0)); (fdy (23) (0))]] 2 (fdy (1) (-1)) [[(fdy (1) (0)); (fdy (1) (0))]; [(fdy (1) (0)); (fdy (1) (0))]] 2) [[(fdy (125) (-1)); (fdy (279) (-1))]; [(fdy (173) (-1)); (fdy (387) (-1))]] = true.
Proof. vm_compute. reflexivity. Qed.

Example t_dgemm_3 : okb nest_feq (dgemm (chr "N"%char) (chr "T"%char) 2 2 2 (fdy (1) (-1)) [[(fdy (109) (0)); (fdy (113) (0))]; [(fdy (199) (0)); (fdy (401) (0))]] 2 [[(fdy (503) (0)); (fdy (601) (0))]; [(fdy (701) (0)); (fdy (809) (0))]] 2 (fdy (1) (-1)) [[(fdy (1) (0)); (fdy (1) (0))]; [(fdy (1) (0)); (fdy (1) (0))]] 2) [[(fdy (194327) (-1)); (fdy (337941) (-1))]; [(fdy (226501) (-1)); (fdy (392323) (-1))]] = true.
Proof. vm_compute. reflexivity. Qed.

Example t_dgemm_4 : okb nest_feq (dgemm (chr "N"%char) (chr "N"%char) 2 2 2 (fdy (1) (-1)) [[(fdy (109) (0)); (fdy (113) (0))]; [(fdy (199) (0)); (fdy (401) (0))]] 2 [[(fdy (503) (0)); (fdy (601) (0))]; [(fdy (701) (0)); (fdy (809) (0))]] 2 (fdy (1) (-1)) [[(fdy (1) (0)); (fdy (1) (0))]; [(fdy (1) (0)); (fdy (1) (0))]] 2) [[(fdy (174427) (-1)); (fdy (297841) (-1))]; [(fdy (237401) (-1)); (fdy (403623) (-1))]] = true.
Proof. vm_compute. reflexivity. Qed.

Example t_dtrmm_1 : okb (fun p q => nest_feq (fst p) (fst q) && nest_feq (snd p) (snd q)) (dtrmm (chr "L"%char) (chr "U"%char) (chr "N"%char) (chr "N"%char) 2 2 (fdy (1) (0)) [[(fdy (1) (0)); (fdy (1) (1))]; [f0; (fdy (1) (0))]] 2 [[(fdy (3) (0)); (fdy (1) (2))]; [(fdy (5) (0)); (fdy (3) (1))]] 2) ([[(fdy (1) (0)); (fdy (1) (1))]; [f0; (fdy (1) (0))]], [[(fdy (3) (0)); (fdy (1) (2))]; [(fdy (5) (0)); (fdy (3) (1))]]) = true.
Proof. vm_compute. reflexivity. Qed.

Example t_dtrmm_2 : okb (fun p q => nest_feq (fst p) (fst q) && nest_feq (snd p) (snd q)) (dtrmm (chr "R"%char) (chr "U"%char) (chr "N"%char) (chr "U"%char) 2 2 (fdy (1) (1)) [[(fdy (1) (0)); f0]; [(fdy (1) (1)); (fdy (1) (0))]] 2 [[(fdy (1) (0)); (fdy (1) (1))]; [(fdy (3) (0)); (fdy (1) (2))]] 2) ([[(fdy (1) (0)); f0]; [(fdy (1) (1)); (fdy (1) (0))]], [[(fdy (1) (1)); (fdy (1) (2))]; [(fdy (5) (1)); (fdy (1) (4))]]) = true.
Proof. vm_compute. reflexivity. Qed.

Example t_dtrmm_3 : okb (fun p q => nest_feq (fst p) (fst q) && nest_feq (snd p) (snd q)) (dtrmm (chr "L"%char) (chr "L"%char) (chr "T"%char) (chr "N"%char) 2 2 (fdy (3) (0)) [[(fdy (1) (0)); f0]; [(fdy (1) (0)); (fdy (1) (1))]] 2 [[(fdy (1) (0)); (fdy (1) (1))]; [(fdy (3) (0)); (fdy (1) (2))]] 2) ([[(fdy (1) (0)); f0]; [(fdy (1) (0)); (fdy (1) (1))]], [[(fdy (3) (0)); (fdy (3) (2))]; [(fdy (9) (0)); (fdy (3) (3))]]) = true.
Proof. vm_compute. reflexivity. Qed.

Example t_dtrmm_4 : okb (fun p q => nest_feq (fst p) (fst q) && nest_feq (snd p) (snd q)) (dtrmm (chr "R"%char) (chr "L"%char) (chr "N"%char) (chr "N"%char) 2 2 (fdy (1) (1)) [[(fdy (1) (0)); (fdy (1) (0))]; [f0; (fdy (1) (1))]] 2 [[(fdy (1) (0)); (fdy (1) (1))]; [(fdy (3) (0)); (fdy (1) (2))]] 2) ([[(fdy (1) (0)); (fdy (1) (0))]; [f0; (fdy (1) (1))]], [[(fdy (1) (3)); (fdy (3) (2))]; [(fdy (3) (2)); (fdy (1) (4))]]) = true.
Proof. vm_compute. reflexivity. Qed.

Example t_dtrmm_5 : okb (fun p q => nest_feq (fst p) (fst q) && nest_feq (snd p) (snd q)) (dtrmm (chr "L"%char) (chr "U"%char) (chr "N"%char) (chr "U"%char) 2 2 (fdy (1) (0)) [[(fdy (1) (0)); (fdy (1) (1))]; [f0; (fdy (1) (0))]] 2 [[f0; f0]; [f0; f0]] 2) ([[(fdy (1) (0)); (fdy (1) (1))]; [f0; (fdy (1) (0))]], [[f0; f0]; [f0; f0]]) = true.
Proof. vm_compute. reflexivity. Qed.

Example t_dtrmm_6 : okb (fun p q => nest_feq (fst p) (fst q) && nest_feq (snd p) (snd q)) (dtrmm (chr "R"%char) (chr "U"%char) (chr "T"%char) (chr "N"%char) 2 2 (fdy (1) (1)) [[(fdy (1) (0)); f0]; [(fdy (1) (1)); (fdy (1) (0))]] 2 [[f0; f0]; [f0; f0]] 2) ([[(fdy (1) (0)); f0]; [(fdy (1) (1)); (fdy (1) (0))]], [[f0; f0]; [f0; f0]]) = true.
Proof. vm_compute. reflexivity. Qed.

Example t_dlamch_1 : feq (dlamch (chr "E"%char)) (fdy (1) (-53)) = true.
Proof. vm_compute. reflexivity. Qed.

Example t_dlamch_2 : feq (dlamch (chr "S"%char)) (fdy (1) (-1022)) = true.
Proof. vm_compute. reflexivity. Qed.

Example t_dlamch_3 : feq (dlamch (chr "B"%char)) (fdy (1) (1)) = true.
Proof. vm_compute. reflexivity. Qed.

Example t_dlamch_4 : feq (dlamch (chr "P"%char)) (fdy (1) (-52)) = true.
Proof. vm_compute. reflexivity. Qed.

Example t_dlamch_5 : feq (dlamch (chr "N"%char)) (fdy (53) (0)) = true.
Proof. vm_compute. reflexivity. Qed.

Example t_dlamch_6 : feq (dlamch (chr "R"%char)) (fdy (1) (0)) = true.
Proof. vm_compute. reflexivity. Qed.

Example t_dlamch_7 : feq (dlamch (chr "M"%char)) (fdy (-1021) (0)) = true.
Proof. vm_compute. reflexivity. Qed.

Example t_dlamch_8 : feq (dlamch (chr "U"%char)) (fdy (1) (-1022)) = true.
Proof. vm_compute. reflexivity. Qed.

Example t_dlamch_9 : feq (dlamch (chr "L"%char)) (fdy (1) (10)) = true.
Proof. vm_compute. reflexivity. Qed.

Example t_dlamch_10 : feq (dlamch (chr "O"%char)) (fdy (9007199254740991) (971)) = true.
Proof. vm_compute. reflexivity. Qed.

Example t_dlapy2_1 : flt (fabs (fsub f0 (dlapy2 f0 f0))) fEPS = true.
Proof. vm_compute. reflexivity. Qed.

Example t_dlapy2_2 : flt (fabs (fsub (fdy (5) (0)) (dlapy2 (fdy (3) (0)) (fdy (1) (2))))) fEPS = true.
Proof. vm_compute. reflexivity. Qed.

Example t_dlapy2_3 : flt (fabs (fsub (fdy (5) (0)) (dlapy2 (fdy (-3) (0)) (fdy (1) (2))))) fEPS = true.
Proof. vm_compute. reflexivity. Qed.

Example t_dlapy2_4 : flt (fabs (fsub (fdy (5) (0)) (dlapy2 (fdy (3) (0)) (fdy (-1) (2))))) fEPS = true.
Proof. vm_compute. reflexivity. Qed.

Example t_dlapy2_5 : flt (fabs (fsub (fdy (5) (0)) (dlapy2 (fdy (-3) (0)) (fdy (-1) (2))))) fEPS = true.
Proof. vm_compute. reflexivity. Qed.

Example t_dlapy2_6 : flt (fabs (fsub (fdy (17) (0)) (dlapy2 (fdy (1) (3)) (fdy (15) (0))))) fEPS = true.
Proof. vm_compute. reflexivity. Qed.

Example t_dlapy2_7 : flt (fabs (fsub (fdy (3602879701896397) (-55)) (dlapy2 (fdy (3602879701896397) (-55)) f0))) fEPS = true.
Proof. vm_compute. reflexivity. Qed.

Example t_dlapy2_8 : flt (fabs (fsub (fdy (3602879701896397) (-55)) (dlapy2 f0 (fdy (3602879701896397) (-55))))) fEPS = true.
Proof. vm_compute. reflexivity. Qed.

Example t_dlapy2_9 : flt (fabs (fsub (fdy (894500036506479) (-1069)) (dlapy2 (fdy (5060056332682765) (-1072)) (fdy (5060056332682765) (-1072))))) fEPS = true.
Proof. vm_compute. reflexivity. Qed.

Example t_dlapy2_10 : flt (fabs (fsub (fdy (2834322076003733) (969)) (dlapy2 (fdy (8016673440035891) (967)) (fdy (8016673440035891) (967))))) fEPS = true.
Proof. vm_compute. reflexivity. Qed.

Example t_dlarfg_1 : okb2 (fun p q => feq (snd p) q) (dlarfg 1 (fdy (1) (1)) ([(fdy (3) (0))]:list b64) 1) f0 = true.
Proof. vm_compute. reflexivity. Qed.

Example t_dlarfg_2 : okb2 (fun p q => feq (snd p) q) (dlarfg 2 (fdy (1) (1)) ([(fdy (1) (2)); (fdy (5) (0))]:list b64) 2) (fdy (3258835304709563) (-51)) = true.
Proof. vm_compute. reflexivity. Qed.

Example t_dlarfg_3 : okb2 (fun p q => feq (snd p) q) (dlarfg 2 (fdy (3602879701896397) (-51)) ([(fdy (3152519739159347) (-50)); (fdy (8106479329266893) (-51))]:list b64) 1) (fdy (3369005382639163) (-51)) = true.
Proof. vm_compute. reflexivity. Qed.

Example t_dlarfg_4 : okb2 (fun p q => feq (snd p) q) (dlarfg 2 (fdy (6530219459687219) (-51)) ([(fdy (3602879701896397) (-50)); (fdy (5404319552844595) (-50))]:list b64) 2) (fdy (940981782299559) (-49)) = true.
Proof. vm_compute. reflexivity. Qed.

Example t_dlarfg_5 : okb2 (fun p q => feq (snd p) q) (dlarfg 3 (fdy (4728779608739021) (-51)) ([(fdy (5854679515581645) (-51)); (fdy (8782019273372467) (-50)); (fdy (3602879701896397) (-50))]:list b64) 2) (fdy (6547551829589473) (-52)) = true.
Proof. vm_compute. reflexivity. Qed.

Example t_dlarfg_6 : okb2 (fun p q => feq (snd p) q) (dlarfg 4 (fdy (7656119366529843) (-51)) ([(fdy (6530219459687219) (-51)); (fdy (1) (0)); (fdy (2308094809027379) (-49)); (fdy (5854679515581645) (-50))]:list b64) 1) (fdy (6994794576951675) (-52)) = true.
Proof. vm_compute. reflexivity. Qed.

Example t_dlarfg_7 : okb2 (fun p q => feq (snd p) q) (dlarfg 5 (fdy (9) (-1)) ([(fdy (3715469692580659) (-50)); (fdy (2476979795053773) (-49)); (fdy (11) (-1)); (fdy (3715469692580659) (-49)); (fdy (8669429282688205) (-50))]:list b64) 1) (fdy (1580321817873745) (-50)) = true.
Proof. vm_compute. reflexivity. Qed.

Example t_dlarfg_8 : okb2 (fun p q => feq (snd p) q) (dlarfg 6 (fdy (7656119366529843) (-50)) ([(fdy (3996944669291315) (-49)); (fdy (2308094809027379) (-48)); (fdy (2617717283409101) (-48)); (fdy (3152519739159347) (-51)); (fdy (5) (-1)); (fdy (8106479329266893) (-51))]:list b64) 2) (fdy (6728907811760287) (-52)) = true.
Proof. vm_compute. reflexivity. Qed.

Example t_dlarfg_9 : okb2 (fun p q => feq (snd p) q) (dlarfg 7 (fdy (2448832297382707) (-48)) ([(fdy (5404319552844595) (-50)); (fdy (6530219459687219) (-51)); (fdy (3996944669291315) (-49)); (fdy (2308094809027379) (-48)); (fdy (2617717283409101) (-48)); (fdy (3152519739159347) (-51)); (fdy (5) (-1))]:list b64) 4) (fdy (922819502927519) (-49)) = true.
Proof. vm_compute. reflexivity. Qed.

Example t_dlaset_u : okb nest_feq (dlaset (chr "U"%char) 3 3 f1 f2 ([[f0; f0; f0]; [f0; f0; f0]; [f0; f0; f0]]:list (list b64))) [[(fdy (1) (1)); (fdy (1) (0)); (fdy (1) (0))]; [f0; (fdy (1) (1)); (fdy (1) (0))]; [f0; f0; (fdy (1) (1))]] = true.
Proof. vm_compute. reflexivity. Qed.

Example t_dlaset_l : okb nest_feq (dlaset (chr "L"%char) 3 3 f1 f2 ([[f0; f0; f0]; [f0; f0; f0]; [f0; f0; f0]]:list (list b64))) [[(fdy (1) (1)); f0; f0]; [(fdy (1) (0)); (fdy (1) (1)); f0]; [(fdy (1) (0)); (fdy (1) (0)); (fdy (1) (1))]] = true.
Proof. vm_compute. reflexivity. Qed.

Example t_dlaset_a : okb nest_feq (dlaset (chr "A"%char) 3 3 f1 f2 ([[f0; f0; f0]; [f0; f0; f0]; [f0; f0; f0]]:list (list b64))) [[(fdy (1) (1)); (fdy (1) (0)); (fdy (1) (0))]; [(fdy (1) (0)); (fdy (1) (1)); (fdy (1) (0))]; [(fdy (1) (0)); (fdy (1) (0)); (fdy (1) (1))]] = true.
Proof. vm_compute. reflexivity. Qed.

Example t_dlacpy_u : okb nest_feq (dlacpy (chr "U"%char) 3 3 ([[(fdy (1) (0)); (fdy (1) (1)); (fdy (3) (0))]; [(fdy (1) (2)); (fdy (5) (0)); (fdy (3) (1))]; [(fdy (7) (0)); (fdy (1) (3)); (fdy (9) (0))]]:list (list b64)) 3 ([[f0; f0; f0]; [f0; f0; f0]; [f0; f0; f0]]:list (list b64)) 3) [[(fdy (1) (0)); (fdy (1) (1)); (fdy (3) (0))]; [f0; (fdy (5) (0)); (fdy (3) (1))]; [f0; f0; (fdy (9) (0))]] = true.
Proof. vm_compute. reflexivity. Qed.

Example t_dlacpy_l : okb nest_feq (dlacpy (chr "L"%char) 3 3 ([[(fdy (1) (0)); (fdy (1) (1)); (fdy (3) (0))]; [(fdy (1) (2)); (fdy (5) (0)); (fdy (3) (1))]; [(fdy (7) (0)); (fdy (1) (3)); (fdy (9) (0))]]:list (list b64)) 3 ([[f0; f0; f0]; [f0; f0; f0]; [f0; f0; f0]]:list (list b64)) 3) [[(fdy (1) (0)); f0; f0]; [(fdy (1) (2)); (fdy (5) (0)); f0]; [(fdy (7) (0)); (fdy (1) (3)); (fdy (9) (0))]] = true.
Proof. vm_compute. reflexivity. Qed.

Example t_dlacpy_a : okb nest_feq (dlacpy (chr "A"%char) 3 3 ([[(fdy (1) (0)); (fdy (1) (1)); (fdy (3) (0))]; [(fdy (1) (2)); (fdy (5) (0)); (fdy (3) (1))]; [(fdy (7) (0)); (fdy (1) (3)); (fdy (9) (0))]]:list (list b64)) 3 ([[f0; f0; f0]; [f0; f0; f0]; [f0; f0; f0]]:list (list b64)) 3) [[(fdy (1) (0)); (fdy (1) (1)); (fdy (3) (0))]; [(fdy (1) (2)); (fdy (5) (0)); (fdy (3) (1))]; [(fdy (7) (0)); (fdy (1) (3)); (fdy (9) (0))]] = true.
Proof. vm_compute. reflexivity. Qed.

Example t_dlanv2_1 : (let r := dlanv2 (fdy (1) (0)) (fdy (1) (1)) (fdy (3) (0)) (fdy (1) (2)) in
  feq (nA r) (fdy (-52393938398479) (-47)) && feq (nB r) (fdy (-1) (0)) && feq (nC r) f0 && feq (nD r) (fdy (756081380175119) (-47)) && feq (nrt1r r) (fdy (-52393938398479) (-47)) && feq (nrt1i r) f0 && feq (nrt2r r) (fdy (756081380175119) (-47)) && feq (nrt2i r) f0 && feq (nCs r) (fdy (-7427019813526123) (-53)) && feq (nSn r) (fdy (79624692012897) (-47))) = true.
Proof. vm_compute. reflexivity. Qed.

Example t_dlanv2_2 : (let r := dlanv2 (fdy (7) (0)) (fdy (5) (1)) (fdy (5) (0)) (fdy (3) (1)) in
  feq (nA r) (fdy (3824885613626725) (-48)) && feq (nB r) (fdy (5) (0)) && feq (nC r) f0 && feq (nD r) (fdy (-331421832776393) (-49)) && feq (nrt1r r) (fdy (3824885613626725) (-48)) && feq (nrt1i r) f0 && feq (nrt2r r) (fdy (-331421832776393) (-49)) && feq (nrt2i r) f0 && feq (nCs r) (fdy (7521390190783807) (-53)) && feq (nSn r) (fdy (4955635984673189) (-53))) = true.
Proof. vm_compute. reflexivity. Qed.

Example t_dlanv2_3 : (let r := dlanv2 (fdy (3) (1)) (fdy (3) (2)) (fdy (13) (0)) (fdy (7) (0)) in
  feq (nA r) (fdy (-3) (1)) && feq (nB r) (fdy (-1) (0)) && feq (nC r) f0 && feq (nD r) (fdy (19) (0)) && feq (nrt1r r) (fdy (-3) (1)) && feq (nrt1i r) f0 && feq (nrt2r r) (fdy (19) (0)) && feq (nrt2i r) f0 && feq (nCs r) (fdy (-1592262918131443) (-51)) && feq (nSn r) (fdy (1592262918131443) (-51))) = true.
Proof. vm_compute. reflexivity. Qed.

Example t_dlanv2_4 : (let r := dlanv2 (fdy (-398723537972145) (-50)) (fdy (-1267728547401225) (-51)) (fdy (6312074965083259) (-52)) (fdy (18135339154429) (-45)) in
  feq (nA r) (fdy (5811434079026653) (-56)) && feq (nB r) (fdy (-3406980383446259) (-53)) && feq (nC r) (fdy (1786010467040645) (-50)) && feq (nD r) (fdy (5811434079026653) (-56)) && feq (nrt1r r) (fdy (5811434079026653) (-56)) && feq (nrt1i r) (fdy (3488524795909345) (-52)) && feq (nrt2r r) (fdy (5811434079026653) (-56)) && feq (nrt2i r) (fdy (-3488524795909345) (-52)) && feq (nCs r) (fdy (8289953425605597) (-53)) && feq (nSn r) (fdy (1761129652800775) (-52))) = true.
Proof. vm_compute. reflexivity. Qed.

Example t_dlaqr1_1 : okb list_feq (dlaqr1 2 ([[(fdy (1) (0)); (fdy (1) (1))]; [(fdy (3) (0)); (fdy (1) (2))]]:list (list b64)) 2 (fdy (3) (-1)) (fdy (5) (-1)) (fdy (7) (-1)) (fdy (9) (-1)) ([f0; f0]:list b64)) [(fdy (-2001599834386887) (-52)); f0] = true.
Proof. vm_compute. reflexivity. Qed.

Example t_dlaqr1_2 : okb list_feq (dlaqr1 2 ([[(fdy (1) (-1)); (fdy (3) (-1))]; [(fdy (7) (-1)); (fdy (13) (-1))]]:list (list b64)) 2 (fdy (1) (0)) (fdy (1) (1)) (fdy (3) (0)) (fdy (7) (-1)) ([f0; f0]:list b64)) [(fdy (-300239975158033) (-52)); (fdy (1351079888211149) (-51))] = true.
Proof. vm_compute. reflexivity. Qed.

Example t_dlaqr1_3 : okb list_feq (dlaqr1 3 ([[(fdy (5) (0)); (fdy (3) (1)); (fdy (7) (0))]; [(fdy (1) (3)); (fdy (9) (0)); (fdy (5) (1))]; [(fdy (11) (0)); (fdy (3) (2)); (fdy (13) (0))]]:list (list b64)) 3 (fdy (1) (1)) (fdy (3) (0)) (fdy (1) (2)) (fdy (5) (0)) ([f0; f0; f0]:list b64)) [(fdy (6696141551221921) (-50)); (fdy (7822041458064545) (-50)); (fdy (8533136136070413) (-50))] = true.
Proof. vm_compute. reflexivity. Qed.

Example t_dlaqr1_4 : okb list_feq (dlaqr1 3 ([[(fdy (5) (-1)); (fdy (9) (-1)); (fdy (1) (1))]; [(fdy (3) (-1)); (fdy (7) (-1)); (fdy (1) (0))]; [(fdy (1) (-1)); (fdy (5) (-1)); f0]]:list (list b64)) 3 (fdy (3) (-1)) (fdy (5) (-1)) (fdy (7) (-1)) (fdy (9) (-1)) ([f0; f0; f0]:list b64)) [(fdy (-6755399441055743) (-54)); (fdy (7130699410003285) (-53)); (fdy (-375299968947541) (-53))] = true.
Proof. vm_compute. reflexivity. Qed.

Example t_ieeeck_1 : (ieeeck 0 f0 (fdy (1) (0)) =? 1)%Z = true.
Proof. vm_compute. reflexivity. Qed.

Example t_ieeeck_2 : (ieeeck 1 f0 (fdy (1) (0)) =? 0)%Z = true.
Proof. vm_compute. reflexivity. Qed.

Example t_ieeeck_3 : (ieeeck 0 f0 (fdy (7737125245533627) (-86)) =? 1)%Z = true.
Proof. vm_compute. reflexivity. Qed.

Example t_ieeeck_4 : (ieeeck 0 f0 (fdy (-7737125245533627) (-86)) =? 0)%Z = true.
Proof. vm_compute. reflexivity. Qed.

Example t_ieeeck_5 : (ieeeck 1 f0 f0 =? 0)%Z = true.
Proof. vm_compute. reflexivity. Qed.

Example t_ieeeck_6 : (ieeeck 1 f0 (fdy (7737125245533627) (-86)) =? 0)%Z = true.
Proof. vm_compute. reflexivity. Qed.

Example t_ieeeck_7 : (ieeeck 1 f0 (fdy (-1) (0)) =? 0)%Z = true.
Proof. vm_compute. reflexivity. Qed.

Example t_ieeeck_8 : (ieeeck 1 f0 (fdy (-7737125245533627) (-86)) =? 0)%Z = true.
Proof. vm_compute. reflexivity. Qed.

Example t_ieeeck_9 : (ieeeck 1 f0 (fdy (95367431640625) (20)) =? 0)%Z = true.
Proof. vm_compute. reflexivity. Qed.

Example t_ieeeck_10 : (ieeeck 1 f0 (fdy (-95367431640625) (20)) =? 0)%Z = true.
Proof. vm_compute. reflexivity. Qed.

Example t_ieeeck_11 : (ieeeck 1 fnan (fdy (1) (0)) =? 0)%Z = true.
Proof. vm_compute. reflexivity. Qed.

Example t_ieeeck_12 : (ieeeck 1 f0 fnan =? 0)%Z = true.
Proof. vm_compute. reflexivity. Qed.

Example t_ilaenv_1 : okb Z.eqb (ilaenv (-1) "CGGHRD" "" 0 0 0 0) (-1) = true.
Proof. vm_compute. reflexivity. Qed.

Example t_ilaenv_2 : okb Z.eqb (ilaenv (0) "CGGHRD" "" 0 0 0 0) (-1) = true.
Proof. vm_compute. reflexivity. Qed.

Example t_ilaenv_3 : okb Z.eqb (ilaenv (1) "CGGHRD" "" 0 0 0 0) (1) = true.
Proof. vm_compute. reflexivity. Qed.

Example t_ilaenv_4 : okb Z.eqb (ilaenv (1) "DGGHRD" "" 0 0 0 0) (1) = true.
Proof. vm_compute. reflexivity. Qed.

Example t_ilaenv_5 : okb Z.eqb (ilaenv (1) "SGBTRF" "" 0 128 0 128) (32) = true.
Proof. vm_compute. reflexivity. Qed.

Example t_ilaenv_6 : okb Z.eqb (ilaenv (1) "DGBTRF" "" 0 128 0 128) (32) = true.
Proof. vm_compute. reflexivity. Qed.

Example t_ilaenv_7 : okb Z.eqb (ilaenv (1) "DGEQRF" "" 0 0 0 0) (32) = true.
Proof. vm_compute. reflexivity. Qed.

Example t_ilaenv_8 : okb Z.eqb (ilaenv (1) "SGEQRF" "" 0 0 0 0) (32) = true.
Proof. vm_compute. reflexivity. Qed.

Example t_ilaenv_9 : okb Z.eqb (ilaenv (2) "CGGHRD" "" 0 0 0 0) (2) = true.
Proof. vm_compute. reflexivity. Qed.

Example t_ilaenv_10 : okb Z.eqb (ilaenv (2) "DGGHRD" "" 0 0 0 0) (2) = true.
Proof. vm_compute. reflexivity. Qed.

Example t_ilaenv_11 : okb Z.eqb (ilaenv (2) "SGBTRF" "" 0 0 0 0) (2) = true.
Proof. vm_compute. reflexivity. Qed.

Example t_ilaenv_12 : okb Z.eqb (ilaenv (2) "DGBTRF" "" 0 0 0 0) (2) = true.
Proof. vm_compute. reflexivity. Qed.

Example t_ilaenv_13 : okb Z.eqb (ilaenv (2) "DGEQRF" "" 0 0 0 0) (2) = true.
Proof. vm_compute. reflexivity. Qed.

Example t_ilaenv_14 : okb Z.eqb (ilaenv (2) "SGEQRF" "" 0 0 0 0) (2) = true.
Proof. vm_compute. reflexivity. Qed.

Example t_ilaenv_15 : okb Z.eqb (ilaenv (3) "CGGHRD" "" 0 0 0 0) (0) = true.
Proof. vm_compute. reflexivity. Qed.

Example t_ilaenv_16 : okb Z.eqb (ilaenv (3) "DGGHRD" "" 0 0 0 0) (0) = true.
Proof. vm_compute. reflexivity. Qed.

Example t_ilaenv_17 : okb Z.eqb (ilaenv (3) "SGBTRF" "" 0 0 0 0) (0) = true.
Proof. vm_compute. reflexivity. Qed.

Example t_ilaenv_18 : okb Z.eqb (ilaenv (3) "DGBTRF" "" 0 0 0 0) (0) = true.
Proof. vm_compute. reflexivity. Qed.

Example t_ilaenv_19 : okb Z.eqb (ilaenv (3) "DGEQRF" "" 0 0 0 0) (128) = true.
Proof. vm_compute. reflexivity. Qed.

Example t_ilaenv_20 : okb Z.eqb (ilaenv (3) "SGEQRF" "" 0 0 0 0) (128) = true.
Proof. vm_compute. reflexivity. Qed.

Example t_ilaenv_21 : okb Z.eqb (ilaenv (4) "CGGHRD" "" 2 3 0 0) (6) = true.
Proof. vm_compute. reflexivity. Qed.

Example t_ilaenv_22 : okb Z.eqb (ilaenv (5) "CGGHRD" "" 2 3 0 0) (2) = true.
Proof. vm_compute. reflexivity. Qed.

Example t_ilaenv_23 : okb Z.eqb (ilaenv (6) "CGGHRD" "" 2 3 0 0) (3) = true.
Proof. vm_compute. reflexivity. Qed.

Example t_ilaenv_24 : okb Z.eqb (ilaenv (7) "CGGHRD" "" 2 3 0 0) (1) = true.
Proof. vm_compute. reflexivity. Qed.

Example t_ilaenv_25 : okb Z.eqb (ilaenv (8) "CGGHRD" "" 2 3 0 0) (50) = true.
Proof. vm_compute. reflexivity. Qed.

Example t_ilaenv_26 : okb Z.eqb (ilaenv (9) "CGGHRD" "" 2 3 0 0) (25) = true.
Proof. vm_compute. reflexivity. Qed.

Example t_ilaenv_27 : okb Z.eqb (ilaenv (10) "CGGHRD" "" 0 0 0 0) (0) = true.
Proof. vm_compute. reflexivity. Qed.

Example t_ilaenv_28 : okb Z.eqb (ilaenv (11) "CGGHRD" "" 0 0 0 0) (1) = true.
Proof. vm_compute. reflexivity. Qed.

Example t_ilaenv_29 : okb Z.eqb (ilaenv (12) "CGGHRD" "" 2 3 4 5) (75) = true.
Proof. vm_compute. reflexivity. Qed.

Example t_ilaenv_30 : okb Z.eqb (ilaenv (13) "CGGHRD" "" 2 3 4 5) (2) = true.
Proof. vm_compute. reflexivity. Qed.

Example t_ilaenv_31 : okb Z.eqb (ilaenv (14) "CGGHRD" "" 2 3 4 5) (14) = true.
Proof. vm_compute. reflexivity. Qed.

Example t_ilaenv_32 : okb Z.eqb (ilaenv (15) "CGGHRD" "" 2 3 4 5) (2) = true.
Proof. vm_compute. reflexivity. Qed.

Example t_ilaenv_33 : okb Z.eqb (ilaenv (16) "CGGHRD" "" 2 3 4 5) (1) = true.
Proof. vm_compute. reflexivity. Qed.

Example t_ilaenv_34 : okb Z.eqb (ilaenv (17) "CGGHRD" "" 2 3 4 5) (10) = true.
Proof. vm_compute. reflexivity. Qed.

Example t_ilaenv_35 : okb Z.eqb (ilaenv (18) "CGGHRD" "" 0 0 0 0) (-1) = true.
Proof. vm_compute. reflexivity. Qed.

Example t_iparmq_1 : okb Z.eqb (iparmq (12) "test" 5 5) (75) = true.
Proof. vm_compute. reflexivity. Qed.

Example t_iparmq_2 : okb Z.eqb (iparmq (14) "test" 10 10) (14) = true.
Proof. vm_compute. reflexivity. Qed.

Example t_iparmq_3 : okb Z.eqb (iparmq (18) "test" 30 30) (-1) = true.
Proof. vm_compute. reflexivity. Qed.

Example t_iparmq_4 : okb Z.eqb (iparmq (15) "CGGHRD" 15 15) (2) = true.
Proof. vm_compute. reflexivity. Qed.

Example t_iparmq_5 : okb Z.eqb (iparmq (16) "DGGHRD" 20 20) (1) = true.
Proof. vm_compute. reflexivity. Qed.

Example t_iparmq_6 : okb Z.eqb (iparmq (17) "CHSEQR" 25 25) (10) = true.
Proof. vm_compute. reflexivity. Qed.

Example t_iparmq_7 : okb Z.eqb (iparmq (15) "CTGEXC" 35 35) (2) = true.
Proof. vm_compute. reflexivity. Qed.

Example t_iparmq_8 : okb Z.eqb (iparmq (16) "CLAQR0" 40 40) (0) = true.
Proof. vm_compute. reflexivity. Qed.

Example t_iparmq_9 : okb Z.eqb (iparmq (17) "CHSEQR" 45 45) (10) = true.
Proof. vm_compute. reflexivity. Qed.

Example t_dlahqr_1 : okb hq_feq (dlahqr 10 true true 3 1 3 [[(fdy (1) (0)); (fdy (1) (1)); (fdy (3) (0))]; [(fdy (1) (2)); (fdy (5) (0)); (fdy (3) (1))]; [(fdy (7) (0)); (fdy (1) (3)); (fdy (9) (0))]] 3 [(fdy (1) (0)); (fdy (1) (1)); (fdy (3) (0))] [(fdy (1) (0)); (fdy (1) (1)); (fdy (3) (0))] 1 3 [[(fdy (1) (0)); (fdy (1) (1)); (fdy (3) (0))]; [(fdy (1) (2)); (fdy (5) (0)); (fdy (3) (1))]; [(fdy (7) (0)); (fdy (1) (3)); (fdy (9) (0))]] 3)
  ([[(fdy (5811434079026653) (-56)); (fdy (1786010467040645) (-50)); f0]; [(fdy (-3406980383446259) (-53)); (fdy (5811434079026653) (-56)); f0]; [(fdy (-1751156293901271) (-48)); (fdy (-8555438946160369) (-51)); (fdy (8353445643834889) (-49))]], [(fdy (5811434079026653) (-56)); (fdy (5811434079026653) (-56)); (fdy (8353445643834889) (-49))], [(fdy (3488524795909345) (-52)); (fdy (-3488524795909345) (-52)); f0], [[(fdy (-8379209317340499) (-54)); (fdy (-5648989539910249) (-52)); (fdy (-4601588375242689) (-51))]; [(fdy (3115829214743777) (-53)); (fdy (-2848578998205931) (-54)); (fdy (-5964408212949695) (-53))]; [(fdy (4561770042836579) (-49)); (fdy (5382038792614509) (-49)); (fdy (6202307542392439) (-49))]], 0) = true.
Proof. vm_compute. reflexivity. Qed.

Example t_dlahqr_2 : okb hq_feq (dlahqr 10 false false 4 2 4 [[(fdy (7) (0)); (fdy (1) (3)); (fdy (9) (0)); (fdy (5) (1))]; [(fdy (11) (0)); (fdy (3) (2)); (fdy (13) (0)); (fdy (7) (1))]; [(fdy (15) (0)); (fdy (1) (4)); (fdy (17) (0)); (fdy (9) (1))]; [(fdy (19) (0)); (fdy (5) (2)); (fdy (21) (0)); (fdy (11) (1))]] 4 [(fdy (1) (2)); (fdy (5) (0)); (fdy (3) (1)); (fdy (7) (0))] [(fdy (1) (2)); (fdy (5) (0)); (fdy (3) (1)); (fdy (7) (0))] 2 4 [[(fdy (7) (0)); (fdy (1) (3)); (fdy (9) (0)); (fdy (5) (1))]; [(fdy (11) (0)); (fdy (3) (2)); (fdy (13) (0)); (fdy (7) (1))]; [(fdy (15) (0)); (fdy (1) (4)); (fdy (17) (0)); (fdy (9) (1))]; [(fdy (19) (0)); (fdy (5) (2)); (fdy (21) (0)); (fdy (11) (1))]] 4)
  ([[(fdy (7) (0)); (fdy (1) (3)); (fdy (9) (0)); (fdy (-2325043137670847) (-119))]; [(fdy (-4651889757052311) (-51)); (fdy (-283831034599929) (-47)); f0; (fdy (-952411629664129) (-141))]; [(fdy (1750184753225229) (-50)); (fdy (-901061312276125) (-50)); (fdy (728056056104015) (-45)); f0]; [(fdy (-3724403912274489) (-47)); (fdy (-3965233831576481) (-47)); (fdy (-311125988545083) (-43)); (fdy (-3199336182135389) (-48))]], [(fdy (1) (2)); (fdy (-283831034599929) (-47)); (fdy (728056056104015) (-45)); (fdy (-3199336182135389) (-48))], [(fdy (1) (2)); f0; f0; f0], [[(fdy (7) (0)); (fdy (1) (3)); (fdy (9) (0)); (fdy (5) (1))]; [(fdy (11) (0)); (fdy (3) (2)); (fdy (13) (0)); (fdy (7) (1))]; [(fdy (15) (0)); (fdy (1) (4)); (fdy (17) (0)); (fdy (9) (1))]; [(fdy (19) (0)); (fdy (5) (2)); (fdy (21) (0)); (fdy (11) (1))]], 0) = true.
Proof. vm_compute. reflexivity. Qed.

Example t_dlahqr_3 : okb hq_feq (dlahqr 10 false true 2 1 2 [[(fdy (1) (1)); (fdy (3) (0))]; [(fdy (3) (0)); (fdy (1) (1))]] 2 [(fdy (1) (1)); (fdy (3) (0))] [(fdy (1) (1)); (fdy (3) (0))] 1 2 [[(fdy (1) (1)); (fdy (3) (0))]; [(fdy (3) (0)); (fdy (1) (1))]] 2)
  ([[(fdy (5) (0)); f0]; [f0; (fdy (-1125899906842625) (-50))]], [(fdy (5) (0)); (fdy (-1125899906842625) (-50))], [f0; f0], [[(fdy (124395540479019) (-45)); (fdy (124395540479019) (-45))]; [(fdy (3184525836262885) (-52)); (fdy (-398065729532861) (-49))]], 0) = true.
Proof. vm_compute. reflexivity. Qed.

Example t_dlahqr_4 : okb hq_feq (dlahqr 10 true false 3 3 3 [[(fdy (9) (0)); (fdy (1) (3)); (fdy (7) (0))]; [(fdy (3) (1)); (fdy (5) (0)); (fdy (1) (2))]; [(fdy (3) (0)); (fdy (1) (1)); (fdy (1) (0))]] 3 [(fdy (3) (0)); (fdy (1) (1)); (fdy (1) (0))] [(fdy (3) (0)); (fdy (1) (1)); (fdy (1) (0))] 3 3 [[(fdy (9) (0)); (fdy (1) (3)); (fdy (7) (0))]; [(fdy (3) (1)); (fdy (5) (0)); (fdy (1) (2))]; [(fdy (3) (0)); (fdy (1) (1)); (fdy (1) (0))]] 3)
  ([[(fdy (9) (0)); (fdy (1) (3)); (fdy (7) (0))]; [(fdy (3) (1)); (fdy (5) (0)); (fdy (1) (2))]; [(fdy (3) (0)); (fdy (1) (1)); (fdy (1) (0))]], [(fdy (3) (0)); (fdy (1) (1)); (fdy (1) (0))], [(fdy (3) (0)); (fdy (1) (1)); f0], [[(fdy (9) (0)); (fdy (1) (3)); (fdy (7) (0))]; [(fdy (3) (1)); (fdy (5) (0)); (fdy (1) (2))]; [(fdy (3) (0)); (fdy (1) (1)); (fdy (1) (0))]], 0) = true.
Proof. vm_compute. reflexivity. Qed.

Example t_dlaqr5_1 : okb q5_feq (dlaqr5 true true 1 4 1 3 2 [(fdy (1) (0)); (fdy (1) (1)); (fdy (3) (0))] [f0; f0; f0] [[(fdy (1) (1)); (fdy (1) (1)); (fdy (1) (1))]; [(fdy (1) (0)); (fdy (1) (0)); (fdy (1) (0))]; [(fdy (3) (0)); (fdy (3) (0)); (fdy (3) (0))]] 3 1 3 [[(fdy (3) (0)); (fdy (3) (0)); (fdy (3) (0))]; [(fdy (1) (1)); (fdy (1) (1)); (fdy (1) (1))]; [(fdy (1) (2)); (fdy (1) (2)); (fdy (1) (2))]] 3 [[(fdy (1) (1)); (fdy (1) (1)); (fdy (1) (1))]; [(fdy (1) (0)); (fdy (1) (0)); (fdy (1) (0))]; [(fdy (3) (0)); (fdy (3) (0)); (fdy (3) (0))]] 3 [[(fdy (3) (0)); (fdy (3) (0)); (fdy (3) (0))]; [(fdy (1) (1)); (fdy (1) (1)); (fdy (1) (1))]; [(fdy (1) (2)); (fdy (1) (2)); (fdy (1) (2))]] 3 3 [[f0; f0; f0]; [f0; f0; f0]; [f0; f0; f0]] 5 3 [[f0; f0; f0]; [f0; f0; f0]; [f0; f0; f0]] 3)
  ([[(fdy (4503599627370493) (-50)); (fdy (8273640819634627) (-51)); f0]; [(fdy (114911678050481) (-47)); (fdy (3669599696375961) (-52)); (fdy (471781605372279) (-53))]; [(fdy (-1300077228592327) (-49)); (fdy (-1474317516788373) (-51)); (fdy (5337599558365033) (-52))]], [[(fdy (-2786460106730025) (-49)); (fdy (-2786460106730025) (-49)); (fdy (-2786460106730025) (-49))]; [(fdy (-7800463371553963) (-52)); (fdy (-7800463371553963) (-52)); (fdy (-7800463371553963) (-52))]; [(fdy (2944324986398975) (-49)); (fdy (2944324986398975) (-49)); (fdy (2944324986398975) (-49))]], [[(fdy (1104648798668115) (-49)); (fdy (-2498609831819311) (-54)); (fdy (7461808180621107) (-54))]; [(fdy (1) (0)); (fdy (1) (0)); (fdy (1) (0))]; [(fdy (3) (0)); (fdy (3) (0)); (fdy (3) (0))]], [[(fdy (-3184525836262885) (-52)); f0; (fdy (-1592262918131443) (-51))]; [(fdy (-3466872609579537) (-54)); (fdy (-541698845246803) (-49)); (fdy (3466872609579537) (-54))]; [(fdy (5897270067153493) (-53)); (fdy (2451449131743593) (-53)); (fdy (6128622829358985) (-53))]], [[(fdy (-2786460106730025) (-49)); (fdy (-2786460106730025) (-49)); (fdy (-2786460106730025) (-49))]; [(fdy (-7800463371553963) (-52)); (fdy (-7800463371553963) (-52)); (fdy (-7800463371553963) (-52))]; [(fdy (2944324986398975) (-49)); (fdy (2944324986398975) (-49)); (fdy (2944324986398975) (-49))]], [[(fdy (-6369051672525771) (-1074)); (fdy (-541698845246803) (-1071)); (fdy (3619335507064017) (-1073))]; [f0; f0; f0]; [f0; f0; f0]]) = true.
Proof. vm_compute. reflexivity. Qed.

Example t_dlaqr5_2 : okb q5_feq (dlaqr5 true true 1 3 2 3 2 [(fdy (1) (0)); (fdy (1) (1)); (fdy (3) (0))] [f0; f0; f0] [[(fdy (1) (1)); (fdy (1) (1)); (fdy (1) (1))]; [(fdy (1) (0)); (fdy (1) (0)); (fdy (1) (0))]; [(fdy (3) (0)); (fdy (3) (0)); (fdy (3) (0))]] 3 1 3 [[(fdy (3) (0)); (fdy (3) (0)); (fdy (3) (0))]; [(fdy (1) (1)); (fdy (1) (1)); (fdy (1) (1))]; [(fdy (1) (2)); (fdy (1) (2)); (fdy (1) (2))]] 3 [[(fdy (1) (1)); (fdy (1) (1)); (fdy (1) (1))]; [(fdy (1) (0)); (fdy (1) (0)); (fdy (1) (0))]; [(fdy (3) (0)); (fdy (3) (0)); (fdy (3) (0))]] 3 [[(fdy (3) (0)); (fdy (3) (0)); (fdy (3) (0))]; [(fdy (1) (1)); (fdy (1) (1)); (fdy (1) (1))]; [(fdy (1) (2)); (fdy (1) (2)); (fdy (1) (2))]] 3 3 [[f0; f0; f0]; [f0; f0; f0]; [f0; f0; f0]] 3 3 [[f0; f0; f0]; [f0; f0; f0]; [f0; f0; f0]] 3)
  ([[(fdy (1) (1)); (fdy (1) (1)); (fdy (1) (1))]; [(fdy (-8544979495185815) (-52)); (fdy (2702159776422299) (-50)); (fdy (-1351079888211149) (-50))]; [(fdy (7084274565494935) (-51)); (fdy (-7205759403792795) (-51)); (fdy (3602879701896397) (-51))]], [[(fdy (3) (0)); (fdy (3) (0)); (fdy (3) (0))]; [(fdy (-1780204061497045) (-49)); (fdy (-1780204061497045) (-49)); (fdy (-1780204061497045) (-49))]; [(fdy (2474014845849241) (-49)); (fdy (2474014845849241) (-49)); (fdy (2474014845849241) (-49))]], [[(fdy (2194022343740851) (-50)); (fdy (5846668878918953) (-55)); (fdy (1) (1))]; [(fdy (1) (0)); (fdy (1) (0)); (fdy (1) (0))]; [(fdy (3) (0)); (fdy (3) (0)); (fdy (3) (0))]], [[(fdy (-1068122436898227) (-50)); (fdy (-5696652996790543) (-54)); f0]; [(fdy (5404319552844597) (-54)); (fdy (4272489747592907) (-52)); f0]; [(fdy (3602879701896397) (-55)); f0; (fdy (1) (0))]], [[(fdy (-1780204061497045) (-49)); (fdy (-1780204061497045) (-49)); (fdy (-1780204061497045) (-49))]; [(fdy (2474014845849241) (-49)); (fdy (2474014845849241) (-49)); (fdy (2474014845849241) (-49))]; [f0; f0; f0]], [[f0; f0; f0]; [f0; f0; f0]; [f0; f0; f0]]) = true.
Proof. vm_compute. reflexivity. Qed.

(** src/array/convert.rs:112-156 *)
Example t_from_vec : fa_eq (fa_of_vec [f1; f2; fofZ 3; f4]) (fa_vector [f1; f2; fofZ 3; f4]) = true.
Proof. vm_compute. reflexivity. Qed.
Example t_from_vec_2d : okb fa_eq (fa_matrix [f1; f2; fofZ 3; f4] 2 2) (fa_of_nested [[f1; f2]; [fofZ 3; f4]]) = true.
Proof. vm_compute. reflexivity. Qed.
Example t_into_vec_2d :
  okb nest_feq (f <- fa_matrix [f1; f2; fofZ 3; f4] 2 2 ;; nested_of_fa f) [[f1; f2]; [fofZ 3; f4]] = true.
Proof. vm_compute. reflexivity. Qed.
(** src/array/indexing.rs:106-141 *)
Definition zeros100 : fa b64 := fa_vector (repeat f0 100).
Example t_set_get : forallb (fun p => feq (get1 (set1 zeros100 (fst p) (snd p)) (fst p)) (snd p))
  [(10, fofZ 100); (43, fofZ 200); (66, f0); (-1, fMINPOS)] = true.
Proof. vm_compute. reflexivity. Qed.
Example t_set_get_double : okb2 (fun a _ => forallb (fun p => feq (get2 (set2 a (fst p) (fst p) (snd p)) (fst p) (fst p)) (snd p))
  [(5, fofZ 100); (9, fofZ 200); (1, f0); (-1, fMINPOS)]) (fa_zeros 10 10) tt = true.
Proof. vm_compute. reflexivity. Qed.
(** src/array/display.rs:32-48, with the number formatter replaced by its table on 1.0 .. 4.0 *)
Definition show4 (x : b64) : string :=
  (if feq x f1 then "1.0" else if feq x f2 then "2.0" else if feq x f4 then "4.0" else "3.0")%string.
Definition disp4 (f : fa b64) : outcome string :=
  t <- fa_display string "["%string "]"%string ", "%string show4 f ;; Ok (String.concat ""%string t).
Definition l4 : list b64 := [f1; f2; fofZ 3; f4].
Example t_disp_1 : okb String.eqb (disp4 (fa_vector l4)) "[1.0, 2.0, 3.0, 4.0]"%string = true.
Proof. vm_compute. reflexivity. Qed.
Example t_disp_2 : okb String.eqb (f <- fa_matrix l4 1 4 ;; disp4 f) "[[1.0, 2.0, 3.0, 4.0]]"%string = true.
Proof. vm_compute. reflexivity. Qed.
Example t_disp_3 : okb String.eqb (f <- fa_matrix l4 4 1 ;; disp4 f) "[[1.0][2.0][3.0][4.0]]"%string = true.
Proof. vm_compute. reflexivity. Qed.
Example t_disp_4 : okb String.eqb (f <- fa_matrix l4 2 2 ;; disp4 f) "[[1.0, 2.0][3.0, 4.0]]"%string = true.
Proof. vm_compute. reflexivity. Qed.
