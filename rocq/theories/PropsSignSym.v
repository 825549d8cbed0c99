(** Property C68: signs in dnrm2, dlapy2 and dlarfg.  Statements only; the proofs are in SignSym.v. *)
From Coq Require Import List.
From Flocq Require Import IEEE754.BinarySingleNaN Core.
From Verif Require Import Base Num Array Blas Lapack Spec B64.
From Verif Require SignSym.
Import ListNotations.
Open Scope Z_scope.

(** ** C68 *)
(** In f64: dnrm2 of two vectors whose n strided elements agree up to sign is the same, bit for bit, whatever the containers and the
    increment, NaN, infinities and missing elements included. *)
Theorem c68_dnrm2 : forall lm, let NB : Num b64 := B64 lm in forall (X : Type) (TX : ToFA b64 X) (Y : Type) (TY : ToFA b64 Y) n (x : X) (y : Y) incx,
  (forall t, 0 <= t < n -> fabs (get1 (to_fa x) (stride n incx t)) = fabs (get1 (to_fa y) (stride n incx t))) -> dnrm2 n x incx = dnrm2 n y incx.
Proof. exact SignSym.nrm2_even. Qed.
Print Assumptions c68_dnrm2.

(** In f64: dlapy2 does not see the signs of its arguments. *)
Theorem c68_dlapy2 : forall lm, let NB : Num b64 := B64 lm in forall x y x' y' : b64, fabs x = fabs x' -> fabs y = fabs y' -> dlapy2 x y = dlapy2 x' y'.
Proof. exact SignSym.lapy2_even. Qed.
Print Assumptions c68_dlapy2.

(** In f64: dlarfg applied to the negated vector (-alpha, -x) returns -beta and, bit for bit, the same reflector: the same tau, and the
    same v in the n-1 strided elements.  The elements dlarfg does not touch are those of -x.  tau = 0 (nothing to do) and tau = NaN
    are excluded. *)
Theorem c68_dlarfg : forall lm, let NB : Num b64 := B64 lm in forall n (alpha : b64) (x : list b64) incx beta y tau, 1 <= incx ->
  dlarfg n alpha x incx = Ok (beta, y, tau) -> feq tau f0 = false -> is_nan tau = false ->
  exists z, dlarfg n (fneg alpha) (map fneg x) incx = Ok (fneg beta, z, tau) /\
    updated (stride (n - 1) incx) (fun _ v => fneg v) (n - 1) (fa_of_vec (map fneg y)) (fa_of_vec z).
Proof. exact SignSym.larfg_odd. Qed.
Print Assumptions c68_dlarfg.

(** Where there is nothing to do (one element, or a zero norm) the negated vector comes back untouched, with tau = 0. *)
Theorem c68_dlarfg_zero : forall lm, let NB : Num b64 := B64 lm in forall n (alpha : b64) (x : list b64) incx,
  n <= 1 \/ feq (dnrm2 (n - 1) x incx) f0 = true -> dlarfg n (fneg alpha) (map fneg x) incx = Ok (fneg alpha, map fneg x, f0).
Proof. exact SignSym.larfg_odd_zero. Qed.
Print Assumptions c68_dlarfg_zero.

(** alpha = 3, x = (4): beta = -5, and tau is neither zero nor NaN *)
Example c68_hyps : forall lm, libm_ok lm -> let NB : Num b64 := B64 lm in let d m := b64_dy m 0 in
  match dlarfg 2 (d 3) [d 4] 1 with Ok (beta, y, tau) => beta = d (-5) /\ feq tau f0 = false /\ is_nan tau = false | _ => False end.
Proof. exact SignSym.sign_hyps. Qed.

(** -2 and 2 have the same absolute value and are different numbers *)
Example c68_abs : forall lm, let NB : Num b64 := B64 lm in fabs (b64_dy (-2) 0) = fabs (b64_dy 2 0) /\ feq (b64_dy (-2) 0) (b64_dy 2 0) = false.
Proof. intros lm NB. split; [apply B2SF_inj; vm_compute; reflexivity|vm_compute; reflexivity]. Qed.

(** the norm of (0) is 0 *)
Example c68_zero_hyps : forall lm, libm_ok lm -> let NB : Num b64 := B64 lm in feq (dnrm2 (2 - 1) [b64_dy 0 0] 1) f0 = true.
Proof. exact SignSym.zero_hyps. Qed.
