(** C14, C15: dnrm2.  Statements only; the proofs are in Nrm2Proofs.v and Nrm2F64.v. *)
From Flocq Require Import IEEE754.BinarySingleNaN Core.
From Coq Require Import Reals Lra.
From Verif Require Import Base Num Array Blas Spec SpecR B64 ER Nrm2Proofs Nrm2F64.
Open Scope Z_scope.

(** ** C14: exact arithmetic *)
Theorem c14_norm : forall X (TX : ToFA er X) n (x : X) incx v, 0 <= n -> vec_is (to_fa x) n incx v ->
  (forall t, 0 <= t < n -> (Rabs (v t) <= 2 ^ 505)%R) ->
  dnrm2 n x incx = Fin (sqrt (Rsum_range (fun t => v t * v t)%R 0 (n - 1))).
Proof. exact (fun X TX n x => dnrm2_exact n (to_fa x)). Qed.
Print Assumptions c14_norm.

(** with an element beyond 2^505, elements below 2^-511 do not count *)
Theorem c14_norm_big : forall X (TX : ToFA er X) n (x : X) incx v t0, vec_is (to_fa x) n incx v ->
  0 <= t0 < n -> (2 ^ 505 < Rabs (v t0))%R ->
  dnrm2 n x incx =
    Fin (sqrt (Rsum_range (fun t => if Rlt_bool (Rabs (v t)) (/ 2 ^ 511) then 0 else v t * v t)%R 0 (n - 1))).
Proof. exact (fun X TX n x => dnrm2_big n (to_fa x)). Qed.
Print Assumptions c14_norm_big.

Theorem c14_error : forall X (TX : ToFA er X) n (x : X) incx v, 0 <= n -> vec_is (to_fa x) n incx v ->
  exists r, dnrm2 n x incx = Fin r /\ (0 <= r)%R /\
    (r * r <= Rsum_range (fun t => v t * v t) 0 (n - 1) <= r * r + IZR n * / 2 ^ 1022)%R.
Proof. exact (fun X TX n x => dnrm2_error n (to_fa x)). Qed.
Print Assumptions c14_error.

Theorem c14_empty : forall F (NF : Num F) X (TX : ToFA F X) n (x : X) incx, n <= 0 -> dnrm2 n x incx = f0.
Proof. exact (fun F NF X TX n x => dnrm2_empty n (to_fa x)). Qed.
Print Assumptions c14_empty.

(** the tiny elements are really dropped: the norm of (2^600, 2^-600) is 2^600 *)
Theorem c14_exact_norm_refuted :
  dnrm2 2 (mkFA [Fin (2 ^ 600); Fin (/ 2 ^ 600)] 1 2 (Fin 0)) 1 = Fin (2 ^ 600).
Proof. exact dnrm2_drops. Qed.
Print Assumptions c14_exact_norm_refuted.

Example c14_hyps : vec_is (to_fa [Fin 3; Fin 7; Fin 4]) 2 (-2) (fun t => if t =? 0 then 4%R else 3%R) /\
  (forall t, 0 <= t < 2 -> (Rabs (if Z.eqb t 0 then 4 else 3) <= 2 ^ 505)%R).
Proof.
  assert (H : (4 <= 2 ^ 505)%R) by (replace 4%R with (2 ^ 2)%R by (cbn; lra); apply Rle_pow; [lra|lia]).
  split; intros t Ht; assert (t = 0 \/ t = 1) as [-> | ->] by lia; try reflexivity; cbn [Z.eqb]; rewrite Rabs_pos_eq by lra; lra.
Qed.

(** ** C15: binary64 *)
Theorem c15_nan : forall lm X (TX : ToFA b64 X) n (x : X) incx t, libm_ok lm ->
  0 <= t < n -> elem (to_fa x) (stride n incx t) = Some B754_nan ->
  is_nan (@dnrm2 b64 (B64 lm) X TX n x incx : b64) = true.
Proof. exact (fun lm X TX n x incx t LM => dnrm2_nan lm LM n (to_fa x) incx t). Qed.
Print Assumptions c15_nan.

Theorem c15_no_nan : forall lm X (TX : ToFA b64 X) n (x : X) incx, libm_ok lm ->
  (forall t, 0 <= t < n -> elem (to_fa x) (stride n incx t) <> Some B754_nan) ->
  is_nan (@dnrm2 b64 (B64 lm) X TX n x incx : b64) = false /\ Bsign (@dnrm2 b64 (B64 lm) X TX n x incx) = false.
Proof. exact (fun lm X TX n x incx LM => dnrm2_no_nan lm LM n (to_fa x) incx). Qed.
Print Assumptions c15_no_nan.

Theorem c15_infinity : forall lm X (TX : ToFA b64 X) n (x : X) incx t s, libm_ok lm ->
  (forall t, 0 <= t < n -> elem (to_fa x) (stride n incx t) <> Some B754_nan) ->
  0 <= t < n -> elem (to_fa x) (stride n incx t) = Some (B754_infinity s) ->
  (@dnrm2 b64 (B64 lm) X TX n x incx : b64) = B754_infinity false.
Proof. exact (fun lm X TX n x incx t s LM => dnrm2_inf lm LM n (to_fa x) incx t s). Qed.
Print Assumptions c15_infinity.

Example c15_hyps : libm_ok ref_libm /\
  @elem b64 (@to_fa _ _ (ToFA_vec b64 (B64 ref_libm)) [b64_dy 1 0; B754_nan]) (stride 2 1 1) = Some B754_nan /\
  (forall t, 0 <= t < 2 -> @elem b64 (@to_fa _ _ (ToFA_vec b64 (B64 ref_libm)) [b64_dy 1 0; B754_infinity true]) (stride 2 1 t) <> Some B754_nan) /\
  @elem b64 (@to_fa _ _ (ToFA_vec b64 (B64 ref_libm)) [b64_dy 1 0; B754_infinity true]) (stride 2 1 1) = Some (B754_infinity true).
Proof.
  split; [exact ref_libm_ok|]. split; [reflexivity|]. split; [|reflexivity].
  intros t Ht. assert (t = 0 \/ t = 1) as [-> | ->] by lia; discriminate.
Qed.
