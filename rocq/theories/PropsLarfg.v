(** C26, C27: dlarfg.  Statements only; the proofs are in LarfgProofs.v. *)
From Flocq Require Import IEEE754.BinarySingleNaN Core.
From Coq Require Import Reals Lra.
From Verif Require Import Base Num Array Blas Lapack Spec SpecR B64 ER LarfgProofs.
Open Scope Z_scope.

(** ** C26: exact arithmetic.  [reflect n tau w y] is the vector (I - tau*w*w^T)*y.
    The routine only reads x through dnrm2 and dscal; the container may be anything that keeps the flat
    data ([Vec<f64>] and [FortranArray] do, see the examples). *)
Theorem c26_reflector : forall X (TX : ToFA er X) (FX : FromFA er X) n a (x : X) incx xv, flat_container er X ->
  2 <= n < 2 ^ 31 -> 1 <= incx -> vec_is (to_fa x) (n - 1) incx xv ->
  (Rabs a <= bpow radix2 1024 - bpow radix2 971)%R -> (forall t, 0 <= t < n - 1 -> (Rabs (xv t) <= 2 ^ 505)%R) ->
  (exists t, 0 <= t < n - 1 /\ xv t <> 0%R) ->
  exists beta x' tau v, dlarfg n (Fin a) x incx = Ok (Fin beta, x', Fin tau) /\
    vec_is (to_fa x') (n - 1) incx v /\
    (forall i, 0 <= i < n -> reflect n tau (vcons 1 v) (vcons a xv) i = vcons beta (fun _ => 0%R) i) /\
    (forall y, sum_sq n (reflect n tau (vcons 1 v) y) = sum_sq n y) /\
    (beta * beta = a * a + sum_sq (n - 1) xv)%R /\ (beta * a <= 0)%R /\ (1 <= tau <= 2)%R /\
    count (to_fa x') = count (to_fa x) /\
    forall p, (forall t, 0 <= t < n - 1 -> p <> stride (n - 1) incx t) -> elem (to_fa x') p = elem (to_fa x) p.
Proof. exact dlarfg_reflector. Qed.
Print Assumptions c26_reflector.

(** the scalars in closed form: beta = -sign(alpha)*sqrt(alpha^2+|x|^2), tau = (beta-alpha)/beta, v = x/(alpha-beta) *)
Theorem c26_values : forall X (TX : ToFA er X) (FX : FromFA er X) n a (x : X) incx xv, flat_container er X ->
  2 <= n < 2 ^ 31 -> 1 <= incx -> vec_is (to_fa x) (n - 1) incx xv ->
  (Rabs a <= bpow radix2 1024 - bpow radix2 971)%R -> (forall t, 0 <= t < n - 1 -> (Rabs (xv t) <= 2 ^ 505)%R) ->
  (exists t, 0 <= t < n - 1 /\ xv t <> 0%R) ->
  let beta := ((if Rlt_dec a 0 then 1 else -1) * sqrt (a * a + sum_sq (n - 1) xv))%R in
  exists x', dlarfg n (Fin a) x incx = Ok (Fin beta, x', Fin ((beta - a) / beta)%R) /\
    vec_is (to_fa x') (n - 1) incx (fun t => xv t / (a - beta))%R.
Proof. exact dlarfg_values. Qed.
Print Assumptions c26_values.

Example c26_flat_vec : flat_container er (list er).
Proof. exact flat_vec. Qed.
Example c26_flat_fa : flat_container er (fa er).
Proof. exact flat_fa. Qed.
Example c26_hyps : vec_is (to_fa [Fin 3; Fin 7; Fin (/ 2 ^ 1000)]) (3 - 1) 2 (fun t => if t =? 0 then 3%R else (/ 2 ^ 1000)%R) /\
  (exists t, 0 <= t < 3 - 1 /\ (if t =? 0 then 3%R else (/ 2 ^ 1000)%R) <> 0%R) /\ (1 <= 2 < 2 ^ 31).
Proof.
  split; [intros t Ht; assert (t = 0 \/ t = 1) as [-> | ->] by lia; reflexivity|].
  split; [exists 0; split; [lia|cbn; lra]|lia].
Qed.

(** ** C27 *)
Theorem c27_short : forall F (NF : Num F) X (TX : ToFA F X) (FX : FromFA F X) n alpha (x : X) incx,
  n <= 1 -> dlarfg n alpha x incx = Ok (alpha, x, f0).
Proof. exact (fun F NF X TX FX n alpha x incx H => dlarfg_quick n alpha x incx (or_introl H)). Qed.
Print Assumptions c27_short.

Theorem c27_zero_norm : forall F (NF : Num F) X (TX : ToFA F X) (FX : FromFA F X) n alpha (x : X) incx,
  feq (dnrm2 (n - 1) x incx) f0 = true -> dlarfg n alpha x incx = Ok (alpha, x, f0).
Proof. exact (fun F NF X TX FX n alpha x incx H => dlarfg_quick n alpha x incx (or_intror H)). Qed.
Print Assumptions c27_zero_norm.

Theorem c27_zero_exact : forall X (TX : ToFA er X) (FX : FromFA er X) n alpha (x : X) incx,
  vec_is (to_fa x) (n - 1) incx (fun _ => 0%R) -> dlarfg n alpha x incx = Ok (alpha, x, Fin 0).
Proof. exact dlarfg_zero_exact. Qed.
Print Assumptions c27_zero_exact.

Theorem c27_zero_binary64 : forall lm X (TX : ToFA b64 X) (FX : FromFA b64 X) n alpha (x : X) incx, libm_ok lm ->
  (forall t, 0 <= t < n - 1 -> exists s, elem (to_fa x) (stride (n - 1) incx t) = Some (B754_zero s)) ->
  @dlarfg b64 (B64 lm) X TX FX n alpha x incx = Ok (alpha, x, B754_zero false).
Proof. exact dlarfg_zero_b64. Qed.
Print Assumptions c27_zero_binary64.

(** every number type, every input: the routine returns, without a panic, and touches the stride only *)
Theorem c27_total : forall F (NF : Num F) X (TX : ToFA F X) (FX : FromFA F X), flat_container F X ->
  forall n alpha (x : X) incx, exists beta x' tau, dlarfg n alpha x incx = Ok (beta, x', tau) /\
    count (to_fa x') = count (to_fa x) /\
    forall p, (forall t, 0 <= t < n - 1 -> p <> stride (n - 1) incx t) -> elem (to_fa x') p = elem (to_fa x) p.
Proof. exact (fun F NF X TX FX FL => dlarfg_total FL). Qed.
Print Assumptions c27_total.

(** the rescaling loop: entered with knt = 0 it leaves with 1 <= knt <= 21, whatever the numbers do *)
Theorem c27_loop_bounded : forall F (NF : Num F) X (TX : ToFA F X) (FX : FromFA F X), flat_container F X ->
  forall n incx safmin rsafmn (x : X) beta alpha,
  exists knt x' beta' alpha', dlarfg_loop 20 n incx safmin rsafmn 0 x beta alpha = Ok (knt, x', beta', alpha') /\ (1 <= knt <= 21)%nat.
Proof. exact (fun F NF X TX FX FL => larfg_loop_bounded FL). Qed.
Print Assumptions c27_loop_bounded.

Example c27_hyps : vec_is (to_fa [Fin 0; Fin 7; Fin 0]) (3 - 1) 2 (fun _ => 0%R) /\
  (forall t, 0 <= t < 3 - 1 -> exists s, @elem b64 (@to_fa _ _ (ToFA_vec b64 (B64 ref_libm)) [B754_zero true; B754_zero false]) (stride (3 - 1) 1 t) = Some (B754_zero s)) /\
  @flat_container b64 (list b64) (ToFA_vec b64 (B64 ref_libm)) (FromFA_vec b64).
Proof.
  split; [|split; [|exact (@flat_vec b64 (B64 ref_libm))]]; intros t Ht; assert (t = 0 \/ t = 1) as [-> | ->] by lia;
    [reflexivity|reflexivity|exists true; reflexivity|exists false; reflexivity].
Qed.
