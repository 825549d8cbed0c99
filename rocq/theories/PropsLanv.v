(** C30, C31: dlanv2.  Statements only; the proofs are in LanvProofs.v. *)
From Flocq Require Import IEEE754.BinarySingleNaN Core.
From Coq Require Import Reals Lra.
From Verif Require Import Base Num Array Blas Lapack Spec SpecR B64 ER LanvProofs.
Open Scope R_scope.

(** ** C30: exact arithmetic, entries up to 2^1021 *)
Theorem c30_similarity : forall a b c d,
  Rabs a <= bpow radix2 1021 /\ Rabs b <= bpow radix2 1021 /\ Rabs c <= bpow radix2 1021 /\ Rabs d <= bpow radix2 1021 ->
  exists (y : m2) cs sn l1 l2,
    (let '(a', b', c', d') := y in
     dlanv2 (Fin a) (Fin b) (Fin c) (Fin d) =
       mkNv2 (Fin a') (Fin b') (Fin c') (Fin d') (Fin (fst l1)) (Fin (snd l1)) (Fin (fst l2)) (Fin (snd l2)) (Fin cs) (Fin sn)) /\
    cs * cs + sn * sn = 1 /\ (a, b, c, d) = m2mul (m2mul (rot2 cs sn) y) (m2tr (rot2 cs sn)).
Proof. exact dlanv2_similarity. Qed.
Print Assumptions c30_similarity.

(** ** C31 *)
Theorem c31_schur : forall a b c d,
  Rabs a <= bpow radix2 1021 /\ Rabs b <= bpow radix2 1021 /\ Rabs c <= bpow radix2 1021 /\ Rabs d <= bpow radix2 1021 ->
  a = d \/ bpow radix2 (-52) <= Rabs (a - d) \/ 0 <= b * c ->
  exists (y : m2) cs sn l1 l2,
    (let '(a', b', c', d') := y in
     dlanv2 (Fin a) (Fin b) (Fin c) (Fin d) =
       mkNv2 (Fin a') (Fin b') (Fin c') (Fin d') (Fin (fst l1)) (Fin (snd l1)) (Fin (fst l2)) (Fin (snd l2)) (Fin cs) (Fin sn)) /\
    (let '(a', b', c', d') := y in c' = 0 \/ (a' = d' /\ b' * c' < 0)) /\
    eigenvalues2 (a, b, c, d) l1 l2 /\
    snd l2 = - snd l1 /\ (snd l1 = 0 \/ fst l1 = fst l2).
Proof. exact dlanv2_schur. Qed.
Print Assumptions c31_schur.

(** the excluded region: the routine leaves the matrix as it is and every reported pair is wrong *)
Theorem c31_region_refuted : forall a b c d,
  Rabs a <= bpow radix2 1021 /\ Rabs b <= bpow radix2 1021 /\ Rabs c <= bpow radix2 1021 /\ Rabs d <= bpow radix2 1021 ->
  a <> d -> Rabs (a - d) < bpow radix2 (-52) -> b * c < 0 ->
  exists l1 l2,
    dlanv2 (Fin a) (Fin b) (Fin c) (Fin d) =
      mkNv2 (Fin a) (Fin b) (Fin c) (Fin d) (Fin (fst l1)) (Fin (snd l1)) (Fin (fst l2)) (Fin (snd l2)) (Fin 1) (Fin 0) /\
    ~ (c = 0 \/ (a = d /\ b * c < 0)) /\ ~ eigenvalues2 (a, b, c, d) l1 l2.
Proof. exact dlanv2_wrong. Qed.
Print Assumptions c31_region_refuted.

(** a witness: ((2^-60, 2^-70), (-2^-70, -2^-60)) has two real eigenvalues, dlanv2 reports a complex pair *)
Theorem c31_refuted : exists a b c d l1 l2,
  dlanv2 (Fin a) (Fin b) (Fin c) (Fin d) =
    mkNv2 (Fin a) (Fin b) (Fin c) (Fin d) (Fin (fst l1)) (Fin (snd l1)) (Fin (fst l2)) (Fin (snd l2)) (Fin 1) (Fin 0) /\
  c <> 0 /\ a <> d /\ ~ eigenvalues2 (a, b, c, d) l1 l2 /\ eigenvalues2 (a, b, c, d) (sqrt (a * a + b * c), 0) (- sqrt (a * a + b * c), 0).
Proof. exact dlanv2_wrong_witness. Qed.
Print Assumptions c31_refuted.

(** the same matrix in binary64, whatever libm does *)
Theorem c31_binary64_refuted : forall lm,
  let r := @dlanv2 b64 (B64 lm) (b64_dy 1 (-60)) (b64_dy 1 (-70)) (b64_dy (-1) (-70)) (b64_dy (-1) (-60)) in
  B2R (nA r) = bpow radix2 (-60) /\ B2R (nD r) = - bpow radix2 (-60) /\
  B2R (nC r) = - bpow radix2 (-70) /\ B2R (nB r) = bpow radix2 (-70) /\ B2R (nrt1i r) = bpow radix2 (-70).
Proof. exact dlanv2_wrong_b64. Qed.
Print Assumptions c31_binary64_refuted.

(** ** every number type *)
Theorem c30_upper : forall F (NF : Num F) (a b c d : F), feq c f0 = true ->
  dlanv2 a b c d = mkNv2 a b c d a f0 d f0 f1 f0.
Proof. exact (fun F NF => dlanv2_upper). Qed.
Print Assumptions c30_upper.
Theorem c30_lower : forall F (NF : Num F) (a b c d : F), feq (f0 : F) f0 = true -> feq c f0 = false -> feq b f0 = true ->
  dlanv2 a b c d = mkNv2 d (- c)%num f0 a d f0 a f0 f0 f1.
Proof. exact (fun F NF => dlanv2_lower). Qed.
Print Assumptions c30_lower.
Theorem c31_early_exit : forall F (NF : Num F) (a b c d : F),
  feq c f0 = false -> feq b f0 = false -> flt (fabs (a - d)%num) fEPS = true -> feq (fsignum b) (fsignum c) = false ->
  dlanv2 a b c d = mkNv2 a b c d a (fsqrt (fabs b) * fsqrt (fabs c))%num d (- (fsqrt (fabs b) * fsqrt (fabs c)))%num f1 f0.
Proof. exact (fun F NF => dlanv2_early). Qed.
Print Assumptions c31_early_exit.
Theorem c31_reports : forall F (NF : Num F) (a b c d : F), let r := dlanv2 a b c d in
  nrt1r r = nA r /\ nrt2r r = nD r /\
  ((feq (nC r) f0 = true /\ nrt1i r = f0 /\ nrt2i r = f0) \/ (feq (nC r) f0 = false /\ nrt2i r = (- nrt1i r)%num)).
Proof. exact (fun F NF => dlanv2_reports). Qed.
Print Assumptions c31_reports.

Example c30_hyps : let M := bpow radix2 1021 in Rabs 1 <= M /\ Rabs 2 <= M /\ Rabs (-3) <= M /\ Rabs 4 <= M /\
  (1 = 4 \/ bpow radix2 (-52) <= Rabs (1 - 4) \/ 0 <= 2 * -3).
Proof.
  assert (M : 4 <= bpow radix2 1021) by (change 4 with (bpow radix2 2); apply bpow_le; lia).
  assert (L : bpow radix2 (-52) <= 1) by (change 1 with (bpow radix2 0); apply bpow_le; lia).
  cbv zeta. repeat split; try (apply Rabs_le; lra). right; left. rewrite Rabs_left; lra.
Qed.
Example c31_region_hyps : let a := bpow radix2 (-60) in a <> - a /\ Rabs (a - - a) < bpow radix2 (-52) /\ a * - a < 0.
Proof.
  cbv zeta. pose proof (bpow_gt_0 radix2 (-60)). assert (E : bpow radix2 (-52) = 256 * bpow radix2 (-60)) by
    (change (-52)%Z with (8 + -60)%Z; rewrite bpow_plus; reflexivity).
  split; [lra|]. split; [|nra]. rewrite E, Rabs_pos_eq by lra. lra.
Qed.
Example c31_early_hyps : feq (Fin (-1)) f0 = false /\ feq (Fin 1) f0 = false /\ flt (fabs (Fin 0 - Fin 0)%num) fEPS = true /\
  feq (fsignum (Fin 1)) (fsignum (Fin (-1))) = false.
Proof.
  rewrite er_f0, !er_eqE, er_subE, er_absE, er_eps, !er_signumE, er_eqE, er_ltE. unfold sgn1.
  rewrite (Rlt_bool_false 1 0), (Rlt_bool_true (-1) 0), !Req_bool_false by lra.
  split; [reflexivity|]. split; [reflexivity|]. split; [|reflexivity]. apply Rlt_bool_true.
  rewrite Rminus_0_r, Rabs_R0. apply powerRZ_lt. lra.
Qed.
