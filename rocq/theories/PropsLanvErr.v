(** C53: dlanv2 in binary64 is backward stable.  Statements only; the proofs are in LanvErr.v, LanvEig.v and LanvWit.v.
    [rot2 C S] = ((C, -S), (S, C)); [eigenvalues2 x l1 l2]: z^2 - tr x z + det x = (z - l1)(z - l2) for every complex z. *)
From Coq Require Import Reals Lra.
From Flocq Require Import IEEE754.BinarySingleNaN Core.
From Verif Require Import Base Num Array Blas Lapack Spec SpecR SpecErr B64 GemmErr LanvWit.
Open Scope R_scope.

(** every output is finite; the returned matrix is within 2^-43 M of a matrix exactly orthogonally similar to the input, by a
    rotation that (cs, sn) matches to 2^-46 *)
Theorem c53_backward : forall lm, libm_ok lm -> let NB : Num b64 := B64 lm in
    forall (a b c d : b64) M,
  Forall (fun x => is_finite x = true /\ Rabs (val64 x) <= M) [a; b; c; d] -> M <= bpow radix2 400 ->
  val64 b = 0 \/ val64 c = 0 \/ bpow radix2 (-969) <= Rmax (Rabs (val64 b)) (Rabs (val64 c)) ->
  let r := dlanv2 a b c d in
  Forall (fun x => is_finite x = true) [nA r; nB r; nC r; nD r; nrt1r r; nrt1i r; nrt2r r; nrt2i r; nCs r; nSn r] /\
  exists C S y1 y2 y3 y4, C * C + S * S = 1 /\
    (val64 a, val64 b, val64 c, val64 d) = m2mul (m2mul (rot2 C S) (y1, y2, y3, y4)) (m2tr (rot2 C S)) /\
    Rabs (val64 (nA r) - y1) <= bpow radix2 (-43) * M /\ Rabs (val64 (nB r) - y2) <= bpow radix2 (-43) * M /\
    Rabs (val64 (nC r) - y3) <= bpow radix2 (-43) * M /\ Rabs (val64 (nD r) - y4) <= bpow radix2 (-43) * M /\
    Rabs (val64 (nCs r) - C) <= bpow radix2 (-46) /\ Rabs (val64 (nSn r) - S) <= bpow radix2 (-46).
Proof. exact lanv_backward. Qed.
Print Assumptions c53_backward.

(** (cs, sn) has length one up to 2^-44 *)
Theorem c53_rotation : forall lm, libm_ok lm -> let NB : Num b64 := B64 lm in
    forall (a b c d : b64) M,
  Forall (fun x => is_finite x = true /\ Rabs (val64 x) <= M) [a; b; c; d] -> M <= bpow radix2 400 ->
  val64 b = 0 \/ val64 c = 0 \/ bpow radix2 (-969) <= Rmax (Rabs (val64 b)) (Rabs (val64 c)) ->
  let r := dlanv2 a b c d in
  Rabs (val64 (nCs r) * val64 (nCs r) + val64 (nSn r) * val64 (nSn r) - 1) <= bpow radix2 (-44).
Proof. exact lanv_orth. Qed.
Print Assumptions c53_rotation.

(** the returned matrix is exactly in standard form, unless the early exit is taken *)
Theorem c53_standard : forall lm, libm_ok lm -> let NB : Num b64 := B64 lm in
    forall (a b c d : b64) M,
  Forall (fun x => is_finite x = true /\ Rabs (val64 x) <= M) [a; b; c; d] -> M <= bpow radix2 400 ->
  val64 b = 0 \/ val64 c = 0 \/ bpow radix2 (-969) <= Rmax (Rabs (val64 b)) (Rabs (val64 c)) ->
  val64 a = val64 d \/ bpow radix2 (-52) <= Rabs (val64 a - val64 d) \/ 0 <= val64 b * val64 c ->
  let r := dlanv2 a b c d in
  val64 (nC r) = 0 \/ (val64 (nA r) = val64 (nD r) /\ val64 (nB r) * val64 (nC r) < 0).
Proof. exact lanv_std. Qed.
Print Assumptions c53_standard.

(** the reported eigenvalues are the exact eigenvalues of a matrix whose entries differ from the input by at most 2^-42 M *)
Theorem c53_eigenvalues : forall lm, libm_ok lm -> let NB : Num b64 := B64 lm in
    forall (a b c d : b64) M,
  Forall (fun x => is_finite x = true /\ Rabs (val64 x) <= M) [a; b; c; d] -> M <= bpow radix2 400 ->
  val64 b = 0 \/ val64 c = 0 \/ bpow radix2 (-969) <= Rmax (Rabs (val64 b)) (Rabs (val64 c)) ->
  val64 a = val64 d \/ bpow radix2 (-52) <= Rabs (val64 a - val64 d) \/ 0 <= val64 b * val64 c ->
  let r := dlanv2 a b c d in
  exists e1 e2 e3 e4, Forall (fun e => Rabs e <= bpow radix2 (-42) * M) [e1; e2; e3; e4] /\
    eigenvalues2 (val64 a + e1, val64 b + e2, val64 c + e3, val64 d + e4)
      (val64 (nrt1r r), val64 (nrt1i r)) (val64 (nrt2r r), val64 (nrt2i r)).
Proof. exact lanv_eigs. Qed.
Print Assumptions c53_eigenvalues.

(** ((1, 1), (-1, 1)) meets all the hypotheses with M = 1 *)
Example c53_hyps : libm_ok ref_libm /\ let o := b64_dy 1 0 in
  Forall (fun x => is_finite x = true /\ Rabs (val64 x) <= 1) [o; o; Bopp o; o] /\ 1 <= bpow radix2 400 /\
  bpow radix2 (-969) <= Rmax (Rabs (val64 o)) (Rabs (val64 (Bopp o))) /\ val64 o = val64 o.
Proof.
  split; [exact ref_libm_ok|]. cbv zeta. assert (V1 : val64 (b64_dy 1 0) = 1) by exact B2R_1.
  assert (VN : val64 (Bopp (b64_dy 1 0)) = -1) by (unfold val64; rewrite B2R_Bopp; unfold val64 in V1; rewrite V1; lra).
  assert (A1 : Rabs 1 <= 1) by (rewrite Rabs_pos_eq; lra). assert (AN : Rabs (-1) <= 1) by (rewrite Rabs_left; lra).
  split; [repeat (apply Forall_cons; [split; [reflexivity|rewrite ?VN, ?V1; assumption]|]); apply Forall_nil|].
  split; [change 1 with (bpow radix2 0); apply bpow_le; lia|]. split; [|reflexivity].
  rewrite V1. eapply Rle_trans; [|apply Rmax_l]. rewrite Rabs_pos_eq by lra. change 1 with (bpow radix2 0). apply bpow_le. lia.
Qed.

(** the lower limit is needed: on ((3, 1), (2, 0)) 2^-1074, whose eigenvalues are (3 +- sqrt 17)/2 2^-1074, the reported ones are
    5 2^-1074 and -2^-1074, and cs^2 + sn^2 exceeds 1.12 *)
Theorem c53_subnormal_refuted : forall lm, libm_ok lm -> let NB : Num b64 := B64 lm in
  let r := dlanv2 (b64_dy 3 (-1074)) (b64_dy 1 (-1074)) (b64_dy 2 (-1074)) (b64_dy 0 0) in
  val64 (nCs r) * val64 (nCs r) + val64 (nSn r) * val64 (nSn r) > 1.12 /\
  val64 (nrt1r r) = 5 * bpow radix2 (-1074) /\ val64 (nrt1i r) = 0 /\ val64 (nrt2r r) = - bpow radix2 (-1074) /\ val64 (nrt2i r) = 0.
Proof. exact lanv_tiny. Qed.
Print Assumptions c53_subnormal_refuted.
