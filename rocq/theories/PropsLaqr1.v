(** C52: dlaqr1 in binary64.  Statements only; the proofs are in Laqr1Err.v and Laqr1Wit.v.
    [shift_column n H s1 s2 i]: entry i of the first column of (H - s1 I)(H - s2 I); [shift_mag]: the magnitude of its terms;
    [shift_scale]: |h11 - sr2| + |si2| + |h21| (+ |h31|).  u64 = 2^-53, eta64 = 2^-1075, gam n = (1 + u64)^n - 1. *)
From Coq Require Import Reals Lra.
From Flocq Require Import IEEE754.BinarySingleNaN Core.
From Verif Require Import Base Num Array Blas Lapack Spec SpecR SpecErr SpecShift B64 GemmErr Laqr1Err Laqr1Wit.
Open Scope R_scope.

(** finite entries and shifts of magnitude at most m <= 2^1000, in any pairing: the computed entries are finite numbers and, times
    one positive number close to the exact scale, each is close to the (real part of the) exact entry *)
Theorem c52_dlaqr1_error : forall lm, let NB : Num b64 := B64 lm in
    forall Ht Vt (TH : ToFA b64 Ht) (TV : ToFA b64 Vt) (FV : FromFA b64 Vt) n (h : Ht) ldh hf (sr1 si1 sr2 si2 : b64) (v : Vt) H m,
  (n = 2 \/ n = 3)%Z -> to_fa_2d h ldh = Ok hf -> op_is64 true hf n n H -> op_bound64 true hf n n m -> m <= bpow radix2 1000 ->
  Forall (fun x => is_finite x = true /\ Rabs (val64 x) <= m) [sr1; si1; sr2; si2] -> (n <= count (to_fa v))%Z ->
  let s1 := (val64 sr1, val64 si1) in let s2 := (val64 sr2, val64 si2) in
  exists r sigma, dlaqr1 n h ldh sr1 si1 sr2 si2 v = from_fa r /\ same_shape r (to_fa v) /\
    (forall p, (p < 1 \/ n < p)%Z -> elem r p = elem (to_fa v) p) /\ 0 < sigma /\
    (shift_scale n H s2 <> 0 -> Rabs (sigma - shift_scale n H s2) <= gam 4 * shift_scale n H s2) /\
    forall i, (1 <= i <= n)%Z -> exists y, elem r i = Some y /\ is_finite y = true /\
      Rabs (sigma * val64 y - fst (shift_column n H s1 s2 i)) <=
        gam 7 * shift_mag n H s1 s2 i + (1 + u64) ^ 7 * (eta64 * sigma * (5 * m + 4)).
Proof. exact dlaqr1_err. Qed.
Print Assumptions c52_dlaqr1_error.

Example c52_hyps : let NB : Num b64 := B64 ref_libm in
  to_fa_2d [f1; f1; f0; f1] 2 = Ok (flat 2 [f1; f1; f0; f1]) /\
  op_is64 true (flat 2 [f1; f1; f0; f1]) 2 2 (fun i j => if (i =? 1)%Z && (j =? 2)%Z then 0 else 1)%bool /\
  op_bound64 true (flat 2 [f1; f1; f0; f1]) 2 2 1 /\ 1 <= bpow radix2 1000 /\
  Forall (fun x => is_finite x = true /\ Rabs (val64 x) <= 1) [f0; f1; f0; fneg f1] /\ (2 <= count (to_fa [f0; f0]))%Z.
Proof.
  cbv zeta. assert (V1 : val64 (b64_dy 1 0) = 1) by exact B2R_1.
  assert (VN : val64 (Bopp (b64_dy 1 0)) = -1) by (unfold val64; rewrite B2R_Bopp; unfold val64 in V1; rewrite V1; lra).
  assert (V0 : val64 (b64_dy 0 0) = 0) by reflexivity.
  assert (A1 : Rabs 1 <= 1) by (rewrite Rabs_pos_eq; lra). assert (A0 : Rabs 0 <= 1) by (rewrite Rabs_R0; lra).
  assert (AN : Rabs (-1) <= 1) by (rewrite Rabs_left; lra).
  split; [reflexivity|]. split; [|split; [|split; [change 1 with (bpow radix2 0); apply bpow_le; lia|split; [|cbn; lia]]]].
  - intros i j Hi Hj. assert (i = 1 \/ i = 2)%Z as [-> | ->] by lia; assert (j = 1 \/ j = 2)%Z as [-> | ->] by lia; (eexists; split; [reflexivity|]); [exact V1|exact V0|exact V1|exact V1].
  - intros i j Hi Hj. assert (i = 1 \/ i = 2)%Z as [-> | ->] by lia; assert (j = 1 \/ j = 2)%Z as [-> | ->] by lia; (eexists; split; [reflexivity|]; split; [reflexivity|]);
    [change (Rabs (val64 (b64_dy 1 0)) <= 1)|change (Rabs (val64 (b64_dy 0 0)) <= 1)|change (Rabs (val64 (b64_dy 1 0)) <= 1)|change (Rabs (val64 (b64_dy 1 0)) <= 1)]; rewrite ?V1, ?V0; assumption.
  - repeat (apply Forall_cons; [split; [reflexivity|]|]); [change (Rabs (val64 (b64_dy 0 0)) <= 1)|change (Rabs (val64 (b64_dy 1 0)) <= 1)|change (Rabs (val64 (b64_dy 0 0)) <= 1)|change (Rabs (val64 (Bopp (b64_dy 1 0))) <= 1)|apply Forall_nil]; rewrite ?VN, ?V1, ?V0; assumption.
Qed.

(** beyond that the scale overflows: H = ((2^1023, 0), (2^1023, 0)) with both shifts 0 gives the zero vector, and neither exact entry is zero *)
Theorem c52_huge_refuted : forall lm, let NB : Num b64 := B64 lm in
  dlaqr1 2 [big; big; f0; f0] 2 f0 f0 f0 f0 [f1; f1] = Ok [f0; f0] /\
  op_is64 true (flat 2 [big; big; f0; f0]) 2 2 big_mat /\
  1 < fst (shift_column 2 big_mat (0, 0) (0, 0) 1) /\ 1 < fst (shift_column 2 big_mat (0, 0) (0, 0) 2).
Proof. exact laqr1_huge. Qed.
Print Assumptions c52_huge_refuted.
