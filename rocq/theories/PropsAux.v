(** C24, C25, C32-C35: dlamch, dlapy2, dlaqr1, ieeeck, iparmq, ilaenv.  Statements only; the proofs are in
    MachProofs.v, Lapy2Proofs.v, Laqr1Proofs.v, IeeeProofs.v and ParamProofs.v. *)
From Flocq Require Import IEEE754.BinarySingleNaN Core.
From Coq Require Import Ascii Reals Lra.
From Verif Require Import Base Num Array Blas Lapack Spec SpecR SpecLapack B64 ER
  MachProofs Lapy2Proofs Laqr1Proofs IeeeProofs ParamProofs.
Open Scope Z_scope.

(** ** C24: dlamch *)
Theorem c24_values : forall lm, let dlamch := @dlamch b64 (B64 lm) in
  B2R (dlamch (chr "E")) = bpow radix2 (-53) /\ B2R (dlamch (chr "B")) = 2%R /\
  B2R (dlamch (chr "P")) = bpow radix2 (-52) /\ B2R (dlamch (chr "N")) = 53%R /\ B2R (dlamch (chr "R")) = 1%R /\
  B2R (dlamch (chr "S")) = bpow radix2 (-1022) /\ B2R (dlamch (chr "U")) = bpow radix2 (-1022) /\
  B2R (dlamch (chr "M")) = (-1021)%R /\ B2R (dlamch (chr "L")) = 1024%R /\
  B2R (dlamch (chr "O")) = (bpow radix2 1024 - bpow radix2 971)%R.
Proof. exact mach_table. Qed.
Print Assumptions c24_values.

Theorem c24_prec : forall lm, let dlamch := @dlamch b64 (B64 lm) in
  Bmult mode_NE (dlamch (chr "E")) (dlamch (chr "B")) = dlamch (chr "P").
Proof. exact mach_prec. Qed.
Print Assumptions c24_prec.

(** eps bounds the relative error of rounding to nearest *)
Theorem c24_eps_rounding : forall lm (x : R), (bpow radix2 (-1022) <= Rabs x)%R ->
  (Rabs (round radix2 (FLT_exp (-1074) 53) ZnearestE x - x) <= B2R (@dlamch b64 (B64 lm) (chr "E")) * Rabs x)%R.
Proof. exact mach_eps_rounding. Qed.
Print Assumptions c24_eps_rounding.

(** no number at or above sfmin has an infinite reciprocal *)
Theorem c24_sfmin_reciprocal : forall lm (x : b64), is_finite x = true ->
  (B2R (@dlamch b64 (B64 lm) (chr "S")) <= Rabs (B2R x))%R ->
  is_finite (Bdiv mode_NE (b64_dy 1 0) x) = true.
Proof. exact mach_sfmin_recip. Qed.
Print Assumptions c24_sfmin_reciprocal.

Theorem c24_rmax : forall lm (x : b64), (Rabs (B2R x) <= B2R (@dlamch b64 (B64 lm) (chr "O")))%R.
Proof. exact mach_max. Qed.
Print Assumptions c24_rmax.

(** every other character, lower-case letters included, gives 0 *)
Theorem c24_other : forall lm c, ~ In c (map chr ["E"; "S"; "B"; "P"; "N"; "R"; "M"; "U"; "L"; "O"]%char) ->
  @dlamch b64 (B64 lm) c = b64_dy 0 0.
Proof. exact mach_other. Qed.
Print Assumptions c24_other.

(** so the letter is not accepted in either case *)
Theorem c24_case_refuted : forall lm, @dlamch b64 (B64 lm) (chr "e") = b64_dy 0 0 /\
  B2R (@dlamch b64 (B64 lm) (chr "E")) <> B2R (b64_dy 0 0).
Proof. exact mach_lower_case. Qed.
Print Assumptions c24_case_refuted.

Example c24_hyps : (bpow radix2 (-1022) <= Rabs 1)%R /\
  ~ In (chr "e") (map chr ["E"; "S"; "B"; "P"; "N"; "R"; "M"; "U"; "L"; "O"]%char).
Proof.
  split.
  - rewrite Rabs_R1. change 1%R with (bpow radix2 0). apply bpow_le. lia.
  - intros H. repeat (destruct H as [H|H]; [discriminate H|]). destruct H.
Qed.

(** ** C25: dlapy2 *)
Theorem c25_exact : forall x y, (Rabs x <= bpow radix2 1024 - bpow radix2 971)%R -> (Rabs y <= bpow radix2 1024 - bpow radix2 971)%R ->
  dlapy2 (Fin x) (Fin y) = Fin (sqrt (x * x + y * y)).
Proof. exact dlapy2_exact. Qed.
Print Assumptions c25_exact.

Theorem c25_f64_nan : forall lm x y, is_nan (@dlapy2 b64 (B64 lm) x y) = is_nan x || is_nan y.
Proof. exact dlapy2_nan. Qed.
Print Assumptions c25_f64_nan.

Theorem c25_f64_bounds : forall lm x y, is_nan x = false -> is_nan y = false ->
  let r := @dlapy2 b64 (B64 lm) x y in
  is_nan r = false /\ Bsign r = false /\ Bleb (Babs x) r = true /\ Bleb (Babs y) r = true /\
  (is_finite x = false \/ is_finite y = false -> r = B754_infinity false).
Proof. exact dlapy2_f64. Qed.
Print Assumptions c25_f64_bounds.

Theorem c25_f64_symmetric : forall lm x y, @dlapy2 b64 (B64 lm) x y = @dlapy2 b64 (B64 lm) y x.
Proof. exact dlapy2_sym. Qed.
Print Assumptions c25_f64_symmetric.

Theorem c25_f64_sign : forall lm x y,
  @dlapy2 b64 (B64 lm) (Bopp x) y = @dlapy2 b64 (B64 lm) x y /\
  @dlapy2 b64 (B64 lm) x (Bopp y) = @dlapy2 b64 (B64 lm) x y.
Proof. exact dlapy2_sign. Qed.
Print Assumptions c25_f64_sign.

Example c25_hyps : (Rabs 3 <= bpow radix2 1024 - bpow radix2 971)%R /\ is_nan (b64_dy 3 0) = false /\
  is_finite (B754_infinity true : b64) = false.
Proof.
  split; [|split; reflexivity]. rewrite Rabs_pos_eq by lra. rewrite !bpow_IZR, <- minus_IZR by lia. apply IZR_le. vm_compute. discriminate.
Qed.

(** ** C32: dlaqr1 *)
(** [shift_column n H s1 s2 i] is the i-th entry of the first column of (H - s1 I)(H - s2 I), a complex number.
    It is k times the entry written, k > 0; nothing else of v changes. *)
Theorem c32_dlaqr1_exact : forall Ht Vt (TH : ToFA er Ht) (TV : ToFA er Vt) (FV : FromFA er Vt)
    n (h : Ht) ldh hf sr1 si1 sr2 si2 (v : Vt) H,
  n = 2 \/ n = 3 -> to_fa_2d h ldh = Ok hf -> mat_is hf n n H -> n <= count (to_fa v) ->
  shift_pair (sr1, si1) (sr2, si2) ->
  exists r, dlaqr1 n h ldh (Fin sr1) (Fin si1) (Fin sr2) (Fin si2) v = from_fa r /\
    same_shape r (to_fa v) /\ (forall p, p < 1 \/ n < p -> elem r p = elem (to_fa v) p) /\
    exists k w, (0 < k)%R /\ forall i, 1 <= i <= n ->
      elem r i = Some (Fin (w i)) /\ shift_column n H (sr1, si1) (sr2, si2) i = cre (k * w i).
Proof. exact dlaqr1_exact. Qed.
Print Assumptions c32_dlaqr1_exact.

Theorem c32_other_orders : forall F Ht Vt (NF : Num F) (TH : ToFA F Ht) (TV : ToFA F Vt) (FV : FromFA F Vt)
    n (h : Ht) ldh hf sr1 si1 sr2 si2 (v : Vt),
  n <> 2 -> n <> 3 -> to_fa_2d h ldh = Ok hf -> dlaqr1 n h ldh sr1 si1 sr2 si2 v = Ok v.
Proof. exact dlaqr1_other. Qed.
Print Assumptions c32_other_orders.

Example c32_hyps : exists hf,
  to_fa_2d [Fin 4; Fin 1; Fin 1; Fin 4] 2 = Ok hf /\ mat_is hf 2 2 (fun i j => if i =? j then 4%R else 1%R) /\
  2 <= count (to_fa [Fin 0; Fin 0]) /\ shift_pair (1%R, 2%R) (1%R, (-2)%R) /\ shift_pair (3%R, 0%R) (5%R, 0%R).
Proof.
  eexists. split; [reflexivity|]. split.
  - intros i j Hi Hj. assert (i = 1 \/ i = 2) as [-> | ->] by lia; assert (j = 1 \/ j = 2) as [-> | ->] by lia; reflexivity.
  - split; [cbn; lia|]. unfold shift_pair; cbn. split; [right|left]; split; lra.
Qed.

(** ** C33: ieeeck *)
Theorem c33_range : forall F (NF : Num F) ispec (zero one : F), ieeeck ispec zero one = 0 \/ ieeeck ispec zero one = 1.
Proof. exact @ieeeck_range. Qed.
Print Assumptions c33_range.

Theorem c33_infinity : forall lm, @ieeeck b64 (B64 lm) 0 (b64_dy 0 0) (b64_dy 1 0) = 1.
Proof. exact ieeeck_inf. Qed.
Print Assumptions c33_infinity.

(** the NaN test is inverted: no binary64 arguments pass it *)
Theorem c33_nan_refuted : forall lm ispec zero one, ispec <> 0 -> @ieeeck b64 (B64 lm) ispec zero one = 0.
Proof. exact ieeeck_nan. Qed.
Print Assumptions c33_nan_refuted.

Theorem c33_ilaenv : forall lm name opts n1 n2 n3 n4,
  @ilaenv b64 (B64 lm) 10 name opts n1 n2 n3 n4 = Ok 0 /\ @ilaenv b64 (B64 lm) 11 name opts n1 n2 n3 n4 = Ok 1.
Proof. exact ilaenv_ieee. Qed.
Print Assumptions c33_ilaenv.

(** ** C34: iparmq *)
(** Names of six or more characters never panic; the number of shifts is always 2 and the window 2 or 3. *)
Theorem c34_iparmq_partial : forall lm ispec name ilo ihi, libm_ok lm -> (6 <= String.length name)%nat -> exists r,
  @iparmq b64 (B64 lm) ispec name ilo ihi = Ok r /\ (ispec = 16 -> 0 <= r <= 2) /\ (ispec = 15 -> r = 2) /\
  (ispec = 13 -> r = if ihi - ilo + 1 <? 500 then 2 else 3) /\
  (ispec = 12 -> r = 75) /\ (ispec = 14 -> r = 14) /\ (ispec = 17 -> r = 10) /\ (ispec < 12 \/ 17 < ispec -> r = -1).
Proof. exact iparmq_b64. Qed.
Print Assumptions c34_iparmq_partial.

(** the same with exact logarithms *)
Theorem c34_iparmq_exact : forall ispec name ilo ihi, (6 <= String.length name)%nat -> exists r,
  @iparmq er ER ispec name ilo ihi = Ok r /\ (ispec = 16 -> 0 <= r <= 2) /\ (ispec = 15 -> r = 2) /\
  (ispec = 13 -> r = if ihi - ilo + 1 <? 500 then 2 else 3) /\
  (ispec = 12 -> r = 75) /\ (ispec = 14 -> r = 14) /\ (ispec = 17 -> r = 10) /\ (ispec < 12 \/ 17 < ispec -> r = -1).
Proof. exact iparmq_er. Qed.
Print Assumptions c34_iparmq_exact.

(** the table of shifts is not followed: 2 for every order, too few from 30 on *)
Theorem c34_shifts_refuted : forall lm name ilo ihi, libm_ok lm -> 30 <= ihi - ilo + 1 ->
  @iparmq b64 (B64 lm) 15 name ilo ihi = Ok 2 /\ 2 < documented_shifts_min (ihi - ilo + 1).
Proof. exact iparmq_shifts_b64. Qed.
Print Assumptions c34_shifts_refuted.

(** mode 2 is out of reach for xTGEXC (documented for 14 rows or more) and xHSEQR only ever gets mode 0 *)
Theorem c34_modes_refuted : forall lm ilo ihi, libm_ok lm -> 14 <= ihi - ilo + 1 ->
  @iparmq b64 (B64 lm) 16 "DTGEXC" ilo ihi = Ok 1 /\ @iparmq b64 (B64 lm) 16 "DHSEQR" ilo ihi = Ok 0 /\
  @iparmq b64 (B64 lm) 16 "DGGHRD" ilo ihi = Ok 2.
Proof. exact iparmq_modes_b64. Qed.
Print Assumptions c34_modes_refuted.

(** short names panic *)
Theorem c34_no_panic_refuted : forall lm ilo ihi, libm_ok lm ->
  @iparmq b64 (B64 lm) 16 "" ilo ihi = Panic /\ @iparmq b64 (B64 lm) 16 "DLAQR" ilo ihi = Panic.
Proof. exact iparmq_short_b64. Qed.
Print Assumptions c34_no_panic_refuted.

Example c34_hyps : libm_ok ref_libm /\ (6 <= String.length "DLAQR0")%nat /\ 30 <= 200 - 1 + 1.
Proof. split; [exact ref_libm_ok|]. cbn. lia. Qed.

(** ** C35: ilaenv *)
Theorem c35_ilaenv : forall lm ispec name opts n1 n2 n3 n4, libm_ok lm -> (6 <= String.length name)%nat ->
  exists r, @ilaenv b64 (B64 lm) ispec name opts n1 n2 n3 n4 = Ok r /\ (1 <= ispec <= 3 -> 0 <= r) /\
    (ispec < 1 \/ 17 < ispec -> r = -1).
Proof. exact ilaenv_b64. Qed.
Print Assumptions c35_ilaenv.

Theorem c35_case : forall F (NF : Num F) ispec name opts n1 n2 n3 n4,
  (6 <= String.length name)%nat -> starts_with_letter name ->
  ilaenv ispec (lower_name name) opts n1 n2 n3 n4 = ilaenv ispec (upper_name name) opts n1 n2 n3 n4.
Proof. exact @ilaenv_case. Qed.
Print Assumptions c35_case.

Theorem c35_unknown : forall F (NF : Num F) ispec name opts n1 n2 n3 n4,
  ispec < 1 \/ 17 < ispec -> ilaenv ispec name opts n1 n2 n3 n4 = Ok (-1).
Proof. exact @ilaenv_unknown. Qed.
Print Assumptions c35_unknown.

(** shorter names: empty ones and lower-case ones panic, and the two spellings then differ *)
Theorem c35_short_names_refuted : forall F (NF : Num F) opts n1 n2 n3 n4,
  ilaenv 1 "" opts n1 n2 n3 n4 = Panic /\ ilaenv 1 "dgemm" opts n1 n2 n3 n4 = Panic /\
  ilaenv 1 "DGEMM" opts n1 n2 n3 n4 = Ok 1.
Proof. exact ilaenv_panics. Qed.
Print Assumptions c35_short_names_refuted.

Example c35_hyps : (6 <= String.length "dGeQrF")%nat /\ starts_with_letter "dGeQrF" /\
  lower_name "dGeQrF" = "dgeqrf"%string /\ upper_name "dGeQrF" = "DGEQRF"%string.
Proof. cbn. repeat split; try lia. discriminate. Qed.
