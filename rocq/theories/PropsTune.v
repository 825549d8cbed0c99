(** C34, C35: the values ilaenv and iparmq return, name by name.  Statements only; the proofs are in TuneProofs.v
    and TuneF64.v, the tables in SpecTune.v. *)
From Coq Require Import Ascii.
From Verif Require Import Base Num Lapack Spec SpecLapack SpecTune B64 ParamProofs TuneProofs TuneF64.
Open Scope Z_scope.

(** Every name made of one of the letters S, D, C, Z, five letters [s] and anything after them, outside the five
    families below: the three parameters are the row of the table. *)
Theorem c35_table : forall F (NF : Num F) p s r opts n1 n2 n3 n4,
  real_letter p \/ complex_letter p -> String.length s = 5%nat ->
  (family "OR" s = true -> complex_letter p) -> (family "UN" s = true -> real_letter p) ->
  ~ In s ["GBTRF"; "PBTRF"; "TRSYL"]%string -> (In s ["SYTRF"; "HETRF"]%string -> String.get 4 r <> Some "2"%char) ->
  ilaenv 1 (String p (s ++ r)) opts n1 n2 n3 n4 = Ok (fst (fst (tuning_row s))) /\
  ilaenv 2 (String p (s ++ r)) opts n1 n2 n3 n4 = Ok (snd (fst (tuning_row s))) /\
  ilaenv 3 (String p (s ++ r)) opts n1 n2 n3 n4 = Ok (snd (tuning_row s)).
Proof. exact @tuning_ok. Qed.
Print Assumptions c35_table.

Theorem c35_two_stage : forall F (NF : Num F) p s r opts n1 n2 n3 n4,
  real_letter p \/ complex_letter p -> In s ["SYTRF"; "HETRF"]%string -> String.get 4 r = Some "2"%char ->
  ilaenv 1 (String p (s ++ r)) opts n1 n2 n3 n4 = Ok 192.
Proof. exact @two_stage_ok. Qed.
Print Assumptions c35_two_stage.

Theorem c35_band : forall F (NF : Num F) p s r opts n1 n2 n3 n4,
  real_letter p \/ complex_letter p -> In s ["GBTRF"; "PBTRF"]%string ->
  ilaenv 1 (String p (s ++ r)) opts n1 n2 n3 n4 = Ok (if Z.max n2 n4 <=? 64 then 1 else 32) /\
  ilaenv 2 (String p (s ++ r)) opts n1 n2 n3 n4 = Ok 2 /\ ilaenv 3 (String p (s ++ r)) opts n1 n2 n3 n4 = Ok 0.
Proof. exact @band_ok. Qed.
Print Assumptions c35_band.

(** integers are unbounded here: [16 * min n1 n2] overflows an i32 from 134217728 on *)
Theorem c35_sylvester : forall F (NF : Num F) p r opts n1 n2 n3 n4,
  real_letter p \/ complex_letter p ->
  (real_letter p -> ilaenv 1 (String p ("TRSYL" ++ r)) opts n1 n2 n3 n4 =
     Ok (Z.min (Z.max 48 (Z.quot (16 * Z.min n1 n2) 100)) 240)) /\
  (complex_letter p -> ilaenv 1 (String p ("TRSYL" ++ r)) opts n1 n2 n3 n4 =
     Ok (Z.min (Z.max 24 (Z.quot (8 * Z.min n1 n2) 100)) 80)) /\
  ilaenv 2 (String p ("TRSYL" ++ r)) opts n1 n2 n3 n4 = Ok 2 /\ ilaenv 3 (String p ("TRSYL" ++ r)) opts n1 n2 n3 n4 = Ok 0.
Proof. exact @sylvester_ok. Qed.
Print Assumptions c35_sylvester.

(** real ORxxx: the block size is 32 whatever follows OR *)
Theorem c35_orthogonal : forall F (NF : Num F) p s r opts n1 n2 n3 n4,
  real_letter p -> String.length s = 5%nat -> family "OR" s = true ->
  ilaenv 1 (String p (s ++ r)) opts n1 n2 n3 n4 = Ok 32 /\
  ilaenv 2 (String p (s ++ r)) opts n1 n2 n3 n4 = Ok (if family "ORG" s || applies_factor "ORM" s then 2 else 1) /\
  ilaenv 3 (String p (s ++ r)) opts n1 n2 n3 n4 = Ok (if applies_factor "ORG" s then 128 else 0).
Proof. exact @orthogonal_ok. Qed.
Print Assumptions c35_orthogonal.

(** complex UNxxx: it is 32 only for UNGxx and UNMxx *)
Theorem c35_unitary : forall F (NF : Num F) p s r opts n1 n2 n3 n4,
  complex_letter p -> String.length s = 5%nat -> family "UN" s = true ->
  ilaenv 1 (String p (s ++ r)) opts n1 n2 n3 n4 = Ok (if applies_factor "UNG" s || applies_factor "UNM" s then 32 else 1) /\
  ilaenv 2 (String p (s ++ r)) opts n1 n2 n3 n4 = Ok (if family "UNG" s || applies_factor "UNM" s then 2 else 1) /\
  ilaenv 3 (String p (s ++ r)) opts n1 n2 n3 n4 = Ok (if applies_factor "UNG" s then 128 else 0).
Proof. exact @unitary_ok. Qed.
Print Assumptions c35_unitary.

Theorem c35_other_letter : forall F (NF : Num F) ispec p r opts n1 n2 n3 n4,
  1 <= ispec <= 3 -> (5 <= String.length r)%nat -> ~ real_letter (ascii_upper p) -> ~ complex_letter (ascii_upper p) ->
  ilaenv ispec (String p r) opts n1 n2 n3 n4 = Ok 1.
Proof. exact @other_letter_ok. Qed.
Print Assumptions c35_other_letter.

Theorem c35_fixed : forall F (NF : Num F) name opts n1 n2 n3 n4,
  ilaenv 4 name opts n1 n2 n3 n4 = Ok 6 /\ ilaenv 5 name opts n1 n2 n3 n4 = Ok 2 /\ ilaenv 7 name opts n1 n2 n3 n4 = Ok 1 /\
  ilaenv 8 name opts n1 n2 n3 n4 = Ok 50 /\ ilaenv 9 name opts n1 n2 n3 n4 = Ok 25 /\
  (forall ispec, 12 <= ispec <= 17 -> ilaenv ispec name opts n1 n2 n3 n4 = iparmq ispec name n2 n3).
Proof. exact @fixed_ok. Qed.
Print Assumptions c35_fixed.

(** ispec 6 in binary64: 1.6 times the smaller order, rounded half up (the documentation truncates) *)
Theorem c35_svd_crossover : forall lm name opts n1 n2 n3 n4, 0 <= Z.min n1 n2 < 2 ^ 31 ->
  @ilaenv b64 (B64 lm) 6 name opts n1 n2 n3 n4 = Ok (Z.min (2 ^ 31 - 1) ((16 * Z.min n1 n2 + 5) / 10)).
Proof. exact svd_crossover. Qed.
Print Assumptions c35_svd_crossover.

(** the blocked factorizations GETRF and POTRF, documented with block size 64, fall through to 1 *)
Theorem c35_blocked_refuted : forall F (NF : Num F) opts n1 n2 n3 n4,
  ilaenv 1 "DGETRF" opts n1 n2 n3 n4 = Ok 1 /\ ilaenv 1 "DPOTRF" opts n1 n2 n3 n4 = Ok 1.
Proof. exact @blocked_wrong. Qed.
Print Assumptions c35_blocked_refuted.

Example c35_table_hyps :
  (real_letter "D" \/ complex_letter "D") /\ String.length "GEHRD" = 5%nat /\ tuning_row "GEHRD" = (32, 2, 128) /\
  family "OR" "GEHRD" = false /\ family "UN" "GEHRD" = false /\ ~ In "GEHRD"%string ["GBTRF"; "PBTRF"; "TRSYL"]%string /\
  String.get 4 "_AA_2STAGE" = Some "2"%char /\ family "OR" "ORMQR" = true /\ applies_factor "ORM" "ORMQR" = true /\
  family "UN" "UNGHR" = true /\ ~ real_letter (ascii_upper "x") /\ ~ complex_letter (ascii_upper "x").
Proof.
  unfold real_letter, complex_letter. cbn. repeat split; auto; try (intros [H|H]; discriminate H).
  intros [H|[H|[H|[]]]]; discriminate H.
Qed.

(** iparmq's ispec 16 for every name of an upper-case letter and five characters *)
Theorem c34_modes : forall lm p s r ilo ihi, libm_ok lm -> String.length s = 5%nat -> ascii_upper p = p ->
  @iparmq b64 (B64 lm) 16 (String p (s ++ r)) ilo ihi = Ok (accumulation_mode s (ihi - ilo + 1)).
Proof. exact mode_b64. Qed.
Print Assumptions c34_modes.

Example c34_modes_hyps : libm_ok ref_libm /\ String.length "GGHRD" = 5%nat /\ ascii_upper "D" = "D"%char /\
  accumulation_mode "GGHRD" 20 = 2 /\ accumulation_mode "TGEXC" 20 = 1.
Proof. split; [exact ref_libm_ok|]. repeat split. Qed.
