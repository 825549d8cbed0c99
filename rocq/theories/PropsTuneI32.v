(** C49: ilaenv and iparmq in i32 arithmetic.  Statements only; the proofs are in TuneI32Proofs.v. *)
From Coq Require Import Ascii.
From Verif Require Import Base Num Lapack SpecLapack SpecTune I32 TuneI32 TuneI32Proofs.
Open Scope Z_scope.

(** ** C49 *)
(** in both build profiles: no overflow, the result of the unbounded model *)
Theorem c49_iparmq : forall F (NF : Num F) pr ispec name ilo ihi, 1 <= ilo <= 2 ^ 31 - 1 -> 0 <= ihi <= 2 ^ 31 - 1 ->
  iparmq_i32 pr ispec name ilo ihi = iparmq ispec name ilo ihi.
Proof. exact @iparmq_i32_valid. Qed.
Print Assumptions c49_iparmq.

Theorem c49_ilaenv : forall F (NF : Num F) pr ispec name opts n1 n2 n3 n4,
  - 2 ^ 27 <= Z.min n1 n2 < 2 ^ 27 -> in_i32 (n3 - n2) -> in_i32 (n3 - n2 + 1) ->
  ilaenv_i32 pr ispec name opts n1 n2 n3 n4 = ilaenv ispec name opts n1 n2 n3 n4.
Proof. exact @ilaenv_i32_in. Qed.
Print Assumptions c49_ilaenv.

(** for every order: overflow concerns xTRSYL only *)
Theorem c49_other_names : forall F (NF : Num F) pr ispec name opts n1 n2 n3 n4, in_i32 (n3 - n2) -> in_i32 (n3 - n2 + 1) ->
  (ispec <> 1 \/ upper_name (substring 1 5 name) <> "TRSYL"%string) ->
  ilaenv_i32 pr ispec name opts n1 n2 n3 n4 = ilaenv ispec name opts n1 n2 n3 n4.
Proof. exact @ilaenv_i32_other. Qed.
Print Assumptions c49_other_names.
Example c49_hyps : - 2 ^ 27 <= Z.min 1000 2000 < 2 ^ 27 /\ in_i32 (0 - 2000) /\ in_i32 (0 - 2000 + 1) /\
  upper_name (substring 1 5 "dgeqrf") <> "TRSYL"%string.
Proof. repeat split; (lia || discriminate || (vm_compute; discriminate)). Qed.

(** the block size of xTRSYL from order 2^27 (real), 2^28 (complex) on: a panic in debug builds, a wrapped product in release builds *)
Theorem c49_sylvester_refuted : forall F (NF : Num F) p r opts n1 n2 n3 n4, in_i32 (Z.min n1 n2) ->
  let m := Z.min n1 n2 in
  (real_letter p -> (m < - 2 ^ 27 \/ 2 ^ 27 <= m) ->
    ilaenv_i32 Debug 1 (String p ("TRSYL" ++ r)) opts n1 n2 n3 n4 = Panic /\
    ilaenv_i32 Release 1 (String p ("TRSYL" ++ r)) opts n1 n2 n3 n4 = Ok (Z.min (Z.max 48 (Z.quot (wrap32 (16 * m)) 100)) 240)) /\
  (complex_letter p -> (m < - 2 ^ 28 \/ 2 ^ 28 <= m) ->
    ilaenv_i32 Debug 1 (String p ("TRSYL" ++ r)) opts n1 n2 n3 n4 = Panic /\
    ilaenv_i32 Release 1 (String p ("TRSYL" ++ r)) opts n1 n2 n3 n4 = Ok (Z.min (Z.max 24 (Z.quot (wrap32 (8 * m)) 100)) 80)).
Proof. exact @sylvester_i32. Qed.
Print Assumptions c49_sylvester_refuted.
(** order 2^27: 48, where the formula gives 240 *)
Example c49_order : in_i32 (Z.min (2 ^ 27) (2 ^ 27)) /\ Z.min (Z.max 48 (Z.quot (wrap32 (16 * 2 ^ 27)) 100)) 240 = 48 /\
  Z.min (Z.max 48 (Z.quot (16 * 2 ^ 27) 100)) 240 = 240.
Proof. repeat split; (lia || reflexivity || discriminate). Qed.
