(** C17-C20: dgemm.  Statements only; the proofs are in GemmProofs.v, Checks.v and GemmTop.v. *)
From Coq Require Import Ascii Reals Lra.
From Verif Require Import Base Num Array Blas Spec SpecBlas SpecR ER B64 GemmTop.
Open Scope Z_scope.

(** ** C17: the value of every entry of the block, in every number type (so in f64 bit for bit), and
    C18: nothing else changes and nothing panics *)
Theorem c17_dgemm_fortran : forall F (NF : Num F) A B (TA : ToFA F A) (TB : ToFA F B)
    transa transb m n k (alpha : F) (a : A) lda (b : B) ldb beta (c : fa F) ldc (nota notb : bool) af bf,
  none_bad (gemm_table transa transb m n k lda ldb ldc) ->
  (nota = true <-> letter transa LN) -> (notb = true <-> letter transb LN) ->
  to_fa_2d a lda = Ok af -> to_fa_2d b ldb = Ok bf -> m <= rows c ->
  exists c', dgemm transa transb m n k alpha a lda b ldb beta c ldc = Ok c' /\
    block_updated m n (gemm_entry nota notb k alpha beta af bf) c c'.
Proof. exact @dgemm_fortran. Qed.
Print Assumptions c17_dgemm_fortran.

Theorem c17_dgemm_flat : forall F (NF : Num F)
    transa transb m n k (alpha : F) (a : list F) lda (b : list F) ldb beta (c : list F) ldc (nota notb : bool),
  none_bad (gemm_table transa transb m n k lda ldb ldc) ->
  (nota = true <-> letter transa LN) -> (notb = true <-> letter transb LN) ->
  exists c', dgemm transa transb m n k alpha a lda b ldb beta c ldc = Ok c' /\
    block_updated m n (gemm_entry nota notb k alpha beta (flat lda a) (flat ldb b)) (flat ldc c) (flat ldc c').
Proof. exact @dgemm_flat. Qed.
Print Assumptions c17_dgemm_flat.

(** every container; the result is written back with From<FortranArray> unless there is nothing to do *)
Theorem c17_dgemm_any : forall F (NF : Num F) A B C (TA : ToFA F A) (TB : ToFA F B) (TC : ToFA F C) (FC : FromFA F C)
    transa transb m n k (alpha : F) (a : A) lda (b : B) ldb beta (c : C) ldc (nota notb : bool) af bf cf,
  none_bad (gemm_table transa transb m n k lda ldb ldc) ->
  (nota = true <-> letter transa LN) -> (notb = true <-> letter transb LN) ->
  to_fa_2d a lda = Ok af -> to_fa_2d b ldb = Ok bf -> to_fa_2d c ldc = Ok cf -> m <= rows cf ->
  exists c', block_updated m n (gemm_entry nota notb k alpha beta af bf) cf c' /\
    dgemm transa transb m n k alpha a lda b ldb beta c ldc =
      (if (m =? 0) || (n =? 0) || gemm_idle k alpha beta then Ok c else from_fa c') /\
    ((m =? 0) || (n =? 0) || gemm_idle k alpha beta = true -> c' = cf).
Proof. exact @dgemm_spec. Qed.
Print Assumptions c17_dgemm_any.

(** in exact arithmetic the entries are alpha * (op(A) op(B))(i,j) + beta * C(i,j); when alpha = 0 (beta = 0) the
    matrices A and B (C) may hold anything *)
Theorem c17_dgemm_exact : forall A B C (TA : ToFA er A) (TB : ToFA er B) (TC : ToFA er C) (FC : FromFA er C)
    transa transb m n k (alpha beta : R) (a : A) lda (b : B) ldb (c : C) ldc (nota notb : bool) af bf cf
    (Am Bm Cm : Z -> Z -> R),
  none_bad (gemm_table transa transb m n k lda ldb ldc) ->
  (nota = true <-> letter transa LN) -> (notb = true <-> letter transb LN) ->
  to_fa_2d a lda = Ok af -> to_fa_2d b ldb = Ok bf -> to_fa_2d c ldc = Ok cf ->
  holds_block cf m n ->
  (alpha <> 0%R -> op_is nota af m k Am) -> (alpha <> 0%R -> op_is notb bf k n Bm) ->
  (beta <> 0%R -> mat_is cf m n Cm) ->
  exists c',
    dgemm transa transb m n k (Fin alpha) a lda b ldb (Fin beta) c ldc =
      (if (m =? 0) || (n =? 0) || gemm_idle k (Fin alpha) (Fin beta) then Ok c else from_fa c') /\
    ((m =? 0) || (n =? 0) || gemm_idle k (Fin alpha) (Fin beta) = true -> c' = cf) /\
    mat_is c' m n (fun i j => alpha * Rsum_range (fun l => Am i l * Bm l j) 1 k + beta * Cm i j)%R /\
    same_shape c' cf /\
    (forall p, (forall i j, 1 <= i <= m -> 1 <= j <= n -> p <> pos (rows cf) i j) -> elem c' p = elem cf p).
Proof. exact @dgemm_exact. Qed.
Print Assumptions c17_dgemm_exact.

(** 2x3 times (4x3)^T with padding rows in all three flat arrays *)
Example c17_case :
  let nb := none_bad (gemm_table (chr "n") (chr "T") 2 4 3 3 5 4) in
  let af := flat 3 (map Fin [1; 2; 9;  3; 4; 9;  5; 6; 9])%R in
  nb /\ (true = true <-> letter (chr "n") LN) /\ (false = true <-> letter (chr "T") LN) /\
  op_is true af 2 3 (fun i l => IZR (2 * (l - 1) + i)) /\
  holds_block (flat 4 (repeat (Fin 0) 16)) 2 4.
Proof.
  cbv zeta. split; [|split; [|split; [|split]]].
  - unfold gemm_table, none_bad, letter. repeat constructor; cbn; lia.
  - unfold letter. cbn. lia.
  - unfold letter. cbn. split; [discriminate|lia].
  - intros i l Hi Hl. assert (E : i = 1 \/ i = 2) by lia. assert (E' : l = 1 \/ l = 2 \/ l = 3) by lia.
    destruct E as [-> | ->], E' as [-> | [-> | ->]]; reflexivity.
  - split; cbn; lia.
Qed.

(** ** C18: stated on its own *)
Theorem c18_dgemm_frame : forall F (NF : Num F) A B (TA : ToFA F A) (TB : ToFA F B)
    transa transb m n k (alpha : F) (a : A) lda (b : B) ldb beta (c : fa F) ldc af bf,
  none_bad (gemm_table transa transb m n k lda ldb ldc) ->
  to_fa_2d a lda = Ok af -> to_fa_2d b ldb = Ok bf -> m <= rows c ->
  exists c', dgemm transa transb m n k alpha a lda b ldb beta c ldc = Ok c' /\ same_shape c' c /\
    (forall p, (forall i j, 1 <= i <= m -> 1 <= j <= n -> p <> pos (rows c) i j) -> elem c' p = elem c p).
Proof. exact @dgemm_frame. Qed.
Print Assumptions c18_dgemm_frame.

Theorem c18_dgemm_frame_flat : forall F (NF : Num F)
    transa transb m n k (alpha : F) (a : list F) lda (b : list F) ldb beta (c : list F) ldc,
  none_bad (gemm_table transa transb m n k lda ldb ldc) ->
  exists c', dgemm transa transb m n k alpha a lda b ldb beta c ldc = Ok c' /\ length c' = length c /\
    (forall i j, 1 <= i <= ldc -> 1 <= j -> (i <= m -> n < j) ->
       ent (flat ldc c') i j = ent (flat ldc c) i j).
Proof. exact @dgemm_frame_flat. Qed.
Print Assumptions c18_dgemm_frame_flat.

Example c18_case : none_bad (gemm_table (chr "C") (chr "N") 2 2 5 5 7 3) /\
  let c := flat 3 (map Fin [10; 20; 30; 40; 50; 60; 70]%R) in
  ent c 3 2 = Some (Fin 60) /\ ent c 1 3 = Some (Fin 70) /\ ent c 2 3 = None.
Proof. split; [unfold gemm_table, none_bad, letter; repeat constructor; cbn; lia|repeat split; reflexivity]. Qed.

(** ** C19 *)
Theorem c19_beta_zero : forall F (NF : Num F) A B (TA : ToFA F A) (TB : ToFA F B)
    transa transb m n k (alpha : F) (a : A) lda (b : B) ldb beta (c1 c2 : fa F) ldc af bf,
  none_bad (gemm_table transa transb m n k lda ldb ldc) ->
  feq beta f0 = true -> feq beta f1 = false ->
  to_fa_2d a lda = Ok af -> to_fa_2d b ldb = Ok bf -> m <= rows c1 -> same_shape c1 c2 ->
  (forall p, (forall i j, 1 <= i <= m -> 1 <= j <= n -> p <> pos (rows c1) i j) -> elem c1 p = elem c2 p) ->
  exists r1 r2, dgemm transa transb m n k alpha a lda b ldb beta c1 ldc = Ok r1 /\
    dgemm transa transb m n k alpha a lda b ldb beta c2 ldc = Ok r2 /\
    data r1 = data r2 /\ rows r1 = rows r2 /\ cols r1 = cols r2.
Proof. exact @dgemm_beta0. Qed.
Print Assumptions c19_beta_zero.

Theorem c19_alpha_zero : forall F (NF : Num F) A B C (TA : ToFA F A) (TB : ToFA F B) (TC : ToFA F C) (FC : FromFA F C)
    A' B' (TA' : ToFA F A') (TB' : ToFA F B')
    transa transb m n k (alpha : F) (a : A) (a' : A') lda (b : B) (b' : B') ldb beta (c : C) ldc af bf af' bf',
  feq alpha f0 = true ->
  to_fa_2d a lda = Ok af -> to_fa_2d b ldb = Ok bf -> to_fa_2d a' lda = Ok af' -> to_fa_2d b' ldb = Ok bf' ->
  dgemm transa transb m n k alpha a lda b ldb beta c ldc =
  dgemm transa transb m n k alpha a' lda b' ldb beta c ldc.
Proof. exact @dgemm_alpha0. Qed.
Print Assumptions c19_alpha_zero.

(** 0.0 and -0.0 both count as zero and neither as one *)
Example c19_case : @feq b64 (B64 ref_libm) (@fneg b64 (B64 ref_libm) (@f0 b64 (B64 ref_libm))) (@f0 b64 (B64 ref_libm)) = true /\
  @feq b64 (B64 ref_libm) (@f0 b64 (B64 ref_libm)) (@f1 b64 (B64 ref_libm)) = false.
Proof. split; vm_compute; reflexivity. Qed.

(** ** C20 *)
Theorem c20_bad_argument : forall F (NF : Num F) A B C (TA : ToFA F A) (TB : ToFA F B) (TC : ToFA F C) (FC : FromFA F C)
    transa transb m n k (alpha : F) (a : A) lda (b : B) ldb beta (c : C) ldc af bf cf i,
  to_fa_2d a lda = Ok af -> to_fa_2d b ldb = Ok bf -> to_fa_2d c ldc = Ok cf ->
  first_bad (gemm_table transa transb m n k lda ldb ldc) i ->
  dgemm transa transb m n k alpha a lda b ldb beta c ldc = Exit "DGEMM " i.
Proof. exact @dgemm_exit. Qed.
Print Assumptions c20_bad_argument.

(** and it stops for no other reason; all the crate's containers meet the first hypothesis *)
Theorem c20_only_bad_arguments : forall F (NF : Num F) A B C (TA : ToFA F A) (TB : ToFA F B) (TC : ToFA F C) (FC : FromFA F C)
    transa transb m n k (alpha : F) (a : A) lda (b : B) ldb beta (c : C) ldc af bf cf s i,
  (forall f s i, @from_fa F C FC f <> Exit s i) ->
  to_fa_2d a lda = Ok af -> to_fa_2d b ldb = Ok bf -> to_fa_2d c ldc = Ok cf ->
  dgemm transa transb m n k alpha a lda b ldb beta c ldc = Exit s i ->
  s = "DGEMM "%string /\ first_bad (gemm_table transa transb m n k lda ldb ldc) i.
Proof. exact @dgemm_valid. Qed.
Print Assumptions c20_only_bad_arguments.

Theorem c20_containers : forall F (NF : Num F),
  (forall f s i, @from_fa F (fa F) _ f <> Exit s i) /\
  (forall f s i, @from_fa F (list F) _ f <> Exit s i) /\
  (forall f s i, @from_fa F (list (list F)) _ f <> Exit s i).
Proof. exact @from_fa_no_exit. Qed.
Print Assumptions c20_containers.

(** a flat argument with leading dimension 0 is an invalid argument, but the conversion panics first *)
Theorem c20_ld_zero_refuted : forall F (NF : Num F) (alpha beta : F) (a b c : list F),
  first_bad (gemm_table (chr "N") (chr "N") 1 1 1 0 1 1) 8 /\
  dgemm (chr "N") (chr "N") 1 1 1 alpha a 0 b 1 beta c 1 = Panic.
Proof. exact @dgemm_ld_zero. Qed.
Print Assumptions c20_ld_zero_refuted.

Example c20_case : first_bad (gemm_table (chr "N") (chr "X") (-1) 2 2 2 2 2) 2.
Proof.
  exists [(1, ~ letter (chr "N") LN /\ ~ letter (chr "N") LC /\ ~ letter (chr "N") LT)]. do 2 eexists.
  split; [reflexivity|]. unfold letter. split; [cbn; lia|]. repeat constructor. cbn. lia.
Qed.
