(** C28-C29: dlaset and dlacpy.  Statements only; the proofs are in LasetProofs.v and NestedProofs.v.
    Codes: 85 'U', 76 'L', 117 'u'. *)
From Verif Require Import Base Num Array Lapack Spec SpecLapack NestedProofs.

(** ** C28 *)
(** Any container, as the matrix it stands for: the wrong triangle is filled ('U' the strict lower one and vice
    versa); any other letter fills everything; nothing outside the block changes.  'L' needs n <= m. *)
Theorem c28_dlaset_partial : forall F (NF : Num F) A (TA : ToFA F A) (FA : FromFA F A) uplo m n alpha beta (a : A),
  m <= rows (to_fa a) -> (uplo = 76 -> n <= m) ->
  exists c, block_updated m n
      (laset_entry (if uplo =? 85 then Lower else if uplo =? 76 then Upper else All) alpha beta) (to_fa a) c /\
    dlaset uplo m n alpha beta a = from_fa c.
Proof. exact @dlaset_any. Qed.
Print Assumptions c28_dlaset_partial.

(** Square vectors of vectors read as lists of rows: the named triangle is filled. *)
Theorem c28_dlaset_nested : forall F (NF : Num F) (l : list (list F)) n uplo alpha beta,
  1 <= n -> zlen l = n -> Forall (fun r => zlen r = n) l ->
  exists r, dlaset uplo n n alpha beta l = Ok r /\ zlen r = n /\ Forall (fun r => zlen r = n) r /\
    forall p q, 1 <= p <= n -> 1 <= q <= n ->
      nested_entry r p q =
      option_map (laset_entry (if uplo =? 85 then Upper else if uplo =? 76 then Lower else All) alpha beta p q)
                 (nested_entry l p q).
Proof. exact @dlaset_nested. Qed.
Print Assumptions c28_dlaset_nested.

(** 'L' with n > m: rows m+1..n are written too *)
Theorem c28_lower_wide : forall F (NF : Num F) m n (alpha beta : F) (a : fa F), 0 <= m < n -> n <= rows a ->
  exists c, dlaset 76 m n alpha beta a = Ok c /\
    block_updated n n (fun i j x => if (i =? j) && (i <=? m) then beta else if i <=? j then alpha else x) a c.
Proof. exact @dlaset_lower_wide. Qed.
Print Assumptions c28_lower_wide.

Theorem c28_upper_refuted : forall F (NF : Num F) (alpha beta x : F), alpha <> x -> exists r,
  dlaset 85 2 2 alpha beta (mkFA [x; x; x; x] 2 2 x) = Ok r /\ ent r 1 2 = Some x /\ ent r 2 1 = Some alpha.
Proof. exact (fun F _ => @dlaset_upper_wrong F). Qed.
Print Assumptions c28_upper_refuted.

Theorem c28_lower_refuted : forall F (NF : Num F) (alpha beta x : F), alpha <> x -> exists r,
  dlaset 76 2 2 alpha beta (mkFA [x; x; x; x] 2 2 x) = Ok r /\ ent r 2 1 = Some x /\ ent r 1 2 = Some alpha.
Proof. exact (fun F _ => @dlaset_lower_wrong F). Qed.
Print Assumptions c28_lower_refuted.

(** a lower-case letter fills both triangles *)
Theorem c28_case_refuted : forall F (NF : Num F) (alpha beta x : F), alpha <> x -> exists r,
  dlaset 117 2 2 alpha beta (mkFA [x; x; x; x] 2 2 x) = Ok r /\ ent r 2 1 = Some alpha /\ ent r 1 2 = Some alpha.
Proof. exact (fun F _ => @dlaset_lower_case F). Qed.
Print Assumptions c28_case_refuted.

(** a 1-by-2 block: entry (2,2) lies outside and is overwritten *)
Theorem c28_outside_refuted : forall F (NF : Num F) (alpha beta x : F), exists r,
  dlaset 76 1 2 alpha beta (mkFA [x; x; x; x] 2 2 x) = Ok r /\ ent r 2 2 = Some alpha.
Proof. exact (fun F _ => @dlaset_outside F). Qed.
Print Assumptions c28_outside_refuted.

Example c28_case : forall F (NF : Num F) (x y : F),
  3 <= rows (mkFA [x; y; x; y; x; y; x; y] 4 2 x) /\
  (let l := [[x; y]; [y; x]] in zlen l = 2 /\ Forall (fun r => zlen r = 2) l) /\
  (0 <= 1 < 2 /\ 2 <= rows (mkFA [x; y; x; y] 2 2 x)).
Proof. intros. cbn. repeat split; try lia. repeat constructor. Qed.

(** ** C29 *)
Theorem c29_dlacpy_partial : forall F (NF : Num F) A B (TA : ToFA F A) (TB : ToFA F B) (FB : FromFA F B)
    uplo m n (a : A) lda (b : B) ldb af bf,
  to_fa_2d a lda = Ok af -> to_fa_2d b ldb = Ok bf ->
  m <= rows bf -> (uplo = 76 -> n <= m) ->
  exists c, block_updated m n
      (lacpy_entry (if uplo =? 85 then Lower else if uplo =? 76 then Upper else All) (get2 af)) bf c /\
    dlacpy uplo m n a lda b ldb = from_fa c.
Proof. exact @dlacpy_any. Qed.
Print Assumptions c29_dlacpy_partial.

Theorem c29_dlacpy_nested : forall F (NF : Num F) (a b : list (list F)) n uplo lda ldb,
  1 <= n -> zlen b = n -> Forall (fun r => zlen r = n) b -> zlen a = n -> Forall (fun r => zlen r = n) a ->
  exists r, dlacpy uplo n n a lda b ldb = Ok r /\ zlen r = n /\ Forall (fun r => zlen r = n) r /\
    forall p q, 1 <= p <= n -> 1 <= q <= n ->
      nested_entry r p q =
      if in_part (if uplo =? 85 then Upper else if uplo =? 76 then Lower else All) p q
      then nested_entry a p q else nested_entry b p q.
Proof. exact @dlacpy_nested. Qed.
Print Assumptions c29_dlacpy_nested.

Theorem c29_lower_wide : forall F (NF : Num F) m n (a : fa F) lda (b : fa F) ldb, 0 <= m < n -> n <= rows b ->
  exists c, dlacpy 76 m n a lda b ldb = Ok c /\ block_updated n n (lacpy_entry Upper (get2 a)) b c.
Proof. exact @dlacpy_lower_wide. Qed.
Print Assumptions c29_lower_wide.

Theorem c29_upper_refuted : forall F (NF : Num F) (x y : F), exists r,
  dlacpy 85 2 2 (mkFA [y; y; y; y] 2 2 x) 2 (mkFA [x; x; x; x] 2 2 x) 2 = Ok r /\ ent r 1 2 = Some x /\ ent r 2 1 = Some y.
Proof. exact @dlacpy_upper_wrong. Qed.
Print Assumptions c29_upper_refuted.

Theorem c29_lower_refuted : forall F (NF : Num F) (x y : F), exists r,
  dlacpy 76 2 2 (mkFA [y; y; y; y] 2 2 x) 2 (mkFA [x; x; x; x] 2 2 x) 2 = Ok r /\ ent r 2 1 = Some x /\ ent r 1 2 = Some y.
Proof. exact @dlacpy_lower_wrong. Qed.
Print Assumptions c29_lower_refuted.

Theorem c29_outside_refuted : forall F (NF : Num F) (x y : F), exists r,
  dlacpy 76 1 2 (mkFA [y; y; y; y] 2 2 x) 2 (mkFA [x; x; x; x] 2 2 x) 2 = Ok r /\ ent r 2 2 = Some y.
Proof. exact @dlacpy_outside. Qed.
Print Assumptions c29_outside_refuted.

Example c29_case : forall F (NF : Num F) (x y : F),
  to_fa_2d [x; y; x; y; x; y] 3 = Ok (mkFA [x; y; x; y; x; y] 3 2 fnan) /\
  to_fa_2d (mkFA [x; y; x; y] 2 2 x) 9 = Ok (mkFA [x; y; x; y] 2 2 x).
Proof. intros. split; reflexivity. Qed.
