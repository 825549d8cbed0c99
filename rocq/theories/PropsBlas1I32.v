(** C57: the i32 counters of dcopy, drot, dnrm2 and dscal.  Statements only. *)
From Verif Require Import Base Num Array Blas Spec I32 Blas1I32 Blas1I32Proofs.

(** ** C57 *)
(** release build: unbounded counters give the same result whenever the last position of each vector is an i32 *)
Theorem c57_release : forall F (NF : Num F) n (dx : fa F) incx dy incy c s,
  1 <= n <= 2 ^ 31 - 1 -> - 2 ^ 31 <= incx -> - 2 ^ 31 <= incy ->
  1 + (n - 1) * Z.abs incx <= 2 ^ 31 - 1 -> 1 + (n - 1) * Z.abs incy <= 2 ^ 31 - 1 ->
  incx <= 2 ^ 31 - 1 -> incy <= 2 ^ 31 - 1 ->
  dcopy_i32 Release n dx incx dy incy = Ok (dcopy_fa n dx incx dy incy) /\
  drot_i32 Release n dx incx dy incy c s = Ok (drot_fa n dx incx dy incy c s) /\
  dnrm2_i32 Release n dx incx = Ok (dnrm2_fa n dx incx).
Proof. exact @blas1_release. Qed.
Print Assumptions c57_release.

(** debug build: the same if also the position after the last one of a forward walk is an i32 ... *)
Theorem c57_debug : forall F (NF : Num F) n (dx : fa F) incx dy incy c s,
  1 <= n <= 2 ^ 31 - 1 -> - 2 ^ 31 <= incx -> - 2 ^ 31 <= incy ->
  1 + n * Z.max 0 incx <= 2 ^ 31 - 1 -> 1 + n * Z.max 0 incy <= 2 ^ 31 - 1 ->
  1 + (n - 1) * Z.abs incx <= 2 ^ 31 - 1 -> 1 + (n - 1) * Z.abs incy <= 2 ^ 31 - 1 ->
  dcopy_i32 Debug n dx incx dy incy = Ok (dcopy_fa n dx incx dy incy) /\
  drot_i32 Debug n dx incx dy incy c s = Ok (drot_fa n dx incx dy incy c s) /\
  dnrm2_i32 Debug n dx incx = Ok (dnrm2_fa n dx incx).
Proof. exact @blas1_debug. Qed.
Print Assumptions c57_debug.

(** ... and a panic if it is not, although the call never uses that position *)
Theorem c57_debug_refuted : forall F (NF : Num F) n (dx : fa F) incx dy incy c s,
  1 <= n <= 2 ^ 31 - 1 -> 2 <= incx <= 2 ^ 31 - 1 -> - 2 ^ 31 <= incy <= 2 ^ 31 - 1 ->
  1 + (n - 1) * incx <= 2 ^ 31 - 1 < 1 + n * incx -> 1 + (n - 1) * Z.abs incy <= 2 ^ 31 - 1 ->
  dcopy_i32 Debug n dx incx dy incy = Panic /\
  drot_i32 Debug n dx incx dy incy c s = Panic /\
  dnrm2_i32 Debug n dx incx = Panic.
Proof. exact @blas1_debug_panic. Qed.
Print Assumptions c57_debug_refuted.

(** one element, increment i32::MAX *)
Theorem c57_one_refuted : forall F (NF : Num F) (x y : F),
  dcopy_i32 Debug 1 (fa_of_vec [x]) (2 ^ 31 - 1) (fa_of_vec [y]) 1 = Panic /\
  dcopy_i32 Release 1 (fa_of_vec [x]) (2 ^ 31 - 1) (fa_of_vec [y]) 1 = Ok (fa_of_vec [x]) /\
  dcopy_fa 1 (fa_of_vec [x]) (2 ^ 31 - 1) (fa_of_vec [y]) 1 = fa_of_vec [x].
Proof. exact @dcopy_debug_one. Qed.
Print Assumptions c57_one_refuted.

(** the range condition of [c57_release] cannot be dropped: the fifth position 2^32 + 1 wraps to 1 *)
Theorem c57_range_refuted : forall F (NF : Num F) (x y1 y2 y3 y4 y5 : F),
  dcopy_i32 Release 5 (fa_of_vec [x]) (2 ^ 30) (fa_of_vec [y1; y2; y3; y4; y5]) 1
    = Ok (fa_of_vec [x; fMINPOS; fMINPOS; fMINPOS; x]) /\
  dcopy_fa 5 (fa_of_vec [x]) (2 ^ 30) (fa_of_vec [y1; y2; y3; y4; y5]) 1
    = fa_of_vec [x; fMINPOS; fMINPOS; fMINPOS; fMINPOS].
Proof. exact @dcopy_release_wraps. Qed.
Print Assumptions c57_range_refuted.

(** dscal, one element, increment i32::MAX, release build: the counter runs past 2^31 - 1 and goes round the 2^32 values; it
    ends (within 2^31 + 2 rounds) after having scaled every even position as well *)
Theorem c57_dscal_refuted : forall F (NF : Num F) fuel (da : F) (dx : fa F),
  (Z.to_nat (2 ^ 31 + 2) <= fuel)%nat -> count dx <= 2 ^ 31 - 1 ->
  exists f, dscal_loop_i32 Release fuel 1 da dx (2 ^ 31 - 1) = Ok f /\
    forall q, 1 <= q ->
      elem f q = if (q =? 1) || Z.even q then option_map (fun x => fmul x da) (elem dx q) else elem dx q.
Proof. exact @dscal_release_evens. Qed.
Print Assumptions c57_dscal_refuted.

(** two elements 2^30 apart: n * incx wraps to -2^31 and a release build scales neither of them *)
Theorem c57_dscal_nothing_refuted : forall F (NF : Num F) fuel (da : F) (dx : fa F),
  dscal_loop_i32 Release fuel 2 da dx (2 ^ 30) = Ok dx /\ dscal_loop_i32 Debug fuel 2 da dx (2 ^ 30) = Panic.
Proof. exact @dscal_release_nothing. Qed.
Print Assumptions c57_dscal_nothing_refuted.

(** the hypotheses hold, for a backward walk that starts at i32::MAX and for a forward one that ends there *)
Example c57_hyps :
  (1 <= 3 <= 2 ^ 31 - 1 /\ 1 + (3 - 1) * Z.abs (- (2 ^ 30 - 1)) = 2 ^ 31 - 1 /\ 1 + 3 * Z.max 0 (- (2 ^ 30 - 1)) <= 2 ^ 31 - 1) /\
  (1 + (3 - 1) * (2 ^ 30 - 1) <= 2 ^ 31 - 1 < 1 + 3 * (2 ^ 30 - 1)).
Proof. repeat split; vm_compute; congruence. Qed.
