# Formal model of lapack-rs in Rocq (Coq 8.16.1)

The crate is a small Rust port of a few BLAS/LAPACK routines over a column-major
array type `FortranArray`.  The model lives in `rocq/theories`.  It is a
function-by-function transcription of `/repo/src` into total, computable Gallina.

## 1. How the code is modelled

* **Numbers.**  Every routine is written once, over an abstract record of number
  operations (`Num F`: `+ - * / sqrt abs < <= == max min signum copysign powf ...` and
  the constants used).  `Num` has *no laws*.  Two instances matter:
  * `B64` - IEEE binary64 with round-to-nearest-even, infinities, signed zeros and one
    NaN, from Flocq's `BinarySingleNaN`.  This is Rust `f64` up to NaN payloads and
    NaN sign.  `powf` and `ln` go to the platform's libm, so `B64` takes a `libm`
    record (section 2).
  * `ER` - exact extended reals (`Fin r`, `+inf`, `-inf`, NaN), one zero.  "In exact arithmetic"
    in a property means this instance.  Division by zero gives infinities or NaN, never a
    convenient real number, so a theorem that ends in `Fin r` also shows that no division by zero
    happened.

  A theorem quantified over every `Num` therefore speaks about `f64` bit for bit.
* **Mutation.**  `&mut X` arguments become returned values.
* **Panic, exit, divergence.**  A routine that can panic, exit or loop returns
  `outcome A := Ok a | Panic | Exit name info | NoFuel`.  `Exit` is `xerbla` (message printed,
  `process::exit(1)`).  `NoFuel` only arises in loops that the code does not bound; a theorem that claims
  termination excludes it, a theorem that claims divergence proves it for all fuel.
* **Containers.**  `ToFortranArray` and `From<FortranArray>` are modelled as classes with the crate's
  instances (`Vec<f64>`/`&[f64]`, `Vec<Vec<f64>>`, `FortranArray`), and each routine is generic in them as in the code.
* **Integers.**  `i32` values are `Z`, without overflow, except in `I32.v` and `Blas1I32.v`, where the index arithmetic of arrays and of
  the strided BLAS-1 loops is
  modelled with overflow checks on (debug: panic) and off (release: wrap) and shown to agree with the unbounded one
  on matrices that fit.  `as usize` of a negative is "beyond every array".  `/` and `%` on `i32` are `Z.quot`, `Z.rem`.
* **Loops.**  `for` over a range is a fold over the list of indices; `break` is an explicit flag; `while`/`loop` is fuel.

### Files

| files | content |
|-------|---------|
| `Base.v`, `Num.v` | outcomes, ranges and loops, characters; the class of number types |
| `Array.v`, `Blas.v`, `Lapack.v`, `Dlahqr.v`, `Dlaqr5.v`, `I32.v`, `Blas1I32.v`, `TuneI32.v` | **the model**: each definition cites the file and lines it models |
| `B64.v`, `ER.v` | the two number types |
| `Spec.v`, `SpecR.v`, `SpecBlas.v`, `SpecLapack.v`, `SpecSim.v`, `SpecTune.v`, ... (`Spec*.v`) | vocabulary used in statements; independent of the model's helpers |
| `Props*.v` | **the property theorems** `cNN_...`, one `exact lemma` each, followed by `Print Assumptions` and an example that meets the hypotheses |
| `UnitTests.v` | the crate's own unit tests, run through `B64` |
| everything else | proofs |

## 2. Trusted base

* Coq's kernel (and `coqchk`).
* The reading of the Rust source: nothing executes the Rust code here.  As a check, `UnitTests.v` runs the crate's own
  unit-test vectors through the `B64` instance by `vm_compute` and compares bit for bit.
* The axioms that `Print Assumptions` lists.  There are two cases.
  Theorems that hold for every `Num` and those decided by computation are *closed under the global context*.
  The others use (some of) four axioms of the standard library's classical reals:
  `ClassicalDedekindReals.sig_forall_dec`, `ClassicalDedekindReals.sig_not_dec`,
  `FunctionalExtensionality.functional_extensionality_dep`, `Classical_Prop.classic`.
  The table at the end of this file says which theorem is which.  No axiom is added here.
* The contract `libm_ok` on the platform's `powf` and `ln`, used only where a theorem names it (C15, C27, C34, C35, C39, C40, C42, C47, C50):
  `powf(x, 2)` is the rounded square of x; `powf(2, k)` is exact for the four exponents dnrm2 uses;
  dlanv2's `powf(2, ln(2^-970)/ln(2)/2)` lies in (0, 1); `ln(n)/ln(2)` does not round to 0 for 150 <= n < 590.
  `ref_libm` is an executable instance that meets it (proved), so the contract is satisfiable.  Its `ln` is the integer
  base-2 logarithm: the crate only uses ratios of logarithms, rounded.
* Witnesses in binary64 (`..._refuted`) are runs of the model with `ref_libm` by `vm_compute`; `LibmFree.v` shows that dtrmm does
  not depend on the libm and dlahqr, dlaqr5 only through the contract, so the statements hold for every libm that meets it.

### Modelled

Every function of `/repo/src` is modelled:
`array/{mod,indexing,convert,display}.rs`, `blas/{dcopy,dgemm,dnrm2,drot,dscal,dtrmm,lsame}.rs`,
`dlacpy, dlahqr, dlamch, dlanv2, dlapy2, dlaqr1, dlaqr5, dlarfg, dlaset, ieeeck, ilaenv, iparmq, xerbla`.

### Not modelled

* `i32` overflow outside `I32.v` (array index arithmetic and the loop counter of dscal), `Blas1I32.v` (dcopy, drot, dnrm2) and `TuneI32.v` (ilaenv, iparmq).
* Allocation failure, stack overflow, time.
* NaN payloads and NaN sign.
* The accuracy of `powf` and `ln` beyond `libm_ok`.
* Standard output other than the `xerbla` routine/parameter pair.
* Number formatting inside `Display` (an abstract printing function).
* Non-ASCII routine names in ilaenv and iparmq.
* `#[cfg(test)]` modules, except as vectors in `UnitTests.v`.

## 3. Plan, property by property

| id | modelled | proof |
|----|----------|-------|
| C01-C03 | `FortranArray` get/set in 1-D and 2-D | lookup/update lemmas, injectivity of `(j-1)*r+i-1` by division |
| C04 | `I32.v` | interval arithmetic on i32, witness for overflow |
| C05 | tail views | case analysis; witness (`zeros(3,0)[2..]`) that they can panic |
| C06-C08 | constructors, conversions | list lemmas; nested round-trip proved for square, refuted for rectangular |
| C09 | `PartialEq` | over any `Num` whose `==` is symmetric/transitive; B64 for NaN |
| C10 | `Display` with abstract element printing | induction over rows |
| C11-C13 | dcopy/dscal/drot incl. unrolled paths, generic `Num` | loop invariants; exact corollary for norm |
| C14-C15 | dnrm2 | `ER` induction on accumulators; `B64` NaN invariant |
| C16 | lsame on code points | byte case analysis, witness for truncation |
| C17-C20 | dgemm | generic element formula by loop invariants, ring corollary, 2-safety corollaries, decision table |
| C21-C22 | dtrmm | ring invariants for the eight variants |
| C23 | flat representations | witness; dgemm/dlacpy/dlaqr1 positive |
| C24 | dlamch | computation in `B64` |
| C25 | dlapy2 | `ER` algebra; `B64` with Flocq |
| C26-C27 | dlarfg | `ER` algebra over vectors; generic bound |
| C28-C29 | dlaset/dlacpy | generic invariants; witnesses where triangle or frame is wrong |
| C30-C31 | dlanv2 | `ER` algebra per branch; witness for the absolute-tolerance branch |
| C32 | dlaqr1 | `ER` field identity |
| C33 | ieeeck | `B64` case analysis for all floats |
| C34-C35 | iparmq/ilaenv on ASCII strings | decision-table analysis; `SpecTune.v` tables, value for every name in `PropsTune.v` |
| C36-C39 | dlahqr | generic: divergence proof, termination characterisation, frames; `B64` witnesses; 2x2 exact |
| C40-C42 | dlaqr5 | generic quick returns/frames, witnesses; `Sim*.v`: bulge-chasing invariant in exact arithmetic (one pair of shifts), first without, then with accumulation (near-diagonal part simulated, far part as products with U) |
| C43-C46 | rounding errors of dgemm, dtrmm, dscal, drot, dlapy2 | `RoundErr.v`: the standard model with underflow from Flocq; error recurrences along the evaluation order proved in C17/C21 |
| C47 | accuracy of dnrm2 in f64 | `AppErr.v`: calculus of relative-plus-absolute error for nonnegative quantities; `Nrm2Err.v`: invariant of the three accumulators, then the four ways the code combines them; `Nrm2Acc.v`: the theorems and the two failures |
| C48 | dlahqr with wantt = true, any order | `HqReal.v`/`HqReflect.v`/`HqSweep.v`: one sweep is an orthogonal similarity of the active block; `HqIter.v`: a dropped subdiagonal entry is charged to E; `HqDefl.v`: one or two rows split off; `HqTop.v`: the loops; `HqEig.v`: quasi-triangular matrices have the eigenvalues of their blocks (complex vectors from Coquelicot); `HqExample.v`: the region where the reported pair is wrong |
| C49 | `TuneI32.v`: ilaenv, iparmq with i32 operators | interval reasoning; the overflowing calls as a theorem |
| C51 | dlaqr5, the collapsed bulge | symbolic execution of the branch for any arithmetic, exact value of the misused reflector, binary64 witness for every libm |
| C52 | dlaqr1 | `Near.v`: a calculus of relative and absolute rounding errors for straight-line code in range; applied term by term |
| C53 | dlanv2 | `LanvCalc.v`, `LanvRot.v`: error calculus at the scale M; `LanvEq.v`/`LanvStd.v` (rotation equalising the diagonal), `LanvOff.v` (second rotation), `LanvReal.v` (real eigenvalues), joined in `LanvErr.v`; `LanvEig.v` turns the error of the imaginary part into one of the smaller off-diagonal entry |
| C54 | dlahqr | `HqTwoF64.v`: the subdiagonal test in binary64 and the error of rotating a row of Z; `HqTwoErr.v` joins them with `dlahqr_two` (LahqrTop.v) and C53 |
| C55 | dlahqr in f64, any order | `HqErrReal.v`: orthogonal similarities with perturbations; `HqErrApp.v`/`HqErrStep.v`/`HqErrSweep.v`: applying a rounded reflector, one step and one sweep; `HqErrStart.v`/`HqErrPick.v`: the start of the sweep and the deflation test; `HqErrNan.v`: NaN on the diagonal persists; `HqErrIter.v`, `HqErrDefl.v`, `HqErrZ.v`, `HqErrTop.v`: iteration, deflation, rows of Z, the loops; `HqErrCall.v`, `HqErrEig.v`: the call and its eigenvalues; `HqErrWit.v`: witnesses computed by the kernel |
| C56 | dlahqr, any number type | `HqUnread.v`: two runs side by side related on the entries that are read, through scan, shifts, sweep, deflation and the loop; `HqGarbWit.v`: the 5-by-5 pair, computed by the kernel |
| C57 | dcopy, drot, dnrm2, dscal with i32 counters | `Blas1I32.v`: the loops with checked or wrapping counters; `Blas1I32Proofs.v`: all but the last increment stay in range; the orbit of the wrapped dscal counter by induction |
| C58 | dgemm, dtrmm in f64 | `NanMat.v`: NaN absorbs sums and products; from the entry formulas of C17 and C21 |
| C59 | dlaqr5 in f64, one pair of shifts, not accumulating | `Q5Get.v`: the chase on get2/set2; `Q5ErrReal.v`: lower bounds on the subdiagonal along the chase; `Q5ErrRefl.v`, `Q5ErrStart.v`, `Q5ErrVig.v`: the reflectors the code computes, the vigilant-deflation branch not taken or harmless; `Q5ErrStep.v`, `Q5ErrCol.v`, `Q5ErrLoop.v`: one step, the first column, the loop; `Q5ErrTop.v`: the call. The hypothesis on rr keeps every computed bulge away from underflow, so the collapsed-bulge branch (wrong, C51) is not entered; it limits the block order to about 900/log2(1/rr) |
| C60 | dlahqr: locality of the active block | `HqBlock.v`: a directional relation between the working arrays of two runs (`oimp`: if the first returns, the second does, related), window against window, loop by loop; `HqBlockWit.v`: a block surrounded by NaN |
| C61 | dlahqr in f64: NaN entries | `HqNan.v`: an entry on or above the subdiagonal that is NaN stays NaN through a sweep, the scan never clears it, dlanv2 moves it inside its 2-by-2 block; `HqNanWit.v`: two 2-by-2 matrices |
| C62 | dlaqr5, one pair of shifts: what the block returned depends on | two runs side by side over any `Num`: `LarfgPre.v` (dlarfg reads n-1 elements), `Q5Block.v` (the relation through each loop), `Q5BlockRun.v` (one column of the sweep), `Q5BlockTop.v` |
| C63 | dlahqr: shifts, split and start of one iteration, exact arithmetic | `SpecDShift.v`: 2-by-2 eigenvalues, the double shift, the negligibility and start tests over the reals; `HqShift.v`: the shifts from the scaled 2-by-2 block; `HqShiftStart.v`: the starting vector is a positive multiple of the first column and the search for the start row; `HqShiftScan.v`: the search for the split; `HqShiftIter.v`: one iteration |
| C64 | FortranArray::insert, as_2d, idx | `ArrInsert.v`: list lemmas; well-formedness after an insertion is refuted |
| C65 | dlaqr5 in f64 never loses a NaN (no accumulation) | `Q5Nan.v`: every store is a subtraction from the old value, is two or more below the diagonal, is guarded by a comparison a NaN fails, or is the beta dlarfg makes of the old value; `Q5NanTop.v`: the call |
| C66 | dgemm and dtrmm by panels, bit for bit | `GemmPanel.v`: from the entry formulas of C17 and C21 by congruence; the inner dimension by splitting the left-to-right sum |
| C67 | dlanv2 is idempotent in f64 | `LanvIdem.v`: the form of the result by cases on the branches, then the early exits of the second call |
| C68 | dnrm2 and dlapy2 are even, dlarfg is odd, bit for bit | SignLaws.v: products, quotients and nonzero differences change sign with their operands; SignSym.v: induction over dnrm2's loop and dlarfg's rescaling loop |
| C50 | accuracy of dlarfg in f64 | `LarfgErr.v`: relative error of beta, tau, 1/(alpha-beta) from the error of dnrm2 and dlapy2 (`app_inv` for reciprocals); `LarfgF64.v`: the two paths, the rescaling by 2^969 being exact; `LarfgOrth.v`: consequences for the reflector; `LarfgTop.v`: the theorems and two failures |

## 4. Where the code and the properties disagree

Each line is a theorem with a concrete witness.  The property keeps its full statement in `properties.jsonl`; the manifest
marks it `partial` and names the strongest true variant beside the refutation.

| property | what the code does | theorem |
|----------|--------------------|---------|
| C05 | a tail view of an array with zero columns or a negative shape panics | `c05_no_panic_refuted`, `c05_no_panic_2d_refuted` |
| C06 | `zeros`/`matrix` with a zero or negative dimension give an array whose length is not rows*cols | `c06_zero_columns_refuted`, `c06_negative_shape_refuted` |
| C08 | converting a rectangular vector of vectors to an array and back transposes the split; identity exactly for square input | `c08_rectangular_refuted` |
| C12 | the i32 loop counter of dscal overflows for a stride near `i32::MAX` (debug panic) | `c12_i32_counter_refuted` |
| C16 | `lsame` compares the low byte only | `c16_lsame_refuted` |
| C20 | dgemm on a flat Vec with leading dimension 0 panics before `xerbla` is reached | `c20_ld_zero_refuted` |
| C23 | dtrmm ignores `ldb` on a flat Vec | `c23_dtrmm_flat_refuted` |
| C24 | `dlamch` is case-sensitive | `c24_case_refuted` |
| C28, C29 | dlaset and dlacpy exchange the two triangles on column-major storage; 'L' with n > m writes outside the block; lower-case letters mean "all" | `c28_*_refuted`, `c29_*_refuted` |
| C31 | dlanv2 tests \|a-d\| < EPSILON where LAPACK tests a-d = 0: wrong eigenvalues in that region | `c31_region_refuted` |
| C33 | `ieeeck`'s NaN test is inverted: every machine fails it | `c33_nan_refuted` |
| C34 | `iparmq` always answers 2 shifts; names shorter than six characters panic | `c34_shifts_refuted`, `c34_no_panic_refuted`, `c34_modes_refuted` |
| C35 | `ilaenv` panics on short lower-case names; GETRF and POTRF get block size 1 (64 documented) | `c35_short_names_refuted`, `c35_blocked_refuted` |
| C36 | `dlahqr` never returns on an upper triangular block, nor when the first subdiagonal entry is negligible | `c36_triangular_refuted`, `c36_split_refuted` |
| C39 | `dlahqr` returns wrong eigenvalues with wantt = false, and a T that is not Z^T*H*Z for n = 4 | `c39_eigenvalues_refuted`, `c39_schur_refuted` |
| C40 | `dlaqr5` with four or more shifts panics for all data when V has the documented size (`c40_four_refuted`), and truncates a larger V; accumulating with ldz <> ldh re-dimensions H | `c40_*_refuted` |
| C41 | `dlaqr5` with three or more shifts loses the first shift | `c41_first_refuted` |
| C42 | `dlaqr5` without accumulation does not update Z by the transformation; with four shifts, or ldz <> ldh, H is not similar to the input | `c42_*_refuted` |
| C47 | dnrm2 uses `f64::DIGITS` (15, decimal) where Blue's constants need the 53 significand bits: elements up to 2^-1056 are lost (a nonzero vector gets norm 0), and 2^14 elements of 2^505 overflow to infinity | `c47_nonzero_norm_refuted`, `c47_finite_norm_refuted` |
| C50 | dlarfg inherits the loss of tiny elements from dnrm2 (x = 2^-1074 is not annihilated: tau = 0, x unchanged) and forms alpha - beta without scaling, so near the top of the range it returns tau = inf and v = 0 though beta is finite | `c50_tiny_refuted`, `c50_huge_refuted` |
| C48 | `dlahqr` on a block with b*c < 0 and 0 < \|a-d\| < 2^-52 (any tiny matrix) reports pairs that are not eigenvalues of any nearby matrix, through the absolute tolerance of `dlanv2` | `c48_uneven_refuted` |
| C51 | `dlaqr5`, src/dlaqr5.rs:266-293: the reflector that restarts a collapsed bulge is built in a vector of length 1, so `insert` ignores tau and the second component is used as tau; on H with subdiagonal 0, 2, 2 the trace changes from 19 to below 17 and Z is not orthogonal | `c51_restart_refuted`, `c51_orthogonal_refuted`, `c51_similarity_refuted` |
| C52 | `dlaqr1` returns the zero vector for finite input when its scale overflows (entries 2^1023) | `c52_huge_refuted` |
| C53 | `dlanv2` on subnormal entries: the rescaling loop meant to protect them never runs (its bound safmn2 is 0), and the returned rotation has cs^2+sn^2 > 1.12 | `c53_subnormal_refuted` |
| C55 | `dlahqr`, src/dlahqr.rs, start of a sweep: the vector (v1, v2, v3) is divided by \|v1\|+\|v2\|+\|v3\| without testing for zero; on a finite 3-by-3 matrix of norm 2^100 all three underflow or cancel, the reflector is 0/0, H and Z become NaN and info = 3 | `c55_finite_refuted` |
| C56 | `dlahqr`, src/dlahqr.rs:285-286: the comment says rows I1..min(K+3,I), the loop runs to min(K+4,I); entry (K+4,K), which the routine neither clears nor is meant to read, is mixed into the matrix. Only (5,1) changed from 0 to 8: a complex pair is reported instead of real eigenvalues, info = 0 | `c56_hessenberg_refuted` |
| C57 | `dcopy`, `drot`, `dnrm2`: `ix += incx` after the last element panics in debug builds when the unused next position exceeds i32::MAX (n = 1, incx = i32::MAX). `dscal`, src/blas/dscal.rs:50-56, in release builds: n = 1, incx = i32::MAX scales every even position too; n = 2, incx = 2^30 scales nothing | `c57_debug_refuted`, `c57_one_refuted`, `c57_dscal_refuted`, `c57_dscal_nothing_refuted` |
| C58 | `dtrmm` skips terms with a zero factor (B zero on the left untransposed, A zero on the right), so a NaN of the other operand vanishes; `dgemm` keeps it (reference BLAS behaves the same way) | `c58_dtrmm_refuted` |
| C64 | `FortranArray::insert`, src/array/mod.rs:64-68: the shape is not updated, so the array stores one element more than `len()` says, and an insertion at index `len()` is ignored | `c64_well_formed_refuted`, `c64_ignored` |
| C49 | the block size of xTRSYL overflows i32 from order 2^27 on | `c49_sylvester_refuted` |

Not stated as properties, seen while modelling:

* `dlahqr` ignores `ldh`; the rotation of the columns in its 2x2 deflation is lost.
* `ilaenv`: LAORH 192 (32 documented), SYTRD/HETRD block size 1, every real OR* name 32.
* `dlaqr5` in accumulating mode with nv = 0 or nh = 0 panics in `step_by(0)` when there is something to update.

## 5. What `Print Assumptions` lists

"closed" is *Closed under the global context*; "reals" is exactly the four axioms named in section 2 (`c43_gam` only sig_forall_dec, functional_extensionality_dep).

| file | closed | reals |
|------|--------|-------|
| `PropsArray.v` | c01_write_read_1d, c01_update_read_1d, c01_write_read_2d, c01_update_read_2d, c02_read_1d, c02_read_2d, c02_writes, c02_reads_after_writes, c03_addressing, c04_i32_offset, c04_i32_access, c04_overflow, c05_tail_exact, c05_tail_well_formed, c05_tail_pair, c05_no_panic_refuted, c05_no_panic_2d_refuted, c06_vector, c06_of_vec, c06_single, c06_empty, c06_zeros, c06_zeros_well_formed, c06_matrix, c06_matrix_well_formed, c06_nested, c06_access, c06_negative_shape_refuted, c06_zero_columns_refuted, c07_flat_roundtrip, c07_flat_2d, c08_nested_roundtrip, c08_identity_iff_square, c08_rectangular_refuted, c08_from_1d_panics, c09_eq_spec, c10_display_2d, c10_display_1d | c09_symmetric, c09_transitive, c09_reflexive_iff_no_nan |
| `PropsAux.v` | c32_other_orders, c33_range, c35_case, c35_unknown, c35_short_names_refuted | c24_values, c24_prec, c24_eps_rounding, c24_sfmin_reciprocal, c24_rmax, c24_other, c24_case_refuted, c25_exact, c25_f64_nan, c25_f64_bounds, c25_f64_symmetric, c25_f64_sign, c32_dlaqr1_exact, c33_infinity, c33_nan_refuted, c33_ilaenv, c34_iparmq_partial, c34_iparmq_exact, c34_shifts_refuted, c34_modes_refuted, c34_no_panic_refuted, c35_ilaenv |
| `PropsBlas1.v` | c11_dcopy, c11_dcopy_vec, c12_dscal, c12_dscal_vec, c12_i32_counter, c12_i32_counter_refuted, c13_drot, c16_lsame_exact, c16_lsame_byte, c16_reflexive, c16_symmetric, c16_transitive, c16_lsame_refuted | c13_drot_norm, c13_drot_inverse |
| `PropsBlas1I32.v` | c57_release, c57_debug, c57_debug_refuted, c57_one_refuted, c57_range_refuted, c57_dscal_refuted, c57_dscal_nothing_refuted | - |
| `PropsCollapse.v` | c51_restart_refuted | c51_orthogonal_refuted, c51_accepted, c51_similarity_refuted |
| `PropsErr.v` | - | c43_gam, c43_dgemm_error, c43_dgemm_finite, c44_dtrmm_error, c45_dscal_error, c45_drot_error, c46_dlapy2_error |
| `PropsGemm.v` | c17_dgemm_fortran, c17_dgemm_flat, c17_dgemm_any, c18_dgemm_frame, c18_dgemm_frame_flat, c19_beta_zero, c19_alpha_zero, c20_bad_argument, c20_only_bad_arguments, c20_containers, c20_ld_zero_refuted | c17_dgemm_exact |
| `PropsHq.v` | - | c48_schur, c48_eigenvalues, c48_uneven_refuted |
| `PropsHqBlock.v` | c60_window | - |
| `PropsHqErr.v` | - | c55_schur, c55_eigenvalues, c55_finite_refuted |
| `PropsHqNan.v` | - | c61_nan_kept |
| `PropsHqShift.v` | - | c63_iteration, c63_shifts, c63_start_vector |
| `PropsHqUnread.v` | c56_unread, c56_order4 | c56_hessenberg_refuted |
| `PropsInsert.v` | c64_insert, c64_ignored, c64_panics, c64_well_formed_refuted, c64_as_2d, c64_idx | - |
| `PropsLahqr.v` | c36_no_panic, c36_decided, c36_stable, c37_empty, c37_single, c38_kept, c38_vectors | c36_triangular_refuted, c36_triangular_b64_refuted, c36_split_refuted, c36_split_b64_refuted, c36_refuted, c39_two_by_two, c39_eigenvalues_refuted, c39_schur_refuted |
| `PropsLahqrErr.v` | - | c54_two_by_two |
| `PropsLanv.v` | c30_upper, c30_lower, c31_early_exit, c31_reports | c30_similarity, c31_schur, c31_region_refuted, c31_refuted, c31_binary64_refuted |
| `PropsLanvErr.v` | - | c53_backward, c53_rotation, c53_standard, c53_eigenvalues, c53_subnormal_refuted |
| `PropsLanvIdem.v` | - | c67_idempotent, c67_form |
| `PropsLaqr1.v` | - | c52_dlaqr1_error, c52_huge_refuted |
| `PropsLaqr5.v` | c40_quick, c40_returns, c40_shapes, c40_four_refuted, c41_pairing, c41_first_refuted | c40_v_refuted, c40_h_refuted, c42_z_refuted, c42_ldz_refuted, c42_four_refuted |
| `PropsLarfg.v` | c27_short, c27_zero_norm, c27_total, c27_loop_bounded | c26_reflector, c26_values, c27_zero_exact, c27_zero_binary64 |
| `PropsLarfgErr.v` | - | c50_values, c50_reflector, c50_tiny_refuted, c50_huge_refuted |
| `PropsLaset.v` | c28_dlaset_partial, c28_dlaset_nested, c28_lower_wide, c28_upper_refuted, c28_lower_refuted, c28_case_refuted, c28_outside_refuted, c29_dlacpy_partial, c29_dlacpy_nested, c29_lower_wide, c29_upper_refuted, c29_lower_refuted, c29_outside_refuted | - |
| `PropsNanMat.v` | - | c58_dgemm, c58_dtrmm, c58_dtrmm_refuted |
| `PropsNrm2.v` | c14_empty | c14_norm, c14_norm_big, c14_error, c14_exact_norm_refuted, c15_nan, c15_no_nan, c15_infinity |
| `PropsNrm2Acc.v` | - | c47_dnrm2_error, c47_dnrm2_finite, c47_tiny_elements_vanish, c47_spurious_overflow, c47_nonzero_norm_refuted, c47_finite_norm_refuted |
| `PropsPanel.v` | c66_dgemm_panel, c66_dgemm_depth, c66_dtrmm_panel | c66_one, c66_transposed_differs |
| `PropsQ5Block.v` | c62_window, c62_larfg_prefix | - |
| `PropsQ5Err.v` | - | c59_similarity, c59_spectrum |
| `PropsQ5Nan.v` | - | c65_nan_kept |
| `PropsSignSym.v` | - | c68_dnrm2, c68_dlapy2, c68_dlarfg, c68_dlarfg_zero |
| `PropsSim.v` | - | c42_similarity, c42_trace |
| `PropsSimAcc.v` | - | c42_accumulated, c42_schur_invariant |
| `PropsTrmm.v` | c21_dtrmm_fortran, c21_triangle_only, c22_frame, c22_a_unchanged, c22_bad_argument, c22_only_bad_arguments, c23_dtrmm_flat_tail, c23_dgemm_flat | c21_dtrmm_exact, c23_dtrmm_flat_refuted |
| `PropsTune.v` | c35_table, c35_two_stage, c35_band, c35_sylvester, c35_orthogonal, c35_unitary, c35_other_letter, c35_fixed, c35_blocked_refuted | c35_svd_crossover, c34_modes |
| `PropsTuneI32.v` | c49_iparmq, c49_ilaenv, c49_other_names, c49_sylvester_refuted | - |

## 6. How `seeded/LOG.jsonl` was made

Each entry is one wrong program: one edit of one definition of the model, made in a copy outside this directory.

* `evidence: observed`.  Every proof that broke was replaced by `Admitted` until the property file compiled again.  A theorem is
  listed as failed if `Print Assumptions` then names one of those admitted lemmas.
* `evidence: inferred` (the first batch).  The build was stopped at the first broken proof.  The theorems listed are those whose
  proofs refer to it, found by following names in the sources; they were not recompiled one by one.
* `no verdict`.  The edit removed the only use of a section variable, so a later statement no longer type-checked.  That says
  nothing about the theorems.

A broken proof shows that the proof used the edited line.  It does not by itself show that the theorem is false of the edited program.
In some entries the theorem that failed belongs to another property than the one aimed at; it is then under `other_theorems_failed`.
