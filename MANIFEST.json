{
 "claims": [
  {
   "property": "C01",
   "status": "proved",
   "theorems": [
    "c01_write_read_1d",
    "c01_update_read_1d",
    "c01_write_read_2d",
    "c01_update_read_2d"
   ],
   "note": "for every Num, every array and position"
  },
  {
   "property": "C02",
   "status": "proved",
   "theorems": [
    "c02_read_1d",
    "c02_read_2d",
    "c02_writes",
    "c02_reads_after_writes"
   ],
   "note": "for every Num and every access; reads after any sequence of out-of-range writes included"
  },
  {
   "property": "C03",
   "status": "proved",
   "theorems": [
    "c03_addressing"
   ],
   "note": ""
  },
  {
   "property": "C04",
   "status": "proved",
   "theorems": [
    "c04_i32_offset",
    "c04_i32_access",
    "c04_overflow"
   ],
   "note": "both build profiles; the overflow side is c04_overflow"
  },
  {
   "property": "C05",
   "status": "partial",
   "theorems": [
    "c05_tail_exact",
    "c05_tail_well_formed",
    "c05_tail_pair",
    "c05_no_panic_refuted",
    "c05_no_panic_2d_refuted"
   ],
   "note": "the suffix claim is proved; the claim that views never panic is false of the code (zero-column and negative-shape arrays) and refuted by c05_no_panic_refuted and c05_no_panic_2d_refuted"
  },
  {
   "property": "C06",
   "status": "partial",
   "theorems": [
    "c06_vector",
    "c06_of_vec",
    "c06_single",
    "c06_empty",
    "c06_zeros",
    "c06_zeros_well_formed",
    "c06_matrix",
    "c06_matrix_well_formed",
    "c06_nested",
    "c06_access",
    "c06_negative_shape_refuted",
    "c06_zero_columns_refuted"
   ],
   "note": "proved for non-negative shapes; zeros/matrix with a zero or negative dimension are not well formed (c06_zero_columns_refuted, c06_negative_shape_refuted)"
  },
  {
   "property": "C07",
   "status": "proved",
   "theorems": [
    "c07_flat_roundtrip",
    "c07_flat_2d"
   ],
   "note": ""
  },
  {
   "property": "C08",
   "status": "partial",
   "theorems": [
    "c08_nested_roundtrip",
    "c08_identity_iff_square",
    "c08_rectangular_refuted",
    "c08_from_1d_panics"
   ],
   "note": "false of the code for rectangular input (c08_rectangular_refuted): the round trip is the identity exactly for square input (c08_identity_iff_square)"
  },
  {
   "property": "C09",
   "status": "proved",
   "theorems": [
    "c09_eq_spec",
    "c09_symmetric",
    "c09_transitive",
    "c09_reflexive_iff_no_nan"
   ],
   "note": ""
  },
  {
   "property": "C10",
   "status": "proved",
   "theorems": [
    "c10_display_2d",
    "c10_display_1d"
   ],
   "note": ""
  },
  {
   "property": "C11",
   "status": "proved",
   "theorems": [
    "c11_dcopy",
    "c11_dcopy_vec"
   ],
   "note": "incy <> 0; with incy = 0 all writes go to one element"
  },
  {
   "property": "C12",
   "status": "partial",
   "theorems": [
    "c12_dscal",
    "c12_dscal_vec",
    "c12_i32_counter",
    "c12_i32_counter_refuted"
   ],
   "note": "proved with unbounded loop counters and for i32 counters within range; a legal call with incx near i32::MAX panics in a debug build (c12_i32_counter_refuted)"
  },
  {
   "property": "C13",
   "status": "proved",
   "theorems": [
    "c13_drot",
    "c13_drot_norm",
    "c13_drot_inverse"
   ],
   "note": "incx, incy <> 0; exact arithmetic for the norm and for the inverse rotation"
  },
  {
   "property": "C14",
   "status": "proved",
   "theorems": [
    "c14_norm",
    "c14_norm_big",
    "c14_error",
    "c14_empty",
    "c14_exact_norm_refuted"
   ],
   "note": "Value for every mix of magnitudes over exact extended reals, any stride, any container; the error bound when tiny elements are dropped beside huge ones, and a witness that they are. Elements must lie inside the array (outside, the model and the code read MIN_POSITIVE)."
  },
  {
   "property": "C15",
   "status": "proved",
   "theorems": [
    "c15_nan",
    "c15_no_nan",
    "c15_infinity"
   ],
   "note": "For every binary64 vector and every libm meeting libm_ok (pow(x,2) is the rounded square, pow(2,k) exact at four integers). Also: an infinite element gives +infinity."
  },
  {
   "property": "C16",
   "status": "partial",
   "theorems": [
    "c16_lsame_exact",
    "c16_lsame_byte",
    "c16_reflexive",
    "c16_symmetric",
    "c16_transitive",
    "c16_lsame_refuted"
   ],
   "note": "proved for characters below U+0100; beyond that lsame truncates to the low byte (c16_lsame_exact) and the property is false (c16_lsame_refuted)"
  },
  {
   "property": "C17",
   "status": "proved",
   "theorems": [
    "c17_dgemm_fortran",
    "c17_dgemm_flat",
    "c17_dgemm_any",
    "c17_dgemm_exact"
   ],
   "note": "every Num (f64 bit for bit) and exact arithmetic, all containers; A, B stored where op reads them"
  },
  {
   "property": "C18",
   "status": "proved",
   "theorems": [
    "c18_dgemm_frame",
    "c18_dgemm_frame_flat"
   ],
   "note": "for C stored with at least m rows; flat C always has that"
  },
  {
   "property": "C19",
   "status": "proved",
   "theorems": [
    "c19_beta_zero",
    "c19_alpha_zero"
   ],
   "note": ""
  },
  {
   "property": "C20",
   "status": "partial",
   "theorems": [
    "c20_bad_argument",
    "c20_only_bad_arguments",
    "c20_containers",
    "c20_ld_zero_refuted"
   ],
   "note": "proved for arguments whose conversion succeeds; false for flat Vec arguments with leading dimension 0, which panic instead (c20_ld_zero_refuted)"
  },
  {
   "property": "C21",
   "status": "proved",
   "theorems": [
    "c21_dtrmm_fortran",
    "c21_dtrmm_exact",
    "c21_triangle_only"
   ],
   "note": "every Num (f64 bit for bit) for FortranArray storage, all 16 variants, and exact arithmetic; flat storage is C23"
  },
  {
   "property": "C22",
   "status": "proved",
   "theorems": [
    "c22_frame",
    "c22_a_unchanged",
    "c22_bad_argument",
    "c22_only_bad_arguments"
   ],
   "note": "frame for every shape of B; every container for validation"
  },
  {
   "property": "C23",
   "status": "partial",
   "theorems": [
    "c23_dtrmm_flat_tail",
    "c23_dtrmm_flat_refuted",
    "c23_dgemm_flat"
   ],
   "note": "proved for dgemm (c23_dgemm_flat); false of dtrmm, which ignores ldb on a flat Vec (c23_dtrmm_flat_refuted, c23_dtrmm_flat_tail)"
  },
  {
   "property": "C24",
   "status": "partial",
   "theorems": [
    "c24_values",
    "c24_prec",
    "c24_eps_rounding",
    "c24_sfmin_reciprocal",
    "c24_rmax",
    "c24_other",
    "c24_case_refuted"
   ],
   "note": "All values, eps*base=prec, rounding bound, safe reciprocal and largest value proved for binary64. False part: the selector is case-sensitive, c24_case_refuted; every other character gives 0 (c24_other)."
  },
  {
   "property": "C25",
   "status": "proved",
   "theorems": [
    "c25_exact",
    "c25_f64_nan",
    "c25_f64_bounds",
    "c25_f64_symmetric",
    "c25_f64_sign"
   ],
   "note": "Exact value over extended reals for inputs up to the largest f64; NaN, infinity, symmetry, sign and lower bound for every pair of binary64 values."
  },
  {
   "property": "C26",
   "status": "proved",
   "theorems": [
    "c26_reflector",
    "c26_values"
   ],
   "note": "Over exact arithmetic (ER), for 2<=n<2^31, incx>=1, |alpha| at most f64::MAX and |x_t| at most 2^505 (the threshold below which dnrm2 is exact, see C14), including every tiny vector that goes through the rescaling loop. c26_values gives the closed forms."
  },
  {
   "property": "C27",
   "status": "proved",
   "theorems": [
    "c27_short",
    "c27_zero_norm",
    "c27_zero_exact",
    "c27_zero_binary64",
    "c27_total",
    "c27_loop_bounded"
   ],
   "note": "c27_total, c27_loop_bounded, c27_short and c27_zero_norm hold for every number type; x=0 is discharged for exact arithmetic and for binary64 (signed zeros). The containers are those that keep the flat data (Vec<f64>, FortranArray). n is an unbounded integer."
  },
  {
   "property": "C28",
   "status": "partial",
   "theorems": [
    "c28_dlaset_partial",
    "c28_dlaset_nested",
    "c28_lower_wide",
    "c28_upper_refuted",
    "c28_lower_refuted",
    "c28_case_refuted",
    "c28_outside_refuted"
   ],
   "note": "false of the code for column-major storage: 'U' and 'L' are exchanged (c28_upper_refuted, c28_lower_refuted), 'L' with n > m writes below the block (c28_outside_refuted, exact effect c28_lower_wide), lower-case letters mean 'all' (c28_case_refuted). Proved: the exact effect otherwise (c28_dlaset_partial) and the claim itself for square vectors of vectors read as lists of rows (c28_dlaset_nested)"
  },
  {
   "property": "C29",
   "status": "partial",
   "theorems": [
    "c29_dlacpy_partial",
    "c29_dlacpy_nested",
    "c29_lower_wide",
    "c29_upper_refuted",
    "c29_lower_refuted",
    "c29_outside_refuted"
   ],
   "note": "as C28, for dlacpy"
  },
  {
   "property": "C30",
   "status": "proved",
   "theorems": [
    "c30_similarity",
    "c30_upper",
    "c30_lower"
   ],
   "note": "Exact arithmetic (ER), entries up to 2^1021 in absolute value (beyond that dlapy2 falls back to the larger component). The rescaling thresholds of the code are 0 and +infinity in this model (trunc is applied to 2^-485), so rescaling never happens; proved in LanvProofs.v. c30_upper and c30_lower hold for every number type."
  },
  {
   "property": "C31",
   "status": "partial",
   "theorems": [
    "c31_schur",
    "c31_region_refuted",
    "c31_refuted",
    "c31_binary64_refuted",
    "c31_early_exit",
    "c31_reports"
   ],
   "note": "False of the code as stated: src/dlanv2.rs:45 tests |a-d| < EPSILON where LAPACK tests a-d = 0, so for 0 < |a-d| < 2^-52 and b*c < 0 the matrix is returned unreduced with wrong eigenvalues (c31_region_refuted: always wrong there; c31_refuted: witness; c31_binary64_refuted: the same in binary64). c31_schur proves the claim on the complement of that region. c31_reports and c31_early_exit hold for every number type."
  },
  {
   "property": "C32",
   "status": "proved",
   "theorems": [
    "c32_dlaqr1_exact",
    "c32_other_orders"
   ],
   "note": "The first column is k*v with k > 0, over exact extended-real arithmetic; any container whose 2-D view has the right entries. Other orders return v unchanged for any arithmetic."
  },
  {
   "property": "C33",
   "status": "partial",
   "theorems": [
    "c33_range",
    "c33_infinity",
    "c33_nan_refuted",
    "c33_ilaenv"
   ],
   "note": "Result is 0 or 1 always, and 1 for ispec 0. False part: the NaN check is inverted, so ispec <> 0 gives 0 for every pair of binary64 values (c33_nan_refuted), and ilaenv(10) = 0."
  },
  {
   "property": "C34",
   "status": "partial",
   "theorems": [
    "c34_iparmq_partial",
    "c34_iparmq_exact",
    "c34_shifts_refuted",
    "c34_modes_refuted",
    "c34_no_panic_refuted",
    "c34_modes"
   ],
   "note": "For names of at least 6 characters no panic and the exact values, the mode for every name included (c34_modes). False parts: ns is always 2 (c34_shifts_refuted), modes (c34_modes_refuted), short names panic (c34_no_panic_refuted). Needs ln(n)/ln 2 not to round to 0 for 150 <= n < 590 (libm_ok). i32 overflow of ihi-ilo+1 is not modelled."
  },
  {
   "property": "C35",
   "status": "partial",
   "theorems": [
    "c35_ilaenv",
    "c35_case",
    "c35_unknown",
    "c35_short_names_refuted",
    "c35_table",
    "c35_two_stage",
    "c35_band",
    "c35_sylvester",
    "c35_orthogonal",
    "c35_unitary",
    "c35_other_letter",
    "c35_fixed",
    "c35_svd_crossover",
    "c35_blocked_refuted"
   ],
   "note": "Proved for names of at least 6 characters starting with a letter; PropsTune.v gives the value of every parameter for every name. False for shorter names: \"dgemm\" and \"\" panic while \"DGEMM\" gives 1 (c35_short_names_refuted); GETRF and POTRF get block size 1 where 64 is documented (c35_blocked_refuted). The i32 product 16*min(n1,n2) of xTRSYL is not checked for overflow in the model."
  },
  {
   "property": "C36",
   "status": "partial",
   "theorems": [
    "c36_no_panic",
    "c36_decided",
    "c36_stable",
    "c36_triangular_refuted",
    "c36_triangular_b64_refuted",
    "c36_split_refuted",
    "c36_split_b64_refuted",
    "c36_refuted"
   ],
   "note": "False as stated of the code. c36_no_panic: for every number type, every container that converts to a well-formed array and back, every n, ilo >= 1, ihi (and iloz >= 1 when wantz) dlahqr never panics: after any number of turns of its outer loop it is still running or has returned with info = 0 or ilo <= info <= ihi. c36_decided / c36_stable: ihi-ilo+1 turns decide whether it ever returns. c36_triangular_refuted, c36_triangular_b64_refuted: it never returns on an upper triangular active block (exact reals: subdiagonal entries up to nh*2^-970; binary64: zeros), because at i = ilo the scan variable k keeps its old value and i is never decreased below; c36_split_refuted, c36_split_b64_refuted: with H(ilo+1,ilo) = 0 it never returns info = 0; c36_refuted: diag(1,2) as a concrete call."
  },
  {
   "property": "C37",
   "status": "proved",
   "theorems": [
    "c37_empty",
    "c37_single"
   ],
   "note": "n = 0: everything returned unchanged, info 0 (c37_empty). ilo = ihi: wr(ilo) = H(ilo,ilo), wi(ilo) = 0, nothing else changed (c37_single). All number types, all containers."
  },
  {
   "property": "C38",
   "status": "proved",
   "theorems": [
    "c38_kept",
    "c38_vectors"
   ],
   "note": "Shapes kept, wr/wi kept outside ilo..ihi, Z unchanged when wantz = false, whenever the call returns; c38_kept for every container, c38_vectors for nested vectors. Termination is C36."
  },
  {
   "property": "C39",
   "status": "partial",
   "theorems": [
    "c39_two_by_two",
    "c39_eigenvalues_refuted",
    "c39_schur_refuted"
   ],
   "note": "False as stated of the code. c39_two_by_two: for 2-by-2 matrices in exact arithmetic (entries at most 2^1021, subdiagonal not negligible, outside the region of c31_region_refuted) the call returns info 0 with a standardized Schur form T, H = Q T Q^T, Z' = Z Q and the eigenvalues of H. c39_eigenvalues_refuted (wantt = false, 3-by-3 of trace 14: returned real parts sum below -10) and c39_schur_refuted (wantt = wantz = true, 4-by-4: H Z and Z T differ by more than 1) are binary64 runs, the same for every libm that meets the contract. For larger orders with wantt = true the part that does hold is C48."
  },
  {
   "property": "C40",
   "status": "partial",
   "theorems": [
    "c40_quick",
    "c40_returns",
    "c40_shapes",
    "c40_four_refuted",
    "c40_v_refuted",
    "c40_h_refuted"
   ],
   "note": "Quick returns change nothing: proved for every number type and container. One pair of shifts (nshfts 2 or 3): without accumulation it always returns and every shape is kept; with accumulation and ldh = ldz every shape is kept if it returns. False otherwise: with two or more pairs it panics for every data whenever V has at most 2*(nshfts/2)-2 columns, in particular the documented nshfts/2 (c40_four_refuted, any arithmetic); binary64 witnesses: a larger V comes back truncated; accumulating with ldz <> ldh re-dimensions H."
  },
  {
   "property": "C41",
   "status": "partial",
   "theorems": [
    "c41_pairing",
    "c41_first_refuted"
   ],
   "note": "The pairing pass is a permutation for two shifts. For three or more shifts the property is false of the code for every number type: the first shift is replaced by MIN_POSITIVE (c41_pairing), so dlaqr5 does not depend on it (c41_first_refuted)."
  },
  {
   "property": "C42",
   "status": "partial",
   "theorems": [
    "c42_z_refuted",
    "c42_ldz_refuted",
    "c42_four_refuted",
    "c42_similarity",
    "c42_trace",
    "c42_accumulated",
    "c42_schur_invariant"
   ],
   "note": "True part, in exact arithmetic for all inputs with one pair of shifts: without accumulation c42_similarity (the returned H is upper Hessenberg and equals Q^T*H*Q with Q orthogonal, up to deflated subdiagonals of bounded size; Q starts in the direction of the shift polynomial) and c42_trace; with accumulation and equal leading dimensions c42_accumulated (the same for H, and Z becomes Z*Q on the rows and columns asked for) and c42_schur_invariant (H = Z^T*A*Z and Z orthogonal are kept). False of the code, with binary64 witnesses: without accumulation Z is not the accumulated transformation; with accumulation and ldz <> ldh, or with two pairs of shifts, H itself is not similar to the input (trace)."
  },
  {
   "property": "C43",
   "status": "proved",
   "theorems": [
    "c43_gam",
    "c43_dgemm_error",
    "c43_dgemm_finite"
   ],
   "note": "Error bound for every container and transposition (c43_dgemm_error), no overflow up to 2^300 (c43_dgemm_finite), the usual reading of gamma (c43_gam). Every libm: dgemm uses none."
  },
  {
   "property": "C44",
   "status": "proved",
   "theorems": [
    "c44_dtrmm_error"
   ],
   "note": "FortranArray arguments; a flat B is treated as one column, see C23. All 16 variants in one statement."
  },
  {
   "property": "C45",
   "status": "proved",
   "theorems": [
    "c45_dscal_error",
    "c45_drot_error"
   ],
   "note": "c45_dscal_error and c45_drot_error, every container."
  },
  {
   "property": "C46",
   "status": "proved",
   "theorems": [
    "c46_dlapy2_error"
   ],
   "note": "Finite arguments; NaN and infinities are C25."
  },
  {
   "property": "C47",
   "status": "partial",
   "theorems": [
    "c47_dnrm2_error",
    "c47_dnrm2_finite",
    "c47_tiny_elements_vanish",
    "c47_spurious_overflow",
    "c47_nonzero_norm_refuted",
    "c47_finite_norm_refuted"
   ],
   "note": "Error bound for every finite result and a sufficient condition for finiteness. The full statement (finite and nonzero whenever the norm is) is false of the code: c47_nonzero_norm_refuted and c47_finite_norm_refuted, with the general c47_tiny_elements_vanish and c47_spurious_overflow."
  },
  {
   "property": "C48",
   "status": "proved",
   "theorems": [
    "c48_schur",
    "c48_eigenvalues",
    "c48_uneven_refuted"
   ],
   "note": "Over exact reals, wantt = true, ldh = number of rows, any order, container, fuel, info. c48_schur: the orthogonal factor, the quasi-triangular T, the backward error, which entries of the returned H are those of T, Z' = Z0*Q. c48_eigenvalues: every reported pair is an eigenvalue of H0 - E (explicit left eigenvector), except in blocks of the region of c31_region_refuted; c48_uneven_refuted shows that the exception is needed. That the call returns is C36; that the rest of H is wrong is c39_schur_refuted; wantt = false is c39_eigenvalues_refuted."
  },
  {
   "property": "C49",
   "status": "partial",
   "theorems": [
    "c49_iparmq",
    "c49_ilaenv",
    "c49_other_names",
    "c49_sylvester_refuted"
   ],
   "note": "False as stated without the restriction. c49_iparmq, c49_ilaenv, c49_other_names: no overflow in both build profiles; c49_sylvester_refuted: every order from 2^27 (real) or 2^28 (complex) on panics in debug builds and uses the wrapped product in release builds."
  },
  {
   "property": "C50",
   "status": "proved",
   "theorems": [
    "c50_values",
    "c50_reflector",
    "c50_tiny_refuted",
    "c50_huge_refuted"
   ],
   "note": "Relative error bounds for beta, tau and v on both paths (with and without the rescaling loop), and what they imply for the stored reflector: nearly orthogonal, nearly annihilating. The refutations show that the two side conditions (dnrm2 finite and nonzero, h <= 2^1020) are not artefacts: x=2^-1074 is left alone, and alpha-beta overflows for h near the top of the range."
  },
  {
   "property": "C51",
   "status": "partial",
   "theorems": [
    "c51_restart_refuted",
    "c51_orthogonal_refuted",
    "c51_accepted",
    "c51_similarity_refuted"
   ],
   "note": "False of the code. For any arithmetic the restart uses the wrong component of the reflector as tau (c51_restart_refuted); in exact arithmetic such a reflector is never orthogonal (c51_orthogonal_refuted) and it is always accepted where the matrix splits (c51_accepted, with a concrete state); in binary64, for every libm and both accumulation modes, a 4-by-4 sweep changes the trace from 19 to below 17 and returns a Z with a column of norm below 1/2 (c51_similarity_refuted). For unreduced H the property is C42."
  },
  {
   "property": "C52",
   "status": "proved",
   "theorems": [
    "c52_dlaqr1_error",
    "c52_huge_refuted"
   ],
   "note": "Every libm, every container. c52_huge_refuted shows why the magnitude is bounded: with entries 2^1023 the scale overflows and the zero vector comes back although the exact column is not zero."
  },
  {
   "property": "C53",
   "status": "proved",
   "theorems": [
    "c53_backward",
    "c53_rotation",
    "c53_standard",
    "c53_eigenvalues",
    "c53_subnormal_refuted"
   ],
   "note": "Backward error of every branch of dlanv2 in binary64, for entries up to 2^400 whose off-diagonal is zero or has an entry of at least 2^-969; constants are explicit. c53_subnormal_refuted shows that the lower limit cannot be dropped."
  },
  {
   "property": "C54",
   "status": "proved",
   "theorems": [
    "c54_two_by_two"
   ],
   "note": "One call of dlahqr on a 2-by-2 matrix in binary64, with T, the eigenvalues and Z related to the same exact rotation; explicit constants."
  },
  {
   "property": "C55",
   "status": "partial",
   "theorems": [
    "c55_schur",
    "c55_eigenvalues",
    "c55_finite_refuted"
   ],
   "note": "The claim that finite input gives finite output is false: c55_finite_refuted is a 3-by-3 matrix of norm 2^100 on which the first reflector is 0/0 and the call returns info = 3 with NaN. c55_schur and c55_eigenvalues prove the backward error bound for every call that returns without NaN on the diagonal of the active block; that every call returns is C36 (refuted there). Constants are explicit and not optimal; wantt = false and order above 850 are not covered."
  },
  {
   "property": "C56",
   "status": "partial",
   "theorems": [
    "c56_unread",
    "c56_order4",
    "c56_hessenberg_refuted"
   ],
   "note": "c56_unread and c56_order4 prove independence of the second, third and fifth-and-lower subdiagonals (everything below the subdiagonal for blocks of order up to 4) for any number type; independence of the fourth subdiagonal is false of the code (loop bound k+4, src/dlahqr.rs:286): c56_hessenberg_refuted gives two 5-by-5 matrices differing only at (5,1), one reported with real eigenvalues, the other with a complex pair. wantt = false is not covered."
  },
  {
   "property": "C57",
   "status": "partial",
   "theorems": [
    "c57_release",
    "c57_debug",
    "c57_debug_refuted",
    "c57_one_refuted",
    "c57_range_refuted",
    "c57_dscal_refuted",
    "c57_dscal_nothing_refuted"
   ],
   "note": "Proved: release builds of dcopy, drot and dnrm2 equal the unbounded model whenever every position used is an i32; debug builds exactly when the next position is one too. Refuted: debug builds panic otherwise (one element with incx = i32::MAX); a release dscal with n = 1, incx = i32::MAX also scales every even position, with n = 2, incx = 2^30 scales nothing."
  },
  {
   "property": "C58",
   "status": "partial",
   "theorems": [
    "c58_dgemm",
    "c58_dtrmm",
    "c58_dtrmm_refuted"
   ],
   "note": "Proved for dgemm (every option, every NaN position) and for every term dtrmm does not skip. False where dtrmm skips a term because the other factor is zero: c58_dtrmm_refuted, with dgemm returning NaN for the same product."
  },
  {
   "property": "C59",
   "status": "proved",
   "theorems": [
    "c59_similarity",
    "c59_spectrum"
   ],
   "note": "In binary64 for every libm meeting the contract: similarity with backward error, Hessenberg form, first column, spectrum, frame. Blocks with tiny subdiagonals are excluded by a hypothesis because there the code enters the collapsed-bulge branch, which is wrong (C51). H only; Z is not updated by the transformation without accumulation (C42)."
  },
  {
   "property": "C60",
   "status": "proved",
   "theorems": [
    "c60_window"
   ],
   "note": "dlahqr_window: two runs on windows holding the same block, over any number type; the second call is taken without Z (with Z it would need Z large enough) and with wantt = true (wantt = false is wrong in the code, C39). Example: a 3x3 block alone and inside a 5x5 matrix of NaN."
  },
  {
   "property": "C61",
   "status": "proved",
   "theorems": [
    "c61_nan_kept"
   ],
   "note": "dlahqr_nan. The clause on eigenvalues is for a NaN on the diagonal: for ((1,0),(NaN,2)) the eigenvalues reported are 2 and 1 and the NaN is only in H (shown in c61_hyps). wantt = true, as elsewhere."
  },
  {
   "property": "C62",
   "status": "proved",
   "theorems": [
    "c62_window",
    "c62_larfg_prefix"
   ],
   "note": "one pair of shifts, not accumulating, over any number type; with two or more pairs a V of the documented size panics (C40) and with accumulation see C42"
  },
  {
   "property": "C63",
   "status": "proved",
   "theorems": [
    "c63_iteration",
    "c63_shifts",
    "c63_start_vector"
   ],
   "note": "exact arithmetic, for one iteration of the inner loop (hq_iter) and the pieces it calls; the negligibility test, the shifts and the start test are restated over the reals in SpecDShift.v without reference to the code. That the iteration then converges is not claimed"
  },
  {
   "property": "C64",
   "status": "partial",
   "theorems": [
    "c64_insert",
    "c64_ignored",
    "c64_panics",
    "c64_well_formed_refuted",
    "c64_as_2d",
    "c64_idx"
   ],
   "note": "the effect of insert, as_2d and idx is proved exactly; that insert keeps the array well formed and works at the last index is false of the code (c64_well_formed_refuted, c64_ignored): rows and cols are not updated"
  },
  {
   "property": "C65",
   "status": "proved",
   "theorems": [
    "c65_nan_kept"
   ],
   "note": "Any number of shifts; calls that accumulate (kacc22 = 1 or 2) are not covered. The entries two or more below the diagonal are outside the claim: the code stores zeros there without reading them."
  },
  {
   "property": "C66",
   "status": "proved",
   "theorems": [
    "c66_dgemm_panel",
    "c66_dgemm_depth",
    "c66_one",
    "c66_transposed_differs",
    "c66_dtrmm_panel"
   ],
   "note": "The splitting of the inner dimension is stated for A not transposed; c66_transposed_differs shows that it fails for A transposed."
  },
  {
   "property": "C67",
   "status": "proved",
   "theorems": [
    "c67_idempotent",
    "c67_form"
   ],
   "note": "Results with an infinite or NaN diagonal and a nonzero c are outside the first claim. The second clause admits the diagonals that merely pass the absolute test of line 42, the defect recorded under C31."
  },
  {
   "property": "C68",
   "status": "proved",
   "theorems": [
    "c68_dnrm2",
    "c68_dlapy2",
    "c68_dlarfg",
    "c68_dlarfg_zero"
   ],
   "note": "For all f64 inputs and every libm. dlarfg on Vec with incx >= 1; the quick returns are c68_dlarfg_zero; tau = NaN, and tau = 0 from beta = alpha, are excluded."
  }
 ]
}