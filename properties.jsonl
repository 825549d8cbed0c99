{"id": "C01", "title": "Element write/read law of FortranArray", "statement": "Writing a value through array[i] or array[(i,j)] at an in-range position and reading the same position back gives that value; every element at a different position, and the shape, are unchanged.", "quantifier": "every array, every pair of positions, every value", "why_tests_cant": "The shipped tests write and read one position of two fixed arrays; non-interference between positions must hold for all pairs of positions of all arrays.", "anchors": ["src/array/indexing.rs: Index<i32>, IndexMut<i32>, Index<(i32,i32)>, IndexMut<(i32,i32)>"]}
{"id": "C02", "title": "Out-of-range accesses are total and harmless", "statement": "Reading a position outside the stored data (index 0, negative, or beyond the end, in one or two dimensions) yields f64::MIN_POSITIVE, and writing there changes no element and no shape; neither panics.", "quantifier": "every array, every out-of-range index or index pair, every history of earlier out-of-range writes", "why_tests_cant": "Unbounded set of indices; the hidden default slot makes the answer depend on history, which a single test cannot range over.", "anchors": ["src/array/indexing.rs: Index/IndexMut impls", "src/array/mod.rs: FortranArray.default_value"]}
{"id": "C03", "title": "Two-dimensional indexing is injective column-major addressing", "statement": "For an r-by-c matrix array, (i,j) with 1<=i<=r, 1<=j<=c addresses linear element (j-1)*r+i; distinct in-range pairs never alias, every stored element is addressed by exactly one pair, and the linear form idx((i,j)) agrees with array[(i,j)..] and array[(i,j)].", "quantifier": "every r, c and every pair of index pairs", "why_tests_cant": "Aliasing is a statement over all pairs of cells of matrices of every size.", "anchors": ["src/array/indexing.rs: Index<(i32,i32)>, Index<RangeFrom<(i32,i32)>>", "src/array/mod.rs: FortranArray::idx"]}
{"id": "C04", "title": "i32 index arithmetic agrees with exact arithmetic on matrices that fit", "statement": "For a matrix whose element count fits in i32, the i32 index computation for every in-range pair never overflows and equals the mathematical address, in both overflow-check profiles; outside that guard it can overflow (panic in debug, alias another element in release).", "quantifier": "every matrix shape with r*c <= i32::MAX, every in-range pair, both build profiles", "why_tests_cant": "The state space of i32 pairs is 2^64 and the failing cases need arrays of 2^31 elements, far beyond a unit test.", "anchors": ["src/array/indexing.rs: Index<(i32,i32)>::index", "src/array/mod.rs: idx, len"]}
{"id": "C05", "title": "Tail views return exactly the suffix", "statement": "array[k..] and array[(i,j)..] return exactly the stored elements from that position to the end, and an empty slice for start positions outside the array; they never panic.", "quantifier": "every array value the public API can build, every start", "why_tests_cant": "Needs every constructor/shape combination, including shapes whose logical length disagrees with the stored data.", "anchors": ["src/array/indexing.rs: Index<RangeFrom<i32>>, Index<RangeFrom<(i32,i32)>>", "src/array/mod.rs: FortranArray::len"]}
{"id": "C06", "title": "Constructors build well-formed arrays", "statement": "vector, single, empty, zeros, matrix and the From conversions give an array whose stored length matches its declared shape and whose elements are the given ones in order; matrix accepts exactly the data whose length is rows*cols.", "quantifier": "every input slice and every declared shape", "why_tests_cant": "Ranges over all lengths and shapes, including zero and negative dimensions.", "anchors": ["src/array/mod.rs: empty, zeros, single, vector, matrix", "src/array/convert.rs: From<&[f64]>, From<Vec<f64>>, From<Vec<Vec<f64>>>"]}
{"id": "C07", "title": "Flat vectors and FortranArray round-trip", "statement": "Converting a Vec<f64> (or slice) to FortranArray and back gives the same vector, and re-interpreting it with any nonzero leading dimension keeps every element at the same linear position; converting with leading dimension 0 panics.", "quantifier": "every vector, every leading dimension", "why_tests_cant": "All lengths and leading dimensions.", "anchors": ["src/array/convert.rs: From<FortranArray> for Vec<f64>, ToFortranArray for Vec<f64> / &[f64]", "src/array/mod.rs: as_2d"]}
{"id": "C08", "title": "Nested vectors round-trip", "statement": "Converting a rectangular Vec<Vec<f64>> to FortranArray and back (which every routine does to its &mut Vec<Vec<f64>> arguments) gives the same nested vector.", "quantifier": "every rectangular nested vector", "why_tests_cant": "Shipped tests only use square nested vectors; the property quantifies over every shape.", "anchors": ["src/array/convert.rs: From<Vec<Vec<f64>>> for FortranArray, From<FortranArray> for Vec<Vec<f64>>"]}
{"id": "C09", "title": "Equality of arrays is value equality", "statement": "== on FortranArray compares shape and elements only (never the hidden out-of-range slot), is symmetric and transitive, and is reflexive exactly on NaN-free arrays.", "quantifier": "every pair and triple of arrays", "why_tests_cant": "Equivalence laws quantify over all arrays.", "anchors": ["src/array/mod.rs: impl PartialEq for FortranArray"]}
{"id": "C10", "title": "Display prints every element once, in stored order, and never panics on well-formed arrays", "statement": "Formatting a well-formed array writes its elements in linear storage order, each exactly once, grouped in declared rows of declared columns, and terminates without panicking.", "quantifier": "every well-formed array", "why_tests_cant": "All shapes; the shipped tests cover four shapes of four elements.", "anchors": ["src/array/display.rs: impl Display for FortranArray"]}
{"id": "C11", "title": "dcopy copies exactly the strided elements", "statement": "After dcopy(n, dx, incx, dy, incy) the element of dy addressed by step t (0<=t<n) holds the element of dx addressed by step t, for positive and negative increments and through the unrolled path, and every other element of dy is unchanged.", "quantifier": "every n, incx, incy != 0, every dx and dy long enough; also what happens for short dx", "why_tests_cant": "Unrolling by 7 with a clean-up loop has residue cases for every n; strides range over all integers.", "anchors": ["src/blas/dcopy.rs: dcopy"]}
{"id": "C12", "title": "dscal scales exactly the strided elements", "statement": "After dscal(n, da, dx, incx) with incx >= 1 each of the n strided elements is multiplied by da once, all other elements are unchanged, and nothing happens for n<=0, incx<=0 or da=1; the loop terminates.", "quantifier": "every n, da, dx, incx", "why_tests_cant": "Unrolling by 5, and a while loop whose bound n*incx must admit exactly n iterations for every n and incx.", "anchors": ["src/blas/dscal.rs: dscal"]}
{"id": "C13", "title": "drot applies the plane rotation to exactly the strided pairs", "statement": "After drot each strided pair (x,y) becomes (c*x+s*y, c*y-s*x), everything else is unchanged; with c^2+s^2=1 and exact arithmetic the sum of squares of the two vectors is preserved.", "quantifier": "every n, incx, incy != 0, c, s and vectors", "why_tests_cant": "Holds for all sizes, strides and values; tests cover five unit-stride cases.", "anchors": ["src/blas/drot.rs: drot"]}
{"id": "C14", "title": "dnrm2 is the Euclidean norm", "statement": "In exact arithmetic dnrm2(n,x,incx) equals sqrt of the sum of squares of the n strided elements when none exceeds the big threshold, and otherwise differs in the square by at most n*tsml^2 (tiny elements dropped beside huge ones); it is 0 for n<=0.", "quantifier": "every n, incx and vector of finite values", "why_tests_cant": "Three accumulators selected by magnitude thresholds 2^-511 and 2^505; every mix of magnitudes is a separate path.", "anchors": ["src/blas/dnrm2.rs: dnrm2"]}
{"id": "C15", "title": "dnrm2 propagates NaN and never invents one", "statement": "In binary64 arithmetic, dnrm2 is NaN if some visited element is NaN; if no visited element is NaN the result is not NaN and is >= 0.", "quantifier": "every n, incx and binary64 vector (finite, infinite, NaN), every libm pow satisfying the stated contract", "why_tests_cant": "Depends on the order of accumulations and comparisons with NaN on every path.", "anchors": ["src/blas/dnrm2.rs: dnrm2"]}
{"id": "C16", "title": "lsame is case-insensitive letter equality", "statement": "lsame(a,b) holds exactly when the characters are equal ignoring ASCII case; it is an equivalence relation.", "quantifier": "every pair of chars", "why_tests_cant": "10^12 pairs; the u8 truncation matters only for non-ASCII characters no test tries.", "anchors": ["src/blas/lsame.rs: lsame"]}
{"id": "C17", "title": "dgemm computes alpha*op(A)*op(B)+beta*C", "statement": "For valid arguments every entry of the m-by-n block of C becomes alpha*sum_l op(A)(i,l)*op(B)(l,j) + beta*C(i,j) (evaluated in a fixed left-to-right order in floating point), for each of the four transposition combinations and every alpha, beta.", "quantifier": "every m,n,k, alpha, beta, leading dimensions and matrices", "why_tests_cant": "Correctness for all sizes and values is an induction over three nested loops in four variants with special-cased scalars.", "anchors": ["src/blas/dgemm.rs: dgemm"]}
{"id": "C18", "title": "dgemm touches nothing outside the m-by-n block of C", "statement": "Storage of C outside rows 1..m, columns 1..n (padding rows, extra columns) is unchanged, its shape is unchanged, and no panic occurs for valid arguments.", "quantifier": "every valid argument tuple", "why_tests_cant": "Frame condition over all sizes and leading dimensions.", "anchors": ["src/blas/dgemm.rs: dgemm"]}
{"id": "C19", "title": "dgemm with beta = 0 does not read C, with alpha = 0 does not read A or B", "statement": "With beta=0 the result does not depend on the prior content of the m-by-n block of C (even NaN), and with alpha=0 it does not depend on A and B.", "quantifier": "every pair of inputs that differ only in the ignored operand, any number type incl. binary64", "why_tests_cant": "A non-interference (2-safety) property over pairs of executions.", "anchors": ["src/blas/dgemm.rs: dgemm"]}
{"id": "C20", "title": "dgemm rejects exactly the invalid arguments", "statement": "dgemm stops with the standard message naming the first bad parameter exactly when an argument is invalid (transa/transb letters, negative m,n,k, lda < max(1,nrowa), ldb, ldc), and otherwise runs normally.", "quantifier": "every combination of characters and integers", "why_tests_cant": "Every combination of bad arguments; priority order between them.", "anchors": ["src/blas/dgemm.rs: dgemm", "src/xerbla.rs: xerbla", "src/array/mod.rs: as_2d"]}
{"id": "C21", "title": "dtrmm computes B := alpha*op(A)*B or alpha*B*op(A)", "statement": "For each of the side/uplo/transa/diag combinations and every alpha, the m-by-n block of B becomes the triangular product, and only the named triangle of A (not the diagonal when diag='U') is referenced.", "quantifier": "every m, n, alpha, A, B given as column-major matrices", "why_tests_cant": "In-place updates are only right for the chosen loop directions; this is an induction for eight variants over all sizes.", "anchors": ["src/blas/dtrmm.rs: dtrmm"]}
{"id": "C22", "title": "dtrmm leaves A and the rest of B unchanged and validates its arguments", "statement": "A and the storage of B outside the m-by-n block are unchanged; invalid arguments stop with the standard message naming the first bad parameter.", "quantifier": "every argument tuple", "why_tests_cant": "Frame and validation order over all inputs.", "anchors": ["src/blas/dtrmm.rs: dtrmm"]}
{"id": "C23", "title": "Matrix routines honour the leading dimension of flat storage", "statement": "A flat column-major Vec<f64> with leading dimension ld means the same matrix to every routine that takes an ld argument, so dtrmm and dlahqr give the same answer on it as on the equivalent FortranArray.", "quantifier": "every flat matrix and leading dimension", "why_tests_cant": "Relates two executions on different representations for all inputs.", "anchors": ["src/blas/dtrmm.rs: dtrmm", "src/dlahqr.rs: dlahqr", "src/array/convert.rs: to_fa / to_fa_2d"]}
{"id": "C24", "title": "dlamch returns consistent machine parameters", "statement": "The values returned describe binary64: eps*base=prec, base=2, eps = 2^-53, sfmin is the smallest normal and 1/sfmin does not overflow, rmax is the largest finite value; the letter is accepted in either case as in LAPACK.", "quantifier": "every selector character; 1/sfmin in binary64", "why_tests_cant": "Every char, and rounding-level facts about binary64.", "anchors": ["src/dlamch.rs: dlamch"]}
{"id": "C25", "title": "dlapy2 is the hypotenuse", "statement": "dlapy2(x,y) = sqrt(x^2+y^2) in exact arithmetic for finite inputs within range; in binary64 it is NaN iff an input is NaN, +inf for an infinite input without NaN, symmetric, sign-independent and never smaller than max(|x|,|y|).", "quantifier": "every pair of values", "why_tests_cant": "2^128 input pairs; special values and rounding.", "anchors": ["src/dlapy2.rs: dlapy2"]}
{"id": "C26", "title": "dlarfg generates an elementary reflector", "statement": "For n>=2 and x not all zero, in exact arithmetic tau, v, beta satisfy H*(alpha;x)=(beta;0) with H = I - tau*(1;v)*(1;v)^T orthogonal, beta^2 = alpha^2+|x|^2, sign(beta) = -sign(alpha) and 1<=tau<=2, including through the rescaling loop for tiny vectors; elements of x off the stride are unchanged.", "quantifier": "every n, alpha, x, incx>=1", "why_tests_cant": "Algebraic identity over all vectors; the rescaling loop runs only for subnormal-size inputs.", "anchors": ["src/dlarfg.rs: dlarfg"]}
{"id": "C27", "title": "dlarfg trivial cases leave data untouched and the rescaling loop is bounded", "statement": "n<=1 or x=0 gives tau=0 and leaves alpha and x unchanged; for every input the routine finishes within 21 rescalings.", "quantifier": "every n, alpha, x, incx, every number type", "why_tests_cant": "Termination for all inputs, including NaN.", "anchors": ["src/dlarfg.rs: dlarfg"]}
{"id": "C28", "title": "dlaset fills the chosen triangle and diagonal and nothing else", "statement": "dlaset sets the strict triangle named by uplo (or everything) of the m-by-n block to alpha and its diagonal to beta, and changes nothing else.", "quantifier": "every m, n, uplo, matrix", "why_tests_cant": "All shapes, including m<n and m>n, where the loop bounds differ.", "anchors": ["src/dlaset.rs: dlaset"]}
{"id": "C29", "title": "dlacpy copies the chosen triangle and nothing else", "statement": "dlacpy copies the triangle named by uplo (or everything) of the m-by-n block of A into B and changes nothing else of B.", "quantifier": "every m, n, uplo, A, B and leading dimensions", "why_tests_cant": "All shapes and leading dimensions; frame condition.", "anchors": ["src/dlacpy.rs: dlacpy"]}
{"id": "C30", "title": "dlanv2 returns an orthogonal similarity", "statement": "In exact arithmetic the rotation (cs,sn) satisfies cs^2+sn^2=1 and [a b;c d] = Q*[a' b';c' d']*Q^T for the returned entries; no division by zero occurs.", "quantifier": "every real 2-by-2 matrix within the scaling range", "why_tests_cant": "Six code paths over a continuum of matrices.", "anchors": ["src/dlanv2.rs: dlanv2"]}
{"id": "C31", "title": "dlanv2 returns a standardised Schur form and its eigenvalues", "statement": "On exit either c'=0, or a'=d' and b'*c'<0; and (rt1r,rt1i),(rt2r,rt2i) are the eigenvalues of the input matrix (complex pairs conjugate).", "quantifier": "every real 2-by-2 matrix", "why_tests_cant": "Branch conditions with absolute tolerances; a continuum of matrices.", "anchors": ["src/dlanv2.rs: dlanv2"]}
{"id": "C32", "title": "dlaqr1 returns a multiple of the first column of (H-s1)(H-s2)", "statement": "For n=2,3 and shifts that are real or a conjugate pair, v is a nonzero scalar multiple of the first column of (H-s1*I)(H-s2*I), or zero when the scale is zero; for other n nothing is written.", "quantifier": "every H, shifts", "why_tests_cant": "Polynomial identity over all matrices.", "anchors": ["src/dlaqr1.rs: dlaqr1"]}
{"id": "C33", "title": "ieeeck reports IEEE arithmetic", "statement": "On IEEE binary64, ieeeck(0,0,1)=1 and ieeeck(1,0,1)=1 (infinity and NaN arithmetic are safe), and it terminates with 0 or 1 on every input.", "quantifier": "every ispec and every pair of binary64 values", "why_tests_cant": "2^128 pairs of floats.", "anchors": ["src/ieeeck.rs: ieeeck"]}
{"id": "C34", "title": "iparmq tuning parameters follow the documented table", "statement": "The number of shifts is even, at least 2, and grows with the order nh as tabulated; the deflation window is ns or 3ns/2; accumulate modes are 0..2; no panic.", "quantifier": "every ispec, name, ilo, ihi", "why_tests_cant": "Step function over all integers; names of every length.", "anchors": ["src/iparmq.rs: iparmq"]}
{"id": "C35", "title": "ilaenv returns sane tuning parameters and depends only on the routine name ignoring case", "statement": "For a valid routine name the result for ispec 1..3 is nonnegative and the same for the all-lower-case and all-upper-case spelling; unknown ispec gives -1; no panic.", "quantifier": "every ispec, every name, every n1..n4", "why_tests_cant": "All strings; string slicing panics depend on the length.", "anchors": ["src/ilaenv.rs: ilaenv"]}
{"id": "C36", "title": "dlahqr terminates", "statement": "dlahqr returns on every input, after at most 30*max(10,nh) sweeps per eigenvalue, either with info=0 or with info=i>0 naming the eigenvalue that failed.", "quantifier": "every matrix, every ilo<=ihi, every number type", "why_tests_cant": "Termination for all inputs of a loop whose exit depends on floating-point deflation tests.", "anchors": ["src/dlahqr.rs: dlahqr"]}
{"id": "C37", "title": "dlahqr quick returns", "statement": "n=0 changes nothing and sets info=0; ilo=ihi stores (H(ilo,ilo),0) as the eigenvalue and changes nothing else.", "quantifier": "every matrix and index", "why_tests_cant": "All matrices and all ilo.", "anchors": ["src/dlahqr.rs: dlahqr"]}
{"id": "C38", "title": "dlahqr keeps array shapes, and touches Z only when asked", "statement": "The shapes of H, wr, wi, Z are unchanged; Z is bit-for-bit unchanged when wantz=false; wr/wi entries outside ilo..ihi are unchanged.", "quantifier": "every input on which it returns", "why_tests_cant": "Frame conditions over unboundedly many iterations.", "anchors": ["src/dlahqr.rs: dlahqr"]}
{"id": "C39", "title": "dlahqr computes the eigenvalues and Schur form", "statement": "On info=0 the returned wr/wi are the eigenvalues of H; with wantt the returned H is quasi-triangular and orthogonally similar to the input through the accumulated Z; wantt=false returns the same eigenvalues.", "quantifier": "every upper Hessenberg matrix", "why_tests_cant": "Similarity invariants over unboundedly many iterations.", "anchors": ["src/dlahqr.rs: dlahqr"]}
{"id": "C40", "title": "dlaqr5 quick returns and validation", "statement": "dlaqr5 with nshfts<2 or ktop>=kbot changes nothing; otherwise every argument keeps its shape.", "quantifier": "every argument tuple", "why_tests_cant": "All arguments; shape preservation over all sizes.", "anchors": ["src/dlaqr5.rs: dlaqr5"]}
{"id": "C41", "title": "dlaqr5 uses every supplied shift", "statement": "The pairing pass only permutes the shift list (sr,si): the multiset of shifts used is the multiset supplied, conjugate pairs adjacent.", "quantifier": "every nshfts and shift vectors", "why_tests_cant": "Permutation property for all lengths and values.", "anchors": ["src/dlaqr5.rs: dlaqr5 (lines 71-83)"]}
{"id": "C42", "title": "dlaqr5 performs an orthogonal similarity of the active block", "statement": "The sweep transforms H by an orthogonal similarity accumulated in Z (wantz), preserving trace and eigenvalues, for every leading dimension of H and Z.", "quantifier": "every Hessenberg matrix, shifts, kacc22 mode and leading dimensions", "why_tests_cant": "Invariant of bulge chasing over all sizes.", "anchors": ["src/dlaqr5.rs: dlaqr5"]}
{"id": "C43", "title": "dgemm in f64: rounding error bound and no spurious overflow", "statement": "Every finite entry dgemm returns differs from the exact alpha*(op(A)op(B))(i,j)+beta*C(i,j) by at most gamma_{k+3} times the sum of the magnitudes of its terms plus an explicit underflow term; when no operand exceeds 2^300 in magnitude and k <= 2^52 every entry is finite.", "quantifier": "every container, transposition, size, leading dimension and f64 data (subnormals included)", "why_tests_cant": "A rounding error bound over all f64 matrices of every size; tests compare a few rounded numbers.", "anchors": ["src/blas/dgemm.rs: dgemm"]}
{"id": "C44", "title": "dtrmm in f64: rounding error bound", "statement": "Every finite entry dtrmm returns differs from the exact alpha*op(A)*B (or alpha*B*op(A)) by at most gamma_{K+1} times the sum of the magnitudes of its terms plus an explicit underflow term, K the order of A.", "quantifier": "all 16 side/uplo/trans/diag combinations, sizes, FortranArray arguments and f64 data", "why_tests_cant": "Holds for all f64 data and sizes and all variants of the triangular loops.", "anchors": ["src/blas/dtrmm.rs: dtrmm"]}
{"id": "C45", "title": "dscal and drot in f64: rounding error bounds", "statement": "Each scaled element is within u|ax|+eta of a*x; each rotated element is within gamma_2(|cx|+|sy|)+2(1+u)eta of its exact value.", "quantifier": "every container, n, increments and f64 data", "why_tests_cant": "All f64 values, including subnormal products.", "anchors": ["src/blas/dscal.rs: dscal", "src/blas/drot.rs: drot"]}
{"id": "C46", "title": "dlapy2 in f64: four units of roundoff and no spurious overflow", "statement": "For finite x and y, a finite result is within 4u*h+eta of h=sqrt(x^2+y^2), and the result is finite whenever (1+4u)h does not exceed f64::MAX.", "quantifier": "every pair of finite f64", "why_tests_cant": "2^128 pairs, including those whose squares overflow or underflow.", "anchors": ["src/dlapy2.rs: dlapy2"]}
{"id": "C47", "title": "dnrm2 in f64: accuracy of the computed norm", "statement": "For finite elements and 1<=n<2^31 a finite result is within gamma_(n+12)*N + sqrt(n)*2^-1055 of N=sqrt(sum x_i^2); the result is finite when N and the sum of the squares of the elements up to 2^505 do not exceed 2^1022. (An accurate norm would be finite and nonzero whenever N is: false of this code, whose scaling constants use f64::DIGITS for the number of significand bits.)", "quantifier": "every container, increment, length below 2^31 and vector of finite f64", "why_tests_cant": "All vectors, including mixtures of huge, ordinary and subnormal elements, and lengths beyond what a test runs.", "anchors": ["src/blas/dnrm2.rs: dnrm2"]}
{"id": "C48", "title": "dlahqr: the Schur factorisation behind a returned result, and its backward error", "statement": "Over exact reals, whenever dlahqr with wantt=true and ldh equal to the row count returns for an upper Hessenberg block H0 with ||H0||_F<=N<=2^500, there are an orthogonal Q and a matrix E with trace 0 and ||E||_F<=2*nh*(30*max(nh,10)+1)*(3*2^-52*N+nh*2^-970) such that T=Q^T*(H0-E)*Q is upper Hessenberg and quasi triangular from the first converged row on, (wr,wi) are read off its diagonal blocks, the returned H agrees with T on and below the diagonal and inside unsplit blocks, and the returned Z is Z0*Q. Every reported (wr[k],wi[k]) is an eigenvalue of H0-E unless it comes from a block with b*c<0 whose diagonal entries differ by less than 2^-52 (there it can be wrong); with info=0 the wr sum to the trace of H0.", "quantifier": "every container, order n, block ilo<ihi, real Hessenberg matrix, start matrix Z0, number of iterations, fuel and info", "why_tests_cant": "All matrices of all orders and every number of sweeps, splittings and deflations; existence of Q and E is not observable from one run.", "anchors": ["src/dlahqr.rs: dlahqr", "src/dlanv2.rs: dlanv2", "src/dlarfg.rs: dlarfg"]}
{"id": "C49", "title": "ilaenv and iparmq: i32 overflow", "statement": "With 1<=ilo and 0<=ihi iparmq never overflows; ilaenv gives the result of unbounded arithmetic for every order below 2^27, and for every order except for the block size of xTRSYL. (That no order makes ilaenv overflow is false: for xTRSYL the product 16*min(n1,n2) (8* for complex) overflows from 2^27 (2^28) on, which panics in debug builds and gives the minimum block size 48 instead of 240 at 2^27 in release builds.)", "quantifier": "every ispec, name, option string and i32 dimensions, both build profiles", "why_tests_cant": "2^128 dimension combinations and unboundedly many names; the failing orders are far beyond what a test uses.", "anchors": ["src/ilaenv.rs: ilaenv", "src/iparmq.rs: iparmq"]}
{"id": "C50", "title": "dlarfg in f64: accuracy of the computed Householder reflector", "statement": "For finite alpha and x with a finite nonzero computed dnrm2(x) and h=sqrt(alpha^2+|x|^2)<=2^1020, dlarfg returns finite beta, tau and v with |beta-beta*|<=gamma_(n+18)*h+2^-1075, |tau-tau*|<=gamma_(3n+53)*tau*, |v_i-v*_i|<=gamma_(2n+38)*|v*_i|+2^-1075, where beta*, tau*, v* are the exact values; the stored reflector I-tau*(1,v)(1,v)^T changes no squared length by more than 5*gamma_(7n+130) relatively and maps (alpha,x) to (beta*,0) up to the same kind of error. Subnormal data, which take the rescaling loop, are included. (Outside those conditions it fails: tiny x are taken for zero, and alpha-beta can overflow, giving v=0 and tau=inf.)", "quantifier": "every flat container, increment >=1, length 2<=n<2^31 and finite f64 data", "why_tests_cant": "A test samples vectors of a few lengths; the bound covers all of them, including the rescaling path for subnormal data and mixed magnitudes.", "anchors": ["src/dlarfg.rs: dlarfg"]}
{"id": "C51", "title": "dlaqr5 handles a collapsed bulge by an orthogonal similarity", "statement": "When the subdiagonal of H contains a zero the bulge collapses; the sweep then starts a new bulge from the reflector dlarfg computes for the shift column, so the returned H is still orthogonally similar to the input and the returned Z is still orthogonal. (It fails: the reflector is stored in an array of length 1, the insertion of tau is ignored, the second component is used as tau and the other two are read out of range; the sweep rescales a row and a column of H and Z.)", "quantifier": "every Hessenberg matrix with zeros on the subdiagonal, one pair of shifts, kacc22 0 and 1", "why_tests_cant": "The branch is reached only by matrices that split exactly; generic random tests never enter it.", "anchors": ["src/dlaqr5.rs: dlaqr5 (266-293)", "src/array/mod.rs: insert"]}
{"id": "C52", "title": "dlaqr1 in f64: accuracy of the computed first column", "statement": "In f64, for n = 2 or 3 and finite entries and shifts of magnitude at most m <= 2^1000, the vector dlaqr1 returns consists of finite numbers and, times one positive number within a few roundings of |h11-sr2|+|si2|+|h21|(+|h31|), each entry differs from the exact entry of the first column of (H-s1 I)(H-s2 I) by at most seven roundings of the magnitude of its terms plus an underflow term; nothing else of v changes.", "quantifier": "every H, every pair of shifts and every v within the magnitude bound, every container", "why_tests_cant": "A worst-case rounding bound over all floating-point inputs, including cancellation, subnormal and near-overflow data; any test samples finitely many.", "anchors": ["src/dlaqr1.rs: dlaqr1"]}
{"id": "C53", "title": "dlanv2 in f64 is backward stable", "statement": "For finite a,b,c,d of magnitude at most M<=2^400 with b=0, c=0 or max(|b|,|c|)>=2^-969, all ten outputs of dlanv2 are finite and there is an exact rotation (C,S) such that the returned 2x2 matrix differs entrywise by at most 2^-43*M from the matrix exactly similar to the input by that rotation, with |cs-C|,|sn-S|<=2^-46 (so |cs^2+sn^2-1|<=2^-44). If moreover a=d, |a-d|>=2^-52 or b*c>=0, the returned matrix is exactly in standard form (c=0, or equal diagonal and b*c<0), and the reported eigenvalue pair is the exact eigenvalue pair of a real matrix within 2^-42*M of the input entrywise. (The range restrictions matter: with subnormal entries cs^2+sn^2 can exceed 1.12, and the early exit for |a-d|<2^-52 is C31.)", "quantifier": "every four finite f64 numbers in that range, every libm meeting the contract, every branch (early returns, real eigenvalues, complex pair, the second rotation for real eigenvalues found late)", "why_tests_cant": "A worst-case rounding bound over all floating-point inputs and all branch combinations, including cancellation in p^2+bc and in b+c; tests sample finitely many matrices.", "anchors": ["src/dlanv2.rs: dlanv2", "src/dlapy2.rs: dlapy2"]}
{"id": "C54", "title": "dlahqr on 2x2 matrices in f64 is backward stable", "statement": "Let H=((a,b),(c,d)) have finite f64 entries of magnitude at most M<=2^400 with |c|>2^-969 and |c|>2^-51(|a|+|d|) (the subdiagonal entry is not negligible), and a=d, |a-d|>=2^-52 or bc>=0. Then dlahqr on H (n=2, ilo=1, ihi=2, any wantt and wantz) returns info=0; the returned T is exactly in standard Schur form and within 2^-43*M entrywise of R^T H R for an exact rotation R; WR and WI hold the exact eigenvalues of a matrix within 2^-42*M of H entrywise; with wantz, rows iloz..ihiz of Z are replaced by Z R up to 2^-44*K entrywise, where K in [2^-969,2^400] bounds their entries (the same R); without wantz Z is unchanged.", "quantifier": "every such H, every Z with any number of rows, every container type, every wantt, wantz, iloz, ihiz and every libm meeting the contract", "why_tests_cant": "A worst-case rounding bound over all floating-point matrices that ties T, the eigenvalues and Z to one exact rotation, which no test can observe.", "anchors": ["src/dlahqr.rs: dlahqr", "src/dlanv2.rs: dlanv2", "src/blas/drot.rs: drot"]}
{"id": "C55", "title": "dlahqr in f64 computes the real Schur form of a nearby matrix", "statement": "Let the active block of H (rows and columns ilo..=ihi, of order nh<=850) be upper Hessenberg with finite f64 entries (the entries two and three below the diagonal may hold anything) and Frobenius norm at most N, 2^-900<=N<=2^398, and, with wantz, let rows iloz..=ihiz of Z have norm at most K in the same range. Whenever dlahqr with wantt=true returns, then either a diagonal entry of the returned block is NaN, or there are one exactly orthogonal Q and one E with ||E||_F <= steps(nh)*2^-39*sqrt(nh)*N (steps(nh)=nh((30max(nh,10)+1)nh+1)) such that T=Q^T(H-E)Q is upper Hessenberg and quasi-triangular from the first converged row on, the returned H equals T on and below the diagonal and inside its blocks, WR/WI hold the diagonal of T and plus/minus sqrt(-bc) correctly up to 4 roundings, each row of the returned Z is within steps(nh)*2^-41*K of the row of Z*Q, everything else of Z is untouched, and all converged (WR,WI) are exact eigenvalues of one matrix H-E' with ||E'||_F only slightly larger, except in a complex block whose diagonal entries differ by less than 2^-52. The NaN outcome really occurs for finite input far from overflow.", "quantifier": "every order up to 850, every Hessenberg block with finite entries in that range, every container, every iloz, ihiz, wantz, every number of iterations (info zero or not), every libm meeting the contract", "why_tests_cant": "A rounding-error bound over unboundedly many float matrices and the whole iteration, tying H, WR, WI and Z to one exact orthogonal Q that no test can observe; the NaN case needs a graded matrix with entries spread over 1000 binary orders of magnitude.", "anchors": ["src/dlahqr.rs: dlahqr", "src/dlarfg.rs: dlarfg", "src/dlanv2.rs: dlanv2", "src/blas/drot.rs: drot"]}
{"id": "C56", "title": "dlahqr ignores what lies below the subdiagonal", "statement": "The interface of dlahqr asks for an upper Hessenberg block in rows and columns ilo..=ihi, so with wantt=true two calls whose H agree on and above the subdiagonal of that block (and outside it) must return the same WR, WI, Z and info. For any number type this holds as far as the entries two, three and five or more below the diagonal are concerned, hence completely for blocks of order up to 4, and the returned H agree too except five or more below the diagonal. It fails for the fourth subdiagonal: the right-hand update runs to row min(i,k+4) instead of min(i,k+3), so changing only entry (5,1) of a 5-by-5 matrix from 0 to 8 turns five real eigenvalues into a complex pair, info being 0 both times.", "quantifier": "every number type, every order, ilo, ihi, iloz, ihiz, wantz, every container, every iteration count; the counterexample for every libm meeting the contract", "why_tests_cant": "A relation between two whole runs for all orders and all garbage values; tests pass clean Hessenberg matrices and never look at what else influences the result.", "anchors": ["src/dlahqr.rs: dlahqr"]}
{"id": "C57", "title": "Strided vectors work up to i32::MAX", "statement": "A call of dcopy, drot, dnrm2 or dscal (n, incx, incy are i32) whose vectors end at a position that is representable in i32 uses exactly the positions 1, 1+incx, .. (BLAS order for negative increments), in release and in debug builds. For dcopy, drot and dnrm2 this holds in release builds; in debug builds it holds if and only if also the position after the last one is representable, otherwise the unused last increment panics (already for one element with incx=i32::MAX). For dscal it fails in release builds too: with n=1 and incx=i32::MAX the counter wraps around and every even position is scaled as well, and with n=2 and incx=2^30 n*incx wraps and nothing is scaled. Beyond that range dcopy comes round to the beginning of the vector.", "quantifier": "every number type, every n>=1, every pair of i32 increments, every array contents and length", "why_tests_cant": "The failing calls need increments near 2^31 (or vectors of gigabytes), one of them runs 2^31 loop rounds, and the correctness half quantifies over all n and increments up to the i32 limits.", "anchors": ["src/blas/dcopy.rs: dcopy", "src/blas/drot.rs: drot", "src/blas/dnrm2.rs: dnrm2", "src/blas/dscal.rs: dscal"]}
{"id": "C58", "title": "NaN operands are not lost in matrix products", "statement": "In f64, a NaN in row i of op(A) or column j of op(B) (with alpha not zero), or in C(i,j) (with beta not zero), makes entry (i,j) of the result of dgemm NaN; likewise a NaN in the referenced triangle of A or in B makes every entry of dtrmm's result that depends on it NaN. For dtrmm this holds for all terms it does not skip: NaN in B for side 'L', NaN in A for side 'R' or transposed A. It fails where a term is skipped because the other factor is zero (NaN in A with side 'L' untransposed, NaN in B with side 'R'), so dtrmm returns finite numbers where dgemm returns NaN for the same product.", "quantifier": "all sizes, all options, every alpha, beta, every container for A and B in dgemm, all contents (NaN, infinities, anything)", "why_tests_cant": "Quantifies over every position of the NaN, every size and every value of all the other operands including infinities; tests use finite matrices.", "anchors": ["src/blas/dgemm.rs: dgemm", "src/blas/dtrmm.rs: dtrmm"]}
{"id": "C59", "title": "dlaqr5 in f64 is a backward stable QR sweep", "statement": "In f64, dlaqr5 with one pair of shifts and without accumulation returns, for every block whose subdiagonal entries are not tiny relative to the norm, an H that is finite, upper Hessenberg and equal to Q^T*(H-E)*Q for an exactly orthogonal Q acting on the active block only, with ||E|| at most 2*(kbot-ktop)*2^-39*sqrt(order)*N, N bounding the norm of H and the shifts; the first column of Q is a multiple of the first column of (H-s1)(H-s2) within 2^-36*N^2; the spectrum and the trace of the result are those of H-E; entries outside the updated range are bit for bit unchanged.", "quantifier": "all n up to 2^25, all blocks ktop<kbot, wantt and wantz either way, every kacc22 other than 1 and 2, every container, every finite H with N between 2^-890 and 2^397, every pair of shifts bounded by N (conjugate or not), subdiagonals of the block at least 20*N*rr with rr^(kbot-ktop) and N*rr^(kbot-ktop) at least 2^-900, every libm meeting the contract", "why_tests_cant": "A backward error bound with an existentially quantified orthogonal matrix, over every binary64 matrix and every size; a test can only compare residuals of single runs.", "anchors": ["src/dlaqr5.rs: dlaqr5", "src/dlaqr1.rs: dlaqr1", "src/dlarfg.rs: dlarfg"]}
{"id": "C60", "title": "dlahqr's results for the active block depend on the block alone", "statement": "If dlahqr (wantt = true) returns on rows and columns ilo+d..ihi+d of one matrix, it returns on rows and columns ilo..ihi of every other matrix that holds the same block there, with bit-for-bit the same eigenvalues WR and WI, the same transformed block and the same info up to the offset d: the order of the matrix, the position of the block, the leading dimension, everything outside the block (even NaN), the containers and whether Z is accumulated do not matter.", "quantifier": "every number type (in particular f64 with any libm), every pair of matrices and containers, every n, n', ilo < ihi, offset d, leading dimensions, every fuel, wantz either way for the first call", "why_tests_cant": "A relation between two runs over every embedding of a block; a test fixes one embedding.", "anchors": ["src/dlahqr.rs: dlahqr"]}
{"id": "C61", "title": "dlahqr does not lose a NaN", "statement": "In f64, if the active block passed to dlahqr (wantt = true) holds a NaN on or above its subdiagonal, the block a returning call leaves holds one too; if the NaN is on the diagonal, one of the reported eigenvalues is NaN, or info > 0 and the NaN is on the diagonal of the unfinished part. A matrix containing NaN is never silently returned as an ordinary Schur form.", "quantifier": "every libm meeting the contract, every n, ilo < ihi, every H (infinities and several NaN included), containers, leading dimension, wantz either way, every fuel for which the call returns", "why_tests_cant": "f64::max and f64::min ignore NaN and every comparison with NaN is false, so the paths taken on NaN input are the ones no numerical test visits; the claim is over every position of the NaN and every other entry.", "anchors": ["src/dlahqr.rs: dlahqr", "src/dlanv2.rs: dlanv2", "src/dlarfg.rs: dlarfg"]}
{"id": "C62", "title": "dlaqr5's sweep depends on the active block alone", "statement": "With one pair of shifts and no accumulation (kacc22 not 1 or 2), the block ktop..kbot that dlaqr5 leaves in H is determined bit for bit by n, the two shifts and the block given (entries at most three below the diagonal): not by the rest of H, its leading dimension or container, the position of the block, Z or the workspaces, nor by wantt and wantz. In particular asking for the full Schur form or for Z never changes the sweep of the block.", "quantifier": "every number type (f64 with any libm included, NaN and infinities included), every n, ktop < kbot, shift of position, pair of matrices, containers, leading dimensions, workspaces and flags", "why_tests_cant": "A test compares finitely many pairs of calls; a read outside the block, or a loop bound that depends on wantt, shows only for particular entries (the neighbouring entries are added only when two diagonal entries are both zero).", "anchors": ["src/dlaqr5.rs: dlaqr5", "src/dlaqr1.rs: dlaqr1", "src/dlarfg.rs: dlarfg"]}
{"id": "C63", "title": "dlahqr: each QR iteration uses the documented shifts and starts where it may", "statement": "In exact arithmetic one QR iteration of dlahqr on the active rows of a real Hessenberg matrix (1) splits at the lowest row whose subdiagonal entry passes the Ahues-Tisseur negligibility test, and stops exactly when that isolates one or two eigenvalues; (2) otherwise takes as shifts the eigenvalues of the last 2-by-2 block: the conjugate pair, or twice the real eigenvalue nearest to the last diagonal entry; every tenth iteration since the last deflation the exceptional shifts x + s(3 +- i sqrt 7)/4 instead, taken at the top (odd multiples of ten) or at the bottom (multiples of twenty) of the block; (3) starts the sweep at the lowest row where two consecutive small subdiagonal entries permit it, else at the top of the block, with the first column of (H - s1 I)(H - s2 I) there scaled to 1-norm 1.", "quantifier": "all real matrices, all blocks ilo..ihi and active rows l..i within them, all iteration counts, wantt and wantz either way", "why_tests_cant": "Any shifts give an orthogonal similarity, so a wrong shift, start row or negligibility test still passes every test that checks eigenvalues of matrices on which the iteration happens to converge.", "anchors": ["src/dlahqr.rs:105-235"]}
{"id": "C64", "title": "FortranArray::insert shifts the tail and keeps the array well formed", "statement": "insert(k, v) puts v at index k, moves the element at k and all later ones one place on, leaves the earlier ones, and afterwards the array is still well formed (its length equals the number of stored elements) for every k in 1..=len; indices outside are ignored. as_2d(r) reinterprets the storage in columns of r entries without moving data, and idx(i,j) is the column-major position. (Of the code: index len is ignored too, and the declared shape is not updated, so every effective insertion leaves one element that the length does not count.)", "quantifier": "all arrays (well formed or not), all indices, all values, all row counts", "why_tests_cant": "Off-by-one at the last index and the stale length show only on the combinations of shape, index and later access that a test happens to choose.", "anchors": ["src/array/mod.rs:64-91"]}
{"id": "C65", "title": "dlaqr5 never loses a NaN", "statement": "In f64 and without accumulation (kacc22 not 1 or 2), whatever the number of shifts: every NaN of H on or above the subdiagonal and every NaN stored in Z is still NaN at the same place when dlaqr5 returns. No reflector application, no store of a generated subdiagonal entry and no vigilant deflation test turns a NaN into a number.", "quantifier": "every H, Z, shifts and workspace with 1 <= ktop < kbot <= n <= leading dimension and nshfts >= 2, every container type, every libm", "why_tests_cant": "The number of places where a NaN can sit, of bulge positions and of shift pairs is unbounded, and a NaN swallowed by one comparison (for instance a deflation test written with the opposite inequality) shows only for particular positions and iteration states.", "anchors": ["src/dlaqr5.rs:91-388", "src/dlarfg.rs"]}
{"id": "C66", "title": "dgemm and dtrmm may be computed by panels", "statement": "Entry (i,j) of dgemm's result depends on row i of op(A), column j of op(B), the old entry (i,j), alpha and beta alone, so computing the product by panels of rows and columns, from other containers or leading dimensions, or with B stored transposed and transb switched gives the same bits. When A is not transposed the inner dimension may be split as well: a second call with beta = 1 on the remaining columns of A and rows of B leaves the very array the single call leaves (with A transposed it does not). dtrmm acts on each column of B by itself from the left and on each row by itself from the right.", "quantifier": "every number type (f64 with NaN and infinities included), all sizes and splittings, all transpose options and containers", "why_tests_cant": "Bit-for-bit equality under every splitting of every size cannot be sampled: a blocked or unrolled inner loop differs from the plain one only for particular operands and sizes.", "anchors": ["src/blas/dgemm.rs", "src/blas/dtrmm.rs"]}
{"id": "C67", "title": "dlanv2 leaves its own results alone", "statement": "In f64, dlanv2 applied to a 2-by-2 block it has produced returns the same block and the same eigenvalues bit for bit, with the identity rotation (cs = 1, sn = 0), whenever the diagonal is finite or the block is upper triangular. For every input whose off-diagonal results are finite the block returned is upper triangular, or has nonzero off-diagonal entries of opposite signs and diagonal entries that are equal or closer than f64::EPSILON.", "quantifier": "all f64 inputs (NaN, infinities, subnormals included), every libm", "why_tests_cant": "The claim is about bit-for-bit equality for all 2^256 inputs through five different branches, some of which are reached only through rounding.", "anchors": ["src/dlanv2.rs:16-158"]}
{"id": "C68", "title": "The Householder vector does not depend on the sign of the input", "statement": "In f64, dnrm2 and dlapy2 do not see the signs of their arguments: vectors whose strided elements agree in absolute value have bit-for-bit the same norm. dlarfg applied to (-alpha, -x) returns -beta and, bit for bit, the same tau and the same Householder vector as for (alpha, x), the rescaling loop for tiny inputs included, whenever tau is neither 0 nor NaN.", "quantifier": "all f64 inputs, all n, all increments (dlarfg: incx >= 1, Vec), every libm", "why_tests_cant": "Bit-for-bit equality for all vectors of all lengths; negating the input flips signs at every rounding step, and the rescaling loop runs up to 21 times.", "anchors": ["src/dlarfg.rs:33-76", "src/blas/dnrm2.rs:27-88", "src/dlapy2.rs:13-25"]}
