# Lacuna: formal model and proofs in Rocq (Coq 8.16.1)

The subject is `Hanziwww/Lacuna`, a sparse-matrix library: Rust kernels
(`crates/lacuna-core`, `crates/lacuna-kernels`) behind a thin PyO3 layer
(`crates/lacuna-py`) and Python classes (`python/lacuna`).
`properties.jsonl` lists what users rely on (C01...). This file says how each
property is modelled and proved; `MANIFEST.json` maps properties to theorems.

## 1. How the code is modelled

* **Panics, undefined behaviour, non-termination are values.** Kernels return
  `res A := Ok a | Panic | UB | Diverge`. An `assert!`/`expect`/slice-index
  failure is `Panic`; an out-of-range `get_unchecked`/raw-pointer access, or
  using an output slot that no task wrote, is `UB`; running out of fuel
  (only the probing loop of the hash map needs fuel) is `Diverge`. Every
  functional theorem states that the result is `Ok`, so memory safety and
  termination are part of it.
* **Arrays** are lists. A pointer loop over the half-open range `[s,e)` of an
  index/data array is structural recursion over the list of that slice; taking
  the slice checks the bounds. Output written through raw pointers is a list of
  `(slot, value)` writes that are performed one by one on an array of
  `option` slots, with a bounds check for each write. The code allocates these
  arrays zeroed; except for the tiled transpose, which is modelled with the zeroes
  (`assemble_zeroed`), the model is stricter (a slot left unwritten is an error) and
  `CsLib.assemble_zeroed_agrees` shows that whenever the strict model succeeds
  the zeroed one gives the same array.
* **Parallelism is a universally quantified schedule.** Disjoint writes: any
  permutation of the single-slot writes. Atomic `fetch_add`: any interleaving of
  the per-row (per-column) step sequences. `par_iter().sum()/reduce`: any
  binary reduction tree with identities inserted anywhere. `ThreadLocal`
  accumulators: any distribution of tasks over threads, any order inside a
  thread, any merge order.
* **f64** is a record `Fl` of operations. Kernels are written once over it and
  instantiated with (a) IEEE-754 binary64 from the standard library's
  executable `SpecFloat` (round to nearest even, signed zeros, infinities, one
  NaN), with `powf` an arbitrary function, and (b) exact rationals `Qc`.
  Statements about float sums use the inductive specification `FSum l v`: "v
  results from adding the terms of l, each exactly once, in some order and
  association (extra zeros allowed)". In exact arithmetic `FSum l v` implies
  `v = sum l`.
* **Integers.** Stored i64 indices and N-D dimensions/linear keys are `Z`;
  overflow checks and the wrapping hash multiplication are explicit (2^64).
  2-D dimensions, lengths and loop counters are `nat`; arithmetic on them does
  not overflow because they are bounded by allocated array lengths.
* **SIMD.** `wide::f64x4` lanes are modelled as four separate values.

No axioms are declared. No functors or module types.

## 2. Trusted base

* Coq's kernel (and `coqchk`).
* `Print Assumptions` beneath every property theorem in `Prop*.v` prints
  "Closed under the global context": no axiom is used anywhere. (`coqchk` also
  lists seven `Coq.ssr.ssrunder.*` entries; they belong to the standard library
  module that is loaded for the tactic language and no theorem depends on them.)
* The transcription from Rust and Python to Gallina. Every definition in the
  `M*.v` files and `Mem.v` cites the file and lines it models; simplifications are
  stated in the comments.
* rayon, thread_local, `sort_unstable*` (modelled as any function returning a
  sorted permutation), `HashMap` iteration (any order), LLVM, IEEE hardware, and
  for the Python layer NumPy's indexing, `reshape`, `transpose`, `bincount`,
  `searchsorted` (any function meeting its contract) and `add.at`.

### Modelled

| code | model |
|------|-------|
| `lacuna-core/src/{csr,csc,coo,nd}.rs` | `MCore.v` |
| `lacuna-kernels/src/elementwise/*.rs` (all kernels, all formats) | `MElementwise.v`, `MScalar.v`, `MNd.v`, `MNd2.v` |
| `lacuna-kernels/src/linalg/{matmul,matrix_transpose,tensordot,vecdot}.rs` | `MLinalg.v`, `MConvert.v`, `MNd.v`, `MNd2.v` |
| `lacuna-kernels/src/manipulation/{reshape,permute_dims,diff}.rs` | `MNd.v`, `MCum.v` |
| `lacuna-kernels/src/statistical/*.rs` | `MReduce.v`, `MStat.v`, `MNd.v`, `MCum.v` |
| `lacuna-kernels/src/data_type_functions/astype.rs` | `MConvert.v`, `MNd.v` |
| `lacuna-kernels/src/utility/{util,prune,eliminate_zeros}.rs` | `MHash.v`, `MAcc.v`, `MScalar.v` |
| `lacuna-py/src/array_api/creation.rs`, the conversions inside the cumulative functions of `array_api/reduce.rs` | `MPy.v`, `MCum.v` |
| `python/lacuna/sparse/*.py`: constructors, `__getitem__`, `toarray`, scalar operators, `zeros/eye/diag`, CSC `.T` | `MPy.v` |
| `python/lacuna/array_api`: comparisons, axis normalisation, 2-D and N-D reduction dispatch, `count_nonzero`, `matmul`, creation | `MPy.v` |
| release of the interpreter lock during kernels (`py.detach`), which operands are copied and which borrowed (`lacuna-py/src/types/*.rs`, `array_api/linalg.rs`) | `MThreads.v` |
| the methods of `python/lacuna/sparse/*.py` and the functions of `array_api` with their dispatch, the choice between handle and arrays, `.data[k] = v`, sequences of calls (`lacuna-py/src/types/*.rs`, `array_api/*.rs` glue) | `MObj.v` |
| the functions of `array_api/*` (`_dispatch`, `linalg`, `creation`, `dtypes`, `_namespace` fallbacks) as dispatch on argument classes, `_runtime.py` | `MApi.v` |
| the functions of `lacuna-py/src/array_api/{elementwise,linalg,reduce,manipulation,utility}.rs` that take arrays | `MNative.v` |
| `lacuna-py/src/array_api/{dtypes,devices}.rs` | `MDtype.v` |

### Not modelled

* `lacuna-core/src/{array,device,broadcast,dtype}.rs`, `lacuna-io` (empty stubs).
* The argument marshalling of `lacuna-py` (PyO3 conversions, buffer copies,
  releasing the GIL) apart from the rows above.
* Python: `repr`, pass-through of dense operands to NumPy,
  pickling, races between native calls of one Python method and writes of another
  thread (C81 takes operands to be read when the call begins). `set_num_threads` only sets an
  environment variable and has no effect on an already started pool.
* Timing, memory consumption and allocation failure. The models use `nat` for
  lengths of arrays that exist in memory.
* NaN payloads and signs (one NaN), and the rounding of `powf` (an arbitrary
  function).

### Hypotheses that recur in theorems

* `cs_ok` / `canonical` / `coo_ok` / `nd_ok`: the input arrays are structurally valid
  / what the checked constructor accepts (`C01`, `C02` prove this equivalence).
* `alloc_ok n`: the length n of an array (or the dimension of a dense result)
  is below 2^63 - 1. Rust allocations never exceed 2^63 - 1 bytes, so every
  array of 8-byte elements meets it.
* `shape_fits`, `unfold_fits`, `dense_ok`: element counts fit the machine word; the
  findings say what happens otherwise.
* `is_schedule`, `is_interleaving`, `is_distribution`, `is_sorter`, `is_searchsorted`: the
  contracts of the parallel runtime, the sorting functions and NumPy.
* `NLaws F`: the few laws of the arithmetic that kernels rely on; proved for IEEE doubles
  (`f64_laws`) and for exact rationals (`qc_laws`), so the theorems are about both.
  `ELaws F` (exact arithmetic) is proved for rationals only.

## 3. Plan per property

| id | modelled | proof idea |
|----|----------|-----------|
| C01-C03 | `from_parts` of Csr, Csc, Coo, CooNd over raw `Z` arrays | reflection of each check into the independent predicate |
| C04 | `csr_to_csc`, `csc_to_csr` as interleaved reserve/write steps | invariant: counter of column j = start + number of reserved entries of j; slots distinct |
| C05 | same | false in general: `_refuted` with a two-row interleaving; proved for the in-order schedule |
| C06 | `csr_to_coo`, `csc_to_coo` | disjoint writes assembly lemma |
| C07 | `coo_to_csr/csc`, sort = any sorted permutation | induction over runs of equal keys |
| C08 | compositions | uniqueness of canonical representation |
| C09, C10 | both strategies of both transposes, COO transpose | tile histograms = stable counting sort; atomic strategy + sort; uniqueness of canonical form gives involution |
| C11, C12 | two-pass merge kernels | merge invariant; float laws of 0.0 + x; count = fill |
| C13, C14 | intersection kernels (generic in the scalar operation) | same |
| C15 | count/fill passes on arbitrary rows, scatter of the output | generic assembly lemma, any write order |
| C16 | scalar maps with SIMD + remainder + chunks | `chunked map = map` |
| C17, C18 | prune/eliminate_zeros | filter; C18 false for NaN: `_refuted`, proved without NaN |
| C19 | `UsizeF64Map` | open-addressing invariant, pigeonhole for termination |
| C20 | strides, linearise, de-linearise with checked arithmetic | induction over the shape |
| C21-C26, C29 | N-D kernels | linearisation bijection + hash map |
| C27, C28, C30-C32 | spmv, spmm, tensordot, vecdot | `FSum` invariants, schedules |
| C33-C35 | sums, means | `FSum`, reduction trees |
| C36-C39 | min/max, prod, var, all/any | order/field laws; implicit zero counting |
| C40, C41 | cumulative, diff | induction over columns / order n |
| C42, C43 | range builder, thread-local accumulators | induction; multiset of contributions |
| C44-C46, C49 | Python `__getitem__`, `toarray`, `count_nonzero`, `zeros/eye/diag`, batched `matmul` | direct; C45 false with explicit zeros |
| C47 | COO/COOND reductions with duplicates | false: `_refuted` |
| C48 | algebraic laws of the kernels, and of the calls on any reachable matrices (`PropLaws3.v`) | from cell characterisations + uniqueness; the calls from C60 |
| C50, C51 | determinism, closure | corollaries |
| C52 | Python constructors | CSR proved; CSC/COO/COOND swallow errors: `_refuted` |
| C53 | scalar operators of the Python classes | from C16; A/alpha multiplies by the rounded reciprocal: `_refuted` for doubles, exact for rationals |
| C54 | comparison functions on densified operands | from C44 |
| C55, C56 | axis normalisation and dispatch of the reductions | induction over the axis tuple; naming all axes: `_refuted` |
| C57 | programs as histories of calls over a heap of objects (MObj.v) | every result is built by a constructor; induction over the history |
| C58 | the same histories, any environment per call | `safe` (no UB, no divergence) for every kernel (PSafe*.v), invariant on the heap (SpecObj.v `intact`), induction over the history |
| C59 | the same histories beside a dense machine (SpecDense.v) that keeps plain matrices and N-D arrays (functions on coordinates) | `held` relates an object to a dense value; each call preserves it, by the per-operation theorems (PDense*.v); induction over the history |
| C60 | one call on an object of a state `reached` by any history (SpecCall.v) | C61 gives sortedness and agreement with the handle; then the theorem of the kernel (PCall3.v) |
| C61 | the same histories as in C58, from arrays without unsorted or repeated entries | invariant `regular` for every call (PCall.v, PCall2.v) |
| C62 | reductions of an object of a `reached` state | as C60, from the kernel theorems for one class and axis (PCall4.v) |
| C63 | calls on an N-D object of a `reached` state | as C60, from the theorems of C20-C26, C29-C32, C55 |
| C64 | products of a matrix of a `reached` state with a dense array | as C60, from C28-C31, C49 |
| C65 | reading and comparing an object of a `reached` state | as C60, from C44, C54 |
| C66 | cumulative operations and differences of a matrix of a `reached` state | as C60, from C40, C41 |
| C67 | what the constructor calls append to the state | computation of the calls, from C01-C03, C46, C52 |
| C68 | the functions of `array_api` as a dispatch on the classes of their arguments (MApi.v), over the heap of C57 | case analysis over the classes; then C60, C63, C65 |
| C69 | `matmul`, `tensordot`, `vecdot`, `matrix_transpose` with their axes arguments (MApi.v) | as C68, from C60, C63, C64; refuted for several axes |
| C70 | every function, generated fallbacks included, as in C68 | case analysis over functions and classes |
| C71 | the functions of one array as in C68 | case analysis |
| C72 | histories that mix method and function calls (SpecApi.v `reached_with_functions`) | each function is a list of method calls with regular arguments; induction over the history; C58, C61 |
| C73 | `zeros`, `eye`, `astype` as in C68 | computation, from C67 |
| C74 | `_runtime.py` as a state machine over the stored number and the variable | induction over the history of settings |
| C75 | the `*_from_parts` functions: load the arrays with the check flag, one kernel, return arrays (MNative.v) | loading with the check accepts exactly valid arrays (C01, C02); then the kernel safety lemmas of C58 |
| C76 | as C75, against the method calls of MObj.v (SpecNative.v `counterpart`) | both paths load the same native matrix (handle in step, or the arrays); case analysis |
| C77 | as C75 | from C04, C06, C07 |
| C78 | `dtypes.rs`, `devices.rs` on strings (MDtype.v) | case analysis on the four known names |
| C79 | as C75 | loading, then C16, C30, C31, C37, C38, C39 |
| C80 | as C75 | loading, then the rejection theorems of C11-C14, C21, C22, C24-C27, C29, C31, C32 |
| C81 | calls with a beginning and an end over the heap of C57, any number of threads, writes to arrays in between (MThreads.v) | a call depends on its operands only; the operands of a running call do not change; induction over the execution; safety from C58 |
| C82 | binary64 addition, multiplication, division and fused multiply-add of SpecFloat/Values.v; numbers as rationals (SpecAccuracy.v) | error of one rounding from the shifts of `binary_round_aux`; induction over the tree of additions; results of C62-C66 |
| C83 | as C82 | a rounding of an integer below 2^53 is exact; induction over the tree of additions |
| C84 | as C82 | an exact result below 2^1023 rounds to a finite double; partial sums are bounded by C82 |
| C85 | as C82; `SFsqrt` | Cauchy-Schwarz bounds the square of the sum by the sum of squares; errors are added up in exact rationals; operations on doubles return doubles; the integer square root with its rest locates the root |
| C86 | as C82 and C60 | one operation is rounded once; C60 says which operation a cell is |
| C87 | as C86; `f64::floor` | floor is exact; the rounded quotient of two integers below 2^53 stays on the same side of every integer |
| C88 | whole programs (as C65) beside a machine on dense tables of integers, two- and N-dimensional (`SpecInt.v`) | simulation: every call preserves "all cells are these integers"; each step from C59-C66 and the exactness lemmas of C82-C87 |
| C89 | as C65 and C62; doubles as numbers, infinities and NaN (`SpecOrder.v`) | the mantissa of a double is normalised, so comparing exponents first is the order of the rationals |
| C90 | as C60 to C66 | an addition, product, quotient or fused product-sum of a NaN is NaN, so any summation order ends in NaN; where cells are skipped or results filtered NaNs are lost: `_refuted` |
| C91 | as C60, C62, C65; heaps related object by object (`PropFormat.v`) | one call on related heaps raises twice or gives related objects; induction on the program |
| C92 | as C60, C62; heaps whose objects are transposes of each other (`PropTranspose.v`, `PropTranspose2.v`) | one call and its counterpart with exchanged axes raise both or give transposed objects; induction on the program |
| C93 | as C62, C83 (`PropConsist.v`, `PropConsist2.v`) | the cells of the matrix are the cells of its rows, and a permutation of those of its columns |
| C94 | as C64, C83 (`PropLinear.v`, `PropLinear2.v`) | the results are exact sums of products (C83); double sums are exchanged |


## 4. Findings

Each is a fact about the code as written; names in parentheses are the theorems.

Wrong or schedule-dependent results:

1. CSR<->CSC conversion orders the entries of a column by the thread schedule; the
   result need not be sorted (`C05_*_refuted`). Kernels applied next then lose cells
   or return duplicates (`C51_conversion_refuted`, `C51_chain_refuted`), CSC
   `cumsum`/`cumprod` along axis 1 are wrong (`C40_csc_axis1_refuted`), and `diff` of
   CSC is not canonical (`C41_csc_canonical_refuted`).
2. Pruning compares `|v| > eps`, so NaN is removed; for CSR/CSC only if another entry
   is zero (`C18_*_refuted`).
3. Broadcasting treats a dimension 0 against 1 as 1 (`C24_broadcast_empty_dimension_refuted`).
4. COO/COOND with duplicate coordinates: min, max, prod, var, abs, sign, %, //, prune
   and `all` of COOND look at the listed values, not at their sums (`C47_*_refuted`).
5. `mul_scalar` by 0 stores 0 for NaN and infinity (`C16_mul_scalar_zero_times_nan_refuted`);
   division and power drop non-finite results (stated in C14).
6. `count_nonzero` counts stored entries, explicit zeros and duplicates included
   (`C45_explicit_zeros_and_duplicates_refuted`); of an N-D array it is always 1, because
   the object itself goes to NumPy (`C45_coond_refuted`).
7. `A[-1, :]`, `A[:, j]` with j out of range do not raise (`C44_getrow_getcol_range_refuted`).
8. `A / alpha` multiplies by the rounded reciprocal (`C53_truediv_rounding_refuted`).
9. Total sums depend on how rayon splits the data (`C50_sum_depends_on_split`); sums are
   therefore specified as "some order and association" (`FSum`).
10. min and max ignore NaN in a position-dependent way; C36 excludes NaN.
11. `diff` along axis 0 with n = 0 keeps explicit zeros, along axis 1 it drops them;
    spmv of N-D arrays keeps cancelled zeros, spmm drops them.
12. var of more than 2^64 cells uses a saturated count; mean of an array without axes is 0.

Panics and errors on legitimate input:

13. CSR times a matrix with zero columns panics (`C31_csr_zero_columns_refuted`), and so does
    a batched product over an empty batch (`C49_empty_batch_refuted`).
14. Reducing an N-D array over all its axes by naming them panics (`C55_all_axes_refuted`).
15. Strides are computed with overflow checks even for arrays without entries.
16. `prod`, `var`, `std`, `min`, `max`, ... of COOND through `array_api` pass a tuple where the
    native function takes an array and raise TypeError; `mean` of a 2-D matrix with no
    cells raises ZeroDivisionError without axis and returns NaN with one.

Memory safety:

17. The size check `ncols * k` of the dense products wraps modulo 2^64, after which rows of B
    are read out of bounds (`C30_spmm_wrapping_size_check_refuted`,
    `C30_spmm_nd_wrapping_size_check_refuted`).
18. The Python CSC, COO and COOND constructors swallow validation errors
    (`C52_invalid_accepted_refuted`); `.T` of such a CSC object reads and writes out of bounds
    (`C52_csc_transpose_out_of_bounds_refuted`).
19. Unchecked construction validates lengths only (C03), so every raw-pointer kernel relies
    on the caller.
20. The tiled transpose reads four positions before it stores them: duplicate indices
    inside a group of four collide, one entry is lost and a zero appears in its place
    (`C09_duplicates_lost`). Memory stays safe and the counts per row stay right
    (`C09_transpose_csr_valid`, `C09_transpose_csc_valid`); canonical input excludes it.
21. Dimensions above 2^63 turn negative in reshape and unfolding
    (`C21_huge_dimension_refuted`, `C25_huge_side_refuted`).
22. The accumulator hash map uses `usize::MAX` as the empty marker; that key is lost (C19
    excludes it; `shape_fits` implies it cannot occur).
23. `cumsum` and `cumprod` allocate `nrows * ncols` elements, which wraps modulo 2^64 in release
    builds; a valid CSR matrix of shape (3, 6148914691236517206) with three entries makes
    the unchecked store go past the end (`C40_wrapping_size_refuted`).
24. The native handle is a copy: after `A.data[k] = v` the methods that use the handle (`sum`,
    `@`, `T`, `+`, `-A`, ...) see the old value, those that pass the arrays (`abs`, `%`, `min`,
    `toarray`, ...) the new one (`C57_after_data_assignment_refuted`).
25. `A @ x` of an unchecked CSR matrix, and `A.T` or `vecdot` of a CSC or COO matrix whose
    failed check was swallowed, access memory out of bounds
    (`C58_unchecked_arrays_refuted`). With valid arrays no program does
    (`C58_memory_safe`).
26. `tensordot(A, B, axes=([1, 0], [0, 1]))` contracts the first axis of each list only and
    returns a matrix where NumPy returns a number (`C69_more_axes_refuted`,
    `C69_only_the_first_axes_count`); `axes=([], [])` raises IndexError.
27. `matrix_transpose` and `count_nonzero` of an N-D array, and `stack`, `concat` of a list of
    sparse objects, hand the objects to NumPy (`C70_exceptions_refuted`).
28. `set_num_threads(0.5)` stores 0 (`C74_fraction_refuted`).
29. `spmv_from_parts(1, 1, [0, 1], [5], [1.0], [1.0], check=False)` reads outside the vector:
    the flag is a public argument of a safe-looking function (`C75_unchecked_refuted`).
30. `uint32` and `uint64` are integer types with a size, but `promote_dtypes` refuses them even
    with themselves (`C78_unsigned_refuted`).
31. The native `diff` functions take any axis other than 0 for axis 1 instead of refusing it
    (`C80_diff_axis_refuted`).
32. `tensordot` and `vecdot` (all but the forms that are `x @ y`) release the interpreter lock
    while the kernel reads the caller's dense array, so a write to it from another thread is
    a data race: the result can mix old and new values (`C81_borrowed_operand_refuted`). All
    other operands are copied before the lock is released.
33. `var` and `std` subtract the square of the sum from the sum of squares, so they lose all
    digits when the cells are close together: the variance of 2^27 and 2^27+1 is returned
    as 0 instead of 1/4 (`C85_relative_refuted`).
34. When the square of the sum overflows, `var` and `std` return 0: the difference is minus
    infinity, which is clamped like a small negative number (`C85_overflow_refuted`).
35. `A / B` drops quotients that overflow, so 2^1000 / 2^-1000 reads 0 instead of infinity
    (`C86_overflow_refuted`; NumPy gives infinity).
36. `A % B` and `A % s` compute `x - y * floor(x / y)` with a rounded quotient, so 6.3 % 2.1 is
    negative (`C87_remainder_sign_refuted`; Python and NumPy give a number near 2.1).

Harmless but worth knowing: the work-range builder leaves rows without entries uncovered
(C42); `cumprod` stops at the first gap (correct, later cells are 0); transposing an
unsorted duplicate-free matrix sorts it.

## 5. Status

`MANIFEST.json` lists every property with its theorems. A property is `partial` when some
part of its English statement is false of the code; its `_refuted` theorem gives the
counterexample and the remaining theorems prove the statement on the stated domain.
`seeded/LOG.jsonl` records the seeded bugs and which theorems caught them.
