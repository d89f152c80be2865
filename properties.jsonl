{"id": "C01", "title": "Checked CSR/CSC construction accepts exactly the canonical matrices", "statement": "Building a CSR (or CSC) matrix from (shape, indptr, indices, data) with check=true succeeds if and only if indptr has one entry per row (column) plus one, starts at 0, ends at the number of stored entries, never decreases, indices and data have equal length, and inside every row (column) the indices are strictly increasing and lie in [0, ncols) ([0, nrows)). On success the matrix holds exactly the arrays that were passed.", "quantifier": "every shape and every triple of i64/i64/f64 arrays, including negative, decreasing and overflowing pointers", "why_tests_cant": "the set of malformed inputs is infinite and the checks interact; a test can only show that particular malformed arrays are rejected", "anchors": ["crates/lacuna-core/src/csr.rs: Csr::from_parts", "crates/lacuna-core/src/csc.rs: Csc::from_parts"]}
{"id": "C02", "title": "Checked COO/COOND construction accepts exactly in-bounds coordinate lists", "statement": "Building a COO matrix with check=true succeeds iff row, col and data have equal length and every coordinate is inside the shape; building an N-D COO array with check=true succeeds iff the shape is non-empty, indices has ndim entries per value and every coordinate is inside its dimension. Duplicates are accepted.", "quantifier": "every shape and every coordinate/data array", "why_tests_cant": "all lengths, all i64 coordinates and all shapes have to be covered", "anchors": ["crates/lacuna-core/src/coo.rs: Coo::from_parts", "crates/lacuna-core/src/coo.rs: CooNd::from_parts"]}
{"id": "C03", "title": "Unchecked construction gives only the array-length guarantees", "statement": "Building CSR/CSC with check=false succeeds iff the three length conditions and the first/last indptr conditions hold; nothing else is guaranteed, so a matrix that is not canonical can be obtained.", "quantifier": "every shape and array triple", "why_tests_cant": "an 'iff' about what is accepted ranges over all inputs", "anchors": ["crates/lacuna-core/src/csr.rs: Csr::from_parts", "crates/lacuna-core/src/csc.rs: Csc::from_parts"]}
{"id": "C04", "title": "CSR<->CSC conversion loses, duplicates and moves no entry under any thread schedule", "statement": "For every matrix whose pointers and indices are in range, and for every interleaving of the atomic slot reservations of the parallel row (column) tasks, csr_to_csc (csc_to_csr) terminates without an out-of-bounds access, writes every output slot exactly once, and returns a matrix of the same shape in which each cell (i,j) stores exactly the same multiset of values as in the input.", "quantifier": "every input matrix (canonical or with unsorted/duplicate columns) and every interleaving of the workers", "why_tests_cant": "the result depends on the race between threads; tests see a handful of schedules", "anchors": ["crates/lacuna-kernels/src/data_type_functions/astype.rs: csr_to_csc_f64_i64, csc_to_csr_f64_i64"]}
{"id": "C05", "title": "CSR<->CSC conversion returns a canonical matrix", "statement": "The matrix returned by csr_to_csc / csc_to_csr of a canonical matrix is canonical (indices strictly increasing inside each column/row), so it can be passed to the other kernels.", "quantifier": "every canonical input and every interleaving of the workers", "why_tests_cant": "depends on the thread schedule", "anchors": ["crates/lacuna-kernels/src/data_type_functions/astype.rs: csr_to_csc_f64_i64, csc_to_csr_f64_i64"]}
{"id": "C06", "title": "CSR/CSC to COO lists every stored entry once", "statement": "csr_to_coo and csc_to_coo return a coordinate list of the same shape that has, for every cell, exactly the values stored in that cell of the input, in storage order, and never access memory out of range.", "quantifier": "every matrix with in-range pointers and any partition of rows over workers", "why_tests_cant": "ranges over all matrices and schedules", "anchors": ["crates/lacuna-kernels/src/data_type_functions/astype.rs: csr_to_coo_f64_i64, csc_to_coo_f64_i64"]}
{"id": "C07", "title": "COO to CSR/CSC sums duplicates into a canonical matrix", "statement": "coo_to_csr and coo_to_csc of any in-bounds coordinate list return a canonical matrix of the same shape in which a cell is stored iff it occurs in the list, and its value is a sum of exactly the values listed for that cell (one term each).", "quantifier": "every in-bounds coordinate list, in any order and with any duplicates, and every order an unstable sort may give to equal keys", "why_tests_cant": "all multisets of coordinates in all orders, plus the unspecified order of equal keys in an unstable sort", "anchors": ["crates/lacuna-kernels/src/data_type_functions/astype.rs: coo_to_csr_f64_i64, coo_to_csc_f64_i64"]}
{"id": "C08", "title": "Format round trips are lossless", "statement": "Converting a canonical CSR matrix to COO and back gives exactly the original arrays; likewise CSC via COO; converting CSR to CSC and back preserves the value of every cell under every schedule.", "quantifier": "every canonical matrix, every schedule", "why_tests_cant": "composition over all inputs and schedules", "anchors": ["crates/lacuna-kernels/src/data_type_functions/astype.rs"]}
{"id": "C09", "title": "Transpose is correct for both strategies and all schedules", "statement": "transpose of a canonical CSR or CSC matrix returns a canonical matrix of the swapped shape whose cell (j,i) stores exactly what cell (i,j) of the input stores, whichever strategy (tiled histograms or atomic slots followed by sorting) is selected, whatever the tiling, and for every thread schedule; no slot is written twice or left unwritten.", "quantifier": "every canonical matrix, every tile size/strategy, every interleaving", "why_tests_cant": "two parallel strategies whose choice depends on size and number of threads; the large strategy is never reached in tests", "anchors": ["crates/lacuna-kernels/src/linalg/matrix_transpose.rs: transpose_f64_i64, transpose_csc_f64_i64, transpose_coo_f64_i64"]}
{"id": "C10", "title": "Transposing twice gives back the same matrix", "statement": "For every canonical CSR (CSC) matrix the transpose of the transpose equals the original: same shape, same indptr, indices and data arrays.", "quantifier": "every canonical matrix, every strategy and schedule in each of the two calls", "why_tests_cant": "round trip over all inputs", "anchors": ["crates/lacuna-kernels/src/linalg/matrix_transpose.rs: transpose_f64_i64, transpose_csc_f64_i64"]}
{"id": "C11", "title": "Sparse addition computes the sum of the two matrices", "statement": "A + B of two canonical CSR (CSC) matrices of equal shape is canonical, contains no stored value equal to 0.0, and at every cell holds a value numerically equal to a(i,j)+b(i,j) in IEEE-754 double arithmetic (absent cells count as 0.0), NaN included; different shapes panic.", "quantifier": "every pair of canonical matrices and all f64 values including NaN, infinities and signed zeros", "why_tests_cant": "the merge has to be right for all interleavings of column indices and all floats", "anchors": ["crates/lacuna-kernels/src/elementwise/add.rs: add_csr_f64_i64, add_csc_f64_i64, add_row_count, add_row_fill"]}
{"id": "C12", "title": "Sparse subtraction computes the difference of the two matrices", "statement": "A - B of two canonical CSR (CSC) matrices of equal shape is canonical, contains no stored value equal to 0.0, and at every cell holds a value numerically equal to a(i,j)-b(i,j) in IEEE-754 arithmetic; different shapes panic.", "quantifier": "every pair of canonical matrices and all f64 values", "why_tests_cant": "as for addition; the count and fill passes are separate code", "anchors": ["crates/lacuna-kernels/src/elementwise/subtract.rs: sub_csr_f64_i64, sub_csc_f64_i64, sub_row_count, sub_row_fill"]}
{"id": "C13", "title": "Sparse Hadamard product multiplies common cells", "statement": "The elementwise product of two canonical CSR (CSC) matrices of equal shape is canonical, contains no stored value equal to 0.0, and stores at a cell the product of the two stored values iff both operands store that cell and the product is not 0.0; for finite operands it therefore equals the dense product at every cell.", "quantifier": "every pair of canonical matrices and all f64 values", "why_tests_cant": "all merge interleavings and all floats", "anchors": ["crates/lacuna-kernels/src/elementwise/multiply.rs: hadamard_csr_f64_i64, hadamard_csc_f64_i64"]}
{"id": "C14", "title": "Sparse division, power, remainder and floor division act on common cells", "statement": "For canonical operands of equal shape, divide / pow / remainder / floor_divide return a canonical matrix that stores at a cell the result of the scalar operation iff both operands store the cell, the divisor is not 0.0 (where applicable) and the result is finite and not 0.0; every other cell is absent.", "quantifier": "every pair of canonical matrices and all f64 values", "why_tests_cant": "all merge interleavings and all floats", "anchors": ["crates/lacuna-kernels/src/elementwise/divide.rs", "crates/lacuna-kernels/src/elementwise/power.rs", "crates/lacuna-kernels/src/elementwise/remainder.rs", "crates/lacuna-kernels/src/elementwise/floor_divide.rs"]}
{"id": "C15", "title": "Two-pass binary kernels never write out of bounds or expose uninitialised memory", "statement": "In every binary CSR/CSC kernel, the number of entries counted for a row in the first pass equals the number written by the second pass, the written ranges of different rows are disjoint and together cover the output arrays exactly once, for any order in which the rows are processed; hence the raw-pointer writes stay in bounds and the uninitialised output is completely overwritten.", "quantifier": "every pair of operands for which the kernel can be called (including unsorted or duplicate indices) and every order of row tasks", "why_tests_cant": "memory safety of unsafe code must hold for all inputs and all schedules", "anchors": ["crates/lacuna-kernels/src/elementwise/add.rs", "crates/lacuna-kernels/src/elementwise/subtract.rs", "crates/lacuna-kernels/src/elementwise/multiply.rs", "crates/lacuna-kernels/src/elementwise/divide.rs", "crates/lacuna-kernels/src/elementwise/power.rs", "crates/lacuna-kernels/src/elementwise/remainder.rs", "crates/lacuna-kernels/src/elementwise/floor_divide.rs"]}
{"id": "C16", "title": "Scalar elementwise operations keep the pattern and map every value", "statement": "mul_scalar, abs, sign, pow_scalar, remainder by scalar and floor-division by scalar return the input with unchanged shape and index arrays, and the p-th value is the scalar function of the p-th value, whatever the length (vector part, remainder part, chunking) of the data. For mul_scalar the stored value is v*alpha (up to the sign of zero) unless alpha is 0 and v is NaN or infinite.", "quantifier": "every matrix in each of the four formats, every scalar, every chunk schedule", "why_tests_cant": "lengths modulo the SIMD width and chunk size, all floats", "anchors": ["crates/lacuna-kernels/src/elementwise/multiply.rs: mul_scalar_f64, mul_scalar_csc_f64, mul_scalar_coo_f64, mul_scalar_coond_f64", "crates/lacuna-kernels/src/elementwise/abs.rs", "crates/lacuna-kernels/src/elementwise/sign.rs", "crates/lacuna-kernels/src/elementwise/power.rs: pow_scalar_f64", "crates/lacuna-kernels/src/elementwise/remainder.rs: rem_scalar_f64", "crates/lacuna-kernels/src/elementwise/floor_divide.rs: floordiv_scalar_f64"]}
{"id": "C17", "title": "Pruning keeps exactly the entries larger than eps", "statement": "prune_eps with eps > 0 on CSR, CSC, COO and COOND keeps, in order, exactly the stored entries with |v| > eps; the result is canonical when the input is; a negative eps returns the input unchanged; the small and the parallel path agree.", "quantifier": "every matrix, every eps, every row schedule", "why_tests_cant": "all lengths modulo SIMD width, all floats incl. NaN and all schedules", "anchors": ["crates/lacuna-kernels/src/utility/prune.rs: prune_eps, prune_eps_csc, prune_eps_coo, prune_eps_coond, count_significant, copy_significant_entries"]}
{"id": "C18", "title": "Eliminating zeros removes exactly the stored zeros", "statement": "eliminate_zeros removes precisely the stored entries equal to 0.0 and keeps all others, in order, so the value of every cell is unchanged.", "quantifier": "every matrix and all f64 values", "why_tests_cant": "must hold for all floats including NaN and for all mixtures", "anchors": ["crates/lacuna-kernels/src/utility/eliminate_zeros.rs", "crates/lacuna-kernels/src/utility/prune.rs"]}
{"id": "C19", "title": "The accumulator hash map is a faithful sum-by-key", "statement": "After any sequence of insert_add(k, v) calls with keys different from usize::MAX, starting from any requested capacity, pairs() contains every inserted key exactly once and no other key, with the left-to-right sum of the values inserted for the key; drain_to adds each of these sums to out[k]; probing always terminates although the table grows and rehashes.", "quantifier": "every sequence of insertions of every length, every capacity, all collisions", "why_tests_cant": "termination of probing and correctness of rehashing depend on the whole history", "anchors": ["crates/lacuna-kernels/src/utility/util.rs: UsizeF64Map"]}
{"id": "C20", "title": "Row-major linearisation is a bijection and never wraps silently", "statement": "For a shape whose element count fits in usize, the linear index computed from in-bounds coordinates is below the element count, different coordinates get different linear indices, and de-linearising gives the coordinates back; when the count does not fit, the kernels panic instead of wrapping.", "quantifier": "every shape of every rank and all in-bounds coordinates", "why_tests_cant": "all ranks, all dimensions including 0 and 1, and all overflow boundaries", "anchors": ["crates/lacuna-kernels/src/manipulation/reshape.rs: build_strides_row_major", "crates/lacuna-kernels/src/elementwise/add.rs: add_coond_f64_i64", "crates/lacuna-kernels/src/data_type_functions/astype.rs: build_strides_row_major"]}
{"id": "C21", "title": "Reshape keeps every element at its row-major position", "statement": "reshape of an N-D COO array to a shape with the same element count returns an in-bounds array with the same values in the same order, where the row-major position of every entry is unchanged; a different element count panics; reshaping back restores the original indices.", "quantifier": "every array, every pair of shapes with equal products", "why_tests_cant": "all shapes and ranks", "anchors": ["crates/lacuna-kernels/src/manipulation/reshape.rs: reshape_coond_f64_i64"]}
{"id": "C22", "title": "permute_dims moves every element to the permuted coordinate", "statement": "permute_dims by a permutation p returns an array with shape[d] = old_shape[p[d]] in which every entry's coordinate d is the old coordinate p[d]; values keep their order; permuting by the inverse restores the array; a non-permutation panics.", "quantifier": "every array and every axis list", "why_tests_cant": "all ranks and permutations", "anchors": ["crates/lacuna-kernels/src/manipulation/permute_dims.rs: permute_axes_coond_f64_i64"]}
{"id": "C23", "title": "N-D addition and subtraction combine all duplicates of both operands", "statement": "add/sub of two in-bounds N-D COO arrays of equal shape returns an in-bounds array with strictly increasing row-major positions, no duplicate coordinate and no stored 0.0, whose value at a coordinate is a sum of exactly all values (negated for the right operand of sub) listed at that coordinate in both operands.", "quantifier": "every pair of in-bounds coordinate lists with duplicates, every shape with at most 2^64-1 cells", "why_tests_cant": "all coordinate multisets and the hash-table behaviour", "anchors": ["crates/lacuna-kernels/src/elementwise/add.rs: add_coond_f64_i64", "crates/lacuna-kernels/src/elementwise/subtract.rs: sub_coond_f64_i64"]}
{"id": "C24", "title": "N-D Hadamard product and its broadcasting form multiply the summed cells", "statement": "hadamard of N-D COO arrays of equal shape stores at each coordinate the product of the summed values of the two operands; the broadcasting form follows the NumPy rule: dimensions are aligned from the right, a dimension of size 1 is repeated, and every output cell is the product of the operand cells it is aligned with.", "quantifier": "every pair of arrays with compatible shapes", "why_tests_cant": "all ranks, alignments and duplicate patterns", "anchors": ["crates/lacuna-kernels/src/elementwise/multiply.rs: hadamard_coond_f64_i64, hadamard_broadcast_coond_f64_i64"]}
{"id": "C25", "title": "Unfolding an N-D array into a matrix is position preserving", "statement": "Converting an N-D COO array to CSR/CSC with a split of the axes into row axes and remaining (column) axes gives a matrix whose shape is the two products and whose cell (r,c) is the sum of the values at the coordinates with row-major positions r over the row axes and c over the remaining axes; the small and the parallel path agree.", "quantifier": "every array, every choice of row axes, every schedule", "why_tests_cant": "all ranks and axis subsets", "anchors": ["crates/lacuna-kernels/src/data_type_functions/astype.rs: coond_axes_to_csr_f64_i64, coond_axes_to_csc_f64_i64, coond_mode_to_csr_f64_i64, coond_mode_to_csc_f64_i64"]}
{"id": "C26", "title": "Axis reductions of N-D arrays sum over exactly the reduced axes", "statement": "reduce_sum_axes returns an array over the remaining axes, sorted and without duplicates, whose value at a coordinate is a sum of exactly the values whose remaining coordinates match; reduce_mean_axes is that sum divided by the product of the reduced dimensions.", "quantifier": "every array, every non-empty proper set of axes", "why_tests_cant": "all ranks and axis sets", "anchors": ["crates/lacuna-kernels/src/statistical/sum.rs: reduce_sum_axes_coond_f64_i64", "crates/lacuna-kernels/src/statistical/mean.rs: reduce_mean_axes_coond_f64_i64"]}
{"id": "C27", "title": "CSR matrix-vector product", "statement": "A @ x for CSR returns a vector of length nrows whose i-th element is the left-to-right fused multiply-add accumulation of the stored entries of row i, for the sequential and the parallel path, every unrolling remainder and every thread schedule; in exact arithmetic it is the matrix-vector product.", "quantifier": "every matrix with in-range indices, every x of matching length, every schedule", "why_tests_cant": "unrolling remainders, row-range partition, and schedules", "anchors": ["crates/lacuna-kernels/src/linalg/matmul.rs: spmv_f64_i64, spmv_row_f64_i64"]}
{"id": "C28", "title": "CSC and COO matrix-vector products under every strategy and schedule", "statement": "A @ x for CSC and COO returns a vector whose i-th element is a sum of exactly the terms a(i,j)*x(j) over the stored entries of row i, each once, whichever accumulator (sequential, hash map, dense thread-local, striped) is used, and for every number of threads, assignment of tasks to threads and merge order; in exact arithmetic it equals the CSR result.", "quantifier": "every matrix with in-range indices, every x, every number of threads and every schedule", "why_tests_cant": "four accumulation strategies times all schedules; the large ones are hardly reached by tests", "anchors": ["crates/lacuna-kernels/src/linalg/matmul.rs: spmv_csc_f64_i64, spmv_coo_f64_i64"]}
{"id": "C29", "title": "N-D contraction with a vector", "statement": "spmv on an N-D COO array along one axis returns an in-bounds, sorted, duplicate-free array over the remaining axes whose value at a coordinate is a sum of the terms a*x over the entries with those remaining coordinates (terms equal to 0.0 may be skipped).", "quantifier": "every array, axis and vector", "why_tests_cant": "all ranks and coordinates", "anchors": ["crates/lacuna-kernels/src/linalg/matmul.rs: spmv_coond_f64_i64", "crates/lacuna-kernels/src/linalg/vecdot.rs: vecdot_coond_dense_axis_f64_i64"]}
{"id": "C30", "title": "Matrix-matrix products with a dense right operand", "statement": "A @ B with dense row-major B returns the nrows x k array whose (i,c) element is a sum of exactly the terms a(i,j)*B(j,c) over the stored entries of row i, for CSR, CSC, COO and the automatic strategy, for all k, tile sizes, remainders and schedules.", "quantifier": "every matrix with in-range indices, every B and k, every schedule", "why_tests_cant": "tile and unrolling boundaries in k, and schedules", "anchors": ["crates/lacuna-kernels/src/linalg/matmul.rs: spmm_f64_i64, spmm_csc_f64_i64, spmm_coo_f64_i64, spmm_auto_f64_i64"]}
{"id": "C31", "title": "tensordot contracts one axis with the first axis of a dense tensor", "statement": "tensordot of a sparse matrix (N-D array along an axis) with a dense tensor equals the matrix product with the tensor flattened over its trailing axes; shape mismatches panic; an output with zero columns is returned as an empty array.", "quantifier": "every sparse operand and dense tensor shape", "why_tests_cant": "all tensor ranks including zero-sized dimensions", "anchors": ["crates/lacuna-kernels/src/linalg/tensordot.rs", "crates/lacuna-kernels/src/linalg/matmul.rs: spmm_coond_f64_i64"]}
{"id": "C32", "title": "vecdot along either axis", "statement": "vecdot along axis 1 equals A @ x; along axis 0 the j-th element is a sum of exactly the terms a(i,j)*x(i) over the stored entries of column j (terms with x(i)=0.0 or a zero product may be skipped), for CSR, CSC and COO under every schedule; in exact arithmetic it equals the product of the transposed matrix with x.", "quantifier": "every matrix, vector and schedule", "why_tests_cant": "stripe accumulators and schedules", "anchors": ["crates/lacuna-kernels/src/linalg/vecdot.rs"]}
{"id": "C33", "title": "Global sums add every stored value exactly once", "statement": "sum() of CSR, CSC, COO and COOND is a sum of exactly the stored values, each used once, for every data length, chunking and reduction tree; in exact arithmetic it is the sum of all cells.", "quantifier": "every data array and every reduction tree of the work-stealing scheduler", "why_tests_cant": "float sums depend on the reduction tree; all lengths modulo chunk and SIMD width", "anchors": ["crates/lacuna-kernels/src/statistical/sum.rs: sum_f64, sum_csc_f64, sum_coo_f64, sum_coond_f64"]}
{"id": "C34", "title": "Row and column sums add exactly the entries of that row or column", "statement": "row_sums and col_sums for CSR, CSC and COO return vectors whose i-th element is a sum of exactly the values stored in row (column) i, each used once, for every strategy (dense, hash, striped), partition and schedule.", "quantifier": "every matrix, every thread count and schedule", "why_tests_cant": "strategies chosen by size; all schedules", "anchors": ["crates/lacuna-kernels/src/statistical/sum.rs: row_sums_f64, col_sums_f64, row_sums_csc_f64, col_sums_csc_f64, row_sums_coo_f64, col_sums_coo_f64"]}
{"id": "C35", "title": "Mean is the sum divided by the number of cells", "statement": "mean of an N-D array is sum / product(shape), 0 when the shape is empty or has a zero dimension.", "quantifier": "every array", "why_tests_cant": "all shapes incl. zero dimensions", "anchors": ["crates/lacuna-kernels/src/statistical/mean.rs: mean_coond_f64"]}
{"id": "C36", "title": "min and max account for implicit zeros", "statement": "For a canonical CSR/CSC matrix (duplicate-free COO) without NaN, min (max), row_mins (row_maxs) and col_mins (col_maxs) return the least (greatest) of all cells of the matrix, row or column, implicit zeros included; it is 0.0 for an empty dimension.", "quantifier": "every canonical matrix without NaN, every schedule", "why_tests_cant": "all fill patterns, SIMD remainders, schedules", "anchors": ["crates/lacuna-kernels/src/statistical/minmax.rs"]}
{"id": "C37", "title": "prod accounts for implicit zeros", "statement": "For a canonical matrix, prod, row_prods and col_prods return a product of exactly the cells of the matrix, row or column if all of them are stored and 0.0 otherwise (1.0 for an empty range).", "quantifier": "every canonical matrix, every schedule", "why_tests_cant": "all fill patterns and schedules", "anchors": ["crates/lacuna-kernels/src/statistical/prod.rs"]}
{"id": "C38", "title": "Variance and standard deviation cover implicit zeros and never go negative", "statement": "var / row_vars / col_vars return, in exact arithmetic, (sum of squares of all cells - (sum)^2/n)/(n-correction), clamped below at 0, which for correction 0 is the mean squared deviation over all n cells; std is its square root; 0 for n=0 or n<=correction.", "quantifier": "every canonical matrix and correction", "why_tests_cant": "identity over all inputs", "anchors": ["crates/lacuna-kernels/src/statistical/varstd.rs"]}
{"id": "C39", "title": "all and any follow the values of all cells", "statement": "all (any) over a canonical matrix, row or column is true iff every cell is non-zero (some cell is non-zero), implicit zeros counting as false.", "quantifier": "every canonical matrix", "why_tests_cant": "all fill patterns", "anchors": ["crates/lacuna-kernels/src/statistical/logic.rs"]}
{"id": "C40", "title": "Cumulative sums and products along both axes", "statement": "cumsum along axis 1 (0) returns the dense array whose (i,j) element is the sum of the cells (i,0..j) ((0..i,j)); cumprod likewise with products.", "quantifier": "every canonical matrix", "why_tests_cant": "all patterns of gaps", "anchors": ["crates/lacuna-kernels/src/statistical/cumulative.rs"]}
{"id": "C41", "title": "Discrete difference along both axes", "statement": "diff of order n along axis 1 (0) returns a canonical matrix with n fewer columns (rows, not below 0) whose cells are the n-th forward differences of the cells of the input, without stored zeros for n >= 1.", "quantifier": "every canonical matrix and every n", "why_tests_cant": "induction over n and all patterns", "anchors": ["crates/lacuna-kernels/src/manipulation/diff.rs"]}
{"id": "C42", "title": "Work partitioning covers each row or column with entries exactly once", "statement": "The ranges handed to parallel workers are in increasing order, pairwise disjoint, inside [0,n), and every row (column) with at least one stored entry belongs to exactly one range; chunked loops cover every position exactly once.", "quantifier": "every pointer array and every threshold", "why_tests_cant": "all distributions of entries over rows", "anchors": ["crates/lacuna-kernels/src/linalg/matmul.rs: spmv_f64_i64, spmv_csc_f64_i64, spmv_coo_f64_i64", "crates/lacuna-kernels/src/statistical/sum.rs", "crates/lacuna-kernels/src/linalg/vecdot.rs"]}
{"id": "C43", "title": "Thread-local accumulation gives the same sums for every schedule", "statement": "For any assignment of tasks to threads, any order in each thread and any order in which thread results are merged, each output slot receives every contribution exactly once; slots outside the visited ones are left at 0.0.", "quantifier": "every number of threads, every assignment, every merge order, every contribution list", "why_tests_cant": "schedules are unbounded", "anchors": ["crates/lacuna-kernels/src/linalg/matmul.rs", "crates/lacuna-kernels/src/statistical/sum.rs", "crates/lacuna-kernels/src/linalg/vecdot.rs"]}
{"id": "C44", "title": "Reading a cell and densifying agree with the stored matrix", "statement": "For a canonical CSR matrix, A[i,j] is the stored value or 0.0, A[i,:] and A[:,j] are the dense row and column, and toarray() has every value at its cell; indices out of range (negative ones are not supported) raise; COO.toarray() sums duplicates.", "quantifier": "every canonical matrix and every index pair", "why_tests_cant": "all positions of a binary search", "anchors": ["python/lacuna/sparse/csr.py: CSR.__getitem__, CSR.toarray", "python/lacuna/sparse/csc.py: CSC.toarray", "python/lacuna/sparse/coo.py: COO.toarray"]}
{"id": "C45", "title": "count_nonzero counts the non-zero cells", "statement": "count_nonzero(A) is the number of cells different from 0.0, in total, per row or per column.", "quantifier": "every matrix or N-D array that the constructors accept", "why_tests_cant": "explicit zeros and duplicates have to be considered", "anchors": ["python/lacuna/array_api/_dispatch/searching.py: count_nonzero"]}
{"id": "C46", "title": "zeros, eye and diag build the matrices they name", "statement": "zeros(n,m), eye(n) and diag(v) return canonical CSR matrices whose cells are all zero, the identity, and v on the diagonal.", "quantifier": "every size and diagonal", "why_tests_cant": "all sizes", "anchors": ["crates/lacuna-py/src/array_api/creation.rs: zeros_csr, zeros_csc, zeros_coo, eye_csr, diag_csr", "python/lacuna/sparse/csr.py: CSR.zeros, CSR.eye"]}
{"id": "C47", "title": "Reductions of coordinate lists agree with the summed matrix", "statement": "For every in-bounds COO (COOND) array, duplicates included, min, max, prod, var, all and the scalar elementwise operations give the same result as on the matrix with duplicates summed.", "quantifier": "every in-bounds coordinate list", "why_tests_cant": "all duplicate patterns", "anchors": ["crates/lacuna-kernels/src/statistical/minmax.rs: min_coo_f64", "crates/lacuna-kernels/src/statistical/prod.rs: prod_coo_f64", "crates/lacuna-kernels/src/statistical/varstd.rs: var_coo_f64", "crates/lacuna-kernels/src/statistical/logic.rs: all_coond_f64", "crates/lacuna-kernels/src/elementwise/abs.rs: abs_scalar_coo_f64"]}
{"id": "C48", "title": "Algebraic laws of the operations", "statement": "In exact arithmetic, and up to signed zero in IEEE arithmetic where no rounding is involved: A+B=B+A, A-A is empty (finite A), A+0=A, (A+B)^T=A^T+B^T, (A*B)^T=A^T*B^T, A@(x+y)=A@x+A@y, (A+B)@x=A@x+B@x, x.(A@y)=(A^T@x).y. In any program and any format, bit by bit: A+B and B+A, A*B and B*A, A-B and A+(-B), -(-A) and A, abs(-A) and abs(A), A.T.T and A are the same, abs, sign and prune twice are the same as once, and A-A stores nothing if A is finite.", "quantifier": "all canonical matrices and vectors", "why_tests_cant": "universally quantified identities between several operations", "anchors": ["crates/lacuna-kernels/src/elementwise/add.rs", "crates/lacuna-kernels/src/linalg/matrix_transpose.rs", "crates/lacuna-kernels/src/linalg/matmul.rs"]}
{"id": "C49", "title": "Batched matmul", "statement": "matmul of an m x k sparse matrix with a dense array of shape (..., k, n) returns the array of shape (..., m, n) whose every batch slice is the product of the sparse matrix with the corresponding slice.", "quantifier": "every batch shape", "why_tests_cant": "index arithmetic over all shapes", "anchors": ["python/lacuna/array_api/linalg/__init__.py: matmul"]}
{"id": "C50", "title": "Results of parallel elementwise, transpose and prune kernels are deterministic", "statement": "For a canonical input, the arrays returned by transpose, add, sub, multiply, divide, prune and csr_to_coo do not depend on the thread schedule.", "quantifier": "every canonical input and pair of schedules", "why_tests_cant": "schedules", "anchors": ["crates/lacuna-kernels/src/elementwise/add.rs", "crates/lacuna-kernels/src/linalg/matrix_transpose.rs", "crates/lacuna-kernels/src/utility/prune.rs"]}
{"id": "C51", "title": "Results are canonical again (closure)", "statement": "Every operation that returns CSR/CSC and is given canonical operands returns a matrix that the checked constructor would accept, so operations can be chained without re-validation (results are always built with check=False).", "quantifier": "every operation and canonical operand, every schedule", "why_tests_cant": "closure over all compositions of operations", "anchors": ["python/lacuna/sparse/csr.py", "python/lacuna/sparse/csc.py", "crates/lacuna-kernels/src/elementwise/add.rs", "crates/lacuna-kernels/src/linalg/matrix_transpose.rs", "crates/lacuna-kernels/src/manipulation/diff.rs", "crates/lacuna-kernels/src/utility/prune.rs"]}
{"id": "C52", "title": "Python constructors reject malformed arrays", "statement": "CSR(...), CSC(...), COO(...), COOND(...) with check=True raise for arrays that are not a valid matrix.", "quantifier": "every array input", "why_tests_cant": "all malformed inputs", "anchors": ["python/lacuna/sparse/csr.py: CSR.__init__", "python/lacuna/sparse/csc.py: CSC.__init__", "python/lacuna/sparse/coo.py: COO.__init__", "python/lacuna/sparse/coond.py: COOND.__init__"]}
{"id": "C53", "title": "Scalar operators of the Python objects", "statement": "A*alpha, -A, A/alpha, A//alpha and A%alpha apply the operation to every stored value and keep the structure; A/alpha is the quotient; the three divisions raise for alpha = 0.", "quantifier": "every matrix and scalar", "why_tests_cant": "all scalars; rounding of quotients", "anchors": ["python/lacuna/sparse/csr.py: CSR.__mul__, __truediv__, __floordiv__, __mod__, __neg__", "python/lacuna/sparse/csc.py", "python/lacuna/sparse/coo.py"]}
{"id": "C54", "title": "Comparison functions compare cell by cell", "statement": "equal, not_equal, less, less_equal, greater, greater_equal return the dense boolean array whose every cell compares the two cells with IEEE semantics, absent entries counting as 0.0, for every pair of formats; operands of different shapes are compared as NumPy broadcasts them, and raise if the shapes do not broadcast.", "quantifier": "all operands of equal shape, every comparison, every NaN/infinity pattern", "why_tests_cant": "all sparsity patterns and special values", "anchors": ["python/lacuna/array_api/_dispatch/elementwise.py: equal, not_equal, less, less_equal, greater, greater_equal"]}
{"id": "C55", "title": "Axis arguments of N-D reductions", "statement": "sum (mean) of an N-D array along axes given as an int or tuple, negative numbers counting from the end and repetitions counting once, is the array over the remaining axes (with keepdims: with length 1 at the reduced axes) whose every cell is the sum (mean) of the corresponding slice; axes out of range raise; naming all axes gives the total.", "quantifier": "every array, every axis argument, keepdims on and off", "why_tests_cant": "all ranks and axis combinations", "anchors": ["python/lacuna/array_api/_dispatch/reductions.py: _normalize_axes_nd, _coond_with_keepdims, sum, mean"]}
{"id": "C56", "title": "Axis arguments of matrix reductions", "statement": "array_api sum/mean/... of CSR, CSC and COO: axis=None and both axes give the total, axis 0 (or -2) one value per column, axis 1 (or -1) one per row, with shape (1,1), (1,n), (m,1) under keepdims; other axes raise.", "quantifier": "every matrix, axis argument and keepdims, every thread schedule", "why_tests_cant": "all axis spellings times all matrices", "anchors": ["python/lacuna/array_api/_dispatch/reductions.py: _normalize_axes_2d, sum, mean, prod, var, std, min, max, all, any"]}
{"id": "C57", "title": "Attributes and computations see the same matrix", "statement": "In every program that does not assign to the arrays of an object, the native handle an object computes with holds exactly the arrays the object shows (indptr/indices/data, row/col/data), however the object was built.", "quantifier": "every sequence of calls, with any arguments and any thread schedule", "why_tests_cant": "all histories of calls", "anchors": ["python/lacuna/sparse/csr.py: CSR.__init__", "python/lacuna/sparse/csc.py", "python/lacuna/sparse/coo.py", "crates/lacuna-py/src/types/csr.rs"]}
{"id": "C58", "title": "Programs that pass valid arrays are memory safe", "statement": "A program that calls the package in any order and builds its matrices from valid arrays (or lets CSR check them) never accesses memory outside an array and never loops forever; calls that raise leave all objects usable, and every object keeps being a valid matrix of its shape. This holds as long as no dimension, cell count or result size reaches 2^63 - 1.", "quantifier": "every sequence of calls, every float value including NaN, every number of threads and schedule, every unstable sort", "why_tests_cant": "all histories and schedules; undefined behaviour need not show up in a test", "anchors": ["python/lacuna/sparse/csr.py", "python/lacuna/sparse/csc.py", "python/lacuna/sparse/coo.py", "python/lacuna/sparse/coond.py", "python/lacuna/array_api/linalg/__init__.py", "python/lacuna/array_api/_dispatch/reductions.py", "crates/lacuna-py/src/types/csr.rs", "crates/lacuna-kernels/src/linalg/matrix_transpose.rs", "crates/lacuna-kernels/src/statistical/cumulative.rs"]}
{"id": "C59", "title": "Programs compute the values of the same program on dense matrices", "statement": "A program that builds CSR, CSC and COO matrices and N-D arrays from arrays without repeated entries (and zeros, eye, diag) and then transposes, negates, scales, prunes, adds, subtracts, multiplies, takes products with dense arrays, reduces (sum, mean, prod, var, all, any), accumulates, differences, reads cells, rows and columns, densifies and compares, and permutes, reshapes, broadcasts, reduces along axes, contracts with dense arrays and unfolds into matrices its N-D arrays, in any order and feeding results into later calls, computes at every step the values the same program computes on ordinary dense arrays with exact arithmetic, as long as every call is one the package offers and sizes stay below 2^63 - 1. Thread counts, schedules, chunking and unstable sorts make no difference.", "quantifier": "every sequence of calls and all matrices and N-D arrays, every environment (threads, schedules, sorts) per call", "why_tests_cant": "all histories, all sparsity patterns and schedules at once; an error in how one kernel leaves its result may only show in a later call", "anchors": ["python/lacuna/sparse/csr.py", "python/lacuna/sparse/csc.py", "python/lacuna/sparse/coo.py", "python/lacuna/sparse/coond.py", "python/lacuna/array_api/linalg/__init__.py", "python/lacuna/array_api/_dispatch/reductions.py", "python/lacuna/array_api/_dispatch/elementwise.py", "crates/lacuna-py/src/types/csr.rs", "crates/lacuna-kernels/src/elementwise/add.rs", "crates/lacuna-kernels/src/linalg/matmul.rs", "crates/lacuna-kernels/src/linalg/matrix_transpose.rs"]}
{"id": "C60", "title": "Every call on a reachable object computes its documented value", "statement": "Take any program that builds its objects from arrays without unsorted or repeated entries, and any object it holds at any point. Then, with IEEE arithmetic, A*s, A/s, A//s, A%s, A**s, abs, sign and -A apply the operator to every stored value and change nothing else; prune and eliminate_zeros drop exactly the small or zero values; A.T swaps rows and columns; A+B and A-B are the cellwise sum and difference; A*B, A/B, A//B, A%B, A**B store a value exactly where both operands do and the result is a nonzero number; operands of different shapes or classes raise; A.data[k] = v changes that element of that object only.", "quantifier": "every sequence of earlier calls, every object and class, every float including NaN and infinities, every thread schedule and unstable sort", "why_tests_cant": "all histories; a method that calls the wrong kernel for one class may only show for one operand", "anchors": ["python/lacuna/sparse/csr.py", "python/lacuna/sparse/csc.py", "python/lacuna/sparse/coo.py", "python/lacuna/sparse/coond.py", "crates/lacuna-py/src/types/csr.rs"]}
{"id": "C61", "title": "Objects stay sorted and free of duplicates", "statement": "In every program that builds its objects from arrays without unsorted or repeated entries (or lets CSR check them), every object any call returns is again sorted and free of duplicates, has a valid shape, and computes with exactly the arrays it shows; the exceptions are diff of a CSC matrix and assignments to A.data, which are not part of these programs.", "quantifier": "every sequence of calls, every environment (threads, schedules, sorts) per call, every float", "why_tests_cant": "all histories and schedules; methods that need sorted input may meet the result of any other method", "anchors": ["python/lacuna/sparse/csr.py", "python/lacuna/sparse/csc.py", "python/lacuna/sparse/coo.py", "python/lacuna/sparse/coond.py", "crates/lacuna-kernels/src/data_type_functions/astype.rs", "crates/lacuna-kernels/src/linalg/matrix_transpose.rs"]}
{"id": "C62", "title": "Reductions of any reachable matrix", "statement": "Take any program that builds its objects from arrays without unsorted or repeated entries, and any CSR, CSC or COO matrix it holds at any point. Then, with IEEE arithmetic, sum, prod, mean, var, std, min and max return for every axis and keepdims the total, one value per column or one per row: sums add the stored values in some order and grouping; var, std and mean are computed from such sums by the documented formulas; min and max are the least and greatest cell, counting cells not stored as 0; all and any decide over all cells; count_nonzero counts stored entries. The mean of all cells of an empty matrix raises; axes out of range raise.", "quantifier": "every sequence of earlier calls, every object and class, every float (min and max: no NaN stored), every thread schedule, chunking and SIMD grouping", "why_tests_cant": "all histories; a reduction of one class along one axis may call the wrong kernel or miss a keepdims", "anchors": ["python/lacuna/array_api/_dispatch/reductions.py: sum, mean, prod, var, std, min, max, all, any", "python/lacuna/array_api/_dispatch/searching.py: count_nonzero", "python/lacuna/sparse/csr.py", "python/lacuna/sparse/csc.py", "python/lacuna/sparse/coo.py"]}
{"id": "C63", "title": "Calls on any reachable N-D array", "statement": "Take any program that builds its objects from arrays without repeated entries, and any N-D array it holds at any point. Then permute_axes moves every value to the permuted coordinates, reshape keeps every value at its row-major position, sum_axes/mean_axes and sum/mean with axis and keepdims add up the stored values of each fiber (the mean is multiplied by the reciprocal of the count), axes_to_csr/axes_to_csc/mode unfold to the matrix whose rows and columns are the row-major positions along the chosen axes, A*B broadcasts as NumPy does for positive dimensions, tensordot and vecdot with a dense array contract the chosen axis (default: the last); axes that do not exist, are repeated or negative where not allowed, shapes that do not fit and dimensions that do not match raise.", "quantifier": "every sequence of earlier calls, every rank, shape and axis argument, every float, every thread schedule and unstable sort", "why_tests_cant": "all histories, ranks and axis arguments; a wrapper that forwards a wrong axis is wrong only for some ranks", "anchors": ["python/lacuna/sparse/coond.py", "python/lacuna/array_api/_dispatch/reductions.py: sum, mean", "python/lacuna/array_api/linalg/__init__.py: tensordot, vecdot"]}
{"id": "C64", "title": "Products of any reachable matrix with dense arrays", "statement": "Take any program that builds its objects from arrays without unsorted or repeated entries, and any CSR, CSC or COO matrix and any dense array it holds at any point. Then A @ v is for CSR the left-to-right fused multiply-add of each row and for the others a sum of its products; A @ Y of shape (..., n, k) is the stack of products with every batch; tensordot contracts the last axis of A with the first of Y; vecdot along axis 0 and 1 are the products with the columns and rows; sizes that do not fit, other axes and other operand classes raise. The one exception: CSR times an array with no columns raises.", "quantifier": "every sequence of earlier calls, every class, shape and batch shape, every float, every thread schedule and split over threads", "why_tests_cant": "all histories; a wrapper that passes rows for columns is right on square matrices", "anchors": ["python/lacuna/array_api/linalg/__init__.py: matmul, tensordot, vecdot", "python/lacuna/sparse/csr.py: __matmul__", "python/lacuna/sparse/csc.py", "python/lacuna/sparse/coo.py", "crates/lacuna-kernels/src/linalg/matmul.rs", "crates/lacuna-kernels/src/linalg/tensordot.rs", "crates/lacuna-kernels/src/linalg/vecdot.rs"]}
{"id": "C65", "title": "Reading and comparing any reachable object", "statement": "Take any program that builds its objects from arrays without unsorted or repeated entries, and any object it holds at any point. Then toarray() shows at every cell the stored number or zero; A[i, j] of a CSR matrix is the cell and raises outside the shape; A[i, :] and A[:, j] are the row and the column for indices in range; ==, !=, <, <=, >, >= compare cell by cell, zeros included, broadcasting the two shapes as NumPy does (dense operands may hold integers or booleans), and raise if the shapes do not broadcast; CSC, COO and N-D objects cannot be indexed.", "quantifier": "every sequence of earlier calls, every class and index, every float", "why_tests_cant": "all histories and positions", "anchors": ["python/lacuna/sparse/csr.py: __getitem__, toarray", "python/lacuna/sparse/csc.py: toarray", "python/lacuna/sparse/coo.py: toarray", "python/lacuna/array_api/_dispatch/elementwise.py: equal, less, greater"]}
{"id": "C66", "title": "Cumulative sums, products and differences of any reachable matrix", "statement": "Take any program that builds its objects from arrays without unsorted or repeated entries, and any CSR, CSC or COO matrix it holds at any point. Then cumsum and cumprod along one axis return the dense array whose every cell is the sum (in some order) or product of the cells up to it; diff(n, axis) returns a matrix of the same class whose cells are the n-th differences; an axis that does not exist, axis=None and N-D arrays raise.", "quantifier": "every sequence of earlier calls, every class, axis and n, every float, every thread schedule and unstable sort", "why_tests_cant": "all histories and schedules; the result along one axis of one class may depend on the schedule", "anchors": ["python/lacuna/array_api/_dispatch/reductions.py: cumsum, cumprod, diff", "crates/lacuna-kernels/src/statistical/cumulative.rs", "crates/lacuna-kernels/src/manipulation/diff.rs"]}
{"id": "C67", "title": "Constructors put the given matrix on the heap", "statement": "CSR(...), CSC(...), COO(...), COOND(...) given valid arrays return an object with exactly these arrays, this shape and a native handle to the same matrix, with and without check; CSR(..., check=True) raises for every other input; zeros, eye and diag return CSR objects with no entry, ones on the diagonal, the given diagonal.", "quantifier": "every state of the program, every shape and arrays", "why_tests_cant": "all inputs", "anchors": ["python/lacuna/sparse/csr.py: CSR.__init__", "python/lacuna/sparse/csc.py: CSC.__init__", "python/lacuna/sparse/coo.py: COO.__init__", "python/lacuna/sparse/coond.py: COOND.__init__", "crates/lacuna-py/src/array_api/creation.rs"]}
{"id": "C68", "title": "Elementwise functions of the namespace", "statement": "add, subtract, multiply, divide, floor_divide, remainder, pow, abs, negative, sign and the six comparisons of lacuna.array_api do, for the operand classes they support (two matrices of one class, an array with a number, two N-D arrays for multiply), what the operators of the objects do; with a number on the right of / // % ** and on either side of *; comparison with a number compares every cell with it. Every other pair with a sparse operand answers NotImplemented, never a wrong value, and pairs without one go to NumPy.", "quantifier": "every state of every program, every pair of operands of any class, every number", "why_tests_cant": "all pairs of classes times all values; a missed branch shows only for one pair", "anchors": ["python/lacuna/array_api/_dispatch/elementwise.py: add, subtract, multiply, divide, floor_divide, remainder, pow, equal, less, abs, negative, sign"]}
{"id": "C69", "title": "Linear algebra functions of the namespace", "statement": "matmul, tensordot, vecdot and matrix_transpose of lacuna.array_api do for a sparse left operand and a dense right operand what the products of the object do, for every accepted spelling of axes and axis; every other combination with a sparse operand answers NotImplemented; tensordot contracts all the axes it is given.", "quantifier": "every state, every operand class, every axes argument", "why_tests_cant": "all spellings of axes times all shapes", "anchors": ["python/lacuna/array_api/linalg/__init__.py: matmul, tensordot, vecdot, matrix_transpose"]}
{"id": "C70", "title": "No sparse argument is silently handed to NumPy", "statement": "A function of lacuna.array_api, implemented or generated as a fallback, never passes a sparse object to NumPy (which would turn it into an array of objects): it computes with it or answers NotImplemented.", "quantifier": "every function, every argument list, every state", "why_tests_cant": "all functions times all argument classes", "anchors": ["python/lacuna/array_api/_namespace.py: __getattr__", "python/lacuna/array_api/_dispatch/elementwise.py", "python/lacuna/array_api/_dispatch/reductions.py", "python/lacuna/array_api/_dispatch/searching.py: count_nonzero"]}
{"id": "C71", "title": "Functions of one array are the methods", "statement": "The reductions, cumulative operations, diff, permute_dims and reshape of lacuna.array_api compute for each class what the object computes (so C62, C63 and C66 apply) or answer NotImplemented: permute_dims and reshape for matrices, cumulative operations and diff for N-D arrays.", "quantifier": "every state, every object, every axis argument", "why_tests_cant": "all classes and arguments", "anchors": ["python/lacuna/array_api/_dispatch/reductions.py", "python/lacuna/array_api/_dispatch/manipulation.py: permute_dims, reshape"]}
{"id": "C72", "title": "Programs that use the functions of the namespace", "statement": "Calling functions of lacuna.array_api reaches no state that calls of methods do not reach, so everything stated for objects a program holds is also true for programs that mix functions and methods; in particular such programs are memory safe.", "quantifier": "every history of function and method calls, every environment per call", "why_tests_cant": "all histories", "anchors": ["python/lacuna/array_api/__init__.py", "python/lacuna/array_api/_dispatch/elementwise.py", "python/lacuna/array_api/_dispatch/reductions.py"]}
{"id": "C73", "title": "Creation functions and astype", "statement": "zeros(shape) returns an empty CSR matrix of that shape for a pair of nonnegative sizes and the device cpu (or none), and raises otherwise; eye(n, m, k=) returns the identity for m absent or n and k = 0, answers NotImplemented for other m or k, raises for another device or a negative n; astype to float64 of a CSR matrix returns a copy with the same entries, and answers NotImplemented for other sparse classes and other types.", "quantifier": "every state, all arguments", "why_tests_cant": "all arguments", "anchors": ["python/lacuna/array_api/creation/__init__.py: zeros, eye", "python/lacuna/array_api/dtypes/__init__.py: astype", "python/lacuna/sparse/csr.py"]}
{"id": "C74", "title": "Thread settings", "statement": "After set_num_threads(n) with n > 0, get_num_threads() answers n until the setting or the variable RAYON_NUM_THREADS changes; nonpositive values change nothing; get_num_threads() is always at least 1.", "quantifier": "every history of settings and changes of the environment variable", "why_tests_cant": "all histories", "anchors": ["python/lacuna/_runtime.py: set_num_threads, get_num_threads"]}
{"id": "C75", "title": "Functions of the extension module are safe on any arrays", "statement": "A function of lacuna._core that takes the arrays of a matrix either raises or returns arrays that describe a matrix, and never reads or writes outside its arguments, whatever arrays it is given: with check=True arrays that do not describe a matrix raise; on valid arrays the check flag does not change the answer; the same is to hold for any arrays with check=False.", "quantifier": "every function, every arguments (arrays of any content), every schedule", "why_tests_cant": "all array contents times all functions times all schedules", "anchors": ["crates/lacuna-py/src/array_api/elementwise.rs: add_from_parts, sign_from_parts", "crates/lacuna-py/src/array_api/linalg.rs: spmv_from_parts, spmm_from_parts", "crates/lacuna-py/src/array_api/reduce.rs: sum_from_parts", "crates/lacuna-py/src/array_api/manipulation.rs: diff_from_parts", "crates/lacuna-py/src/array_api/utility.rs", "crates/lacuna-core/src/csr.rs: from_parts"]}
{"id": "C76", "title": "Functions of the extension module and methods agree", "statement": "Given the arrays of an object, a function of lacuna._core returns the arrays (or numbers) of what the object's own method, operator or namespace function returns, for elementwise functions, operators, products, reductions in total and per row and column, cumulative operations, differences and N-D operations; tensordot of a matrix returns the same numbers as a table.", "quantifier": "every state of every program, every object, every function, all arguments, both values of check", "why_tests_cant": "all objects times all functions; the two paths differ in whether they use the native handle", "anchors": ["crates/lacuna-py/src/array_api/elementwise.rs", "crates/lacuna-py/src/array_api/linalg.rs", "crates/lacuna-py/src/array_api/reduce.rs", "crates/lacuna-py/src/array_api/manipulation.rs", "python/lacuna/sparse/csr.py", "python/lacuna/sparse/coond.py"]}
{"id": "C77", "title": "Conversions between formats keep the matrix", "statement": "The conversion functions of lacuna._core between CSR, CSC and COO arrays keep the shape and every stored value; from COO, values stored for the same cell are added in some order, exactly one value per cell remains.", "quantifier": "every valid set of arrays, every conversion, every schedule", "why_tests_cant": "all matrices and schedules", "anchors": ["crates/lacuna-py/src/array_api/utility.rs: csr_to_csc_from_parts, csc_to_csr_from_parts, csr_to_coo_from_parts, coo_to_csr_from_parts"]}
{"id": "C78", "title": "Type promotion and devices", "statement": "promote_dtypes is symmetric, associative and idempotent; it is defined for every type that has a size; the result is a float type exactly if an operand is one, and as wide as the wider operand. The default float type absorbs every type that can be combined, the default integer type every integer one, and no type is wider than they are. is_valid_device, list_devices, default_device and device_info agree on which devices exist.", "quantifier": "all strings", "why_tests_cant": "all strings and all triples of them", "anchors": ["crates/lacuna-py/src/array_api/dtypes.rs: promote_dtypes, dtype_size, is_float_dtype", "crates/lacuna-py/src/array_api/devices.rs: is_valid_device, list_devices, device_info"]}
{"id": "C79", "title": "Functions of the extension module without a method", "statement": "The functions of lacuna._core that no method of the package reaches return what their name says for N-D arrays with no position stored twice: coond_prod the product of all cells (0 if one is not stored), coond_all and coond_any whether all or some cells are not zero, coond_var the variance over all cells and coond_std its square root; mul_scalar_coond multiplies every stored value and keeps the positions; tensordot of a matrix with a dense array of shape (ncols, ...) returns a table whose entries are the row-by-column sums, for arrays of one or more dimensions.", "quantifier": "every valid set of arrays within the size limits, every number, every shape of the dense operand, both values of check, every schedule", "why_tests_cant": "all arrays, shapes and schedules", "anchors": ["crates/lacuna-py/src/array_api/reduce.rs: coond_prod_from_parts, coond_all_from_parts, coond_any_from_parts, coond_var_from_parts, coond_std_from_parts", "crates/lacuna-py/src/array_api/elementwise.rs: mul_scalar_coond_from_parts", "crates/lacuna-py/src/array_api/linalg.rs: tensordot_csr_dense_axes1x0_from_parts, tensordot_csc_dense_axes1x0_from_parts, tensordot_coo_dense_axes1x0_from_parts"]}
{"id": "C80", "title": "Functions of the extension module refuse arguments that do not fit", "statement": "On valid arrays, a function of lacuna._core raises when its other arguments do not fit them: operands of different shape (N-D: not broadcastable), vectors and dense arrays of the wrong length or with negative dimensions, a negative axis or one that is out of range, axes that are repeated, missing or not a permutation, a shape with another number of cells; every axis argument outside the matrix is to be refused.", "quantifier": "every function, all valid arrays, all arguments that do not fit, both values of check", "why_tests_cant": "all shapes, lengths and axis lists", "anchors": ["crates/lacuna-py/src/array_api/linalg.rs: spmv_from_parts, spmm_from_parts, coond_tensordot_dense_axis_from_parts, coond_vecdot_axis_from_parts", "crates/lacuna-py/src/array_api/reduce.rs: coond_reduce_sum_axes_from_parts, coond_reduce_mean_axes_from_parts", "crates/lacuna-py/src/array_api/manipulation.rs: coond_permute_axes_from_parts, coond_reshape_from_parts, diff_from_parts", "crates/lacuna-py/src/array_api/elementwise.rs: coond_hadamard_broadcast_from_parts"]}
{"id": "C81", "title": "Calls from several threads do not disturb each other", "statement": "Kernels run while other Python threads go on. Threads whose calls overlap in any way, and that only write to arrays no running call uses, leave the objects that one thread leaves which completes the same calls and writes one after the other. Whatever is written and whenever, no call accesses memory outside an array. A call whose operands are written while it runs returns what it would have returned when it began.", "quantifier": "all numbers of threads, all ways in which calls begin, end, raise and overlap, all writes to arrays in between, all operations, all initial objects", "why_tests_cant": "all interleavings of calls and writes", "anchors": ["crates/lacuna-py/src/array_api/linalg.rs: vecdot_csr_axis0_from_parts, tensordot_csr_dense_axes1x0_from_parts, coond_vecdot_axis_from_parts", "crates/lacuna-py/src/types/csr.rs: Csr64, spmv, spmm", "python/lacuna/array_api/linalg/__init__.py: tensordot, vecdot"]}
{"id": "C82", "title": "Rounding errors of sums and products are bounded", "statement": "Each finite number that sum, mean, cumsum, A @ y, tensordot or vecdot returns differs from the exact result by at most the standard bound for floating-point sums: for n terms, ((1+u)^(n-1) - 1) times the sum of the absolute values of the terms for sums, ((1+u)^n - 1) times it plus n(1+u)^n 2^-1075 for sums of products, with u = 2^-53. For mean over at most 2^53 cells both sides are divided by the number of cells and the division costs one more factor (1+u) and 2^-1075 (two more factors for N-D means along axes, which multiply with a rounded reciprocal). n is the number of stored entries that take part, not the number of cells.", "quantifier": "all matrices in the three formats and N-D arrays a program can reach, all values, all axes, all numbers of threads, schedules and orders of addition", "why_tests_cant": "the order of additions depends on threads and formats; tests compare with a tolerance chosen by hand", "anchors": ["crates/lacuna-kernels/src/statistical/sum.rs: sum_f64, row_sums_f64, col_sums_f64", "crates/lacuna-kernels/src/linalg/matmul.rs: spmv_f64_i64, spmm_f64_i64"]}
{"id": "C83", "title": "Sums and products of integers are exact", "statement": "If the values are integers and the absolute values of the terms of a sum or cumulative sum, or of the products in A @ y, tensordot or vecdot, add up to at most 2^53, the result is finite and exact. A mean of such integers over at most 2^53 cells is finite and the exact mean rounded once. So a sum or product is the same for every format of the matrix, number of threads and schedule.", "quantifier": "all matrices of integers in the three formats and all N-D arrays of integers a program can reach, all dense operands of integers, all axes, all environments", "why_tests_cant": "holds for all orders of addition", "anchors": ["crates/lacuna-kernels/src/statistical/sum.rs: sum_f64, row_sums_f64, col_sums_f64", "crates/lacuna-kernels/src/linalg/matmul.rs: spmv_f64_i64, spmm_f64_i64"]}
{"id": "C84", "title": "Sums, means and products of modest size do not overflow", "statement": "If the stored values (and the elements of the dense operand) are finite doubles, and a sum, mean or product has at most 2^51 terms whose absolute values add up to at most 2^1022, the result of sum, cumsum, mean, A @ y, tensordot or vecdot is finite, whatever the order of the additions, and within the error bound of the rounding property. So no partial sum overflows.", "quantifier": "all matrices in the three formats and N-D arrays a program can reach, all finite values, all axes, all numbers of threads, schedules and orders of addition", "why_tests_cant": "an overflow of a partial sum depends on the order of additions", "anchors": ["crates/lacuna-kernels/src/statistical/sum.rs: sum_f64, row_sums_f64, col_sums_f64", "crates/lacuna-kernels/src/linalg/matmul.rs: spmv_f64_i64, spmm_f64_i64"]}
{"id": "C85", "title": "Variances and standard deviations are accurate relative to the mean square", "statement": "var(axis, correction) of finite doubles, with an integer correction below the number of cells and squares that stay away from overflow, returns a finite number that is not negative and differs from the exact variance of the cells (unstored cells are zero) by at most 2((1+u)^(2k+4) - 1) times the sum of squares over the divisor, plus a few times the least positive double, for k stored values; std returns its square root up to one more rounding. (A user would expect an error relative to the variance itself, and an infinity on overflow: both are false.)", "quantifier": "all matrices in the three formats a program can reach, all finite values, all axes, all integer corrections, all numbers of threads, schedules and orders of addition", "why_tests_cant": "the error depends on the data and on the order of additions; cancellation and overflow happen only for special data", "anchors": ["crates/lacuna-kernels/src/statistical/varstd.rs: variance_from_sums, var_f64, std_f64, var_csc_f64, var_coo_f64"]}
{"id": "C86", "title": "Elementwise results are the exact values rounded once", "statement": "A+B and A-B of finite doubles give in every cell the exact sum or difference with a relative error of at most 2^-53; A*B (also of N-D arrays, with broadcasting), A/B (where the divisor is not 0) and A*s the exact product or quotient with that error or half the least positive double; A/s is within two roundings (a rounded reciprocal). This holds whenever the exact result is below 2^1023. (A user would expect an infinity or an error where a quotient overflows: the entry vanishes instead, so the cell reads 0.)", "quantifier": "all pairs of CSR or CSC matrices of finite doubles a program can reach, all pairs of N-D arrays for *, all cells, stored or not, all numbers", "why_tests_cant": "the rounding error depends on the bits of the operands; there are 2^128 pairs", "anchors": ["crates/lacuna-kernels/src/elementwise/add.rs: add_csr_f64_i64", "crates/lacuna-kernels/src/elementwise/multiply.rs: hadamard_csr_f64_i64", "crates/lacuna-kernels/src/elementwise/divide.rs: div_csr_f64_i64"]}
{"id": "C87", "title": "Elementwise arithmetic on integers is exact", "statement": "On integers held in doubles, A+B, A-B, A*B, A/B with an integer quotient, A//B, A%B, and A*s, A//s, A%s with an integer s give exactly the integers that Python's +, -, *, /, // and % give (floor, and remainder with the sign of the divisor), as long as the values fit into 53 bits (52 for %). N-dimensional arrays behave the same for A*B with broadcasting and for // and % with a number. (On other doubles a user would expect a remainder of positive numbers not to be negative: 6.3 % 2.1 is. A/s with an integer quotient is not exact: 49/49 is not 1.)", "quantifier": "all pairs of CSR or CSC matrices, all matrices in the three formats with a number, all N-dimensional arrays with a number, all integers in the range", "why_tests_cant": "the quotient is rounded before floor, so one wrong bit next to an integer changes the result; the range has 2^53 values", "anchors": ["crates/lacuna-kernels/src/elementwise/floor_divide.rs: floordiv_csr_f64_i64, floordiv_scalar_f64", "crates/lacuna-kernels/src/elementwise/remainder.rs: rem_csr_f64_i64, rem_scalar_f64"]}
{"id": "C88", "title": "Programs on integers compute exact results in doubles", "statement": "A program that builds CSR, CSC or COO matrices and arrays from integers and then uses +, -, *, / with integer quotients, //, %, abs, sign, negation, transposition, eliminate_zeros, multiplication, // and % by a number, matrix products with vectors, dense matrices and stacks of dense matrices, tensordot, vecdot, sums, products, minima, maxima, all and any over any axis, cumulative sums and products, differences, reading elements, rows and columns, comparisons and toarray (elementwise operators between two CSR or two CSC matrices; cumulative sums and products along rows and differences not for CSC; elements, rows and columns of CSR), or N-D arrays of integers with abs, sign, negation, // and % by a number, broadcast products, permute_axes, reshape, sums over all or some axes, unfolding to matrices, tensordot and vecdot with a dense array, in any order and depth, ends with exactly the objects that the same program gives on plain dense tables of integers, as long as no number on the way exceeds 2^53 (2^52 for %; for a sum or product: in the sum or product of the absolute values of its terms) and memory suffices. It neither raises nor crashes. In particular the number of threads, the SIMD width and the order in which partial sums are combined do not change any result.", "quantifier": "all programs of these calls, of any length, all integers in the range, all schedules and SIMD widths (a different one for every call), every pair of schedules", "why_tests_cant": "a program has unboundedly many steps, each with its own schedule and order of summation; equality of the results with a dense computation must hold for all of them", "anchors": ["crates/lacuna-kernels/src/elementwise/add.rs: add_csr_f64_i64", "crates/lacuna-kernels/src/elementwise/floor_divide.rs: floordiv_csr_f64_i64", "crates/lacuna-kernels/src/elementwise/remainder.rs: rem_csr_f64_i64"]}
{"id": "C89", "title": "Comparisons, minima and maxima are those of the numbers", "statement": "==, !=, <, <=, > and >= between sparse objects, and between a sparse object and an array, with broadcasting, answer for every cell as the exact numbers compare, with infinities at the ends of the order; with NaN only != holds, and the two zeros are equal. min and max over everything, rows or columns return a value equal to one of the cells (implicit zeros included) that no other cell undercuts or exceeds, if no NaN is stored.", "quantifier": "all matrices and arrays of doubles a program can reach, all shapes that broadcast, all axes, all schedules", "why_tests_cant": "doubles are compared bitwise by sign, exponent and mantissa; that this is the order of the numbers is a claim about all 2^128 pairs", "anchors": ["python/lacuna/array_api/_dispatch/elementwise.py: less", "crates/lacuna-kernels/src/statistical/minmax.rs: min_f64, max_f64, min_csc_f64, min_coo_f64"]}
{"id": "C90", "title": "A NaN is not lost", "statement": "A NaN that a sparse object stores makes every result that depends on its cell NaN: the sum, mean, variance and standard deviation over everything, its row or its column, and the product if no cell there is absent; every later cumulative sum of its line; every difference it takes part in; A + B and A - B, and A * B where both store a value; A * s, A / s, A // s and A % s unless s or 1/s is zero; abs, sign and -A; the elements of A @ B of its row, even where the dense factor is zero; sums over axes and broadcast products of N-D arrays. A NaN in a dense factor reaches every element whose row stores something there.", "quantifier": "all objects of doubles a program can reach, every position of the NaN, all axes, all schedules", "why_tests_cant": "each kernel has its own skipping of zeros and its own order of summation; a test places one NaN in one matrix of one format", "anchors": ["crates/lacuna-kernels/src/statistical/sum.rs: sum_f64, row_sums_f64", "crates/lacuna-kernels/src/statistical/prod.rs: prod_f64", "crates/lacuna-kernels/src/linalg/matmul.rs: spmv_f64_i64, spmv_csc_f64_i64, spmv_coo_f64_i64", "crates/lacuna-kernels/src/utility/prune.rs: prune_eps, prune_eps_coo"]}
{"id": "C91", "title": "The format of a matrix does not change results", "statement": "A program that applies operators with numbers, abs, sign, negation, transposes, prune with a threshold other than zero, toarray, all, any, count_nonzero and comparisons, and the arithmetic operators of two matrices if formats that were equal stay equal and COO stays COO, gives the same results whatever formats its matrices are in: the same calls raise, and the others return the same matrices, entry by entry and bit by bit, or the same arrays up to the sign of zeros. min and max agree likewise if no NaN is stored.", "quantifier": "all programs of these calls, all matrices and translations of formats, all schedules of either run", "why_tests_cant": "each operation has one kernel per format; agreement of three implementations on all inputs and sequences cannot be enumerated", "anchors": ["crates/lacuna-kernels/src/elementwise/multiply.rs: hadamard_csr_f64_i64, hadamard_csc_f64_i64", "crates/lacuna-kernels/src/utility/prune.rs: prune_eps, prune_eps_csc, prune_eps_coo", "crates/lacuna-kernels/src/statistical/logic.rs", "crates/lacuna-kernels/src/statistical/minmax.rs", "python/lacuna/sparse/csr.py", "python/lacuna/sparse/csc.py", "python/lacuna/sparse/coo.py"]}
{"id": "C92", "title": "Transposing commutes with the operations", "statement": "A program that applies operators with numbers, abs, sign, negation, transposes, prune with a threshold other than zero, the arithmetic operators of two matrices, and all, any and count_nonzero gives transposed results when every matrix it starts from is replaced by its transpose in the same format and axes 0 and 1 of reductions change places: the same calls raise, matrices are transposes of each other entry by entry and bit by bit, and reductions have the same elements and the reversed shape. min and max agree likewise, up to the sign of zeros, if no NaN is stored. The product of the transpose with a vector gives the same numbers as vecdot along axis 0, for integers whose products add up to at most 2^53 in absolute value.", "quantifier": "all programs of these calls, all matrices, formats, axis arguments and schedules of either run", "why_tests_cant": "rows and columns are handled by different kernels of each format; their agreement on all inputs and sequences cannot be enumerated", "anchors": ["crates/lacuna-kernels/src/linalg/matrix_transpose.rs: transpose_f64_i64, transpose_csc_f64_i64, transpose_coo_f64_i64", "crates/lacuna-kernels/src/elementwise/add.rs", "crates/lacuna-kernels/src/elementwise/multiply.rs", "crates/lacuna-kernels/src/statistical/logic.rs", "crates/lacuna-kernels/src/statistical/minmax.rs", "python/lacuna/sparse/csr.py", "python/lacuna/sparse/csc.py", "python/lacuna/sparse/coo.py"]}
{"id": "C93", "title": "Reductions along the axes fit the reduction of the whole matrix", "statement": "For any matrix a program can hold: the row counts and the column counts of count_nonzero add up to the count without an axis, and no count exceeds the number of cells of its line; all (any) of the row results and of the column results is the result without an axis, all implies that count_nonzero is the number of cells and any that it is positive; the min (max) without an axis is, up to the sign of a zero, the least (greatest) of the row results and of the column results, if no NaN is stored; if the stored numbers are integers of total size at most 2^53, the row sums and the column sums add up exactly to the sum without an axis.", "quantifier": "all matrices in all formats, all schedules of each of the calls", "why_tests_cant": "each result comes from a different kernel (per row, per column, whole); their agreement must hold for every matrix and schedule", "anchors": ["crates/lacuna-kernels/src/statistical/logic.rs", "crates/lacuna-kernels/src/statistical/minmax.rs", "python/lacuna/sparse/csr.py", "python/lacuna/sparse/csc.py", "python/lacuna/sparse/coo.py"]}
{"id": "C94", "title": "Products with vectors are linear and adjoint to each other", "statement": "For a matrix of integers a program can hold and vectors of integers, as long as the absolute values of the products that make up each result add up to at most 2^53: the product of the matrix with p v + q w is p times its product with v plus q times its product with w, the product of the sum or difference of two CSR or two CSC matrices with a vector is the sum or difference of their products (if the entries of the result are at most 2^53 in absolute value), and the inner product of w with A @ v is that of vecdot(A, w, axis=0) with v, all exactly.", "quantifier": "all integer matrices in all formats, all vectors and coefficients within the bound, all schedules of each of the calls", "why_tests_cant": "the products come from different kernels with different orders of summation; linearity relates three runs on all inputs", "anchors": ["crates/lacuna-kernels/src/linalg/matmul.rs: spmv_f64_i64, spmv_csc_f64_i64, spmv_coo_f64_i64", "crates/lacuna-kernels/src/linalg/vecdot.rs", "python/lacuna/sparse/csr.py", "python/lacuna/sparse/csc.py", "python/lacuna/sparse/coo.py"]}
