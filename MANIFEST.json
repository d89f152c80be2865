{
 "claims": [
  {
   "property": "C01",
   "status": "proved",
   "theorems": [
    "C01_csr_checked_construction",
    "C01_csc_checked_construction"
   ],
   "note": "CSR and CSC checked constructors accept exactly the canonical inputs."
  },
  {
   "property": "C02",
   "status": "proved",
   "theorems": [
    "C02_coo_checked_construction",
    "C02_coond_checked_construction"
   ],
   "note": ""
  },
  {
   "property": "C03",
   "status": "proved",
   "theorems": [
    "C03_csr_unchecked_construction",
    "C03_csc_unchecked_construction",
    "C03_unchecked_can_be_invalid",
    "C03_coo_unchecked_construction",
    "C03_coond_unchecked_construction"
   ],
   "note": "Unchecked construction: exact acceptance condition, and that it can admit invalid matrices."
  },
  {
   "property": "C04",
   "status": "proved",
   "theorems": [
    "C04_csr_to_csc_preserves_cells",
    "C04_csc_to_csr_preserves_cells",
    "C04_every_slot_reserved_once"
   ],
   "note": "Every interleaving of the atomic slot reservations and every order of the writes."
  },
  {
   "property": "C05",
   "status": "partial",
   "theorems": [
    "C05_csr_to_csc_canonical_refuted",
    "C05_csc_to_csr_canonical_refuted",
    "C05_sequential_canonical_partial"
   ],
   "note": "The property is FALSE of the code: a schedule exists under which the result is not sorted (finding). Proved for in-order execution only."
  },
  {
   "property": "C06",
   "status": "proved",
   "theorems": [
    "C06_csr_to_coo",
    "C06_csc_to_coo"
   ],
   "note": ""
  },
  {
   "property": "C07",
   "status": "proved",
   "theorems": [
    "C07_coo_to_csr",
    "C07_coo_to_csc",
    "C07_coo_to_csr_exact"
   ],
   "note": "FSum spells out: some order and association of f64 additions of exactly the listed values; equality in exact arithmetic."
  },
  {
   "property": "C08",
   "status": "proved",
   "theorems": [
    "C08_csr_coo_csr",
    "C08_csc_coo_csc",
    "C08_csr_csc_csr",
    "C08_csc_csr_csc"
   ],
   "note": ""
  },
  {
   "property": "C09",
   "status": "proved",
   "theorems": [
    "C09_transpose_csr",
    "C09_transpose_csc",
    "C09_transpose_unsorted",
    "C09_both_strategies_agree",
    "C09_transpose_coo",
    "C09_transpose_csr_valid",
    "C09_transpose_csc_valid",
    "C09_duplicates_lost"
   ],
   "note": ""
  },
  {
   "property": "C10",
   "status": "proved",
   "theorems": [
    "C10_transpose_csr_involutive",
    "C10_transpose_csc_involutive",
    "C10_transpose_coo_involutive"
   ],
   "note": ""
  },
  {
   "property": "C11",
   "status": "proved",
   "theorems": [
    "C11_add_csr",
    "C11_add_csr_exact",
    "C11_add_csr_shape_mismatch",
    "C11_add_csc",
    "C11_add_csc_exact",
    "C11_add_csc_shape_mismatch"
   ],
   "note": ""
  },
  {
   "property": "C12",
   "status": "proved",
   "theorems": [
    "C12_sub_csr",
    "C12_sub_csr_exact",
    "C12_sub_csr_shape_mismatch",
    "C12_sub_csc",
    "C12_sub_csc_exact",
    "C12_sub_csc_shape_mismatch"
   ],
   "note": ""
  },
  {
   "property": "C13",
   "status": "proved",
   "theorems": [
    "C13_hadamard_csr",
    "C13_hadamard_csc",
    "C13_hadamard_csr_shape_mismatch",
    "C13_hadamard_csc_shape_mismatch",
    "C13_hadamard_csr_dense",
    "C13_hadamard_csc_dense"
   ],
   "note": "Stored cells characterised exactly; equality with the dense product for finite operands."
  },
  {
   "property": "C14",
   "status": "proved",
   "theorems": [
    "C14_div_csr",
    "C14_div_csc",
    "C14_div_csr_shape_mismatch",
    "C14_div_csc_shape_mismatch",
    "C14_rem_csr",
    "C14_rem_csc",
    "C14_rem_csr_shape_mismatch",
    "C14_rem_csc_shape_mismatch",
    "C14_floordiv_csr",
    "C14_floordiv_csc",
    "C14_floordiv_csr_shape_mismatch",
    "C14_floordiv_csc_shape_mismatch",
    "C14_pow_csr",
    "C14_pow_csc",
    "C14_pow_csr_shape_mismatch",
    "C14_pow_csc_shape_mismatch",
    "C14_pow_csr_zero_sign",
    "C14_pow_csc_zero_sign"
   ],
   "note": "pow: operands enter powf as 0.0 + x; the _zero_sign theorems remove that under a stated property of powf."
  },
  {
   "property": "C15",
   "status": "proved",
   "theorems": [
    "C15_add_passes_agree",
    "C15_sub_passes_agree",
    "C15_hadamard_passes_agree",
    "C15_div_passes_agree",
    "C15_pow_passes_agree",
    "C15_rem_passes_agree",
    "C15_floordiv_passes_agree",
    "C15_add_csr_safe",
    "C15_add_csc_safe",
    "C15_sub_csr_safe",
    "C15_sub_csc_safe",
    "C15_hadamard_csr_safe",
    "C15_hadamard_csc_safe",
    "C15_div_csr_safe",
    "C15_div_csc_safe",
    "C15_pow_csr_safe",
    "C15_pow_csc_safe",
    "C15_rem_csr_safe",
    "C15_rem_csc_safe",
    "C15_floordiv_csr_safe",
    "C15_floordiv_csc_safe",
    "C15_slots_disjoint_and_cover"
   ],
   "note": "For all structurally valid operands and every task order."
  },
  {
   "property": "C16",
   "status": "proved",
   "theorems": [
    "C16_mul_scalar",
    "C16_abs",
    "C16_sign",
    "C16_pow_scalar",
    "C16_rem_scalar",
    "C16_floordiv_scalar",
    "C16_mul_scalar_is_product",
    "C16_mul_scalar_zero_times_nan_refuted"
   ],
   "note": "The _refuted theorem records the excluded corner: alpha = 0 stores 0 for NaN/inf."
  },
  {
   "property": "C17",
   "status": "proved",
   "theorems": [
    "C17_prune_csr",
    "C17_prune_csc",
    "C17_prune_coo",
    "C17_prune_coond",
    "C17_negative_eps_is_identity"
   ],
   "note": ""
  },
  {
   "property": "C18",
   "status": "partial",
   "theorems": [
    "C18_eliminate_zeros_drops_nan_refuted",
    "C18_nan_survival_depends_on_other_entries_refuted",
    "C18_eliminate_zeros_csr_partial",
    "C18_eliminate_zeros_csc_partial",
    "C18_eliminate_zeros_coo_partial",
    "C18_eliminate_zeros_coond_partial"
   ],
   "note": "FALSE for NaN (finding): NaN entries are removed iff some stored entry is zero (CSR/CSC) or always (COO/COOND). Proved for matrices without NaN."
  },
  {
   "property": "C19",
   "status": "proved",
   "theorems": [
    "C19_hash_map_sums_by_key",
    "C19_drain_to",
    "C19_max_key_lost"
   ],
   "note": ""
  },
  {
   "property": "C20",
   "status": "proved",
   "theorems": [
    "C20_strides_exact",
    "C20_strides_defined",
    "C20_linearize_exact_or_panic",
    "C20_linearize",
    "C20_positions_distinct",
    "C20_positions_onto",
    "C20_product_exact_or_panic",
    "C20_overflow_panics"
   ],
   "note": ""
  },
  {
   "property": "C21",
   "status": "partial",
   "theorems": [
    "C21_reshape",
    "C21_count_mismatch_panics",
    "C21_reshape_back",
    "C21_huge_dimension_refuted"
   ],
   "note": "Proved for shapes that fit; a dimension above 2^63 turns negative (finding)."
  },
  {
   "property": "C22",
   "status": "proved",
   "theorems": [
    "C22_permute",
    "C22_not_a_permutation_panics",
    "C22_inverse_restores"
   ],
   "note": ""
  },
  {
   "property": "C23",
   "status": "proved",
   "theorems": [
    "C23_add",
    "C23_sub",
    "C23_shape_mismatch_panics",
    "C23_sorted_no_duplicates",
    "C23_add_sub_exact",
    "C23_beyond_limit_value_lost"
   ],
   "note": ""
  },
  {
   "property": "C24",
   "status": "partial",
   "theorems": [
    "C24_hadamard",
    "C24_hadamard_shape_mismatch_panics",
    "C24_broadcast",
    "C24_broadcast_mismatch_panics",
    "C24_hadamard_exact",
    "C24_broadcast_exact",
    "C24_broadcast_empty_dimension_refuted"
   ],
   "note": "FALSE for a dimension 0 against 1 (finding); proved for all other broadcastable shapes."
  },
  {
   "property": "C25",
   "status": "partial",
   "theorems": [
    "C25_unfold_to_coo",
    "C25_unfold_to_csr",
    "C25_unfold_to_csc",
    "C25_unfold_to_csr_exact",
    "C25_cell_of_coordinate",
    "C25_bad_axes_panic",
    "C25_mode",
    "C25_huge_side_refuted"
   ],
   "note": "Proved when both sides of the unfolding fit; a side above 2^63 turns negative (finding)."
  },
  {
   "property": "C26",
   "status": "proved",
   "theorems": [
    "C26_reduce_sum",
    "C26_reduce_mean",
    "C26_exact",
    "C26_bad_axes_panic"
   ],
   "note": ""
  },
  {
   "property": "C27",
   "status": "proved",
   "theorems": [
    "C27_spmv_csr",
    "C27_spmv_csr_exact",
    "C27_length_mismatch_panics"
   ],
   "note": ""
  },
  {
   "property": "C28",
   "status": "proved",
   "theorems": [
    "C28_spmv_csc",
    "C28_spmv_coo",
    "C28_spmv_csc_exact",
    "C28_spmv_coo_exact",
    "C28_formats_agree_exact",
    "C28_length_mismatch_panics"
   ],
   "note": ""
  },
  {
   "property": "C29",
   "status": "proved",
   "theorems": [
    "C29_spmv_nd",
    "C29_spmv_nd_exact",
    "C29_mismatch_panics"
   ],
   "note": ""
  },
  {
   "property": "C30",
   "status": "partial",
   "theorems": [
    "C30_spmm_nd",
    "C30_spmm_nd_exact",
    "C30_spmm_nd_mismatch_panics",
    "C30_spmm_nd_wrapping_size_check_refuted",
    "C30_spmm_csr",
    "C30_spmm_csc",
    "C30_spmm_coo",
    "C30_spmm_auto",
    "C30_spmm_exact",
    "C30_spmm_size_mismatch_panics",
    "C30_spmm_wrapping_size_check_refuted"
   ],
   "note": "Proved when ncols * k fits; otherwise the size check wraps and rows are read out of bounds (finding)."
  },
  {
   "property": "C31",
   "status": "partial",
   "theorems": [
    "C31_tensordot_nd",
    "C31_tensordot_nd_mismatch_panics",
    "C31_tensordot_nd_zero_columns",
    "C31_tensordot",
    "C31_tensordot_mismatch_panics",
    "C31_zero_columns",
    "C31_csr_zero_columns_refuted"
   ],
   "note": "CSR times a matrix without columns panics (finding); everything else is proved."
  },
  {
   "property": "C32",
   "status": "proved",
   "theorems": [
    "C32_vecdot_nd_is_spmv",
    "C32_vecdot_axis1_is_spmv",
    "C32_vecdot_csr_axis0",
    "C32_vecdot_csc_axis0",
    "C32_vecdot_coo_axis0",
    "C32_vecdot_axis0_exact",
    "C32_vecdot_length_mismatch_panics"
   ],
   "note": ""
  },
  {
   "property": "C33",
   "status": "proved",
   "theorems": [
    "C33_sum_csr",
    "C33_sum_csc",
    "C33_sum_coo",
    "C33_sum_coond",
    "C33_sum_exact"
   ],
   "note": ""
  },
  {
   "property": "C34",
   "status": "proved",
   "theorems": [
    "C34_row_sums_csr",
    "C34_col_sums_csc",
    "C34_col_sums_csr",
    "C34_row_sums_csc",
    "C34_row_sums_coo",
    "C34_col_sums_coo",
    "C34_sums_exact"
   ],
   "note": ""
  },
  {
   "property": "C35",
   "status": "proved",
   "theorems": [
    "C35_mean",
    "C35_mean_no_axes",
    "C35_mean_exact"
   ],
   "note": ""
  },
  {
   "property": "C36",
   "status": "proved",
   "theorems": [
    "C36_min_max_csr",
    "C36_min_max_csc",
    "C36_min_max_coo",
    "C36_rows_csr",
    "C36_cols_csc",
    "C36_cols_csr",
    "C36_rows_csc",
    "C36_rows_coo",
    "C36_cols_coo"
   ],
   "note": ""
  },
  {
   "property": "C37",
   "status": "proved",
   "theorems": [
    "C37_prod_csr",
    "C37_prod_csc",
    "C37_prod_coo",
    "C37_prod_coond",
    "C37_rows_csr",
    "C37_cols_csc",
    "C37_cols_csr",
    "C37_rows_csc",
    "C37_rows_coo",
    "C37_cols_coo",
    "C37_prod_exact"
   ],
   "note": ""
  },
  {
   "property": "C38",
   "status": "proved",
   "theorems": [
    "C38_var_csr",
    "C38_var_csc",
    "C38_var_coo",
    "C38_var_coond",
    "C38_row_vars_csr",
    "C38_col_vars_csc",
    "C38_col_vars_csr",
    "C38_row_vars_csc",
    "C38_vars_coo",
    "C38_var_ieee",
    "C38_vars_ieee",
    "C38_std_csr",
    "C38_row_stds_csr"
   ],
   "note": ""
  },
  {
   "property": "C39",
   "status": "proved",
   "theorems": [
    "C39_csr",
    "C39_csc",
    "C39_coond",
    "C39_coo",
    "C39_rows_csr",
    "C39_cols_csc",
    "C39_cols_csr",
    "C39_rows_csc"
   ],
   "note": ""
  },
  {
   "property": "C40",
   "status": "partial",
   "theorems": [
    "C40_cumsum_axis1",
    "C40_cumsum_axis0",
    "C40_cumprod_axis1",
    "C40_cumprod_axis0",
    "C40_exact",
    "C40_coo",
    "C40_csc_axis0",
    "C40_csc_axis1_refuted",
    "C40_csc_axis1_partial",
    "C40_wrapping_size_refuted"
   ],
   "note": "CSR, COO and CSC axis 0 proved in full. CSC axis 1 is schedule dependent (finding; proved for in-order conversion). When nrows * ncols wraps, stores go out of bounds (finding)."
  },
  {
   "property": "C41",
   "status": "partial",
   "theorems": [
    "C41_diff_csr_axis1",
    "C41_diff_csr_axis0",
    "C41_diff_csc_axis1",
    "C41_diff_csc_axis0",
    "C41_diff_coo_axis1",
    "C41_diff_coo_axis0",
    "C41_csc_canonical_refuted",
    "C41_exact"
   ],
   "note": "Values proved for all formats; CSC results need not be canonical (finding)."
  },
  {
   "property": "C42",
   "status": "proved",
   "theorems": [
    "C42_work_ranges",
    "C42_chunks_cover"
   ],
   "note": ""
  },
  {
   "property": "C43",
   "status": "proved",
   "theorems": [
    "C43_accumulators",
    "C43_accumulators_exact"
   ],
   "note": ""
  },
  {
   "property": "C44",
   "status": "partial",
   "theorems": [
    "C44_getitem",
    "C44_getrow_partial",
    "C44_getcol_partial",
    "C44_toarray",
    "C44_toarray_unsorted",
    "C44_toarray_coo",
    "C44_toarray_coond",
    "C44_getrow_getcol_range_refuted"
   ],
   "note": "A[i,j] and toarray proved in full. The range claim is FALSE for A[i,:] and A[:,j] (finding): they do not raise and return zeros or another row."
  },
  {
   "property": "C45",
   "status": "partial",
   "theorems": [
    "C45_count_nonzero_csr_partial",
    "C45_count_nonzero_csc_partial",
    "C45_count_nonzero_coo_partial",
    "C45_counts_stored_entries",
    "C45_explicit_zeros_and_duplicates_refuted",
    "C45_coond_refuted"
   ],
   "note": "FALSE in general (finding): stored zeros and duplicates are counted. Proved for matrices without them, and exactly what is counted in general."
  },
  {
   "property": "C46",
   "status": "proved",
   "theorems": [
    "C46_zeros",
    "C46_diag",
    "C46_eye"
   ],
   "note": ""
  },
  {
   "property": "C47",
   "status": "partial",
   "theorems": [
    "C47_sums",
    "C47_spmv",
    "C47_mul_scalar",
    "C47_all_any",
    "C47_reductions_refuted",
    "C47_row_reductions_refuted",
    "C47_coond_refuted",
    "C47_elementwise_refuted",
    "C47_unique_partial",
    "C47_var_unique_partial"
   ],
   "note": "FALSE with duplicate coordinates for min, max, prod, var, abs, sign, prune, all (finding); proved for sums and products, which add duplicates up."
  },
  {
   "property": "C48",
   "status": "proved",
   "theorems": [
    "C48_add_comm",
    "C48_mul_comm",
    "C48_add_zero",
    "C48_sub_self",
    "C48_sub_self_infinite",
    "C48_transpose_add",
    "C48_transpose_sub",
    "C48_transpose_mul",
    "C48_transpose_div",
    "C48_add_assoc",
    "C48_add_sub_cancel",
    "C48_mul_distributes",
    "C48_mul_assoc",
    "C48_spmv_add_vector",
    "C48_spmv_scale_vector",
    "C48_spmv_add_matrix",
    "C48_adjoint",
    "C48_eye",
    "C48_sum_add",
    "C48_sum_transpose",
    "C48_row_sums_transpose",
    "C48_calls_add_comm",
    "C48_calls_mul_comm",
    "C48_calls_sub_neg",
    "C48_calls_sub_self",
    "C48_calls_neg_neg",
    "C48_calls_abs_neg",
    "C48_calls_transpose_twice",
    "C48_calls_idempotent"
   ],
   "note": ""
  },
  {
   "property": "C49",
   "status": "partial",
   "theorems": [
    "C49_matmul_csr_partial",
    "C49_matmul_csc",
    "C49_matmul_coo",
    "C49_inner_mismatch",
    "C49_empty_batch_refuted"
   ],
   "note": "CSR panics on empty batches (finding); proved for nonempty ones, and without restriction for CSC and COO."
  },
  {
   "property": "C50",
   "status": "proved",
   "theorems": [
    "C50_elementwise",
    "C50_prune",
    "C50_transpose",
    "C50_to_coo",
    "C50_products",
    "C50_sum_depends_on_split"
   ],
   "note": "Results of the listed kernels are schedule independent; totals are not (C50_sum_depends_on_split records it)."
  },
  {
   "property": "C51",
   "status": "partial",
   "theorems": [
    "C51_closure_partial",
    "C51_conversion_refuted",
    "C51_chain_refuted"
   ],
   "note": "Closed under all operations except the direct CSR/CSC conversion and CSC diff, whose order depends on the schedule (finding)."
  },
  {
   "property": "C52",
   "status": "partial",
   "theorems": [
    "C52_csr",
    "C52_csc_partial",
    "C52_coo_partial",
    "C52_invalid_accepted_refuted",
    "C52_csc_transpose_out_of_bounds_refuted"
   ],
   "note": "FALSE for CSC, COO and COOND (finding): errors are swallowed, and a later transpose is undefined behaviour. Proved for CSR."
  },
  {
   "property": "C53",
   "status": "partial",
   "theorems": [
    "C53_exact",
    "C53_zero_divisor",
    "C53_floordiv_mod",
    "C53_truediv_rounding_refuted"
   ],
   "note": "In double precision A/alpha multiplies by the rounded reciprocal (finding); equality proved in exact arithmetic."
  },
  {
   "property": "C54",
   "status": "proved",
   "theorems": [
    "C54_compare",
    "C54_compare_coond"
   ],
   "note": ""
  },
  {
   "property": "C55",
   "status": "partial",
   "theorems": [
    "C55_reduce_sum_axes",
    "C55_reduce_mean_axes",
    "C55_bad_axis",
    "C55_all_axes_refuted"
   ],
   "note": "Proved for sum with proper axis sets; naming all axes panics (finding); the mean kernel is covered by C26."
  },
  {
   "property": "C56",
   "status": "proved",
   "theorems": [
    "C56_sum_csr",
    "C56_sum_csc",
    "C56_sum_coo",
    "C56_mean",
    "C56_dispatch",
    "C56_reduction_2d_meaning"
   ],
   "note": ""
  },
  {
   "property": "C57",
   "status": "partial",
   "theorems": [
    "C57_handles_hold_the_arrays",
    "C57_after_data_assignment_refuted"
   ],
   "note": "FALSE after an assignment to A.data (finding): the handle keeps the old values. Proved for every history without one."
  },
  {
   "property": "C58",
   "status": "partial",
   "theorems": [
    "C58_memory_safe",
    "C58_memory_safe_f64",
    "C58_unchecked_arrays_refuted"
   ],
   "note": "For all histories of modelled calls, IEEE and exact arithmetic. The refuted theorem shows the valid-arrays condition is needed: CSC and COO do not check even with check=True."
  },
  {
   "property": "C59",
   "status": "proved",
   "theorems": [
    "C59_programs_compute_dense_values",
    "C59_environment_does_not_matter"
   ],
   "note": "Exact arithmetic (rationals), all histories of the listed calls, all environments. The second theorem compares two environments. Calls for which the dense machine gives None are not claimed: minima and maxima, standard deviation, count_nonzero, powers, matmul of N-D arrays, N-D arrays with an empty dimension in products and new shapes, division of two matrices, and the calls refuted elsewhere (C40, C41, C45)."
  },
  {
   "property": "C60",
   "status": "proved",
   "theorems": [
    "C60_scalar_operators",
    "C60_scalar_operators_coond",
    "C60_unary_maps",
    "C60_unary_maps_coond",
    "C60_prune",
    "C60_eliminate_zeros",
    "C60_transpose",
    "C60_common_entries",
    "C60_sums",
    "C60_no_binary_operators",
    "C60_set_data",
    "C60_sums_entries"
   ],
   "note": "IEEE arithmetic unless a theorem says any F. eliminate_zeros needs that no NaN is stored (C18)."
  },
  {
   "property": "C61",
   "status": "proved",
   "theorems": [
    "C61_objects_stay_regular",
    "C61_ieee",
    "C61_programs_reach"
   ],
   "note": "C61_programs_reach shows that `reached` covers every run of regular calls."
  },
  {
   "property": "C62",
   "status": "proved",
   "theorems": [
    "C62_reductions",
    "C62_mean_of_nothing",
    "C62_all_any",
    "C62_count_nonzero"
   ],
   "note": "IEEE arithmetic; min and max need that no NaN is stored, as in C36."
  },
  {
   "property": "C63",
   "status": "proved",
   "theorems": [
    "C63_permute",
    "C63_reshape",
    "C63_reduce_axes",
    "C63_unfold",
    "C63_broadcast",
    "C63_tensordot",
    "C63_vecdot",
    "C63_sum_mean",
    "C63_other_reductions"
   ],
   "note": "IEEE arithmetic for the unfoldings and totals, any number type for the rest. tensordot merges the remaining axes of the dense array into one (C31). Naming all axes raises (C55)."
  },
  {
   "property": "C64",
   "status": "proved",
   "theorems": [
    "C64_matmul",
    "C64_matmul_operands",
    "C64_tensordot",
    "C64_vecdot",
    "C64_other_operands"
   ],
   "note": "Any number type; integer and boolean right operands included. columns_ok is the exception recorded in C31."
  },
  {
   "property": "C65",
   "status": "proved",
   "theorems": [
    "C65_toarray",
    "C65_compare",
    "C65_compare_same_shape",
    "C65_getitem",
    "C65_getrow",
    "C65_getcol"
   ],
   "note": "Any number type. An integer or boolean array is converted to float64 (its integers rounded) as np.asarray does. C65_getrow and C65_getcol also say what happens out of range (C44)."
  },
  {
   "property": "C66",
   "status": "partial",
   "theorems": [
    "C66_cumulative",
    "C66_diff",
    "C66_cumulative_csc_axis1_partial"
   ],
   "note": "IEEE arithmetic. CSC along axis 1 is schedule dependent (C40_csc_axis1_refuted); proved when the conversion runs in order, and in full for everything else."
  },
  {
   "property": "C67",
   "status": "proved",
   "theorems": [
    "C67_valid_arrays",
    "C67_invalid_arrays",
    "C67_generated"
   ],
   "note": "Any number type. C67_invalid_arrays says exactly what happens to invalid arrays."
  },
  {
   "property": "C68",
   "status": "proved",
   "theorems": [
    "C68_supported_pairs",
    "C68_with_a_number",
    "C68_with_a_number_coond",
    "C68_pairs",
    "C68_multiply_coond",
    "C68_unary",
    "C68_compare"
   ],
   "note": "The calls of C60, C63 and C65 say what the method calls compute. Python numbers are floats of the model; subclass operators of int and bool are not distinguished."
  },
  {
   "property": "C69",
   "status": "partial",
   "theorems": [
    "C69_matmul",
    "C69_tensordot",
    "C69_only_the_first_axes_count",
    "C69_vecdot",
    "C69_matrix_transpose",
    "C69_more_axes_refuted"
   ],
   "note": "FALSE for several axes: tensordot contracts the first axis of each list and drops the others (C69_more_axes_refuted)."
  },
  {
   "property": "C70",
   "status": "partial",
   "theorems": [
    "C70_no_sparse_argument_reaches_numpy",
    "C70_other_functions",
    "C70_exceptions_refuted"
   ],
   "note": "FALSE for matrix_transpose and count_nonzero of N-D arrays and for lists of sparse objects (C70_exceptions_refuted); proved for every other function and argument."
  },
  {
   "property": "C71",
   "status": "proved",
   "theorems": [
    "C71_one_argument"
   ],
   "note": "C62, C63, C66 say what the methods compute."
  },
  {
   "property": "C72",
   "status": "proved",
   "theorems": [
    "C72_functions_add_no_states",
    "C72_memory_safe"
   ],
   "note": "NLaws covers IEEE and exact arithmetic."
  },
  {
   "property": "C73",
   "status": "proved",
   "theorems": [
    "C73_zeros",
    "C73_eye",
    "C73_astype"
   ],
   "note": "Any number type; astype of IEEE values. Sizes of eye below 2^63 - 1."
  },
  {
   "property": "C74",
   "status": "partial",
   "theorems": [
    "C74_set_get",
    "C74_positive",
    "C74_fraction_refuted"
   ],
   "note": "FALSE for a fraction below 1: set_num_threads(0.5) stores 0, which get_num_threads answers once the variable is unset (C74_fraction_refuted)."
  },
  {
   "property": "C75",
   "status": "partial",
   "theorems": [
    "C75_checked_calls_are_safe",
    "C75_ieee",
    "C75_invalid_arrays_raise",
    "C75_unchecked_valid",
    "C75_unchecked_refuted"
   ],
   "note": "FALSE with check=False: arrays with an index out of range make spmv_from_parts read outside the vector (C75_unchecked_refuted); proved with check=True for all arrays, and for either flag on valid arrays. Size limits: within_limits."
  },
  {
   "property": "C76",
   "status": "proved",
   "theorems": [
    "C76_same_as_the_method",
    "C76_reached_objects_qualify",
    "C76_holds",
    "C76_tensordot_of_a_matrix"
   ],
   "note": "Stated in the direction method returns -> function returns the same; methods reject more (zero divisors, empty shapes). 1-D tensordot uses another kernel: see C79."
  },
  {
   "property": "C77",
   "status": "proved",
   "theorems": [
    "C77_conversions_keep_cells",
    "C77_from_coo"
   ],
   "note": "CSR to CSC and back need not be sorted (C05)."
  },
  {
   "property": "C78",
   "status": "partial",
   "theorems": [
    "C78_promotion_is_symmetric",
    "C78_promotion_of_one_type",
    "C78_promotion_defined",
    "C78_promotion_grouping",
    "C78_promoted_type",
    "C78_kinds",
    "C78_unsigned_refuted",
    "C78_devices",
    "C78_defaults"
   ],
   "note": "FALSE for unsigned types: uint32 and uint64 have a size and are integer types but promote with nothing (C78_unsigned_refuted)."
  },
  {
   "property": "C79",
   "status": "proved",
   "theorems": [
    "C79_product",
    "C79_all_any",
    "C79_variance",
    "C79_variance_ieee",
    "C79_scalar_multiple",
    "C79_tensordot"
   ],
   "note": "Variance exact over the rationals, and the documented formula on floating-point sums in IEEE arithmetic. Arrays that store a position twice are outside (C40, C41). tensordot with zero columns raises for CSR (C30) and is outside."
  },
  {
   "property": "C80",
   "status": "partial",
   "theorems": [
    "C80_bad_arguments_raise",
    "C80_diff_axis_refuted"
   ],
   "note": "FALSE for diff: the native function takes every axis other than 0 for the last one (C80_diff_axis_refuted); proved for all other functions."
  },
  {
   "property": "C81",
   "status": "partial",
   "theorems": [
    "C81_race_free_is_sequential",
    "C81_overlapping_calls_are_a_program",
    "C81_threads_safe",
    "C81_operands_are_copied",
    "C81_borrowed_operand_refuted"
   ],
   "note": "FALSE for tensordot and vecdot, which read the dense array itself while other threads run (C81_borrowed_operand_refuted); proved for programs without such writes and for all other calls. A racing read is modelled as one of the values the element has during the call; Rust leaves it undefined."
  },
  {
   "property": "C82",
   "status": "proved",
   "theorems": [
    "C82_sums",
    "C82_cumulative_sums",
    "C82_nd_sums",
    "C82_means",
    "C82_nd_means",
    "C82_matmul",
    "C82_tensordot",
    "C82_vecdot",
    "C82_nd_vecdot",
    "C82_nd_tensordot"
   ],
   "note": "Sums assume that the stored values are doubles (the model has more numbers than binary64); products assume nothing. cumsum of CSC along axis 1 is left out (C40)."
  },
  {
   "property": "C83",
   "status": "proved",
   "theorems": [
    "C83_sums",
    "C83_matmul",
    "C83_format_independent",
    "C83_cumulative_sums",
    "C83_means",
    "C83_tensordot",
    "C83_vecdot",
    "C83_nd_sums",
    "C83_nd_vecdot",
    "C83_nd_tensordot"
   ],
   "note": "Sums, cumulative sums (CSC along axis 1 is left out, C40), means, matrix-vector, matrix-matrix and batched products, tensordot, vecdot, and the N-dimensional sums, vecdot and tensordot."
  },
  {
   "property": "C84",
   "status": "proved",
   "theorems": [
    "C84_sums",
    "C84_cumulative_sums",
    "C84_nd_sums",
    "C84_means",
    "C84_nd_means",
    "C84_matmul",
    "C84_tensordot",
    "C84_vecdot",
    "C84_nd_vecdot"
   ],
   "note": "Same calls as C82, each with the error bound. The bound 2^1022 leaves room for the rounding errors of up to 2^51 terms; C84_sums_need_modest shows that some bound is needed."
  },
  {
   "property": "C85",
   "status": "partial",
   "theorems": [
    "C85_vars",
    "C85_stds",
    "C85_relative_refuted",
    "C85_overflow_refuted"
   ],
   "note": "Refuted: an error relative to the variance (two cells 2^27 and 2^27+1 give 0 instead of 1/4), and a visible overflow (four of eight cells 2^510 give 0 instead of 2^1018: the difference is minus infinity and is clamped)."
  },
  {
   "property": "C86",
   "status": "partial",
   "theorems": [
    "C86_sums",
    "C86_products_quotients",
    "C86_numbers",
    "C86_overflow_refuted",
    "C86_nd_products"
   ],
   "note": "Refuted: a quotient that overflows is dropped, so 2^1000 / 2^-1000 reads 0."
  },
  {
   "property": "C87",
   "status": "partial",
   "theorems": [
    "C87_operators",
    "C87_numbers",
    "C87_nd_numbers",
    "C87_remainder_sign_refuted",
    "C87_quotient_by_number_refuted",
    "C87_nd_products"
   ],
   "note": "Refuted for other doubles: 6.3 % 2.1 is negative; and A / 49 of a stored 49 is not 1 (the reciprocal is rounded)."
  },
  {
   "property": "C88",
   "status": "proved",
   "theorems": [
    "C88_integer_programs",
    "C88_environment_does_not_matter"
   ],
   "note": "Simulation between the model of the package and a machine on dense integer tables (SpecInt.v). N-D arrays are covered by the calls of ndcall (PInt4.v). Not covered by the machine: means and variances, division by a number and powers (not exact, see C87); COO objects have no elementwise operators with each other."
  },
  {
   "property": "C89",
   "status": "proved",
   "theorems": [
    "C89_comparisons",
    "C89_broadcast_comparisons",
    "C89_min_max"
   ],
   "note": ""
  },
  {
   "property": "C90",
   "status": "partial",
   "theorems": [
    "C90_reductions",
    "C90_cumulative",
    "C90_matmul",
    "C90_vecdot",
    "C90_elementwise",
    "C90_scalar_operators",
    "C90_unary_maps",
    "C90_diff",
    "C90_nd_sums",
    "C90_nd_total",
    "C90_nd_products",
    "C90_lost_refuted"
   ],
   "note": "Refuted where the code skips cells or filters results: A * 0, A / inf, A / B, A // B and A % B, products over lines with absent cells, prune (with eps 0 only for COO), vecdot over rows of weight 0 (CSR and COO, not CSC)."
  },
  {
   "property": "C91",
   "status": "proved",
   "theorems": [
    "C91_calls",
    "C91_programs",
    "C91_extrema"
   ],
   "note": "Left out: calls that exist for one format only (getitem, getrow, getcol), eliminate_zeros and prune with threshold 0 (differ on NaN, C18, C90), cumulative operations (C40), and sums, whose rounding depends on the order (C82, C83, C88)."
  },
  {
   "property": "C92",
   "status": "proved",
   "theorems": [
    "C92_calls",
    "C92_programs",
    "C92_extrema",
    "C92_matmul"
   ],
   "note": "Left out: eliminate_zeros and prune with threshold 0 (differ on NaN, C18, C90), cumulative operations, and sums, whose rounding depends on the order (C82, C83, C88)."
  },
  {
   "property": "C93",
   "status": "proved",
   "theorems": [
    "C93_counts",
    "C93_all_any",
    "C93_extrema",
    "C93_sums"
   ],
   "note": "Sums of numbers that are not integers are left out: those along an axis and of everything round differently (C82)."
  },
  {
   "property": "C94",
   "status": "proved",
   "theorems": [
    "C94_linear",
    "C94_adjoint",
    "C94_sum"
   ],
   "note": "For other numbers the products are rounded (C82), and the laws hold only up to the bounds there."
  }
 ]
}