{
 "claims": [
  {
   "property": "C01",
   "status": "proved",
   "theorems": [
    "C01_uniform_int_index_unchecked",
    "C01_uniform_int_wrapped_range_refuted",
    "C01_uniform_int_index_partitions"
   ],
   "note": "Refuted only outside the claim: ranges that do not fit the type in builds without overflow checks."
  },
  {
   "property": "C02",
   "status": "proved",
   "theorems": [
    "C02_uniform_int_bin_exact",
    "C02_uniform_int_bins",
    "C02_uniform_int_bin_index_agree",
    "C02_bin_overflow_refuted",
    "C02_uncountable_bins"
   ],
   "note": "C02_uniform_int_bin_exact is the full characterisation; _refuted witnesses the failure of the unconditional reading."
  },
  {
   "property": "C03",
   "status": "proved",
   "theorems": [
    "C03_new_float_flow",
    "C03_with_step_size_float_flow",
    "C03_float_underflow_only",
    "C03_float_overflow_only_refuted"
   ],
   "note": "Refuted: the converse for the overflow bin (finding)."
  },
  {
   "property": "C04",
   "status": "proved",
   "theorems": [
    "C04_float_index_valid",
    "C04_float_index_never_panics",
    "C04_float_index_narrow_refuted",
    "C04_float_subnormal_width_refuted",
    "C04_float_num_refuted"
   ],
   "note": "Refuted: the same claim without the bounds on width, number of bins and (for subnormal widths) usize width (three witnesses)."
  },
  {
   "property": "C05",
   "status": "proved",
   "theorems": [
    "C05_float_index_monotone"
   ],
   "note": ""
  },
  {
   "property": "C06",
   "status": "proved",
   "theorems": [
    "C06_with_step_size_float_overflow",
    "C06_new_float_accuracy",
    "C06_with_step_size_float_accuracy",
    "C06_new_float_bin_contains",
    "C06_float_bin_contains_refuted"
   ],
   "note": "Refuted: exact agreement of index() and bin()."
  },
  {
   "property": "C07",
   "status": "proved",
   "theorems": [
    "C07_new_float_bins",
    "C07_with_step_size_float_bins",
    "C07_float_last_edge_refuted",
    "C07_float_edge_overflow_refuted"
   ],
   "note": "Refuted: exact equality of last edge and high; finiteness of edges without the bound."
  },
  {
   "property": "C08",
   "status": "proved",
   "theorems": [
    "C08_with_step_size_int_unchecked",
    "C08_new_float",
    "C08_with_step_size_float",
    "C08_step_validation_refuted",
    "C08_with_step_size_float_any_num",
    "C08_with_step_size_int",
    "C08_with_step_size_wraps_refuted"
   ],
   "note": "Refuted: validation of NaN steps / empty ranges / wrapping integer ranges."
  },
  {
   "property": "C09",
   "status": "proved",
   "theorems": [
    "C09_noflow_float",
    "C09_noflow_float_special",
    "C09_noflow_step_float_special",
    "C09_noflow_index",
    "C09_noflow_bins",
    "C09_noflow_int"
   ],
   "note": ""
  },
  {
   "property": "C10",
   "status": "proved",
   "theorems": [
    "C10_cyclic_int_exact",
    "C10_cyclic_int_total",
    "C10_cyclic_int_periodic",
    "C10_cyclic_int_inside",
    "C10_unsigned_below_low_panics_refuted",
    "C10_unsigned_below_low_wrong_bin_refuted"
   ],
   "note": "C10_cyclic_int_exact covers every coordinate; refuted: wrap-around of unsigned coordinates below low."
  },
  {
   "property": "C11",
   "status": "proved",
   "theorems": [
    "C11_cyclic_float_nonfinite",
    "C11_cyclic_float_valid",
    "C11_cyclic_float_accuracy",
    "C11_cyclic_float_total_refuted",
    "C11_cyclic_float_inside_refuted",
    "C11_cyclic_float_found",
    "C11_cyclic_step_float_nonfinite",
    "C11_cyclic_step_float_accuracy",
    "C11_cyclic_step_float_found"
   ],
   "note": "Refuted: totality at the seam and agreement with the NoFlow axis."
  },
  {
   "property": "C12",
   "status": "proved",
   "theorems": [
    "C12_variable_new"
   ],
   "note": ""
  },
  {
   "property": "C13",
   "status": "proved",
   "theorems": [
    "C13_variable_bins",
    "C13_variable_index_partitions",
    "C13_variable_index_partitions_duplicates",
    "C13_duplicate_edges_early_exit_refuted"
   ],
   "note": "Refuted: duplicates under the documented search contract alone."
  },
  {
   "property": "C14",
   "status": "proved",
   "theorems": [
    "C14_variable_index_in_range",
    "C14_variable_cyclic_float_special"
   ],
   "note": ""
  },
  {
   "property": "C15",
   "status": "proved",
   "theorems": [
    "C15_variable_noflow"
   ],
   "note": ""
  },
  {
   "property": "C16",
   "status": "proved",
   "theorems": [
    "C16_variable_cyclic_int"
   ],
   "note": ""
  },
  {
   "property": "C17",
   "status": "proved",
   "theorems": [
    "C17_category_bins",
    "C17_category_index",
    "C17_bin_values",
    "C17_category_duplicates"
   ],
   "note": ""
  },
  {
   "property": "C18",
   "status": "proved",
   "theorems": [
    "C18_category_noflow"
   ],
   "note": ""
  },
  {
   "property": "C19",
   "status": "proved",
   "theorems": [
    "C19_category_equality"
   ],
   "note": ""
  },
  {
   "property": "C20",
   "status": "proved",
   "theorems": [
    "C20_axis_iteration",
    "C20_uniform_int_has_bins",
    "C20_uniform_float_has_bins",
    "C20_variable_has_bins",
    "C20_category_has_bins",
    "C20_axes1_has_bins",
    "C20_axes_tuple_has_bins",
    "C20_uniform_int_exact"
   ],
   "note": ""
  },
  {
   "property": "C21",
   "status": "proved",
   "theorems": [
    "C21_axes_index_value",
    "C21_axes_index_injective",
    "C21_cells_bijection"
   ],
   "note": ""
  },
  {
   "property": "C22",
   "status": "proved",
   "theorems": [
    "C22_axes_index_none"
   ],
   "note": ""
  },
  {
   "property": "C23",
   "status": "proved",
   "theorems": [
    "C23_axes_bin_of_index",
    "C23_axes_bin_of_cell"
   ],
   "note": ""
  },
  {
   "property": "C24",
   "status": "proved",
   "theorems": [
    "C24_axes1_bin_out_of_range",
    "C24_axes_bin_out_of_range_refuted",
    "C24_empty_axis_bin_panics_refuted",
    "C24_empty_axis_bin_panics"
   ],
   "note": "Refuted: the trait documentation's None for two or more axes; the exact behaviour is proved."
  },
  {
   "property": "C25",
   "status": "proved",
   "theorems": [
    "C25_overflow_detected",
    "C25_overflow_release_aliases_refuted",
    "C25_unchecked_wraps"
   ],
   "note": "Checked and unchecked builds both characterised; refuted: absence of aliasing in unchecked builds."
  },
  {
   "property": "C26",
   "status": "proved",
   "theorems": [
    "C26_vec_length_invariant",
    "C26_vec_axes_never_change"
   ],
   "note": ""
  },
  {
   "property": "C27",
   "status": "proved",
   "theorems": [
    "C27_vec_fill_changes_one_bin",
    "C27_hash_fill_changes_one_bin"
   ],
   "note": ""
  },
  {
   "property": "C28",
   "status": "proved",
   "theorems": [
    "C28_vec_contents_are_tally",
    "C28_vec_history_returns_iff"
   ],
   "note": ""
  },
  {
   "property": "C29",
   "status": "proved",
   "theorems": [
    "C29_hash_contents_are_tally",
    "C29_hash_history_returns_iff"
   ],
   "note": ""
  },
  {
   "property": "C30",
   "status": "proved",
   "theorems": [
    "C30_sparse_dense_agree"
   ],
   "note": ""
  },
  {
   "property": "C31",
   "status": "proved",
   "theorems": [
    "C31_hash_keys_in_range",
    "C31_hash_iter"
   ],
   "note": ""
  },
  {
   "property": "C32",
   "status": "proved",
   "theorems": [
    "C32_vec_iter"
   ],
   "note": ""
  },
  {
   "property": "C33",
   "status": "proved",
   "theorems": [
    "C33_vec_iter_mut",
    "C33_vec_values_mut",
    "C33_hash_iter_mut",
    "C33_hash_values_mut"
   ],
   "note": ""
  },
  {
   "property": "C34",
   "status": "proved",
   "theorems": [
    "C34_fill_order_irrelevant",
    "C34_counting_order_irrelevant",
    "C34_int_sums_order_irrelevant",
    "C34_signed_checked_order_refuted",
    "C34_int_sums_agree_when_no_panic"
   ],
   "note": "Refuted: order-independence of panics for signed sums in checked builds."
  },
  {
   "property": "C35",
   "status": "proved",
   "theorems": [
    "C35_f64_counts_conserved",
    "C35_no_entry_lost",
    "C35_counts_conserved",
    "C35_no_entry_lost_modular"
   ],
   "note": ""
  },
  {
   "property": "C36",
   "status": "proved",
   "theorems": [
    "C36_f64_counts_merge",
    "C36_f64_counts_refuted",
    "C36_merge_is_combined_history",
    "C36_integer_addition_merges"
   ],
   "note": "Refuted: exact merging of f64 counts past 2^53 (bounded by C58)."
  },
  {
   "property": "C37",
   "status": "proved",
   "theorems": [
    "C37_dense_operators"
   ],
   "note": ""
  },
  {
   "property": "C38",
   "status": "proved",
   "theorems": [
    "C38_sparse_operators",
    "C38_int_add_sub_forms_agree",
    "C38_mul_forms_agree_refuted",
    "C38_div_forms_agree_refuted",
    "C38_sparse_operators_panic"
   ],
   "note": "Refuted: agreement of the forms for * and /."
  },
  {
   "property": "C39",
   "status": "proved",
   "theorems": [
    "C39_scalar_operators"
   ],
   "note": ""
  },
  {
   "property": "C40",
   "status": "proved",
   "theorems": [
    "C40_from_vec",
    "C40_from_map",
    "C40_from_map_too_many_bins"
   ],
   "note": ""
  },
  {
   "property": "C41",
   "status": "proved",
   "theorems": [
    "C41_vec_par_values_mut",
    "C41_vec_par_iter_mut",
    "C41_hash_par_values_mut",
    "C41_hash_par_iter_mut",
    "C41_par_items_agree",
    "C41_parallel_reduction"
   ],
   "note": ""
  },
  {
   "property": "C42",
   "status": "proved",
   "theorems": [
    "C42_sum",
    "C42_weighted_sum"
   ],
   "note": ""
  },
  {
   "property": "C43",
   "status": "proved",
   "theorems": [
    "C43_mean",
    "C43_variance_nonnegative"
   ],
   "note": ""
  },
  {
   "property": "C44",
   "status": "proved",
   "theorems": [
    "C44_weighted_mean",
    "C44_unit_weights",
    "C44_variance_nonnegative"
   ],
   "note": ""
  },
  {
   "property": "C45",
   "status": "proved",
   "theorems": [
    "C45_f64_counts",
    "C45_f32_counts",
    "C45_f32_counts_sparse"
   ],
   "note": ""
  },
  {
   "property": "C46",
   "status": "proved",
   "theorems": [
    "C46_sparse_equality"
   ],
   "note": ""
  },
  {
   "property": "C47",
   "status": "proved",
   "theorems": [
    "C47_conversions_round_trip",
    "C47_one_conversion_and_bounds"
   ],
   "note": ""
  },
  {
   "property": "C48",
   "status": "proved",
   "theorems": [
    "C48_category",
    "C48_uniform_int",
    "C48_default_is_zero",
    "C48_uniform_float",
    "C48_hash",
    "C48_axes_one_dim",
    "C48_uniform_cyclic_int",
    "C48_variable",
    "C48_axes_tuple",
    "C48_vec",
    "C48_default_never_equal"
   ],
   "note": "Both the types that satisfy the invariants and those that do not are characterised."
  },
  {
   "property": "C49",
   "status": "proved",
   "theorems": [
    "C49_vec_display",
    "C49_write_errors",
    "C49_hash_display",
    "C49_sum_of_counts",
    "C49_nan_long_bar",
    "C49_negative_long_bar",
    "C49_negative_zero_panics"
   ],
   "note": "Boundary of the guarantee characterised with witnesses on the other side."
  },
  {
   "property": "C50",
   "status": "proved",
   "theorems": [
    "C50_numeric_axes",
    "C50_category",
    "C50_category_noflow",
    "C50_axes_tuple",
    "C50_vec_histogram",
    "C50_hash_histogram",
    "C50_values",
    "C50_field_order",
    "C50_no_validation_refuted"
   ],
   "note": "Refuted: re-validation on deserialisation. bincode with #[serde(flatten)] and JSON with non-string map keys are not modelled."
  },
  {
   "property": "C51",
   "status": "proved",
   "theorems": [
    "C51_checked_dense",
    "C51_checked_sparse",
    "C51_unchecked"
   ],
   "note": ""
  },
  {
   "property": "C52",
   "status": "proved",
   "theorems": [
    "C52_integer_axes",
    "C52_float_axes",
    "C52_category_axes",
    "C52_axes_tuples",
    "C52_axes_one_dim"
   ],
   "note": ""
  },
  {
   "property": "C53",
   "status": "proved",
   "theorems": [
    "C53_returns_iff",
    "C53_float_counts",
    "C53_int_counts",
    "C53_counted_exactly",
    "C53_dense_contents",
    "C53_sparse_contents",
    "C53_tuples_exact",
    "C53_tuple1_exact",
    "C53_ndhistogram",
    "C53_ndhistogram1",
    "C53_sparsehistogram",
    "C53_sparsehistogram1",
    "C53_cells_any_axes",
    "C53_uniform_int_exact",
    "C53_variable_exact",
    "C53_category_exact",
    "C53_f64_counts",
    "C53_variable_cyclic_int_exact"
   ],
   "note": ""
  },
  {
   "property": "C54",
   "status": "proved",
   "theorems": [
    "C54_uniform_text",
    "C54_variable_text",
    "C54_numbers_unambiguous",
    "C54_category_text",
    "C54_category_noflow_text_refuted",
    "C54_interval_text",
    "C54_interval_text_unambiguous",
    "C54_category_bin_text_unambiguous"
   ],
   "note": "Refuted: CategoryNoFlow's text."
  },
  {
   "property": "C55",
   "status": "proved",
   "theorems": [
    "C55_sparse_stored_bins",
    "C55_map_reduce",
    "C55_integer_any_distribution"
   ],
   "note": ""
  },
  {
   "property": "C56",
   "status": "proved",
   "theorems": [
    "C56_unwinding_model_agrees",
    "C56_panicking_fill_keeps_other_bins",
    "C56_number_fills_all_or_nothing",
    "C56_panicking_number_fill",
    "C56_caught_panics",
    "C56_panicking_assign",
    "C56_assign_atomic_refuted",
    "C56_composite_fill_atomic_refuted"
   ],
   "note": "Refuted: atomicity of op= and of composite fills."
  },
  {
   "property": "C57",
   "status": "proved",
   "theorems": [
    "C57_variable_cyclic_float_accuracy",
    "C57_variable_cyclic_float_nonfinite",
    "C57_variable_cyclic_seam_unbinned"
   ],
   "note": ""
  },
  {
   "property": "C58",
   "status": "proved",
   "theorems": [
    "C58_float_contents_accuracy",
    "C58_float_distribution_error",
    "C58_float_always_completes",
    "C58_float_distribution_error_sparse",
    "C58_float_always_completes_sparse"
   ],
   "note": ""
  },
  {
   "property": "C59",
   "status": "proved",
   "theorems": [
    "C59_sum",
    "C59_weighted_sum",
    "C59_mean",
    "C59_weighted_mean",
    "C59_weighted_mean_negative_variance_refuted",
    "C59_mean_cancellation_refuted"
   ],
   "note": "Refuted: sign of WeightedMean's variance and relative accuracy of Mean's variance (findings)."
  },
  {
   "property": "C60",
   "status": "proved",
   "theorems": [
    "C60_mean_integer_overflow",
    "C60_mean_integer_wraps",
    "C60_mean_integer_accuracy",
    "C60_weighted_mean_integer_overflow",
    "C60_weighted_mean_integer_accuracy",
    "C60_sample_counter",
    "C60_mean_i32_overflow_refuted",
    "C60_integer_output"
   ],
   "note": "Refuted: that integer means are always usable (witnesses of early overflow)."
  },
  {
   "property": "C61",
   "status": "proved",
   "theorems": [
    "C61_numbers",
    "C61_partial_ord_laws",
    "C61_ord_total",
    "C61_hash_agrees",
    "C61_same_equality",
    "C61_sorted_items",
    "C61_uniform_bins_in_order",
    "C61_variable_bins_in_order",
    "C61_overflow_sorts_before_bins_refuted"
   ],
   "note": "Refuted: the overflow bin sorts after the finite bins."
  },
  {
   "property": "C62",
   "status": "proved",
   "theorems": [
    "C62_commutative_sparse",
    "C62_wrapping_group_sparse_full",
    "C62_wrapping_bins",
    "C62_wrapping_any_distribution",
    "C62_commutative",
    "C62_numbers_commute",
    "C62_wrapping_group_dense",
    "C62_wrapping_group_sparse"
   ],
   "note": ""
  },
  {
   "property": "C63",
   "status": "proved",
   "theorems": [
    "C63_iter_mut_panicking_bin",
    "C63_lazy_model_agrees",
    "C63_take",
    "C63_for_loop",
    "C63_vec_iter_mut_loop",
    "C63_hash_iter_mut_loop",
    "C63_zip_histograms"
   ],
   "note": ""
  },
  {
   "property": "C64",
   "status": "proved",
   "theorems": [
    "C64_dense_sparse_programs",
    "C64_int_commands",
    "C64_float_commands",
    "C64_equality_distinguishes_refuted",
    "C64_owned_multiplication_distinguishes_refuted"
   ],
   "note": "Refuted: == and owning/assigning * (they do distinguish; witnesses given)."
  },
  {
   "property": "C65",
   "status": "proved",
   "theorems": [
    "C65_macro_expansion",
    "C65_crate_dimensions",
    "C65_recursion_limit",
    "C65_macro_body"
   ],
   "note": ""
  },
  {
   "property": "C66",
   "status": "proved",
   "theorems": [
    "C66_messages_and_conversions",
    "C66_question_mark",
    "C66_constructor_errors"
   ],
   "note": ""
  },
  {
   "property": "C67",
   "status": "proved",
   "theorems": [
    "C67_projection_sparse",
    "C67_groups_of_bins_modular",
    "C67_groups_of_bins",
    "C67_projection",
    "C67_f64_groups_of_bins",
    "C67_sparse_storage"
   ],
   "note": ""
  },
  {
   "property": "C68",
   "status": "proved",
   "theorems": [
    "C68_category",
    "C68_category_equality",
    "C68_identity"
   ],
   "note": ""
  },
  {
   "property": "C69",
   "status": "proved",
   "theorems": [
    "C69_numeric_axes",
    "C69_category",
    "C69_axes_tuple",
    "C69_hash_histogram",
    "C69_vec_histogram",
    "C69_categorynoflow"
   ],
   "note": ""
  },
  {
   "property": "C70",
   "status": "proved",
   "theorems": [
    "C70_one_dimensional",
    "C70_tuple"
   ],
   "note": ""
  },
  {
   "property": "C71",
   "status": "proved",
   "theorems": [
    "C71_iter_mut_agrees",
    "C71_dense_survives",
    "C71_sparse_survives",
    "C71_dense_interrupted",
    "C71_sparse_interrupted"
   ],
   "note": ""
  },
  {
   "property": "C72",
   "status": "proved",
   "theorems": [
    "C72_shared_histogram",
    "C72_no_lost_call",
    "C72_always_finishes",
    "C72_integer_histograms",
    "C72_integer_histograms_sparse"
   ],
   "note": ""
  },
  {
   "property": "C73",
   "status": "proved",
   "theorems": [
    "C73_programs",
    "C73_numeric_axes",
    "C73_constructors",
    "C73_integers",
    "C73_floats",
    "C73_category_axes",
    "C73_one_dim",
    "C73_tuples",
    "C73_values",
    "C73_panic_promises_nothing_refuted",
    "C73_float_index",
    "C73_float_axes_targets",
    "C73_float_constructors",
    "C73_values_targets",
    "C73_constructors_targets",
    "C73_variable_axes_targets",
    "C73_integer_axes_targets",
    "C73_int_axis_made"
   ],
   "note": "Refuted: any promise after a panic of the checked build. Across pointer widths a Uniform axis must have been returned by a constructor with at most half as many bins as the narrower usize can count (C73_float_axes_targets, C73_integer_axes_targets, C73_int_axis_made); constructors, variable axes and bin values need nothing. Sparse runs: for each hash iteration order of the first build, the run of the second build with the same order."
  },
  {
   "property": "C74",
   "status": "proved",
   "theorems": [
    "C74_programs",
    "C74_integer_axes",
    "C74_float_axes",
    "C74_category_axes",
    "C74_tuples"
   ],
   "note": ""
  },
  {
   "property": "C75",
   "status": "proved",
   "theorems": [
    "C75_float_counts"
   ],
   "note": ""
  },
  {
   "property": "C76",
   "status": "proved",
   "theorems": [
    "C76_tuples",
    "C76_counts",
    "C76_exact_axes",
    "C76_uniform_float",
    "C76_cyclic_float",
    "C76_variable_cyclic_float",
    "C76_step_float"
   ],
   "note": ""
  },
  {
   "property": "C77",
   "status": "proved",
   "theorems": [
    "C77_grouping",
    "C77_nested_refines",
    "C77_programs"
   ],
   "note": ""
  },
  {
   "property": "C78",
   "status": "proved",
   "theorems": [
    "C78_dense_contents",
    "C78_sparse_contents",
    "C78_compose",
    "C78_uniform_noflow",
    "C78_uniform_noflow_int",
    "C78_uniform_noflow_float",
    "C78_variable_noflow",
    "C78_category_noflow",
    "C78_category_order",
    "C78_tuples",
    "C78_axis_order",
    "C78_orders_are_swaps"
   ],
   "note": ""
  },
  {
   "property": "C79",
   "status": "proved",
   "theorems": [
    "C79_dense_access",
    "C79_sparse_access"
   ],
   "note": ""
  },
  {
   "property": "C80",
   "status": "proved",
   "theorems": [
    "C80_counts_all",
    "C80_new_grid",
    "C80_step_grid",
    "C80_grid_exact",
    "C80_cyclic_grid",
    "C80_origin_exact",
    "C80_grid_bins",
    "C80_counts"
   ],
   "note": ""
  },
  {
   "property": "C81",
   "status": "proved",
   "theorems": [
    "C81_numbers",
    "C81_weightedsum_fields",
    "C81_mean_fields",
    "C81_weightedmean_fields",
    "C81_view",
    "C81_sum_view",
    "C81_weightedsum_views",
    "C81_num_samples_view"
   ],
   "note": ""
  },
  {
   "property": "C82",
   "status": "proved",
   "theorems": [
    "C82_new",
    "C82_with_step_size",
    "C82_index",
    "C82_uniform_axes",
    "C82_cyclic_axes",
    "C82_programs",
    "C82_variable_axes",
    "C82_variable_new"
   ],
   "note": ""
  },
  {
   "property": "C83",
   "status": "proved",
   "theorems": [
    "C83_variable_axes",
    "C83_variable_new",
    "C83_category_axes",
    "C83_integer_axes",
    "C83_integer_new",
    "C83_integer_values",
    "C83_comparisons",
    "C83_widening",
    "C83_programs"
   ],
   "note": ""
  },
  {
   "property": "C84",
   "status": "proved",
   "theorems": [
    "C84_determined_by_bins",
    "C84_integers",
    "C84_integer_axes",
    "C84_programs",
    "C84_floats",
    "C84_floats_from_zero"
   ],
   "note": ""
  },
  {
   "property": "C85",
   "status": "proved",
   "theorems": [
    "C85_step_of_new",
    "C85_new_of_step",
    "C85_grid",
    "C85_interchangeable_refuted"
   ],
   "note": "_refuted witnesses that exact agreement fails off the grid, as the statement says (finding)."
  },
  {
   "property": "C86",
   "status": "proved",
   "theorems": [
    "C86_creation",
    "C86_only_new",
    "C86_scalar",
    "C86_programs",
    "C86_tuple"
   ],
   "note": ""
  },
  {
   "property": "C87",
   "status": "proved",
   "theorems": [
    "C87_compose",
    "C87_integer_bins",
    "C87_integer_bins_modular",
    "C87_f64_counts",
    "C87_by_bins",
    "C87_tuples",
    "C87_uniform_int",
    "C87_variable",
    "C87_uniform_float_step",
    "C87_uniform_float_new",
    "C87_float_any_factor_refuted",
    "C87_category"
   ],
   "note": "For floats proved for factors that are powers of two; C87_float_any_factor_refuted shows that it is false for other factors (the statement says so)."
  },
  {
   "property": "C88",
   "status": "proved",
   "theorems": [
    "C88_marginal_coarsens",
    "C88_marginal_fits",
    "C88_integer_bins",
    "C88_integer_bins_modular",
    "C88_f64_counts",
    "C88_one_axis"
   ],
   "note": ""
  },
  {
   "property": "C89",
   "status": "proved",
   "theorems": [
    "C89_by_bins",
    "C89_shift_uniform_int",
    "C89_mirror_uniform_int",
    "C89_rotate_uniform_cyclic",
    "C89_cut_uniform_int",
    "C89_cut_variable",
    "C89_shift_compares",
    "C89_rotate_variable_cyclic"
   ],
   "note": ""
  },
  {
   "property": "C90",
   "status": "proved",
   "theorems": [
    "C90_refill_from_dense",
    "C90_refill_from_sparse",
    "C90_fill_default",
    "C90_rebin_by_refilling",
    "C90_no_negative_zero",
    "C90_refill_floats"
   ],
   "note": ""
  },
  {
   "property": "C91",
   "status": "proved",
   "theorems": [
    "C91_integer_axes",
    "C91_float_axes",
    "C91_shift",
    "C91_mirror",
    "C91_rotate",
    "C91_cut",
    "C91_rebin",
    "C91_axes",
    "C91_equal_as_integers",
    "C91_programs"
   ],
   "note": ""
  },
  {
   "property": "C92",
   "status": "proved",
   "theorems": [
    "C92_new",
    "C92_fills",
    "C92_merging",
    "C92_negated_amounts",
    "C92_scaled_amounts",
    "C92_larger_amounts",
    "C92_never_lowers",
    "C92_float_operators",
    "C92_negated_samples"
   ],
   "note": ""
  },
  {
   "property": "C93",
   "status": "proved",
   "theorems": [
    "C93_weighted_means",
    "C93_means"
   ],
   "note": ""
  },
  {
   "property": "C94",
   "status": "proved",
   "theorems": [
    "C94_in_units",
    "C94_exact_sums",
    "C94_as_integers",
    "C94_order",
    "C94_merge",
    "C94_rebin"
   ],
   "note": ""
  },
  {
   "property": "C95",
   "status": "proved",
   "theorems": [
    "C95_weighted_sums",
    "C95_means",
    "C95_weighted_means"
   ],
   "note": ""
  },
  {
   "property": "C96",
   "status": "proved",
   "theorems": [
    "C96_sums_and_differences",
    "C96_background",
    "C96_ratios",
    "C96_efficiencies",
    "C96_associative"
   ],
   "note": ""
  },
  {
   "property": "C97",
   "status": "proved",
   "theorems": [
    "C97_fractions",
    "C97_normalised",
    "C97_filled",
    "C97_cumulative"
   ],
   "note": ""
  },
  {
   "property": "C98",
   "status": "proved",
   "theorems": [
    "C98_dense_equality",
    "C98_parts",
    "C98_order_of_parts",
    "C98_order_of_axes",
    "C98_filled",
    "C98_float_reflexive"
   ],
   "note": ""
  }
 ]
}