# What `Print Assumptions` lists for each theorem

Generated from the compiled development; every axiom is from the Coq standard library.

## no axioms (closed under the global context)

- C01_uniform_int_index_partitions
- C01_uniform_int_index_unchecked
- C01_uniform_int_wrapped_range_refuted
- C02_bin_overflow_refuted
- C02_uncountable_bins
- C02_uniform_int_bin_exact
- C02_uniform_int_bin_index_agree
- C02_uniform_int_bins
- C08_with_step_size_int
- C08_with_step_size_int_unchecked
- C08_with_step_size_wraps_refuted
- C09_noflow_bins
- C09_noflow_index
- C09_noflow_int
- C10_cyclic_int_exact
- C10_cyclic_int_inside
- C10_cyclic_int_periodic
- C10_cyclic_int_total
- C10_unsigned_below_low_panics_refuted
- C10_unsigned_below_low_wrong_bin_refuted
- C12_variable_new
- C13_duplicate_edges_early_exit_refuted
- C13_variable_bins
- C13_variable_index_partitions
- C13_variable_index_partitions_duplicates
- C14_variable_index_in_range
- C15_variable_noflow
- C16_variable_cyclic_int
- C17_bin_values
- C17_category_bins
- C17_category_duplicates
- C17_category_index
- C18_category_noflow
- C19_category_equality
- C20_axes1_has_bins
- C20_axes_tuple_has_bins
- C20_axis_iteration
- C20_category_has_bins
- C20_uniform_int_exact
- C20_uniform_int_has_bins
- C20_variable_has_bins
- C21_axes_index_injective
- C21_axes_index_value
- C21_cells_bijection
- C22_axes_index_none
- C23_axes_bin_of_cell
- C23_axes_bin_of_index
- C24_axes1_bin_out_of_range
- C24_axes_bin_out_of_range_refuted
- C24_empty_axis_bin_panics
- C24_empty_axis_bin_panics_refuted
- C25_overflow_detected
- C25_overflow_release_aliases_refuted
- C25_unchecked_wraps
- C26_vec_axes_never_change
- C26_vec_length_invariant
- C27_hash_fill_changes_one_bin
- C27_vec_fill_changes_one_bin
- C28_vec_contents_are_tally
- C28_vec_history_returns_iff
- C29_hash_contents_are_tally
- C29_hash_history_returns_iff
- C30_sparse_dense_agree
- C31_hash_iter
- C31_hash_keys_in_range
- C32_vec_iter
- C33_hash_iter_mut
- C33_hash_values_mut
- C33_vec_iter_mut
- C33_vec_values_mut
- C34_counting_order_irrelevant
- C34_fill_order_irrelevant
- C34_int_sums_agree_when_no_panic
- C34_int_sums_order_irrelevant
- C34_signed_checked_order_refuted
- C35_counts_conserved
- C35_no_entry_lost
- C35_no_entry_lost_modular
- C36_integer_addition_merges
- C36_merge_is_combined_history
- C37_dense_operators
- C38_div_forms_agree_refuted
- C38_int_add_sub_forms_agree
- C38_mul_forms_agree_refuted
- C38_sparse_operators
- C38_sparse_operators_panic
- C39_scalar_operators
- C40_from_map
- C40_from_map_too_many_bins
- C40_from_vec
- C41_hash_par_iter_mut
- C41_hash_par_values_mut
- C41_par_items_agree
- C41_parallel_reduction
- C41_vec_par_iter_mut
- C41_vec_par_values_mut
- C46_sparse_equality
- C47_conversions_round_trip
- C47_one_conversion_and_bounds
- C48_axes_one_dim
- C48_axes_tuple
- C48_category
- C48_default_is_zero
- C48_default_never_equal
- C48_hash
- C48_uniform_cyclic_int
- C48_uniform_int
- C48_variable
- C48_vec
- C50_axes_tuple
- C50_category
- C50_category_noflow
- C50_field_order
- C50_hash_histogram
- C50_no_validation_refuted
- C50_numeric_axes
- C50_values
- C50_vec_histogram
- C51_checked_dense
- C51_checked_sparse
- C51_unchecked
- C52_axes_one_dim
- C52_axes_tuples
- C52_category_axes
- C52_integer_axes
- C53_category_exact
- C53_cells_any_axes
- C53_dense_contents
- C53_int_counts
- C53_ndhistogram
- C53_ndhistogram1
- C53_returns_iff
- C53_sparse_contents
- C53_sparsehistogram
- C53_sparsehistogram1
- C53_tuple1_exact
- C53_tuples_exact
- C53_uniform_int_exact
- C53_variable_cyclic_int_exact
- C53_variable_exact
- C54_category_bin_text_unambiguous
- C54_category_noflow_text_refuted
- C54_category_text
- C54_interval_text
- C54_interval_text_unambiguous
- C54_numbers_unambiguous
- C54_uniform_text
- C54_variable_text
- C55_integer_any_distribution
- C55_map_reduce
- C55_sparse_stored_bins
- C56_assign_atomic_refuted
- C56_caught_panics
- C56_composite_fill_atomic_refuted
- C56_number_fills_all_or_nothing
- C56_panicking_assign
- C56_panicking_fill_keeps_other_bins
- C56_panicking_number_fill
- C56_unwinding_model_agrees
- C60_mean_integer_overflow
- C60_weighted_mean_integer_overflow
- C61_hash_agrees
- C61_ord_total
- C61_overflow_sorts_before_bins_refuted
- C61_partial_ord_laws
- C61_same_equality
- C61_sorted_items
- C61_uniform_bins_in_order
- C61_variable_bins_in_order
- C62_commutative
- C62_commutative_sparse
- C62_wrapping_any_distribution
- C62_wrapping_bins
- C62_wrapping_group_dense
- C62_wrapping_group_sparse
- C62_wrapping_group_sparse_full
- C63_for_loop
- C63_hash_iter_mut_loop
- C63_iter_mut_panicking_bin
- C63_lazy_model_agrees
- C63_take
- C63_vec_iter_mut_loop
- C63_zip_histograms
- C64_dense_sparse_programs
- C64_equality_distinguishes_refuted
- C64_int_commands
- C64_owned_multiplication_distinguishes_refuted
- C65_crate_dimensions
- C65_macro_body
- C65_macro_expansion
- C65_recursion_limit
- C66_constructor_errors
- C66_messages_and_conversions
- C66_question_mark
- C67_groups_of_bins
- C67_groups_of_bins_modular
- C67_projection
- C67_projection_sparse
- C67_sparse_storage
- C68_category
- C68_category_equality
- C68_identity
- C69_axes_tuple
- C69_category
- C69_categorynoflow
- C69_hash_histogram
- C69_numeric_axes
- C69_vec_histogram
- C70_one_dimensional
- C70_tuple
- C71_dense_interrupted
- C71_dense_survives
- C71_iter_mut_agrees
- C71_sparse_interrupted
- C71_sparse_survives
- C72_always_finishes
- C72_integer_histograms
- C72_integer_histograms_sparse
- C72_no_lost_call
- C72_shared_histogram
- C73_category_axes
- C73_constructors
- C73_int_axis_made
- C73_integers
- C73_numeric_axes
- C73_one_dim
- C73_panic_promises_nothing_refuted
- C73_programs
- C73_tuples
- C73_values
- C74_category_axes
- C74_programs
- C74_tuples
- C76_exact_axes
- C76_tuples
- C77_grouping
- C77_nested_refines
- C77_programs
- C78_axis_order
- C78_category_noflow
- C78_category_order
- C78_compose
- C78_dense_contents
- C78_orders_are_swaps
- C78_sparse_contents
- C78_tuples
- C78_uniform_noflow
- C78_uniform_noflow_int
- C78_variable_noflow
- C79_dense_access
- C79_sparse_access
- C81_mean_fields
- C81_num_samples_view
- C81_numbers
- C81_sum_view
- C81_view
- C81_weightedmean_fields
- C81_weightedsum_fields
- C81_weightedsum_views
- C83_category_axes
- C83_integer_axes
- C83_integer_new
- C83_integer_values
- C83_programs
- C83_variable_axes
- C83_variable_new
- C84_determined_by_bins
- C84_integer_axes
- C84_integers
- C84_programs
- C86_creation
- C86_only_new
- C86_programs
- C86_scalar
- C86_tuple
- C87_by_bins
- C87_category
- C87_compose
- C87_integer_bins
- C87_integer_bins_modular
- C87_tuples
- C87_uniform_int
- C87_variable
- C88_integer_bins
- C88_integer_bins_modular
- C88_marginal_coarsens
- C88_marginal_fits
- C88_one_axis
- C89_by_bins
- C89_cut_uniform_int
- C89_cut_variable
- C89_mirror_uniform_int
- C89_rotate_uniform_cyclic
- C89_rotate_variable_cyclic
- C89_shift_compares
- C89_shift_uniform_int
- C90_rebin_by_refilling
- C90_refill_from_dense
- C90_refill_from_sparse
- C91_axes
- C91_cut
- C91_integer_axes
- C91_mirror
- C91_rebin
- C91_rotate
- C91_shift
- C92_fills
- C92_merging
- C92_new
- C98_dense_equality
- C98_filled
- C98_order_of_axes
- C98_order_of_parts
- C98_parts

## `ClassicalDedekindReals.sig_forall_dec`, `ClassicalDedekindReals.sig_not_dec`, `Classical_Prop.classic`, `FunctionalExtensionality.functional_extensionality_dep`

- C03_float_overflow_only_refuted
- C03_float_underflow_only
- C03_new_float_flow
- C03_with_step_size_float_flow
- C04_float_index_narrow_refuted
- C04_float_index_never_panics
- C04_float_index_valid
- C04_float_num_refuted
- C04_float_subnormal_width_refuted
- C05_float_index_monotone
- C06_float_bin_contains_refuted
- C06_new_float_accuracy
- C06_new_float_bin_contains
- C06_with_step_size_float_accuracy
- C06_with_step_size_float_overflow
- C07_float_edge_overflow_refuted
- C07_float_last_edge_refuted
- C07_new_float_bins
- C07_with_step_size_float_bins
- C08_new_float
- C08_step_validation_refuted
- C08_with_step_size_float
- C08_with_step_size_float_any_num
- C09_noflow_float
- C09_noflow_float_special
- C09_noflow_step_float_special
- C11_cyclic_float_accuracy
- C11_cyclic_float_found
- C11_cyclic_float_inside_refuted
- C11_cyclic_float_nonfinite
- C11_cyclic_float_total_refuted
- C11_cyclic_float_valid
- C11_cyclic_step_float_accuracy
- C11_cyclic_step_float_found
- C11_cyclic_step_float_nonfinite
- C14_variable_cyclic_float_special
- C20_uniform_float_has_bins
- C35_f64_counts_conserved
- C36_f64_counts_merge
- C36_f64_counts_refuted
- C45_f32_counts
- C45_f32_counts_sparse
- C45_f64_counts
- C48_uniform_float
- C49_hash_display
- C49_nan_long_bar
- C49_negative_long_bar
- C49_negative_zero_panics
- C49_sum_of_counts
- C49_vec_display
- C49_write_errors
- C52_float_axes
- C53_counted_exactly
- C53_f64_counts
- C53_float_counts
- C57_variable_cyclic_float_accuracy
- C57_variable_cyclic_float_nonfinite
- C57_variable_cyclic_seam_unbinned
- C58_float_always_completes
- C58_float_always_completes_sparse
- C58_float_contents_accuracy
- C58_float_distribution_error
- C58_float_distribution_error_sparse
- C59_mean
- C59_mean_cancellation_refuted
- C59_sum
- C59_weighted_mean
- C59_weighted_mean_negative_variance_refuted
- C59_weighted_sum
- C60_mean_i32_overflow_refuted
- C60_mean_integer_accuracy
- C60_mean_integer_wraps
- C60_sample_counter
- C60_weighted_mean_integer_accuracy
- C61_numbers
- C62_numbers_commute
- C64_float_commands
- C67_f64_groups_of_bins
- C73_constructors_targets
- C73_float_axes_targets
- C73_float_constructors
- C73_float_index
- C73_floats
- C73_integer_axes_targets
- C73_values_targets
- C73_variable_axes_targets
- C74_float_axes
- C74_integer_axes
- C75_float_counts
- C76_counts
- C76_cyclic_float
- C76_step_float
- C76_uniform_float
- C76_variable_cyclic_float
- C78_uniform_noflow_float
- C80_counts
- C80_counts_all
- C80_cyclic_grid
- C80_grid_bins
- C80_grid_exact
- C80_new_grid
- C80_origin_exact
- C80_step_grid
- C82_cyclic_axes
- C82_index
- C82_new
- C82_programs
- C82_uniform_axes
- C82_variable_axes
- C82_variable_new
- C82_with_step_size
- C83_comparisons
- C83_widening
- C84_floats
- C84_floats_from_zero
- C85_grid
- C85_interchangeable_refuted
- C85_new_of_step
- C85_step_of_new
- C87_f64_counts
- C87_float_any_factor_refuted
- C87_uniform_float_new
- C87_uniform_float_step
- C88_f64_counts
- C90_fill_default
- C90_no_negative_zero
- C90_refill_floats
- C91_equal_as_integers
- C91_float_axes
- C91_programs
- C92_float_operators
- C92_larger_amounts
- C92_negated_amounts
- C92_negated_samples
- C92_never_lowers
- C92_scaled_amounts
- C93_means
- C93_weighted_means
- C94_as_integers
- C94_exact_sums
- C94_in_units
- C94_merge
- C94_order
- C94_rebin
- C95_means
- C95_weighted_means
- C95_weighted_sums
- C96_associative
- C96_background
- C96_efficiencies
- C96_ratios
- C96_sums_and_differences
- C97_cumulative
- C97_filled
- C97_fractions
- C97_normalised
- C98_float_reflexive

## `ClassicalDedekindReals.sig_forall_dec`, `ClassicalDedekindReals.sig_not_dec`, `FunctionalExtensionality.functional_extensionality_dep`

- C43_mean
- C44_weighted_mean

## `ClassicalDedekindReals.sig_forall_dec`, `FunctionalExtensionality.functional_extensionality_dep`

- C42_sum
- C42_weighted_sum
- C43_variance_nonnegative
- C44_unit_weights
- C44_variance_nonnegative
- C60_integer_output
