{
 "claims": [
  {
   "property": "C01",
   "status": "proved",
   "theorems": [
    "reduce_vals_is_weighted_moments",
    "reduce_vals_no_weight",
    "reduce_vals_zero_division",
    "nonnegative_weights_running_ok"
   ],
   "note": "Exact arithmetic. The result, the zero case and the ZeroDivisionError case together cover every input."
  },
  {
   "property": "C02",
   "status": "proved",
   "theorems": [
    "reduce_vals_pairs_is_weighted_comoments",
    "reduce_vals_pairs_no_weight",
    "reduce_vals_pairs_zero_division"
   ],
   "note": ""
  },
  {
   "property": "C03",
   "status": "proved",
   "theorems": [
    "merge_chunks_of_samples",
    "merge_chunks_of_rows"
   ],
   "note": ""
  },
  {
   "property": "C04",
   "status": "proved",
   "theorems": [
    "reduce_vals_order_irrelevant",
    "reduce_data_order_irrelevant",
    "nonnegative_order_irrelevant"
   ],
   "note": ""
  },
  {
   "property": "C05",
   "status": "proved",
   "theorems": [
    "any_push_history_is_one_reduction",
    "push_history_is_row_by_row"
   ],
   "note": ""
  },
  {
   "property": "C06",
   "status": "proved",
   "theorems": [
    "add_commutative",
    "add_associative",
    "add_zero_right",
    "add_zero_left",
    "add_zero_left_unclean_refuted"
   ],
   "note": "The left identity needs a row that has no moments when it has no weight; the refuted theorem shows why."
  },
  {
   "property": "C07",
   "status": "proved",
   "theorems": [
    "subtract_undoes_add",
    "subtract_then_add",
    "subtract_equal_weight_zero_division"
   ],
   "note": ""
  },
  {
   "property": "C08",
   "status": "proved",
   "theorems": [
    "zero_weight_push_no_effect",
    "drop_zero_weight_samples",
    "drop_zero_weight_rows",
    "drop_zero_weight_group_rows"
   ],
   "note": ""
  },
  {
   "property": "C09",
   "status": "proved",
   "theorems": [
    "scaling_weights_of_samples",
    "scaling_weights_of_rows",
    "mul_changes_only_the_weight"
   ],
   "note": ""
  },
  {
   "property": "C10",
   "status": "proved",
   "theorems": [
    "integer_scale_is_repetition",
    "integer_weight_is_repetition"
   ],
   "note": ""
  },
  {
   "property": "C11",
   "status": "proved",
   "theorems": [
    "vals_as_rows_one",
    "vals_as_rows_two",
    "vals_to_data_rows_one",
    "vals_to_data_rows_two"
   ],
   "note": ""
  },
  {
   "property": "C12",
   "status": "proved",
   "theorems": [
    "affine_change_of_variable",
    "affine1_entries"
   ],
   "note": ""
  },
  {
   "property": "C13",
   "status": "proved",
   "theorems": [
    "lower_order_is_prefix",
    "lower_order_is_block"
   ],
   "note": ""
  },
  {
   "property": "C14",
   "status": "proved",
   "theorems": [
    "marginal_of_x",
    "marginal_of_y",
    "swapping_transposes"
   ],
   "note": ""
  },
  {
   "property": "C15",
   "status": "proved",
   "theorems": [
    "moments_to_comoments_is_x_with_itself",
    "diagonal_covariance_is_variance"
   ],
   "note": ""
  },
  {
   "property": "C16",
   "status": "proved",
   "theorems": [
    "central_raw_central",
    "raw_central_raw"
   ],
   "note": ""
  },
  {
   "property": "C17",
   "status": "proved",
   "theorems": [
    "central_raw_central_pairs",
    "raw_central_raw_pairs"
   ],
   "note": ""
  },
  {
   "property": "C18",
   "status": "proved",
   "theorems": [
    "raw_moments_are_power_means",
    "raw_comoments_are_power_means"
   ],
   "note": ""
  },
  {
   "property": "C19",
   "status": "proved",
   "theorems": [
    "comoment_orders_resolved",
    "comoment_orders_rejected",
    "comoments_to_moments_inverts",
    "comoments_to_moments_entries"
   ],
   "note": ""
  },
  {
   "property": "C20",
   "status": "proved",
   "theorems": [
    "cumulative_rows_are_prefix_reductions",
    "cumulative_clean_rows",
    "cumulative_unclean_refuted"
   ],
   "note": "While the total weight is zero the code returns the input row itself; equal to the reduction for clean rows only."
  },
  {
   "property": "C21",
   "status": "proved",
   "theorems": [
    "cumulative_inverse_restores",
    "cumulative_inverse_positive_weights",
    "cumulative_inverse_zero_row_refuted"
   ],
   "note": "Exact condition for arbitrary weights."
  },
  {
   "property": "C22",
   "status": "proved",
   "theorems": [
    "resample_data_is_weighted_reduction",
    "resample_data_is_reduction_of_repeats"
   ],
   "note": ""
  },
  {
   "property": "C23",
   "status": "proved",
   "theorems": [
    "resample_weightless_returns_first_row",
    "resample_weightless_refuted"
   ],
   "note": ""
  },
  {
   "property": "C24",
   "status": "proved",
   "theorems": [
    "resample_vals_is_weighted_reduction",
    "resample_vals_is_reduction_of_repeats"
   ],
   "note": ""
  },
  {
   "property": "C25",
   "status": "proved",
   "theorems": [
    "resampling_by_indices"
   ],
   "note": "resample_data of the table made from an index list equals reduce_data of the rows it lists."
  },
  {
   "property": "C26",
   "status": "proved",
   "theorems": [
    "indices_to_freq_counts",
    "indices_to_freq_rejects_too_large",
    "freq_to_indices_lists",
    "freq_to_indices_rejects_unequal_sums",
    "freq_to_indices_to_freq",
    "indices_to_freq_to_indices"
   ],
   "note": ""
  },
  {
   "property": "C27",
   "status": "proved",
   "theorems": [
    "indices_to_freq_negative_wraps",
    "indices_to_freq_negative_refuted",
    "indices_to_freq_out_of_bounds"
   ],
   "note": ""
  },
  {
   "property": "C28",
   "status": "proved",
   "theorems": [
    "jackknife_rows_leave_one_out",
    "jackknife_all_weight_in_one_row",
    "jackknife_freq_rows"
   ],
   "note": ""
  },
  {
   "property": "C29",
   "status": "proved",
   "theorems": [
    "jackknife_vals_leave_one_out",
    "jackknife_vals_all_weight_in_one"
   ],
   "note": ""
  },
  {
   "property": "C30",
   "status": "proved",
   "theorems": [
    "grouped_rows_are_group_reductions",
    "grouped_length_mismatch"
   ],
   "note": ""
  },
  {
   "property": "C31",
   "status": "proved",
   "theorems": [
    "indexed_equals_grouped",
    "indexed_equals_grouped_weightless_refuted",
    "indexed_rows_are_slice_reductions",
    "indexed_default_scale"
   ],
   "note": "Equality for groups of nonzero total weight; for a weightless group the indexed kernel keeps its first row, shown by the refuted theorem."
  },
  {
   "property": "C32",
   "status": "proved",
   "theorems": [
    "factor_by_to_index_partition",
    "factor_by_to_index_order_refuted"
   ],
   "note": "argsort is any function that returns a sorting permutation; increasing order inside a group for a stable one only."
  },
  {
   "property": "C33",
   "status": "proved",
   "theorems": [
    "factor_by_codes_and_groups",
    "factor_by_sorted_groups",
    "factor_by_first_appearance"
   ],
   "note": ""
  },
  {
   "property": "C34",
   "status": "proved",
   "theorems": [
    "groups_merge_to_total"
   ],
   "note": ""
  },
  {
   "property": "C35",
   "status": "proved",
   "theorems": [
    "block_by_codes",
    "block_by_counts",
    "block_by_single_block",
    "block_by_too_large"
   ],
   "note": ""
  },
  {
   "property": "C36",
   "status": "proved",
   "theorems": [
    "block_by_mode_checked_only_inside"
   ],
   "note": ""
  },
  {
   "property": "C37",
   "status": "proved",
   "theorems": [
    "freq_to_index_reproduces_table",
    "resampling_by_index_equals_resampling"
   ],
   "note": ""
  },
  {
   "property": "C38",
   "status": "proved",
   "theorems": [
    "zero_last_replicate_rejected",
    "zero_last_replicate_refuted"
   ],
   "note": ""
  },
  {
   "property": "C39",
   "status": "proved",
   "theorems": [
    "validate_index_accepts",
    "validate_index_rejects_with_value_error",
    "indexed_never_out_of_bounds",
    "indexed_scale_length_mismatch"
   ],
   "note": ""
  },
  {
   "property": "C40",
   "status": "proved",
   "theorems": [
    "rolling_rows_are_window_reductions"
   ],
   "note": ""
  },
  {
   "property": "C41",
   "status": "proved",
   "theorems": [
    "rolling_vals_rows_are_window_moments"
   ],
   "note": ""
  },
  {
   "property": "C42",
   "status": "proved",
   "theorems": [
    "rolling_negative_weights_refuted"
   ],
   "note": ""
  },
  {
   "property": "C43",
   "status": "proved",
   "theorems": [
    "rolling_center_is_shifted_window",
    "rolling_vals_center_is_shifted_window",
    "rolling_center_needs_a_window"
   ],
   "note": ""
  },
  {
   "property": "C44",
   "status": "proved",
   "theorems": [
    "rolling_exp_rows_are_decayed_reductions",
    "rolling_exp_vals_rows_are_decayed_reductions",
    "rolling_exp_complete_decay_refuted"
   ],
   "note": ""
  },
  {
   "property": "C45",
   "status": "proved",
   "theorems": [
    "moveaxis_order_spec",
    "moves_unique",
    "moveaxis_order_raises",
    "moveaxis_axes_to_end",
    "moveaxis_rejects_moment_axes"
   ],
   "note": ""
  },
  {
   "property": "C46",
   "status": "proved",
   "theorems": [
    "normalize_axis_index_spec",
    "normalize_axis_tuple_spec",
    "normalize_axis_tuple_idempotent",
    "positive_to_negative_index_inverse",
    "axis_names_at_most_one",
    "every_axis_has_two_names",
    "complex_axis_before_moments",
    "complex_axis_moments_first_refuted"
   ],
   "note": "A complex axis counts axes in front of trailing moment axes; the refuted theorem shows that it is off when the moment axes are first."
  },
  {
   "property": "C47",
   "status": "proved",
   "theorems": [
    "reduce_in_two_steps",
    "reduce_axis_order_irrelevant",
    "reduce_array_succeeds"
   ],
   "note": "Nonnegative weights.  axis=None is the set of all axes other than the moment axes in names_axes."
  },
  {
   "property": "C48",
   "status": "proved",
   "theorems": [
    "reduce_array_entries",
    "reduce_array_succeeds",
    "holds_reduction_unique",
    "reduce_moment_axes_anywhere",
    "reduce_moment_axis_raises",
    "reduce_bad_axis_raises",
    "reduce_no_axes",
    "reduce_no_axes_to_end_refuted"
   ],
   "note": "The out= argument is not modelled.  With an empty axis tuple the flags are ignored, shown by the refuted theorem."
  },
  {
   "property": "C49",
   "status": "proved",
   "theorems": [
    "contexts_restore_options",
    "context_restores_its_keys",
    "contexts_not_lifo_refuted"
   ],
   "note": ""
  },
  {
   "property": "C50",
   "status": "proved",
   "theorems": [
    "set_options_all_or_nothing",
    "options_stay_typed",
    "nmax_value_refuted"
   ],
   "note": ""
  },
  {
   "property": "C51",
   "status": "proved",
   "theorems": [
    "shared_generator",
    "seed_replaces_generator",
    "caller_generator_untouched",
    "validate_rng_seed",
    "rejected_seed",
    "internal_rng_missing",
    "seeded_stream_reproducible"
   ],
   "note": ""
  },
  {
   "property": "C52",
   "status": "proved",
   "theorems": [
    "schedule_result",
    "schedule_independent",
    "schedules_end",
    "schedules_progress",
    "parallel_reduce_data",
    "parallel_push_datas",
    "parallel_freq_to_indices",
    "parallel_indices_to_freq",
    "broadcast_push_refuted"
   ],
   "note": "schedule_independent is for any kernel call that loads inputs and loads and stores its own output elements; the three named kernels are instances.  Sequentially consistent memory."
  },
  {
   "property": "C53",
   "status": "proved",
   "theorems": [
    "parallel_selection",
    "unsafe_first_never_parallel",
    "parallel_in_unsafe_thread_refuted",
    "factory_cache_stale_refuted"
   ],
   "note": ""
  },
  {
   "property": "C54",
   "status": "proved",
   "theorems": [
    "select_dtype_precedence",
    "select_dtype_dataset",
    "select_dtype_out_first_refuted",
    "byte_order_refuted"
   ],
   "note": ""
  },
  {
   "property": "C55",
   "status": "proved",
   "theorems": [
    "select_after_assign",
    "assign_succeeds",
    "assign_what_was_selected",
    "assign_twice_keeps_last",
    "assign_changes_only_named_entries",
    "selection_is_named_entries",
    "disjoint_assignments_commute",
    "unknown_name_raises",
    "known_name_selects",
    "assign_moment_copy",
    "assign_moment_in_place"
   ],
   "note": "assign_moment_copy and assign_moment_in_place are about objects in memory."
  },
  {
   "property": "C56",
   "status": "proved",
   "theorems": [
    "last_name_wins",
    "assignment_order_matters"
   ],
   "note": ""
  },
  {
   "property": "C57",
   "status": "proved",
   "theorems": [
    "cmom_one",
    "cmom_two",
    "rmom_one",
    "rmom_two",
    "accessors_one",
    "accessors_two",
    "variance_of_order_one_refuted",
    "operators_leave_all_objects"
   ],
   "note": "operators_leave_all_objects has cmom and to_raw/rmom among the operations."
  },
  {
   "property": "C58",
   "status": "proved",
   "theorems": [
    "operators_leave_all_objects",
    "in_place_changes_only_the_target",
    "alias_observes_every_change",
    "view_shows_rows",
    "copy_is_independent",
    "sum_of_objects",
    "push_in_place",
    "multiplied_object",
    "multiplied_in_place",
    "reduce_without_axes_aliases_refuted"
   ],
   "note": "Outer axes flattened; broadcasting along some outer axes only is not modelled."
  },
  {
   "property": "C59",
   "status": "proved",
   "theorems": [
    "getitem_values",
    "getitem_exact",
    "getitem_moment_axis_refuted",
    "getitem_reversed_moments_refuted",
    "iter_values",
    "iter_scalar_raises"
   ],
   "note": "Basic indexing (integers, slices, newaxis, Ellipsis); fancy indexing is not modelled."
  },
  {
   "property": "C60",
   "status": "proved",
   "theorems": [
    "to_array_values",
    "to_array_order_refuted",
    "concat_labelled_values",
    "concat_labelled_new",
    "concat_labelled_order_refuted",
    "concat_labelled_moments_refuted",
    "x_concat_existing",
    "x_concat_new"
   ],
   "note": "xr.concat is modelled for arrays over the same dimension names; broadcasting of missing dimensions is not."
  },
  {
   "property": "C61",
   "status": "proved",
   "theorems": [
    "explicit_axes_used",
    "explicit_dims_used",
    "dims_from_axes",
    "default_axes_last",
    "factory_wellformed",
    "object_returned_unchanged",
    "params_hide_axes",
    "params_hide_dims",
    "explicit_axes_ignored_refuted",
    "explicit_dims_ignored_refuted",
    "dims_and_axes_not_compared_refuted",
    "optional_object_passes_refuted"
   ],
   "note": ""
  },
  {
   "property": "C62",
   "status": "proved",
   "theorems": [
    "quantile_spec",
    "quantile_unique",
    "quantile_permutation",
    "quantile_out_of_range",
    "quantile_monotone",
    "quantile_extremes",
    "quantile_in_range",
    "quantile_scaled",
    "quantile_reflected",
    "percentile_interval",
    "basic_interval",
    "two_sided_interval",
    "missing_theta_hat",
    "labelled_equals_numpy"
   ],
   "note": "One column; numpy's quantile (method linear) is modelled from its definition."
  },
  {
   "property": "C63",
   "status": "proved",
   "theorems": [
    "sampler_object_returned",
    "mapping_is_keywords",
    "integer_is_nrep",
    "tables_hide_random_arguments",
    "table_is_freq",
    "random_sampler_needs",
    "random_sampler_sizes",
    "new_sampler_checks",
    "replace_ignored_for_labels",
    "replace_ignored_for_labels_refuted",
    "shuffle_ignored_refuted",
    "integer_sampler_rng_ignored_refuted",
    "integer_sampler_ndat_ignored_refuted"
   ],
   "note": "Generator.choice and Generator.shuffle are parameters with numpy's contract as hypothesis."
  },
  {
   "property": "C64",
   "status": "proved",
   "theorems": [
    "validate_mom_exact",
    "validate_mom_rejects",
    "validate_mom_ndim_exact",
    "mom_ndim_values",
    "mom_ndim_axes_agree",
    "mom_shape_of_mom",
    "mom_of_mom_shape",
    "mom_of_mom_shape_refuted",
    "select_mom_ndim_exact",
    "select_mom_ndim_zero_refuted"
   ],
   "note": ""
  },
  {
   "property": "C65",
   "status": "proved",
   "theorems": [
    "binomial_table",
    "binomial_table_pascal",
    "push_independent_of_nmax",
    "cpush_independent_of_nmax",
    "convert_independent_of_nmax",
    "cconvert_independent_of_nmax",
    "order_above_nmax_refuted",
    "table_fixed_at_first_use",
    "late_nmax_refuted"
   ],
   "note": ""
  },
  {
   "property": "C66",
   "status": "proved",
   "theorems": [
    "even_central_moments_nonnegative",
    "covariance_cauchy_schwarz",
    "mean_between_samples"
   ],
   "note": ""
  },
  {
   "property": "C67",
   "status": "proved",
   "theorems": [
    "reduce_data_parallel_axis",
    "reduce_data_parallel_axis_pairs",
    "law_of_total_variance"
   ],
   "note": ""
  },
  {
   "property": "C68",
   "status": "proved",
   "theorems": [
    "ones_frequency_is_reduction",
    "permuted_ones_is_reduction"
   ],
   "note": ""
  },
  {
   "property": "C69",
   "status": "proved",
   "theorems": [
    "bias_correction_rows",
    "bias_correction_zero_norm"
   ],
   "note": ""
  },
  {
   "property": "C70",
   "status": "proved",
   "theorems": [
    "negative_frequency_uninitialised_refuted",
    "negative_frequency_general"
   ],
   "note": ""
  },
  {
   "property": "C71",
   "status": "proved",
   "theorems": [
    "add_object_to_itself",
    "subtract_object_from_itself",
    "push_object_into_itself"
   ],
   "note": ""
  },
  {
   "property": "C72",
   "status": "proved",
   "theorems": [
    "push_in_place",
    "overlapping_views_refuted"
   ],
   "note": ""
  },
  {
   "property": "C73",
   "status": "proved",
   "theorems": [
    "push_in_place",
    "failed_push_changes_the_target_refuted"
   ],
   "note": ""
  },
  {
   "property": "C74",
   "status": "proved",
   "theorems": [
    "owners_share_nothing",
    "untouched_objects_keep_their_value",
    "copy_is_independent"
   ],
   "note": ""
  },
  {
   "property": "C75",
   "status": "proved",
   "theorems": [
    "bca_in_range",
    "bca_succeeds",
    "bca_outside_is_nan"
   ],
   "note": ""
  },
  {
   "property": "C76",
   "status": "proved",
   "theorems": [
    "bca_scaled",
    "bca_reflected",
    "bca_neutral_is_percentile",
    "acceleration_reflected",
    "acceleration_scaled",
    "acceleration_degenerate",
    "score_bounds",
    "score_monotone",
    "score_reflected",
    "score_scaled"
   ],
   "note": "pow15 (d ** 1.5), ndtr and the square root of a logarithm inside ndtri are parameters; the laws used of them are hypotheses."
  },
  {
   "property": "C77",
   "status": "proved",
   "theorems": [
    "ndtri_odd",
    "ndtri_half",
    "ndtri_inside",
    "ndtri_outside_uninitialised",
    "bca_level_range_refuted",
    "quantile_out_of_range"
   ],
   "note": ""
  },
  {
   "property": "C78",
   "status": "proved",
   "theorems": [
    "missing_theta_jack",
    "missing_arguments_labelled",
    "unknown_method_is_percentile",
    "method_case_irrelevant_numpy",
    "method_case_xarray_refuted"
   ],
   "note": ""
  },
  {
   "property": "C79",
   "status": "proved",
   "theorems": [
    "basic_interval_symmetric",
    "basic_interval_asymmetric_refuted",
    "interval_order_refuted"
   ],
   "note": ""
  },
  {
   "property": "C80",
   "status": "proved",
   "theorems": [
    "select_axis_dim_exact",
    "select_axis_dim_raises",
    "select_by_axis_or_name",
    "select_axis_dim_default",
    "complex_axis_counts_values",
    "complex_axis_not_last_refuted"
   ],
   "note": ""
  },
  {
   "property": "C81",
   "status": "proved",
   "theorems": [
    "select_mult_exact",
    "dim_none_selects_values",
    "axis_none_moments_last",
    "axis_none_moments_first_refuted",
    "repeated_names_accepted_refuted"
   ],
   "note": ""
  },
  {
   "property": "C82",
   "status": "proved",
   "theorems": [
    "labelled_shapes_agree",
    "to_array_without_data",
    "to_array_without_data_refuted",
    "shape_split"
   ],
   "note": ""
  },
  {
   "property": "C83",
   "status": "proved",
   "theorems": [
    "random_indices_spec",
    "random_indices_succeeds",
    "random_freq_spec",
    "without_replacement_one_replicate",
    "without_replacement_per_replicate_refuted"
   ],
   "note": "Generator.choice is a parameter with numpy's contract as hypothesis."
  },
  {
   "property": "C84",
   "status": "proved",
   "theorems": [
    "attributes_are_values",
    "attributes_stable",
    "freq_and_indices_agree",
    "both_tables_not_compared_refuted",
    "ndat_of_indices_refuted"
   ],
   "note": ""
  },
  {
   "property": "C85",
   "status": "proved",
   "theorems": [
    "seeded_sampler_reproducible",
    "labelled_data_same_tables",
    "unpaired_draws"
   ],
   "note": ""
  },
  {
   "property": "C86",
   "status": "proved",
   "theorems": [
    "select_ndat_array_exact",
    "select_ndat_labelled_exact",
    "select_ndat_agrees",
    "select_ndat_agrees_back",
    "select_ndat_repeated_axes_refuted",
    "select_ndat_by_name"
   ],
   "note": ""
  },
  {
   "property": "C87",
   "status": "proved",
   "theorems": [
    "init_moves_axes",
    "init_raises",
    "x_init_exact",
    "x_new_like_exact"
   ],
   "note": ""
  },
  {
   "property": "C88",
   "status": "proved",
   "theorems": [
    "reshape_values",
    "reshape_infer",
    "reshape_raises",
    "moveaxis_values",
    "moveaxis_to_end_values",
    "new_like_exact",
    "new_like_zeros",
    "pipe_exact"
   ],
   "note": "order=\"C\" only."
  },
  {
   "property": "C89",
   "status": "proved",
   "theorems": [
    "resample_values",
    "resample_raises",
    "resample_default_takes_moments",
    "resample_default_axis_refuted"
   ],
   "note": ""
  },
  {
   "property": "C90",
   "status": "proved",
   "theorems": [
    "concatenate_entries",
    "concatenate_raises",
    "concat_values",
    "concat_rows",
    "concat_then_reduce",
    "concat_raises",
    "concat_moment_axis_refuted",
    "concat_scalars_refuted"
   ],
   "note": ""
  },
  {
   "property": "C91",
   "status": "proved",
   "theorems": [
    "x_transpose_values",
    "x_pipe_reorders",
    "x_getitem_picks",
    "x_getitem_values",
    "x_getitem_raises",
    "x_iter_values",
    "x_iter_raises",
    "rename_values",
    "rename_moment_refuted"
   ],
   "note": "Positional indexing by integers and slices; coordinates are not modelled."
  },
  {
   "property": "C92",
   "status": "proved",
   "theorems": [
    "cumulative_array",
    "resample_array",
    "grouped_array",
    "indexed_array",
    "jackknife_array",
    "rolling_array",
    "rolling_exp_array",
    "columns_determine_the_array",
    "axes_to_end_only_moves_axes"
   ],
   "note": "The gufunc loop of numpy is modelled; window >= 0."
  },
  {
   "property": "C93",
   "status": "proved",
   "theorems": [
    "cumulative_array_prefixes",
    "grouped_array_members",
    "resample_array_weighted",
    "jackknife_array_leave_one_out",
    "rolling_array_windows",
    "rolling_exp_array_decayed",
    "cumulative_array_roundtrip"
   ],
   "note": ""
  },
  {
   "property": "C94",
   "status": "proved",
   "theorems": [
    "broadcast_shapes_ok",
    "broadcast_shapes_raises",
    "jackknife_given_array",
    "rolling_exp_array",
    "resample_array"
   ],
   "note": "data_reduced or alpha with more axes than the data are not covered."
  },
  {
   "property": "C95",
   "status": "proved",
   "theorems": [
    "axis_must_name_a_data_axis"
   ],
   "note": ""
  },
  {
   "property": "C96",
   "status": "proved",
   "theorems": [
    "ndtri_published",
    "ndtri_increasing",
    "central_increasing",
    "tail_decreasing"
   ],
   "note": "log and sqrt are not modelled: sqrt(-2 log p) is a parameter."
  },
  {
   "property": "C97",
   "status": "proved",
   "theorems": [
    "acceleration_bounded",
    "bca_ordered"
   ],
   "note": "pow15 x is assumed to have square x^3; ndtr is any monotone function."
  },
  {
   "property": "C98",
   "status": "proved",
   "theorems": [
    "cmom_object",
    "raw_object"
   ],
   "note": ""
  },
  {
   "property": "C99",
   "status": "proved",
   "theorems": [
    "parallel_target",
    "modules_shared",
    "selected_runs_serial_refuted"
   ],
   "note": ""
  },
  {
   "property": "C100",
   "status": "proved",
   "theorems": [
    "reduce_vals_array",
    "resample_vals_array",
    "jackknife_vals_array",
    "jackknife_vals_given_array",
    "rolling_vals_array",
    "rolling_exp_vals_array"
   ],
   "note": "The gufunc loop of numpy is modelled; window >= 0; out=None."
  },
  {
   "property": "C101",
   "status": "proved",
   "theorems": [
    "reduce_vals_array_moments",
    "reduce_vals_array_comoments",
    "resample_vals_array_weighted",
    "jackknife_vals_array_leave_one_out",
    "rolling_vals_array_windows",
    "rolling_exp_vals_array_decayed"
   ],
   "note": ""
  },
  {
   "property": "C102",
   "status": "proved",
   "theorems": [
    "values_arguments_checked",
    "values_shapes_checked",
    "rolling_exp_wide_decay_refuted"
   ],
   "note": "Shapes without a common shape: for reduce_vals."
  },
  {
   "property": "C103",
   "status": "proved",
   "theorems": [
    "cumulative_named",
    "rolling_named",
    "grouped_named",
    "indexed_named"
   ],
   "note": "xr.apply_ufunc is modelled for DataArrays without coordinates; Datasets and dask are not. window >= 0."
  },
  {
   "property": "C104",
   "status": "proved",
   "theorems": [
    "reduce_named"
   ],
   "note": "use_map=False; at least one dimension."
  },
  {
   "property": "C105",
   "status": "proved",
   "theorems": [
    "resample_named",
    "jackknife_given_named",
    "jackknife_named",
    "jackknife_moved_named",
    "rolling_exp_named"
   ],
   "note": "counts and totals with more axes than the data are not covered."
  },
  {
   "property": "C106",
   "status": "proved",
   "theorems": [
    "cumulative_any_order",
    "rolling_any_order",
    "grouped_any_order",
    "indexed_any_order",
    "jackknife_any_order",
    "resample_any_order",
    "rolling_exp_any_order",
    "reduce_any_order"
   ],
   "note": ""
  },
  {
   "property": "C107",
   "status": "proved",
   "theorems": [
    "cumulative_same_as_array",
    "rolling_same_as_array",
    "jackknife_same_as_array",
    "grouped_same_as_array",
    "indexed_same_as_array"
   ],
   "note": ""
  },
  {
   "property": "C108",
   "status": "proved",
   "theorems": [
    "reduce_vals_named",
    "rolling_vals_named",
    "resample_vals_named",
    "jackknife_vals_given_named",
    "jackknife_vals_named",
    "rolling_exp_vals_named"
   ],
   "note": "A plain argument has no more axes than the result has names; alpha brings no name of its own. window >= 0."
  },
  {
   "property": "C109",
   "status": "proved",
   "theorems": [
    "reduce_vals_any_order",
    "rolling_vals_any_order",
    "resample_vals_any_order",
    "jackknife_vals_any_order",
    "rolling_exp_vals_any_order"
   ],
   "note": ""
  },
  {
   "property": "C110",
   "status": "proved",
   "theorems": [
    "values_named_checked",
    "rolling_exp_vals_named_checked",
    "resample_vals_taken",
    "values_named_unchosen"
   ],
   "note": ""
  },
  {
   "property": "C111",
   "status": "proved",
   "theorems": [
    "push_call_by_positions"
   ],
   "note": "Whether an array that is written to may be stretched is a parameter (stretch); dtype, casting and out= are not modelled."
  },
  {
   "property": "C112",
   "status": "proved",
   "theorems": [
    "push_history_by_positions",
    "object_holds_all_samples"
   ],
   "note": "Whether an array that is written to may be stretched is a parameter (stretch); dtype, casting and out= are not modelled."
  },
  {
   "property": "C113",
   "status": "proved",
   "theorems": [
    "push_vals_onto_zeros_is_reduce_vals"
   ],
   "note": ""
  },
  {
   "property": "C114",
   "status": "proved",
   "theorems": [
    "push_call_misfits",
    "push_datas_default_axis_raises"
   ],
   "note": "Whether an array that is written to may be stretched is a parameter (stretch); dtype, casting and out= are not modelled."
  },
  {
   "property": "C115",
   "status": "proved",
   "theorems": [
    "add_objects",
    "subtract_objects",
    "add_objects_commutative",
    "add_objects_associative",
    "subtract_object_undoes_add",
    "add_zeros",
    "add_of_other_shape_refuted"
   ],
   "note": "Whether an array that is written to may be stretched is a parameter (stretch); dtype, casting and out= are not modelled."
  },
  {
   "property": "C116",
   "status": "proved",
   "theorems": [
    "multiply_object",
    "add_object_to_itself",
    "subtract_is_add_of_negative",
    "multiply_distributes_over_add",
    "multiply_twice",
    "add_checks_moments"
   ],
   "note": ""
  },
  {
   "property": "C117",
   "status": "proved",
   "theorems": [
    "reduce_object",
    "reduce_object_succeeds",
    "reduce_to_end_ignored_without_groups",
    "reduce_object_needs_axis"
   ],
   "note": ""
  },
  {
   "property": "C118",
   "status": "proved",
   "theorems": [
    "reduce_object_grouped",
    "reduce_block_ignored_with_groups",
    "reduce_object_blocks",
    "reduce_object_one_block",
    "reduce_block_too_large",
    "reduce_object_needs_axis"
   ],
   "note": "Nonnegative weights."
  },
  {
   "property": "C119",
   "status": "proved",
   "theorems": [
    "resample_object",
    "jackknife_object",
    "jackknife_object_given",
    "cumulative_object",
    "object_axis_must_be_a_value_axis",
    "default_resample_axis_raises"
   ],
   "note": "Nonnegative weights; the sampler is given as its table of frequencies."
  },
  {
   "property": "C120",
   "status": "proved",
   "theorems": [
    "moments_type_entries",
    "moments_type_to_end",
    "moments_type_order_refused",
    "moments_type_outside",
    "moments_type_other_names",
    "moments_type_round_trip",
    "bad_moment_axes_refused",
    "order_is_layout_refuted"
   ],
   "note": "A read outside the table of binomials is the outcome EMem."
  },
  {
   "property": "C121",
   "status": "proved",
   "theorems": [
    "moments_to_comoments_entries",
    "moments_to_comoments_refused",
    "comoments_to_moments_entries",
    "comoments_to_moments_refused",
    "comoments_round_trip",
    "comoments_of_nothing_refuted"
   ],
   "note": ""
  },
  {
   "property": "C122",
   "status": "proved",
   "theorems": [
    "select_moment_entries",
    "select_moment_missing",
    "select_moment_unknown",
    "names_distinct",
    "bad_moment_axes_refused"
   ],
   "note": "Arrays; coords_combined belongs to labelled data."
  },
  {
   "property": "C123",
   "status": "proved",
   "theorems": [
    "assign_moment_entries",
    "assign_moment_refused",
    "assign_moment_too_few_axes",
    "assign_moment_sequence",
    "assign_moment_nothing",
    "select_after_assign",
    "assign_what_was_selected"
   ],
   "note": "copy= is not modelled."
  },
  {
   "property": "C124",
   "status": "proved",
   "theorems": [
    "vals_to_data_entries",
    "vals_to_data_refused",
    "push_of_vals_to_data",
    "reduce_of_vals_to_data",
    "vals_to_data_axes_refuted"
   ],
   "note": "out= is not modelled."
  },
  {
   "property": "C125",
   "status": "proved",
   "theorems": [
    "windows_by_name",
    "windows_refused",
    "windows_name_taken",
    "windows_repeated",
    "windows_impossible",
    "windows_of_array",
    "windows_mom_params_unused",
    "windows_mom_params_refuted"
   ],
   "note": "Datasets, coordinates and attributes are not modelled."
  },
  {
   "property": "C126",
   "status": "proved",
   "theorems": [
    "rolling_is_reduction_of_windows"
   ],
   "note": "Nonnegative weights; one axis."
  },
  {
   "property": "C127",
   "status": "proved",
   "theorems": [
    "object_select",
    "object_select_missing",
    "object_select_unknown",
    "object_assign",
    "object_assign_refused",
    "object_cmom",
    "object_to_raw",
    "object_to_raw_weight",
    "object_rmom",
    "multiply_is_assign"
   ],
   "note": "std, the square root of var, is left out."
  },
  {
   "property": "C128",
   "status": "proved",
   "theorems": [
    "wrap_is_constructor",
    "wrap_params",
    "wrap_raw_entries",
    "wrap_raw_last",
    "wrap_raw_of_to_raw",
    "to_raw_of_wrap_raw",
    "wrap_raw_of_to_raw_weight",
    "wrap_raw_axes_refuted"
   ],
   "note": ""
  },
  {
   "property": "C129",
   "status": "proved",
   "theorems": [
    "statistics_of_samples",
    "statistics_of_pairs"
   ],
   "note": "std is not modelled."
  },
  {
   "property": "C130",
   "status": "proved",
   "theorems": [
    "wrap_reduce_vals_is_push",
    "wrap_reduce_vals_moments",
    "wrap_reduce_vals_comoments",
    "wrap_vals_bad_mom",
    "wrap_resample_vals_cells",
    "wrap_resample_vals_moments",
    "wrap_resample_vals_comoments"
   ],
   "note": "Nonnegative weights; without mom_params=; the sampler is given as its table of frequencies."
  },
  {
   "property": "C131",
   "status": "proved",
   "theorems": [
    "zeros_like_object",
    "object_comoments",
    "object_comoments_refused",
    "comoments_of_samples"
   ],
   "note": ""
  },
  {
   "property": "C132",
   "status": "proved",
   "theorems": [
    "to_dataarray_object",
    "to_dataarray_all_names",
    "default_names_distinct",
    "to_dataarray_refused",
    "to_dataarray_template",
    "to_array_and_back"
   ],
   "note": "coords=, attrs=, name= are not modelled; a name given twice is outside the theorems."
  },
  {
   "property": "C133",
   "status": "proved",
   "theorems": [
    "push_call_named"
   ],
   "note": "xarray coordinates, Datasets and dask are not modelled; whether an array that is written to may be stretched is a parameter (stretch)."
  },
  {
   "property": "C134",
   "status": "proved",
   "theorems": [
    "push_history_named"
   ],
   "note": ""
  },
  {
   "property": "C135",
   "status": "proved",
   "theorems": [
    "labelled_object_holds_all_samples",
    "zeros_named"
   ],
   "note": "Nonnegative weights."
  },
  {
   "property": "C136",
   "status": "proved",
   "theorems": [
    "push_call_misnamed",
    "add_named_misnamed"
   ],
   "note": ""
  },
  {
   "property": "C137",
   "status": "proved",
   "theorems": [
    "add_named",
    "subtract_named",
    "add_named_commutative",
    "subtract_named_undoes_add",
    "add_named_checks_moments"
   ],
   "note": ""
  },
  {
   "property": "C138",
   "status": "proved",
   "theorems": [
    "reduce_object_named"
   ],
   "note": "At least one dimension."
  },
  {
   "property": "C139",
   "status": "proved",
   "theorems": [
    "reduce_object_grouped_named",
    "reduce_object_labels_named",
    "reduce_coords_policy_refuted",
    "reduce_object_groups_one_dim"
   ],
   "note": "Nonnegative weights; with coords_policy first or last the rows of total weight 0 are left out. Labels are integers."
  },
  {
   "property": "C140",
   "status": "proved",
   "theorems": [
    "reduce_object_blocks_named"
   ],
   "note": "Nonnegative weights; with coords_policy first or last the rows of total weight 0 are left out."
  },
  {
   "property": "C141",
   "status": "proved",
   "theorems": [
    "resample_object_named",
    "jackknife_object_named",
    "jackknife_object_given_named",
    "cumulative_object_named"
   ],
   "note": "Nonnegative weights; the sampler is given as its table of frequencies."
  },
  {
   "property": "C142",
   "status": "proved",
   "theorems": [
    "moments_type_named",
    "moments_type_named_other",
    "moments_type_named_round_trip",
    "moments_type_named_refused",
    "moments_type_named_outside"
   ],
   "note": "DataArrays; the theorem about sizes outside the binomial table says that reading past it is an error."
  },
  {
   "property": "C143",
   "status": "proved",
   "theorems": [
    "moments_to_comoments_named",
    "moments_to_comoments_named_taken",
    "moments_to_comoments_named_orders",
    "moments_to_comoments_named_missing",
    "moments_to_comoments_named_aside",
    "comoments_to_moments_named",
    "comoments_to_moments_named_missing",
    "comoments_named_round_trip",
    "comoments_new_names_refuted"
   ],
   "note": "DataArrays."
  },
  {
   "property": "C144",
   "status": "proved",
   "theorems": [
    "select_moment_named",
    "select_moment_named_missing",
    "select_moment_named_unknown",
    "select_moment_named_refused",
    "select_all_named",
    "select_moment_named_absent"
   ],
   "note": "DataArrays; coordinates are checked, not kept."
  },
  {
   "property": "C145",
   "status": "proved",
   "theorems": [
    "assign_moment_named",
    "assign_one_named",
    "assign_what_was_selected_named",
    "assign_moment_named_refused",
    "assign_blank_combined"
   ],
   "note": "DataArrays, copy=True."
  },
  {
   "property": "C146",
   "status": "proved",
   "theorems": [
    "assign_average_by_name_refuted",
    "assign_selected_default_refuted",
    "assign_keeps_order_refuted"
   ],
   "note": "Refutations with witnesses."
  },
  {
   "property": "C147",
   "status": "proved",
   "theorems": [
    "vals_to_data_named",
    "vals_to_data_named_count",
    "vals_to_data_named_refused"
   ],
   "note": "x is a DataArray; no out=."
  },
  {
   "property": "C148",
   "status": "proved",
   "theorems": [
    "object_assign_named",
    "object_select_named",
    "object_cmom_named",
    "object_to_raw_named",
    "object_to_raw_weight_named",
    "object_rmom_named",
    "wrap_raw_of_to_raw_named",
    "wrap_raw_named",
    "statistics_named_one",
    "statistics_named_two",
    "mean_any_names_refuted"
   ],
   "note": "DataArrays; std is not modelled (square roots)."
  },
  {
   "property": "C149",
   "status": "proved",
   "theorems": [
    "cumulative_fills",
    "resample_fills",
    "reduce_fills",
    "grouped_fills",
    "indexed_fills",
    "jackknife_fills",
    "rolling_fills",
    "rolling_exp_fills",
    "moments_type_fills"
   ],
   "note": "out as the content of the array after the call; aliasing, dtype and memory order are not modelled."
  },
  {
   "property": "C150",
   "status": "proved",
   "theorems": [
    "reduce_vals_fills",
    "resample_vals_fills",
    "jackknife_vals_fills",
    "rolling_vals_fills",
    "rolling_exp_vals_fills"
   ],
   "note": "As C149."
  },
  {
   "property": "C151",
   "status": "proved",
   "theorems": [
    "reduce_nothing_out",
    "reduce_nothing_fills_refuted",
    "rolling_centred_fills_refuted",
    "rolling_exp_new_name_fills_refuted"
   ],
   "note": "Refuted with witnesses."
  },
  {
   "property": "C152",
   "status": "proved",
   "theorems": [
    "cumulative_set",
    "rolling_set",
    "grouped_set",
    "indexed_set",
    "rolling_exp_set",
    "resample_set",
    "reduce_set",
    "jackknife_given_set",
    "cumulative_set_alone",
    "rolling_set_alone",
    "grouped_set_alone",
    "indexed_set_alone",
    "rolling_exp_set_alone",
    "resample_set_alone",
    "reduce_set_alone",
    "jackknife_set_alone"
   ],
   "note": "Datasets without coordinates and attributes, no out=, the dimension given by name; without the _alone theorems results might fail to go into one Dataset. Negative windows are outside rolling_set_alone."
  },
  {
   "property": "C153",
   "status": "proved",
   "theorems": [
    "reduce_vals_set",
    "rolling_vals_set",
    "rolling_exp_vals_set",
    "resample_vals_set",
    "jackknife_vals_given_set",
    "reduce_vals_set_alone",
    "rolling_vals_set_alone",
    "rolling_exp_vals_set_alone",
    "resample_vals_set_alone",
    "jackknife_vals_set_alone"
   ],
   "note": "As C152; at least one variable is processed."
  },
  {
   "property": "C154",
   "status": "proved",
   "theorems": [
    "reduce_set",
    "reduce_set_map"
   ],
   "note": "As C152."
  },
  {
   "property": "C155",
   "status": "proved",
   "theorems": [
    "grouped_set_alone",
    "indexed_set_alone",
    "reduce_set_alone",
    "grouped_with_other_refuted"
   ],
   "note": "Refuted; the first three theorems say when it happens."
  },
  {
   "property": "C156",
   "status": "proved",
   "theorems": [
    "resample_unpaired",
    "resample_other_names",
    "unpaired_with_other_refuted"
   ],
   "note": "The random numbers of the tables are not modelled (any tables)."
  },
  {
   "property": "C157",
   "status": "proved",
   "theorems": [
    "missing_dimension_set_refuted",
    "plain_weights_set_refuted"
   ],
   "note": "Refuted with witnesses."
  },
  {
   "property": "C158",
   "status": "proved",
   "theorems": [
    "resample_misfit",
    "rolling_exp_misfit",
    "jackknife_misfit",
    "reduce_vals_misfit",
    "rolling_vals_misfit",
    "rolling_exp_vals_misfit",
    "resample_vals_misfit",
    "jackknife_vals_misfit"
   ],
   "note": "As C152; the alignment of xarray (join exact) is modelled, not verified."
  },
  {
   "property": "C159",
   "status": "proved",
   "theorems": [
    "stack_named",
    "unstack_named",
    "unstack_back",
    "stack_unstack",
    "stack_reorder_unstack",
    "stack_reduce_named"
   ],
   "note": "The index of the stacked dimension is an argument of the model; places without a position (fill_value) and the empty list of dimensions are not modelled."
  },
  {
   "property": "C160",
   "status": "proved",
   "theorems": [
    "x_isel_named",
    "isel_object_named",
    "isel_cumulative",
    "isel_rolling",
    "isel_resample",
    "isel_grouped",
    "isel_indexed",
    "isel_jackknife",
    "isel_rolling_exp",
    "isel_reduce"
   ],
   "note": "Indexers that are arrays with dimensions of their own and missing_dims other than raise are not modelled."
  },
  {
   "property": "C161",
   "status": "proved",
   "theorems": [
    "to_dataset_named",
    "to_dataset_moment",
    "to_dataset_one_named",
    "to_dataarray_named",
    "to_dataset_back"
   ],
   "note": "Labels are an argument of the model; coordinates and names are not modelled."
  },
  {
   "property": "C162",
   "status": "proved",
   "theorems": [
    "isel_moments_refuted",
    "to_dataarray_moments_refuted"
   ],
   "note": "Refuted with witnesses."
  },
  {
   "property": "C163",
   "status": "proved",
   "theorems": [
    "push_set",
    "push_set_holds",
    "push_set_named"
   ],
   "note": "A Dataset of samples is read along a named dimension; plain weights beside a Dataset have at most one axis (others: C157). xr.apply_ufunc of Datasets is modelled, not verified."
  },
  {
   "property": "C164",
   "status": "proved",
   "theorems": [
    "as_dict_spec",
    "as_dict_push"
   ],
   "note": "As C163."
  },
  {
   "property": "C165",
   "status": "proved",
   "theorems": [
    "add_set",
    "subtract_set"
   ],
   "note": "As C163; the copy that + makes is not modelled here."
  },
  {
   "property": "C166",
   "status": "proved",
   "theorems": [
    "reduce_object_set",
    "grouped_object_set",
    "labels_object_set",
    "cumulative_object_set",
    "resample_object_set",
    "jackknife_object_set"
   ],
   "note": "Dimensions by name. Several dimensions without use_map=False are C154; frequencies have no further dimensions."
  },
  {
   "property": "C167",
   "status": "proved",
   "theorems": [
    "failed_push_refuted"
   ],
   "note": "Refuted with a witness; that apply_ufunc passes views of the arrays is modelled, not verified."
  },
  {
   "property": "C168",
   "status": "proved",
   "theorems": [
    "ignored_push_refuted"
   ],
   "note": "Refuted with a witness."
  },
  {
   "property": "C169",
   "status": "proved",
   "theorems": [
    "out_order_refuted",
    "out_groups_refuted",
    "grouped_fills",
    "reduce_vals_fills"
   ],
   "note": "Refuted with witnesses; the last two theorems say what happens in general."
  },
  {
   "property": "C170",
   "status": "proved",
   "theorems": [
    "push_data_failed",
    "push_data_refused_whole"
   ],
   "note": "That apply_ufunc passes views of the arrays of the variables is modelled, not verified; entries written by a kernel that then raises are not modelled."
  },
  {
   "property": "C171",
   "status": "proved",
   "theorems": [
    "getitems_spec",
    "add_sizes_refused"
   ],
   "note": "Without coordinates and attributes."
  },
  {
   "property": "C172",
   "status": "proved",
   "theorems": [
    "indexed_coords"
   ],
   "note": "Coordinates are labels without index objects, other arguments have none, and group_dim is not the name of another coordinate."
  },
  {
   "property": "C173",
   "status": "proved",
   "theorems": [
    "reduced_coords",
    "kept_coords",
    "resampled_coords",
    "jackknifed_coords",
    "plain_groups_coords",
    "named_groups_coords"
   ],
   "note": "As C172."
  },
  {
   "property": "C174",
   "status": "proved",
   "theorems": [
    "reduce_by_integers_coords"
   ],
   "note": "As C172."
  },
  {
   "property": "C175",
   "status": "proved",
   "theorems": [
    "reduce_by_name_coords",
    "reduce_by_unknown_name"
   ],
   "note": "As C172; a coordinate of one dimension."
  },
  {
   "property": "C176",
   "status": "proved",
   "theorems": [
    "reduce_blocks_coords",
    "reduce_whole_coords"
   ],
   "note": "As C172."
  },
  {
   "property": "C177",
   "status": "proved",
   "theorems": [
    "sel_is_isel"
   ],
   "note": "Without method= and slices of labels; the coordinates of the result are not modelled."
  },
  {
   "property": "C178",
   "status": "proved",
   "theorems": [
    "empty_group_coords_refuted"
   ],
   "note": "Refuted with a witness."
  },
  {
   "property": "C179",
   "status": "proved",
   "theorems": [
    "empty_index_coords_refuted"
   ],
   "note": "Refuted with a witness."
  },
  {
   "property": "C180",
   "status": "proved",
   "theorems": [
    "first_row_coords_refuted"
   ],
   "note": "Refuted with a witness: an argsort that sorts and reverses equal keys."
  },
  {
   "property": "C181",
   "status": "proved",
   "theorems": [
    "push_data_coords",
    "push_datas_coords",
    "push_val_coords",
    "push_vals_coords",
    "reduce_vals_coords",
    "sums_coords"
   ],
   "note": "First half of each. What xarray does with join='exact' and compat='minimal' is an assumption of the model: its source is not at hand."
  },
  {
   "property": "C182",
   "status": "proved",
   "theorems": [
    "push_data_coords",
    "push_datas_coords",
    "push_val_coords",
    "push_vals_coords",
    "reduce_vals_coords",
    "sums_coords",
    "push_arrays_coords",
    "merged_fit"
   ],
   "note": "Second half of each; the order of the coordinates is not modelled."
  },
  {
   "property": "C183",
   "status": "proved",
   "theorems": [
    "merged_any_order",
    "sum_coords_any_order"
   ],
   "note": ""
  },
  {
   "property": "C184",
   "status": "proved",
   "theorems": [
    "push_keeps_coords_refuted"
   ],
   "note": "Refuted with a witness."
  },
  {
   "property": "C185",
   "status": "proved",
   "theorems": [
    "select_moment_set",
    "select_moment_set_coords"
   ],
   "note": "What the selection from one variable is: C144."
  },
  {
   "property": "C186",
   "status": "proved",
   "theorems": [
    "assign_moment_set"
   ],
   "note": "Values that do not fit the sizes of the Dataset are outside the hypotheses."
  },
  {
   "property": "C187",
   "status": "proved",
   "theorems": [
    "moments_type_set"
   ],
   "note": ""
  },
  {
   "property": "C188",
   "status": "proved",
   "theorems": [
    "stats_set",
    "cmom_set",
    "rmom_set"
   ],
   "note": "std() of a Dataset is not implemented in the code; to_raw(weight=) only as in rmom()."
  },
  {
   "property": "C189",
   "status": "proved",
   "theorems": [
    "mul_named",
    "mul_set",
    "multiples"
   ],
   "note": ""
  },
  {
   "property": "C190",
   "status": "proved",
   "theorems": [
    "mean_set_refuted"
   ],
   "note": "Refuted with a witness."
  },
  {
   "property": "C191",
   "status": "proved",
   "theorems": [
    "mul_one_refuted"
   ],
   "note": "Refuted with a witness."
  },
  {
   "property": "C192",
   "status": "proved",
   "theorems": [
    "add_named_to_itself",
    "add_set_to_itself",
    "subtract_named_is_add_of_negative",
    "multiply_named_distributes",
    "add_named_associative"
   ],
   "note": "For a Dataset only c + c is stated here; the other laws are C195."
  },
  {
   "property": "C193",
   "status": "proved",
   "theorems": [
    "grouped_out_shape_ok",
    "values_out_shape_ok",
    "resample_out_shape_ok"
   ],
   "note": "The shape of the array; its strides in memory are not modelled."
  },
  {
   "property": "C194",
   "status": "proved",
   "theorems": [
    "grouped_alloc"
   ],
   "note": ""
  },
  {
   "property": "C195",
   "status": "proved",
   "theorems": [
    "subtract_set_is_add_of_negative",
    "multiply_set_distributes",
    "add_set_associative",
    "add_set",
    "subtract_set"
   ],
   "note": "When several variables fail, which of the errors is raised is not stated; a sum or difference can only fail with ZeroDivisionError here."
  },
  {
   "property": "C196",
   "status": "proved",
   "theorems": [
    "swap_named",
    "swap_values",
    "swap_moment_error"
   ],
   "note": "Coordinates are not part of this model; two dimensions of one name are a ValueError here, xarray's own behaviour then depends on its version."
  },
  {
   "property": "C197",
   "status": "proved",
   "theorems": [
    "swap_moment_refuted"
   ],
   "note": "Refuted with a witness."
  },
  {
   "property": "C198",
   "status": "proved",
   "theorems": [
    "rename_named"
   ],
   "note": "Coordinates are not part of this model."
  },
  {
   "property": "C199",
   "status": "proved",
   "theorems": [
    "rename_moment_refuted"
   ],
   "note": "Refuted with a witness."
  },
  {
   "property": "C200",
   "status": "proved",
   "theorems": [
    "reduce_renamed",
    "swap_reduce_named"
   ],
   "note": "Coordinates are not part of this model."
  },
  {
   "property": "C201",
   "status": "proved",
   "theorems": [
    "swap_rows_named",
    "cumulative_renamed",
    "rolling_renamed",
    "grouped_renamed"
   ],
   "note": "Which error is raised is not compared. An empty dimension along d and groups that are all -1 give results without entries and are left out. Coordinates are not part of this model."
  },
  {
   "property": "C202",
   "status": "proved",
   "theorems": [
    "dims_told",
    "dims_told_swap"
   ],
   "note": "Objects over a DataArray; over a Dataset most of these raise NotImplementedError, which is not modelled."
  },
  {
   "property": "C203",
   "status": "proved",
   "theorems": [
    "swap_back"
   ],
   "note": "Coordinates are not part of this model."
  }
 ]
}
