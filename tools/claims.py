c("C01", "reduce_vals_is_weighted_moments reduce_vals_no_weight reduce_vals_zero_division nonnegative_weights_running_ok",
  "Exact arithmetic. The result, the zero case and the ZeroDivisionError case together cover every input.")
c("C02", "reduce_vals_pairs_is_weighted_comoments reduce_vals_pairs_no_weight reduce_vals_pairs_zero_division")
c("C03", "merge_chunks_of_samples merge_chunks_of_rows")
c("C04", "reduce_vals_order_irrelevant reduce_data_order_irrelevant nonnegative_order_irrelevant")
c("C05", "any_push_history_is_one_reduction push_history_is_row_by_row")
c("C06", "add_commutative add_associative add_zero_right add_zero_left add_zero_left_unclean_refuted",
  "The left identity needs a row that has no moments when it has no weight; the refuted theorem shows why.")
c("C07", "subtract_undoes_add subtract_then_add subtract_equal_weight_zero_division")
c("C08", "zero_weight_push_no_effect drop_zero_weight_samples drop_zero_weight_rows drop_zero_weight_group_rows")
c("C09", "scaling_weights_of_samples scaling_weights_of_rows mul_changes_only_the_weight")
c("C10", "integer_scale_is_repetition integer_weight_is_repetition")
c("C11", "vals_as_rows_one vals_as_rows_two vals_to_data_rows_one vals_to_data_rows_two")
c("C12", "affine_change_of_variable affine1_entries")
c("C13", "lower_order_is_prefix lower_order_is_block")
c("C14", "marginal_of_x marginal_of_y swapping_transposes")
c("C20", "cumulative_rows_are_prefix_reductions cumulative_clean_rows cumulative_unclean_refuted",
  "While the total weight is zero the code returns the input row itself; equal to the reduction for clean rows only.")
c("C21", "cumulative_inverse_restores cumulative_inverse_positive_weights cumulative_inverse_zero_row_refuted",
  "Exact condition for arbitrary weights.")
c("C22", "resample_data_is_weighted_reduction resample_data_is_reduction_of_repeats")
c("C23", "resample_weightless_returns_first_row resample_weightless_refuted")
c("C24", "resample_vals_is_weighted_reduction resample_vals_is_reduction_of_repeats")
c("C28", "jackknife_rows_leave_one_out jackknife_all_weight_in_one_row jackknife_freq_rows")
c("C29", "jackknife_vals_leave_one_out jackknife_vals_all_weight_in_one")
c("C30", "grouped_rows_are_group_reductions grouped_length_mismatch")
c("C34", "groups_merge_to_total")
c("C40", "rolling_rows_are_window_reductions")
c("C41", "rolling_vals_rows_are_window_moments")
c("C42", "rolling_negative_weights_refuted")
c("C44", "rolling_exp_rows_are_decayed_reductions rolling_exp_vals_rows_are_decayed_reductions rolling_exp_complete_decay_refuted")
c("C66", "even_central_moments_nonnegative covariance_cauchy_schwarz mean_between_samples")
c("C67", "reduce_data_parallel_axis reduce_data_parallel_axis_pairs law_of_total_variance")
c("C68", "ones_frequency_is_reduction permuted_ones_is_reduction")
c("C69", "bias_correction_rows bias_correction_zero_norm")
c("C15", "moments_to_comoments_is_x_with_itself diagonal_covariance_is_variance")
c("C16", "central_raw_central raw_central_raw")
c("C17", "central_raw_central_pairs raw_central_raw_pairs")
c("C18", "raw_moments_are_power_means raw_comoments_are_power_means")
c("C19", "comoment_orders_resolved comoment_orders_rejected comoments_to_moments_inverts comoments_to_moments_entries")
c("C55", "select_after_assign assign_succeeds assign_what_was_selected assign_twice_keeps_last assign_changes_only_named_entries selection_is_named_entries disjoint_assignments_commute unknown_name_raises known_name_selects assign_moment_copy assign_moment_in_place",
  "assign_moment_copy and assign_moment_in_place are about objects in memory.")
c("C56", "last_name_wins assignment_order_matters")
c("C57", "cmom_one cmom_two rmom_one rmom_two accessors_one accessors_two variance_of_order_one_refuted operators_leave_all_objects",
  "operators_leave_all_objects has cmom and to_raw/rmom among the operations.")
c("C25", "resampling_by_indices",
  "resample_data of the table made from an index list equals reduce_data of the rows it lists.")
c("C26", "indices_to_freq_counts indices_to_freq_rejects_too_large freq_to_indices_lists freq_to_indices_rejects_unequal_sums freq_to_indices_to_freq indices_to_freq_to_indices")
c("C27", "indices_to_freq_negative_wraps indices_to_freq_negative_refuted indices_to_freq_out_of_bounds")
c("C31", "indexed_equals_grouped indexed_equals_grouped_weightless_refuted indexed_rows_are_slice_reductions indexed_default_scale",
  "Equality for groups of nonzero total weight; for a weightless group the indexed kernel keeps its first row, shown by the refuted theorem.")
c("C32", "factor_by_to_index_partition factor_by_to_index_order_refuted",
  "argsort is any function that returns a sorting permutation; increasing order inside a group for a stable one only.")
c("C33", "factor_by_codes_and_groups factor_by_sorted_groups factor_by_first_appearance")
c("C35", "block_by_codes block_by_counts block_by_single_block block_by_too_large")
c("C36", "block_by_mode_checked_only_inside")
c("C37", "freq_to_index_reproduces_table resampling_by_index_equals_resampling")
c("C38", "zero_last_replicate_rejected zero_last_replicate_refuted")
c("C39", "validate_index_accepts validate_index_rejects_with_value_error indexed_never_out_of_bounds indexed_scale_length_mismatch")
c("C43", "rolling_center_is_shifted_window rolling_vals_center_is_shifted_window rolling_center_needs_a_window")
c("C70", "negative_frequency_uninitialised_refuted negative_frequency_general")
c("C45", "moveaxis_order_spec moves_unique moveaxis_order_raises moveaxis_axes_to_end moveaxis_rejects_moment_axes")
c("C46", "normalize_axis_index_spec normalize_axis_tuple_spec normalize_axis_tuple_idempotent positive_to_negative_index_inverse axis_names_at_most_one every_axis_has_two_names complex_axis_before_moments complex_axis_moments_first_refuted",
  "A complex axis counts axes in front of trailing moment axes; the refuted theorem shows that it is off when the moment axes are first.")
c("C47", "reduce_in_two_steps reduce_axis_order_irrelevant reduce_array_succeeds",
  "Nonnegative weights.  axis=None is the set of all axes other than the moment axes in names_axes.")
c("C48", "reduce_array_entries reduce_array_succeeds holds_reduction_unique reduce_moment_axes_anywhere reduce_moment_axis_raises reduce_bad_axis_raises reduce_no_axes reduce_no_axes_to_end_refuted",
  "The out= argument is not modelled.  With an empty axis tuple the flags are ignored, shown by the refuted theorem.")
c("C49", "contexts_restore_options context_restores_its_keys contexts_not_lifo_refuted")
c("C50", "set_options_all_or_nothing options_stay_typed nmax_value_refuted")
c("C51", "shared_generator seed_replaces_generator caller_generator_untouched validate_rng_seed rejected_seed internal_rng_missing seeded_stream_reproducible")
c("C52", "schedule_result schedule_independent schedules_end schedules_progress parallel_reduce_data parallel_push_datas parallel_freq_to_indices parallel_indices_to_freq broadcast_push_refuted",
  "schedule_independent is for any kernel call that loads inputs and loads and stores its own output elements; the three named kernels are instances.  Sequentially consistent memory.")
c("C53", "parallel_selection unsafe_first_never_parallel parallel_in_unsafe_thread_refuted factory_cache_stale_refuted")
c("C100", "reduce_vals_array resample_vals_array jackknife_vals_array jackknife_vals_given_array rolling_vals_array rolling_exp_vals_array", "The gufunc loop of numpy is modelled; window >= 0; out=None.")
c("C101", "reduce_vals_array_moments reduce_vals_array_comoments resample_vals_array_weighted jackknife_vals_array_leave_one_out rolling_vals_array_windows rolling_exp_vals_array_decayed")
c("C102", "values_arguments_checked values_shapes_checked rolling_exp_wide_decay_refuted", "Shapes without a common shape: for reduce_vals.")
c("C99", "parallel_target modules_shared selected_runs_serial_refuted")
c("C54", "select_dtype_precedence select_dtype_dataset select_dtype_out_first_refuted byte_order_refuted")
c("C64", "validate_mom_exact validate_mom_rejects validate_mom_ndim_exact mom_ndim_values mom_ndim_axes_agree mom_shape_of_mom mom_of_mom_shape mom_of_mom_shape_refuted select_mom_ndim_exact select_mom_ndim_zero_refuted")
c("C65", "binomial_table binomial_table_pascal push_independent_of_nmax cpush_independent_of_nmax convert_independent_of_nmax cconvert_independent_of_nmax order_above_nmax_refuted table_fixed_at_first_use late_nmax_refuted")
c("C58", "operators_leave_all_objects in_place_changes_only_the_target alias_observes_every_change view_shows_rows copy_is_independent sum_of_objects push_in_place multiplied_object multiplied_in_place reduce_without_axes_aliases_refuted",
  "Outer axes flattened; broadcasting along some outer axes only is not modelled.")
c("C71", "add_object_to_itself subtract_object_from_itself push_object_into_itself")
c("C72", "push_in_place overlapping_views_refuted")
c("C73", "push_in_place failed_push_changes_the_target_refuted")
c("C74", "owners_share_nothing untouched_objects_keep_their_value copy_is_independent")
c("C62", "quantile_spec quantile_unique quantile_permutation quantile_out_of_range quantile_monotone quantile_extremes quantile_in_range quantile_scaled quantile_reflected percentile_interval basic_interval two_sided_interval missing_theta_hat labelled_equals_numpy",
  "One column; numpy's quantile (method linear) is modelled from its definition.")
c("C75", "bca_in_range bca_succeeds bca_outside_is_nan")
c("C76", "bca_scaled bca_reflected bca_neutral_is_percentile acceleration_reflected acceleration_scaled acceleration_degenerate score_bounds score_monotone score_reflected score_scaled",
  "pow15 (d ** 1.5), ndtr and the square root of a logarithm inside ndtri are parameters; the laws used of them are hypotheses.")
c("C77", "ndtri_odd ndtri_half ndtri_inside ndtri_outside_uninitialised bca_level_range_refuted quantile_out_of_range")
c("C78", "missing_theta_jack missing_arguments_labelled unknown_method_is_percentile method_case_irrelevant_numpy method_case_xarray_refuted")
c("C79", "basic_interval_symmetric basic_interval_asymmetric_refuted interval_order_refuted")
c("C61", "explicit_axes_used explicit_dims_used dims_from_axes default_axes_last factory_wellformed object_returned_unchanged params_hide_axes params_hide_dims explicit_axes_ignored_refuted explicit_dims_ignored_refuted dims_and_axes_not_compared_refuted optional_object_passes_refuted")
c("C80", "select_axis_dim_exact select_axis_dim_raises select_by_axis_or_name select_axis_dim_default complex_axis_counts_values complex_axis_not_last_refuted")
c("C81", "select_mult_exact dim_none_selects_values axis_none_moments_last axis_none_moments_first_refuted repeated_names_accepted_refuted")
c("C82", "labelled_shapes_agree to_array_without_data to_array_without_data_refuted shape_split")
c("C63", "sampler_object_returned mapping_is_keywords integer_is_nrep tables_hide_random_arguments table_is_freq random_sampler_needs random_sampler_sizes new_sampler_checks replace_ignored_for_labels replace_ignored_for_labels_refuted shuffle_ignored_refuted integer_sampler_rng_ignored_refuted integer_sampler_ndat_ignored_refuted",
  "Generator.choice and Generator.shuffle are parameters with numpy's contract as hypothesis.")
c("C83", "random_indices_spec random_indices_succeeds random_freq_spec without_replacement_one_replicate without_replacement_per_replicate_refuted",
  "Generator.choice is a parameter with numpy's contract as hypothesis.")
c("C84", "attributes_are_values attributes_stable freq_and_indices_agree both_tables_not_compared_refuted ndat_of_indices_refuted")
c("C85", "seeded_sampler_reproducible labelled_data_same_tables unpaired_draws")
c("C86", "select_ndat_array_exact select_ndat_labelled_exact select_ndat_agrees select_ndat_agrees_back select_ndat_repeated_axes_refuted select_ndat_by_name")
c("C59", "getitem_values getitem_exact getitem_moment_axis_refuted getitem_reversed_moments_refuted iter_values iter_scalar_raises", "Basic indexing (integers, slices, newaxis, Ellipsis); fancy indexing is not modelled.")
c("C60", "to_array_values to_array_order_refuted concat_labelled_values concat_labelled_new concat_labelled_order_refuted concat_labelled_moments_refuted x_concat_existing x_concat_new", "xr.concat is modelled for arrays over the same dimension names; broadcasting of missing dimensions is not.")
c("C87", "init_moves_axes init_raises x_init_exact x_new_like_exact")
c("C88", "reshape_values reshape_infer reshape_raises moveaxis_values moveaxis_to_end_values new_like_exact new_like_zeros pipe_exact", "order=\"C\" only.")
c("C89", "resample_values resample_raises resample_default_takes_moments resample_default_axis_refuted")
c("C90", "concatenate_entries concatenate_raises concat_values concat_rows concat_then_reduce concat_raises concat_moment_axis_refuted concat_scalars_refuted")
c("C91", "x_transpose_values x_pipe_reorders x_getitem_picks x_getitem_values x_getitem_raises x_iter_values x_iter_raises rename_values rename_moment_refuted", "Positional indexing by integers and slices; coordinates are not modelled.")
c("C92", "cumulative_array resample_array grouped_array indexed_array jackknife_array rolling_array rolling_exp_array columns_determine_the_array axes_to_end_only_moves_axes", "The gufunc loop of numpy is modelled; window >= 0.")
c("C93", "cumulative_array_prefixes grouped_array_members resample_array_weighted jackknife_array_leave_one_out rolling_array_windows rolling_exp_array_decayed cumulative_array_roundtrip")
c("C94", "broadcast_shapes_ok broadcast_shapes_raises jackknife_given_array rolling_exp_array resample_array", "data_reduced or alpha with more axes than the data are not covered.")
c("C95", "axis_must_name_a_data_axis")
c("C96", "ndtri_published ndtri_increasing central_increasing tail_decreasing", "log and sqrt are not modelled: sqrt(-2 log p) is a parameter.")
c("C97", "acceleration_bounded bca_ordered", "pow15 x is assumed to have square x^3; ndtr is any monotone function.")
c("C98", "cmom_object raw_object")
c("C103", "cumulative_named rolling_named grouped_named indexed_named", "xr.apply_ufunc is modelled for DataArrays without coordinates; Datasets and dask are not. window >= 0.")
c("C104", "reduce_named", "use_map=False; at least one dimension.")
c("C105", "resample_named jackknife_given_named jackknife_named jackknife_moved_named rolling_exp_named", "counts and totals with more axes than the data are not covered.")
c("C106", "cumulative_any_order rolling_any_order grouped_any_order indexed_any_order jackknife_any_order resample_any_order rolling_exp_any_order reduce_any_order")
c("C107", "cumulative_same_as_array rolling_same_as_array jackknife_same_as_array grouped_same_as_array indexed_same_as_array")
c("C108", "reduce_vals_named rolling_vals_named resample_vals_named jackknife_vals_given_named jackknife_vals_named rolling_exp_vals_named", "A plain argument has no more axes than the result has names; alpha brings no name of its own. window >= 0.")
c("C109", "reduce_vals_any_order rolling_vals_any_order resample_vals_any_order jackknife_vals_any_order rolling_exp_vals_any_order")
c("C110", "values_named_checked rolling_exp_vals_named_checked resample_vals_taken values_named_unchosen")
c("C111", "push_call_by_positions", "Whether an array that is written to may be stretched is a parameter (stretch); dtype, casting and out= are not modelled.")
c("C112", "push_history_by_positions object_holds_all_samples", "Whether an array that is written to may be stretched is a parameter (stretch); dtype, casting and out= are not modelled.")
c("C113", "push_vals_onto_zeros_is_reduce_vals")
c("C114", "push_call_misfits push_datas_default_axis_raises", "Whether an array that is written to may be stretched is a parameter (stretch); dtype, casting and out= are not modelled.")
c("C115", "add_objects subtract_objects add_objects_commutative add_objects_associative subtract_object_undoes_add add_zeros add_of_other_shape_refuted", "Whether an array that is written to may be stretched is a parameter (stretch); dtype, casting and out= are not modelled.")
c("C116", "multiply_object add_object_to_itself subtract_is_add_of_negative multiply_distributes_over_add multiply_twice add_checks_moments")
c("C117", "reduce_object reduce_object_succeeds reduce_to_end_ignored_without_groups reduce_object_needs_axis")
c("C118", "reduce_object_grouped reduce_block_ignored_with_groups reduce_object_blocks reduce_object_one_block reduce_block_too_large reduce_object_needs_axis", "Nonnegative weights.")
c("C119", "resample_object jackknife_object jackknife_object_given cumulative_object object_axis_must_be_a_value_axis default_resample_axis_raises", "Nonnegative weights; the sampler is given as its table of frequencies.")
c("C120", "moments_type_entries moments_type_to_end moments_type_order_refused moments_type_outside moments_type_other_names moments_type_round_trip bad_moment_axes_refused order_is_layout_refuted", "A read outside the table of binomials is the outcome EMem.")
c("C121", "moments_to_comoments_entries moments_to_comoments_refused comoments_to_moments_entries comoments_to_moments_refused comoments_round_trip comoments_of_nothing_refuted")
c("C122", "select_moment_entries select_moment_missing select_moment_unknown names_distinct bad_moment_axes_refused", "Arrays; coords_combined belongs to labelled data.")
c("C123", "assign_moment_entries assign_moment_refused assign_moment_too_few_axes assign_moment_sequence assign_moment_nothing select_after_assign assign_what_was_selected", "copy= is not modelled.")
c("C124", "vals_to_data_entries vals_to_data_refused push_of_vals_to_data reduce_of_vals_to_data vals_to_data_axes_refuted", "out= is not modelled.")
c("C125", "windows_by_name windows_refused windows_name_taken windows_repeated windows_impossible windows_of_array windows_mom_params_unused windows_mom_params_refuted", "Datasets, coordinates and attributes are not modelled.")
c("C126", "rolling_is_reduction_of_windows", "Nonnegative weights; one axis.")
c("C127", "object_select object_select_missing object_select_unknown object_assign object_assign_refused object_cmom object_to_raw object_to_raw_weight object_rmom multiply_is_assign", "std, the square root of var, is left out.")
c("C128", "wrap_is_constructor wrap_params wrap_raw_entries wrap_raw_last wrap_raw_of_to_raw to_raw_of_wrap_raw wrap_raw_of_to_raw_weight wrap_raw_axes_refuted")
c("C129", "statistics_of_samples statistics_of_pairs", "std is not modelled.")
c("C130", "wrap_reduce_vals_is_push wrap_reduce_vals_moments wrap_reduce_vals_comoments wrap_vals_bad_mom wrap_resample_vals_cells wrap_resample_vals_moments wrap_resample_vals_comoments", "Nonnegative weights; without mom_params=; the sampler is given as its table of frequencies.")
c("C131", "zeros_like_object object_comoments object_comoments_refused comoments_of_samples")
c("C132", "to_dataarray_object to_dataarray_all_names default_names_distinct to_dataarray_refused to_dataarray_template to_array_and_back", "coords=, attrs=, name= are not modelled; a name given twice is outside the theorems.")
c("C133", "push_call_named", "xarray coordinates, Datasets and dask are not modelled; whether an array that is written to may be stretched is a parameter (stretch).")
c("C134", "push_history_named")
c("C135", "labelled_object_holds_all_samples zeros_named", "Nonnegative weights.")
c("C136", "push_call_misnamed add_named_misnamed")
c("C137", "add_named subtract_named add_named_commutative subtract_named_undoes_add add_named_checks_moments")
c("C138", "reduce_object_named", "At least one dimension.")
c("C139", "reduce_object_grouped_named reduce_object_labels_named reduce_coords_policy_refuted reduce_object_groups_one_dim", "Nonnegative weights; with coords_policy first or last the rows of total weight 0 are left out. Labels are integers.")
c("C140", "reduce_object_blocks_named", "Nonnegative weights; with coords_policy first or last the rows of total weight 0 are left out.")
c("C141", "resample_object_named jackknife_object_named jackknife_object_given_named cumulative_object_named", "Nonnegative weights; the sampler is given as its table of frequencies.")
c("C142", "moments_type_named moments_type_named_other moments_type_named_round_trip moments_type_named_refused moments_type_named_outside", "DataArrays; the theorem about sizes outside the binomial table says that reading past it is an error.")
c("C143", "moments_to_comoments_named moments_to_comoments_named_taken moments_to_comoments_named_orders moments_to_comoments_named_missing moments_to_comoments_named_aside comoments_to_moments_named comoments_to_moments_named_missing comoments_named_round_trip comoments_new_names_refuted", "DataArrays.")
c("C144", "select_moment_named select_moment_named_missing select_moment_named_unknown select_moment_named_refused select_all_named select_moment_named_absent", "DataArrays; coordinates are checked, not kept.")
c("C145", "assign_moment_named assign_one_named assign_what_was_selected_named assign_moment_named_refused assign_blank_combined", "DataArrays, copy=True.")
c("C146", "assign_average_by_name_refuted assign_selected_default_refuted assign_keeps_order_refuted", "Refutations with witnesses.")
c("C147", "vals_to_data_named vals_to_data_named_count vals_to_data_named_refused", "x is a DataArray; no out=.")
c("C148", "object_assign_named object_select_named object_cmom_named object_to_raw_named object_to_raw_weight_named object_rmom_named wrap_raw_of_to_raw_named wrap_raw_named statistics_named_one statistics_named_two mean_any_names_refuted", "DataArrays; std is not modelled (square roots).")
c("C149", "cumulative_fills resample_fills reduce_fills grouped_fills indexed_fills jackknife_fills rolling_fills rolling_exp_fills moments_type_fills", "out as the content of the array after the call; aliasing, dtype and memory order are not modelled.")
c("C150", "reduce_vals_fills resample_vals_fills jackknife_vals_fills rolling_vals_fills rolling_exp_vals_fills", "As C149.")
c("C151", "reduce_nothing_out reduce_nothing_fills_refuted rolling_centred_fills_refuted rolling_exp_new_name_fills_refuted", "Refuted with witnesses.")
c("C152", "cumulative_set rolling_set grouped_set indexed_set rolling_exp_set resample_set reduce_set jackknife_given_set cumulative_set_alone rolling_set_alone grouped_set_alone indexed_set_alone rolling_exp_set_alone resample_set_alone reduce_set_alone jackknife_set_alone", "Datasets without coordinates and attributes, no out=, the dimension given by name; without the _alone theorems results might fail to go into one Dataset. Negative windows are outside rolling_set_alone.")
c("C153", "reduce_vals_set rolling_vals_set rolling_exp_vals_set resample_vals_set jackknife_vals_given_set reduce_vals_set_alone rolling_vals_set_alone rolling_exp_vals_set_alone resample_vals_set_alone jackknife_vals_set_alone", "As C152; at least one variable is processed.")
c("C154", "reduce_set reduce_set_map", "As C152.")
c("C155", "grouped_set_alone indexed_set_alone reduce_set_alone grouped_with_other_refuted", "Refuted; the first three theorems say when it happens.")
c("C156", "resample_unpaired resample_other_names unpaired_with_other_refuted", "The random numbers of the tables are not modelled (any tables).")
c("C157", "missing_dimension_set_refuted plain_weights_set_refuted", "Refuted with witnesses.")
c("C158", "resample_misfit rolling_exp_misfit jackknife_misfit reduce_vals_misfit rolling_vals_misfit rolling_exp_vals_misfit resample_vals_misfit jackknife_vals_misfit", "As C152; the alignment of xarray (join exact) is modelled, not verified.")
c("C159", "stack_named unstack_named unstack_back stack_unstack stack_reorder_unstack stack_reduce_named", "The index of the stacked dimension is an argument of the model; places without a position (fill_value) and the empty list of dimensions are not modelled.")
c("C160", "x_isel_named isel_object_named isel_cumulative isel_rolling isel_resample isel_grouped isel_indexed isel_jackknife isel_rolling_exp isel_reduce", "Indexers that are arrays with dimensions of their own and missing_dims other than raise are not modelled.")
c("C161", "to_dataset_named to_dataset_moment to_dataset_one_named to_dataarray_named to_dataset_back", "Labels are an argument of the model; coordinates and names are not modelled.")
c("C162", "isel_moments_refuted to_dataarray_moments_refuted", "Refuted with witnesses.")
c("C163", "push_set push_set_holds push_set_named", "A Dataset of samples is read along a named dimension; plain weights beside a Dataset have at most one axis (others: C157). xr.apply_ufunc of Datasets is modelled, not verified.")
c("C164", "as_dict_spec as_dict_push", "As C163.")
c("C165", "add_set subtract_set", "As C163; the copy that + makes is not modelled here.")
c("C166", "reduce_object_set grouped_object_set labels_object_set cumulative_object_set resample_object_set jackknife_object_set", "Dimensions by name. Several dimensions without use_map=False are C154; frequencies have no further dimensions.")
c("C167", "failed_push_refuted", "Refuted with a witness; that apply_ufunc passes views of the arrays is modelled, not verified.")
c("C168", "ignored_push_refuted", "Refuted with a witness.")
c("C169", "out_order_refuted out_groups_refuted grouped_fills reduce_vals_fills", "Refuted with witnesses; the last two theorems say what happens in general.")
c("C170", "push_data_failed push_data_refused_whole", "That apply_ufunc passes views of the arrays of the variables is modelled, not verified; entries written by a kernel that then raises are not modelled.")
c("C171", "getitems_spec add_sizes_refused", "Without coordinates and attributes.")
c("C172", "indexed_coords", "Coordinates are labels without index objects, other arguments have none, and group_dim is not the name of another coordinate.")
c("C173", "reduced_coords kept_coords resampled_coords jackknifed_coords plain_groups_coords named_groups_coords", "As C172.")
c("C174", "reduce_by_integers_coords", "As C172.")
c("C175", "reduce_by_name_coords reduce_by_unknown_name", "As C172; a coordinate of one dimension.")
c("C176", "reduce_blocks_coords reduce_whole_coords", "As C172.")
c("C177", "sel_is_isel", "Without method= and slices of labels; the coordinates of the result are not modelled.")
c("C178", "empty_group_coords_refuted", "Refuted with a witness.")
c("C179", "empty_index_coords_refuted", "Refuted with a witness.")
c("C180", "first_row_coords_refuted", "Refuted with a witness: an argsort that sorts and reverses equal keys.")
c("C181", "push_data_coords push_datas_coords push_val_coords push_vals_coords reduce_vals_coords sums_coords", "First half of each. What xarray does with join='exact' and compat='minimal' is an assumption of the model: its source is not at hand.")
c("C182", "push_data_coords push_datas_coords push_val_coords push_vals_coords reduce_vals_coords sums_coords push_arrays_coords merged_fit", "Second half of each; the order of the coordinates is not modelled.")
c("C183", "merged_any_order sum_coords_any_order", "")
c("C184", "push_keeps_coords_refuted", "Refuted with a witness.")
c("C185", "select_moment_set select_moment_set_coords", "What the selection from one variable is: C144.")
c("C186", "assign_moment_set", "Values that do not fit the sizes of the Dataset are outside the hypotheses.")
c("C187", "moments_type_set", "")
c("C188", "stats_set cmom_set rmom_set", "std() of a Dataset is not implemented in the code; to_raw(weight=) only as in rmom().")
c("C189", "mul_named mul_set multiples", "")
c("C190", "mean_set_refuted", "Refuted with a witness.")
c("C191", "mul_one_refuted", "Refuted with a witness.")
c("C192", "add_named_to_itself add_set_to_itself subtract_named_is_add_of_negative multiply_named_distributes add_named_associative", "For a Dataset only c + c is stated here; the other laws are C195.")
c("C193", "grouped_out_shape_ok values_out_shape_ok resample_out_shape_ok", "The shape of the array; its strides in memory are not modelled.")
c("C194", "grouped_alloc", "")
c("C195", "subtract_set_is_add_of_negative multiply_set_distributes add_set_associative add_set subtract_set", "When several variables fail, which of the errors is raised is not stated; a sum or difference can only fail with ZeroDivisionError here.")
c("C196", "swap_named swap_values swap_moment_error", "Coordinates are not part of this model; two dimensions of one name are a ValueError here, xarray's own behaviour then depends on its version.")
c("C197", "swap_moment_refuted", "Refuted with a witness.")
c("C198", "rename_named", "Coordinates are not part of this model.")
c("C199", "rename_moment_refuted", "Refuted with a witness.")
c("C200", "reduce_renamed swap_reduce_named", "Coordinates are not part of this model.")
c("C201", "swap_rows_named cumulative_renamed rolling_renamed grouped_renamed", "Which error is raised is not compared. An empty dimension along d and groups that are all -1 give results without entries and are left out. Coordinates are not part of this model.")
c("C202", "dims_told dims_told_swap", "Objects over a DataArray; over a Dataset most of these raise NotImplementedError, which is not modelled.")
c("C203", "swap_back", "Coordinates are not part of this model.")
