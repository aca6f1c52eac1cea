# What `Print Assumptions` lists for each theorem

Generated by tools/axioms.py.  "None" is Coq's "Closed under the global context".  All entries are axioms of Coq's standard library.

## None (212 theorems)

C01_new_array_cells, C02_slice_window, C02_slice_of_slice, C02_slices_stay_inside, C03_negative_start_refuted, C04_squeeze_unsqueeze, C04_unsqueeze_elements, C04_squeeze_elements, C04_squeeze_of_slice_refuted, C04_reshape_from_1d, C04_reshape_flatten, C04_reshape_refuted, C05_binary_kernel, C05_add_divide, C05_subtract_multiply_compare, C06_expand_shapes, C07_array_scalar, C07_fill, C08_copy_into_slice, C09_sum, C09_sum_any_order, C09_mean, C09_stddev, C09_max, C09_standardized_moment, C09_count, C09_negative_axis_refuted, C10_masked, C10_depends_only_on_unmasked, C10_shape_mismatch, C10_mask_lookup, C10_other_layout_refuted, C11_median, C11_median_order_independent, C12_scalar_left_refuted, C13_scalar_left_comparison_refuted, C14_arange, C14_arange_complete_iff_divides, C14_arange_refuted, C14_linspace, C14_linspace_int, C14_linspace_descending_refuted, C15_numel, C15_numel_large_refuted, C16_cpu, C16_cuda_id, C16_results, C16_errors, C16_number, C16_no_number, C16_managed_host_refuted, C16_wrong_device_refuted, C17_once, C17_reads, C17_default_executes_once_refuted, C18_plane_is_track_average, C18_track_bins, C18_only_the_track_matters, C18_slice_offset_ignored_refuted, C19_every_access_in_its_row, C20_whole_tracks_agree, C20_band_edge_refuted, C21_bland_equals_cpu, C24_counters, C24_wraparound_refuted, C25_every_schedule, C25_terminates, C25_schedules_and_geometries_agree, C26_terminates, C26_components_partition, C26_negative_threshold_refuted, C27_component_is_reachable_set, C27_neighbourhood, C27_neighbourhood_symmetric_refuted, C28_peak_is_strongest, C29_counts_are_of_the_seed, C29_counts_of_the_peak_refuted, C30_mask_components_partition, C30_mask_components_maximal, C31_local_maxima_refuted, C31_no_neighbourhood, C32_survivors, C32_every_schedule_ends, C32_schedule_independent, C32_table_overflow_refuted, C32_zero_distance_refuted, C32_distance_one_refuted, C32_first_channels_refuted, C33_chain_ends, C33_labels_follow_climb, C33_cycle_refuted, C36_no_observation_refuted, C40_slices_compose, C40_slice_channel, C40_memory_scan_slice_refuted, C41_reads_own_channels, C41_one_past_the_end_refuted, C41_missing_attribute_refuted, C42_read_applies_pipeline, C42_read_is_cached, C42_slices_share_cache_refuted, C42_file_read_once_refuted, C44_inferred_product, C44_inference_undefined_refuted, C44_no_exception, C44_requested, C45_empty_target, C45_empty_cadence, C46_target_name, C47_refused_changes_nothing, C47_accepted_reaches_all, C47_scan_keeps_refused_device_refuted, C48_magnitude_sets_its_bit, C48_flagging_again_clears_refuted, C48_kurtosis_sets_its_bits, C49_rolloff_counts_refuted, C49_rolloff_not_exact_refuted, C49_rolloff_extremes, C50_unflagged_samples, C50_depends_on_unflagged, C50_mad_never_estimates, C51_sigmaclip_always_fails_refuted, C54_formats_agree, C54_other_formats_are_refused_refuted, C57_shapes_accepted, C57_extra_axis_refuted, C57_extra_axis_unreadable, C58_last_scan_only_refuted, C58_explicit_path, C58_errors_are_not_reported, C58_failed_write_empties_the_output, C58_failed_search_keeps_the_output, C59_dlpack_whole_array, C59_dlpack_slice_refuted, C60_write_to_file, C60_read_back, C60_truncated_file_refuted, C61_strided_count_refuted, C62_square_plus_vector_refuted, C62_left_shape_refuted, C63_copy_mismatch_refuted, C64_flagging_a_scan_refuted, C64_pipeline_unchanged, C65_slice_target, C65_slice_loses_name_refuted, C66_read_in_order, C66_read_transposed_refuted, C67_other_errors_stop, C67_scan_hits, C69_normalize_undefined_refuted, C69_equalize, C71_no_channels, C75_schedule_independent, C76_last_deviation_unwritten, C77_local_maxima_gpu, C77_plateau_overflows_refuted, C78_noise_of_unflagged, C79_gpu_binary_kernel, C79_gpu_arithmetic, C79_gpu_array_scalar, C79_gpu_copy, C79_gpu_fill, C79_far_cells_refuted, C79_short_source_refuted, C79_scalar_left_refuted, C80_gpu_count_start, C80_gpu_count, C80_sliced_count_refuted, C81_fft_gpu_odd_refuted, C81_fft_cpu_refuted, C84_collected, C84_two_bins_refuted, C84_widths_differ_refuted, C84_last_bin_refuted, C85_moved_view, C85_whole_array, C85_rows_from_gpu, C85_host_slice_refuted, C85_columns_refuted, C85_between_gpus_refuted, C85_from_pinned_refuted, C85_without_cuda, C85_invalid_device, C85_large_refuted, C85_scalar_slice_refuted, C85_kernel_device, C85_abs_refuted, C86_runs, C86_freed, C86_own_arrays, C86_borrowed_arrays, C86_deferred_refuted, C86_write_refuted, C86_byte_offset_refuted, C88_answers, C88_defined, C88_hits_shared, C88_cpu_and_gpu, C88_two_gpus_refuted, C88_search_device, C88_managed_search_refuted, C90_float_range, C90_exact, C90_masked_stddev_exact, C90_stddev_refuted, C99_elements, C99_slice, C110_truncated_refuted, C111_agrees, C111_one_element, C111_equalize, C113_gpu_one_element

## `ClassicalDedekindReals.sig_forall_dec`, `FunctionalExtensionality.functional_extensionality_dep` (17 theorems)

C37_symmetric_exact, C37_symmetric_exact_refuted, C40_frequencies_exact, C40_channel_frequency_exact, C42_read_frequency_exact, C43_lookup_exact, C45_only_empty_accepted, C68_kurtosis_formula, C68_kurtosis_laws, C75_gpu_sum, C75_gpu_mean, C75_agrees_with_cpu, C76_offsets_ignored, C76_sliced_input_refuted, C76_five_dimensions_refuted, C92_relative, C100_constant

## `ClassicalDedekindReals.sig_forall_dec`, `ClassicalDedekindReals.sig_not_dec`, `FunctionalExtensionality.functional_extensionality_dep` (7 theorems)

C70_taps_symmetric, C75_gpu_stddev_var, C75_gpu_mean_stddev, C75_gpu_masked, C78_noise_real, C81_fft_gpu_even, C91_stddev_error

## `ClassicalDedekindReals.sig_forall_dec`, `ClassicalDedekindReals.sig_not_dec`, `Classical_Prop.classic`, `FunctionalExtensionality.functional_extensionality_dep` (234 theorems)

C18_search, C19_search_safe, C19_search_out_of_bounds_refuted, C19_single_time_step_refuted, C20_offsets_within_one, C20_offsets_agree_power_of_two, C20_rounding_refuted, C20_float_desmear_refuted, C22_grid, C22_grid_increasing, C22_degenerate_requests_refuted, C23_cpu_track, C23_cuda_track, C26_components_partition_float, C28_peak_is_strongest_float, C31_local_maxima_float_refuted, C32_survivors_float, C34_search_hits, C34_short_table, C34_start_frequency_refuted, C34_uninitialised_field_refuted, C35_filter_keeps, C35_filter_idempotent, C35_channel_without_hits, C35_unchanged_refuted, C36_events, C36_cache_key, C36_cache_order_refuted, C37_symmetric_refuted, C38_strict_order, C38_equality, C38_nan_refuted, C38_coarse_channel_refuted, C39_state_fields, C39_state_stable, C39_round_trip_refuted, C39_large_steps_refuted, C40_frequencies_rounded_refuted, C43_lookup_rounded_refuted, C45_consistent_rejected_refuted, C45_cadence_rejected_refuted, C52_hits_come_back, C52_second_trip, C52_flags_and_channel_lost_refuted, C52_start_time_moves_refuted, C53_truncated_file, C53_size_of_file, C53_damage_hides_later_hits, C53_bad_message_hides_later_hits, C53_larger_messages_are_read, C54_dat_read_as_capnp_throws_refuted, C55_one_row_per_hit, C55_file, C55_needs_coordinates, C55_coarse_channel_refuted, C56_right_ascension, C56_declination, C56_sixty_seconds_refuted, C56_negative_hours_refuted, C56_not_finite_refuted, C56_out_of_range_refuted, C56_field_widths, C68_dead_column_never_flagged, C71_scan_comes_back, C71_unread_channels_are_dropped_refuted, C71_not_written_twice, C71_many_hits_refuted, C71_channels_come_back, C72_events_come_back, C72_summaries_are_lost_refuted, C72_truncated, C72_large_event_hides_the_rest_refuted, C73_targets_keep_their_scans, C74_converted, C75_gpu_max, C76_leaked_correction_refuted, C76_all_masked_nan, C78_find_hits, C78_complete_and_sound, C78_nan_noise_finds_nothing, C78_flat_noise_hides_refuted, C78_other_methods, C78_noise_accuracy, C81_cpu_shift, C81_cpu_defined, C81_cpu_spectrum, C81_even_length_refuted, C81_long_length_refuted, C81_slice_refuted, C81_gpu_shift, C81_gpu_first_refuted, C82_response, C82_even_channels, C82_odd_channels_refuted, C82_no_answer_refuted, C82_odd_width_refuted, C82_too_large_refuted, C83_event_values, C83_end_refuted, C87_rows_ignored_refuted, C87_header, C87_channel_width_refuted, C89_add_divide, C89_subtract_multiply, C89_scalar, C89_integers_exact, C89_compare, C89_compare_scalar, C89_compare_exact, C89_logical_and, C89_logical_and_float, C89_other_types, C89_arithmetic_refuted, C89_compare_refuted, C90_sum, C90_mean, C90_stddev, C90_masked_mean, C90_masked_mean_none, C90_masked_stddev, C90_max, C90_mean_into_float, C90_mean_refuted, C91_mean, C91_masked_mean, C91_stddev, C91_mean_stddev, C91_masked_stddev, C91_masked_mean_stddev, C91_masked_stddev_refuted, C91_sum, C91_sum_refuted, C92_cpu, C92_search, C92_cuda, C92_backends_close, C93_detects, C93_hits_are_real, C93_snr_accuracy, C93_strong_line, C93_quiet_channel, C93_find_hits, C93_clipped_line, C94_drift_rate, C94_drift_order, C94_frequency, C94_frequency_order, C94_last_spectrum, C94_hit_fields, C95_completes, C95_reports_are_real, C95_detects, C95_quiet_border, C95_strong_line, C95_quiet_channel, C95_few_drifts_refuted, C95_snr_accuracy, C95_backends_differ_refuted, C96_var, C96_masked_var, C96_var_into, C96_masked_var_into, C96_out_refuted, C96_masked_nan_refuted, C97_hits_are_summits, C97_completes, C97_crowded_refuted, C97_detects, C97_hits_are_real, C97_flat_channel_refuted, C97_cpu_no_neighbourhood, C97_backends_differ_refuted, C98_layout, C98_any_writer, C98_width_refuted, C99_compare_int, C99_compare_negative_refuted, C99_compare_float, C99_compare_large_int, C99_arith_int, C99_arith_float, C99_refused, C99_numbers_refuted, C100_estimate, C100_flags, C100_unflagged, C100_negative_refuted, C101_magnitude_flags, C101_small_channels_refuted, C101_lone_sample, C102_gpu_sum, C102_gpu_mean, C102_gpu_masked, C102_devices_agree_refuted, C103_gpu_var_stddev, C103_gpu_mean_stddev, C103_gpu_masked, C103_constant_refuted, C104_cuda_from_samples, C104_small_variation_refuted, C105_gpu_sum, C105_gpu_mean, C105_gpu_masked, C105_own_elements_refuted, C106_gpu_estimate, C106_gpu_flags, C106_own_samples_refuted, C107_channels_undefined_refuted, C107_no_rounds, C107_lines, C107_round, C107_small_samples_refuted, C108_maxima_from_samples, C109_gpu_magnitude_flags, C109_small_channels_refuted, C109_lone_sample, C110_response_range, C110_equalize_by_file, C110_wrong_size, C111_normalize, C112_no_report_on_the_cpu_refuted, C112_cpu_run, C113_channels, C113_one_round, C114_hot_pixels_refuted, C114_any_flags, C115_launches_end, C115_gpu_normalize, C116_gain, C116_both_devices, C116_rounded_gain_refuted, C117_prepare, C117_one_round, C117_gain
