{
 "claims": [
  {
   "property": "C01",
   "status": "proved",
   "theorems": [
    "C01_new_array_cells"
   ],
   "note": "Full statement: row-major cells are exactly 0..n-1."
  },
  {
   "property": "C02",
   "status": "proved",
   "theorems": [
    "C02_slice_window",
    "C02_slice_of_slice",
    "C02_slices_stay_inside"
   ],
   "note": "Error branches, window, composition, and safety of any number of slices of a new array. end<start raises runtime_error (not out_of_range)."
  },
  {
   "property": "C03",
   "status": "proved",
   "theorems": [
    "C03_negative_start_refuted"
   ],
   "note": "Refuted for every array, size and k with the exact window that is selected instead."
  },
  {
   "property": "C04",
   "status": "proved",
   "theorems": [
    "C04_squeeze_unsqueeze",
    "C04_unsqueeze_elements",
    "C04_squeeze_elements",
    "C04_squeeze_of_slice_refuted",
    "C04_reshape_from_1d",
    "C04_reshape_flatten",
    "C04_reshape_refuted"
   ],
   "note": "unsqueeze/squeeze identity and elements proved; squeeze of an axis with a slice offset and general reshape are refuted by witnesses; reshape from 1-D and flattening proved."
  },
  {
   "property": "C05",
   "status": "proved",
   "theorems": [
    "C05_binary_kernel",
    "C05_add_divide",
    "C05_subtract_multiply_compare"
   ],
   "note": "Kernel and whole operations for all views, shapes below 2^31 elements."
  },
  {
   "property": "C06",
   "status": "proved",
   "theorems": [
    "C06_expand_shapes"
   ],
   "note": "Full statement."
  },
  {
   "property": "C07",
   "status": "proved",
   "theorems": [
    "C07_array_scalar",
    "C07_fill"
   ],
   "note": "Full statement for arrays below 2^31 elements."
  },
  {
   "property": "C08",
   "status": "proved",
   "theorems": [
    "C08_copy_into_slice"
   ],
   "note": "Full statement for arrays below 2^31 elements; mismatching shapes are C63."
  },
  {
   "property": "C09",
   "status": "proved",
   "theorems": [
    "C09_sum",
    "C09_sum_any_order",
    "C09_mean",
    "C09_stddev",
    "C09_max",
    "C09_standardized_moment",
    "C09_count",
    "C09_negative_axis_refuted"
   ],
   "note": "Full statement for sum, mean, stddev, max, count, standardized moment; negative axes refuted (they read outside the shape)."
  },
  {
   "property": "C10",
   "status": "proved",
   "theorems": [
    "C10_masked",
    "C10_depends_only_on_unmasked",
    "C10_shape_mismatch",
    "C10_mask_lookup",
    "C10_other_layout_refuted"
   ],
   "note": "Proved when mask and data use the same cells; refuted for other layouts, with the exact lookup the code performs."
  },
  {
   "property": "C11",
   "status": "proved",
   "theorems": [
    "C11_median",
    "C11_median_order_independent"
   ],
   "note": "Full statement, for every implementation of nth_element meeting its standard contract and every linear order."
  },
  {
   "property": "C12",
   "status": "proved",
   "theorems": [
    "C12_scalar_left_refuted"
   ],
   "note": "False of the code; the computed values are characterised for every array and scalar."
  },
  {
   "property": "C13",
   "status": "proved",
   "theorems": [
    "C13_scalar_left_comparison_refuted"
   ],
   "note": "False of the code; scalar cmp array equals array cmp scalar."
  },
  {
   "property": "C14",
   "status": "proved",
   "theorems": [
    "C14_arange",
    "C14_arange_complete_iff_divides",
    "C14_arange_refuted",
    "C14_linspace",
    "C14_linspace_int",
    "C14_linspace_descending_refuted"
   ],
   "note": "arange on integers: exact values and count; complete exactly when the step divides the interval, refuted otherwise. linspace over rationals and 32-bit integers; descending integer ranges refuted."
  },
  {
   "property": "C15",
   "status": "proved",
   "theorems": [
    "C15_numel",
    "C15_numel_large_refuted"
   ],
   "note": "numel is the product truncated to int32; false from 2^31 elements on (refuted)."
  },
  {
   "property": "C16",
   "status": "proved",
   "theorems": [
    "C16_cpu",
    "C16_cuda_id",
    "C16_results",
    "C16_errors",
    "C16_number",
    "C16_no_number",
    "C16_managed_host_refuted",
    "C16_wrong_device_refuted"
   ],
   "note": "Every string characterised, the text behind the colon by C16_number and C16_no_number."
  },
  {
   "property": "C17",
   "status": "proved",
   "theorems": [
    "C17_once",
    "C17_reads",
    "C17_default_executes_once_refuted"
   ],
   "note": "Invariant over all histories; 'executes only once by default' refuted for every number of reads."
  },
  {
   "property": "C18",
   "status": "proved",
   "theorems": [
    "C18_plane_is_track_average",
    "C18_track_bins",
    "C18_only_the_track_matters",
    "C18_search",
    "C18_slice_offset_ignored_refuted"
   ],
   "note": "All spectra, sizes and drift lists, and end to end from the search options (bit-exact float slope and rounding); a sliced spectrum is read from the parent's start (universal refutation of the general-view reading)."
  },
  {
   "property": "C19",
   "status": "proved",
   "theorems": [
    "C19_every_access_in_its_row",
    "C19_search_safe",
    "C19_search_out_of_bounds_refuted",
    "C19_single_time_step_refuted"
   ],
   "note": "Row containment for every access; safe exactly when |span|+desmear-1 <= N for every drift, otherwise undefined behaviour (both directions proved); a single time step is always undefined."
  },
  {
   "property": "C20",
   "status": "proved",
   "theorems": [
    "C20_whole_tracks_agree",
    "C20_offsets_within_one",
    "C20_offsets_agree_power_of_two",
    "C20_rounding_refuted",
    "C20_band_edge_refuted",
    "C20_float_desmear_refuted"
   ],
   "note": "Counters always, and values for whole tracks when division is exact or desmear = 1; offsets within one channel of each other. False in general: band edges, binary32 desmearing, and lroundf(float) against round(double) (T=7, span=5) are refuted."
  },
  {
   "property": "C21",
   "status": "proved",
   "theorems": [
    "C21_bland_equals_cpu"
   ],
   "note": "Full statement for all tracks within the band (fewer than 2^31 channels)."
  },
  {
   "property": "C22",
   "status": "proved",
   "theorems": [
    "C22_grid",
    "C22_grid_increasing",
    "C22_degenerate_requests_refuted"
   ],
   "note": "Full statement for |span| < 2^22; step 0, reversed and sub-step ranges refuted."
  },
  {
   "property": "C23",
   "status": "proved",
   "theorems": [
    "C23_cpu_track",
    "C23_cuda_track"
   ],
   "note": "Full statement, bit-exact binary32/binary64, for both the CPU and the CUDA offset."
  },
  {
   "property": "C24",
   "status": "proved",
   "theorems": [
    "C24_counters",
    "C24_wraparound_refuted"
   ],
   "note": "Exact modulo 256, exact when T*desmear <= 255; wrap-around refuted universally."
  },
  {
   "property": "C25",
   "status": "proved",
   "theorems": [
    "C25_every_schedule",
    "C25_terminates",
    "C25_schedules_and_geometries_agree"
   ],
   "note": "All interleavings, all launch geometries, no undefined access, termination."
  },
  {
   "property": "C26",
   "status": "proved",
   "theorems": [
    "C26_terminates",
    "C26_components_partition",
    "C26_components_partition_float",
    "C26_negative_threshold_refuted"
   ],
   "note": "Any element type; the binary32 instance covers every finite threshold >= 0. For negative thresholds the claim is false (C26_negative_threshold_refuted): a seed may yield an empty component."
  },
  {
   "property": "C27",
   "status": "proved",
   "theorems": [
    "C27_component_is_reachable_set",
    "C27_neighbourhood",
    "C27_neighbourhood_symmetric_refuted"
   ],
   "note": "Each component is the reachable set from its seed; the neighbourhood offsets are characterised and shown not to be symmetric."
  },
  {
   "property": "C28",
   "status": "proved",
   "theorems": [
    "C28_peak_is_strongest",
    "C28_peak_is_strongest_float"
   ],
   "note": "Peak, snr, power, noise, width (extent minus one) and centre; binary32 instance for thresholds >= 2^-125."
  },
  {
   "property": "C29",
   "status": "proved",
   "theorems": [
    "C29_counts_are_of_the_seed",
    "C29_counts_of_the_peak_refuted"
   ],
   "note": "False of the code: the counters are those of the scan position that started the component (universal theorem) and differ from the peak's in a concrete run."
  },
  {
   "property": "C30",
   "status": "proved",
   "theorems": [
    "C30_mask_components_partition",
    "C30_mask_components_maximal"
   ],
   "note": "Partition, connectedness, and maximality for symmetric neighbourhoods; any strided mask view."
  },
  {
   "property": "C31",
   "status": "proved",
   "theorems": [
    "C31_local_maxima_refuted",
    "C31_local_maxima_float_refuted",
    "C31_no_neighbourhood"
   ],
   "note": "False of the code for distance >= 1: a bin is compared with itself by a strict comparison, so nothing is ever reported (universal). For distance 0 reports and coverage are characterised."
  },
  {
   "property": "C32",
   "status": "proved",
   "theorems": [
    "C32_survivors",
    "C32_every_schedule_ends",
    "C32_schedule_independent",
    "C32_survivors_float",
    "C32_table_overflow_refuted",
    "C32_zero_distance_refuted",
    "C32_distance_one_refuted",
    "C32_first_channels_refuted"
   ],
   "note": "Every interleaving and thread count, table large enough, distance >= 2, ordered SNRs (binary32 without NaN proved to be an instance). Touching is what the kernel looks at: bins of the first L channels do not look. Refuted outside those hypotheses: table overflow, distance 0, distance 1, peaks in the first channels."
  },
  {
   "property": "C33",
   "status": "proved",
   "theorems": [
    "C33_chain_ends",
    "C33_labels_follow_climb",
    "C33_cycle_refuted"
   ],
   "note": "Any labels whose chains end, every interleaving and thread count; in a search the chain is the climb through strongest neighbours. A cycle of labels loops forever."
  },
  {
   "property": "C34",
   "status": "proved",
   "theorems": [
    "C34_search_hits",
    "C34_short_table",
    "C34_start_frequency_refuted",
    "C34_uninitialised_field_refuted"
   ],
   "note": "End to end from the CPU component search (binary32, threshold from 2^-125): one hit per component, in order, with the stated fields. Refuted: start_freq_MHz is the frequency of the middle of the extent, not of start_freq_index; time_span_steps is never written."
  },
  {
   "property": "C35",
   "status": "proved",
   "theorems": [
    "C35_filter_keeps",
    "C35_filter_idempotent",
    "C35_channel_without_hits",
    "C35_unchanged_refuted"
   ],
   "note": "Exact selection (|drift| below the double nearest 1e-6 when asked), counts and all other fields kept, idempotent. Refuted: a kept hit need not equal the original (lookup inserts zero counts)."
  },
  {
   "property": "C36",
   "status": "proved",
   "theorems": [
    "C36_events",
    "C36_cache_key",
    "C36_no_observation_refuted",
    "C36_cache_order_refuted"
   ],
   "note": "Any number of scans and hits and any behaviour of the distance cache that answers the distance of an equivalent key. Refuted: an empty cadence is undefined behaviour; the cache's comparison is not transitive."
  },
  {
   "property": "C37",
   "status": "proved",
   "theorems": [
    "C37_symmetric_exact",
    "C37_symmetric_exact_refuted",
    "C37_symmetric_refuted"
   ],
   "note": "False of the code: the second hit's duration is used for both. Symmetric in exact arithmetic when durations or drifts agree; refuted in doubles with one order below and the other above the match limit."
  },
  {
   "property": "C38",
   "status": "proved",
   "theorems": [
    "C38_strict_order",
    "C38_equality",
    "C38_nan_refuted",
    "C38_coarse_channel_refuted"
   ],
   "note": "Strict total order modulo == on NaN-free hits, -0 and infinities included; refuted with NaN; coarse channel number is not compared."
  },
  {
   "property": "C39",
   "status": "proved",
   "theorems": [
    "C39_state_fields",
    "C39_state_stable",
    "C39_round_trip_refuted",
    "C39_large_steps_refuted"
   ],
   "note": "Fields kept and lost characterised for all hits; repickling is stable. Refuted: doubles are narrowed to float; step counts near 2^63 are undefined."
  },
  {
   "property": "C40",
   "status": "proved",
   "theorems": [
    "C40_slices_compose",
    "C40_slice_channel",
    "C40_frequencies_exact",
    "C40_channel_frequency_exact",
    "C40_frequencies_rounded_refuted",
    "C40_memory_scan_slice_refuted"
   ],
   "note": "Channels, windows and metadata of composed slices proved equal for any arithmetic; frequencies equal over the reals. Refuted: one-ulp differences in double precision; slicing a scan built in memory is undefined."
  },
  {
   "property": "C41",
   "status": "proved",
   "theorems": [
    "C41_reads_own_channels",
    "C41_one_past_the_end_refuted",
    "C41_missing_attribute_refuted"
   ],
   "note": "Windows proved for every history over a file. Refuted: index equal to the channel count is accepted; missing nbits/nifs attributes make reads undefined."
  },
  {
   "property": "C42",
   "status": "proved",
   "theorems": [
    "C42_read_applies_pipeline",
    "C42_read_frequency_exact",
    "C42_read_is_cached",
    "C42_slices_share_cache_refuted",
    "C42_file_read_once_refuted"
   ],
   "note": "Every history of reads, peaks, slices, copies, transforms and device changes. Refuted: scans split before a read each make their own channel; data() rereads the file."
  },
  {
   "property": "C43",
   "status": "proved",
   "theorems": [
    "C43_lookup_exact",
    "C43_lookup_rounded_refuted"
   ],
   "note": "Exact arithmetic: every frequency of every channel, either axis direction. Refuted in double precision by a realistic band."
  },
  {
   "property": "C44",
   "status": "proved",
   "theorems": [
    "C44_inferred_product",
    "C44_inference_undefined_refuted",
    "C44_no_exception",
    "C44_requested"
   ],
   "note": "Product equal to the channel count whenever defined, and exactly when it is a division by zero."
  },
  {
   "property": "C45",
   "status": "proved",
   "theorems": [
    "C45_consistent_rejected_refuted",
    "C45_cadence_rejected_refuted",
    "C45_only_empty_accepted",
    "C45_empty_target",
    "C45_empty_cadence"
   ],
   "note": "False of the code: the check is inverted; universal refutations and the exact accepted set over the reals."
  },
  {
   "property": "C46",
   "status": "proved",
   "theorems": [
    "C46_target_name"
   ],
   "note": "All lists of names."
  },
  {
   "property": "C47",
   "status": "proved",
   "theorems": [
    "C47_refused_changes_nothing",
    "C47_accepted_reaches_all",
    "C47_scan_keeps_refused_device_refuted"
   ],
   "note": "Targets, cadences and channels proved; refuted for scans, which keep the refused device."
  },
  {
   "property": "C48",
   "status": "proved",
   "theorems": [
    "C48_magnitude_sets_its_bit",
    "C48_flagging_again_clears_refuted",
    "C48_kurtosis_sets_its_bits"
   ],
   "note": "Flaggers add: exact effect proved for magnitude and spectral kurtosis, including the second application and sixteen of them."
  },
  {
   "property": "C49",
   "status": "proved",
   "theorems": [
    "C49_rolloff_counts_refuted",
    "C49_rolloff_not_exact_refuted",
    "C49_rolloff_extremes"
   ],
   "note": "Exact mask after any number of reads, with the zero-width and full-band cases."
  },
  {
   "property": "C50",
   "status": "proved",
   "theorems": [
    "C50_unflagged_samples",
    "C50_depends_on_unflagged",
    "C50_mad_never_estimates"
   ],
   "note": "Proved for masked estimates with data and mask stored densely, as coarse channels store them; MAD never yields a value."
  },
  {
   "property": "C51",
   "status": "proved",
   "theorems": [
    "C51_sigmaclip_always_fails_refuted"
   ],
   "note": "Every call characterised."
  },
  {
   "property": "C52",
   "status": "proved",
   "theorems": [
    "C52_hits_come_back",
    "C52_second_trip",
    "C52_flags_and_channel_lost_refuted",
    "C52_start_time_moves_refuted"
   ],
   "note": "Proved down to the bytes of the file for every hit list with widths up to 2^24, every NaN payload and every behaviour of the library on foreign messages; the stronger reading (every field survives) is refuted."
  },
  {
   "property": "C53",
   "status": "proved",
   "theorems": [
    "C53_truncated_file",
    "C53_size_of_file",
    "C53_damage_hides_later_hits",
    "C53_bad_message_hides_later_hits",
    "C53_larger_messages_are_read"
   ],
   "note": "Proved for every cut, at byte granularity."
  },
  {
   "property": "C54",
   "status": "proved",
   "theorems": [
    "C54_formats_agree",
    "C54_other_formats_are_refused_refuted",
    "C54_dat_read_as_capnp_throws_refuted"
   ],
   "note": "The condition under which write and read agree is characterised for all strings; the claim in the title is refuted."
  },
  {
   "property": "C55",
   "status": "proved",
   "theorems": [
    "C55_one_row_per_hit",
    "C55_file",
    "C55_needs_coordinates",
    "C55_coarse_channel_refuted"
   ],
   "note": "Text model of fmt fixed and integer formatting with correct rounding; rows read back by an independent reader. Headings refuted. The library's own dat reader is C87."
  },
  {
   "property": "C56",
   "status": "proved",
   "theorems": [
    "C56_right_ascension",
    "C56_declination",
    "C56_sixty_seconds_refuted",
    "C56_negative_hours_refuted",
    "C56_not_finite_refuted",
    "C56_out_of_range_refuted",
    "C56_field_widths"
   ],
   "note": "Bit-exact doubles. Refuted outside the stated ranges, and for printed seconds below 60."
  },
  {
   "property": "C57",
   "status": "proved",
   "theorems": [
    "C57_shapes_accepted",
    "C57_extra_axis_refuted",
    "C57_extra_axis_unreadable"
   ],
   "note": "Exact acceptance condition for all files. Refuted: extra axes of size one are refused and others accepted, and then unreadable."
  },
  {
   "property": "C58",
   "status": "proved",
   "theorems": [
    "C58_last_scan_only_refuted",
    "C58_explicit_path",
    "C58_errors_are_not_reported",
    "C58_failed_write_empties_the_output",
    "C58_failed_search_keeps_the_output"
   ],
   "note": "The claim is refuted and the actual effect on the file system is characterised for all inputs."
  },
  {
   "property": "C59",
   "status": "proved",
   "theorems": [
    "C59_dlpack_whole_array",
    "C59_dlpack_slice_refuted"
   ],
   "note": "True for whole arrays, false for slices: the exported cell is off by the sum of offsets, for every view and index."
  },
  {
   "property": "C60",
   "status": "proved",
   "theorems": [
    "C60_write_to_file",
    "C60_read_back",
    "C60_truncated_file_refuted"
   ],
   "note": "Write and whole-element read proved; truncated files are undefined behaviour for every such file (refuted part)."
  },
  {
   "property": "C61",
   "status": "proved",
   "theorems": [
    "C61_strided_count_refuted"
   ],
   "note": "Floor count for every non-dividing stride; dividing strides are in C02."
  },
  {
   "property": "C62",
   "status": "proved",
   "theorems": [
    "C62_square_plus_vector_refuted",
    "C62_left_shape_refuted"
   ],
   "note": "Two universal refutations; equal ranks and the accepted combinations are in C05 and C06."
  },
  {
   "property": "C63",
   "status": "proved",
   "theorems": [
    "C63_copy_mismatch_refuted"
   ],
   "note": "No copy between same-rank views ever throws."
  },
  {
   "property": "C64",
   "status": "proved",
   "theorems": [
    "C64_flagging_a_scan_refuted",
    "C64_pipeline_unchanged"
   ],
   "note": "The scan-level flaggers have no effect, for every flagger."
  },
  {
   "property": "C65",
   "status": "proved",
   "theorems": [
    "C65_slice_target",
    "C65_slice_loses_name_refuted"
   ],
   "note": "All targets."
  },
  {
   "property": "C66",
   "status": "proved",
   "theorems": [
    "C66_read_in_order",
    "C66_read_transposed_refuted"
   ],
   "note": "All sizes, contents and windows."
  },
  {
   "property": "C67",
   "status": "proved",
   "theorems": [
    "C67_other_errors_stop",
    "C67_scan_hits"
   ],
   "note": "All scans and per-channel outcomes."
  },
  {
   "property": "C68",
   "status": "proved",
   "theorems": [
    "C68_kurtosis_formula",
    "C68_kurtosis_laws",
    "C68_dead_column_never_flagged"
   ],
   "note": "Formula for any arithmetic in the model (sk_is), stated over the reals; laws over the reals; dead column in binary64."
  },
  {
   "property": "C69",
   "status": "proved",
   "theorems": [
    "C69_normalize_undefined_refuted",
    "C69_equalize"
   ],
   "note": "normalize refuted for all shapes; equalize characterised for all shapes."
  },
  {
   "property": "C70",
   "status": "proved",
   "theorems": [
    "C70_taps_symmetric"
   ],
   "note": "Exact arithmetic only; float32 rounding of the taps not modelled."
  },
  {
   "property": "C71",
   "status": "proved",
   "theorems": [
    "C71_scan_comes_back",
    "C71_unread_channels_are_dropped_refuted",
    "C71_not_written_twice",
    "C71_no_channels",
    "C71_many_hits_refuted",
    "C71_channels_come_back"
   ],
   "note": "Message contents are modelled; the byte encoding of scan messages is a parameter (only the segment table check and the size limit are modelled)."
  },
  {
   "property": "C72",
   "status": "proved",
   "theorems": [
    "C72_events_come_back",
    "C72_summaries_are_lost_refuted",
    "C72_truncated",
    "C72_large_event_hides_the_rest_refuted"
   ],
   "note": "For every encoding that satisfies codec; a concrete one shows that codec is satisfiable."
  },
  {
   "property": "C73",
   "status": "proved",
   "theorems": [
    "C73_targets_keep_their_scans"
   ],
   "note": "The hits of each scan are covered by C71."
  },
  {
   "property": "C74",
   "status": "proved",
   "theorems": [
    "C74_converted"
   ],
   "note": "Uses the hit-file round trip of C52."
  },
  {
   "property": "C75",
   "status": "proved",
   "theorems": [
    "C75_gpu_sum",
    "C75_gpu_mean",
    "C75_gpu_stddev_var",
    "C75_gpu_mean_stddev",
    "C75_gpu_masked",
    "C75_gpu_max",
    "C75_schedule_independent",
    "C75_agrees_with_cpu"
   ],
   "note": "GPU small-step model (GpuModel, GredModel): threads of a block interleave arbitrarily between barriers; loads and stores are sequentially consistent; no FMA contraction."
  },
  {
   "property": "C76",
   "status": "proved",
   "theorems": [
    "C76_offsets_ignored",
    "C76_sliced_input_refuted",
    "C76_leaked_correction_refuted",
    "C76_last_deviation_unwritten",
    "C76_all_masked_nan",
    "C76_five_dimensions_refuted"
   ],
   "note": "Negative characterisations of the GPU kernels; the float32 witness uses bit-exact arithmetic."
  },
  {
   "property": "C77",
   "status": "proved",
   "theorems": [
    "C77_local_maxima_gpu",
    "C77_plateau_overflows_refuted"
   ],
   "note": "Positive statement proved for all interleavings; the overflow of the result buffer is proved as a refutation of the expectation that all peaks are reported."
  },
  {
   "property": "C78",
   "status": "proved",
   "theorems": [
    "C78_noise_of_unflagged",
    "C78_noise_real",
    "C78_find_hits",
    "C78_complete_and_sound",
    "C78_nan_noise_finds_nothing",
    "C78_flat_noise_hides_refuted",
    "C78_other_methods",
    "C78_noise_accuracy"
   ],
   "note": "Bit-exact float composition of noise estimate, drift integration, component search and hits; noise in exact arithmetic; NaN noise refutes completeness on flat channels."
  },
  {
   "property": "C79",
   "status": "proved",
   "theorems": [
    "C79_gpu_binary_kernel",
    "C79_gpu_arithmetic",
    "C79_gpu_array_scalar",
    "C79_gpu_copy",
    "C79_gpu_fill",
    "C79_far_cells_refuted",
    "C79_short_source_refuted",
    "C79_scalar_left_refuted"
   ],
   "note": "Exact agreement with the CPU kernels for every schedule; refuted for views spanning 2^32 cells, short copy sources and scalar-left comparisons. Out and inputs are distinct buffers."
  },
  {
   "property": "C80",
   "status": "proved",
   "theorems": [
    "C80_gpu_count_start",
    "C80_gpu_count",
    "C80_sliced_count_refuted"
   ],
   "note": "Offsets of the view are ignored by the kernel (C80_sliced_count_refuted). Dynamic shared memory is taken to suffice, which holds up to 23 dimensions."
  },
  {
   "property": "C81",
   "status": "proved",
   "theorems": [
    "C81_cpu_shift",
    "C81_cpu_defined",
    "C81_cpu_spectrum",
    "C81_even_length_refuted",
    "C81_long_length_refuted",
    "C81_slice_refuted",
    "C81_gpu_shift",
    "C81_gpu_first_refuted",
    "C81_fft_gpu_even",
    "C81_fft_gpu_odd_refuted",
    "C81_fft_cpu_refuted"
   ],
   "note": "The external transforms (FFTW, cuFFT) are quantified over; the exact-arithmetic statements assume they compute the DFT. The kernel's threads all write the same values: taken as atomic stores. fft_cuda for one sample (negative range) is taken as undefined."
  },
  {
   "property": "C82",
   "status": "proved",
   "theorems": [
    "C82_response",
    "C82_even_channels",
    "C82_odd_channels_refuted",
    "C82_no_answer_refuted",
    "C82_odd_width_refuted",
    "C82_too_large_refuted"
   ],
   "note": "firdes (C70) and the transform are quantified over; their lengths are assumed. Taps per channel at most the channel width. One float of room after the spectrum is a hypothesis (see C81)."
  },
  {
   "property": "C83",
   "status": "proved",
   "theorems": [
    "C83_event_values",
    "C83_end_refuted"
   ],
   "note": "Added after an edit of the averages in event_search survived the theorems of C36."
  },
  {
   "property": "C84",
   "status": "proved",
   "theorems": [
    "C84_collected",
    "C84_two_bins_refuted",
    "C84_widths_differ_refuted",
    "C84_last_bin_refuted"
   ],
   "note": "Collecting kernel of the GPU search as threads of a small-step machine over the table left by the kernels of C32; the width differs from the CPU search (refuted) and the kernel exports filter_rolloff counts of 0 always."
  },
  {
   "property": "C85",
   "status": "proved",
   "theorems": [
    "C85_moved_view",
    "C85_whole_array",
    "C85_rows_from_gpu",
    "C85_host_slice_refuted",
    "C85_columns_refuted",
    "C85_between_gpus_refuted",
    "C85_from_pinned_refuted",
    "C85_without_cuda",
    "C85_invalid_device",
    "C85_large_refuted",
    "C85_scalar_slice_refuted",
    "C85_kernel_device",
    "C85_abs_refuted"
   ],
   "note": "to() as copies of consecutive cells between buffers, uninitialised cells explicit; allocation success and the set of valid devices are parameters. Sliced sources, GPU-to-GPU, pinned sources and large arrays are refuted."
  },
  {
   "property": "C86",
   "status": "proved",
   "theorems": [
    "C86_runs",
    "C86_freed",
    "C86_own_arrays",
    "C86_borrowed_arrays",
    "C86_deferred_refuted",
    "C86_write_refuted",
    "C86_byte_offset_refuted"
   ],
   "note": "Small machine of tensor handles (data pointer, ownership, shape pointers) with imports and releases; theorems quantify over all programs. Assignment of borrowed arrays and byte offsets are refuted."
  },
  {
   "property": "C87",
   "status": "proved",
   "theorems": [
    "C87_rows_ignored_refuted",
    "C87_header",
    "C87_channel_width_refuted"
   ],
   "note": "C87_header is the positive part; C87_rows_ignored_refuted and C87_channel_width_refuted show what is lost. stod is a parameter with a contract met by sample_stod."
  },
  {
   "property": "C88",
   "status": "proved",
   "theorems": [
    "C88_answers",
    "C88_defined",
    "C88_hits_shared",
    "C88_cpu_and_gpu",
    "C88_two_gpus_refuted",
    "C88_search_device",
    "C88_managed_search_refuted"
   ],
   "note": "Moving arrays and running callables are parameters with a contract (library_ok) met by the model of bland::to for whole arrays on the CPU and one GPU (C88_cpu_and_gpu). Elements written in place through an array handed out, and deferred arrays with the memoize policy set as data, are not modelled."
  },
  {
   "property": "C89",
   "status": "proved",
   "theorems": [
    "C89_add_divide",
    "C89_subtract_multiply",
    "C89_scalar",
    "C89_integers_exact",
    "C89_compare",
    "C89_compare_scalar",
    "C89_compare_exact",
    "C89_logical_and",
    "C89_logical_and_float",
    "C89_other_types",
    "C89_arithmetic_refuted",
    "C89_compare_refuted"
   ],
   "note": "CPU kernels; conversions of out-of-range integers to signed types are taken as modular. Array-array division and addition broadcast as in C05, the other operations take the shape of the left operand. An infinite operand beside a float is covered only for comparisons."
  },
  {
   "property": "C90",
   "status": "proved",
   "theorems": [
    "C90_sum",
    "C90_mean",
    "C90_stddev",
    "C90_masked_mean",
    "C90_masked_mean_none",
    "C90_masked_stddev",
    "C90_max",
    "C90_mean_into_float",
    "C90_float_range",
    "C90_exact",
    "C90_masked_stddev_exact",
    "C90_stddev_refuted",
    "C90_mean_refuted"
   ],
   "note": "int32, uint8 and uint32; int64 arrays are not covered. Shapes without empty dimensions and of less than 2^31 elements. That an exception for a fully masked result comes out is proved for the mean of unsigned arrays; elsewhere another result may be undefined first. The mean's undefinedness for single elements stems from converting 1.0/0 to an integer that is not used afterwards."
  },
  {
   "property": "C91",
   "status": "proved",
   "theorems": [
    "C91_mean",
    "C91_masked_mean",
    "C91_stddev",
    "C91_mean_stddev",
    "C91_masked_stddev",
    "C91_masked_mean_stddev",
    "C91_stddev_error",
    "C91_masked_stddev_refuted",
    "C91_sum",
    "C91_sum_refuted"
   ],
   "note": "CPU float arrays; no contraction to FMA assumed. C91_mean, C91_masked_mean, C91_stddev, C91_mean_stddev, C91_masked_stddev, C91_masked_mean_stddev give the bounds for every result element; C91_stddev_error turns them into bounds on the standard deviation; C91_masked_stddev_refuted and C91_sum_refuted refute the stronger claims."
  },
  {
   "property": "C92",
   "status": "proved",
   "theorems": [
    "C92_cpu",
    "C92_search",
    "C92_cuda",
    "C92_backends_close",
    "C92_relative"
   ],
   "note": "binary32 with round to nearest, no contraction. C92_cpu, C92_search (CPU), C92_cuda (every schedule), C92_backends_close, C92_relative. That the backends are not bit-identical with desmearing is C20_float_desmear_refuted."
  },
  {
   "property": "C93",
   "status": "proved",
   "theorems": [
    "C93_detects",
    "C93_hits_are_real",
    "C93_snr_accuracy",
    "C93_strong_line",
    "C93_quiet_channel",
    "C93_find_hits",
    "C93_clipped_line"
   ],
   "note": "Combines C78 (the CPU search), C91 (statistics) and C92 (planes) in binary32/binary64 with round to nearest, no contraction. C93_find_hits is the whole chain; C93_detects, C93_hits_are_real, C93_snr_accuracy, C93_strong_line, C93_quiet_channel, C93_clipped_line are about a given floor and noise estimate. Lines that leave the band: C93_clipped_line with C93_edge_case."
  },
  {
   "property": "C94",
   "status": "proved",
   "theorems": [
    "C94_drift_rate",
    "C94_drift_order",
    "C94_frequency",
    "C94_frequency_order",
    "C94_last_spectrum",
    "C94_hit_fields"
   ],
   "note": "Binary32/binary64 with round to nearest, no contraction. C94_drift_rate, C94_drift_order, C94_frequency, C94_frequency_order, C94_last_spectrum are about the formulas, C94_hit_fields about the hits of a search (through C34 and C78). Hits of the CUDA search are built by the same code."
  },
  {
   "property": "C95",
   "status": "proved",
   "theorems": [
    "C95_completes",
    "C95_reports_are_real",
    "C95_detects",
    "C95_quiet_border",
    "C95_strong_line",
    "C95_quiet_channel",
    "C95_few_drifts_refuted",
    "C95_snr_accuracy",
    "C95_backends_differ_refuted"
   ],
   "note": "Floor, noise power and room in the protohit table are given (C32_table_overflow_refuted shows what happens without room). C95_completes, C95_reports_are_real, C95_detects, C95_quiet_border, C95_strong_line, C95_quiet_channel, C95_snr_accuracy; C95_few_drifts_refuted and C95_backends_differ_refuted are the ways it differs from C93. Building protohits and hits from the reported bins is C34/C39. Uses Classical_Prop.classic (standard library)."
  },
  {
   "property": "C96",
   "status": "proved",
   "theorems": [
    "C96_var",
    "C96_masked_var",
    "C96_var_into",
    "C96_masked_var_into",
    "C96_out_refuted",
    "C96_masked_nan_refuted"
   ],
   "note": "Float (single precision) arrays on the CPU. stddev and masked_stddev are modelled bit-exactly (C91); square is one rounded multiplication. C96_out_refuted: the passed output holds the standard deviations. C96_masked_nan_refuted is a witness of NaN."
  },
  {
   "property": "C97",
   "status": "proved",
   "theorems": [
    "C97_hits_are_summits",
    "C97_completes",
    "C97_crowded_refuted",
    "C97_detects",
    "C97_hits_are_real",
    "C97_flat_channel_refuted",
    "C97_cpu_no_neighbourhood",
    "C97_backends_differ_refuted"
   ],
   "note": "Same conditions as C95, plus D*N + 512 <= 2^31 and L^2 < 2^31 for the 32-bit counters of the kernel. C97_crowded_refuted and C97_flat_channel_refuted characterise the overflow; C97_backends_differ_refuted is a witness."
  },
  {
   "property": "C98",
   "status": "proved",
   "theorems": [
    "C98_layout",
    "C98_any_writer",
    "C98_width_refuted"
   ],
   "note": "Wire format of messages with one segment and near pointers, as the Cap'n Proto library lays out the schema (trusted, see DESIGN); other messages are covered by the arbitrary function of the reader. C98_width_refuted: undefined behaviour for a width that is not an int64."
  },
  {
   "property": "C99",
   "status": "proved",
   "theorems": [
    "C99_elements",
    "C99_compare_int",
    "C99_compare_negative_refuted",
    "C99_compare_float",
    "C99_compare_large_int",
    "C99_arith_int",
    "C99_arith_float",
    "C99_refused",
    "C99_slice",
    "C99_numbers_refuted"
   ],
   "note": "nanobind's choice of overload is a stated contract (DESIGN, PyModel): definition order, first without then with implicit conversions. C99_compare_negative_refuted is a characterisation, C99_numbers_refuted are witnesses. Python bools and numpy scalars, other bindings and devices are not covered."
  },
  {
   "property": "C100",
   "status": "proved",
   "theorems": [
    "C100_estimate",
    "C100_flags",
    "C100_constant",
    "C100_unflagged",
    "C100_negative_refuted"
   ],
   "note": "CPU; powers as stated (negative samples and larger magnitudes are not covered by the error bound). No fused multiply-add. The estimates on CUDA differ in the order of summation and are not covered (see C75, C76)."
  },
  {
   "property": "C101",
   "status": "proved",
   "theorems": [
    "C101_magnitude_flags",
    "C101_small_channels_refuted",
    "C101_lone_sample"
   ],
   "note": "Bit-exact binary32/binary64 model of the default threshold on CPU float arrays (MagModel), against exact real statistics. No fused multiply-add. Examples: a spike among 128 samples, and one among 6."
  },
  {
   "property": "C102",
   "status": "proved",
   "theorems": [
    "C102_gpu_sum",
    "C102_gpu_mean",
    "C102_gpu_masked",
    "C102_devices_agree_refuted"
   ],
   "note": "IEEE single precision as written; contraction to fused multiply-adds does not concern sums and means. Arrays with more than 1024 outputs are excluded because their compensations leak (C76)."
  },
  {
   "property": "C103",
   "status": "proved",
   "theorems": [
    "C103_gpu_var_stddev",
    "C103_gpu_mean_stddev",
    "C103_gpu_masked",
    "C103_constant_refuted"
   ],
   "note": "Contraction is modelled at the two places where a product meets a difference; square roots are correctly rounded (CUDA's default)."
  },
  {
   "property": "C104",
   "status": "proved",
   "theorems": [
    "C104_cuda_from_samples",
    "C104_small_variation_refuted"
   ],
   "note": "Copies between devices are C85's; the check that not everything is flagged is C78's and C80's. Whether the table has room is stated over the samples."
  },
  {
   "property": "C105",
   "status": "proved",
   "theorems": [
    "C105_gpu_sum",
    "C105_gpu_mean",
    "C105_gpu_masked",
    "C105_own_elements_refuted"
   ],
   "note": "Refuted form included: an output's error is not bounded by its own elements (C105_own_elements_refuted). Sums and means only; variances beyond 1024 outputs are not bounded."
  },
  {
   "property": "C106",
   "status": "proved",
   "theorems": [
    "C106_gpu_estimate",
    "C106_gpu_flags",
    "C106_own_samples_refuted"
   ],
   "note": "Every finished run of both sums; element-wise kernels give the CPU's elements (C79). The published estimate and the margin are stated in reals, independent of the model."
  },
  {
   "property": "C107",
   "status": "proved",
   "theorems": [
    "C107_channels_undefined_refuted",
    "C107_no_rounds",
    "C107_lines",
    "C107_round",
    "C107_small_samples_refuted"
   ],
   "note": "Channels undefined for all inputs (refutation); one-axis arrays for all inputs, any number of rounds; each round's bounds against exact statistics. The margins are C103's and are not shown to be the best possible."
  },
  {
   "property": "C108",
   "status": "proved",
   "theorems": [
    "C108_maxima_from_samples"
   ],
   "note": "Composition of the masked statistics kernel (C103) with the search for local maxima (C97), from samples to hits, for all schedules of both; the case includes a complete run that finds the line."
  },
  {
   "property": "C109",
   "status": "proved",
   "theorems": [
    "C109_gpu_magnitude_flags",
    "C109_small_channels_refuted",
    "C109_lone_sample"
   ],
   "note": "The host's mean + 10*stddev is rounded after each operation (no contraction of host code). Element-wise steps on the GPU are taken to give what the CPU's give, C79."
  },
  {
   "property": "C110",
   "status": "proved",
   "theorems": [
    "C110_response_range",
    "C110_equalize_by_file",
    "C110_wrong_size",
    "C110_truncated_refuted"
   ],
   "note": "Range of the response, division by the file written, and wrong sizes are proved for all inputs within the stated ranges. The transform's bins must be finite and at most 2^40 in magnitude; overflow beyond that, odd widths and spans with an inexact centre are outside (C81, C82). The device option is parsed and not used by the program."
  },
  {
   "property": "C111",
   "status": "proved",
   "theorems": [
    "C111_agrees",
    "C111_one_element",
    "C111_normalize",
    "C111_equalize"
   ],
   "note": "Proved for all contents of memory behind the shapes, all sizes with fewer than 2^31 elements, in IEEE single precision for normalize and over any arithmetic for equalization; C111_equalize also shows where the call still reads outside the response. The strict reading of the language is C69."
  },
  {
   "property": "C112",
   "status": "proved",
   "theorems": [
    "C112_no_report_on_the_cpu_refuted",
    "C112_cpu_run"
   ],
   "note": "Proved for every behaviour of the other steps; the two theorems say that no report is made and, for readable nonnegative samples, that the exception handler is what ends the program. The strict reading of normalize is C69, sigma clipping on a GPU C107."
  },
  {
   "property": "C113",
   "status": "proved",
   "theorems": [
    "C113_channels",
    "C113_gpu_one_element",
    "C113_one_round"
   ],
   "note": "Proved for all contents of memory behind the shapes, all schedules of the statistics kernels and of the comparison kernel, any number of rounds. The rounds compose the CPU meaning of the element-wise steps, which the kernel theorem shows to be what the GPU gives. The strict reading of the language is C107."
  },
  {
   "property": "C114",
   "status": "proved",
   "theorems": [
    "C114_hot_pixels_refuted",
    "C114_any_flags"
   ],
   "note": "Proved for all finite samples up to 2^120 and all contents of memory; refutation of the header's description. On a GPU the function is not modelled."
  },
  {
   "property": "C115",
   "status": "proved",
   "theorems": [
    "C115_launches_end",
    "C115_gpu_normalize"
   ],
   "note": "Proved for all finite nonnegative samples and all schedules of both kernels; dense data only. The CPU counterpart is C111, the strict reading of the language C69."
  },
  {
   "property": "C116",
   "status": "proved",
   "theorems": [
    "C116_gain",
    "C116_both_devices",
    "C116_rounded_gain_refuted"
   ],
   "note": "Relates any two runs, on either device; for exact positive factors. Words behind shapes arbitrary (C111, C115). The rounded factor is refuted by computation in the model."
  },
  {
   "property": "C117",
   "status": "proved",
   "theorems": [
    "C117_prepare",
    "C117_one_round",
    "C117_gain"
   ],
   "note": "Composition of C115 and C113, proved without C113's assumption on the size of the samples. Kurtosis and roll-off flags enter as an arbitrary mask; with a response file see C111."
  }
 ]
}