{
 "claims": [
  {
   "property": "C01",
   "status": "proved",
   "theorems": [
    "C01_ring_is_bounded_fifo"
   ],
   "note": "All element types, histories and 1 <= W < 2^64."
  },
  {
   "property": "C02",
   "status": "proved",
   "theorems": [
    "C02_ring_memory_safe",
    "C02_ring_window_zero_undefined"
   ],
   "note": "Safety for W >= 1 and undefined behaviour of the first update for W = 0."
  },
  {
   "property": "C03",
   "status": "proved",
   "theorems": [
    "C03_ring_size_full_empty"
   ],
   "note": "64-bit wrap-around of windowSize + head - tail is modelled."
  },
  {
   "property": "C04",
   "status": "proved",
   "theorems": [
    "C04_ring_linearizable",
    "C04_lock_order_is_real_time",
    "C04_deadlock_free"
   ],
   "note": "Sequentially consistent interleaving of single memory accesses; the data race of the unlocked readers is itself UB in C++."
  },
  {
   "property": "C05",
   "status": "proved",
   "theorems": [
    "C05_ring_size_not_atomic_refuted",
    "C05_ring_size_exceeds_window_refuted"
   ],
   "note": "The code violates atomicity of size()/empty()/full(): proved as refutations for every W >= 2."
  },
  {
   "property": "C06",
   "status": "proved",
   "theorems": [
    "C06_batch_is_one_by_one",
    "C06_batches_concatenate",
    "C06_nothing_after_a_failure"
   ],
   "note": ""
  },
  {
   "property": "C07",
   "status": "proved",
   "theorems": [
    "C07_list_is_bounded_fifo"
   ],
   "note": ""
  },
  {
   "property": "C08",
   "status": "proved",
   "theorems": [
    "C08_list_window_zero_unbounded"
   ],
   "note": ""
  },
  {
   "property": "C09",
   "status": "proved",
   "theorems": [
    "C09_list_and_ring_agree"
   ],
   "note": ""
  },
  {
   "property": "C10",
   "status": "proved",
   "theorems": [
    "C10_list_empty_reset_undefined_refuted",
    "C10_list_reset_behaves_like_new"
   ],
   "note": "The undefined behaviour is proved for every way of reaching an empty list."
  },
  {
   "property": "C11",
   "status": "proved",
   "theorems": [
    "C11_list_leak_accounting"
   ],
   "note": ""
  },
  {
   "property": "C12",
   "status": "proved",
   "theorems": [
    "C12_list_full_means_nonempty",
    "C12_list_single_item_is_full_refuted"
   ],
   "note": "full() is proved to mean non-empty."
  },
  {
   "property": "C13",
   "status": "proved",
   "theorems": [
    "C13_list_concurrent_updates_lose_item_refuted",
    "C13_list_concurrent_pops_undefined_refuted",
    "C13_uninterrupted_call_is_sequential"
   ],
   "note": "Schedules exhibited for every W and items."
  },
  {
   "property": "C14",
   "status": "proved",
   "theorems": [
    "C14_exact_meaning",
    "C14_trichotomy",
    "C14_greater_is_less_swapped",
    "C14_infinite_or_nan_undecided_refuted"
   ],
   "note": ""
  },
  {
   "property": "C15",
   "status": "proved",
   "theorems": [
    "C15_symmetric",
    "C15_reflexive",
    "C15_essential_implies_approximate"
   ],
   "note": ""
  },
  {
   "property": "C16",
   "status": "proved",
   "theorems": [
    "C16_less_is_compatible_and_asymmetric",
    "C16_less_transitive_exact",
    "C16_less_monotone_exact",
    "C16_less_transitive",
    "C16_less_monotone",
    "C16_not_a_strict_weak_order_refuted"
   ],
   "note": ""
  },
  {
   "property": "C17",
   "status": "proved",
   "theorems": [
    "C17_xlogx"
   ],
   "note": ""
  },
  {
   "property": "C18",
   "status": "proved",
   "theorems": [
    "C18_sum_counts",
    "C18_sum_edges",
    "C18_sum_hull_exact"
   ],
   "note": ""
  },
  {
   "property": "C19",
   "status": "proved",
   "theorems": [
    "C19_counts_ignored",
    "C19_equality_and_order_exact",
    "C19_equality_and_order_doubles"
   ],
   "note": ""
  },
  {
   "property": "C20",
   "status": "proved",
   "theorems": [
    "C20_size_bounded",
    "C20_size_never_shrinks"
   ],
   "note": ""
  },
  {
   "property": "C21",
   "status": "proved",
   "theorems": [
    "C21_total_count"
   ],
   "note": ""
  },
  {
   "property": "C22",
   "status": "proved",
   "theorems": [
    "C22_counts_in_sync",
    "C22_counts_at_least_total"
   ],
   "note": ""
  },
  {
   "property": "C23",
   "status": "proved",
   "theorems": [
    "C23_sliding_corrupts_counts",
    "C23_sliding_corrupts_counts_double"
   ],
   "note": ""
  },
  {
   "property": "C24",
   "status": "proved",
   "theorems": [
    "C24_bins_well_formed",
    "C24_bins_well_formed_double"
   ],
   "note": ""
  },
  {
   "property": "C25",
   "status": "proved",
   "theorems": [
    "C25_safe_inside_window",
    "C25_stale_index_refuted",
    "C25_zero_bins",
    "C25_only_out_of_bounds"
   ],
   "note": ""
  },
  {
   "property": "C26",
   "status": "proved",
   "theorems": [
    "C26_separated_data",
    "C26_separated_data_double"
   ],
   "note": ""
  },
  {
   "property": "C27",
   "status": "proved",
   "theorems": [
    "C27_density_nonnegative_double",
    "C27_density_infinite_refuted",
    "C27_pdf_entries",
    "C27_pdf_nonnegative",
    "C27_cdf_running_sums",
    "C27_masses_sum_to_one",
    "C27_cdf_monotone_double",
    "C27_cdf_last_double"
   ],
   "note": ""
  },
  {
   "property": "C28",
   "status": "proved",
   "theorems": [
    "C28_binsearch_terminates",
    "C28_binsearch_insertion_point",
    "C28_binsearch_insertion_point_double"
   ],
   "note": ""
  },
  {
   "property": "C29",
   "status": "proved",
   "theorems": [
    "C29_merge_closest_pair",
    "C29_merge_closest_pair_double"
   ],
   "note": ""
  },
  {
   "property": "C30",
   "status": "proved",
   "theorems": [
    "C30_throws_outside",
    "C30_quantile_value",
    "C30_quantile_safe_double"
   ],
   "note": ""
  },
  {
   "property": "C31",
   "status": "proved",
   "theorems": [
    "C31_empty_undefined",
    "C31_single_value_stream",
    "C31_single_value_stream_double",
    "C31_not_monotone_refuted"
   ],
   "note": ""
  },
  {
   "property": "C32",
   "status": "proved",
   "theorems": [
    "C32_reset_is_not_fresh"
   ],
   "note": ""
  },
  {
   "property": "C33",
   "status": "proved",
   "theorems": [
    "C33_report_one_entry_per_bin",
    "C33_report_one_entry_per_bin_double",
    "C33_report_loses_entries_refuted"
   ],
   "note": ""
  },
  {
   "property": "C34",
   "status": "proved",
   "theorems": [
    "C34_update_memory",
    "C34_leak"
   ],
   "note": ""
  },
  {
   "property": "C35",
   "status": "proved",
   "theorems": [
    "C35_infinite_gaps",
    "C35_far_apart_doubles"
   ],
   "note": ""
  },
  {
   "property": "C36",
   "status": "proved",
   "theorems": [
    "C36_mean_is_window_average"
   ],
   "note": ""
  },
  {
   "property": "C37",
   "status": "proved",
   "theorems": [
    "C37_mean_window_contents"
   ],
   "note": ""
  },
  {
   "property": "C38",
   "status": "proved",
   "theorems": [
    "C38_mean_of_integers_correctly_rounded",
    "C38_mean_drift_refuted",
    "C38_mean_contaminated_forever_refuted"
   ],
   "note": ""
  },
  {
   "property": "C39",
   "status": "proved",
   "theorems": [
    "C39_variance_is_population_variance",
    "C39_variance_negative_in_doubles_refuted"
   ],
   "note": ""
  },
  {
   "property": "C40",
   "status": "proved",
   "theorems": [
    "C40_variance_public_state_not_maintained"
   ],
   "note": ""
  },
  {
   "property": "C41",
   "status": "proved",
   "theorems": [
    "C41_p2_constructor",
    "C41_p2_nan_quantile"
   ],
   "note": ""
  },
  {
   "property": "C42",
   "status": "proved",
   "theorems": [
    "C42_p2_bracket",
    "C42_p2_overflow"
   ],
   "note": ""
  },
  {
   "property": "C43",
   "status": "proved",
   "theorems": [
    "C43_p2_positions_double",
    "C43_p2_positions_exact"
   ],
   "note": ""
  },
  {
   "property": "C44",
   "status": "proved",
   "theorems": [
    "C44_p2_five",
    "C44_p2_small",
    "C44_p2_single"
   ],
   "note": ""
  },
  {
   "property": "C45",
   "status": "proved",
   "theorems": [
    "C45_p2_evaluate_observes",
    "C45_p2_early_evaluate_interferes"
   ],
   "note": ""
  },
  {
   "property": "C46",
   "status": "proved",
   "theorems": [
    "C46_p2_constant"
   ],
   "note": ""
  },
  {
   "property": "C47",
   "status": "proved",
   "theorems": [
    "C47_p2_lifetime"
   ],
   "note": ""
  },
  {
   "property": "C48",
   "status": "proved",
   "theorems": [
    "C48_wp2_first_window",
    "C48_wp2_first_window_updates",
    "C48_wp2_zero_window",
    "C48_iqr_zero_window"
   ],
   "note": ""
  },
  {
   "property": "C49",
   "status": "proved",
   "theorems": [
    "C49_wp2_weights",
    "C49_wp2_formula",
    "C49_wp2_out_of_range"
   ],
   "note": ""
  },
  {
   "property": "C50",
   "status": "proved",
   "theorems": [
    "C50_wp2_restart",
    "C50_wp2_inner_count"
   ],
   "note": ""
  },
  {
   "property": "C51",
   "status": "proved",
   "theorems": [
    "C51_iqr_difference",
    "C51_iqr_constructor",
    "C51_iqr_default",
    "C51_iqr_negative",
    "C51_iqr_negative_constant"
   ],
   "note": ""
  },
  {
   "property": "C52",
   "status": "proved",
   "theorems": [
    "C52_fame_constructor",
    "C52_fame_first_observation"
   ],
   "note": ""
  },
  {
   "property": "C53",
   "status": "proved",
   "theorems": [
    "C53_fame_moves_one_step"
   ],
   "note": ""
  },
  {
   "property": "C54",
   "status": "proved",
   "theorems": [
    "C54_fame_range_exact",
    "C54_fame_range_double"
   ],
   "note": ""
  },
  {
   "property": "C55",
   "status": "proved",
   "theorems": [
    "C55_fame_constant"
   ],
   "note": ""
  },
  {
   "property": "C56",
   "status": "proved",
   "theorems": [
    "C56_mad_multiple_of_step",
    "C56_mad_nonnegative_exact",
    "C56_mad_nonnegative_double_refuted",
    "C56_mad_constant"
   ],
   "note": ""
  },
  {
   "property": "C57",
   "status": "proved",
   "theorems": [
    "C57_shannon_entropy"
   ],
   "note": ""
  },
  {
   "property": "C58",
   "status": "proved",
   "theorems": [
    "C58_full_histogram",
    "C58_full_histogram_exact",
    "C58_full_histogram_double",
    "C58_increasing_values",
    "C58_increasing_values_double"
   ],
   "note": ""
  },
  {
   "property": "C59",
   "status": "proved",
   "theorems": [
    "C59_zero_window",
    "C59_negative_entropy"
   ],
   "note": ""
  },
  {
   "property": "C60",
   "status": "proved",
   "theorems": [
    "C60_given_bins",
    "C60_sturges_default",
    "C60_rounded_log2",
    "C60_rounded_log2_off",
    "C60_zero_window"
   ],
   "note": ""
  },
  {
   "property": "C61",
   "status": "proved",
   "theorems": [
    "C61_ring_counter",
    "C61_list_counter",
    "C61_histogram_counter",
    "C61_mean_counter",
    "C61_fame_counter",
    "C61_mad_counter",
    "C61_p2_counter",
    "C61_windowed_p2_counter",
    "C61_iqr_counter",
    "C61_entropy_counter"
   ],
   "note": ""
  },
  {
   "property": "C62",
   "status": "proved",
   "theorems": [
    "C62_ring_rounds_items",
    "C62_list_rounds_items",
    "C62_update_then_pop",
    "C62_tenth_not_preserved_refuted"
   ],
   "note": ""
  },
  {
   "property": "C63",
   "status": "proved",
   "theorems": [
    "C63_fame_freezes"
   ],
   "note": ""
  },
  {
   "property": "C64",
   "status": "proved",
   "theorems": [
    "C64_p2_published"
   ],
   "note": ""
  },
  {
   "property": "C65",
   "status": "proved",
   "theorems": [
    "C65_mad_composition",
    "C65_mad_default_parameters"
   ],
   "note": ""
  },
  {
   "property": "C66",
   "status": "proved",
   "theorems": [
    "C66_iterable_of_numbers",
    "C66_not_atomic",
    "C66_iterable_inversion",
    "C66_scalars",
    "C66_single_conversion"
   ],
   "note": ""
  },
  {
   "property": "C67",
   "status": "proved",
   "theorems": [
    "C67_arguments_arrive",
    "C67_fame_arguments_arrive",
    "C67_none_window_refuted",
    "C67_window_argument",
    "C67_one_sided_iqr_ignored",
    "C67_rejected_parameters",
    "C67_defaults_that_work"
   ],
   "note": ""
  },
  {
   "property": "C68",
   "status": "proved",
   "theorems": [
    "C68_lifetime"
   ],
   "note": ""
  },
  {
   "property": "C69",
   "status": "proved",
   "theorems": [
    "C69_merged_counts_exact",
    "C69_merged_counts_exact_double"
   ],
   "note": ""
  },
  {
   "property": "C70",
   "status": "proved",
   "theorems": [
    "C70_cdf_is_empirical_distribution",
    "C70_cumulated_counts_double"
   ],
   "note": ""
  },
  {
   "property": "C71",
   "status": "proved",
   "theorems": [
    "C71_quantile_inverts_cdf",
    "C71_quantile_bracket"
   ],
   "note": ""
  },
  {
   "property": "C72",
   "status": "proved",
   "theorems": [
    "C72_quantile_of_skewed_data",
    "C72_quantile_unbounded_refuted"
   ],
   "note": ""
  },
  {
   "property": "C73",
   "status": "proved",
   "theorems": [
    "C73_mean_error_bound"
   ],
   "note": ""
  },
  {
   "property": "C74",
   "status": "proved",
   "theorems": [
    "C74_mean_error_grows_refuted"
   ],
   "note": ""
  },
  {
   "property": "C75",
   "status": "proved",
   "theorems": [
    "C75_variance_error_bound",
    "C75_variance_cancellation_refuted"
   ],
   "note": ""
  },
  {
   "property": "C76",
   "status": "proved",
   "theorems": [
    "C76_fame_rate",
    "C76_fame_converges"
   ],
   "note": ""
  },
  {
   "property": "C77",
   "status": "proved",
   "theorems": [
    "C77_fame_dead_refuted"
   ],
   "note": ""
  },
  {
   "property": "C78",
   "status": "proved",
   "theorems": [
    "C78_p2_affine",
    "C78_windowed_p2_affine",
    "C78_iqr_affine",
    "C78_p2_affine_small_refuted"
   ],
   "note": ""
  },
  {
   "property": "C79",
   "status": "proved",
   "theorems": [
    "C79_hist_scale",
    "C79_hist_scale_counts",
    "C79_quantile_scale",
    "C79_quantile_scale_refuted",
    "C79_hist_shift_refuted"
   ],
   "note": ""
  },
  {
   "property": "C80",
   "status": "proved",
   "theorems": [
    "C80_entropy_scale"
   ],
   "note": ""
  },
  {
   "property": "C81",
   "status": "proved",
   "theorems": [
    "C81_fame_scale"
   ],
   "note": ""
  },
  {
   "property": "C82",
   "status": "proved",
   "theorems": [
    "C82_mad_speed_limit",
    "C82_mad_scale_refuted",
    "C82_mad_negate"
   ],
   "note": ""
  },
  {
   "property": "C83",
   "status": "proved",
   "theorems": [
    "C83_no_bad_delete",
    "C83_balanced",
    "C83_footprint"
   ],
   "note": ""
  },
  {
   "property": "C84",
   "status": "proved",
   "theorems": [
    "C84_leaks",
    "C84_entropy_leak",
    "C84_iqr_leak"
   ],
   "note": ""
  },
  {
   "property": "C85",
   "status": "proved",
   "theorems": [
    "C85_p2_tracks_exact",
    "C85_p2_tracks_double",
    "C85_p2_tight"
   ],
   "note": ""
  },
  {
   "property": "C86",
   "status": "proved",
   "theorems": [
    "C86_p2_ramp"
   ],
   "note": ""
  },
  {
   "property": "C87",
   "status": "proved",
   "theorems": [
    "C87_fame_balance",
    "C87_fame_median"
   ],
   "note": ""
  },
  {
   "property": "C88",
   "status": "proved",
   "theorems": [
    "C88_fame_median_refuted"
   ],
   "note": ""
  },
  {
   "property": "C89",
   "status": "proved",
   "theorems": [
    "C89_ring_race_free",
    "C89_ring_race_shape",
    "C89_ring_observers_race_refuted"
   ],
   "note": ""
  },
  {
   "property": "C90",
   "status": "proved",
   "theorems": [
    "C90_list_update_races_refuted",
    "C90_list_reset_not_exclusive_refuted",
    "C90_list_one_reset",
    "C90_list_uninterrupted"
   ],
   "note": ""
  },
  {
   "property": "C91",
   "status": "proved",
   "theorems": [
    "C91_wp2_lifetime",
    "C91_late_count",
    "C91_wp2_small_window"
   ],
   "note": ""
  },
  {
   "property": "C92",
   "status": "proved",
   "theorems": [
    "C92_indices_kept",
    "C92_twice_the_window",
    "C92_twice_the_window_exact",
    "C92_bincounts_throws"
   ],
   "note": ""
  },
  {
   "property": "C93",
   "status": "proved",
   "theorems": [
    "C93_reset_shortens_window",
    "C93_reset_shortens_window_exact",
    "C93_reset_first_repairs",
    "C93_bincounts_after_reset",
    "C93_mass_after_reset",
    "C93_counts_before_full"
   ],
   "note": ""
  },
  {
   "property": "C94",
   "status": "proved",
   "theorems": [
    "C94_fame_settles",
    "C94_fame_settles_growing",
    "C94_fame_follows_limits",
    "C94_mad_vanishes",
    "C94_mad_settles"
   ],
   "note": ""
  },
  {
   "property": "C95",
   "status": "proved",
   "theorems": [
    "C95_entropy_error_bound",
    "C95_rounded_log2",
    "C95_constant_data_exact"
   ],
   "note": ""
  },
  {
   "property": "C96",
   "status": "proved",
   "theorems": [
    "C96_sliding_safe",
    "C96_sliding_formula",
    "C96_entropy_unbounded"
   ],
   "note": ""
  },
  {
   "property": "C97",
   "status": "proved",
   "theorems": [
    "C97_low_quantile_lags"
   ],
   "note": ""
  },
  {
   "property": "C98",
   "status": "proved",
   "theorems": [
    "C98_cdf_error",
    "C98_cdf_near_empirical",
    "C98_quantile_inverts_cdf_double",
    "C98_cdf_exceeds_one_refuted"
   ],
   "note": ""
  },
  {
   "property": "C99",
   "status": "proved",
   "theorems": [
    "C99_mean_reflection",
    "C99_variance_reflection",
    "C99_fame_reflection",
    "C99_mad_reflection",
    "C99_p2_reflection_refuted",
    "C99_histogram_reflection_refuted"
   ],
   "note": ""
  },
  {
   "property": "C100",
   "status": "proved",
   "theorems": [
    "C100_dict_assignment",
    "C100_map_key_order",
    "C100_report_is_a_faithful_dict",
    "C100_update_then_report",
    "C100_quantile",
    "C100_quantile_of_new_refuted"
   ],
   "note": ""
  },
  {
   "property": "C101",
   "status": "proved",
   "theorems": [
    "C101_steps_bounded",
    "C101_running_threads_finish",
    "C101_readers_never_wait",
    "C101_stopped_inside_the_lock"
   ],
   "note": ""
  },
  {
   "property": "C102",
   "status": "proved",
   "theorems": [
    "C102_failing_window",
    "C102_failing_mean_exact",
    "C102_mean_recovers",
    "C102_variance_recovers",
    "C102_variance_nonnegative_refuted",
    "C102_failed_mean_nan"
   ],
   "note": ""
  },
  {
   "property": "C103",
   "status": "proved",
   "theorems": [
    "C103_failing_bounds",
    "C103_never_recovers"
   ],
   "note": ""
  },
  {
   "property": "C104",
   "status": "proved",
   "theorems": [
    "C104_one_sequence_of_calls",
    "C104_faults_are_those_of_the_calls",
    "C104_safe_under_every_program",
    "C104_readings",
    "C104_ring_programs",
    "C104_list_programs",
    "C104_mean_programs"
   ],
   "note": ""
  },
  {
   "property": "C105",
   "status": "proved",
   "theorems": [
    "C105_threads_feed_in_order",
    "C105_refines_the_update_of_a_list",
    "C105_raising_keeps_what_was_given",
    "C105_rejected_value_ends_the_update",
    "C105_endless_iterator",
    "C105_reentrant_update"
   ],
   "note": ""
  },
  {
   "property": "C106",
   "status": "proved",
   "theorems": [
    "C106_mean_and_variance_unchanged",
    "C106_fame_and_mad_unchanged",
    "C106_windowed_p2_unchanged",
    "C106_largest_window_divides_by_zero_refuted",
    "C106_mean_reported",
    "C106_mean_of_ones_refuted",
    "C106_fame_restarts",
    "C106_mad_restarts"
   ],
   "note": ""
  },
  {
   "property": "C107",
   "status": "proved",
   "theorems": [
    "C107_histogram_text",
    "C107_counts_decimal",
    "C107_text_determines_bins",
    "C107_list_text",
    "C107_list_text_determines_items"
   ],
   "note": ""
  },
  {
   "property": "C108",
   "status": "proved",
   "theorems": [
    "C108_out_of_memory",
    "C108_attempts_lose",
    "C108_constructors_leak_refuted"
   ],
   "note": ""
  },
  {
   "property": "C109",
   "status": "proved",
   "theorems": [
    "C109_sequential_consistency_is_included",
    "C109_linearizable_on_weak_memory",
    "C109_well_synchronised_programs_are_sequentially_consistent",
    "C109_stale_size_refuted"
   ],
   "note": ""
  },
  {
   "property": "C110",
   "status": "proved",
   "theorems": [
    "C110_counted_calls_are_the_calls",
    "C110_constant_work",
    "C110_search_is_logarithmic",
    "C110_update_is_linear",
    "C110_update_without_merge",
    "C110_merge_is_linear",
    "C110_update_with_merge",
    "C110_work_bounded_by_bins_refuted"
   ],
   "note": ""
  },
  {
   "property": "C111",
   "status": "proved",
   "theorems": [
    "C111_histogram_keeps_every_nan",
    "C111_histogram_undefined",
    "C111_histogram_one_nan_refuted",
    "C111_p2_early_nan",
    "C111_p2_nan_is_the_maximum",
    "C111_p2_nan_forever",
    "C111_p2_forgets_a_nan_refuted",
    "C111_windowed_p2_evaluate_refuted",
    "C111_fame_ignores_nan",
    "C111_fame_first_nan",
    "C111_mad_ignores_nan",
    "C111_mad_first_not_finite"
   ],
   "note": ""
  },
  {
   "property": "C112",
   "status": "proved",
   "theorems": [
    "C112_ring_enlarged",
    "C112_ring_enlarged_pops",
    "C112_ring_reduced_is_safe",
    "C112_ring_reduced_early",
    "C112_ring_zero",
    "C112_ring_reduced_is_a_queue_refuted",
    "C112_ring_within_buffer_refuted",
    "C112_list_any_window",
    "C112_list_reduced_grows",
    "C112_histogram_total",
    "C112_mean_edited_window",
    "C112_mean_null_window",
    "C112_mean_given_window",
    "C112_mean_history"
   ],
   "note": ""
  },
  {
   "property": "C113",
   "status": "proved",
   "theorems": [
    "C113_separate",
    "C113_p2_bracket",
    "C113_p2_bracket_any_formula",
    "C113_p2_constant",
    "C113_p2_desired_same",
    "C113_p2_same_estimate_refuted",
    "C113_variance_error_bound",
    "C113_variance_one_observation",
    "C113_variance_nonnegative_refuted",
    "C113_wp2_window_end",
    "C113_wp2_early",
    "C113_entropy_error_bound",
    "C113_entropy_decrement_close",
    "C113_entropy_constant_refuted"
   ],
   "note": ""
  },
  {
   "property": "C114",
   "status": "proved",
   "theorems": [
    "C114_histogram_plus_infinity_counted_lowest",
    "C114_histogram_minus_infinity_first",
    "C114_histogram_minus_infinity_later",
    "C114_histogram_minus_infinity_takes",
    "C114_histogram_one_bin_undefined",
    "C114_mean_never_finite",
    "C114_variance_never_finite",
    "C114_variance_nan_forever",
    "C114_p2_never_finite",
    "C114_p2_forgets_an_infinity_refuted",
    "C114_p2_infinity_becomes_nan_refuted",
    "C114_fame_first_not_finite",
    "C114_fame_later_infinity",
    "C114_mad_later_infinity"
   ],
   "note": ""
  },
  {
   "property": "C115",
   "status": "proved",
   "theorems": [
    "C115_push_failures_harmless",
    "C115_inside_window",
    "C115_inside_window_shannon",
    "C115_lost_indices",
    "C115_one_lost_index",
    "C115_entropy_of_some_stream_refuted",
    "C115_histogram_events",
    "C115_nan_for_good",
    "C115_dangling_index"
   ],
   "note": ""
  },
  {
   "property": "C116",
   "status": "proved",
   "theorems": [
    "C116_histogram",
    "C116_entropy",
    "C116_mean",
    "C116_variance",
    "C116_p2",
    "C116_any_unit_refuted",
    "C116_any_unit_mean_refuted"
   ],
   "note": ""
  },
  {
   "property": "C117",
   "status": "proved",
   "theorems": [
    "C117_mean",
    "C117_variance",
    "C117_mean_integers_double",
    "C117_histogram",
    "C117_histogram_double",
    "C117_entropy",
    "C117_p2_first_five",
    "C117_p2_first_five_double",
    "C117_windowed_p2_first_five_double",
    "C117_mean_refuted",
    "C117_histogram_refuted",
    "C117_p2_sixth_refuted",
    "C117_fame_refuted"
   ],
   "note": ""
  },
  {
   "property": "C118",
   "status": "proved",
   "theorems": [
    "C118_groups",
    "C118_groups_double",
    "C118_any_order_double",
    "C118_outlier_double",
    "C118_too_close_refuted"
   ],
   "note": ""
  },
  {
   "property": "C119",
   "status": "proved",
   "theorems": [
    "C119_first_takes_all",
    "C119_first_takes_all_double",
    "C119_counting_double",
    "C119_counting_down_refuted"
   ],
   "note": ""
  },
  {
   "property": "C120",
   "status": "proved",
   "theorems": [
    "C120_never_back",
    "C120_never_back_below",
    "C120_outlier_moves_median",
    "C120_outlier_unbounded",
    "C120_outlier_double_refuted"
   ],
   "note": ""
  },
  {
   "property": "C121",
   "status": "proved",
   "theorems": [
    "C121_only_the_side_counts",
    "C121_only_the_side_counts_double",
    "C121_mad_only_the_side_counts",
    "C121_first_observation_refuted"
   ],
   "note": ""
  },
  {
   "property": "C122",
   "status": "proved",
   "theorems": [
    "C122_mean",
    "C122_mean_double",
    "C122_sliding_double_refuted",
    "C122_p2_five",
    "C122_p2_five_double",
    "C122_p2_refuted",
    "C122_fame_refuted"
   ],
   "note": ""
  },
  {
   "property": "C123",
   "status": "proved",
   "theorems": [
    "C123_mean",
    "C123_mean_in_range",
    "C123_mean_monotone",
    "C123_variance",
    "C123_variance_constant",
    "C123_variance_exact",
    "C123_constant_mean_refuted"
   ],
   "note": ""
  },
  {
   "property": "C124",
   "status": "proved",
   "theorems": [
    "C124_fame",
    "C124_fame_short",
    "C124_integers",
    "C124_long_refuted"
   ],
   "note": ""
  },
  {
   "property": "C125",
   "status": "proved",
   "theorems": [
    "C125_ring",
    "C125_ring_strong",
    "C125_ring_refuted",
    "C125_list",
    "C125_list_strong",
    "C125_list_refuted"
   ],
   "note": ""
  },
  {
   "property": "C126",
   "status": "proved",
   "theorems": [
    "C126_fame",
    "C126_fame_any_length",
    "C126_fame_long_refuted",
    "C126_windowed_p2",
    "C126_iqr",
    "C126_histogram_quantile_refuted"
   ],
   "note": ""
  },
  {
   "property": "C127",
   "status": "proved",
   "theorems": [
    "C127_windowed_p2_range",
    "C127_windowed_p2_range_reached",
    "C127_windowed_p2_calm",
    "C127_iqr_range",
    "C127_iqr_calm",
    "C127_iqr_calm_double_refuted"
   ],
   "note": ""
  },
  {
   "property": "C128",
   "status": "proved",
   "theorems": [
    "C128_windowed_p2",
    "C128_windowed_p2_double",
    "C128_iqr",
    "C128_iqr_double",
    "C128_asked_early_refuted"
   ],
   "note": ""
  },
  {
   "property": "C129",
   "status": "proved",
   "theorems": [
    "C129_mean_error_average",
    "C129_mean_error_relative",
    "C129_variance_error_mean_square",
    "C129_constant_refuted",
    "C129_sliding_refuted"
   ],
   "note": ""
  }
 ]
}