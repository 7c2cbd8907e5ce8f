# Print Assumptions of every property theorem

Written by tools/assumptions.py.

## Closed under the global context

* C01_ring_is_bounded_fifo
* C02_ring_memory_safe
* C02_ring_window_zero_undefined
* C03_ring_size_full_empty
* C04_deadlock_free
* C04_lock_order_is_real_time
* C04_ring_linearizable
* C05_ring_size_exceeds_window_refuted
* C05_ring_size_not_atomic_refuted
* C06_batch_is_one_by_one
* C06_batches_concatenate
* C06_nothing_after_a_failure
* C07_list_is_bounded_fifo
* C08_list_window_zero_unbounded
* C09_list_and_ring_agree
* C101_readers_never_wait
* C101_running_threads_finish
* C101_steps_bounded
* C101_stopped_inside_the_lock
* C102_failing_window
* C103_failing_bounds
* C103_never_recovers
* C104_faults_are_those_of_the_calls
* C104_list_programs
* C104_one_sequence_of_calls
* C104_readings
* C104_ring_programs
* C104_safe_under_every_program
* C105_endless_iterator
* C105_raising_keeps_what_was_given
* C105_reentrant_update
* C105_refines_the_update_of_a_list
* C105_rejected_value_ends_the_update
* C105_threads_feed_in_order
* C106_fame_and_mad_unchanged
* C106_fame_restarts
* C106_largest_window_divides_by_zero_refuted
* C106_mad_restarts
* C106_mean_and_variance_unchanged
* C106_windowed_p2_unchanged
* C107_counts_decimal
* C107_histogram_text
* C107_list_text
* C107_list_text_determines_items
* C107_text_determines_bins
* C109_linearizable_on_weak_memory
* C109_sequential_consistency_is_included
* C109_stale_size_refuted
* C109_well_synchronised_programs_are_sequentially_consistent
* C10_list_empty_reset_undefined_refuted
* C10_list_reset_behaves_like_new
* C110_constant_work
* C110_counted_calls_are_the_calls
* C110_merge_is_linear
* C110_search_is_logarithmic
* C110_update_is_linear
* C110_update_with_merge
* C110_update_without_merge
* C112_histogram_total
* C112_list_any_window
* C112_list_reduced_grows
* C112_mean_given_window
* C112_mean_history
* C112_ring_enlarged
* C112_ring_enlarged_pops
* C112_ring_reduced_early
* C112_ring_reduced_is_a_queue_refuted
* C112_ring_reduced_is_safe
* C112_ring_within_buffer_refuted
* C112_ring_zero
* C115_histogram_events
* C115_inside_window
* C115_push_failures_harmless
* C11_list_leak_accounting
* C125_list
* C125_list_refuted
* C125_list_strong
* C125_ring
* C125_ring_refuted
* C125_ring_strong
* C12_list_full_means_nonempty
* C12_list_single_item_is_full_refuted
* C13_list_concurrent_pops_undefined_refuted
* C13_list_concurrent_updates_lose_item_refuted
* C13_uninterrupted_call_is_sequential
* C18_sum_counts
* C19_counts_ignored
* C20_size_bounded
* C20_size_never_shrinks
* C21_total_count
* C22_counts_at_least_total
* C22_counts_in_sync
* C25_only_out_of_bounds
* C25_zero_bins
* C28_binsearch_terminates
* C30_throws_outside
* C31_empty_undefined
* C32_reset_is_not_fresh
* C34_leak
* C34_update_memory
* C37_mean_window_contents
* C40_variance_public_state_not_maintained
* C48_iqr_zero_window
* C48_wp2_first_window
* C48_wp2_first_window_updates
* C48_wp2_zero_window
* C49_wp2_formula
* C50_wp2_inner_count
* C50_wp2_restart
* C51_iqr_constructor
* C51_iqr_difference
* C58_full_histogram
* C59_zero_window
* C60_given_bins
* C60_sturges_default
* C60_zero_window
* C61_entropy_counter
* C61_fame_counter
* C61_histogram_counter
* C61_iqr_counter
* C61_list_counter
* C61_mad_counter
* C61_mean_counter
* C61_p2_counter
* C61_ring_counter
* C61_windowed_p2_counter
* C65_mad_composition
* C66_iterable_inversion
* C66_iterable_of_numbers
* C66_not_atomic
* C67_window_argument
* C68_lifetime
* C89_ring_observers_race_refuted
* C89_ring_race_free
* C89_ring_race_shape
* C90_list_one_reset
* C90_list_reset_not_exclusive_refuted
* C90_list_uninterrupted
* C90_list_update_races_refuted
* C91_late_count
* C92_indices_kept
* C93_counts_before_full

## `ClassicalDedekindReals.sig_forall_dec`, `ClassicalDedekindReals.sig_not_dec`, `Classical_Prop.classic`, `FunctionalExtensionality.functional_extensionality_dep`

* C100_dict_assignment
* C100_map_key_order
* C100_quantile
* C100_quantile_of_new_refuted
* C100_report_is_a_faithful_dict
* C100_update_then_report
* C102_failed_mean_nan
* C104_mean_programs
* C108_attempts_lose
* C108_constructors_leak_refuted
* C108_out_of_memory
* C110_work_bounded_by_bins_refuted
* C111_fame_first_nan
* C111_fame_ignores_nan
* C111_histogram_keeps_every_nan
* C111_histogram_one_nan_refuted
* C111_histogram_undefined
* C111_mad_first_not_finite
* C111_mad_ignores_nan
* C111_p2_early_nan
* C111_p2_forgets_a_nan_refuted
* C111_p2_nan_forever
* C111_p2_nan_is_the_maximum
* C111_windowed_p2_evaluate_refuted
* C113_entropy_constant_refuted
* C113_entropy_decrement_close
* C113_entropy_error_bound
* C113_p2_bracket
* C113_p2_bracket_any_formula
* C113_p2_constant
* C113_p2_desired_same
* C113_p2_same_estimate_refuted
* C113_separate
* C113_variance_error_bound
* C113_variance_nonnegative_refuted
* C113_variance_one_observation
* C113_wp2_early
* C113_wp2_window_end
* C114_fame_first_not_finite
* C114_fame_later_infinity
* C114_histogram_minus_infinity_first
* C114_histogram_minus_infinity_later
* C114_histogram_minus_infinity_takes
* C114_histogram_one_bin_undefined
* C114_histogram_plus_infinity_counted_lowest
* C114_mad_later_infinity
* C114_mean_never_finite
* C114_p2_forgets_an_infinity_refuted
* C114_p2_infinity_becomes_nan_refuted
* C114_p2_never_finite
* C114_variance_nan_forever
* C114_variance_never_finite
* C115_dangling_index
* C115_entropy_of_some_stream_refuted
* C115_inside_window_shannon
* C115_lost_indices
* C115_nan_for_good
* C115_one_lost_index
* C116_any_unit_mean_refuted
* C116_any_unit_refuted
* C116_entropy
* C116_histogram
* C116_mean
* C116_p2
* C116_variance
* C117_entropy
* C117_fame_refuted
* C117_histogram_double
* C117_histogram_refuted
* C117_mean_integers_double
* C117_mean_refuted
* C117_p2_first_five_double
* C117_p2_sixth_refuted
* C117_windowed_p2_first_five_double
* C118_any_order_double
* C118_groups_double
* C118_outlier_double
* C118_too_close_refuted
* C119_counting_double
* C119_counting_down_refuted
* C119_first_takes_all_double
* C120_outlier_double_refuted
* C121_first_observation_refuted
* C121_only_the_side_counts_double
* C122_fame_refuted
* C122_mean_double
* C122_p2_five_double
* C122_p2_refuted
* C122_sliding_double_refuted
* C123_constant_mean_refuted
* C123_mean
* C123_mean_in_range
* C123_mean_monotone
* C123_variance
* C123_variance_constant
* C123_variance_exact
* C124_fame
* C124_fame_short
* C124_integers
* C124_long_refuted
* C126_fame
* C126_fame_any_length
* C126_fame_long_refuted
* C126_histogram_quantile_refuted
* C126_iqr
* C126_windowed_p2
* C127_iqr_calm_double_refuted
* C128_asked_early_refuted
* C128_iqr_double
* C128_windowed_p2_double
* C129_constant_refuted
* C129_mean_error_average
* C129_mean_error_relative
* C129_sliding_refuted
* C129_variance_error_mean_square
* C14_greater_is_less_swapped
* C14_infinite_or_nan_undecided_refuted
* C14_trichotomy
* C15_essential_implies_approximate
* C15_reflexive
* C15_symmetric
* C16_less_is_compatible_and_asymmetric
* C16_less_monotone
* C16_less_transitive
* C16_not_a_strict_weak_order_refuted
* C17_xlogx
* C18_sum_edges
* C19_equality_and_order_doubles
* C23_sliding_corrupts_counts_double
* C24_bins_well_formed_double
* C25_safe_inside_window
* C25_stale_index_refuted
* C26_separated_data_double
* C27_cdf_last_double
* C27_cdf_monotone_double
* C27_density_infinite_refuted
* C27_density_nonnegative_double
* C28_binsearch_insertion_point_double
* C29_merge_closest_pair_double
* C30_quantile_safe_double
* C31_not_monotone_refuted
* C31_single_value_stream_double
* C33_report_loses_entries_refuted
* C33_report_one_entry_per_bin_double
* C35_far_apart_doubles
* C35_infinite_gaps
* C38_mean_contaminated_forever_refuted
* C38_mean_drift_refuted
* C38_mean_of_integers_correctly_rounded
* C39_variance_negative_in_doubles_refuted
* C41_p2_constructor
* C41_p2_nan_quantile
* C42_p2_bracket
* C42_p2_overflow
* C43_p2_positions_double
* C44_p2_five
* C44_p2_single
* C44_p2_small
* C45_p2_early_evaluate_interferes
* C45_p2_evaluate_observes
* C46_p2_constant
* C47_p2_lifetime
* C49_wp2_out_of_range
* C51_iqr_default
* C51_iqr_negative
* C51_iqr_negative_constant
* C52_fame_constructor
* C52_fame_first_observation
* C54_fame_range_double
* C55_fame_constant
* C56_mad_constant
* C56_mad_nonnegative_double_refuted
* C57_shannon_entropy
* C58_full_histogram_double
* C58_full_histogram_exact
* C58_increasing_values
* C58_increasing_values_double
* C59_negative_entropy
* C60_rounded_log2
* C60_rounded_log2_off
* C62_list_rounds_items
* C62_ring_rounds_items
* C62_tenth_not_preserved_refuted
* C62_update_then_pop
* C63_fame_freezes
* C65_mad_default_parameters
* C66_scalars
* C66_single_conversion
* C67_arguments_arrive
* C67_defaults_that_work
* C67_fame_arguments_arrive
* C67_none_window_refuted
* C67_one_sided_iqr_ignored
* C67_rejected_parameters
* C69_merged_counts_exact_double
* C70_cumulated_counts_double
* C73_mean_error_bound
* C74_mean_error_grows_refuted
* C75_variance_cancellation_refuted
* C75_variance_error_bound
* C77_fame_dead_refuted
* C83_balanced
* C83_footprint
* C83_no_bad_delete
* C84_entropy_leak
* C84_iqr_leak
* C84_leaks
* C85_p2_tracks_double
* C91_wp2_lifetime
* C91_wp2_small_window
* C92_bincounts_throws
* C92_twice_the_window
* C93_bincounts_after_reset
* C93_reset_first_repairs
* C93_reset_shortens_window
* C95_constant_data_exact
* C95_entropy_error_bound
* C95_rounded_log2
* C96_entropy_unbounded
* C96_sliding_formula
* C96_sliding_safe
* C97_low_quantile_lags
* C98_cdf_error
* C98_cdf_exceeds_one_refuted
* C98_cdf_near_empirical
* C98_quantile_inverts_cdf_double
* C99_fame_reflection
* C99_histogram_reflection_refuted
* C99_mad_reflection
* C99_mean_reflection
* C99_p2_reflection_refuted
* C99_variance_reflection

## `ClassicalDedekindReals.sig_forall_dec`, `FunctionalExtensionality.functional_extensionality_dep`

* C102_failing_mean_exact
* C102_mean_recovers
* C102_variance_nonnegative_refuted
* C102_variance_recovers
* C106_mean_of_ones_refuted
* C106_mean_reported
* C112_mean_edited_window
* C112_mean_null_window
* C117_histogram
* C117_mean
* C117_p2_first_five
* C117_variance
* C118_groups
* C119_first_takes_all
* C120_never_back
* C120_never_back_below
* C120_outlier_moves_median
* C120_outlier_unbounded
* C121_mad_only_the_side_counts
* C121_only_the_side_counts
* C122_mean
* C122_p2_five
* C127_iqr_calm
* C127_iqr_range
* C127_windowed_p2_calm
* C127_windowed_p2_range
* C127_windowed_p2_range_reached
* C128_iqr
* C128_windowed_p2
* C14_exact_meaning
* C16_less_monotone_exact
* C16_less_transitive_exact
* C18_sum_hull_exact
* C19_equality_and_order_exact
* C23_sliding_corrupts_counts
* C24_bins_well_formed
* C26_separated_data
* C27_cdf_running_sums
* C27_masses_sum_to_one
* C27_pdf_entries
* C27_pdf_nonnegative
* C28_binsearch_insertion_point
* C29_merge_closest_pair
* C30_quantile_value
* C31_single_value_stream
* C33_report_one_entry_per_bin
* C36_mean_is_window_average
* C39_variance_is_population_variance
* C43_p2_positions_exact
* C49_wp2_weights
* C53_fame_moves_one_step
* C54_fame_range_exact
* C56_mad_multiple_of_step
* C56_mad_nonnegative_exact
* C64_p2_published
* C69_merged_counts_exact
* C70_cdf_is_empirical_distribution
* C71_quantile_bracket
* C71_quantile_inverts_cdf
* C72_quantile_of_skewed_data
* C72_quantile_unbounded_refuted
* C76_fame_converges
* C76_fame_rate
* C78_iqr_affine
* C78_p2_affine
* C78_p2_affine_small_refuted
* C78_windowed_p2_affine
* C79_hist_scale
* C79_hist_scale_counts
* C79_hist_shift_refuted
* C79_quantile_scale
* C79_quantile_scale_refuted
* C80_entropy_scale
* C81_fame_scale
* C82_mad_negate
* C82_mad_scale_refuted
* C82_mad_speed_limit
* C85_p2_tight
* C85_p2_tracks_exact
* C86_p2_ramp
* C87_fame_balance
* C87_fame_median
* C88_fame_median_refuted
* C92_twice_the_window_exact
* C93_mass_after_reset
* C93_reset_shortens_window_exact
* C94_fame_follows_limits
* C94_fame_settles
* C94_fame_settles_growing
* C94_mad_settles
* C94_mad_vanishes
