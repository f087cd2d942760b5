# What `Print Assumptions` lists for each property theorem

Generated by `tools/assumptions.py`. All axioms are those of the standard library of Coq.

## No axioms (283 theorems)

* PropsBind: C103_double, C103_single_partial, C103_single_zeros, C103_single_refuted, C104_untracked, C104_outside, C104_missing, C104_refuted, C105_arguments, C105_initial, C105_particles, C105_particles_refuted
* PropsCalls: C108_counts, C108_single_refuted, C108_keywords_refuted, C109_back_project, C109_project, C109_shape_refuted, C110_reconstruct, C110_single_refuted
* PropsConfig: C51_names, C51_selects, C51_precision_partial, C51_same_kernels, C51_reload, C51_first_device, C51_device_partial, C51_stuck, C51_cast, C51_precision_refuted, C51_failed_change_refuted, C51_device_refuted
* PropsCountCalls: C114_counts, C114_single_refuted, C114_keywords_refuted
* PropsFields: C96_refused, C96_filter_refuted
* PropsFit: C72_feet, C72_straight, C73_charge, C73_rebin_partial, C73_rebin_refuted
* PropsFloat: C81_exact
* PropsFoot: C54_fit_partial, C54_feet_refuted, C54_dq, C54_no_edge, C54_dq_too_long, C57_target, C57_bounds, C57_monotone, C57_invariant, C57_cells, C57_level, C57_density_range, C57_density_invariant, C57_density_value
* PropsGpu: C60_same_values, C60_terminates, C60_no_coordinates, C61_same_attributes_partial, C61_shape_refuted, C61_callback_refuted, C62_cupy_partial, C62_few_particles_refuted, C63_cupy_tracking
* PropsHybridCalls: C115_run, C115_shape, C115_single_refuted
* PropsImage: C34_image_partial, C34_conserved_partial, C34_spill_partial, C34_outside_refuted, C34_negative_refuted, C35_image, C35_after_run, C35_zero_refuted, C35_density_to_macro_refuted
* PropsImageCalls: C112_image, C112_density, C112_single_refuted, C112_created
* PropsInput: C43_accepted, C43_runs_partial, C43_usable_refuted, C43_not_a_number_refuted, C42_wrong_length, C42_lines, C56_stdin, C56_split, C56_pipe_refuted
* PropsInt: C89_same, C89_refused, C89_overflow, C89_objects, C89_refuted, C90_same, C90_refused, C90_refuted, C91_same, C91_refuted, C91_far_refuted, C91_many_refuted
* PropsMulti: C33_outcome_partial, C33_cuts, C33_some_bunch_refuted, C33_bounds_refuted, C33_one_bunch, C33_split_value_partial, C33_split_refuted, C33_hybrid_split, C33_same_particles_refuted, C33_hybrid_count_refuted, C33_hybrid_outcome
* PropsMultiCalls: C113_run, C113_lists_refuted, C113_returned_refuted
* PropsOldCalls: C116_back_project, C116_project, C116_reconstruct, C116_moved_refuted
* PropsOldSteps: C117_drift, C117_kick
* PropsOmp: C10_race_free, C10_terminates, C10_tracking, C10_drift, C10_kick, C10_back_project, C10_normalize_sum, C10_normalize, C10_reconstruct_partial, C10_zeros_to_ones, C10_reciprocal_partial, C10_reciprocal_refuted, C10_reciprocal_multi_refuted, C10_count_multi_refuted, C10_mask_refuted, C10_back_project_multi_refuted, C10_project_multi_refuted, C10_discrepancy_multi_refuted
* PropsOutput: C55_paths, C55_same_paths, C55_kept, C55_difference_partial, C55_difference_refuted, C58_profile, C58_no_profile, C58_image, C58_self_fields, C58_difference, C58_tomoscope_image, C59_refused, C59_says, C59_status
* PropsParticles: C14_filter_lost_partial, C14_nan_refuted, C15_ready_partial, C15_nan_refuted, C16_bins_roundtrip, C16_physical_roundtrip, C16_accepted, C17_homogeneous_partial, C17_cell_points, C17_physical, C17_imax_refuted
* PropsPreproc: C36_divisible, C36_remainder_partial, C36_total_iff, C36_total_refuted, C36_constant, C36_time, C36_one, C36_compose, C37_cuts, C37_tight, C37_cut_waterfall, C38_filter_partial, C38_rec_prof_partial, C38_rec_prof_refuted, C38_rec_prof_rejected_refuted, C39_accepted, C39_cells, C40_mean_partial, C40_empty_refuted, C40_shift, C40_invariant, C41_tangent_partial, C41_bin0_refuted, C49_synch_y, C49_waterfall_partial, C49_atomic_refuted
* PropsRecon: C18_rows_normalised_partial, C18_constructor_outcome_partial, C18_empty_profile_refuted, C19_failed_assignment, C19_history_consistent, C19_yp_shape_partial, C19_stale_yp_refuted, C20_weights, C21_recreated, C21_recreated_hybrid, C22_projection_partial, C22_projection_hybrid, C22_mixture_partial, C22_projection_refuted, C23_agree_partial, C23_agree_refuted, C24_raises_iff, C24_initial, C25_permutation, C26_scale_invariant, C27_fixed_point_run_partial, C27_fixed_point_hybrid, C27_zero_discrepancy, C27_fixed_point_refuted, C28_no_charge, C29_adjoint, C30_flat_addressing, C31_compensation, C32_callback
* PropsRun: C74_image, C74_synchronous, C74_particles, C75_offset, C76_scale, C77_self_field_refuted, C78_no_bad_access, C79_shortcuts, C79_default_refuted, C80_default, C80_from_the_end, C80_last_refuted, C80_area
* PropsSteps: C106_drift, C106_kick, C106_phi12_refuted, C107_partial, C107_refuted, C107_phi12_refuted
* PropsSym: C97_prefix_run, C97_failure_run, C97_prefix_hybrid, C97_failure_hybrid, C98_profile_order_run, C98_profile_order_hybrid, C99_bin_order_run, C99_bin_order_hybrid, C100_copies_hybrid, C100_copies_run_partial, C100_copies_refuted, C101_bounds_run, C101_bounds_hybrid, C102_never_worse_refuted
* PropsTomoCalls: C111_construct, C111_run, C111_layout_refuted
* PropsTrack: C01_track_rows, C01_routine_rows, C02_start_independent, C02_track_start_independent, C02_one_turn, C03_last_profile_refuted, C03_accepted_partial, C03_accepted_deltaturn_partial, C04_deltaturn_partial, C04_later_rows_partial, C04_positive_deltaturn_rows, C04_positive_deltaturn_refuted, C05_hybrid_eq_cpp_partial, C05_hybrid_eq_cpp_deltaturn_partial, C05_hybrid_positive_deltaturn_refuted, C06_gpu_eq_cpu, C07_in_bounds, C07_scalar_phi12_refuted, C07_scalar_phi12_gpu, C08_callback_partial, C08_callback_deltaturn_partial, C08_callback_deltaturn_refuted, C09_particles_independent, C09_permuted, C44_index_wrap, C44_index_nowrap

## `ClassicalDedekindReals.sig_forall_dec`, `FunctionalExtensionality.functional_extensionality_dep` (22 theorems)

* PropsArea: C85_interp
* PropsFields: C96_enabled_iff, C96_current_partial, C96_origin, C96_never_disabled, C96_never_negative, C96_stale_refuted, C96_window_refuted
* PropsObjects: C94_keywords_partial, C94_times, C94_positional, C94_order, C94_unknown_refuted
* PropsPost: C52_fractional_partial, C52_fractional_refuted, C52_fraction_range, C52_fractional_invariant, C52_fractional_monotone
* PropsPrograms: C68_derivative
* PropsSelf: C50_table
* PropsSin: C69_odd, C70_odd

## `ClassicalDedekindReals.sig_forall_dec`, `ClassicalDedekindReals.sig_not_dec`, `FunctionalExtensionality.functional_extensionality_dep` (112 theorems)

* PropsArea: C85_below_refuted
* PropsArea2: C86_nested, C86_emittance, C87_spread, C87_fraction, C87_growing, C87_refused, C88_clip, C88_contour, C88_marked, C88_late, C88_refused, C87_fraction_refuted
* PropsArea3: C88_extremes, C88_trajectory
* PropsArea4: C86_below_contour_refuted, C86_below_refuted, C86_below_clip_refuted
* PropsCount: C92_counts, C92_exact_partial, C92_refuted, C92_compensation
* PropsFit: C72_scale, C72_potential, C72_balance_partial, C72_symmetric
* PropsFloat: C81_finite, C81_profiles, C82_reproducible, C83_blank, C83_unseen, C84_normalized
* PropsHistory: C95_accepted_iff, C95_current_partial, C95_refused, C95_stale_refuted, C95_frame_refuted, C95_failed_refuted, C95_longer_refuted
* PropsLimits: C48_height, C48_origin, C48_energy_scale, C48_usable_partial, C48_inside_or_refused, C48_below_trajectories, C48_largest, C48_symmetric_partial, C48_shifted, C48_time_partial, C48_full_image, C48_found, C48_usable_refuted, C48_symmetric_refuted, C48_time_refuted
* PropsMachine: C45_turns, C45_synchronous_phase, C45_derived, C45_energy_gain_partial, C45_energy_gain_refuted, C12_synchronous_partial, C12_synchronous_refuted, C11_area, C11_area_deltaturn, C46_rf_voltage, C46_machine, C46_phase_low_partial, C46_phase_low_refuted, C47_energy, C47_beta, C47_turns, C47_charge_zero_refuted
* PropsPost: C52_std_value, C52_std_partial, C52_std_refuted, C52_shift_refuted, C52_post_process, C52_defined, C47_dpp, C53_defined, C53_bounds, C53_square_only_refuted, C53_unnormalised_refuted
* PropsPrograms: C64_turns_partial, C65_ends, C65_enough, C66_values_partial, C67_synchronous, C67_search, C67_open, C67_phi12_refuted, C64_voltages, C67_phases, C68_field, C65_built, C64_length_refuted, C64_first_refuted, C64_lead_refuted, C66_gain_refuted, C66_time_refuted, C66_harmonic_refuted, C66_tracking_refuted
* PropsSelf: C13_rows_partial, C13_routine_rows, C13_no_field, C13_one_turn_partial, C13_reversible_refuted, C13_bounds_partial, C13_bounds_refuted, C50_window, C50_covers_partial, C50_covers_refuted, C50_coefficient

## `ClassicalDedekindReals.sig_forall_dec`, `ClassicalDedekindReals.sig_not_dec`, `Classical_Prop.classic`, `FunctionalExtensionality.functional_extensionality_dep` (22 theorems)

* PropsArea: C85_area, C85_trajectory
* PropsArea3: C87_value, C87_local
* PropsArea4: C86_accelerated_refuted
* PropsFit: C72_balance_refuted
* PropsPhi12: C93_synchronous_partial, C93_second_partial, C93_defined, C93_modes_refuted, C93_charge_refuted, C93_above_refuted, C93_found
* PropsSelf: C13_deltaturn_refuted
* PropsSin: C69_double_partial, C69_sine_partial, C69_exact_partial, C69_large_refuted, C70_single_partial, C70_sine_partial, C70_large_refuted, C71_tracking_error
