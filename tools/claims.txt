C01|proved|C01_track_rows C01_routine_rows|for every start profile track accepts, and for every start profile of the C++ routine behind it; any number type
C02|proved|C02_start_independent C02_track_start_independent C02_one_turn|needs subtraction to undo addition (true in Q, Z, R; not in floating point)
C03|partial|C03_last_profile_refuted C03_accepted_partial C03_accepted_deltaturn_partial|false: the last profile is always rejected; the exact accepted set is proved
C04|partial|C04_deltaturn_partial C04_later_rows_partial C04_positive_deltaturn_rows C04_positive_deltaturn_refuted|true for deltaturn<=0; false for every deltaturn>0, where the exact contents of the rows are proved
C05|partial|C05_hybrid_eq_cpp_partial C05_hybrid_eq_cpp_deltaturn_partial C05_hybrid_positive_deltaturn_refuted|true for deltaturn<=0; false for deltaturn>0
C06|proved|C06_gpu_eq_cpu|every grid order; phi12 as array
C07|partial|C07_in_bounds C07_scalar_phi12_refuted C07_scalar_phi12_gpu|true for phi12 as array; false for phi12 as one number (universal over-read)
C08|partial|C08_callback_partial C08_callback_deltaturn_partial C08_callback_deltaturn_refuted|true for deltaturn 0; every other deltaturn never reports completion or overshoots
C09|proved|C09_particles_independent C09_permuted|
C44|proved|C44_index_wrap C44_index_nowrap|
C18|partial|C18_rows_normalised_partial C18_constructor_outcome_partial C18_empty_profile_refuted|exact outcome of the constructor; false when one profile among others is empty: division by zero instead of an exception
C19|partial|C19_failed_assignment C19_history_consistent C19_yp_shape_partial C19_stale_yp_refuted|over every history of assignments; false for yp after a new xp
C20|proved|C20_weights|every reachable object, any sqrt
C21|proved|C21_recreated C21_recreated_hybrid|
C22|partial|C22_projection_partial C22_projection_hybrid C22_mixture_partial C22_projection_refuted|true for run_hybrid and for run without iterations; false for run with iterations, where the exact mixture is proved
C23|partial|C23_agree_partial C23_agree_refuted|agree for 0 iterations, weights agree for 1; false beyond
C24|proved|C24_raises_iff C24_initial|
C25|proved|C25_permutation|
C26|proved|C26_scale_invariant|
C27|partial|C27_fixed_point_run_partial C27_fixed_point_hybrid C27_zero_discrepancy C27_fixed_point_refuted|true for run_hybrid and for run from the start; false for run once iterations were made
C28|proved|C28_no_charge|
C29|proved|C29_adjoint|
C30|proved|C30_flat_addressing|
C31|proved|C31_compensation|
C32|proved|C32_callback|
C14|partial|C14_filter_lost_partial C14_nan_refuted|exact for finite and infinite coordinates; false for not-a-number coordinates, which are kept
C15|partial|C15_ready_partial C15_nan_refuted|accepted and stored unchanged for every waterfall, without not-a-number positions; false with them
C16|proved|C16_bins_roundtrip C16_physical_roundtrip C16_accepted|at the turn of a profile (deltaturn 0); exact arithmetic
C17|partial|C17_homogeneous_partial C17_cell_points C17_physical C17_imax_refuted|for limits with imax < number of bins; a limit equal to the number of bins, accepted by the checks, raises IndexError
C34|partial|C34_image_partial C34_conserved_partial C34_spill_partial C34_outside_refuted C34_negative_refuted|exact inside the image, CPU and GPU; coordinates above are not always reported, below the image memory before the array is written
C35|proved|C35_image C35_after_run C35_zero_refuted C35_density_to_macro_refuted|weights of any sign with positive sum, particles inside the image
C36|partial|C36_divisible C36_remainder_partial C36_total_iff C36_total_refuted C36_constant C36_time C36_one C36_compose|Everything is proved when r divides the number of bins. With left-over bins the exact result is proved, and that the total of a profile is in general not kept (refuted).
C37|proved|C37_cuts C37_tight C37_cut_waterfall|Exact numbers; rounding of the steps is not modelled.
C38|partial|C38_filter_partial C38_rec_prof_partial C38_rec_prof_refuted C38_rec_prof_rejected_refuted|Selection of frames proved. The returned reconstruction index is right only if no frame at or after it is removed; refuted otherwise.
C39|proved|C39_accepted C39_cells|
C40|partial|C40_mean_partial C40_shift C40_invariant C40_empty_refuted|Fewer than 1/percent bins: the mean of no bins is taken (refuted).
C41|partial|C41_tangent_partial C41_bin0_refuted|Bin 0 is never looked at, so a profile with only bin 0 low on the left fails (refuted).
C49|partial|C49_synch_y C49_waterfall_partial C49_atomic_refuted|A waterfall without positive element is refused but stored (refuted).
C33|partial|C33_outcome_partial C33_cuts C33_one_bunch C33_split_value_partial C33_hybrid_split C33_hybrid_outcome C33_some_bunch_refuted C33_bounds_refuted C33_split_refuted C33_same_particles_refuted C33_hybrid_count_refuted|Holds: only particles inside the cuts get weight, one bunch equals the single-bunch run, run_hybrid reports the RMS inside the cuts. False: success depends on the first bunch alone, ordinary centres leave the arrays, the per-bunch figure of run is not the RMS inside the cuts, run and run_hybrid treat the edge of a cut differently, run_hybrid counts particles in a transposed table.
C42|proved|C42_lines C42_wrong_length|The machine and frames are returned exactly when every setting is the one on its documented line.
C43|partial|C43_accepted C43_runs_partial C43_usable_refuted C43_not_a_number_refuted|Proved for frame numbers inside the profiles and a positive film step. assert_machine_input checks neither (refuted), and lets a not-a-number through.
C56|partial|C56_stdin C56_split C56_pipe_refuted|Exact reading and splitting proved. A data file whose path contains the letters pipe makes the reader consume extra lines (refuted).
C11|proved|C11_area C11_area_deltaturn|Real arithmetic. The tangent map of the tracking map has determinant 1 at every point, for every machine, start profile and target profile, also with negative deltaturn.
C12|partial|C12_synchronous_partial C12_synchronous_refuted|Holds between profiles not before the machine reference frame, so for all profiles if it is the first. False otherwise: deltaE0 is shifted by one turn before the reference turn and 0 at it.
C45|partial|C45_turns C45_synchronous_phase C45_derived C45_energy_gain_partial C45_energy_gain_refuted|Energies, times, phases and derived arrays proved for every reference frame. deltaE0[i] = e0[i]-e0[i-1] is proved after the reference turn and false up to it.
C46|partial|C46_rf_voltage C46_machine C46_phase_low_partial C46_phase_low_refuted|Voltage derivatives proved. dphase_low is the derivative of phase_low only if the voltages at the turn and at the index machine_ref_frame agree.
C47|partial|C47_energy C47_beta C47_turns C47_dpp C47_charge_zero_refuted|Proved for every machine for which the values at all turns are finite. Charge 0 is accepted by the input checks and gives speed 0.
C13|partial|C13_rows_partial C13_routine_rows C13_no_field C13_one_turn_partial C13_bounds_partial C13_reversible_refuted C13_deltaturn_refuted C13_bounds_refuted|Every row is the path of the particles turn by turn if the window fits at every turn. Proved false: backward undoes forward (the voltage is added both ways, from neighbouring cells), deltaturn is honoured, indices stay in range when the revolution frequency rises.
C50|partial|C50_window C50_covers_partial C50_covers_refuted C50_table C50_coefficient|Window and table proved for the turn the window is made with. With a rising field that turn is the last but one, so the image of the last profile can be longer than the window.
C10|partial|C10_race_free C10_terminates C10_tracking C10_drift C10_kick C10_back_project C10_normalize C10_normalize_sum C10_zeros_to_ones C10_reconstruct_partial C10_reciprocal_partial C10_reciprocal_refuted C10_reciprocal_multi_refuted C10_count_multi_refuted C10_mask_refuted C10_back_project_multi_refuted C10_project_multi_refuted C10_discrepancy_multi_refuted|Proved for all loops of the tracking and, given the reciprocals, of the single-bunch reconstruction. Proved false for the loops with shared variables or shared sums: the reciprocals, and six loops of the multi-bunch reconstruction.
C48|partial|C48_usable_partial C48_inside_or_refused C48_usable_refuted C48_found C48_below_trajectories C48_largest C48_height C48_origin C48_energy_scale C48_symmetric_partial C48_symmetric_refuted C48_shifted C48_time_partial C48_time_refuted C48_full_image|The limits are inside the image and usable unless the full image is asked for with a last time beyond the image (refuted there). Symmetry fails where the area reaches the top of the image, for the full image and whenever the limits in time take effect; the last time can be exceeded by one bin (both refuted, guarded versions proved).
C51|partial|C51_names C51_selects C51_cast C51_precision_partial C51_same_kernels C51_reload C51_device_partial C51_first_device C51_stuck C51_precision_refuted C51_failed_change_refuted C51_device_refuted|The names in use always belong to the selected device (proved for every history, failing calls included). The kernels have the selected precision unless it was changed on the CPU after the GPU had been used, or the change raised (both refuted); the device number counts only in the first call of use_gpu (refuted), and a first call that fails can never be repaired (C51_stuck).
C52|partial|C52_std_value C52_std_partial C52_std_refuted C52_shift_refuted C52_fractional_partial C52_fractional_refuted C52_fraction_range C52_fractional_invariant C52_fractional_monotone C52_post_process C52_defined|The histogram's value is the standard deviation only under the conditions of C52_std_partial and depends on where the axis starts (refuted); the emittance of a fraction counts one cell less than the smallest set that holds it (refuted, C52_fractional_partial gives the exact number).
C53|partial|C53_defined C53_bounds C53_square_only_refuted C53_unnormalised_refuted|Proved for every square normalised image with no negative pixel. Images that are not square are always refused by numpy's broadcasting, and without normalisation the radicand can be negative.
C54|partial|C54_fit_partial C54_feet_refuted C54_dq C54_no_edge C54_dq_too_long|foot_tangent_fit_dq returns the zeros of the lines exactly (C54_dq). foot_tangent_fit does not: its left foot is half a bin too low and its right foot too high (C54_feet_refuted), C54_fit_partial gives the values.
C57|proved|C57_target C57_bounds C57_monotone C57_invariant C57_cells C57_level C57_density_range C57_density_invariant C57_density_value|The emittance of a fraction held by the k largest cells is that of k - 1 cells, as the statement says.
C55|partial|C55_paths C55_same_paths C55_kept C55_difference_partial C55_difference_refuted|Different kinds and indices always have different paths and every saved file is kept (proved for all indices). The two writers of the discrepancy file write the same text for at most 100 iterations and never for more (refuted).
C58|proved|C58_profile C58_no_profile C58_image C58_self_fields C58_difference C58_tomoscope_image|Exact numbers; infinities, not-a-number and the negative zero are not modelled.
C59|proved|C59_refused C59_says C59_status|Exact numbers, as for C58.
C60|proved|C60_same_values C60_terminates C60_no_coordinates|Every interleaving of the memory accesses of all threads, atomic additions included. Exact numbers: with rounding the order of the atomic additions may change the last digits. The block reduction of the CUB library is modelled by the sum it documents. At least one particle: with none CUDA refuses the launch.
C61|partial|C61_same_attributes_partial C61_shape_refuted C61_callback_refuted|Weights, discrepancies and the elements of recreated agree (proved); recreated has one dimension instead of two and the callback is never called on the GPU (refuted, for every successful run).
C62|partial|C62_cupy_partial C62_few_particles_refuted|Holds with at least as many particles as bins; refuted with fewer: the maximum is taken over too few bins.
C63|proved|C63_cupy_tracking|For any numbers and any sine; phi12 is the array the routine builds.
C64|partial|C64_turns_partial C64_voltages C64_first_refuted C64_length_refuted C64_lead_refuted|Voltages, order and spacing of the turns and momenta proved when enough revolutions lie before t_ref; refuted: the momentum of the first turn of the program, the number of turns (one may be missing without an error) and the reference turn when fewer revolutions lie before t_ref.
C65|proved|C65_ends C65_enough C65_built|The loops carry fuel; ends says that some amount is enough and that more does not change the result. built is without phase programs, C67 covers the phases.
C66|partial|C66_values_partial C66_gain_refuted C66_time_refuted C66_harmonic_refuted C66_tracking_refuted|Refuted: the energy differences are one short and belong to the next turn, the time steps are revolutions of the later turn, the drift coefficient ignores the harmonics passed, and with dturns = 1 no such machine can be tracked.
C67|partial|C67_synchronous C67_search C67_open C67_phases C67_phi12_refuted|scipy's newton is a parameter that returns roots or fails. Refuted: phi12 as a number or as an array never gives a machine.
C68|proved|C68_derivative C68_field|Exact real numbers.
C69|partial|C69_double_partial C69_sine_partial C69_exact_partial C69_odd C69_large_refuted|Proved up to phases of 1.68e9; refuted beyond 1.69e9, where the conversion to int overflows. Rounding after every operation in source order; the project is compiled with -ffast-math, which lets the compiler change the order.
C70|partial|C70_single_partial C70_sine_partial C70_odd C70_large_refuted|Proved up to phases of 10000; refuted beyond 1.69e9, where the conversion to int overflows.
C71|proved|C71_tracking_error|The bounds are on the machine parameters and on the computed phases and energies. The statement is on track without deltaturn; C01 describes the rows.
C72|partial|C72_feet C72_straight C72_scale C72_potential C72_balance_partial C72_symmetric C72_balance_refuted|The voltages are looked up at the number of the reference frame instead of the turn: with more than one turn per frame and changing voltages the feet are not at the same potential (refuted). Proved where these voltages are equal. scipy.optimize.newton is a parameter.
C73|partial|C73_charge C73_rebin_partial C73_rebin_refuted|The charge changes if bins are left over by the rebinning (refuted); proved for a divisor of the number of bins.
C74|proved|C74_image C74_particles C74_synchronous|For values at each turn and an area of the right shape (every_turn, near_image: C45 and C48 are about the functions that give them). The phase of the second harmonic behind the end of the array (F2) is a parameter.
C75|proved|C75_offset|
C76|proved|C76_scale|The fit of the synchronous bin must not depend on the gain; it does not by C72_scale.
C77|partial|C77_self_field_refuted|Refuted: the flag has no effect at all. No theorem holds of the full statement.
C78|proved|C78_no_bad_access|The functions on one value (int, float, values at each turn, fit, limits) are parameters that do not access anything else. The read behind the end of phi12 (C07) is modelled as an arbitrary number.
C79|partial|C79_shortcuts C79_default_refuted|The default reconstruction_idx of shortcuts.track is never accepted (refuted).
C80|partial|C80_default C80_from_the_end C80_area C80_last_refuted|The last profile cannot be chosen (refuted, see C03).
C81|proved|C81_finite C81_profiles C81_exact|Sizes such that (2^e)^5 fits the format, e.g. a million particles in single precision. Contraction to fused multiply-add is not modelled.
C82|proved|C82_reproducible|The order of the sums inside one thread is fixed by the compiled program and the same in both runs.
C83|proved|C83_blank C83_unseen|With iterations left a run of which some particle sees charge may still be refused when all weights are compensated away.
C84|proved|C84_normalized|
C85|partial|C85_area C85_trajectory C85_interp C85_below_refuted|Proved above transition without acceleration; that the trajectory has the length of the bunch needs an ideal minimiser (scipy's Powell is not proved to be one) and a bunch between one grid step and the bucket. Below transition the area has a small bound independent of the bunch length, if the minimiser returns a level above the first grid step and interp clamps on unsorted arrays (refuted, F62). Acceleration is not covered.
C86|partial|C86_nested C86_emittance C86_below_contour_refuted C86_below_refuted C86_below_clip_refuted C86_accelerated_refuted|Proved above transition without acceleration. Below transition all contours are the edge of the bucket (F75). With acceleration above transition the scan goes on below the lowest level of the bucket (F76).
C87|partial|C87_spread C87_fraction C87_growing C87_refused C87_value C87_local C87_fraction_refuted|Fraction: the energy axis has equal steps and reaches as far up as down, otherwise it can exceed 1 (refuted, F63). Growth: in addition above transition without acceleration. The range of the local density holds for every result.
C88|partial|C88_clip C88_contour C88_marked C88_late C88_refused C88_extremes C88_trajectory|Proved for particles within the time axis, with the height of the contour at the start of the slot; particles outside the time axis keep their weight whatever their energy (C88_late, F64). A slot with exactly one particle inside gives no result. The factor is at least 1 for weights that are not negative and not all zero.
C89|partial|C89_same C89_refused C89_overflow C89_objects C89_refuted|Equal to the reconstruction with integers when the numbers of discrepancies, of pixels of the waterfall and of coordinates are below 2^31; otherwise undefined behaviour (refuted, F65). CPU, single bunch.
C90|partial|C90_same C90_refused C90_refuted|Equal when turns plus one more profile, and the coordinates before the last profile, are below 2^31; with more coordinates undefined behaviour (refuted, F66). CPU without self-fields. More turns or particles than an int counts are refused with a TypeError.
C91|partial|C91_same C91_refuted C91_far_refuted C91_many_refuted|Equal for coordinates inside and fewer than 2^31 pixels and particles; from 46341 bins on undefined behaviour, a far coordinate overflows instead of raising, a multiple of 2^32 particles gives a blank image (refuted, F67).
C92|partial|C92_counts C92_exact_partial C92_refuted C92_compensation|The count is exact up to the largest integer M up to which all are exact (2^24, 2^53) and stays there for more particles (refuted, F68).
C93|partial|C93_synchronous_partial C93_second_partial C93_defined C93_found C93_modes_refuted C93_charge_refuted C93_above_refuted|Positive charge, below transition; mode 2 for integer ratios. The modes 0 and 1 give the same phases, which always lower the slope; the sign of the charge and transition are ignored (refuted, F69-F71).
C94|partial|C94_keywords_partial C94_times C94_positional C94_order C94_unknown_refuted|Unknown keywords are ignored without notice (refuted, F72). Other values than None, truth values and numbers are not looked into.
C95|partial|C95_accepted_iff C95_current_partial C95_refused C95_stale_refuted C95_frame_refuted C95_failed_refuted C95_longer_refuted|Holds directly after a successful calculation. A tracker is accepted whenever some earlier calculation succeeded: with values of old settings, of a failed calculation, or too short for the profiles, which are then read past their end (refuted, F73).
C96|partial|C96_enabled_iff C96_never_negative C96_current_partial C96_origin C96_refused C96_never_disabled C96_stale_refuted C96_filter_refuted C96_window_refuted|Holds directly after a successful calculation. Fields of old profiles or machines are enabled without notice, a refused filter replaces the filtered profiles, a failed calculation leaves a new window with old fields (refuted, F74).
C97|proved|C97_prefix_run C97_failure_run C97_prefix_hybrid C97_failure_hybrid|
C98|proved|C98_profile_order_run C98_profile_order_hybrid|Exact arithmetic.
C99|proved|C99_bin_order_run C99_bin_order_hybrid|Exact arithmetic.
C100|partial|C100_copies_hybrid C100_copies_run_partial C100_copies_refuted|True for run_hybrid and for run without iterations; false for run with iterations (F77).
C101|proved|C101_bounds_run C101_bounds_hybrid|
C102|partial|C102_never_worse_refuted C27_fixed_point_hybrid|Refuted for run and run_hybrid (F78). In run_hybrid an exact recreation stays exact (C27).
C103|partial|C103_double C103_single_partial C103_single_zeros C103_single_refuted|True in double precision, and in single precision if the ratio of harmonics is a Python float and phi12 a Python float or a contiguous float32 array (arrays of at least two elements). If phi12 or the ratio is of another kind in single precision track returns zeros or fails (F79).
C104|partial|C104_untracked C104_outside C104_missing C104_refuted|Refuted: the function tracks nothing (F33). The refusal of incomplete arguments is proved.
C105|partial|C105_arguments C105_initial C105_particles C105_particles_refuted|The user's arrays and init_dphi, init_denergy are as stated; the particles object is overwritten (F80).
C106|partial|C106_drift C106_kick C106_phi12_refuted|Values and arrays changed are proved for turns within the arrays and phi12 a number; an array phi12 is refused (F82).
C107|partial|C107_partial C107_refuted C107_phi12_refuted|Tracked coordinates proved for offsets in (-dturns, 0], one number as phi12 and arrays of phases, energies and machine parameters that are different ones. No other array changes, but contiguous arrays of doubles given as coordinates are overwritten (F81), and an array phi12 is refused (F82).
C108|partial|C108_counts C108_single_refuted C108_keywords_refuted|Counts and arrays changed are proved for calls by position, arithmetic being exact. Counters in single precision are not updated when the positions are not contiguous 32-bit integers (F83), and the names of the numbers of particles and profiles are exchanged (F35).
C109|partial|C109_back_project C109_project C109_shape_refuted|Values and arrays changed are proved for calls by position, arithmetic being exact, for an array written to that is none of those read. A flat array given to project stays flat (F84).
C110|partial|C110_reconstruct C110_single_refuted|Values, shapes, types and arrays changed are proved, arithmetic being exact and the calls of the callback left out. The results are in double precision for a waterfall in single precision when the positions are not contiguous 32-bit integers (F83).
C111|partial|C111_construct C111_run C111_layout_refuted|Proved on the CPU with exact arithmetic after the cast to the selected precision, without y-coordinates. In single precision the results are in double precision for a waterfall that is not stored row by row, such as a transposed array (F85).
C112|partial|C112_image C112_density C112_single_refuted C112_created|Proved on the CPU with exact arithmetic, for particles inside the image (outside it see C34). The density of phase_space is in double precision for a run in single precision, as the column of the positions is not contiguous (F86); create_phase_space_image keeps single precision.
C113|partial|C113_run C113_lists_refuted C113_returned_refuted|Proved on the CPU with exact arithmetic after the cast to the selected precision, without y-coordinates and the calls of the callback; what the results are is C33. In single precision the results are in double precision when the centres or cuts are lists (F87). run returns None and does not set weight, against its documentation (F88).
C114|partial|C114_counts C114_single_refuted C114_keywords_refuted|Values and arrays changed are proved for calls by position, arithmetic being exact and the loops running on one thread (on several see C10). Counters in single precision are not updated when the positions or centres are not contiguous 32-bit integers, such as a list of centres (F83). Called by name the numbers of particles and profiles are exchanged (F89).
C115|partial|C115_run C115_shape C115_single_refuted|Proved on the CPU with exact arithmetic after the cast to the selected precision, without y-coordinates, for indices of the flat waterfall that fit 32 bits; what the results are is C23. The results are in double precision also if single precision is selected (F90).
C116|partial|C116_back_project C116_project C116_reconstruct C116_moved_refuted|Proved for back_project, project and reconstruct, with exact arithmetic, on one thread; kick and drift are C117, kick_and_drift is C104. The functions named by the warning refuse the names of the kept ones (F91).
C117|proved|C117_drift C117_kick|On one thread; the direction is a bool. The operations of the arithmetic are parameters, so the theorems hold for rounded arithmetic too.
