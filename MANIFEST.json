{
 "claims": [
  {
   "property": "C01",
   "status": "proved",
   "theorems": [
    "C01_track_rows",
    "C01_routine_rows"
   ],
   "note": "for every start profile track accepts, and for every start profile of the C++ routine behind it; any number type"
  },
  {
   "property": "C02",
   "status": "proved",
   "theorems": [
    "C02_start_independent",
    "C02_track_start_independent",
    "C02_one_turn"
   ],
   "note": "needs subtraction to undo addition (true in Q, Z, R; not in floating point)"
  },
  {
   "property": "C03",
   "status": "partial",
   "theorems": [
    "C03_last_profile_refuted",
    "C03_accepted_partial",
    "C03_accepted_deltaturn_partial"
   ],
   "note": "false: the last profile is always rejected; the exact accepted set is proved"
  },
  {
   "property": "C04",
   "status": "partial",
   "theorems": [
    "C04_deltaturn_partial",
    "C04_later_rows_partial",
    "C04_positive_deltaturn_rows",
    "C04_positive_deltaturn_refuted"
   ],
   "note": "true for deltaturn<=0; false for every deltaturn>0, where the exact contents of the rows are proved"
  },
  {
   "property": "C05",
   "status": "partial",
   "theorems": [
    "C05_hybrid_eq_cpp_partial",
    "C05_hybrid_eq_cpp_deltaturn_partial",
    "C05_hybrid_positive_deltaturn_refuted"
   ],
   "note": "true for deltaturn<=0; false for deltaturn>0"
  },
  {
   "property": "C06",
   "status": "proved",
   "theorems": [
    "C06_gpu_eq_cpu"
   ],
   "note": "every grid order; phi12 as array"
  },
  {
   "property": "C07",
   "status": "partial",
   "theorems": [
    "C07_in_bounds",
    "C07_scalar_phi12_refuted",
    "C07_scalar_phi12_gpu"
   ],
   "note": "true for phi12 as array; false for phi12 as one number (universal over-read)"
  },
  {
   "property": "C08",
   "status": "partial",
   "theorems": [
    "C08_callback_partial",
    "C08_callback_deltaturn_partial",
    "C08_callback_deltaturn_refuted"
   ],
   "note": "true for deltaturn 0; every other deltaturn never reports completion or overshoots"
  },
  {
   "property": "C09",
   "status": "proved",
   "theorems": [
    "C09_particles_independent",
    "C09_permuted"
   ],
   "note": ""
  },
  {
   "property": "C44",
   "status": "proved",
   "theorems": [
    "C44_index_wrap",
    "C44_index_nowrap"
   ],
   "note": ""
  },
  {
   "property": "C18",
   "status": "partial",
   "theorems": [
    "C18_rows_normalised_partial",
    "C18_constructor_outcome_partial",
    "C18_empty_profile_refuted"
   ],
   "note": "exact outcome of the constructor; false when one profile among others is empty: division by zero instead of an exception"
  },
  {
   "property": "C19",
   "status": "partial",
   "theorems": [
    "C19_failed_assignment",
    "C19_history_consistent",
    "C19_yp_shape_partial",
    "C19_stale_yp_refuted"
   ],
   "note": "over every history of assignments; false for yp after a new xp"
  },
  {
   "property": "C20",
   "status": "proved",
   "theorems": [
    "C20_weights"
   ],
   "note": "every reachable object, any sqrt"
  },
  {
   "property": "C21",
   "status": "proved",
   "theorems": [
    "C21_recreated",
    "C21_recreated_hybrid"
   ],
   "note": ""
  },
  {
   "property": "C22",
   "status": "partial",
   "theorems": [
    "C22_projection_partial",
    "C22_projection_hybrid",
    "C22_mixture_partial",
    "C22_projection_refuted"
   ],
   "note": "true for run_hybrid and for run without iterations; false for run with iterations, where the exact mixture is proved"
  },
  {
   "property": "C23",
   "status": "partial",
   "theorems": [
    "C23_agree_partial",
    "C23_agree_refuted"
   ],
   "note": "agree for 0 iterations, weights agree for 1; false beyond"
  },
  {
   "property": "C24",
   "status": "proved",
   "theorems": [
    "C24_raises_iff",
    "C24_initial"
   ],
   "note": ""
  },
  {
   "property": "C25",
   "status": "proved",
   "theorems": [
    "C25_permutation"
   ],
   "note": ""
  },
  {
   "property": "C26",
   "status": "proved",
   "theorems": [
    "C26_scale_invariant"
   ],
   "note": ""
  },
  {
   "property": "C27",
   "status": "partial",
   "theorems": [
    "C27_fixed_point_run_partial",
    "C27_fixed_point_hybrid",
    "C27_zero_discrepancy",
    "C27_fixed_point_refuted"
   ],
   "note": "true for run_hybrid and for run from the start; false for run once iterations were made"
  },
  {
   "property": "C28",
   "status": "proved",
   "theorems": [
    "C28_no_charge"
   ],
   "note": ""
  },
  {
   "property": "C29",
   "status": "proved",
   "theorems": [
    "C29_adjoint"
   ],
   "note": ""
  },
  {
   "property": "C30",
   "status": "proved",
   "theorems": [
    "C30_flat_addressing"
   ],
   "note": ""
  },
  {
   "property": "C31",
   "status": "proved",
   "theorems": [
    "C31_compensation"
   ],
   "note": ""
  },
  {
   "property": "C32",
   "status": "proved",
   "theorems": [
    "C32_callback"
   ],
   "note": ""
  },
  {
   "property": "C14",
   "status": "partial",
   "theorems": [
    "C14_filter_lost_partial",
    "C14_nan_refuted"
   ],
   "note": "exact for finite and infinite coordinates; false for not-a-number coordinates, which are kept"
  },
  {
   "property": "C15",
   "status": "partial",
   "theorems": [
    "C15_ready_partial",
    "C15_nan_refuted"
   ],
   "note": "accepted and stored unchanged for every waterfall, without not-a-number positions; false with them"
  },
  {
   "property": "C16",
   "status": "proved",
   "theorems": [
    "C16_bins_roundtrip",
    "C16_physical_roundtrip",
    "C16_accepted"
   ],
   "note": "at the turn of a profile (deltaturn 0); exact arithmetic"
  },
  {
   "property": "C17",
   "status": "partial",
   "theorems": [
    "C17_homogeneous_partial",
    "C17_cell_points",
    "C17_physical",
    "C17_imax_refuted"
   ],
   "note": "for limits with imax < number of bins; a limit equal to the number of bins, accepted by the checks, raises IndexError"
  },
  {
   "property": "C34",
   "status": "partial",
   "theorems": [
    "C34_image_partial",
    "C34_conserved_partial",
    "C34_spill_partial",
    "C34_outside_refuted",
    "C34_negative_refuted"
   ],
   "note": "exact inside the image, CPU and GPU; coordinates above are not always reported, below the image memory before the array is written"
  },
  {
   "property": "C35",
   "status": "proved",
   "theorems": [
    "C35_image",
    "C35_after_run",
    "C35_zero_refuted",
    "C35_density_to_macro_refuted"
   ],
   "note": "weights of any sign with positive sum, particles inside the image"
  },
  {
   "property": "C36",
   "status": "partial",
   "theorems": [
    "C36_divisible",
    "C36_remainder_partial",
    "C36_total_iff",
    "C36_total_refuted",
    "C36_constant",
    "C36_time",
    "C36_one",
    "C36_compose"
   ],
   "note": "Everything is proved when r divides the number of bins. With left-over bins the exact result is proved, and that the total of a profile is in general not kept (refuted)."
  },
  {
   "property": "C37",
   "status": "proved",
   "theorems": [
    "C37_cuts",
    "C37_tight",
    "C37_cut_waterfall"
   ],
   "note": "Exact numbers; rounding of the steps is not modelled."
  },
  {
   "property": "C38",
   "status": "partial",
   "theorems": [
    "C38_filter_partial",
    "C38_rec_prof_partial",
    "C38_rec_prof_refuted",
    "C38_rec_prof_rejected_refuted"
   ],
   "note": "Selection of frames proved. The returned reconstruction index is right only if no frame at or after it is removed; refuted otherwise."
  },
  {
   "property": "C39",
   "status": "proved",
   "theorems": [
    "C39_accepted",
    "C39_cells"
   ],
   "note": ""
  },
  {
   "property": "C40",
   "status": "partial",
   "theorems": [
    "C40_mean_partial",
    "C40_shift",
    "C40_invariant",
    "C40_empty_refuted"
   ],
   "note": "Fewer than 1/percent bins: the mean of no bins is taken (refuted)."
  },
  {
   "property": "C41",
   "status": "partial",
   "theorems": [
    "C41_tangent_partial",
    "C41_bin0_refuted"
   ],
   "note": "Bin 0 is never looked at, so a profile with only bin 0 low on the left fails (refuted)."
  },
  {
   "property": "C49",
   "status": "partial",
   "theorems": [
    "C49_synch_y",
    "C49_waterfall_partial",
    "C49_atomic_refuted"
   ],
   "note": "A waterfall without positive element is refused but stored (refuted)."
  },
  {
   "property": "C33",
   "status": "partial",
   "theorems": [
    "C33_outcome_partial",
    "C33_cuts",
    "C33_one_bunch",
    "C33_split_value_partial",
    "C33_hybrid_split",
    "C33_hybrid_outcome",
    "C33_some_bunch_refuted",
    "C33_bounds_refuted",
    "C33_split_refuted",
    "C33_same_particles_refuted",
    "C33_hybrid_count_refuted"
   ],
   "note": "Holds: only particles inside the cuts get weight, one bunch equals the single-bunch run, run_hybrid reports the RMS inside the cuts. False: success depends on the first bunch alone, ordinary centres leave the arrays, the per-bunch figure of run is not the RMS inside the cuts, run and run_hybrid treat the edge of a cut differently, run_hybrid counts particles in a transposed table."
  },
  {
   "property": "C42",
   "status": "proved",
   "theorems": [
    "C42_lines",
    "C42_wrong_length"
   ],
   "note": "The machine and frames are returned exactly when every setting is the one on its documented line."
  },
  {
   "property": "C43",
   "status": "partial",
   "theorems": [
    "C43_accepted",
    "C43_runs_partial",
    "C43_usable_refuted",
    "C43_not_a_number_refuted"
   ],
   "note": "Proved for frame numbers inside the profiles and a positive film step. assert_machine_input checks neither (refuted), and lets a not-a-number through."
  },
  {
   "property": "C56",
   "status": "partial",
   "theorems": [
    "C56_stdin",
    "C56_split",
    "C56_pipe_refuted"
   ],
   "note": "Exact reading and splitting proved. A data file whose path contains the letters pipe makes the reader consume extra lines (refuted)."
  },
  {
   "property": "C11",
   "status": "proved",
   "theorems": [
    "C11_area",
    "C11_area_deltaturn"
   ],
   "note": "Real arithmetic. The tangent map of the tracking map has determinant 1 at every point, for every machine, start profile and target profile, also with negative deltaturn."
  },
  {
   "property": "C12",
   "status": "partial",
   "theorems": [
    "C12_synchronous_partial",
    "C12_synchronous_refuted"
   ],
   "note": "Holds between profiles not before the machine reference frame, so for all profiles if it is the first. False otherwise: deltaE0 is shifted by one turn before the reference turn and 0 at it."
  },
  {
   "property": "C45",
   "status": "partial",
   "theorems": [
    "C45_turns",
    "C45_synchronous_phase",
    "C45_derived",
    "C45_energy_gain_partial",
    "C45_energy_gain_refuted"
   ],
   "note": "Energies, times, phases and derived arrays proved for every reference frame. deltaE0[i] = e0[i]-e0[i-1] is proved after the reference turn and false up to it."
  },
  {
   "property": "C46",
   "status": "partial",
   "theorems": [
    "C46_rf_voltage",
    "C46_machine",
    "C46_phase_low_partial",
    "C46_phase_low_refuted"
   ],
   "note": "Voltage derivatives proved. dphase_low is the derivative of phase_low only if the voltages at the turn and at the index machine_ref_frame agree."
  },
  {
   "property": "C47",
   "status": "partial",
   "theorems": [
    "C47_energy",
    "C47_beta",
    "C47_turns",
    "C47_dpp",
    "C47_charge_zero_refuted"
   ],
   "note": "Proved for every machine for which the values at all turns are finite. Charge 0 is accepted by the input checks and gives speed 0."
  },
  {
   "property": "C13",
   "status": "partial",
   "theorems": [
    "C13_rows_partial",
    "C13_routine_rows",
    "C13_no_field",
    "C13_one_turn_partial",
    "C13_bounds_partial",
    "C13_reversible_refuted",
    "C13_deltaturn_refuted",
    "C13_bounds_refuted"
   ],
   "note": "Every row is the path of the particles turn by turn if the window fits at every turn. Proved false: backward undoes forward (the voltage is added both ways, from neighbouring cells), deltaturn is honoured, indices stay in range when the revolution frequency rises."
  },
  {
   "property": "C50",
   "status": "partial",
   "theorems": [
    "C50_window",
    "C50_covers_partial",
    "C50_covers_refuted",
    "C50_table",
    "C50_coefficient"
   ],
   "note": "Window and table proved for the turn the window is made with. With a rising field that turn is the last but one, so the image of the last profile can be longer than the window."
  },
  {
   "property": "C10",
   "status": "partial",
   "theorems": [
    "C10_race_free",
    "C10_terminates",
    "C10_tracking",
    "C10_drift",
    "C10_kick",
    "C10_back_project",
    "C10_normalize",
    "C10_normalize_sum",
    "C10_zeros_to_ones",
    "C10_reconstruct_partial",
    "C10_reciprocal_partial",
    "C10_reciprocal_refuted",
    "C10_reciprocal_multi_refuted",
    "C10_count_multi_refuted",
    "C10_mask_refuted",
    "C10_back_project_multi_refuted",
    "C10_project_multi_refuted",
    "C10_discrepancy_multi_refuted"
   ],
   "note": "Proved for all loops of the tracking and, given the reciprocals, of the single-bunch reconstruction. Proved false for the loops with shared variables or shared sums: the reciprocals, and six loops of the multi-bunch reconstruction."
  },
  {
   "property": "C48",
   "status": "partial",
   "theorems": [
    "C48_usable_partial",
    "C48_inside_or_refused",
    "C48_usable_refuted",
    "C48_found",
    "C48_below_trajectories",
    "C48_largest",
    "C48_height",
    "C48_origin",
    "C48_energy_scale",
    "C48_symmetric_partial",
    "C48_symmetric_refuted",
    "C48_shifted",
    "C48_time_partial",
    "C48_time_refuted",
    "C48_full_image"
   ],
   "note": "The limits are inside the image and usable unless the full image is asked for with a last time beyond the image (refuted there). Symmetry fails where the area reaches the top of the image, for the full image and whenever the limits in time take effect; the last time can be exceeded by one bin (both refuted, guarded versions proved)."
  },
  {
   "property": "C51",
   "status": "partial",
   "theorems": [
    "C51_names",
    "C51_selects",
    "C51_cast",
    "C51_precision_partial",
    "C51_same_kernels",
    "C51_reload",
    "C51_device_partial",
    "C51_first_device",
    "C51_stuck",
    "C51_precision_refuted",
    "C51_failed_change_refuted",
    "C51_device_refuted"
   ],
   "note": "The names in use always belong to the selected device (proved for every history, failing calls included). The kernels have the selected precision unless it was changed on the CPU after the GPU had been used, or the change raised (both refuted); the device number counts only in the first call of use_gpu (refuted), and a first call that fails can never be repaired (C51_stuck)."
  },
  {
   "property": "C52",
   "status": "partial",
   "theorems": [
    "C52_std_value",
    "C52_std_partial",
    "C52_std_refuted",
    "C52_shift_refuted",
    "C52_fractional_partial",
    "C52_fractional_refuted",
    "C52_fraction_range",
    "C52_fractional_invariant",
    "C52_fractional_monotone",
    "C52_post_process",
    "C52_defined"
   ],
   "note": "The histogram's value is the standard deviation only under the conditions of C52_std_partial and depends on where the axis starts (refuted); the emittance of a fraction counts one cell less than the smallest set that holds it (refuted, C52_fractional_partial gives the exact number)."
  },
  {
   "property": "C53",
   "status": "partial",
   "theorems": [
    "C53_defined",
    "C53_bounds",
    "C53_square_only_refuted",
    "C53_unnormalised_refuted"
   ],
   "note": "Proved for every square normalised image with no negative pixel. Images that are not square are always refused by numpy's broadcasting, and without normalisation the radicand can be negative."
  },
  {
   "property": "C54",
   "status": "partial",
   "theorems": [
    "C54_fit_partial",
    "C54_feet_refuted",
    "C54_dq",
    "C54_no_edge",
    "C54_dq_too_long"
   ],
   "note": "foot_tangent_fit_dq returns the zeros of the lines exactly (C54_dq). foot_tangent_fit does not: its left foot is half a bin too low and its right foot too high (C54_feet_refuted), C54_fit_partial gives the values."
  },
  {
   "property": "C57",
   "status": "proved",
   "theorems": [
    "C57_target",
    "C57_bounds",
    "C57_monotone",
    "C57_invariant",
    "C57_cells",
    "C57_level",
    "C57_density_range",
    "C57_density_invariant",
    "C57_density_value"
   ],
   "note": "The emittance of a fraction held by the k largest cells is that of k - 1 cells, as the statement says."
  },
  {
   "property": "C55",
   "status": "partial",
   "theorems": [
    "C55_paths",
    "C55_same_paths",
    "C55_kept",
    "C55_difference_partial",
    "C55_difference_refuted"
   ],
   "note": "Different kinds and indices always have different paths and every saved file is kept (proved for all indices). The two writers of the discrepancy file write the same text for at most 100 iterations and never for more (refuted)."
  },
  {
   "property": "C58",
   "status": "proved",
   "theorems": [
    "C58_profile",
    "C58_no_profile",
    "C58_image",
    "C58_self_fields",
    "C58_difference",
    "C58_tomoscope_image"
   ],
   "note": "Exact numbers; infinities, not-a-number and the negative zero are not modelled."
  },
  {
   "property": "C59",
   "status": "proved",
   "theorems": [
    "C59_refused",
    "C59_says",
    "C59_status"
   ],
   "note": "Exact numbers, as for C58."
  },
  {
   "property": "C60",
   "status": "proved",
   "theorems": [
    "C60_same_values",
    "C60_terminates",
    "C60_no_coordinates"
   ],
   "note": "Every interleaving of the memory accesses of all threads, atomic additions included. Exact numbers: with rounding the order of the atomic additions may change the last digits. The block reduction of the CUB library is modelled by the sum it documents. At least one particle: with none CUDA refuses the launch."
  },
  {
   "property": "C61",
   "status": "partial",
   "theorems": [
    "C61_same_attributes_partial",
    "C61_shape_refuted",
    "C61_callback_refuted"
   ],
   "note": "Weights, discrepancies and the elements of recreated agree (proved); recreated has one dimension instead of two and the callback is never called on the GPU (refuted, for every successful run)."
  },
  {
   "property": "C62",
   "status": "partial",
   "theorems": [
    "C62_cupy_partial",
    "C62_few_particles_refuted"
   ],
   "note": "Holds with at least as many particles as bins; refuted with fewer: the maximum is taken over too few bins."
  },
  {
   "property": "C63",
   "status": "proved",
   "theorems": [
    "C63_cupy_tracking"
   ],
   "note": "For any numbers and any sine; phi12 is the array the routine builds."
  },
  {
   "property": "C64",
   "status": "partial",
   "theorems": [
    "C64_turns_partial",
    "C64_voltages",
    "C64_first_refuted",
    "C64_length_refuted",
    "C64_lead_refuted"
   ],
   "note": "Voltages, order and spacing of the turns and momenta proved when enough revolutions lie before t_ref; refuted: the momentum of the first turn of the program, the number of turns (one may be missing without an error) and the reference turn when fewer revolutions lie before t_ref."
  },
  {
   "property": "C65",
   "status": "proved",
   "theorems": [
    "C65_ends",
    "C65_enough",
    "C65_built"
   ],
   "note": "The loops carry fuel; ends says that some amount is enough and that more does not change the result. built is without phase programs, C67 covers the phases."
  },
  {
   "property": "C66",
   "status": "partial",
   "theorems": [
    "C66_values_partial",
    "C66_gain_refuted",
    "C66_time_refuted",
    "C66_harmonic_refuted",
    "C66_tracking_refuted"
   ],
   "note": "Refuted: the energy differences are one short and belong to the next turn, the time steps are revolutions of the later turn, the drift coefficient ignores the harmonics passed, and with dturns = 1 no such machine can be tracked."
  },
  {
   "property": "C67",
   "status": "partial",
   "theorems": [
    "C67_synchronous",
    "C67_search",
    "C67_open",
    "C67_phases",
    "C67_phi12_refuted"
   ],
   "note": "scipy's newton is a parameter that returns roots or fails. Refuted: phi12 as a number or as an array never gives a machine."
  },
  {
   "property": "C68",
   "status": "proved",
   "theorems": [
    "C68_derivative",
    "C68_field"
   ],
   "note": "Exact real numbers."
  },
  {
   "property": "C69",
   "status": "partial",
   "theorems": [
    "C69_double_partial",
    "C69_sine_partial",
    "C69_exact_partial",
    "C69_odd",
    "C69_large_refuted"
   ],
   "note": "Proved up to phases of 1.68e9; refuted beyond 1.69e9, where the conversion to int overflows. Rounding after every operation in source order; the project is compiled with -ffast-math, which lets the compiler change the order."
  },
  {
   "property": "C70",
   "status": "partial",
   "theorems": [
    "C70_single_partial",
    "C70_sine_partial",
    "C70_odd",
    "C70_large_refuted"
   ],
   "note": "Proved up to phases of 10000; refuted beyond 1.69e9, where the conversion to int overflows."
  },
  {
   "property": "C71",
   "status": "proved",
   "theorems": [
    "C71_tracking_error"
   ],
   "note": "The bounds are on the machine parameters and on the computed phases and energies. The statement is on track without deltaturn; C01 describes the rows."
  },
  {
   "property": "C72",
   "status": "partial",
   "theorems": [
    "C72_feet",
    "C72_straight",
    "C72_scale",
    "C72_potential",
    "C72_balance_partial",
    "C72_symmetric",
    "C72_balance_refuted"
   ],
   "note": "The voltages are looked up at the number of the reference frame instead of the turn: with more than one turn per frame and changing voltages the feet are not at the same potential (refuted). Proved where these voltages are equal. scipy.optimize.newton is a parameter."
  },
  {
   "property": "C73",
   "status": "partial",
   "theorems": [
    "C73_charge",
    "C73_rebin_partial",
    "C73_rebin_refuted"
   ],
   "note": "The charge changes if bins are left over by the rebinning (refuted); proved for a divisor of the number of bins."
  },
  {
   "property": "C74",
   "status": "proved",
   "theorems": [
    "C74_image",
    "C74_particles",
    "C74_synchronous"
   ],
   "note": "For values at each turn and an area of the right shape (every_turn, near_image: C45 and C48 are about the functions that give them). The phase of the second harmonic behind the end of the array (F2) is a parameter."
  },
  {
   "property": "C75",
   "status": "proved",
   "theorems": [
    "C75_offset"
   ],
   "note": ""
  },
  {
   "property": "C76",
   "status": "proved",
   "theorems": [
    "C76_scale"
   ],
   "note": "The fit of the synchronous bin must not depend on the gain; it does not by C72_scale."
  },
  {
   "property": "C77",
   "status": "partial",
   "theorems": [
    "C77_self_field_refuted"
   ],
   "note": "Refuted: the flag has no effect at all. No theorem holds of the full statement."
  },
  {
   "property": "C78",
   "status": "proved",
   "theorems": [
    "C78_no_bad_access"
   ],
   "note": "The functions on one value (int, float, values at each turn, fit, limits) are parameters that do not access anything else. The read behind the end of phi12 (C07) is modelled as an arbitrary number."
  },
  {
   "property": "C79",
   "status": "partial",
   "theorems": [
    "C79_shortcuts",
    "C79_default_refuted"
   ],
   "note": "The default reconstruction_idx of shortcuts.track is never accepted (refuted)."
  },
  {
   "property": "C80",
   "status": "partial",
   "theorems": [
    "C80_default",
    "C80_from_the_end",
    "C80_area",
    "C80_last_refuted"
   ],
   "note": "The last profile cannot be chosen (refuted, see C03)."
  },
  {
   "property": "C81",
   "status": "proved",
   "theorems": [
    "C81_finite",
    "C81_profiles",
    "C81_exact"
   ],
   "note": "Sizes such that (2^e)^5 fits the format, e.g. a million particles in single precision. Contraction to fused multiply-add is not modelled."
  },
  {
   "property": "C82",
   "status": "proved",
   "theorems": [
    "C82_reproducible"
   ],
   "note": "The order of the sums inside one thread is fixed by the compiled program and the same in both runs."
  },
  {
   "property": "C83",
   "status": "proved",
   "theorems": [
    "C83_blank",
    "C83_unseen"
   ],
   "note": "With iterations left a run of which some particle sees charge may still be refused when all weights are compensated away."
  },
  {
   "property": "C84",
   "status": "proved",
   "theorems": [
    "C84_normalized"
   ],
   "note": ""
  },
  {
   "property": "C85",
   "status": "partial",
   "theorems": [
    "C85_area",
    "C85_trajectory",
    "C85_interp",
    "C85_below_refuted"
   ],
   "note": "Proved above transition without acceleration; that the trajectory has the length of the bunch needs an ideal minimiser (scipy's Powell is not proved to be one) and a bunch between one grid step and the bucket. Below transition the area has a small bound independent of the bunch length, if the minimiser returns a level above the first grid step and interp clamps on unsorted arrays (refuted, F62). Acceleration is not covered."
  },
  {
   "property": "C86",
   "status": "partial",
   "theorems": [
    "C86_nested",
    "C86_emittance",
    "C86_below_contour_refuted",
    "C86_below_refuted",
    "C86_below_clip_refuted",
    "C86_accelerated_refuted"
   ],
   "note": "Proved above transition without acceleration. Below transition all contours are the edge of the bucket (F75). With acceleration above transition the scan goes on below the lowest level of the bucket (F76)."
  },
  {
   "property": "C87",
   "status": "partial",
   "theorems": [
    "C87_spread",
    "C87_fraction",
    "C87_growing",
    "C87_refused",
    "C87_value",
    "C87_local",
    "C87_fraction_refuted"
   ],
   "note": "Fraction: the energy axis has equal steps and reaches as far up as down, otherwise it can exceed 1 (refuted, F63). Growth: in addition above transition without acceleration. The range of the local density holds for every result."
  },
  {
   "property": "C88",
   "status": "partial",
   "theorems": [
    "C88_clip",
    "C88_contour",
    "C88_marked",
    "C88_late",
    "C88_refused",
    "C88_extremes",
    "C88_trajectory"
   ],
   "note": "Proved for particles within the time axis, with the height of the contour at the start of the slot; particles outside the time axis keep their weight whatever their energy (C88_late, F64). A slot with exactly one particle inside gives no result. The factor is at least 1 for weights that are not negative and not all zero."
  },
  {
   "property": "C89",
   "status": "partial",
   "theorems": [
    "C89_same",
    "C89_refused",
    "C89_overflow",
    "C89_objects",
    "C89_refuted"
   ],
   "note": "Equal to the reconstruction with integers when the numbers of discrepancies, of pixels of the waterfall and of coordinates are below 2^31; otherwise undefined behaviour (refuted, F65). CPU, single bunch."
  },
  {
   "property": "C90",
   "status": "partial",
   "theorems": [
    "C90_same",
    "C90_refused",
    "C90_refuted"
   ],
   "note": "Equal when turns plus one more profile, and the coordinates before the last profile, are below 2^31; with more coordinates undefined behaviour (refuted, F66). CPU without self-fields. More turns or particles than an int counts are refused with a TypeError."
  },
  {
   "property": "C91",
   "status": "partial",
   "theorems": [
    "C91_same",
    "C91_refuted",
    "C91_far_refuted",
    "C91_many_refuted"
   ],
   "note": "Equal for coordinates inside and fewer than 2^31 pixels and particles; from 46341 bins on undefined behaviour, a far coordinate overflows instead of raising, a multiple of 2^32 particles gives a blank image (refuted, F67)."
  },
  {
   "property": "C92",
   "status": "partial",
   "theorems": [
    "C92_counts",
    "C92_exact_partial",
    "C92_refuted",
    "C92_compensation"
   ],
   "note": "The count is exact up to the largest integer M up to which all are exact (2^24, 2^53) and stays there for more particles (refuted, F68)."
  },
  {
   "property": "C93",
   "status": "partial",
   "theorems": [
    "C93_synchronous_partial",
    "C93_second_partial",
    "C93_defined",
    "C93_found",
    "C93_modes_refuted",
    "C93_charge_refuted",
    "C93_above_refuted"
   ],
   "note": "Positive charge, below transition; mode 2 for integer ratios. The modes 0 and 1 give the same phases, which always lower the slope; the sign of the charge and transition are ignored (refuted, F69-F71)."
  },
  {
   "property": "C94",
   "status": "partial",
   "theorems": [
    "C94_keywords_partial",
    "C94_times",
    "C94_positional",
    "C94_order",
    "C94_unknown_refuted"
   ],
   "note": "Unknown keywords are ignored without notice (refuted, F72). Other values than None, truth values and numbers are not looked into."
  },
  {
   "property": "C95",
   "status": "partial",
   "theorems": [
    "C95_accepted_iff",
    "C95_current_partial",
    "C95_refused",
    "C95_stale_refuted",
    "C95_frame_refuted",
    "C95_failed_refuted",
    "C95_longer_refuted"
   ],
   "note": "Holds directly after a successful calculation. A tracker is accepted whenever some earlier calculation succeeded: with values of old settings, of a failed calculation, or too short for the profiles, which are then read past their end (refuted, F73)."
  },
  {
   "property": "C96",
   "status": "partial",
   "theorems": [
    "C96_enabled_iff",
    "C96_never_negative",
    "C96_current_partial",
    "C96_origin",
    "C96_refused",
    "C96_never_disabled",
    "C96_stale_refuted",
    "C96_filter_refuted",
    "C96_window_refuted"
   ],
   "note": "Holds directly after a successful calculation. Fields of old profiles or machines are enabled without notice, a refused filter replaces the filtered profiles, a failed calculation leaves a new window with old fields (refuted, F74)."
  },
  {
   "property": "C97",
   "status": "proved",
   "theorems": [
    "C97_prefix_run",
    "C97_failure_run",
    "C97_prefix_hybrid",
    "C97_failure_hybrid"
   ],
   "note": ""
  },
  {
   "property": "C98",
   "status": "proved",
   "theorems": [
    "C98_profile_order_run",
    "C98_profile_order_hybrid"
   ],
   "note": "Exact arithmetic."
  },
  {
   "property": "C99",
   "status": "proved",
   "theorems": [
    "C99_bin_order_run",
    "C99_bin_order_hybrid"
   ],
   "note": "Exact arithmetic."
  },
  {
   "property": "C100",
   "status": "partial",
   "theorems": [
    "C100_copies_hybrid",
    "C100_copies_run_partial",
    "C100_copies_refuted"
   ],
   "note": "True for run_hybrid and for run without iterations; false for run with iterations (F77)."
  },
  {
   "property": "C101",
   "status": "proved",
   "theorems": [
    "C101_bounds_run",
    "C101_bounds_hybrid"
   ],
   "note": ""
  },
  {
   "property": "C102",
   "status": "partial",
   "theorems": [
    "C102_never_worse_refuted",
    "C27_fixed_point_hybrid"
   ],
   "note": "Refuted for run and run_hybrid (F78). In run_hybrid an exact recreation stays exact (C27)."
  },
  {
   "property": "C103",
   "status": "partial",
   "theorems": [
    "C103_double",
    "C103_single_partial",
    "C103_single_zeros",
    "C103_single_refuted"
   ],
   "note": "True in double precision, and in single precision if the ratio of harmonics is a Python float and phi12 a Python float or a contiguous float32 array (arrays of at least two elements). If phi12 or the ratio is of another kind in single precision track returns zeros or fails (F79)."
  },
  {
   "property": "C104",
   "status": "partial",
   "theorems": [
    "C104_untracked",
    "C104_outside",
    "C104_missing",
    "C104_refuted"
   ],
   "note": "Refuted: the function tracks nothing (F33). The refusal of incomplete arguments is proved."
  },
  {
   "property": "C105",
   "status": "partial",
   "theorems": [
    "C105_arguments",
    "C105_initial",
    "C105_particles",
    "C105_particles_refuted"
   ],
   "note": "The user's arrays and init_dphi, init_denergy are as stated; the particles object is overwritten (F80)."
  },
  {
   "property": "C106",
   "status": "partial",
   "theorems": [
    "C106_drift",
    "C106_kick",
    "C106_phi12_refuted"
   ],
   "note": "Values and arrays changed are proved for turns within the arrays and phi12 a number; an array phi12 is refused (F82)."
  },
  {
   "property": "C107",
   "status": "partial",
   "theorems": [
    "C107_partial",
    "C107_refuted",
    "C107_phi12_refuted"
   ],
   "note": "Tracked coordinates proved for offsets in (-dturns, 0], one number as phi12 and arrays of phases, energies and machine parameters that are different ones. No other array changes, but contiguous arrays of doubles given as coordinates are overwritten (F81), and an array phi12 is refused (F82)."
  },
  {
   "property": "C108",
   "status": "partial",
   "theorems": [
    "C108_counts",
    "C108_single_refuted",
    "C108_keywords_refuted"
   ],
   "note": "Counts and arrays changed are proved for calls by position, arithmetic being exact. Counters in single precision are not updated when the positions are not contiguous 32-bit integers (F83), and the names of the numbers of particles and profiles are exchanged (F35)."
  },
  {
   "property": "C109",
   "status": "partial",
   "theorems": [
    "C109_back_project",
    "C109_project",
    "C109_shape_refuted"
   ],
   "note": "Values and arrays changed are proved for calls by position, arithmetic being exact, for an array written to that is none of those read. A flat array given to project stays flat (F84)."
  },
  {
   "property": "C110",
   "status": "partial",
   "theorems": [
    "C110_reconstruct",
    "C110_single_refuted"
   ],
   "note": "Values, shapes, types and arrays changed are proved, arithmetic being exact and the calls of the callback left out. The results are in double precision for a waterfall in single precision when the positions are not contiguous 32-bit integers (F83)."
  },
  {
   "property": "C111",
   "status": "partial",
   "theorems": [
    "C111_construct",
    "C111_run",
    "C111_layout_refuted"
   ],
   "note": "Proved on the CPU with exact arithmetic after the cast to the selected precision, without y-coordinates. In single precision the results are in double precision for a waterfall that is not stored row by row, such as a transposed array (F85)."
  },
  {
   "property": "C112",
   "status": "partial",
   "theorems": [
    "C112_image",
    "C112_density",
    "C112_single_refuted",
    "C112_created"
   ],
   "note": "Proved on the CPU with exact arithmetic, for particles inside the image (outside it see C34). The density of phase_space is in double precision for a run in single precision, as the column of the positions is not contiguous (F86); create_phase_space_image keeps single precision."
  },
  {
   "property": "C113",
   "status": "partial",
   "theorems": [
    "C113_run",
    "C113_lists_refuted",
    "C113_returned_refuted"
   ],
   "note": "Proved on the CPU with exact arithmetic after the cast to the selected precision, without y-coordinates and the calls of the callback; what the results are is C33. In single precision the results are in double precision when the centres or cuts are lists (F87). run returns None and does not set weight, against its documentation (F88)."
  },
  {
   "property": "C114",
   "status": "partial",
   "theorems": [
    "C114_counts",
    "C114_single_refuted",
    "C114_keywords_refuted"
   ],
   "note": "Values and arrays changed are proved for calls by position, arithmetic being exact and the loops running on one thread (on several see C10). Counters in single precision are not updated when the positions or centres are not contiguous 32-bit integers, such as a list of centres (F83). Called by name the numbers of particles and profiles are exchanged (F89)."
  },
  {
   "property": "C115",
   "status": "partial",
   "theorems": [
    "C115_run",
    "C115_shape",
    "C115_single_refuted"
   ],
   "note": "Proved on the CPU with exact arithmetic after the cast to the selected precision, without y-coordinates, for indices of the flat waterfall that fit 32 bits; what the results are is C23. The results are in double precision also if single precision is selected (F90)."
  },
  {
   "property": "C116",
   "status": "partial",
   "theorems": [
    "C116_back_project",
    "C116_project",
    "C116_reconstruct",
    "C116_moved_refuted"
   ],
   "note": "Proved for back_project, project and reconstruct, with exact arithmetic, on one thread; kick and drift are C117, kick_and_drift is C104. The functions named by the warning refuse the names of the kept ones (F91)."
  },
  {
   "property": "C117",
   "status": "proved",
   "theorems": [
    "C117_drift",
    "C117_kick"
   ],
   "note": "On one thread; the direction is a bool. The operations of the arithmetic are parameters, so the theorems hold for rounded arithmetic too."
  }
 ]
}