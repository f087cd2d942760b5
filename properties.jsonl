{"id": "C01", "title": "Tracked table holds the state at every profile", "statement": "Tracking.track with deltaturn 0 fills every row q of both output arrays with the state of the particles after exactly (q-p)*dturns machine turns from the start profile p (forward turns for q>p, inverse turns for q<p); row p is the initial distribution; no row is left unwritten.", "quantifier": "every dturns>=1, nprofiles, start profile, particle list and per-turn machine parameters", "why_tests_cant": "depends on loop/modulo bookkeeping for every (dturns, nprofiles, start) combination", "anchors": ["longitudinal_tomography/cpp_routines/kick_and_drift.cpp:kick_and_drift", "longitudinal_tomography/tracking/tracking.py:Tracking.track"]}
{"id": "C02", "title": "Tracking is reversible and independent of the start profile", "statement": "In exact arithmetic, tracking a distribution from profile p, then taking any row q of the result as initial distribution and tracking from q, reproduces the whole table; in particular a forward turn followed by the backward turn is the identity.", "quantifier": "every pair of profiles, every machine parameter array and every sine routine", "why_tests_cant": "needs the inverse law for every parameter array and turn count, not sampled settings", "anchors": ["longitudinal_tomography/cpp_routines/kick_and_drift.cpp:kick_up,kick_down,drift_up,drift_down,kick_and_drift"]}
{"id": "C03", "title": "Every profile can be chosen as reconstruction profile", "statement": "track(recprof) accepts each index in [-nprofiles, nprofiles) and rejects each other index with an error.", "quantifier": "every integer index, nprofiles>=1, dturns>=1, deltaturn", "why_tests_cant": "boundary behaviour over all sizes", "anchors": ["longitudinal_tomography/tracking/tracking.py:Tracking.track", "longitudinal_tomography/assertions.py:assert_index_ok"]}
{"id": "C04", "title": "deltaturn starts tracking between profiles consistently", "statement": "With |deltaturn|<dturns each output row q equals the state at machine turn q*dturns when the given distribution lives at turn recprof*dturns+deltaturn.", "quantifier": "every deltaturn, recprof, dturns, nprofiles accepted by track", "why_tests_cant": "all offsets and sizes; the two passes must meet at the same turn", "anchors": ["longitudinal_tomography/cpp_routines/kick_and_drift.cpp:kick_and_drift", "longitudinal_tomography/tracking/tracking.py:Tracking.kick_and_drift"]}
{"id": "C05", "title": "Reference (hybrid) tracking agrees with the C++ tracking", "statement": "Tracking.kick_and_drift (Python/C++ hybrid kept for reference) returns the same table as the C++ routine used by track.", "quantifier": "every start profile, deltaturn, particle list and machine arrays", "why_tests_cant": "equality of two different loop structures over all inputs", "anchors": ["longitudinal_tomography/tracking/tracking.py:Tracking.kick_and_drift", "longitudinal_tomography/cpp_routines/kick_and_drift.cpp:kick_and_drift"]}
{"id": "C06", "title": "GPU tracking agrees with CPU tracking", "statement": "The one-thread-per-particle GPU kernel produces, for every particle, the same rows as the CPU loop, for any grid that covers the particles; surplus threads write nothing.", "quantifier": "every particle count, block size, machine arrays, start profile", "why_tests_cant": "equality over every grid and size; no GPU in test environments", "anchors": ["longitudinal_tomography/cuda_kernels/kick_and_drift.cu", "longitudinal_tomography/python_routines/kick_and_drift_cuda.py", "longitudinal_tomography/cpp_routines/kick_and_drift.cpp"]}
{"id": "C07", "title": "Tracking stays inside its arrays", "statement": "For arrays of nturns+1 machine values and nprofiles rows, tracking never reads or writes outside an array, also when phi12 is given as one number.", "quantifier": "every dturns, nprofiles, start profile; array and scalar phi12", "why_tests_cant": "an over-read by one is silent in a test run", "anchors": ["longitudinal_tomography/cpp_routines/libtomo.cpp:wrapper_kick_and_drift_scalar", "longitudinal_tomography/cpp_routines/kick_and_drift.cpp:kick_and_drift"]}
{"id": "C08", "title": "Tracking progress callback counts every turn once", "statement": "The callback receives 1,2,...,N in order with the same total N, and the last call reports completion (progress = total).", "quantifier": "every dturns, nprofiles, start profile, deltaturn", "why_tests_cant": "must hold for every start profile and offset", "anchors": ["longitudinal_tomography/cpp_routines/kick_and_drift.cpp:kick_and_drift"]}
{"id": "C09", "title": "Particles are tracked independently", "statement": "The rows of one particle depend only on its own initial coordinates: permuting, dropping or adding particles permutes, drops or adds the matching columns and changes nothing else.", "quantifier": "every particle list and permutation", "why_tests_cant": "quantifies over all subsets and orders", "anchors": ["longitudinal_tomography/cpp_routines/kick_and_drift.cpp:kick_and_drift"]}
{"id": "C10", "title": "Parallel loops give the sequential result under every schedule", "statement": "Every OpenMP loop of tracking and reconstruction gives the same memory contents for every interleaving of its iterations as the sequential loop.", "quantifier": "every interleaving of memory accesses of the parallel iterations", "why_tests_cant": "a race may show in no test run at all", "anchors": ["longitudinal_tomography/cpp_routines/kick_and_drift.cpp:kick_up,drift_up", "longitudinal_tomography/cpp_routines/reconstruct.cpp:back_project,clip,normalize,compensate_particle_amount,reciprocal_particles,back_project_multi,project_multi,create_mask"]}
{"id": "C11", "title": "Tracking preserves phase-space area", "statement": "The map from initial to tracked coordinates of a particle has Jacobian determinant 1 at every point, for any number of turns up or down.", "quantifier": "every point of phase space, every number of turns, all machine parameters (real arithmetic)", "why_tests_cant": "a statement on derivatives at every real point", "anchors": ["longitudinal_tomography/cpp_routines/kick_and_drift.cpp:kick_up,drift_up"]}
{"id": "C12", "title": "The synchronous particle stays synchronous", "statement": "A particle starting with zero phase and energy offset keeps zero offsets at every profile, for a machine computed by Machine.values_at_turns, whatever machine_ref_frame.", "quantifier": "every machine, reference frame and start profile", "why_tests_cant": "must hold for every reference frame and turn", "anchors": ["longitudinal_tomography/tracking/machine.py:Machine.values_at_turns", "longitudinal_tomography/cpp_routines/kick_and_drift.cpp"]}
{"id": "C13", "title": "Self-field tracking is reversible, stays inside its arrays and honours deltaturn", "statement": "Tracking with self-fields: the backward pass undoes the forward pass, the self-field table is read inside its bounds, and track(recprof, deltaturn) starts at the given offset.", "quantifier": "every self-field table, phase, start profile, deltaturn", "why_tests_cant": "index arithmetic on wrapped phases over all reals", "anchors": ["longitudinal_tomography/tracking/tracking.py:Tracking.kick_and_drift_self,Tracking._calc_xp_sf", "longitudinal_tomography/data/profiles.py:Profiles._find_wrap_length"]}
{"id": "C14", "title": "filter_lost removes exactly the lost particles", "statement": "filter_lost keeps a particle iff its x-coordinate is inside [0, img_width) at every profile, keeps order, filters xp and yp alike, reports the number removed, and raises InvalidParticleError iff none is left.", "quantifier": "every pair of equally shaped coordinate arrays, every width, including not-a-number coordinates", "why_tests_cant": "exactness over all arrays", "anchors": ["longitudinal_tomography/tracking/particles.py:filter_lost"]}
{"id": "C15", "title": "Prepared particles are always accepted by the reconstruction", "statement": "If ready_for_tomography returns, the result is accepted by the Tomography constructor for the same number of bins and profiles, with every coordinate in range.", "quantifier": "every tracked table and number of bins", "why_tests_cant": "contract between two modules for all inputs", "anchors": ["longitudinal_tomography/tracking/particles.py:ready_for_tomography", "longitudinal_tomography/tomography/__tomography.py:TomographyABC.xp"]}
{"id": "C16", "title": "Physical and bin coordinates convert back and forth", "statement": "Converting bin coordinates to phase/energy and back with physical_to_coords at the same profile returns the original coordinates, and vice versa.", "quantifier": "every coordinate, profile, machine with non-zero bin sizes", "why_tests_cant": "algebraic round trip for all values", "anchors": ["longitudinal_tomography/tracking/particles.py:Particles._bin_nr_to_physical_coords,physical_to_coords"]}
{"id": "C17", "title": "The homogeneous distribution fills exactly the reconstruction area", "statement": "homogeneous_distribution creates exactly snpt*snpt particles, evenly spaced, in each cell (i,j) with imin<=i<=imax and jmin[i]<=j<jmax[i], and none elsewhere.", "quantifier": "every limit arrays, snpt>=1", "why_tests_cant": "exact count and containment for all areas", "anchors": ["longitudinal_tomography/tracking/particles.py:Particles.homogeneous_distribution"]}
{"id": "C18", "title": "The stored waterfall is a set of probability distributions", "statement": "After constructing Tomography the waterfall has no negative value and every row sums to 1, or the constructor raised.", "quantifier": "every input waterfall", "why_tests_cant": "all arrays incl. rows that vanish", "anchors": ["longitudinal_tomography/tomography/__tomography.py:TomographyABC.__init__,_normalize_profiles"]}
{"id": "C19", "title": "Coordinate setters keep the object consistent", "statement": "After any sequence of assignments to xp and yp, failed or not: a failed assignment changes nothing; nparts is the number of rows of xp; every stored x is in [0,nbins); yp is None or has the shape of xp.", "quantifier": "every history of assignments", "why_tests_cant": "invariant over all operation sequences", "anchors": ["longitudinal_tomography/tomography/__tomography.py:TomographyABC.xp,TomographyABC.yp"]}
{"id": "C20", "title": "Weights are finite and never negative", "statement": "Tomography.run returns weights that are all >= 0 with positive sum, and never divides by zero, whenever it returns.", "quantifier": "every waterfall, particle table with in-range coordinates, niter>=0", "why_tests_cant": "all inputs and iteration counts", "anchors": ["longitudinal_tomography/cpp_routines/reconstruct.cpp:reconstruct,back_project,clip,normalize"]}
{"id": "C21", "title": "The recreated waterfall is directly comparable with the measured one", "statement": "Each row of recreated is non-negative and sums to 1, has the shape of the waterfall; diff holds niter+1 values.", "quantifier": "every waterfall, particle table, niter>=0", "why_tests_cant": "all inputs and iteration counts", "anchors": ["longitudinal_tomography/cpp_routines/reconstruct.cpp:reconstruct", "longitudinal_tomography/tomography/tomography.py:Tomography.run"]}
{"id": "C22", "title": "The recreated waterfall is the projection of the returned weights", "statement": "recreated equals the per-profile normalised histogram of the returned weights at the particles x-coordinates, and the last diff is its RMS distance to the waterfall.", "quantifier": "every waterfall, particle table, niter>=0", "why_tests_cant": "must hold for every niter; the effect is masked when the iteration converges", "anchors": ["longitudinal_tomography/cpp_routines/reconstruct.cpp:reconstruct", "longitudinal_tomography/tomography/tomography.py:Tomography.run,Tomography.run_hybrid"]}
{"id": "C23", "title": "run and run_hybrid give the same reconstruction", "statement": "Tomography.run and Tomography.run_hybrid return the same weights, diff and recreated.", "quantifier": "every waterfall, particle table, niter>=0", "why_tests_cant": "equality of two implementations on all inputs", "anchors": ["longitudinal_tomography/tomography/tomography.py:Tomography.run,Tomography.run_hybrid", "longitudinal_tomography/cpp_routines/reconstruct.cpp:reconstruct"]}
{"id": "C24", "title": "Failure exactly when nothing can be reconstructed", "statement": "Tomography.run raises iff at some point every particle weight is zero; it raises at once iff no particle passes through a non-zero bin.", "quantifier": "every waterfall, particle table, niter>=0", "why_tests_cant": "exact error condition", "anchors": ["longitudinal_tomography/cpp_routines/reconstruct.cpp:reconstruct,sum"]}
{"id": "C25", "title": "Particle order is irrelevant to the reconstruction", "statement": "Permuting the particles permutes the weights and leaves diff and recreated unchanged.", "quantifier": "every permutation of every particle table", "why_tests_cant": "all permutations", "anchors": ["longitudinal_tomography/cpp_routines/reconstruct.cpp:reconstruct"]}
{"id": "C26", "title": "The reconstruction depends only on the shape of each profile", "statement": "Multiplying each measured profile by its own positive constant, or replacing negative values by other non-positive values, does not change weights, diff or recreated.", "quantifier": "every waterfall and positive factors", "why_tests_cant": "metamorphic relation over all inputs", "anchors": ["longitudinal_tomography/tomography/__tomography.py:TomographyABC.__init__", "longitudinal_tomography/tomography/tomography.py:Tomography.run"]}
{"id": "C27", "title": "A perfect reconstruction is a fixed point", "statement": "If the normalised projection of the current weights equals the waterfall, the next iteration leaves weights unchanged and the discrepancy is 0; discrepancy 0 means equality.", "quantifier": "every waterfall, weights", "why_tests_cant": "all inputs", "anchors": ["longitudinal_tomography/cpp_routines/reconstruct.cpp:reconstruct,find_difference_profile,discrepancy"]}
{"id": "C28", "title": "No charge is placed where nothing was measured", "statement": "A particle whose every visited bin is empty in the measured waterfall has weight 0 in the result.", "quantifier": "every waterfall, particle table, niter", "why_tests_cant": "invariant over all iterations", "anchors": ["longitudinal_tomography/cpp_routines/reconstruct.cpp:reconstruct"]}
{"id": "C29", "title": "Projection conserves weight and back projection is its adjoint", "statement": "Every profile of the un-normalised projection sums to the total weight, and <project w, f> = <w, back_project f> for all weights and profiles.", "quantifier": "every particle table, weights, profiles", "why_tests_cant": "algebraic law over all inputs", "anchors": ["longitudinal_tomography/cpp_routines/reconstruct.cpp:project,back_project,create_flat_points"]}
{"id": "C30", "title": "Flattened addressing is exact and in bounds", "statement": "The flat index of particle coordinate x at profile j addresses exactly cell (j,x) of the flattened waterfall; distinct cells get distinct indices; all indices are inside the array.", "quantifier": "every particle table accepted by the setter", "why_tests_cant": "all sizes", "anchors": ["longitudinal_tomography/cpp_routines/reconstruct.cpp:create_flat_points", "longitudinal_tomography/tomography/__tomography.py:_create_flat_points"]}
{"id": "C31", "title": "Particle-count compensation is finite, at least one and exact", "statement": "For each bin the compensation factor is (largest bin count)/(count of the bin), with empty bins counted as one; every factor is >= 1 and finite.", "quantifier": "every particle table with at least one particle", "why_tests_cant": "all tables", "anchors": ["longitudinal_tomography/cpp_routines/reconstruct.cpp:reciprocal_particles,count_particles_in_bin", "longitudinal_tomography/tomography/__tomography.py:_reciprocal_particles"]}
{"id": "C32", "title": "Reconstruction progress callback", "statement": "The callback receives (1,niter),...,(niter,niter) and one final (niter,niter): progress never decreases and ends complete, once per iteration.", "quantifier": "every niter>=0 and run that returns", "why_tests_cant": "all iteration counts", "anchors": ["longitudinal_tomography/cpp_routines/reconstruct.cpp:reconstruct"]}
{"id": "C33", "title": "Multi-bunch reconstruction treats bunches alike", "statement": "TomographyMultibunch.run succeeds iff some bunch has weight, uses only particles inside the cuts of a bunch, stays inside its arrays, and reports for each bunch the RMS difference inside its own cuts, as run_hybrid does.", "quantifier": "every centers, cuts, particle table, number of bunches", "why_tests_cant": "all numbers of bunches and cut positions", "anchors": ["longitudinal_tomography/cpp_routines/reconstruct.cpp:reconstruct_multi,discrepancy_multi,create_mask", "longitudinal_tomography/tomography/tomography_multibunch.py:TomographyMultibunch"]}
{"id": "C34", "title": "The phase-space image conserves weight", "statement": "make_phase_space puts the weight of each particle in cell (x,y) and nowhere else, its total is the total weight, its sum over energy is the projected profile; out-of-image coordinates are reported.", "quantifier": "every coordinate and weight arrays", "why_tests_cant": "all arrays", "anchors": ["longitudinal_tomography/cpp_routines/data_treatment.cpp:make_phase_space", "longitudinal_tomography/data/data_treatment.py:phase_space_from_coordinates"]}
{"id": "C35", "title": "Saved images are normalised", "statement": "create_phase_space_image returns a non-negative image with sum 1.", "quantifier": "every coordinate and weight arrays with positive total weight", "why_tests_cant": "all arrays", "anchors": ["longitudinal_tomography/utils/tomo_output.py:create_phase_space_image"]}
{"id": "C36", "title": "Rebinning conserves charge and the time axis", "statement": "rebin by r returns ceil(n/r) bins, keeps the total of each profile, keeps synch_part_x*dtbin, r=1 changes nothing, and rebinning by a then b equals rebinning by a*b when they divide.", "quantifier": "every waterfall and factor r>=1", "why_tests_cant": "all sizes and factors, divisible or not", "anchors": ["longitudinal_tomography/data/pre_process.py:rebin,_rebin_dividable,_rebin_individable,_rebin_last"]}
{"id": "C37", "title": "Automatic cuts are valid and keep the signal", "statement": "get_cuts returns 0<=left<right<=nbins, accepted by cut_waterfall, and every bin step above threshold lies inside; cut_waterfall returns exactly the bins left..right-1 of each profile.", "quantifier": "every waterfall with at least 2 bins, threshold, margin>=0", "why_tests_cant": "boundary cases for all shapes", "anchors": ["longitudinal_tomography/data/pre_process.py:get_cuts,cut_waterfall"]}
{"id": "C38", "title": "Filtering empty profiles", "statement": "For a non-negative waterfall filter_profiles keeps at least the largest frame, removes every frame that is zero, keeps order, filters xp and yp alike, and returns the new index of the reconstruction profile.", "quantifier": "every non-negative waterfall and index", "why_tests_cant": "all waterfalls and removed sets", "anchors": ["longitudinal_tomography/data/pre_process.py:filter_profiles"]}
{"id": "C39", "title": "Raw data is reshaped without loss or mixing", "statement": "to_waterfall returns an nprofs() x nbins() array whose (i,j) element is raw[(i+skip_frames)*framelength + skip_bins_start + j], or raises.", "quantifier": "every frame setting and raw data length", "why_tests_cant": "all sizes and skips", "anchors": ["longitudinal_tomography/utils/tomo_input.py:Frames.to_waterfall", "longitudinal_tomography/assertions.py:assert_frame_inputs"]}
{"id": "C40", "title": "Baseline subtraction", "statement": "calc_baseline is the mean of the first floor(percent*nbins) bins of the reference profile; adding a constant to the data adds it to the baseline, so the baseline-corrected data does not change.", "quantifier": "every waterfall, percent in [0,1], profile", "why_tests_cant": "all sizes incl. those where the fraction is below one bin", "anchors": ["longitudinal_tomography/compat/fortran.py:calc_baseline", "longitudinal_tomography/utils/tomo_input.py:raw_data_to_profiles"]}
{"id": "C41", "title": "Bunch feet are always found", "statement": "For a profile that drops below 15% of its maximum on both sides, the tangent bins are the outermost consecutive bins at or above threshold around the maximum, inside the profile.", "quantifier": "every profile", "why_tests_cant": "boundary cases for all profiles", "anchors": ["longitudinal_tomography/data/pre_process.py:_calc_tangentbins"]}
{"id": "C42", "title": "Input-file parameters land in the right place", "statement": "txt_input_to_machine takes every parameter from its documented line, converts 1-based frame numbers to 0-based, and min/max time limits to nbins-relative times; any other number of lines raises InputError.", "quantifier": "every input array of lines", "why_tests_cant": "all inputs", "anchors": ["longitudinal_tomography/utils/tomo_input.py:txt_input_to_machine,_min_max_dt"]}
{"id": "C43", "title": "Accepted machine settings can be run", "statement": "If assert_machine_input accepts a machine, then reference frames, film range and film step are usable: every frame index in use is inside the recorded profiles and the film loop runs at least once.", "quantifier": "every machine setting", "why_tests_cant": "all settings", "anchors": ["longitudinal_tomography/assertions.py:assert_machine_input", "longitudinal_tomography/utils/tomo_run.py:run"]}
{"id": "C44", "title": "Index normalisation", "statement": "assert_index_ok returns the Python-style index in [0,limit) or raises; with wrap_around it equals index modulo limit on [-limit,limit).", "quantifier": "every integer index, limit, wrap flag", "why_tests_cant": "all integers", "anchors": ["longitudinal_tomography/assertions.py:assert_index_ok"]}
{"id": "C45", "title": "Machine energies follow the RF voltage turn by turn", "statement": "After values_at_turns e0[i+1]-e0[i] = q*V(phi0[i+1], t[i+1]) and time advances by one revolution per turn for every turn, whatever the reference frame; deltaE0[i] = e0[i]-e0[i-1]; all arrays have nturns+1 entries.", "quantifier": "every machine, reference frame, root finder", "why_tests_cant": "for all turns and reference frames", "anchors": ["longitudinal_tomography/tracking/machine.py:Machine.values_at_turns"]}
{"id": "C46", "title": "Newton derivatives match their functions", "statement": "drf_voltage, drfvolt_rf1 and dphase_low are the exact derivatives of rf_voltage, rfvolt_rf1 and phase_low as used by the root finders.", "quantifier": "every phase and machine parameter (real arithmetic)", "why_tests_cant": "derivative identities at every real point", "anchors": ["longitudinal_tomography/utils/physics.py:rf_voltage,drf_voltage,rfvolt_rf1,drfvolt_rf1,phase_low,dphase_low"]}
{"id": "C47", "title": "Relativistic quantities stay physical", "statement": "For accepted machines e0 at the reference turn is at least the rest energy, beta lies in (0,1), revolution frequency is positive and below c/R, and energy^2 = momentum^2 + mass^2.", "quantifier": "every accepted machine (real arithmetic)", "why_tests_cant": "all real inputs", "anchors": ["longitudinal_tomography/utils/physics.py:b_to_e,lorentz_beta,revolution_freq,phase_slip_factor", "longitudinal_tomography/data/post_process.py:rms_dpp"]}
{"id": "C48", "title": "Reconstruction area limits are usable", "statement": "If find_binned_phase_energy_limits returns, then building the distribution cannot fail: 0<=imin<=imax<nbins, 0<=jmin, jmax<=nbins on the used bins, the area is symmetric about the synchronous energy and respects the user time limits.", "quantifier": "every trajectory height profile, nbins, user limits", "why_tests_cant": "all limits", "anchors": ["longitudinal_tomography/tracking/phase_space_info.py:PhaseSpaceInfo"]}
{"id": "C49", "title": "nbins and the synchronous energy bin stay in step", "statement": "After any sequence of nbins assignments synch_part_y is nbins/2; a rejected waterfall leaves Profiles and Machine unchanged, and machine.nbins is the width of the stored waterfall.", "quantifier": "every history of assignments", "why_tests_cant": "invariant over all histories", "anchors": ["longitudinal_tomography/tracking/machine_base.py:MachineABC.nbins", "longitudinal_tomography/data/profiles.py:Profiles.waterfall"]}
{"id": "C50", "title": "The wrapped self-field window covers the image", "statement": "wrap_length >= nbins, phiwrap is a whole number of RF periods at least as long as the image, and the self-field table is zero outside the image.", "quantifier": "every nbins>=1, bin size, number of profiles", "why_tests_cant": "all real bin sizes", "anchors": ["longitudinal_tomography/data/profiles.py:Profiles._find_wrap_length,Profiles._calculate_self"]}
{"id": "C51", "title": "Precision and device switches are consistent under every history", "statement": "After any sequence of use_cpu, use_gpu, set_single_precision, set_double_precision, the loaded GPU kernels used have the selected precision and device, and the active functions match the enabled device.", "quantifier": "every history of configuration calls", "why_tests_cant": "invariant over all histories; needs a GPU to test", "anchors": ["longitudinal_tomography/utils/tomo_config.py:AppConfig,GPUDev"]}
{"id": "C52", "title": "Beam quality numbers mean what they say", "statement": "_std_from_histogram is the standard deviation; emittance_fractional is the area of the smallest set of cells holding the fraction; rms values are invariant under shifting the axes.", "quantifier": "every histogram", "why_tests_cant": "all histograms", "anchors": ["longitudinal_tomography/data/post_process.py:_std_from_histogram,emittance_fractional,emittance_rms"]}
{"id": "C53", "title": "RMS emittance of an image is well defined", "statement": "For a normalised non-negative image the RMS emittance radicand computed by rms_params is >= 0.", "quantifier": "every normalised image", "why_tests_cant": "Cauchy-Schwarz for all images", "anchors": ["longitudinal_tomography/utils/tomographics.py:rms_params"]}
{"id": "C54", "title": "Foot tangent fit recovers a straight edge", "statement": "If the four bins at an edge lie on a straight line, foot_tangent_fit returns the zero of that line, on both sides.", "quantifier": "every line", "why_tests_cant": "all slopes and offsets", "anchors": ["longitudinal_tomography/utils/tomographics.py:foot_tangent_fit"]}
{"id": "C55", "title": "Output files and lines are unambiguous", "statement": "Different film indices write different files; the two writers of the discrepancy file write the same lines.", "quantifier": "every film index and iteration number", "why_tests_cant": "all indices", "anchors": ["longitudinal_tomography/compat/fortran.py:save_profile,save_phase_space,save_difference", "longitudinal_tomography/compat/tomoscope.py:save_difference"]}
{"id": "C56", "title": "Piped input is split at the right place", "statement": "Input read from standard input takes exactly the 98 parameter lines and, only if the data are piped, one line per measurement; the result is the parameters and the data in order, and a wrong number of measurements raises InputError.", "quantifier": "every input stream and file", "why_tests_cant": "all streams, of any length", "anchors": ["longitudinal_tomography/utils/tomo_input.py:get_user_input,_get_input_stdin,_split_input"]}
{"id": "C57", "title": "Emittance of a density fraction is ordered", "statement": "emittance_density_calc refuses fractions outside the open interval (0, 1); for an image with no negative pixel it returns a value between 0 and (N - 1) dt dE, grows with the fraction and does not depend on where the cells are; for the fraction held by the k largest of positive cells it is the area of k - 1 cells. foot_tangent_fit_density refuses levels outside (0, 1), returns values within the range of the density axis, does not depend on the unit and offset of the ordinates, and for a straight edge gives the axis at a fixed distance behind its zero.", "quantifier": "every image, fraction and profile", "why_tests_cant": "all images and all real fractions", "anchors": ["longitudinal_tomography/utils/tomographics.py:emittance_density_calc,foot_tangent_fit_density"]}
{"id": "C58", "title": "Saved files can be read back", "statement": "The text saved for a profile, an image, the self-field voltages or the discrepancy has one line per number, in the order of the bins (row by row for tables), and every number read back from it is within half a unit of the eighth significant digit of the one saved; the discrepancy file also holds the iteration number exactly, for any number of iterations and for both writers. A profile index out of range is refused.", "quantifier": "every array of finite numbers, every index", "why_tests_cant": "all magnitudes, signs and exponents, including those where rounding carries into a new digit", "anchors": ["longitudinal_tomography/compat/fortran.py:save_profile,save_phase_space,save_self_volt_profile,save_difference", "longitudinal_tomography/compat/tomoscope.py:save_difference,save_image,save_profile"]}
{"id": "C59", "title": "Plot information states the machine's values", "statement": "write_plotinfo refuses particles without energy bin width or phase limits and machines without a phase at the reference turn, in this order; otherwise its lines give every value to the digits of its format, the phase is the one at the reference turn, the profile number is counted from one, and the fit results are those of the machine if all three are there and zero otherwise.", "quantifier": "every machine and distribution", "why_tests_cant": "all values and all combinations of missing attributes", "anchors": ["longitudinal_tomography/compat/fortran.py:write_plotinfo,print_tracking_status"]}
{"id": "C60", "title": "The GPU reconstructs what the CPU reconstructs", "statement": "Tomography.run with the GPU switched on ends with the weights, discrepancies and recreated values of the run on the CPU, or with the same exception, whatever the number of threads in a block, the former contents of the device's memory and the interleaving of the threads; no thread accesses memory outside an array and no kernel runs for ever.", "quantifier": "every Tomography object with at least one particle, number of iterations, block size, initial device memory and interleaving of all threads of all kernels", "why_tests_cant": "the number of interleavings is astronomical, data races on a GPU seldom show, and tests need a GPU", "anchors": ["longitudinal_tomography/cuda_kernels/reconstruct.cu:back_project,project,clip,find_diffprof,compensate_particle_amount,count_particles_in_bin,calculate_reciprocal,create_flat_points", "longitudinal_tomography/python_routines/reconstruct_cuda.py:reconstruct_cuda", "longitudinal_tomography/tomography/tomography.py:Tomography.run"]}
{"id": "C61", "title": "A run on the GPU leaves the object as a run on the CPU does", "statement": "After Tomography.run the attributes weight, diff and recreated have the same shape and values whether the GPU is switched on or not, and the callback has been called in the same way.", "quantifier": "every Tomography object with at least one particle, number of iterations and interleaving", "why_tests_cant": "all objects and interleavings; tests need a GPU", "anchors": ["longitudinal_tomography/tomography/tomography.py:Tomography.run", "longitudinal_tomography/python_routines/reconstruct_cuda.py:reconstruct_cuda"]}
{"id": "C62", "title": "The CuPy reconstruction is the compiled reconstruction", "statement": "reconstruct_cupy returns the weights, discrepancies and recreated profiles of the compiled reconstruction, or raises the same exception.", "quantifier": "every Tomography object with at least one particle and every number of iterations", "why_tests_cant": "all coordinates, profiles and shapes", "anchors": ["longitudinal_tomography/python_routines/reconstruct_cupy.py:reconstruct_cupy"]}
{"id": "C63", "title": "The CuPy tracking is the compiled tracking", "statement": "kick_and_drift_cupy leaves in xp and yp what the compiled routine leaves there.", "quantifier": "every machine, distribution, number of turns, recording profile and turn offset for which the compiled routine succeeds, and every arithmetic", "why_tests_cant": "all machines and distributions", "anchors": ["longitudinal_tomography/python_routines/kick_and_drift_cupy.py:kick_and_drift_cupy"]}
{"id": "C64", "title": "A machine from programs has the turns its programs describe", "statement": "ProgramsMachine built from momentum and voltage programs has one value per turn: dturns*nprofiles turns of which turn machine_ref_frame*dturns is the first not before t_ref, from each turn to the next one revolution at the momentum of that turn passes, and the momentum and voltages of a turn are those of the programs at its time.", "quantifier": "every increasing program of positive momenta, every reference time, machine and number of turns", "why_tests_cant": "the interpolation walks along any number of segments, each crossed by any number of turns", "anchors": ["longitudinal_tomography/tracking/programs_machine.py:ProgramsMachine._interpolate_momentum", "longitudinal_tomography/tracking/programs_machine.py:ProgramsMachine.values_at_turns"]}
{"id": "C65", "title": "Building a machine from programs ends, and succeeds if the programs are long enough", "statement": "The search for the turns ends for every increasing program of positive momenta, with the turns or with an exception; a program that covers the turns asked for (and one revolution more) gives a machine.", "quantifier": "every increasing program of positive momenta", "why_tests_cant": "a loop that waits for a time to be reached: tests cannot show that it always ends", "anchors": ["longitudinal_tomography/tracking/programs_machine.py:ProgramsMachine._interpolate_momentum", "longitudinal_tomography/tracking/programs_machine.py:ProgramsMachine.__init__"]}
{"id": "C66", "title": "The values a machine from programs stores belong together", "statement": "For each turn ProgramsMachine stores energy, speed, slip factor, drift coefficient (with the harmonic passed), revolution frequency, energy gain since the turn before and time, computed from the momentum of that turn, one of each per turn, so that the machine can be tracked.", "quantifier": "every machine and program", "why_tests_cant": "all programs and all turns", "anchors": ["longitudinal_tomography/tracking/programs_machine.py:ProgramsMachine.values_at_turns"]}
{"id": "C67", "title": "The phases found for a machine from programs are synchronous", "statement": "With a phase program or with phi12 passed in one of the documented forms (number or array), the phases stored are synchronous: the voltage of the turn at that phase equals the energy gain that the change of the field asks for, with phi12 computed from the phase program of the two harmonics.", "quantifier": "every machine, program and exact root finder", "why_tests_cant": "all programs and all turns", "anchors": ["longitudinal_tomography/tracking/programs_machine.py:ProgramsMachine.find_synchronous_phase", "longitudinal_tomography/tracking/programs_machine.py:ProgramsMachine.values_at_turns"]}
{"id": "C68", "title": "The derivative of the field is exact for a linear ramp", "statement": "The field derivative of ProgramsMachine is the derivative of the field computed from the momentum; it is exact if the momentum is linear in time, whatever the lengths of the turns.", "quantifier": "every machine and program whose turns lie on a linear ramp", "why_tests_cant": "unequally spaced times of any number", "anchors": ["longitudinal_tomography/tracking/programs_machine.py:ProgramsMachine.values_at_turns"]}
{"id": "C69", "title": "The sine used in tracking is accurate in double precision", "statement": "The sine and cosine computed for the kicks of the compiled tracking are, for every finite phase, the true sine and cosine of a phase that differs by at most a few rounding errors of the phase given, up to an absolute error of the size of one rounding error; the sine is odd.", "quantifier": "every phase and every rounding function with 53 digits", "why_tests_cant": "there are 2^64 phases", "anchors": ["longitudinal_tomography/cpp_routines/sin.h:fast_sin", "longitudinal_tomography/cpp_routines/sincos.h:fast_sincos", "longitudinal_tomography/cpp_routines/vdtcore_common.h"]}
{"id": "C70", "title": "The sine used in tracking is accurate in single precision", "statement": "The same in single precision: the sine and cosine are those of a phase that differs by at most about 1.9e-7 of it plus 3e-7, up to an absolute error of 2.1e-7.", "quantifier": "every phase and every rounding function with 24 digits", "why_tests_cant": "all phases and rounding modes", "anchors": ["longitudinal_tomography/cpp_routines/sin.h:fast_sinf", "longitudinal_tomography/cpp_routines/sincos.h:fast_sincosf"]}
{"id": "C71", "title": "Tracking with rounding stays near exact tracking", "statement": "The phase and the energy that tracking in double precision gives a particle at a recorded turn differ from those of exact tracking with the true sine by at most the rounding errors of the turns between, each magnified by at most the growth factor of the machine for the turns after it; forwards and backwards.", "quantifier": "every machine, particle, number of turns, starting profile and rounding function with 53 digits whose particles stay within the bounds given", "why_tests_cant": "any number of turns and all particles", "anchors": ["longitudinal_tomography/tracking/tracking.py:Tracking.track", "longitudinal_tomography/cpp_routines/kick_and_drift.cpp:kick_and_drift", "longitudinal_tomography/cpp_routines/sin.h:fast_sin"]}
{"id": "C72", "title": "Fit of the synchronous bin", "statement": "When the position of the synchronous particle is not given it is fitted from the reference profile: the feet of the bunch are the zeros of the least-squares lines through four bins at either end, and with the fitted bin at the synchronous phase both feet are at the same potential of the RF voltage of the reference turn. In a stationary bucket with one harmonic this is the middle between the feet. The gain of the pick-up does not matter.", "quantifier": "every profile, machine and root finder that returns roots", "why_tests_cant": "all profiles and machines; the tests compare two fixed data sets with stored numbers", "anchors": ["longitudinal_tomography/data/pre_process.py:fit_synch_part_x", "longitudinal_tomography/data/pre_process.py:_calc_tangentfeet", "longitudinal_tomography/utils/physics.py:phase_low"]}
{"id": "C73", "title": "Charge of the bunch", "statement": "The computed charge, times the elementary charge and the pick-up sensitivity, is the integral over time of the reference profile. With the original sampling time it does not change when the profiles are rebinned.", "quantifier": "every waterfall, reference profile, sampling time, sensitivity and rebinning factor", "why_tests_cant": "all profiles and rebinning factors", "anchors": ["longitudinal_tomography/data/profiles.py:Profiles.calc_profilecharge", "longitudinal_tomography/data/pre_process.py:rebin"]}
{"id": "C74", "title": "A run returns a density over the reconstruction area", "statement": "tomo_run.run returns axes with their zero at the synchronous particle and an n x n image for profiles of n bins that is nowhere negative, has total one and is zero outside the reconstruction area. Each cell is the share in the total weight of the particles that started in it at the reconstructed profile, where exactly the particles that stay inside the profiles at every profile take part.", "quantifier": "every parameter file, raw data and profile for which the run ends with an image", "why_tests_cant": "all parameter files and data; the steps of the run are only tested one by one", "anchors": ["longitudinal_tomography/utils/tomo_run.py:run", "longitudinal_tomography/tracking/tracking.py:Tracking.track", "longitudinal_tomography/data/data_treatment.py:phase_space"]}
{"id": "C75", "title": "A constant offset of the raw data has no effect", "statement": "Adding a constant to all raw data leaves the result of a run unchanged, value or exception.", "quantifier": "every parameter file, raw data, constant", "why_tests_cant": "all data and constants", "anchors": ["longitudinal_tomography/utils/tomo_run.py:run", "longitudinal_tomography/data/profiles.py:raw_data_to_profiles"]}
{"id": "C76", "title": "The gain of the measurement has no effect", "statement": "Multiplying all raw data by a positive number leaves the result of a run unchanged, value or exception.", "quantifier": "every parameter file, raw data, positive number", "why_tests_cant": "all data and factors", "anchors": ["longitudinal_tomography/utils/tomo_run.py:run", "longitudinal_tomography/tomography/__tomography.py:TomographyABC.__init__"]}
{"id": "C77", "title": "The self-field flag of the input switches on self-fields", "statement": "A run with the self-field flag set in the parameter file tracks with self-fields.", "quantifier": "every parameter file and raw data", "why_tests_cant": "the flag is tested on another object", "anchors": ["longitudinal_tomography/utils/tomo_run.py:run", "longitudinal_tomography/tracking/__tracking.py:ParticleTracker.__init__", "longitudinal_tomography/tracking/tracking.py:Tracking.track"]}
{"id": "C78", "title": "No run accesses memory outside its arrays", "statement": "A run ends with an image or an exception; it neither reads or writes outside an array, in Python or C++, nor loops for ever.", "quantifier": "every parameter file, raw data and profile number", "why_tests_cant": "all inputs, including wrong ones", "anchors": ["longitudinal_tomography/utils/tomo_run.py:run", "longitudinal_tomography/cpp_routines/kick_and_drift.cpp:kick_and_drift", "longitudinal_tomography/cpp_routines/reconstruct.cpp:reconstruct"]}
{"id": "C79", "title": "The shortcuts do the same as a run", "statement": "Reading the input, shortcuts.track and shortcuts.tomogram one after the other give what tomo_run.run gives. The default arguments can be used.", "quantifier": "every parameter file, raw data, profile number", "why_tests_cant": "all inputs; no test compares the two ways", "anchors": ["longitudinal_tomography/utils/tomo_run.py:run", "longitudinal_tomography/shortcuts.py:track", "longitudinal_tomography/shortcuts.py:tomogram", "longitudinal_tomography/shortcuts.py:read_input_file"]}
{"id": "C80", "title": "The profile to be reconstructed", "statement": "Without a number a run reconstructs the first profile of the film, a number may count from the end, every profile can be chosen, and the area does not depend on the choice.", "quantifier": "every parameter file, raw data, profile number", "why_tests_cant": "all numbers of profiles and choices", "anchors": ["longitudinal_tomography/utils/tomo_run.py:run", "longitudinal_tomography/tracking/tracking.py:Tracking.track", "longitudinal_tomography/tracking/phase_space_info.py:PhaseSpaceInfo.find_binned_phase_energy_limits"]}
{"id": "C81", "title": "A reconstruction in floating point stays finite", "statement": "With rounded arithmetic of finite range, a reconstruction of profiles between 0 and 1 ends with finite weights, recreated profiles and discrepancies or with the exception for weights that are all zero. No overflow, not-a-number or division by zero occurs, whatever the order in which compiler and threads add.", "quantifier": "every rounding function, order of summation, number of threads, waterfall in range, table of coordinates, number of iterations of a size that the format holds", "why_tests_cant": "rounding, summation order and thread schedule vary with compiler and machine; tests see one of each", "anchors": ["longitudinal_tomography/cpp_routines/reconstruct.cpp:reconstruct", "setup.py", "longitudinal_tomography/tomography/tomography.py:Tomography.waterfall"]}
{"id": "C82", "title": "The reconstruction does not depend on the number of threads", "statement": "The weights, recreated profiles and discrepancies are the same bit for bit for every number of threads and every order in which their partial sums are added.", "quantifier": "every rounding function, pair of schedules of the sums over threads, input in range", "why_tests_cant": "a test fixes the number of threads and sees one schedule", "anchors": ["longitudinal_tomography/cpp_routines/reconstruct.cpp:reconstruct", "longitudinal_tomography/cpp_routines/reconstruct.cpp:back_project"]}
{"id": "C83", "title": "Particles that see no charge weigh nothing, also with rounding", "statement": "In floating point a particle that is in empty bins in all profiles has weight exactly 0 at the end. If that is so of all particles the reconstruction is refused, and if one sees charge it starts.", "quantifier": "every rounding function, order of summation, input in range, particle", "why_tests_cant": "needs exact zeros for all inputs and rounding modes", "anchors": ["longitudinal_tomography/cpp_routines/reconstruct.cpp:reconstruct", "longitudinal_tomography/cpp_routines/reconstruct.cpp:clip"]}
{"id": "C84", "title": "Recreated profiles sum to 1 up to rounding", "statement": "Every recreated profile sums to 1 with an error of at most twice the number of bins times the relative error of one operation.", "quantifier": "every rounding function with a relative error bound, order of summation, input in range, profile", "why_tests_cant": "all inputs and summation orders; a test checks one with a tolerance", "anchors": ["longitudinal_tomography/cpp_routines/reconstruct.cpp:normalize", "longitudinal_tomography/cpp_routines/reconstruct.cpp:reconstruct"]}
{"id": "C85", "title": "The matched area is the area inside a trajectory", "statement": "The matched area of a bunch is the area enclosed by the trajectory of the RF Hamiltonian that is as long as the bunch, up to two parts in a thousand and never too large.", "quantifier": "every machine, bunch length, profile number, and every interpolation and minimiser with the documented behaviour", "why_tests_cant": "a claim on an integral for all machines and bunch lengths; a test compares one number", "anchors": ["longitudinal_tomography/utils/tomographics.py:matched_area_calc", "longitudinal_tomography/utils/tomographics.py:_urf_length_at_level", "longitudinal_tomography/utils/tomographics.py:_residue_urf_length"]}
{"id": "C86", "title": "Contours of the density scan are nested", "statement": "The contours used to scan the density of an image are trajectories, each one inside the next, and the emittances returned for them never decrease from the centre to the edge of the bucket.", "quantifier": "every machine, image, time and energy axis, number of amplitudes", "why_tests_cant": "an order between all pairs of contours for all machines", "anchors": ["longitudinal_tomography/utils/tomographics.py:density_vs_emittance"]}
{"id": "C87", "title": "The density inside a contour is a growing fraction", "statement": "The density inside a contour is between 0 and 1 of the whole image and never decreases with the emittance; the local density lies between its minimum and maximum on the contour; a contour that does not cross the energy axis is refused.", "quantifier": "every image without negative densities, machine, time and energy axis, number of amplitudes", "why_tests_cant": "all images and axes; the failing axes are rare", "anchors": ["longitudinal_tomography/utils/tomographics.py:density_vs_emittance"]}
{"id": "C88", "title": "Clipping removes the particles outside of the contour and keeps the sum", "statement": "Clipping sets the weights of all particles outside of the contour to zero, multiplies the others by one common factor and keeps the sum of the weights; the contour is the first one with the wanted emittance or the last one; the particles returned to mark the contour lie inside.", "quantifier": "every set of particles, weights, target emittance, machine and profile", "why_tests_cant": "all particle distributions, including those on the edges of a time slot", "anchors": ["longitudinal_tomography/utils/tomographics.py:tomo_weight_clipping"]}
{"id": "C89", "title": "The reconstruction does not overflow a C++ int", "statement": "For every number of particles, profiles, bins and iterations that the reconstruction accepts, its integer arithmetic stays inside the range of a C++ int, so that it computes the same as with unbounded integers; arguments that do not fit are refused.", "quantifier": "every Tomography object a program can build and every number of iterations", "why_tests_cant": "the failing sizes need gigabytes of coordinates and the effect is undefined behaviour", "anchors": ["longitudinal_tomography/cpp_routines/reconstruct.cpp", "longitudinal_tomography/cpp_routines/libtomo.cpp:wrapper_reconstruct", "longitudinal_tomography/tomography/tomography.py:Tomography.run"]}
{"id": "C90", "title": "The tracking does not overflow a C++ int", "statement": "For every machine, distribution and reconstructed profile that the tracking accepts, its turn, profile and progress counters and the positions of the rows of the output stay inside the range of a C++ int, so that it computes the same as with unbounded integers.", "quantifier": "every machine, number type, distribution, profile and turn offset", "why_tests_cant": "the failing sizes need gigabytes of coordinates and the effect is undefined behaviour", "anchors": ["longitudinal_tomography/cpp_routines/kick_and_drift.cpp:kick_and_drift", "longitudinal_tomography/cpp_routines/libtomo.cpp:wrapper_kick_and_drift_array"]}
{"id": "C91", "title": "The phase space image does not overflow a C++ int", "statement": "For every number of bins and particles the image is computed without overflow of a C++ int and takes all particles into account; a coordinate too far outside the image is reported.", "quantifier": "every set of coordinates and weights and every number of bins", "why_tests_cant": "all sizes and all 32-bit coordinates", "anchors": ["longitudinal_tomography/cpp_routines/data_treatment.cpp:make_phase_space", "longitudinal_tomography/cpp_routines/libtomo.cpp:wrapper_make_phase_space"]}
{"id": "C92", "title": "The number of particles in a bin is exact in every precision", "statement": "The numbers of particles per bin, from which the compensation factors are computed, are exact in single and in double precision.", "quantifier": "every set of coordinates, every precision with exact integers up to some limit", "why_tests_cant": "the limit in single precision is more than sixteen million particles in one bin", "anchors": ["longitudinal_tomography/cpp_routines/reconstruct.cpp:count_particles_in_bin", "longitudinal_tomography/cpp_routines/reconstruct.cpp:reciprocal_particles"]}
{"id": "C93", "title": "The phase between two RF systems follows the chosen mode", "statement": "calc_phi12 sets the phase of the second RF system at every turn so that the synchronous phase of the first system stays synchronous for both together, for particles of either charge and on both sides of transition; it lowers the slope of the voltage there in the lengthening mode and raises it in the shortening mode. find_synchronous_phase then finds phases that are synchronous for both systems.", "quantifier": "every machine with programmed values, every mode and turn", "why_tests_cant": "all machines and programs; no test checks the phases", "anchors": ["longitudinal_tomography/tracking/programs_machine.py:ProgramsMachine.calc_phi12", "longitudinal_tomography/tracking/programs_machine.py:ProgramsMachine.find_synchronous_phase"]}
{"id": "C94", "title": "Keyword arguments of a machine", "statement": "Each documented keyword argument of Machine sets its attribute, in any order of the arguments; without it the attribute has the documented default. A keyword that is not known is reported.", "quantifier": "every set of keyword arguments with any values", "why_tests_cant": "all combinations of arguments, including misspelt ones", "anchors": ["longitudinal_tomography/tracking/machine_base.py:MachineABC._process_kwargs", "longitudinal_tomography/tracking/machine.py:Machine.__init__"]}
{"id": "C95", "title": "Tracking uses the current settings of the machine", "statement": "After any sequence of changes to the attributes of a machine and calls of values_at_turns, a tracker made from it either uses values that belong to the current settings or is refused.", "quantifier": "every sequence of assignments and calculations, successful or not", "why_tests_cant": "all histories of an object, including failed calculations", "anchors": ["longitudinal_tomography/tracking/machine.py:Machine.values_at_turns", "longitudinal_tomography/tracking/__tracking.py:ParticleTracker.__init__", "longitudinal_tomography/tracking/tracking.py:Tracking.track"]}
{"id": "C96", "title": "Tracking uses the self-fields of the current profiles", "statement": "After any sequence of changes to the profiles, their charge and the machine and of calculations of self-fields, enabling self-fields in a tracker either gives it the self-fields that belong to the current profiles or is refused; a refused calculation changes nothing.", "quantifier": "every sequence of assignments, calculations and activations, successful or not", "why_tests_cant": "all histories of the objects, including failed calculations", "anchors": ["longitudinal_tomography/data/profiles.py:Profiles.calc_self_fields", "longitudinal_tomography/tracking/__tracking.py:ParticleTracker.enable_self_fields", "longitudinal_tomography/tracking/__tracking.py:ParticleTracker.enable_fortran_output"]}
{"id": "C97", "title": "A longer reconstruction continues a shorter one", "statement": "If a reconstruction with n + m iterations succeeds, so does one with n iterations on the same data, and its n + 1 discrepancies are the first of the longer one; a reconstruction with more iterations than one that raised raises the same exception.", "quantifier": "every object, every n and m, run and run_hybrid", "why_tests_cant": "all data and all numbers of iterations", "anchors": ["longitudinal_tomography/tomography/tomography.py:Tomography.run", "longitudinal_tomography/tomography/tomography.py:Tomography.run_hybrid", "longitudinal_tomography/cpp_routines/reconstruct.cpp:reconstruct"]}
{"id": "C98", "title": "The order of the profiles does not matter", "statement": "Taking the measured profiles, and the coordinates of the particles at them, in any other order gives the same weights and discrepancies, and the rows of the recreated waterfall in that order (exact arithmetic).", "quantifier": "every object and every permutation of its profiles, any number of iterations", "why_tests_cant": "all permutations and data", "anchors": ["longitudinal_tomography/tomography/tomography.py:Tomography.run", "longitudinal_tomography/tomography/tomography.py:Tomography.run_hybrid", "longitudinal_tomography/cpp_routines/reconstruct.cpp:reconstruct"]}
{"id": "C99", "title": "The numbering of the bins does not matter", "statement": "Renumbering the bins of each profile consistently in the waterfall and in the coordinates, for instance reversing the time axis, gives the same weights and discrepancies and the same recreated waterfall with the bins renumbered (exact arithmetic).", "quantifier": "every object and every permutation of bins for each profile, any number of iterations", "why_tests_cant": "all permutations and data", "anchors": ["longitudinal_tomography/tomography/tomography.py:Tomography.run", "longitudinal_tomography/tomography/tomography.py:Tomography.run_hybrid", "longitudinal_tomography/cpp_routines/reconstruct.cpp:reconstruct"]}
{"id": "C100", "title": "More copies of the same particles give the same reconstruction", "statement": "If every particle is given k times, each copy gets the weight that the particle gets when given once, and the discrepancies and the recreated waterfall are the same.", "quantifier": "every object, every k > 0, any number of iterations, run and run_hybrid", "why_tests_cant": "all data, numbers of copies and iterations", "anchors": ["longitudinal_tomography/tomography/tomography.py:Tomography.run", "longitudinal_tomography/tomography/tomography.py:Tomography.run_hybrid", "longitudinal_tomography/cpp_routines/reconstruct.cpp:reconstruct"]}
{"id": "C101", "title": "The discrepancy is bounded whatever the data", "statement": "Every discrepancy returned by a reconstruction is the square root of a number between 0 and 2 divided by the number of bins.", "quantifier": "every object, any number of iterations", "why_tests_cant": "all data, also data that cannot be reconstructed", "anchors": ["longitudinal_tomography/tomography/tomography.py:Tomography.run", "longitudinal_tomography/tomography/tomography.py:Tomography.run_hybrid", "longitudinal_tomography/cpp_routines/reconstruct.cpp:reconstruct"]}
{"id": "C102", "title": "More iterations never give a larger discrepancy", "statement": "The discrepancy does not grow from one iteration to the next.", "quantifier": "every object, any number of iterations", "why_tests_cant": "all data", "anchors": ["longitudinal_tomography/tomography/tomography.py:Tomography.run", "longitudinal_tomography/tomography/tomography.py:Tomography.run_hybrid", "longitudinal_tomography/cpp_routines/reconstruct.cpp:reconstruct"]}
{"id": "C103", "title": "Tracking returns the tracked coordinates in either precision", "statement": "On the CPU and without self-fields, Tracking.track returns the coordinates that the tracking routine computes in the selected precision, whatever kind of number or array the machine holds for phi12 and for the ratio of harmonics.", "quantifier": "every machine, initial distribution, reconstruction profile, precision and kind of value (Python float, int, numpy.float32, array of either precision, contiguous or not)", "why_tests_cant": "the compiled function has five overloads and silently works on copies when an argument has to be converted; which one is called depends on the types of all arguments together", "anchors": ["longitudinal_tomography/tracking/tracking.py:Tracking.track", "longitudinal_tomography/cpp_routines/libtomo.cpp:wrapper_kick_and_drift_scalar", "longitudinal_tomography/cpp_routines/libtomo.cpp:wrapper_kick_and_drift_array", "longitudinal_tomography/utils/tomo_config.py:cast"]}
{"id": "C104", "title": "The function kept for older programs tracks like the new one", "statement": "tomolib_wrappers.kick_and_drift returns the tracked coordinates, as libtomo.kick_and_drift does, and raises InputError if it is given neither a machine nor all machine arguments.", "quantifier": "all arguments", "why_tests_cant": "all numbers of turns and particles, both ways of calling it", "anchors": ["longitudinal_tomography/cpp_routines/tomolib_wrappers.py:kick_and_drift", "longitudinal_tomography/cpp_routines/libtomo.cpp:wrapper_kick_and_drift_machine"]}
{"id": "C105", "title": "Tracking leaves the initial distribution as it was", "statement": "Tracking.track changes no array of the caller; afterwards init_dphi and init_denergy of the tracker, and its particles object, hold the initial distribution.", "quantifier": "every machine, initial distribution, precision and reconstruction profile", "why_tests_cant": "the compiled routine writes into its arguments; whether these are shared depends on the types of all arguments", "anchors": ["longitudinal_tomography/tracking/tracking.py:Tracking.track", "longitudinal_tomography/tracking/particles.py:Particles.coordinates_dphi_denergy", "longitudinal_tomography/cpp_routines/kick_and_drift.cpp:kick_and_drift"]}
{"id": "C106", "title": "kick and drift of one turn work on arrays of every type and layout", "statement": "libtomo.kick and libtomo.drift return the coordinates after one turn's kick or drift, change no array but the one they return, and take the machine object whether its phi12 is a number or an array of values per turn.", "quantifier": "all arrays (type, layout), particle numbers, turns within the arrays, both directions, every machine object", "why_tests_cant": "whether the argument is changed in place or copied depends on its type and layout", "anchors": ["longitudinal_tomography/cpp_routines/libtomo.cpp:wrapper_kick", "longitudinal_tomography/cpp_routines/libtomo.cpp:wrapper_drift"]}
{"id": "C107", "title": "Turn by turn tracking leaves the arrays it is given as they were", "statement": "Tracking.kick_and_drift returns the coordinates of every particle at every profile, changes no array of the caller, and accepts phi12 as a number or as an array of values per turn, as Tracking.track does.", "quantifier": "all particle arrays (type, layout), machines, reconstruction profiles and turn offsets", "why_tests_cant": "in-place changes depend on the types of the arguments and show only after the call", "anchors": ["longitudinal_tomography/tracking/tracking.py:Tracking.kick_and_drift", "longitudinal_tomography/cpp_routines/libtomo.cpp:wrapper_kick", "longitudinal_tomography/cpp_routines/libtomo.cpp:wrapper_drift"]}
{"id": "C108", "title": "Counting particles in bins works on arrays of every type and layout", "statement": "libtomo.count_particles_in_bins adds to each counter the number of particles in its bin, updates and returns the array of counters it is given if that is a contiguous array of floats of either precision, changes no other array, and means the same whether its numbers are given by position or by name.", "quantifier": "all arrays of counters and positions (type, layout), numbers of particles, profiles and bins that fit a C++ int, positions within the bins", "why_tests_cant": "which compiled version runs, and whether the counters are copied, depends on the types and layouts of both arrays together", "anchors": ["longitudinal_tomography/cpp_routines/libtomo.cpp:wrapper_count_particles_in_bin", "longitudinal_tomography/cpp_routines/libtomo.cpp:PYBIND11_MODULE"]}
{"id": "C109", "title": "Projection and back projection work on arrays of every type and layout", "statement": "libtomo.back_project adds to each weight the values of the waterfall in the bins the particle passes; libtomo.project adds to each bin the weights of the particles in it and returns a waterfall of shape (profiles, bins). Both change no array but the one they return, which is the one given if it is a contiguous array of doubles.", "quantifier": "all arrays (type, layout), weights, waterfalls and indices within the waterfall; the array written to is none of those read", "why_tests_cant": "copies and in-place changes depend on types and layouts; the sums range over all particles and profiles", "anchors": ["longitudinal_tomography/cpp_routines/libtomo.cpp:wrapper_project", "longitudinal_tomography/cpp_routines/libtomo.cpp:wrapper_back_project", "longitudinal_tomography/cpp_routines/tomolib_wrappers.py:project"]}
{"id": "C110", "title": "The compiled reconstruction returns new arrays in the precision of the waterfall", "statement": "libtomo.reconstruct returns the weights, the discrepancies after every iteration and the recreated waterfall as three new arrays of shapes (particles), (iterations + 1) and (profiles, bins), or raises RuntimeError if all weights become zero. It changes none of its arguments and works in the precision of the waterfall.", "quantifier": "all arrays of positions and waterfalls (type, layout), numbers of iterations, particles, profiles and bins that fit a C++ int, with and without verbose and callback", "why_tests_cant": "the compiled version is chosen from the types and layouts of two arguments; the values depend on every iteration", "anchors": ["longitudinal_tomography/cpp_routines/libtomo.cpp:wrapper_reconstruct", "longitudinal_tomography/cpp_routines/reconstruct.cpp:reconstruct"]}
{"id": "C111", "title": "A reconstruction object owns its arrays and works in the selected precision", "statement": "Making a Tomography object and running it changes no array of the caller. The object keeps the waterfall and the positions in arrays of its own; every run gives the results of the reconstruction of these values, in three new arrays of the precision selected when the object was made.", "quantifier": "all waterfalls and positions (type, memory layout), both precisions, numbers that fit a C++ int, any number of runs with other arrays made in between", "why_tests_cant": "sharing and precision depend on the types and the layout in memory of the arrays given, and show in later calls", "anchors": ["longitudinal_tomography/tomography/__tomography.py:TomographyABC.__init__", "longitudinal_tomography/tomography/__tomography.py:TomographyABC.xp", "longitudinal_tomography/tomography/tomography.py:Tomography.run", "longitudinal_tomography/utils/tomo_config.py:cast_to_cpu"]}
{"id": "C112", "title": "Images of phase space hold the weight of every cell, in the precision of the weights", "statement": "libtomo.make_phase_space, phase_space and create_phase_space_image change no array and return a new array of shape (bins, bins). Its cells hold the weight of the particles in them, divided by the total weight for create_phase_space_image, and its precision is that of the weights.", "quantifier": "all coordinates inside the image and weights (type, memory layout), both precisions, any profile, numbers of particles and of cells that fit a C++ int", "why_tests_cant": "the version called and its precision depend on the types and the layout in memory of all three arrays", "anchors": ["longitudinal_tomography/cpp_routines/libtomo.cpp:wrapper_make_phase_space", "longitudinal_tomography/cpp_routines/data_treatment.cpp:make_phase_space", "longitudinal_tomography/data/data_treatment.py:phase_space", "longitudinal_tomography/data/data_treatment.py:phase_space_from_coordinates", "longitudinal_tomography/utils/tomo_output.py:create_phase_space_image"]}
{"id": "C113", "title": "A multi-bunch reconstruction changes no array and works in the selected precision", "statement": "TomographyMultibunch.run changes no array of the caller or of the object. Every run stores the results of the multi-bunch reconstruction of the values the object was made from in new arrays of the precision selected then, and returns the weights.", "quantifier": "all waterfalls and positions (type, memory layout), both precisions, centres and cuts as lists or integer arrays of any layout, numbers that fit a C++ int, any number of runs with other arrays made in between", "why_tests_cant": "sharing and precision depend on the types and the layout in memory of all arrays given, and show in later calls", "anchors": ["longitudinal_tomography/tomography/tomography_multibunch.py:TomographyMultibunch.run", "longitudinal_tomography/cpp_routines/libtomo.cpp:wrapper_reconstruct_multi", "longitudinal_tomography/tomography/__tomography.py:TomographyABC.__init__"]}
{"id": "C114", "title": "Counting particles of several bunches works on arrays of every type and layout", "statement": "libtomo.count_particles_in_bins_multi adds to each counter the number of pairs of a bunch and a particle with the particle, shifted by the centre of the bunch, in its bin. It updates and returns the array of counters it is given if that is a contiguous array of floats of either precision, changes no other array, and means the same whether its numbers are given by position or by name.", "quantifier": "all arrays of counters, positions and centres (type, layout), numbers of particles, profiles, bins and bunches that fit a C++ int, shifted positions within the bins", "why_tests_cant": "which compiled version runs, and whether the counters are copied, depends on the types and layouts of three arrays together", "anchors": ["longitudinal_tomography/cpp_routines/libtomo.cpp:wrapper_count_particles_in_bin_multi", "longitudinal_tomography/cpp_routines/libtomo.cpp:PYBIND11_MODULE", "longitudinal_tomography/cpp_routines/reconstruct.cpp:count_particles_in_bin_multi"]}
{"id": "C115", "title": "The reference reconstruction changes no array and works in the selected precision", "statement": "Tomography.run_hybrid changes no array of the caller or of the object. Every call returns the weights, and stores the discrepancies and the recreated waterfall, of the reference reconstruction of the values the object was made from, in new arrays of the precision selected then.", "quantifier": "all waterfalls and positions (type, memory layout), both precisions, numbers that fit a C++ int, any number of iterations, calls of run and run_hybrid in any order with other arrays made in between", "why_tests_cant": "the compiled routines update arrays in place in every iteration; whether one of them is the caller's depends on the types and the layout of all arrays", "anchors": ["longitudinal_tomography/tomography/tomography.py:Tomography.run_hybrid", "longitudinal_tomography/tomography/tomography.py:Tomography._project", "longitudinal_tomography/cpp_routines/libtomo.cpp:wrapper_back_project", "longitudinal_tomography/cpp_routines/libtomo.cpp:wrapper_project"]}
{"id": "C116", "title": "The reconstruction functions kept for older programs work by position and by name, and so do their replacements", "statement": "tomolib_wrappers.back_project, project and reconstruct give the results of the functions of the same names in libtomo, whichever of their arguments are passed by name and in whatever order. As their warning says, libtomo has functions of the same signature: a call that works with the kept function works with the one in libtomo.", "quantifier": "all arrays (type, memory layout), all numbers that fit a C++ int, every split of the arguments into positional and named ones, every order of the named ones", "why_tests_cant": "the arrays and the ways to pass the arguments are unbounded in number; the unit tests pass some of them", "anchors": ["longitudinal_tomography/cpp_routines/tomolib_wrappers.py:back_project", "longitudinal_tomography/cpp_routines/tomolib_wrappers.py:project", "longitudinal_tomography/cpp_routines/tomolib_wrappers.py:reconstruct", "longitudinal_tomography/cpp_routines/libtomo.cpp:PYBIND11_MODULE"]}
{"id": "C117", "title": "The functions for a single turn kept for older programs work by position and by name", "statement": "tomolib_wrappers.drift and kick give the results of libtomo.drift and libtomo.kick, whichever of their arguments are passed by name and in whatever order: the phases after the drift, the energies after the kick, in the array given if it is one of doubles in contiguous memory and else in a new one, with no other array changed. If the direction is left out it is forward.", "quantifier": "all arrays (type, memory layout), all turns of the machine, machines with numbers for phi12 and h_ratio (for arrays see C106), every split of the arguments into positional and named ones, every order of the named ones, both directions", "why_tests_cant": "the arrays and the ways to pass the arguments are unbounded in number; the unit tests pass some of them", "anchors": ["longitudinal_tomography/cpp_routines/tomolib_wrappers.py:kick", "longitudinal_tomography/cpp_routines/tomolib_wrappers.py:drift"]}
