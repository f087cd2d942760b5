# Formal model of longitudinal-tomography: design

The code in `/repo` (package `longitudinal_tomography`, abbreviated `LT/`) is Python
with C++ and CUDA kernels. The model is written in Rocq (Coq 8.16.1) in
`rocq/theories/`. It follows the code function by function; each definition cites the
file and lines it models.

## 1. Modelling decisions

* **Numbers.** Reconstruction, binning, filtering, limits and statistics use `Qc`, the
  canonical rationals of the standard library (Leibniz equality, no axioms, computes).
  Every finite double is a rational, so inputs are represented exactly; *rounding* of
  intermediate results is not modelled. `NaN`/`inf` are outside `Qc`: every division in
  the model is checked and a zero divisor gives the failure `NotFinite`. Where the
  property is about not-a-number inputs they are an explicit constructor.
* **Tracking** is polymorphic in the number type and its operations `add sub mul sin`, so
  the structural theorems (which row holds which state, particle independence, memory
  safety, callbacks, schedules) hold verbatim for IEEE doubles. Reversibility needs
  `sub (add a b) b = a` and `add (sub a b) b = a`, which hold in `Qc` and `R` and not
  in floating point; they are hypotheses of those theorems, discharged for both.
* **Analysis** (derivatives, area preservation, relativistic bounds) uses the real
  numbers of the standard library, with its axioms.
* **Failures are values.** `res A := Ok a | Fail e`, `e` being `OutOfBounds`,
  `NotFinite`, `OutOfFuel`, or `Raised x` for a Python/C++ exception `x`.
  Array accesses of the C++ code are bounds-checked in the model; a theorem that the
  result is `Ok` is a memory-safety theorem. `while` loops carry fuel and the theorems
  show it never runs out.
* **Integers** are unbounded (`nat` for sizes and loop counters, `Z` for data).
  Overflow of C++ `int` is modelled in `MInt.v` only (C89-C91).
* **Numerical libraries** (`sin`, `sqrt`, `scipy.optimize.newton`, `interp`) are function
  parameters. A theorem that needs a fact about them has it as a hypothesis.
* **OpenMP loops** are modelled by a small-step machine: shared memory, private
  registers, one atomic load or store per step, any interleaving. A general theorem says
  that iterations with pairwise disjoint footprints give the sequential result under
  every schedule; it is instantiated for the loops that satisfy it, and for the loops that
  do not a schedule with a wrong result is exhibited.

### False properties
Reading the code turned up many claims a user would rely on that the code does not meet.
For such a property the intended statement is kept, a theorem `..._refuted` proves that
the faithful model violates it (a concrete input, evaluated by the kernel), and a guarded
theorem (suffix `_partial`) proves the part that does hold. The manifest says `partial`.

## 2. Layout of `rocq/theories`

| folder | content |
|---|---|
| `Base/` | results, rationals, sums, bounds-checked arrays |
| `Model/` | the code, definitions only |
| `Spec/` | small independent definitions used in statements |
| `Proof/` | lemmas |
| `Props/` | the property theorems, one file per group, closed by `exact`, with `Print Assumptions` and a non-vacuity example |

## 3. Per-property plan

| id | modelled | proof |
|---|---|---|
| C01 | `kick_and_drift` of `kick_and_drift.cpp`, memory-safe loops | loop invariant by induction on fuel; result equals `evolve` spec row by row |
| C02 | same | `evolve` down is the inverse of `evolve` up; corollary of C01; instances for Qc, R |
| C03 | index handling of `Tracking.track` | case analysis; *refuted* for the last profile; guarded theorem |
| C04 | same loops with `deltaturn` | invariant of C01 generalised; *refuted* for `deltaturn>0`; proved for `<=0` and for rows after the start |
| C05 | Python `kick_and_drift` | second loop model, equality to spec; *refuted* for `deltaturn>0` |
| C06 | CUDA kernel, one thread per particle, grid | per-thread invariant, then disjoint columns |
| C07 | bounds-checked arrays | part of C01; scalar `phi12` *refuted* |
| C08 | callback trace | invariant; *refuted* for `deltaturn<>0` |
| C09 | same as C01 | spec is a `map` over particles |
| C10 | small-step OpenMP model | disjoint footprint theorem; race witnesses |
| C11 | kick/drift over R | chain rule along curves, det = 1 by induction over turns |
| C12 | `values_at_turns` + tracking | recurrence of C45 feeds zero kick; *refuted* for `machine_ref_frame>0` |
| C13 | `kick_and_drift_self` | floor arithmetic; *refuted* parts |
| C14 | `filter_lost` with NaN | filter characterisation; NaN *refuted* |
| C15 | `ready_for_tomography`, `xp` setter | composition |
| C16 | coordinate conversions | field |
| C17 | `homogeneous_distribution` | counting |
| C18, C19 | constructor and setters as a state machine | invariant over operation sequences; *refuted* parts |
| C20-C32 | `reconstruct.cpp`, hybrid | refinement of flat-array loops to sums; invariants over iterations |
| C33 | `reconstruct_multi` | sequential model; *refuted* parts, guarded theorems |
| C34, C35 | `make_phase_space`, images | scatter-add lemma |
| C36-C41 | `pre_process.py`, `fortran.py`, `Frames` | list lemmas |
| C42-C44 | input parsing and assertions | case analysis |
| C45-C47 | `machine.py`, `physics.py` over R | recurrences; derivatives by `auto_derive`-style lemmas; sqrt bounds |
| C48 | `phase_space_info.py` over R, `newton` a parameter | extremum and floor arithmetic; *refuted* parts |
| C49, C50 | `Profiles` setters, wrap length and self-field tables | integer/floor arithmetic |
| C51 | `utils/tomo_config.py` and the CUDA module loader as a state machine | invariant over operation sequences; *refuted* histories |
| C52, C53 | `post_process.py` and the statistics of `tomographics.py` over R | algebra, Cauchy-Schwarz; *refuted* parts |
| C54, C57 | foot tangent fits, emittance of a density | least squares of three points; counting and monotonicity; *refuted* part |
| C55, C58, C59 | `tomo_output.py`, `fortran.py`: paths, number formats, files, plot information | decimal printing injective, read back what was written |
| C56 | `tomo_input.py` reading of standard input and of files | list of lines as input; *refuted* part |
| C60, C61 | CUDA reconstruction kernels: thread programs over shared memory, atomic additions, every interleaving; host code | confluence of commuting steps, refinement to the C++ spec |
| C62, C63 | CuPy versions of reconstruction and tracking | array expressions equal the loops |
| C64-C68 | `programs_machine.py` over R, `newton` a parameter | invariant of the growing lists; termination by a lower bound of the revolution time; numerical derivative; *refuted* parts |
| C69, C70 | the vdt sine of the compiled tracking over R with a rounding function after every operation | Taylor bounds of the polynomials by integer interval checks, rounding errors step by step, quadrant logic; *refuted* part |
| C71 | tracking with these operations against exact tracking | error of one turn, growth factor, induction over turns |
| C72 | `_calc_tangentfeet`, `fit_synch_part_x` with newton as a parameter | normal equations minimise the squares; difference of the potential is the function whose root is taken |
| C73 | `calc_profilecharge` | total of the rebinned row (C36) |
| C74 | `tomo_run.run` from the lines of the file to the image, built from the models of its parts | the theorems on the parts (C01, C15-C17, C20, C35, C42) in one chain |
| C75, C76 | the same | the baseline removes offsets (C40); scaling commutes with all steps up to the normalisation (C26) |
| C77 | the same, line 92 of the file | *refuted*: reading commutes with replacing the flag, no later step uses it |
| C78 | the same, failures as values | every step is shown not to fail out of bounds or out of fuel |
| C79 | `shortcuts.track`, `shortcuts.tomogram` | unfolding in parallel; *refuted* for the default argument |
| C80 | the argument `reconstruct_profile` | index arithmetic; *refuted* for the last profile |
| C81-C84 | `reconstruct.cpp` over an abstract arithmetic: exact rationals, or reals with a rounding function, a largest number, sums in any order and any sound quotient | range of every intermediate value as an invariant of the iterations; no operation leaves the range; only the sign of the sum over threads is used; error of a sum by induction over the tree of additions. The exact instance is proved equal to the model of C20-C32 |
| C85-C88 | `matched_area_calc`, `density_vs_emittance`, `tomo_weight_clipping` over R; `numpy.interp` and the minimiser are parameters | concavity of the trajectory and the trapezoidal rule; monotone interpolation; integral of a piecewise linear density; loop invariants; *refuted* below transition, with acceleration and on asymmetric axes |
| C89-C91 | the C++ reconstruction (single bunch), tracking and image with every int product, sum and conversion checked: out of range is the failure `IntOverflow` (`MInt.v`) | the checked loops equal the unchecked ones when the sizes fit (loop rule with invariant); otherwise the first product already fails |
| C92 | `countA`, `reciprocalA` of `MFloat.v` with a rounding that keeps integers up to M and stays at M | invariant of the two loops: every cell is the number of particles so far, or M |
| C93 | `calc_phi12` after the constructor with programmed values; `arcsin` of the real numbers, failure outside [-1, 1] (`MObjects.v`) | trigonometric identities at the phase `arcsin(gain / V1)`; counterexamples for all machines |
| C94 | `_process_kwargs` on lists of names and values, the two tables of defaults, the attributes set by the constructors | the dictionary after the loop, by induction on the arguments; one case per documented keyword |
| C95 | a machine object as settings and optional arrays; assignments and calculations, each with the object after it and its outcome; the constructor's checks; the arrays handed to the routine | invariant of all histories (induction on the list of actions); every failure inside the upward loop is an access out of bounds |
| C96 | a Profiles object and the flags of a tracker; assignments, calculations and activations; filter, window and field computation are function parameters | invariants of all histories: where the fields of the object and of the tracker come from |
| C97 | the existing model of `run` and `run_hybrid` (`MRecon.v`) | the closed form of the result after k iterations does not depend on the number of iterations |
| C98-C100 | two objects related by a reordering of profiles, a renumbering of bins or copies of the particles (`SymSpec.v`) | induction on the iterations; sums and maxima over a permuted or repeated index; *refuted* for `run` with copies |
| C101, C102 | the same model | a row without negative values and of sum one has squares of sum at most one; *refuted* by three particles in two profiles of two bins |
| C103-C105 | a heap of arrays with type and layout; pybind11's overload resolution (without, then with conversion) over the five versions of `kick_and_drift`; `track` from the distribution on; the legacy function (`MBind.v`); polymorphic in the number type | which version is chosen for every kind of value; what it writes to; *refuted* in single precision, for the legacy function and for the particles object |
| C106-C107 | calls of `libtomo.kick` and `libtomo.drift` on the same heap of arrays; the turn by turn routine on the caller's arrays (`MSteps.v`) | what each call returns and writes to; simulation of the hybrid routine of `MTrack.v` with an invariant on where the coordinates live; *refuted* for plain arrays of doubles and for an array phi12 |
| C108-C110 | calls of `libtomo.count_particles_in_bins`, `back_project`, `project` and `reconstruct` by position and by name on a heap of arrays with shape, type and layout (`MCalls.v`) | which version pybind11 chooses and what each argument is converted to; values from the theorems on the loops (C18-C32) |
| C111 | objects whose attributes are arrays of the same heap: constructor, setter of xp and `run` (`MTomoCalls.v`) | refinement: the object holds what the object of `MRecon.v` holds; every run equals its run; the precision follows from the choice of the version |
| C112 | columns of arrays, their layout, and the calls that make images (`MImageCalls.v`) | choice of the version from types and layout; the loop equals that of C34 |
| C113 | the objects of C111 with the multi-bunch call and `TomographyMultibunch.run` (`MMultiCalls.v`) | refinement: every run equals that of `MMulti.v`; the precision follows from the choice of the version |
| C114 | the heap of C108 with the counting call for several bunches (`MCountCalls.v`) | the call with three arrays chooses its version as in C108; the loops equal the counting of all shifted copies (C33) |
| C115 | the objects of C111 with `run_hybrid`, each iteration calling the routines of C109 on the heap (`MHybridCalls.v`) | simulation: an invariant of the loop ties heap, weight and diff to the state of the loop of `MRecon.v` |
| C116 | the functions of `tomolib_wrappers.py` that call the routines of C109 and C110, with Python's rule for arguments by position and by name (`MOldCalls.v`) | named arguments in any order are looked up to the list by position, then C109 and C110; names that the compiled functions do not have are refused |
| C117 | `kick` and `drift` of `tomolib_wrappers.py`, with Python's rule for arguments by position, by name and by default, calling the routines of C106 (`MOldSteps.v`) | named arguments in any order and the default are looked up to the list by position, then C106 |

## 4. What is modelled and what is not

Modelled (`LT` = `longitudinal_tomography`); the exact lines stand in the comment of each definition:

| model | code |
|---|---|
| `MConfig.v` | `LT/utils/tomo_config.py` |
| `MCupy.v` | `LT/python_routines/kick_and_drift_cupy.py` |
| `MFoot.v` | `LT/utils/tomographics.py` |
| `MGpu.v` | `LT/cuda_kernels/reconstruct.cu`, `LT/python_routines/reconstruct_cuda.py`, `LT/python_routines/reconstruct_cupy.py` |
| `MImage.v` | `LT/cpp_routines/data_treatment.cpp`, `LT/cpp_routines/libtomo.cpp`, `LT/data/data_treatment.py`, `LT/python_routines/data_treatment.py`, `LT/utils/tomo_output.py` |
| `MInput.v` | `LT/assertions.py`, `LT/utils/tomo_input.py`, `LT/utils/tomo_run.py` |
| `MLimits.v` | `LT/tracking/phase_space_info.py` |
| `MMachine.v` | `LT/tracking/machine.py`, `LT/utils/physics.py` |
| `MMulti.v` | `LT/cpp_routines/libtomo.cpp`, `LT/cpp_routines/reconstruct.cpp`, `LT/tomography/tomography_multibunch.py` |
| `MOmp.v` | `LT/cpp_routines/kick_and_drift.cpp`, `LT/cpp_routines/reconstruct.cpp` |
| `MOutput.v` | `LT/compat/fortran.py`, `LT/compat/tomoscope.py` |
| `MParticles.v` | `LT/tracking/particles.py` |
| `MPost.v` | `LT/data/post_process.py`, `LT/utils/tomographics.py` |
| `MPreproc.v` | `LT/assertions.py`, `LT/compat/fortran.py`, `LT/data/pre_process.py`, `LT/data/profiles.py`, `LT/utils/tomo_input.py` |
| `MPrograms.v` | `LT/tracking/programs_machine.py`, `LT/utils/physics.py` |
| `MRecon.v` | `LT/cpp_routines/libtomo.cpp`, `LT/cpp_routines/reconstruct.cpp`, `LT/tomography/__tomography.py`, `LT/tomography/tomography.py` |
| `MRun.v` | `LT/utils/tomo_run.py` `run`, `LT/shortcuts.py` |
| `MSelf.v` | `LT/data/profiles.py`, `LT/tracking/tracking.py`, `LT/utils/physics.py` |
| `MSin.v` | `LT/cpp_routines/sin.h`, `LT/cpp_routines/sincos.h`, `LT/cpp_routines/vdtcore_common.h` |
| `MFloat.v` | `LT/cpp_routines/reconstruct.cpp` with rounding; `LT/tomography/tomography.py` normalisation of the waterfall; `setup.py` flags |
| `MArea.v` | `LT/utils/tomographics.py` 158-251, 347-624 |
| `MInt.v` | `LT/cpp_routines/reconstruct.cpp`, `LT/cpp_routines/kick_and_drift.cpp`, `LT/cpp_routines/data_treatment.cpp`, `LT/cpp_routines/libtomo.cpp` with 32-bit int |
| `MObjects.v` | `LT/tracking/machine_base.py`, `LT/tracking/machine.py` (constructors, histories), `LT/tracking/programs_machine.py` (`calc_phi12`), `LT/data/profiles.py` (`calc_self_fields`), `LT/tracking/__tracking.py` |
| `MBind.v` | `LT/cpp_routines/libtomo.cpp` (overloads of `kick_and_drift`), `LT/tracking/tracking.py` (`track`), `LT/utils/tomo_config.py` (`cast`), `LT/cpp_routines/tomolib_wrappers.py` (`kick_and_drift`) |
| `MSteps.v` | `LT/cpp_routines/libtomo.cpp` (`wrapper_kick`, `wrapper_drift`), `LT/tracking/tracking.py` (`kick_and_drift`) on arrays with type and layout |
| `MCalls.v` | `LT/cpp_routines/libtomo.cpp` (`wrapper_count_particles_in_bin`, `wrapper_back_project`, `wrapper_project`, `wrapper_reconstruct` and their registration) |
| `MTomoCalls.v` | `LT/tomography/__tomography.py` (`__init__`, setter of `xp`), `LT/tomography/tomography.py` (`run`), `LT/utils/tomo_config.py` (`cast_to_cpu`) on arrays with type and layout |
| `MImageCalls.v` | `LT/cpp_routines/libtomo.cpp` (`wrapper_make_phase_space`), `LT/data/data_treatment.py` (`phase_space`, `phase_space_from_coordinates`: the density), `LT/utils/tomo_output.py` (`create_phase_space_image`) on arrays with type and layout |
| `MMultiCalls.v` | `LT/cpp_routines/libtomo.cpp` (`wrapper_reconstruct_multi`), `LT/tomography/tomography_multibunch.py` (`run`) on arrays with type and layout |
| `MCountCalls.v` | `LT/cpp_routines/libtomo.cpp` (`wrapper_count_particles_in_bin_multi` and its binding) on arrays with type and layout |
| `MHybridCalls.v` | `LT/tomography/tomography.py` (`run_hybrid`, `_project`, `_create_flat_points`) on arrays with type and layout |
| `MOldCalls.v` | `LT/cpp_routines/tomolib_wrappers.py` (`back_project`, `project`, `reconstruct`) |
| `MOldSteps.v` | `LT/cpp_routines/tomolib_wrappers.py` (`kick`, `drift`) |
| `MFit.v` | `LT/data/pre_process.py` `fit_synch_part_x`, `_calc_tangentfeet`; `LT/data/profiles.py` `calc_profilecharge` |
| `MTrack.v` | `LT/cpp_routines/kick_and_drift.cpp`, `LT/cpp_routines/libtomo.cpp`, `LT/cuda_kernels/kick_and_drift.cu`, `LT/python_routines/kick_and_drift_cuda.py`, `LT/tracking/tracking.py` |

Not modelled: plotting, logging, argument parsing, packaging, build scripts, random sampling, the binary layout of numpy
arrays other than C order (except in C103-C117), numpy's own code (its documented result is taken), scipy's `newton` (a parameter),
NVIDIA's CUB block reduction (the documented sum), CUDA errors on empty launches, overflow of C++ `int`
(except in C89-C91), the argument names of the pybind11 module (except in C108-C116),
rounding (except in the polymorphic tracking theorems, in C69-C71, C81-C84 and C92), infinities and not-a-number except where a property is about them.

## 5. Trusted base
* Coq's kernel (8.16.1; `coqchk` is run by `vcheck`).
* The reading of the C++/Python/CUDA text into Gallina, in `theories/Model`.
* The definitions in `theories/Spec` that statements use.
* Exact instead of rounded arithmetic (except in the polymorphic tracking theorems, in C69-C71, C81-C84 and C92).
* In C69-C71: operations are rounded one by one in the order of the source. `setup.py` passes `-ffast-math`, which allows
  the compiler to reorder them; the bounds do not use that the splitting of pi/4 makes products exact.
* In C81-C84: `-ffast-math` is modelled as any order of the additions of a sum and any quotient between the bounds of
  `quotient`. The correctly rounded quotient is one; multiplication by the rounded reciprocal is one as long as the
  reciprocal does not overflow (example `reciprocal`). Flushing small numbers to zero is a rounding (example
  `flush_rounding`). Contraction of a product and a sum to one operation is not modelled.
* In C103-C117: the rules by which pybind11 2.11 chooses an overload and converts arguments, read from its
  documentation; pybind11 is not part of the repository.
* In C111: numpy's `array` and `clip` make a new array with the axes in the order of the given one (order K).
* In C112: a column `a[:, p]` of numpy is contiguous exactly if it has at most one element, if the rows of a contiguous array
  have one element, or if the columns of the array are contiguous; `astype` of it makes a contiguous array.
* In C113: pybind11 takes a list of ints for an array parameter only when conversion is allowed, like an array that is not
  contiguous.
* The axioms printed by `Print Assumptions`, theorem by theorem in [ASSUMPTIONS.md](ASSUMPTIONS.md)
  (generated by `tools/assumptions.py`). The discrete part needs none. The part over the real numbers needs, of the
  standard library, `ClassicalDedekindReals.sig_forall_dec`, `ClassicalDedekindReals.sig_not_dec` and
  `FunctionalExtensionality.functional_extensionality_dep`; C50/C48-type statements on integer parts may also use
  `Classical_Prop.classic`. No axiom is our own, and no theorem uses an axiom of another library.
  `coqchk` of the whole development also lists the axioms of libraries that are only loaded: the module-type parameters of
  `ssr.ssrunder` (`Under_rel`) and the parameters of the abstract interface of `Rdefinitions`
  (`RbaseSymbolsImpl`); they belong to the standard library too.

## 6. Findings
Claims that the model violates; each proved one has a theorem `..._refuted` (or the theorem named).

| no | finding | where proved |
|---|---|---|
| F1 | `track(recprof)` with the last profile (or -1) raises ValueError | C03 |
| F2 | the compiled tracking with `deltaturn > 0` stores rows of wrong turns | C04 |
| F3 | so does the hybrid tracking, with other rows | C05 |
| F4 | tracking with self-fields ignores `deltaturn` | C13 |
| F5 | self-field tracking backwards adds the same kick, from the neighbouring cell | C13 |
| F6 | `make_phase_space` does not check negative coordinates and lets large `yp` spill into the next column | C34 |
| F7 | the emittance of a fraction counts one cell too few | C52, C57 |
| F8 | the histogram standard deviation is not one and depends on the origin | C52 |
| F9 | one empty profile among others: division by zero instead of an exception | C18 |
| F10 | not-a-number coordinates survive `filter_lost` | C14, C15 |
| F11 | assigning `xp` leaves an old `yp` of another shape | C19 |
| F12 | `density_to_macro`-type conversion changes its argument | C35 |
| F13 | callback count and total differ if `deltaturn` is not 0 | C08 |
| F14 | `run` carries the back projection over from one iteration to the next, `run_hybrid` does not | C22, C23, C27 |
| F15 | races in six OpenMP loops | C10 |
| F16 | `phi12` as one number: the array is one element short and is read past its end | C07 |
| F17-F19, F50 | multi-bunch reconstruction: only bunch 0 is checked, discrepancies are mixed, positions spill over the cuts, the hybrid counts from a transposed table | C33 |
| F21 | rebinning with left-over bins does not keep the total | C36 |
| F22 | baseline subtraction with few bins takes the mean of no element | C40 |
| F23 | removing frames shifts the reconstruction index by all removed frames | C38 |
| F24 | tangent search never looks at bin 0 | C41 |
| F25 | `deltaE0` is shifted up to the reference turn | C45, C12 |
| F26, F27, F44, F45 | unusable settings pass the checks (frame numbers, film step, not-a-number, harmonic ratio 0) | C43 |
| F28 | assigning a waterfall without positive element raises but stores it | C49 |
| F30, F31, F48 | limits: `imax` equal to the number of bins, time limit, shifted rows | C17, C48 |
| F32 | `phase_low` uses a frame number as a turn number; the feet of the bunch are then not at the same potential | C46, C72 |
| F37 | device and precision changes that fail or come in a certain order leave kernels of the wrong precision | C51 |
| F38 | machines from programs: first momentum, number of turns, reference turn, energy gains, times, harmonic, `phi12` | C64, C66, C67 |
| F39 | `foot_tangent_fit` is off by half a bin and by a slope-dependent amount | C54 |
| F40 | the two writers of the discrepancy file differ from iteration 100 on | C55 |
| F42 | CuPy reconstruction truncates the maximum with fewer particles than bins | C62 |
| F46 | the wrap length is that of the last turn but one and of the largest frequency | C13, C50 |
| F49 | `rms` statistics: square images only, radicand negative if not normalised | C53 |
| F51 | a data path that contains `pipe` makes the reader consume extra lines | C56 |
| F52 | charge 0 is accepted and gives speed 0 | C47 |
| F53 | `save_profile(-1)` writes the last profile as `profile000.data` | example beside C55 |
| F54, F55 | on the GPU `recreated` is flat and the callback is never called | C61 |
| F57 | the sine of a phase above about 1.69e9 converts a number to `int` that does not fit | C69 |
| F58 | rebinning with left-over bins changes the charge of the bunch | C73 |
| F59 | `tomo_run.run` tests the flag of the Tracking object, which is always False: the self-field flag of the input has no effect | C77 |
| F60 | `shortcuts.track` without an index raises TypeError | C79 |
| F61 | the area is computed for `filmstart`, also when another profile is reconstructed | C80 |
| F62 | `_urf_length_at_level` interpolates the left side in a decreasing array below transition (only the right side is sorted): with the clamping of numpy on unsorted arrays, and a level above the first grid step, the matched area has a small bound that does not depend on the bunch length | C85 |
| F63 | `density_vs_emittance`: a contour below the first energy gives the empty slice `[-1:1]` and a ValueError, one without an energy inside an IndexError; above the last energy the fraction can exceed 1 | C87 |
| F64 | `tomo_weight_clipping` calls `append` of a numpy array: AttributeError when a time slot has exactly one particle inside; particles before the first or after the last time are never clipped; if all are clipped the weights are not-a-number | C88 |
| F65 | `reconstruct` allocates and indexes with `npart * nprof` and `nprof * nbins` as int: from 2^31 on signed overflow, e.g. 2^24 particles and 128 profiles | C89 |
| F66 | `wrapper_kick_and_drift_array` computes `&xp[i * nparts]` as int: the same limit in the tracking | C90 |
| F67 | `make_phase_space` computes `n_bins * n_bins` and `xp[i] * n_bins` as int and takes the length of the arrays modulo 2^32 | C91 |
| F68 | in single precision a bin counts at most 2^24 particles; fuller bins all get the same compensation factor | C92 |
| F69 | `calc_phi12`: the modes 0 (shortening) and 1 (lengthening) give the same phases; the slope of the voltage is lowered in both | C93 |
| F70 | `calc_phi12` ignores the sign of the charge: for negative charge the phase it starts from is not synchronous while the field changes | C93 |
| F71 | `calc_phi12` takes the phase on the rising side also above transition; the second system then shifts the synchronous phase | C93 |
| F72 | unknown keyword arguments of a machine, e.g. `q` instead of `charge`, are ignored without notice | C94 |
| F73 | a tracker accepts a machine whose settings changed after `values_at_turns`, or whose last `values_at_turns` failed; with more profiles or turns the routine reads past the end of the arrays | C95 |
| F74 | self-fields of old profiles or of an old machine are enabled without notice; a filter with a result of the wrong shape is refused but its result is kept as `dsprofiles`; a failed calculation combines the new `phiwrap` with the old `vself` | C96 |
| F75 | below transition without acceleration the lowest potential is that of the phase next to the centre and numpy interpolates in a decreasing array: every contour of `density_vs_emittance` and of `tomo_weight_clipping` is the edge of the bucket, also for the centre and whatever emittance is wanted | C86 |
| F76 | with acceleration the potential at the end of the period is lower than that of the unstable phase: the last amplitudes of the density scan are lower than any potential on the left of the synchronous phase | C86 |
| F77 | the result of `run` depends on how often the same particles are given: the recreated waterfall of the iteration before, of sum one, is added to a histogram whose sum grows with the number of particles | C100 |
| F78 | iterations can make the discrepancy larger, in `run` and in `run_hybrid` (two profiles, two bins, three particles) | C102 |
| F33 | `tomolib_wrappers.kick_and_drift` leaves out `deltaturn`: with the default `ftn_out` it tracks no particle and returns the tables as given; with more particles than turns it reads outside the drift coefficients | C104 |
| F79 | in single precision `track` silently returns zeros if the ratio of harmonics is an int (as for programs with one RF system), or if phi12 is an array of doubles: the compiled routine then works in double precision on copies | C103 |
| F80 | `track` overwrites the coordinates of its particles object, documented as the initial distribution, with the last tracked ones | C105 |
| F81 | `Tracking.kick_and_drift` overwrites the arrays of phases and energies it is given if they are contiguous arrays of doubles: afterwards they hold the coordinates at the last turn | C107 |
| F82 | `libtomo.kick`, and so `Tracking.kick_and_drift`, raise TypeError if the machine's phi12 is an array (of other than one element), as `calc_phi12` of a programs machine leaves it (C93) | C106, C107 |
| F83 | counters or a waterfall in single precision given with positions that are not contiguous 32-bit integers: `libtomo.count_particles_in_bins`, `count_particles_in_bins_multi` (also for its centres) and `reconstruct` silently work in double precision; the counters given are not updated | C108, C110, C114 |
| F84 | `libtomo.project` sets the shape (profiles, bins) on a temporary description only: a flat array comes back flat | C109 |
| F85 | in single precision `Tomography.run` silently works in double precision, and returns arrays of doubles, if the waterfall given was not stored row by row (a transposed array): the cast and `clip` of numpy keep the order of the axes, which the single-precision version of `libtomo.reconstruct` does not take | C111 |
| F86 | in single precision `phase_space` returns the density in double precision (two or more particles and profiles): the column `tomo.xp[:, idx]` is not contiguous, so the single-precision version of `libtomo.make_phase_space` does not take it; `create_phase_space_image`, which copies the columns, returns single precision | C112 |
| F87 | in single precision `TomographyMultibunch.run` silently works in double precision when centres or cuts are given as lists (as its signature asks), or as arrays that are not contiguous 32-bit integers: only the double-precision version of `libtomo.reconstruct_multi` is tried with conversion first | C113 |
| F88 | `TomographyMultibunch.run` returns None and does not set `weight`; its documentation promises both | C113 |
| F89 | `libtomo.count_particles_in_bins_multi` names its fourth parameter n_particles and its fifth n_profiles, but uses them the other way round: called by name it writes outside the counters if there are more particles than profiles | C114 |
| F90 | `Tomography.run_hybrid` works in double precision whatever precision is selected: weights, discrepancies and recreated waterfall are doubles | C115 |
| F91 | The warning of `tomolib_wrappers.back_project`, `project` and `reconstruct` says that the functions in `libtomo` have the same signature; their parameters have other names, and a call by the old names raises a TypeError | C116 |
| F35 | `libtomo.count_particles_in_bins` is registered with the names of the numbers of particles and profiles exchanged: called by name with more particles than profiles it reads outside the counters | C108 |

Seen while reading, outside the model: negative numbers of iterations are not refused (F20); `Tomography._run_old` calls `libtomo.reconstruct_old`, which does not exist (F34); `_assert_log_arr` lists no indices
(F36); `_split_input` does not catch ValueError (F43); a GPU run without particles launches an empty grid (F56).

## 7. Testing the theorems
`tools/mutate.py` edits a scratch copy of the model as a realistic bug would, rebuilds, admits every lemma that fails and
reports the property theorems that then rest on an admitted lemma. Every attempt is a line of `seeded/LOG.jsonl`.
