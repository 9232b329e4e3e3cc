# Formal model of the FASTSim Python core: design

Subject: NREL FASTSim at the pinned commit in `/repo`, Python package `python/fastsim`.
Prover: Coq/Rocq 8.16.1. The code was read as text and never run.

## 1. Shape of the model

**Numbers.** Every numeric definition is written once over a class `Num F` (`theories/Num.v`) with the
operations the code uses: `+ - * /`, comparison, `abs`, `sqrt`, trigonometry, `exp`, `log`, powers,
ceiling/rounding. There are two instances:

* `R`: exact real arithmetic. All numeric theorems are about this instance unless they say otherwise.
* `PrimFloat.float`: IEEE-754 binary64, the format Python uses. It makes the same definitions executable by
  `vm_compute`. It is used for the examples beside the theorems, for checking the model against expected values
  stored in the repository (section 6), and for the witnesses of most `_refuted` theorems.

Theorems that need no arithmetic law (control flow, indexing, book-keeping of lists) are stated for *every*
`Num F`, hence hold for floats, NaN included.

**What the exact-real reading leaves out.** Rounding, overflow, NaN and infinities. Over `R` a division by zero
has *some* value (Coq's reals are total). Theorems therefore carry the guards that exclude zero divisors where the
value would matter. Where a zero divisor is reachable and observable, it is a separate theorem, by a binary64 witness
(for example C77_short_range_refuted) or by a modelled `ZeroDivisionError`. An unguarded theorem whose run
happens to divide by zero says nothing about the NaN or infinity that Python would compute there.

**Exceptions** are values: `Res A := Ok a | Err e`, with the Python exception class.

**Arrays** are lists. An index that Python would reject is an `Err IndexError` at the model's entry points. Inside the
simulation step, where indices are in range by construction, `nth` with a default is used.

**SimDrive's ~90 arrays** are modelled as one record per time step, split into the groups of fields that each method
writes. A method becomes a function from the inputs it reads to the group it writes. `solve_step` is the composition in
the code's order. Fields that a second call of `solve_step` for the same step reads before writing (the stale values) are
kept as explicit inputs.

**Mutation and aliasing.** A method that mutates `self` returns the new value. Where aliasing is observable the model
has it: the auxiliary-load override array, `add_kwh` shared by `SimDrivePost`, the dict that `Vehicle.from_dict` changes,
and objects reached by dotted paths (an explicit heap in `UtilModel.v`).

**Loops** that the code ends by a condition are recursions on fuel. Where termination is a claim, a theorem shows that the
fuel suffices (C28, C33, C37, C38).

**Files.** `*Model.v` and `SimState.v` hold definitions only, each with a comment citing file and lines of `/repo`.
`*Spec.v` hold the small independent specifications that theorem statements use. `*Proofs*.v` hold lemmas.
`*Props*.v` hold the property theorems; beside them `Cxx_run` examples compute a concrete binary64 case and `Cxx_case`
examples discharge the hypotheses of the real-number theorems for a concrete case.

## 2. Trusted base

* Coq's kernel. The float examples and witnesses also rely on its `vm_compute` and primitive floats and integers.
* Axioms: `ASSUMPTIONS.md` lists what `Print Assumptions` reports for **each** theorem (generated by
  `tools/gen_assumptions.py`). Apart from theorems that are closed under the global context, these are only axioms of Coq's standard library:
  `ClassicalDedekindReals.sig_forall_dec`, `ClassicalDedekindReals.sig_not_dec`,
  `FunctionalExtensionality.functional_extensionality_dep`, `Classical_Prop.classic`, and for binary64 theorems the
  primitive `PrimFloat`/`PrimInt63` types and operations. No axioms of our own; no other library.
* The reading of the Python source recorded in the comments of the model.
* The assumed behaviour of numpy (`interp`, `arange`, `argmax`, `cumsum`, `diff`, `trapz`, slicing, boolean masks),
  modelled in `theories/Numpy.v`; of Python dicts (insertion order), `re` (for the few patterns used), `csv`,
  `logging` levels, and of scipy's `interp1d(kind='previous')`.
* Parameters instead of models: Python's `float()`, `int()`, `str()` and `ast.literal_eval` on arbitrary texts (C79, C80)
  and the simulation object seen by the calibration code (C96, C97) are universally quantified.

## 3. What is modelled

| file in `python/fastsim` | modelled | not modelled |
|---|---|---|
| `cycle.py` | all functions and methods except those at the right | `from_file` (CSV), `get_numba_cyc`, `reset_orphaned` |
| `simdrive.py` | `SimDriveParams`, `copy_sim_params`, `sim_params_equal`; the whole of `SimDrive` (initialisation, `sim_drive`, walk, step, limits, road load, speed search, hybrid control, fuel converter, time dilation, car following, coasting, collision avoidance, post-processing); `copy_sim_drive`, `sim_drive_equal`, `run_simdrive_for_accel_test`, `SimDrivePost.get_diagnostics`, `set_battery_wear`, `estimate_soc_corrected_fuel_kJ` | timing and debug attributes, warnings' text, `to_rust`, `LegacySimDrive`, `SimDriveJit`, `SimDrivePost.__init__` attribute copying |
| `vehicle.py` | `clean_data`, `from_dict`, `from_df`, `from_vehdb` and `from_file` once the table is read, `LegacyVehicle`, `set_derived`, `set_veh_mass`, peak-efficiency getters/setters, `max_fc_eff_kw`, `max_regen_kwh`, `copy_vehicle`, `veh_equal` | file lookup and csv reading in `from_vehdb`/`from_file`, `get_template_df`, Rust conversion |
| `vehicle_base.py` | `keys_and_types` and the renaming tables used by the above | |
| `parameters.py` | constants, `PhysicalProperties`, its copy and comparison; utility factors and label coefficients of `longparams.json` | other entries of `longparams.json` |
| `simdrivelabel.py` | `get_label_fe` for all powertrains, including plug-in hybrids | printing (`verbose`), use of Rust objects |
| `auxiliaries.py` | `abc_to_drag_coeffs` without optimisation and curve fit, `drag_coeffs_to_abc`, `set_nested_values` | the scipy optimiser, plots |
| `resample.py` | all | |
| `calibration.py` | `get_error_val`, `ModelObjectives` (errors, parameter update), problem set-up, evaluation and result table | pymoo's optimiser, plots, argument parser, console output |
| `utils/utilities.py` | air density, consumption units, `rollav`, `camel_to_snake`, logging levels and their suppression, dotted-path access, tyre radius | `set_log_filename`, `print_dt`, model-file export, `show_plots`, `do_tests`, `copy_demo_files` |
| `utils/vehicle_import_preproc.py` | sorting by year, test files, archives (as functions on file contents) | Excel reading, argument parser, paths |
| `rust/fastsim-core/src/simdrive/simdrive_impl.rs`, `utils.rs` | `init_for_step`, `sim_drive`, `walk`, `step` and `solve_step` with all it calls, first without, then (RustModsModel) with the three cycle-changing options; `set_post_scalars`; `first_grtr`, `first_eq` | overflow and NaN; see the next row for `cyc_mods.rs` |
| `rust/fastsim-core/src/simdrive/cyc_mods.rs` | every method except the getters, setters and wrappers for Python | arithmetic of a release build on indices below zero |
| `rust/fastsim-core/src/vehicle.rs`, `Vehicle.to_rust` | `set_derived` with input ranges, `set_veh_mass`, peak efficiencies and their setters, `interpolate` of utils.rs | the patterns for names (unknown names are refused), serialisation |
| `rust/fastsim-core/src/vehicle_utils.rs`, `utils.rs`, `params.rs`, `air.rs` | `abc_to_drag_coeffs` with `simdrive_optimize` off, `get_error_val`, `tire_code_to_radius`, default properties and heating value, `get_rho` and the air tables (RustUtilModel) | the Nelder-Mead fit (argmin library), fetching of files, text beyond ASCII |
| `rust/fastsim-core/src/thermal.rs`, `vehicle_thermal.rs` | the thermal calculations of a step, their sequence, the temperature coefficient and the HVAC's auxiliary load, defaults (RustThermalModel) | the rest of `SimDriveHot`'s step, which repeats that of `RustSimDrive` with the states as inputs; histories; battery and solar load, which are never computed; setters |
| `rust/fastsim-core/src/vehicle_import.rs` | choice of records and tests, transmissions, sizes of the vehicle (RustImportModel) | reading and fetching of files, the older matching procedure, the names given to vehicles, the test equal to an empty record, text beyond ASCII |
| `rust/fastsim-core/src/utils.rs`: `multilinear`, `get_index_permutations` | all checks, removal of dimensions, the loop (RustGridModel); arrays as shape and function of index vectors | the refusal of entries that are not a number; `interpolate_vectors` has the text of `interpolate` (RustVehModel) but for the type of its arrays and is not modelled again |
| `rust/fastsim-core/src/simdrive/simdrive_iter.rs` | all (RustBatchModel); the rayon library as any order of runs, with any of them skipped after an error | what a failed run leaves in its simulation (anything), serialisation |
| `rust/fastsim-core/src/cycle.rs`, `Cycle.to_rust` | `init_checks`, dict methods, derived arrays, trapezoidal distances, `RustCycleCache`, grade and stop queries, constant-jerk functions, `modify_*`, `detect_passing`, `to_microtrips`, target speeds, `extend_cycle` | files and strings (CSV, JSON, YAML, bincode), `get_rate_adjusted`, `concat`, `resample` (Python only) |
| `rust/fastsim-core/src/simdrivelabel.rs` | `get_label_fe` and all it calls | printing, wrappers for Python, fields of the detailed plug-in record that nothing reads |
| rest of `rust/`, demos, tests, `inspect_utils.py`, `fastsimrust.pyi` | | not modelled |

Simplifications are stated in the comment of the definition concerned.

## 4. Properties: what is modelled and how it is proved

Statements in English are in `properties.jsonl`; theorem names per property in `MANIFEST.json`.

| id | model | proof |
|---|---|---|
| C01 | `to_microtrips`, `concat` | induction over the scan with the open microtrip as accumulator |
| C02 | `to_microtrips` | scan invariant |
| C03 | `concat` | induction over the list of cycles |
| C04 | `clip_by_times` | equality with a filter specification |
| C05 | `clip_by_times`, `concat` | split of a sorted list at a sample |
| C06 | `np_interp`, `np_arange`, `resample` | convexity of interpolation, induction over knots |
| C07 | `resample` rate keys | telescoping sums |
| C08 | trapezoid functions | list induction |
| C09 | `dt_s`, `dt_s_at_i` | direct; exact condition for index 0 |
| C10 | `calc_distance_to_next_stop_from` | first-match characterisation |
| C11 | `CycleCache`, `average_grade_over_range` | interpolation on deduplicated knots; counterexample |
| C12 | `average_grade_over_range` | trigonometric identities |
| C13 | constant-jerk functions | `field`; induction on steps for dt = 1; counterexample for other dt |
| C14 | trajectory edits | loop invariant |
| C15 | `detect_passing` | loop invariant |
| C16 | `extend_cycle` | via C03 and the grid of `np_arange` |
| C17 | microtrip target table | fold invariant |
| C18, C19 | dictionaries as association lists | equational, permutation reasoning |
| C20 | `set_power_calcs` | per-step equations of the walk, `lra`/`nra` per branch |
| C21 | `set_comp_lims`, `set_fc_power`, walk | invariant over the walk |
| C22 | loss terms of each component | invariant, case split on operating mode |
| C23 | look-ups | characterisation of `argmax(a > x) - 1` |
| C24, C25 | SOC update and limits | algebra; telescoping over the walk |
| C26 | full step | mechanism for all vehicles; counterexamples |
| C27, C28 | limits, Newton search | case analysis; loop invariant with fuel shown sufficient |
| C29 | full step | counterexample |
| C30 | `set_post_scalars` | summation identity over rows |
| C31 | full step | invariant over the walk |
| C32 | `set_misc_calcs`, aliasing of the override | induction from the back of the array |
| C33 | `sim_drive` loop | induction on the count |
| C34 | `init_for_step` | case analysis |
| C35, C36 | walk as a fold | determinism; induction |
| C37 | `set_time_dilation` | loop invariant |
| C38 | `_prevent_collisions` recursion | measure on the tolerance |
| C39 | `set_comp_lims` with coasting | case analysis |
| C40 | car-following functions | algebra; list induction |
| C41 | `get_diagnostics` | integral additivity |
| C42 | `set_battery_wear` | closed forms for repeated calls; counterexample |
| C43 | SOC-corrected fuel | sign analysis |
| C44 - C46 | `set_derived`, `set_veh_mass`, peak setters | an "opened" form of `set_derived`, from which each claim follows; counterexamples |
| C47, C48 | `copy_vehicle`, `veh_equal` over field tables | equational; counterexamples |
| C49, C50 | label formulas, label output keys | inequalities; key-set computation |
| C51 | logger state machine | case analysis, induction on nesting |
| C52 | objects on a heap, dotted paths | induction over the path; separation of reachable sets |
| C53 - C55 | conversions and metric | `field`, integrals of piecewise linear functions |
| C56, C57, C61, C62 | `set_hybrid_cont_calcs`, `set_hybrid_cont_decisions`, `set_fc_power` | per-step equations, case split on powertrain |
| C58, C63 | engine on-timer, battery latch | invariant over the walk |
| C59, C60 | buffers and limits of `set_comp_lims`, `set_hybrid_cont_calcs` | per-step equations |
| C64, C65 | full step | counterexample run and the cause for all vehicles |
| C66 | trace-miss figures of `set_post_scalars` | sums over rows, maximum over samples |
| C67 | consumption figures | sums over rows |
| C68, C82 | `gap_to_lead_vehicle_m` | cumulative trapezoid sums |
| C69 | `get_rho_air` | monotonicity by derivatives-free inequalities on powers |
| C70 | `camel_to_snake` as two regular-expression passes | induction on text with an independent word-splitting specification |
| C71 | `rollav` | no input succeeds |
| C72 | `calculate_tire_radius` with a backtracking matcher | induction on the matcher, uniqueness of the preferred match |
| C73 | `resample` (tables) | as C06, C07 on columns |
| C74 | `PhysicalProperties` | equational |
| C75 | `init_arrays`, `init_for_step` | walk from any earlier state equals walk from a fresh one |
| C76 - C78 | utility factor, plug-in hybrid label, acceleration time | look-up characterisation; weighted sums; first crossing of 60 mph |
| C79 - C81 | `from_dict`, `clean_data`, `from_df` row | induction over the entries of the dict |
| C83 | `activate_eco_cruise` | via C16, C17 |
| C84 - C90 | coasting: law, distance to stop, decision, plan, correction, delay, step | a physical specification (`CoastSpec.v`) of motion by the coasting law; loop invariants |
| C91 | `_prevent_collisions` | search characterisation, meeting point of the planned trajectory |
| C92 | `max_fc_eff_kw` | first maximum |
| C93 | roadway charging in limits and bus | per-step equations; counterexample |
| C94, C95 | settings and run copies and comparisons | attribute tables |
| C96, C97 | calibration | induction over trips and objectives |
| C98, C99 | preprocessing by year | induction over rows and files |
| C100 | plain runs (no option that changes the cycle) | each row as a function of the row before; induction over steps |
| C101, C102 | plain runs, balancing loop | a relation between two simulations kept by every step and by every round of balancing |
| C103, C104 | full step | case of `solve_row` for engine-only and for parked vehicles; induction over steps |
| C105 | label on top of whole runs (LabelModel) | relational: every run of the label procedure is the same for vehicles that drive alike (C102), then the label arithmetic key by key |
| C106 | table of vehicles as mutable state (VehLibModel) | invariant: every row is the original one or its cleaned form; cleaning is idempotent where printed numbers are read back |
| C107 | from_row, from_dict, from_file | relational: every stage of from_dict respects equality of look-ups (conversion needs distinct keys); permutations |
| C108 | LegacyVehicle, copy_vehicle 'legacy' (VehLibModel) | induction over the name table |
| C109, C110 | the Rust step and walk (RustModel, RustWalkModel) beside the Python ones | refinement: look-ups of both programs find the same cell; the Rust row is the Python row with other fuel; a relation between the two walks kept by every step |
| C111 | Rust step, sim_drive of both | the failing look-up for the abort; witnesses for the rest |
| C112 | set_post_scalars of both (PostModel, RustPostModel) | on equal states the reports are equal term by term; on states that differ in fuel the other terms are; a simulation of Rust walks under a shift of the clock |
| C113 | `Vehicle.to_rust`, `set_derived` of vehicle.rs, `interpolate` of utils.rs (RustVehModel); Python's `set_derived` | the two interpolations agree on increasing grids, the constant tables are equal, so every derived attribute is; runs by C102 and C109 |
| C114 | `set_derived`, `set_veh_mass`, peak setters of vehicle.rs | a derived vehicle is a fixed point; effect of one edit on it; witnesses against Python |
| C115 | `Cycle.to_rust`, cycle.rs: `init_checks`, dict methods, derived arrays, trapezoidal distances (RustCycModel) | entry by entry against the Python arrays; a first time other than 0 shifts the first entry only |
| C116 | cycle.rs: `RustCycleCache`, `average_grade_over_range`, `calc_distance_to_next_stop_from` | the cache loop builds Python's knots; Rust's interpolation reads only these knots |
| C117 | cycle.rs: constant jerk, `modify_*`, `detect_passing`, `to_microtrips`, target speeds, `extend_cycle` | loops over index ranges against Python's by induction; roundings agree away from ties; witnesses at ties |
| C118 | cyc_mods.rs: car following; `step` and `walk` with every option (RustModsModel) | the relation of C109 between the two walks is kept when both write the same speed and slope into the cycle; on a level road the slope search of both stops at once |
| C119 | cyc_mods.rs: `set_time_dilation` | lock step of the two secant loops from states that differ in fuel only; later steps leave earlier rows alone; a measure for termination |
| C120 | cyc_mods.rs: `calc_dvdd`, `generate_coast_trajectory`, `apply_coast_trajectory`, `calc_distance_to_stop_coast_v2`, `should_impose_coast`, `calc_next_rendezvous_trajectory`, `set_coast_delay`, `prevent_collisions` | each loop against Python's by induction, from one state; ties of the exit test, missing stops, unequal steps and passing at the next step excluded by hypothesis, with witnesses |
| C121 | cyc_mods.rs: `set_coast_speed`; simdrive_impl.rs: `step`, `walk` with coasting | a relation between the two states (equal but for fuel at rated power, and equal from the present row on) kept by every edit of the cycle and every solved step; induction over the run; the case without a coast by an invariant |
| C122 | simdrivelabel.rs: `get_label_fe`, `get_label_fe_phev`, `get_net_accel`, `make_accel_trace`; simdrive_impl.rs: `sim_drive_accel` | every run by C109/C112; the look-up, the remainder, the array products and the loop over cycles one by one; interpolation over strictly rising knots |
| C123 | vehicle_utils.rs: `abc_to_drag_coeffs` (without the fit), `get_error_val`; utils.rs: `tire_code_to_radius`; params.rs: heating value; air.rs: `get_rho` (RustUtilModel); their Python counterparts | the formulas are equal as reals; the loop of the error is the area of C55; the pattern is the Python one but for one optional space, searched for at every place by induction on the text |
| C124 | air.rs: `AirProperties::default` and its getters (RustUtilModel) | `interpolate` is the broken line through the table (C113), which rises strictly for the enthalpy and so can be read both ways; rates and bounds piece by piece |
| C125 | thermal.rs: `set_thermal_calcs`, `set_fc_thermal_calcs`, `set_cab_thermal_calcs`, `thermal_soak_walk` (RustThermalModel) | each component is inverted once into its equations; the soak by induction over the steps, each of which multiplies the difference to ambient by a factor in [0, 1] |
| C126 | thermal.rs: `set_exhport_thermal_calcs`, `set_cat_thermal_calcs`; vehicle_thermal.rs: areas, convection parameters (RustThermalModel) | a limited flow is a part, between none and all, of the flow that would close the difference; the enthalpy rises with the temperature (C124) |
| C127 | thermal.rs: the temperature coefficient in `set_fc_power`, the auxiliary load in `set_misc_calcs` (RustThermalModel) | monotonicity of the exponential, minima and maxima |
| C128 | vehicle_import.rs: `match_epatest_with_fegov_v2` (RustImportModel) | the search is inverted into a split of the list at the best candidate; counting of shared words by inclusion of lists without repetition |
| C129 | vehicle_import.rs: `derive_transmission_specs` (RustImportModel) | positions of first occurrences and slices of concatenated texts; decimals by induction on their last digit |
| C130 | vehicle_import.rs: `get_fuel_economy_gov_data_for_input_record`, `try_make_single_vehicle`, `try_import_vehicles` (RustImportModel) | induction over the records, with C128 |
| C131 | utils.rs: `multilinear`, `get_index_permutations` (RustGridModel) | the loop over the flat values is the nested interpolation, by induction on the dimensions; that is the specified one, which is unique on rising coordinates |
| C132 | simdrive_iter.rs: `SimDriveVec` (RustBatchModel) | invariant of the steps of a parallel run: indices not taken up are untouched, others run; serial runs by induction on the list |

No listed property had to be dropped as inexpressible.

## 5. Where the faithful model disagrees with the expected property

Each `_refuted` theorem is a counterexample to the plain reading of a property. The property statement names the exception
(so that the property as stated holds), and what is true instead is proved by the other theorems of that id.

* `C11_point_lookup_refuted`: with a stop in the cycle, the cached point look-up of grade gives another answer than the uncached one.
* `C13_other_step_refuted`: for steps other than 1 s the per-step constant-jerk formulas do not follow the planned trajectory (the trajectory is planned with a sum that is only right for unit steps).
* `C19_nan_refuted`: a cycle with a NaN sample does not equal itself.
* `C20_dilation_refuted`: after trace-miss correction the recorded powers belong to another speed than the recorded one.
* `C22_engine_loss_refuted`: where the looked-up efficiency is 0 the fuel power is set to 0 although the engine delivers power.
* `C26_negative_soc_refuted`: ... and below zero.
* `C26_window_refuted`: auxiliary load drives SOC below min_soc.
* `C29_cyc_met_refuted`: cyc_met is true in a run whose achieved speed differs from the trace.
* `C30_no_electric_system_refuted`: a vehicle without an electric system shows discharge energy in the audit.
* `C32_as_given_refuted`: zero entries at the end of an override array are replaced by the computed auxiliary load.
* `C33_reported_balanced_refuted`: the loop can give up unbalanced without reporting it.
* `C35_history_refuted`: after a run with a cycle-changing option, a second run without it uses the changed cycle.
* `C37_total_stretch_refuted`: the stretch of a step can exceed max_time_dilation because successive corrections multiply.
* `C42_accumulation_refuted`: battery-wear tallies are overwritten, not accumulated.
* `C43_fuel_cell_refuted`: for a fuel-cell vehicle with unchanged SOC the corrected fuel is not the fuel used.
* `C44_again_motor_override_refuted`: set_derived with a motor override is not repeatable: electric powers change at the second call.
* `C44_peak_between_points_refuted`: a map whose peak falls between the points of the grid is rejected by an assertion.
* `C47_custom_refuted`: a copy of a vehicle with its own 3-point map loses the map.
* `C47_motor_override_refuted`: a copy of a vehicle with a motor override differs in mc_max_elec_in_kw.
* `C48_sizes_refuted`: vehicles with tables of different sizes can compare equal (numpy broadcasting).
* `C48_symmetric_underived_refuted`: veh_equal is not symmetric for vehicles that are not derived.
* `C48_total_refuted`: veh_equal can raise (maps of different sizes).
* `C48_transitive_refuted`: veh_equal is not transitive (tolerance).
* `C51_core_restored_refuted`: suppress_logging does not restore the level of the core logger.
* `C51_restored_any_refuted`: a level outside the standard ones is not restored.
* `C52_all_or_nothing_refuted`: a failing set of several paths can have changed the object.
* `C52_unknown_name_refuted`: a misspelt last name creates an attribute instead of raising.
* `C53_middle_refuted`: the middle coast-down coefficient is lost.
* `C64_traction_source_refuted`: a vehicle is driven although neither engine nor motor delivers power.
* `C65_from_nothing_refuted`: a standing vehicle without generator power recharges its battery.
* `C66_trace_given_refuted`: trace-miss figures compare with the re-planned trace when coasting or car following is on.
* `C70_injective_refuted`: two names can have the same snake-case form.
* `C71_average_refuted`: no call of rollav gives an average.
* `C72_incomplete_refuted`: an incomplete tyre code is accepted.
* `C73_constant_kept_refuted`: resampling a constant rate column changes its first entry.
* `C77_short_range_refuted`: a range below one cycle gives NaN.
* `C77_whole_cycles_refuted`: a battery range of a whole number of cycles raises ValueError.
* `C79_list_maps_refuted`: maps given as lists are ignored.
* `C79_twice_refuted`: using the same dict twice loses its custom maps.
* `C80_name_refuted`: cells with "true" or "false" inside a longer text become booleans.
* `C81_name_refuted`: ... which corrupts vehicle names.
* `C93_limits_refuted`: with roadway power the published limit is a maximum of demand and supply, not the supply.
* `C94_nan_refuted`: a settings object with a NaN does not equal its copy.
* `C95_custom_refuted`: the copy of a run with a measured engine map simulates another vehicle.
* `C95_equal_results_refuted`: runs that compare equal can give different results.
* `C96_pairing_refuted`: models and test data are paired by position, not by name.
* `C97_bounds_ordered_refuted`: reversed parameter bounds are accepted.
* `C99_all_kept_refuted`: of two test files of the same year one is lost.
* `C99_only_csv_refuted`: the archive pattern is not anchored, so other files match too.
* `C100_balanced_hybrid_refuted`: the initial SOC of a balanced hybrid depends on the whole cycle.
* `C100_zero_override_refuted`: trailing zeros of an override mean "use the own load", so a later non-zero entry changes earlier samples.
* `C101_load_refuted`: the time of the first sample counts as a step with the load of the first sample.
* `C101_trace_miss_refuted`: ... and with its speed, so a cycle that begins in motion at a late time is reported as missed.
* `C102_within_tank_refuted`: the tank size is never read: a run can use more fuel than the tank holds.
* `C104_stays_refuted`: an electric vehicle with an empty battery, parked on a slope, rolls away (its negative power limit makes standing still a missed trace).
* `C105_wall_refuted`: the label of an electric vehicle uses a fixed charger efficiency of 0.86, whatever the vehicle has.
* `C106_failed_untouched_refuted`: ... even if no vehicle results.
* `C106_untouched_refuted`: from_df overwrites the row of the table it is given with the values read.
* `C110_same_fuel_refuted`: at exactly rated engine power Python uses the last efficiency, Rust the last but one.
* `C111_same_runs_refuted`: Python clips the next guess of a balanced hybrid's charge to [0, 1] and then rejects it; Rust clips it to [min_soc, max_soc].
* `C111_small_motor_refuted`: Python cuts the motor map 0.01 kW below its top, Rust at 99.99 % of it.
* `C112_late_start_refuted`: Python counts the time stamp of the first sample as the length of a step (dt_s prepends 0), Rust does not.
* `C112_parked_refuted`: Rust's set_post_scalars fails when the prescribed distance is zero.
* `C113_accepted_refuted`: Rust checks the range of every input, Python of none.
* `C113_long_grid_refuted`: at rated power Python takes the last entry of the motor map, Rust interpolates at 1.
* `C113_motor_override_refuted`: with mc_peak_eff_override the Python electric powers are those of the unscaled map; the compiled vehicle is derived from the scaled one.
* `C114_engine_map_followed_refuted`: Rust computes fc_eff_array only while it is empty.
* `C114_zero_override_refuted`: Rust takes any given override, Python only a positive one.
* `C115_extra_key_refuted`: the Rust from_dict ignores unknown keys, Python asserts there are none.
* `C115_late_start_refuted`: dt_s of Python prepends 0, so the first time stamp counts as a step.
* `C115_old_keys_refuted`: the Rust from_dict knows only the new key names.
* `C116_next_stop_refuted`: np.argmax of an all-false array is 0, so Python measures to the start of the cycle.
* `C116_standing_refuted`: the Rust interpolation needs two knots; a cycle that never moves has one.
* `C117_braking_refuted`: round half to even in Python, half away from zero in Rust.
* `C117_edit_refuted`: with n = 0 Rust returns 0 instead of the starting speed.
* `C117_extend_refuted`: round half to even in Python, half away from zero in Rust.
* `C117_passing_refuted`: only Python asks that the leader be ahead of the starting point.
* `C117_plan_refuted`: Python raises ZeroDivisionError, Rust divides.
* `C118_sloping_road_refuted`: the Rust search for the slope stops at an error of 1e-4, Python at 1e-6.
* `C119_later_steps_refuted`: the first test of the Rust correction takes the distance of the driven, already stretched cycle.
* `C120_no_stop_refuted`: without a further stop Rust takes the distance to the end of the trace, Python a negative one.
* `C120_no_stop_plan_refuted`: as C120_no_stop, for the plan.
* `C120_soon_refuted`: the number of steps is computed in usize.
* `C120_steps_refuted`: Python divides by the length of the step before.
* `C122_far_refuted`: the Rust look-up takes the last but one entry when no distance of the table is greater; scipy refuses.
* `C122_no_fuel_refuted`: Python divides by the mileage 0 as a float of Python, which raises; Rust gets an infinity and 1/infinity = 0.
* `C122_plateau_refuted`: np.interp takes the later of two equal abscissae, the Rust interpolate skips it.
* `C123_light_truck_refuted`: the square brackets around the prefixes allow one letter; Rust searches at every place, Python only at the start.
* `C123_space_refuted`: the Python pattern has no space before the construction letter and goes back to fewer digits of the aspect ratio.
* `C124_cp_rising_refuted`: the specific heat of the table falls up to -22.5 degrees.
* `C124_inverse_cold_refuted`: outside of the table the values are held.
* `C125_band_heat_refuted`: nor the heat taken from the engine.
* `C125_band_power_refuted`: the branch of the deadband does not reset the electric power.
* `C125_soak_refuted`: the balance is an explicit Euler step without a limit.
* `C126_area_refuted`: `powf(2.0 / 4.0)` is the square root, not a quarter of the square.
* `C126_catalyst_refuted`: the limit uses `cab_c_kj__k` in the place of `cat_c_kj__K`.
* `C126_catalyst_moving_refuted`: the coefficient found on the move is stored in the field of the engine.
* `C127_lightoff_refuted`: above light-off the coefficient is not assigned.
* `C127_lit_start_refuted`: nor at the start, where it is 0.
* `C128_name_refuted`: a word that occurs twice in the name of a test counts twice, so that the mark can exceed that of the same name.
* `C129_missing_refuted`: an empty transmission panics, which ends the import of all vehicles of the request.
* `C129_ten_refuted`: the digit before "-spd" is read, so ten speeds become none.

Other observations made while modelling (all visible in the model, some in theorems): the label for battery electric
vehicles uses the module constant `params.chg_eff` and ignores both `veh.chg_eff` and the argument; the label
uses default physical properties and `max_epa_adj`; `set_nested_values` without keywords does nothing;
`Vehicle.from_dict` treats the optional `fc_eff_map` as required; the candidate check of `_prevent_collisions`
divides by the previous step's duration and clears flags from `idx + n` on; eco-cruise's mean speed uses
backward-Euler distance; nothing in the package ever sets the roadway power that the limits read;
`SimDriveParams.from_dict` accepts misspelt names; a single-element calibration objective is never recorded, and an
`UnboundLocalError` if it comes first; `ModelObjectives.get_errors` calls `.copy()`, which the Python `SimDrive` does not have.

## 6. Validation of the model against stored results

The binary64 instance of the model was run (outside the build) against data in the repository:

* `fs_kw_out_ach[100]` of vehicle 1 over UDDS equals the stored 29.32533101828119 bit for bit; the sum over the
  cycle agrees to 12 digits.
* `sim_drive` for all 26 vehicles over UDDS, HWFET and US06: all 55 energy channels of the 78 runs agree with
  `master_benchmark_vars.csv` within 1e-3.
* The stored sweep of connected/automated-vehicle runs (72 rows): 67 agree within 1e-6 and 5 within 7.4e-5.
* `get_label_fe` against `res_excel.json`: all comparable vehicles within the tolerances of the repository's own
  test, apart from vehicle 25, which that test lists as a known error.
* The docstring examples of `calculate_tire_radius`.

Small runs of this kind are kept as `Cxx_run` examples.

## 7. Testing the theorems against wrong programs

In a scratch copy of the development, a definition of the model is edited as a realistic bug would, and the proofs are
rebuilt with the `Example`s removed, so that only theorems can notice. `seeded/LOG.jsonl` has one line per edit:

* `definition`, `edit`: what was changed.
* `claim`: what a user can no longer rely on.
* `stopped_at`: the lemma or theorem at which the build stopped. The build stops at the first failure.
* `failed`: the property theorems that depend on it and so lose their proof.
* `tightened`: theorems that were strengthened because the edit had gone unnoticed.
* `note`: for edits that no theorem notices, why (equivalent program, unreachable code) or that it is a gap.

A failure at a lemma that merely unfolds a definition shows less than a failure at a theorem. For the step equations
(`StepEqs.v`) and for `set_derived` a second round of edits was therefore made in the *unfolded* form, where only the theorems
themselves can fail.
