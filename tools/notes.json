{
 "C01": {
  "note": "Exact over the reals; all arrays except time also for binary64 (times are rounded there)."
 },
 "C11": {
  "note": "The averaging case and the point look-up without stops are proved; for cycles with a stop the point look-up claim is refuted by C11_point_lookup_refuted, as the property says."
 },
 "C13": {
  "note": "For dt other than 1 the step-by-step reading is refuted by C13_other_step_refuted, as the property says."
 },
 "C19": {
  "note": "Over the reals; C19_nan_refuted shows that binary64 NaN samples break reflexivity."
 },
 "C20": {
  "note": "For runs without trace-miss correction; C20_dilation_refuted is a run with it where the recorded powers belong to another speed."
 },
 "C22": {
  "note": "The zero-efficiency exception of the statement is C22_zero_efficiency_is_free / C22_engine_loss_refuted."
 },
 "C26": {
  "note": "The window claim is refuted (binary64 runs); C26_parked_drain gives the mechanism for all vehicles over the reals."
 },
 "C29": {
  "note": "Refuted by a binary64 run, as the property says."
 },
 "C30": {
  "note": "C30_no_electric_system_refuted / C30_phantom_discharge give the exception of the statement."
 },
 "C42": {
  "note": "The accumulating reading is refuted (C42_accumulation_refuted); what the calls do compute is proved for all runs."
 },
 "C43": {
  "note": "For hybrids with an engine; C43_fuel_cell_refuted is a fuel-cell run with unchanged SOC and a result that is not the fuel energy."
 },
 "C64": {
  "note": "Refuted by a binary64 run; C64_shortfall_is_added gives the cause for all vehicles."
 },
 "C65": {
  "note": "C65_recharges proves the unphysical gain for every such vehicle and step; C65_from_nothing_refuted is a standing run."
 },
 "C66": {
  "note": "C66_trace_given_refuted gives the exception of the statement."
 },
 "C44": {
  "note": "C44_again_motor_override_refuted and C44_peak_between_points_refuted are the exceptions named in the statement (binary64 runs); repeatability is proved over the reals and for binary64."
 },
 "C46": {
  "note": "For positive maps; survival and loss at the next set_derived for vehicles without peak overrides, as the statement says; with overrides C46_override_engine/_motor."
 },
 "C51": {
  "note": "C51_core_restored_refuted and C51_restored_any_refuted are the two exceptions named in the statement."
 },
 "C52": {
  "note": "Python objects only. Proved for trees of objects and, with explicit side conditions, for shared objects. C52_all_or_nothing_refuted: a failing call can have changed the object; C52_unknown_name_refuted: a misspelt last name is not an error."
 },
 "C53": {
  "note": "Without optimisation and curve fit. The middle coefficient is lost (C53_middle_refuted), as the statement says."
 },
 "C70": {
  "note": "ASCII texts. C70_injective_refuted: different names can collide."
 },
 "C71": {
  "note": "Lists/arrays and pandas Series of numbers."
 },
 "C72": {
  "note": "ASCII texts; C72_incomplete_refuted is the exception of the statement."
 },
 "C73": {
  "note": "C73_constant_kept_refuted is the exception of the statement (a binary64 run); C73_constant_rate proves it for all tables."
 },
 "C50": {
  "note": "Exactly the key sets per powertrain; the two missing keys of conventional and hybrid vehicles are part of the statement."
 },
 "C77": {
  "note": "Under the hypotheses of [plug_in]: equal miles in the runs, battery lasting between n and n+1 cycles; whole number of cycles and less than one cycle are the refuted cases of the statement (the latter by a binary64 run)."
 },
 "C47": {
  "note": "Over the reals; vehicles whose object is coherent (proved of everything from_dict returns: C79_coherent). C47_custom_refuted and C47_motor_override_refuted are binary64 runs of the exceptions in the statement."
 },
 "C48": {
  "note": "The *_refuted theorems are the exceptions of the statement."
 },
 "C79": {
  "note": "Python's float(), int(), str() and ast.literal_eval are arbitrary parameters. C79_list_maps_refuted and C79_twice_refuted are runs of the exceptions of the statement."
 },
 "C80": {
  "note": "ASCII case folding. C80_name_refuted is the exception of the statement."
 },
 "C81": {
  "note": "The row as read; csv parsing and row lookup are not modelled. C81_name_refuted shows C80's exception at vehicle level."
 },
 "C82": {
  "note": "C68 is the statement for completed runs; this one holds of every state of a simulation object."
 },
 "C93": {
  "note": "C93_limits_refuted is a binary64 step of a fuel-cell vehicle; C93_fuel_cell gives what happens for all of them."
 },
 "C94": {
  "note": "C94_nan_refuted: a NaN setting (binary64)."
 },
 "C95": {
  "note": "C95_custom_refuted and C95_equal_results_refuted are the exceptions of the statement (binary64 runs)."
 },
 "C96": {
  "note": "The simulation objects and data tables are arbitrary; plotting is not modelled. C96_pairing_refuted is the exception of the statement."
 },
 "C97": {
  "note": "The optimiser is not modelled: the theorems hold for whatever points it proposes."
 },
 "C98": {
  "note": "Files as lists of rows of text; csv quoting is not modelled."
 },
 "C99": {
  "note": "Directory listings as lists of names and contents."
 },
 "C100": {
  "note": "C100_zero_override_refuted and C100_balanced_hybrid_refuted are the exceptions of the statement (binary64 runs). Runs with trace-miss correction, coasting or car following are not covered."
 },
 "C101": {
  "note": "Exact times: in binary64 a shift can round the step lengths. C101_load_refuted and C101_trace_miss_refuted are the exceptions of the statement."
 },
 "C102": {
  "note": "drives_alike (PlainSpec.v) lists the attributes read. C102_within_tank_refuted is the exception of the statement."
 },
 "C103": {
  "note": "same_but_flags (PlainSpec.v) says what is the same."
 },
 "C104": {
  "note": "C104_stays_refuted is the exception of the statement (binary64 run)."
 },
 "C105": {
  "note": "same_label (PlainSpec2.v): same error, or the same value under every key but 'veh'. C105_wall_refuted is the last sentence of the statement."
 },
 "C106": {
  "note": "round_trip and vehicle_table are in LibSpec.v. pandas column types are not modelled. C106_untouched_refuted and C106_failed_untouched_refuted are the last sentence of the statement."
 },
 "C107": {
  "note": "Success for success; which error is raised first can depend on the order."
 },
 "C108": {
  "note": "Modelled for Vehicle objects, not RustVehicle."
 },
 "C109": {
  "note": "plain_run, comparable, same_but_fuel are in RustSpec.v. Exact arithmetic: the two programs associate some products differently, so binary64 results can differ in the last digits. C109_step has the step interface, C109_derived which derived vehicles qualify."
 },
 "C110": {
  "note": "fuel_at is in RustSpec.v. C110_same_fuel_refuted is the last sentence of the statement."
 },
 "C111": {
  "note": "The three refuted readings are C111_road_power (general) and C111_same_runs_refuted, C111_small_motor_refuted (witnesses)."
 },
 "C112": {
  "note": "figures_but_fuel and moves are in RustSpec.v. The comparison is for runs without the three cycle-changing options; C112_missed_time is about any final state."
 },
 "C113": {
  "note": "inputs_valid, maps_ok, same_but_overrides are in RustVehSpec.v; exact arithmetic. C113_run_agrees is for given starting charges and non-hybrids (C109_hybrid covers the balanced hybrid on one vehicle object)."
 },
 "C114": {
  "note": "The model of the compiled class is RustVehModel.v. The false readings are the _refuted witnesses and C114_engine_map_ignored (general)."
 },
 "C115": {
  "note": "The model of the compiled class is RustCycModel.v. The false readings are the _refuted witnesses."
 },
 "C116": {
  "note": "C116_grade needs a cycle that covers some distance; C116_standing_refuted shows why."
 },
 "C117": {
  "note": "Where the two differ, the difference is given in general (C117_no_steps, C117_past_end, C117_passing) or by a witness."
 },
 "C118": {
  "note": "C118_walk, C118_identical, C118_refuses and C118_completes for runs; C118_gap, C118_activate and C118_activate_refuses for the other calls; C118_sloping_road_refuted is the exception."
 },
 "C119": {
  "note": "C119_no_correction and C119_first_correction say how far the runs agree; C119_later_steps_refuted is a trip on which they part."
 },
 "C120": {
  "note": "The parts of a coasting step, each from one common state; C120_start composes them up to the start of a coast. The refuted theorems are witnesses outside the hypotheses."
 },
 "C121": {
  "note": "C121_walk names the borderline cases by the specification [ordinary_run], a condition on the Python run alone; C121_below_start and C121_slow are free of it."
 },
 "C122": {
  "note": "alike (RustLabelSpec.v) demands that the engine stays below rated power on the two cycles (see C110); no such condition on the acceleration run. The pairs of key and field are listed in RustLabelSpec.v."
 },
 "C123": {
  "note": "The coefficients are compared with Python run with use_rust=False; the fit by the argmin library is not modelled."
 },
 "C124": {
  "note": "The tables are data; their entries are transcribed from air.rs and the theorems state what follows from them."
 },
 "C125": {
  "note": "What a thermal step takes from the simulation (powers, speeds, time step) is its input. C125_defined says when a step is defined; the refuted theorems are runs of the default vehicle."
 },
 "C126": {
  "note": "C126_catalyst names the cases in which the heat from the exhaust is limited rightly; C126_catalyst_refuted is a step outside of them."
 },
 "C127": {
  "note": "The efficiency read from the map is an input (see C110 for the map); division by 0 is stated as a coefficient of 0."
 },
 "C128": {
  "note": "Marks are reals; the counterexample C128_name_refuted is a run in binary64. Blank names, for which the code computes 0/0, are in no question in the model either."
 },
 "C129": {
  "note": "Texts are ASCII; a panic of the code is a refusal."
 },
 "C130": {
  "note": "The vehicle then goes through set_derived and abc_to_drag_coeffs, which are properties of their own."
 },
 "C131": {
  "note": "Over the reals; the refusal of entries that are not a number is not modelled."
 },
 "C132": {
  "note": "Runs share no state, as each gets its own element; rayon is modelled as any order of runs with any runs skipped after an error."
 }
}