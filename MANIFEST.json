{
 "claims": [
  {
   "property": "C01",
   "status": "proved",
   "theorems": [
    "C01_microtrips_then_concat",
    "C01_samples_any_arithmetic"
   ],
   "note": "Exact over the reals; all arrays except time also for binary64 (times are rounded there)."
  },
  {
   "property": "C02",
   "status": "proved",
   "theorems": [
    "C02_microtrip_shape",
    "C02_starts_at_zero",
    "C02_joints",
    "C02_contiguous",
    "C02_two_samples"
   ],
   "note": ""
  },
  {
   "property": "C03",
   "status": "proved",
   "theorems": [
    "C03_length",
    "C03_total",
    "C03_blocks",
    "C03_single_and_none",
    "C03_end_time",
    "C03_grouping_left",
    "C03_grouping_right",
    "C03_increasing",
    "C03_empty_first"
   ],
   "note": ""
  },
  {
   "property": "C04",
   "status": "proved",
   "theorems": [
    "C04_clip",
    "C04_clip_empty",
    "C04_window"
   ],
   "note": ""
  },
  {
   "property": "C05",
   "status": "proved",
   "theorems": [
    "C05_cut_and_join"
   ],
   "note": ""
  },
  {
   "property": "C06",
   "status": "proved",
   "theorems": [
    "C06_grid",
    "C06_interpolated",
    "C06_hold",
    "C06_hold_next",
    "C06_succeeds",
    "C06_unknown",
    "C06_absent"
   ],
   "note": ""
  },
  {
   "property": "C07",
   "status": "proved",
   "theorems": [
    "C07_rate_distance"
   ],
   "note": ""
  },
  {
   "property": "C08",
   "status": "proved",
   "theorems": [
    "C08_start_distance",
    "C08_step_distance",
    "C08_step_distances",
    "C08_range_distance",
    "C08_additive",
    "C08_next_start",
    "C08_range_difference",
    "C08_monotone"
   ],
   "note": ""
  },
  {
   "property": "C09",
   "status": "proved",
   "theorems": [
    "C09_agree",
    "C09_first",
    "C09_first_agrees_iff",
    "C09_length",
    "C09_sum",
    "C09_past_end"
   ],
   "note": ""
  },
  {
   "property": "C10",
   "status": "proved",
   "theorems": [
    "C10_next_stop",
    "C10_no_stop"
   ],
   "note": ""
  },
  {
   "property": "C11",
   "status": "proved",
   "theorems": [
    "C11_averages",
    "C11_points",
    "C11_point_lookup_refuted"
   ],
   "note": "The averaging case and the point look-up without stops are proved; for cycles with a stop the point look-up claim is refuted by C11_point_lookup_refuted, as the property says."
  },
  {
   "property": "C12",
   "status": "proved",
   "theorems": [
    "C12_constant_grade",
    "C12_zero_grade",
    "C12_constant_grade_point"
   ],
   "note": ""
  },
  {
   "property": "C13",
   "status": "proved",
   "theorems": [
    "C13_only_plan",
    "C13_rendezvous",
    "C13_singular",
    "C13_bad_plan",
    "C13_unit_step",
    "C13_other_step_refuted"
   ],
   "note": "For dt other than 1 the step-by-step reading is refuted by C13_other_step_refuted, as the property says."
  },
  {
   "property": "C14",
   "status": "proved",
   "theorems": [
    "C14_jerk_distance",
    "C14_braking_distance",
    "C14_braking_none",
    "C14_jerk_edit",
    "C14_braking_edit",
    "C14_rounding",
    "C14_braking_rejects",
    "C14_braking_past_end"
   ],
   "note": ""
  },
  {
   "property": "C15",
   "status": "proved",
   "theorems": [
    "C15_detect_passing",
    "C15_past_end"
   ],
   "note": ""
  },
  {
   "property": "C16",
   "status": "proved",
   "theorems": [
    "C16_extend"
   ],
   "note": ""
  },
  {
   "property": "C17",
   "status": "proved",
   "theorems": [
    "C17_table",
    "C17_order"
   ],
   "note": ""
  },
  {
   "property": "C18",
   "status": "proved",
   "theorems": [
    "C18_dict_round_trip",
    "C18_old_keys",
    "C18_legacy_and_back",
    "C18_copy",
    "C18_copy_legacy_fails",
    "C18_copy_unknown_fails",
    "C18_rename_bijection",
    "C18_defaults",
    "C18_missing_arrays",
    "C18_unknown_key",
    "C18_make_cycle",
    "C18_make_cycle_rejects"
   ],
   "note": ""
  },
  {
   "property": "C19",
   "status": "proved",
   "theorems": [
    "C19_equals",
    "C19_equivalence",
    "C19_cyc_equal",
    "C19_copy_equal",
    "C19_nan_refuted"
   ],
   "note": "Over the reals; C19_nan_refuted shows that binary64 NaN samples break reflexivity."
  },
  {
   "property": "C20",
   "status": "proved",
   "theorems": [
    "C20_road_load",
    "C20_grade_of_trace",
    "C20_grade_replanned",
    "C20_brakes",
    "C20_brake_split",
    "C20_resistances_nonnegative",
    "C20_dilation_refuted"
   ],
   "note": "For runs without trace-miss correction; C20_dilation_refuted is a run with it where the recorded powers belong to another speed."
  },
  {
   "property": "C21",
   "status": "proved",
   "theorems": [
    "C21_within",
    "C21_limit",
    "C21_no_engine",
    "C21_load_fraction"
   ],
   "note": ""
  },
  {
   "property": "C22",
   "status": "proved",
   "theorems": [
    "C22_transmission",
    "C22_motor",
    "C22_engine",
    "C22_battery",
    "C22_fuel_store",
    "C22_zero_efficiency_is_free",
    "C22_engine_loss_refuted"
   ],
   "note": "The zero-efficiency exception of the statement is C22_zero_efficiency_is_free / C22_engine_loss_refuted."
  },
  {
   "property": "C23",
   "status": "proved",
   "theorems": [
    "C23_engine",
    "C23_motor"
   ],
   "note": ""
  },
  {
   "property": "C24",
   "status": "proved",
   "theorems": [
    "C24_step",
    "C24_soc",
    "C24_whole_walk",
    "C24_no_electric_system",
    "C24_start"
   ],
   "note": ""
  },
  {
   "property": "C25",
   "status": "proved",
   "theorems": [
    "C25_window",
    "C25_limits",
    "C25_limit_formulas",
    "C25_limits_exact"
   ],
   "note": ""
  },
  {
   "property": "C26",
   "status": "proved",
   "theorems": [
    "C26_parked_drain",
    "C26_window_refuted",
    "C26_negative_soc_refuted"
   ],
   "note": "The window claim is refuted (binary64 runs); C26_parked_drain gives the mechanism for all vehicles over the reals."
  },
  {
   "property": "C27",
   "status": "proved",
   "theorems": [
    "C27_transmission",
    "C27_sign",
    "C27_limit",
    "C27_grip"
   ],
   "note": ""
  },
  {
   "property": "C28",
   "status": "proved",
   "theorems": [
    "C28_achieved",
    "C28_achieved_replanned",
    "C28_nonnegative",
    "C28_units",
    "C28_grade"
   ],
   "note": ""
  },
  {
   "property": "C29",
   "status": "proved",
   "theorems": [
    "C29_cyc_met_refuted",
    "C29_no_search_means_met"
   ],
   "note": "Refuted by a binary64 run, as the property says."
  },
  {
   "property": "C30",
   "status": "proved",
   "theorems": [
    "C30_audit",
    "C30_audit_wheels",
    "C30_closes",
    "C30_reported",
    "C30_engine_hybrid",
    "C30_conventional",
    "C30_battery_electric",
    "C30_fuel_cell",
    "C30_phantom_discharge",
    "C30_no_electric_system_refuted"
   ],
   "note": "C30_no_electric_system_refuted / C30_phantom_discharge give the exception of the statement."
  },
  {
   "property": "C31",
   "status": "proved",
   "theorems": [
    "C31_no_mpgge",
    "C31_no_motor",
    "C31_no_battery",
    "C31_no_fuel"
   ],
   "note": ""
  },
  {
   "property": "C32",
   "status": "proved",
   "theorems": [
    "C32_given",
    "C32_zero_tail",
    "C32_no_override",
    "C32_array_kept",
    "C32_as_given_refuted"
   ],
   "note": ""
  },
  {
   "property": "C33",
   "status": "proved",
   "theorems": [
    "C33_balance",
    "C33_bounded",
    "C33_error",
    "C33_reported_balanced_refuted"
   ],
   "note": ""
  },
  {
   "property": "C34",
   "status": "proved",
   "theorems": [
    "C34_window",
    "C34_rejected",
    "C34_start"
   ],
   "note": ""
  },
  {
   "property": "C35",
   "status": "proved",
   "theorems": [
    "C35_repeatable",
    "C35_walk_repeatable",
    "C35_inputs_kept",
    "C35_history_refuted"
   ],
   "note": ""
  },
  {
   "property": "C36",
   "status": "proved",
   "theorems": [
    "C36_walk_is_steps",
    "C36_steps_are_walk"
   ],
   "note": ""
  },
  {
   "property": "C37",
   "status": "proved",
   "theorems": [
    "C37_correction",
    "C37_forward",
    "C37_run_steps",
    "C37_run_forward",
    "C37_total_stretch_refuted"
   ],
   "note": ""
  },
  {
   "property": "C38",
   "status": "proved",
   "theorems": [
    "C38_prevent_ends",
    "C38_retry",
    "C38_no_effect",
    "C38_effect",
    "C38_runs_end"
   ],
   "note": ""
  },
  {
   "property": "C39",
   "status": "proved",
   "theorems": [
    "C39_coasting"
   ],
   "note": ""
  },
  {
   "property": "C40",
   "status": "proved",
   "theorems": [
    "C40_bounds",
    "C40_no_desire",
    "C40_model",
    "C40_applied",
    "C40_target"
   ],
   "note": ""
  },
  {
   "property": "C41",
   "status": "proved",
   "theorems": [
    "C41_channel",
    "C41_only",
    "C41_no_loss",
    "C41_signs",
    "C41_totals"
   ],
   "note": ""
  },
  {
   "property": "C42",
   "status": "proved",
   "theorems": [
    "C42_first_call",
    "C42_not_accumulated",
    "C42_repeated_calls",
    "C42_depth_and_life",
    "C42_accumulation_refuted"
   ],
   "note": "The accumulating reading is refuted (C42_accumulation_refuted); what the calls do compute is proved for all runs."
  },
  {
   "property": "C43",
   "status": "proved",
   "theorems": [
    "C43_sign",
    "C43_rejects",
    "C43_fuel_cell_refuted"
   ],
   "note": "For hybrids with an engine; C43_fuel_cell_refuted is a fuel-cell run with unchanged SOC and a result that is not the fuel energy."
  },
  {
   "property": "C44",
   "status": "proved",
   "theorems": [
    "C44_assignment",
    "C44_rejects",
    "C44_accepted",
    "C44_accepts",
    "C44_peak_between_points_refuted",
    "C44_flags",
    "C44_engine_tables",
    "C44_motor_tables",
    "C44_efficiencies",
    "C44_parameters_kept",
    "C44_ready",
    "C44_again",
    "C44_again_float",
    "C44_again_engine_override",
    "C44_again_motor_override_refuted",
    "C44_stale_motor_map"
   ],
   "note": "C44_again_motor_override_refuted and C44_peak_between_points_refuted are the exceptions named in the statement (binary64 runs); repeatability is proved over the reals and for binary64."
  },
  {
   "property": "C45",
   "status": "proved",
   "theorems": [
    "C45_mass",
    "C45_derived_mass",
    "C45_again",
    "C45_again_float",
    "C45_traction"
   ],
   "note": ""
  },
  {
   "property": "C46",
   "status": "proved",
   "theorems": [
    "C46_engine_peak",
    "C46_motor_peak",
    "C46_accepted",
    "C46_engine_peak_lost",
    "C46_motor_peak_kept",
    "C46_override_engine",
    "C46_override_motor"
   ],
   "note": "For positive maps; survival and loss at the next set_derived for vehicles without peak overrides, as the statement says; with overrides C46_override_engine/_motor."
  },
  {
   "property": "C47",
   "status": "proved",
   "theorems": [
    "C47_parameters",
    "C47_maps",
    "C47_same_iff",
    "C47_unknown_type",
    "C47_custom_refuted",
    "C47_motor_override_refuted"
   ],
   "note": "Over the reals; vehicles whose object is coherent (proved of everything from_dict returns: C79_coherent). C47_custom_refuted and C47_motor_override_refuted are binary64 runs of the exceptions in the statement."
  },
  {
   "property": "C48",
   "status": "proved",
   "theorems": [
    "C48_true_iff",
    "C48_reflexive",
    "C48_symmetric",
    "C48_override_ignored",
    "C48_differences",
    "C48_transitive_refuted",
    "C48_total_refuted",
    "C48_sizes_refuted",
    "C48_symmetric_underived_refuted"
   ],
   "note": "The *_refuted theorems are the exceptions of the statement."
  },
  {
   "property": "C49",
   "status": "proved",
   "theorems": [
    "C49_combined_mpg",
    "C49_combined_kwh",
    "C49_fuel",
    "C49_electric",
    "C49_no_fuel"
   ],
   "note": ""
  },
  {
   "property": "C50",
   "status": "proved",
   "theorems": [
    "C50_plug_in_keys",
    "C50_other_keys"
   ],
   "note": "Exactly the key sets per powertrain; the two missing keys of conventional and hybrid vehicles are part of the statement."
  },
  {
   "property": "C51",
   "status": "proved",
   "theorems": [
    "C51_set_number",
    "C51_set_name",
    "C51_restored",
    "C51_off_inside",
    "C51_nested",
    "C51_core_level",
    "C51_core_restored_refuted",
    "C51_other_levels",
    "C51_restored_any_refuted",
    "C51_disable_enable"
   ],
   "note": "C51_core_restored_refuted and C51_restored_any_refuted are the two exceptions named in the statement."
  },
  {
   "property": "C52",
   "status": "proved",
   "theorems": [
    "C52_read",
    "C52_succeeds",
    "C52_only",
    "C52_get_after_set",
    "C52_set_same",
    "C52_second_wins",
    "C52_elsewhere",
    "C52_disjoint",
    "C52_shared",
    "C52_missing",
    "C52_not_resettable",
    "C52_errors",
    "C52_all_or_nothing_refuted",
    "C52_unknown_name_refuted",
    "C52_in_order",
    "C52_dotted"
   ],
   "note": "Python objects only. Proved for trees of objects and, with explicit side conditions, for shared objects. C52_all_or_nothing_refuted: a failing call can have changed the object; C52_unknown_name_refuted: a misspelt last name is not an error."
  },
  {
   "property": "C53",
   "status": "proved",
   "theorems": [
    "C53_outcome",
    "C53_road_load",
    "C53_there_and_back",
    "C53_back_and_there",
    "C53_changed",
    "C53_no_coasting",
    "C53_middle_refuted"
   ],
   "note": "Without optimisation and curve fit. The middle coefficient is lost (C53_middle_refuted), as the statement says."
  },
  {
   "property": "C54",
   "status": "proved",
   "theorems": [
    "C54_consumption",
    "C54_zero",
    "C54_mph",
    "C54_lhv"
   ],
   "note": ""
  },
  {
   "property": "C55",
   "status": "proved",
   "theorems": [
    "C55_value",
    "C55_rejected",
    "C55_metric",
    "C55_triangle",
    "C55_scale",
    "C55_units_of_time",
    "C55_between"
   ],
   "note": ""
  },
  {
   "property": "C56",
   "status": "proved",
   "theorems": [
    "C56_electric",
    "C56_mechanical",
    "C56_fuel_cell",
    "C56_fuel_cell_battery",
    "C56_no_roadway_power"
   ],
   "note": ""
  },
  {
   "property": "C57",
   "status": "proved",
   "theorems": [
    "C57_decision",
    "C57_motor_drives",
    "C57_engine_off"
   ],
   "note": ""
  },
  {
   "property": "C58",
   "status": "proved",
   "theorems": [
    "C58_forced_on",
    "C58_timer",
    "C58_forced_states"
   ],
   "note": ""
  },
  {
   "property": "C59",
   "status": "proved",
   "theorems": [
    "C59_accel_buffer",
    "C59_regen_buffer",
    "C59_set_points",
    "C59_rates",
    "C59_power"
   ],
   "note": ""
  },
  {
   "property": "C60",
   "status": "proved",
   "theorems": [
    "C60_motor",
    "C60_fuel_store",
    "C60_motor_feed",
    "C60_motor_output",
    "C60_motor_input"
   ],
   "note": ""
  },
  {
   "property": "C61",
   "status": "proved",
   "theorems": [
    "C61_battery",
    "C61_motor_direction",
    "C61_plan",
    "C61_electric_plan",
    "C61_shaft_power",
    "C61_best_engine_point"
   ],
   "note": ""
  },
  {
   "property": "C62",
   "status": "proved",
   "theorems": [
    "C62_motor_decision",
    "C62_help",
    "C62_electric_need"
   ],
   "note": ""
  },
  {
   "property": "C63",
   "status": "proved",
   "theorems": [
    "C63_protection",
    "C63_starts_unprotected"
   ],
   "note": ""
  },
  {
   "property": "C64",
   "status": "proved",
   "theorems": [
    "C64_traction_source_refuted",
    "C64_shortfall_is_added"
   ],
   "note": "Refuted by a binary64 run; C64_shortfall_is_added gives the cause for all vehicles."
  },
  {
   "property": "C65",
   "status": "proved",
   "theorems": [
    "C65_recharges",
    "C65_from_nothing_refuted"
   ],
   "note": "C65_recharges proves the unphysical gain for every such vehicle and step; C65_from_nothing_refuted is a standing run."
  },
  {
   "property": "C66",
   "status": "proved",
   "theorems": [
    "C66_speed",
    "C66_replanned_speed",
    "C66_distance",
    "C66_time",
    "C66_flag",
    "C66_trace_given_refuted"
   ],
   "note": "C66_trace_given_refuted gives the exception of the statement."
  },
  {
   "property": "C67",
   "status": "proved",
   "theorems": [
    "C67_mpgge",
    "C67_fuel",
    "C67_electric",
    "C67_cumulative_fuel"
   ],
   "note": ""
  },
  {
   "property": "C68",
   "status": "proved",
   "theorems": [
    "C68_gap"
   ],
   "note": ""
  },
  {
   "property": "C69",
   "status": "proved",
   "theorems": [
    "C69_value",
    "C69_positive",
    "C69_thinner",
    "C69_ideal_gas"
   ],
   "note": ""
  },
  {
   "property": "C70",
   "status": "proved",
   "theorems": [
    "C70_letters",
    "C70_snake",
    "C70_result",
    "C70_injective_refuted"
   ],
   "note": "ASCII texts. C70_injective_refuted: different names can collide."
  },
  {
   "property": "C71",
   "status": "proved",
   "theorems": [
    "C71_never",
    "C71_average_refuted"
   ],
   "note": "Lists/arrays and pandas Series of numbers."
  },
  {
   "property": "C72",
   "status": "proved",
   "theorems": [
    "C72_radius",
    "C72_units",
    "C72_two_letters",
    "C72_no_slash",
    "C72_incomplete_refuted"
   ],
   "note": "ASCII texts; C72_incomplete_refuted is the exception of the statement."
  },
  {
   "property": "C73",
   "status": "proved",
   "theorems": [
    "C73_resampled",
    "C73_no_time",
    "C73_time",
    "C73_constant_rate",
    "C73_constant_kept_refuted"
   ],
   "note": "C73_constant_kept_refuted is the exception of the statement (a binary64 run); C73_constant_rate proves it for all tables."
  },
  {
   "property": "C74",
   "status": "proved",
   "theorems": [
    "C74_equal",
    "C74_copy",
    "C74_defaults"
   ],
   "note": ""
  },
  {
   "property": "C75",
   "status": "proved",
   "theorems": [
    "C75_first_sample",
    "C75_first_rest",
    "C75_arrays_reset",
    "C75_walk"
   ],
   "note": ""
  },
  {
   "property": "C76",
   "status": "proved",
   "theorems": [
    "C76_utility_factor",
    "C76_reported"
   ],
   "note": ""
  },
  {
   "property": "C77",
   "status": "proved",
   "theorems": [
    "C77_runs",
    "C77_defined",
    "C77_lab",
    "C77_adj",
    "C77_whole_cycles_refuted",
    "C77_short_range_refuted"
   ],
   "note": "Under the hypotheses of [plug_in]: equal miles in the runs, battery lasting between n and n+1 cycles; whole number of cycles and less than one cycle are the refuted cases of the statement (the latter by a binary64 run)."
  },
  {
   "property": "C78",
   "status": "proved",
   "theorems": [
    "C78_acceleration"
   ],
   "note": ""
  },
  {
   "property": "C79",
   "status": "proved",
   "theorems": [
    "C79_coherent",
    "C79_kept",
    "C79_mass",
    "C79_peaks",
    "C79_year",
    "C79_defaults",
    "C79_grids",
    "C79_engine_map",
    "C79_motor_map",
    "C79_again",
    "C79_missing",
    "C79_unknown",
    "C79_engine_type",
    "C79_motor_points",
    "C79_list_maps_refuted",
    "C79_twice_refuted"
   ],
   "note": "Python's float(), int(), str() and ast.literal_eval are arbitrary parameters. C79_list_maps_refuted and C79_twice_refuted are runs of the exceptions of the statement."
  },
  {
   "property": "C80",
   "status": "proved",
   "theorems": [
    "C80_percent",
    "C80_true",
    "C80_false",
    "C80_number",
    "C80_printed",
    "C80_name_refuted"
   ],
   "note": "ASCII case folding. C80_name_refuted is the exception of the statement."
  },
  {
   "property": "C81",
   "status": "proved",
   "theorems": [
    "C81_headings",
    "C81_unknown_heading",
    "C81_values",
    "C81_percentages",
    "C81_name_refuted"
   ],
   "note": "The row as read; csv parsing and row lookup are not modelled. C81_name_refuted shows C80's exception at vehicle level."
  },
  {
   "property": "C82",
   "status": "proved",
   "theorems": [
    "C82_gap"
   ],
   "note": "C68 is the statement for completed runs; this one holds of every state of a simulation object."
  },
  {
   "property": "C83",
   "status": "proved",
   "theorems": [
    "C83_mean",
    "C83_trip",
    "C83_extends",
    "C83_keeps",
    "C83_rejects"
   ],
   "note": ""
  },
  {
   "property": "C84",
   "status": "proved",
   "theorems": [
    "C84_force",
    "C84_still",
    "C84_step"
   ],
   "note": ""
  },
  {
   "property": "C85",
   "status": "proved",
   "theorems": [
    "C85_brakes",
    "C85_motion",
    "C85_motion_exists",
    "C85_simulated",
    "C85_uneven",
    "C85_no_brakes"
   ],
   "note": ""
  },
  {
   "property": "C86",
   "status": "proved",
   "theorems": [
    "C86_by_speed",
    "C86_by_distance"
   ],
   "note": ""
  },
  {
   "property": "C87",
   "status": "proved",
   "theorems": [
    "C87_plan",
    "C87_arrives",
    "C87_total",
    "C87_brakes"
   ],
   "note": ""
  },
  {
   "property": "C88",
   "status": "proved",
   "theorems": [
    "C88_search",
    "C88_correction",
    "C88_arrives"
   ],
   "note": ""
  },
  {
   "property": "C89",
   "status": "proved",
   "theorems": [
    "C89_delay"
   ],
   "note": ""
  },
  {
   "property": "C90",
   "status": "proved",
   "theorems": [
    "C90_follow",
    "C90_starts",
    "C90_unplanned",
    "C90_step"
   ],
   "note": ""
  },
  {
   "property": "C91",
   "status": "proved",
   "theorems": [
    "C91_outcome",
    "C91_meets"
   ],
   "note": ""
  },
  {
   "property": "C92",
   "status": "proved",
   "theorems": [
    "C92_best_power",
    "C92_derived"
   ],
   "note": ""
  },
  {
   "property": "C93",
   "status": "proved",
   "theorems": [
    "C93_limits",
    "C93_fuel_cell",
    "C93_supply",
    "C93_bus",
    "C93_limits_refuted"
   ],
   "note": "C93_limits_refuted is a binary64 step of a fuel-cell vehicle; C93_fuel_cell gives what happens for all of them."
  },
  {
   "property": "C94",
   "status": "proved",
   "theorems": [
    "C94_defaults",
    "C94_from_dict",
    "C94_copy",
    "C94_complete",
    "C94_missing",
    "C94_equal",
    "C94_equal_settings",
    "C94_misspelled",
    "C94_nan_refuted"
   ],
   "note": "C94_nan_refuted: a NaN setting (binary64)."
  },
  {
   "property": "C95",
   "status": "proved",
   "theorems": [
    "C95_equal",
    "C95_copy",
    "C95_copy_same",
    "C95_custom_refuted",
    "C95_equal_results_refuted"
   ],
   "note": "C95_custom_refuted and C95_equal_results_refuted are the exceptions of the statement (binary64 runs)."
  },
  {
   "property": "C96",
   "status": "proved",
   "theorems": [
    "C96_errors",
    "C96_recorded",
    "C96_first_unreferenced",
    "C96_too_long",
    "C96_paired",
    "C96_pairing_refuted"
   ],
   "note": "The simulation objects and data tables are arbitrary; plotting is not modelled. C96_pairing_refuted is the exception of the statement."
  },
  {
   "property": "C97",
   "status": "proved",
   "theorems": [
    "C97_parameters",
    "C97_counts",
    "C97_bounds_ordered_refuted",
    "C97_results",
    "C97_euclidean",
    "C97_unreferenced"
   ],
   "note": "The optimiser is not modelled: the theorems hold for whatever points it proposes."
  },
  {
   "property": "C98",
   "status": "proved",
   "theorems": [
    "C98_vehicles",
    "C98_no_loss",
    "C98_emissions",
    "C98_complete",
    "C98_blanks"
   ],
   "note": "Files as lists of rows of text; csv quoting is not modelled."
  },
  {
   "property": "C99",
   "status": "proved",
   "theorems": [
    "C99_century",
    "C99_test_files",
    "C99_all_kept_refuted",
    "C99_archives",
    "C99_only_csv_refuted"
   ],
   "note": "Directory listings as lists of names and contents."
  },
  {
   "property": "C100",
   "status": "proved",
   "theorems": [
    "C100_causal",
    "C100_drive",
    "C100_override",
    "C100_zero_override_refuted",
    "C100_balanced_hybrid_refuted"
   ],
   "note": "C100_zero_override_refuted and C100_balanced_hybrid_refuted are the exceptions of the statement (binary64 runs). Runs with trace-miss correction, coasting or car following are not covered."
  },
  {
   "property": "C101",
   "status": "proved",
   "theorems": [
    "C101_clock",
    "C101_figures",
    "C101_load_refuted",
    "C101_trace_miss_refuted"
   ],
   "note": "Exact times: in binary64 a shift can round the step lengths. C101_load_refuted and C101_trace_miss_refuted are the exceptions of the statement."
  },
  {
   "property": "C102",
   "status": "proved",
   "theorems": [
    "C102_attributes",
    "C102_tank",
    "C102_within_tank_refuted"
   ],
   "note": "drives_alike (PlainSpec.v) lists the attributes read. C102_within_tank_refuted is the exception of the statement."
  },
  {
   "property": "C103",
   "status": "proved",
   "theorems": [
    "C103_initial_soc",
    "C103_fuel"
   ],
   "note": "same_but_flags (PlainSpec.v) says what is the same."
  },
  {
   "property": "C104",
   "status": "proved",
   "theorems": [
    "C104_parked",
    "C104_stays_refuted"
   ],
   "note": "C104_stays_refuted is the exception of the statement (binary64 run)."
  },
  {
   "property": "C105",
   "status": "proved",
   "theorems": [
    "C105_label",
    "C105_charger",
    "C105_tank",
    "C105_wall_refuted"
   ],
   "note": "same_label (PlainSpec2.v): same error, or the same value under every key but 'veh'. C105_wall_refuted is the last sentence of the statement."
  },
  {
   "property": "C106",
   "status": "proved",
   "theorems": [
    "C106_repeatable",
    "C106_row",
    "C106_only",
    "C106_missing",
    "C106_table",
    "C106_untouched_refuted",
    "C106_failed_untouched_refuted"
   ],
   "note": "round_trip and vehicle_table are in LibSpec.v. pandas column types are not modelled. C106_untouched_refuted and C106_failed_untouched_refuted are the last sentence of the statement."
  },
  {
   "property": "C107",
   "status": "proved",
   "theorems": [
    "C107_columns",
    "C107_entries",
    "C107_number",
    "C107_file"
   ],
   "note": "Success for success; which error is raised first can depend on the order."
  },
  {
   "property": "C108",
   "status": "proved",
   "theorems": [
    "C108_names",
    "C108_attributes",
    "C108_complete",
    "C108_constants",
    "C108_copy_to",
    "C108_copy_of"
   ],
   "note": "Modelled for Vehicle objects, not RustVehicle."
  },
  {
   "property": "C109",
   "status": "proved",
   "theorems": [
    "C109_walk",
    "C109_fuel",
    "C109_identical",
    "C109_refuses",
    "C109_sim_drive",
    "C109_step",
    "C109_derived",
    "C109_hybrid"
   ],
   "note": "plain_run, comparable, same_but_fuel are in RustSpec.v. Exact arithmetic: the two programs associate some products differently, so binary64 results can differ in the last digits. C109_step has the step interface, C109_derived which derived vehicles qualify."
  },
  {
   "property": "C110",
   "status": "proved",
   "theorems": [
    "C110_rated",
    "C110_flat_top",
    "C110_same_fuel_refuted"
   ],
   "note": "fuel_at is in RustSpec.v. C110_same_fuel_refuted is the last sentence of the statement."
  },
  {
   "property": "C111",
   "status": "proved",
   "theorems": [
    "C111_road_power",
    "C111_same_runs_refuted",
    "C111_small_motor_refuted"
   ],
   "note": "The three refuted readings are C111_road_power (general) and C111_same_runs_refuted, C111_small_motor_refuted (witnesses)."
  },
  {
   "property": "C112",
   "status": "proved",
   "theorems": [
    "C112_figures",
    "C112_standing",
    "C112_clock",
    "C112_missed_time",
    "C112_late_start_refuted",
    "C112_parked_refuted"
   ],
   "note": "figures_but_fuel and moves are in RustSpec.v. The comparison is for runs without the three cycle-changing options; C112_missed_time is about any final state."
  },
  {
   "property": "C113",
   "status": "proved",
   "theorems": [
    "C113_to_rust",
    "C113_derived",
    "C113_ranges",
    "C113_run_agrees",
    "C113_motor_override_refuted",
    "C113_long_grid_refuted",
    "C113_accepted_refuted"
   ],
   "note": "inputs_valid, maps_ok, same_but_overrides are in RustVehSpec.v; exact arithmetic. C113_run_agrees is for given starting charges and non-hybrids (C109_hybrid covers the balanced hybrid on one vehicle object)."
  },
  {
   "property": "C114",
   "status": "proved",
   "theorems": [
    "C114_again",
    "C114_again_float",
    "C114_engine_map_ignored",
    "C114_motor_map",
    "C114_engine_peak_kept",
    "C114_motor_peak_lost",
    "C114_mass",
    "C114_traction",
    "C114_overrides_once",
    "C114_engine_map_followed_refuted",
    "C114_zero_override_refuted"
   ],
   "note": "The model of the compiled class is RustVehModel.v. The false readings are the _refuted witnesses and C114_engine_map_ignored (general)."
  },
  {
   "property": "C115",
   "status": "proved",
   "theorems": [
    "C115_to_rust",
    "C115_dict",
    "C115_dict_back",
    "C115_old_keys_refuted",
    "C115_extra_key_refuted",
    "C115_mph",
    "C115_steps",
    "C115_late_start",
    "C115_late_start_refuted",
    "C115_distances",
    "C115_range_outside"
   ],
   "note": "The model of the compiled class is RustCycModel.v. The false readings are the _refuted witnesses."
  },
  {
   "property": "C116",
   "status": "proved",
   "theorems": [
    "C116_cache",
    "C116_grade",
    "C116_grade_at",
    "C116_standing_refuted",
    "C116_next_stop",
    "C116_no_stop",
    "C116_next_stop_refuted"
   ],
   "note": "C116_grade needs a cycle that covers some distance; C116_standing_refuted shows why."
  },
  {
   "property": "C117",
   "status": "proved",
   "theorems": [
    "C117_jerk",
    "C117_plan",
    "C117_plan_refuted",
    "C117_edit",
    "C117_no_steps",
    "C117_past_end",
    "C117_edit_refuted",
    "C117_braking",
    "C117_braking_refuted",
    "C117_passing",
    "C117_passing_after_end",
    "C117_passing_refuted",
    "C117_microtrips",
    "C117_targets",
    "C117_extend",
    "C117_extend_refuted"
   ],
   "note": "Where the two differ, the difference is given in general (C117_no_steps, C117_past_end, C117_passing) or by a witness."
  },
  {
   "property": "C118",
   "status": "proved",
   "theorems": [
    "C118_walk",
    "C118_identical",
    "C118_refuses",
    "C118_completes",
    "C118_plain",
    "C118_gap",
    "C118_activate",
    "C118_activate_refuses",
    "C118_sloping_road_refuted"
   ],
   "note": "C118_walk, C118_identical, C118_refuses and C118_completes for runs; C118_gap, C118_activate and C118_activate_refuses for the other calls; C118_sloping_road_refuted is the exception."
  },
  {
   "property": "C119",
   "status": "proved",
   "theorems": [
    "C119_no_correction",
    "C119_first_correction",
    "C119_completes",
    "C119_refuses",
    "C119_later_steps_refuted"
   ],
   "note": "C119_no_correction and C119_first_correction say how far the runs agree; C119_later_steps_refuted is a trip on which they part."
  },
  {
   "property": "C120",
   "status": "proved",
   "theorems": [
    "C120_slope",
    "C120_plan",
    "C120_brakes",
    "C120_estimate",
    "C120_decide",
    "C120_start",
    "C120_rendezvous",
    "C120_adjust",
    "C120_delay",
    "C120_lead_speed",
    "C120_collision",
    "C120_no_stop_refuted",
    "C120_no_stop_plan_refuted",
    "C120_steps_refuted",
    "C120_soon_refuted"
   ],
   "note": "The parts of a coasting step, each from one common state; C120_start composes them up to the start of a coast. The refuted theorems are witnesses outside the hypotheses."
  },
  {
   "property": "C121",
   "status": "proved",
   "theorems": [
    "C121_walk",
    "C121_identical",
    "C121_below_start",
    "C121_slow"
   ],
   "note": "C121_walk names the borderline cases by the specification [ordinary_run], a condition on the Python run alone; C121_below_start and C121_slow are free of it."
  },
  {
   "property": "C122",
   "status": "proved",
   "theorems": [
    "C122_utility_factor",
    "C122_far_refuted",
    "C122_accel",
    "C122_plateau_refuted",
    "C122_label",
    "C122_no_fuel_refuted",
    "C122_trace_miss"
   ],
   "note": "alike (RustLabelSpec.v) demands that the engine stays below rated power on the two cycles (see C110); no such condition on the acceleration run. The pairs of key and field are listed in RustLabelSpec.v."
  },
  {
   "property": "C123",
   "status": "proved",
   "theorems": [
    "C123_density",
    "C123_properties",
    "C123_error",
    "C123_error_value",
    "C123_drag",
    "C123_drag_always",
    "C123_tire",
    "C123_tire_first",
    "C123_tire_same",
    "C123_tire_no_slash",
    "C123_space_refuted",
    "C123_light_truck_refuted"
   ],
   "note": "The coefficients are compared with Python run with use_rust=False; the fit by the argmin library is not modelled."
  },
  {
   "property": "C124",
   "status": "proved",
   "theorems": [
    "C124_lines",
    "C124_defined",
    "C124_inverse",
    "C124_rising",
    "C124_heat",
    "C124_outside",
    "C124_inverse_cold_refuted",
    "C124_cp_rising_refuted"
   ],
   "note": "The tables are data; their entries are transcribed from air.rs and the theorems state what follows from them."
  },
  {
   "property": "C125",
   "status": "proved",
   "theorems": [
    "C125_defined",
    "C125_engine",
    "C125_engine_share",
    "C125_engine_loss",
    "C125_soak",
    "C125_soak_refuted",
    "C125_cabin",
    "C125_cabin_stopped",
    "C125_hvac",
    "C125_hvac_power",
    "C125_band_power_refuted",
    "C125_band_heat_refuted",
    "C125_engine_moving",
    "C125_flame",
    "C125_cabin_moving",
    "C125_control",
    "C125_fresh",
    "C125_defaults"
   ],
   "note": "What a thermal step takes from the simulation (powers, speeds, time step) is its input. C125_defined says when a step is defined; the refuted theorems are runs of the default vehicle."
  },
  {
   "property": "C126",
   "status": "proved",
   "theorems": [
    "C126_exhaust",
    "C126_port",
    "C126_port_between",
    "C126_catalyst",
    "C126_catalyst_inlet",
    "C126_catalyst_coefficient",
    "C126_catalyst_moving_refuted",
    "C126_catalyst_refuted",
    "C126_area",
    "C126_area_refuted",
    "C126_sphere",
    "C126_port_flows",
    "C126_catalyst_flows",
    "C126_engine_overwritten",
    "C126_area_exact"
   ],
   "note": "C126_catalyst names the cases in which the heat from the exhaust is limited rightly; C126_catalyst_refuted is a step outside of them."
  },
  {
   "property": "C127",
   "status": "proved",
   "theorems": [
    "C127_range",
    "C127_rising",
    "C127_component",
    "C127_fuel",
    "C127_cold",
    "C127_lightoff_refuted",
    "C127_lit_start_refuted",
    "C127_aux"
   ],
   "note": "The efficiency read from the map is an input (see C110 for the map); division by 0 is stated as a coefficient of 0."
  },
  {
   "property": "C128",
   "status": "proved",
   "theorems": [
    "C128_best",
    "C128_found",
    "C128_name",
    "C128_name_refuted",
    "C128_short_id",
    "C128_words",
    "C128_blanks",
    "C128_awd",
    "C128_mark",
    "C128_score",
    "C128_parts",
    "C128_drive",
    "C128_round"
   ],
   "note": "Marks are reals; the counterexample C128_name_refuted is a run in binary64. Blank names, for which the code computes 0/0, are in no question in the model either."
  },
  {
   "property": "C129",
   "status": "proved",
   "theorems": [
    "C129_selectable",
    "C129_speeds",
    "C129_ten_refuted",
    "C129_variable",
    "C129_automatic",
    "C129_brackets",
    "C129_missing_refuted"
   ],
   "note": "Texts are ASCII; a panic of the code is a refusal."
  },
  {
   "property": "C130",
   "status": "proved",
   "theorems": [
    "C130_vehicles",
    "C130_refused",
    "C130_common",
    "C130_powertrain",
    "C130_control"
   ],
   "note": "The vehicle then goes through set_derived and abc_to_drag_coeffs, which are properties of their own."
  },
  {
   "property": "C131",
   "status": "proved",
   "theorems": [
    "C131_accepted",
    "C131_value",
    "C131_one",
    "C131_entry",
    "C131_bounds",
    "C131_exact",
    "C131_line"
   ],
   "note": "Over the reals; the refusal of entries that are not a number is not modelled."
  },
  {
   "property": "C132",
   "status": "proved",
   "theorems": [
    "C132_alone",
    "C132_error",
    "C132_first",
    "C132_any",
    "C132_push",
    "C132_insert",
    "C132_refused",
    "C132_drives"
   ],
   "note": "Runs share no state, as each gets its own element; rayon is modelled as any order of runs with any runs skipped after an error."
  }
 ]
}