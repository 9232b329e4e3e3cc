# What `Print Assumptions` lists for each theorem

Generated by `tools/gen_assumptions.py`. Names without prefix are from the standard library;
`PrimFloat.*`, `PrimInt63.*` and the `*_spec` names of `FloatAxioms`/`Uint63` are Coq's primitive
floats and integers.

## No axioms

C01_samples_any_arithmetic, C02_microtrip_shape, C02_joints, C02_contiguous, C02_two_samples, C03_total, C03_single_and_none, C03_grouping_left, C03_empty_first, C09_length, C12_zero_grade, C13_bad_plan, C18_dict_round_trip, C18_old_keys, C18_legacy_and_back, C18_copy, C18_copy_legacy_fails, C18_copy_unknown_fails, C18_rename_bijection, C18_defaults, C18_missing_arrays, C18_unknown_key, C18_make_cycle, C18_make_cycle_rejects, C44_assignment, C51_set_number, C51_set_name, C51_restored, C51_off_inside, C51_nested, C51_core_level, C51_core_restored_refuted, C51_other_levels, C51_restored_any_refuted, C51_disable_enable, C52_read, C52_succeeds, C52_only, C52_get_after_set, C52_set_same, C52_second_wins, C52_elsewhere, C52_disjoint, C52_shared, C52_missing, C52_not_resettable, C52_errors, C52_all_or_nothing_refuted, C52_unknown_name_refuted, C52_in_order, C52_dotted, C53_no_coasting, C70_letters, C70_snake, C70_result, C70_injective_refuted, C71_never, C75_arrays_reset, C75_walk, C96_errors, C96_recorded, C96_first_unreferenced, C96_too_long, C96_paired, C97_parameters, C97_counts, C98_vehicles, C98_no_loss, C98_emissions, C98_complete, C98_blanks, C99_century, C99_test_files, C99_all_kept_refuted, C99_archives, C99_only_csv_refuted, C107_columns, C107_entries, C107_number, C108_names, C108_attributes, C108_complete, C108_copy_to, C108_copy_of, C115_dict_back, C115_mph, C117_microtrips, C120_slope, C128_words, C128_blanks, C128_awd, C128_drive, C129_selectable, C129_speeds, C129_ten_refuted, C129_variable, C129_automatic, C129_brackets, C129_missing_refuted, C132_alone, C132_error, C132_first, C132_any, C132_push, C132_insert, C132_refused, C132_drives

## `ClassicalDedekindReals.sig_forall_dec`, `FunctionalExtensionality.functional_extensionality_dep`

C04_window, C08_additive, C08_monotone, C41_no_loss, C41_signs, C71_average_refuted, C131_one

## `ClassicalDedekindReals.sig_forall_dec`, `ClassicalDedekindReals.sig_not_dec`, `FunctionalExtensionality.functional_extensionality_dep`

C22_battery

## `ClassicalDedekindReals.sig_forall_dec`, `ClassicalDedekindReals.sig_not_dec`, `Classical_Prop.classic`, `FunctionalExtensionality.functional_extensionality_dep`

C01_microtrips_then_concat, C02_starts_at_zero, C03_length, C03_blocks, C03_end_time, C03_grouping_right, C03_increasing, C04_clip, C04_clip_empty, C05_cut_and_join, C06_grid, C06_interpolated, C06_hold, C06_hold_next, C06_succeeds, C06_unknown, C06_absent, C07_rate_distance, C08_start_distance, C08_step_distance, C08_step_distances, C08_range_distance, C08_next_start, C08_range_difference, C09_agree, C09_first, C09_first_agrees_iff, C09_sum, C09_past_end, C10_next_stop, C10_no_stop, C11_averages, C11_points, C11_point_lookup_refuted, C12_constant_grade, C12_constant_grade_point, C13_only_plan, C13_rendezvous, C13_singular, C13_unit_step, C13_other_step_refuted, C14_jerk_distance, C14_braking_distance, C14_braking_none, C14_jerk_edit, C14_braking_edit, C14_rounding, C14_braking_rejects, C14_braking_past_end, C15_detect_passing, C15_past_end, C16_extend, C17_table, C17_order, C19_equals, C19_equivalence, C19_cyc_equal, C19_copy_equal, C20_road_load, C20_grade_of_trace, C20_grade_replanned, C20_brakes, C20_brake_split, C20_resistances_nonnegative, C21_within, C21_limit, C21_no_engine, C21_load_fraction, C22_transmission, C22_motor, C22_engine, C22_fuel_store, C22_zero_efficiency_is_free, C23_engine, C23_motor, C24_step, C24_soc, C24_whole_walk, C24_no_electric_system, C24_start, C25_window, C25_limits, C25_limit_formulas, C25_limits_exact, C26_parked_drain, C27_transmission, C27_sign, C27_limit, C27_grip, C28_achieved, C28_achieved_replanned, C28_nonnegative, C28_units, C28_grade, C29_no_search_means_met, C30_audit, C30_audit_wheels, C30_closes, C30_reported, C30_engine_hybrid, C30_conventional, C30_battery_electric, C30_fuel_cell, C30_phantom_discharge, C31_no_mpgge, C31_no_motor, C31_no_battery, C31_no_fuel, C32_given, C32_zero_tail, C32_no_override, C32_array_kept, C33_balance, C33_bounded, C33_error, C34_window, C34_rejected, C34_start, C35_repeatable, C35_walk_repeatable, C35_inputs_kept, C36_walk_is_steps, C36_steps_are_walk, C37_correction, C37_forward, C37_run_steps, C37_run_forward, C38_prevent_ends, C38_retry, C38_no_effect, C38_effect, C38_runs_end, C39_coasting, C40_bounds, C40_no_desire, C40_model, C40_applied, C40_target, C41_channel, C41_only, C41_totals, C42_first_call, C42_not_accumulated, C42_repeated_calls, C42_depth_and_life, C43_sign, C43_rejects, C44_rejects, C44_accepted, C44_accepts, C44_flags, C44_engine_tables, C44_motor_tables, C44_efficiencies, C44_parameters_kept, C44_ready, C44_again, C44_again_engine_override, C44_stale_motor_map, C45_mass, C45_derived_mass, C45_again, C45_traction, C46_engine_peak, C46_motor_peak, C46_accepted, C46_engine_peak_lost, C46_motor_peak_kept, C46_override_engine, C46_override_motor, C47_parameters, C47_maps, C47_same_iff, C47_unknown_type, C48_true_iff, C48_reflexive, C48_symmetric, C48_override_ignored, C48_differences, C49_combined_mpg, C49_combined_kwh, C49_fuel, C49_electric, C49_no_fuel, C50_plug_in_keys, C50_other_keys, C53_outcome, C53_road_load, C53_there_and_back, C53_back_and_there, C53_changed, C54_consumption, C54_zero, C54_mph, C54_lhv, C55_value, C55_rejected, C55_metric, C55_triangle, C55_scale, C55_units_of_time, C55_between, C56_electric, C56_mechanical, C56_fuel_cell, C56_fuel_cell_battery, C56_no_roadway_power, C57_decision, C57_motor_drives, C57_engine_off, C58_forced_on, C58_timer, C58_forced_states, C59_accel_buffer, C59_regen_buffer, C59_set_points, C59_rates, C59_power, C60_motor, C60_fuel_store, C60_motor_feed, C60_motor_output, C60_motor_input, C61_battery, C61_motor_direction, C61_plan, C61_electric_plan, C61_shaft_power, C61_best_engine_point, C62_motor_decision, C62_help, C62_electric_need, C63_protection, C63_starts_unprotected, C64_shortfall_is_added, C65_recharges, C66_speed, C66_replanned_speed, C66_distance, C66_time, C66_flag, C67_mpgge, C67_fuel, C67_electric, C67_cumulative_fuel, C68_gap, C69_value, C69_positive, C69_thinner, C69_ideal_gas, C72_radius, C72_units, C72_two_letters, C72_no_slash, C72_incomplete_refuted, C73_resampled, C73_no_time, C73_time, C73_constant_rate, C74_equal, C74_copy, C74_defaults, C75_first_sample, C75_first_rest, C76_utility_factor, C76_reported, C77_runs, C77_defined, C77_lab, C77_adj, C77_whole_cycles_refuted, C78_acceleration, C79_coherent, C79_kept, C79_mass, C79_peaks, C79_year, C79_defaults, C79_grids, C79_engine_map, C79_motor_map, C79_again, C79_missing, C79_unknown, C79_engine_type, C79_motor_points, C80_percent, C80_true, C80_false, C80_number, C80_printed, C80_name_refuted, C81_headings, C81_unknown_heading, C81_values, C81_percentages, C82_gap, C83_mean, C83_trip, C83_extends, C83_keeps, C83_rejects, C84_force, C84_still, C84_step, C85_brakes, C85_motion, C85_motion_exists, C85_simulated, C85_uneven, C85_no_brakes, C86_by_speed, C86_by_distance, C87_plan, C87_arrives, C87_total, C87_brakes, C88_search, C88_correction, C88_arrives, C89_delay, C90_follow, C90_starts, C90_unplanned, C90_step, C91_outcome, C91_meets, C92_best_power, C92_derived, C93_limits, C93_fuel_cell, C93_supply, C93_bus, C94_defaults, C94_from_dict, C94_copy, C94_complete, C94_missing, C94_equal, C94_equal_settings, C94_misspelled, C95_equal, C95_copy, C95_copy_same, C96_pairing_refuted, C97_bounds_ordered_refuted, C97_results, C97_euclidean, C97_unreferenced, C100_causal, C100_drive, C100_override, C101_clock, C101_figures, C102_attributes, C102_tank, C103_initial_soc, C103_fuel, C104_parked, C105_label, C105_charger, C105_tank, C105_wall_refuted, C106_repeatable, C106_row, C106_only, C106_missing, C106_table, C107_file, C108_constants, C109_walk, C109_fuel, C109_identical, C109_refuses, C109_sim_drive, C109_step, C109_derived, C109_hybrid, C110_rated, C110_flat_top, C111_road_power, C112_figures, C112_standing, C112_clock, C112_missed_time, C113_to_rust, C113_derived, C113_ranges, C113_run_agrees, C114_again, C114_engine_map_ignored, C114_motor_map, C114_engine_peak_kept, C114_motor_peak_lost, C114_mass, C114_traction, C114_overrides_once, C115_to_rust, C115_dict, C115_old_keys_refuted, C115_extra_key_refuted, C115_steps, C115_late_start, C115_late_start_refuted, C115_distances, C115_range_outside, C116_cache, C116_grade, C116_grade_at, C116_next_stop, C116_no_stop, C116_next_stop_refuted, C117_jerk, C117_plan, C117_edit, C117_no_steps, C117_past_end, C117_edit_refuted, C117_braking, C117_passing, C117_passing_after_end, C117_targets, C117_extend, C118_walk, C118_identical, C118_refuses, C118_completes, C118_plain, C118_gap, C118_activate, C118_activate_refuses, C119_no_correction, C119_first_correction, C119_completes, C119_refuses, C120_plan, C120_brakes, C120_estimate, C120_decide, C120_start, C120_rendezvous, C120_adjust, C120_delay, C120_lead_speed, C120_collision, C121_walk, C121_identical, C121_below_start, C121_slow, C122_utility_factor, C122_far_refuted, C122_accel, C122_plateau_refuted, C122_label, C122_trace_miss, C123_density, C123_properties, C123_error, C123_error_value, C123_drag, C123_drag_always, C123_tire, C123_tire_first, C123_tire_same, C123_tire_no_slash, C123_space_refuted, C123_light_truck_refuted, C124_lines, C124_defined, C124_inverse, C124_rising, C124_heat, C124_outside, C124_inverse_cold_refuted, C124_cp_rising_refuted, C125_defined, C125_engine, C125_engine_share, C125_engine_loss, C125_soak, C125_soak_refuted, C125_cabin, C125_cabin_stopped, C125_hvac, C125_hvac_power, C125_band_power_refuted, C125_band_heat_refuted, C125_engine_moving, C125_flame, C125_cabin_moving, C125_control, C125_fresh, C125_defaults, C126_exhaust, C126_port, C126_port_between, C126_catalyst, C126_catalyst_inlet, C126_catalyst_coefficient, C126_catalyst_moving_refuted, C126_catalyst_refuted, C126_area, C126_area_refuted, C126_sphere, C126_port_flows, C126_catalyst_flows, C126_engine_overwritten, C126_area_exact, C127_range, C127_rising, C127_component, C127_fuel, C127_cold, C127_lightoff_refuted, C127_lit_start_refuted, C127_aux, C128_best, C128_found, C128_name, C128_short_id, C128_mark, C128_score, C128_parts, C128_round, C130_vehicles, C130_refused, C130_common, C130_powertrain, C130_control, C131_accepted, C131_value, C131_entry, C131_bounds, C131_exact, C131_line

## `PrimFloat.abs`, `PrimFloat.add`, `PrimFloat.div`, `PrimFloat.eqb`, `PrimFloat.float`, `PrimFloat.frshiftexp`, `PrimFloat.leb`, `PrimFloat.ltb`, `PrimFloat.mul`, `PrimFloat.normfr_mantissa`, `PrimFloat.of_uint63`, `PrimFloat.opp`, `PrimFloat.sqrt`, `PrimFloat.sub`, `PrimInt63.eqb`, `PrimInt63.int`, `PrimInt63.land`, `PrimInt63.lor`, `PrimInt63.lsl`, `PrimInt63.lsr`, `PrimInt63.sub`

C19_nan_refuted, C20_dilation_refuted, C22_engine_loss_refuted, C26_window_refuted, C26_negative_soc_refuted, C29_cyc_met_refuted, C30_no_electric_system_refuted, C32_as_given_refuted, C33_reported_balanced_refuted, C35_history_refuted, C37_total_stretch_refuted, C42_accumulation_refuted, C43_fuel_cell_refuted, C44_peak_between_points_refuted, C44_again_float, C44_again_motor_override_refuted, C45_again_float, C47_custom_refuted, C47_motor_override_refuted, C48_transitive_refuted, C48_total_refuted, C48_sizes_refuted, C48_symmetric_underived_refuted, C53_middle_refuted, C64_traction_source_refuted, C65_from_nothing_refuted, C66_trace_given_refuted, C73_constant_kept_refuted, C77_short_range_refuted, C79_list_maps_refuted, C79_twice_refuted, C81_name_refuted, C93_limits_refuted, C94_nan_refuted, C95_custom_refuted, C95_equal_results_refuted, C100_zero_override_refuted, C100_balanced_hybrid_refuted, C101_load_refuted, C101_trace_miss_refuted, C102_within_tank_refuted, C104_stays_refuted, C106_untouched_refuted, C106_failed_untouched_refuted, C110_same_fuel_refuted, C111_same_runs_refuted, C111_small_motor_refuted, C112_late_start_refuted, C112_parked_refuted, C113_motor_override_refuted, C113_long_grid_refuted, C113_accepted_refuted, C114_again_float, C114_engine_map_followed_refuted, C114_zero_override_refuted, C116_standing_refuted, C117_plan_refuted, C117_braking_refuted, C117_passing_refuted, C117_extend_refuted, C118_sloping_road_refuted, C119_later_steps_refuted, C120_no_stop_refuted, C120_no_stop_plan_refuted, C120_steps_refuted, C120_soon_refuted, C122_no_fuel_refuted, C128_name_refuted
