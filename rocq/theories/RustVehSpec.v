(** Specifications for the compiled vehicle class, C113-C114. *)
From Verif Require Import Num CycleSpec VehModel.
Local Open Scope R_scope.

(** The vehicle with its three override attributes (mass and the two peak efficiencies) removed; all other
    attributes, given and derived, stay. *)
Definition without_overrides {F} (v : vehicle F) : vehicle F :=
  {| is_template := is_template v; veh_pt_type := veh_pt_type v; drag_coef := drag_coef v;
     frontal_area_m2 := frontal_area_m2 v; glider_kg := glider_kg v; veh_cg_m := veh_cg_m v;
     drive_axle_weight_frac := drive_axle_weight_frac v; wheel_base_m := wheel_base_m v;
     cargo_kg := cargo_kg v; veh_override_kg := None;
     comp_mass_multiplier := comp_mass_multiplier v; fs_max_kw := fs_max_kw v;
     fs_secs_to_peak_pwr := fs_secs_to_peak_pwr v; fs_kwh := fs_kwh v;
     fs_kwh_per_kg := fs_kwh_per_kg v; fc_max_kw := fc_max_kw v;
     fc_pwr_out_perc := fc_pwr_out_perc v; fc_eff_map := fc_eff_map v;
     fc_eff_type := fc_eff_type v; fc_sec_to_peak_pwr := fc_sec_to_peak_pwr v;
     fc_base_kg := fc_base_kg v; fc_kw_per_kg := fc_kw_per_kg v;
     min_fc_time_on := min_fc_time_on v; idle_fc_kw := idle_fc_kw v;
     mc_max_kw := mc_max_kw v; mc_pwr_out_perc := mc_pwr_out_perc v; mc_eff_map := mc_eff_map v;
     mc_sec_to_peak_pwr := mc_sec_to_peak_pwr v; mc_pe_kg_per_kw := mc_pe_kg_per_kw v;
     mc_pe_base_kg := mc_pe_base_kg v; ess_max_kw := ess_max_kw v;
     ess_max_kwh := ess_max_kwh v; ess_kg_per_kwh := ess_kg_per_kwh v;
     ess_base_kg := ess_base_kg v; ess_round_trip_eff := ess_round_trip_eff v;
     ess_life_coef_a := ess_life_coef_a v; ess_life_coef_b := ess_life_coef_b v;
     min_soc := min_soc v; max_soc := max_soc v;
     ess_dischg_to_fc_max_eff_perc := ess_dischg_to_fc_max_eff_perc v;
     ess_chg_to_fc_max_eff_perc := ess_chg_to_fc_max_eff_perc v;
     wheel_inertia_kg_m2 := wheel_inertia_kg_m2 v; num_wheels := num_wheels v;
     wheel_rr_coef := wheel_rr_coef v; wheel_radius_m := wheel_radius_m v;
     wheel_coef_of_fric := wheel_coef_of_fric v;
     max_accel_buffer_mph := max_accel_buffer_mph v;
     max_accel_buffer_perc_of_useable_soc := max_accel_buffer_perc_of_useable_soc v;
     perc_high_acc_buf := perc_high_acc_buf v; mph_fc_on := mph_fc_on v;
     kw_demand_fc_on := kw_demand_fc_on v; max_regen := max_regen v;
     stop_start := stop_start v; force_aux_on_fc := force_aux_on_fc v; alt_eff := alt_eff v;
     chg_eff := chg_eff v; aux_kw := aux_kw v; trans_kg := trans_kg v;
     trans_eff := trans_eff v; ess_to_fuel_ok_error := ess_to_fuel_ok_error v;
     fc_peak_eff_override := None;
     mc_peak_eff_override := None; regen_a := regen_a v;
     regen_b := regen_b v; veh_props := veh_props v; charging_on := charging_on v;
     no_elec_sys := no_elec_sys v; no_elec_aux := no_elec_aux v;
     input_kw_out_array := input_kw_out_array v; fc_kw_out_array := fc_kw_out_array v;
     fc_eff_array := fc_eff_array v; mc_eff_array := mc_eff_array v; mc_kw_in_array := mc_kw_in_array v;
     mc_kw_out_array := mc_kw_out_array v; mc_max_elec_in_kw := mc_max_elec_in_kw v;
     mc_full_eff_array := mc_full_eff_array v; veh_kg := veh_kg v; max_trac_mps2 := max_trac_mps2 v;
     ess_mass_kg := ess_mass_kg v; mc_mass_kg := mc_mass_kg v; fc_mass_kg := fc_mass_kg v;
     fs_mass_kg := fs_mass_kg v |}.
(** Two vehicles with the same attributes, overrides apart. *)
Definition same_but_overrides (v w : vehicle R) : Prop := without_overrides v = without_overrides w.

(** The ranges that the compiled class demands of its inputs. *)
Record inputs_valid (v : vehicle R) : Prop := {
  iv_body : 0 <= drag_coef v /\ 0 <= frontal_area_m2 v /\ 0 <= glider_kg v /\ 0 <= wheel_base_m v /\ 0 <= cargo_kg v /\
            0 <= comp_mass_multiplier v /\ 0 <= drive_axle_weight_frac v <= 1;
  iv_mass : forall x, veh_override_kg v = Some x -> 0 <= x;
  iv_tank : 0 <= fs_max_kw v /\ 0 <= fs_secs_to_peak_pwr v /\ 0 <= fs_kwh v /\ 0 <= fs_kwh_per_kg v;
  iv_engine : 0 <= fc_max_kw v /\ 0 <= fc_sec_to_peak_pwr v /\ 0 <= fc_base_kg v /\ 0 <= fc_kw_per_kg v /\
              0 <= min_fc_time_on v /\ 0 <= idle_fc_kw v;
  iv_motor : 0 <= mc_max_kw v /\ 0 <= mc_sec_to_peak_pwr v /\ 0 <= mc_pe_kg_per_kw v /\ 0 <= mc_pe_base_kg v;
  iv_battery : 0 <= ess_max_kw v /\ 0 <= ess_max_kwh v /\ 0 <= ess_kg_per_kwh v /\ 0 <= ess_base_kg v /\
               0 <= ess_round_trip_eff v <= 1 /\ 0 <= min_soc v <= 1 /\ 0 <= max_soc v <= 1 /\
               0 <= ess_dischg_to_fc_max_eff_perc v <= 1 /\ 0 <= ess_chg_to_fc_max_eff_perc v <= 1;
  iv_wheels : 0 <= wheel_inertia_kg_m2 v /\ 0 <= num_wheels v /\ 0 <= wheel_rr_coef v /\ 0 <= wheel_radius_m v /\
              0 <= wheel_coef_of_fric v;
  iv_control : 0 <= max_accel_buffer_mph v /\ 0 <= max_accel_buffer_perc_of_useable_soc v <= 1 /\ 0 <= perc_high_acc_buf v /\
               0 <= mph_fc_on v /\ 0 <= kw_demand_fc_on v /\ 0 <= max_regen v <= 1 /\ 0 <= ess_to_fuel_ok_error v;
  iv_losses : 0 <= alt_eff v <= 1 /\ 0 <= chg_eff v <= 1 /\ 0 <= aux_kw v /\ 0 <= trans_kg v /\ 0 <= trans_eff v <= 1;
  iv_fc_peak : forall x, fc_peak_eff_override v = Some x -> 0 <= x <= 1 }.

(** A grid of at least two increasing points. *)
Definition grid (xs : list R) : Prop := (2 <= length xs)%nat /\ increasing xs.
(** Both maps are on such grids; the motor's ends at rated power or below, and its map is not all zeros. *)
Record maps_ok (v : vehicle R) : Prop := {
  mo_fc : grid (fc_pwr_out_perc v);
  mo_mc : grid (mc_pwr_out_perc v);
  mo_top : last (mc_pwr_out_perc v) 0 <= 1;
  mo_some : forall m, mc_eff_map v = Some m -> exists x, In x m /\ x <> 0 }.
