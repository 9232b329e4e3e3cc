(** Specifications for properties C100-C104: what a run depends on.  All are about runs in which no option
    changes the cycle (trace-miss correction, eco-coasting and car following are off). *)
From Verif Require Import Num Numpy ListFacts CycleModel CycleSpec VehModel SimModel SimState WalkModel WalkProofs SimSpec.
Local Open Scope R_scope.

(** Two calls have the same outcome: the same error, or the same value in every per-step channel at every
    sample. *)
Definition same_outcome (a b : Res (sdrive R)) : Prop :=
  match a, b with Ok x, Ok y => d_rows x = d_rows y | Err e, Err e' => e = e' | _, _ => False end.

(** The first [k] samples of two cycles are the same (road types aside). *)
Definition same_until (k : nat) (c c' : cyc R) : Prop :=
  (k <= length (time_s c))%nat /\ (k <= length (time_s c'))%nat /\
  firstn k (time_s c) = firstn k (time_s c') /\ firstn k (mps c) = firstn k (mps c') /\
  firstn k (grade c) = firstn k (grade c').
(** The same cycle with the clock set [t] seconds ahead. *)
Definition later (t : R) (c : cyc R) : cyc R :=
  mkcyc (map (fun x => x + t) (time_s c)) (mps c) (grade c) (road_type c).

(** The attributes of a vehicle that a run reads.  Not among them: the inputs of the mass (glider, cargo,
    component masses, mass override and multiplier), of the efficiency maps (map inputs, peak overrides),
    the size of the fuel tank, charger efficiency, battery-life coefficients, force_aux_on_fc, the
    vehicle's own physical properties and its validation figures. *)
Record drives_alike (v w : vehicle R) : Prop := {
  da_veh_pt_type : veh_pt_type w = veh_pt_type v;
  da_drag_coef : drag_coef w = drag_coef v;
  da_frontal_area_m2 : frontal_area_m2 w = frontal_area_m2 v;
  da_veh_cg_m : veh_cg_m w = veh_cg_m v;
  da_drive_axle_weight_frac : drive_axle_weight_frac w = drive_axle_weight_frac v;
  da_wheel_base_m : wheel_base_m w = wheel_base_m v;
  da_fs_max_kw : fs_max_kw w = fs_max_kw v;
  da_fs_secs_to_peak_pwr : fs_secs_to_peak_pwr w = fs_secs_to_peak_pwr v;
  da_fc_max_kw : fc_max_kw w = fc_max_kw v;
  da_fc_eff_type : fc_eff_type w = fc_eff_type v;
  da_fc_sec_to_peak_pwr : fc_sec_to_peak_pwr w = fc_sec_to_peak_pwr v;
  da_min_fc_time_on : min_fc_time_on w = min_fc_time_on v;
  da_idle_fc_kw : idle_fc_kw w = idle_fc_kw v;
  da_mc_max_kw : mc_max_kw w = mc_max_kw v;
  da_mc_sec_to_peak_pwr : mc_sec_to_peak_pwr w = mc_sec_to_peak_pwr v;
  da_ess_max_kw : ess_max_kw w = ess_max_kw v;
  da_ess_max_kwh : ess_max_kwh w = ess_max_kwh v;
  da_ess_round_trip_eff : ess_round_trip_eff w = ess_round_trip_eff v;
  da_min_soc : min_soc w = min_soc v;
  da_max_soc : max_soc w = max_soc v;
  da_ess_dischg_to_fc_max_eff_perc : ess_dischg_to_fc_max_eff_perc w = ess_dischg_to_fc_max_eff_perc v;
  da_ess_chg_to_fc_max_eff_perc : ess_chg_to_fc_max_eff_perc w = ess_chg_to_fc_max_eff_perc v;
  da_wheel_inertia_kg_m2 : wheel_inertia_kg_m2 w = wheel_inertia_kg_m2 v;
  da_num_wheels : num_wheels w = num_wheels v;
  da_wheel_rr_coef : wheel_rr_coef w = wheel_rr_coef v;
  da_wheel_radius_m : wheel_radius_m w = wheel_radius_m v;
  da_wheel_coef_of_fric : wheel_coef_of_fric w = wheel_coef_of_fric v;
  da_max_accel_buffer_mph : max_accel_buffer_mph w = max_accel_buffer_mph v;
  da_max_accel_buffer_perc_of_useable_soc : max_accel_buffer_perc_of_useable_soc w = max_accel_buffer_perc_of_useable_soc v;
  da_perc_high_acc_buf : perc_high_acc_buf w = perc_high_acc_buf v;
  da_mph_fc_on : mph_fc_on w = mph_fc_on v;
  da_kw_demand_fc_on : kw_demand_fc_on w = kw_demand_fc_on v;
  da_max_regen : max_regen w = max_regen v;
  da_stop_start : stop_start w = stop_start v;
  da_alt_eff : alt_eff w = alt_eff v;
  da_aux_kw : aux_kw w = aux_kw v;
  da_trans_eff : trans_eff w = trans_eff v;
  da_ess_to_fuel_ok_error : ess_to_fuel_ok_error w = ess_to_fuel_ok_error v;
  da_regen_a : regen_a w = regen_a v;
  da_regen_b : regen_b w = regen_b v;
  da_charging_on : charging_on w = charging_on v;
  da_no_elec_sys : no_elec_sys w = no_elec_sys v;
  da_no_elec_aux : no_elec_aux w = no_elec_aux v;
  da_fc_kw_out_array : fc_kw_out_array w = fc_kw_out_array v;
  da_fc_eff_array : fc_eff_array w = fc_eff_array v;
  da_mc_kw_in_array : mc_kw_in_array w = mc_kw_in_array v;
  da_mc_kw_out_array : mc_kw_out_array w = mc_kw_out_array v;
  da_mc_max_elec_in_kw : mc_max_elec_in_kw w = mc_max_elec_in_kw v;
  da_mc_full_eff_array : mc_full_eff_array w = mc_full_eff_array v;
  da_veh_kg : veh_kg w = veh_kg v;
  da_max_trac_mps2 : max_trac_mps2 w = max_trac_mps2 v }.
(** The vehicle with another fuel tank, its mass and all else left as they are. *)
Definition with_tank {F} (v : vehicle F) (kwh : F) : vehicle F :=
  {| is_template := is_template v; veh_pt_type := veh_pt_type v; drag_coef := drag_coef v;
     frontal_area_m2 := frontal_area_m2 v; glider_kg := glider_kg v; veh_cg_m := veh_cg_m v;
     drive_axle_weight_frac := drive_axle_weight_frac v; wheel_base_m := wheel_base_m v;
     cargo_kg := cargo_kg v; veh_override_kg := veh_override_kg v;
     comp_mass_multiplier := comp_mass_multiplier v; fs_max_kw := fs_max_kw v;
     fs_secs_to_peak_pwr := fs_secs_to_peak_pwr v; fs_kwh := kwh; fs_kwh_per_kg := fs_kwh_per_kg v;
     fc_max_kw := fc_max_kw v; fc_pwr_out_perc := fc_pwr_out_perc v; fc_eff_map := fc_eff_map v;
     fc_eff_type := fc_eff_type v; fc_sec_to_peak_pwr := fc_sec_to_peak_pwr v; fc_base_kg := fc_base_kg v;
     fc_kw_per_kg := fc_kw_per_kg v; min_fc_time_on := min_fc_time_on v; idle_fc_kw := idle_fc_kw v;
     mc_max_kw := mc_max_kw v; mc_pwr_out_perc := mc_pwr_out_perc v; mc_eff_map := mc_eff_map v;
     mc_sec_to_peak_pwr := mc_sec_to_peak_pwr v; mc_pe_kg_per_kw := mc_pe_kg_per_kw v;
     mc_pe_base_kg := mc_pe_base_kg v; ess_max_kw := ess_max_kw v; ess_max_kwh := ess_max_kwh v;
     ess_kg_per_kwh := ess_kg_per_kwh v; ess_base_kg := ess_base_kg v;
     ess_round_trip_eff := ess_round_trip_eff v; ess_life_coef_a := ess_life_coef_a v;
     ess_life_coef_b := ess_life_coef_b v; min_soc := min_soc v; max_soc := max_soc v;
     ess_dischg_to_fc_max_eff_perc := ess_dischg_to_fc_max_eff_perc v;
     ess_chg_to_fc_max_eff_perc := ess_chg_to_fc_max_eff_perc v;
     wheel_inertia_kg_m2 := wheel_inertia_kg_m2 v; num_wheels := num_wheels v;
     wheel_rr_coef := wheel_rr_coef v; wheel_radius_m := wheel_radius_m v;
     wheel_coef_of_fric := wheel_coef_of_fric v; max_accel_buffer_mph := max_accel_buffer_mph v;
     max_accel_buffer_perc_of_useable_soc := max_accel_buffer_perc_of_useable_soc v;
     perc_high_acc_buf := perc_high_acc_buf v; mph_fc_on := mph_fc_on v;
     kw_demand_fc_on := kw_demand_fc_on v; max_regen := max_regen v; stop_start := stop_start v;
     force_aux_on_fc := force_aux_on_fc v; alt_eff := alt_eff v; chg_eff := chg_eff v; aux_kw := aux_kw v;
     trans_kg := trans_kg v; trans_eff := trans_eff v; ess_to_fuel_ok_error := ess_to_fuel_ok_error v;
     fc_peak_eff_override := fc_peak_eff_override v; mc_peak_eff_override := mc_peak_eff_override v;
     regen_a := regen_a v; regen_b := regen_b v; veh_props := veh_props v; charging_on := charging_on v;
     no_elec_sys := no_elec_sys v; no_elec_aux := no_elec_aux v;
     input_kw_out_array := input_kw_out_array v; fc_kw_out_array := fc_kw_out_array v;
     fc_eff_array := fc_eff_array v; mc_eff_array := mc_eff_array v; mc_kw_in_array := mc_kw_in_array v;
     mc_kw_out_array := mc_kw_out_array v; mc_max_elec_in_kw := mc_max_elec_in_kw v;
     mc_full_eff_array := mc_full_eff_array v; veh_kg := veh_kg v; max_trac_mps2 := max_trac_mps2 v;
     ess_mass_kg := ess_mass_kg v; mc_mass_kg := mc_mass_kg v; fc_mass_kg := fc_mass_kg v;
     fs_mass_kg := fs_mass_kg v |}.
(** Energy of the fuel used in a run, kWh. *)
Definition fuel_used_kwh (d : sdrive R) : R :=
  Rsum (map (fun r => fs_kwh_out_ach (fc r)) (d_rows d)).

(** A vehicle with an engine and without battery, motor and electric system. *)
Definition engine_only (v : vehicle R) : Prop :=
  no_elec_sys v = true /\ no_elec_aux v = true /\ mc_max_kw v = 0 /\ ess_max_kw v = 0 /\ ess_max_kwh v = 0 /\
  fc_max_kw v <> 0 /\ fc_eff_type v <> H2FC.
(** Two samples that agree in every channel except the two flags that compare the state of charge with its
    lower limit (reached_buff and high_acc_fc_on_tag). *)
Definition same_but_flags (r r' : row R) : Prop :=
  lims r = lims r' /\ pwr r = pwr r' /\ spd r = spd r' /\ hyb r = hyb r' /\ forced r = forced r' /\ dec r = dec r' /\
  fc r = fc r' /\ ctl r = ctl r' /\ aux_in_kw (misc r) = aux_in_kw (misc r') /\ max_trac_mps (misc r) = max_trac_mps (misc r').
