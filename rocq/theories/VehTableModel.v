(** Model of Vehicle.from_df, python/fastsim/vehicle.py:328-364, of the row that is selected.  Definitions only.
    Not modelled: reading csv files, the lookup of the row, and that the table passed in keeps the cleaned cells. *)
From Coq Require Import Ascii.
From Verif Require Import Num Numpy VehModel VehDictModel.

(** vehicle_base.py:129-242 *)
Definition new_to_old : list (string * string) := [
  ("props", "props"); ("fc_perc_out_array", "fcPercOutArray"); ("mc_perc_out_array", "mcPercOutArray"); ("selection", "Selection");
  ("scenario_name", "Scenario_name"); ("veh_year", "vehYear"); ("veh_pt_type", "vehPtType"); ("drag_coef", "dragCoef");
  ("frontal_area_m2", "frontalAreaM2"); ("glider_kg", "gliderKg"); ("veh_cg_m", "vehCgM");
  ("drive_axle_weight_frac", "driveAxleWeightFrac"); ("wheel_base_m", "wheelBaseM"); ("cargo_kg", "cargoKg");
  ("veh_override_kg", "vehOverrideKg"); ("fs_max_kw", "maxFuelStorKw"); ("fs_secs_to_peak_pwr", "fuelStorSecsToPeakPwr");
  ("fs_kwh", "fuelStorKwh"); ("fs_kwh_per_kg", "fuelStorKwhPerKg"); ("fc_max_kw", "maxFuelConvKw"); ("fc_eff_map", "fcEffMap");
  ("fc_eff_type", "fcEffType"); ("fc_sec_to_peak_pwr", "fuelConvSecsToPeakPwr"); ("fc_base_kg", "fuelConvBaseKg");
  ("fc_kw_per_kg", "fuelConvKwPerKg"); ("mc_pwr_out_perc", "mcPwrOutPerc"); ("mc_max_kw", "maxMotorKw");
  ("mc_sec_to_peak_pwr", "motorSecsToPeakPwr"); ("stop_start", "stopStart"); ("mc_pe_kg_per_kw", "mcPeKgPerKw");
  ("mc_pe_base_kg", "mcPeBaseKg"); ("ess_max_kw", "maxEssKw"); ("ess_max_kwh", "maxEssKwh"); ("ess_kg_per_kwh", "essKgPerKwh");
  ("ess_base_kg", "essBaseKg"); ("ess_round_trip_eff", "essRoundTripEff"); ("ess_life_coef_a", "essLifeCoefA");
  ("ess_life_coef_b", "essLifeCoefB"); ("wheel_inertia_kg_m2", "wheelInertiaKgM2"); ("num_wheels", "numWheels");
  ("wheel_rr_coef", "wheelRrCoef"); ("wheel_radius_m", "wheelRadiusM"); ("wheel_coef_of_fric", "wheelCoefOfFric"); ("min_soc", "minSoc");
  ("max_soc", "maxSoc"); ("ess_dischg_to_fc_max_eff_perc", "essDischgToFcMaxEffPerc");
  ("ess_chg_to_fc_max_eff_perc", "essChgToFcMaxEffPerc"); ("max_accel_buffer_mph", "maxAccelBufferMph");
  ("max_accel_buffer_perc_of_useable_soc", "maxAccelBufferPercOfUseableSoc"); ("perc_high_acc_buf", "percHighAccBuf");
  ("mph_fc_on", "mphFcOn"); ("kw_demand_fc_on", "kwDemandFcOn"); ("alt_eff", "altEff"); ("chg_eff", "chgEff"); ("aux_kw", "auxKw");
  ("force_aux_on_fc", "forceAuxOnFC"); ("trans_kg", "transKg"); ("trans_eff", "transEff"); ("comp_mass_multiplier", "compMassMultiplier");
  ("ess_to_fuel_ok_error", "essToFuelOkError"); ("max_regen", "maxRegen"); ("val_udds_mpgge", "valUddsMpgge");
  ("val_hwy_mpgge", "valHwyMpgge"); ("val_comb_mpgge", "valCombMpgge"); ("val_udds_kwh_per_mile", "valUddsKwhPerMile");
  ("val_hwy_kwh_per_mile", "valHwyKwhPerMile"); ("val_comb_kwh_per_mile", "valCombKwhPerMile"); ("val_cd_range_mi", "valCdRangeMi");
  ("val_const65_mph_kwh_per_mile", "valConst65MphKwhPerMile"); ("val_const60_mph_kwh_per_mile", "valConst60MphKwhPerMile");
  ("val_const55_mph_kwh_per_mile", "valConst55MphKwhPerMile"); ("val_const45_mph_kwh_per_mile", "valConst45MphKwhPerMile");
  ("val_unadj_udds_kwh_per_mile", "valUnadjUddsKwhPerMile"); ("val_unadj_hwy_kwh_per_mile", "valUnadjHwyKwhPerMile");
  ("val0_to60_mph", "val0To60Mph"); ("val_ess_life_miles", "valEssLifeMiles"); ("val_range_miles", "valRangeMiles");
  ("val_veh_base_cost", "valVehBaseCost"); ("val_msrp", "valMsrp"); ("min_fc_time_on", "minFcTimeOn"); ("idle_fc_kw", "idleFcKw");
  ("mc_eff_map", "mcEffMap"); ("fc_pwr_out_perc", "fcPwrOutPerc"); ("large_baseline_eff", "largeBaselineEff");
  ("small_baseline_eff", "smallBaselineEff"); ("small_motor_power_kw", "smallMotorPowerKw"); ("large_motor_power_kw", "largeMotorPowerKw");
  ("max_roadway_chg_kw", "MaxRoadwayChgKw"); ("charging_on", "chargingOn"); ("no_elec_sys", "noElecSys"); ("no_elec_aux", "noElecAux");
  ("input_kw_out_array", "inputKwOutArray"); ("fc_kw_out_array", "fcKwOutArray"); ("fc_eff_array", "fcEffArray");
  ("modern_max", "modernMax"); ("mc_eff_array", "mcEffArray"); ("mc_kw_in_array", "mcKwInArray"); ("mc_kw_out_array", "mcKwOutArray");
  ("mc_max_elec_in_kw", "mcMaxElecInKw"); ("mc_full_eff_array", "mcFullEffArray"); ("regen_a", "regenA"); ("regen_b", "regenB");
  ("veh_kg", "vehKg"); ("max_trac_mps2", "maxTracMps2"); ("ess_mass_kg", "essMassKg"); ("mc_mass_kg", "mcMassKg");
  ("fc_mass_kg", "fcMassKg"); ("fs_mass_kg", "fsMassKg"); ("fc_peak_eff_override", "fcPeakEffOverride");
  ("mc_peak_eff_override", "mcPeakEffOverride")]%string.
(** str.replace(" ", "_"); vehicle.py:329-364 *)
Fixpoint underscored (s : string) : string :=
  match s with EmptyString => EmptyString | String c r => String (if Ascii.eqb c " " then "_"%char else c) (underscored r) end.
(** 339-342: the columns that are accepted. *)
Definition accepted (col : string) : bool :=
  let col := underscored col in
  (mem col (map snd new_to_old) || mem col (map fst new_to_old) || mem col ["fc_peak_eff_override"; "mc_peak_eff_override"]%string)%bool.
(** 349-350 *)
Definition column_key (col : string) : string :=
  let col1 := underscored col in
  match find (fun e => String.eqb (snd e) col1) new_to_old with Some e => fst e | None => col1 end.

Section Table.
  Context {F : Type} {N : Num F} (T : texts F).
  (** 344-352: the cells in column order; a key that comes twice keeps its first place and its last value. *)
  Definition row_dict (row : pydict F) : pydict F := fold_left (fun d e => pset d (column_key (fst e)) (clean_data T (snd e))) row [].
  (** vehicle.py:329-364 *)
  Definition from_row (row : pydict F) : Res (pydict F * pyveh F) :=
    do _ <- assertR (forallb (fun e => accepted (fst e)) row);
    from_dict T (row_dict row).
End Table.
