(** Specifications for the vehicle properties C44-C46. *)
From Verif Require Import Num Numpy CycleModel CycleSpec VehModel.
Local Open Scope R_scope.

(** The percentages of rated power at which engine efficiency is tabulated: steps of 0.1 up to 3,
    of 0.5 up to 7, of 1 up to 60 and of 5 up to 100. *)
Definition engine_percent (k : nat) : R :=
  if (k <? 30)%nat then INR k / 10
  else if (k <? 38)%nat then 3 + INR (k - 30) / 2
  else if (k <? 91)%nat then INR (k - 31)
  else 60 + 5 * INR (k - 91).
Definition engine_points : nat := 100.
(** Motor efficiency is tabulated at every full percent. *)
Definition motor_points : nat := 101.
(** Default motor efficiencies of small (7.5 kW) and large (75 kW) motors. *)
Definition small_motor : list R := map (fun x => IZR x / 100) [12; 16; 21; 29; 35; 42; 75; 92; 93; 93; 92]%Z.
Definition large_motor : list R := map (fun x => IZR x / 100) [84; 86; 88; 90; 91; 92; 94; 95; 95; 94; 93]%Z.
(** How large a motor of [kw] is on the scale from small to large. *)
Definition largeness (kw : R) : R := Rmax 0 (Rmin ((kw - 7.5) / 67.5) 1).
Definition default_motor_eff (kw : R) (k : nat) : R :=
  largeness kw * nth k large_motor 0 + (1 - largeness kw) * nth k small_motor 0.

(** The motor map in use: the given one, or the default for the motor's size. *)
Definition motor_map_of (v : vehicle R) (m : list R) : Prop :=
  match mc_eff_map v with
  | Some l => m = l
  | None => length m = 11%nat /\ forall k, (k < 11)%nat -> nth k m 0 = default_motor_eff (mc_max_kw v) k
  end.

Definition is_max (m : R) (l : list R) : Prop := In m l /\ forall x, In x l -> x <= m.
(** [l'] is [l], scaled so that its largest entry becomes [p] if an override [p] is given. *)
Definition rescaled (o : option R) (l l' : list R) : Prop :=
  match o with
  | None => l' = l
  | Some p => exists m, is_max m l /\ l' = map (fun x => x * (p / m)) l
  end.
(** The override is positive if there is one. *)
Definition pos_if_given (o : option R) : Prop := match o with None => True | Some p => 0 < p end.

(** ** Mass *)
(** An override counts if it is a positive number. *)
Definition override_of (v : vehicle R) : option R :=
  match veh_override_kg v with Some x => if Rlt_dec 0 x then Some x else None | None => None end.
Definition battery_kg (v : vehicle R) : R :=
  if Req_EM_T (ess_max_kwh v) 0 then 0 else if Req_EM_T (ess_max_kw v) 0 then 0
  else (ess_base_kg v + ess_kg_per_kwh v * ess_max_kwh v) * comp_mass_multiplier v.
Definition motor_kg (v : vehicle R) : R :=
  if Req_EM_T (mc_max_kw v) 0 then 0 else (mc_pe_base_kg v + mc_pe_kg_per_kw v * mc_max_kw v) * comp_mass_multiplier v.
Definition engine_kg (v : vehicle R) : R :=
  if Req_EM_T (fc_max_kw v) 0 then 0 else (fc_base_kg v + fc_max_kw v / fc_kw_per_kg v) * comp_mass_multiplier v.
Definition tank_kg (v : vehicle R) : R :=
  if Req_EM_T (fs_max_kw v) 0 then 0 else fs_kwh v / fs_kwh_per_kg v * comp_mass_multiplier v.
Definition sum_of_parts (v : vehicle R) : R :=
  glider_kg v + cargo_kg v + trans_kg v * comp_mass_multiplier v + battery_kg v + motor_kg v + engine_kg v + tank_kg v.

(** ** Parameters: everything a user supplies, except the mass override and the efficiency maps. *)
Definition same_parameters (v v' : vehicle R) : Prop :=
  is_template v' = is_template v /\ veh_pt_type v' = veh_pt_type v /\ drag_coef v' = drag_coef v /\
  frontal_area_m2 v' = frontal_area_m2 v /\ glider_kg v' = glider_kg v /\ veh_cg_m v' = veh_cg_m v /\
  drive_axle_weight_frac v' = drive_axle_weight_frac v /\ wheel_base_m v' = wheel_base_m v /\ cargo_kg v' =
  cargo_kg v /\ comp_mass_multiplier v' = comp_mass_multiplier v /\ fs_max_kw v' = fs_max_kw v /\
  fs_secs_to_peak_pwr v' = fs_secs_to_peak_pwr v /\ fs_kwh v' = fs_kwh v /\ fs_kwh_per_kg v' = fs_kwh_per_kg v
  /\ fc_max_kw v' = fc_max_kw v /\ fc_pwr_out_perc v' = fc_pwr_out_perc v /\ fc_eff_type v' = fc_eff_type v /\
  fc_sec_to_peak_pwr v' = fc_sec_to_peak_pwr v /\ fc_base_kg v' = fc_base_kg v /\ fc_kw_per_kg v' =
  fc_kw_per_kg v /\ min_fc_time_on v' = min_fc_time_on v /\ idle_fc_kw v' = idle_fc_kw v /\ mc_max_kw v' =
  mc_max_kw v /\ mc_pwr_out_perc v' = mc_pwr_out_perc v /\ mc_sec_to_peak_pwr v' = mc_sec_to_peak_pwr v /\
  mc_pe_kg_per_kw v' = mc_pe_kg_per_kw v /\ mc_pe_base_kg v' = mc_pe_base_kg v /\ ess_max_kw v' = ess_max_kw v
  /\ ess_max_kwh v' = ess_max_kwh v /\ ess_kg_per_kwh v' = ess_kg_per_kwh v /\ ess_base_kg v' = ess_base_kg v
  /\ ess_round_trip_eff v' = ess_round_trip_eff v /\ ess_life_coef_a v' = ess_life_coef_a v /\ ess_life_coef_b
  v' = ess_life_coef_b v /\ min_soc v' = min_soc v /\ max_soc v' = max_soc v /\ ess_dischg_to_fc_max_eff_perc
  v' = ess_dischg_to_fc_max_eff_perc v /\ ess_chg_to_fc_max_eff_perc v' = ess_chg_to_fc_max_eff_perc v /\
  wheel_inertia_kg_m2 v' = wheel_inertia_kg_m2 v /\ num_wheels v' = num_wheels v /\ wheel_rr_coef v' =
  wheel_rr_coef v /\ wheel_radius_m v' = wheel_radius_m v /\ wheel_coef_of_fric v' = wheel_coef_of_fric v /\
  max_accel_buffer_mph v' = max_accel_buffer_mph v /\ max_accel_buffer_perc_of_useable_soc v' =
  max_accel_buffer_perc_of_useable_soc v /\ perc_high_acc_buf v' = perc_high_acc_buf v /\ mph_fc_on v' =
  mph_fc_on v /\ kw_demand_fc_on v' = kw_demand_fc_on v /\ max_regen v' = max_regen v /\ stop_start v' =
  stop_start v /\ force_aux_on_fc v' = force_aux_on_fc v /\ alt_eff v' = alt_eff v /\ chg_eff v' = chg_eff v
  /\ aux_kw v' = aux_kw v /\ trans_kg v' = trans_kg v /\ trans_eff v' = trans_eff v /\ ess_to_fuel_ok_error v'
  = ess_to_fuel_ok_error v /\ fc_peak_eff_override v' = fc_peak_eff_override v /\ mc_peak_eff_override v' =
  mc_peak_eff_override v /\ regen_a v' = regen_a v /\ regen_b v' = regen_b v /\ veh_props v' = veh_props v.
