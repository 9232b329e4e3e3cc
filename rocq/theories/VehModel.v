(** Model of python/fastsim/vehicle.py (class Vehicle: parameters, derived parameters, mass, peak
    efficiencies) and of the constants of python/fastsim/parameters.py.  Definitions only.

    All scalar parameters are np.float64 in the code (vehicle_base.py:9-95), so a division by zero
    gives inf/nan there and not an exception; over the reals it gives an unspecified number, and no
    theorem uses such a quotient.

    Not in the record: scenario_name except whether it is the template's name, selection, veh_year and
    the val_* columns (no computation in simdrive.py reads them; simdrivelabel.py reads three of them,
    see LabelModel.v).  VehDictModel.v has the dict view with all keys. *)
From Verif Require Import Num Numpy.

(** VEH_PT_TYPES, vehicle.py:89-94. *)
Inductive pt_type : Set := CONV | HEV | PHEV | BEV.
(** vehicle.py:89-94 *)
Definition pt_eqb (a b : pt_type) : bool :=
  match a, b with CONV, CONV | HEV, HEV | PHEV, PHEV | BEV, BEV => true | _, _ => false end.
(** FC_EFF_TYPES, vehicle.py:96-101; [FC_OTHER] is any other string, which from_dict accepts when an
    efficiency map is given. *)
Inductive fc_type : Set := SI | ATKINSON | DIESEL | H2FC | HD_DIESEL | FC_OTHER.
(** vehicle.py:96-101 *)
Definition is_h2fc (t : fc_type) : bool := match t with H2FC => true | _ => false end.

(** PhysicalProperties, parameters.py:30-50 (the two fuel properties are only used by the lhv
    conversion, see UtilModel.v). *)
Record physprops (F : Type) := mkprops {
  air_density_kg_per_m3 : F; a_grav_mps2 : F; kwh_per_gge : F }.
Arguments mkprops {F}. Arguments air_density_kg_per_m3 {F}. Arguments a_grav_mps2 {F}.
Arguments kwh_per_gge {F}.

(** Fields of class Vehicle, vehicle.py:151-269. *)
Record vehicle (F : Type) := mkveh {
  is_template : bool;
  veh_pt_type : pt_type;
  drag_coef : F; frontal_area_m2 : F; glider_kg : F; veh_cg_m : F; drive_axle_weight_frac : F;
  wheel_base_m : F; cargo_kg : F; veh_override_kg : option F; comp_mass_multiplier : F;
  fs_max_kw : F; fs_secs_to_peak_pwr : F; fs_kwh : F; fs_kwh_per_kg : F;
  fc_max_kw : F; fc_pwr_out_perc : list F; fc_eff_map : list F; fc_eff_type : fc_type;
  fc_sec_to_peak_pwr : F; fc_base_kg : F; fc_kw_per_kg : F; min_fc_time_on : F; idle_fc_kw : F;
  mc_max_kw : F; mc_pwr_out_perc : list F; mc_eff_map : option (list F); mc_sec_to_peak_pwr : F;
  mc_pe_kg_per_kw : F; mc_pe_base_kg : F;
  ess_max_kw : F; ess_max_kwh : F; ess_kg_per_kwh : F; ess_base_kg : F; ess_round_trip_eff : F;
  ess_life_coef_a : F; ess_life_coef_b : F; min_soc : F; max_soc : F;
  ess_dischg_to_fc_max_eff_perc : F; ess_chg_to_fc_max_eff_perc : F;
  wheel_inertia_kg_m2 : F; num_wheels : F; wheel_rr_coef : F; wheel_radius_m : F;
  wheel_coef_of_fric : F; max_accel_buffer_mph : F; max_accel_buffer_perc_of_useable_soc : F;
  perc_high_acc_buf : F; mph_fc_on : F; kw_demand_fc_on : F; max_regen : F; stop_start : bool;
  force_aux_on_fc : bool; alt_eff : F; chg_eff : F; aux_kw : F; trans_kg : F; trans_eff : F;
  ess_to_fuel_ok_error : F;
  fc_peak_eff_override : option F; mc_peak_eff_override : option F;
  regen_a : F; regen_b : F;
  veh_props : physprops F;
  (* set by set_derived / set_veh_mass *)
  charging_on : bool; no_elec_sys : bool; no_elec_aux : bool;
  input_kw_out_array : list F; fc_kw_out_array : list F; fc_eff_array : list F;
  mc_eff_array : list F; mc_kw_in_array : list F; mc_kw_out_array : list F;
  mc_max_elec_in_kw : F; mc_full_eff_array : list F;
  veh_kg : F; max_trac_mps2 : F;
  ess_mass_kg : F; mc_mass_kg : F; fc_mass_kg : F; fs_mass_kg : F
}.
Arguments mkveh {F}.
Arguments is_template {F}. Arguments veh_pt_type {F}. Arguments drag_coef {F}.
Arguments frontal_area_m2 {F}. Arguments glider_kg {F}. Arguments veh_cg_m {F}.
Arguments drive_axle_weight_frac {F}. Arguments wheel_base_m {F}. Arguments cargo_kg {F}.
Arguments veh_override_kg {F}. Arguments comp_mass_multiplier {F}. Arguments fs_max_kw {F}.
Arguments fs_secs_to_peak_pwr {F}. Arguments fs_kwh {F}. Arguments fs_kwh_per_kg {F}.
Arguments fc_max_kw {F}. Arguments fc_pwr_out_perc {F}. Arguments fc_eff_map {F}.
Arguments fc_eff_type {F}. Arguments fc_sec_to_peak_pwr {F}. Arguments fc_base_kg {F}.
Arguments fc_kw_per_kg {F}. Arguments min_fc_time_on {F}. Arguments idle_fc_kw {F}.
Arguments mc_max_kw {F}. Arguments mc_pwr_out_perc {F}. Arguments mc_eff_map {F}.
Arguments mc_sec_to_peak_pwr {F}. Arguments mc_pe_kg_per_kw {F}. Arguments mc_pe_base_kg {F}.
Arguments ess_max_kw {F}. Arguments ess_max_kwh {F}. Arguments ess_kg_per_kwh {F}.
Arguments ess_base_kg {F}. Arguments ess_round_trip_eff {F}. Arguments ess_life_coef_a {F}.
Arguments ess_life_coef_b {F}. Arguments min_soc {F}. Arguments max_soc {F}.
Arguments ess_dischg_to_fc_max_eff_perc {F}. Arguments ess_chg_to_fc_max_eff_perc {F}.
Arguments wheel_inertia_kg_m2 {F}. Arguments num_wheels {F}. Arguments wheel_rr_coef {F}.
Arguments wheel_radius_m {F}. Arguments wheel_coef_of_fric {F}.
Arguments max_accel_buffer_mph {F}. Arguments max_accel_buffer_perc_of_useable_soc {F}.
Arguments perc_high_acc_buf {F}. Arguments mph_fc_on {F}. Arguments kw_demand_fc_on {F}.
Arguments max_regen {F}. Arguments stop_start {F}. Arguments force_aux_on_fc {F}.
Arguments alt_eff {F}. Arguments chg_eff {F}. Arguments aux_kw {F}. Arguments trans_kg {F}.
Arguments trans_eff {F}. Arguments ess_to_fuel_ok_error {F}. Arguments fc_peak_eff_override {F}.
Arguments mc_peak_eff_override {F}. Arguments regen_a {F}. Arguments regen_b {F}.
Arguments veh_props {F}. Arguments charging_on {F}. Arguments no_elec_sys {F}.
Arguments no_elec_aux {F}. Arguments input_kw_out_array {F}. Arguments fc_kw_out_array {F}.
Arguments fc_eff_array {F}. Arguments mc_eff_array {F}. Arguments mc_kw_in_array {F}.
Arguments mc_kw_out_array {F}. Arguments mc_max_elec_in_kw {F}. Arguments mc_full_eff_array {F}.
Arguments veh_kg {F}. Arguments max_trac_mps2 {F}. Arguments ess_mass_kg {F}.
Arguments mc_mass_kg {F}. Arguments fc_mass_kg {F}. Arguments fs_mass_kg {F}.

(** ** Attribute assignment: each function replaces the named attributes and keeps the others. *)
(** The assignments of set_derived other than the mass, vehicle.py:537-616. *)
Definition with_derived {F} (v : vehicle F) (m : option (list F)) (chg ns na : bool) (inp fck fce mce mckin mckout : list F) (mx : F) (mcf : list F) : vehicle F :=
  {| is_template := is_template v; veh_pt_type := veh_pt_type v; drag_coef := drag_coef v;
     frontal_area_m2 := frontal_area_m2 v; glider_kg := glider_kg v; veh_cg_m := veh_cg_m v;
     drive_axle_weight_frac := drive_axle_weight_frac v; wheel_base_m := wheel_base_m v;
     cargo_kg := cargo_kg v; veh_override_kg := veh_override_kg v;
     comp_mass_multiplier := comp_mass_multiplier v; fs_max_kw := fs_max_kw v;
     fs_secs_to_peak_pwr := fs_secs_to_peak_pwr v; fs_kwh := fs_kwh v;
     fs_kwh_per_kg := fs_kwh_per_kg v; fc_max_kw := fc_max_kw v;
     fc_pwr_out_perc := fc_pwr_out_perc v; fc_eff_map := fc_eff_map v;
     fc_eff_type := fc_eff_type v; fc_sec_to_peak_pwr := fc_sec_to_peak_pwr v;
     fc_base_kg := fc_base_kg v; fc_kw_per_kg := fc_kw_per_kg v;
     min_fc_time_on := min_fc_time_on v; idle_fc_kw := idle_fc_kw v;
     mc_max_kw := mc_max_kw v; mc_pwr_out_perc := mc_pwr_out_perc v; mc_eff_map := m;
     mc_sec_to_peak_pwr := mc_sec_to_peak_pwr v; mc_pe_kg_per_kw := mc_pe_kg_per_kw v;
     mc_pe_base_kg := mc_pe_base_kg v; ess_max_kw := ess_max_kw v;
     ess_max_kwh := ess_max_kwh v; ess_kg_per_kwh := ess_kg_per_kwh v;
     ess_base_kg := ess_base_kg v; ess_round_trip_eff := ess_round_trip_eff v;
     ess_life_coef_a := ess_life_coef_a v; ess_life_coef_b := ess_life_coef_b v;
     min_soc := min_soc v; max_soc := max_soc v;
     ess_dischg_to_fc_max_eff_perc := ess_dischg_to_fc_max_eff_perc v;
     ess_chg_to_fc_max_eff_perc := ess_chg_to_fc_max_eff_perc v;
     wheel_inertia_kg_m2 := wheel_inertia_kg_m2 v; num_wheels := num_wheels v;
     wheel_rr_coef := wheel_rr_coef v; wheel_radius_m := wheel_radius_m v;
     wheel_coef_of_fric := wheel_coef_of_fric v;
     max_accel_buffer_mph := max_accel_buffer_mph v;
     max_accel_buffer_perc_of_useable_soc := max_accel_buffer_perc_of_useable_soc v;
     perc_high_acc_buf := perc_high_acc_buf v; mph_fc_on := mph_fc_on v;
     kw_demand_fc_on := kw_demand_fc_on v; max_regen := max_regen v;
     stop_start := stop_start v; force_aux_on_fc := force_aux_on_fc v; alt_eff := alt_eff v;
     chg_eff := chg_eff v; aux_kw := aux_kw v; trans_kg := trans_kg v;
     trans_eff := trans_eff v; ess_to_fuel_ok_error := ess_to_fuel_ok_error v;
     fc_peak_eff_override := fc_peak_eff_override v;
     mc_peak_eff_override := mc_peak_eff_override v; regen_a := regen_a v;
     regen_b := regen_b v; veh_props := veh_props v; charging_on := chg; no_elec_sys := ns;
     no_elec_aux := na; input_kw_out_array := inp; fc_kw_out_array := fck;
     fc_eff_array := fce; mc_eff_array := mce; mc_kw_in_array := mckin;
     mc_kw_out_array := mckout; mc_max_elec_in_kw := mx; mc_full_eff_array := mcf;
     veh_kg := veh_kg v; max_trac_mps2 := max_trac_mps2 v; ess_mass_kg := ess_mass_kg v;
     mc_mass_kg := mc_mass_kg v; fc_mass_kg := fc_mass_kg v; fs_mass_kg := fs_mass_kg v |}.
(** The assignments of set_veh_mass, vehicle.py:632-678. *)
Definition with_mass {F} (v : vehicle F) (ovr : option F) (kg trac em mm fm sm : F) : vehicle F :=
  {| is_template := is_template v; veh_pt_type := veh_pt_type v; drag_coef := drag_coef v;
     frontal_area_m2 := frontal_area_m2 v; glider_kg := glider_kg v; veh_cg_m := veh_cg_m v;
     drive_axle_weight_frac := drive_axle_weight_frac v; wheel_base_m := wheel_base_m v;
     cargo_kg := cargo_kg v; veh_override_kg := ovr;
     comp_mass_multiplier := comp_mass_multiplier v; fs_max_kw := fs_max_kw v;
     fs_secs_to_peak_pwr := fs_secs_to_peak_pwr v; fs_kwh := fs_kwh v;
     fs_kwh_per_kg := fs_kwh_per_kg v; fc_max_kw := fc_max_kw v;
     fc_pwr_out_perc := fc_pwr_out_perc v; fc_eff_map := fc_eff_map v;
     fc_eff_type := fc_eff_type v; fc_sec_to_peak_pwr := fc_sec_to_peak_pwr v;
     fc_base_kg := fc_base_kg v; fc_kw_per_kg := fc_kw_per_kg v;
     min_fc_time_on := min_fc_time_on v; idle_fc_kw := idle_fc_kw v;
     mc_max_kw := mc_max_kw v; mc_pwr_out_perc := mc_pwr_out_perc v;
     mc_eff_map := mc_eff_map v; mc_sec_to_peak_pwr := mc_sec_to_peak_pwr v;
     mc_pe_kg_per_kw := mc_pe_kg_per_kw v; mc_pe_base_kg := mc_pe_base_kg v;
     ess_max_kw := ess_max_kw v; ess_max_kwh := ess_max_kwh v;
     ess_kg_per_kwh := ess_kg_per_kwh v; ess_base_kg := ess_base_kg v;
     ess_round_trip_eff := ess_round_trip_eff v; ess_life_coef_a := ess_life_coef_a v;
     ess_life_coef_b := ess_life_coef_b v; min_soc := min_soc v; max_soc := max_soc v;
     ess_dischg_to_fc_max_eff_perc := ess_dischg_to_fc_max_eff_perc v;
     ess_chg_to_fc_max_eff_perc := ess_chg_to_fc_max_eff_perc v;
     wheel_inertia_kg_m2 := wheel_inertia_kg_m2 v; num_wheels := num_wheels v;
     wheel_rr_coef := wheel_rr_coef v; wheel_radius_m := wheel_radius_m v;
     wheel_coef_of_fric := wheel_coef_of_fric v;
     max_accel_buffer_mph := max_accel_buffer_mph v;
     max_accel_buffer_perc_of_useable_soc := max_accel_buffer_perc_of_useable_soc v;
     perc_high_acc_buf := perc_high_acc_buf v; mph_fc_on := mph_fc_on v;
     kw_demand_fc_on := kw_demand_fc_on v; max_regen := max_regen v;
     stop_start := stop_start v; force_aux_on_fc := force_aux_on_fc v; alt_eff := alt_eff v;
     chg_eff := chg_eff v; aux_kw := aux_kw v; trans_kg := trans_kg v;
     trans_eff := trans_eff v; ess_to_fuel_ok_error := ess_to_fuel_ok_error v;
     fc_peak_eff_override := fc_peak_eff_override v;
     mc_peak_eff_override := mc_peak_eff_override v; regen_a := regen_a v;
     regen_b := regen_b v; veh_props := veh_props v; charging_on := charging_on v;
     no_elec_sys := no_elec_sys v; no_elec_aux := no_elec_aux v;
     input_kw_out_array := input_kw_out_array v; fc_kw_out_array := fc_kw_out_array v;
     fc_eff_array := fc_eff_array v; mc_eff_array := mc_eff_array v;
     mc_kw_in_array := mc_kw_in_array v; mc_kw_out_array := mc_kw_out_array v;
     mc_max_elec_in_kw := mc_max_elec_in_kw v; mc_full_eff_array := mc_full_eff_array v;
     veh_kg := kg; max_trac_mps2 := trac; ess_mass_kg := em; mc_mass_kg := mm;
     fc_mass_kg := fm; fs_mass_kg := sm |}.
(** The assignments of set_fcPeakEff, vehicle.py:719-728. *)
Definition with_fc_eff {F} (v : vehicle F) (arr map_ : list F) : vehicle F :=
  {| is_template := is_template v; veh_pt_type := veh_pt_type v; drag_coef := drag_coef v;
     frontal_area_m2 := frontal_area_m2 v; glider_kg := glider_kg v; veh_cg_m := veh_cg_m v;
     drive_axle_weight_frac := drive_axle_weight_frac v; wheel_base_m := wheel_base_m v;
     cargo_kg := cargo_kg v; veh_override_kg := veh_override_kg v;
     comp_mass_multiplier := comp_mass_multiplier v; fs_max_kw := fs_max_kw v;
     fs_secs_to_peak_pwr := fs_secs_to_peak_pwr v; fs_kwh := fs_kwh v;
     fs_kwh_per_kg := fs_kwh_per_kg v; fc_max_kw := fc_max_kw v;
     fc_pwr_out_perc := fc_pwr_out_perc v; fc_eff_map := map_; fc_eff_type := fc_eff_type v;
     fc_sec_to_peak_pwr := fc_sec_to_peak_pwr v; fc_base_kg := fc_base_kg v;
     fc_kw_per_kg := fc_kw_per_kg v; min_fc_time_on := min_fc_time_on v;
     idle_fc_kw := idle_fc_kw v; mc_max_kw := mc_max_kw v;
     mc_pwr_out_perc := mc_pwr_out_perc v; mc_eff_map := mc_eff_map v;
     mc_sec_to_peak_pwr := mc_sec_to_peak_pwr v; mc_pe_kg_per_kw := mc_pe_kg_per_kw v;
     mc_pe_base_kg := mc_pe_base_kg v; ess_max_kw := ess_max_kw v;
     ess_max_kwh := ess_max_kwh v; ess_kg_per_kwh := ess_kg_per_kwh v;
     ess_base_kg := ess_base_kg v; ess_round_trip_eff := ess_round_trip_eff v;
     ess_life_coef_a := ess_life_coef_a v; ess_life_coef_b := ess_life_coef_b v;
     min_soc := min_soc v; max_soc := max_soc v;
     ess_dischg_to_fc_max_eff_perc := ess_dischg_to_fc_max_eff_perc v;
     ess_chg_to_fc_max_eff_perc := ess_chg_to_fc_max_eff_perc v;
     wheel_inertia_kg_m2 := wheel_inertia_kg_m2 v; num_wheels := num_wheels v;
     wheel_rr_coef := wheel_rr_coef v; wheel_radius_m := wheel_radius_m v;
     wheel_coef_of_fric := wheel_coef_of_fric v;
     max_accel_buffer_mph := max_accel_buffer_mph v;
     max_accel_buffer_perc_of_useable_soc := max_accel_buffer_perc_of_useable_soc v;
     perc_high_acc_buf := perc_high_acc_buf v; mph_fc_on := mph_fc_on v;
     kw_demand_fc_on := kw_demand_fc_on v; max_regen := max_regen v;
     stop_start := stop_start v; force_aux_on_fc := force_aux_on_fc v; alt_eff := alt_eff v;
     chg_eff := chg_eff v; aux_kw := aux_kw v; trans_kg := trans_kg v;
     trans_eff := trans_eff v; ess_to_fuel_ok_error := ess_to_fuel_ok_error v;
     fc_peak_eff_override := fc_peak_eff_override v;
     mc_peak_eff_override := mc_peak_eff_override v; regen_a := regen_a v;
     regen_b := regen_b v; veh_props := veh_props v; charging_on := charging_on v;
     no_elec_sys := no_elec_sys v; no_elec_aux := no_elec_aux v;
     input_kw_out_array := input_kw_out_array v; fc_kw_out_array := fc_kw_out_array v;
     fc_eff_array := arr; mc_eff_array := mc_eff_array v; mc_kw_in_array := mc_kw_in_array v;
     mc_kw_out_array := mc_kw_out_array v; mc_max_elec_in_kw := mc_max_elec_in_kw v;
     mc_full_eff_array := mc_full_eff_array v; veh_kg := veh_kg v;
     max_trac_mps2 := max_trac_mps2 v; ess_mass_kg := ess_mass_kg v;
     mc_mass_kg := mc_mass_kg v; fc_mass_kg := fc_mass_kg v; fs_mass_kg := fs_mass_kg v |}.
(** The assignments of set_mcPeakEff, vehicle.py:702-711. *)
Definition with_mc_eff {F} (v : vehicle F) (m : option (list F)) (mce mcf : list F) : vehicle F :=
  {| is_template := is_template v; veh_pt_type := veh_pt_type v; drag_coef := drag_coef v;
     frontal_area_m2 := frontal_area_m2 v; glider_kg := glider_kg v; veh_cg_m := veh_cg_m v;
     drive_axle_weight_frac := drive_axle_weight_frac v; wheel_base_m := wheel_base_m v;
     cargo_kg := cargo_kg v; veh_override_kg := veh_override_kg v;
     comp_mass_multiplier := comp_mass_multiplier v; fs_max_kw := fs_max_kw v;
     fs_secs_to_peak_pwr := fs_secs_to_peak_pwr v; fs_kwh := fs_kwh v;
     fs_kwh_per_kg := fs_kwh_per_kg v; fc_max_kw := fc_max_kw v;
     fc_pwr_out_perc := fc_pwr_out_perc v; fc_eff_map := fc_eff_map v;
     fc_eff_type := fc_eff_type v; fc_sec_to_peak_pwr := fc_sec_to_peak_pwr v;
     fc_base_kg := fc_base_kg v; fc_kw_per_kg := fc_kw_per_kg v;
     min_fc_time_on := min_fc_time_on v; idle_fc_kw := idle_fc_kw v;
     mc_max_kw := mc_max_kw v; mc_pwr_out_perc := mc_pwr_out_perc v; mc_eff_map := m;
     mc_sec_to_peak_pwr := mc_sec_to_peak_pwr v; mc_pe_kg_per_kw := mc_pe_kg_per_kw v;
     mc_pe_base_kg := mc_pe_base_kg v; ess_max_kw := ess_max_kw v;
     ess_max_kwh := ess_max_kwh v; ess_kg_per_kwh := ess_kg_per_kwh v;
     ess_base_kg := ess_base_kg v; ess_round_trip_eff := ess_round_trip_eff v;
     ess_life_coef_a := ess_life_coef_a v; ess_life_coef_b := ess_life_coef_b v;
     min_soc := min_soc v; max_soc := max_soc v;
     ess_dischg_to_fc_max_eff_perc := ess_dischg_to_fc_max_eff_perc v;
     ess_chg_to_fc_max_eff_perc := ess_chg_to_fc_max_eff_perc v;
     wheel_inertia_kg_m2 := wheel_inertia_kg_m2 v; num_wheels := num_wheels v;
     wheel_rr_coef := wheel_rr_coef v; wheel_radius_m := wheel_radius_m v;
     wheel_coef_of_fric := wheel_coef_of_fric v;
     max_accel_buffer_mph := max_accel_buffer_mph v;
     max_accel_buffer_perc_of_useable_soc := max_accel_buffer_perc_of_useable_soc v;
     perc_high_acc_buf := perc_high_acc_buf v; mph_fc_on := mph_fc_on v;
     kw_demand_fc_on := kw_demand_fc_on v; max_regen := max_regen v;
     stop_start := stop_start v; force_aux_on_fc := force_aux_on_fc v; alt_eff := alt_eff v;
     chg_eff := chg_eff v; aux_kw := aux_kw v; trans_kg := trans_kg v;
     trans_eff := trans_eff v; ess_to_fuel_ok_error := ess_to_fuel_ok_error v;
     fc_peak_eff_override := fc_peak_eff_override v;
     mc_peak_eff_override := mc_peak_eff_override v; regen_a := regen_a v;
     regen_b := regen_b v; veh_props := veh_props v; charging_on := charging_on v;
     no_elec_sys := no_elec_sys v; no_elec_aux := no_elec_aux v;
     input_kw_out_array := input_kw_out_array v; fc_kw_out_array := fc_kw_out_array v;
     fc_eff_array := fc_eff_array v; mc_eff_array := mce; mc_kw_in_array := mc_kw_in_array v;
     mc_kw_out_array := mc_kw_out_array v; mc_max_elec_in_kw := mc_max_elec_in_kw v;
     mc_full_eff_array := mcf; veh_kg := veh_kg v; max_trac_mps2 := max_trac_mps2 v;
     ess_mass_kg := ess_mass_kg v; mc_mass_kg := mc_mass_kg v; fc_mass_kg := fc_mass_kg v;
     fs_mass_kg := fs_mass_kg v |}.
(** A user's assignment of veh.mc_max_kw. vehicle.py:145-274 (attribute). *)
Definition with_mc_max_kw {F} (v : vehicle F) (x : F) : vehicle F :=
  {| is_template := is_template v; veh_pt_type := veh_pt_type v; drag_coef := drag_coef v;
     frontal_area_m2 := frontal_area_m2 v; glider_kg := glider_kg v; veh_cg_m := veh_cg_m v;
     drive_axle_weight_frac := drive_axle_weight_frac v; wheel_base_m := wheel_base_m v;
     cargo_kg := cargo_kg v; veh_override_kg := veh_override_kg v;
     comp_mass_multiplier := comp_mass_multiplier v; fs_max_kw := fs_max_kw v;
     fs_secs_to_peak_pwr := fs_secs_to_peak_pwr v; fs_kwh := fs_kwh v;
     fs_kwh_per_kg := fs_kwh_per_kg v; fc_max_kw := fc_max_kw v;
     fc_pwr_out_perc := fc_pwr_out_perc v; fc_eff_map := fc_eff_map v;
     fc_eff_type := fc_eff_type v; fc_sec_to_peak_pwr := fc_sec_to_peak_pwr v;
     fc_base_kg := fc_base_kg v; fc_kw_per_kg := fc_kw_per_kg v;
     min_fc_time_on := min_fc_time_on v; idle_fc_kw := idle_fc_kw v; mc_max_kw := x;
     mc_pwr_out_perc := mc_pwr_out_perc v; mc_eff_map := mc_eff_map v;
     mc_sec_to_peak_pwr := mc_sec_to_peak_pwr v; mc_pe_kg_per_kw := mc_pe_kg_per_kw v;
     mc_pe_base_kg := mc_pe_base_kg v; ess_max_kw := ess_max_kw v;
     ess_max_kwh := ess_max_kwh v; ess_kg_per_kwh := ess_kg_per_kwh v;
     ess_base_kg := ess_base_kg v; ess_round_trip_eff := ess_round_trip_eff v;
     ess_life_coef_a := ess_life_coef_a v; ess_life_coef_b := ess_life_coef_b v;
     min_soc := min_soc v; max_soc := max_soc v;
     ess_dischg_to_fc_max_eff_perc := ess_dischg_to_fc_max_eff_perc v;
     ess_chg_to_fc_max_eff_perc := ess_chg_to_fc_max_eff_perc v;
     wheel_inertia_kg_m2 := wheel_inertia_kg_m2 v; num_wheels := num_wheels v;
     wheel_rr_coef := wheel_rr_coef v; wheel_radius_m := wheel_radius_m v;
     wheel_coef_of_fric := wheel_coef_of_fric v;
     max_accel_buffer_mph := max_accel_buffer_mph v;
     max_accel_buffer_perc_of_useable_soc := max_accel_buffer_perc_of_useable_soc v;
     perc_high_acc_buf := perc_high_acc_buf v; mph_fc_on := mph_fc_on v;
     kw_demand_fc_on := kw_demand_fc_on v; max_regen := max_regen v;
     stop_start := stop_start v; force_aux_on_fc := force_aux_on_fc v; alt_eff := alt_eff v;
     chg_eff := chg_eff v; aux_kw := aux_kw v; trans_kg := trans_kg v;
     trans_eff := trans_eff v; ess_to_fuel_ok_error := ess_to_fuel_ok_error v;
     fc_peak_eff_override := fc_peak_eff_override v;
     mc_peak_eff_override := mc_peak_eff_override v; regen_a := regen_a v;
     regen_b := regen_b v; veh_props := veh_props v; charging_on := charging_on v;
     no_elec_sys := no_elec_sys v; no_elec_aux := no_elec_aux v;
     input_kw_out_array := input_kw_out_array v; fc_kw_out_array := fc_kw_out_array v;
     fc_eff_array := fc_eff_array v; mc_eff_array := mc_eff_array v;
     mc_kw_in_array := mc_kw_in_array v; mc_kw_out_array := mc_kw_out_array v;
     mc_max_elec_in_kw := mc_max_elec_in_kw v; mc_full_eff_array := mc_full_eff_array v;
     veh_kg := veh_kg v; max_trac_mps2 := max_trac_mps2 v; ess_mass_kg := ess_mass_kg v;
     mc_mass_kg := mc_mass_kg v; fc_mass_kg := fc_mass_kg v; fs_mass_kg := fs_mass_kg v |}.
(** A user's assignment of veh.veh_override_kg. vehicle.py:145-274 (attribute). *)
Definition with_override_kg {F} (v : vehicle F) (x : option F) : vehicle F :=
  {| is_template := is_template v; veh_pt_type := veh_pt_type v; drag_coef := drag_coef v;
     frontal_area_m2 := frontal_area_m2 v; glider_kg := glider_kg v; veh_cg_m := veh_cg_m v;
     drive_axle_weight_frac := drive_axle_weight_frac v; wheel_base_m := wheel_base_m v;
     cargo_kg := cargo_kg v; veh_override_kg := x;
     comp_mass_multiplier := comp_mass_multiplier v; fs_max_kw := fs_max_kw v;
     fs_secs_to_peak_pwr := fs_secs_to_peak_pwr v; fs_kwh := fs_kwh v;
     fs_kwh_per_kg := fs_kwh_per_kg v; fc_max_kw := fc_max_kw v;
     fc_pwr_out_perc := fc_pwr_out_perc v; fc_eff_map := fc_eff_map v;
     fc_eff_type := fc_eff_type v; fc_sec_to_peak_pwr := fc_sec_to_peak_pwr v;
     fc_base_kg := fc_base_kg v; fc_kw_per_kg := fc_kw_per_kg v;
     min_fc_time_on := min_fc_time_on v; idle_fc_kw := idle_fc_kw v;
     mc_max_kw := mc_max_kw v; mc_pwr_out_perc := mc_pwr_out_perc v;
     mc_eff_map := mc_eff_map v; mc_sec_to_peak_pwr := mc_sec_to_peak_pwr v;
     mc_pe_kg_per_kw := mc_pe_kg_per_kw v; mc_pe_base_kg := mc_pe_base_kg v;
     ess_max_kw := ess_max_kw v; ess_max_kwh := ess_max_kwh v;
     ess_kg_per_kwh := ess_kg_per_kwh v; ess_base_kg := ess_base_kg v;
     ess_round_trip_eff := ess_round_trip_eff v; ess_life_coef_a := ess_life_coef_a v;
     ess_life_coef_b := ess_life_coef_b v; min_soc := min_soc v; max_soc := max_soc v;
     ess_dischg_to_fc_max_eff_perc := ess_dischg_to_fc_max_eff_perc v;
     ess_chg_to_fc_max_eff_perc := ess_chg_to_fc_max_eff_perc v;
     wheel_inertia_kg_m2 := wheel_inertia_kg_m2 v; num_wheels := num_wheels v;
     wheel_rr_coef := wheel_rr_coef v; wheel_radius_m := wheel_radius_m v;
     wheel_coef_of_fric := wheel_coef_of_fric v;
     max_accel_buffer_mph := max_accel_buffer_mph v;
     max_accel_buffer_perc_of_useable_soc := max_accel_buffer_perc_of_useable_soc v;
     perc_high_acc_buf := perc_high_acc_buf v; mph_fc_on := mph_fc_on v;
     kw_demand_fc_on := kw_demand_fc_on v; max_regen := max_regen v;
     stop_start := stop_start v; force_aux_on_fc := force_aux_on_fc v; alt_eff := alt_eff v;
     chg_eff := chg_eff v; aux_kw := aux_kw v; trans_kg := trans_kg v;
     trans_eff := trans_eff v; ess_to_fuel_ok_error := ess_to_fuel_ok_error v;
     fc_peak_eff_override := fc_peak_eff_override v;
     mc_peak_eff_override := mc_peak_eff_override v; regen_a := regen_a v;
     regen_b := regen_b v; veh_props := veh_props v; charging_on := charging_on v;
     no_elec_sys := no_elec_sys v; no_elec_aux := no_elec_aux v;
     input_kw_out_array := input_kw_out_array v; fc_kw_out_array := fc_kw_out_array v;
     fc_eff_array := fc_eff_array v; mc_eff_array := mc_eff_array v;
     mc_kw_in_array := mc_kw_in_array v; mc_kw_out_array := mc_kw_out_array v;
     mc_max_elec_in_kw := mc_max_elec_in_kw v; mc_full_eff_array := mc_full_eff_array v;
     veh_kg := veh_kg v; max_trac_mps2 := max_trac_mps2 v; ess_mass_kg := ess_mass_kg v;
     mc_mass_kg := mc_mass_kg v; fc_mass_kg := fc_mass_kg v; fs_mass_kg := fs_mass_kg v |}.

Section VehModel.
  Context {F : Type} {N : Num F}.
  Local Open Scope num_scope.

  (** ** Constants, parameters.py:122-156 *)
  Definition percents (l : list Z) : list F := map (fun z => lit z 1000) l.
  (** parameters.py:122-138 *)
  Definition fc_pwr_out_perc_default : list F :=
    percents [0; 5; 15; 40; 60; 100; 140; 200; 400; 600; 800; 1000]%Z.
  (** parameters.py:122-138 *)
  Definition fc_eff_map_si : list F :=
    percents [100; 120; 160; 220; 280; 330; 350; 360; 350; 340; 320; 300]%Z.
  (** parameters.py:122-138 *)
  Definition fc_eff_map_atk : list F :=
    percents [100; 120; 280; 350; 375; 390; 400; 400; 380; 370; 360; 350]%Z.
  (** parameters.py:122-138 *)
  Definition fc_eff_map_diesel : list F :=
    percents [100; 140; 200; 260; 320; 390; 410; 420; 410; 380; 360; 340]%Z.
  (** parameters.py:122-138 *)
  Definition fc_eff_map_fuel_cell : list F :=
    percents [100; 300; 360; 450; 500; 560; 580; 600; 580; 570; 550; 540]%Z.
  (** parameters.py:122-138 *)
  Definition fc_eff_map_hd_diesel : list F :=
    percents [100; 140; 200; 260; 320; 390; 410; 420; 410; 380; 360; 340]%Z.
  (** parameters.py:145-146: np.r_ of four aranges, divided by 100. *)
  Definition fc_perc_out_array : list F :=
    map (fun k => nofN k * lit 1 10 / nofZ 100) (seq 0 30)
    ++ map (fun k => (nofZ 3 + nofN k * lit 1 2) / nofZ 100) (seq 0 8)
    ++ map (fun k => nofN k / nofZ 100) (seq 7 53)
    ++ map (fun k => (nofZ 60 + nofN k * nofZ 5) / nofZ 100) (seq 0 9).
  (** parameters.py:150-156 *)
  Definition mc_pwr_out_perc_default : list F :=
    percents [0; 20; 40; 60; 80; 100; 200; 400; 600; 800; 1000]%Z.
  (** parameters.py:150-156 *)
  Definition large_baseline_eff : list F :=
    percents [830; 850; 870; 890; 900; 910; 930; 940; 940; 930; 920]%Z.
  (** parameters.py:150-156 *)
  Definition small_baseline_eff : list F :=
    percents [120; 160; 210; 290; 350; 420; 750; 920; 930; 930; 920]%Z.
  (** parameters.py:150-156 *)
  Definition modern_max : F := lit 95 100.
  (** parameters.py:150-156 *)
  Definition mc_perc_out_array : list F := linspace n0 n1 101.

  (** max(l), np.max(l), l.min(): ValueError on an empty array. vehicle.py:526-730. *)
  Definition lmax (l : list F) : Res F := match l with [] => Err ValueError | a :: r => Ok (nmaxl a r) end.
  (** vehicle.py:526-730 *)
  Definition lmin (l : list F) : Res F := match l with [] => Err ValueError | a :: r => Ok (nminl a r) end.
  (** vehicle.py:697-730 (array *= x) *)
  Definition scale (k : F) (l : list F) : list F := map (fun x => x * k) l.

  (** np.interp(x=xs, xp=xp, fp=fp) with its shape checks. vehicle.py:526-630. *)
  Definition np_interp (xs xp fp : list F) : Res (list F) :=
    match xp with
    | [] => Err ValueError
    | _ => if Nat.eqb (length xp) (length fp) then Ok (interp xs xp fp) else Err ValueError
    end.

  (** ** Peak efficiencies, vehicle.py:697-730 *)
  Definition get_mcPeakEff (v : vehicle F) : Res F :=
    do a <- lmax (mc_full_eff_array v);
    do b <- lmax (mc_eff_array v);
    do _ <- assertR (a =? b);
    Ok a.
  (** The in-place [*=] acts on the array that mc_eff_map also names (vehicle.py:592-597). *)
  Definition set_mcPeakEff (v : vehicle F) (new_peak : F) : Res (vehicle F) :=
    do a <- lmax (mc_eff_array v);
    do b <- lmax (mc_full_eff_array v);
    let mce := scale (new_peak / a) (mc_eff_array v) in
    Ok (with_mc_eff v (Some mce) mce (scale (new_peak / b) (mc_full_eff_array v))).
  (** vehicle.py:715-717 *)
  Definition get_fcPeakEff (v : vehicle F) : Res F := lmax (fc_eff_array v).
  (** The second line divides by the maximum of the array the first line has just scaled. vehicle.py:719-729. *)
  Definition set_fcPeakEff (v : vehicle F) (new_peak : F) : Res (vehicle F) :=
    do a <- lmax (fc_eff_array v);
    let arr := scale (new_peak / a) (fc_eff_array v) in
    do b <- lmax arr;
    Ok (with_fc_eff v arr (scale (new_peak / b) (fc_eff_map v))).

  (** ** set_veh_mass, vehicle.py:632-678 *)
  (** 641: [(override is None) or (not(override > 0))]. *)
  Definition use_override (v : vehicle F) : option F :=
    match veh_override_kg v with Some x => if x >? n0 then Some x else None | None => None end.
  (** 643-647. *)
  Definition ess_mass (v : vehicle F) : F :=
    if ((ess_max_kwh v =? n0) || (ess_max_kw v =? n0))%bool then n0
    else (ess_max_kwh v * ess_kg_per_kwh v + ess_base_kg v) * comp_mass_multiplier v.
  (** 648-652. *)
  Definition mc_mass (v : vehicle F) : F :=
    if mc_max_kw v =? n0 then n0
    else (mc_pe_base_kg v + mc_pe_kg_per_kw v * mc_max_kw v) * comp_mass_multiplier v.
  (** 653-657. *)
  Definition fc_mass (v : vehicle F) : F :=
    if fc_max_kw v =? n0 then n0
    else (n1 / fc_kw_per_kg v * fc_max_kw v + fc_base_kg v) * comp_mass_multiplier v.
  (** 658-662. *)
  Definition fs_mass (v : vehicle F) : F :=
    if fs_max_kw v =? n0 then n0
    else (n1 / fs_kwh_per_kg v * fs_kwh v) * comp_mass_multiplier v.
  (** 669-672. *)
  Definition max_trac (v : vehicle F) (kg : F) : F :=
    let g := a_grav_mps2 (veh_props v) in
    (wheel_coef_of_fric v * drive_axle_weight_frac v * kg * g
     / (n1 + veh_cg_m v * wheel_coef_of_fric v / wheel_base_m v)) / (kg * g) * g.
  (** vehicle.py:632-681 *)
  Definition set_veh_mass (v : vehicle F) : vehicle F :=
    match use_override v with
    | None =>
        let em := ess_mass v in let mm := mc_mass v in
        let fm := fc_mass v in let sm := fs_mass v in
        let kg := cargo_kg v + glider_kg v + trans_kg v * comp_mass_multiplier v
                  + em + mm + fm + sm in
        with_mass v (Some n0) kg (max_trac v kg) em mm fm sm
    | Some x => with_mass v (veh_override_kg v) x (max_trac v x) n0 n0 n0 n0
    end.

  (** ** set_derived, vehicle.py:526-630 *)
  (** The powertrain checks, 547-555. *)
  Definition check_pt (v : vehicle F) : Res unit :=
    if is_template v then Ok tt
    else match veh_pt_type v with
         | BEV => do _ <- assertR (fs_max_kw v =? n0); do _ <- assertR (fs_kwh v =? n0);
                  assertR (fc_max_kw v =? n0)
         | CONV => if stop_start v then Ok tt
                   else do _ <- assertR (mc_max_kw v =? n0); do _ <- assertR (ess_max_kw v =? n0);
                        assertR (ess_max_kwh v =? n0)
         | _ => Ok tt
         end.
  (** 558-561. *)
  Definition calc_no_elec_sys (v : vehicle F) : bool :=
    ((ess_max_kwh v =? n0) || (ess_max_kw v =? n0) || (mc_max_kw v =? n0))%bool.
  (** 564-567. *)
  Definition calc_no_elec_aux (v : vehicle F) : bool :=
    (calc_no_elec_sys v || (mc_max_kw v <=? aux_kw v) || force_aux_on_fc v)%bool.
  (** The default motor map, 577-594: between the small and the large motor's curve. *)
  Definition default_mc_eff_map (v : vehicle F) : list F :=
    let modern_diff := modern_max - nmaxl (hd n0 large_baseline_eff) (tl large_baseline_eff) in
    let large_adj := map (fun x => x + modern_diff) large_baseline_eff in
    let p := nmax n0 (nmin ((mc_max_kw v - lit 75 10) / (nofZ 75 - lit 75 10)) n1) in
    zipw (fun l s => p * l + (n1 - p) * s) large_adj small_baseline_eff.
  (** 602-604: interpolate, then fix the first and the last entry. *)
  Definition fix_ends (l eff : list F) : Res (list F) :=
    do e <- pyget eff (-1);
    match l with
    | [] => Err IndexError
    | _ :: r => Ok (set_nth (n0 :: r) (length r) e)
    end.
  (** 537-616, up to the peak overrides. *)
  Definition derive_maps (v : vehicle F) : Res (vehicle F) :=
    do _ <- check_pt v;
    do fce <- np_interp fc_perc_out_array (fc_pwr_out_perc v) (fc_eff_map v);
    let mce := match mc_eff_map v with None => default_mc_eff_map v | Some m => m end in
    let mckout := map (fun x => x * mc_max_kw v) (linspace n0 n1 (length mc_perc_out_array)) in
    do mcf0 <- np_interp mc_perc_out_array (mc_pwr_out_perc v) mce;
    do mcf <- fix_ends mcf0 mce;
    let mckin := n0 :: zipw ndiv (tl mckout) (tl mcf) in
    do mx <- lmax mckin;
    Ok (with_derived v (Some mce) false (calc_no_elec_sys v) (calc_no_elec_aux v)
          (map (fun x => x * fc_max_kw v) (fc_pwr_out_perc v))
          (map (fun x => fc_max_kw v * x) fc_perc_out_array)
          fce mce mckin mckout mx mcf).
  (** vehicle.py:526-630 (optional overrides) *)
  Definition opt_set (f : vehicle F -> F -> Res (vehicle F)) (o : option F) (v : vehicle F) : Res (vehicle F) :=
    match o with None => Ok v | Some p => f v p end.
  (** 625-628. *)
  Definition check_eff (v : vehicle F) : Res unit :=
    do a <- lmin (fc_eff_array v);
    do _ <- assertR (a >=? n0);
    do b <- get_fcPeakEff v;
    do _ <- assertR (b <? n1);
    do c <- lmin (mc_full_eff_array v);
    do _ <- assertR (c >=? n0);
    do d <- get_mcPeakEff v;
    assertR (d <? n1).
  (** vehicle.py:526-630 *)
  Definition set_derived (v : vehicle F) : Res (vehicle F) :=
    do v1 <- derive_maps v;
    do v2 <- opt_set set_fcPeakEff (fc_peak_eff_override v1) v1;
    do v3 <- opt_set set_mcPeakEff (mc_peak_eff_override v2) v2;
    do _ <- check_eff v3;
    Ok (set_veh_mass v3).

  (** ** Properties used by simdrive.py *)
  (** np.argmax of a number array: index of the first maximum. vehicle.py:683-685. *)
  Fixpoint argmax_from (best : F) (bi i : nat) (l : list F) : nat :=
    match l with
    | [] => bi
    | x :: r => if x >? best then argmax_from x i (S i) r else argmax_from best bi (S i) r
    end.
  (** vehicle.py:683-685 *)
  Definition argmax_n (l : list F) : nat := match l with [] => O | x :: r => argmax_from x 0 1 r end.
  (** max_fc_eff_kw, vehicle.py:682-684. *)
  Definition max_fc_eff_kw (v : vehicle F) : F :=
    nth (argmax_n (fc_eff_array v)) (fc_kw_out_array v) n0.
  (** max_regen_kwh, vehicle.py:686-687. *)
  Definition max_regen_kwh (v : vehicle F) : F :=
    lit 1 2 * veh_kg v * nofZ 729 / nofZ 3600000.
End VehModel.
