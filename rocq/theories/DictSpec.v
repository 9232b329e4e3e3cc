(** Independent vocabulary for the vehicle dict properties C47, C48, C79 and C80. *)
From Coq Require Import Ascii.
From Verif Require Import Num Numpy VehModel VehSpec VehDictModel VehTableModel.
Local Open Scope R_scope.

(** Every numeric parameter apart from the mass override and the peak efficiency overrides. *)
Definition numbers : list (vehicle R -> R) := [
  drag_coef; frontal_area_m2; glider_kg; veh_cg_m; drive_axle_weight_frac; wheel_base_m; cargo_kg; comp_mass_multiplier; fs_max_kw;
  fs_secs_to_peak_pwr; fs_kwh; fs_kwh_per_kg; fc_max_kw; fc_sec_to_peak_pwr; fc_base_kg; fc_kw_per_kg; min_fc_time_on; idle_fc_kw; mc_max_kw;
  mc_sec_to_peak_pwr; mc_pe_kg_per_kw; mc_pe_base_kg; ess_max_kw; ess_max_kwh; ess_kg_per_kwh; ess_base_kg; ess_round_trip_eff;
  ess_life_coef_a; ess_life_coef_b; min_soc; max_soc; ess_dischg_to_fc_max_eff_perc; ess_chg_to_fc_max_eff_perc; wheel_inertia_kg_m2;
  wheel_rr_coef; wheel_radius_m; wheel_coef_of_fric; max_accel_buffer_mph; max_accel_buffer_perc_of_useable_soc; perc_high_acc_buf; mph_fc_on;
  kw_demand_fc_on; max_regen; alt_eff; chg_eff; aux_kw; trans_kg; trans_eff; ess_to_fuel_ok_error; regen_a; regen_b].
(** Two vehicles with the same settings: everything a user supplies except the mass override and the efficiency maps with their grids. *)
Record same_settings (v w : pyveh R) : Prop := {
  ss_name : pv_scenario w = pv_scenario v; ss_selection : pv_selection w = pv_selection v; ss_year : pv_year w = pv_year v;
  ss_type : pv_type w = pv_type v; ss_wheels : pv_wheels w = pv_wheels v; ss_vals : pv_vals w = pv_vals v;
  ss_rho : pv_rho w = pv_rho v; ss_afr : pv_afr w = pv_afr v;
  ss_pt : veh_pt_type (pv_core w) = veh_pt_type (pv_core v); ss_ss : stop_start (pv_core w) = stop_start (pv_core v);
  ss_aux : force_aux_on_fc (pv_core w) = force_aux_on_fc (pv_core v);
  ss_fc : fc_peak_eff_override (pv_core w) = fc_peak_eff_override (pv_core v);
  ss_mc : mc_peak_eff_override (pv_core w) = mc_peak_eff_override (pv_core v);
  ss_props : veh_props (pv_core w) = veh_props (pv_core v);
  ss_numbers : Forall (fun f => f (pv_core w) = f (pv_core v)) numbers }.
Definition between01 (o : option R) : Prop := match o with Some x => 0 < x < 1 | None => True end.
(** A coherent Vehicle object: 18 reference values; the template flag, the engine type and the number of wheels as the
    computations use them are those of the attributes; peak overrides between 0 and 1. *)
Record coherent (v : pyveh R) : Prop := {
  co_vals : length (pv_vals v) = 18%nat;
  co_template : is_template (pv_core v) = String.eqb (pv_scenario v) "Template Vehicle for setting up data types";
  co_type : fc_eff_type (pv_core v) = fc_of (pv_type v);
  co_wheels : num_wheels (pv_core v) = IZR (pv_wheels v);
  co_fc : between01 (fc_peak_eff_override (pv_core v)); co_mc : between01 (mc_peak_eff_override (pv_core v)) }.

(** The default maps. *)
Definition per_mille (l : list Z) : list R := map (fun z => IZR z / 1000) l.
Definition engine_grid_default : list R := per_mille [0; 5; 15; 40; 60; 100; 140; 200; 400; 600; 800; 1000]%Z.
Definition motor_grid_default : list R := per_mille [0; 20; 40; 60; 80; 100; 200; 400; 600; 800; 1000]%Z.
Definition engine_types : list (string * list R) := [
  ("SI", per_mille [100; 120; 160; 220; 280; 330; 350; 360; 350; 340; 320; 300]%Z);
  ("Atkinson", per_mille [100; 120; 280; 350; 375; 390; 400; 400; 380; 370; 360; 350]%Z);
  ("Diesel", per_mille [100; 140; 200; 260; 320; 390; 410; 420; 410; 380; 360; 340]%Z);
  ("H2FC", per_mille [100; 300; 360; 450; 500; 560; 580; 600; 580; 570; 550; 540]%Z);
  ("HD_Diesel", per_mille [100; 140; 200; 260; 320; 390; 410; 420; 410; 380; 360; 340]%Z)]%string.
Definition motor_map_default (c : vehicle R) (m : list R) : Prop :=
  length m = 11%nat /\ forall k, (k < 11)%nat -> nth k m 0 = default_motor_eff (mc_max_kw c) k.
(** The vehicle's maps are the default ones of its engine type and motor size. *)
Definition default_maps (v : pyveh R) : Prop :=
  let c := pv_core v in
  fc_pwr_out_perc c = engine_grid_default /\ In (pv_type v, fc_eff_map c) engine_types /\
  mc_pwr_out_perc c = motor_grid_default /\ exists m, mc_eff_map c = Some m /\ motor_map_default c m.

(** ** Comparison *)
(** Lists whose entries differ by at most a millionth; a list of one number counts as a constant list of any length. *)
Definition near (l m : list R) : Prop :=
  (length l = length m /\ forall i, (i < length l)%nat -> Rabs (nth i l 0 - nth i m 0) <= / 1000000) \/
  (exists y, m = [y] /\ forall x, In x l -> Rabs (x - y) <= / 1000000) \/
  (exists x, l = [x] /\ forall y, In y m -> Rabs (x - y) <= / 1000000).
Definition near_maps (c c' : vehicle R) : Prop :=
  near (fc_pwr_out_perc c) (fc_pwr_out_perc c') /\ near (fc_eff_map c) (fc_eff_map c') /\ near (mc_pwr_out_perc c) (mc_pwr_out_perc c') /\
  exists m m', mc_eff_map c = Some m /\ mc_eff_map c' = Some m' /\ near m m'.

(** ** Dicts *)
(** What the object has under an attribute name; arrays read as lists. *)
Definition attribute {F} {N : Num F} (v : pyveh F) (k : string) : option (pyval F) := pget (copy_dict v) k.
(** A list is given for [k] as text that Python can evaluate. *)
Definition given_text (T : texts R) (d : pydict R) (k : string) (l : list R) : Prop :=
  exists s, pget d k = Some (VStr s) /\ to_literal T s = Items l.
(** What is given cannot be evaluated as text: it is a list, an array, a number or unreadable text. *)
Definition not_text (T : texts R) (d : pydict R) (k : string) : Prop :=
  forall s, pget d k = Some (VStr s) -> to_literal T s = NotLiteral.
(** A value that already has the type its key calls for. *)
Definition of_type (t : ty) {F} (w : pyval F) : Prop :=
  match t, w with
  | TStr, VStr _ | TInt, VInt _ | TFloat, VNum _ | TBool, VBool _ | TProps, VProps _ _ _ => True
  | _, _ => False
  end.
(** The parameters a user may leave out. *)
Definition optional : list string := [
  "veh_override_kg"; "veh_year"; "props"; "regen_a"; "regen_b"; "fc_peak_eff_override"; "mc_peak_eff_override"; "fc_pwr_out_perc";
  "mc_pwr_out_perc"; "mc_eff_map"]%string.
(** A parameter of a vehicle, as opposed to something derived. *)
Definition parameter (k : string) : Prop := In k (map fst keys_and_types) /\ ~ In k keys_to_remove.
(** The parameters that describe the efficiency maps. *)
Definition map_names : list string := ["fc_eff_map"; "fc_pwr_out_perc"; "mc_pwr_out_perc"; "mc_eff_map"]%string.
(** The number given for a peak efficiency, if it can be read as one. *)
Definition read_number (T : texts R) (w : pyval R) (x : R) : Prop :=
  match w with
  | VNum y => x = y
  | VInt k => x = IZR k
  | VBool b => x = if b then 1 else 0
  | VStr s => to_float T s = Some x
  | _ => False
  end.

(** ** Table cells *)
(** [m] is the word in any mixture of cases. *)
Definition word_true : list (ascii * ascii) := [("t", "T"); ("r", "R"); ("u", "U"); ("e", "E")]%char.
Definition word_false : list (ascii * ascii) := [("f", "F"); ("a", "A"); ("l", "L"); ("s", "S"); ("e", "E")]%char.
Definition spells (word : list (ascii * ascii)) (m : string) : Prop :=
  Forall2 (fun p c => c = fst p \/ c = snd p) word (list_ascii_of_string m).
Definition mentions (word : list (ascii * ascii)) (s : string) : Prop := exists a m b, s = (a ++ m ++ b)%string /\ spells word m.
Definition has_percent (s : string) : Prop := In "%"%char (list_ascii_of_string s).
(** The text with its percent signs taken out. *)
Definition no_percent (s t : string) : Prop :=
  list_ascii_of_string t = filter (fun c => negb (Ascii.eqb c "%")) (list_ascii_of_string s).
(** The value of the last column for [k]: columns after it are for other parameters. *)
Definition last_column {F} (key : string -> string) (row : pydict F) (k : string) (w : pyval F) : Prop :=
  exists pre c post, row = pre ++ (c, w) :: post /\ key c = k /\ forall e, In e post -> key (fst e) <> k.
(** Two column headings for one parameter: its new or its old name, with spaces or underscores. *)
Definition same_column (c c' : string) : Prop := exists new old, In (new, old) new_to_old /\
  (underscored c = new \/ underscored c = old) /\ (underscored c' = new \/ underscored c' = old).
