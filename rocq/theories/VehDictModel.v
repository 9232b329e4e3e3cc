(** Model of the dictionary side of python/fastsim/vehicle.py: clean_data (106-141), Vehicle.from_dict (366-511, to_rust = False),
    the generated constructor with __post_init__ (151-269, 513-524), copy_vehicle for return types 'dict' and 'vehicle'
    (782-845) and veh_equal (916-964).  Definitions only.

    Python's text conversions (float(text), int(text), str(value), ast.literal_eval(text)) are parameters, gathered in
    [texts].  Not modelled: logging, nested or non-numeric array literals, arrays given for scalar parameters. *)
From Coq Require Import Ascii.
From Verif Require Import Num Numpy VehModel.

(** Python values that occur in vehicle dicts; [VProps] is a (Rust)PhysicalProperties object with its five numbers. *)
(** vehicle.py:366-511 *)
Inductive pyval (F : Type) :=
  VNone | VBool (b : bool) | VInt (k : Z) | VNum (x : F) | VStr (s : string) | VList (l : list F) | VArr (l : list F)
| VProps (p : physprops F) (rho afr : F).
Arguments VNone {F}. Arguments VBool {F}. Arguments VInt {F}. Arguments VNum {F}. Arguments VStr {F}. Arguments VList {F}.
Arguments VArr {F}. Arguments VProps {F}.
(** vehicle.py:366-511 *)
Definition pydict (F : Type) : Type := list (string * pyval F).
(** What ast.literal_eval makes of a text: an error, one number, or a list of numbers. vehicle.py:366-511. *)
Inductive literal (F : Type) := NotLiteral | Scalar (x : F) | Items (l : list F).
Arguments NotLiteral {F}. Arguments Scalar {F}. Arguments Items {F}.
(** vehicle.py:106-142, 366-511 *)
Record texts (F : Type) := mktexts {
  to_float : string -> option F; to_int : string -> option Z; to_literal : string -> literal F; show : pyval F -> string }.
Arguments mktexts {F}. Arguments to_float {F}. Arguments to_int {F}. Arguments to_literal {F}. Arguments show {F}.

(** A Vehicle object: the attributes used in computations and the others.  [pv_type]: fc_eff_type as text. *)
(** vehicle.py:145-274 *)
Record pyveh (F : Type) := mkpv {
  pv_core : vehicle F; pv_scenario : string; pv_selection : Z; pv_year : Z; pv_type : string; pv_wheels : Z;
  pv_vals : list F; pv_rho : F; pv_afr : F }.
Arguments mkpv {F}. Arguments pv_core {F}. Arguments pv_scenario {F}. Arguments pv_selection {F}. Arguments pv_year {F}.
Arguments pv_type {F}. Arguments pv_wheels {F}. Arguments pv_vals {F}. Arguments pv_rho {F}. Arguments pv_afr {F}.

(** vehicle_base.py:9-126 *)
Inductive ty := TStr | TInt | TFloat | TArr | TBool | TProps.
(** vehicle.py:366-511 *)
Definition val_keys : list string := [
  "val_udds_mpgge"; "val_hwy_mpgge"; "val_comb_mpgge"; "val_udds_kwh_per_mile"; "val_hwy_kwh_per_mile"; "val_comb_kwh_per_mile";
  "val_cd_range_mi"; "val_const65_mph_kwh_per_mile"; "val_const60_mph_kwh_per_mile"; "val_const55_mph_kwh_per_mile";
  "val_const45_mph_kwh_per_mile"; "val_unadj_udds_kwh_per_mile"; "val_unadj_hwy_kwh_per_mile"; "val0_to60_mph"; "val_ess_life_miles";
  "val_range_miles"; "val_veh_base_cost"; "val_msrp"]%string.
(** vehicle_base.py:9-126 *)
Definition keys_and_types : list (string * ty) := [
  ("scenario_name", TStr); ("selection", TInt); ("veh_year", TInt); ("veh_pt_type", TStr); ("drag_coef", TFloat);
  ("frontal_area_m2", TFloat); ("glider_kg", TFloat); ("veh_cg_m", TFloat); ("drive_axle_weight_frac", TFloat);
  ("wheel_base_m", TFloat); ("cargo_kg", TFloat); ("veh_override_kg", TFloat); ("comp_mass_multiplier", TFloat); ("fs_max_kw", TFloat);
  ("fs_secs_to_peak_pwr", TFloat); ("fs_kwh", TFloat); ("fs_kwh_per_kg", TFloat); ("fc_max_kw", TFloat); ("fc_pwr_out_perc", TArr);
  ("fc_eff_map", TArr); ("fc_eff_type", TStr); ("fc_sec_to_peak_pwr", TFloat); ("fc_base_kg", TFloat); ("fc_kw_per_kg", TFloat);
  ("min_fc_time_on", TFloat); ("idle_fc_kw", TFloat); ("mc_max_kw", TFloat); ("mc_pwr_out_perc", TArr); ("mc_eff_map", TArr);
  ("mc_sec_to_peak_pwr", TFloat); ("mc_pe_kg_per_kw", TFloat); ("mc_pe_base_kg", TFloat); ("ess_max_kw", TFloat); ("ess_max_kwh", TFloat);
  ("ess_kg_per_kwh", TFloat); ("ess_base_kg", TFloat); ("ess_round_trip_eff", TFloat); ("ess_life_coef_a", TFloat);
  ("ess_life_coef_b", TFloat); ("min_soc", TFloat); ("max_soc", TFloat); ("ess_dischg_to_fc_max_eff_perc", TFloat);
  ("ess_chg_to_fc_max_eff_perc", TFloat); ("wheel_inertia_kg_m2", TFloat); ("num_wheels", TInt); ("wheel_rr_coef", TFloat);
  ("wheel_radius_m", TFloat); ("wheel_coef_of_fric", TFloat); ("max_accel_buffer_mph", TFloat);
  ("max_accel_buffer_perc_of_useable_soc", TFloat); ("perc_high_acc_buf", TFloat); ("mph_fc_on", TFloat); ("kw_demand_fc_on", TFloat);
  ("max_regen", TFloat); ("stop_start", TBool); ("force_aux_on_fc", TBool); ("alt_eff", TFloat); ("chg_eff", TFloat); ("aux_kw", TFloat);
  ("trans_kg", TFloat); ("trans_eff", TFloat); ("ess_to_fuel_ok_error", TFloat)]%string
  ++ map (fun k => (k, TFloat)) val_keys ++ [
  ("props", TProps); ("large_baseline_eff", TArr); ("small_baseline_eff", TArr); ("small_motor_power_kw", TFloat);
  ("large_motor_power_kw", TFloat); ("fc_perc_out_array", TArr); ("max_roadway_chg_kw", TArr); ("charging_on", TBool);
  ("no_elec_sys", TBool); ("no_elec_aux", TBool); ("input_kw_out_array", TArr); ("fc_kw_out_array", TArr); ("fc_eff_array", TArr);
  ("modern_max", TFloat); ("mc_eff_array", TArr); ("mc_kw_in_array", TArr); ("mc_kw_out_array", TArr); ("mc_max_elec_in_kw", TFloat);
  ("mc_full_eff_array", TArr); ("regen_a", TFloat); ("regen_b", TFloat); ("veh_kg", TFloat); ("max_trac_mps2", TFloat);
  ("ess_mass_kg", TFloat); ("mc_mass_kg", TFloat); ("fc_mass_kg", TFloat); ("fs_mass_kg", TFloat); ("mc_perc_out_array", TArr);
  ("fc_peak_eff_override", TFloat); ("mc_peak_eff_override", TFloat)]%string.
(** KEYS_TO_REMOVE, vehicle.py:39-66; also the fields with init=False of the class, 232-268 (and converted_to_rust). *)
Definition keys_to_remove : list string := [
  "large_baseline_eff"; "small_baseline_eff"; "large_motor_power_kw"; "small_motor_power_kw"; "charging_on"; "no_elec_sys";
  "no_elec_aux"; "max_roadway_chg_kw"; "input_kw_out_array"; "fc_kw_out_array"; "fc_eff_array"; "modern_max"; "mc_eff_array";
  "mc_kw_in_array"; "mc_kw_out_array"; "mc_max_elec_in_kw"; "mc_full_eff_array"; "veh_kg"; "max_trac_mps2"; "ess_mass_kg"; "mc_mass_kg";
  "fc_mass_kg"; "fs_mass_kg"; "fc_perc_out_array"; "mc_perc_out_array"; "converted_to_rust"]%string.
(** vehicle.py:366-511 (k in ...) *)
Definition mem (k : string) (l : list string) : bool := existsb (String.eqb k) l.

(** VEH_PT_TYPES and FC_EFF_TYPES, vehicle.py:88-101. *)
Definition pt_text (t : pt_type) : string := match t with CONV => "Conv" | HEV => "HEV" | PHEV => "PHEV" | BEV => "BEV" end.
(** vehicle.py:89-94 *)
Definition pt_of (s : string) : option pt_type :=
  if String.eqb s "Conv" then Some CONV else if String.eqb s "HEV" then Some HEV else if String.eqb s "PHEV" then Some PHEV
  else if String.eqb s "BEV" then Some BEV else None.
(** vehicle.py:96-101 *)
Definition fc_of (s : string) : fc_type :=
  if String.eqb s "SI" then SI else if String.eqb s "Atkinson" then ATKINSON else if String.eqb s "Diesel" then DIESEL
  else if String.eqb s "H2FC" then H2FC else if String.eqb s "HD_Diesel" then HD_DIESEL else FC_OTHER.
(** vehicle.py:74-84 *)
Definition template_name : string := "Template Vehicle for setting up data types".

(** re.match(r'\d{4}', text), for ASCII digits. vehicle.py:366-511. *)
Definition digit (c : ascii) : option Z :=
  let n := Z.of_nat (nat_of_ascii c) in if ((48 <=? n) && (n <=? 57))%Z%bool then Some (n - 48)%Z else None.
(** vehicle.py:366-511 *)
Definition leading_year (s : string) : option Z :=
  match s with
  | String a (String b (String c (String d _))) =>
      match digit a, digit b, digit c, digit d with
      | Some a, Some b, Some c, Some d => Some (1000 * a + 100 * b + 10 * c + d)%Z
      | _, _, _, _ => None
      end
  | _ => None
  end.
(** Substring search, ignoring the case of ASCII letters: re.search('(?i)true', data). vehicle.py:106-142. *)
Definition lower (c : ascii) : ascii :=
  let n := nat_of_ascii c in if (Nat.leb 65 n && Nat.leb n 90)%bool then ascii_of_nat (n + 32) else c.
(** vehicle.py:106-142 *)
Fixpoint starts (p s : string) : bool :=
  match p, s with
  | EmptyString, _ => true
  | String a p, String b s => (Ascii.eqb a (lower b) && starts p s)%bool
  | _, _ => false
  end.
(** vehicle.py:106-142 *)
Fixpoint contains (p s : string) : bool := (starts p s || match s with EmptyString => false | String _ s => contains p s end)%bool.
(** vehicle.py:106-142 *)
Fixpoint without (c : ascii) (s : string) : string :=
  match s with EmptyString => EmptyString | String b r => if Ascii.eqb c b then without c r else String b (without c r) end.

Section Dict.
  Context {F : Type} {N : Num F}.
  Local Open Scope num_scope.
  Variable T : texts F.

  (** vehicle.py:366-511 *)
  Fixpoint pget (d : pydict F) (k : string) : option (pyval F) :=
    match d with [] => None | (k', w) :: r => if String.eqb k' k then Some w else pget r k end.
  (** vehicle.py:366-511 (d[k] = v) *)
  Fixpoint pset (d : pydict F) (k : string) (v : pyval F) : pydict F :=
    match d with [] => [(k, v)] | (k', w) :: r => if String.eqb k' k then (k, v) :: r else (k', w) :: pset r k v end.
  (** d[k]; vehicle.py:366-511 *)
  Definition pitem (d : pydict F) (k : string) : Res (pyval F) := match pget d k with Some v => Ok v | None => Err KeyError end.

  (** vehicle.py:106-141, of the text of a cell. *)
  Definition clean_text (data : string) : pyval F :=
    if contains "%" data then
      match to_float T (without "%" data) with Some x => VNum (x / nofZ 100) | None => VStr data end
    else if contains "true" data then VBool true
    else if contains "false" data then VBool false
    else match to_float T data with Some x => VNum x | None => VStr data end.
  (** vehicle.py:106-142 *)
  Definition as_text (v : pyval F) : string := match v with VStr s => s | _ => show T v end.
  (** vehicle.py:106-142 *)
  Definition clean_data (raw : pyval F) : pyval F := clean_text (as_text raw).

  (** vehicle.py:366-511 *)
  Definition is_nan (x : F) : bool := negb (x =? x).
  (** np.isnan(value), as a condition. vehicle.py:366-511. *)
  Definition np_isnan (v : pyval F) : Res bool :=
    match v with VNum x => Ok (is_nan x) | VInt _ | VBool _ => Ok false | _ => Err TypeError end.
  (** Truncation of int(x) and np.int32(x). *)
  Definition trunc (x : F) : Z := if x <? n0 then nceil x else nfloor x.
  (** vehicle.py:366-511 *)
  Definition to_Z (v : pyval F) : Res Z :=
    match v with
    | VInt k => Ok k
    | VBool b => Ok (if b then 1%Z else 0%Z)
    | VNum x => if is_nan x then Err ValueError else Ok (trunc x)
    | VStr s => match to_int T s with Some k => Ok k | None => Err ValueError end
    | _ => Err TypeError
    end.
  (** np.float64(value); of None it is nan. *)
  Definition to_F (v : pyval F) : Res F :=
    match v with
    | VNum x => Ok x
    | VInt k => Ok (nofZ k)
    | VBool b => Ok (if b then n1 else n0)
    | VStr s => match to_float T s with Some x => Ok x | None => Err ValueError end
    | VNone => Ok (n0 / n0)
    | _ => Err TypeError
    end.
  (** bool(value); vehicle.py:366-511 *)
  Definition truthy (v : pyval F) : Res bool :=
    match v with
    | VBool b => Ok b
    | VNum x => Ok (negb (x =? n0))
    | VInt k => Ok (negb (k =? 0)%Z)
    | VStr s => Ok (negb (String.eqb s ""))
    | VNone => Ok false
    | VList l => Ok (match l with [] => false | _ => true end)
    | VArr l => match l with [x] => Ok (negb (x =? n0)) | [] => Ok false | _ => Err ValueError end
    | VProps _ _ _ => Ok true
    end.
  (** keys_and_types[key](value); np.array leaves single numbers single numbers. vehicle.py:366-511. *)
  Definition convert (t : ty) (v : pyval F) : Res (pyval F) :=
    match t with
    | TStr => Ok (VStr (as_text v))
    | TInt => do k <- to_Z v; Ok (VInt k)
    | TFloat => do x <- to_F v; Ok (VNum x)
    | TArr => Ok (match v with VList l => VArr l | _ => v end)
    | TBool => do b <- truthy v; Ok (VBool b)
    | TProps => Err TypeError
    end.
  (** np.array(ast.literal_eval(value)): only texts can be read. vehicle.py:366-511. *)
  Definition read_literal (v : option (pyval F)) : option (literal F) :=
    match v with
    | Some (VStr s) => match to_literal T s with NotLiteral => None | l => Some l end
    | _ => None
    end.
  (** vehicle.py:366-511 *)
  Definition from_literal (l : literal F) : pyval F := match l with Items l => VArr l | Scalar x => VNum x | NotLiteral => VNone end.
  (** len(value); vehicle.py:366-511 *)
  Definition plen (v : pyval F) : Res nat := match v with VArr l | VList l => Ok (length l) | VStr s => Ok (String.length s) | _ => Err TypeError end.
  (** vehicle.py:391-407 *)
  Definition default_fc_map (s : string) : Res (list F) :=
    match fc_of s with
    | SI => Ok fc_eff_map_si | ATKINSON => Ok fc_eff_map_atk | DIESEL => Ok fc_eff_map_diesel
    | H2FC => Ok fc_eff_map_fuel_cell | HD_DIESEL => Ok fc_eff_map_hd_diesel | FC_OTHER => Err AssertionError
    end.
  (** A peak efficiency override is dropped unless it is a number between 0 and 1, 482-499. *)
  Definition clean_override (d : pydict F) (k : string) : pydict F :=
    match pget d k with
    | None => d
    | Some v => pset d k (match to_F v with
                          | Ok x => if ((n0 <? x) && (x <? n1))%bool then VNum x else VNone
                          | Err _ => VNone
                          end)
    end.
  (** The maps, 378-451. *)
  Definition fill_maps (d : pydict F) : Res (pydict F) :=
    do t <- pitem d "fc_eff_type";
    let d := pset d "fc_eff_type" (VStr (as_text t)) in
    do d <- match read_literal (pget d "fc_eff_map") with
            | Some l => Ok (pset d "fc_eff_map" (from_literal l))
            | None => do _ <- pitem d "fc_eff_map";        (* named in the warning text *)
                      do m <- default_fc_map (as_text t); Ok (pset d "fc_eff_map" (VArr m))
            end;
    let d := pset d "fc_pwr_out_perc" (match read_literal (pget d "fc_pwr_out_perc") with
                                       | Some l => from_literal l | None => VArr fc_pwr_out_perc_default end) in
    do m <- pitem d "fc_eff_map"; do n <- plen m;
    do p <- pitem d "fc_pwr_out_perc"; do q <- plen p;
    do _ <- assertR (Nat.eqb q n);
    let d := pset d "mc_pwr_out_perc" (match read_literal (pget d "mc_pwr_out_perc") with
                                       | Some l => from_literal l | None => VArr mc_pwr_out_perc_default end) in
    do p <- pitem d "mc_pwr_out_perc"; do q <- plen p;
    do _ <- assertR (Nat.eqb q 11);
    Ok (pset d "mc_eff_map" (match read_literal (pget d "mc_eff_map") with
                             | Some (Items l) => VArr l       (* the length that is checked is that of mc_pwr_out_perc *)
                             | _ => VNone
                             end)).
  (** 453-480 *)
  Definition fill_rest (d : pydict F) : Res (pydict F) :=
    do d <- match pget d "stop_start" with
            | Some v => do b <- np_isnan v; Ok (if b then pset d "stop_start" (VBool false) else d)
            | None => Ok d
            end;
    do d <- match pget d "veh_override_kg" with
            | None | Some VNone => Ok (pset d "veh_override_kg" VNone)
            | Some v => do b <- np_isnan v; Ok (if b then pset d "veh_override_kg" VNone else d)
            end;
    do missing <- match pget d "veh_year" with None => Ok true | Some v => np_isnan v end;
    do d <- (if (missing : bool) then
               do s <- pitem d "scenario_name";
               Ok (pset d "veh_year" (VInt (match leading_year (as_text s) with Some y => y | None => 0%Z end)))
             else Ok d);
    do y <- pitem d "veh_year"; do y <- to_Z y;
    let d := pset d "veh_year" (VInt y) in
    do p <- pitem d "veh_pt_type";
    do _ <- assertR (match p with VStr s => match pt_of s with Some _ => true | None => false end | _ => false end);
    Ok (clean_override (clean_override d "fc_peak_eff_override") "mc_peak_eff_override").
  (** 501-508 *)
  Fixpoint convert_all (d : pydict F) : Res (pydict F) :=
    match d with
    | [] => Ok []
    | (k, v) :: r =>
        do v' <- (if String.eqb k "props" then Ok v
                  else if (mem k ["veh_override_kg"; "mc_eff_map"; "fc_peak_eff_override"; "mc_peak_eff_override"]%string
                           && match v with VNone => true | _ => false end)%bool then Ok v
                  else match find (fun e => String.eqb (fst e) k) keys_and_types with
                       | Some (_, t) => convert t v
                       | None => Err KeyError
                       end);
        do r' <- convert_all r;
        Ok ((k, v') :: r')
    end.

  (** Constructor arguments, 151-268: TypeError for a missing or unknown one. *)
  Definition gF (d : pydict F) (k : string) : Res F := match pget d k with Some (VNum x) => Ok x | _ => Err TypeError end.
  (** vehicle.py:145-274 (fields) *)
  Definition gZ (d : pydict F) (k : string) : Res Z := match pget d k with Some (VInt x) => Ok x | _ => Err TypeError end.
  (** vehicle.py:145-274 (fields) *)
  Definition gB (d : pydict F) (k : string) : Res bool := match pget d k with Some (VBool x) => Ok x | _ => Err TypeError end.
  (** vehicle.py:145-274 (fields) *)
  Definition gS (d : pydict F) (k : string) : Res string := match pget d k with Some (VStr x) => Ok x | _ => Err TypeError end.
  (** vehicle.py:145-274 (fields) *)
  Definition gA (d : pydict F) (k : string) : Res (list F) := match pget d k with Some (VArr x) => Ok x | _ => Err TypeError end.
  (** vehicle.py:145-274 (fields) *)
  Definition gOF (d : pydict F) (k : string) : Res (option F) :=
    match pget d k with Some (VNum x) => Ok (Some x) | Some VNone | None => Ok None | _ => Err TypeError end.
  (** vehicle.py:145-274 (fields) *)
  Definition gOA (d : pydict F) (k : string) : Res (option (list F)) :=
    match pget d k with Some (VArr x) => Ok (Some x) | Some VNone => Ok None | _ => Err TypeError end.
  (** vehicle.py:145-274 (fields) *)
  Fixpoint gFs (d : pydict F) (ks : list string) : Res (list F) :=
    match ks with [] => Ok [] | k :: r => do x <- gF d k; do xs <- gFs d r; Ok (x :: xs) end.
  (** The default of props is one object made with the class, parameters.py:43-50; regen_a, regen_b: parameters.py:140-141. *)
  Definition gP (d : pydict F) : Res (physprops F * F * F) :=
    match pget d "props" with
    | None => Ok (mkprops (lit 12 10) (lit 981 100) (lit 337 10), lit 75 100, lit 147 10)
    | Some (VProps p rho afr) => Ok (p, rho, afr)
    | _ => Err AttributeError
    end.
  (** vehicle.py:145-274 (fields with defaults) *)
  Definition gD (d : pydict F) (k : string) (x : F) : Res F := match pget d k with None => Ok x | _ => gF d k end.
  (** vehicle.py:145-274, 366-511 (construction from the dict) *)
  Definition construct (d : pydict F) : Res (pyveh F) :=
    do _ <- (if existsb (fun e => mem (fst e) keys_to_remove) d then Err TypeError else Ok tt);
    do name <- gS d "scenario_name"; do sel <- gZ d "selection"; do year <- gZ d "veh_year";
    do pts <- gS d "veh_pt_type"; do pt <- match pt_of pts with Some p => Ok p | None => Err TypeError end;
    do a1 <- gF d "drag_coef"; do a2 <- gF d "frontal_area_m2"; do a3 <- gF d "glider_kg"; do a4 <- gF d "veh_cg_m";
    do a5 <- gF d "drive_axle_weight_frac"; do a6 <- gF d "wheel_base_m"; do a7 <- gF d "cargo_kg"; do a8 <- gOF d "veh_override_kg";
    do a9 <- gF d "comp_mass_multiplier"; do b1 <- gF d "fs_max_kw"; do b2 <- gF d "fs_secs_to_peak_pwr"; do b3 <- gF d "fs_kwh";
    do b4 <- gF d "fs_kwh_per_kg"; do b5 <- gF d "fc_max_kw"; do b6 <- gA d "fc_pwr_out_perc"; do b7 <- gA d "fc_eff_map";
    do b8 <- gS d "fc_eff_type"; do b9 <- gF d "fc_sec_to_peak_pwr"; do c1 <- gF d "fc_base_kg"; do c2 <- gF d "fc_kw_per_kg";
    do c3 <- gF d "min_fc_time_on"; do c4 <- gF d "idle_fc_kw"; do c5 <- gF d "mc_max_kw"; do c6 <- gA d "mc_pwr_out_perc";
    do c7 <- gOA d "mc_eff_map"; do c8 <- gF d "mc_sec_to_peak_pwr"; do c9 <- gF d "mc_pe_kg_per_kw"; do d1 <- gF d "mc_pe_base_kg";
    do d2 <- gF d "ess_max_kw"; do d3 <- gF d "ess_max_kwh"; do d4 <- gF d "ess_kg_per_kwh"; do d5 <- gF d "ess_base_kg";
    do d6 <- gF d "ess_round_trip_eff"; do d7 <- gF d "ess_life_coef_a"; do d8 <- gF d "ess_life_coef_b"; do d9 <- gF d "min_soc";
    do e1 <- gF d "max_soc"; do e2 <- gF d "ess_dischg_to_fc_max_eff_perc"; do e3 <- gF d "ess_chg_to_fc_max_eff_perc";
    do e4 <- gF d "wheel_inertia_kg_m2"; do e5 <- gZ d "num_wheels"; do e6 <- gF d "wheel_rr_coef"; do e7 <- gF d "wheel_radius_m";
    do e8 <- gF d "wheel_coef_of_fric"; do e9 <- gF d "max_accel_buffer_mph"; do f1 <- gF d "max_accel_buffer_perc_of_useable_soc";
    do f2 <- gF d "perc_high_acc_buf"; do f3 <- gF d "mph_fc_on"; do f4 <- gF d "kw_demand_fc_on"; do f5 <- gF d "max_regen";
    do f6 <- gB d "stop_start"; do f7 <- gB d "force_aux_on_fc"; do f8 <- gF d "alt_eff"; do f9 <- gF d "chg_eff"; do g1 <- gF d "aux_kw";
    do g2 <- gF d "trans_kg"; do g3 <- gF d "trans_eff"; do g4 <- gF d "ess_to_fuel_ok_error";
    do vals <- gFs d val_keys;
    do g5 <- gOF d "fc_peak_eff_override"; do g6 <- gOF d "mc_peak_eff_override";
    do ra <- gD d "regen_a" (nofZ 500); do rb <- gD d "regen_b" (lit 99 100);
    do pr <- gP d;
    Ok (mkpv
      {| is_template := String.eqb name template_name; veh_pt_type := pt; drag_coef := a1; frontal_area_m2 := a2; glider_kg := a3; veh_cg_m := a4;
         drive_axle_weight_frac := a5; wheel_base_m := a6; cargo_kg := a7; veh_override_kg := a8; comp_mass_multiplier := a9;
         fs_max_kw := b1; fs_secs_to_peak_pwr := b2; fs_kwh := b3; fs_kwh_per_kg := b4; fc_max_kw := b5; fc_pwr_out_perc := b6; fc_eff_map := b7;
         fc_eff_type := fc_of b8; fc_sec_to_peak_pwr := b9; fc_base_kg := c1; fc_kw_per_kg := c2; min_fc_time_on := c3; idle_fc_kw := c4;
         mc_max_kw := c5; mc_pwr_out_perc := c6; mc_eff_map := c7; mc_sec_to_peak_pwr := c8; mc_pe_kg_per_kw := c9; mc_pe_base_kg := d1;
         ess_max_kw := d2; ess_max_kwh := d3; ess_kg_per_kwh := d4; ess_base_kg := d5; ess_round_trip_eff := d6; ess_life_coef_a := d7;
         ess_life_coef_b := d8; min_soc := d9; max_soc := e1; ess_dischg_to_fc_max_eff_perc := e2; ess_chg_to_fc_max_eff_perc := e3;
         wheel_inertia_kg_m2 := e4; num_wheels := nofZ e5; wheel_rr_coef := e6; wheel_radius_m := e7; wheel_coef_of_fric := e8;
         max_accel_buffer_mph := e9; max_accel_buffer_perc_of_useable_soc := f1; perc_high_acc_buf := f2; mph_fc_on := f3;
         kw_demand_fc_on := f4; max_regen := f5; stop_start := f6; force_aux_on_fc := f7; alt_eff := f8; chg_eff := f9; aux_kw := g1;
         trans_kg := g2; trans_eff := g3; ess_to_fuel_ok_error := g4; fc_peak_eff_override := g5; mc_peak_eff_override := g6;
         regen_a := ra; regen_b := rb; veh_props := fst (fst pr);
         (* not set before set_derived *)
         charging_on := false; no_elec_sys := false; no_elec_aux := false; input_kw_out_array := []; fc_kw_out_array := []; fc_eff_array := [];
         mc_eff_array := []; mc_kw_in_array := []; mc_kw_out_array := []; mc_max_elec_in_kw := n0; mc_full_eff_array := [];
         veh_kg := n0; max_trac_mps2 := n0; ess_mass_kg := n0; mc_mass_kg := n0; fc_mass_kg := n0; fs_mass_kg := n0 |}
      name sel year b8 e5 vals (snd (fst pr)) (snd pr)).
  (** vehicle.py:526-630 *)
  Definition with_core (v : pyveh F) (c : vehicle F) : pyveh F :=
    mkpv c (pv_scenario v) (pv_selection v) (pv_year v) (pv_type v) (pv_wheels v) (pv_vals v) (pv_rho v) (pv_afr v).
  (** vehicle.py:513-630 *)
  Definition py_set_derived (v : pyveh F) : Res (pyveh F) := do c <- set_derived (pv_core v); Ok (with_core v c).
  (** The dict that was passed is changed: it is returned too. vehicle.py:366-511. *)
  Definition from_dict (d : pydict F) : Res (pydict F * pyveh F) :=
    do d <- fill_maps d;
    do d <- fill_rest d;
    do d <- convert_all d;
    do v <- construct d;
    do v <- py_set_derived v;
    Ok (d, v).

  (** The attributes that copy_vehicle reads, in its order, 806-836. *)
  Definition opt_num (o : option F) : pyval F := match o with Some x => VNum x | None => VNone end.
  (** vehicle.py:782-913 *)
  Definition opt_list (o : option (list F)) : pyval F := match o with Some l => VList l | None => VNone end.
  (** vehicle.py:782-913 *)
  Definition copy_dict (v : pyveh F) : pydict F :=
    let c := pv_core v in
    [("scenario_name", VStr (pv_scenario v)); ("selection", VInt (pv_selection v)); ("veh_year", VInt (pv_year v));
     ("veh_pt_type", VStr (pt_text (veh_pt_type c))); ("drag_coef", VNum (drag_coef c)); ("frontal_area_m2", VNum (frontal_area_m2 c));
     ("glider_kg", VNum (glider_kg c)); ("veh_cg_m", VNum (veh_cg_m c)); ("drive_axle_weight_frac", VNum (drive_axle_weight_frac c));
     ("wheel_base_m", VNum (wheel_base_m c)); ("cargo_kg", VNum (cargo_kg c)); ("veh_override_kg", opt_num (veh_override_kg c));
     ("comp_mass_multiplier", VNum (comp_mass_multiplier c)); ("fs_max_kw", VNum (fs_max_kw c));
     ("fs_secs_to_peak_pwr", VNum (fs_secs_to_peak_pwr c)); ("fs_kwh", VNum (fs_kwh c)); ("fs_kwh_per_kg", VNum (fs_kwh_per_kg c));
     ("fc_max_kw", VNum (fc_max_kw c)); ("fc_pwr_out_perc", VList (fc_pwr_out_perc c)); ("fc_eff_map", VList (fc_eff_map c));
     ("fc_eff_type", VStr (pv_type v)); ("fc_sec_to_peak_pwr", VNum (fc_sec_to_peak_pwr c)); ("fc_base_kg", VNum (fc_base_kg c));
     ("fc_kw_per_kg", VNum (fc_kw_per_kg c)); ("min_fc_time_on", VNum (min_fc_time_on c)); ("idle_fc_kw", VNum (idle_fc_kw c));
     ("mc_max_kw", VNum (mc_max_kw c)); ("mc_pwr_out_perc", VList (mc_pwr_out_perc c)); ("mc_eff_map", opt_list (mc_eff_map c));
     ("mc_sec_to_peak_pwr", VNum (mc_sec_to_peak_pwr c)); ("mc_pe_kg_per_kw", VNum (mc_pe_kg_per_kw c));
     ("mc_pe_base_kg", VNum (mc_pe_base_kg c)); ("ess_max_kw", VNum (ess_max_kw c)); ("ess_max_kwh", VNum (ess_max_kwh c));
     ("ess_kg_per_kwh", VNum (ess_kg_per_kwh c)); ("ess_base_kg", VNum (ess_base_kg c)); ("ess_round_trip_eff", VNum (ess_round_trip_eff c));
     ("ess_life_coef_a", VNum (ess_life_coef_a c)); ("ess_life_coef_b", VNum (ess_life_coef_b c)); ("min_soc", VNum (min_soc c));
     ("max_soc", VNum (max_soc c)); ("ess_dischg_to_fc_max_eff_perc", VNum (ess_dischg_to_fc_max_eff_perc c));
     ("ess_chg_to_fc_max_eff_perc", VNum (ess_chg_to_fc_max_eff_perc c)); ("wheel_inertia_kg_m2", VNum (wheel_inertia_kg_m2 c));
     ("num_wheels", VInt (pv_wheels v)); ("wheel_rr_coef", VNum (wheel_rr_coef c)); ("wheel_radius_m", VNum (wheel_radius_m c));
     ("wheel_coef_of_fric", VNum (wheel_coef_of_fric c)); ("max_accel_buffer_mph", VNum (max_accel_buffer_mph c));
     ("max_accel_buffer_perc_of_useable_soc", VNum (max_accel_buffer_perc_of_useable_soc c));
     ("perc_high_acc_buf", VNum (perc_high_acc_buf c)); ("mph_fc_on", VNum (mph_fc_on c)); ("kw_demand_fc_on", VNum (kw_demand_fc_on c));
     ("max_regen", VNum (max_regen c)); ("stop_start", VBool (stop_start c)); ("force_aux_on_fc", VBool (force_aux_on_fc c));
     ("alt_eff", VNum (alt_eff c)); ("chg_eff", VNum (chg_eff c)); ("aux_kw", VNum (aux_kw c)); ("trans_kg", VNum (trans_kg c));
     ("trans_eff", VNum (trans_eff c)); ("ess_to_fuel_ok_error", VNum (ess_to_fuel_ok_error c))]%string
    ++ map (fun e => (fst e, VNum (snd e))) (combine val_keys (pv_vals v)) ++
    [("props", VProps (veh_props c) (pv_rho v) (pv_afr v)); ("regen_a", VNum (regen_a c)); ("regen_b", VNum (regen_b c));
     ("fc_peak_eff_override", opt_num (fc_peak_eff_override c)); ("mc_peak_eff_override", opt_num (mc_peak_eff_override c))]%string.
  (** copy_vehicle(veh), 782-845. *)
  Definition copy_vehicle (v : pyveh F) : Res (pyveh F) := do r <- from_dict (copy_dict v); py_set_derived (snd r).

  (** veh_equal, 916-964.  An entry of one vehicle against that of the other: do they differ? *)
  Definition tol : F := lit 1 1000000.
  (** vehicle.py:916-961 *)
  Definition num_ne (x y : F) : bool := (negb (x =? y) && negb (is_nan x && is_nan y))%bool.
  (** (np.abs(np.array(a) - np.array(b)) > TOL).any(); vehicle.py:916-961 *)
  Definition list_ne (a b : list F) : Res bool :=
    let far x y := nabs (x - y) >? tol in
    if Nat.eqb (length a) (length b) then Ok (existsb (fun b => b) (zipw far a b))
    else match a, b with
         | _, [y] => Ok (existsb (fun x => far x y) a)
         | [x], _ => Ok (existsb (fun y => far x y) b)
         | _, _ => Err ValueError
         end.
  (** parameters.py:110-117 *)
  Definition props_ne (p q : physprops F) (rho afr rho' afr' : F) : bool :=
    negb ((air_density_kg_per_m3 p =? air_density_kg_per_m3 q) && (a_grav_mps2 p =? a_grav_mps2 q) && (kwh_per_gge p =? kwh_per_gge q)
          && (rho =? rho') && (afr =? afr'))%bool.
  (** vehicle.py:916-961 *)
  Definition override_ne (a b : pyval F) : bool :=
    match a, b with
    | VNone, VNone => false
    | VNone, VNum y => negb (y =? n0)
    | VNum x, VNone => negb (x =? n0)
    | VNum x, VNum y => negb (x =? y)
    | _, _ => true
    end.
  (** vehicle.py:916-961 *)
  Definition entry_ne (k : string) (a b : pyval F) : Res bool :=
    if String.eqb k "veh_override_kg" then Ok (override_ne a b)
    else match a, b with
         | VProps p r f, VProps q r' f' => Ok (props_ne p q r f r' f')
         | VList l, VList m => list_ne l m
         | VNum x, VNum y => Ok (num_ne x y)
         | VInt x, VInt y => Ok (negb (x =? y)%Z)
         | VStr x, VStr y => Ok (negb (String.eqb x y))
         | VBool x, VBool y => Ok (negb (Bool.eqb x y))
         | VNone, VNone => Ok false
         | VList _, _ => Err TypeError       (* a list minus None *)
         | _, _ => Ok true
         end.
  (** vehicle.py:916-961 *)
  Fixpoint eq_loop (d1 d2 : pydict F) : Res bool :=
    match d1 with
    | [] => Ok true
    | (k, a) :: r =>
        do b <- pitem d2 k;
        do ne <- entry_ne k a b;
        if (ne && negb (String.eqb k "veh_override_kg"))%bool then Ok false else eq_loop r d2
    end.
  (** vehicle.py:916-961 *)
  Definition veh_equal (v w : pyveh F) : Res bool := eq_loop (copy_dict v) (copy_dict w).
  (** With full_out=True: the keys that differ. vehicle.py:916-961. *)
  Fixpoint diff_loop (d1 d2 : pydict F) : Res (list string) :=
    match d1 with
    | [] => Ok []
    | (k, a) :: r =>
        do b <- pitem d2 k;
        do ne <- entry_ne k a b;
        do rest <- diff_loop r d2;
        Ok (if (ne : bool) then k :: rest else rest)
    end.
  (** vehicle.py:916-961 *)
  Definition veh_differences (v w : pyveh F) : Res (list string) := diff_loop (copy_dict v) (copy_dict w).
End Dict.
