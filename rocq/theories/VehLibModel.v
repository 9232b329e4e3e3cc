(** Model of the vehicle library side of python/fastsim/vehicle.py: Vehicle.from_vehdb (274-289), Vehicle.from_file (291-326),
    the table of Vehicle.from_df (328-364), LegacyVehicle (750-760) and copy_vehicle with return type 'legacy' (782-846).
    Definitions only.  Not modelled: reading csv files, the search for the file, pandas' column types (every cell is a Python
    value of its own), and tables in which a heading or a vehicle number occurs twice. *)
From Verif Require Import Num Numpy VehModel VehDictModel VehTableModel.

(** A pandas data frame: headings and rows of cells. vehicle.py:274-289 *)
Record table (F : Type) := mktable { t_cols : list string; t_rows : list (list (pyval F)) }.
Arguments mktable {F}. Arguments t_cols {F}. Arguments t_rows {F}.

Section Lib.
  Context {F : Type} {N : Num F} (T : texts F).
  Local Open Scope num_scope.
  (** One row with its headings, as a list of cells. vehicle.py:344 (vehdf.loc[vnum]) *)
  Definition row_of (cols : list string) (cells : list (pyval F)) : pydict F := combine cols cells.
  (** The label that set_index('selection') gives to a row. vehicle.py:287, 322 *)
  Definition label (cols : list string) (cells : list (pyval F)) : pyval F :=
    match pget (row_of cols cells) "selection" with Some v => v | None => VNone end.
  (** vehdf.loc[vnum] finds a row by its label; whole numbers are found as such or as floats. vehicle.py:344 *)
  Definition label_is (vnum : Z) (v : pyval F) : bool :=
    match v with VInt k => (k =? vnum)%Z | VNum x => x =? nofZ vnum | _ => false end.
  (** vehicle.py:344 *)
  Definition chosen (cols : list string) (vnum : Z) (cells : list (pyval F)) : bool := label_is vnum (label cols cells).
  (** The row is overwritten by its cleaned cells, vehicle.py:344. *)
  Definition clean_row (t : table F) (vnum : Z) : table F :=
    mktable (t_cols t) (map (fun cells => if chosen (t_cols t) vnum cells then map (clean_data T) cells else cells) (t_rows t)).
  (** The dict made of the overwritten row, vehicle.py:346-352. *)
  Definition keyed (row : pydict F) : pydict F := fold_left (fun d e => pset d (column_key (fst e)) (snd e)) row [].
  (** set_index and from_df, vehicle.py:287-289, 328-364: the outcome and the table afterwards. *)
  Definition load (t : table F) (vnum : Z) : Res (pydict F * pyveh F) * table F :=
    if negb (mem "selection" (t_cols t)) then (Err KeyError, t)
    else if negb (forallb accepted (t_cols t)) then (Err AssertionError, t)
    else match find (chosen (t_cols t) vnum) (t_rows t) with
         | None => (Err KeyError, t)
         | Some cells => (from_dict T (keyed (row_of (t_cols t) (map (clean_data T) cells))), clean_row t vnum)
         end.
  (** from_vehdb works on one table for the whole process (DEFAULT_VEHDF), vehicle.py:283-289: the table after some loads. *)
  Definition after_loads (t : table F) (vnums : list Z) : table F := fold_left (fun t n => snd (load t n)) vnums t.

  (** from_file without a vehicle number, 309-320: the lines of the file, heading and value (columns 'Param Name' and
      'Param Value'), become one row with the number 0. *)
  Definition single_row (lines : pydict F) : pydict F := pset lines "selection" (VNum n0).
  (** vehicle.py:291-326 *)
  Definition from_file (lines : pydict F) : Res (pydict F * pyveh F) :=
    fst (load (mktable (map fst (single_row lines)) [map snd (single_row lines)]) 0).

  (** The attributes of a Vehicle object, vehicle.py:151-268 and set_derived 526-678. *)
  Definition object_attrs (v : pyveh F) : pydict F :=
    let c := pv_core v in
    map (fun e => (fst e, match snd e with VList l => VArr l | w => w end)) (copy_dict v) ++
    [("large_baseline_eff", VArr large_baseline_eff); ("small_baseline_eff", VArr small_baseline_eff);
     ("small_motor_power_kw", VNum (lit 75 10)); ("large_motor_power_kw", VNum (nofZ 75));
     ("fc_perc_out_array", VArr fc_perc_out_array); ("mc_perc_out_array", VArr mc_perc_out_array);
     ("max_roadway_chg_kw", VArr (repeat n0 6)); ("charging_on", VBool (charging_on c)); ("no_elec_sys", VBool (no_elec_sys c));
     ("no_elec_aux", VBool (no_elec_aux c)); ("input_kw_out_array", VArr (input_kw_out_array c));
     ("fc_kw_out_array", VArr (fc_kw_out_array c)); ("fc_eff_array", VArr (fc_eff_array c)); ("modern_max", VNum modern_max);
     ("mc_eff_array", VArr (mc_eff_array c)); ("mc_kw_in_array", VArr (mc_kw_in_array c)); ("mc_kw_out_array", VArr (mc_kw_out_array c));
     ("mc_max_elec_in_kw", VNum (mc_max_elec_in_kw c)); ("mc_full_eff_array", VArr (mc_full_eff_array c)); ("veh_kg", VNum (veh_kg c));
     ("max_trac_mps2", VNum (max_trac_mps2 c)); ("ess_mass_kg", VNum (ess_mass_kg c)); ("mc_mass_kg", VNum (mc_mass_kg c));
     ("fc_mass_kg", VNum (fc_mass_kg c)); ("fs_mass_kg", VNum (fs_mass_kg c))]%string.
  (** LegacyVehicle.__init__, 755-760: the attributes of the new object; [attrs] are those of the argument. *)
  Fixpoint legacy_loop (attrs acc : pydict F) (names : list (string * string)) : Res (pydict F) :=
    match names with
    | [] => Ok acc
    | (new, old) :: r => match pget attrs new with Some v => legacy_loop attrs (pset acc old v) r | None => Err AttributeError end
    end.
  (** vehicle.py:750-760 *)
  Definition LegacyVehicle (attrs : pydict F) : Res (pydict F) := legacy_loop attrs [] new_to_old.
  (** Attribute look-up on a dict finds only methods: [dict_methods] with their values left out. vehicle.py:845-846 *)
  Definition dict_methods : pydict F := map (fun k => (k, VNone))
    ["clear"; "copy"; "fromkeys"; "get"; "items"; "keys"; "pop"; "popitem"; "setdefault"; "update"; "values"]%string.
  (** copy_vehicle(veh, 'legacy'), 782-846: LegacyVehicle is given the dict. *)
  Definition copy_legacy (v : pyveh F) : Res (pydict F) := LegacyVehicle dict_methods.
  (** The loop at the start of copy_vehicle asks the object for its attributes under their new names, 806-812. *)
  Fixpoint copy_reads (attrs : pydict F) (keys : list string) : Res unit :=
    match keys with
    | [] => Ok tt
    | k :: r => if mem k keys_to_remove then copy_reads attrs r
                else match pget attrs k with Some _ => copy_reads attrs r | None => Err AttributeError end
    end.
End Lib.
