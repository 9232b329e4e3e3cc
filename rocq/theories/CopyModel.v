(** Model of the settings object SimDriveParams as a Python object (simdrive.py:26-105), copy_sim_params (108-141) and
    sim_params_equal (144-172) for Python objects, copy_sim_drive (2309-2370, default arguments) and sim_drive_equal
    (2373-2415) for Python objects.  Definitions only.
    Not modelled: the Rust return types, deep=False, logging, attributes added by post-processing. *)
From Verif Require Import Num Numpy CycleModel VehModel SimModel SimState WalkModel UtilModel VehDictModel.

(** The values of settings: flags, floats, integers, and the table idm_v_desired_in_m_per_s_by_distance_m. *)
(** simdrive.py:45-95 *)
Inductive sval (F : Type) := SB (b : bool) | SN (x : F) | SI (n : nat) | ST (t : option (list (F * F))).
Arguments SB {F}. Arguments SN {F}. Arguments SI {F}. Arguments ST {F}.
(** The attribute dict of an object. simdrive.py:45-95 (__dict__). *)
Definition attrs (F : Type) : Type := list (string * sval F).

Section Settings.
  Context {F : Type} {N : Num F}.
  Local Open Scope num_scope.

  (** simdrive.py:131-136 (__getattribute__) *)
  Fixpoint aget (o : attrs F) (k : string) : option (sval F) :=
    match o with [] => None | (k', v) :: r => if String.eqb k' k then Some v else aget r k end.
  (** __setattr__: an attribute that does not exist is created. simdrive.py:38-43 (__setattr__). *)
  Fixpoint aset (o : attrs F) (k : string) (v : sval F) : attrs F :=
    match o with [] => [(k, v)] | (k', v') :: r => if String.eqb k' k then (k', v) :: r else (k', v') :: aset r k v end.
  (** The attributes of an object holding the given settings, SimDriveParams.__init__, simdrive.py:45-96. *)
  Definition settings (p : simparams F) : attrs F := [
    ("favor_grade_accuracy", SB (favor_grade_accuracy p)); ("missed_trace_correction", SB (missed_trace_correction p));
    ("max_time_dilation", SN (max_time_dilation p)); ("min_time_dilation", SN (min_time_dilation p));
    ("time_dilation_tol", SN (time_dilation_tol p)); ("max_trace_miss_iters", SI (max_trace_miss_iters p));
    ("trace_miss_speed_mps_tol", SN (trace_miss_speed_mps_tol p)); ("trace_miss_time_tol", SN (trace_miss_time_tol p));
    ("trace_miss_dist_tol", SN (trace_miss_dist_tol p)); ("sim_count_max", SI (sim_count_max p));
    ("newton_gain", SN (newton_gain p)); ("newton_max_iter", SI (newton_max_iter p)); ("newton_xtol", SN (newton_xtol p));
    ("energy_audit_error_tol", SN (energy_audit_error_tol p)); ("coast_allow", SB (coast_allow p));
    ("coast_allow_passing", SB (coast_allow_passing p)); ("coast_max_speed_m_per_s", SN (coast_max_speed_m_per_s p));
    ("coast_brake_accel_m_per_s2", SN (coast_brake_accel_m_per_s2 p));
    ("coast_brake_start_speed_m_per_s", SN (coast_brake_start_speed_m_per_s p));
    ("coast_start_speed_m_per_s", SN (coast_start_speed_m_per_s p));
    ("coast_time_horizon_for_adjustment_s", SN (coast_time_horizon_for_adjustment_s p));
    ("idm_allow", SB (idm_allow p)); ("idm_v_desired_m_per_s", SN (idm_v_desired_m_per_s p));
    ("idm_dt_headway_s", SN (idm_dt_headway_s p)); ("idm_minimum_gap_m", SN (idm_minimum_gap_m p));
    ("idm_delta", SN (idm_delta p)); ("idm_accel_m_per_s2", SN (idm_accel_m_per_s2 p));
    ("idm_decel_m_per_s2", SN (idm_decel_m_per_s2 p));
    ("idm_v_desired_in_m_per_s_by_distance_m", ST (idm_v_desired_by_distance p)); ("max_epa_adj", SN (max_epa_adj p))]%string.
  (** SimDriveParams(). simdrive.py:45-95. *)
  Definition new_params : attrs F := settings default_sim_params.
  (** inspect_utils.get_attrs(ref_sim_drive_params), inspect_utils.py:16-30: the names of the attributes of a fresh object. *)
  Definition ref_names : list string := map fst new_params.
  (** SimDriveParams.from_dict, simdrive.py:37-43. *)
  Definition params_from_dict (d : attrs F) : attrs F := fold_left (fun o kv => aset o (fst kv) (snd kv)) d new_params.
  (** copy_sim_params with return type 'dict', 120-123, 134-135. *)
  Fixpoint attr_dict (ks : list string) (o : attrs F) : Res (attrs F) :=
    match ks with
    | [] => Ok []
    | k :: r => match aget o k with None => Err AttributeError | Some v => do d <- attr_dict r o; Ok ((k, v) :: d) end
    end.
  (** simdrive.py:108-141 *)
  Definition params_dict (o : attrs F) : Res (attrs F) := attr_dict ref_names o.
  (** copy_sim_params of a Python object, default return type, 136-137. *)
  Definition copy_sim_params (o : attrs F) : Res (attrs F) := do d <- params_dict o; Ok (params_from_dict d).
  (** Python's == on such values: numbers of different kinds are compared by value. simdrive.py:144-173 (==). *)
  Definition tables_eq : option (list (F * F)) -> option (list (F * F)) -> bool := fun a b =>
    match a, b with
    | None, None => true
    | Some a, Some b => (Nat.eqb (length a) (length b) &&
                         forallb (fun xy => ((fst (fst xy) =? fst (snd xy)) && (snd (fst xy) =? snd (snd xy)))%bool) (combine a b))%bool
    | _, _ => false
    end.
  (** simdrive.py:144-173 (==) *)
  Definition sval_eq (a b : sval F) : bool :=
    let num v := match v with SB b => Some (if b then n1 else n0) | SN x => Some x | SI n => Some (nofN n) | ST _ => None end in
    match a, b with
    | ST t, ST u => tables_eq t u
    | _, _ => match num a, num b with Some x, Some y => x =? y | _, _ => false end
    end.
  (** sim_params_equal for distinct objects, 153-172. *)
  Fixpoint dict_equal (a b : attrs F) : Res bool :=
    match a with
    | [] => Ok true
    | (k, v) :: r => match aget b k with
                     | None => Err KeyError
                     | Some w => if sval_eq v w then dict_equal r b else Ok false
                     end
    end.
  (** simdrive.py:144-173 *)
  Definition sim_params_equal (a b : attrs F) : Res bool :=
    do da <- params_dict a; do db <- params_dict b;
    if Nat.eqb (length da) (length db) then dict_equal da db else Ok false.
End Settings.

(** A SimDrive with the parts of its vehicle that the simulation does not use. simdrive.py:185-208, 2309-2370. *)
Record pyrun (F : Type) := mkrun { run_veh : pyveh F; run_sd : sdrive F }.
Arguments mkrun {F}. Arguments run_veh {F}. Arguments run_sd {F}.

Section Runs.
  Context {F : Type} {N : Num F} (T : texts F).
  Local Open Scope num_scope.

  (** copy_sim_drive, simdrive.py:2309-2370.  The cycles, the settings, the constants and the arrays are copied by value
      (copies of cycles and settings have the same values: see C19, C94, C74); the vehicle by copy_vehicle. *)
  Definition copy_sim_drive (r : pyrun F) : Res (pyrun F) :=
    do v <- copy_vehicle T (run_veh r);
    let d := run_sd r in
    Ok (mkrun v (mksd (pv_core v) (d_props d) (d_sp d) (d_cyc d) (d_cyc0 d) (d_cache d) (d_i d) (d_rows d) (d_hev_sim_count d))).

  (** The entries of all arrays at one step. simdrive.py:210-334 (the arrays), compared at 2373-2417. *)
  Definition row_numbers (r : row F) : list F :=
    let m := misc r in let l := lims r in let p := pwr r in let s := spd r in let h := hyb r in let d := dec r in let f := fc r in
    [ aux_in_kw m; max_trac_mps m; cur_max_fs_kw_out l; fc_trans_lim_kw l; cur_max_fc_kw_out l; ess_cap_lim_dischg_kw l;
      cur_ess_max_kw_out l; ess_cap_lim_chg_kw l; cur_max_ess_chg_kw l; cur_max_elec_kw l; cur_max_avail_elec_kw l;
      mc_elec_in_lim_kw l; mc_transi_lim_kw l; cur_max_mc_kw_out l; cur_max_mc_elec_kw_in l; ess_lim_mc_regen_perc_kw l;
      cur_max_mech_mc_kw_in l; cur_max_trac_kw l; cur_max_trans_kw_out l;
      drag_kw p; accel_kw p; ascent_kw p; cyc_trac_kw_req p; spare_trac_kw p; rr_kw p; cyc_whl_rad_per_sec p;
      cyc_tire_inertia_kw p; cyc_whl_kw_req p; regen_contrl_lim_kw_perc p; cyc_regen_brake_kw p; cyc_fric_brake_kw p;
      cyc_trans_kw_out_req p; trans_kw_out_ach p; trans_kw_in_ach p; min_mc_kw_2help_fc p;
      mps_ach s; mph_ach s; dist_m_ach s; dist_mi_ach s;
      regen_buff_soc h; ess_regen_buff_dischg_kw h; max_ess_regen_buff_chg_kw h; accel_buff_soc h; ess_accel_buff_chg_kw h;
      max_ess_accell_buff_dischg_kw h; ess_accel_regen_dischg_kw h; fc_kw_gap_fr_eff h; mc_elec_in_kw_for_max_fc_eff h;
      elec_kw_req_4ae h; prev_fc_time_on h; desired_ess_kw_out_for_ae h; ess_ae_kw_out h; er_ae_kw_out h;
      mc_mech_kw_4forced_fc (forced r);
      ess_desired_kw_4fc_eff d; ess_kw_if_fc_req d; er_kw_if_fc_req d; mc_elec_kw_in_if_fc_req d; mc_kw_if_fc_req d;
      mc_mech_kw_out_ach d; mc_elec_kw_in_ach d; roadway_chg_kw_out_ach d; min_ess_kw_2help_fc d; ess_kw_out_ach d;
      ess_cur_kwh d; soc d; fc_time_on d;
      fc_kw_out_ach f; fc_kw_out_ach_pct f; fc_kw_in_ach f; fs_kw_out_ach f; fs_kwh_out_ach f;
      cur_max_roadway_chg_kw (ctl r); idm_target_speed_m_per_s (ctl r) ].
  (** simdrive.py:210-334 (the arrays of flags) *)
  Definition row_flags (r : row F) : list bool :=
    [ reached_buff (misc r); high_acc_fc_on_tag (misc r); cyc_met (pwr r); can_pwr_all_elec (hyb r);
      fc_forced_on (forced r); impose_coast (ctl r) ].
  (** simdrive.py:210-334 (the arrays of integers) *)
  Definition row_counts (r : row F) : list Z :=
    [ Z.of_nat (newton_iters (spd r)); fc_forced_state (forced r); Z.of_nat (trace_miss_iters (ctl r)); coast_delay_index (ctl r) ].
  (** simdrive.py:2400-2417 (elementwise comparison) *)
  Definition all2 {A} (f : A -> A -> bool) (a b : list A) : bool :=
    (Nat.eqb (length a) (length b) && forallb (fun xy => f (fst xy) (snd xy)) (combine a b))%bool.
  (** simdrive.py:2400-2417 *)
  Definition row_equal (a b : row F) : bool :=
    (all2 neqb (row_numbers a) (row_numbers b) && all2 Bool.eqb (row_flags a) (row_flags b) && all2 Z.eqb (row_counts a) (row_counts b))%bool.
  (** cyc_equal, cycle.py:383-389, on the four arrays. *)
  Definition cycles_equal (a b : cyc F) : bool :=
    (all2 neqb (time_s a) (time_s b) && all2 neqb (mps a) (mps b) && all2 neqb (grade a) (grade b) && all2 neqb (road_type a) (road_type b))%bool.
  (** physical_properties_equal, parameters.py:109-116, on the constants used. *)
  Definition props_equal (a b : physprops F) : bool :=
    ((air_density_kg_per_m3 a =? air_density_kg_per_m3 b) && (a_grav_mps2 a =? a_grav_mps2 b) && (kwh_per_gge a =? kwh_per_gge b))%bool.
  (** sim_drive_equal for distinct objects, simdrive.py:2373-2415.  The keys come in the order in which __init__ assigns them:
      vehicle, cycles, settings, constants, arrays, counters; only the vehicles and the settings can raise an exception, and
      arrays of different lengths, where numpy's == gives one False that has no method all. *)
  Definition sim_drive_equal (a b : pyrun F) : Res bool :=
    let x := run_sd a in let y := run_sd b in
    do v <- veh_equal (run_veh a) (run_veh b);
    if negb v then Ok false
    else if negb (cycles_equal (d_cyc x) (d_cyc y)) then Ok false
    else if negb (cycles_equal (d_cyc0 x) (d_cyc0 y)) then Ok false
    else
      do s <- sim_params_equal (settings (d_sp x)) (settings (d_sp y));
      if negb s then Ok false
      else if negb (props_equal (d_props x) (d_props y)) then Ok false
      else if negb (Nat.eqb (length (d_rows x)) (length (d_rows y))) then Err AttributeError
      else Ok (forallb (fun ab => row_equal (fst ab) (snd ab)) (combine (d_rows x) (d_rows y))
               && Nat.eqb (d_i x) (d_i y) && Nat.eqb (d_hev_sim_count x) (d_hev_sim_count y))%bool.
End Runs.
