(** Specifications for the post-processing properties C30, C31, C41-C43, C66 and C67. *)
From Verif Require Import Num Numpy ListFacts CycleModel CycleSpec VehModel SimModel SimState WalkModel WalkProofs SimSpec WalkSpec
  PostModel.
Local Open Scope R_scope.

(** ** Sums over a run *)
(** Energy in kJ of a power [f i] that acts during step [i]. *)
Definition over_steps (d : sdrive R) (f : nat -> R) : R :=
  Rsum (map (fun i => f i * step_dt d i) (seq 1 (length (d_rows d) - 1))).
(** Sum of a quantity [f i] over the steps. *)
Definition total (d : sdrive R) (f : nat -> R) : R := Rsum (map f (seq 1 (length (d_rows d) - 1))).
Definition first_time (d : sdrive R) : R := nth 0 (time_s (d_cyc d)) 0.
Definition final_step (d : sdrive R) : nat := length (d_rows d) - 1.

(** ** Energy audit *)
(** Energy put in minus energy accounted for, as the audit reckons it, kJ. *)
Definition audit_gap (p : post_scalars R) : R :=
  (roadway_chg_kj p + ess_dischg_kj p + fuel_kj p + ke_kj p)
  - (drag_kj p + ascent_kj p + rr_kj p + brake_kj p + trans_kj p + mc_kj p + ess_eff_kj p + aux_kj p + fc_kj p).
(** Power that enters the driveline at a step (engine or fuel cell, battery, roadway, motor shaft) minus the
    power that leaves it (motor terminals, auxiliaries, transmission). *)
Definition driveline_imbalance (r : row R) : R :=
  fc_kw_out_ach (fc r) + ess_kw_out_ach (dec r) + roadway_chg_kw_out_ach (dec r) + mc_mech_kw_out_ach (dec r)
  - (mc_elec_kw_in_ach (dec r) + aux_in_kw (misc r) + trans_kw_in_ach (pwr r)).
(** Power from the transmission minus what the road, the change of speed and the brakes take. *)
Definition road_imbalance (r : row R) : R :=
  trans_kw_out_ach (pwr r)
  - (drag_kw (pwr r) + accel_kw (pwr r) + ascent_kw (pwr r) + rr_kw (pwr r) + cyc_fric_brake_kw (pwr r)).
(** Power the transmission gives minus what it was asked for. *)
Definition shortfall (r : row R) : R := trans_kw_out_ach (pwr r) - cyc_trans_kw_out_req (pwr r).
(** Rotational energy of the wheels at a step, kJ. *)
Definition wheels_kJ (d : sdrive R) (i : nat) : R :=
  wheels_J (num_wheels (d_veh d)) (wheel_inertia_kg_m2 (d_veh d)) (wheel_radius_m (d_veh d)) (speed d i) / 1000.

(** ** Diagnostics *)
(** Integral of the polygon through the samples [l] at the cycle's time stamps. *)
Definition integral (d : sdrive R) (l : list R) : R :=
  Rsum (map (fun i => step_dt d i * (nth i l 0 + nth (i - 1) l 0) / 2) (seq 1 (length (d_rows d) - 1))).
(** The power arrays of a run, by name. *)
Definition power_arrays : list (string * (row R -> R)) := ([
      ("cur_ess_max_kw_out", fun r => cur_ess_max_kw_out (lims r)); ("cur_max_avail_elec_kw", fun r =>
   cur_max_avail_elec_kw (lims r)); ("cur_max_elec_kw", fun r => cur_max_elec_kw (lims r)); ("cur_max_ess_chg_kw", fun
   r => cur_max_ess_chg_kw (lims r)); ("cur_max_fc_kw_out", fun r => cur_max_fc_kw_out (lims r));
   ("cur_max_fs_kw_out", fun r => cur_max_fs_kw_out (lims r)); ("cur_max_mc_elec_kw_in", fun r =>
   cur_max_mc_elec_kw_in (lims r)); ("cur_max_mc_kw_out", fun r => cur_max_mc_kw_out (lims r));
   ("cur_max_mech_mc_kw_in", fun r => cur_max_mech_mc_kw_in (lims r)); ("cur_max_trac_kw", fun r => cur_max_trac_kw
   (lims r)); ("cur_max_trans_kw_out", fun r => cur_max_trans_kw_out (lims r)); ("ess_cap_lim_chg_kw", fun r =>
   ess_cap_lim_chg_kw (lims r)); ("ess_cap_lim_dischg_kw", fun r => ess_cap_lim_dischg_kw (lims r));
   ("ess_lim_mc_regen_perc_kw", fun r => ess_lim_mc_regen_perc_kw (lims r)); ("fc_trans_lim_kw", fun r =>
   fc_trans_lim_kw (lims r)); ("mc_elec_in_lim_kw", fun r => mc_elec_in_lim_kw (lims r)); ("mc_transi_lim_kw", fun r
   => mc_transi_lim_kw (lims r));
      ("accel_kw", fun r => accel_kw (pwr r)); ("ascent_kw", fun r => ascent_kw (pwr r)); ("cyc_fric_brake_kw", fun r
   => cyc_fric_brake_kw (pwr r)); ("cyc_regen_brake_kw", fun r => cyc_regen_brake_kw (pwr r)); ("cyc_tire_inertia_kw",
   fun r => cyc_tire_inertia_kw (pwr r)); ("cyc_trac_kw_req", fun r => cyc_trac_kw_req (pwr r));
   ("cyc_trans_kw_out_req", fun r => cyc_trans_kw_out_req (pwr r)); ("cyc_whl_kw_req", fun r => cyc_whl_kw_req (pwr
   r)); ("drag_kw", fun r => drag_kw (pwr r)); ("min_mc_kw_2help_fc", fun r => min_mc_kw_2help_fc (pwr r));
   ("regen_contrl_lim_kw_perc", fun r => regen_contrl_lim_kw_perc (pwr r)); ("rr_kw", fun r => rr_kw (pwr r));
   ("spare_trac_kw", fun r => spare_trac_kw (pwr r)); ("trans_kw_in_ach", fun r => trans_kw_in_ach (pwr r));
   ("trans_kw_out_ach", fun r => trans_kw_out_ach (pwr r));
      ("desired_ess_kw_out_for_ae", fun r => desired_ess_kw_out_for_ae (hyb r)); ("elec_kw_req_4ae", fun r =>
   elec_kw_req_4ae (hyb r)); ("er_ae_kw_out", fun r => er_ae_kw_out (hyb r)); ("ess_accel_buff_chg_kw", fun r =>
   ess_accel_buff_chg_kw (hyb r)); ("ess_accel_regen_dischg_kw", fun r => ess_accel_regen_dischg_kw (hyb r));
   ("ess_ae_kw_out", fun r => ess_ae_kw_out (hyb r)); ("ess_regen_buff_dischg_kw", fun r => ess_regen_buff_dischg_kw
   (hyb r)); ("fc_kw_gap_fr_eff", fun r => fc_kw_gap_fr_eff (hyb r)); ("max_ess_accell_buff_dischg_kw", fun r =>
   max_ess_accell_buff_dischg_kw (hyb r)); ("max_ess_regen_buff_chg_kw", fun r => max_ess_regen_buff_chg_kw (hyb r));
   ("mc_elec_in_kw_for_max_fc_eff", fun r => mc_elec_in_kw_for_max_fc_eff (hyb r));
      ("mc_mech_kw_4forced_fc", fun r => mc_mech_kw_4forced_fc (forced r));
      ("er_kw_if_fc_req", fun r => er_kw_if_fc_req (dec r)); ("ess_desired_kw_4fc_eff", fun r =>
   ess_desired_kw_4fc_eff (dec r)); ("ess_kw_if_fc_req", fun r => ess_kw_if_fc_req (dec r)); ("ess_kw_out_ach", fun r
   => ess_kw_out_ach (dec r)); ("mc_elec_kw_in_ach", fun r => mc_elec_kw_in_ach (dec r)); ("mc_elec_kw_in_if_fc_req",
   fun r => mc_elec_kw_in_if_fc_req (dec r)); ("mc_kw_if_fc_req", fun r => mc_kw_if_fc_req (dec r));
   ("mc_mech_kw_out_ach", fun r => mc_mech_kw_out_ach (dec r)); ("min_ess_kw_2help_fc", fun r => min_ess_kw_2help_fc
   (dec r)); ("roadway_chg_kw_out_ach", fun r => roadway_chg_kw_out_ach (dec r));
      ("fc_kw_in_ach", fun r => fc_kw_in_ach (fc r)); ("fc_kw_out_ach", fun r => fc_kw_out_ach (fc r));
   ("fc_kw_out_ach_pct", fun r => fc_kw_out_ach_pct (fc r)); ("fs_kw_out_ach", fun r => fs_kw_out_ach (fc r));
      ("aux_in_kw", fun r => aux_in_kw (misc r));
      ("cur_max_roadway_chg_kw", fun r => cur_max_roadway_chg_kw (ctl r))])%string.
(** Power lost in the battery while it delivers [p] kW: half of the round-trip loss each way. *)
Definition battery_loss (v : vehicle R) (p : R) : R :=
  if Req_EM_T (ess_max_kw v) 0 then 0 else if Req_EM_T (ess_max_kwh v) 0 then 0
  else if Rlt_dec p 0 then - p * (1 - sqrt (ess_round_trip_eff v)) else p * (1 / sqrt (ess_round_trip_eff v) - 1).
(** [l] are the values of the power array called [name]; nothing is lost at the first sample. *)
Definition power_array (d : sdrive R) (name : string) (l : list R) : Prop :=
  (exists f, In (name, f) power_arrays /\ l = map f (d_rows d)) \/
  (name = "ess_loss_kw"%string /\ length l = length (d_rows d) /\ nth 0 l 0 = 0 /\
   forall i, (1 <= i < length l)%nat -> nth i l 0 = battery_loss (d_veh d) (ess_kw_out_ach (dec (row_at d i)))).
(** [key] is [name] with a "_kw" that is not part of "_kwh" replaced by "_kj". *)
Definition energy_name (name key : string) : Prop :=
  exists a b, name = (a ++ "_kw" ++ b)%string /\ prefix "h" b = false /\ key = (a ++ "_kj" ++ b)%string.

(** ** Battery wear *)
Definition kwh_at (d : sdrive R) (i : nat) : R := ess_cur_kwh (dec (row_at d i)).
(** Energy added to the battery over the unbroken charging run that ends at step [i]. *)
Fixpoint charging_run (d : sdrive R) (i : nat) : R :=
  match i with
  | O => 0
  | S j => if Rlt_dec (kwh_at d j) (kwh_at d i) then kwh_at d i - kwh_at d j + charging_run d j else 0
  end.
