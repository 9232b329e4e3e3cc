(** Model of one time step of python/fastsim/simdrive.py (class SimDrive): solve_step and the eight
    methods it calls.  Definitions only.

    The code keeps one numpy array per quantity and every method of step [i] reads and writes entries
    [i-1] and [i] of them.  Here a [row] holds entry [i] of all arrays; it is split into the groups of
    entries that one method writes.  Each method is a function from what it reads to the group it
    writes.  Entries that a method reads before this step has written them (left over from
    initialisation or from an earlier solve of the same step) are explicit arguments.

    Array reads are total: motor maps have 101 points and engine maps 100 points in every vehicle that
    set_derived accepts (theorem C44), so the index errors of shorter hand-made arrays are not modelled.
    Python's [min]/[max] of NaN and the RuntimeWarnings of numpy are not modelled. *)
From Verif Require Import Num Numpy CycleModel VehModel.

(** SimDriveParams, simdrive.py:46-94 (the parameters that the modelled code reads). *)
Record simparams (F : Type) := mksimparams {
  favor_grade_accuracy : bool;
  missed_trace_correction : bool;
  max_time_dilation : F; min_time_dilation : F; time_dilation_tol : F; max_trace_miss_iters : nat;
  trace_miss_speed_mps_tol : F; trace_miss_time_tol : F; trace_miss_dist_tol : F;
  sim_count_max : nat;
  newton_gain : F; newton_max_iter : nat; newton_xtol : F;
  energy_audit_error_tol : F;
  coast_allow : bool; coast_allow_passing : bool; coast_max_speed_m_per_s : F;
  coast_brake_accel_m_per_s2 : F; coast_brake_start_speed_m_per_s : F; coast_start_speed_m_per_s : F;
  coast_time_horizon_for_adjustment_s : F;
  idm_allow : bool; idm_v_desired_m_per_s : F; idm_dt_headway_s : F; idm_minimum_gap_m : F;
  idm_delta : F; idm_accel_m_per_s2 : F; idm_decel_m_per_s2 : F;
  idm_v_desired_by_distance : option (list (F * F));
  max_epa_adj : F }.

(** Entries written by set_misc_calcs, simdrive.py:675-699. *)
Record misc_row (F : Type) := mkmisc {
  aux_in_kw : F; reached_buff : bool; high_acc_fc_on_tag : bool; max_trac_mps : F }.
(** Entries written by set_comp_lims, simdrive.py:701-869. *)
Record lims_row (F : Type) := mklims {
  cur_max_fs_kw_out : F; fc_trans_lim_kw : F; cur_max_fc_kw_out : F;
  ess_cap_lim_dischg_kw : F; cur_ess_max_kw_out : F; ess_cap_lim_chg_kw : F; cur_max_ess_chg_kw : F;
  cur_max_elec_kw : F; cur_max_avail_elec_kw : F; mc_elec_in_lim_kw : F; mc_transi_lim_kw : F;
  cur_max_mc_kw_out : F; cur_max_mc_elec_kw_in : F; ess_lim_mc_regen_perc_kw : F;
  cur_max_mech_mc_kw_in : F; cur_max_trac_kw : F; cur_max_trans_kw_out : F }.
(** Entries written by set_power_calcs, simdrive.py:871-950. *)
Record pwr_row (F : Type) := mkpwr {
  drag_kw : F; accel_kw : F; ascent_kw : F; cyc_trac_kw_req : F; spare_trac_kw : F; rr_kw : F;
  cyc_whl_rad_per_sec : F; cyc_tire_inertia_kw : F; cyc_whl_kw_req : F; regen_contrl_lim_kw_perc : F;
  cyc_regen_brake_kw : F; cyc_fric_brake_kw : F; cyc_trans_kw_out_req : F; cyc_met : bool;
  trans_kw_out_ach : F; trans_kw_in_ach : F; min_mc_kw_2help_fc : F }.
(** Entries written by set_ach_speed, simdrive.py:952-1058. *)
Record spd_row (F : Type) := mkspd {
  newton_iters : nat; mps_ach : F; mph_ach : F; dist_m_ach : F; dist_mi_ach : F }.
(** Entries written by set_hybrid_cont_calcs, simdrive.py:1060-1237. *)
Record hyb_row (F : Type) := mkhyb {
  regen_buff_soc : F; ess_regen_buff_dischg_kw : F; max_ess_regen_buff_chg_kw : F;
  accel_buff_soc : F; ess_accel_buff_chg_kw : F; max_ess_accell_buff_dischg_kw : F;
  ess_accel_regen_dischg_kw : F; fc_kw_gap_fr_eff : F; mc_elec_in_kw_for_max_fc_eff : F;
  elec_kw_req_4ae : F; prev_fc_time_on : F; can_pwr_all_elec : bool;
  desired_ess_kw_out_for_ae : F; ess_ae_kw_out : F; er_ae_kw_out : F }.
(** Entries written by set_fc_forced_state, simdrive.py:1239-1277. *)
Record forced_row (F : Type) := mkforced {
  fc_forced_on : bool; fc_forced_state : Z; mc_mech_kw_4forced_fc : F }.
(** Entries written by set_hybrid_cont_decisions, simdrive.py:1279-1526. *)
Record dec_row (F : Type) := mkdec {
  ess_desired_kw_4fc_eff : F; ess_kw_if_fc_req : F; er_kw_if_fc_req : F; mc_elec_kw_in_if_fc_req : F;
  mc_kw_if_fc_req : F; mc_mech_kw_out_ach : F; mc_elec_kw_in_ach : F; roadway_chg_kw_out_ach : F;
  min_ess_kw_2help_fc : F; ess_kw_out_ach : F; ess_cur_kwh : F; soc : F; fc_time_on : F }.
(** Entries written by set_fc_power, simdrive.py:1528-1583. *)
Record fc_row (F : Type) := mkfc {
  fc_kw_out_ach : F; fc_kw_out_ach_pct : F; fc_kw_in_ach : F; fs_kw_out_ach : F; fs_kwh_out_ach : F }.
(** Entries written elsewhere: set_time_dilation, the coasting and IDM methods, the user. *)
(** simdrive.py:210-334 (the arrays) *)
Record ctl_row (F : Type) := mkctl {
  cur_max_roadway_chg_kw : F; impose_coast : bool; trace_miss_iters : nat; coast_delay_index : Z;
  idm_target_speed_m_per_s : F }.
(** Entry [i] of every per-step array, init_arrays, simdrive.py:210-333 (cur_soc_target,
    ess_perc_dead, add_kwh, dod_cycs, ess_loss_kw and fs_cumu_mj_out_ach are post-processing
    outputs, see PostModel.v). *)
Record row (F : Type) := mkrow {
  misc : misc_row F; lims : lims_row F; pwr : pwr_row F; spd : spd_row F; hyb : hyb_row F;
  forced : forced_row F; dec : dec_row F; fc : fc_row F; ctl : ctl_row F }.

Arguments mksimparams {F}. Arguments favor_grade_accuracy {F}.
Arguments missed_trace_correction {F}. Arguments max_time_dilation {F}.
Arguments min_time_dilation {F}. Arguments time_dilation_tol {F}.
Arguments max_trace_miss_iters {F}. Arguments trace_miss_speed_mps_tol {F}.
Arguments trace_miss_time_tol {F}. Arguments trace_miss_dist_tol {F}.
Arguments sim_count_max {F}. Arguments newton_gain {F}. Arguments newton_max_iter {F}.
Arguments newton_xtol {F}. Arguments energy_audit_error_tol {F}. Arguments coast_allow {F}.
Arguments coast_allow_passing {F}. Arguments coast_max_speed_m_per_s {F}.
Arguments coast_brake_accel_m_per_s2 {F}. Arguments coast_brake_start_speed_m_per_s {F}.
Arguments coast_start_speed_m_per_s {F}. Arguments coast_time_horizon_for_adjustment_s {F}.
Arguments idm_allow {F}. Arguments idm_v_desired_m_per_s {F}. Arguments idm_dt_headway_s {F}.
Arguments idm_minimum_gap_m {F}. Arguments idm_delta {F}. Arguments idm_accel_m_per_s2 {F}.
Arguments idm_decel_m_per_s2 {F}. Arguments idm_v_desired_by_distance {F}.
Arguments max_epa_adj {F}. Arguments mkmisc {F}. Arguments aux_in_kw {F}.
Arguments reached_buff {F}. Arguments high_acc_fc_on_tag {F}. Arguments max_trac_mps {F}.
Arguments mklims {F}. Arguments cur_max_fs_kw_out {F}. Arguments fc_trans_lim_kw {F}.
Arguments cur_max_fc_kw_out {F}. Arguments ess_cap_lim_dischg_kw {F}.
Arguments cur_ess_max_kw_out {F}. Arguments ess_cap_lim_chg_kw {F}.
Arguments cur_max_ess_chg_kw {F}. Arguments cur_max_elec_kw {F}.
Arguments cur_max_avail_elec_kw {F}. Arguments mc_elec_in_lim_kw {F}.
Arguments mc_transi_lim_kw {F}. Arguments cur_max_mc_kw_out {F}.
Arguments cur_max_mc_elec_kw_in {F}. Arguments ess_lim_mc_regen_perc_kw {F}.
Arguments cur_max_mech_mc_kw_in {F}. Arguments cur_max_trac_kw {F}.
Arguments cur_max_trans_kw_out {F}. Arguments mkpwr {F}. Arguments drag_kw {F}.
Arguments accel_kw {F}. Arguments ascent_kw {F}. Arguments cyc_trac_kw_req {F}.
Arguments spare_trac_kw {F}. Arguments rr_kw {F}. Arguments cyc_whl_rad_per_sec {F}.
Arguments cyc_tire_inertia_kw {F}. Arguments cyc_whl_kw_req {F}.
Arguments regen_contrl_lim_kw_perc {F}. Arguments cyc_regen_brake_kw {F}.
Arguments cyc_fric_brake_kw {F}. Arguments cyc_trans_kw_out_req {F}. Arguments cyc_met {F}.
Arguments trans_kw_out_ach {F}. Arguments trans_kw_in_ach {F}. Arguments min_mc_kw_2help_fc {F}.
Arguments mkspd {F}. Arguments newton_iters {F}. Arguments mps_ach {F}. Arguments mph_ach {F}.
Arguments dist_m_ach {F}. Arguments dist_mi_ach {F}. Arguments mkhyb {F}.
Arguments regen_buff_soc {F}. Arguments ess_regen_buff_dischg_kw {F}.
Arguments max_ess_regen_buff_chg_kw {F}. Arguments accel_buff_soc {F}.
Arguments ess_accel_buff_chg_kw {F}. Arguments max_ess_accell_buff_dischg_kw {F}.
Arguments ess_accel_regen_dischg_kw {F}. Arguments fc_kw_gap_fr_eff {F}.
Arguments mc_elec_in_kw_for_max_fc_eff {F}. Arguments elec_kw_req_4ae {F}.
Arguments prev_fc_time_on {F}. Arguments can_pwr_all_elec {F}.
Arguments desired_ess_kw_out_for_ae {F}. Arguments ess_ae_kw_out {F}. Arguments er_ae_kw_out {F}.
Arguments mkforced {F}. Arguments fc_forced_on {F}. Arguments fc_forced_state {F}.
Arguments mc_mech_kw_4forced_fc {F}. Arguments mkdec {F}. Arguments ess_desired_kw_4fc_eff {F}.
Arguments ess_kw_if_fc_req {F}. Arguments er_kw_if_fc_req {F}.
Arguments mc_elec_kw_in_if_fc_req {F}. Arguments mc_kw_if_fc_req {F}.
Arguments mc_mech_kw_out_ach {F}. Arguments mc_elec_kw_in_ach {F}.
Arguments roadway_chg_kw_out_ach {F}. Arguments min_ess_kw_2help_fc {F}.
Arguments ess_kw_out_ach {F}. Arguments ess_cur_kwh {F}. Arguments soc {F}.
Arguments fc_time_on {F}. Arguments mkfc {F}. Arguments fc_kw_out_ach {F}.
Arguments fc_kw_out_ach_pct {F}. Arguments fc_kw_in_ach {F}. Arguments fs_kw_out_ach {F}.
Arguments fs_kwh_out_ach {F}. Arguments mkctl {F}. Arguments cur_max_roadway_chg_kw {F}.
Arguments impose_coast {F}. Arguments trace_miss_iters {F}. Arguments coast_delay_index {F}.
Arguments idm_target_speed_m_per_s {F}. Arguments mkrow {F}. Arguments misc {F}.
Arguments lims {F}. Arguments pwr {F}. Arguments spd {F}. Arguments hyb {F}.
Arguments forced {F}. Arguments dec {F}. Arguments fc {F}. Arguments ctl {F}.

(** What a step reads from the cycles: its duration cyc.dt_s_at_i(i), prescribed speed cyc.mps[i],
    the road grade as a function of the proposed end speed (_lookup_grade_for_step(i, mps_ach=v)),
    the grade estimate (_estimate_grade_for_step(i)) and whether aux_in_kw[i:] is all zero. *)
(** cycle.py:198-221, read by simdrive.py:675-1583 *)
Record step_env (F : Type) := mkenv {
  e_dt : F; e_mps : F; e_grade : F -> F; e_grade_est : F; e_aux_zero : bool }.
Arguments mkenv {F}. Arguments e_dt {F}. Arguments e_mps {F}. Arguments e_grade {F}.
Arguments e_grade_est {F}. Arguments e_aux_zero {F}.

Section SimModel.
  Context {F : Type} {N : Num F}.
  Local Open Scope num_scope.
  Variable veh : vehicle F.
  Variable props : physprops F.
  Variable sp : simparams F.

  (** max(arr) / arr.max() of a nonempty array. simdrive.py:701-868 (max(...)). *)
  Definition amax (l : list F) : F := match l with [] => n0 | a :: r => nmaxl a r end.
  (** arr[z] with Python's negative indices. simdrive.py:701-868 (arr[-1]). *)
  Definition getZ (l : list F) (z : Z) : F := match pyget l z with Ok x => x | Err _ => n0 end.
  (** [np.argmax(arr > x) - 1], e.g. simdrive.py:767, 1573. *)
  Definition below (l : list F) (x : F) : Z :=
    let b := argmax_b (map (fun a => a >? x) l) in (Z.of_nat b - 1)%Z.
  (** simdrive.py:701-868 (veh.mc_full_eff_array[-1]) *)
  Definition mc_eff_last : F := getZ (mc_full_eff_array veh) (-1).
  (** [mc_full_eff_array[max(1, np.argmax(grid > min(top - 0.01, x)) - 1)]]. *)
  Definition mc_eff_at (grid : list F) (top x : F) : F :=
    getZ (mc_full_eff_array veh) (Z.max 1 (below grid (nmin (top - lit 1 100) x))).
  (** Property mc_peak_eff, vehicle.py:697-700; its assertion is checked by set_derived. *)
  Definition mc_peak_eff : F := amax (mc_full_eff_array veh).
  (** simdrive.py:675-1583 (the literal 3,600) *)
  Definition k3600 : F := nofZ 3600.
  (** simdrive.py:675-1583 (the literal 1,000) *)
  Definition k1000 : F := nofZ 1000.
  (** simdrive.py:1056 (mps * params.MPH_PER_MPS) *)
  Definition mph_of (v : F) : F := v * MPH_PER_MPS.

  (** ** set_misc_calcs, simdrive.py:675-699.  [aux] is aux_in_kw[i] on entry. *)
  Definition set_misc_calcs (e : step_env F) (prev : row F) (aux : F) : misc_row F :=
    let aux' := if e_aux_zero e then
                  if no_elec_aux veh then aux_kw veh / alt_eff veh else aux_kw veh
                else aux in
    let soc1 := soc (dec prev) in
    let rb := negb (soc1 <? min_soc veh + perc_high_acc_buf veh) in
    let tag := ((soc1 <? min_soc veh) || (high_acc_fc_on_tag (misc prev) && negb rb))%bool in
    mkmisc aux' rb tag (mps_ach (spd prev) + max_trac_mps2 veh * e_dt e).

  (** ** set_comp_lims, simdrive.py:701-869 *)
  (** 759-773: power into the motor controller that the available electric power supports. *)
  Definition calc_mc_elec_in_lim (elec avail : F) : F :=
    if elec >? n0 then
      if avail =? amax (mc_kw_in_array veh) then
        nmin (getZ (mc_kw_out_array veh) (-1)) (mc_max_kw veh)
      else
        nmin (getZ (mc_kw_out_array veh)
                (below (mc_kw_in_array veh) (nmin (amax (mc_kw_in_array veh) - lit 1 100) avail)))
             (mc_max_kw veh)
    else n0.
  (** 787-801. *)
  Definition calc_mc_elec_kw_in (mcout : F) : F :=
    if mcout =? n0 then n0
    else if mcout =? mc_max_kw veh then mcout / mc_eff_last
    else mcout / mc_eff_at (mc_kw_out_array veh) (mc_max_kw veh) mcout.
  (** 809-830. *)
  Definition calc_mech_mc_in (chg road : F) : F :=
    if chg =? n0 then n0
    else if mc_max_kw veh =? chg - road then nmin (mc_max_kw veh) (chg / mc_eff_last)
    else nmin (mc_max_kw veh) (chg / mc_eff_at (mc_kw_out_array veh) (mc_max_kw veh) (chg - road)).
  (** 832-837. *)
  Definition calc_max_trac_kw (trac_mps : F) : F :=
    wheel_coef_of_fric veh * drive_axle_weight_frac veh * veh_kg veh * a_grav_mps2 props
    / (n1 + veh_cg_m veh * wheel_coef_of_fric veh / wheel_base_m veh) / k1000 * trac_mps.

  (** simdrive.py:701-868 *)
  Definition set_comp_lims (e : step_env F) (prev : row F) (m : misc_row F) (c : ctl_row F) : lims_row F :=
    let dt := e_dt e in
    let soc1 := soc (dec prev) in
    let road := cur_max_roadway_chg_kw c in
    let fs := nmin (fs_max_kw veh)
                (fs_kw_out_ach (fc prev) + fs_max_kw veh / fs_secs_to_peak_pwr veh * dt) in
    let fctr := fc_kw_out_ach (fc prev) + fc_max_kw veh / fc_sec_to_peak_pwr veh * dt in
    let fcmax := nmin (fc_max_kw veh) fctr in
    let dis := if ((ess_max_kwh veh =? n0) || (soc1 <? min_soc veh))%bool then n0
               else ess_max_kwh veh * nsqrt (ess_round_trip_eff veh) * k3600 * (soc1 - min_soc veh) / dt in
    let essout := nmin (ess_max_kw veh) dis in
    let chgcap := if ((ess_max_kwh veh =? n0) || (ess_max_kw veh =? n0))%bool then n0
                  else nmax ((max_soc veh - soc1) * ess_max_kwh veh * n1
                             / nsqrt (ess_round_trip_eff veh) / (dt * n1 / k3600)) n0 in
    let chg := nmin chgcap (ess_max_kw veh) in
    let elec := if is_h2fc (fc_eff_type veh) then fcmax + road + essout - aux_in_kw m
                else road + essout - aux_in_kw m in
    let avail := nmin elec (mc_max_elec_in_kw veh) in
    let mcel := calc_mc_elec_in_lim elec avail in
    let mctr := nabs (mc_mech_kw_out_ach (dec prev)) + mc_max_kw veh / mc_sec_to_peak_pwr veh * dt in
    let mcout := nmax (nmin (nmin mcel mctr) ((if stop_start veh then n0 else n1) * mc_max_kw veh))
                      (- mc_max_kw veh) in
    let mcelin := calc_mc_elec_kw_in mcout in
    let perc := if mc_max_kw veh =? n0 then n0
                else nmin ((chg + aux_in_kw m) / mc_max_kw veh) n1 in
    let mechin := calc_mech_mc_in chg road in
    let trac := calc_max_trac_kw (max_trac_mps m) in
    let mech := if is_h2fc (fc_eff_type veh) then mcout else mcout + fcmax in
    let tr := if (no_elec_sys veh || no_elec_aux veh || high_acc_fc_on_tag m)%bool
              then nmin ((mech - aux_in_kw m) * trans_eff veh) (trac / trans_eff veh)
              else nmin ((mech - nmin elec n0) * trans_eff veh) (trac / trans_eff veh) in
    let tr' := if impose_coast c then n0 else tr in
    mklims fs fctr fcmax dis essout chgcap chg elec avail mcel mctr mcout mcelin perc mechin trac tr'.

  (** ** set_power_calcs, simdrive.py:871-950.  [v] is the speed it works with (lines 880-883). *)
  Definition set_power_calcs (e : step_env F) (prev : row F) (l : lims_row F) (v : F) : pwr_row F :=
    let dt := e_dt e in
    let v1 := mps_ach (spd prev) in
    let g := e_grade e v in
    let drag := lit 1 2 * air_density_kg_per_m3 props * drag_coef veh * frontal_area_m2 veh
                * ncube ((v1 + v) / n2) / k1000 in
    let accel := veh_kg veh / (n2 * dt) * (nsq v - nsq v1) / k1000 in
    let ascent := a_grav_mps2 props * nsin (natan g) * veh_kg veh * ((v1 + v) / n2) / k1000 in
    let trac := drag + accel + ascent in
    let spare := cur_max_trac_kw l - trac in
    let rr := veh_kg veh * a_grav_mps2 props * wheel_rr_coef veh * ncos (natan g) * (v1 + v) / n2 / k1000 in
    let rad := v / wheel_radius_m veh in
    let tire := (lit 1 2 * wheel_inertia_kg_m2 veh * num_wheels veh * nsq rad / dt
                 - lit 1 2 * wheel_inertia_kg_m2 veh * num_wheels veh * nsq (v1 / wheel_radius_m veh) / dt)
                / k1000 in
    let whl := trac + rr + tire in
    let perc := max_regen veh / (n1 + regen_a veh * nexp ((- regen_b veh) *
                  ((mph_of (e_mps e) + v1 * MPH_PER_MPS) / n2 + n1))) in
    let regen := nmax (nmin (cur_max_mech_mc_kw_in l * trans_eff veh) (perc * (- whl))) n0 in
    let fric := - nmin (regen + whl) n0 in
    let req := whl + fric in
    let met := req <=? cur_max_trans_kw_out l in
    let out := if met then req else cur_max_trans_kw_out l in
    let inp := if out >? n0 then out / trans_eff veh else out * trans_eff veh in
    let help := if met then
                  if is_h2fc (fc_eff_type veh) then nmax inp (- cur_max_mech_mc_kw_in l)
                  else nmax (inp - cur_max_fc_kw_out l) (- cur_max_mech_mc_kw_in l)
                else nmax (cur_max_mc_kw_out l) (- cur_max_mech_mc_kw_in l) in
    mkpwr drag accel ascent trac spare rr rad tire whl perc regen fric req met out inp help.

  (** ** set_ach_speed, simdrive.py:952-1058 *)
  (** Coefficients of the power balance as a cubic in the end speed, 1012-1050. *)
  Record cubic := mkcubic { t3 : F; t2 : F; t1 : F; t0 : F }.
  (** simdrive.py:952-1057 *)
  Definition speed_cubic (e : step_env F) (v1 : F) (l : lims_row F) (g : F) : cubic :=
    let dt := e_dt e in
    let rho := air_density_kg_per_m3 props in
    let cd := drag_coef veh in
    let fa := frontal_area_m2 veh in
    let m := veh_kg veh in
    let gr := a_grav_mps2 props in
    let drag3 := n1 / nofZ 16 * rho * cd * fa in
    let accel2 := lit 1 2 * m / dt in
    let drag2 := nofZ 3 / nofZ 16 * rho * cd * fa * v1 in
    let wheel2 := lit 1 2 * wheel_inertia_kg_m2 veh * num_wheels veh / (dt * nsq (wheel_radius_m veh)) in
    let drag1 := nofZ 3 / nofZ 16 * rho * cd * fa * nsq v1 in
    let roll1 := lit 1 2 * m * gr * wheel_rr_coef veh * ncos (natan g) in
    let ascent1 := lit 1 2 * gr * nsin (natan g) * m in
    let accel0 := (- lit 1 2) * m * nsq v1 / dt in
    let drag0 := n1 / nofZ 16 * rho * cd * fa * ncube v1 in
    let roll0 := lit 1 2 * m * gr * wheel_rr_coef veh * ncos (natan g) * v1 in
    let ascent0 := lit 1 2 * gr * nsin (natan g) * m * v1 in
    let wheel0 := (- lit 1 2) * wheel_inertia_kg_m2 veh * num_wheels veh * nsq v1
                  / (dt * nsq (wheel_radius_m veh)) in
    mkcubic (drag3 / k1000) ((accel2 + drag2 + wheel2) / k1000) ((drag1 + roll1 + ascent1) / k1000)
            ((accel0 + drag0 + roll0 + ascent0 + wheel0) / k1000 - cur_max_trans_kw_out l).
  (** simdrive.py:965-1057 (the polynomial) *)
  Definition cub_y (q : cubic) (x : F) : F := t3 q * ncube x + t2 q * nsq x + t1 q * x + t0 q.
  (** simdrive.py:965-1057 (its slope) *)
  Definition cub_m (q : cubic) (x : F) : F := nofZ 3 * t3 q * nsq x + n2 * t2 q * x + t1 q.
  (** simdrive.py:965-1057 (intercept of the tangent) *)
  Definition cub_b (q : cubic) (x : F) : F := cub_y q x - x * cub_m q x.
  (** The iterates after the first, 990-1000; [fuel] is newton_max_iter minus the iterations done. *)
  Fixpoint newton_rest (q : cubic) (fuel : nat) (x : F) : list F :=
    match fuel with
    | O => []
    | S k =>
        let g := newton_gain sp in
        let x' := x * (n1 - g) - g * cub_b q x / cub_m q x in
        if nabs ((x' - x) / x) <? newton_xtol sp then [x'] else x' :: newton_rest q k x'
    end.
  (** [xs[_ys.index(min(_ys))]], 1004-1005: the first iterate with the smallest residual. *)
  Fixpoint best_iterate (q : cubic) (best : F) (xs : list F) : F :=
    match xs with
    | [] => best
    | x :: r => best_iterate q (if nabs (cub_y q x) <? nabs (cub_y q best) then x else best) r
    end.
  (** newton_mps_estimate, 965-1005: the speed and the value of [iterate]. *)
  Definition newton_mps_estimate (q : cubic) (v1 : F) : F * nat :=
    let x0 := nmax n1 v1 in
    let xs := newton_rest q (newton_max_iter sp - 1) x0 in
    (nmax (best_iterate q x0 xs) n0, S (length xs)).
  (** The grade loop, 1007-1053; at most [S fuel] rounds. *)
  Fixpoint grade_loop (e : step_env F) (v1 : F) (l : lims_row F) (g : F) (fuel : nat) : F * nat :=
    let '(v, n) := newton_mps_estimate (speed_cubic e v1 l g) v1 in
    let g' := e_grade e v in
    match fuel with
    | O => (v, n)
    | S k => if nabs (g - g') >? lit 1 1000000 then grade_loop e v1 l g' k else (v, n)
    end.
  (** params.M_PER_MI, parameters.py:24. *)
  Definition M_PER_MI : F := nofZ 1609.
  (** simdrive.py:952-1057 (last lines) *)
  Definition mkspd_of (e : step_env F) (iters : nat) (v : F) : spd_row F :=
    mkspd iters v (v * MPH_PER_MPS) (v * e_dt e) (v * e_dt e * (n1 / M_PER_MI)).
  (** [p] is the outcome of set_power_calcs, [old] holds mps_ach[i] and newton_iters[i] on entry.
      The second set_power_calcs (1054) works with mps_ach[i], newton_iters[i] being positive. *)
  Definition set_ach_speed (e : step_env F) (prev : row F) (l : lims_row F) (p : pwr_row F)
             (old : spd_row F) : pwr_row F * spd_row F :=
    if cyc_met p then (p, mkspd_of e (newton_iters old) (e_mps e))
    else
      let v1 := mps_ach (spd prev) in
      let '(v, n) := grade_loop e v1 l (e_grade_est e) 2 in
      (set_power_calcs e prev l v, mkspd_of e n v).
  (** Lines 880-883 on the first call of a step. *)
  Definition start_speed_of (e : step_env F) (old : spd_row F) : F :=
    if Nat.ltb 0 (newton_iters old) then mps_ach old else e_mps e.

  (** ** set_hybrid_cont_calcs, simdrive.py:1060-1237 *)
  (** Electric power for shaft power x at motor output grid points (1149-1156, 1170-1178). *)
  Definition mc_div_eff (x key : F) : F :=
    if key =? mc_max_kw veh then x / mc_eff_last
    else x / mc_eff_at (mc_kw_out_array veh) (mc_max_kw veh) key.
  (** 1066-1088; [old] supplies the entries not written on this path. *)
  Definition calc_regen_buff (e : step_env F) (prev : row F) (l : lims_row F) (old : hyb_row F) : F * F * F :=
    let soc1 := soc (dec prev) in
    if no_elec_sys veh then (n0, ess_regen_buff_dischg_kw old, max_ess_regen_buff_chg_kw old)
    else if charging_on veh then
      (nmax (max_soc veh - max_regen_kwh veh / ess_max_kwh veh) ((max_soc veh + min_soc veh) / n2),
       ess_regen_buff_dischg_kw old, max_ess_regen_buff_chg_kw old)
    else
      let rb := nmax ((ess_max_kwh veh * max_soc veh
                       - lit 1 2 * veh_kg veh * nsq (e_mps e) * (n1 / k1000) * (n1 / k3600)
                         * mc_peak_eff * max_regen veh) / ess_max_kwh veh) (min_soc veh) in
      (rb,
       nmin (cur_ess_max_kw_out l) (nmax n0 ((soc1 - rb) * ess_max_kwh veh * k3600 / e_dt e)),
       nmin (nmax n0 ((rb - soc1) * ess_max_kwh veh * k3600 / e_dt e)) (cur_max_ess_chg_kw l)).
  (** 1090-1114. *)
  Definition calc_accel_buff (e : step_env F) (prev : row F) (l : lims_row F) (old : hyb_row F) : F * F * F :=
    let soc1 := soc (dec prev) in
    if no_elec_sys veh then (n0, ess_accel_buff_chg_kw old, max_ess_accell_buff_dischg_kw old)
    else
      let vb := max_accel_buffer_mph veh / MPH_PER_MPS in
      let ab := nmin (nmax ((nsq vb - nsq (e_mps e)) / nsq vb
                            * nmin (max_accel_buffer_perc_of_useable_soc veh * (max_soc veh - min_soc veh))
                                   (max_regen_kwh veh / ess_max_kwh veh)
                            * ess_max_kwh veh / ess_max_kwh veh + min_soc veh) (min_soc veh))
                     (max_soc veh) in
      (ab, nmax n0 ((ab - soc1) * ess_max_kwh veh * k3600 / e_dt e),
       nmin (nmax n0 ((soc1 - ab) * ess_max_kwh veh * k3600 / e_dt e)) (cur_ess_max_kw_out l)).
  (** 1116-1140. *)
  Definition calc_accel_regen_dischg (e : step_env F) (prev : row F) (l : lims_row F)
             (rb rbdis ab abchg : F) : F :=
    let soc1 := soc (dec prev) in
    let clamp x := nmax (nmin x (cur_ess_max_kw_out l)) (- cur_max_ess_chg_kw l) in
    if rb <? ab then clamp ((soc1 - (rb + ab) / n2) * ess_max_kwh veh * k3600 / e_dt e)
    else if soc1 >? rb then clamp rbdis
    else if soc1 <? ab then clamp ((- n1) * abchg)
    else clamp n0.
  (** 1145-1164. *)
  Definition calc_mc_for_max_fc_eff (out gap : F) : F :=
    if no_elec_sys veh then n0
    else if out <? max_fc_eff_kw veh then mc_div_eff (- gap) gap
    else if gap =? mc_max_kw veh then getZ (mc_kw_in_array veh) (Z.of_nat (length (mc_kw_in_array veh)) - 1)
    else getZ (mc_kw_in_array veh) (below (mc_kw_out_array veh) (nmin (mc_max_kw veh - lit 1 100) gap)).
  (** 1166-1180. *)
  Definition calc_elec_req_4ae (inp aux : F) : F :=
    if no_elec_sys veh then n0
    else if inp >? n0 then mc_div_eff inp inp + aux
    else n0.
  (** 1185-1196. *)
  Definition calc_can_pwr_all_elec (e : step_env F) (prev : row F) (l : lims_row F) (ab inp req : F) : bool :=
    let tol := lit 1 1000000 in
    let base := ((ab <? soc (dec prev)) && (inp - tol <=? cur_max_mc_kw_out l)
                 && ((req <? cur_max_elec_kw l) || (fc_max_kw veh =? n0)))%bool in
    if fc_max_kw veh =? n0 then base
    else (base && ((mph_of (e_mps e) - tol <=? mph_fc_on veh) || charging_on veh)
          && (req <=? kw_demand_fc_on veh))%bool.

  (** simdrive.py:1060-1236 *)
  Definition set_hybrid_cont_calcs (e : step_env F) (prev : row F) (m : misc_row F) (l : lims_row F)
             (p : pwr_row F) (c : ctl_row F) (old : hyb_row F) : hyb_row F :=
    let soc1 := soc (dec prev) in
    let aux := aux_in_kw m in
    let road := cur_max_roadway_chg_kw c in
    let inp := trans_kw_in_ach p in
    let '(rb, rbdis, rbchg) := calc_regen_buff e prev l old in
    let '(ab, abchg, abdis) := calc_accel_buff e prev l old in
    let ard := calc_accel_regen_dischg e prev l rb rbdis ab abchg in
    let gap := nabs (trans_kw_out_ach p - max_fc_eff_kw veh) in
    let mcfc := calc_mc_for_max_fc_eff (trans_kw_out_ach p) gap in
    let req := calc_elec_req_4ae inp aux in
    let can := calc_can_pwr_all_elec e prev l ab inp req in
    (* 1198-1219 *)
    let des := if can then
                 if inp <? aux then aux + inp
                 else if rb <? ab then ard
                 else if soc1 >? rb then rbdis
                 else if soc1 <? ab then - abchg
                 else inp + aux - road
               else n0 in
    (* 1221-1232 *)
    let essae := if can then
                   nmax (nmax (nmax (- cur_max_ess_chg_kw l) (- rbchg)) (nmin n0 (road - inp + aux)))
                        (nmin (cur_ess_max_kw_out l) des)
                 else n0 in
    let erae := nmin (nmax n0 (inp + aux - essae)) road in
    mkhyb rb rbdis rbchg ab abchg abdis ard gap mcfc req (fc_time_on (dec prev)) can des essae erae.

  (** ** set_fc_forced_state, simdrive.py:1239-1277 *)
  Definition set_fc_forced_state (e : step_env F) (p : pwr_row F) (h : hyb_row F) : forced_row F :=
    let inp := trans_kw_in_ach p in
    let on := ((prev_fc_time_on h >? n0) && (prev_fc_time_on h <? min_fc_time_on veh - e_dt e))%bool in
    if (negb on || negb (can_pwr_all_elec h))%bool then mkforced on 1 n0
    else if inp <? n0 then mkforced on 2 inp
    else if max_fc_eff_kw veh =? inp then mkforced on 3 n0
    else if ((idle_fc_kw veh >? inp) && (accel_kw p >=? n0))%bool then mkforced on 4 (inp - idle_fc_kw veh)
    else if max_fc_eff_kw veh >? inp then mkforced on 5 n0
    else mkforced on 6 (inp - max_fc_eff_kw veh).

  (** ** set_hybrid_cont_decisions, simdrive.py:1279-1526 *)
  (** 1295-1352. *)
  Definition calc_ess_if_fc_req (m : misc_row F) (l : lims_row F) (h : hyb_row F) (des : F) : F :=
    let aux := aux_in_kw m in
    let top x := nmin (nmin (nmin (cur_ess_max_kw_out l) (mc_max_elec_in_kw veh + aux))
                            (cur_max_mc_elec_kw_in l + aux)) x in
    let chg := cur_max_ess_chg_kw l in
    if accel_buff_soc h >? regen_buff_soc h then top (nmax (- chg) (ess_accel_regen_dischg_kw h))
    else if ess_regen_buff_dischg_kw h >? n0 then
      top (nmax (- chg) (nmin (nmin (ess_accel_regen_dischg_kw h) (mc_elec_in_lim_kw l + aux))
                              (nmax (ess_regen_buff_dischg_kw h) des)))
    else if ess_accel_buff_chg_kw h >? n0 then
      top (nmax (- chg) (nmax ((- n1) * max_ess_regen_buff_chg_kw h) (nmin (- ess_accel_buff_chg_kw h) des)))
    else if des >? n0 then
      top (nmax (- chg) (nmin des (max_ess_accell_buff_dischg_kw h)))
    else
      top (nmax (- chg) (nmax des (- max_ess_regen_buff_chg_kw h))).
  (** 1366-1396. *)
  Definition calc_mc_if_fc_req (el : F) : F :=
    let mx := amax (mc_kw_in_array veh) in
    if no_elec_sys veh then n0
    else if el =? n0 then n0
    else if el >? n0 then
      if el =? mx then el * mc_eff_last
      else el * mc_eff_at (mc_kw_in_array veh) mx el
    else
      if el * (- n1) =? mx then el / mc_eff_last
      else el / mc_eff_at (mc_kw_in_array veh) mx (el * (- n1)).
  (** 1398-1429. *)
  Definition calc_mc_mech_out (l : lims_row F) (p : pwr_row F) (h : hyb_row F) (f : forced_row F) (mcreq : F) : F :=
    let inp := trans_kw_in_ach p in
    let can := can_pwr_all_elec h in
    if mc_max_kw veh =? n0 then n0
    else if (fc_forced_on f && can && (pt_eqb (veh_pt_type veh) HEV || pt_eqb (veh_pt_type veh) PHEV)
             && negb (is_h2fc (fc_eff_type veh)))%bool then mc_mech_kw_4forced_fc f
    else if inp <=? n0 then
      if (negb (is_h2fc (fc_eff_type veh)) && (fc_max_kw veh >? n0))%bool then
        if can then - nmin (cur_max_mech_mc_kw_in l) (- inp)
        else nmin (- nmin (cur_max_mech_mc_kw_in l) (- inp)) (nmax (- cur_max_fc_kw_out l) mcreq)
      else nmin (- nmin (cur_max_mech_mc_kw_in l) (- inp)) (- inp)
    else if can then inp
    else nmax (min_mc_kw_2help_fc p) mcreq.
  (** 1431-1457. *)
  Definition calc_mc_elec_in (mech : F) : F :=
    let mx := amax (mc_kw_in_array veh) in
    if mech =? n0 then n0
    else if mech <? n0 then
      if mech * (- n1) =? mx then mech * mc_eff_last
      else mech * mc_eff_at (mc_kw_in_array veh) mx (mech * (- n1))
    else
      if mc_max_kw veh =? mech then mech / mc_eff_last
      else mech / mc_eff_at (mc_kw_out_array veh) (mc_max_kw veh) mech.
  (** 1459-1474. *)
  Definition calc_roadway (h : hyb_row F) (c : ctl_row F) (elin erreq : F) : F :=
    let road := cur_max_roadway_chg_kw c in
    if road =? n0 then n0
    else if is_h2fc (fc_eff_type veh) then
      nmax (nmax (nmax (nmax n0 elin) (max_ess_regen_buff_chg_kw h)) (ess_regen_buff_dischg_kw h)) road
    else if can_pwr_all_elec h then er_ae_kw_out h
    else erreq.
  (** 1479-1504. *)
  Definition calc_ess_out (m : misc_row F) (l : lims_row F) (p : pwr_row F) (h : hyb_row F)
             (elin road help des : F) : F :=
    let aux := aux_in_kw m in
    if ((ess_max_kw veh =? n0) || (ess_max_kwh veh =? n0))%bool then n0
    else if is_h2fc (fc_eff_type veh) then
      if trans_kw_out_ach p >=? n0 then
        nmin (nmin (nmax (nmax help des) (ess_accel_regen_dischg_kw h)) (cur_ess_max_kw_out l))
             (elin + aux - road)
      else elin + aux - road
    else if (high_acc_fc_on_tag m || no_elec_aux veh)%bool then elin - road
    else elin + aux - road.
  (** 1506-1515. *)
  Definition calc_ess_cur_kwh (e : step_env F) (prev : row F) (ess : F) : F :=
    if no_elec_sys veh then n0
    else if ess <? n0 then
      ess_cur_kwh (dec prev) - ess * e_dt e / k3600 * nsqrt (ess_round_trip_eff veh)
    else
      ess_cur_kwh (dec prev) - ess * e_dt e / k3600 * (n1 / nsqrt (ess_round_trip_eff veh)).

  (** [old_fc] is fc_kw_out_ach[i] on entry: set_fc_power has not run yet for this solve (1523). *)
  Definition set_hybrid_cont_decisions (e : step_env F) (prev : row F) (m : misc_row F) (l : lims_row F)
             (p : pwr_row F) (h : hyb_row F) (f : forced_row F) (c : ctl_row F) (old_fc : F) : dec_row F :=
    let aux := aux_in_kw m in
    let road := cur_max_roadway_chg_kw c in
    let d0 := - mc_elec_in_kw_for_max_fc_eff h - road in
    let des := if d0 >? n0 then d0 * ess_dischg_to_fc_max_eff_perc veh
               else d0 * ess_chg_to_fc_max_eff_perc veh in
    let essreq := calc_ess_if_fc_req m l h des in
    let erreq := nmax n0 (nmin (nmin road (cur_max_mech_mc_kw_in l)) (essreq - mc_elec_in_lim_kw l + aux)) in
    let elreq := essreq + erreq - aux in
    let mcreq := calc_mc_if_fc_req elreq in
    let mech := calc_mc_mech_out l p h f mcreq in
    let elin := calc_mc_elec_in mech in
    let rd := calc_roadway h c elin erreq in
    let help := elin + aux - cur_max_fc_kw_out l - rd in
    let ess := calc_ess_out m l p h elin rd help des in
    let kwh := calc_ess_cur_kwh e prev ess in
    let soc' := if ess_max_kwh veh =? n0 then n0 else kwh / ess_max_kwh veh in
    let ton := if (can_pwr_all_elec h && negb (fc_forced_on f) && (old_fc =? n0))%bool then n0
               else fc_time_on (dec prev) + e_dt e in
    mkdec des essreq erreq elreq mcreq mech elin rd help ess kwh soc' ton.

  (** ** set_fc_power, simdrive.py:1528-1583 *)
  Definition calc_fc_out (m : misc_row F) (l : lims_row F) (p : pwr_row F) (d : dec_row F) : F :=
    let aux := aux_in_kw m in
    if fc_max_kw veh =? n0 then n0
    else if is_h2fc (fc_eff_type veh) then
      nmin (cur_max_fc_kw_out l)
           (nmax n0 (mc_elec_kw_in_ach d + aux - ess_kw_out_ach d - roadway_chg_kw_out_ach d))
    else if (no_elec_sys veh || no_elec_aux veh || high_acc_fc_on_tag m)%bool then
      nmin (cur_max_fc_kw_out l) (nmax n0 (trans_kw_in_ach p - mc_mech_kw_out_ach d + aux))
    else nmin (cur_max_fc_kw_out l) (nmax n0 (trans_kw_in_ach p - mc_mech_kw_out_ach d)).
  (** The map value used at output [x], 1572-1577. *)
  Definition fc_eff_at (x : F) : F :=
    getZ (fc_eff_array veh) (below (fc_kw_out_array veh) (nmin x (fc_max_kw veh))).
  (** simdrive.py:1528-1582 *)
  Definition set_fc_power (e : step_env F) (m : misc_row F) (l : lims_row F) (p : pwr_row F)
             (d : dec_row F) : fc_row F :=
    let out := calc_fc_out m l p d in
    let pct0 := if fc_max_kw veh =? n0 then n0 else out / fc_max_kw veh in
    let pct := if out =? n0 then n0 else pct0 in
    let inp := if out =? n0 then n0
               else if negb (fc_eff_at out =? n0) then out / fc_eff_at out else n0 in
    mkfc out pct inp inp (inp * e_dt e * (n1 / k3600)).

  (** ** solve_step, simdrive.py:663-673.  [prev] is row i-1, [cur] row i on entry. *)
  Definition solve_row (e : step_env F) (prev cur : row F) : row F :=
    let c := ctl cur in
    let m := set_misc_calcs e prev (aux_in_kw (misc cur)) in
    let l := set_comp_lims e prev m c in
    let p0 := set_power_calcs e prev l (start_speed_of e (spd cur)) in
    let '(p, s) := set_ach_speed e prev l p0 (spd cur) in
    let h := set_hybrid_cont_calcs e prev m l p c (hyb cur) in
    let f := set_fc_forced_state e p h in
    let d := set_hybrid_cont_decisions e prev m l p h f c (fc_kw_out_ach (fc cur)) in
    mkrow m l p s h f d (set_fc_power e m l p d) c.
End SimModel.
