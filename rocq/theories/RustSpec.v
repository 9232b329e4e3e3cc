(** Specifications for the comparison of the two implementations, C109-C112. *)
From Verif Require Import Num CycleModel CycleSpec VehModel SimModel SimState PostModel.
Local Open Scope R_scope.

(** ** Vehicles on which both implementations read the same cells of the maps *)
(** Near the top of the motor's map Python cuts at 0.01 kW below the top and Rust at 99.99 % of it: no grid
    point lies between the two cuts. *)
Definition cuts_agree (grid : list R) (top : R) : Prop :=
  forall a, In a grid -> (top - 1/100 < a <-> top * (9999/10000) < a).
(** [top] is the largest entry. *)
Definition largest (top : R) (l : list R) : Prop := In top l /\ forall x, In x l -> x <= top.

(** A motor with its tables: three grids of one length starting at zero, the mechanical one reaching up to
    rated power. *)
Record has_motor (v : vehicle R) : Prop := {
  hm_kw : 0 < mc_max_kw v;
  hm_two : (2 <= length (mc_full_eff_array v))%nat;
  hm_out : length (mc_kw_out_array v) = length (mc_full_eff_array v);
  hm_in : length (mc_kw_in_array v) = length (mc_full_eff_array v);
  hm_out0 : nth_error (mc_kw_out_array v) 0 = Some 0;
  hm_in0 : nth_error (mc_kw_in_array v) 0 = Some 0;
  hm_pos : forall x, In x (mc_kw_out_array v) -> 0 <= x;
  hm_top : In (mc_max_kw v) (mc_kw_out_array v);
  hm_elec : largest (mc_max_elec_in_kw v) (mc_kw_in_array v);
  hm_elec_pos : 0 < mc_max_elec_in_kw v;
  hm_sec : 0 < mc_sec_to_peak_pwr v;
  hm_cut_out : cuts_agree (mc_kw_out_array v) (mc_max_kw v);
  hm_cut_in : cuts_agree (mc_kw_in_array v) (mc_max_elec_in_kw v) }.
(** No motor, no battery and no fuel cell. *)
Definition no_motor (v : vehicle R) : Prop :=
  mc_max_kw v = 0 /\ no_elec_sys v = true /\ fc_eff_type v <> H2FC /\ (ess_max_kw v = 0 \/ ess_max_kwh v = 0).

(** An engine map with a power for each efficiency, from zero to rated power. *)
Record engine_tables_ok (v : vehicle R) : Prop := {
  et_two : (2 <= length (fc_eff_array v))%nat;
  et_len : length (fc_kw_out_array v) = length (fc_eff_array v);
  et_zero : nth_error (fc_kw_out_array v) 0 = Some 0;
  et_top : largest (fc_max_kw v) (fc_kw_out_array v);
  et_sec : 0 < fc_sec_to_peak_pwr v }.

Record comparable (v : vehicle R) : Prop := {
  cp_motor : has_motor v \/ no_motor v;
  cp_engine : engine_tables_ok v;
  cp_ess : 0 <= ess_max_kw v;
  cp_kwh : no_elec_sys v = false -> ess_max_kwh v <> 0 }.

(** ** Rows of results *)
(** The limits of a row other than the one on fuel power. *)
Definition limits_but_fuel (l : lims_row R) : list R :=
  [fc_trans_lim_kw l; cur_max_fc_kw_out l; ess_cap_lim_dischg_kw l; cur_ess_max_kw_out l; ess_cap_lim_chg_kw l;
   cur_max_ess_chg_kw l; cur_max_elec_kw l; cur_max_avail_elec_kw l; mc_elec_in_lim_kw l; mc_transi_lim_kw l;
   cur_max_mc_kw_out l; cur_max_mc_elec_kw_in l; ess_lim_mc_regen_perc_kw l; cur_max_mech_mc_kw_in l;
   cur_max_trac_kw l; cur_max_trans_kw_out l].
(** The two rows differ at most in fuel: the fuel power, the fuel energy and the limit on fuel power, which
    nothing else reads. *)
Record same_but_fuel (a b : row R) : Prop := {
  sf_misc : misc a = misc b;
  sf_lims : limits_but_fuel (lims a) = limits_but_fuel (lims b);
  sf_pwr : pwr a = pwr b;
  sf_spd : spd a = spd b;
  sf_hyb : hyb a = hyb b;
  sf_forced : forced a = forced b;
  sf_dec : dec a = dec b;
  sf_out : fc_kw_out_ach (fc a) = fc_kw_out_ach (fc b);
  sf_pct : fc_kw_out_ach_pct (fc a) = fc_kw_out_ach_pct (fc b);
  sf_ctl : ctl a = ctl b }.

(** The fuel entries of a step of [dt] seconds with engine efficiency [eff] (no fuel if that is zero). *)
Definition fuel_at (f : fc_row R) (dt eff : R) : Prop :=
  let kw := if Req_EM_T eff 0 then 0 else fc_kw_out_ach f / eff in
  fc_kw_in_ach f = kw /\ fs_kw_out_ach f = kw /\ fs_kwh_out_ach f = kw * dt / 3600.

(** ** Runs *)
(** An override of the auxiliary load has one entry per time stamp. *)
Definition fits (ovr : option (list R)) (d : sdrive R) : Prop := forall l, ovr = Some l -> length l = length (time_s (d_cyc d)).
(** Without motor, auxiliary loads are not negative. *)
Definition loads_ok (ovr : option (list R)) (v : vehicle R) : Prop :=
  no_motor v -> 0 <= aux_kw v /\ 0 < alt_eff v /\ forall l x, ovr = Some l -> In x l -> 0 <= x.
(** A run on arrays of one length, with increasing times, no option that changes the cycle while driving,
    on a vehicle whose maps both implementations read alike. *)
Record plain_run (d : sdrive R) (ovr : option (list R)) : Prop := {
  pr_cyc : wf (d_cyc d); pr_cyc0 : wf (d_cyc0 d); pr_len : clen (d_cyc d) = clen (d_cyc0 d);
  pr_times : increasing (time_s (d_cyc d));
  pr_trace : missed_trace_correction (d_sp d) = false; pr_coast : coast_allow (d_sp d) = false; pr_idm : idm_allow (d_sp d) = false;
  pr_veh : comparable (d_veh d); pr_loads : loads_ok ovr (d_veh d); pr_fits : fits ovr d }.
(** The engine never delivers its rated power. *)
Definition below_rated (d : sdrive R) : Prop :=
  forall j, fc_kw_out_ach (fc (row_at d j)) < fc_max_kw (d_veh d) \/ fc_max_kw (d_veh d) = 0.

(** ** Figures reported after a run (C112) *)
(** Speeds are not negative, and one after the first sample is positive. *)
Definition moves (c : cyc R) : Prop :=
  (forall x, In x (mps c) -> 0 <= x) /\ exists i, (1 <= i < length (mps c))%nat /\ 0 < nth i (mps c) 0.
(** The figures of a report in which fuel has no part. *)
Definition figures_but_fuel (p : post_scalars R) : list R * list R * bool :=
  ([roadway_chg_kj p; ess_dischg_kj p; battery_kwh_per_mi p; electric_kwh_per_mi p; drag_kj p; ascent_kj p; rr_kj p;
    brake_kj p; trans_kj p; mc_kj p; ess_eff_kj p; aux_kj p; ke_kj p; trace_miss_dist_frac p; trace_miss_time_frac p;
    trace_miss_speed_mps p], ess_loss_kw p, trace_miss p).
