(** The entries written by each method of a step, each in terms of the other entries. *)
From Verif Require Import Num Numpy CycleModel VehModel SimModel.

Section Eqs.
  Context {F : Type} {N : Num F}.
  Local Open Scope num_scope.
  Variables (v : vehicle F) (pr : physprops F) (e : step_env F) (p : row F).
  Notation dt := (e_dt e).
  Notation v1 := (mps_ach (spd p)).
  Notation soc1 := (soc (dec p)).

  Record lims_eqs (m : misc_row F) (c : ctl_row F) (l : lims_row F) : Prop := {
    le_fs : cur_max_fs_kw_out l = nmin (fs_max_kw v)
              (fs_kw_out_ach (fc p) + fs_max_kw v / fs_secs_to_peak_pwr v * dt);
    le_fctr : fc_trans_lim_kw l = fc_kw_out_ach (fc p) + fc_max_kw v / fc_sec_to_peak_pwr v * dt;
    le_fc : cur_max_fc_kw_out l = nmin (fc_max_kw v) (fc_trans_lim_kw l);
    le_dis : ess_cap_lim_dischg_kw l =
             if ((ess_max_kwh v =? n0) || (soc1 <? min_soc v))%bool then n0
             else ess_max_kwh v * nsqrt (ess_round_trip_eff v) * k3600 * (soc1 - min_soc v) / dt;
    le_ess : cur_ess_max_kw_out l = nmin (ess_max_kw v) (ess_cap_lim_dischg_kw l);
    le_chgcap : ess_cap_lim_chg_kw l =
             if ((ess_max_kwh v =? n0) || (ess_max_kw v =? n0))%bool then n0
             else nmax ((max_soc v - soc1) * ess_max_kwh v * n1
                        / nsqrt (ess_round_trip_eff v) / (dt * n1 / k3600)) n0;
    le_chg : cur_max_ess_chg_kw l = nmin (ess_cap_lim_chg_kw l) (ess_max_kw v);
    le_elec : cur_max_elec_kw l =
             if is_h2fc (fc_eff_type v)
             then cur_max_fc_kw_out l + cur_max_roadway_chg_kw c + cur_ess_max_kw_out l - aux_in_kw m
             else cur_max_roadway_chg_kw c + cur_ess_max_kw_out l - aux_in_kw m;
    le_avail : cur_max_avail_elec_kw l = nmin (cur_max_elec_kw l) (mc_max_elec_in_kw v);
    le_mcel : mc_elec_in_lim_kw l = calc_mc_elec_in_lim v (cur_max_elec_kw l) (cur_max_avail_elec_kw l);
    le_mctr : mc_transi_lim_kw l =
              nabs (mc_mech_kw_out_ach (dec p)) + mc_max_kw v / mc_sec_to_peak_pwr v * dt;
    le_mc : cur_max_mc_kw_out l =
            nmax (nmin (nmin (mc_elec_in_lim_kw l) (mc_transi_lim_kw l))
                       ((if stop_start v then n0 else n1) * mc_max_kw v)) (- mc_max_kw v);
    le_mcelin : cur_max_mc_elec_kw_in l = calc_mc_elec_kw_in v (cur_max_mc_kw_out l);
    le_perc : ess_lim_mc_regen_perc_kw l =
              if mc_max_kw v =? n0 then n0 else nmin ((cur_max_ess_chg_kw l + aux_in_kw m) / mc_max_kw v) n1;
    le_mechin : cur_max_mech_mc_kw_in l = calc_mech_mc_in v (cur_max_ess_chg_kw l) (cur_max_roadway_chg_kw c);
    le_trac : cur_max_trac_kw l = calc_max_trac_kw v pr (max_trac_mps m);
    le_trans : cur_max_trans_kw_out l =
       if impose_coast c then n0
       else
         let mech := if is_h2fc (fc_eff_type v) then cur_max_mc_kw_out l
                     else cur_max_mc_kw_out l + cur_max_fc_kw_out l in
         if (no_elec_sys v || no_elec_aux v || high_acc_fc_on_tag m)%bool
         then nmin ((mech - aux_in_kw m) * trans_eff v) (cur_max_trac_kw l / trans_eff v)
         else nmin ((mech - nmin (cur_max_elec_kw l) n0) * trans_eff v) (cur_max_trac_kw l / trans_eff v) }.
  Lemma lims_are m c : lims_eqs m c (set_comp_lims v pr e p m c).
  Proof. constructor; reflexivity. Qed.

  Record pwr_eqs (l : lims_row F) (x : F) (q : pwr_row F) : Prop := {
    pe_drag : drag_kw q = lit 1 2 * air_density_kg_per_m3 pr * drag_coef v * frontal_area_m2 v
                * ncube ((v1 + x) / n2) / k1000;
    pe_accel : accel_kw q = veh_kg v / (n2 * dt) * (nsq x - nsq v1) / k1000;
    pe_ascent : ascent_kw q = a_grav_mps2 pr * nsin (natan (e_grade e x)) * veh_kg v * ((v1 + x) / n2) / k1000;
    pe_trac : cyc_trac_kw_req q = drag_kw q + accel_kw q + ascent_kw q;
    pe_spare : spare_trac_kw q = cur_max_trac_kw l - cyc_trac_kw_req q;
    pe_rr : rr_kw q = veh_kg v * a_grav_mps2 pr * wheel_rr_coef v * ncos (natan (e_grade e x)) * (v1 + x) / n2 / k1000;
    pe_rad : cyc_whl_rad_per_sec q = x / wheel_radius_m v;
    pe_tire : cyc_tire_inertia_kw q =
              (lit 1 2 * wheel_inertia_kg_m2 v * num_wheels v * nsq (x / wheel_radius_m v) / dt
               - lit 1 2 * wheel_inertia_kg_m2 v * num_wheels v * nsq (v1 / wheel_radius_m v) / dt) / k1000;
    pe_whl : cyc_whl_kw_req q = cyc_trac_kw_req q + rr_kw q + cyc_tire_inertia_kw q;
    pe_perc : regen_contrl_lim_kw_perc q =
              max_regen v / (n1 + regen_a v * nexp ((- regen_b v) *
                  ((mph_of (e_mps e) + v1 * MPH_PER_MPS) / n2 + n1)));
    pe_regen : cyc_regen_brake_kw q =
       nmax (nmin (cur_max_mech_mc_kw_in l * trans_eff v) (regen_contrl_lim_kw_perc q * (- cyc_whl_kw_req q))) n0;
    pe_fric : cyc_fric_brake_kw q = - nmin (cyc_regen_brake_kw q + cyc_whl_kw_req q) n0;
    pe_req : cyc_trans_kw_out_req q = cyc_whl_kw_req q + cyc_fric_brake_kw q;
    pe_met : cyc_met q = (cyc_trans_kw_out_req q <=? cur_max_trans_kw_out l);
    pe_out : trans_kw_out_ach q = if cyc_met q then cyc_trans_kw_out_req q else cur_max_trans_kw_out l;
    pe_in : trans_kw_in_ach q = if trans_kw_out_ach q >? n0 then trans_kw_out_ach q / trans_eff v
                                else trans_kw_out_ach q * trans_eff v;
    pe_help : min_mc_kw_2help_fc q =
       if cyc_met q then
         if is_h2fc (fc_eff_type v) then nmax (trans_kw_in_ach q) (- cur_max_mech_mc_kw_in l)
         else nmax (trans_kw_in_ach q - cur_max_fc_kw_out l) (- cur_max_mech_mc_kw_in l)
       else nmax (cur_max_mc_kw_out l) (- cur_max_mech_mc_kw_in l) }.
  Lemma pwr_are l x : pwr_eqs l x (set_power_calcs v pr e p l x).
  Proof. constructor; reflexivity. Qed.

  Record dec_eqs (m : misc_row F) (l : lims_row F) (q : pwr_row F) (h : hyb_row F) (f : forced_row F)
         (c : ctl_row F) (old : F) (d : dec_row F) : Prop := {
    de_des : ess_desired_kw_4fc_eff d =
       (let d0 := - mc_elec_in_kw_for_max_fc_eff h - cur_max_roadway_chg_kw c in
        if d0 >? n0 then d0 * ess_dischg_to_fc_max_eff_perc v else d0 * ess_chg_to_fc_max_eff_perc v);
    de_essreq : ess_kw_if_fc_req d = calc_ess_if_fc_req v m l h (ess_desired_kw_4fc_eff d);
    de_erreq : er_kw_if_fc_req d =
       nmax n0 (nmin (nmin (cur_max_roadway_chg_kw c) (cur_max_mech_mc_kw_in l))
                     (ess_kw_if_fc_req d - mc_elec_in_lim_kw l + aux_in_kw m));
    de_elreq : mc_elec_kw_in_if_fc_req d = ess_kw_if_fc_req d + er_kw_if_fc_req d - aux_in_kw m;
    de_mcreq : mc_kw_if_fc_req d = calc_mc_if_fc_req v (mc_elec_kw_in_if_fc_req d);
    de_mech : mc_mech_kw_out_ach d = calc_mc_mech_out v l q h f (mc_kw_if_fc_req d);
    de_elin : mc_elec_kw_in_ach d = calc_mc_elec_in v (mc_mech_kw_out_ach d);
    de_road : roadway_chg_kw_out_ach d = calc_roadway v h c (mc_elec_kw_in_ach d) (er_kw_if_fc_req d);
    de_help : min_ess_kw_2help_fc d =
       mc_elec_kw_in_ach d + aux_in_kw m - cur_max_fc_kw_out l - roadway_chg_kw_out_ach d;
    de_ess : ess_kw_out_ach d = calc_ess_out v m l q h (mc_elec_kw_in_ach d) (roadway_chg_kw_out_ach d)
                                  (min_ess_kw_2help_fc d) (ess_desired_kw_4fc_eff d);
    de_kwh : ess_cur_kwh d = calc_ess_cur_kwh v e p (ess_kw_out_ach d);
    de_soc : soc d = if ess_max_kwh v =? n0 then n0 else ess_cur_kwh d / ess_max_kwh v;
    de_ton : fc_time_on d = if (can_pwr_all_elec h && negb (fc_forced_on f) && (old =? n0))%bool then n0
                            else fc_time_on (dec p) + dt }.
  Lemma dec_are m l q h f c old : dec_eqs m l q h f c old (set_hybrid_cont_decisions v e p m l q h f c old).
  Proof. constructor; reflexivity. Qed.

  Record fc_eqs (m : misc_row F) (l : lims_row F) (q : pwr_row F) (d : dec_row F) (r : fc_row F) : Prop := {
    fe_out : fc_kw_out_ach r = calc_fc_out v m l q d;
    fe_pct : fc_kw_out_ach_pct r =
       if fc_kw_out_ach r =? n0 then n0
       else if fc_max_kw v =? n0 then n0 else fc_kw_out_ach r / fc_max_kw v;
    fe_in : fc_kw_in_ach r =
       if fc_kw_out_ach r =? n0 then n0
       else if negb (fc_eff_at v (fc_kw_out_ach r) =? n0)
            then fc_kw_out_ach r / fc_eff_at v (fc_kw_out_ach r) else n0;
    fe_fs : fs_kw_out_ach r = fc_kw_in_ach r;
    fe_kwh : fs_kwh_out_ach r = fs_kw_out_ach r * dt * (n1 / k3600) }.
  Lemma fc_are m l q d : fc_eqs m l q d (set_fc_power v e m l q d).
  Proof. constructor; reflexivity. Qed.

  Record hyb_eqs (m : misc_row F) (l : lims_row F) (q : pwr_row F) (c : ctl_row F) (old h : hyb_row F) : Prop := {
    he_regen : (regen_buff_soc h, ess_regen_buff_dischg_kw h, max_ess_regen_buff_chg_kw h)
               = calc_regen_buff v e p l old;
    he_accel : (accel_buff_soc h, ess_accel_buff_chg_kw h, max_ess_accell_buff_dischg_kw h)
               = calc_accel_buff v e p l old;
    he_ard : ess_accel_regen_dischg_kw h =
       calc_accel_regen_dischg v e p l (regen_buff_soc h) (ess_regen_buff_dischg_kw h)
                               (accel_buff_soc h) (ess_accel_buff_chg_kw h);
    he_gap : fc_kw_gap_fr_eff h = nabs (trans_kw_out_ach q - max_fc_eff_kw v);
    he_mcfc : mc_elec_in_kw_for_max_fc_eff h = calc_mc_for_max_fc_eff v (trans_kw_out_ach q) (fc_kw_gap_fr_eff h);
    he_req : elec_kw_req_4ae h = calc_elec_req_4ae v (trans_kw_in_ach q) (aux_in_kw m);
    he_prev : prev_fc_time_on h = fc_time_on (dec p);
    he_can : can_pwr_all_elec h = calc_can_pwr_all_elec v e p l (accel_buff_soc h) (trans_kw_in_ach q) (elec_kw_req_4ae h);
    he_des : desired_ess_kw_out_for_ae h =
       if can_pwr_all_elec h then
         if trans_kw_in_ach q <? aux_in_kw m then aux_in_kw m + trans_kw_in_ach q
         else if regen_buff_soc h <? accel_buff_soc h then ess_accel_regen_dischg_kw h
         else if soc1 >? regen_buff_soc h then ess_regen_buff_dischg_kw h
         else if soc1 <? accel_buff_soc h then - ess_accel_buff_chg_kw h
         else trans_kw_in_ach q + aux_in_kw m - cur_max_roadway_chg_kw c
       else n0;
    he_essae : ess_ae_kw_out h =
       if can_pwr_all_elec h then
         nmax (nmax (nmax (- cur_max_ess_chg_kw l) (- max_ess_regen_buff_chg_kw h))
                    (nmin n0 (cur_max_roadway_chg_kw c - trans_kw_in_ach q + aux_in_kw m)))
              (nmin (cur_ess_max_kw_out l) (desired_ess_kw_out_for_ae h))
       else n0;
    he_erae : er_ae_kw_out h =
       nmin (nmax n0 (trans_kw_in_ach q + aux_in_kw m - ess_ae_kw_out h)) (cur_max_roadway_chg_kw c) }.
  Lemma hyb_are m l q c old : hyb_eqs m l q c old (set_hybrid_cont_calcs v e p m l q c old).
  Proof.
    unfold set_hybrid_cont_calcs.
    destruct (calc_regen_buff v e p l old) as [[rb rbd] rbc] eqn:E1.
    destruct (calc_accel_buff v e p l old) as [[ab abc] abd] eqn:E2.
    constructor; try reflexivity; cbn [regen_buff_soc ess_regen_buff_dischg_kw max_ess_regen_buff_chg_kw
      accel_buff_soc ess_accel_buff_chg_kw max_ess_accell_buff_dischg_kw]; congruence.
  Qed.
End Eqs.
