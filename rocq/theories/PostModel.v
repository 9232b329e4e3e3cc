(** Model of the post-processing of python/fastsim/simdrive.py: set_post_scalars (2190-2293), get_diagnostics
    (2449-2492), set_battery_wear (2494-2521), estimate_soc_corrected_fuel_kJ (2531-2569) and
    gap_to_lead_vehicle_m (335-342).  Definitions only.

    Log messages are not modelled; whether the energy audit would warn is a flag. *)
From Verif Require Import Num Numpy CycleModel VehModel SimModel SimState WalkModel.
From Coq Require Import Ascii.

(** Attributes written by set_post_scalars, apart from accel_kw (see [post_accel] in WalkModel.v). *)
(** simdrive.py:2190-2294 *)
Record post_scalars (F : Type) := mkpost {
  fs_cumu_mj_out_ach : list F; mpgge : F; roadway_chg_kj : F; ess_dischg_kj : F;
  battery_kwh_per_mi : F; electric_kwh_per_mi : F; fuel_kj : F; ess2fuel_kwh : F;
  drag_kj : F; ascent_kj : F; rr_kj : F; ess_loss_kw : list F; brake_kj : F; trans_kj : F; mc_kj : F;
  ess_eff_kj : F; aux_kj : F; fc_kj : F; net_kj : F; ke_kj : F; energy_audit_error : F; audit_warning : bool;
  trace_miss : bool; trace_miss_dist_frac : F; trace_miss_time_frac : F; trace_miss_speed_mps : F }.
Arguments mkpost {F}. Arguments fs_cumu_mj_out_ach {F}. Arguments mpgge {F}. Arguments roadway_chg_kj {F}.
Arguments ess_dischg_kj {F}. Arguments battery_kwh_per_mi {F}. Arguments electric_kwh_per_mi {F}.
Arguments fuel_kj {F}. Arguments ess2fuel_kwh {F}. Arguments drag_kj {F}. Arguments ascent_kj {F}.
Arguments rr_kj {F}. Arguments ess_loss_kw {F}. Arguments brake_kj {F}. Arguments trans_kj {F}. Arguments mc_kj {F}.
Arguments ess_eff_kj {F}. Arguments aux_kj {F}. Arguments fc_kj {F}. Arguments net_kj {F}. Arguments ke_kj {F}.
Arguments energy_audit_error {F}. Arguments audit_warning {F}. Arguments trace_miss {F}.
Arguments trace_miss_dist_frac {F}. Arguments trace_miss_time_frac {F}. Arguments trace_miss_speed_mps {F}.

Section PostModel.
  Context {F : Type} {N : Num F}.
  Local Open Scope num_scope.

  (** ** set_post_scalars *)
  (** x.sum() of a per-step array. simdrive.py:2190-2294 (x.sum()). *)
  Definition sum_rows (d : sdrive F) (f : row F -> F) : F := nsum (map f (d_rows d)).
  (** An entry of ess_loss_kw, simdrive.py:2228-2235. *)
  Definition ess_loss (v : vehicle F) (p : F) : F :=
    if ((ess_max_kw v =? n0) || (ess_max_kwh v =? n0))%bool then n0
    else if p <? n0 then - p - (- p * nsqrt (ess_round_trip_eff v))
    else p * (n1 / nsqrt (ess_round_trip_eff v)) - p.
  (** Entry 0 keeps the zero of init_arrays, simdrive.py:323 and 2228. *)
  Definition ess_loss_arr (d : sdrive F) : list F :=
    match d_rows d with
    | [] => []
    | _ :: r => n0 :: map (fun x => ess_loss (d_veh d) (ess_kw_out_ach (dec x))) r
    end.
  (** simdrive.py:2196-2201. *)
  Definition post_mpgge (d : sdrive F) : F :=
    let kwh := sum_rows d (fun r => fs_kwh_out_ach (fc r)) in
    if kwh =? n0 then n0
    else sum_rows d (fun r => dist_mi_ach (spd r)) / (kwh / kwh_per_gge (d_props d)).
  (** simdrive.py:2256-2260 and 2284-2286. *)
  Definition miss_dist_frac (d : sdrive F) : F :=
    let dm := nsum (dist_m (d_cyc0 d)) in
    if dm >? n0 then nabs (sum_rows d (fun r => dist_m_ach (spd r)) - dm) / dm else n0.
  (** simdrive.py:2275-2294 *)
  Definition miss_time_frac (d : sdrive F) : F :=
    let t0 := last (time_s (d_cyc0 d)) n0 in
    nabs (last (time_s (d_cyc d)) n0 - t0) / t0.
  (** simdrive.py:2275-2294 *)
  Definition miss_speed (d : sdrive F) : F :=
    match map (fun i => nabs (mps_ach_at d i - cmps (d_cyc d) i)) (seq 0 (length (time_s (d_cyc d)))) with
    | [] => n0
    | a :: r => nmaxl a r
    end.
  (** simdrive.py:2190-2294 *)
  Definition set_post_scalars (d : sdrive F) : post_scalars F :=
    let v := d_veh d in
    let s := d_sp d in
    let cumu := map (fun x => x * lit 1 1000)
                    (cumsum (zipw nmul (map (fun r => fs_kw_out_ach (fc r)) (d_rows d)) (dt_s (d_cyc d)))) in
    let road := sum_dt d (fun r => roadway_chg_kw_out_ach (dec r)) in
    let dis := - (soc_last d - soc_first d) * ess_max_kwh v * nofZ 3600 in
    let mi := sum_rows d (fun r => dist_mi_ach (spd r)) in
    let fuel := sum_dt d (fun r => fs_kw_out_ach (fc r)) in
    let drag := sum_dt d (fun r => drag_kw (pwr r)) in
    let asc := sum_dt d (fun r => ascent_kw (pwr r)) in
    let rr := sum_dt d (fun r => rr_kw (pwr r)) in
    let loss := ess_loss_arr d in
    let brake := sum_dt d (fun r => cyc_fric_brake_kw (pwr r)) in
    let trans := sum_dt d (fun r => trans_kw_in_ach (pwr r) - trans_kw_out_ach (pwr r)) in
    let mc := sum_dt d (fun r => mc_elec_kw_in_ach (dec r) - mc_mech_kw_out_ach (dec r)) in
    let esseff := nsum (zipw nmul loss (dt_s (d_cyc d))) in
    let aux := sum_dt d (fun r => aux_in_kw (misc r)) in
    let fcl := sum_dt d (fun r => fc_kw_in_ach (fc r) - fc_kw_out_ach (fc r)) in
    let net := drag + asc + rr + brake + trans + mc + esseff + aux + fcl in
    let ke := lit 1 2 * veh_kg v * (nsq (mps_ach_at d 0) - nsq (mps_ach_at d (length (d_rows d) - 1))) / nofZ 1000 in
    let err := ((road + dis + fuel + ke) - net) / (road + dis + fuel + ke) in
    let md := miss_dist_frac d in
    let mt := miss_time_frac d in
    let ms := miss_speed d in
    mkpost cumu (post_mpgge d) road dis
      (if mi >? n0 then dis / nofZ 3600 / mi else n0)
      (if mi >? n0 then (road + dis) / nofZ 3600 / mi else n0)
      fuel
      (if fuel + road =? n0 then n1 else dis / (fuel + road))
      drag asc rr loss brake trans mc esseff aux fcl net ke err
      (nabs err >? energy_audit_error_tol s)
      (((negb (missed_trace_correction s) && (md >? trace_miss_dist_tol s))
        || (missed_trace_correction s && (mt >? trace_miss_time_tol s))
        || (ms >? trace_miss_speed_mps_tol s))%bool)
      md mt ms.

  (** gap_to_lead_vehicle_m, simdrive.py:335-342. *)
  Definition gap_to_lead_vehicle_m (d : sdrive F) : list F :=
    let g := zipw nsub (cumsum (trapz_step_distances (d_cyc0 d))) (cumsum (trapz_step_distances (d_cyc d))) in
    if idm_allow (d_sp d) then map (fun x => x + idm_minimum_gap_m (d_sp d)) g else g.

  (** ** get_diagnostics *)
  (** np.trapz(y, x); simdrive.py:2449-2492 *)
  Definition trapz (y x : list F) : F :=
    nsum (zipw (fun dx s => dx * s / n2) (diff x) (zipw nadd (tl y) y)).
  (** The two comprehensions, 2470-2475. *)
  Definition pos_part (x : F) : F := if x >=? n0 then x else n0.
  (** simdrive.py:2449-2492 *)
  Definition neg_part (x : F) : F := if x <? n0 then x else n0.
  (** prog.search(var): the word parts before and after a "_kw" that no "h" follows; the first part is greedy, so the last
      occurrence of "_kw" that no "h" follows is the one that splits the name. simdrive.py:2449-2492. *)
  Fixpoint split_kw (s : string) : option (string * string) :=
    match s with
    | EmptyString => None
    | String c r =>
        match split_kw r with
        | Some (a, b) => Some (String c a, b)
        | None =>
            if (prefix "_kw" s && negb (prefix "_kwh" s))%bool then Some (EmptyString, substring 3 (String.length s) s)
            else None
        end
    end.
  (** output[search[1] + '_kj' + search[2] + sfx]; simdrive.py:2449-2492 *)
  Definition kj_key (var sfx : string) : option string :=
    match split_kw var with Some (a, b) => Some (a ++ "_kj" ++ b ++ sfx)%string | None => None end.
  (** output[key] = x; simdrive.py:2449-2492 *)
  Fixpoint dict_put {A} (k : string) (x : A) (l : list (string * A)) : list (string * A) :=
    match l with
    | [] => [(k, x)]
    | (k', x') :: r => if String.eqb k k' then (k, x) :: r else (k', x') :: dict_put k x r
    end.
  (** simdrive.py:2449-2492 *)
  Fixpoint dict_get {A} (k : string) (l : list (string * A)) : option A :=
    match l with
    | [] => None
    | (k', x') :: r => if String.eqb k k' then Some x' else dict_get k r
    end.
  (** One round of the loop over the power variables, 2468-2483. *)
  Definition diag_step (ts : list F) (out : list (string * F)) (ch : string * list F) : list (string * F) :=
    match kj_key (fst ch) "_pos", kj_key (fst ch) "_neg" with
    | Some p, Some n =>
        dict_put n (trapz (map neg_part (snd ch)) ts) (dict_put p (trapz (map pos_part (snd ch)) ts) out)
    | _, _ => out
    end.
  (** simdrive.py:2449-2492 (self.__getattribute__(var)) *)
  Definition chan (d : sdrive F) (f : row F -> F) : list F := map f (d_rows d).
  (** The array attributes of the object whose names contain "_kw" not followed by "h", 215-327.  (No other
      attribute's name matches.  Here in the order of init_arrays; the code goes through them in the
      order of __dir__.) *)
  Definition kw_channels (d : sdrive F) : list (string * list F) :=
    [("cur_max_fs_kw_out", chan d (fun r => cur_max_fs_kw_out (lims r)));
     ("fc_trans_lim_kw", chan d (fun r => fc_trans_lim_kw (lims r)));
     ("cur_max_fc_kw_out", chan d (fun r => cur_max_fc_kw_out (lims r)));
     ("ess_cap_lim_dischg_kw", chan d (fun r => ess_cap_lim_dischg_kw (lims r)));
     ("cur_ess_max_kw_out", chan d (fun r => cur_ess_max_kw_out (lims r)));
     ("cur_max_avail_elec_kw", chan d (fun r => cur_max_avail_elec_kw (lims r)));
     ("ess_cap_lim_chg_kw", chan d (fun r => ess_cap_lim_chg_kw (lims r)));
     ("cur_max_ess_chg_kw", chan d (fun r => cur_max_ess_chg_kw (lims r)));
     ("cur_max_elec_kw", chan d (fun r => cur_max_elec_kw (lims r)));
     ("mc_elec_in_lim_kw", chan d (fun r => mc_elec_in_lim_kw (lims r)));
     ("mc_transi_lim_kw", chan d (fun r => mc_transi_lim_kw (lims r)));
     ("cur_max_mc_kw_out", chan d (fun r => cur_max_mc_kw_out (lims r)));
     ("ess_lim_mc_regen_perc_kw", chan d (fun r => ess_lim_mc_regen_perc_kw (lims r)));
     ("cur_max_mech_mc_kw_in", chan d (fun r => cur_max_mech_mc_kw_in (lims r)));
     ("cur_max_trans_kw_out", chan d (fun r => cur_max_trans_kw_out (lims r)));
     ("cyc_trac_kw_req", chan d (fun r => cyc_trac_kw_req (pwr r)));
     ("cur_max_trac_kw", chan d (fun r => cur_max_trac_kw (lims r)));
     ("spare_trac_kw", chan d (fun r => spare_trac_kw (pwr r)));
     ("cyc_tire_inertia_kw", chan d (fun r => cyc_tire_inertia_kw (pwr r)));
     ("cyc_whl_kw_req", chan d (fun r => cyc_whl_kw_req (pwr r)));
     ("regen_contrl_lim_kw_perc", chan d (fun r => regen_contrl_lim_kw_perc (pwr r)));
     ("cyc_regen_brake_kw", chan d (fun r => cyc_regen_brake_kw (pwr r)));
     ("cyc_fric_brake_kw", chan d (fun r => cyc_fric_brake_kw (pwr r)));
     ("cyc_trans_kw_out_req", chan d (fun r => cyc_trans_kw_out_req (pwr r)));
     ("trans_kw_out_ach", chan d (fun r => trans_kw_out_ach (pwr r)));
     ("trans_kw_in_ach", chan d (fun r => trans_kw_in_ach (pwr r)));
     ("min_mc_kw_2help_fc", chan d (fun r => min_mc_kw_2help_fc (pwr r)));
     ("mc_mech_kw_out_ach", chan d (fun r => mc_mech_kw_out_ach (dec r)));
     ("mc_elec_kw_in_ach", chan d (fun r => mc_elec_kw_in_ach (dec r)));
     ("aux_in_kw", chan d (fun r => aux_in_kw (misc r)));
     ("roadway_chg_kw_out_ach", chan d (fun r => roadway_chg_kw_out_ach (dec r)));
     ("min_ess_kw_2help_fc", chan d (fun r => min_ess_kw_2help_fc (dec r)));
     ("ess_kw_out_ach", chan d (fun r => ess_kw_out_ach (dec r)));
     ("fc_kw_out_ach", chan d (fun r => fc_kw_out_ach (fc r)));
     ("fc_kw_out_ach_pct", chan d (fun r => fc_kw_out_ach_pct (fc r)));
     ("fc_kw_in_ach", chan d (fun r => fc_kw_in_ach (fc r)));
     ("fs_kw_out_ach", chan d (fun r => fs_kw_out_ach (fc r)));
     ("ess_regen_buff_dischg_kw", chan d (fun r => ess_regen_buff_dischg_kw (hyb r)));
     ("max_ess_regen_buff_chg_kw", chan d (fun r => max_ess_regen_buff_chg_kw (hyb r)));
     ("ess_accel_buff_chg_kw", chan d (fun r => ess_accel_buff_chg_kw (hyb r)));
     ("max_ess_accell_buff_dischg_kw", chan d (fun r => max_ess_accell_buff_dischg_kw (hyb r)));
     ("ess_accel_regen_dischg_kw", chan d (fun r => ess_accel_regen_dischg_kw (hyb r)));
     ("mc_elec_in_kw_for_max_fc_eff", chan d (fun r => mc_elec_in_kw_for_max_fc_eff (hyb r)));
     ("elec_kw_req_4ae", chan d (fun r => elec_kw_req_4ae (hyb r)));
     ("desired_ess_kw_out_for_ae", chan d (fun r => desired_ess_kw_out_for_ae (hyb r)));
     ("ess_ae_kw_out", chan d (fun r => ess_ae_kw_out (hyb r)));
     ("er_ae_kw_out", chan d (fun r => er_ae_kw_out (hyb r)));
     ("ess_desired_kw_4fc_eff", chan d (fun r => ess_desired_kw_4fc_eff (dec r)));
     ("ess_kw_if_fc_req", chan d (fun r => ess_kw_if_fc_req (dec r)));
     ("cur_max_mc_elec_kw_in", chan d (fun r => cur_max_mc_elec_kw_in (lims r)));
     ("fc_kw_gap_fr_eff", chan d (fun r => fc_kw_gap_fr_eff (hyb r)));
     ("er_kw_if_fc_req", chan d (fun r => er_kw_if_fc_req (dec r)));
     ("mc_elec_kw_in_if_fc_req", chan d (fun r => mc_elec_kw_in_if_fc_req (dec r)));
     ("mc_kw_if_fc_req", chan d (fun r => mc_kw_if_fc_req (dec r)));
     ("mc_mech_kw_4forced_fc", chan d (fun r => mc_mech_kw_4forced_fc (forced r)));
     ("drag_kw", chan d (fun r => drag_kw (pwr r)));
     ("ess_loss_kw", ess_loss_arr d);
     ("accel_kw", chan d (fun r => accel_kw (pwr r)));
     ("ascent_kw", chan d (fun r => ascent_kw (pwr r)));
     ("rr_kw", chan d (fun r => rr_kw (pwr r)));
     ("cur_max_roadway_chg_kw", chan d (fun r => cur_max_roadway_chg_kw (ctl r)))].
  (** simdrive.py:2449-2492 *)
  Definition get_diagnostics (d : sdrive F) : list (string * F) :=
    let out := fold_left (diag_step (time_s (d_cyc d))) (kw_channels d) [] in
    let mi := sum_rows d (fun r => dist_mi_ach (spd r)) in
    let kwh := sum_rows d (fun r => fs_kwh_out_ach (fc r)) in
    dict_put "mpgge" (if kwh >? n0 then mi / kwh * kwh_per_gge (d_props d) else n0) (dict_put "dist_miles_final" mi out).

  (** ** set_battery_wear *)
  (** The arrays it writes. simdrive.py:2494-2521. *)
  Record wear := mkwear { add_kwh : list F; dod_cycs : list F; ess_perc_dead : list F }.
  (** Their initial values, 318-321. *)
  Definition fresh_wear (d : sdrive F) : wear :=
    let z := zeros (length (d_rows d)) in mkwear z z z.
  (** a[1:] = [f i for i in range(1, n)]; simdrive.py:2494-2521 *)
  Definition fill_from1 (a : list F) (f : nat -> F) (n : nat) : list F :=
    match a with [] => [] | a0 :: _ => a0 :: map f (seq 1 (n - 1)) end.
  (** simdrive.py:2494-2521 *)
  Definition set_battery_wear (d : sdrive F) (w : wear) : wear :=
    let n := length (d_rows d) in
    let e := fun i => ess_cur_kwh (dec (row_at d i)) in
    let cap := ess_max_kwh (d_veh d) in
    let add := fill_from1 (add_kwh w)
                 (fun i => if e i >? e (i - 1)%nat then (e i - e (i - 1)%nat) + nth (i - 1) (add_kwh w) n0 else n0) n in
    let dod := fill_from1 (dod_cycs w)
                 (fun i => if cap =? n0 then n0
                           else if nth i add n0 =? n0 then nth (i - 1) add n0 / cap else n0) n in
    let p := n1 / ess_life_coef_b (d_veh d) in
    mkwear add dod
      (map (fun i => if nth i dod n0 =? n0 then n0
                     else npow (ess_life_coef_a (d_veh d)) p / npow (nth i dod n0) p) (seq 0 n)).

  (** ** estimate_soc_corrected_fuel_kJ *)
  (** The helper f, 2540-2546. *)
  Definition ratio_where (d : sdrive F) (mask : row F -> bool) (num den : row F -> F) (default : F) : F :=
    let rs := filter mask (d_rows d) in
    match rs with
    | [] => default
    | _ => nsum (map num rs) / nsum (map den rs)
    end.
  (** mc_peak_eff is read even where it is not used, so its assertion can stop the calculation. *)
  (** simdrive.py:2531-2569 *)
  Definition estimate_soc_corrected_fuel_kJ (d : sdrive F) : Res F :=
    match veh_pt_type (d_veh d) with
    | HEV =>
        let delta := soc_last d - soc_first d in
        let ess_eff := nsqrt (ess_round_trip_eff (d_veh d)) in
        do peak <- get_mcPeakEff (d_veh d);
        let mech := fun r => mc_mech_kw_out_ach (dec r) in
        let elec := fun r => mc_elec_kw_in_ach (dec r) in
        let mc_chg := ratio_where d (fun r => mech r <? n0) elec mech peak in
        let mc_dis := ratio_where d (fun r => mech r >? n0) mech elec mc_chg in
        let trac := ratio_where d (fun r => elec r >? n0) elec (fun r => ess_kw_out_ach (dec r)) n1 in
        let fc_eff := ratio_where d (fun r => trans_kw_in_ach (pwr r) >? n0)
                        (fun r => fc_kw_out_ach (fc r)) (fun r => fc_kw_in_ach (fc r))
                        (sum_rows d (fun r => fc_kw_out_ach (fc r)) / sum_rows d (fun r => fc_kw_in_ach (fc r))) in
        let cap := ess_max_kwh (d_veh d) * nofZ 3600 in
        let k := if delta >=? n0 then cap * ess_eff * mc_dis * trac / fc_eff
                 else cap / (ess_eff * mc_chg * fc_eff) in
        Ok (fuel_kj (set_post_scalars d) + - n1 * delta * k)
    | _ => Err ValueError
    end.
End PostModel.
