(** Properties C30, C31, C41-C43 and C66-C68 of the results reported after a run (python/fastsim/simdrive.py).
    Each group of theorems is followed by concrete cases that meet its hypotheses ([_run]: the model
    executed in binary64; [_case]: an instance over the reals). *)
From Coq Require Import Floats Lia.
From Verif Require Import Num FloatNum Numpy ListFacts CycleModel CycleSpec VehModel SimModel SimState
  WalkModel FrameProofs WalkProofs StepProofs SimSpec SimProofs1 SimProofs3 SimDemo SimProps WalkSpec WalkProofs2 WalkProps
  PostModel PostSpec PostProofs PostProofs2 PostProofs3 PostProofs4.
Local Open Scope R_scope.
Local Set Warnings "-inexact-float".

(** Results of a binary64 run. *)
Definition posted {A} (v : vehicle float) (c : cyc float) (s : float) (f : sdrive float -> post_scalars float -> A) : option A :=
  match sim_drive_walk (demo_sd v c) s None with Ok d => Some (f d (set_post_scalars d)) | Err _ => None end.

(** ** C30 *)
Theorem C30_audit : forall (d0 : sdrive R) (ovr : option (list R)) (d : sdrive R),
  wf_sd d0 -> run d0 ovr d -> increasing (time_s (d_cyc d)) ->
  no_elec_sys (d_veh d0) = false \/ ess_max_kwh (d_veh d0) = 0 ->
  audit_gap (set_post_scalars d) =
  over_steps d (fun i => driveline_imbalance (row_at d i) + road_imbalance (row_at d i)) - aux_load d 0 * first_time d.
Proof. exact audit_sum. Qed.
Theorem C30_audit_wheels : forall (d0 : sdrive R) (ovr : option (list R)) (d : sdrive R),
  wf_sd d0 -> run d0 ovr d -> no_dilation d0 -> increasing (time_s (d_cyc d)) ->
  no_elec_sys (d_veh d0) = false \/ ess_max_kwh (d_veh d0) = 0 ->
  audit_gap (set_post_scalars d) =
  over_steps d (fun i => driveline_imbalance (row_at d i) + shortfall (row_at d i))
  + (wheels_kJ d (final_step d) - wheels_kJ d 0) - aux_load d 0 * first_time d.
Proof. exact audit_met. Qed.
Theorem C30_closes : forall (d0 : sdrive R) (ovr : option (list R)) (d : sdrive R),
  wf_sd d0 -> run d0 ovr d -> no_dilation d0 -> increasing (time_s (d_cyc d)) ->
  no_elec_sys (d_veh d0) = false \/ ess_max_kwh (d_veh d0) = 0 ->
  (forall i, (1 <= i < length (d_rows d))%nat ->
     driveline_imbalance (row_at d i) = 0 /\ cyc_met (pwr (row_at d i)) = true) ->
  speed d (final_step d) = speed d 0 -> aux_load d 0 = 0 \/ first_time d = 0 ->
  let p := set_post_scalars d in
  audit_gap p = 0 /\ (0 <= energy_audit_error_tol (d_sp d0) -> energy_audit_error p = 0 /\ audit_warning p = false).
Proof. exact audit_zero. Qed.
(** The error reported is the gap relative to the energy put in. *)
Theorem C30_reported : forall (d : sdrive R), let p := set_post_scalars d in
  energy_audit_error p = audit_gap p / (roadway_chg_kj p + ess_dischg_kj p + fuel_kj p + ke_kj p) /\
  (audit_warning p = true <-> energy_audit_error_tol (d_sp d) < Rabs (energy_audit_error p)).
Proof.
  intros d p. split; [reflexivity|]. unfold p, set_post_scalars. cbn [audit_warning energy_audit_error]. unR.
  rcase; split; intros; auto; try discriminate; lra.
Qed.
(** When a step balances: with an engine, iff what is asked of it is between 0 and its limit, ... *)
Theorem C30_engine_hybrid : forall (d0 : sdrive R) (ovr : option (list R)) (d : sdrive R) (i : nat),
  is_step d0 ovr d i -> let v := d_veh d0 in let r := row_at d i in
  let asked := trans_kw_in_ach (pwr r) - mc_mech_kw_out_ach (dec r) + (if aux_on_shaft v r then aux_load d i else 0) in
  is_h2fc (fc_eff_type v) = false -> fc_max_kw v <> 0 -> ess_max_kw v <> 0 -> ess_max_kwh v <> 0 ->
  no_elec_aux v = true \/ no_elec_sys v = false ->
  driveline_imbalance r = Rmin (cur_max_fc_kw_out (lims r)) (Rmax 0 asked) - asked.
Proof. exact shaft_driveline. Qed.
Theorem C30_conventional : forall (d0 : sdrive R) (ovr : option (list R)) (d : sdrive R) (i : nat),
  is_step d0 ovr d i -> let v := d_veh d0 in let r := row_at d i in
  let asked := trans_kw_in_ach (pwr r) + aux_load d i in
  is_h2fc (fc_eff_type v) = false -> fc_max_kw v <> 0 -> ess_max_kw v = 0 -> mc_max_kw v = 0 -> no_elec_aux v = true ->
  driveline_imbalance r = Rmin (cur_max_fc_kw_out (lims r)) (Rmax 0 asked) - asked.
Proof. exact engine_driveline. Qed.
(** ... without, iff the motor delivers what the transmission takes and the auxiliaries are electric, ... *)
Theorem C30_battery_electric : forall (d0 : sdrive R) (ovr : option (list R)) (d : sdrive R) (i : nat),
  is_step d0 ovr d i -> let v := d_veh d0 in let r := row_at d i in
  is_h2fc (fc_eff_type v) = false -> fc_max_kw v = 0 -> ess_max_kw v <> 0 -> ess_max_kwh v <> 0 ->
  driveline_imbalance r = mc_mech_kw_out_ach (dec r) - trans_kw_in_ach (pwr r) - (if aux_on_shaft v r then aux_load d i else 0).
Proof. exact battery_driveline. Qed.
(** ... with a fuel cell, both for the motor and for the cell. *)
Theorem C30_fuel_cell : forall (d0 : sdrive R) (ovr : option (list R)) (d : sdrive R) (i : nat),
  is_step d0 ovr d i -> let v := d_veh d0 in let r := row_at d i in
  let asked := mc_elec_kw_in_ach (dec r) + aux_load d i - ess_kw_out_ach (dec r) in
  is_h2fc (fc_eff_type v) = true -> fc_max_kw v <> 0 ->
  driveline_imbalance r = (mc_mech_kw_out_ach (dec r) - trans_kw_in_ach (pwr r))
    + (Rmin (cur_max_fc_kw_out (lims r)) (Rmax 0 asked) - asked).
Proof. exact cell_driveline. Qed.
(** A vehicle without electric system but with a battery capacity is credited with a full discharge. *)
Theorem C30_phantom_discharge : forall (d0 : sdrive R) (ovr : option (list R)) (d : sdrive R),
  wf_sd d0 -> run d0 ovr d -> no_elec_sys (d_veh d0) = true -> ess_max_kwh (d_veh d0) <> 0 -> (2 <= length (d_rows d))%nat ->
  ess_dischg_kj (set_post_scalars d) = soc (dec (row_at d 0)) * ess_max_kwh (d_veh d0) * 3600.
Proof. exact phantom. Qed.
Definition phantom_veh {F} {N : Num F} : vehicle F := demo_veh CONV (z 100) n0 n0 (lit 15 10) true true (lit 7 10).
Theorem C30_no_electric_system_refuted : exists (d0 d : sdrive float),
  sim_drive_walk d0 0.5%float None = Ok d /\
  forallb (fun r => PrimFloat.eqb (ess_kw_out_ach (dec r)) 0%float && cyc_met (pwr r))%bool (d_rows d) = true /\
  PrimFloat.eqb (mps_ach (spd (row_at d 0))) (mps_ach (spd (row_at d 4))) = true /\
  audit_warning (set_post_scalars d) = true.
Proof.
  destruct (ok_witness (sim_drive_walk (demo_sd phantom_veh demo_trip) 0.5%float None)
    (fun d => (forallb (fun r => PrimFloat.eqb (ess_kw_out_ach (dec r)) 0%float && cyc_met (pwr r)) (d_rows d)
       && PrimFloat.eqb (mps_ach (spd (row_at d 0))) (mps_ach (spd (row_at d 4))) && audit_warning (set_post_scalars d))%bool)) as (d & E & Q).
  { vm_compute. reflexivity. }
  apply Bool.andb_true_iff in Q as [Q Q3]. apply Bool.andb_true_iff in Q as [Q1 Q2].
  exists (demo_sd phantom_veh demo_trip), d. auto.
Qed.
Example C30_run :
  posted demo_hev demo_trip 0.5 (fun _ p => (ess_dischg_kj p, fuel_kj p, drag_kj p, ascent_kj p, rr_kj p, brake_kj p))
    = Some (-34.313193256386462, 791.29462274636228, 0.68404500000000013, 7.0617877836507859, 6.4003188918253926, 3.4995223914800917)%float /\
  posted demo_hev demo_trip 0.5 (fun _ p => (trans_kj p, mc_kj p, ess_eff_kj p, aux_kj p, fc_kj p, net_kj p, ke_kj p, energy_audit_error p))
    = Some (13.910688391460456, 5.750633647520317, 5.1092729123125498, 2.3999999999999999, 712.16516047172604, 756.98142948997565, 0,
            1.5018444745495769e-16)%float /\
  posted demo_hev demo_dash 0.5 (fun _ p => (energy_audit_error p, audit_warning p)) = Some (0.0041838108234586576%float, true) /\
  posted phantom_veh demo_trip 0.5 (fun _ p => ess_dischg_kj p) = Some 2700%float.
Proof. vm_compute. repeat split. Qed.
Example C30_case : exists d, run conv_trip None d /\
  audit_gap (set_post_scalars d) = over_steps d (fun i => driveline_imbalance (row_at d i) + shortfall (row_at d i))
    + (wheels_kJ d (final_step d) - wheels_kJ d 0) - aux_load d 0 * first_time d /\
  (let r := row_at d 2 in let asked := trans_kw_in_ach (pwr r) + aux_load d 2 in
   0 <= asked <= cur_max_fc_kw_out (lims r) -> driveline_imbalance r = 0).
Proof.
  destruct (conv_step 2 ltac:(lia)) as (d & S & I & _ & M & _). exists d. pose proof S as (W & RN & _). split; auto. split.
  - apply (C30_audit_wheels _ _ _ W RN M I). right. unfold conv_trip. demo_num.
  - intros r asked A.
    assert (Q : driveline_imbalance r = Rmin (cur_max_fc_kw_out (lims r)) (Rmax 0 asked) - asked).
    { apply (C30_conventional _ _ _ _ S); unfold conv_trip; demo_num. }
    rewrite Q. rewrite Rmax_right, Rmin_right by lra. lra.
Qed.

(** ** C31: reported fuel economy of a vehicle without engine *)
Theorem C31_no_mpgge : forall (d0 : sdrive R) (ovr : option (list R)) (d : sdrive R),
  wf_sd d0 -> run d0 ovr d -> fc_max_kw (d_veh d0) = 0 ->
  mpgge (set_post_scalars d) = 0 /\ fuel_kj (set_post_scalars d) = 0.
Proof. exact no_fuel. Qed.
Example C31_mpgge_run : posted demo_bev demo_trip 0.5 (fun _ p => (mpgge p, fuel_kj p)) = Some (0, 0)%float.
Proof. vm_compute. reflexivity. Qed.
Example C31_mpgge_case : exists d, run bev_trip None d /\ mpgge (set_post_scalars d) = 0.
Proof.
  destruct (bev_step 2 ltac:(lia)) as (d & (W & RN & _) & _). exists d. split; auto.
  apply (C31_no_mpgge _ _ _ W RN). unfold bev_trip. demo_num.
Qed.

(** ** C41 *)
Theorem C41_channel : forall (d0 : sdrive R) (ovr : option (list R)) (d : sdrive R),
  wf_sd d0 -> run d0 ovr d -> forall name l key, power_array d name l -> energy_name name key ->
  dict_get (key ++ "_pos") (get_diagnostics d) = Some (integral d (map (Rmax 0) l)) /\
  dict_get (key ++ "_neg") (get_diagnostics d) = Some (integral d (map (Rmin 0) l)).
Proof. intros d0 ovr d W H name l key P. apply (channel_energy _ _ _ W H). now apply series_channel. Qed.
(** It reports nothing else but the distance and the fuel economy. *)
Theorem C41_only : forall (d : sdrive R) k x, dict_get k (get_diagnostics d) = Some x ->
  k = "dist_miles_final"%string \/ k = "mpgge"%string \/
  exists name l key, power_array d name l /\ energy_name name key /\ (k = key ++ "_pos" \/ k = key ++ "_neg")%string.
Proof. exact only_energies. Qed.
Theorem C41_no_loss : forall (d : sdrive R) (l : list R),
  integral d (map (Rmax 0) l) + integral d (map (Rmin 0) l) = integral d l.
Proof. exact integral_split. Qed.
Theorem C41_signs : forall (d : sdrive R) (l : list R),
  (forall i, (1 <= i < length (d_rows d))%nat -> 0 <= step_dt d i) ->
  0 <= integral d (map (Rmax 0) l) /\ integral d (map (Rmin 0) l) <= 0.
Proof. exact integral_sign. Qed.
Theorem C41_totals : forall (d0 : sdrive R) (ovr : option (list R)) (d : sdrive R),
  wf_sd d0 -> run d0 ovr d -> let miles := total d (fun i => dist_mi_ach (spd (row_at d i))) in
  dict_get "dist_miles_final" (get_diagnostics d) = Some miles /\
  exists x, dict_get "mpgge" (get_diagnostics d) = Some x /\
    (0 <= total d (fun i => fs_kwh_out_ach (fc (row_at d i))) -> x = mpgge (set_post_scalars d)).
Proof. exact diag_rest. Qed.
Definition hev_diag (k : string) : option float :=
  match sim_drive_walk (demo_sd demo_hev demo_trip) 0.5%float None with Ok d => dict_get k (get_diagnostics d) | Err _ => None end.
Example C41_run :
  map hev_diag ["ess_kj_out_ach_pos"; "ess_kj_out_ach_neg"; "fc_kj_out_ach_pos"; "accel_kj_pos"; "accel_kj_neg"; "dist_miles_final"; "mpgge"]%string
  = map Some [11.056038588403871; -22.475242731450564; 67.442191150421621; 52.3125; -30.375; 0.024238657551274082; 3.7162314131675176]%float /\
  hev_diag "ess_cur_kjh_pos" = None /\
  match sim_drive_walk (demo_sd demo_hev demo_trip) 0.5%float None with
  | Ok d => map fst (get_diagnostics d) = flat_map (fun n => [n ++ "_pos"; n ++ "_neg"])%string
     ["cur_max_fs_kj_out"; "fc_trans_lim_kj"; "cur_max_fc_kj_out"; "ess_cap_lim_dischg_kj"; "cur_ess_max_kj_out";
      "cur_max_avail_elec_kj"; "ess_cap_lim_chg_kj"; "cur_max_ess_chg_kj"; "cur_max_elec_kj"; "mc_elec_in_lim_kj";
      "mc_transi_lim_kj"; "cur_max_mc_kj_out"; "ess_lim_mc_regen_perc_kj"; "cur_max_mech_mc_kj_in"; "cur_max_trans_kj_out";
      "cyc_trac_kj_req"; "cur_max_trac_kj"; "spare_trac_kj"; "cyc_tire_inertia_kj"; "cyc_whl_kj_req";
      "regen_contrl_lim_kj_perc"; "cyc_regen_brake_kj"; "cyc_fric_brake_kj"; "cyc_trans_kj_out_req"; "trans_kj_out_ach";
      "trans_kj_in_ach"; "min_mc_kj_2help_fc"; "mc_mech_kj_out_ach"; "mc_elec_kj_in_ach"; "aux_in_kj";
      "roadway_chg_kj_out_ach"; "min_ess_kj_2help_fc"; "ess_kj_out_ach"; "fc_kj_out_ach"; "fc_kj_out_ach_pct";
      "fc_kj_in_ach"; "fs_kj_out_ach"; "ess_regen_buff_dischg_kj"; "max_ess_regen_buff_chg_kj"; "ess_accel_buff_chg_kj";
      "max_ess_accell_buff_dischg_kj"; "ess_accel_regen_dischg_kj"; "mc_elec_in_kj_for_max_fc_eff"; "elec_kj_req_4ae";
      "desired_ess_kj_out_for_ae"; "ess_ae_kj_out"; "er_ae_kj_out"; "ess_desired_kj_4fc_eff"; "ess_kj_if_fc_req";
      "cur_max_mc_elec_kj_in"; "fc_kj_gap_fr_eff"; "er_kj_if_fc_req"; "mc_elec_kj_in_if_fc_req"; "mc_kj_if_fc_req";
      "mc_mech_kj_4forced_fc"; "drag_kj"; "ess_loss_kj"; "accel_kj"; "ascent_kj"; "rr_kj"; "cur_max_roadway_chg_kj"]%string
     ++ ["dist_miles_final"; "mpgge"]%string
  | Err _ => False end.
Proof. vm_compute. repeat split. Qed.
Example C41_case : exists d, run hev_trip None d /\
  dict_get "fc_kj_out_ach_pos" (get_diagnostics d) = Some (integral d (map (Rmax 0) (map (fun r => fc_kw_out_ach (fc r)) (d_rows d)))) /\
  0 <= integral d (map (Rmax 0) (map (fun r => fc_kw_out_ach (fc r)) (d_rows d))).
Proof.
  destruct (hev_step 2 ltac:(lia)) as (d & (W & RN & _) & I & _). exists d. split; auto.
  destruct (C41_channel _ _ _ W RN "fc_kw_out_ach"%string (map (fun r => fc_kw_out_ach (fc r)) (d_rows d)) "fc_kj_out_ach"%string) as (P & _).
  { left. eexists. split; [|reflexivity]. unfold power_arrays. repeat (try (left; reflexivity); right). }
  { exists "fc"%string, "_out_ach"%string. auto. }
  split; [exact P|]. apply C41_signs. intros i Hi. apply Rlt_le. apply (SimProofs2.run_dt_pos hev_trip None d i); auto. repeat split; auto; apply W || lia.
Qed.

(** ** C42 *)
(** What the first, second, ... call leaves in add_kwh. *)
Theorem C42_first_call : forall (d : sdrive R) (i : nat), (1 <= i < length (d_rows d))%nat ->
  nth i (add_kwh (set_battery_wear d (fresh_wear d))) 0 = Rmax 0 (kwh_at d i - kwh_at d (i - 1)).
Proof. intros d i I. apply (first_call d ltac:(lia) i I). Qed.
Theorem C42_not_accumulated : forall (d : sdrive R) (i : nat), (1 <= i)%nat -> (S i < length (d_rows d))%nat ->
  kwh_at d (i - 1) < kwh_at d i -> kwh_at d i < kwh_at d (S i) ->
  let w := set_battery_wear d (fresh_wear d) in
  nth (S i) (add_kwh w) 0 < charging_run d (S i) /\ nth (S i) (add_kwh w) 0 < nth (S i) (add_kwh (set_battery_wear d w)) 0.
Proof. intros d i I J. apply (second_call d ltac:(lia) i I J). Qed.
(** Only repeated calls reach the accumulated tally. *)
Theorem C42_repeated_calls : forall (d : sdrive R) (k i : nat), (i < length (d_rows d))%nat -> (i <= k)%nat ->
  nth i (add_kwh (worn d k)) 0 = charging_run d i.
Proof. intros d k i I. apply (worn_add d ltac:(lia) k i I). Qed.
Theorem C42_depth_and_life : forall (d : sdrive R) (i : nat), (1 <= i < length (d_rows d))%nat ->
  let w := set_battery_wear d (fresh_wear d) in let cap := ess_max_kwh (d_veh d) in
  let dod := nth i (dod_cycs w) 0 in let b := 1 / ess_life_coef_b (d_veh d) in
  (cap = 0 -> dod = 0) /\
  (cap <> 0 -> kwh_at d i <= kwh_at d (i - 1) -> dod = nth (i - 1) (add_kwh w) 0 / cap) /\
  (kwh_at d (i - 1) < kwh_at d i -> dod = 0) /\
  (dod = 0 -> nth i (ess_perc_dead w) 0 = 0) /\
  (dod <> 0 -> nth i (ess_perc_dead w) 0 = Rpow_py (ess_life_coef_a (d_veh d)) b / Rpow_py dod b).
Proof.
  intros d i I w cap dod b. assert (P : (0 < length (d_rows d))%nat) by lia.
  pose proof (C42_first_call d i I) as F. fold w in F.
  destruct (once_dod d P _ (fresh_ok d P) i I) as (A & B & C). destruct (once_dead d P (fresh_wear d) i ltac:(lia)) as (D & E).
  fold w in A, B, C, D, E. split; [exact A|]. split.
  { intros Z L. apply B; auto. rewrite F. rewrite Rmax_left; lra. }
  split; [|split; assumption]. intros L. apply C. rewrite F, Rmax_right; lra.
Qed.
Definition charging_trip : cyc float := mkcyc (map z [0;2;4;6;8;10]%Z) (map z [0;8;8;6;3;0]%Z) (repeat n0 6) (repeat n0 6).
Theorem C42_accumulation_refuted : exists (d0 d : sdrive float) (i : nat),
  sim_drive_walk d0 0.3%float None = Ok d /\
  let e := fun j => ess_cur_kwh (dec (row_at d j)) in
  let w := set_battery_wear d (fresh_wear d) in
  PrimFloat.ltb (e (i - 2)%nat) (e (i - 1)%nat) = true /\ PrimFloat.ltb (e (i - 1)%nat) (e i) = true /\
  PrimFloat.ltb (nth i (add_kwh w) 0%float) (PrimFloat.sub (e i) (e (i - 2)%nat)) = true /\
  PrimFloat.ltb (nth i (add_kwh w) 0%float) (nth i (add_kwh (set_battery_wear d w)) 0%float) = true.
Proof.
  destruct (ok_witness (sim_drive_walk (demo_sd demo_hev charging_trip) 0.3%float None)
    (fun d => let e := fun j => ess_cur_kwh (dec (row_at d j)) in
      let w := set_battery_wear d (fresh_wear d) in
      (PrimFloat.ltb (e 2%nat) (e 3%nat) && PrimFloat.ltb (e 3%nat) (e 4%nat) &&
       PrimFloat.ltb (nth 4 (add_kwh w) 0%float) (PrimFloat.sub (e 4%nat) (e 2%nat)) &&
       PrimFloat.ltb (nth 4 (add_kwh w) 0%float) (nth 4 (add_kwh (set_battery_wear d w)) 0%float))%bool)) as (d & E & Q).
  { vm_compute. reflexivity. }
  cbv zeta in Q. apply Bool.andb_true_iff in Q as [Q Q4]. apply Bool.andb_true_iff in Q as [Q Q3]. apply Bool.andb_true_iff in Q as [Q1 Q2].
  exists (demo_sd demo_hev charging_trip), d, 4%nat. cbv zeta. auto.
Qed.
Example C42_run :
  posted demo_hev charging_trip 0.3 (fun d _ => let w := set_battery_wear d (fresh_wear d) in (add_kwh w, add_kwh (set_battery_wear d w), dod_cycs w))
  = Some ([0; 0; 0.00029424000000000117; 0.0035416872946248956; 0.0035383343219020369; 1.1449086475934234e-05],
          [0; 0; 0.00029424000000000117; 0.0038359272946248968; 0.0070800216165269325; 0.0035497834083779711], [0; 0; 0; 0; 0; 0])%float.
Proof. vm_compute. reflexivity. Qed.
(** An object whose battery holds 1, 2, 3 and 2 kWh. *)
Definition kwh_row (x : R) : row R := let r := zero_row in let q := dec r in
  mkrow (misc r) (lims r) (pwr r) (spd r) (hyb r) (forced r)
    (mkdec (ess_desired_kw_4fc_eff q) (ess_kw_if_fc_req q) (er_kw_if_fc_req q) (mc_elec_kw_in_if_fc_req q)
       (mc_kw_if_fc_req q) (mc_mech_kw_out_ach q) (mc_elec_kw_in_ach q) (roadway_chg_kw_out_ach q)
       (min_ess_kw_2help_fc q) (ess_kw_out_ach q) x (soc q) (fc_time_on q)) (fc r) (ctl r).
Example C42_case : let d := with_rows hev_trip (map kwh_row [1; 2; 3; 2]) in
  nth 2 (add_kwh (set_battery_wear d (fresh_wear d))) 0 = 1 /\ charging_run d 2 = 2 /\
  nth 3 (dod_cycs (set_battery_wear d (fresh_wear d))) 0 = 2 / 3.
Proof.
  intros d. assert (K : forall i, kwh_at d i = nth i [1; 2; 3; 2] 0) by (intros [|[|[|[|[|i]]]]]; reflexivity).
  split; [|split].
  - rewrite C42_first_call by (cbn; lia). rewrite !K. cbn [nth Nat.sub]. rewrite Rmax_right; lra.
  - cbn [charging_run]. rewrite !K. cbn [nth]. destruct (Rlt_dec 1 2); [|lra]. destruct (Rlt_dec 2 3); lra.
  - destruct (C42_depth_and_life d 3 ltac:(cbn; lia)) as (_ & B & _). rewrite B.
    + rewrite C42_first_call by (cbn; lia). rewrite !K. cbn [nth Nat.sub].
      rewrite Rmax_right by lra. unfold d, hev_trip. demo_num.
    + unfold d, hev_trip. demo_num.
    + rewrite !K. cbn [nth Nat.sub]. lra.
Qed.

(** ** C43 *)
Theorem C43_sign : forall (d0 : sdrive R) (ovr : option (list R)) (d : sdrive R) (peak : R),
  wf_sd d0 -> run d0 ovr d -> let v := d_veh d0 in increasing (time_s (d_cyc d)) ->
  veh_pt_type v = HEV -> is_h2fc (fc_eff_type v) = false -> motor_map_ok v -> engine_map_ok v ->
  0 <= fc_max_kw v -> 0 < fc_sec_to_peak_pwr v -> ess_max_kw v <> 0 -> 0 < ess_max_kwh v -> 0 < ess_round_trip_eff v ->
  (forall i, 0 <= aux_load d i) ->
  (exists i, (1 <= i < length (d_rows d))%nat /\ 0 < trans_kw_in_ach (pwr (row_at d i)) /\ 0 < fc_kw_out_ach (fc (row_at d i))) ->
  get_mcPeakEff v = Ok peak ->
  exists x, estimate_soc_corrected_fuel_kJ d = Ok x /\ let fuel := fuel_kj (set_post_scalars d) in
    (final_soc d = soc (dec (row_at d 0)) -> x = fuel) /\
    (soc (dec (row_at d 0)) < final_soc d -> x < fuel) /\
    (final_soc d < soc (dec (row_at d 0)) -> fuel < x).
Proof.
  intros d0 ovr d peak W RN v T A1 A2 A3 A4 A5 A6 A7 A8 A9 A10 A11 A12.
  destruct (corrected d0 ovr d W RN T A1 A2 A3 A4 A5 A6 A7 A8 A9 A10 A11 peak A12) as (k & K & E).
  rewrite E. eexists. split; [reflexivity|]. cbv zeta. split; [|split]; intros H.
  - rewrite H. ring.
  - assert (0 < (final_soc d - soc (dec (row_at d 0))) * k) by (apply Rmult_lt_0_compat; lra). lra.
  - assert (0 < (soc (dec (row_at d 0)) - final_soc d) * k) by (apply Rmult_lt_0_compat; lra). lra.
Qed.
Theorem C43_rejects : forall (d : sdrive R), veh_pt_type (d_veh d) <> HEV -> estimate_soc_corrected_fuel_kJ d = Err ValueError.
Proof. exact not_hybrid. Qed.
(** A fuel-cell hybrid whose cell covers the whole load while the state of charge stays the same: the
    share of the battery in the traction power is computed as a division by zero. *)
Definition cell_trip : cyc float := mkcyc (map z [0;2;4;8;12;16;20]%Z) (map z [0;6;9;9;9;9;9]%Z) (repeat n0 7) (repeat n0 7).
Theorem C43_fuel_cell_refuted : exists (d0 d : sdrive float) (x : float),
  sim_drive_walk d0 0.25%float None = Ok d /\ veh_pt_type (d_veh d) = HEV /\
  PrimFloat.eqb (soc (dec (row_at d 0))) (soc (dec (row_at d 6))) = true /\
  estimate_soc_corrected_fuel_kJ d = Ok x /\ PrimFloat.eqb x (fuel_kj (set_post_scalars d)) = false /\
  PrimFloat.ltb 0%float (fuel_kj (set_post_scalars d)) = true.
Proof.
  destruct (ok_witness (sim_drive_walk (demo_sd demo_fcv cell_trip) 0.25%float None)
    (fun d => match veh_pt_type (d_veh d), estimate_soc_corrected_fuel_kJ d with HEV, Ok x =>
      (PrimFloat.eqb (soc (dec (row_at d 0))) (soc (dec (row_at d 6))) && negb (PrimFloat.eqb x (fuel_kj (set_post_scalars d)))
       && PrimFloat.ltb 0%float (fuel_kj (set_post_scalars d)))%bool | _, _ => false end)) as (d & E & Q).
  { vm_compute. reflexivity. }
  remember (veh_pt_type (d_veh d)) as t eqn:V. remember (estimate_soc_corrected_fuel_kJ d) as e eqn:X.
  destruct t; [discriminate Q| |discriminate Q|discriminate Q]. destruct e as [x|]; [|discriminate Q].
  apply Bool.andb_true_iff in Q as [Q Q3]. apply Bool.andb_true_iff in Q as [Q1 Q2]. apply Bool.negb_true_iff in Q2.
  exists (demo_sd demo_fcv cell_trip), d, x. split; [exact E|]. split; [symmetry; exact V|]. split; [exact Q1|]. split; [symmetry; exact X|]. split; assumption.
Qed.
Example C43_run :
  posted demo_hev demo_trip 0.5 (fun d p => (fuel_kj p, estimate_soc_corrected_fuel_kJ d)) = Some (791.29462274636228, Ok 528.44110914093881)%float /\
  posted demo_hev cell_trip 0.25 (fun d p => (fuel_kj p, estimate_soc_corrected_fuel_kJ d)) = Some (2507.2625355155869, Ok 1531.5666664759583)%float /\
  at_row demo_hev demo_trip 0.5 1 (fun r => PrimFloat.ltb 0 (trans_kw_in_ach (pwr r)) && PrimFloat.ltb 0 (fc_kw_out_ach (fc r)))%bool = true /\
  posted demo_bev demo_trip 0.5 (fun d p => estimate_soc_corrected_fuel_kJ d) = Some (Err ValueError).
Proof. vm_compute. repeat split. Qed.
Example C43_case : exists d peak, wf_sd hev_trip /\ run hev_trip None d /\ increasing (time_s (d_cyc d)) /\
  is_h2fc (fc_eff_type (d_veh hev_trip)) = false /\ motor_map_ok (d_veh hev_trip) /\ engine_map_ok (d_veh hev_trip) /\
  (forall i, 0 <= aux_load d i) /\ 0 < ess_max_kwh (d_veh hev_trip) /\ get_mcPeakEff (d_veh hev_trip) = Ok peak.
Proof.
  destruct (hev_step 2 ltac:(lia)) as (d & (W & RN & _) & I & _).
  exists d. eexists. split; [exact W|]. split; [exact RN|]. split; [exact I|]. split; [reflexivity|].
  split; [apply demo_motor; cbn; auto|]. split; [apply demo_engine; cbn; auto|]. split.
  - intros i. destruct (Nat.lt_ge_cases i (length (d_rows d))) as [L|L].
    + destruct i as [|i].
      * unfold aux_load. destruct (first_is _ _ _ W RN) as (s & ->). cbn. unR. lra.
      * rewrite (C32_no_override hev_trip None d (S i)); [|repeat split; auto; apply W || lia|discriminate]. unfold own_load, hev_trip. demo_num.
    + unfold aux_load. rewrite row_at_out by exact L. cbn. unR. lra.
  - split; [unfold hev_trip; demo_num|]. unfold get_mcPeakEff, hev_trip, demo_hev, demo_veh, demo_veh_of. cbn [d_veh demo_sd new_sd init_arrays mc_full_eff_array mc_eff_array lmax bindR].
    cbn [mc_full_eff_array mc_eff_array with_rows lmax bindR].
    unfold assertR, nmaxl. cbn [fold_left]. rewrite !nmax_R, !lit_R. unR.
    match goal with |- context [Reqb ?a ?b] => replace (Reqb a b) with true end; [reflexivity|].
    symmetry. apply Reqb_true. unfold Rmax. repeat destruct (Rle_dec _ _); lra.
Qed.

(** ** C66: the trace-miss report *)
Theorem C66_speed : forall (d0 : sdrive R) (ovr : option (list R)) (d : sdrive R), wf_sd d0 -> run d0 ovr d ->
  let miss i := Rabs (speed d i - nth i (mps (d_cyc d)) 0) in let p := set_post_scalars d in
  (forall i, (i < length (d_rows d))%nat -> miss i <= trace_miss_speed_mps p) /\
  (exists i, (i < length (d_rows d))%nat /\ trace_miss_speed_mps p = miss i).
Proof. exact speed_miss. Qed.
(** With coasting or car following the report is always 0, whatever the difference to the trace given. *)
Theorem C66_replanned_speed : forall (d0 : sdrive R) (ovr : option (list R)) (d : sdrive R), wf_sd d0 -> run d0 ovr d ->
  ~ follows_trace d0 -> trace_miss_speed_mps (set_post_scalars d) = 0.
Proof. exact replanned_miss. Qed.
Theorem C66_distance : forall (d0 : sdrive R) (ovr : option (list R)) (d : sdrive R), wf_sd d0 -> run d0 ovr d ->
  let target := Rsum (dist_m (d_cyc0 d0)) in let driven := total d (fun i => dist_m_ach (spd (row_at d i))) in
  (0 < target -> trace_miss_dist_frac (set_post_scalars d) = Rabs (driven - target) / target) /\
  (target <= 0 -> trace_miss_dist_frac (set_post_scalars d) = 0).
Proof. exact dist_miss. Qed.
Theorem C66_time : forall (d0 : sdrive R) (ovr : option (list R)) (d : sdrive R), wf_sd d0 -> run d0 ovr d ->
  let target := last (time_s (d_cyc0 d0)) 0 in
  trace_miss_time_frac (set_post_scalars d) = Rabs (last (time_s (d_cyc d)) 0 - target) / target.
Proof. exact time_miss. Qed.
Theorem C66_flag : forall (d0 : sdrive R) (ovr : option (list R)) (d : sdrive R), wf_sd d0 -> run d0 ovr d ->
  let s := d_sp d0 in let p := set_post_scalars d in
  trace_miss p = true <->
    trace_miss_speed_mps_tol s < trace_miss_speed_mps p \/
    (missed_trace_correction s = true /\ trace_miss_time_tol s < trace_miss_time_frac p) \/
    (missed_trace_correction s = false /\ trace_miss_dist_tol s < trace_miss_dist_frac p).
Proof. exact miss_flag. Qed.
Definition follow_trip : sdrive float := new_sd demo_hev demo_props (demo_sp false false true) demo_trip.
(** A following vehicle that never reaches the speeds given reports no speed miss. *)
Theorem C66_trace_given_refuted : exists (d0 d : sdrive float),
  sim_drive_walk d0 0.5%float None = Ok d /\ PrimFloat.eqb (trace_miss_speed_mps (set_post_scalars d)) 0%float = true /\
  PrimFloat.ltb 6%float (PrimFloat.sub (nth 3 (mps (d_cyc0 d0)) 0%float) (mps_ach (spd (row_at d 3)))) = true.
Proof.
  destruct (ok_witness (sim_drive_walk follow_trip 0.5%float None)
    (fun d => (PrimFloat.eqb (trace_miss_speed_mps (set_post_scalars d)) 0%float &&
       PrimFloat.ltb 6%float (PrimFloat.sub (nth 3 (mps (d_cyc0 follow_trip)) 0%float) (mps_ach (spd (row_at d 3)))))%bool)) as (d & E & Q).
  { vm_compute. reflexivity. }
  apply Bool.andb_true_iff in Q as [Q1 Q2]. exists follow_trip, d. auto.
Qed.
Example C66_run :
  posted demo_hev demo_trip 0.5 (fun _ p => (trace_miss p, trace_miss_speed_mps p, trace_miss_dist_frac p, trace_miss_time_frac p))
    = Some (false, 0, 0, 0)%float /\
  posted demo_hev demo_dash 0.5 (fun _ p => (trace_miss p, trace_miss_speed_mps p, trace_miss_dist_frac p, trace_miss_time_frac p))
    = Some (true, 6.1221975157698765, 0.21864991127749558, 0)%float /\
  match sim_drive_walk follow_trip 0.5%float None with
  | Ok d => let p := set_post_scalars d in (trace_miss p, trace_miss_dist_frac p) = (true, 0.38033639874565534%float)
  | Err _ => False end.
Proof. vm_compute. repeat split. Qed.
Example C66_case : exists d, run hev_trip None d /\
  (trace_miss (set_post_scalars d) = true -> 1 < trace_miss_speed_mps (set_post_scalars d) \/ 1/1000 < trace_miss_dist_frac (set_post_scalars d)).
Proof.
  destruct (hev_step 2 ltac:(lia)) as (d & (W & RN & _) & _). exists d. split; auto. intros Q. apply (C66_flag _ _ _ W RN) in Q.
  cbv zeta in Q. destruct Q as [Q|[[Q _]|[_ Q]]]; [left|discriminate|right]; revert Q; unfold hev_trip; demo_num.
Qed.

(** ** C67: reported consumption *)
Theorem C67_mpgge : forall (d0 : sdrive R) (ovr : option (list R)) (d : sdrive R), wf_sd d0 -> run d0 ovr d ->
  let p := set_post_scalars d in let miles := total d (fun i => speed d i * step_dt d i / 1609) in
  (fuel_kj p = 0 -> mpgge p = 0) /\
  (fuel_kj p <> 0 -> mpgge p = miles / (fuel_kj p / 3600 / kwh_per_gge (d_props d0))).
Proof.
  intros d0 ovr d W RN p miles. destruct (mpgge_is _ _ _ W RN) as (A & B). fold p in A, B. split; auto. intros Z. rewrite (B Z).
  f_equal. apply total_ext. intros i I. apply (SimProofs4.speed_units _ _ _ _ (step_of _ _ _ W RN i I)).
Qed.
Theorem C67_fuel : forall (d0 : sdrive R) (ovr : option (list R)) (d : sdrive R), wf_sd d0 -> run d0 ovr d ->
  let p := set_post_scalars d in
  fuel_kj p = over_steps d (fun i => fs_kw_out_ach (fc (row_at d i))) /\
  fuel_kj p = 3600 * total d (fun i => fs_kwh_out_ach (fc (row_at d i))) /\ roadway_chg_kj p = 0.
Proof.
  intros d0 ovr d W RN p. split; [exact (fuel_is _ _ _ W RN)|]. split; [exact (fuel_kwh_is _ _ _ W RN)|exact (roadway_is _ _ _ W RN)].
Qed.
Theorem C67_electric : forall (d0 : sdrive R) (ovr : option (list R)) (d : sdrive R), wf_sd d0 -> run d0 ovr d ->
  let p := set_post_scalars d in let miles := total d (fun i => dist_mi_ach (spd (row_at d i))) in
  let disch := (soc (dec (row_at d 0)) - final_soc d) * ess_max_kwh (d_veh d0) in
  ess_dischg_kj p = disch * 3600 /\
  (0 < miles -> battery_kwh_per_mi p = disch / miles /\ electric_kwh_per_mi p = disch / miles) /\
  (miles <= 0 -> battery_kwh_per_mi p = 0 /\ electric_kwh_per_mi p = 0) /\
  (fuel_kj p = 0 -> ess2fuel_kwh p = 1) /\
  (fuel_kj p <> 0 -> ess2fuel_kwh p = disch / (fuel_kj p / 3600)).
Proof. exact per_mile. Qed.
Theorem C67_cumulative_fuel : forall (d0 : sdrive R) (ovr : option (list R)) (d : sdrive R), wf_sd d0 -> run d0 ovr d ->
  forall i, (i < length (d_rows d))%nat ->
  nth i (fs_cumu_mj_out_ach (set_post_scalars d)) 0 =
  Rsum (map (fun j => fs_kw_out_ach (fc (row_at d j)) * step_dt d j) (seq 1 i)) / 1000.
Proof. exact cumulative. Qed.
Example C67_run :
  posted demo_hev demo_trip 0.5 (fun _ p => (mpgge p, battery_kwh_per_mi p, electric_kwh_per_mi p, ess2fuel_kwh p, fs_cumu_mj_out_ach p))
    = Some (3.7162314131675176, -0.39323310505360276, -0.39323310505360276, -0.043363359575596463,
            [0; 0.32380377777777775; 0.79129462274636231; 0.79129462274636231; 0.79129462274636231])%float /\
  posted demo_bev demo_trip 0.5 (fun _ p => (mpgge p, ess2fuel_kwh p, ess_dischg_kj p)) = Some (0, 1, 63.06474370818691)%float /\
  posted demo_conv demo_trip 0.5 (fun _ p => (mpgge p, fuel_kj p)) = Some (3.3377854680042267, 881.01346306084633)%float.
Proof. vm_compute. repeat split. Qed.
Example C67_case : exists d, run bev_trip None d /\ ess2fuel_kwh (set_post_scalars d) = 1.
Proof.
  destruct (bev_step 2 ltac:(lia)) as (d & (W & RN & _) & _). exists d. split; auto.
  apply (C67_electric _ _ _ W RN). apply (C31_no_mpgge _ _ _ W RN). unfold bev_trip. demo_num.
Qed.

(** ** C68: gap to the vehicle ahead *)
Theorem C68_gap : forall (d0 : sdrive R) (ovr : option (list R)) (d : sdrive R), wf_sd d0 -> run d0 ovr d ->
  forall i, (i < length (d_rows d))%nat ->
  nth i (gap_to_lead_vehicle_m d) 0 =
  (trapezoid (d_cyc0 d0) 0 i - trapezoid (d_cyc d) 0 i) + (if idm_allow (d_sp d0) then idm_minimum_gap_m (d_sp d0) else 0).
Proof. exact gap_is. Qed.
Example C68_run : match sim_drive_walk follow_trip 0.5%float None with
  | Ok d => gap_to_lead_vehicle_m d = [2; 8; 21.125; 27.754486643445578; 28.180019705877008]%float | Err _ => False end.
Proof. vm_compute. reflexivity. Qed.
Example C68_case : exists d, run hev_trip None d /\ nth 3 (gap_to_lead_vehicle_m d) 0 = 0.
Proof.
  destruct (hev_step 3 ltac:(lia)) as (d & (W & RN & L) & _ & _ & M & C). exists d. split; auto.
  rewrite (C68_gap _ _ _ W RN 3) by lia. destruct (run_starts _ _ _ W RN) as (s & K).
  assert (E : d_cyc d = d_cyc hev_trip \/ (time_s (d_cyc d) = time_s (d_cyc hev_trip) /\ mps (d_cyc d) = mps (d_cyc hev_trip))).
  { right. split; [apply (rs_times _ _ _ K); reflexivity|apply (rs_cycmps _ _ _ K); reflexivity]. }
  assert (Q : forall n j (c c' : cyc R), time_s c = time_s c' -> mps c = mps c' -> trapezoid c j n = trapezoid c' j n).
  { induction n as [|n IH]; intros j c c' A B; cbn; auto. rewrite A, B, (IH _ c c'); auto. }
  destruct E as [E|[E1 E2]]; [rewrite E, C|rewrite (Q 3%nat 0%nat (d_cyc d) (d_cyc hev_trip) E1 E2), C];
  change (idm_allow (d_sp hev_trip)) with false; lra.
Qed.
