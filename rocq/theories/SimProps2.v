(** The grade of a step below the wanted speed (C28), assignments to a vehicle (C44), the engine's best power (C92)
    and roadway charging (C93). *)
From Coq Require Import Lia PrimFloat.
From Verif Require Import Num FloatNum Numpy ListFacts CycleModel CycleSpec VehModel SimModel SimState WalkModel FrameProofs WalkProofs
  StepEqs StepProofs SimSpec SimSpec2 SimProofs1 SimProofs2 SimProofs3 SimProofs4 SimProofs5 SimProofs7 SimDemo SimProps VehSpec VehProofs VehProps.
Local Open Scope R_scope.
Local Set Warnings "-inexact-float".

(** ** C28: the grade behind an achieved speed *)
Theorem C28_grade : forall (d0 : sdrive R) (ovr : option (list R)) (d : sdrive R) (i : nat),
  is_step d0 ovr d i -> increasing (time_s (d_cyc d)) ->
  wheel_radius_m (d_veh d0) <> 0 -> (1 <= newton_max_iter (d_sp d0))%nat -> no_dilation d0 ->
  newton_iters (spd (row_at d i)) <> 0%nat ->
  refined (fun x => lookup_grade d i (Some x))
    (search_result (d_veh d0) (d_props d0) (d_sp d0) (cur_max_trans_kw_out (lims (row_at d i))) (speed d (i - 1)) (step_dt d i))
    2 (estimate_grade d i) (speed d i) (newton_iters (spd (row_at d i))).
Proof. exact grade_refined. Qed.
(** A hill that begins under the vehicle: the road found differs from the estimate, so that the search is repeated. *)
Definition foothill : cyc float := mkcyc [0; 2; 4; 5]%float [0; 6; 25; 25]%float [0; 0; 0.3; 0.3]%float [0; 0; 0; 0]%float.
Definition foothill_sd : sdrive float := new_sd demo_conv demo_props (demo_sp false true false) foothill.
Example C28_grade_run :
  match sim_drive_walk foothill_sd 0.5%float None with
  | Ok d => PrimFloat.ltb 0.001 (PrimFloat.abs (estimate_grade d 2 - lookup_grade d 2 (Some (mps_ach (spd (row_at d 2))))))%float
            && Nat.ltb 0 (newton_iters (spd (row_at d 2)))
  | Err _ => false end = true.
Proof. vm_compute. reflexivity. Qed.

(** ** C44: assigning a motor rating or a mass override changes that parameter only *)
Theorem C44_assignment : forall (F : Type) (v : vehicle F) (x : F) (o : option F),
  (mc_max_kw (with_mc_max_kw v x) = x /\ with_mc_max_kw v (mc_max_kw v) = v /\
   forall y, with_mc_max_kw (with_mc_max_kw v x) y = with_mc_max_kw v y) /\
  (veh_override_kg (with_override_kg v o) = o /\ with_override_kg v (veh_override_kg v) = v /\
   forall y, with_override_kg (with_override_kg v o) y = with_override_kg v y).
Proof. intros F v x o. destruct v. repeat split. Qed.

(** ** C92: the engine's best power *)
Theorem C92_best_power : forall (v : vehicle R), fc_eff_array v <> [] -> length (fc_kw_out_array v) = length (fc_eff_array v) ->
  most_efficient (fc_kw_out_array v) (fc_eff_array v) (max_fc_eff_kw v).
Proof. exact best_power. Qed.
Theorem C92_derived : forall (v v' : vehicle R), set_derived v = Ok v' -> increasing (fc_pwr_out_perc v) ->
  exists k, (k < engine_points)%nat /\ max_fc_eff_kw v' = engine_percent k / 100 * fc_max_kw v /\
    is_max (nth k (fc_eff_array v') 0) (fc_eff_array v') /\ forall j, (j < k)%nat -> nth j (fc_eff_array v') 0 < nth k (fc_eff_array v') 0.
Proof.
  intros v v' H I. destruct (engine_tables _ _ H I) as (A & B & C & _).
  destruct (best_power v') as (k & e & E1 & E2 & E3 & E4).
  - intros E. rewrite E in B. discriminate B.
  - congruence.
  - assert (K : (k < engine_points)%nat) by (rewrite <- B; apply nth_error_Some; rewrite E1; discriminate).
    assert (NE : nth k (fc_eff_array v') 0 = e) by (apply nth_error_nth with (d := 0) in E1; exact E1).
    exists k. split; auto. split; [rewrite <- C by exact K; symmetry; apply nth_error_nth with (d := 0) in E2; exact E2|].
    rewrite NE. split.
    + split; [rewrite <- NE; apply nth_In; lia|]. intros x X. apply In_nth_error in X. destruct X as (j & X). eauto.
    + intros j J. apply (E4 j); auto. apply nth_error_nth'. lia.
Qed.
Example C92_case : most_efficient (fc_kw_out_array (demo_hev (F := R))) (fc_eff_array (demo_hev (F := R))) 30.
Proof.
  assert (E : max_fc_eff_kw (demo_hev (F := R)) = 30).
  { unfold max_fc_eff_kw, argmax_n, demo_hev, demo_veh, demo_veh_of. cbn [fc_eff_array fc_kw_out_array argmax_from].
    rewrite !lit_R. unR. destruct (Rltb_spec (1 / 10) (3 / 10)); [|lra]. destruct (Rltb_spec (3 / 10) (25 / 100)); [lra|].
    cbn [map nth]. unfold z, lit; unR; lra. }
  rewrite <- E. apply C92_best_power; [discriminate|reflexivity].
Qed.
Example C92_run : derived plain_hev (fun v : vehicle float => max_fc_eff_kw v) = Some 30%float.
Proof. vm_compute. reflexivity. Qed.

(** ** C93: power from the road *)
(** Without it the road gives nothing; engines and battery vehicles take at most what it offers. *)
Theorem C93_limits : forall (d : sdrive R) (i : nat), (i < length (d_rows d))%nat ->
  let avail := cur_max_roadway_chg_kw (ctl (row_at d i)) in
  let used := roadway_chg_kw_out_ach (dec (row_at (solve_step d i) i)) in
  (avail = 0 -> used = 0) /\
  (0 <= avail -> is_h2fc (fc_eff_type (d_veh d)) = false -> 0 <= used <= avail).
Proof. intros d i L. destruct (road_limits d i L) as (A & B & _). auto. Qed.
(** A fuel cell vehicle takes at least what the road offers, and more if the motor or the buffers ask for more. *)
Theorem C93_fuel_cell : forall (d : sdrive R) (i : nat), (i < length (d_rows d))%nat ->
  let avail := cur_max_roadway_chg_kw (ctl (row_at d i)) in let r := row_at (solve_step d i) i in
  avail <> 0 -> is_h2fc (fc_eff_type (d_veh d)) = true ->
  is_max (roadway_chg_kw_out_ach (dec r))
    [0; mc_elec_kw_in_ach (dec r); max_ess_regen_buff_chg_kw (hyb r); ess_regen_buff_dischg_kw (hyb r); avail].
Proof.
  intros d i L. cbv zeta. intros A H. destruct (road_limits d i L) as (_ & _ & C). rewrite (C A H).
  set (a := mc_elec_kw_in_ach _). set (b := max_ess_regen_buff_chg_kw _). set (c := ess_regen_buff_dischg_kw _).
  set (e := cur_max_roadway_chg_kw _). split.
  - unfold Rmax. repeat destruct (Rle_dec _ _); cbn; auto 6.
  - intros x [<-|[<-|[<-|[<-|[<-|[]]]]]]; unfold Rmax; repeat destruct (Rle_dec _ _); lra.
Qed.
(** What the road offers adds to what the battery (and the fuel cell) can give. *)
Theorem C93_supply : forall (d : sdrive R) (i : nat), (i < length (d_rows d))%nat ->
  let v := d_veh d in let r := row_at (solve_step d i) i in
  cur_max_elec_kw (lims r) = (if is_h2fc (fc_eff_type v) then cur_max_fc_kw_out (lims r) else 0)
    + cur_max_roadway_chg_kw (ctl (row_at d i)) + cur_ess_max_kw_out (lims r) - aux_in_kw (misc r).
Proof. exact road_supply. Qed.
(** What the road gives, the battery need not. *)
Theorem C93_bus : forall (d : sdrive R) (i : nat), (i < length (d_rows d))%nat ->
  let v := d_veh d in let r := row_at (solve_step d i) i in
  ess_max_kw v <> 0 -> ess_max_kwh v <> 0 -> is_h2fc (fc_eff_type v) = false ->
  ess_kw_out_ach (dec r) + roadway_chg_kw_out_ach (dec r) =
    mc_elec_kw_in_ach (dec r) + (if aux_on_shaft v r then 0 else aux_in_kw (misc r)).
Proof. exact road_bus. Qed.
(** A prepared run on a road offering [x] kW everywhere. *)
Definition wired {F} {N : Num F} (v : vehicle F) (x soc0 : F) : Res (sdrive F) :=
  do d <- init_for_step (demo_sd v demo_trip) soc0 None ;
  Ok (upd_ctl_rows d (fun _ c => mkctl x (impose_coast c) (trace_miss_iters c) (coast_delay_index c) (idm_target_speed_m_per_s c))).
(** "No more is taken than the road offers" is false of fuel cell vehicles: one kilowatt offered, twelve taken. *)
Theorem C93_limits_refuted : exists (d : sdrive float) (i : nat), wired demo_fcv 1%float 0.5%float = Ok d /\
  cur_max_roadway_chg_kw (ctl (row_at d i)) = 1%float /\
  PrimFloat.ltb 5 (roadway_chg_kw_out_ach (dec (row_at (solve_step d i) i))) = true.
Proof.
  destruct (wired demo_fcv 1%float 0.5%float) as [d|] eqn:E; [|vm_compute in E; discriminate E].
  exists d, 1%nat. split; [reflexivity|].
  assert (Q : bindR (wired demo_fcv 1%float 0.5%float) (fun d => Ok (cur_max_roadway_chg_kw (ctl (row_at d 1)), PrimFloat.ltb 5 (roadway_chg_kw_out_ach (dec (row_at (solve_step d 1) 1)))))
     = Ok (1, true)%float) by (vm_compute; reflexivity).
  rewrite E in Q. cbn [bindR] in Q. split; congruence.
Qed.
Example C93_case : exists d : sdrive R, wired demo_hev 5 (1 / 2) = Ok d /\
  0 <= roadway_chg_kw_out_ach (dec (row_at (solve_step d 2) 2)) <= 5.
Proof.
  destruct (wired (demo_hev (F := R)) 5 (1 / 2)) as [d|] eqn:E.
  - exists d. split; [reflexivity|]. unfold wired in E. inv_ok E. unfold init_for_step in E0.
    if_in E0; [discriminate|]. cbn [d_rows demo_sd new_sd init_arrays override_aux clen d_cyc] in E0.
    assert (L : length (d_rows d) = 5%nat).
    { injection E as <-. unfold upd_ctl_rows, with_rows. cbn [d_rows]. rewrite mapi_from_length.
      injection E0 as <-. reflexivity. }
    assert (V : d_veh d = demo_hev).
    { injection E as <-. injection E0 as <-. reflexivity. }
    assert (A : cur_max_roadway_chg_kw (ctl (row_at d 2)) = 5).
    { injection E as <-. injection E0 as <-. reflexivity. }
    destruct (C93_limits d 2 ltac:(lia)) as (_ & Q). rewrite A, V in Q. apply Q; [lra|reflexivity].
  - exfalso. revert E. unfold wired, init_for_step.
    match goal with |- context [if ?c then _ else _] => assert (Z : c = false) end.
    { demo_num. rcase; [lra|]. rcase; [lra|]. reflexivity. }
    rewrite Z. discriminate.
Qed.
Example C93_run : match wired demo_bev 5%float 0.5%float with
  | Ok d => let r := row_at (solve_step d 1) 1 in PrimFloat.eqb (roadway_chg_kw_out_ach (dec r)) 5
              && PrimFloat.ltb (ess_kw_out_ach (dec r)) (mc_elec_kw_in_ach (dec r)) | Err _ => false end = true.
Proof. vm_compute. reflexivity. Qed.

(** ** C75: the first sample *)
(** A completed run starts at the first given speed, at no distance, with no power or fuel used, and with the trace met; the
    auxiliary load there is that of the override if there is one of the right length, else nothing. *)
Theorem C75_first_sample : forall (d0 : sdrive R) (ovr : option (list R)) (d : sdrive R), wf_sd d0 -> run d0 ovr d ->
  let r := row_at d 0 in let v0 := nth 0 (mps (d_cyc0 d0)) 0 in
  mps_ach (spd r) = v0 /\ mph_ach (spd r) = v0 * (22369 / 10000) /\ dist_m_ach (spd r) = 0 /\ dist_mi_ach (spd r) = 0 /\
  cyc_met (pwr r) = true /\ newton_iters (spd r) = 0%nat /\ trace_miss_iters (ctl r) = 0%nat /\
  aux_in_kw (misc r) = (match ovr with Some l => if Nat.eqb (length l) (clen (d_cyc d0)) then nth 0 l 0 else 0 | None => 0 end) /\
  drag_kw (pwr r) = 0 /\ accel_kw (pwr r) = 0 /\ ascent_kw (pwr r) = 0 /\ rr_kw (pwr r) = 0 /\ cyc_whl_kw_req (pwr r) = 0 /\
  cyc_fric_brake_kw (pwr r) = 0 /\ cyc_regen_brake_kw (pwr r) = 0 /\ trans_kw_in_ach (pwr r) = 0 /\ trans_kw_out_ach (pwr r) = 0 /\
  fc_kw_out_ach (fc r) = 0 /\ fc_kw_in_ach (fc r) = 0 /\ fs_kw_out_ach (fc r) = 0 /\ fs_kwh_out_ach (fc r) = 0 /\
  mc_mech_kw_out_ach (dec r) = 0 /\ mc_elec_kw_in_ach (dec r) = 0 /\ ess_kw_out_ach (dec r) = 0 /\
  roadway_chg_kw_out_ach (dec r) = 0 /\ fc_time_on (dec r) = 0 /\ impose_coast (ctl r) = false /\ coast_delay_index (ctl r) = 0%Z.
Proof.
  intros d0 ovr d W H. destruct (run_walked _ _ _ W H) as (d1 & s & A & K).
  pose proof (wk_first _ _ _ _ K) as E. cbv zeta. rewrite E, (al_len _ _ A). unfold first_row, cmps. rewrite (al_cyc0 _ _ A).
  cbn [spd pwr misc ctl fc dec mps_ach mph_ach dist_m_ach dist_mi_ach cyc_met newton_iters trace_miss_iters aux_in_kw row_aux zero_row].
  repeat split; try reflexivity.
  unfold aux_start, is_override. destruct ovr as [l|]; [|reflexivity]. destruct (Nat.eqb_spec (length l) (clen (d_cyc d0))) as [Q|Q]; [|reflexivity].
  destruct l; reflexivity.
Qed.
(** Nothing else is set there: every other array holds zero or "false" at the first sample. *)
Theorem C75_first_rest : forall (d0 : sdrive R) (ovr : option (list R)) (d : sdrive R), wf_sd d0 -> run d0 ovr d ->
  let r := row_at d 0 in
  Forall (fun x => x = 0) [
    max_trac_mps (misc r); cur_max_fs_kw_out (lims r); fc_trans_lim_kw (lims r); cur_max_fc_kw_out (lims r);
    ess_cap_lim_dischg_kw (lims r); cur_ess_max_kw_out (lims r); ess_cap_lim_chg_kw (lims r); cur_max_ess_chg_kw (lims r);
    cur_max_elec_kw (lims r); cur_max_avail_elec_kw (lims r); mc_elec_in_lim_kw (lims r); mc_transi_lim_kw (lims r);
    cur_max_mc_kw_out (lims r); cur_max_mc_elec_kw_in (lims r); ess_lim_mc_regen_perc_kw (lims r);
    cur_max_mech_mc_kw_in (lims r); cur_max_trac_kw (lims r); cur_max_trans_kw_out (lims r);
    cyc_trac_kw_req (pwr r); spare_trac_kw (pwr r); cyc_whl_rad_per_sec (pwr r); cyc_tire_inertia_kw (pwr r);
    regen_contrl_lim_kw_perc (pwr r); cyc_trans_kw_out_req (pwr r); min_mc_kw_2help_fc (pwr r);
    regen_buff_soc (hyb r); ess_regen_buff_dischg_kw (hyb r); max_ess_regen_buff_chg_kw (hyb r); accel_buff_soc (hyb r);
    ess_accel_buff_chg_kw (hyb r); max_ess_accell_buff_dischg_kw (hyb r); ess_accel_regen_dischg_kw (hyb r);
    fc_kw_gap_fr_eff (hyb r); mc_elec_in_kw_for_max_fc_eff (hyb r); elec_kw_req_4ae (hyb r); prev_fc_time_on (hyb r);
    desired_ess_kw_out_for_ae (hyb r); ess_ae_kw_out (hyb r); er_ae_kw_out (hyb r);
    mc_mech_kw_4forced_fc (forced r);
    ess_desired_kw_4fc_eff (dec r); ess_kw_if_fc_req (dec r); er_kw_if_fc_req (dec r); mc_elec_kw_in_if_fc_req (dec r);
    mc_kw_if_fc_req (dec r); min_ess_kw_2help_fc (dec r); fc_kw_out_ach_pct (fc r)] /\
  reached_buff (misc r) = false /\ high_acc_fc_on_tag (misc r) = false /\ can_pwr_all_elec (hyb r) = false /\
  fc_forced_on (forced r) = false /\ fc_forced_state (forced r) = 0%Z.
Proof.
  intros d0 ovr d W H. destruct (run_walked _ _ _ W H) as (d1 & s & A & K).
  pose proof (wk_first _ _ _ _ K) as E. cbv zeta. rewrite E, (al_len _ _ A).
  split; [repeat (constructor; [reflexivity|]); constructor|]. repeat split; reflexivity.
Qed.
Example C75_first_run : match sim_drive_walk (demo_sd demo_hev (mkcyc [0; 1; 2] [10; 11; 11] [0; 0; 0] [0; 0; 0])%float) 0.5%float (Some [2; 1; 1]%float) with
  | Ok d => mph_ach (spd (row_at d 0)) = 22.369%float /\ aux_in_kw (misc (row_at d 0)) = 2%float /\ cyc_met (pwr (row_at d 0)) = true
  | Err _ => False end.
Proof. vm_compute. auto. Qed.
