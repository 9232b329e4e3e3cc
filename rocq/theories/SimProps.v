(** Properties C20-C31, C39 and C56-C65 of a simulated run (python/fastsim/simdrive.py).  Each group of
    theorems is followed by concrete cases that meet its hypotheses ([_run]: the model executed in
    binary64; [_case]: a run over the reals for which the static hypotheses are discharged). *)
From Coq Require Import Floats Sorting.Sorted Lia.
From Verif Require Import Num FloatNum Numpy ListFacts CycleModel CycleSpec ConcatProofs DistProofs VehModel SimModel SimState
  WalkModel FrameProofs WalkProofs StepEqs StepProofs SimSpec SimProofs1 SimProofs2 SimProofs3 SimProofs4
  SimProofs5 SimProofs6 SimDemo.
Local Open Scope R_scope.
Local Set Warnings "-inexact-float".

(** ** Runs used in the examples *)
Lemma ok_witness {A} (r : Res A) (P : A -> bool) :
  match r with Ok d => P d | Err _ => false end = true -> exists d, r = Ok d /\ P d = true.
Proof. destruct r; [eauto|discriminate]. Qed.
Lemma demo_step (v : vehicle R) (c : cyc R) (s : R) (i : nat) : wf c -> (1 <= i < clen c)%nat ->
  increasing (time_s c) -> (veh_pt_type v = CONV \/ min_soc v <= s <= max_soc v) ->
  exists d, sim_drive_walk (demo_sd v c) s None = Ok d /\ is_step (demo_sd v c) None d i /\
    increasing (time_s (d_cyc d)) /\ follows_trace (demo_sd v c) /\ no_dilation (demo_sd v c) /\
    d_cyc (demo_sd v c) = d_cyc0 (demo_sd v c).
Proof.
  intros W I T S. destruct (walk_total (demo_sd v c) s None) as (d & E).
  - cbn. lia.
  - reflexivity.
  - destruct S as [S|S]; [left; exact S|right]. unR. rewrite !Rltb_false. cbn. lra.
  - exists d. split; auto. assert (WS : wf_sd (demo_sd v c)) by (split; [exact W|split; [exact W|reflexivity]]).
    assert (RN : run (demo_sd v c) None d) by (left; eauto).
    destruct (run_starts _ _ _ WS RN) as (s' & K). split; [|split; [|split; [|split; reflexivity]]].
    + split; [exact WS|]. split; [exact RN|]. rewrite (rs_len _ _ _ K). exact I.
    + rewrite (rs_times _ _ _ K) by reflexivity. exact T.
    + split; reflexivity.
Qed.
Lemma demo_trip_wf : wf (demo_trip (F := R)). Proof. repeat split. Qed.
Lemma demo_trip_inc : increasing (time_s (demo_trip (F := R))).
Proof. apply increasing_SS. unfold demo_trip, z. cbn [time_s map]. unR. repeat constructor; lra. Qed.
Lemma demo_motor (v : vehicle R) : In v [demo_conv; demo_hev; demo_bev] -> motor_map_ok v.
Proof.
  assert (E : mc_full_eff_array (demo_hev (F := R)) = [0; 9/10; 8/10]).
  { unfold demo_hev, demo_veh, demo_veh_of. cbn [mc_full_eff_array]. rewrite !lit_R. reflexivity. }
  intros H. assert (Q : mc_full_eff_array v = [0; 9/10; 8/10] /\ length (mc_kw_out_array v) = 3%nat /\ length (mc_kw_in_array v) = 3%nat).
  { cbn in H. destruct H as [<-|[<-|[<-|[]]]]; (split; [exact E|split; reflexivity]). }
  destruct Q as (Q1 & Q2 & Q3). constructor; rewrite ?Q1, ?Q2, ?Q3; auto.
  - cbn. lia.
  - intros k x Hk Hx. destruct k as [|[|[|k]]]; [lia| | |destruct k; discriminate]; injection Hx as <-; lra.
Qed.
Lemma demo_engine (v : vehicle R) : In v [demo_conv; demo_hev; demo_bev] -> engine_map_ok v.
Proof.
  assert (E : fc_eff_array (demo_hev (F := R)) = [1/10; 3/10; 25/100]).
  { unfold demo_hev, demo_veh, demo_veh_of. cbn [fc_eff_array]. rewrite !lit_R. reflexivity. }
  intros H. assert (Q : fc_eff_array v = [1/10; 3/10; 25/100] /\ length (fc_kw_out_array v) = 3%nat).
  { cbn in H. destruct H as [<-|[<-|[<-|[]]]]; (split; [exact E|reflexivity]). }
  destruct Q as (Q1 & Q2). constructor; rewrite ?Q1, ?Q2; [cbn; lia|auto|].
  intros x [<-|[<-|[<-|[]]]]; lra.
Qed.
(** Static facts about the demonstration vehicles. *)
Ltac demo_num := unfold demo_conv, demo_hev, demo_bev, demo_veh, demo_veh_of, demo_sd, new_sd, init_arrays, demo_sp, z;
  cbn -[IZR Rlt Rle]; rewrite ?lit_R; unR; try lra; try reflexivity; try congruence.
Definition hev_trip : sdrive R := demo_sd demo_hev demo_trip.
Definition bev_trip : sdrive R := demo_sd demo_bev demo_trip.
Definition conv_trip : sdrive R := demo_sd demo_conv demo_trip.
Lemma hev_step i : (1 <= i < 5)%nat -> exists d, is_step hev_trip None d i /\ increasing (time_s (d_cyc d)) /\
  follows_trace hev_trip /\ no_dilation hev_trip /\ d_cyc hev_trip = d_cyc0 hev_trip.
Proof.
  intros I. destruct (demo_step demo_hev demo_trip (1/2) i demo_trip_wf I demo_trip_inc) as (d & _ & Q); [|eauto].
  right. demo_num.
Qed.
Lemma bev_step i : (1 <= i < 5)%nat -> exists d, is_step bev_trip None d i /\ increasing (time_s (d_cyc d)) /\
  follows_trace bev_trip /\ no_dilation bev_trip /\ d_cyc bev_trip = d_cyc0 bev_trip.
Proof.
  intros I. destruct (demo_step demo_bev demo_trip (1/2) i demo_trip_wf I demo_trip_inc) as (d & _ & Q); [|eauto].
  right. demo_num.
Qed.
Lemma conv_step i : (1 <= i < 5)%nat -> exists d, is_step conv_trip None d i /\ increasing (time_s (d_cyc d)) /\
  follows_trace conv_trip /\ no_dilation conv_trip /\ d_cyc conv_trip = d_cyc0 conv_trip.
Proof.
  intros I. destruct (demo_step demo_conv demo_trip 0 i demo_trip_wf I demo_trip_inc) as (d & _ & Q); [|eauto].
  left. reflexivity.
Qed.
(** The runs in binary64. *)
Definition rows_of (v : vehicle float) (c : cyc float) (s : float) : list (row float) :=
  match sim_drive_walk (demo_sd v c) s None with Ok d => d_rows d | Err _ => [] end.
Definition at_row (v : vehicle float) (c : cyc float) (s : float) (i : nat) (P : row float -> bool) : bool :=
  match nth_error (rows_of v c s) i with Some r => P r | None => false end.

(** ** C20 *)
Theorem C20_road_load : forall (d0 : sdrive R) (ovr : option (list R)) (d : sdrive R) (i : nat),
  is_step d0 ovr d i -> no_dilation d0 ->
  let v := d_veh d0 in let pr := d_props d0 in let q := pwr (row_at d i) in
  let th := atan (lookup_grade d i (Some (speed d i))) in
  let dt := step_dt d i in
  drag_kw q = drag_power (air_density_kg_per_m3 pr) (drag_coef v) (frontal_area_m2 v) (mean_speed d i) /\
  accel_kw q = mean_kw (kinetic_J (veh_kg v) (speed d (i - 1))) (kinetic_J (veh_kg v) (speed d i)) dt /\
  ascent_kw q = climb_power (veh_kg v) (a_grav_mps2 pr) th (mean_speed d i) /\
  rr_kw q = roll_power (veh_kg v) (a_grav_mps2 pr) (wheel_rr_coef v) th (mean_speed d i) /\
  cyc_tire_inertia_kw q =
    mean_kw (wheels_J (num_wheels v) (wheel_inertia_kg_m2 v) (wheel_radius_m v) (speed d (i - 1)))
            (wheels_J (num_wheels v) (wheel_inertia_kg_m2 v) (wheel_radius_m v) (speed d i)) dt /\
  cyc_whl_rad_per_sec q = speed d i / wheel_radius_m v /\
  cyc_trac_kw_req q = drag_kw q + accel_kw q + ascent_kw q /\
  spare_trac_kw q = cur_max_trac_kw (lims (row_at d i)) - cyc_trac_kw_req q /\
  cyc_whl_kw_req q = drag_kw q + accel_kw q + ascent_kw q + rr_kw q + cyc_tire_inertia_kw q.
Proof. exact road_load. Qed.
Theorem C20_grade_of_trace : forall (d0 : sdrive R) (ovr : option (list R)) (d : sdrive R) (i : nat) x,
  is_step d0 ovr d i -> follows_trace d0 -> d_cyc d0 = d_cyc0 d0 ->
  lookup_grade d i (Some x) = nth i (grade (d_cyc0 d0)) 0.
Proof. exact grade_on_trace. Qed.
Theorem C20_grade_replanned : forall (d0 : sdrive R) (ovr : option (list R)) (d : sdrive R) (i : nat),
  is_step d0 ovr d i -> ~ follows_trace d0 ->
  1 / 1000000 < mean_speed d i * step_dt d i ->
  average_grade_over_range (d_cyc0 d0) (trapezoid (d_cyc d) 0 (i - 1)) (mean_speed d i * step_dt d i)
     (Some (build_cache (d_cyc0 d0))) = Ok (lookup_grade d i (Some (speed d i))).
Proof. exact grade_replanned. Qed.
Theorem C20_brakes : forall (d0 : sdrive R) (ovr : option (list R)) (d : sdrive R) (i : nat),
  is_step d0 ovr d i ->
  let v := d_veh d0 in let q := pwr (row_at d i) in
  cyc_regen_brake_kw q = Rmax 0 (Rmin (cur_max_mech_mc_kw_in (lims (row_at d i)) * trans_eff v)
                                      (regen_contrl_lim_kw_perc q * - cyc_whl_kw_req q)) /\
  cyc_fric_brake_kw q = Rmax 0 (- cyc_whl_kw_req q - cyc_regen_brake_kw q) /\
  cyc_trans_kw_out_req q = cyc_whl_kw_req q + cyc_fric_brake_kw q /\
  (follows_trace d0 -> regen_contrl_lim_kw_perc q =
     regen_share v ((nth i (mps (d_cyc d)) 0 * 2.2369 + speed d (i - 1) * 2.2369) / 2)).
Proof. exact brakes. Qed.
Theorem C20_brake_split : forall (d0 : sdrive R) (ovr : option (list R)) (d : sdrive R) (i : nat),
  is_step d0 ovr d i -> 0 <= max_regen (d_veh d0) <= 1 -> 0 <= regen_a (d_veh d0) ->
  let q := pwr (row_at d i) in
  0 <= cyc_regen_brake_kw q /\ 0 <= cyc_fric_brake_kw q /\
  (0 <= cyc_whl_kw_req q -> cyc_regen_brake_kw q = 0 /\ cyc_fric_brake_kw q = 0 /\
                            cyc_trans_kw_out_req q = cyc_whl_kw_req q) /\
  (cyc_whl_kw_req q < 0 -> cyc_regen_brake_kw q + cyc_fric_brake_kw q = - cyc_whl_kw_req q /\
                           cyc_trans_kw_out_req q = - cyc_regen_brake_kw q).
Proof. exact brake_split. Qed.
Theorem C20_resistances_nonnegative : forall (d0 : sdrive R) (ovr : option (list R)) (d : sdrive R) (i : nat),
  is_step d0 ovr d i -> no_dilation d0 ->
  let v := d_veh d0 in let pr := d_props d0 in let q := pwr (row_at d i) in
  0 <= mean_speed d i ->
  (0 <= air_density_kg_per_m3 pr -> 0 <= drag_coef v -> 0 <= frontal_area_m2 v -> 0 <= drag_kw q) /\
  (0 <= veh_kg v -> 0 <= a_grav_mps2 pr -> 0 <= wheel_rr_coef v -> 0 <= rr_kw q).
Proof.
  intros d0 ovr d i H M v pr q S. destruct (road_load _ _ _ _ H M) as (D & _ & _ & RR & _). fold v pr q in D, RR.
  rewrite D, RR. split; intros.
  - unfold drag_power. assert (0 <= mean_speed d i ^ 3) by now apply pow_le.
    unfold Rdiv. apply Rmult_le_pos; [|lra]. apply Rmult_le_pos; [|lra]. repeat (assumption || apply Rmult_le_pos).
  - unfold roll_power. pose proof (cos_atan_pos (lookup_grade d i (Some (speed d i)))).
    unfold Rdiv. apply Rmult_le_pos; [|lra]. repeat (assumption || apply Rmult_le_pos). lra.
Qed.
Example C20_case : exists d, is_step hev_trip None d 2 /\
  drag_kw (pwr (row_at d 2)) = drag_power (12/10) (3/10) 2 (mean_speed d 2) /\
  rr_kw (pwr (row_at d 2)) = roll_power 1500 (981/100) (1/100) (atan (1/50)) (mean_speed d 2) /\
  0 <= cyc_regen_brake_kw (pwr (row_at d 2)).
Proof.
  destruct (hev_step 2 ltac:(lia)) as (d & S & I & T & M & C). exists d. split; auto.
  destruct (C20_road_load _ _ _ _ S M) as (A & _ & _ & B & _).
  rewrite (C20_grade_of_trace _ _ _ _ _ S T C) in B.
  split; [rewrite A; demo_num|]. split; [rewrite B; demo_num|].
  apply (C20_brake_split _ _ _ _ S); demo_num.
Qed.
(** Braking at the end of the trip: friction and motor share the wheel power; before that, climbing. *)
Example C20_run : at_row demo_hev demo_trip 0.5 4 (fun r => PrimFloat.ltb (cyc_whl_kw_req (pwr r)) 0
    && PrimFloat.ltb 0 (cyc_regen_brake_kw (pwr r)) && PrimFloat.ltb 0 (cyc_fric_brake_kw (pwr r)))%bool = true /\
  at_row demo_hev demo_trip 0.5 2 (fun r => PrimFloat.ltb 0 (ascent_kw (pwr r)) && PrimFloat.ltb 0 (accel_kw (pwr r)))%bool = true.
Proof. split; vm_compute; reflexivity. Qed.

(** With the trace-miss correction on, a step that is solved again keeps the powers of the rejected
    speed: here the recorded drag power is less than 0.9 of the drag at the recorded speeds. *)
Definition drag_f (v : vehicle float) (pr : physprops float) (s : float) : float :=
  (air_density_kg_per_m3 pr * drag_coef v * frontal_area_m2 v * (s * s * s) / 2 / 1000)%float.
Theorem C20_dilation_refuted : exists (v : vehicle float) (pr : physprops float) (sp : simparams float) (c : cyc float) d,
  missed_trace_correction sp = true /\ sim_drive_walk (new_sd v pr sp c) 0.5%float None = Ok d /\
  match nth_error (d_rows d) 1, nth_error (d_rows d) 2 with
  | Some r1, Some r2 => PrimFloat.ltb (drag_kw (pwr r2)) (0.9 * drag_f v pr ((mps_ach (spd r1) + mps_ach (spd r2)) / 2))
  | _, _ => false end = true.
Proof.
  exists demo_conv, demo_props, (demo_sp true false false), demo_dash.
  destruct (ok_witness (sim_drive_walk (new_sd demo_conv demo_props (demo_sp true false false) demo_dash) 0.5%float None)
    (fun d => match nth_error (d_rows d) 1, nth_error (d_rows d) 2 with
     | Some r1, Some r2 => PrimFloat.ltb (drag_kw (pwr r2))
         (0.9 * drag_f demo_conv demo_props ((mps_ach (spd r1) + mps_ach (spd r2)) / 2))
     | _, _ => false end)) as (d & A & B); [vm_compute; reflexivity|].
  exists d. split; [reflexivity|split; [exact A|exact B]].
Qed.

(** ** C21 *)
Theorem C21_within : forall (d0 : sdrive R) (ovr : option (list R)) (d : sdrive R) (i : nat),
  is_step d0 ovr d i -> increasing (time_s (d_cyc d)) ->
  0 <= fc_max_kw (d_veh d0) -> 0 < fc_sec_to_peak_pwr (d_veh d0) ->
  0 <= fc_kw_out_ach (fc (row_at d i)) <= cur_max_fc_kw_out (lims (row_at d i)) /\
  cur_max_fc_kw_out (lims (row_at d i)) <= fc_max_kw (d_veh d0) /\
  fc_kw_out_ach (fc (row_at d i)) <= fc_kw_out_ach (fc (row_at d (i - 1)))
        + fc_max_kw (d_veh d0) / fc_sec_to_peak_pwr (d_veh d0) * step_dt d i.
Proof. exact fc_within. Qed.
Theorem C21_limit : forall (d0 : sdrive R) (ovr : option (list R)) (d : sdrive R) (i : nat),
  is_step d0 ovr d i ->
  cur_max_fc_kw_out (lims (row_at d i)) =
  Rmin (fc_max_kw (d_veh d0)) (fc_kw_out_ach (fc (row_at d (i - 1)))
        + fc_max_kw (d_veh d0) / fc_sec_to_peak_pwr (d_veh d0) * step_dt d i).
Proof. exact fc_limit. Qed.
Theorem C21_no_engine : forall (d0 : sdrive R) (ovr : option (list R)) (d : sdrive R) (i : nat),
  is_step d0 ovr d i -> fc_max_kw (d_veh d0) = 0 ->
  fc_kw_out_ach (fc (row_at d i)) = 0 /\ fc_kw_out_ach_pct (fc (row_at d i)) = 0 /\
  fc_kw_in_ach (fc (row_at d i)) = 0 /\ fs_kw_out_ach (fc (row_at d i)) = 0 /\ fs_kwh_out_ach (fc (row_at d i)) = 0.
Proof. exact fc_none. Qed.
Theorem C21_load_fraction : forall (d0 : sdrive R) (ovr : option (list R)) (d : sdrive R) (i : nat),
  is_step d0 ovr d i -> let v := d_veh d0 in let r := row_at d i in
  fc_kw_out_ach_pct (fc r) = (if Req_EM_T (fc_max_kw v) 0 then 0 else fc_kw_out_ach (fc r) / fc_max_kw v).
Proof. exact engine_share. Qed.
Example C21_case : exists d, is_step conv_trip None d 1 /\
  fc_kw_out_ach (fc (row_at d 1)) <= fc_kw_out_ach (fc (row_at d 0)) + 100 / 2 * step_dt d 1.
Proof.
  destruct (conv_step 1 ltac:(lia)) as (d & S & I & T & M & C). exists d. split; auto.
  apply (C21_within _ _ _ _ S I); demo_num.
Qed.
(** At full throttle the engine sits at the ramp limit. *)
Example C21_run : at_row demo_conv demo_dash 0.5 2 (fun r =>
    PrimFloat.ltb 0 (fc_kw_out_ach (fc r)) && PrimFloat.leb (fc_kw_out_ach (fc r)) (cur_max_fc_kw_out (lims r))
    && PrimFloat.ltb (cur_max_fc_kw_out (lims r)) (fc_max_kw demo_conv))%bool = true.
Proof. vm_compute. reflexivity. Qed.

(** ** C22 *)
Theorem C22_transmission : forall (d0 : sdrive R) (ovr : option (list R)) (d : sdrive R) (i : nat),
  is_step d0 ovr d i -> 0 < trans_eff (d_veh d0) <= 1 ->
  trans_kw_out_ach (pwr (row_at d i)) <= trans_kw_in_ach (pwr (row_at d i)).
Proof. exact trans_loss. Qed.
Theorem C22_motor : forall (d0 : sdrive R) (ovr : option (list R)) (d : sdrive R) (i : nat),
  is_step d0 ovr d i -> motor_map_ok (d_veh d0) ->
  mc_mech_kw_out_ach (dec (row_at d i)) <= mc_elec_kw_in_ach (dec (row_at d i)).
Proof. exact motor_loss. Qed.
Theorem C22_engine : forall (d0 : sdrive R) (ovr : option (list R)) (d : sdrive R) (i : nat),
  is_step d0 ovr d i -> increasing (time_s (d_cyc d)) ->
  0 <= fc_max_kw (d_veh d0) -> 0 < fc_sec_to_peak_pwr (d_veh d0) -> engine_map_ok (d_veh d0) ->
  0 <= fc_kw_out_ach (fc (row_at d i)) <= fc_kw_in_ach (fc (row_at d i)).
Proof. exact fc_loss. Qed.
Theorem C22_battery : forall eta p dt,
  0 < eta <= 1 -> 0 < dt -> p * (dt / 3600) <= drawn_kwh eta p dt.
Proof. exact battery_loss. Qed.
Theorem C22_fuel_store : forall (d0 : sdrive R) (ovr : option (list R)) (d : sdrive R) (i : nat),
  is_step d0 ovr d i ->
  fs_kw_out_ach (fc (row_at d i)) = fc_kw_in_ach (fc (row_at d i)) /\
  fs_kwh_out_ach (fc (row_at d i)) = fc_kw_in_ach (fc (row_at d i)) * step_dt d i / 3600 /\
  (fc_kw_out_ach (fc (row_at d i)) = 0 -> fc_kw_in_ach (fc (row_at d i)) = 0).
Proof. exact fuel_energy. Qed.
(** An efficiency of 0 in the engine map makes running the engine free. *)
Theorem C22_zero_efficiency_is_free : forall (d0 : sdrive R) (ovr : option (list R)) (d : sdrive R) (i : nat),
  is_step d0 ovr d i -> fc_eff_at (d_veh d0) (fc_kw_out_ach (fc (row_at d i))) = 0 ->
  fc_kw_in_ach (fc (row_at d i)) = 0.
Proof. exact zero_eff_fuel. Qed.
Definition free_engine : vehicle float :=
  with_fc_eff demo_conv [0; 0; 0]%float [0; 0; 0]%float.
Theorem C22_engine_loss_refuted : exists (v : vehicle float) (c : cyc float) d,
  (forall x, In x (fc_eff_array v) -> PrimFloat.leb 0 x = true /\ PrimFloat.leb x 1 = true) /\
  sim_drive_walk (demo_sd v c) 0.5%float None = Ok d /\
  match nth_error (d_rows d) 1 with
  | Some r => PrimFloat.ltb (fc_kw_in_ach (fc r)) (fc_kw_out_ach (fc r)) | None => false end = true.
Proof.
  exists free_engine, demo_trip.
  destruct (ok_witness (sim_drive_walk (demo_sd free_engine demo_trip) 0.5%float None)
    (fun d => match nth_error (d_rows d) 1 with
       | Some r => PrimFloat.ltb (fc_kw_in_ach (fc r)) (fc_kw_out_ach (fc r)) | None => false end)) as (d & A & B).
  { vm_compute. reflexivity. }
  exists d. split; [|split; [exact A|exact B]]. intros x [<-|[<-|[<-|[]]]]; split; reflexivity.
Qed.
Example C22_case : exists d, is_step hev_trip None d 2 /\
  trans_kw_out_ach (pwr (row_at d 2)) <= trans_kw_in_ach (pwr (row_at d 2)) /\
  mc_mech_kw_out_ach (dec (row_at d 2)) <= mc_elec_kw_in_ach (dec (row_at d 2)) /\
  fc_kw_out_ach (fc (row_at d 2)) <= fc_kw_in_ach (fc (row_at d 2)).
Proof.
  destruct (hev_step 2 ltac:(lia)) as (d & S & I & T & M & C). exists d. split; auto.
  split; [apply (C22_transmission _ _ _ _ S); demo_num|]. split; [apply (C22_motor _ _ _ _ S), demo_motor; cbn; auto|].
  apply (C22_engine _ _ _ _ S I); [demo_num|demo_num|apply demo_engine; cbn; auto].
Qed.

(** ** C23 *)
Theorem C23_engine : forall (d0 : sdrive R) (ovr : option (list R)) (d : sdrive R) (i : nat) g0,
  is_step d0 ovr d i -> increasing (time_s (d_cyc d)) ->
  0 <= fc_max_kw (d_veh d0) -> 0 < fc_sec_to_peak_pwr (d_veh d0) ->
  length (fc_kw_out_array (d_veh d0)) = length (fc_eff_array (d_veh d0)) ->
  nth_error (fc_kw_out_array (d_veh d0)) 0 = Some g0 -> g0 <= fc_kw_out_ach (fc (row_at d i)) ->
  0 < fc_kw_out_ach (fc (row_at d i)) ->
  exists k eff, grid_point (fc_kw_out_array (d_veh d0)) (fc_kw_out_ach (fc (row_at d i))) k /\
    nth_error (fc_eff_array (d_veh d0)) k = Some eff /\
    fc_kw_in_ach (fc (row_at d i)) = (if Req_EM_T eff 0 then 0 else fc_kw_out_ach (fc (row_at d i)) / eff).
Proof. exact fc_eff_used. Qed.
Theorem C23_motor : forall (d0 : sdrive R) (ovr : option (list R)) (d : sdrive R) (i : nat),
  is_step d0 ovr d i ->
  let v := d_veh d0 in
  (2 <= length (mc_full_eff_array v))%nat ->
  length (mc_kw_out_array v) = length (mc_full_eff_array v) ->
  length (mc_kw_in_array v) = length (mc_full_eff_array v) ->
  In (mc_max_kw v) (mc_kw_out_array v) ->
  let mech := mc_mech_kw_out_ach (dec (row_at d i)) in
  let elec := mc_elec_kw_in_ach (dec (row_at d i)) in
  (mech = 0 -> elec = 0) /\
  (0 < mech -> exists eff, motor_eff v (mc_kw_out_array v) (mc_max_kw v) mech eff /\ elec = mech / eff) /\
  (mech < 0 -> exists eff, motor_eff v (mc_kw_in_array v) (amax (mc_kw_in_array v)) (- mech) eff /\ elec = mech * eff).
Proof. exact motor_eff_used. Qed.
Example C23_case : exists d, is_step hev_trip None d 2 /\
  (0 < mc_mech_kw_out_ach (dec (row_at d 2)) -> exists eff, motor_eff demo_hev [0; 1/2 * 30; 30] 30 (mc_mech_kw_out_ach (dec (row_at d 2))) eff /\
     mc_elec_kw_in_ach (dec (row_at d 2)) = mc_mech_kw_out_ach (dec (row_at d 2)) / eff).
Proof.
  destruct (hev_step 2 ltac:(lia)) as (d & S & I & T & M & C). exists d. split; auto.
  destruct (C23_motor _ _ _ _ S) as (_ & Q & _); try reflexivity; [cbn; lia|right; right; left; reflexivity|].
  revert Q. demo_num. auto.
Qed.
(** Engine at 16.2 of 60 kW: first map point; motor at 4.7 of 30 kW: second entry. *)
Example C23_run : at_row demo_hev demo_trip 0.5 1 (fun r =>
    PrimFloat.eqb (fc_kw_in_ach (fc r)) (fc_kw_out_ach (fc r) / 0.1)
    && PrimFloat.ltb 16 (fc_kw_out_ach (fc r)))%bool = true /\
  at_row demo_hev demo_trip 0.5 3 (fun r =>
    PrimFloat.eqb (mc_elec_kw_in_ach (dec r)) (mc_mech_kw_out_ach (dec r) / 0.9)
    && PrimFloat.ltb 4 (mc_mech_kw_out_ach (dec r)))%bool = true.
Proof. split; vm_compute; reflexivity. Qed.

(** ** C24 *)
Theorem C24_step : forall (d0 : sdrive R) (ovr : option (list R)) (d : sdrive R) (i : nat),
  is_step d0 ovr d i -> no_elec_sys (d_veh d0) = false ->
  ess_cur_kwh (dec (row_at d i)) = ess_cur_kwh (dec (row_at d (i - 1)))
    - drawn_kwh (ess_round_trip_eff (d_veh d0)) (ess_kw_out_ach (dec (row_at d i))) (step_dt d i).
Proof. exact stored. Qed.
Theorem C24_soc : forall (d0 : sdrive R) (ovr : option (list R)) (d : sdrive R) (i : nat),
  is_step d0 ovr d i ->
  (ess_max_kwh (d_veh d0) = 0 -> soc (dec (row_at d i)) = 0) /\
  (ess_max_kwh (d_veh d0) <> 0 -> soc (dec (row_at d i)) = ess_cur_kwh (dec (row_at d i)) / ess_max_kwh (d_veh d0)).
Proof. exact soc_is. Qed.
Theorem C24_whole_walk : forall (d0 : sdrive R) (ovr : option (list R)) (d : sdrive R),
  wf_sd d0 -> run d0 ovr d -> no_elec_sys (d_veh d0) = false ->
  forall n, (n < length (d_rows d))%nat ->
  ess_cur_kwh (dec (row_at d n)) = ess_cur_kwh (dec (row_at d 0))
    - Rsum (map (fun i => drawn_kwh (ess_round_trip_eff (d_veh d0)) (ess_kw_out_ach (dec (row_at d i))) (step_dt d i))
                (seq 1 n)).
Proof. exact stored_sum. Qed.
Theorem C24_no_electric_system : forall (d0 : sdrive R) (ovr : option (list R)) (d : sdrive R) (i : nat),
  is_step d0 ovr d i -> no_elec_sys (d_veh d0) = true ->
  ess_cur_kwh (dec (row_at d i)) = 0.
Proof. exact stored_none. Qed.
Theorem C24_start : forall (d0 : sdrive R) (ovr : option (list R)) (d : sdrive R),
  wf_sd d0 -> run d0 ovr d ->
  ess_cur_kwh (dec (row_at d 0)) = soc (dec (row_at d 0)) * ess_max_kwh (d_veh d0) /\
  (veh_pt_type (d_veh d0) = CONV \/ min_soc (d_veh d0) <= soc (dec (row_at d 0)) <= max_soc (d_veh d0)).
Proof.
  intros d0 ovr d W R. destruct (run_starts _ _ _ W R) as (s & K).
  rewrite (rs_kwh _ _ _ K), (rs_soc _ _ _ K). split; [reflexivity|].
  destruct (rs_soc_ok _ _ _ K) as [A|[A B]]; auto. right. unR. apply Rltb_false in A, B. lra.
Qed.
Example C24_case : exists d, is_step hev_trip None d 3 /\
  ess_cur_kwh (dec (row_at d 3)) = ess_cur_kwh (dec (row_at d 2))
     - drawn_kwh (81/100) (ess_kw_out_ach (dec (row_at d 3))) (step_dt d 3).
Proof.
  destruct (hev_step 3 ltac:(lia)) as (d & S & I & T & M & C). exists d. split; auto.
  rewrite (C24_step _ _ _ _ S) by reflexivity. demo_num.
Qed.
Example C24_run : at_row demo_hev demo_trip 0.5 3 (fun r => PrimFloat.ltb 5 (ess_kw_out_ach (dec r)))%bool = true /\
  at_row demo_hev demo_trip 0.5 4 (fun r => PrimFloat.ltb (ess_kw_out_ach (dec r)) (-14))%bool = true.
Proof. split; vm_compute; reflexivity. Qed.

(** ** C25 *)
Theorem C25_window : forall (d0 : sdrive R) (ovr : option (list R)) (d : sdrive R) (i : nat),
  is_step d0 ovr d i -> increasing (time_s (d_cyc d)) ->
  let v := d_veh d0 in let l := lims (row_at d i) in let s := soc (dec (row_at d (i - 1))) in
  let p := ess_kw_out_ach (dec (row_at d i)) in
  0 < ess_max_kwh v -> 0 <= ess_max_kw v -> 0 < ess_round_trip_eff v -> no_elec_sys v = false ->
  min_soc v <= s <= max_soc v -> - cur_max_ess_chg_kw l <= p <= cur_ess_max_kw_out l ->
  min_soc v <= soc (dec (row_at d i)) <= max_soc v.
Proof. intros d0 ovr d i H I v l s p K P E N. exact (soc_stays _ _ _ _ H I K P E N). Qed.
Theorem C25_limits : forall (d0 : sdrive R) (ovr : option (list R)) (d : sdrive R) (i : nat),
  is_step d0 ovr d i -> increasing (time_s (d_cyc d)) ->
  let v := d_veh d0 in let l := lims (row_at d i) in
  0 < ess_max_kwh v -> 0 <= ess_max_kw v -> 0 < ess_round_trip_eff v ->
  0 <= cur_ess_max_kw_out l <= ess_max_kw v /\ 0 <= cur_max_ess_chg_kw l <= ess_max_kw v.
Proof. intros d0 ovr d i H I v l K P E. exact (ess_limits_range _ _ _ _ H I K P E). Qed.
Theorem C25_limit_formulas : forall (d0 : sdrive R) (ovr : option (list R)) (d : sdrive R) (i : nat),
  is_step d0 ovr d i -> increasing (time_s (d_cyc d)) ->
  let v := d_veh d0 in let l := lims (row_at d i) in let s := soc (dec (row_at d (i - 1))) in
  let eta := sqrt (ess_round_trip_eff v) in let hours := step_dt d i / 3600 in
  0 < ess_max_kwh v -> 0 < ess_max_kw v -> 0 < ess_round_trip_eff v ->
  (min_soc v <= s -> cur_ess_max_kw_out l = Rmin (ess_max_kw v) (ess_max_kwh v * (s - min_soc v) * eta / hours)) /\
  (s <= max_soc v -> cur_max_ess_chg_kw l = Rmin (ess_max_kw v) (ess_max_kwh v * (max_soc v - s) / eta / hours)).
Proof.
  intros d0 ovr d i H I v l s eta hours K P E. assert (P' : 0 <= ess_max_kw v) by lra.
  destruct (ess_limits _ _ _ _ H) as (L1 & L2). fold v l in L1, L2. split; intros W.
  - rewrite L1. f_equal. exact (dis_cap _ _ _ _ H I K W).
  - assert (NZ : ess_max_kw v <> 0) by lra. pose proof (chg_cap _ _ _ _ H I K P' E NZ) as D. fold v s l eta hours in D.
    rewrite L2, D, Rmin_comm, Rmax_right; [reflexivity|]. assert (0 < eta) by now apply sqrt_lt_R0.
    pose proof (run_dt_pos _ _ _ _ H I). unfold Rdiv.
    assert (0 < / eta) by now apply Rinv_0_lt_compat. assert (0 < / hours) by (apply Rinv_0_lt_compat; unfold hours; lra).
    repeat apply Rmult_le_pos; lra.
Qed.
(** The limits are tight: using up what the battery holds lands exactly on the window's edge. *)
Theorem C25_limits_exact : forall (d0 : sdrive R) (ovr : option (list R)) (d : sdrive R) (i : nat),
  is_step d0 ovr d i -> increasing (time_s (d_cyc d)) ->
  let v := d_veh d0 in let l := lims (row_at d i) in let s := soc (dec (row_at d (i - 1))) in
  let p := ess_kw_out_ach (dec (row_at d i)) in
  0 < ess_max_kwh v -> 0 < ess_max_kw v -> 0 < ess_round_trip_eff v -> no_elec_sys v = false ->
  (cur_ess_max_kw_out l < ess_max_kw v -> min_soc v <= s -> p = cur_ess_max_kw_out l ->
     soc (dec (row_at d i)) = min_soc v) /\
  (cur_max_ess_chg_kw l < ess_max_kw v -> s < max_soc v -> p = - cur_max_ess_chg_kw l ->
     soc (dec (row_at d i)) = max_soc v) /\
  (s < min_soc v -> cur_ess_max_kw_out l = 0) /\ (max_soc v <= s -> cur_max_ess_chg_kw l = 0).
Proof.
  intros d0 ovr d i H I v l s p K P E N. assert (P' : 0 <= ess_max_kw v) by lra.
  destruct (ess_limits _ _ _ _ H) as (L1 & L2). fold v l in L1, L2. split; [|split; [|split]].
  - intros A B C. apply (soc_exact_min _ _ _ _ H I K E N B). rewrite L1 in A, C. fold p l. rewrite C. revert A. mm; lra.
  - intros A B C. apply (soc_exact_max _ _ _ _ H I K P' E N B P). rewrite L2 in A, C. fold p l. rewrite C. revert A. mm; lra.
  - intros A. pose proof (dis_empty _ _ _ _ H A) as D. fold l in D. rewrite L1, D. mm; lra.
  - intros A. assert (NZ : ess_max_kw v <> 0) by lra. pose proof (chg_cap _ _ _ _ H I K P' E NZ) as D. fold v s l in D. rewrite L2, D.
    assert (0 < sqrt (ess_round_trip_eff v)) by now apply sqrt_lt_R0. pose proof (run_dt_pos _ _ _ _ H I).
    assert (ess_max_kwh v * (max_soc v - s) / sqrt (ess_round_trip_eff v) / (step_dt d i / 3600) <= 0).
    { unfold Rdiv. assert (0 < / sqrt (ess_round_trip_eff v)) by now apply Rinv_0_lt_compat.
      assert (0 < / (step_dt d i * / 3600)) by (apply Rinv_0_lt_compat; lra).
      assert (0 <= ess_max_kwh v * (s - max_soc v) * / sqrt (ess_round_trip_eff v) * / (step_dt d i * / 3600))
        by (repeat apply Rmult_le_pos; lra). lra. }
    mm; lra.
Qed.
Example C25_case : exists d, is_step hev_trip None d 1 /\ 0 <= cur_ess_max_kw_out (lims (row_at d 1)) <= 25.
Proof.
  destruct (hev_step 1 ltac:(lia)) as (d & S & I & T & M & C). exists d. split; auto.
  destruct (C25_limits _ _ _ _ S I) as (A & _); try demo_num. revert A. demo_num.
Qed.
Example C25_run : at_row demo_hev demo_trip 0.5 3 (fun r =>
    PrimFloat.ltb (- cur_max_ess_chg_kw (lims r)) (ess_kw_out_ach (dec r))
    && PrimFloat.ltb (ess_kw_out_ach (dec r)) (cur_ess_max_kw_out (lims r)))%bool = true.
Proof. vm_compute. reflexivity. Qed.

(** ** C26 *)
Theorem C26_parked_drain : forall (d0 : sdrive R) (ovr : option (list R)) (d : sdrive R) (i : nat),
  is_step d0 ovr d i -> let v := d_veh d0 in let r := row_at d i in
  veh_pt_type v = BEV -> fc_max_kw v = 0 -> ess_max_kw v <> 0 -> 0 < ess_max_kwh v -> no_elec_sys v = false ->
  no_elec_aux v = false -> is_h2fc (fc_eff_type v) = false ->
  high_acc_fc_on_tag (misc r) = false -> trans_kw_in_ach (pwr r) = 0 -> 0 <= cur_max_mech_mc_kw_in (lims r) ->
  0 <= aux_in_kw (misc r) ->
  soc (dec r) = soc (dec (row_at d (i - 1)))
    - aux_in_kw (misc r) * step_dt d i / (3600 * sqrt (ess_round_trip_eff v) * ess_max_kwh v).
Proof. exact parked_drain. Qed.
Theorem C26_window_refuted : exists (v : vehicle float) (c : cyc float) d,
  sim_drive_walk (demo_sd v c) (min_soc v) None = Ok d /\
  match nth_error (d_rows d) 1 with Some r => PrimFloat.ltb (soc (dec r)) (min_soc v) | None => false end = true.
Proof.
  exists demo_bev, demo_park. apply (ok_witness _ (fun d => match nth_error (d_rows d) 1 with
    Some r => PrimFloat.ltb (soc (dec r)) (min_soc demo_bev) | None => false end)). vm_compute. reflexivity.
Qed.
Definition long_park : cyc float := mkcyc [0; 720000]%float [0; 0]%float [0; 0]%float [0; 0]%float.
Theorem C26_negative_soc_refuted : exists (v : vehicle float) (c : cyc float) d,
  sim_drive_walk (demo_sd v c) 0.5%float None = Ok d /\
  match nth_error (d_rows d) 1 with Some r => PrimFloat.ltb (soc (dec r)) 0 | None => false end = true.
Proof.
  exists demo_bev, long_park. apply (ok_witness _ (fun d => match nth_error (d_rows d) 1 with
    Some r => PrimFloat.ltb (soc (dec r)) 0 | None => false end)). vm_compute. reflexivity.
Qed.
(** The hypotheses of the drain theorem hold in that run. *)
Example C26_run : at_row demo_bev demo_park 0.2 1 (fun r =>
    negb (high_acc_fc_on_tag (misc r)) && PrimFloat.eqb (trans_kw_in_ach (pwr r)) 0
    && PrimFloat.leb 0 (cur_max_mech_mc_kw_in (lims r)) && PrimFloat.ltb 0 (aux_in_kw (misc r)))%bool = true.
Proof. vm_compute. reflexivity. Qed.

(** ** C27 *)
Theorem C27_transmission : forall (d0 : sdrive R) (ovr : option (list R)) (d : sdrive R) (i : nat),
  is_step d0 ovr d i ->
  let v := d_veh d0 in let q := pwr (row_at d i) in let lim := cur_max_trans_kw_out (lims (row_at d i)) in
  (cyc_met q = true <-> cyc_trans_kw_out_req q <= lim) /\
  trans_kw_out_ach q = Rmin (cyc_trans_kw_out_req q) lim /\
  (0 < trans_kw_out_ach q -> trans_kw_in_ach q = trans_kw_out_ach q / trans_eff v) /\
  (trans_kw_out_ach q <= 0 -> trans_kw_in_ach q = trans_kw_out_ach q * trans_eff v).
Proof. exact transmission. Qed.
Theorem C27_sign : forall (d0 : sdrive R) (ovr : option (list R)) (d : sdrive R) (i : nat),
  is_step d0 ovr d i -> 0 < trans_eff (d_veh d0) ->
  let q := pwr (row_at d i) in
  (0 < trans_kw_out_ach q <-> 0 < trans_kw_in_ach q) /\ (trans_kw_out_ach q < 0 <-> trans_kw_in_ach q < 0).
Proof. exact transmission_sign. Qed.
Theorem C27_limit : forall (d0 : sdrive R) (ovr : option (list R)) (d : sdrive R) (i : nat),
  is_step d0 ovr d i ->
  let r := row_at d i in let v := d_veh d0 in let l := lims r in
  impose_coast (ctl r) = false ->
  cur_max_trans_kw_out l = Rmin
    ((cur_max_mc_kw_out l + (if is_h2fc (fc_eff_type v) then 0 else cur_max_fc_kw_out l)
      + (if (no_elec_sys v || no_elec_aux v || high_acc_fc_on_tag (misc r))%bool
         then - aux_in_kw (misc r) else Rmax 0 (- cur_max_elec_kw l))) * trans_eff v)
    (cur_max_trac_kw l / trans_eff v).
Proof. exact trans_limit. Qed.
Theorem C27_grip : forall (d0 : sdrive R) (ovr : option (list R)) (d : sdrive R) (i : nat),
  is_step d0 ovr d i ->
  cur_max_trac_kw (lims (row_at d i)) =
    grip_kw (d_veh d0) (a_grav_mps2 (d_props d0)) (speed d (i - 1) + max_trac_mps2 (d_veh d0) * step_dt d i).
Proof. exact grip. Qed.
Example C27_case : exists d, is_step hev_trip None d 2 /\
  trans_kw_out_ach (pwr (row_at d 2)) <= cur_max_trans_kw_out (lims (row_at d 2)).
Proof.
  destruct (hev_step 2 ltac:(lia)) as (d & S & _). exists d. split; auto.
  destruct (C27_transmission _ _ _ _ S) as (_ & A & _). rewrite A. apply Rmin_r.
Qed.
Example C27_run : at_row demo_conv demo_dash 0.5 2 (fun r => negb (cyc_met (pwr r))
    && PrimFloat.eqb (trans_kw_out_ach (pwr r)) (cur_max_trans_kw_out (lims r))
    && negb (impose_coast (ctl r)))%bool = true.
Proof. vm_compute. reflexivity. Qed.

(** ** C28 *)
Theorem C28_achieved : forall (d0 : sdrive R) (ovr : option (list R)) (d : sdrive R) (i : nat),
  is_step d0 ovr d i -> follows_trace d0 -> no_dilation d0 -> d_cyc d0 = d_cyc0 d0 ->
  increasing (time_s (d_cyc d0)) -> wheel_radius_m (d_veh d0) <> 0 ->
  let v := d_veh d0 in let pr := d_props d0 in let l := lims (row_at d i) in
  let want := nth i (mps (d_cyc0 d0)) 0 in let g := nth i (grade (d_cyc0 d0)) 0 in
  let v1 := speed d (i - 1) in let dt := step_dt d i in
  let need := gear_request (cur_max_mech_mc_kw_in l * trans_eff v)
                (regen_share v ((want * 2.2369 + v1 * 2.2369) / 2)) (wheel_kw v pr g v1 dt want) in
  (need <= cur_max_trans_kw_out l -> speed d i = want /\ newton_iters (spd (row_at d i)) = 0%nat) /\
  (cur_max_trans_kw_out l < need -> (1 <= newton_max_iter (d_sp d0))%nat ->
    exists f' xs b, 
      let f := fun x => wheel_kw v pr g v1 dt x - cur_max_trans_kw_out l in
      (forall x, derivable_pt_lim f x (f' x)) /\
      newton_search f f' (newton_gain (d_sp d0)) (newton_xtol (d_sp d0)) (newton_max_iter (d_sp d0)) (Rmax 1 v1) xs /\
      best_of f xs b /\ speed d i = Rmax b 0 /\ newton_iters (spd (row_at d i)) = length xs).
Proof. exact achieved. Qed.
Theorem C28_achieved_replanned : forall (d0 : sdrive R) (ovr : option (list R)) (d : sdrive R) (i : nat),
  is_step d0 ovr d i -> increasing (time_s (d_cyc d)) ->
  wheel_radius_m (d_veh d0) <> 0 -> (1 <= newton_max_iter (d_sp d0))%nat -> no_dilation d0 ->
  newton_iters (spd (row_at d i)) <> 0%nat ->
  let v := d_veh d0 in let pr := d_props d0 in let l := lims (row_at d i) in
  let v1 := speed d (i - 1) in let dt := step_dt d i in
  exists g f' xs b,
      let f := fun x => wheel_kw v pr g v1 dt x - cur_max_trans_kw_out l in
      (g = estimate_grade d i \/ exists x, 0 <= x /\ g = lookup_grade d i (Some x)) /\
      (forall x, derivable_pt_lim f x (f' x)) /\
      newton_search f f' (newton_gain (d_sp d0)) (newton_xtol (d_sp d0)) (newton_max_iter (d_sp d0)) (Rmax 1 v1) xs /\
      best_of f xs b /\ speed d i = Rmax b 0 /\ newton_iters (spd (row_at d i)) = length xs.
Proof. exact achieved_any. Qed.
Theorem C28_nonnegative : forall (d0 : sdrive R) (ovr : option (list R)) (d : sdrive R),
  wf_sd d0 -> run d0 ovr d -> follows_trace d0 -> d_cyc d0 = d_cyc0 d0 ->
  (forall x, In x (mps (d_cyc0 d0)) -> 0 <= x) -> forall i, (i < length (d_rows d))%nat -> 0 <= speed d i.
Proof. exact speed_nonneg. Qed.
Theorem C28_units : forall (d0 : sdrive R) (ovr : option (list R)) (d : sdrive R) (i : nat),
  is_step d0 ovr d i ->
  mph_ach (spd (row_at d i)) = speed d i * 2.2369 /\
  dist_m_ach (spd (row_at d i)) = speed d i * step_dt d i /\
  dist_mi_ach (spd (row_at d i)) = speed d i * step_dt d i / 1609.
Proof. exact speed_units. Qed.
Example C28_case : exists d, is_step hev_trip None d 2 /\ 0 <= speed d 2 /\
  (newton_iters (spd (row_at d 2)) <= 100)%nat.
Proof.
  destruct (hev_step 2 ltac:(lia)) as (d & S & I & T & M & C). exists d. split; auto. split.
  - destruct S as (W & R & L). apply (C28_nonnegative _ _ _ W R T C); [|lia].
    intros x. cbn -[IZR]. unfold z. unR. intros [<-|[<-|[<-|[<-|[<-|[]]]]]]; lra.
  - destruct (C28_achieved _ _ _ _ S T M C) as (A & B); [exact demo_trip_inc|demo_num|].
    match type of A with (?n <= ?l -> _) => destruct (Rle_lt_dec n l) as [Q|Q] end.
    + destruct (A Q) as (_ & ->). lia.
    + destruct (B Q) as (f' & xs & b & _ & NS & _ & _ & ->); [cbn; lia|]. apply (ns_most _ _ _ _ _ _ _ NS).
Qed.
Example C28_run : at_row demo_conv demo_dash 0.5 2 (fun r => Nat.eqb (newton_iters (spd r)) 12
    && PrimFloat.ltb (mps_ach (spd r)) 11 && PrimFloat.ltb 10 (mps_ach (spd r)))%bool = true /\
  at_row demo_conv demo_dash 0.5 1 (fun r => Nat.eqb (newton_iters (spd r)) 0
    && PrimFloat.eqb (mps_ach (spd r)) 6)%bool = true.
Proof. split; vm_compute; reflexivity. Qed.

(** ** C29 *)
Definition demo_climb : cyc float := mkcyc [0; 300; 600]%float [0; 1; 40]%float [0; 0.2; 0.2]%float [0; 0; 0]%float.
Theorem C29_cyc_met_refuted : exists (v : vehicle float) (c : cyc float) d,
  sim_drive_walk (demo_sd v c) 0.5%float None = Ok d /\
  match nth_error (d_rows d) 2, nth_error (mps c) 2 with
  | Some r, Some x => (cyc_met (pwr r) && PrimFloat.ltb (mps_ach (spd r)) x)%bool | _, _ => false end = true.
Proof.
  exists demo_hev, demo_climb. apply (ok_witness _ (fun d => match nth_error (d_rows d) 2, nth_error (mps demo_climb) 2 with
  | Some r, Some x => (cyc_met (pwr r) && PrimFloat.ltb (mps_ach (spd r)) x)%bool | _, _ => false end)).
  vm_compute. reflexivity.
Qed.
(** What the flag does say. *)
Theorem C29_no_search_means_met : forall (d0 : sdrive R) (ovr : option (list R)) (d : sdrive R) (i : nat),
  is_step d0 ovr d i -> no_dilation d0 -> newton_iters (spd (row_at d i)) = 0%nat ->
  follows_trace d0 -> d_cyc d0 = d_cyc0 d0 -> increasing (time_s (d_cyc d0)) -> wheel_radius_m (d_veh d0) <> 0 ->
  (1 <= newton_max_iter (d_sp d0))%nat ->
  speed d i = nth i (mps (d_cyc0 d0)) 0.
Proof.
  intros d0 ovr d i H M Z T C I W NM. destruct (achieved _ _ _ _ H T M C I W) as (A & B).
  match type of A with (?n <= ?l -> _) => destruct (Rle_lt_dec n l) as [Q|Q] end; [apply (A Q)|].
  destruct (B Q NM) as (f' & xs & b & _ & NS & _ & _ & E). pose proof (ns_first _ _ _ _ _ _ _ NS) as N1.
  rewrite E in Z. destruct xs; discriminate.
Qed.
Example C29_run : at_row demo_hev demo_climb 0.5 2 (fun r => Nat.eqb (newton_iters (spd r)) 11
    && PrimFloat.ltb (mps_ach (spd r)) 32 && PrimFloat.ltb 31 (mps_ach (spd r)))%bool = true.
Proof. vm_compute. reflexivity. Qed.

(** ** C31 *)
Theorem C31_no_motor : forall (d0 : sdrive R) (ovr : option (list R)) (d : sdrive R) (i : nat),
  is_step d0 ovr d i -> mc_max_kw (d_veh d0) = 0 ->
  mc_mech_kw_out_ach (dec (row_at d i)) = 0 /\ mc_elec_kw_in_ach (dec (row_at d i)) = 0.
Proof. exact no_motor. Qed.
Theorem C31_no_battery : forall (d0 : sdrive R) (ovr : option (list R)) (d : sdrive R) (i : nat),
  is_step d0 ovr d i -> ess_max_kw (d_veh d0) = 0 ->
  let r := row_at d i in
  ess_kw_out_ach (dec r) = 0 /\ cur_max_ess_chg_kw (lims r) = 0 /\ cur_max_mech_mc_kw_in (lims r) = 0 /\
  cyc_regen_brake_kw (pwr r) = 0 /\
  cyc_trans_kw_out_req (pwr r) = Rmax 0 (cyc_whl_kw_req (pwr r)).
Proof. exact no_battery. Qed.
Theorem C31_no_fuel : forall (d0 : sdrive R) (ovr : option (list R)) (d : sdrive R) (i : nat),
  is_step d0 ovr d i -> fc_max_kw (d_veh d0) = 0 ->
  fc_kw_out_ach (fc (row_at d i)) = 0 /\ fc_kw_out_ach_pct (fc (row_at d i)) = 0 /\
  fc_kw_in_ach (fc (row_at d i)) = 0 /\ fs_kw_out_ach (fc (row_at d i)) = 0 /\ fs_kwh_out_ach (fc (row_at d i)) = 0.
Proof. exact fc_none. Qed.
Example C31_case : exists d, is_step conv_trip None d 4 /\ mc_elec_kw_in_ach (dec (row_at d 4)) = 0 /\
  ess_kw_out_ach (dec (row_at d 4)) = 0.
Proof.
  destruct (conv_step 4 ltac:(lia)) as (d & S & _). exists d. split; auto.
  split; [apply (C31_no_motor _ _ _ _ S); demo_num|apply (C31_no_battery _ _ _ _ S); demo_num].
Qed.
Example C31_case_bev : exists d, is_step bev_trip None d 2 /\ fs_kw_out_ach (fc (row_at d 2)) = 0.
Proof.
  destruct (bev_step 2 ltac:(lia)) as (d & S & _). exists d. split; auto. apply (C31_no_fuel _ _ _ _ S). demo_num.
Qed.

(** ** C39 *)
Theorem C39_coasting : forall (d0 : sdrive R) (ovr : option (list R)) (d : sdrive R) (i : nat),
  is_step d0 ovr d i -> impose_coast (ctl (row_at d i)) = true ->
  cur_max_trans_kw_out (lims (row_at d i)) = 0 /\
  trans_kw_out_ach (pwr (row_at d i)) = Rmin (cyc_trans_kw_out_req (pwr (row_at d i))) 0.
Proof. exact coast_limit. Qed.
Definition coast_trip : cyc float := mkcyc [0; 1; 2; 3; 4; 5; 6; 7; 8; 9; 10; 11; 12; 13; 14; 15; 16; 17; 18; 19; 20; 21; 22; 23; 24]%float
  [0; 2; 4; 6; 8; 10; 12; 14; 16; 18; 18; 18; 18; 18; 18; 18; 18; 18; 15; 12; 9; 6; 3; 0; 0]%float (repeat 0 25)%float (repeat 0 25)%float.
Definition coasting (v : vehicle float) : sdrive float := new_sd v demo_props (demo_sp false true false) coast_trip.
Example C39_run : match sim_drive_walk (coasting demo_conv) 0.5%float None with
  | Ok d => existsb (fun r => (impose_coast (ctl r) && PrimFloat.leb (trans_kw_out_ach (pwr r)) 0
                               && PrimFloat.ltb 0 (mps_ach (spd r)))%bool) (d_rows d)
  | Err _ => false end = true.
Proof. vm_compute. reflexivity. Qed.

(** ** C56 *)
Theorem C56_electric : forall (d0 : sdrive R) (ovr : option (list R)) (d : sdrive R) (i : nat),
  is_step d0 ovr d i -> let v := d_veh d0 in let r := row_at d i in
  ess_max_kw v <> 0 -> ess_max_kwh v <> 0 -> is_h2fc (fc_eff_type v) = false ->
  ess_kw_out_ach (dec r) = mc_elec_kw_in_ach (dec r) + (if aux_on_shaft v r then 0 else aux_in_kw (misc r)).
Proof. exact electric_bus. Qed.
Theorem C56_mechanical : forall (d0 : sdrive R) (ovr : option (list R)) (d : sdrive R) (i : nat),
  is_step d0 ovr d i -> let v := d_veh d0 in let r := row_at d i in
  fc_max_kw v <> 0 -> is_h2fc (fc_eff_type v) = false -> no_elec_aux v = true \/ no_elec_sys v = false ->
  fc_kw_out_ach (fc r) =
  Rmin (cur_max_fc_kw_out (lims r))
       (Rmax 0 (trans_kw_in_ach (pwr r) - mc_mech_kw_out_ach (dec r) + (if aux_on_shaft v r then aux_in_kw (misc r) else 0))).
Proof. exact mechanical_bus. Qed.
Theorem C56_fuel_cell : forall (d0 : sdrive R) (ovr : option (list R)) (d : sdrive R) (i : nat),
  is_step d0 ovr d i -> let v := d_veh d0 in let r := row_at d i in
  fc_max_kw v <> 0 -> is_h2fc (fc_eff_type v) = true ->
  fc_kw_out_ach (fc r) = Rmin (cur_max_fc_kw_out (lims r))
    (Rmax 0 (mc_elec_kw_in_ach (dec r) + aux_in_kw (misc r) - ess_kw_out_ach (dec r))) /\
  (ess_max_kw v <> 0 -> ess_max_kwh v <> 0 ->
   (0 <= trans_kw_out_ach (pwr r) ->
      ess_kw_out_ach (dec r) <= mc_elec_kw_in_ach (dec r) + aux_in_kw (misc r) /\
      ess_kw_out_ach (dec r) <= cur_ess_max_kw_out (lims r)) /\
   (trans_kw_out_ach (pwr r) < 0 -> ess_kw_out_ach (dec r) = mc_elec_kw_in_ach (dec r) + aux_in_kw (misc r))).
Proof. exact fuel_cell_bus. Qed.
Theorem C56_fuel_cell_battery : forall (d0 : sdrive R) (ovr : option (list R)) (d : sdrive R) (i : nat),
  is_step d0 ovr d i -> let v := d_veh d0 in let r := row_at d i in
  ess_max_kw v <> 0 -> ess_max_kwh v <> 0 -> is_h2fc (fc_eff_type v) = true -> 0 <= trans_kw_out_ach (pwr r) ->
  ess_kw_out_ach (dec r) =
    Rmin (Rmin (cur_ess_max_kw_out (lims r)) (mc_elec_kw_in_ach (dec r) + aux_in_kw (misc r)))
         (Rmax (Rmax (min_ess_kw_2help_fc (dec r)) (ess_desired_kw_4fc_eff (dec r))) (ess_accel_regen_dischg_kw (hyb r))).
Proof. exact fuel_cell_battery. Qed.
Theorem C56_no_roadway_power : forall (d0 : sdrive R) (ovr : option (list R)) (d : sdrive R) (i : nat),
  is_step d0 ovr d i -> roadway_chg_kw_out_ach (dec (row_at d i)) = 0.
Proof. exact road_zero. Qed.
Example C56_case : exists d, is_step hev_trip None d 2 /\
  ess_kw_out_ach (dec (row_at d 2)) = mc_elec_kw_in_ach (dec (row_at d 2))
     + (if aux_on_shaft demo_hev (row_at d 2) then 0 else aux_in_kw (misc (row_at d 2))).
Proof.
  destruct (hev_step 2 ltac:(lia)) as (d & S & _). exists d. split; auto.
  apply (C56_electric _ _ _ _ S); demo_num.
Qed.
Example C56_run : at_row demo_fcv demo_trip 0.5 1 (fun r => PrimFloat.ltb 0 (fc_kw_out_ach (fc r))
    && PrimFloat.ltb 0 (mc_elec_kw_in_ach (dec r)))%bool = true.
Proof. vm_compute. reflexivity. Qed.

(** ** C57 *)
Theorem C57_decision : forall (d0 : sdrive R) (ovr : option (list R)) (d : sdrive R) (i : nat),
  is_step d0 ovr d i -> let v := d_veh d0 in let r := row_at d i in
  (follows_trace d0 ->
   (can_pwr_all_elec (hyb r) = true <->
    accel_buff_soc (hyb r) < soc (dec (row_at d (i - 1))) /\
    trans_kw_in_ach (pwr r) - 1 / 1000000 <= cur_max_mc_kw_out (lims r) /\
    (fc_max_kw v <> 0 ->
       elec_kw_req_4ae (hyb r) < cur_max_elec_kw (lims r) /\
       (nth i (mps (d_cyc d)) 0 * 2.2369 - 1 / 1000000 <= mph_fc_on v \/ charging_on v = true) /\
       elec_kw_req_4ae (hyb r) <= kw_demand_fc_on v))).
Proof. exact all_electric. Qed.
Theorem C57_motor_drives : forall (d0 : sdrive R) (ovr : option (list R)) (d : sdrive R) (i : nat),
  is_step d0 ovr d i -> let v := d_veh d0 in let r := row_at d i in
  mc_max_kw v <> 0 -> can_pwr_all_elec (hyb r) = true -> fc_forced_on (forced r) = false ->
  0 < trans_kw_in_ach (pwr r) -> mc_mech_kw_out_ach (dec r) = trans_kw_in_ach (pwr r).
Proof. exact all_electric_motor. Qed.
Theorem C57_engine_off : forall (d0 : sdrive R) (ovr : option (list R)) (d : sdrive R) (i : nat),
  is_step d0 ovr d i -> let v := d_veh d0 in let r := row_at d i in
  increasing (time_s (d_cyc d)) -> 0 <= fc_max_kw v -> 0 < fc_sec_to_peak_pwr v ->
  mc_max_kw v <> 0 -> is_h2fc (fc_eff_type v) = false -> no_elec_sys v = false ->
  can_pwr_all_elec (hyb r) = true -> fc_forced_on (forced r) = false -> aux_on_shaft v r = false ->
  0 < trans_kw_in_ach (pwr r) -> fc_kw_out_ach (fc r) = 0 /\ fs_kw_out_ach (fc r) = 0.
Proof. exact all_electric_engine. Qed.
Example C57_run : at_row demo_hev demo_trip 0.5 3 (fun r => can_pwr_all_elec (hyb r) && negb (fc_forced_on (forced r))
    && negb (high_acc_fc_on_tag (misc r)) && PrimFloat.ltb 0 (trans_kw_in_ach (pwr r)) && PrimFloat.eqb (fc_kw_out_ach (fc r)) 0)%bool = true /\
  at_row demo_hev demo_trip 0.5 1 (fun r => negb (can_pwr_all_elec (hyb r)) && PrimFloat.ltb 0 (fc_kw_out_ach (fc r)))%bool = true.
Proof. split; vm_compute; reflexivity. Qed.
Example C57_case : exists d, is_step hev_trip None d 3 /\
  (can_pwr_all_elec (hyb (row_at d 3)) = true -> accel_buff_soc (hyb (row_at d 3)) < soc (dec (row_at d 2))).
Proof.
  destruct (hev_step 3 ltac:(lia)) as (d & S & I & T & M & C). exists d. split; auto.
  intros Q. apply (C57_decision _ _ _ _ S T) in Q. apply Q.
Qed.

(** ** C58 *)
Theorem C58_forced_on : forall (d0 : sdrive R) (ovr : option (list R)) (d : sdrive R) (i : nat),
  is_step d0 ovr d i -> let v := d_veh d0 in let r := row_at d i in
  let on := fc_time_on (dec (row_at d (i - 1))) in
  (fc_forced_on (forced r) = true <-> 0 < on < min_fc_time_on v - step_dt d i) /\
  prev_fc_time_on (hyb r) = on.
Proof. exact forced_on. Qed.
Theorem C58_timer : forall (d0 : sdrive R) (ovr : option (list R)) (d : sdrive R) (i : nat),
  is_step d0 ovr d i -> follows_trace d0 -> no_dilation d0 ->
  let r := row_at d i in
  (can_pwr_all_elec (hyb r) = true -> fc_forced_on (forced r) = false -> fc_time_on (dec r) = 0) /\
  (can_pwr_all_elec (hyb r) = false \/ fc_forced_on (forced r) = true ->
   fc_time_on (dec r) = fc_time_on (dec (row_at d (i - 1))) + step_dt d i).
Proof. exact timer. Qed.
Theorem C58_forced_states : forall (d0 : sdrive R) (ovr : option (list R)) (d : sdrive R) (i : nat),
  is_step d0 ovr d i -> no_dilation d0 -> let v := d_veh d0 in let r := row_at d i in
  let f := forced r in let inp := trans_kw_in_ach (pwr r) in
  let rest := inp - mc_mech_kw_4forced_fc f in
  (fc_forced_on f = false \/ can_pwr_all_elec (hyb r) = false -> fc_forced_state f = 1%Z /\ mc_mech_kw_4forced_fc f = 0) /\
  (fc_forced_on f = true -> can_pwr_all_elec (hyb r) = true ->
     (inp < 0 -> fc_forced_state f = 2%Z /\ rest = 0) /\
     (0 <= inp -> inp = max_fc_eff_kw v -> fc_forced_state f = 3%Z /\ rest = inp) /\
     (0 <= inp -> inp <> max_fc_eff_kw v -> inp < idle_fc_kw v -> 0 <= accel_kw (pwr r) ->
        fc_forced_state f = 4%Z /\ rest = idle_fc_kw v) /\
     (0 <= inp -> inp < max_fc_eff_kw v -> idle_fc_kw v <= inp \/ accel_kw (pwr r) < 0 ->
        fc_forced_state f = 5%Z /\ rest = inp) /\
     (0 <= inp -> max_fc_eff_kw v < inp -> idle_fc_kw v <= inp \/ accel_kw (pwr r) < 0 ->
        fc_forced_state f = 6%Z /\ rest = max_fc_eff_kw v)).
Proof. exact forced_states. Qed.
Example C58_case : exists d, is_step hev_trip None d 3 /\
  (fc_forced_on (forced (row_at d 3)) = true <-> 0 < fc_time_on (dec (row_at d 2)) < 5 - step_dt d 3).
Proof.
  destruct (hev_step 3 ltac:(lia)) as (d & S & _). exists d. split; auto.
  destruct (C58_forced_on _ _ _ _ S) as (A & _). exact A.
Qed.
Definition gentle : cyc float := mkcyc [0; 2; 3; 4; 5]%float [0; 6; 6; 6.2; 5]%float [0; 0; 0; 0; 0]%float [0; 0; 0; 0; 0]%float.
Example C58_run : existsb (fun r => (fc_forced_on (forced r) && can_pwr_all_elec (hyb r))%bool) (rows_of demo_hev gentle 0.5) = true /\
  at_row demo_hev demo_trip 0.5 2 (fun r => PrimFloat.eqb (fc_time_on (dec r)) 4) = true /\
  at_row demo_hev demo_trip 0.5 3 (fun r => PrimFloat.eqb (fc_time_on (dec r)) 0) = true.
Proof. repeat split; vm_compute; reflexivity. Qed.

(** ** C59 *)
Theorem C59_accel_buffer : forall (d0 : sdrive R) (ovr : option (list R)) (d : sdrive R) (i : nat),
  is_step d0 ovr d i -> let v := d_veh d0 in let h := hyb (row_at d i) in
  (no_elec_sys v = true -> accel_buff_soc h = 0 /\ regen_buff_soc h = 0) /\
  (no_elec_sys v = false -> min_soc v <= max_soc v -> min_soc v <= accel_buff_soc h <= max_soc v).
Proof. exact accel_buffer. Qed.
Theorem C59_regen_buffer : forall (d0 : sdrive R) (ovr : option (list R)) (d : sdrive R) (i : nat),
  is_step d0 ovr d i -> let v := d_veh d0 in let h := hyb (row_at d i) in
  no_elec_sys v = false -> min_soc v <= max_soc v -> 0 < ess_max_kwh v -> 0 <= veh_kg v ->
  0 <= max_regen v -> 0 <= mc_peak_eff v ->
  min_soc v <= regen_buff_soc h <= max_soc v.
Proof. exact regen_buffer. Qed.
Theorem C59_set_points : forall (d0 : sdrive R) (ovr : option (list R)) (d : sdrive R) (i : nat),
  is_step d0 ovr d i -> follows_trace d0 -> let v := d_veh d0 in let h := hyb (row_at d i) in
  no_elec_sys v = false -> ess_max_kwh v <> 0 -> max_accel_buffer_mph v <> 0 ->
  let s := nth i (mps (d_cyc d)) 0 in
  let reserve := Rmin (max_accel_buffer_perc_of_useable_soc v * (max_soc v - min_soc v))
                      (kinetic_J (veh_kg v) 27 / 3600000 / ess_max_kwh v) in
  accel_buff_soc h = Rmin (max_soc v) (Rmax (min_soc v)
      (min_soc v + (1 - (s / (max_accel_buffer_mph v / 2.2369)) ^ 2) * reserve)) /\
  (charging_on v = false -> regen_buff_soc h = Rmax (min_soc v)
      (max_soc v - kinetic_J (veh_kg v) s / 3600000 * mc_peak_eff v * max_regen v / ess_max_kwh v)) /\
  (charging_on v = true -> regen_buff_soc h = Rmax ((max_soc v + min_soc v) / 2)
      (max_soc v - kinetic_J (veh_kg v) 27 / 3600000 / ess_max_kwh v)).
Proof. exact buffer_points. Qed.
Theorem C59_rates : forall (d0 : sdrive R) (ovr : option (list R)) (d : sdrive R) (i : nat),
  is_step d0 ovr d i -> follows_trace d0 -> no_dilation d0 ->
  let v := d_veh d0 in let r := row_at d i in let h := hyb r in let l := lims r in
  let s := soc (dec (row_at d (i - 1))) in
  let to target := to_soc_kw (ess_max_kwh v) s target (step_dt d i) in
  (no_elec_sys v = true \/ charging_on v = true -> ess_regen_buff_dischg_kw h = 0 /\ max_ess_regen_buff_chg_kw h = 0) /\
  (no_elec_sys v = false -> charging_on v = false ->
     ess_regen_buff_dischg_kw h = Rmin (cur_ess_max_kw_out l) (Rmax 0 (to (regen_buff_soc h))) /\
     max_ess_regen_buff_chg_kw h = Rmin (cur_max_ess_chg_kw l) (Rmax 0 (- to (regen_buff_soc h)))) /\
  (no_elec_sys v = true -> ess_accel_buff_chg_kw h = 0 /\ max_ess_accell_buff_dischg_kw h = 0) /\
  (no_elec_sys v = false ->
     ess_accel_buff_chg_kw h = Rmax 0 (- to (accel_buff_soc h)) /\
     max_ess_accell_buff_dischg_kw h = Rmin (cur_ess_max_kw_out l) (Rmax 0 (to (accel_buff_soc h)))).
Proof. exact buffer_rates. Qed.
Theorem C59_power : forall (d0 : sdrive R) (ovr : option (list R)) (d : sdrive R) (i : nat),
  is_step d0 ovr d i ->
  let v := d_veh d0 in let r := row_at d i in let h := hyb r in let l := lims r in
  let s := soc (dec (row_at d (i - 1))) in
  ess_accel_regen_dischg_kw h = within_battery (cur_ess_max_kw_out l) (cur_max_ess_chg_kw l)
    (if Rlt_dec (regen_buff_soc h) (accel_buff_soc h)
     then to_soc_kw (ess_max_kwh v) s ((regen_buff_soc h + accel_buff_soc h) / 2) (step_dt d i)
     else if Rlt_dec (regen_buff_soc h) s then ess_regen_buff_dischg_kw h
     else if Rlt_dec s (accel_buff_soc h) then - ess_accel_buff_chg_kw h else 0).
Proof. exact buffer_power. Qed.
Example C59_case : exists d, is_step hev_trip None d 2 /\
  2/10 <= accel_buff_soc (hyb (row_at d 2)) <= 8/10.
Proof.
  destruct (hev_step 2 ltac:(lia)) as (d & S & _). exists d. split; auto.
  destruct (C59_accel_buffer _ _ _ _ S) as (_ & A). revert A. demo_num.
Qed.
Example C59_run : at_row demo_hev demo_trip 0.5 2 (fun r => PrimFloat.ltb 0.2 (accel_buff_soc (hyb r))
   && PrimFloat.ltb (regen_buff_soc (hyb r)) 0.8 && PrimFloat.ltb (accel_buff_soc (hyb r)) (regen_buff_soc (hyb r)))%bool = true.
Proof. vm_compute. reflexivity. Qed.

(** ** C60 *)
Theorem C60_motor : forall (d0 : sdrive R) (ovr : option (list R)) (d : sdrive R) (i : nat),
  is_step d0 ovr d i -> let v := d_veh d0 in let l := lims (row_at d i) in
  0 <= mc_max_kw v ->
  - mc_max_kw v <= cur_max_mc_kw_out l <= mc_max_kw v /\
  (stop_start v = true -> cur_max_mc_kw_out l <= 0) /\
  (0 <= mc_transi_lim_kw l -> cur_max_mc_kw_out l <= mc_transi_lim_kw l) /\
  mc_transi_lim_kw l = Rabs (mc_mech_kw_out_ach (dec (row_at d (i - 1)))) + mc_max_kw v / mc_sec_to_peak_pwr v * step_dt d i /\
  (cur_max_elec_kw l <= 0 -> cur_max_mc_kw_out l <= 0) /\
  cur_max_avail_elec_kw l = Rmin (cur_max_elec_kw l) (mc_max_elec_in_kw v) /\
  cur_max_elec_kw l = (if is_h2fc (fc_eff_type v) then cur_max_fc_kw_out l else 0) + cur_ess_max_kw_out l
                      - aux_in_kw (misc (row_at d i)) /\
  cur_max_mech_mc_kw_in l <= mc_max_kw v.
Proof. exact motor_limits. Qed.
Theorem C60_fuel_store : forall (d0 : sdrive R) (ovr : option (list R)) (d : sdrive R) (i : nat),
  is_step d0 ovr d i ->
  cur_max_fs_kw_out (lims (row_at d i)) = Rmin (fs_max_kw (d_veh d0))
    (fs_kw_out_ach (fc (row_at d (i - 1))) + fs_max_kw (d_veh d0) / fs_secs_to_peak_pwr (d_veh d0) * step_dt d i).
Proof. exact fuel_limit. Qed.
Theorem C60_motor_feed : forall (d0 : sdrive R) (ovr : option (list R)) (d : sdrive R) (i : nat),
  is_step d0 ovr d i -> let v := d_veh d0 in let l := lims (row_at d i) in
  (2 <= length (mc_full_eff_array v))%nat ->
  length (mc_kw_out_array v) = length (mc_full_eff_array v) ->
  length (mc_kw_in_array v) = length (mc_full_eff_array v) ->
  let a := cur_max_avail_elec_kw l in let top := amax (mc_kw_in_array v) in
  (cur_max_elec_kw l <= 0 -> mc_elec_in_lim_kw l = 0) /\
  (0 < cur_max_elec_kw l -> a = top ->
     mc_elec_in_lim_kw l = Rmin (nth (length (mc_full_eff_array v) - 1) (mc_kw_out_array v) 0) (mc_max_kw v)) /\
  (0 < cur_max_elec_kw l -> a <> top -> nth_error (mc_kw_in_array v) 0 = Some 0 -> 1/100 <= top -> 0 <= a ->
     exists j, grid_point (mc_kw_in_array v) (Rmin (top - 1/100) a) j /\
       mc_elec_in_lim_kw l = Rmin (nth j (mc_kw_out_array v) 0) (mc_max_kw v)).
Proof. exact motor_feed_limit. Qed.
Theorem C60_motor_output : forall (d0 : sdrive R) (ovr : option (list R)) (d : sdrive R) (i : nat),
  is_step d0 ovr d i -> let v := d_veh d0 in let l := lims (row_at d i) in
  0 <= mc_max_kw v -> - mc_max_kw v <= Rmin (mc_elec_in_lim_kw l) (mc_transi_lim_kw l) ->
  cur_max_mc_kw_out l = Rmin (Rmin (mc_elec_in_lim_kw l) (mc_transi_lim_kw l)) (if stop_start v then 0 else mc_max_kw v).
Proof.
  intros d0 ovr d i H v l M L. open_step H. unfold l in *.
  rewrite (le_mc _ _ _ _ _ _ _ (op_lims _ _ _ _ _ _ _ O)). toR. fold v. destruct (stop_start v); mm; lra.
Qed.
Theorem C60_motor_input : forall (d0 : sdrive R) (ovr : option (list R)) (d : sdrive R) (i : nat),
  is_step d0 ovr d i -> let v := d_veh d0 in let l := lims (row_at d i) in
  (2 <= length (mc_full_eff_array v))%nat ->
  length (mc_kw_out_array v) = length (mc_full_eff_array v) ->
  In (mc_max_kw v) (mc_kw_out_array v) ->
  (cur_max_mc_kw_out l = 0 -> cur_max_mc_elec_kw_in l = 0) /\
  (cur_max_mc_kw_out l <> 0 -> exists eff, motor_eff v (mc_kw_out_array v) (mc_max_kw v) (cur_max_mc_kw_out l) eff /\
     cur_max_mc_elec_kw_in l = cur_max_mc_kw_out l / eff) /\
  (cur_max_ess_chg_kw l = 0 -> cur_max_mech_mc_kw_in l = 0) /\
  (cur_max_ess_chg_kw l <> 0 -> exists eff, motor_eff v (mc_kw_out_array v) (mc_max_kw v) (cur_max_ess_chg_kw l) eff /\
     cur_max_mech_mc_kw_in l = Rmin (mc_max_kw v) (cur_max_ess_chg_kw l / eff)) /\
  (mc_max_kw v = 0 -> ess_lim_mc_regen_perc_kw l = 0) /\
  (mc_max_kw v <> 0 -> ess_lim_mc_regen_perc_kw l =
     Rmin ((cur_max_ess_chg_kw l + aux_in_kw (misc (row_at d i))) / mc_max_kw v) 1).
Proof.
  intros d0 ovr d i H v l L2 LO T. destruct (motor_elec_limit _ _ _ _ H L2 LO T) as (A & B).
  destruct (motor_regen_limit _ _ _ _ H L2 LO T) as (C & D). destruct (motor_share_limit _ _ _ _ H) as (E & F).
  split; [exact A|]. split; [exact B|]. split; [exact C|]. split; [exact D|]. split; [exact E|exact F].
Qed.
Example C60_case : exists d, is_step hev_trip None d 2 /\ -30 <= cur_max_mc_kw_out (lims (row_at d 2)) <= 30.
Proof.
  destruct (hev_step 2 ltac:(lia)) as (d & S & _). exists d. split; auto.
  destruct (C60_motor _ _ _ _ S) as (A & _); [demo_num|]. revert A. demo_num.
Qed.
Example C60_run : at_row demo_hev demo_trip 0.5 2 (fun r => PrimFloat.eqb (cur_max_mc_kw_out (lims r)) 15
   && PrimFloat.ltb 0 (cur_max_elec_kw (lims r)) && PrimFloat.ltb 0 (cur_max_mech_mc_kw_in (lims r)))%bool = true.
Proof. vm_compute. reflexivity. Qed.

(** ** C61 *)
Theorem C61_battery : forall (d0 : sdrive R) (ovr : option (list R)) (d : sdrive R) (i : nat),
  is_step d0 ovr d i -> let v := d_veh d0 in let l := lims (row_at d i) in
  let r := row_at d i in
  ess_kw_if_fc_req (dec r) <= cur_ess_max_kw_out l /\
  ess_kw_if_fc_req (dec r) <= mc_max_elec_in_kw v + aux_in_kw (misc r) /\
  ess_kw_if_fc_req (dec r) <= cur_max_mc_elec_kw_in l + aux_in_kw (misc r) /\
  (- cur_max_ess_chg_kw l <= ess_kw_if_fc_req (dec r) \/
   ess_kw_if_fc_req (dec r) = Rmin (Rmin (cur_ess_max_kw_out l) (mc_max_elec_in_kw v + aux_in_kw (misc r)))
                                   (cur_max_mc_elec_kw_in l + aux_in_kw (misc r))) /\
  mc_elec_kw_in_if_fc_req (dec r) = ess_kw_if_fc_req (dec r) - aux_in_kw (misc r) + er_kw_if_fc_req (dec r).
Proof. exact planned_battery. Qed.
Theorem C61_motor_direction : forall (d0 : sdrive R) (ovr : option (list R)) (d : sdrive R) (i : nat),
  is_step d0 ovr d i -> motor_map_ok (d_veh d0) -> let r := row_at d i in
  let el := mc_elec_kw_in_if_fc_req (dec r) in let mech := mc_kw_if_fc_req (dec r) in
  no_elec_sys (d_veh d0) = false ->
  mech <= el /\ (0 < el -> 0 < mech) /\ (el < 0 -> mech < 0) /\ (el = 0 -> mech = 0).
Proof. exact planned_motor. Qed.
Theorem C61_plan : forall (d0 : sdrive R) (ovr : option (list R)) (d : sdrive R) (i : nat),
  is_step d0 ovr d i ->
  let v := d_veh d0 in let r := row_at d i in let h := hyb r in let l := lims r in let aux := aux_in_kw (misc r) in
  let want := ess_desired_kw_4fc_eff (dec r) in
  let limit := Rmin (Rmin (cur_ess_max_kw_out l) (mc_max_elec_in_kw v + aux)) (cur_max_mc_elec_kw_in l + aux) in
  let plan x := ess_kw_if_fc_req (dec r) = Rmin limit (Rmax (- cur_max_ess_chg_kw l) x) in
  want = - mc_elec_in_kw_for_max_fc_eff h * (if Rlt_dec (mc_elec_in_kw_for_max_fc_eff h) 0
            then ess_dischg_to_fc_max_eff_perc v else ess_chg_to_fc_max_eff_perc v) /\
  (regen_buff_soc h < accel_buff_soc h -> plan (ess_accel_regen_dischg_kw h)) /\
  (accel_buff_soc h <= regen_buff_soc h -> 0 < ess_regen_buff_dischg_kw h ->
     plan (Rmin (Rmin (ess_accel_regen_dischg_kw h) (mc_elec_in_lim_kw l + aux)) (Rmax (ess_regen_buff_dischg_kw h) want))) /\
  (accel_buff_soc h <= regen_buff_soc h -> ess_regen_buff_dischg_kw h <= 0 -> 0 < ess_accel_buff_chg_kw h ->
     plan (Rmax (- max_ess_regen_buff_chg_kw h) (Rmin (- ess_accel_buff_chg_kw h) want))) /\
  (accel_buff_soc h <= regen_buff_soc h -> ess_regen_buff_dischg_kw h <= 0 -> ess_accel_buff_chg_kw h <= 0 -> 0 < want ->
     plan (Rmin want (max_ess_accell_buff_dischg_kw h))) /\
  (accel_buff_soc h <= regen_buff_soc h -> ess_regen_buff_dischg_kw h <= 0 -> ess_accel_buff_chg_kw h <= 0 -> want <= 0 ->
     plan (Rmax want (- max_ess_regen_buff_chg_kw h))) /\
  er_kw_if_fc_req (dec r) = 0 /\
  mc_elec_kw_in_if_fc_req (dec r) = ess_kw_if_fc_req (dec r) - aux /\
  min_ess_kw_2help_fc (dec r) = mc_elec_kw_in_ach (dec r) + aux - cur_max_fc_kw_out l.
Proof. exact engine_plan. Qed.
Theorem C61_electric_plan : forall (d0 : sdrive R) (ovr : option (list R)) (d : sdrive R) (i : nat),
  is_step d0 ovr d i ->
  let v := d_veh d0 in let r := row_at d i in let h := hyb r in let l := lims r in
  let s := soc (dec (row_at d (i - 1))) in let inp := trans_kw_in_ach (pwr r) in let aux := aux_in_kw (misc r) in
  (can_pwr_all_elec h = false -> desired_ess_kw_out_for_ae h = 0 /\ ess_ae_kw_out h = 0) /\
  (can_pwr_all_elec h = true ->
     desired_ess_kw_out_for_ae h =
       (if Rlt_dec inp aux then inp + aux
        else if Rlt_dec (regen_buff_soc h) (accel_buff_soc h) then ess_accel_regen_dischg_kw h
        else if Rlt_dec (regen_buff_soc h) s then ess_regen_buff_dischg_kw h
        else if Rlt_dec s (accel_buff_soc h) then - ess_accel_buff_chg_kw h
        else inp + aux) /\
     ess_ae_kw_out h = Rmax (Rmax (- Rmin (cur_max_ess_chg_kw l) (max_ess_regen_buff_chg_kw h)) (Rmin 0 (aux - inp)))
                            (Rmin (cur_ess_max_kw_out l) (desired_ess_kw_out_for_ae h))) /\
  er_ae_kw_out h = Rmin 0 (Rmax 0 (inp + aux - ess_ae_kw_out h)).
Proof. exact electric_plan. Qed.
Theorem C61_shaft_power : forall (d0 : sdrive R) (ovr : option (list R)) (d : sdrive R) (i : nat),
  is_step d0 ovr d i -> let v := d_veh d0 in let r := row_at d i in
  (2 <= length (mc_full_eff_array v))%nat -> length (mc_kw_out_array v) = length (mc_full_eff_array v) ->
  length (mc_kw_in_array v) = length (mc_full_eff_array v) ->
  let el := mc_elec_kw_in_if_fc_req (dec r) in let mech := mc_kw_if_fc_req (dec r) in
  let grid := mc_kw_in_array v in
  (no_elec_sys v = true \/ el = 0 -> mech = 0) /\
  (no_elec_sys v = false -> 0 < el -> exists eff, motor_eff v grid (amax grid) el eff /\ mech = el * eff) /\
  (no_elec_sys v = false -> el < 0 -> exists eff, motor_eff v grid (amax grid) (- el) eff /\ mech = el / eff).
Proof. exact planned_shaft. Qed.
Theorem C61_best_engine_point : forall (d0 : sdrive R) (ovr : option (list R)) (d : sdrive R) (i : nat),
  is_step d0 ovr d i -> let v := d_veh d0 in let r := row_at d i in
  (2 <= length (mc_full_eff_array v))%nat ->
  length (mc_kw_out_array v) = length (mc_full_eff_array v) ->
  length (mc_kw_in_array v) = length (mc_full_eff_array v) ->
  In (mc_max_kw v) (mc_kw_out_array v) ->
  let out := trans_kw_out_ach (pwr r) in let gap := fc_kw_gap_fr_eff (hyb r) in
  let p := mc_elec_in_kw_for_max_fc_eff (hyb r) in
  gap = Rabs (out - max_fc_eff_kw v) /\
  (no_elec_sys v = true -> p = 0) /\
  (no_elec_sys v = false -> out < max_fc_eff_kw v ->
     exists eff, motor_eff v (mc_kw_out_array v) (mc_max_kw v) gap eff /\ p = - gap / eff) /\
  (no_elec_sys v = false -> max_fc_eff_kw v <= out -> gap = mc_max_kw v ->
     p = nth (length (mc_full_eff_array v) - 1) (mc_kw_in_array v) 0) /\
  (no_elec_sys v = false -> max_fc_eff_kw v <= out -> gap <> mc_max_kw v ->
     nth_error (mc_kw_out_array v) 0 = Some 0 -> 1/100 <= mc_max_kw v ->
     exists j, grid_point (mc_kw_out_array v) (Rmin (mc_max_kw v - 1/100) gap) j /\ p = nth j (mc_kw_in_array v) 0).
Proof. exact best_point_power. Qed.
Example C61_case : exists d, is_step hev_trip None d 2 /\
  ess_kw_if_fc_req (dec (row_at d 2)) <= cur_ess_max_kw_out (lims (row_at d 2)) /\
  mc_kw_if_fc_req (dec (row_at d 2)) <= mc_elec_kw_in_if_fc_req (dec (row_at d 2)).
Proof.
  destruct (hev_step 2 ltac:(lia)) as (d & S & _). exists d. split; auto. split; [apply (C61_battery _ _ _ _ S)|].
  apply (C61_motor_direction _ _ _ _ S); [apply demo_motor; cbn; auto|reflexivity].
Qed.
(** From the bottom of the window the plan is to charge. *)
Example C61_run : at_row demo_hev demo_trip 0.2 1 (fun r => PrimFloat.ltb 0 (ess_accel_buff_chg_kw (hyb r))
   && PrimFloat.ltb (ess_kw_if_fc_req (dec r)) 0 && PrimFloat.ltb (mc_kw_if_fc_req (dec r)) 0)%bool = true.
Proof. vm_compute. reflexivity. Qed.

(** ** C62 *)
Theorem C62_motor_decision : forall (d0 : sdrive R) (ovr : option (list R)) (d : sdrive R) (i : nat),
  is_step d0 ovr d i -> let v := d_veh d0 in let r := row_at d i in let l := lims r in
  let inp := trans_kw_in_ach (pwr r) in let mech := mc_mech_kw_out_ach (dec r) in
  let can := can_pwr_all_elec (hyb r) in
  let engine := is_h2fc (fc_eff_type v) = false /\ 0 < fc_max_kw v in
  let regen := - Rmin (cur_max_mech_mc_kw_in l) (- inp) in
  let forced := fc_forced_on (forced r) = true /\ can = true /\ is_h2fc (fc_eff_type v) = false /\
                (veh_pt_type v = HEV \/ veh_pt_type v = PHEV) in
  (mc_max_kw v = 0 -> mech = 0) /\
  (mc_max_kw v <> 0 -> forced -> mech = mc_mech_kw_4forced_fc (SimModel.forced r)) /\
  (mc_max_kw v <> 0 -> ~ forced -> 0 < inp ->
     mech = if can then inp else Rmax (min_mc_kw_2help_fc (pwr r)) (mc_kw_if_fc_req (dec r))) /\
  (mc_max_kw v <> 0 -> ~ forced -> inp <= 0 -> engine ->
     mech = if can then regen else Rmin regen (Rmax (- cur_max_fc_kw_out l) (mc_kw_if_fc_req (dec r)))) /\
  (mc_max_kw v <> 0 -> ~ forced -> inp <= 0 -> ~ engine -> mech = Rmin regen (- inp)).
Proof. exact motor_decision. Qed.
Theorem C62_help : forall (d0 : sdrive R) (ovr : option (list R)) (d : sdrive R) (i : nat),
  is_step d0 ovr d i -> let v := d_veh d0 in let r := row_at d i in let l := lims r in
  min_mc_kw_2help_fc (pwr r) = Rmax (- cur_max_mech_mc_kw_in l)
    (if cyc_met (pwr r)
     then trans_kw_in_ach (pwr r) - (if is_h2fc (fc_eff_type v) then 0 else cur_max_fc_kw_out l)
     else cur_max_mc_kw_out l).
Proof. exact motor_help. Qed.
Theorem C62_electric_need : forall (d0 : sdrive R) (ovr : option (list R)) (d : sdrive R) (i : nat),
  is_step d0 ovr d i -> let v := d_veh d0 in let r := row_at d i in
  (2 <= length (mc_full_eff_array v))%nat -> length (mc_kw_out_array v) = length (mc_full_eff_array v) ->
  In (mc_max_kw v) (mc_kw_out_array v) -> let inp := trans_kw_in_ach (pwr r) in
  (no_elec_sys v = true \/ inp <= 0 -> elec_kw_req_4ae (hyb r) = 0) /\
  (no_elec_sys v = false -> 0 < inp -> exists eff, motor_eff v (mc_kw_out_array v) (mc_max_kw v) inp eff /\
     elec_kw_req_4ae (hyb r) = inp / eff + aux_in_kw (misc r)).
Proof. exact electric_need. Qed.
Example C62_case : exists d, is_step hev_trip None d 2 /\
  (0 < trans_kw_in_ach (pwr (row_at d 2)) -> can_pwr_all_elec (hyb (row_at d 2)) = true ->
   fc_forced_on (forced (row_at d 2)) = false -> mc_mech_kw_out_ach (dec (row_at d 2)) = trans_kw_in_ach (pwr (row_at d 2))).
Proof.
  destruct (hev_step 2 ltac:(lia)) as (d & S & _). exists d. split; auto. intros A B C.
  destruct (C62_motor_decision _ _ _ _ S) as (_ & _ & Q & _). rewrite Q; auto; [now rewrite B|demo_num|].
  intros (D & _). congruence.
Qed.
Example C62_run : at_row demo_hev demo_trip 0.5 4 (fun r => PrimFloat.ltb (trans_kw_in_ach (pwr r)) 0
    && PrimFloat.ltb (mc_mech_kw_out_ach (dec r)) 0)%bool = true /\
  at_row demo_hev demo_trip 0.2 1 (fun r => PrimFloat.ltb 0 (trans_kw_in_ach (pwr r)) && negb (can_pwr_all_elec (hyb r))
    && PrimFloat.ltb (mc_mech_kw_out_ach (dec r)) 0)%bool = true.
Proof. split; vm_compute; reflexivity. Qed.

(** ** C63 *)
Theorem C63_protection : forall (d0 : sdrive R) (ovr : option (list R)) (d : sdrive R) (i : nat),
  is_step d0 ovr d i -> let v := d_veh d0 in let r := row_at d i in
  let s := soc (dec (row_at d (i - 1))) in
  (high_acc_fc_on_tag (misc r) = true <->
   s < min_soc v \/ (high_acc_fc_on_tag (misc (row_at d (i - 1))) = true /\ s < min_soc v + perc_high_acc_buf v)) /\
  (reached_buff (misc r) = true <-> min_soc v + perc_high_acc_buf v <= s) /\
  max_trac_mps (misc r) = speed d (i - 1) + max_trac_mps2 v * step_dt d i.
Proof. exact protection. Qed.
Theorem C63_starts_unprotected : forall (d0 : sdrive R) (ovr : option (list R)) (d : sdrive R),
  wf_sd d0 -> run d0 ovr d -> high_acc_fc_on_tag (misc (row_at d 0)) = false.
Proof. exact protection_start. Qed.
Example C63_case : exists d, is_step hev_trip None d 1 /\ reached_buff (misc (row_at d 1)) = true /\
  high_acc_fc_on_tag (misc (row_at d 1)) = false.
Proof.
  destruct (hev_step 1 ltac:(lia)) as (d & S & _). exists d. split; auto. pose proof S as (W & R & _).
  destruct (C24_start _ _ _ W R) as (_ & [B|B]); [discriminate|].
  destruct (C63_protection _ _ _ _ S) as (A1 & A2 & _). change (1 - 1)%nat with 0%nat in *. split.
  - apply A2. revert B. demo_num.
  - apply Bool.not_true_iff_false. intros Q. apply A1 in Q. revert B Q. demo_num.
Qed.
Example C63_run : at_row demo_bev demo_park 0.2 2 (fun r => high_acc_fc_on_tag (misc r)) = true /\
  at_row demo_bev demo_park 0.2 1 (fun r => negb (high_acc_fc_on_tag (misc r))) = true.
Proof. split; vm_compute; reflexivity. Qed.

(** ** C64: the power at the transmission is not covered by engine and motor *)
Theorem C64_traction_source_refuted : exists (v : vehicle float) (c : cyc float) d,
  sim_drive_walk (demo_sd v c) (min_soc v) None = Ok d /\
  match nth_error (d_rows d) 1 with
  | Some r => (PrimFloat.eqb (fc_kw_out_ach (fc r)) 0 && PrimFloat.eqb (mc_mech_kw_out_ach (dec r)) 0
               && PrimFloat.ltb 0 (trans_kw_in_ach (pwr r)) && PrimFloat.ltb 0 (mps_ach (spd r)))%bool
  | None => false end = true.
Proof.
  exists demo_bev, demo_dash. apply (ok_witness _ (fun d => match nth_error (d_rows d) 1 with
  | Some r => (PrimFloat.eqb (fc_kw_out_ach (fc r)) 0 && PrimFloat.eqb (mc_mech_kw_out_ach (dec r)) 0
               && PrimFloat.ltb 0 (trans_kw_in_ach (pwr r)) && PrimFloat.ltb 0 (mps_ach (spd r)))%bool
  | None => false end)). vm_compute. reflexivity.
Qed.
(** The cause: when the electric supply falls short, the shortfall is added to the limit. *)
Theorem C64_shortfall_is_added : forall (d0 : sdrive R) (ovr : option (list R)) (d : sdrive R) (i : nat),
  is_step d0 ovr d i -> let r := row_at d i in let v := d_veh d0 in let l := lims r in
  impose_coast (ctl r) = false -> no_elec_sys v = false -> no_elec_aux v = false -> high_acc_fc_on_tag (misc r) = false ->
  cur_max_elec_kw l < 0 -> 0 < trans_eff v ->
  (cur_max_mc_kw_out l + (if is_h2fc (fc_eff_type v) then 0 else cur_max_fc_kw_out l)) * trans_eff v
    < cur_max_trac_kw l / trans_eff v ->
  (cur_max_mc_kw_out l + (if is_h2fc (fc_eff_type v) then 0 else cur_max_fc_kw_out l)) * trans_eff v
    < cur_max_trans_kw_out l.
Proof.
  intros d0 ovr d i H r v l C N1 N2 TG E T G. unfold l, r. rewrite (trans_limit _ _ _ _ H C). fold r v l.
  rewrite N1, N2, TG. cbn [orb]. apply Rmin_glb_lt; auto. apply Rmult_lt_compat_r; auto. mm; lra.
Qed.
Example C64_run : at_row demo_bev demo_dash 0.2 1 (fun r => PrimFloat.ltb (cur_max_elec_kw (lims r)) 0
   && negb (high_acc_fc_on_tag (misc r)) && negb (impose_coast (ctl r)) && PrimFloat.ltb 1 (cur_max_trac_kw (lims r)))%bool = true.
Proof. vm_compute. reflexivity. Qed.

(** ** C65: below the minimum state of charge an electric vehicle recharges itself *)
Theorem C65_recharges : forall (d0 : sdrive R) (ovr : option (list R)) (d : sdrive R) (i : nat),
  is_step d0 ovr d i -> increasing (time_s (d_cyc d)) ->
  let v := d_veh d0 in let r := row_at d i in let s := soc (dec (row_at d (i - 1))) in
  motor_map_ok v -> In (mc_max_kw v) (mc_kw_out_array v) ->
  veh_pt_type v = BEV -> fc_max_kw v = 0 -> 0 < ess_max_kw v -> 0 < ess_max_kwh v -> 0 < ess_round_trip_eff v ->
  no_elec_sys v = false -> is_h2fc (fc_eff_type v) = false -> 0 < mc_max_kw v -> 0 < mc_sec_to_peak_pwr v ->
  0 < trans_eff v -> min_soc v <= max_soc v ->
  impose_coast (ctl r) = false -> 0 < aux_in_kw (misc r) -> s < min_soc v ->
  trans_kw_out_ach (pwr r) <= - aux_in_kw (misc r) * trans_eff v /\
  ess_kw_out_ach (dec r) < 0 /\ s < soc (dec r).
Proof. exact below_min_charges. Qed.
Theorem C65_from_nothing_refuted : exists (v : vehicle float) (c : cyc float) d,
  sim_drive_walk (demo_sd v c) (min_soc v) None = Ok d /\
  match nth_error (d_rows d) 1, nth_error (d_rows d) 2 with
  | Some r1, Some r2 => (PrimFloat.eqb (mps_ach (spd r1)) 0 && PrimFloat.eqb (mps_ach (spd r2)) 0
      && PrimFloat.eqb (fs_kw_out_ach (fc r2)) 0 && PrimFloat.ltb (soc (dec r1)) (soc (dec r2)))%bool
  | _, _ => false end = true.
Proof.
  exists demo_bev, demo_park. apply (ok_witness _ (fun d => match nth_error (d_rows d) 1, nth_error (d_rows d) 2 with
  | Some r1, Some r2 => (PrimFloat.eqb (mps_ach (spd r1)) 0 && PrimFloat.eqb (mps_ach (spd r2)) 0
      && PrimFloat.eqb (fs_kw_out_ach (fc r2)) 0 && PrimFloat.ltb (soc (dec r1)) (soc (dec r2)))%bool
  | _, _ => false end)). vm_compute. reflexivity.
Qed.
