(** Specifications for the comparison of eco-coasting in the two implementations, C120-C121. *)
From Verif Require Import Num CycleModel CycleSpec VehModel SimModel SimState WalkModel SimSpec CoastSpec RustSpec RustCycSpec RustModsSpec.
Local Open Scope R_scope.

(** The first stop of [c] past the place [x] is [stop] metres ahead, and clearly so: no stop lies within a
    millionth of a metre, and no speed is at the limit of a millionth that both implementations take for zero. *)
Definition stop_ahead (c : cyc R) (x stop : R) : Prop :=
  exists i v, nth_error (mps c) i = Some v /\ v < 1/1000000 /\ x + 1/1000000 < trapezoid c 0 i /\
    (forall j u, (j < i)%nat -> nth_error (mps c) j = Some u -> u <= 1/1000000 -> trapezoid c 0 j <= x) /\
    stop = trapezoid c 0 i - x.
(** Step [i] of a run on a trace that moves forward, with a stop [stop] metres ahead. *)
Record coast_setting (d : sdrive R) (i : nat) (stop : R) : Prop := {
  cs_cyc : wf (d_cyc d); cs_cyc0 : wf (d_cyc0 d); cs_len : clen (d_cyc d) = clen (d_cyc0 d);
  cs_rows : length (d_rows d) = clen (d_cyc d); cs_i : (1 <= i < clen (d_cyc d))%nat;
  cs_cache : d_cache d = build_cache (d_cyc0 d); cs_driven : nth (i - 1) (mps (d_cyc d)) 0 = speed d (i - 1);
  cs_times : increasing (time_s (d_cyc0 d)); cs_fwd : nonneg (mps (d_cyc0 d)); cs_place : 0 <= place d i;
  cs_brake : coast_brake_accel_m_per_s2 (d_sp d) < 0; cs_low : 0 <= coast_brake_start_speed_m_per_s (d_sp d);
  cs_mass : veh_kg (d_veh d) <> 0;
  cs_stop : stop_ahead (d_cyc0 d) (place d i) stop }.
(** Braking from [v] during step [j] takes a number of steps that rounds alike in both implementations. *)
Definition brakes_alike (d : sdrive R) (v : R) (j : nat) : Prop :=
  (j < clen (d_cyc d))%nat ->
  0 < duration (d_cyc d) j < 2 /\ no_tie (- v / coast_brake_accel_m_per_s2 (d_sp d) / duration (d_cyc d) j).
(** The plan in [d'] is an ordinary one: normal braking after the coast would not end exactly at the stop, and
    the number of braking steps rounds alike. *)
Definition ordinary_plan (d d' : sdrive R) (i : nat) (x : R) : Prop :=
  forall stop vs nb, stop_ahead (d_cyc0 d) (place d i) stop -> coast_planned d d' i x stop vs nb ->
    let v := last vs (speed d (i - 1)) in
    (vs <> [] -> chain_distance (d_cyc0 d) i (speed d (i - 1)) vs + stopping_distance (coast_brake_accel_m_per_s2 (d_sp d)) v <> stop) /\
    brakes_alike d v (i + length vs).
(** Air resistance does not push, and the vehicle on the slope [g] does not gain speed. *)
Record slows_down (d : sdrive R) (g : R) : Prop := {
  sd_air : 0 <= air_density_kg_per_m3 (d_props d) * (drag_coef (d_veh d) * frontal_area_m2 (d_veh d));
  sd_mass : 0 < veh_kg (d_veh d); sd_g : 0 < a_grav_mps2 (d_props d); sd_slope : 0 < g + wheel_rr_coef (d_veh d) }.
(** Speeds of [d'] from which braking may start at step [i] or later. *)
Definition smooth_plan (d d' : sdrive R) (i : nat) : Prop :=
  forall j, (i <= j)%nat -> 0 <= nth (j - 1) (mps (d_cyc d')) 0 /\ brakes_alike d (nth (j - 1) (mps (d_cyc d')) 0) j.
(** Steps of one length [h], coast flags that run from [i] on without a gap, and a trace that the vehicle is not
    ahead of and does not overtake within two steps. *)
Record avoid_setting (d : sdrive R) (i : nat) (h : R) : Prop := {
  av_cyc : wf (d_cyc d); av_cyc0 : wf (d_cyc0 d); av_len : clen (d_cyc d) = clen (d_cyc0 d);
  av_rows : length (d_rows d) = clen (d_cyc d); av_i : (2 <= i < clen (d_cyc d))%nat;
  av_brake : coast_brake_accel_m_per_s2 (d_sp d) < 0; av_h : 0 < h < 2; av_steps : forall j, (1 <= j < clen (d_cyc d))%nat -> duration (d_cyc d) j = h;
  av_flags : forall j k, (i <= j <= k)%nat -> coast_at d k = true -> coast_at d j = true;
  av_room : forall tol idx, 0 <= tol -> first_overtake (d_cyc d) (d_cyc0 d) i tol idx ->
    (i + 2 <= idx)%nat /\ trapezoid (d_cyc d) 0 (i - 1) < trapezoid (d_cyc0 d) 0 idx }.

(** ** Whole runs (C121) *)
(** A level trace driven with eco-coasting and no other option. *)
Record coast_run (d : sdrive R) (ovr : option (list R)) : Prop := {
  cr_ok : run_ok d ovr; cr_level : level (d_cyc0 d);
  cr_coast : coast_allow (d_sp d) = true; cr_trace : missed_trace_correction (d_sp d) = false; cr_idm : idm_allow (d_sp d) = false }.
(** At step [i] a coast is not due: the speed is below that at which the brakes are used, or below the one set for the start of coasts. *)
Definition not_due (d : sdrive R) (i : nat) : Prop :=
  let s := d_sp d in
  (coast_start_speed_m_per_s s <= 0 /\ speed d (i - 1) < coast_brake_start_speed_m_per_s s) \/
  (0 < coast_start_speed_m_per_s s /\ nth i (mps (d_cyc d)) 0 < coast_start_speed_m_per_s s).
(** A coast may start at step [i], and the plan for it, if any, is an ordinary one. *)
Definition ordinary_start (d : sdrive R) (i : nat) : Prop :=
  exists stop d' x, coast_setting d i stop /\ generate_coast_trajectory d i true = Ok (d', x) /\ ordinary_plan d d' i x /\
    (speed d (i - 1) <= coast_brake_start_speed_m_per_s (d_sp d) -> brakes_alike d (speed d (i - 1)) i) /\
    (forall k, (i <= k)%nat -> coast_at d k = false) /\
    (coast_allow_passing (d_sp d) = false -> 0 <= x -> exists h, avoid_setting d' i h).
(** Step [i] tried at the planned speed, from the speed [v0] of the step before; a plan is limited to the highest speed of coasts. *)
Definition tried (d : sdrive R) (v0 : R) (i : nat) : sdrive R :=
  let s := d_sp d in
  solve_and_adopt
    (if Rlt_dec (coast_brake_start_speed_m_per_s s) v0 then
       set_cyc_mps d i (if coast_allow_passing s then coast_max_speed_m_per_s s else Rmin (nth i (mps (d_cyc d)) 0) (coast_max_speed_m_per_s s))
     else d) i.
(** Step [i] missed the planned speed, and the plan that replaces it, if any, is an ordinary one. *)
Definition ordinary_change (d : sdrive R) (i : nat) : Prop :=
  exists stop, coast_setting d i stop /\ 0 < duration (d_cyc d) i < 2 /\
    forall d' b, adjust_coast d i ((speed d i - speed d (i - 1)) / duration (d_cyc d) i) = Ok (d', b) ->
      smooth_plan d d' i /\ (b = true -> coast_allow_passing (d_sp d) = false -> exists h, avoid_setting d' i h).
(** Neither the start of a coast nor a change of plan at step [i] is one of the borderline cases. *)
Record ordinary_step (d : sdrive R) (i : nat) : Prop := {
  os_start : 1/1000000 < speed d (i - 1) -> coast_at d i = false -> not_due d i \/ ordinary_start d i;
  os_change : forall d1, start_coast d i = Ok d1 -> coast_at d1 i = true ->
    let d3 := tried d1 (speed d (i - 1)) i in
    1/1000000 <= speed d3 i -> 1/1000000 < Rabs (speed d3 i - nth i (mps (d_cyc d1)) 0) -> ordinary_change d3 i }.
(** The state of the Python run after [k] more steps, or at its end if there are fewer. *)
Fixpoint after_steps (k : nat) (d : sdrive R) : Res (sdrive R) :=
  match k with
  | O => Ok d
  | S k => if (d_i d <? length (d_rows d))%nat then do d' <- sim_drive_step d; after_steps k d' else Ok d
  end.
Definition ordinary_run (d : sdrive R) (s : R) (ovr : option (list R)) : Prop :=
  forall d1 k e, init_for_step d s ovr = Ok d1 -> after_steps k d1 = Ok e -> (d_i e < length (d_rows e))%nat -> ordinary_step e (d_i e).
