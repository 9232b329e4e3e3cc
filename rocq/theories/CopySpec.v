(** Small specifications for settings objects. *)
From Verif Require Import Num Numpy CycleModel VehModel SimModel SimState CopyModel.
Local Open Scope R_scope.

(** Attribute [k] of an object has value [v]. *)
Definition holds {F} (o : attrs F) (k : string) (v : sval F) : Prop :=
  exists pre post, o = pre ++ (k, v) :: post /\ ~ In k (map fst pre).
(** The value that a sequence of assignments leaves for [k]. *)
Definition last_given {F} (d : attrs F) (k : string) (v : sval F) : Prop :=
  exists pre post, d = pre ++ (k, v) :: post /\ ~ In k (map fst post).
(** An object with all attributes of a settings object. *)
Definition complete (o : attrs R) : Prop := forall k, In k (ref_names (F := R)) -> exists v, holds o k v.
(** Equal values: the same table, or the same number (True is 1, False is 0). *)
Definition number (v : sval R) : option R :=
  match v with SB true => Some 1 | SB false => Some 0 | SN x => Some x | SI n => Some (INR n) | ST _ => None end.
Definition same_value (v w : sval R) : Prop := v = w \/ exists x, number v = Some x /\ number w = Some x.

(** The documented defaults, simdrive.py:45-96. *)
Definition documented : simparams R := {|
  favor_grade_accuracy := true; missed_trace_correction := false; max_time_dilation := 1; min_time_dilation := - (1 / 2);
  time_dilation_tol := 5 / 10000; max_trace_miss_iters := 5; trace_miss_speed_mps_tol := 1; trace_miss_time_tol := 1 / 1000;
  trace_miss_dist_tol := 1 / 1000; sim_count_max := 30; newton_gain := 9 / 10; newton_max_iter := 100;
  newton_xtol := 1 / 1000000000; energy_audit_error_tol := 2 / 1000; coast_allow := false; coast_allow_passing := false;
  coast_max_speed_m_per_s := 40; coast_brake_accel_m_per_s2 := - (25 / 10); coast_brake_start_speed_m_per_s := 75 / 10;
  coast_start_speed_m_per_s := 0; coast_time_horizon_for_adjustment_s := 20; idm_allow := false;
  idm_v_desired_m_per_s := 3333 / 100; idm_dt_headway_s := 1; idm_minimum_gap_m := 2; idm_delta := 4; idm_accel_m_per_s2 := 1;
  idm_decel_m_per_s2 := 15 / 10; idm_v_desired_by_distance := None; max_epa_adj := 3 / 10 |}.

(** A coast-down: 300 samples a second apart, the speed falling evenly from 70 mph to nothing, on the level. *)
Definition coast_down : cyc R := {|
  time_s := map INR (seq 0 300); mps := map (fun k => 70 / (22369 / 10000) * (1 - INR k / 299)) (seq 0 300);
  grade := repeat 0 300; road_type := repeat 0 300 |}.

(** Two runs with the same cycles, settings, constants, arrays and counters. *)
Definition same_but_vehicle (x y : sdrive R) : Prop :=
  d_cyc x = d_cyc y /\ d_cyc0 x = d_cyc0 y /\ d_sp x = d_sp y /\ d_props x = d_props y /\ d_rows x = d_rows y /\
  d_i x = d_i y /\ d_hev_sim_count x = d_hev_sim_count y.
