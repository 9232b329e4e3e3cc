(** Specifications for properties C32-C38 and C40 of whole runs. *)
From Coq Require Import List.
From Verif Require Import Num Numpy ListFacts CycleModel CycleSpec VehModel SimModel SimState WalkModel WalkProofs SimSpec.
Local Open Scope R_scope.

(** ** Stepping *)
(** [d'] is what [n] consecutive calls of sim_drive_step make of [d]. *)
Fixpoint calls {F} {N : Num F} (n : nat) (d d' : sdrive F) : Prop :=
  match n with
  | O => d' = d
  | S k => exists d1, sim_drive_step d = Ok d1 /\ calls k d1 d'
  end.
(** Two objects that agree in everything except the accel_kw channel. *)
Definition same_object {F} {N : Num F} (d d' : sdrive F) : Prop :=
  d_veh d' = d_veh d /\ d_props d' = d_props d /\ d_sp d' = d_sp d /\ d_cyc d' = d_cyc d /\ d_cyc0 d' = d_cyc0 d /\
  d_cache d' = d_cache d /\ d_i d' = d_i d /\ d_hev_sim_count d' = d_hev_sim_count d /\
  length (d_rows d') = length (d_rows d) /\
  forall i, row_accel n0 (row_at d' i) = row_accel n0 (row_at d i).

(** ** Auxiliary load *)
(** The load used where no override applies: the vehicle's own, through the alternator if it has no
    electric auxiliaries. *)
Definition own_load (v : vehicle R) : R := if no_elec_aux v then aux_kw v / alt_eff v else aux_kw v.
Definition aux_load (d : sdrive R) (i : nat) : R := aux_in_kw (misc (row_at d i)).

(** ** Charge balancing *)
(** Energy taken from the fuel tank and from roadway chargers in the steps of a run, kJ. *)
Definition supplied_kJ (d : sdrive R) : R :=
  Rsum (map (fun i => (fs_kw_out_ach (fc (row_at d i)) + roadway_chg_kw_out_ach (dec (row_at d i))) * step_dt d i)
            (seq 1 (length (d_rows d) - 1))).
(** State of charge at the end of a run. *)
Definition final_soc (d : sdrive R) : R := soc (dec (row_at d (length (d_rows d) - 1))).
(** Net battery energy of a run as a fraction of the energy supplied; 0 if none was. *)
Definition swing (d : sdrive R) : R :=
  if Rlt_dec 0 (supplied_kJ d)
  then Rabs ((soc (dec (row_at d 0)) - final_soc d) * ess_max_kwh (d_veh d) * 3600 / supplied_kJ d) else 0.
(** After [k] balancing walks of [d0] the object is [d] and the next walk is to start at [s]: the first
    starts in the middle of the window, each further one where the last one ended (cut to [0, 1]), and it
    is only made if the last one was unbalanced. *)
Inductive balancing (d0 : sdrive R) (ovr : option (list R)) : nat -> sdrive R -> R -> Prop :=
| bal_start : balancing d0 ovr 0 (with_count d0 0) ((max_soc (d_veh d0) + min_soc (d_veh d0)) / 2)
| bal_walk k d s d' : balancing d0 ovr k d s ->
    (k = 0%nat -> ess_to_fuel_ok_error (d_veh d0) < 1) ->
    (k <> 0%nat -> ess_to_fuel_ok_error (d_veh d0) < swing d) ->
    (k < sim_count_max (d_sp d0))%nat ->
    sim_drive_walk (with_count d (S k)) s ovr = Ok d' ->
    balancing d0 ovr (S k) d' (Rmin 1 (Rmax 0 (final_soc d'))).
(** Balancing is over after [k] walks. *)
Definition balance_done (d0 : sdrive R) (k : nat) (d : sdrive R) : Prop :=
  (sim_count_max (d_sp d0) <= k)%nat \/
  (k = 0%nat /\ 1 <= ess_to_fuel_ok_error (d_veh d0)) \/
  (k <> 0%nat /\ swing d <= ess_to_fuel_ok_error (d_veh d0)).

(** ** Time dilation *)
Definition trace_dist (d : sdrive R) (i : nat) : R :=
  Rsum (firstn (S i) (dist_m (d_cyc0 d))).
Definition driven_dist (d : sdrive R) (i : nat) : R :=
  Rsum (map (fun j => dist_m_ach (spd (row_at d j))) (seq 0 (S i))).
(** The vehicle is where the trace has it at step [i], up to the tolerance. *)
Definition on_place (d : sdrive R) (i : nat) : Prop :=
  Rabs (trace_dist d i - driven_dist d i) / trace_dist d i < time_dilation_tol (d_sp d).
Definition growth (ts : list R) : R := fold_right (fun t p => (1 + t) * p) 1 ts.
(** [d'] is [d] with step [i] stretched by the factors [1 + t] in turn and solved anew. *)
Record stretched (i : nat) (ts : list R) (d d' : sdrive R) : Prop := {
  sx_below : forall j, (j < i)%nat -> nth j (time_s (d_cyc d')) 0 = nth j (time_s (d_cyc d)) 0;
  sx_above : forall j, (i <= j < length (time_s (d_cyc d)))%nat ->
             nth j (time_s (d_cyc d')) 0 = nth j (time_s (d_cyc d)) 0 + step_dt d i * (growth ts - 1);
  sx_len : length (time_s (d_cyc d')) = length (time_s (d_cyc d));
  sx_rest : mps (d_cyc d') = mps (d_cyc d) /\ grade (d_cyc d') = grade (d_cyc d) /\
            road_type (d_cyc d') = road_type (d_cyc d) /\ d_veh d' = d_veh d /\ d_props d' = d_props d /\
            d_sp d' = d_sp d /\ d_cyc0 d' = d_cyc0 d /\ d_i d' = d_i d;
  sx_rows : length (d_rows d') = length (d_rows d) /\ forall j, j <> i -> row_at d' j = row_at d j;
  sx_iters : trace_miss_iters (ctl (row_at d' i)) = (trace_miss_iters (ctl (row_at d i)) + length ts)%nat }.

(** A factor that the bounds of the simulation parameters allow (max_time_dilation wins if they cross). *)
Definition within (s : simparams R) (t : R) : Prop :=
  Rmin (min_time_dilation s) (max_time_dilation s) <= t <= max_time_dilation s.
(** Reasons for stopping after a round with factor [t]: the vehicle is on place, or [t] is at a bound. *)
Definition stops (s : simparams R) (d : sdrive R) (i : nat) (t : R) : Prop :=
  on_place d i \/ max_time_dilation s <= t \/ t <= min_time_dilation s.
(** Seconds between time stamps [i-1] and [i] of the cycle that a run starts from. *)
Definition ref_dt (d : sdrive R) (i : nat) : R :=
  let c := if changes_cycle (d_sp d) then d_cyc0 d else d_cyc d in nth i (time_s c) 0 - nth (i - 1) (time_s c) 0.

(** ** Car following: the intelligent driver model *)
(** Acceleration at speed [v] behind a leader at speed [vl], [gap] metres ahead. *)
Definition idm_acceleration (a b headway s0 vdes delta v vl gap : R) : R :=
  let wanted_gap := s0 + Rmax 0 (v * headway + v * (v - vl) / (2 * sqrt (a * b))) in
  a * (1 - Rpow_py (v / vdes) delta - (wanted_gap / gap) ^ 2).
