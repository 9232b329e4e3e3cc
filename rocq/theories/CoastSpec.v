(** Specifications for properties C82-C91: gaps, eco-cruise, eco-coasting and collision avoidance. *)
From Verif Require Import Num Numpy CycleModel CycleSpec VehModel SimModel SimState WalkModel SimSpec.
Local Open Scope R_scope.

(** ** Eco-cruise *)
(** The simulation parameters other than those of the cruise itself agree. *)
Record only_cruise_differs {F} (s s' : simparams F) : Prop := {
  oc_run : favor_grade_accuracy s' = favor_grade_accuracy s /\ missed_trace_correction s' = missed_trace_correction s /\
    max_time_dilation s' = max_time_dilation s /\ min_time_dilation s' = min_time_dilation s /\
    time_dilation_tol s' = time_dilation_tol s /\ max_trace_miss_iters s' = max_trace_miss_iters s /\
    trace_miss_speed_mps_tol s' = trace_miss_speed_mps_tol s /\ trace_miss_time_tol s' = trace_miss_time_tol s /\
    trace_miss_dist_tol s' = trace_miss_dist_tol s /\ sim_count_max s' = sim_count_max s /\
    newton_gain s' = newton_gain s /\ newton_max_iter s' = newton_max_iter s /\ newton_xtol s' = newton_xtol s /\
    energy_audit_error_tol s' = energy_audit_error_tol s /\ max_epa_adj s' = max_epa_adj s;
  oc_coast : coast_allow s' = coast_allow s /\ coast_allow_passing s' = coast_allow_passing s /\
    coast_max_speed_m_per_s s' = coast_max_speed_m_per_s s /\ coast_brake_accel_m_per_s2 s' = coast_brake_accel_m_per_s2 s /\
    coast_brake_start_speed_m_per_s s' = coast_brake_start_speed_m_per_s s /\
    coast_start_speed_m_per_s s' = coast_start_speed_m_per_s s /\
    coast_time_horizon_for_adjustment_s s' = coast_time_horizon_for_adjustment_s s;
  oc_idm : idm_dt_headway_s s' = idm_dt_headway_s s /\ idm_minimum_gap_m s' = idm_minimum_gap_m s /\
    idm_delta s' = idm_delta s /\ idm_accel_m_per_s2 s' = idm_accel_m_per_s2 s /\ idm_decel_m_per_s2 s' = idm_decel_m_per_s2 s }.

(** ** Coasting *)
(** Forces against the motion of a rolling vehicle on a road of grade [g] (rise over run), N: the component
    of its weight along the road, rolling resistance and aerodynamic drag. *)
Definition road_force (v : vehicle R) (p : physprops R) (g u : R) : R :=
  let th := atan g in
  veh_kg v * a_grav_mps2 p * sin th + wheel_rr_coef v * (veh_kg v * a_grav_mps2 p * cos th)
  + 1 / 2 * air_density_kg_per_m3 p * drag_coef v * frontal_area_m2 v * u ^ 2.
(** A motion over [0, T]: position and speed as functions of time, acceleration as a function of speed. *)
Definition motion (T : R) (pos vel acc : R -> R) : Prop :=
  forall t, 0 <= t <= T -> derivable_pt_lim pos t (vel t) /\ derivable_pt_lim vel t (acc (vel t)).
(** Rolling freely; braking at a constant rate. *)
Definition rolling (v : vehicle R) (p : physprops R) (g : R) (u : R) : R := - road_force v p g u / veh_kg v.
Definition braking (a : R) (u : R) : R := a.
(** Distance that it takes to stop from speed [v] at the constant acceleration [a] < 0. *)
Definition stopping_distance (a v : R) : R := v * v / (2 * - a).
(** Where the vehicle is before step [i]. *)
Definition place (d : sdrive R) (i : nat) : R := trapezoid (d_cyc d) 0 (i - 1).
(** The road from [x] on has the grade [g] throughout: every sample of the original cycle at or past [x]. *)
Definition grade_from (c : cyc R) (x g : R) : Prop :=
  (exists j, (j < length (time_s c))%nat /\ x <= trapezoid c 0 j) /\
  forall j, (j < length (time_s c))%nat -> x <= trapezoid c 0 j -> nth j (grade c) 0 = g.

(** ** Edits of the driven cycle *)
(** The steps [i] to [i + n - 1] of a cycle last one second each. *)
Definition unit_steps (c : cyc R) (i n : nat) : Prop :=
  forall p, (i <= p < i + n)%nat -> nth p (time_s c) 0 - nth (p - 1) (time_s c) 0 = 1.
(** What braking asks for. *)
Definition brake_request (brake v0 : R) (dts : option R) : R :=
  match dts with Some x => if Rle_dec x 0 then stopping_distance brake v0 else x | None => stopping_distance brake v0 end.

(** ** Planned coasts *)
(** Change of speed per metre when rolling at speed [u]. *)
Definition slope (v : vehicle R) (p : physprops R) (g u : R) : R :=
  if Rle_dec u 0 then 0 else - road_force v p g u / (veh_kg v * u).
(** The speed [w] after [dt] seconds if speed changes by [k] per metre and the mean speed is (u + w) / 2. *)
Definition after (k dt u : R) : R := u * (1 + k * dt / 2) / (1 - k * dt / 2).
(** Estimates of the speed after [dt] seconds of rolling: the first from the slope at the present speed,
    each further one from the slope at the mean of the present speed and the estimate before. *)
Fixpoint coasted (v : vehicle R) (p : physprops R) (g dt u : R) (n : nat) : R :=
  match n with
  | O => after (slope v p g u) dt u
  | S m => after (slope v p g ((u + coasted v p g dt u m) / 2)) dt u
  end.
Definition duration (c : cyc R) (i : nat) : R := nth i (time_s c) 0 - nth (i - 1) (time_s c) 0.
(** One step, from [x] on, of a coast that started at [x0]: in general the slope is taken at some speed and
    grade; on a road of one grade the speed is the second or third estimate and the vehicle slows down; on
    other roads the first two estimates use the grade at [x], and a third one the mean grade over the distance
    that the second one gives. *)
Definition coast_step (d : sdrive R) (x0 x dt u w : R) : Prop :=
  (exists s g, w = after (slope (d_veh d) (d_props d) g s) dt u) /\
  (forall g, grade_from (d_cyc0 d) x0 g ->
    w = coasted (d_veh d) (d_props d) g dt u (if favor_grade_accuracy (d_sp d) then 2 else 1) /\
    (0 < dt -> 0 < u -> w < u)) /\
  ((forall g, ~ grade_from (d_cyc0 d) x0 g) ->
    exists g, interp_grade (d_cache d) x = Ok g /\
      let w2 := coasted (d_veh d) (d_props d) g dt u 1 in
      if favor_grade_accuracy (d_sp d) then
        exists g', average_grade_over_range (d_cyc0 d) x ((u + w2) / 2 * dt) (Some (d_cache d)) = Ok g' /\
          w = after (slope (d_veh d) (d_props d) g' ((u + w2) / 2)) dt u
      else w = w2).
(** [vs] are the speeds at the ends of steps [i], [i + 1], ... of a coast that started at [x0], from speed [u]
    and [x] on. *)
Fixpoint coast_chain (d : sdrive R) (x0 x : R) (i : nat) (u : R) (vs : list R) : Prop :=
  match vs with
  | [] => True
  | w :: r => coast_step d x0 x (duration (d_cyc0 d) i) u w /\
      coast_chain d x0 (x + (u + w) / 2 * duration (d_cyc0 d) i) (S i) w r
  end.
(** Distance covered with those speeds. *)
Fixpoint chain_distance (c : cyc R) (i : nat) (u : R) (vs : list R) : R :=
  match vs with
  | [] => 0
  | w :: r => (u + w) / 2 * duration c i + chain_distance c (S i) w r
  end.
(** Why a coast from [x0] ends after [vs]: the next speed would be at or below the speed [vb] for braking, or
    braking is due: the stop [stop] metres ahead is no further than the stopping distance; or the road left
    is [room] metres, and more than that is behind; or the driven part of the arrays ends. *)
Definition coast_over (d : sdrive R) (x0 : R) (i : nat) (u vb ab stop room : R) (vs : list R) : Prop :=
  let w := last vs u in let X := chain_distance (d_cyc0 d) i u vs in
  w <= vb \/
  (exists n, coast_step d x0 (x0 + X) (duration (d_cyc0 d) (i + length vs)) w n /\ n <= vb) \/
  stop <= X + stopping_distance ab w \/ room < X.
(** [d'] is [d] with a coast planned from step [i]: rolling with the speeds [vs], then braking for [nb] steps,
    [x] metres in all; the next stop is [stop] metres ahead. *)
Record coast_planned (d d' : sdrive R) (i : nat) (x stop : R) (vs : list R) (nb : nat) : Prop := {
  cp_chain : coast_chain d (place d i) (place d i) i (speed d (i - 1)) vs;
  cp_fast : Forall (fun w => coast_brake_start_speed_m_per_s (d_sp d) < w) vs;
  (* it does not roll on when braking is due *)
  cp_due : forall ws w z, vs = ws ++ w :: z -> z <> [] ->
    chain_distance (d_cyc0 d) i (speed d (i - 1)) (ws ++ [w]) + stopping_distance (coast_brake_accel_m_per_s2 (d_sp d)) w < stop;
  cp_over : coast_over d (place d i) i (speed d (i - 1)) (coast_brake_start_speed_m_per_s (d_sp d))
    (coast_brake_accel_m_per_s2 (d_sp d)) stop
    (trapezoid (d_cyc0 d) 0 (length (time_s (d_cyc0 d)) - 1) - place d i
     - stopping_distance (coast_brake_accel_m_per_s2 (d_sp d)) (coast_brake_start_speed_m_per_s (d_sp d))) vs;
  (* it stops at the stop if that takes between half and double the normal braking distance *)
  cp_x : let X := chain_distance (d_cyc0 d) i (speed d (i - 1)) vs in
    let B := stopping_distance (coast_brake_accel_m_per_s2 (d_sp d)) (last vs (speed d (i - 1))) in
    x = Rmin (Rmax stop (X + B / 2)) (X + 2 * B);
  cp_fits : (i + length vs <= length (time_s (d_cyc d)))%nat;
  cp_cyc : exists c v,
    time_s c = time_s (d_cyc d) /\ grade c = grade (d_cyc d) /\ road_type c = road_type (d_cyc d) /\
    length (mps c) = length (mps (d_cyc d)) /\
    (forall j, (j < length vs)%nat -> nth (i + j) (mps c) 0 = nth j vs 0) /\
    (forall p, (p < i \/ i + length vs <= p)%nat -> nth p (mps c) 0 = nth p (mps (d_cyc d)) 0) /\
    modify_with_braking_trajectory c (coast_brake_accel_m_per_s2 (d_sp d)) (i + length vs)
      (Some (x - chain_distance (d_cyc0 d) i (speed d (i - 1)) vs)) = Ok (d_cyc d', v, Z.of_nat nb);
  cp_flags : forall j, (j < length (d_rows d))%nat ->
    coast_at d' j = if Nat.ltb j i then coast_at d j else Nat.ltb j (i + length vs + nb);
  cp_rest : d_cyc0 d' = d_cyc0 d /\ d_sp d' = d_sp d /\ d_veh d' = d_veh d /\ d_props d' = d_props d /\ d_i d' = d_i d /\
    length (d_rows d') = length (d_rows d) /\
    forall j, (j < i)%nat -> row_at d' j = row_at d j }.

(** ** Correcting a coast *)
(** Up to step [i + n - 1] the acceleration starts at [a] and rises by [k] per second, so that the vehicle is at
    the speed for braking when [L] metres are behind it: what counts as such a plan. *)
Record meet_plan (d : sdrive R) (i : nat) (L amn amx : R) (n : nat) (k a : R) : Prop := {
  mp_steps : (2 <= n)%nat /\ (i + n <= clen (d_cyc d))%nat;
  mp_horizon : nth (i + n - 2) (time_s (d_cyc0 d)) 0 - nth (i - 1) (time_s (d_cyc0 d)) 0
               <= Rmax (coast_time_horizon_for_adjustment_s (d_sp d)) 1;
  mp_room : 0 < L;
  mp_speed : speed_for_constant_jerk (Z.of_nat n) (nth (i - 1) (mps (d_cyc d)) 0) a k (duration (d_cyc d) i)
             = coast_brake_start_speed_m_per_s (d_sp d);
  mp_dist : dist_for_constant_jerk (Z.of_nat n) 0 (nth (i - 1) (mps (d_cyc d)) 0) a k (duration (d_cyc d) i) = L;
  mp_jerk : 0 <= k;
  mp_start : amn < a < amx;
  mp_all : forall m, (m < n)%nat -> amn - 1 / 1000000 < a + INR m * k * duration (d_cyc d) i < amx + 1 / 1000000 }.
(** How much the acceleration changes in the course of a plan. *)
Definition accel_change (d : sdrive R) (i n : nat) (k : R) : R := INR (n - 1) * k * duration (d_cyc d) i.
(** One step at constant acceleration does it. *)
Definition meets_now (d : sdrive R) (i : nat) (L : R) : Prop :=
  Rabs (L - (nth (i - 1) (mps (d_cyc d)) 0 + coast_brake_start_speed_m_per_s (d_sp d)) / 2 * duration (d_cyc d) i) < 1 / 1000000.
(** The outcome of the search for a correction: the one step, or else of all plans one with the least change of
    acceleration, the shortest such plan; nothing only if there is none. *)
Definition best_meeting (d : sdrive R) (i : nat) (L amn amx : R) (r : option rdv) : Prop :=
  match r with
  | None => ~ meets_now d i L /\ forall n k a, ~ meet_plan d i L amn amx n k a
  | Some q =>
      (meets_now d i L /\ rv_n q = 1%nat /\ rv_jerk q = 0 /\
       rv_accel q = (coast_brake_start_speed_m_per_s (d_sp d) - nth (i - 1) (mps (d_cyc d)) 0) / duration (d_cyc d) i) \/
      (~ meets_now d i L /\ meet_plan d i L amn amx (rv_n q) (rv_jerk q) (rv_accel q) /\
       forall n k a, meet_plan d i L amn amx n k a ->
         accel_change d i (rv_n q) (rv_jerk q) <= accel_change d i n k /\
         ((n < rv_n q)%nat -> accel_change d i (rv_n q) (rv_jerk q) < accel_change d i n k))
  end.
(** The impose-coast flags of [d'] are those of [d] before [i], then set before [j] and off from [j] on. *)
Definition coast_flags (d d' : sdrive R) (i j : nat) : Prop :=
  forall p, (p < length (d_rows d))%nat -> coast_at d' p = if Nat.ltb p i then coast_at d p else Nat.ltb p j.
(** The same vehicle, settings, original cycle, achieved results and place in the run. *)
Definition same_run (d d' : sdrive R) : Prop :=
  d_cyc0 d' = d_cyc0 d /\ d_sp d' = d_sp d /\ d_veh d' = d_veh d /\ d_props d' = d_props d /\ d_i d' = d_i d /\
  length (d_rows d') = length (d_rows d) /\ forall p, speed d' p = speed d p.

(** ** After a coast *)
Definition stopped (c : cyc R) (j : nat) : Prop := (j < length (time_s c))%nat /\ nth j (mps c) 0 < 1 / 100.
Definition away (c : cyc R) (x : R) (j : nat) : R := Rabs (trapezoid c 0 j - x).
(** Of the samples of [c] at rest [j] is the nearest to the place [x]; of several, the last or the first. *)
Record nearest_stop (c : cyc R) (x : R) (latest : bool) (j : nat) : Prop := {
  ns_rest : stopped c j;
  ns_near : forall k, stopped c k -> away c x j <= away c x k;
  ns_tie : forall k, stopped c k -> away c x k = away c x j -> if latest then (k <= j)%nat else (j <= k)%nat }.
(** The sample of the original trace that is followed at step [j] by a vehicle that at step [i] is where the trace
    is at its sample [idx]: it runs on from [idx] if the vehicle is late, and is waited for if it is early. *)
Definition followed (i idx j : nat) : nat := if Nat.leb idx i then idx + (j - i) else Nat.max j idx.
Definition trace_at (c : cyc R) (j : nat) : R := nth (Nat.min j (length (mps c) - 1)) (mps c) 0.

(** ** A coasting step *)
(** The speed asked for at step [i] of a coast: above the speed for braking the planned speed, at most the greatest
    coasting speed; if passing is allowed that speed itself; and below it the planned speed. *)
Definition coast_request (d : sdrive R) (i : nat) : R :=
  if Rlt_dec (coast_brake_start_speed_m_per_s (d_sp d)) (speed d (i - 1)) then
    if coast_allow_passing (d_sp d) then coast_max_speed_m_per_s (d_sp d)
    else Rmin (nth i (mps (d_cyc d)) 0) (coast_max_speed_m_per_s (d_sp d))
  else nth i (mps (d_cyc d)) 0.
(** The speed that the vehicle reaches then. *)
Definition coast_result (d : sdrive R) (i : nat) : R := speed (solve_step (set_cyc_mps d i (coast_request d i)) i) i.
(** [d'] is [d] with step [i] solved for that request and the speed reached adopted as that of the cycle. *)
Record step_adopted (d d' : sdrive R) (i : nat) : Prop := {
  sa_speed : speed d' i = coast_result d i;
  sa_cycle : nth i (mps (d_cyc d')) 0 = coast_result d i;
  sa_others : (forall p, p <> i -> nth p (mps (d_cyc d')) 0 = nth p (mps (d_cyc d)) 0) /\
    length (mps (d_cyc d')) = length (mps (d_cyc d)) /\ time_s (d_cyc d') = time_s (d_cyc d) /\ grade (d_cyc d') = grade (d_cyc d) /\
    road_type (d_cyc d') = road_type (d_cyc d);
  sa_rows : length (d_rows d') = length (d_rows d) /\ forall p, p <> i -> row_at d' p = row_at d p;
  sa_flags : forall p, coast_at d' p = coast_at d p;
  sa_rest : d_cyc0 d' = d_cyc0 d /\ d_cache d' = d_cache d /\ d_sp d' = d_sp d /\ d_veh d' = d_veh d /\ d_props d' = d_props d /\ d_i d' = d_i d }.

(** ** Avoiding a collision *)
(** Braking fully for [f] steps from step [s] on: the speed then, and the distance covered. *)
Definition braked (d : sdrive R) (s f : nat) : R :=
  Rmax (nth (s - 1) (mps (d_cyc d)) 0
        + coast_brake_accel_m_per_s2 (d_sp d) * (nth (s - 1 + f) (time_s (d_cyc d)) 0 - nth (s - 1) (time_s (d_cyc d)) 0)) 0.
Definition brake_way (d : sdrive R) (s f : nat) : R :=
  (nth (s - 1) (mps (d_cyc d)) 0 + braked d s f) / 2 * (nth (s - 1 + f) (time_s (d_cyc d)) 0 - nth (s - 1) (time_s (d_cyc d)) 0).
(** A plan against running into the lead vehicle, which is passed in step [e]: during a coast brake fully for [f] steps
    from step [s] on, then move for [n] steps with an acceleration that starts at [a] and changes by [k] per second, so
    that in step [e] place and speed are those of the lead vehicle.  No acceleration exceeds the one that the cycle has at
    that step; that one is reckoned with the duration of the step before it. *)
Record avoid_plan (d : sdrive R) (i e f s n : nat) (k a : R) : Prop := {
  ap_steps : (i <= s)%nat /\ (2 <= n)%nat /\ (s + f + n = e + 1)%nat;
  ap_coast : coast_at d i = true /\ coast_at d s = true;
  ap_room : place d s + brake_way d s f < trapezoid (d_cyc0 d) 0 e;
  ap_speed : speed_for_constant_jerk (Z.of_nat n) (braked d s f) a k (duration (d_cyc d) i) = nth e (mps (d_cyc0 d)) 0;
  ap_dist : dist_for_constant_jerk (Z.of_nat n) (place d s + brake_way d s f) (braked d s f) a k (duration (d_cyc d) i)
            = trapezoid (d_cyc0 d) 0 e;
  ap_gentle : forall m, (m < n)%nat -> a + INR m * k * duration (d_cyc d) i
    <= (nth (s + f + m) (mps (d_cyc d)) 0 - nth (s + f + m - 1) (mps (d_cyc d)) 0) / duration (d_cyc d) (s + f + m - 1) }.
(** Which plan is chosen: the shortest full braking, then the least change of acceleration, then the earliest. *)
Definition best_avoid (d : sdrive R) (i e f s n : nat) (k : R) : Prop :=
  (forall f' s' n' k' a', (f' < f)%nat -> ~ avoid_plan d i e f' s' n' k' a') /\
  forall s' n' k' a', avoid_plan d i e f s' n' k' a' ->
    Rabs (accel_change d i n k) <= Rabs (accel_change d i n' k') /\
    ((s' < s)%nat -> Rabs (accel_change d i n k) < Rabs (accel_change d i n' k')).
(** What it does to the run. *)
Record avoided (d d' : sdrive R) (f s n : nat) (k a : R) : Prop := {
  av_run : same_run d d';
  av_same : time_s (d_cyc d') = time_s (d_cyc d) /\ grade (d_cyc d') = grade (d_cyc d) /\ length (mps (d_cyc d')) = length (mps (d_cyc d));
  av_outside : forall p, (p < s \/ s + f + n <= p)%nat -> nth p (mps (d_cyc d')) 0 = nth p (mps (d_cyc d)) 0;
  av_brake : forall m, (m < f)%nat -> nth (s + m) (mps (d_cyc d')) 0 = braked d s (S m);
  av_jerk : forall m, (1 <= m <= n)%nat -> nth (s + f + m - 1) (mps (d_cyc d')) 0 =
    Rmax (speed_for_constant_jerk (Z.of_nat m) (nth (s + f - 1) (mps (d_cyc d')) 0) a k (duration (d_cyc d) (s + f))) 0;
  av_flags : forall p, (p < length (d_rows d))%nat ->
    coast_at d' p = (Nat.ltb p (s + n) && (coast_at d p || Nat.leb s p && Nat.ltb p (s + f)))%bool }.
(** The tolerances that are tried one after the other: 1 m, 10 m, 15 m, ..., 60 m. *)
Definition tolerance (m : nat) : R := match m with O => 1 | S j => 10 + 5 * INR j end.
(** The lead vehicle is passed by more than [tol] in step [e], further on than the place of the vehicle now. *)
Definition passes (d : sdrive R) (i : nat) (tol : R) (e : nat) : Prop :=
  first_overtake (d_cyc d) (d_cyc0 d) i tol e /\ place d i < trapezoid (d_cyc0 d) 0 e.
