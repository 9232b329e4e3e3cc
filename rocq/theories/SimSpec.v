(** Specifications for the simulation properties C20-C40: physical formulas and plain-language
    predicates over the per-step results, independent of the model's helper functions. *)
From Verif Require Import Num Numpy CycleModel CycleSpec VehModel SimModel SimState WalkModel WalkProofs.
Local Open Scope R_scope.

(** ** Runs and steps *)
(** Step [i] of a completed run: [d] is the object after sim_drive_walk or sim_drive was called on the
    object [d0] (with auxiliary-load override [ovr]) and returned; step 0 is the initial state. *)
Definition is_step {F} {N : Num F} (d0 : sdrive F) (ovr : option (list F)) (d : sdrive F) (i : nat) : Prop :=
  wf_sd d0 /\ run d0 ovr d /\ (1 <= i < length (d_rows d))%nat.
(** Seconds between time stamps [i-1] and [i] of the driven cycle. *)
Definition step_dt (d : sdrive R) (i : nat) : R :=
  nth i (time_s (d_cyc d)) 0 - nth (i - 1) (time_s (d_cyc d)) 0.
(** Achieved speed at [i]. *)
Definition speed (d : sdrive R) (i : nat) : R := mps_ach (spd (row_at d i)).
Definition mean_speed (d : sdrive R) (i : nat) : R := (speed d (i - 1) + speed d i) / 2.
(** The driver's trace-miss correction (time dilation) is off. *)
Definition no_dilation (d0 : sdrive R) : Prop := missed_trace_correction (d_sp d0) = false.
(** Neither eco-coasting nor car following changes the prescribed speeds during the run. *)
Definition follows_trace (d0 : sdrive R) : Prop := coast_allow (d_sp d0) = false /\ idm_allow (d_sp d0) = false.

(** ** Physics of road load (powers in kW, energies in J) *)
Definition drag_power (rho cd area v : R) : R := rho * cd * area * v ^ 3 / 2 / 1000.
Definition climb_power (m g theta v : R) : R := m * g * sin theta * v / 1000.
Definition roll_power (m g crr theta v : R) : R := crr * (m * g * cos theta) * v / 1000.
Definition kinetic_J (m v : R) : R := m * v ^ 2 / 2.
Definition wheels_J (n inertia radius v : R) : R := n * (inertia * (v / radius) ^ 2 / 2).
Definition mean_kw (e0 e1 dt : R) : R := (e1 - e0) / dt / 1000.
(** Share of the braking power that the regeneration controller asks for at a mean speed in mph. *)
Definition regen_share (veh : vehicle R) (mph : R) : R :=
  max_regen veh / (1 + regen_a veh * exp (- regen_b veh * (mph + 1))).

(** Grip: power at the tires' friction limit at the highest speed they can reach in this step. *)
Definition grip_kw (v : vehicle R) (g s : R) : R :=
  wheel_coef_of_fric v * drive_axle_weight_frac v * veh_kg v * g
  / (1 + veh_cg_m v * wheel_coef_of_fric v / wheel_base_m v) / 1000 * s.

(** ** Maps *)
(** [k] is the last grid point before the first one above [x]. *)
Definition grid_point (grid : list R) (x : R) (k : nat) : Prop :=
  (forall j a, (j <= k)%nat -> nth_error grid j = Some a -> a <= x) /\
  (exists b, nth_error grid k = Some b) /\
  (forall a, nth_error grid (S k) = Some a -> x < a).
(** A motor map: at least two points, one efficiency per point; past the zero-power point the
    efficiencies are in (0, 1]. *)
Record motor_map_ok (v : vehicle R) : Prop := {
  mm_two : (2 <= length (mc_full_eff_array v))%nat;
  mm_out : length (mc_kw_out_array v) = length (mc_full_eff_array v);
  mm_in : length (mc_kw_in_array v) = length (mc_full_eff_array v);
  mm_eff : forall k x, (1 <= k)%nat -> nth_error (mc_full_eff_array v) k = Some x -> 0 < x <= 1 }.
(** An engine map: a point at least, one efficiency in (0, 1] per point. *)
Record engine_map_ok (v : vehicle R) : Prop := {
  em_one : (1 <= length (fc_eff_array v))%nat;
  em_len : length (fc_kw_out_array v) = length (fc_eff_array v);
  em_eff : forall x, In x (fc_eff_array v) -> 0 < x <= 1 }.

(** The efficiency at motor power [x]: the map's last point at its top, otherwise the grid point below. *)
Definition motor_eff (v : vehicle R) (grid : list R) (top x eff : R) : Prop :=
  exists k, (1 <= k)%nat /\ nth_error (mc_full_eff_array v) k = Some eff /\
    (x = top -> k = (length (mc_full_eff_array v) - 1)%nat) /\
    (x <> top -> nth_error grid 0 = Some 0 -> 1/100 <= top -> 0 <= x ->
       exists j, grid_point grid (Rmin (top - 1/100) x) j /\ k = Nat.max 1 j).

(** ** Battery *)
(** Energy in kWh taken out of the store by battery power [p] kW over [dt] seconds with round-trip
    efficiency [eta]: losses are shared equally by charging and discharging. *)
Definition drawn_kwh (eta p dt : R) : R :=
  (if Rlt_dec p 0 then p * sqrt eta else p / sqrt eta) * (dt / 3600).

(** Auxiliaries run off the engine shaft in vehicles without electric auxiliaries and while the battery
    is being protected. *)
Definition aux_on_shaft (v : vehicle R) (r : row R) : bool := (no_elec_aux v || high_acc_fc_on_tag (misc r))%bool.
(** Battery power that takes the state of charge from [s] to [target] in [dt] seconds, losses aside. *)
Definition to_soc_kw (kwh s target dt : R) : R := (s - target) * kwh * 3600 / dt.
(** [x] brought into the range the battery allows: out at most [most], in at most [chg]. *)
Definition within_battery (most chg x : R) : R := Rmax (Rmin x most) (- chg).

(** ** Search for the achievable speed *)
(** Power at the wheels over a step that starts at speed [v1] and ends at speed [x] on slope [g]. *)
Definition wheel_kw (v : vehicle R) (pr : physprops R) (g v1 dt x : R) : R :=
  let m := veh_kg v in let s := (v1 + x) / 2 in let th := atan g in
  drag_power (air_density_kg_per_m3 pr) (drag_coef v) (frontal_area_m2 v) s
  + mean_kw (kinetic_J m v1) (kinetic_J m x) dt
  + climb_power m (a_grav_mps2 pr) th s
  + roll_power m (a_grav_mps2 pr) (wheel_rr_coef v) th s
  + mean_kw (wheels_J (num_wheels v) (wheel_inertia_kg_m2 v) (wheel_radius_m v) v1)
            (wheels_J (num_wheels v) (wheel_inertia_kg_m2 v) (wheel_radius_m v) x) dt.
(** Power the transmission has to deliver for wheel power [w]: all of it when driving; when braking, minus
    what the motor may recuperate ([share] of the braking power, at most [mc_lim] at the wheels). *)
Definition gear_request (mc_lim share w : R) : R :=
  w + Rmax 0 (- w - Rmax 0 (Rmin mc_lim (share * - w))).
(** [xs] are the points of a damped Newton search for a zero of [f], started at [x0]: it stops after
    [most] points or when a step changes the point by less than the fraction [tol]. *)
Record newton_search (f f' : R -> R) (gain tol : R) (most : nat) (x0 : R) (xs : list R) : Prop := {
  ns_first : nth_error xs 0 = Some x0;
  ns_next : forall k x x', nth_error xs k = Some x -> nth_error xs (S k) = Some x' -> f' x <> 0 ->
            x' = x - gain * f x / f' x;
  ns_most : (length xs <= most)%nat;
  ns_on : forall k x x', nth_error xs k = Some x -> nth_error xs (S k) = Some x' ->
          (S (S k) < length xs)%nat -> tol <= Rabs ((x' - x) / x);
  ns_stop : length xs = most \/
            exists k x x', S (S k) = length xs /\ nth_error xs k = Some x /\ nth_error xs (S k) = Some x' /\
                           Rabs ((x' - x) / x) < tol }.
(** [b] is the first of the points with the smallest residual. *)
Definition best_of (f : R -> R) (xs : list R) (b : R) : Prop :=
  exists k, nth_error xs k = Some b /\ (forall x, In x xs -> Rabs (f b) <= Rabs (f x)) /\
            (forall j x, (j < k)%nat -> nth_error xs j = Some x -> Rabs (f b) < Rabs (f x)).
