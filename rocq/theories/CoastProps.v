(** Properties C82-C91: gap to the lead vehicle, eco-cruise, eco-coasting, collision avoidance; more on C13 and C14. *)
From Coq Require Import Floats Lia Lra.
From Verif Require Import Num FloatNum Numpy ListFacts CycleModel CycleSpec RateProofs VehModel SimModel SimState WalkModel WalkProofs SimSpec SimDemo
  CoastSpec CoastProofs CoastProofs2 CoastProofs3 CoastProofs5 CoastProofs6 CoastProofs7 CoastProofs8 CoastProofs9 CoastProofs10.
Local Open Scope R_scope.
Local Set Warnings "-inexact-float".

(** ** Cases *)
Section Cases.
  Context {F : Type} {N : Num F}.
  (** One sample per second, level or of the grade given. *)
  Definition hz (g : F) (l : list Z) : cyc F :=
    mkcyc (map (fun k => z (Z.of_nat k)) (seq 0 (length l))) (map z l) (repeat g (length l)) (repeat n0 (length l)).
  (** A coasting vehicle behind another one: its cycle, flags from step [i] on, the cycle of the other one. *)
  Definition behind (own lead : list Z) (i : nat) : sdrive F :=
    set_coast_range (with_cyc (new_sd demo_conv demo_props (demo_sp false true false) (hz n0 lead)) (hz n0 own)) 0 i (length own).
  (** The lead vehicle brakes; the other one would run into it. *)
  Definition crash : sdrive F := behind [0; 8; 8; 8; 8; 8; 8; 8; 8; 8; 8; 8; 8]%Z [0; 8; 8; 8; 8; 8; 8; 2; 2; 2; 2; 2; 2]%Z 3.
  (** A coast that is to be corrected at step 4. *)
  Definition slower : sdrive F :=
    behind [0; 10; 10; 10; 9; 9; 9; 9; 9; 9; 9; 9; 9; 9; 9; 9; 9]%Z [0; 10; 10; 10; 10; 10; 10; 10; 8; 0; 0; 0; 0; 0; 0; 0; 0]%Z 4.
  (** Up a slope of 2 % and to a stop. *)
  Definition slope_trip : list Z := ([0; 4; 8; 12] ++ repeat 12 12 ++ [6; 0] ++ repeat 0 8)%Z.
  Definition uphill : sdrive F := new_sd demo_conv demo_props (demo_sp false true false) (hz (lit 1 50) slope_trip).
  (** Its first [n] steps. *)
  Fixpoint drive (n : nat) (d : Res (sdrive F)) : Res (sdrive F) :=
    match n with O => d | S m => drive m (do x <- d; sim_drive_step x) end.
  Definition started (n : nat) : Res (sdrive F) := drive n (init_for_step uphill (lit 1 2) None).
  (** The same trip on a road that gets steeper. *)
  Definition steeper : sdrive F := new_sd demo_conv demo_props (demo_sp false true false)
    (mkcyc (map (fun k => z (Z.of_nat k)) (seq 0 26)) (map z slope_trip) (map (fun k => z (Z.of_nat k) / z 400)%num (seq 0 26)) (repeat n0 26)).
  Definition climbing (n : nat) : Res (sdrive F) := drive n (init_for_step steeper (lit 1 2) None).
End Cases.
Lemma behind_wf (own lead : list Z) i : length own = length lead -> wf_sd (behind (F := R) own lead i).
Proof.
  intros E. unfold wf_sd, wf, clen, behind, set_coast_range, upd_ctl_rows, with_rows, with_cyc, new_sd, init_arrays, with_rows, hz.
  cbn [d_cyc d_cyc0 time_s mps grade road_type]. rewrite !map_length, !repeat_length, !seq_length. auto 8.
Qed.
Lemma hz_unit (l : list Z) i n : (1 <= i)%nat -> (i + n <= length l)%nat -> unit_steps (hz (F := R) 0 l) i n.
Proof.
  intros H1 H2 p Hp. unfold hz. cbn [time_s]. unfold z.
  assert (T : forall k, (k < length l)%nat -> nth k (map (fun k => nofZ (Z.of_nat k)) (seq 0 (length l))) 0 = INR k).
  { intros k Hk. rewrite (nth_indep _ 0 (nofZ (F := R) (Z.of_nat 0))) by (rewrite map_length, seq_length; exact Hk).
    rewrite (map_nth (fun k => nofZ (F := R) (Z.of_nat k))), seq_nth by exact Hk. cbn [Nat.add]. unR. symmetry. apply INR_IZR_INZ. }
  rewrite !T by lia. replace p with (S (p - 1)) at 1 by lia. rewrite S_INR. lra.
Qed.

(** ** C82 *)
Theorem C82_gap : forall (d : sdrive R) k, wf_sd d -> (k < clen (d_cyc d))%nat ->
  length (gap_to_lead_vehicle_m d) = clen (d_cyc d) /\
  nth k (gap_to_lead_vehicle_m d) 0 =
  trapezoid (d_cyc0 d) 0 k - trapezoid (d_cyc d) 0 k + (if idm_allow (d_sp d) then idm_minimum_gap_m (d_sp d) else 0).
Proof. intros d k W K. split; [apply gap_length; [exact W|lia]|exact (gap_nth d k W K)]. Qed.
Example C82_case : nth 7 (gap_to_lead_vehicle_m (F := R) crash) 0 = -3.
Proof.
  rewrite (proj2 (C82_gap (crash (F := R)) 7 (behind_wf _ _ 3 eq_refl) ltac:(cbn; lia))). unfold crash, behind, set_coast_range, hz, z. cbn. unR. lra.
Qed.
Example C82_run : nth 7 (gap_to_lead_vehicle_m (F := float) crash) 0%float = (-3)%float.
Proof. vm_compute. reflexivity. Qed.

(** ** C83 *)
Theorem C83_mean : forall (d d' : sdrive R) extend blend min, let c := d_cyc0 d in
  length (mps c) = length (time_s c) -> hd 0 (time_s c) = 0 -> 0 <= extend ->
  activate_eco_cruise d false extend blend min = Ok d' ->
  only_cruise_differs (d_sp d) (d_sp d') /\ idm_allow (d_sp d') = true /\
  idm_v_desired_by_distance (d_sp d') = idm_v_desired_by_distance (d_sp d) /\
  idm_v_desired_m_per_s (d_sp d') = (if Rlt_dec 0 (trip_time c) then trip_length c / trip_time c else 0).
Proof. exact cruise_mean. Qed.
Theorem C83_trip : forall (d d' : sdrive R) extend blend min, activate_eco_cruise d true extend blend min = Ok d' ->
  0 <= extend /\ 0 <= blend <= 1 /\ 0 <= min /\
  only_cruise_differs (d_sp d) (d_sp d') /\ idm_allow (d_sp d') = true /\
  idm_v_desired_m_per_s (d_sp d') = idm_v_desired_m_per_s (d_sp d) /\
  idm_v_desired_by_distance (d_sp d') = Some (create_dist_and_target_speeds_by_microtrip (d_cyc0 d) blend min).
Proof. exact cruise_trip. Qed.
Theorem C83_extends : forall (d d' : sdrive R) m extend blend min, activate_eco_cruise d m extend blend min = Ok d' ->
  (extend = 0 /\ d_cyc d' = d_cyc d /\ d_cyc0 d' = d_cyc0 d) \/
  (0 < extend /\ exists r, extend_cycle (mkCycle (d_cyc0 d) "") 0 extend = Ok r /\ d_cyc d' = cdata r /\ d_cyc0 d' = cdata r).
Proof. exact cruise_extends. Qed.
Theorem C83_keeps : forall (d d' : sdrive R) m extend blend min, activate_eco_cruise d m extend blend min = Ok d' ->
  d_veh d' = d_veh d /\ d_props d' = d_props d /\ d_rows d' = d_rows d /\ d_i d' = d_i d /\ d_hev_sim_count d' = d_hev_sim_count d.
Proof. exact cruise_keeps. Qed.
Theorem C83_rejects : forall (d : sdrive R) m extend blend min,
  (m = true /\ (blend < 0 \/ 1 < blend \/ min < 0)) \/ extend < 0 ->
  activate_eco_cruise d m extend blend min = Err TypeError.
Proof. exact cruise_rejects. Qed.
Example C83_case : exists d', activate_eco_cruise (crash (F := R)) false 0 0 0 = Ok d' /\ idm_v_desired_m_per_s (d_sp d') = 5.
Proof.
  assert (E : exists d', activate_eco_cruise (crash (F := R)) false 0 0 0 = Ok d').
  { unfold activate_eco_cruise. unR. destruct (Rltb_spec 0 0) as [Q|_]; [lra|]. cbn [bindR andb orb negb]. eexists. reflexivity. }
  destruct E as (d' & E). exists d'. split; [exact E|].
  assert (Z0 : hd 0 (time_s (d_cyc0 (crash (F := R)))) = 0) by (cbn; unfold z; unR; reflexivity).
  destruct (C83_mean (crash (F := R)) d' 0 0 0 eq_refl Z0 (Rle_refl 0) E) as (_ & _ & _ & V). rewrite V. clear V.
  unfold crash, behind, hz, trip_time, trip_length, z. cbn. unR. destruct (Rlt_dec _ _) as [_|Q]; [lra|elim Q; lra].
Qed.
Example C83_run : match activate_eco_cruise (F := float) crash true 0.5%float 0.25%float 1%float with
  | Ok d => (idm_allow (d_sp d) && Nat.ltb 13 (length (time_s (d_cyc d))) && match idm_v_desired_by_distance (d_sp d) with Some (_ :: _) => true | _ => false end)%bool
  | Err _ => false end = true.
Proof. vm_compute. reflexivity. Qed.

(** ** C84 *)
(** Mass times change of speed with time is minus the force of the road: calc_dvdd is the change per metre. *)
Theorem C84_force : forall (d : sdrive R) v g, 0 < v -> veh_kg (d_veh d) <> 0 ->
  veh_kg (d_veh d) * (v * calc_dvdd d v g) = - road_force (d_veh d) (d_props d) g v.
Proof. exact dvdd_force. Qed.
Theorem C84_still : forall (d : sdrive R) v g, v <= 0 -> calc_dvdd d v g = 0.
Proof. exact dvdd_still. Qed.
(** A step: the change of speed is the slope times the distance at the mean speed. *)
Theorem C84_step : forall v k dt : R, k * dt <> 2 -> let w := coast_next v k dt in w - v = k * ((v + w) / 2 * dt).
Proof. exact coast_next_rule. Qed.
Example C84_case : 1500 * (10 * calc_dvdd (F := R) crash 10 0) = - (1500 * 9.81 * 0.01 + 36).
Proof.
  change 1500 with (veh_kg (d_veh (crash (F := R)))) at 1. rewrite (C84_force (crash (F := R)) 10 0 ltac:(lra)); [|cbn; unR; lra]. unfold road_force. rewrite atan_0, sin_0, cos_0.
  cbn. unfold z. unfold lit. unR. lra.
Qed.

(** ** C85 *)
Theorem C85_brakes : forall (d : sdrive R) i, wf_sd d -> (1 <= i < clen (d_cyc d))%nat ->
  coast_brake_accel_m_per_s2 (d_sp d) <> 0 -> nth (i - 1) (mps (d_cyc d)) 0 <= coast_brake_start_speed_m_per_s (d_sp d) ->
  calc_distance_to_stop_coast_v2 d i = Ok (stopping_distance (coast_brake_accel_m_per_s2 (d_sp d)) (nth (i - 1) (mps (d_cyc d)) 0)).
Proof. intros d i W HI AB. exact (brake_only d i W HI AB). Qed.
(** On a road of one grade the estimate is the distance of the physical motion: rolling down to the speed for
    braking, then braking to a stop. *)
Theorem C85_motion : forall (d : sdrive R) i g T pos vel T' pos' vel',
  let v0 := nth (i - 1) (mps (d_cyc d)) 0 in let vb := coast_brake_start_speed_m_per_s (d_sp d) in
  let ab := coast_brake_accel_m_per_s2 (d_sp d) in
  wf_sd d -> d_cache d = build_cache (d_cyc0 d) -> (1 <= i < clen (d_cyc d))%nat -> ab <> 0 ->
  vb < v0 -> 0 <= vb -> 0 < veh_kg (d_veh d) -> grade_from (d_cyc0 d) (place d i) g ->
  0 <= T -> motion T pos vel (rolling (d_veh d) (d_props d) g) -> vel 0 = v0 -> vel T = vb ->
  (forall t, 0 <= t <= T -> 0 < road_force (d_veh d) (d_props d) g (vel t)) ->
  0 <= T' -> motion T' pos' vel' (braking ab) -> vel' 0 = vb -> vel' T' = 0 ->
  calc_distance_to_stop_coast_v2 d i = Ok ((pos T - pos 0) + (pos' T' - pos' 0)).
Proof. intros d i g T pos vel T' pos' vel' v0 vb ab W CA HI AB. exact (estimate_motion d i g W CA HI AB T pos vel T' pos' vel'). Qed.
(** That motion exists wherever weight and rolling resistance slow the vehicle down. *)
Theorem C85_motion_exists : forall (d : sdrive R) i g,
  let v0 := nth (i - 1) (mps (d_cyc d)) 0 in let vb := coast_brake_start_speed_m_per_s (d_sp d) in
  let ab := coast_brake_accel_m_per_s2 (d_sp d) in
  wf_sd d -> d_cache d = build_cache (d_cyc0 d) -> (1 <= i < clen (d_cyc d))%nat -> ab < 0 -> 0 <= vb < v0 ->
  0 < veh_kg (d_veh d) -> 0 < air_density_kg_per_m3 (d_props d) * drag_coef (d_veh d) * frontal_area_m2 (d_veh d) ->
  0 < a_grav_mps2 (d_props d) * (sin (atan g) + wheel_rr_coef (d_veh d) * cos (atan g)) -> grade_from (d_cyc0 d) (place d i) g ->
  exists T pos vel T' pos' vel', motion T pos vel (rolling (d_veh d) (d_props d) g) /\ vel 0 = v0 /\ vel T = vb /\
    motion T' pos' vel' (braking ab) /\ vel' 0 = vb /\ vel' T' = 0 /\
    calc_distance_to_stop_coast_v2 d i = Ok ((pos T - pos 0) + (pos' T' - pos' 0)).
Proof.
  intros d i g v0 vb ab W CA HI AB VB M D G GF.
  destruct (rolling_exists (d_veh d) (d_props d) g v0 vb M D G ltac:(lra)) as (T & pos & vel & H1 & H2 & H3 & H4 & H5).
  destruct (brake_exists ab vb AB ltac:(lra)) as (T' & pos' & vel' & K1 & K2 & K3 & K4).
  exists T, pos, vel, T', pos', vel'. repeat (split; [assumption|]).
  apply (C85_motion d i g T pos vel T' pos' vel'); auto; fold ab vb v0; lra.
Qed.
(** Where the road does not slow it down at both speeds, and where the grade varies, a coast is simulated. *)
Theorem C85_simulated : forall (d : sdrive R) i g,
  let v0 := nth (i - 1) (mps (d_cyc d)) 0 in let vb := coast_brake_start_speed_m_per_s (d_sp d) in
  wf_sd d -> d_cache d = build_cache (d_cyc0 d) -> (1 <= i < clen (d_cyc d))%nat -> coast_brake_accel_m_per_s2 (d_sp d) <> 0 ->
  vb < v0 -> 0 <= vb -> veh_kg (d_veh d) <> 0 -> grade_from (d_cyc0 d) (place d i) g ->
  road_force (d_veh d) (d_props d) g v0 / veh_kg (d_veh d) <= 0 \/ road_force (d_veh d) (d_props d) g vb / veh_kg (d_veh d) <= 0 ->
  calc_distance_to_stop_coast_v2 d i = do r <- generate_coast_trajectory d i false; Ok (snd r).
Proof. intros d i g v0 vb W CA HI AB. exact (estimate_simulated d i g W CA HI AB). Qed.
Theorem C85_uneven : forall (d : sdrive R) i, wf_sd d -> d_cache d = build_cache (d_cyc0 d) -> (1 <= i < clen (d_cyc d))%nat ->
  coast_brake_accel_m_per_s2 (d_sp d) <> 0 -> coast_brake_start_speed_m_per_s (d_sp d) < nth (i - 1) (mps (d_cyc d)) 0 ->
  (forall g, ~ grade_from (d_cyc0 d) (place d i) g) ->
  calc_distance_to_stop_coast_v2 d i = do r <- generate_coast_trajectory d i false; Ok (snd r).
Proof. exact estimate_uneven. Qed.
Theorem C85_no_brakes : forall (d : sdrive R) i, wf_sd d -> (1 <= i < clen (d_cyc d))%nat -> coast_brake_accel_m_per_s2 (d_sp d) = 0 ->
  calc_distance_to_stop_coast_v2 d i = Err ZeroDivisionError.
Proof. exact estimate_no_brakes. Qed.
Lemma level (own lead : list Z) i j : length own = length lead -> (j < length lead)%nat ->
  place (behind (F := R) own lead i) i <= trapezoid (hz 0 lead) 0 j -> grade_from (d_cyc0 (behind (F := R) own lead i)) (place (behind own lead i) i) 0.
Proof.
  intros E J P. split.
  - exists j. split; [unfold behind, hz; cbn; now rewrite map_length, seq_length|exact P].
  - intros k _ _. exact (nth_repeat 0 (length lead) k).
Qed.
Lemma slower_level : grade_from (d_cyc0 (slower (F := R))) (place slower 4) 0.
Proof.
  apply (level _ _ 4 16); [reflexivity|cbn; lia|]. unfold place, slower, behind, set_coast_range, hz, z. cbn. unR. lra.
Qed.
Example C85_case : exists x, calc_distance_to_stop_coast_v2 (slower (F := R)) 4 = Ok x.
Proof.
  destruct (C85_motion_exists (slower (F := R)) 4 0) as (T & pos & vel & T' & pos' & vel' & _ & _ & _ & _ & _ & _ & E).
  - now apply behind_wf.
  - reflexivity.
  - cbn. lia.
  - cbn. unfold lit, z. unR. lra.
  - cbn. unfold lit, z. unR. lra.
  - cbn. unfold z. unR. lra.
  - cbn. unfold lit, z. unR. lra.
  - rewrite atan_0, sin_0, cos_0. cbn. unfold lit, z. unR. lra.
  - exact slower_level.
  - eauto.
Qed.
Example C85_run : match started (F := float) 4 with Ok d =>
  match calc_distance_to_stop_coast_v2 d 5 with Ok x => (PrimFloat.ltb 149.1544 x && PrimFloat.ltb x 149.1545)%bool | Err _ => false end | Err _ => false end = true.
Proof. vm_compute. reflexivity. Qed.

(** ** C86 *)
Theorem C86_by_speed : forall (d : sdrive R) i, 0 < coast_start_speed_m_per_s (d_sp d) ->
  should_impose_coast d i = Ok (if Rle_dec (coast_start_speed_m_per_s (d_sp d)) (nth i (mps (d_cyc d)) 0) then true else false).
Proof. exact decide_by_speed. Qed.
Theorem C86_by_distance : forall (d : sdrive R) i b, wf_sd d -> (1 <= i < clen (d_cyc d))%nat ->
  coast_start_speed_m_per_s (d_sp d) <= 0 -> coast_brake_accel_m_per_s2 (d_sp d) < 0 -> should_impose_coast d i = Ok b ->
  let v := speed d (i - 1) in
  b = true <-> coast_brake_start_speed_m_per_s (d_sp d) <= v /\
    exists est stop, calc_distance_to_stop_coast_v2 d i = Ok est /\
      calc_distance_to_next_stop_from (d_cyc0 d) (place d i) (Some (d_cache d)) = Ok stop /\
      0 <= est /\ stop <= est /\ 4 * stopping_distance (coast_brake_accel_m_per_s2 (d_sp d)) v <= stop.
Proof. exact decide_by_distance. Qed.
Example C86_case : forall b, should_impose_coast (slower (F := R)) 4 = Ok b -> b = false.
Proof.
  assert (W : wf_sd (slower (F := R))) by now apply behind_wf.
  assert (SP : d_sp (slower (F := R)) = demo_sp false true false) by reflexivity.
  assert (CL : clen (d_cyc (slower (F := R))) = 17%nat) by reflexivity.
  assert (V : speed (slower (F := R)) (4 - 1) = 0) by reflexivity.
  revert W SP CL V. generalize (slower (F := R)). intros d W SP CL V b H. destruct b; [|reflexivity]. exfalso.
  destruct (proj1 (C86_by_distance d 4 true W ltac:(lia) ltac:(rewrite SP; cbn; unR; lra)
    ltac:(rewrite SP; cbn; unfold lit, z; unR; lra) H) eq_refl) as (Q & _).
  rewrite SP, V in Q. revert Q. cbn. unfold lit, z. unR. lra.
Qed.
Example C86_run : match started (F := float) 3, started (F := float) 4 with
  | Ok d, Ok d' => match should_impose_coast d 4, should_impose_coast d' 5 with Ok b, Ok b' => (negb b && b')%bool | _, _ => false end
  | _, _ => false end = true.
Proof. vm_compute. reflexivity. Qed.

(** ** C87 *)
Theorem C87_plan : forall (d d' : sdrive R) i x, wf_sd d -> d_cache d = build_cache (d_cyc0 d) -> (1 <= i < clen (d_cyc d))%nat ->
  length (d_rows d) = clen (d_cyc d) -> nondecreasing (time_s (d_cyc0 d)) -> nonneg (mps (d_cyc0 d)) ->
  veh_kg (d_veh d) <> 0 -> 0 <= coast_brake_start_speed_m_per_s (d_sp d) < speed d (i - 1) ->
  generate_coast_trajectory d i true = Ok (d', x) ->
  (d' = d /\ x = 0 /\ forall j, (j < length (time_s (d_cyc0 d)))%nat -> trapezoid (d_cyc0 d) 0 j < place d i) \/
  (d' = d /\ x = -1) \/
  exists stop vs nb, calc_distance_to_next_stop_from (d_cyc0 d) (place d i) (Some (d_cache d)) = Ok stop /\
    coast_planned d d' i x stop vs nb.
Proof. exact coast_plan. Qed.
(** With steps of one second the plan covers the distance [x] and ends at rest. *)
Theorem C87_arrives : forall (d d' : sdrive R) i x stop vs nb, coast_planned d d' i x stop vs nb -> wf_sd d ->
  (1 <= i < clen (d_cyc d))%nat -> time_s (d_cyc d) = time_s (d_cyc0 d) -> nth (i - 1) (mps (d_cyc d)) 0 = speed d (i - 1) ->
  coast_brake_accel_m_per_s2 (d_sp d) < 0 -> 0 <= coast_brake_start_speed_m_per_s (d_sp d) < speed d (i - 1) ->
  (0 < nb)%nat -> (i + length vs + nb <= clen (d_cyc d))%nat -> unit_steps (d_cyc d) (i + length vs) nb ->
  (forall p, (i + length vs <= p < i + length vs + nb - 1)%nat -> 0 < nth p (mps (d_cyc d')) 0) ->
  trapezoid (d_cyc d') (i - 1) (length vs + nb) = x /\ nth (i + length vs + nb - 1) (mps (d_cyc d')) 0 = 0.
Proof. exact plan_arrives. Qed.
Theorem C87_total : forall (d : sdrive R) i modify g, wf_sd d -> d_cache d = build_cache (d_cyc0 d) -> (1 <= i < clen (d_cyc d))%nat ->
  length (d_rows d) = clen (d_cyc d) -> coast_brake_accel_m_per_s2 (d_sp d) < 0 -> grade_from (d_cyc0 d) (place d i) g ->
  (forall p, (1 <= p < clen (d_cyc d))%nat -> duration (d_cyc d) p = 1) ->
  exists r, generate_coast_trajectory d i modify = Ok r.
Proof. exact coast_total. Qed.
Theorem C87_brakes : forall (d d' : sdrive R) i x, wf_sd d -> d_cache d = build_cache (d_cyc0 d) -> (1 <= i < clen (d_cyc d))%nat ->
  length (d_rows d) = clen (d_cyc d) -> speed d (i - 1) <= coast_brake_start_speed_m_per_s (d_sp d) ->
  (exists j, (j < length (time_s (d_cyc0 d)))%nat /\ place d i <= trapezoid (d_cyc0 d) 0 j) ->
  generate_coast_trajectory d i true = Ok (d', x) ->
  x = stopping_distance (coast_brake_accel_m_per_s2 (d_sp d)) (speed d (i - 1)) /\
  exists v nb, modify_with_braking_trajectory (d_cyc d) (coast_brake_accel_m_per_s2 (d_sp d)) i None = Ok (d_cyc d', v, Z.of_nat nb) /\
    (forall j, (j < length (d_rows d))%nat -> coast_at d' j = if Nat.ltb j i then coast_at d j else Nat.ltb j (i + nb)) /\
    d_cyc0 d' = d_cyc0 d /\ d_sp d' = d_sp d /\ d_veh d' = d_veh d /\ d_props d' = d_props d /\ d_i d' = d_i d.
Proof. exact coast_brakes. Qed.
Example C87_case : exists r, generate_coast_trajectory (slower (F := R)) 4 true = Ok r.
Proof.
  apply (C87_total (slower (F := R)) 4 true 0); try reflexivity.
  - now apply behind_wf.
  - cbn. lia.
  - cbn. unfold lit, z. unR. lra.
  - exact slower_level.
  - intros p Hp. apply (hz_unit [0; 10; 10; 10; 9; 9; 9; 9; 9; 9; 9; 9; 9; 9; 9; 9; 9]%Z 1 16); [lia|cbn; lia|cbn in Hp; lia].
Qed.
Example C87_run : match started (F := float) 4 with Ok d =>
  match generate_coast_trajectory d 5 true with
  | Ok (d1, x) => (PrimFloat.eqb x 144 && forallb (coast_at d1) (seq 5 17) && negb (coast_at d1 22)
                   && PrimFloat.ltb (PrimFloat.abs (nth 18 (mps (d_cyc d1)) 0%float - 7.5554945)) 0.000001
                   && PrimFloat.ltb (nth 21 (mps (d_cyc d1)) 1%float) 0.000001
                   && PrimFloat.ltb (PrimFloat.abs (nsum (trapz_step_distances (d_cyc d1)) - 174)) 0.000001)%bool
  | Err _ => false end | Err _ => false end = true.
Proof. vm_compute. reflexivity. Qed.

Example C87_steeper : match climbing (F := float) 4 with Ok d =>
  match generate_coast_trajectory d 5 true, interp_grade (d_cache d) (nsum (firstn 5 (trapz_step_distances (d_cyc d)))) with
  | Ok (d1, x), Ok g =>
      let k := calc_dvdd d (mps_ach_at d 4) g in
      (favor_grade_accuracy (d_sp d) && PrimFloat.ltb 0 g && PrimFloat.ltb 0 x && coast_at d1 5
       && PrimFloat.ltb (nth 5 (mps (d_cyc d1)) 0%float) (coast_next (mps_ach_at d 4) k 1%float))%bool
  | _, _ => false end | Err _ => false end = true.
Proof. vm_compute. reflexivity. Qed.

(** ** C88 *)
Theorem C88_search : forall (d : sdrive R) i mn mx r, wf_sd d -> d_cache d = build_cache (d_cyc0 d) -> (1 <= i < clen (d_cyc d))%nat ->
  nondecreasing (time_s (d_cyc0 d)) -> 0 < duration (d_cyc d) i -> 0 <= coast_brake_start_speed_m_per_s (d_sp d) ->
  calc_next_rendezvous_trajectory d i mn mx = Ok r ->
  let v0 := nth (i - 1) (mps (d_cyc d)) 0 in let vb := coast_brake_start_speed_m_per_s (d_sp d) in
  let ab := coast_brake_accel_m_per_s2 (d_sp d) in
  (v0 < vb + 1 / 1000000 /\ r = None) \/
  (vb + 1 / 1000000 <= v0 /\ exists stop, calc_distance_to_next_stop_from (d_cyc0 d) (place d i) (Some (d_cache d)) = Ok stop /\
     ((stop < 0 /\ r = None) \/
      (0 <= stop /\ ab <> 0 /\ let L := stop - stopping_distance ab vb in
        ((L < 0 /\ r = None) \/ (0 <= L /\ best_meeting d i L (Rmin mn mx) (Rmax mn mx) r))))).
Proof. exact rendezvous. Qed.
Theorem C88_correction : forall (d d' : sdrive R) i accel b, adjust_coast d i accel = Ok (d', b) ->
  let vb := coast_brake_start_speed_m_per_s (d_sp d) in let ab := coast_brake_accel_m_per_s2 (d_sp d) in
  (nth i (mps (d_cyc d)) 0 < vb - 1 / 10 /\ b = true /\ same_run d d' /\
   exists v nb, modify_with_braking_trajectory (d_cyc d) ab i None = Ok (d_cyc d', v, Z.of_nat nb) /\ coast_flags d d' i (i + nb)) \/
  (vb - 1 / 10 <= nth i (mps (d_cyc d)) 0 /\ exists r, calc_next_rendezvous_trajectory d i ab (Rmin accel 0) = Ok r /\
   match r with
   | None => d' = d /\ b = false
   | Some q => b = true /\ same_run d d' /\ exists c v,
       modify_by_const_jerk_trajectory (d_cyc d) i (Z.of_nat (rv_n q)) (rv_jerk q) (rv_accel q) = Ok (c, v) /\
       ((1 / 10 <= Rabs (v - vb) /\ d_cyc d' = c /\ coast_flags d d' i (i + rv_n q)) \/
        (Rabs (v - vb) < 1 / 10 /\ exists u nb, modify_with_braking_trajectory c ab (i + rv_n q) None = Ok (d_cyc d', u, Z.of_nat nb) /\
           coast_flags d d' i (i + rv_n q + nb)))
   end).
Proof. exact adjust_cases. Qed.
(** With steps of one second the corrected coast is at the speed for braking and then stops at the stop. *)
Theorem C88_arrives : forall (d d' : sdrive R) i accel, wf_sd d -> d_cache d = build_cache (d_cyc0 d) -> (1 <= i < clen (d_cyc d))%nat ->
  nondecreasing (time_s (d_cyc0 d)) -> 0 <= coast_brake_start_speed_m_per_s (d_sp d) ->
  coast_brake_start_speed_m_per_s (d_sp d) - 1 / 10 <= nth i (mps (d_cyc d)) 0 ->
  (forall p, (i <= p < clen (d_cyc d))%nat -> duration (d_cyc d) p = 1) ->
  adjust_coast d i accel = Ok (d', true) ->
  exists stop n nb, calc_distance_to_next_stop_from (d_cyc0 d) (place d i) (Some (d_cache d)) = Ok stop /\ (1 <= n)%nat /\
    coast_flags d d' i (i + n + nb) /\
    nth (i + n - 1) (mps (d_cyc d')) 0 = coast_brake_start_speed_m_per_s (d_sp d) /\
    ((0 < nb)%nat -> (i + n + nb <= clen (d_cyc d))%nat ->
     (forall p, (i <= p < i + n + nb - 1)%nat -> 0 < nth p (mps (d_cyc d')) 0) ->
     Rabs (trapezoid (d_cyc d') (i - 1) (n + nb) - stop) < 1 / 1000000 /\ nth (i + n + nb - 1) (mps (d_cyc d')) 0 = 0).
Proof. exact adjust_arrives. Qed.
(** A plan of five steps that the search weighs: 53 m to the stop, of which 11.25 m for braking. *)
Example C88_case : meet_plan (slower (F := R)) 4 (41.75) (- 2.5) 0 5 0.2 (- 0.9).
Proof.
  constructor; unfold slower, behind, set_coast_range, hz, duration, z, speed_for_constant_jerk, dist_for_constant_jerk;
    cbn -[INR speed_for_constant_jerk dist_for_constant_jerk]; unfold lit; unR.
  - lia.
  - unfold Rmax. destruct (Rle_dec _ _); lra.
  - lra.
  - lra.
  - lra.
  - lra.
  - lra.
  - intros m Hm. assert (INR m <= 4) by (replace 4 with (INR 4) by (cbn; lra); apply le_INR; lia). pose proof (pos_INR m). lra.
Qed.
Example C88_run : match adjust_coast (F := float) slower 4 0%float with
  | Ok (d, b) => (b && forallb (coast_at d) (seq 4 8) && negb (coast_at d 12)
      && PrimFloat.ltb (PrimFloat.abs (nth 8 (mps (d_cyc d)) 0%float - 7.5)) 0.000001
      && PrimFloat.ltb (PrimFloat.abs (nth 11 (mps (d_cyc d)) 1%float)) 0.000001
      && PrimFloat.ltb (PrimFloat.abs (nsum (firstn 12 (trapz_step_distances (d_cyc d))) - 78)) 0.000001)%bool
  | Err _ => false end = true.
Proof. vm_compute. reflexivity. Qed.

(** ** C89 *)
Theorem C89_delay : forall (d d' : sdrive R) i, wf_sd d -> d_cache d = build_cache (d_cyc0 d) -> (1 <= i < clen (d_cyc d))%nat ->
  length (d_rows d) = clen (d_cyc d) -> nondecreasing (time_s (d_cyc0 d)) -> nonneg (mps (d_cyc0 d)) ->
  set_coast_delay d i = Ok d' ->
  same_run d d' /\ d_cyc d' = d_cyc d /\ (forall j, coast_at d' j = coast_at d j) /\
  (forall j, (j < i)%nat -> row_at d' j = row_at d j) /\
  ((forall j, (i <= j < clen (d_cyc d))%nat -> delayed_speed d' j = trace_at (d_cyc0 d) j) \/
   (idm_allow (d_sp d) = false /\ nth i (mps (d_cyc d)) 0 < 1 / 100 /\
    1 / 10 < Rabs (trapezoid (d_cyc0 d) 0 (i - 1) - place d i) /\
    exists idx, nearest_stop (d_cyc0 d) (place d i) (if Rlt_dec (place d i) (trapezoid (d_cyc0 d) 0 (i - 1)) then true else false) idx /\
      forall j, (i <= j < clen (d_cyc d))%nat -> delayed_speed d' j = trace_at (d_cyc0 d) (followed i idx j))) /\
  (idm_allow (d_sp d) = false -> nth i (mps (d_cyc d)) 0 < 1 / 100 ->
   1 / 10 < Rabs (trapezoid (d_cyc0 d) 0 (i - 1) - place d i) -> (exists k, stopped (d_cyc0 d) k) ->
   exists idx, nearest_stop (d_cyc0 d) (place d i) (if Rlt_dec (place d i) (trapezoid (d_cyc0 d) 0 (i - 1)) then true else false) idx /\
      forall j, (i <= j < clen (d_cyc d))%nat -> delayed_speed d' j = trace_at (d_cyc0 d) (followed i idx j)).
Proof. exact coast_delay. Qed.
(** The coast up the hill stops at step 21 where the trace does at step 17, and follows it from there. *)
Example C89_run : match sim_drive_walk (F := float) uphill 0.5%float None with
  | Ok d => (map (fun r => coast_delay_index (ctl r)) (skipn 20 (d_rows d)), coast_at d 20, coast_at d 21, mps_ach_at d 21)
  | Err _ => ([], false, false, 1%float) end = ([0; -4; -3; -2; -1; 0]%Z, true, false, 0%float).
Proof. vm_compute. reflexivity. Qed.

(** ** C90 *)
(** Not coasting, and no reason to: the trace is followed (after a stop, with its delay), or IDM is left to decide. *)
Theorem C90_follow : forall (d : sdrive R) i, coast_at d i = false ->
  speed d (i - 1) <= 1 / 1000000 \/ should_impose_coast d i = Ok false ->
  set_coast_speed d i = Ok (if idm_allow (d_sp d) then d else set_cyc_mps d i (delayed_speed d i)).
Proof. exact coast_follow. Qed.
(** A coast begins with its plan, corrected for the lead vehicle if passing is not allowed. *)
Theorem C90_starts : forall (d d1 : sdrive R) i x, coast_at d i = false -> 1 / 1000000 < speed d (i - 1) -> should_impose_coast d i = Ok true ->
  generate_coast_trajectory d i true = Ok (d1, x) -> d_sp d1 = d_sp d -> speed d1 (i - 1) = speed d (i - 1) -> 0 <= x ->
  if coast_allow_passing (d_sp d) then coast_at d1 i = true -> set_coast_speed d i = set_coast_speed d1 i
  else forall d2 b, prevent_collisions d1 i None = Ok (d2, b) -> d_sp d2 = d_sp d -> speed d2 (i - 1) = speed d (i - 1) ->
    coast_at d2 i = true -> set_coast_speed d i = set_coast_speed d2 i.
Proof. exact coast_starts. Qed.
Theorem C90_unplanned : forall (d : sdrive R) i x, coast_at d i = false -> 1 / 1000000 < speed d (i - 1) -> should_impose_coast d i = Ok true ->
  generate_coast_trajectory d i true = Ok (d, x) -> x < 0 -> coast_allow_passing (d_sp d) = true -> (i < length (d_rows d))%nat ->
  exists d1, set_coast_speed d i = Ok (if idm_allow (d_sp d) then d1 else set_cyc_mps d1 i (delayed_speed d i)) /\
    d_cyc d1 = d_cyc d /\ same_run d d1 /\ forall j, (i <= j < length (d_rows d))%nat -> coast_at d1 j = false.
Proof. exact coast_unplanned. Qed.
(** A step of a coast: the speed reached for the request is adopted; at standstill the coast is over; a speed other than
    planned leads to a correction, after which the step is solved again. *)
Theorem C90_step : forall (d d' : sdrive R) i, coast_at d i = true -> (i < length (d_rows d))%nat -> (i < length (mps (d_cyc d)))%nat ->
  set_coast_speed d i = Ok d' ->
  let a := coast_result d i in let v1 := nth i (mps (d_cyc d)) 0 in
  exists d3, step_adopted d d3 i /\
  ((a < 1 / 1000000 /\ (forall j, (i <= j < length (d_rows d))%nat -> coast_at d' j = false) /\ nth i (mps (d_cyc d')) 0 = 0 /\
    exists d4, set_coast_delay (clear_coast d3 i) i = Ok d4 /\ d' = set_cyc_mps d4 i 0) \/
   (1 / 1000000 <= a /\ Rabs (a - v1) <= 1 / 1000000 /\ d' = d3) \/
   (1 / 1000000 <= a /\ 1 / 1000000 < Rabs (a - v1) /\ nth i (mps (d_cyc d')) 0 = speed d' i /\
    exists r, adjust_coast d3 i ((a - nth (i - 1) (mps (d_cyc d3)) 0) / cdt (d_cyc d3) i) = Ok r /\
      if snd r then
        exists d4, d' = solve_and_adopt d4 i /\
          if coast_allow_passing (d_sp d) then d4 = fst r else exists b, prevent_collisions (fst r) i None = Ok (d4, b)
      else d' = fst r /\ fst r = d3)).
Proof. exact coast_step_rule. Qed.
Example C90_case : coast_at (slower (F := R)) 4 = true /\ (4 < length (d_rows (slower (F := R))))%nat /\ coast_at (slower (F := R)) 3 = false /\
  speed slower 2 <= 1 / 1000000 /\ exists d', set_coast_speed (slower (F := R)) 3 = Ok d' /\ nth 3 (mps (d_cyc d')) 0 = 10.
Proof.
  split; [reflexivity|]. split; [cbn; lia|]. split; [reflexivity|].
  assert (S : speed (slower (F := R)) 2 <= 1 / 1000000) by (unfold speed, slower, behind, set_coast_range; cbn; unR; lra).
  split; [exact S|]. eexists. split; [apply C90_follow; [reflexivity|left; exact S]|].
  unfold slower, behind, delayed_speed, set_coast_range, hz, z. cbn. reflexivity.
Qed.
Example C90_run : match sim_drive_walk (F := float) uphill 0.5%float None with
  | Ok d => (forallb (coast_at d) (seq 5 16) && negb (coast_at d 4) && PrimFloat.ltb (mps_ach_at d 12) (mps_ach_at d 11)
             && PrimFloat.eqb (nth 12 (mps (d_cyc d)) 0%float) (mps_ach_at d 12) && PrimFloat.eqb (nth 21 (mps (d_cyc d)) 1%float) 0)%bool
  | Err _ => false end = true.
Proof. vm_compute. reflexivity. Qed.

(** ** C91 *)
(** The tolerances 1 m, 10 m, 15 m, ... 60 m are tried; the first at which the lead vehicle is not passed, or at which
    there is a plan, decides.  ([2 <= i]: at step 1 the code divides by the duration 0 of step 0.) *)
Theorem C91_outcome : forall (d d' : sdrive R) i b, wf_sd d -> (2 <= i < clen (d_cyc d))%nat -> length (d_rows d) = clen (d_cyc d) ->
  prevent_collisions d i None = Ok (d', b) ->
  exists m, (m <= 11)%nat /\
    (forall j, (j < m)%nat -> exists e, passes d i (tolerance j) e /\ forall f s n k a, (f < 4)%nat -> ~ avoid_plan d i e f s n k a) /\
    if b then exists e f s n k a, passes d i (tolerance m) e /\ (f < 4)%nat /\ avoid_plan d i e f s n k a /\ best_avoid d i e f s n k /\
      avoided d d' f s n k a
    else d' = d /\ ((forall e, ~ passes d i (tolerance m) e) \/
      (m = 11%nat /\ exists e, passes d i (tolerance m) e /\ forall f s n k a, (f < 4)%nat -> ~ avoid_plan d i e f s n k a)).
Proof.
  intros d d' i b W HI LR H. destruct (prevent_spec 12 d d' i 0 b W ltac:(lia) LR H) as (m & _ & M & G & R). cbn in M.
  exists m. split; [exact M|]. split; [intros j Hj; apply G; lia|]. destruct b; [exact R|]. destruct R as [R1 [R2|[R2 R3]]]; split; auto.
  right. split; [lia|exact R3].
Qed.
(** With steps of one second and no standstill on the way, the vehicle is where the lead vehicle is, at its speed. *)
Theorem C91_meets : forall (d d' : sdrive R) i e f s n k a, wf_sd d -> (1 <= i)%nat -> (e < clen (d_cyc d))%nat ->
  avoid_plan d i e f s n k a -> avoided d d' f s n k a -> unit_steps (d_cyc d) i (e + 1 - i) ->
  coast_brake_accel_m_per_s2 (d_sp d) < 0 -> 0 <= nth (s - 1) (mps (d_cyc d)) 0 ->
  0 <= nth (s - 1) (mps (d_cyc d)) 0 + coast_brake_accel_m_per_s2 (d_sp d) * INR f -> 0 <= nth e (mps (d_cyc0 d)) 0 ->
  (forall p, (s + f <= p < e)%nat -> 0 < nth p (mps (d_cyc d')) 0) ->
  trapezoid (d_cyc d') 0 e = trapezoid (d_cyc0 d) 0 e /\ nth e (mps (d_cyc d')) 0 = nth e (mps (d_cyc0 d)) 0.
Proof. exact avoid_meets. Qed.
Example C91_case : passes (crash (F := R)) 3 1 7 /\ avoid_plan (crash (F := R)) 3 7 0 6 2 (-6) 0.
Proof.
  split.
  - split; [|unfold place, crash, behind, set_coast_range, hz, z; cbn; unR; lra].
    unfold first_overtake, gap_at, crash, behind, set_coast_range, hz, z. cbn -[trapezoid nth]. split; [lia|]. split; [cbn; unR; lra|]. split.
    + intros j Hj. do 8 (destruct j as [|j]; [cbn; unR; lra||lia|]). lia.
    + intros j Hj. do 8 (destruct j as [|j]; [cbn; unR; lra||lia|]). lia.
  - assert (BR : braked (crash (F := R)) 6 0 = 8).
    { unfold braked, crash, behind, set_coast_range, hz, z. cbn. unfold lit. unR. rewrite Rmax_left; lra. }
    constructor; unfold brake_way; rewrite ?BR; unfold place, crash, behind, set_coast_range, hz, duration, z, speed_for_constant_jerk, dist_for_constant_jerk;
      cbn -[INR speed_for_constant_jerk dist_for_constant_jerk]; unfold lit; unR.
    + lia.
    + split; reflexivity.
    + lra.
    + lra.
    + lra.
    + intros m Hm. destruct m as [|[|m]]; [| |lia]; cbn; unR; lra.
Qed.
Example C91_run : match prevent_collisions (F := float) crash 3 None with
  | Ok (d, b) => (b, mps (d_cyc d), map (coast_at d) (seq 0 13)) | Err _ => (false, [], []) end
  = (true, [0; 8; 8; 8; 8; 8; 8; 2; 8; 8; 8; 8; 8]%float, [false; false; false; true; true; true; true; true; false; false; false; false; false]).
Proof. vm_compute. reflexivity. Qed.

(** ** C13, C14 *)
(** The constant-jerk plan is the only one that meets the place and the speed. *)
Theorem C13_only_plan : forall (n : Z) (D0 v0 Dr vr dt k a k' a' : R), calc_constant_jerk_trajectory n D0 v0 Dr vr dt = Ok (k, a) ->
  speed_for_constant_jerk n v0 a' k' dt = vr -> dist_for_constant_jerk n D0 v0 a' k' dt = Dr -> k' = k /\ a' = a.
Proof.
  intros n D0 v0 Dr vr dt k a k' a' H S D. destruct (jerk_ok _ _ _ _ _ _ _ _ H) as (J1 & _ & J3 & J4 & J5 & J6).
  apply (jerk_unique n D0 v0 dt); auto; congruence.
Qed.
(** With steps of one second the edited speeds cover the distance planned. *)
Theorem C14_jerk_distance : forall (c c' : cyc R) idx n k a0 v v0,
  modify_by_const_jerk_trajectory c idx (Z.of_nat n) k a0 = Ok (c', v) ->
  length (mps c) = length (time_s c) -> (1 <= idx)%nat -> (1 <= n)%nat -> (idx + n <= length (mps c))%nat ->
  nth_error (mps c) (idx - 1) = Some v0 -> unit_steps c idx n ->
  (forall p, (idx <= p < idx + n - 1)%nat -> 0 < nth p (mps c') 0) -> 0 <= speed_for_constant_jerk (Z.of_nat n) v0 a0 k 1 ->
  trapezoid c' (idx - 1) n = dist_for_constant_jerk (Z.of_nat n) 0 v0 a0 k 1 /\
  nth (idx + n - 1) (mps c') 0 = speed_for_constant_jerk (Z.of_nat n) v0 a0 k 1.
Proof. exact jerk_edit_distance. Qed.
Theorem C14_braking_distance : forall (c c' : cyc R) brake i dts v n v0,
  modify_with_braking_trajectory c brake i dts = Ok (c', v, n) ->
  length (mps c) = length (time_s c) -> (1 <= i)%nat -> (i < length (time_s c))%nat ->
  nth_error (mps c) (i - 1) = Some v0 -> (n <> 0)%Z -> (i + Z.to_nat n <= length (mps c))%nat -> unit_steps c i (Z.to_nat n) ->
  (forall p, (i <= p < i + Z.to_nat n - 1)%nat -> 0 < nth p (mps c') 0) ->
  trapezoid c' (i - 1) (Z.to_nat n) = brake_request brake v0 dts.
Proof. exact braking_distance. Qed.
Theorem C14_braking_none : forall (c c' : cyc R) brake i dts v n v0,
  modify_with_braking_trajectory c brake i dts = Ok (c', v, n) ->
  length (mps c) = length (time_s c) -> (1 <= i)%nat -> (i < length (time_s c))%nat -> nth_error (mps c) (i - 1) = Some v0 ->
  (brake_request brake v0 dts <= 0 /\ n = 0%Z /\ c' = c) \/ (0 < brake_request brake v0 dts /\ (2 <= n)%Z).
Proof.
  intros c c' brake i dts v n v0 H L HI HL V0. destruct (braking_plan c c' brake i dts v n v0 H L HI HL V0) as [Q|(Q1 & Q2 & _)]; auto.
Qed.
Example C14_distance_run :
  match modify_with_braking_trajectory (hz (F := float) 0%float [0; 10; 10; 10; 10; 10; 10; 10]%Z) (-2.5)%float 2 None with
  | Ok (c, _, n) => (n, PrimFloat.ltb (PrimFloat.abs (nsum (firstn (Z.to_nat n + 2) (trapz_step_distances c)) - 25)) 0.000001) | Err _ => (0%Z, false) end = (4%Z, true).
Proof. vm_compute. reflexivity. Qed.
