(** Model of the parts of the Rust implementation that change the driven cycle during a run:
    rust/fastsim-core/src/simdrive/cyc_mods.rs ("mods.rs"), and of the step and walk around it,
    simdrive_impl.rs ("impl.rs").  Definitions only.

    The object is the record [sdrive] of SimState.v.  A panic or an error returned is [Err].  Arithmetic on usize
    that falls below zero is a panic, as in a debug build (a release build wraps around).  Reads of arrays at the
    index of the step are total ([nth]), as the step is one of the cycle's; the other indices are checked. *)
From Verif Require Import Num Numpy CycleModel VehModel SimModel SimState WalkModel RustModel RustWalkModel RustPostModel RustCycModel.

Section RustMods.
  Context {F : Type} {N : Num F}.
  Local Open Scope num_scope.

  (** gap_to_lead_vehicle_m, mods.rs:15-23. *)
  Definition r_gap_to_lead_vehicle_m (d : sdrive F) : list F :=
    let g := zipw nsub (cumsum (r_trapz_step_distances (d_cyc0 d))) (cumsum (r_trapz_step_distances (d_cyc d))) in
    if idm_allow (d_sp d) then map (fun x => x + idm_minimum_gap_m (d_sp d)) g else g.

  (** activate_eco_cruise_rust, mods.rs:35-82.  (The name of the cycle is not part of the record.)  What is set before
      an error is returned stays set; only the error is reported here. *)
  Definition r_activate_eco_cruise (d : sdrive F) (by_microtrip : bool) (extend blend min_speed : F) : Res (sdrive F) :=
    let s := d_sp d in
    let c := d_cyc0 d in
    do s' <- (if by_microtrip then
                if ((n0 <=? blend) && (blend <=? n1))%bool then
                  if min_speed >=? n0 then
                    Ok (sp_idm s (idm_v_desired_m_per_s s) (Some (r_create_dist_and_target_speeds_by_microtrip c blend min_speed)))
                  else Err PlainException
                else Err PlainException
              else
                Ok (sp_idm s (match time_s c with
                              | [] => n0
                              | _ => if last (time_s c) n0 >? n0 then nsum (r_dist_m c) / last (time_s c) n0 else n0
                              end) (idm_v_desired_by_distance s)));
    let d1 := with_sp d s' in
    if extend >=? n0 then
      if extend >? n0 then
        do r <- r_extend_cycle (mkCycle c "") n0 extend;
        Ok (with_cyc (with_cyc0 d1 (cdata r)) (cdata r))
      else Ok d1
    else Err PlainException.

  (** ** Car following *)
  (** next_speed_by_idm, mods.rs:97-140. *)
  Definition r_next_speed_by_idm (d : sdrive F) (i : nat) (a b headway s0 vdes delta : F) : Res F :=
    if vdes <=? n0 then Ok n0
    else
      let a' := nabs a in
      let b' := nabs b in
      let h := nmax headway n0 in
      let s0' := nmax n0 s0 in
      let sqrt_ab := npow (a' * b') (lit 1 2) in
      do j <- r_pred i;
      let v0 := mps_ach_at d j in
      do vlead <- r_get (mps (d_cyc0 d)) j;
      do dlead <- r_get (cc_distances (d_cache d)) j;
      do d0 <- r_trapz_step_start_distance (d_cyc d) i;
      let s := nmax (dlead + s0' - d0) (lit 1 100) in
      let starget := s0' + nmax n0 (v0 * h + (v0 * (v0 - vlead)) / (n2 * sqrt_ab)) in
      let acc := a' * (n1 - npow (v0 / vdes) delta - nsq (starget / s)) in
      do dt <- r_dt_at (d_cyc d) i;
      Ok (nmax (v0 + acc * dt) n0).
  (** set_speed_for_target_gap(_using_idm), mods.rs:157-183; the maximum of an empty array is a panic. *)
  Definition r_set_speed_for_target_gap (d : sdrive F) (i : nat) : Res (sdrive F) :=
    let s := d_sp d in
    let tgt := idm_target_speed_m_per_s (ctl (row_at d i)) in
    do vdes <- (if tgt >? n0 then Ok tgt
                else match mps (d_cyc0 d) with [] => Err IndexError | x :: r => Ok (nmaxl x r) end);
    do v <- r_next_speed_by_idm d i (idm_accel_m_per_s2 s) (idm_decel_m_per_s2 s) (idm_dt_headway_s s)
              (idm_minimum_gap_m s) vdes (idm_delta s);
    Ok (set_cyc_mps d i v).
  (** The loop of impl.rs:577-583. *)
  Fixpoint r_find_target (found x : F) (tbl : list (F * F)) : F :=
    match tbl with
    | [] => found
    | (dd, v) :: r => if x >=? dd then r_find_target v x r else found
    end.
  (** impl.rs:571-587 *)
  Definition r_idm_target (d : sdrive F) (i : nat) : Res F :=
    match idm_v_desired_by_distance (d_sp d) with
    | Some tbl =>
        match tbl with
        | [] => Err IndexError
        | (_, v0) :: _ => Ok (r_find_target v0 (nsum (firstn i (r_dist_m (d_cyc d)))) tbl)
        end
    | None => Ok (idm_v_desired_m_per_s (d_sp d))
    end.

  (** ** Grade of a step *)
  (** estimate_grade_for_step, mods.rs:191-200. *)
  Definition r_estimate_grade (d : sdrive F) (i : nat) : F :=
    if grade_all_zero (d_cache d) then n0
    else if (negb (coast_allow (d_sp d)) && negb (idm_allow (d_sp d)))%bool then nth i (grade (d_cyc d)) n0
    else okd (do x <- r_trapz_step_start_distance (d_cyc d) i; r_interp_grade (d_cache d) x).
  (** lookup_grade_for_step, mods.rs:212-232. *)
  Definition r_lookup_grade (d : sdrive F) (i : nat) (v : option F) : F :=
    if grade_all_zero (d_cache d) then n0
    else if (negb (coast_allow (d_sp d)) && negb (idm_allow (d_sp d)))%bool then nth i (grade (d_cyc d)) n0
    else okd (do x <- r_trapz_step_start_distance (d_cyc d) i;
              do dd <- match v with
                       | Some m => do dt <- r_dt_at (d_cyc d) i; Ok (lit 1 2 * (m + mps_ach_at d (i - 1)) * dt)
                       | None => r_trapz_distance_for_step (d_cyc d) i
                       end;
              r_average_grade_over_range (d_cyc0 d) x dd (Some (d_cache d))).
  (** What solve_step reads from the cycles; dt_s_at_i, cycle.rs:1117-1119; impl.rs:624-636. *)
  Definition r_full_env (d : sdrive F) (i : nat) : step_env F :=
    mkenv (nth i (time_s (d_cyc d)) n0 - nth (i - 1) (time_s (d_cyc d)) n0) (nth i (mps (d_cyc d)) n0)
          (fun v => r_lookup_grade d i (Some v)) (r_estimate_grade d i)
          (forallb (fun r => aux_in_kw (misc r) =? n0) (skipn i (d_rows d))).
  (** solve_step, impl.rs:608-618. *)
  Definition r_solve_step (d : sdrive F) (i : nat) : Res (sdrive F) :=
    do r <- r_solve_row (d_veh d) (d_props d) (d_sp d) (r_full_env d i) (row_at d (i - 1)) (row_at d i);
    Ok (with_rows d (set_nth (d_rows d) i r)).

  (** ** set_time_dilation, mods.rs:233-312 *)
  (** Distances travelled up to and including step [i]: of a cycle, and achieved. *)
  Definition r_cyc_dist (c : cyc F) (i : nat) : F := nsum (firstn (S i) (r_dist_m c)).
  (** mods.rs:236 *)
  Definition r_ach_dist (d : sdrive F) (i : nat) : F := nsum (firstn (S i) (map (fun r => dist_m_ach (spd r)) (d_rows d))).
  (** add_from, utils.rs:43-53, on the times; mods.rs:261-265 and 294-298. *)
  Definition r_dilate (d : sdrive F) (i : nat) (t : F) : sdrive F :=
    let c := d_cyc d in
    let s := (nth i (time_s c) n0 - nth (i - 1) (time_s c) n0) * t in
    with_cyc d (mkcyc (firstn i (time_s c) ++ map (fun x => x + s) (skipn i (time_s c))) (mps c) (grade c) (road_type c)).
  (** mods.rs:245 and 302 *)
  Definition r_bump (d : sdrive F) (i : nat) : sdrive F :=
    upd_row d i (row_ctl (fun c => ctl_iters (trace_miss_iters c + 1) c)).
  (** mods.rs:247-250 *)
  Definition r_short (d : sdrive F) (i : nat) : F := r_cyc_dist (d_cyc0 d) i - r_ach_dist d i.
  (** mods.rs:270-271 and 306-307 *)
  Definition r_close (d : sdrive F) (i : nat) : bool :=
    nabs (r_short d i) / r_cyc_dist (d_cyc0 d) i <? time_dilation_tol (d_sp d).
  (** mods.rs:235-240: the first test takes the distance of the driven cycle. *)
  Definition r_met_first (d : sdrive F) (i : nat) : bool :=
    ((nabs (r_cyc_dist (d_cyc d) i - r_ach_dist d i) / r_cyc_dist (d_cyc0 d) i <? time_dilation_tol (d_sp d))
     || (nth i (mps (d_cyc d)) n0 =? n0))%bool.
  (** min(max(x, min_time_dilation), max_time_dilation), mods.rs:251-257 and 285-293 *)
  Definition r_clamp (s : simparams F) (x : F) : F := nmin (nmax x (min_time_dilation s)) (max_time_dilation s).
  (** mods.rs:272-275 and 310-313 *)
  Definition r_edge (d : sdrive F) (t : F) : bool :=
    ((t >=? max_time_dilation (d_sp d)) || (t <=? min_time_dilation (d_sp d)))%bool.
  (** The while loop, mods.rs:277-315; [fuel] bounds its rounds. *)
  Fixpoint r_dilation_loop (fuel : nat) (d : sdrive F) (i : nat) (t2 t1 s1 : F) : Res (sdrive F) :=
    match fuel with
    | O => Err OutOfFuel
    | S k =>
        let s := r_short d i in
        let t := r_clamp (d_sp d) (t1 - (t1 - t2) / (s - s1) * s) in
        do d0 <- r_solve_step (r_dilate d i t) i;
        let d1 := r_bump d0 i in
        if (r_close d1 i
            || Nat.leb (max_trace_miss_iters (d_sp d)) (trace_miss_iters (ctl (row_at d1 i)))
            || r_edge d1 t)%bool
        then Ok d1
        else r_dilation_loop k d1 i t1 t s
    end.
  (** mods.rs:233-316 *)
  Definition r_set_time_dilation (d : sdrive F) (i : nat) : Res (sdrive F) :=
    if r_met_first d i then Ok d
    else
      let s := r_short d i in
      do dt0 <- r_dt_at (d_cyc0 d) i;
      let t := r_clamp (d_sp d) (s / dt0 / mps_ach_at d i) in
      do d1 <- r_solve_step (r_dilate (r_bump d i) i t) i;
      if (r_close d1 i || r_edge d1 t)%bool then Ok d1
      else r_dilation_loop (S (max_trace_miss_iters (d_sp d))) d1 i n0 t s.

  (** ** Eco-coasting *)
  (** calc_dvdd, mods.rs:319-338. *)
  Definition r_calc_dvdd (d : sdrive F) (v g : F) : F :=
    if v <=? n0 then n0
    else
      let '(sn, cs) := if g =? n0 then (n0, n1) else (nsin (natan g), ncos (natan g)) in
      let rho := air_density_kg_per_m3 (d_props d) * drag_coef (d_veh d) * frontal_area_m2 (d_veh d) in
      (- n1) * ((a_grav_mps2 (d_props d) / v) * (sn + wheel_rr_coef (d_veh d) * cs)
                + lit 1 2 * rho * (n1 / veh_kg (d_veh d)) * v).
  (** The grade if ndarrunique, utils.rs:109-123, leaves one: it sorts the values into buckets, the smallest and
      the largest into different ones, and panics on an empty array. *)
  Definition r_unique_grade (gs : list F) : Res (option F) :=
    match gs with
    | [] => Err IndexError
    | g :: r => Ok (if nminl g r =? nmaxl g r then Some g else None)
    end.
  (** CoastTrajectory, simdrive.rs; None of [generate] is found_trajectory = false. *)
  Record r_traj := mkrtraj { rt_dist : F; rt_start : nat; rt_speeds : option (list F); rt_brake : option F }.
  (** mods.rs:442-455: [n] rounds; the last k and the speed. *)
  Fixpoint r_coast_inner (d : sdrive F) (ug : option F) (n : nat) (v vavg gr dt x k vnext : F) : Res (F * F) :=
    match n with
    | O => Ok (k, vnext)
    | S m =>
        let k' := r_calc_dvdd d vavg gr in
        let vn := v * (n1 + lit 1 2 * k' * dt) / (n1 - lit 1 2 * k' * dt) in
        let va := lit 1 2 * (v + vn) in
        do gr' <- (if favor_grade_accuracy (d_sp d) then
                     match ug with
                     | Some g => Ok g
                     | None => r_average_grade_over_range (d_cyc0 d) x (va * dt) (Some (d_cache d))
                     end
                   else Ok gr);
        r_coast_inner d ug m v va gr' dt x k' vn
    end.
  (** The while loop, mods.rs:432-481: the speed and distance reached, the speeds, iter and idx; None is the return
      of 457-465.  [fuel] is max_iter - iter. *)
  Fixpoint r_coast_loop (fuel : nat) (d : sdrive F) (ug : option F) (d0 dmax dts0 vb ab v x : F)
           (speeds : list F) (iter idx : nat) : Res (option (F * F * list F * nat * nat)) :=
    match fuel with
    | O => Ok (Some (v, x, speeds, iter, idx))
    | S f =>
        if ((v >? vb) && (v >=? n0) && (x <=? dmax) && Nat.ltb idx (length (d_rows d)))%bool then
          do dt <- r_dt_at (d_cyc0 d) idx;
          do gr <- match ug with Some g => Ok g | None => r_interp_grade (d_cache d) (x + d0) end;
          let k := r_calc_dvdd d v gr in
          let vn := v * (n1 + lit 1 2 * k * dt) / (n1 - lit 1 2 * k * dt) in
          do kv <- r_coast_inner d ug (if favor_grade_accuracy (d_sp d) then 2 else 1) v (lit 1 2 * (v + vn))
                     gr dt (x + d0) k vn;
          if ((fst kv >=? n0) && match ug with Some _ => true | None => false end)%bool then Ok None
          else if snd kv <=? vb then Ok (Some (v, x, speeds, iter, idx))
          else
            let vn := snd kv in
            let x' := x + lit 1 2 * (v + vn) * dt in
            let dtb := (- lit 1 2) * vn * vn / ab in
            if x' + dtb >? dts0 then Ok (Some (vn, x', speeds ++ [vn], iter, idx))
            else r_coast_loop f d ug d0 dmax dts0 vb ab vn x' (speeds ++ [vn]) (S iter) (S idx)
        else Ok (Some (v, x, speeds, iter, idx))
    end.
  (** generate_coast_trajectory, mods.rs:372-504. *)
  Definition r_generate_coast_trajectory (d : sdrive F) (i : nat) : Res (option r_traj) :=
    do j <- r_pred i;
    let v0 := mps_ach_at d j in
    let vb := coast_brake_start_speed_m_per_s (d_sp d) in
    let ab := coast_brake_accel_m_per_s2 (d_sp d) in
    do _ <- (if ab <=? n0 then Ok tt else Err PlainException);
    do d0 <- r_trapz_step_start_distance (d_cyc d) i;
    let ahead := filter (fun p => fst p >=? d0) (combine (cc_distances (d_cache d)) (grade (d_cyc0 d))) in
    match ahead with
    | [] => Ok None
    | _ =>
        if v0 <=? vb then Ok (Some (mkrtraj ((- lit 1 2) * v0 * v0 / ab) i None None))
        else
          let dmax := last (map (fun p => fst p - d0) ahead) n0 - (- lit 1 2) * vb * vb / ab in
          do ug <- r_unique_grade (map snd ahead);
          do dts0 <- r_calc_distance_to_next_stop_from (d_cyc0 d) d0 (Some (d_cache d));
          do r <- r_coast_loop 180 d ug d0 dmax dts0 vb ab v0 n0 [] 0 i;
          match r with
          | None => Ok None
          | Some (v, x, speeds, iter, idx) =>
              if (Nat.ltb iter 180 && Nat.ltb idx (length (d_rows d)))%bool then
                let dtb := (- lit 1 2) * v * v / ab in
                let tgt := nmin (nmax (dts0 - x) (lit 1 2 * dtb)) (n2 * dtb) in
                Ok (Some (mkrtraj (x + tgt) i (Some speeds) (Some tgt)))
              else Ok None
          end
    end.
  (** The loop of mods.rs:344-350: entries beyond the end are dropped. *)
  Definition r_write_speeds (l : list F) (i : nat) (vs : list F) : list F :=
    firstn i l ++ firstn (length l - i) vs ++ skipn (i + length vs) l.
  (** Assignment of [idx < a] to impose_coast[idx] for idx from [i] on, mods.rs:360-363 and elsewhere. *)
  Definition r_coast_until (d : sdrive F) (i a : nat) : sdrive F :=
    upd_ctl_rows d (fun j c => if Nat.ltb j i then c else ctl_coast (Nat.ltb j a) c).
  (** apply_coast_trajectory, mods.rs:340-367. *)
  Definition r_apply_coast_trajectory (d : sdrive F) (t : r_traj) : Res (sdrive F) :=
    let i := rt_start t in
    let vs := match rt_speeds t with Some vs => vs | None => [] end in
    let c := with_mps (d_cyc d) (r_write_speeds (mps (d_cyc d)) i vs) in
    do r <- r_modify_with_braking_trajectory c (coast_brake_accel_m_per_s2 (d_sp d)) (i + length vs) (rt_brake t);
    Ok (r_coast_until (with_cyc d (fst (fst r))) i (i + (length vs + snd r))).
  (** calc_distance_to_stop_coast_v2, mods.rs:515-575. *)
  Definition r_calc_distance_to_stop_coast_v2 (d : sdrive F) (i : nat) : Res F :=
    do j <- r_pred i;
    do v0 <- r_get (mps (d_cyc d)) j;
    let vb := coast_brake_start_speed_m_per_s (d_sp d) in
    let ab := coast_brake_accel_m_per_s2 (d_sp d) in
    let ds := cc_distances (d_cache d) in
    if negb (Nat.eqb (length ds) (length (grade (d_cyc0 d)))) then Err PlainException
    else
      do d0 <- r_trapz_step_start_distance (d_cyc d) i;
      let gs := map snd (filter (fun p => fst p >=? d0) (combine ds (grade (d_cyc0 d)))) in
      let dtb := (- lit 1 2) * vb * vb / ab in
      if v0 <=? vb then Ok ((- lit 1 2) * v0 * v0 / ab)
      else
        do ug <- r_unique_grade gs;
        let closed :=
          match ug with
          | None => - n1
          | Some g =>
              let th := natan g in
              let c1 := a_grav_mps2 (d_props d) * (nsin th + wheel_rr_coef (d_veh d) * ncos th) in
              let c2 := (air_density_kg_per_m3 (d_props d) * (drag_coef (d_veh d) * frontal_area_m2 (d_veh d)))
                        / (n2 * veh_kg (d_veh d)) in
              let a1 := c1 + c2 * (v0 * v0) in
              let b1 := c1 + c2 * (vb * vb) in
              if c2 =? n0 then
                if c1 >? n0 then (n1 / (n2 * c1)) * (v0 * v0 - vb * vb) else - n1
              else if ((a1 >? n0) && (b1 >? n0))%bool then (n1 / (n2 * c2)) * (nln a1 - nln b1)
              else - n1
          end in
        if negb (closed =? - n1) then Ok (closed + dtb)
        else
          do t <- r_generate_coast_trajectory d i;
          Ok (match t with Some q => rt_dist q | None => - n1 end).
  (** should_impose_coast, mods.rs:584-607. *)
  Definition r_should_impose_coast (d : sdrive F) (i : nat) : Res bool :=
    let s := d_sp d in
    if coast_start_speed_m_per_s s >? n0 then
      do v <- r_get (mps (d_cyc d)) i; Ok (v >=? coast_start_speed_m_per_s s)
    else
      do j <- r_pred i;
      let v0 := mps_ach_at d j in
      if v0 <? coast_brake_start_speed_m_per_s s then Ok false
      else
        do dtsc0 <- r_calc_distance_to_stop_coast_v2 d i;
        if dtsc0 <? n0 then Ok false
        else
          do d0 <- r_trapz_step_start_distance (d_cyc d) i;
          do dts0 <- r_calc_distance_to_next_stop_from (d_cyc0 d) d0 (Some (d_cache d));
          let dtb := (- lit 1 2) * v0 * v0 / coast_brake_accel_m_per_s2 s in
          Ok ((dtsc0 >=? dts0) && (dts0 >=? nofZ 4 * dtb))%bool.

  (** The while loop of calc_next_rendezvous_trajectory, mods.rs:678-741; [best] is (n, jerk, accel, spread). *)
  Fixpoint r_rdv_loop (fuel : nat) (d : sdrive F) (i idx : nat) (plan horizon v0 vb dt dtbi0 amn amx : F)
           (best : option (nat * F * F * F)) : Res (option (nat * F * F * F)) :=
    match fuel with
    | O => Ok best
    | S f =>
        if plan <=? horizon then
          do dti <- r_dt_at (d_cyc0 d) idx;
          let plan' := plan + dti in
          let ahead := (idx - (i - 1))%nat in
          if Nat.eqb ahead 1 then
            let accel := (vb - v0) / dt in
            let v1 := nmax n0 (v0 + accel * dt) in
            let dd := ((v0 + v1) / n2) * dt in
            if ((nabs (v1 - vb) <? lit 1 1000000) && (nabs (dtbi0 - dd) <? lit 1 1000000))%bool
            then Ok (Some (1%nat, n0, accel, n0))
            else r_rdv_loop f d i (S idx) plan' horizon v0 vb dt dtbi0 amn amx best
          else
            do best' <-
              (if dtbi0 >? n0 then
                 do ka <- r_calc_constant_jerk_trajectory ahead n0 v0 dtbi0 vb dt;
                 let '(k, a) := ka in
                 if ((a <? amx) && (a >? amn) && (k >=? n0))%bool then
                   let acs := map (fun n => r_accel_for_constant_jerk n a k dt) (seq 0 ahead) in
                   let lo := match acs with [] => n0 | x :: r => nminl x r end in
                   let hi := match acs with [] => n0 | x :: r => nmaxl x r end in
                   let spread := nabs (hi - lo) in
                   Ok (if ((hi <? amx + lit 1 1000000) && (lo >? amn - lit 1 1000000)
                           && match best with None => true | Some (_, _, _, sp) => spread <? sp end)%bool
                       then Some (ahead, k, a, spread) else best)
                 else Ok best
               else Ok best);
            r_rdv_loop f d i (S idx) plan' horizon v0 vb dt dtbi0 amn amx best'
        else Ok best
    end.
  (** calc_next_rendezvous_trajectory, mods.rs:621-750; None is "not found", otherwise n, jerk and acceleration. *)
  Definition r_calc_next_rendezvous_trajectory (d : sdrive F) (i : nat) (mn mx : F) : Res (option (nat * F * F)) :=
    do j <- r_pred i;
    do v0 <- r_get (mps (d_cyc d)) j;
    let vb := coast_brake_start_speed_m_per_s (d_sp d) in
    let ab := coast_brake_accel_m_per_s2 (d_sp d) in
    let horizon := nmax (coast_time_horizon_for_adjustment_s (d_sp d)) n1 in
    if v0 <? vb + lit 1 1000000 then Ok None
    else
      let '(amn, amx) := if mn >? mx then (mx, mn) else (mn, mx) in
      do d0 <- r_trapz_step_start_distance (d_cyc d) i;
      do dts0 <- r_calc_distance_to_next_stop_from (d_cyc0 d) d0 (Some (d_cache d));
      if dts0 <? n0 then Ok None
      else
        do dt <- r_dt_at (d_cyc d) i;
        let dtbi0 := dts0 - (- lit 1 2) * vb * vb / ab in
        if dtbi0 <? n0 then Ok None
        else
          do b <- r_rdv_loop (length (mps (d_cyc d)) - i) d i i n0 horizon v0 vb dt dtbi0 amn amx None;
          Ok (match b with Some (n, k, a, _) => Some (n, k, a) | None => None end).

  (** The search of set_coast_delay, mods.rs:768-793. *)
  Fixpoint r_delay_scan (i idx : nat) (dlv d0 d0lv : F) (steps speeds : list F) (mind : option F)
           (delay : option Z) : option Z :=
    match steps, speeds with
    | dd :: steps', v :: speeds' =>
        let dlv' := dlv + dd in
        let dt := nabs (dlv' - d0) in
        let hit := ((v <? lit 1 100) && match mind with None => true | Some m => dt <=? m end)%bool in
        let delay' :=
          if (hit && match mind with
                     | None => true
                     | Some m => (dt <? m) || ((d0 <? d0lv) && (m =? dt))
                     end)%bool
          then Some (Z.of_nat i - Z.of_nat idx)%Z else delay in
        let mind' := if hit then Some dt else mind in
        if match mind' with Some m => dt >? m | None => false end then delay'
        else r_delay_scan i (S idx) dlv' d0 d0lv steps' speeds' mind' delay'
    | _, _ => delay
    end.
  (** set_coast_delay, mods.rs:752-806: a negative delay counts up to -1, and stops there. *)
  Definition r_set_coast_delay (d : sdrive F) (i : nat) : Res (sdrive F) :=
    do delay <-
      (if (negb (idm_allow (d_sp d)) && (nth i (mps (d_cyc d)) n0 <? lit 1 100))%bool then
         do d0 <- r_trapz_step_start_distance (d_cyc d) i;
         do j <- r_pred i;
         do d0lv <- r_get (cc_distances (d_cache d)) j;
         Ok (if nabs (d0lv - d0) >? lit 1 10 then
               r_delay_scan i 0 n0 d0 d0lv (r_trapz_step_distances (d_cyc0 d)) (mps (d_cyc0 d)) None None
             else None)
       else Ok None);
    Ok (upd_ctl_rows d (fun j c =>
          if Nat.ltb j i then c
          else ctl_delay (match delay with
                          | None => 0
                          | Some z => if Z.ltb z 0
                                      then (if Z.ltb (z + (Z.of_nat j - Z.of_nat i)) 0 then z + (Z.of_nat j - Z.of_nat i) else 0)
                                      else z
                          end)%Z c)).

  (** One candidate of prevent_collisions, mods.rs:853-915: None means the loop goes on without it. *)
  Definition r_collision_candidate (d : sdrive F) (p : @PassingInfo F) (fbs idx n : nat) : Res (option (F * F * F)) :=
    let c := d_cyc d in
    let ab := coast_brake_accel_m_per_s2 (d_sp d) in
    let dt := time_step_duration p in
    do vs <- r_get (mps c) (idx - 1);
    do t1 <- r_get (time_s c) (idx - 1 + fbs);
    do t0 <- r_get (time_s c) (idx - 1);
    let dtf := t1 - t0 in
    let vj := nmax (vs + dtf * ab) n0 in
    let ddf := lit 1 2 * (vs + vj) * dtf in
    do sd <- r_trapz_step_start_distance c idx;
    let ds := sd + ddf in
    if distance_m p <=? ds then Ok None
    else
      do ka <- r_calc_constant_jerk_trajectory n ds vj (distance_m p) (pi_speed p) dt;
      let '(k, a0) := ka in
      let nis := seq 0 (Nat.min n (length (time_s c) - (idx + fbs))) in
      let acs := map (fun ni => r_accel_for_constant_jerk ni a0 k dt) nis in
      let trs := map (fun ni => (nth (ni + idx + fbs) (mps c) n0 - nth (ni + idx - 1 + fbs) (mps c) n0)
                                / nth (ni + idx + fbs) (r_dt_s c) n0) nis in
      match acs with
      | [] => Err PlainException
      | a :: r =>
          Ok (if forallb (fun b => b) (zipw (fun t a => t >=? a) trs acs)
              then Some (k, a0, nabs (nmaxl a r - nminl a r)) else None)
      end.
  (** The loop over di, mods.rs:839-925; [fuel] entries remain.  n is computed in usize. *)
  Fixpoint r_collision_scan (fuel : nat) (d : sdrive F) (p : @PassingInfo F) (fbs i idx : nat)
           (best : option (@pcand F)) : Res (option (@pcand F)) :=
    match fuel with
    | O => Ok best
    | S f =>
        if negb (coast_at d idx) then
          if Nat.eqb idx i then Ok best else r_collision_scan f d p fbs i (S idx) best
        else if Nat.ltb (pi_idx p) idx then Err PlainException
        else if Nat.ltb (pi_idx p - idx + 1) fbs then Err PlainException
        else
          let n := (pi_idx p - idx + 1 - fbs)%nat in
          if Nat.ltb n 2 then Ok best
          else if Nat.leb (length (time_s (d_cyc d))) (idx - 1 + fbs) then Ok best
          else
            do r <- r_collision_candidate d p fbs idx n;
            let best' := match r with
                         | None => best
                         | Some (k, a0, spread) =>
                             if match best with None => true | Some b => spread <? pc_spread b end
                             then Some (mkpcand idx n fbs k a0 spread) else best
                         end in
            r_collision_scan f d p fbs i (S idx) best'
    end.
  (** The loop over full_brake_steps, mods.rs:838-929. *)
  Fixpoint r_collision_search (fbss : list nat) (d : sdrive F) (p : @PassingInfo F) (i : nat) : Res (option (@pcand F)) :=
    match fbss with
    | [] => Ok None
    | fbs :: r =>
        do b <- r_collision_scan (length (d_rows d) - i) d p fbs i i None;
        match b with Some q => Ok (Some q) | None => r_collision_search r d p i end
    end.
  (** mods.rs:941-951 *)
  Fixpoint r_full_brake (d : sdrive F) (idx : nat) (ks : list nat) : sdrive F :=
    match ks with
    | [] => d
    | k :: r =>
        let c := d_cyc d in
        if Nat.leb (length (time_s c)) (idx + k) then d
        else
          let dt := nth (idx + k) (time_s c) n0 - nth (idx - 1) (time_s c) n0 in
          let v := nmax (nth (idx - 1) (mps c) n0 + coast_brake_accel_m_per_s2 (d_sp d) * dt) n0 in
          r_full_brake (upd_row (set_cyc_mps d (idx + k) v) (idx + k)
                          (row_ctl (fun c => ctl_delay 0 (ctl_coast true c)))) idx r
    end.
  (** mods.rs:941-962 *)
  Definition r_apply_collision (d : sdrive F) (q : @pcand F) : Res (sdrive F) :=
    let d1 := r_full_brake d (pc_idx q) (seq 0 (pc_fbs q)) in
    do r <- r_modify_by_const_jerk_trajectory (d_cyc d1) (pc_idx q + pc_fbs q) (pc_n q) (pc_jerk q) (pc_accel0 q);
    Ok (upd_ctl_rows (with_cyc d1 (fst r))
          (fun j c => if Nat.ltb j (pc_idx q + pc_n q) then c else ctl_delay 0 (ctl_coast false c))).
  (** prevent_collisions, mods.rs:814-964; the first argument bounds the recursion. *)
  Fixpoint r_prevent_collisions (fuel : nat) (d : sdrive F) (i : nat) (tol : F) : Res (sdrive F * bool) :=
    match fuel with
    | O => Err OutOfFuel
    | S f =>
        do p <- r_detect_passing (d_cyc d) (d_cyc0 d) i tol;
        if negb (has_collision p) then Ok (d, false)
        else if negb (coast_brake_accel_m_per_s2 (d_sp d) <? n0) then Err PlainException
        else
          do best <- r_collision_search [0; 1; 2; 3]%nat d p i;
          match best with
          | None =>
              let tol' := if tol <? nofZ 10 then nofZ 10 else tol + nofZ 5 in
              if tol' >? nofZ 60 then Ok (d, false) else r_prevent_collisions f d i tol'
          | Some q => do d' <- r_apply_collision d q; Ok (d', true)
          end
    end.

  (** mods.rs:971-986: start of a coast.  Unlike in Python, nothing happens when no trajectory is found. *)
  Definition r_start_coast (d : sdrive F) (i : nat) : Res (sdrive F) :=
    if ((mps_ach_at d (i - 1) >? lit 1 1000000) && negb (coast_at d i))%bool then
      do b <- r_should_impose_coast d i;
      if b then
        do t <- r_generate_coast_trajectory d i;
        match t with
        | None => Ok d
        | Some q =>
            do d1 <- (if rt_dist q <? n0 then Ok (r_coast_until d i 0) else r_apply_coast_trajectory d q);
            if coast_allow_passing (d_sp d) then Ok d1
            else do p <- r_prevent_collisions 12 d1 i n1; Ok (fst p)
        end
      else Ok d
    else Ok d.
  (** solve_step(i); newton_iters[i] = 0; cyc.mps[i] = mps_ach[i], mods.rs:1023-1026 and 1091-1093. *)
  Definition r_solve_and_adopt (d : sdrive F) (i : nat) : Res (sdrive F) :=
    do d0 <- r_solve_step d i;
    let d1 := upd_row d0 i (row_spd (fun s => mkspd 0 (mps_ach s) (mph_ach s) (dist_m_ach s) (dist_mi_ach s))) in
    Ok (set_cyc_mps d1 i (mps_ach_at d1 i)).
  (** mods.rs:1037-1086: the reaction to a speed other than planned; the flag is adjusted_current_speed. *)
  Definition r_adjust_coast (d : sdrive F) (i : nat) (accel : F) : Res (sdrive F * bool) :=
    let s := d_sp d in
    let vb := coast_brake_start_speed_m_per_s s in
    let ab := coast_brake_accel_m_per_s2 s in
    if nth i (mps (d_cyc d)) n0 <? vb - lit 1 10 then
      do r <- r_modify_with_braking_trajectory (d_cyc d) ab i None;
      Ok (r_coast_until (with_cyc d (fst (fst r))) i (i + snd r), true)
    else
      do t <- r_calc_next_rendezvous_trajectory d i ab (nmin accel n0);
      match t with
      | None => Ok (d, false)
      | Some (n, k, a) =>
          do r <- r_modify_by_const_jerk_trajectory (d_cyc d) i n k a;
          let d1 := r_coast_until (with_cyc d (fst r)) i (i + n) in
          let ib := (i + n)%nat in
          if nabs (snd r - vb) <? lit 1 10 then
            do b <- r_modify_with_braking_trajectory (d_cyc d1) ab ib None;
            Ok (r_coast_until (with_cyc d1 (fst (fst b))) ib (ib + snd b), true)
          else Ok (d1, true)
      end.
  (** mods.rs:989-1010: the speed of the lead trace, delayed.  (Indices beyond i32 are not modelled.) *)
  Definition r_delayed_speed (d : sdrive F) (i : nat) : F :=
    let z := (Z.of_nat i - coast_delay_index (ctl (row_at d i)))%Z in
    nth (Nat.min (if Z.ltb z 0 then 0 else Z.to_nat z) (length (mps (d_cyc0 d)) - 1)) (mps (d_cyc0 d)) n0.
  (** set_coast_speed, mods.rs:969-1098. *)
  Definition r_set_coast_speed (d : sdrive F) (i : nat) : Res (sdrive F) :=
    let s := d_sp d in
    let v0 := mps_ach_at d (i - 1) in
    do d1 <- r_start_coast d i;
    if negb (coast_at d1 i) then
      Ok (if idm_allow s then d1 else set_cyc_mps d1 i (r_delayed_speed d1 i))
    else
      let v1 := nth i (mps (d_cyc d1)) n0 in
      let d2 := if v0 >? coast_brake_start_speed_m_per_s s then
                  set_cyc_mps d1 i (if coast_allow_passing s then coast_max_speed_m_per_s s
                                    else nmin v1 (coast_max_speed_m_per_s s))
                else d1 in
      do d3 <- r_solve_and_adopt d2 i;
      let v := nth i (mps (d_cyc d3)) n0 in
      do dt <- r_dt_at (d_cyc d3) i;
      let accel := (v - nth (i - 1) (mps (d_cyc d3)) n0) / dt in
      if v <? lit 1 1000000 then
        do d4 <- r_set_coast_delay (r_coast_until d3 i 0) i;
        Ok (set_cyc_mps d4 i n0)
      else if nabs (v - v1) >? lit 1 1000000 then
        do r <- r_adjust_coast d3 i accel;
        if snd r then
          do d4 <- (if coast_allow_passing s then Ok (fst r)
                    else do p <- r_prevent_collisions 12 (fst r) i n1; Ok (fst p));
          r_solve_and_adopt d4 i
        else Ok (fst r)
      else Ok d3.

  (** ** step, impl.rs:569-605 *)
  Definition r_step (d : sdrive F) : Res (sdrive F) :=
    let i := d_i d in
    let s := d_sp d in
    do d1 <- (if idm_allow s then
                do t <- r_idm_target d i;
                r_set_speed_for_target_gap (upd_row d i (row_ctl (ctl_target t))) i
              else Ok d);
    do d2 <- (if coast_allow s then r_set_coast_speed d1 i else Ok d1);
    do d3 <- r_solve_step d2 i;
    do d4 <- (if (missed_trace_correction s && (nsum (firstn i (r_dist_m (d_cyc0 d3))) >? n0))%bool
              then r_set_time_dilation d3 i else Ok d3);
    let d5 := if (coast_allow s || idm_allow s)%bool then
                let d' := set_cyc_mps d4 i (mps_ach_at d4 i) in
                set_cyc_grade d' i (r_lookup_grade d' i None)
              else d4 in
    Ok (with_i d5 (S i)).
  (** The loop of walk, impl.rs:497-499; [fuel] bounds its rounds. *)
  Fixpoint r_full_loop (fuel : nat) (d : sdrive F) : Res (sdrive F) :=
    if Nat.ltb (d_i d) (length (time_s (d_cyc d))) then
      match fuel with
      | O => Err OutOfFuel
      | S f => do d' <- r_step d; r_full_loop f d'
      end
    else Ok d.
  (** walk, impl.rs:491-516 (the rest is logging), with every option. *)
  Definition r_full_walk (d : sdrive F) (init_soc : F) (ovr : option (list F)) : Res (sdrive F) :=
    do d1 <- r_init_for_step d init_soc ovr;
    r_full_loop (length (time_s (d_cyc d1))) d1.
End RustMods.
