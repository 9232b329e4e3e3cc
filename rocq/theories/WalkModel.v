(** Model of the control flow of python/fastsim/simdrive.py around solve_step: time dilation, car
    following (IDM), eco-coasting, sim_drive_step, sim_drive_walk, sim_drive.  Definitions only.

    Methods that can raise return [Res]; what is raised after a partial update of the object is
    reported as the exception alone.  [print] and logging calls are not modelled. *)
From Verif Require Import Num Numpy CycleModel VehModel SimModel SimState.

Section WalkModel.
  Context {F : Type} {N : Num F}.
  Local Open Scope num_scope.

  (** ** Small pieces *)
  (** simdrive.py:1768-2188 (loops over indices) *)
  Fixpoint mapi_from {A B} (f : nat -> A -> B) (j : nat) (l : list A) : list B :=
    match l with [] => [] | x :: r => f j x :: mapi_from f (S j) r end.
  (** Assignment of a function of the index to entries of a per-step array. simdrive.py:1768-2188. *)
  Definition upd_ctl_rows (d : sdrive F) (f : nat -> ctl_row F -> ctl_row F) : sdrive F :=
    with_rows d (mapi_from (fun j r => row_ctl (f j) r) 0 (d_rows d)).
  (** simdrive.py:1951-2188 *)
  Definition ctl_coast (b : bool) (c : ctl_row F) : ctl_row F :=
    mkctl (cur_max_roadway_chg_kw c) b (trace_miss_iters c) (coast_delay_index c) (idm_target_speed_m_per_s c).
  (** simdrive.py:1951-1995 *)
  Definition ctl_delay (z : Z) (c : ctl_row F) : ctl_row F :=
    mkctl (cur_max_roadway_chg_kw c) (impose_coast c) (trace_miss_iters c) z (idm_target_speed_m_per_s c).
  (** simdrive.py:1585-1653 *)
  Definition ctl_iters (n : nat) (c : ctl_row F) : ctl_row F :=
    mkctl (cur_max_roadway_chg_kw c) (impose_coast c) n (coast_delay_index c) (idm_target_speed_m_per_s c).
  (** simdrive.py:547-576 *)
  Definition ctl_target (v : F) (c : ctl_row F) : ctl_row F :=
    mkctl (cur_max_roadway_chg_kw c) (impose_coast c) (trace_miss_iters c) (coast_delay_index c) v.
  (** [self.impose_coast[i:] = False] and then True for [a <= j < b]; in the code the second loop is
      guarded by or clamped to the array length, which comes to the same. simdrive.py:1997-2188. *)
  Definition set_coast_range (d : sdrive F) (i a b : nat) : sdrive F :=
    upd_ctl_rows d (fun j c => if Nat.ltb j i then c else ctl_coast (Nat.leb a j && Nat.ltb j b)%bool c).
  (** simdrive.py:2101-2188 *)
  Definition clear_coast (d : sdrive F) (i : nat) : sdrive F := set_coast_range d i 0 0.
  (** Only the second loop: True for [a <= j < b]. simdrive.py:1997-2188. *)
  Definition add_coast_range (d : sdrive F) (a b : nat) : sdrive F :=
    upd_ctl_rows d (fun j c => if (Nat.leb a j && Nat.ltb j b)%bool then ctl_coast true c else c).
  (** simdrive.py:1997-2188 (impose_coast[i]) *)
  Definition coast_at (d : sdrive F) (i : nat) : bool := impose_coast (ctl (row_at d i)).
  (** self.dist_m is the per-step distance achieved. simdrive.py:1585-1653. *)
  Definition ach_dists (d : sdrive F) : list F := map (fun r => dist_m_ach (spd r)) (d_rows d).
  (** simdrive.py:1585-1653 *)
  Definition cyc0_dist_to (d : sdrive F) (n : nat) : F := nsum (firstn n (dist_m (d_cyc0 d))).
  (** simdrive.py:1585-1653 *)
  Definition ach_dist_to (d : sdrive F) (n : nat) : F := nsum (firstn n (ach_dists d)).

  (** gap_to_lead_vehicle_m, simdrive.py:335-342. *)
  Definition gap_to_lead_vehicle_m (d : sdrive F) : list F :=
    let g := zipw nsub (cumsum (trapz_step_distances (d_cyc0 d))) (cumsum (trapz_step_distances (d_cyc d))) in
    if idm_allow (d_sp d) then map (fun x => x + idm_minimum_gap_m (d_sp d)) g else g.

  (** ** set_time_dilation, simdrive.py:1585-1653 *)
  (** [self.cyc.time_s[i:] += self.cyc.dt_s_at_i(i) * t]. simdrive.py:1585-1653. *)
  Definition dilate (d : sdrive F) (i : nat) (t : F) : sdrive F :=
    let c := d_cyc d in
    let s := cdt c i * t in
    with_cyc d (mkcyc (mapi_from (fun j x => if Nat.ltb j i then x else x + s) 0 (time_s c))
                      (mps c) (grade c) (road_type c)).
  (** simdrive.py:1585-1653 *)
  Definition bump_iters (d : sdrive F) (i : nat) : sdrive F :=
    upd_row d i (row_ctl (fun c => ctl_iters (S (trace_miss_iters c)) c)).
  (** min(max(x, min_time_dilation), max_time_dilation); simdrive.py:1585-1653 *)
  Definition clamp_dilation (s : simparams F) (x : F) : F :=
    nmin (nmax x (min_time_dilation s)) (max_time_dilation s).
  (** simdrive.py:1585-1653 *)
  Definition short_of (d : sdrive F) (i : nat) : F := cyc0_dist_to d (S i) - ach_dist_to d (S i).
  (** simdrive.py:1585-1653 *)
  Definition dist_close (d : sdrive F) (i : nat) : bool :=
    nabs (short_of d i) / cyc0_dist_to d (S i) <? time_dilation_tol (d_sp d).
  (** simdrive.py:1585-1653 *)
  Definition dilation_edge (d : sdrive F) (t : F) : bool :=
    ((t >=? max_time_dilation (d_sp d)) || (t <=? min_time_dilation (d_sp d)))%bool.
  (** The while loop, 1624-1653; t2, t1 are t_dilation[-2], t_dilation[-1] and s1 is d_short[-1]. *)
  Fixpoint dilation_loop (fuel : nat) (d : sdrive F) (i : nat) (t2 t1 s1 : F) : Res (sdrive F) :=
    match fuel with
    | O => Err OutOfFuel
    | S k =>
        let s := short_of d i in
        let t := clamp_dilation (d_sp d) (t1 - (t1 - t2) / (s - s1) * s) in
        let d1 := bump_iters (solve_step (dilate d i t) i) i in
        if (dist_close d1 i
            || Nat.leb (max_trace_miss_iters (d_sp d)) (trace_miss_iters (ctl (row_at d1 i)))
            || dilation_edge d1 t)%bool
        then Ok d1
        else dilation_loop k d1 i t1 t s
    end.
  (** simdrive.py:1585-1653 *)
  Definition set_time_dilation (d : sdrive F) (i : nat) : Res (sdrive F) :=
    if (dist_close d i || (cmps (d_cyc d) i =? n0))%bool then Ok d
    else
      let s := short_of d i in
      let t := clamp_dilation (d_sp d) (s / cdt (d_cyc0 d) i / mps_ach_at d i) in
      let d1 := solve_step (dilate (bump_iters d i) i t) i in
      if (dist_close d1 i || dilation_edge d1 t)%bool then Ok d1
      else dilation_loop (S (max_trace_miss_iters (d_sp d))) d1 i n0 t s.

  (** ** Car following *)
  (** The formula of _next_speed_by_idm, simdrive.py:524-545, as a function of what it reads:
      own and lead speed, gap before the 0.01 m floor, and step duration. *)
  Definition idm_speed (a b headway s0 vdes delta v0 vlead gap dt : F) : F :=
    if vdes <=? n0 then n0
    else
      let a' := nabs a in
      let b' := nabs b in
      let h := nmax n0 headway in
      let s0' := nmax n0 s0 in
      let sqrt_ab := npow (a' * b') (lit 1 2) in
      let s := nmax gap (lit 1 100) in
      let starget := s0' + nmax n0 (v0 * h + (v0 * (v0 - vlead)) / (n2 * sqrt_ab)) in
      let acc := a' * (n1 - npow (v0 / vdes) delta - nsq (starget / s)) in
      nmax (v0 + acc * dt) n0.
  (** _next_speed_by_idm, simdrive.py:507-545. *)
  Definition next_speed_by_idm (d : sdrive F) (i : nat) (a b headway s0 vdes delta : F) : Res F :=
    do d0 <- trapz_step_start_distance (d_cyc d) i;
    let lead := nth (i - 1) (cc_distances (d_cache d)) n0 + nmax n0 s0 in
    Ok (idm_speed a b headway s0 vdes delta (mps_ach_at d (i - 1)) (cmps (d_cyc0 d) (i - 1))
                  (lead - d0) (cdt (d_cyc d) i)).
  (** _set_speed_for_target_gap(_using_idm), simdrive.py:547-585. *)
  Definition set_speed_for_target_gap (d : sdrive F) (i : nat) : Res (sdrive F) :=
    let s := d_sp d in
    let tgt := idm_target_speed_m_per_s (ctl (row_at d i)) in
    let vdes := if tgt >? n0 then tgt else amax (mps (d_cyc0 d)) in
    do v <- next_speed_by_idm d i (idm_accel_m_per_s2 s) (idm_decel_m_per_s2 s) (idm_dt_headway_s s)
              (idm_minimum_gap_m s) vdes (idm_delta s);
    Ok (set_cyc_mps d i v).
  (** The look-up loop of sim_drive_step, simdrive.py:640-647. *)
  Fixpoint find_target (found x : F) (tbl : list (F * F)) : F :=
    match tbl with
    | [] => found
    | (dd, v) :: r => if x >=? dd then find_target v x r else found
    end.
  (** simdrive.py:547-576 *)
  Definition idm_target (d : sdrive F) (i : nat) : Res F :=
    match idm_v_desired_by_distance (d_sp d) with
    | Some tbl =>
        match tbl with
        | [] => Err IndexError
        | (_, v0) :: _ => Ok (find_target v0 (nsum (firstn i (dist_m (d_cyc d)))) tbl)
        end
    | None => Ok (idm_v_desired_m_per_s (d_sp d))
    end.

  (** ** Eco-coasting *)
  (** _calc_dvdd, simdrive.py:1655-1678. *)
  Definition calc_dvdd (d : sdrive F) (v g : F) : F :=
    if v <=? n0 then n0
    else
      let sn := if g =? n0 then n0 else nsin (natan g) in
      let cs := if g =? n0 then n1 else ncos (natan g) in
      let rho := air_density_kg_per_m3 (d_props d) * drag_coef (d_veh d) * frontal_area_m2 (d_veh d) in
      (- n1) * ((a_grav_mps2 (d_props d) / v) * (sn + wheel_rr_coef (d_veh d) * cs)
                + lit 1 2 * rho * (n1 / veh_kg (d_veh d)) * v).
  (** v_next of simdrive.py:1731 and 1736. *)
  Definition coast_next (v k dt : F) : F := v * (n1 + lit 1 2 * k * dt) / (n1 - lit 1 2 * k * dt).
  (** np.unique(gs): the grade if there is exactly one. simdrive.py:1680-1766. *)
  Definition unique_grade (gs : list F) : option F :=
    match gs with
    | [] => None
    | g :: r => if forallb (fun x => x =? g) r then Some g else None
    end.
  (** The inner loop, 1734-1740: [n] rounds; returns the last k, the speed and the grade. *)
  Fixpoint coast_inner (d : sdrive F) (ug : option F) (n : nat) (v vavg gr dt x k vnext : F) : Res (F * F) :=
    match n with
    | O => Ok (k, vnext)
    | S m =>
        let k' := calc_dvdd d vavg gr in
        let vn := coast_next v k' dt in
        let va := lit 1 2 * (v + vn) in
        do gr' <- (if favor_grade_accuracy (d_sp d) then
                     match ug with
                     | Some g => Ok g
                     | None => average_grade_over_range (d_cyc0 d) x (va * dt) (Some (d_cache d))
                     end
                   else Ok gr);
        coast_inner d ug m v va gr' dt x k' vn
    end.
  (** How the while loop of 1726-1755 ends. *)
  Inductive coast_end :=
  | CoastNone (** return NOT_FOUND *)
  | CoastEnd (v x : F) (speeds : list F) (iter idx : nat).
  (** [fuel] is MAX_ITER - iter; [acc] holds the new speeds in reverse. simdrive.py:1680-1766. *)
  Fixpoint coast_loop (fuel : nat) (d : sdrive F) (ug : option F) (d0 dmax dts0 vb ab v x : F)
           (acc : list F) (iter idx : nat) : Res coast_end :=
    match fuel with
    | O => Ok (CoastEnd v x (rev acc) iter idx)
    | S f =>
        if ((v >? vb) && (v >=? n0) && (x <=? dmax) && Nat.ltb idx (length (d_rows d)))%bool then
          do dt <- dt_s_at_i (d_cyc0 d) idx;
          do gr <- match ug with Some g => Ok g | None => interp_grade (d_cache d) (x + d0) end;
          let k := calc_dvdd d v gr in
          let vn := coast_next v k dt in
          do kv <- coast_inner d ug (if favor_grade_accuracy (d_sp d) then 2 else 1) v (lit 1 2 * (v + vn))
                     gr dt (x + d0) k vn;
          if ((fst kv >=? n0) && match ug with Some _ => true | None => false end)%bool then Ok CoastNone
          else if snd kv <=? vb then Ok (CoastEnd v x (rev acc) iter idx)
          else
            let vn := snd kv in
            let dd := lit 1 2 * (v + vn) * dt in
            let dtb := (- lit 1 2) * vn * vn / ab in
            let x' := x + dd in
            if x' + dtb >=? dts0 then Ok (CoastEnd vn x' (rev (vn :: acc)) iter idx)
            else coast_loop f d ug d0 dmax dts0 vb ab vn x' (vn :: acc) (S iter) (S idx)
        else Ok (CoastEnd v x (rev acc) iter idx)
    end.
  (** [for di, v in enumerate(speeds): self.cyc.mps[min(i+di, len-1)] = v], 1761-1763. *)
  Fixpoint write_speeds (d : sdrive F) (i : nat) (vs : list F) : sdrive F :=
    match vs with
    | [] => d
    | v :: r => write_speeds (set_cyc_mps d (Nat.min i (length (d_rows d) - 1)) v) (S i) r
    end.
  (** simdrive.py:1680-1766 *)
  Definition ncoast_max : nat := 180.
  (** _generate_coast_trajectory, simdrive.py:1680-1766. *)
  Definition generate_coast_trajectory (d : sdrive F) (i : nat) (modify : bool) : Res (sdrive F * F) :=
    let v0 := mps_ach_at d (i - 1) in
    let vb := coast_brake_start_speed_m_per_s (d_sp d) in
    let ab := coast_brake_accel_m_per_s2 (d_sp d) in
    do _ <- assertR (ab <=? n0);
    let ds := cc_distances (d_cache d) in
    do d0 <- trapz_step_start_distance (d_cyc d) i;
    let mask := map (fun x => x >=? d0) ds in
    if negb (existsb (fun b => b) mask) then Ok (d, n0)
    else
      let ahead := map (fun x => x - d0) (mask_list mask ds) in
      let gs := mask_list mask (grade (d_cyc0 d)) in
      if v0 <=? vb then
        do d' <- (if modify then
                    do r <- modify_with_braking_trajectory (d_cyc d) ab i None;
                    Ok (set_coast_range (with_cyc d (fst (fst r))) i i (i + Z.to_nat (snd r)))
                  else Ok d);
        Ok (d', (- lit 1 2) * v0 * v0 / ab)
      else if ab =? n0 then Err ZeroDivisionError
      else
        let dmax := last ahead n0 - (- lit 1 2) * vb * vb / ab in
        do dts0 <- calc_distance_to_next_stop_from (d_cyc0 d) d0 (Some (d_cache d));
        do r <- coast_loop ncoast_max d (unique_grade gs) d0 dmax dts0 vb ab v0 n0 [] 0 i;
        match r with
        | CoastNone => Ok (d, - n1)
        | CoastEnd v x speeds iter idx =>
            if (Nat.ltb iter ncoast_max && Nat.ltb idx (length (d_rows d)))%bool then
              let dtb := (- lit 1 2) * v * v / ab in
              let tgt := nmin (nmax (dts0 - x) (lit 1 2 * dtb)) (n2 * dtb) in
              do d' <- (if modify then
                          let d1 := write_speeds d i speeds in
                          do r <- modify_with_braking_trajectory (d_cyc d1) ab (i + length speeds) (Some tgt);
                          Ok (set_coast_range (with_cyc d1 (fst (fst r))) i i
                                (i + (length speeds + Z.to_nat (snd r))))
                        else Ok d);
              Ok (d', x + tgt)
            else Ok (d, - n1)
        end.
  (** _calc_distance_to_stop_coast_v2, simdrive.py:1768-1817. *)
  Definition calc_distance_to_stop_coast_v2 (d : sdrive F) (i : nat) : Res F :=
    let v0 := cmps (d_cyc d) (i - 1) in
    let vb := coast_brake_start_speed_m_per_s (d_sp d) in
    let ab := coast_brake_accel_m_per_s2 (d_sp d) in
    let ds := cc_distances (d_cache d) in
    do d0 <- trapz_step_start_distance (d_cyc d) i;
    let gs := mask_list (map (fun x => x >=? d0) ds) (grade (d_cyc0 d)) in
    if ab =? n0 then Err ZeroDivisionError
    else
      let dtb := (- lit 1 2) * vb * vb / ab in
      if v0 <=? vb then Ok ((- lit 1 2) * v0 * v0 / ab)
      else
        let closed :=
          match unique_grade gs with
          | None => None
          | Some g =>
              let th := natan g in
              let c1 := a_grav_mps2 (d_props d) * (nsin th + wheel_rr_coef (d_veh d) * ncos th) in
              let c2 := (air_density_kg_per_m3 (d_props d) * (drag_coef (d_veh d) * frontal_area_m2 (d_veh d)))
                        / (n2 * veh_kg (d_veh d)) in
              let a1 := c1 + c2 * (v0 * v0) in
              let b1 := c1 + c2 * (vb * vb) in
              let x := if c2 =? n0 then
                         if c1 >? n0 then (n1 / (n2 * c1)) * (v0 * v0 - vb * vb) else - n1
                       else if ((a1 >? n0) && (b1 >? n0))%bool then (n1 / (n2 * c2)) * (nln a1 - nln b1)
                       else - n1 in
              if x =? - n1 then None else Some (x + dtb)
          end in
        match closed with
        | Some x => Ok x
        | None => do r <- generate_coast_trajectory d i false; Ok (snd r)
        end.
  (** _should_impose_coast, simdrive.py:1819-1842. *)
  Definition should_impose_coast (d : sdrive F) (i : nat) : Res bool :=
    let s := d_sp d in
    if coast_start_speed_m_per_s s >? n0 then Ok (cmps (d_cyc d) i >=? coast_start_speed_m_per_s s)
    else
      let v0 := mps_ach_at d (i - 1) in
      if v0 <? coast_brake_start_speed_m_per_s s then Ok false
      else
        do dtsc0 <- calc_distance_to_stop_coast_v2 d i;
        if dtsc0 <? n0 then Ok false
        else
          do d0 <- trapz_step_start_distance (d_cyc d) i;
          do dts0 <- calc_distance_to_next_stop_from (d_cyc0 d) d0 (Some (d_cache d));
          let dtb := (- lit 1 2) * v0 * v0 / coast_brake_accel_m_per_s2 s in
          Ok ((dtsc0 >=? dts0) && (dts0 >=? nofZ 4 * dtb))%bool.

  (** simdrive.py:1844-1949 *)
  Definition amin (l : list F) : F := match l with [] => n0 | a :: r => nminl a r end.
  (** A rendezvous trajectory: steps, jerk, initial acceleration, spread of accelerations. simdrive.py:176-182. *)
  Record rdv := mkrdv { rv_n : nat; rv_jerk : F; rv_accel : F; rv_spread : F }.
  (** simdrive.py:1844-1949 *)
  Definition better (best : option rdv) (spread : F) : bool :=
    match best with None => true | Some b => spread <? rv_spread b end.
  (** The while loop of _calc_next_rendezvous_trajectory, 1904-1946; [fuel] samples remain. *)
  Fixpoint rdv_loop (fuel : nat) (d : sdrive F) (i idx : nat) (plan horizon v0 vb dt dtbi0 amn amx : F)
           (best : option rdv) : Res (option rdv) :=
    match fuel with
    | O => Ok best
    | S f =>
        if plan <=? horizon then
          do dti <- dt_s_at_i (d_cyc0 d) idx;
          let plan' := plan + dti in
          let ahead := (idx - (i - 1))%nat in
          if Nat.eqb ahead 1 then
            let accel := (vb - v0) / dt in
            let v1 := nmax n0 (v0 + accel * dt) in
            let dd := ((v0 + v1) / n2) * dt in
            if ((nabs (v1 - vb) <? lit 1 1000000) && (nabs (dtbi0 - dd) <? lit 1 1000000))%bool
            then Ok (Some (mkrdv 1 n0 accel n0))
            else rdv_loop f d i (S idx) plan' horizon v0 vb dt dtbi0 amn amx best
          else
            do best' <-
              (if dtbi0 >? n0 then
                 do ka <- calc_constant_jerk_trajectory (Z.of_nat ahead) n0 v0 dtbi0 vb dt;
                 let '(k, a) := ka in
                 if ((a <? amx) && (a >? amn) && (k >=? n0))%bool then
                   let acs := map (fun n => accel_for_constant_jerk (Z.of_nat n) a k dt) (seq 0 ahead) in
                   let spread := nabs (amax acs - amin acs) in
                   Ok (if ((amax acs <? amx + lit 1 1000000) && (amin acs >? amn - lit 1 1000000)
                           && better best spread)%bool
                       then Some (mkrdv ahead k a spread) else best)
                 else Ok best
               else Ok best);
            rdv_loop f d i (S idx) plan' horizon v0 vb dt dtbi0 amn amx best'
        else Ok best
    end.
  (** _calc_next_rendezvous_trajectory, simdrive.py:1844-1949; None is "not found". *)
  Definition calc_next_rendezvous_trajectory (d : sdrive F) (i : nat) (mn mx : F) : Res (option rdv) :=
    let v0 := cmps (d_cyc d) (i - 1) in
    let vb := coast_brake_start_speed_m_per_s (d_sp d) in
    let ab := coast_brake_accel_m_per_s2 (d_sp d) in
    let horizon := nmax (coast_time_horizon_for_adjustment_s (d_sp d)) n1 in
    if v0 <? vb + lit 1 1000000 then Ok None
    else
      let '(amn, amx) := if mn >? mx then (mx, mn) else (mn, mx) in
      do d0 <- trapz_step_start_distance (d_cyc d) i;
      do dts0 <- calc_distance_to_next_stop_from (d_cyc0 d) d0 (Some (d_cache d));
      if dts0 <? n0 then Ok None
      else
        do dt <- dt_s_at_i (d_cyc d) i;
        if ab =? n0 then Err ZeroDivisionError
        else
          let dtbi0 := dts0 - (- lit 1 2) * vb * vb / ab in
          if dtbi0 <? n0 then Ok None
          else rdv_loop (length (mps (d_cyc d)) - i) d i i n0 horizon v0 vb dt dtbi0 amn amx None.

  (** The search of _set_coast_delay, 1975-1986: the delay, if any. *)
  Fixpoint delay_scan (i idx : nat) (dlv d0 d0lv : F) (steps speeds : list F) (mind : option F)
           (delay : option Z) : option Z :=
    match steps, speeds with
    | dd :: steps', v :: speeds' =>
        let dlv' := dlv + dd in
        let dt := nabs (dlv' - d0) in
        let hit := ((v <? lit 1 100) && match mind with None => true | Some m => dt <=? m end)%bool in
        let delay' :=
          if (hit && match mind with
                     | None => true
                     | Some m => (dt <? m) || ((d0 <? d0lv) && (m =? dt))
                     end)%bool
          then Some (Z.of_nat i - Z.of_nat idx)%Z else delay in
        let mind' := if hit then Some dt else mind in
        if match mind' with Some m => dt >? m | None => false end then delay'
        else delay_scan i (S idx) dlv' d0 d0lv steps' speeds' mind' delay'
    | _, _ => delay
    end.
  (** _set_coast_delay, simdrive.py:1951-1995. *)
  Definition set_coast_delay (d : sdrive F) (i : nat) : Res (sdrive F) :=
    do delay <-
      (if (negb (idm_allow (d_sp d)) && (cmps (d_cyc d) i <? lit 1 100))%bool then
         do d0 <- trapz_step_start_distance (d_cyc d) i;
         let d0lv := nth (i - 1) (cc_distances (d_cache d)) n0 in
         Ok (if nabs (d0lv - d0) >? lit 1 10 then
               delay_scan i 0 n0 d0 d0lv (trapz_step_distances (d_cyc0 d)) (mps (d_cyc0 d)) None None
             else None)
       else Ok None);
    Ok (upd_ctl_rows d (fun j c =>
          if Nat.ltb j i then c
          else ctl_delay (match delay with
                          | None => 0
                          | Some z => if Z.ltb z 0 then Z.min 0 (z + (Z.of_nat j - Z.of_nat i)) else z
                          end)%Z c)).

  (** One candidate of _prevent_collisions, 2038-2069: None means the loop goes on without it. *)
  Record pcand := mkpcand { pc_idx : nat; pc_n : nat; pc_fbs : nat; pc_jerk : F; pc_accel0 : F; pc_spread : F }.
  (** simdrive.py:1997-2099 *)
  Definition collision_candidate (d : sdrive F) (p : @PassingInfo F) (fbs idx n : nat) : Res (option pcand) :=
    let c := d_cyc d in
    let ab := coast_brake_accel_m_per_s2 (d_sp d) in
    let dt := time_step_duration p in
    let vs := cmps c (idx - 1) in
    let dtf := ctime c (idx - 1 + fbs) - ctime c (idx - 1) in
    let vj := nmax (vs + dtf * ab) n0 in
    let ddf := lit 1 2 * (vs + vj) * dtf in
    do sd <- trapz_step_start_distance c idx;
    let ds := sd + ddf in
    if distance_m p <=? ds then Ok None
    else
      do ka <- calc_constant_jerk_trajectory (Z.of_nat n) ds vj (distance_m p) (pi_speed p) dt;
      let '(k, a0) := ka in
      let nis := filter (fun ni => Nat.ltb (ni + idx + fbs) (length (time_s c))) (seq 0 n) in
      let acs := map (fun ni => accel_for_constant_jerk (Z.of_nat ni) a0 k dt) nis in
      (* the divisor is the duration of the previous step, as in the code (2056) *)
      let trs := map (fun ni => (cmps c (ni + idx + fbs) - cmps c (ni + idx - 1 + fbs))
                                / cdt c (ni + idx - 1 + fbs)) nis in
      if forallb (fun b => b) (zipw (fun t a => t >=? a) trs acs) then
        Ok (Some (mkpcand idx n fbs k a0 (nabs (amax acs - amin acs))))
      else Ok None.
  (** The loop over di, 2026-2069; [fuel] entries remain. *)
  Fixpoint collision_scan (fuel : nat) (d : sdrive F) (p : @PassingInfo F) (fbs i idx : nat)
           (best : option pcand) : Res (option pcand) :=
    match fuel with
    | O => Ok best
    | S f =>
        if negb (coast_at d idx) then
          if Nat.eqb idx i then Ok best else collision_scan f d p fbs i (S idx) best
        else
          let n := (Z.of_nat (pi_idx p) - Z.of_nat idx + 1 - Z.of_nat fbs)%Z in
          if Z.ltb n 2 then Ok best
          else if Nat.leb (length (time_s (d_cyc d))) (idx - 1 + fbs) then Ok best
          else
            do r <- collision_candidate d p fbs idx (Z.to_nat n);
            let best' := match r with
                         | None => best
                         | Some q => match best with
                                     | None => Some q
                                     | Some b => if pc_spread q <? pc_spread b then Some q else best
                                     end
                         end in
            collision_scan f d p fbs i (S idx) best'
    end.
  (** The loop over full_brake_steps, 2025-2071. *)
  Fixpoint collision_search (fbss : list nat) (d : sdrive F) (p : @PassingInfo F) (i : nat) : Res (option pcand) :=
    match fbss with
    | [] => Ok None
    | fbs :: r =>
        do b <- collision_scan (length (d_rows d) - i) d p fbs i i None;
        match b with Some q => Ok (Some q) | None => collision_search r d p i end
    end.
  (** 2077-2083. *)
  Fixpoint full_brake (d : sdrive F) (idx : nat) (ks : list nat) : sdrive F :=
    match ks with
    | [] => d
    | k :: r =>
        let c := d_cyc d in
        let dt := ctime c (idx + k) - ctime c (idx - 1) in
        let v := nmax (cmps c (idx - 1) + coast_brake_accel_m_per_s2 (d_sp d) * dt) n0 in
        full_brake (upd_row (set_cyc_mps d (idx + k) v) (idx + k)
                      (row_ctl (fun c => ctl_delay 0 (ctl_coast true c)))) idx r
    end.
  (** 2077-2098. *)
  Definition apply_collision (d : sdrive F) (q : pcand) : Res (sdrive F) :=
    let d1 := full_brake d (pc_idx q) (seq 0 (pc_fbs q)) in
    do r <- modify_by_const_jerk_trajectory (d_cyc d1) (pc_idx q + pc_fbs q) (Z.of_nat (pc_n q)) (pc_jerk q) (pc_accel0 q);
    Ok (upd_ctl_rows (with_cyc d1 (fst r))
          (fun j c => if Nat.ltb j (pc_idx q + pc_n q) then c else ctl_delay 0 (ctl_coast false c))).
  (** _prevent_collisions, simdrive.py:1997-2099; the first argument bounds the recursion. *)
  Fixpoint prevent_collisions_f (fuel : nat) (d : sdrive F) (i : nat) (tol : F) : Res (sdrive F * bool) :=
    match fuel with
    | O => Err OutOfFuel
    | S f =>
        do p <- detect_passing (d_cyc d) (d_cyc0 d) i tol;
        if negb (has_collision p) then Ok (d, false)
        else
          do _ <- assertR (coast_brake_accel_m_per_s2 (d_sp d) <? n0);
          do best <- collision_search [0; 1; 2; 3]%nat d p i;
          match best with
          | None =>
              let tol' := if tol <? nofZ 10 then nofZ 10 else tol + nofZ 5 in
              if tol' >? nofZ 60 then Ok (d, false) else prevent_collisions_f f d i tol'
          | Some q => do d' <- apply_collision d q; Ok (d', true)
          end
    end.
  (** simdrive.py:1997-2099 *)
  Definition prevent_collisions (d : sdrive F) (i : nat) (tol : option F) : Res (sdrive F * bool) :=
    prevent_collisions_f 12 d i (match tol with None => n1 | Some t => t end).

  (** solve_step(i); newton_iters[i] = 0; cyc.mps[i] = mps_ach[i], 2131-2133 and 2185-2188. *)
  Definition reset_newton (d : sdrive F) (i : nat) : sdrive F :=
    upd_row d i (row_spd (fun s => mkspd 0 (mps_ach s) (mph_ach s) (dist_m_ach s) (dist_mi_ach s))).
  (** simdrive.py:632-673 *)
  Definition solve_and_adopt (d : sdrive F) (i : nat) : sdrive F :=
    let d1 := reset_newton (solve_step d i) i in set_cyc_mps d1 i (mps_ach_at d1 i).
  (** 2140-2181: the reaction to a speed other than planned; the flag is adjusted_current_speed. *)
  Definition adjust_coast (d : sdrive F) (i : nat) (accel : F) : Res (sdrive F * bool) :=
    let s := d_sp d in
    let vb := coast_brake_start_speed_m_per_s s in
    let ab := coast_brake_accel_m_per_s2 s in
    if cmps (d_cyc d) i <? vb - lit 1 10 then
      do r <- modify_with_braking_trajectory (d_cyc d) ab i None;
      Ok (set_coast_range (with_cyc d (fst (fst r))) i i (i + Z.to_nat (snd r)), true)
    else
      do t <- calc_next_rendezvous_trajectory d i ab (nmin accel n0);
      match t with
      | None => Ok (d, false)
      | Some q =>
          do r <- modify_by_const_jerk_trajectory (d_cyc d) i (Z.of_nat (rv_n q)) (rv_jerk q) (rv_accel q);
          let d1 := set_coast_range (with_cyc d (fst r)) i i (i + rv_n q) in
          let ib := (i + rv_n q)%nat in
          if nabs (snd r - vb) <? lit 1 10 then
            do b <- modify_with_braking_trajectory (d_cyc d1) ab ib None;
            Ok (add_coast_range (with_cyc d1 (fst (fst b))) ib (ib + Z.to_nat (snd b)), true)
          else Ok (d1, true)
      end.
  (** 2109-2116: start of a coast. *)
  Definition start_coast (d : sdrive F) (i : nat) : Res (sdrive F) :=
    if ((mps_ach_at d (i - 1) >? lit 1 1000000) && negb (coast_at d i))%bool then
      do b <- should_impose_coast d i;
      if b then
        do r <- generate_coast_trajectory d i true;
        let d1 := if snd r <? n0 then clear_coast (fst r) i else fst r in
        if coast_allow_passing (d_sp d) then Ok d1
        else do p <- prevent_collisions d1 i None; Ok (fst p)
      else Ok d
    else Ok d.
  (** cyc0.mps[min(max(i - coast_delay_index[i], 0), len(cyc0.mps) - 1)], 2119. *)
  Definition delayed_speed (d : sdrive F) (i : nat) : F :=
    let z := (Z.of_nat i - coast_delay_index (ctl (row_at d i)))%Z in
    cmps (d_cyc0 d) (Z.to_nat (Z.min (Z.max z 0) (Z.of_nat (length (mps (d_cyc0 d))) - 1))).
  (** _set_coast_speed, simdrive.py:2101-2188. *)
  Definition set_coast_speed (d : sdrive F) (i : nat) : Res (sdrive F) :=
    let s := d_sp d in
    let v0 := mps_ach_at d (i - 1) in
    do d1 <- start_coast d i;
    if negb (coast_at d1 i) then
      Ok (if idm_allow s then d1 else set_cyc_mps d1 i (delayed_speed d1 i))
    else
      let v1 := cmps (d_cyc d1) i in
      let d2 := if v0 >? coast_brake_start_speed_m_per_s s then
                  set_cyc_mps d1 i (if coast_allow_passing s then coast_max_speed_m_per_s s
                                    else nmin v1 (coast_max_speed_m_per_s s))
                else d1 in
      let d3 := solve_and_adopt d2 i in
      let v := cmps (d_cyc d3) i in
      let accel := (v - cmps (d_cyc d3) (i - 1)) / cdt (d_cyc d3) i in
      if v <? lit 1 1000000 then
        do d4 <- set_coast_delay (clear_coast d3 i) i;
        Ok (set_cyc_mps d4 i n0)
      else if nabs (v - v1) >? lit 1 1000000 then
        do r <- adjust_coast d3 i accel;
        if snd r then
          do d4 <- (if coast_allow_passing s then Ok (fst r)
                    else do p <- prevent_collisions (fst r) i None; Ok (fst p));
          Ok (solve_and_adopt d4 i)
        else Ok (fst r)
      else Ok d3.

  (** ** sim_drive_step, simdrive.py:632-661 *)
  Definition sim_drive_step (d : sdrive F) : Res (sdrive F) :=
    let i := d_i d in
    let s := d_sp d in
    do d1 <- (if idm_allow s then
                do t <- idm_target d i;
                set_speed_for_target_gap (upd_row d i (row_ctl (ctl_target t))) i
              else Ok d);
    do d2 <- (if coast_allow s then set_coast_speed d1 i else Ok d1);
    let d3 := solve_step d2 i in
    do d4 <- (if (missed_trace_correction s && (cyc0_dist_to d3 i >? n0))%bool
              then set_time_dilation d3 i else Ok d3);
    let d5 := if (coast_allow s || idm_allow s)%bool then
                let d' := set_cyc_mps d4 i (mps_ach_at d4 i) in
                set_cyc_grade d' i (lookup_grade d' i None)
              else d4 in
    Ok (with_i d5 (S i)).

  (** The while loop of sim_drive_walk, simdrive.py:448-450. *)
  Fixpoint walk_loop (fuel : nat) (d : sdrive F) : Res (sdrive F) :=
    if Nat.ltb (d_i d) (length (time_s (d_cyc d))) then
      match fuel with
      | O => Err OutOfFuel
      | S f => do d' <- sim_drive_step d; walk_loop f d'
      end
    else Ok d.
  (** The write to accel_kw[1:] in set_post_scalars, simdrive.py:2253-2254; the scalars are in
      PostModel.v. *)
  Definition row_accel (a : F) (r : row F) : row F :=
    let p := pwr r in
    mkrow (misc r) (lims r)
      (mkpwr (drag_kw p) a (ascent_kw p) (cyc_trac_kw_req p) (spare_trac_kw p) (rr_kw p)
             (cyc_whl_rad_per_sec p) (cyc_tire_inertia_kw p) (cyc_whl_kw_req p) (regen_contrl_lim_kw_perc p)
             (cyc_regen_brake_kw p) (cyc_fric_brake_kw p) (cyc_trans_kw_out_req p) (cyc_met p)
             (trans_kw_out_ach p) (trans_kw_in_ach p) (min_mc_kw_2help_fc p))
      (spd r) (hyb r) (forced r) (dec r) (fc r) (ctl r).
  (** simdrive.py:2190-2294 *)
  Definition post_accel (d : sdrive F) : sdrive F :=
    with_rows d (mapi_from (fun j r =>
      if Nat.ltb j 1 then r
      else row_accel (veh_kg (d_veh d) / (n2 * cdt (d_cyc d) j)
                      * (nsq (mps_ach (spd r)) - nsq (mps_ach_at d (j - 1))) / nofZ 1000) r) 0 (d_rows d)).
  (** sim_drive_walk, simdrive.py:434-464; the large-step warning is logging only. *)
  Definition sim_drive_walk (d : sdrive F) (init_soc : F) (ovr : option (list F)) : Res (sdrive F) :=
    do d1 <- init_for_step d init_soc ovr;
    do d2 <- walk_loop (length (time_s (d_cyc d1))) d1;
    Ok (post_accel d2).

  (** ** sim_drive, simdrive.py:344-388 *)
  (** np.sum(x * self.cyc.dt_s); simdrive.py:2190-2294 *)
  Definition sum_dt (d : sdrive F) (f : row F -> F) : F := nsum (zipw nmul (map f (d_rows d)) (dt_s (d_cyc d))).
  (** simdrive.py:344-388 *)
  Definition soc_first (d : sdrive F) : F := soc (dec (row_at d 0)).
  (** simdrive.py:344-388 *)
  Definition soc_last (d : sdrive F) : F := soc (dec (row_at d (length (d_rows d) - 1))).
  (** The balance measure of one walk, 374-383. *)
  Definition ess_2fuel (d : sdrive F) : F :=
    let e := sum_dt d (fun r => fs_kw_out_ach (fc r)) + sum_dt d (fun r => roadway_chg_kw_out_ach (dec r)) in
    if e >? n0 then nabs ((soc_first d - soc_last d) * ess_max_kwh (d_veh d) * nofZ 3600 / e) else n0.
  (** simdrive.py:344-388 *)
  Definition next_soc (d : sdrive F) : F := nmin n1 (nmax n0 (soc_last d)).
  (** The while loop, 371-384; [fuel] bounds its rounds. *)
  Fixpoint balance_loop (fuel : nat) (d : sdrive F) (ovr : option (list F)) (s e2f : F) : Res (sdrive F * F) :=
    if ((e2f >? ess_to_fuel_ok_error (d_veh d)) && Nat.ltb (d_hev_sim_count d) (sim_count_max (d_sp d)))%bool then
      match fuel with
      | O => Err OutOfFuel
      | S f =>
          do d1 <- sim_drive_walk (with_count d (S (d_hev_sim_count d))) s ovr;
          balance_loop f d1 ovr (next_soc d1) (ess_2fuel d1)
      end
    else Ok (d, s).
  (** simdrive.py:344-388 *)
  Definition mid_soc (v : vehicle F) : F := (max_soc v + min_soc v) / n2.
  (** simdrive.py:344-388 *)
  Definition sim_drive (d : sdrive F) (init_soc : option F) (ovr : option (list F)) : Res (sdrive F) :=
    let d0 := with_count d 0 in
    match init_soc with
    | Some s => sim_drive_walk d0 s ovr
    | None =>
        match veh_pt_type (d_veh d) with
        | CONV => sim_drive_walk d0 (mid_soc (d_veh d)) ovr
        | HEV => do r <- balance_loop (sim_count_max (d_sp d)) d0 ovr (mid_soc (d_veh d)) n1;
                 sim_drive_walk (fst r) (snd r) ovr
        | PHEV | BEV => sim_drive_walk d0 (max_soc (d_veh d)) ovr
        end
    end.

  (** ** activate_eco_cruise, simdrive.py:466-505 *)
  Definition sp_idm (s : simparams F) (vdes : F) (tbl : option (list (F * F))) : simparams F :=
    mksimparams (favor_grade_accuracy s) (missed_trace_correction s) (max_time_dilation s) (min_time_dilation s)
      (time_dilation_tol s) (max_trace_miss_iters s) (trace_miss_speed_mps_tol s) (trace_miss_time_tol s)
      (trace_miss_dist_tol s) (sim_count_max s) (newton_gain s) (newton_max_iter s) (newton_xtol s)
      (energy_audit_error_tol s) (coast_allow s) (coast_allow_passing s) (coast_max_speed_m_per_s s)
      (coast_brake_accel_m_per_s2 s) (coast_brake_start_speed_m_per_s s) (coast_start_speed_m_per_s s)
      (coast_time_horizon_for_adjustment_s s) true vdes (idm_dt_headway_s s) (idm_minimum_gap_m s)
      (idm_delta s) (idm_accel_m_per_s2 s) (idm_decel_m_per_s2 s) tbl (max_epa_adj s).
  (** simdrive.py:466-505 *)
  Definition activate_eco_cruise (d : sdrive F) (by_microtrip : bool) (extend blend min_speed : F) : Res (sdrive F) :=
    let s := d_sp d in
    let c := d_cyc0 d in
    do s' <- (if by_microtrip then
                if ((blend >? n1) || (blend <? n0))%bool then Err TypeError
                else if min_speed <? n0 then Err TypeError
                else Ok (sp_idm s (idm_v_desired_m_per_s s)
                           (Some (create_dist_and_target_speeds_by_microtrip c blend min_speed)))
              else
                let tl := last (time_s c) n0 in
                Ok (sp_idm s (if (Nat.ltb 0 (clen c) && (tl >? n0))%bool then nsum (dist_m c) / tl else n0)
                           (idm_v_desired_by_distance s)));
    let d1 := with_sp d s' in
    if extend <? n0 then Err TypeError
    else if extend >? n0 then
      do r <- extend_cycle (mkCycle c "") n0 extend;
      Ok (with_cyc (with_cyc0 d1 (cdata r)) (cdata r))
    else Ok d1.
End WalkModel.
