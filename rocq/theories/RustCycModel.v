(** Model of the drive cycle of the Rust implementation, rust/fastsim-core/src/cycle.rs, of Cycle.to_rust in
    python/fastsim/cycle.py, and of the dict methods of the compiled class.  Definitions only.

    The four arrays are those of the record [cyc] of CycleModel.v.  Conventions are those of RustModel.v: an index
    out of range, and [i - 1] of an index [i] = 0, are [Err IndexError] (panic); an error returned through anyhow is
    [Err PlainException].  Loops over all samples read the arrays with [nth], that is they suppose four arrays of
    one length, which is what init_checks demands.  Division by zero yields an infinity or NaN in Rust: so it does
    in the binary64 instance, while over the reals the result is unspecified and no theorem relies on it. *)
From Verif Require Import Num Numpy CycleModel SimModel RustModel RustWalkModel RustPostModel RustVehModel.
Local Open Scope string_scope.
Local Open Scope list_scope.

Section RustCyc.
  Context {F : Type} {N : Num F}.
  Local Open Scope num_scope.

  (** ** Making a compiled cycle *)
  (** is_sorted, cycle.rs:879-885. *)
  Fixpoint r_is_sorted (l : list F) : bool :=
    match l with a :: ((b :: _) as r) => ((a <? b) && r_is_sorted r)%bool | _ => true end.
  (** init_checks, cycle.rs:805-817, with is_empty, 875-877, and are_fields_equal_length, 887-892. *)
  Definition r_init_checks (c : cyc F) : Res unit :=
    let n := length (time_s c) in
    if (negb (Nat.eqb n 0) && r_is_sorted (time_s c)
        && (Nat.eqb (length (mps c)) n && Nat.eqb (length (grade c)) n && Nat.eqb (length (road_type c)) n))%bool
    then Ok tt else Err PlainException.
  (** dict["time_s"] extracted as a Vec<f64>, cycle.rs:500-504. *)
  Definition r_req_arr (d : pdict F) (k : string) : Res (list F) :=
    match dget d k with Some (Arr l) => Ok l | Some (Str _) => Err TypeError | None => Err KeyError end.
  (** cycle.rs:505-514 *)
  Definition r_opt_arr (d : pdict F) (k : string) (n : nat) : Res (list F) :=
    match dget d k with Some (Arr l) => Ok l | Some (Str _) => Err TypeError | None => Ok (zeros n) end.
  (** RustCycle.from_dict, cycle.rs:499-522. *)
  Definition r_from_dict (d : pdict F) (skip_init : bool) : Res (Cycle F) :=
    do t <- r_req_arr d "time_s";
    do v <- r_req_arr d "mps";
    do g <- r_opt_arr d "grade" (length t);
    do r <- r_opt_arr d "road_type" (length t);
    let nm := match dget d "name" with Some (Str s) => s | _ => "" end in
    let c := mkcyc t v g r in
    do _ <- (if skip_init then Ok tt else r_init_checks c);
    Ok (mkCycle c nm).
  (** RustCycle.to_dict, cycle.rs:524-532. *)
  Definition r_to_dict (c : Cycle F) : pdict F :=
    [("time_s", Arr (time_s (cdata c))); ("mps", Arr (mps (cdata c)));
     ("grade", Arr (grade (cdata c))); ("road_type", Arr (road_type (cdata c)));
     ("name", Str (cname c))].
  (** Cycle.to_rust, cycle.py:237-238, that is copy_cycle with 'rust', cycle.py:994-1004 and 1023-1024. *)
  Definition cycle_to_rust (c : Cycle F) : Res (Cycle F) := r_from_dict (to_dict c) false.

  (** ** Derived data *)
  (** get_mph and set_mph, cycle.rs:588-595. *)
  Definition r_get_mph (c : cyc F) : list F := map (fun v => v * MPH_PER_MPS) (mps c).
  (** cycle.rs:592-595 *)
  Definition r_set_mph (c : cyc F) (new : list F) : cyc F :=
    mkcyc (time_s c) (map (fun v => v / MPH_PER_MPS) new) (grade c) (road_type c).
  (** delta_elev_m, cycle.rs:1132-1134.  (dt_s is [r_dt_s] of RustWalkModel.v, dist_m [r_dist_m] of RustPostModel.v.) *)
  Definition r_delta_elev_m (c : cyc F) : list F := cumsum (zipw nmul (r_dist_m c) (grade c)).
  (** dt_s_at_i inside the crate, cycle.rs:1117-1119. *)
  Definition r_dt_at (c : cyc F) (i : nat) : Res F :=
    do a <- r_get (time_s c) i;
    do j <- r_pred i;
    do b <- r_get (time_s c) j;
    Ok (a - b).
  (** dt_s_at_i as called from Python, cycle.rs:579-586. *)
  Definition r_dt_s_at_i (c : cyc F) (i : nat) : Res F := if Nat.eqb i 0 then Ok n0 else r_dt_at c i.

  (** average_step_speeds, cycle.rs:122-129. *)
  Definition r_average_step_speeds (c : cyc F) : list F :=
    n0 :: map (fun i => lit 1 2 * (nth i (mps c) n0 + nth (i - 1) (mps c) n0)) (seq 1 (length (time_s c) - 1)).
  (** average_step_speed_at, cycle.rs:133-135. *)
  Definition r_average_step_speed_at (c : cyc F) (i : nat) : Res F :=
    do a <- r_get (mps c) i;
    do j <- r_pred i;
    do b <- r_get (mps c) j;
    Ok (lit 1 2 * (a + b)).
  (** trapz_step_distances, cycle.rs:139-141. *)
  Definition r_trapz_step_distances (c : cyc F) : list F := zipw nmul (r_average_step_speeds c) (r_dt_s c).
  (** trapz_step_start_distance, cycle.rs:155-161. *)
  Definition r_trapz_step_start_distance (c : cyc F) (i : nat) : Res F :=
    if Nat.leb i (length (time_s c)) then
      Ok (fold_left (fun acc k => acc + (nth k (time_s c) n0 - nth (k - 1) (time_s c) n0) * lit 1 2
                                        * (nth k (mps c) n0 + nth (k - 1) (mps c) n0))
                    (seq 1 (i - 1)) n0)
    else Err IndexError.
  (** trapz_distance_for_step, cycle.rs:165-167. *)
  Definition r_trapz_distance_for_step (c : cyc F) (i : nat) : Res F :=
    do v <- r_average_step_speed_at c i; do dt <- r_dt_at c i; Ok (v * dt).
  (** trapz_distance_over_range, cycle.rs:171-173: the slice panics if its bounds are not in order or too large. *)
  Definition r_trapz_distance_over_range (c : cyc F) (i_start i_end : nat) : Res F :=
    if (Nat.leb i_start i_end && Nat.leb i_end (length (r_trapz_step_distances c)))%bool then
      Ok (nsum (slice (r_trapz_step_distances c) i_start i_end))
    else Err IndexError.

  (** ** RustCycleCache, cycle.rs:391-475 *)
  (** The loop of cycle.rs:427-434, over (index, distance, elevation). *)
  Definition r_cache_push (acc : list (F * F * F)) (p : nat * (F * F)) : list (F * F * F) :=
    let '(idx, (d, h)) := p in
    if match acc with [] => true | _ => d >? fst (fst (last acc (n0, n0, n0))) end
    then acc ++ [(d, nofN idx, h)] else acc.
  (** RustCycleCache::new, cycle.rs:406-449. *)
  Definition r_build_cache (c : cyc F) : @CycleCache F :=
    let n := length (time_s c) in
    let gz := forallb (fun g => g =? n0) (grade c) in
    let sd := r_trapz_step_distances c in
    let ds := cumsum sd in
    let hs := if gz then zeros n else cumsum (zipw (fun g dd => ncos (natan g) * dd * g) (grade c) sd) in
    let ks := fold_left r_cache_push (combine (seq 0 n) (combine ds hs)) [] in
    {| grade_all_zero := gz; cc_step_distances := sd; cc_distances := ds; cc_elevations := hs;
       cc_stops := map (fun v => v <=? tol6) (mps c);
       cc_ds := map (fun k => fst (fst k)) ks; cc_is := map (fun k => snd (fst k)) ks;
       cc_hs := map snd ks; cc_grades := grade c |}.
  (** arr.last().unwrap(), cycle.rs:458-459. *)
  Definition r_last_of (l : list F) : Res F := do j <- r_pred (length l); r_get l j.
  (** interp_grade, cycle.rs:453-465. *)
  Definition r_interp_grade (k : @CycleCache F) (dist : F) : Res F :=
    if grade_all_zero k then Ok n0
    else
      do d0 <- r_get (cc_ds k) 0;
      if dist <=? d0 then r_get (cc_grades k) 0
      else
        do dl <- r_last_of (cc_ds k);
        if dist >? dl then r_last_of (cc_grades k)
        else
          do raw <- r_interpolate dist (cc_ds k) (cc_is k) false;
          r_get (cc_grades k) (Z.to_nat (nceil raw)).
  (** interp_elevation, cycle.rs:468-474. *)
  Definition r_interp_elevation (k : @CycleCache F) (dist : F) : Res F :=
    if grade_all_zero k then Ok n0 else r_interpolate dist (cc_ds k) (cc_hs k) false.

  (** ((e1 - e0) / delta).asin().tan(), cycle.rs:928 and 982. *)
  Definition r_slope (e0 e1 delta : F) : F := ntan (nasin ((e1 - e0) / delta)).
  (** The loop of cycle.rs:955-962 over the samples [idxs]. *)
  Fixpoint r_grade_scan (dist : F) (ds gs : list F) (idxs : list nat) : Res F :=
    match idxs with
    | [] => r_last_of gs
    | i :: r => if ((dist >? nth (i - 1) ds n0) && (dist <=? nth i ds n0))%bool then r_get gs i
                else r_grade_scan dist ds gs r
    end.
  (** average_grade_over_range, cycle.rs:912-986. *)
  Definition r_average_grade_over_range (c : cyc F) (dist delta : F) (cache : option (@CycleCache F)) : Res F :=
    match cache with
    | Some k =>
        if grade_all_zero k then Ok n0
        else if delta <=? tol6 then r_interp_grade k dist
        else
          do e0 <- r_interp_elevation k dist;
          do e1 <- r_interp_elevation k (dist + delta);
          Ok (r_slope e0 e1 delta)
    | None =>
        if forallb (fun g => g =? n0) (grade c) then Ok n0
        else
          let dd := r_trapz_step_distances c in
          let ds := cumsum dd in
          if delta <=? tol6 then
            do d0 <- r_get ds 0;
            if dist <=? d0 then r_get (grade c) 0
            else
              do dl <- r_last_of ds;
              if dist >? dl then r_last_of (grade c)
              else r_grade_scan dist ds (grade c) (seq 1 (length (time_s c) - 1))
          else
            let hs := cumsum (zipw nmul (zipw nmul (map (fun g => ncos (natan g)) (grade c)) dd) (grade c)) in
            do e0 <- r_interpolate dist ds hs false;
            do e1 <- r_interpolate (dist + delta) ds hs false;
            Ok (r_slope e0 e1 delta)
    end.

  (** The loops of cycle.rs:1001-1005 and 1010-1014, and the value after them. *)
  Fixpoint r_stop_scan (dist : F) (ds vs : list F) : option F :=
    match ds, vs with
    | d :: ds', v :: vs' => if ((v <? tol6) && (d >? dist + tol6))%bool then Some (d - dist) else r_stop_scan dist ds' vs'
    | _, _ => None
    end.
  (** calc_distance_to_next_stop_from, cycle.rs:993-1018. *)
  Definition r_calc_distance_to_next_stop_from (c : cyc F) (dist : F) (cache : option (@CycleCache F)) : Res F :=
    let ds := match cache with Some k => cc_distances k | None => cumsum (r_trapz_step_distances c) end in
    match r_stop_scan dist ds (mps c) with
    | Some x => Ok x
    | None => do dl <- r_last_of ds; Ok (dl - dist)
    end.

  (** ** Constant-jerk trajectories, cycle.rs:13-110 *)
  (** cycle.rs:25-47 *)
  Definition r_calc_constant_jerk_trajectory (n : nat) (d0 v0 dr vr dt : F) : Res (F * F) :=
    if (Nat.ltb 1 n && (dr >? d0))%bool then
      let n := nofN n in
      let ddr := dr - d0 in
      let dvr := vr - v0 in
      let k := (dvr - (n2 * ddr / (n * dt)) + n2 * v0)
               / (lit 1 2 * n * (n - n1) * dt - (n1 / nofZ 3) * (n - n1) * (n - n2) * dt - lit 1 2 * (n - n1) * dt * dt) in
      let a0 := ((ddr / dt) - n * v0
                 - ((n1 / nofZ 6) * n * (n - n1) * (n - n2) * dt + lit 1 4 * n * (n - n1) * dt * dt) * k)
                / (lit 1 2 * n * n * dt) in
      Ok (k, a0)
    else Err PlainException.
  (** cycle.rs:63-71 *)
  Definition r_dist_for_constant_jerk (n : nat) (d0 v0 a0 k dt : F) : F :=
    let n := nofN n in
    let term1 := dt * ((n * v0) + (lit 1 2 * n * (n - n1) * a0 * dt) + ((n1 / nofZ 6) * k * dt * (n - n2) * (n - n1) * n)) in
    let term2 := lit 1 2 * dt * dt * ((n * a0) + (lit 1 2 * n * (n - n1) * k * dt)) in
    d0 + term1 + term2.
  (** cycle.rs:89-92 *)
  Definition r_speed_for_constant_jerk (n : nat) (v0 a0 k dt : F) : F :=
    let n := nofN n in v0 + (n * a0 * dt) + (lit 1 2 * n * (n - n1) * k * dt).
  (** cycle.rs:107-110 *)
  Definition r_accel_for_constant_jerk (n : nat) (a0 k dt : F) : F := a0 + (nofN n * k * dt).

  (** The loop of cycle.rs:1051-1058 over the step numbers [nis]. *)
  Fixpoint r_jerk_loop (speeds : list F) (i : nat) (v0 v a0 k dt : F) (nis : list nat) : list F * F :=
    match nis with
    | [] => (speeds, v)
    | ni :: r =>
        let p := (i - 1 + ni)%nat in
        if Nat.leb (length speeds) p then (speeds, v)
        else
          let v' := r_speed_for_constant_jerk ni v0 a0 k dt in
          r_jerk_loop (set_nth speeds p (nmax v' n0)) i v0 v' a0 k dt r
    end.
  (** modify_by_const_jerk_trajectory, cycle.rs:1031-1060. *)
  Definition r_modify_by_const_jerk_trajectory (c : cyc F) (i n : nat) (jerk accel0 : F) : Res (cyc F * F) :=
    if Nat.eqb n 0 then Ok (c, n0)
    else if Nat.leb (length (mps c)) i then
      match mps c with
      | [] => Ok (c, n0)
      | _ => do v <- r_last_of (mps c); Ok (c, v)
      end
    else
      do j <- r_pred i;
      do v0 <- r_get (mps c) j;
      do dt <- r_dt_at c i;
      let '(vs, v) := r_jerk_loop (mps c) i v0 v0 accel0 jerk dt (seq 1 n) in
      Ok (mkcyc (time_s c) vs (grade c) (road_type c), v).

  (** f64::round of a number that is not negative: half away from zero; and [as usize], which gives 0 for
      negative numbers.  cycle.rs:1101.  (Rounding a negative number is not needed: the result is 0 or rounds to 0.) *)
  Definition r_round_usize (x : F) : nat :=
    if x <? n0 then O
    else let f := nfloor x in Z.to_nat (if x - nofZ f <? lit 1 2 then f else (f + 1)%Z).
  (** modify_with_braking_trajectory, cycle.rs:1072-1109.  (The second component of dts_m's match is the same
      expression in both arms.) *)
  Definition r_modify_with_braking_trajectory (c : cyc F) (brake : F) (i : nat) (dts : option F) : Res (cyc F * F * nat) :=
    if negb (brake <? n0) then Err PlainException
    else if Nat.leb (length (time_s c)) i then
      do v <- r_last_of (mps c); Ok (c, v, O)
    else
      do j <- r_pred i;
      do v0 <- r_get (mps c) j;
      do dt <- r_dt_at c i;
      let calc := (- lit 1 2) * v0 * v0 / brake in
      let d := match dts with Some x => if x >? n0 then x else calc | None => calc end in
      if d <=? n0 then Ok (c, v0, O)
      else
        let tts := (- v0) / brake in
        let n := r_round_usize (tts / dt) in
        let n := if Nat.ltb n 2 then 2%nat else n in
        do ka <- r_calc_constant_jerk_trajectory n n0 v0 d n0 dt;
        do cv <- r_modify_by_const_jerk_trajectory c i n (fst ka) (snd ka);
        Ok (fst cv, snd cv, n).

  (** ** detect_passing, cycle.rs:1164-1228 *)
  (** The loop of cycle.rs:1194-1217 over the offsets [dis]; the result is the rendezvous (idx, steps, d_lv, v_lv). *)
  Fixpoint r_passing_loop (c c0 : cyc F) (i : nat) (v0 v0_lv d d_lv tol : F) (dis : list nat)
    : Res (option (nat * nat * F * F)) :=
    match dis with
    | [] => Ok None
    | di :: r =>
        let idx := (i + di)%nat in
        do v <- r_get (mps c) idx;
        do v_lv <- r_get (mps c0) idx;
        do dt <- r_dt_at c idx;
        do dt_lv <- r_dt_at c0 idx;
        let d' := d + (v + v0) * lit 1 2 * dt in
        let d_lv' := d_lv + (v_lv + v0_lv) * lit 1 2 * dt_lv in
        if (Nat.ltb 0 di && (d_lv' - d' <? - tol))%bool then Ok (Some (idx, (di + 1)%nat, d_lv', v_lv))
        else if v <=? tol6 then Ok None
        else r_passing_loop c c0 i v v_lv d' d_lv' tol r
    end.
  (** cycle.rs:1164-1228; has_collision is rendezvous_idx.is_some(), 1219. *)
  Definition r_detect_passing (c c0 : cyc F) (i : nat) (tol : F) : Res (@PassingInfo F) :=
    if Nat.leb (length (time_s c)) i then Ok (mkPassing false 0 0 n0 n0 n0 n0 n1)
    else
      do j <- r_pred i;
      do v0 <- r_get (mps c) j;
      do d0 <- r_trapz_step_start_distance c i;
      do v0_lv <- r_get (mps c0) j;
      do d0_lv <- r_trapz_step_start_distance c0 i;
      do r <- r_passing_loop c c0 i v0 v0_lv d0 d0_lv tol (seq 0 (length (mps c) - i));
      do dt <- r_dt_at c i;
      Ok (match r with
          | None => mkPassing false 0 0 d0 n0 v0 n0 dt
          | Some (idx, steps, d_lv, v_lv) => mkPassing true idx steps d0 d_lv v0 v_lv dt
          end).

  (** ** Micro-trips *)
  (** time_spent_moving, cycle.rs:178-189, with its default stopped speed 0. *)
  Definition r_time_spent_moving (c : cyc F) : F :=
    fold_left (fun acc k =>
                 let dt := nth k (time_s c) n0 - nth (k - 1) (time_s c) n0 in
                 if (nth k (mps c) n0 + nth (k - 1) (mps c) n0) / n2 >? n0 then acc + dt else acc)
              (seq 1 (length (time_s c) - 1)) n0.
  (** One pass of the loop of cycle.rs:212-242: the trips done, the trip being built, and the flag [moving]. *)
  Definition r_mt_step (stop : F) (st : list (list (sample F)) * list (sample F) * bool) (s : sample F)
    : list (list (sample F)) * list (sample F) * bool :=
    let '(done, mt, moving) := st in
    let '(done, mt) :=
      if ((s_v s >? stop) && negb moving && Nat.ltb 1 (length mt))%bool
      then (done ++ [rebase_samples mt], [nth (length mt - 1) mt s]) else (done, mt) in
    (done, mt ++ [s], s_v s >? stop).
  (** to_microtrips, cycle.rs:200-255 (the name, which the trips inherit, is not modelled). *)
  Definition r_to_microtrips (c : cyc F) (stop : F) : list (cyc F) :=
    let '(done, mt, _) := fold_left (r_mt_step stop) (samples c) ([], [], false) in
    map of_samples (match mt with [] => done | _ => done ++ [rebase_samples mt] end).
  (** The target speed of a micro-trip, cycle.rs:286-302. *)
  Definition r_mt_target (blend : F) (mt : cyc F) : F :=
    let d := nsum (r_dist_m mt) in
    let t := last (time_s mt) n0 - hd n0 (time_s mt) in
    let tm := r_time_spent_moving mt in
    let avg := if t >? n0 then d / t else n0 in
    let mavg := if tm >? n0 then d / tm else n0 in
    nmax (nmin (blend * (mavg - avg) + avg) mavg) avg.
  (** create_dist_and_target_speeds_by_microtrip, cycle.rs:269-312. *)
  Definition r_create_dist_and_target_speeds_by_microtrip (c : cyc F) (blend_factor min_speed : F) : list (F * F) :=
    let blend := if blend_factor <? n0 then n0 else if blend_factor >? n1 then n1 else blend_factor in
    snd (fold_left (fun st mt =>
                      let '(start, out) := st in
                      let d := nsum (r_dist_m mt) in
                      if d >? n0 then (start + d, out ++ [(start, nmax (r_mt_target blend mt) min_speed)]) else (start, out))
                   (r_to_microtrips c tol6) (n0, [])).

  (** ** extend_cycle, cycle.rs:320-354 *)
  (** f64::round ... as i32, cycle.rs:331 (saturation at the ends of i32 is not modelled). *)
  Definition r_round_i32 (x : F) : Z :=
    if x <? n0 then Z.opp (let f := nfloor (- x) in if - x - nofZ f <? lit 1 2 then f else (f + 1)%Z)
    else let f := nfloor x in if x - nofZ f <? lit 1 2 then f else (f + 1)%Z.
  (** cycle.rs:320-354 *)
  Definition r_extend_cycle (c : Cycle F) (absolute_time time_fraction : F) : Res (Cycle F) :=
    do t_end <- r_last_of (time_s (cdata c));
    let extra := r_round_i32 (absolute_time + time_fraction * t_end) in
    if Z.eqb extra 0 then Ok c
    else
      let idxs := seq 1 (Z.to_nat extra) in
      Ok (mkCycle (mkcyc (time_s (cdata c) ++ map (fun k => t_end + nofN k) idxs)
                         (mps (cdata c) ++ map (fun _ => n0) idxs) (grade (cdata c) ++ map (fun _ => n0) idxs)
                         (road_type (cdata c) ++ map (fun _ => n0) idxs)) (cname c)).
End RustCyc.
