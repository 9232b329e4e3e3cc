(** Model of one time step of the Rust implementation, rust/fastsim-core/src/simdrive/simdrive_impl.rs
    (abbreviated "impl.rs" in the comments): solve_step and the eight methods it calls.  Definitions only.

    The Rust object has one ndarray per quantity, with the names of the Python arrays; the model uses the
    records of SimModel.v and SimState.v for both.  A Rust array index out of range, and a subtraction
    from an index of type usize that would be negative, abort the program (panic): both are [Err IndexError]
    here.  (In a build without overflow checks the wrapped index is far out of range and panics too.)
    An error returned through anyhow is [Err PlainException].

    max, min and abs are the f64 methods; NaN operands are not modelled. *)
From Verif Require Import Num Numpy CycleModel VehModel SimModel SimState WalkModel.

Section RustModel.
  Context {F : Type} {N : Num F}.
  Local Open Scope num_scope.

  (** ** utils.rs *)
  (** arr.iter().position(|&x| p x) *)
  (** utils.rs:56-62 *)
  Fixpoint r_position (p : F -> bool) (l : list F) : option nat :=
    match l with
    | [] => None
    | x :: r => if p x then Some O else option_map S (r_position p r)
    end.
  (** first_grtr, utils.rs:56-62: the last index when no entry is greater. *)
  Definition r_first_grtr (l : list F) (cut : F) : option nat :=
    match l with
    | [] => None
    | _ => Some (match r_position (fun x => x >? cut) l with Some k => k | None => (length l - 1)%nat end)
    end.
  (** first_eq, utils.rs:65-71. *)
  Definition r_first_eq (l : list F) (cut : F) : option nat :=
    match l with
    | [] => None
    | _ => Some (match r_position (fun x => x =? cut) l with Some k => k | None => (length l - 1)%nat end)
    end.
  (** arr[k] of a Vec or ndarray. impl.rs:652-1749 *)
  Definition r_get (l : list F) (k : nat) : Res F :=
    match nth_error l k with Some x => Ok x | None => Err IndexError end.
  (** arr.last().ok_or_else(..)?. impl.rs:703-711 *)
  Definition r_last (l : list F) : Res F :=
    match l with [] => Err PlainException | _ => r_get l (length l - 1) end.
  (** k - 1 of a usize. impl.rs:714-725 *)
  Definition r_pred (k : nat) : Res nat := match k with O => Err IndexError | S j => Ok j end.
  (** first_grtr(arr, cut).ok_or_else(..)? - 1. impl.rs:714-722 *)
  Definition r_cell (l : list F) (cut : F) : Res nat :=
    match r_first_grtr l cut with None => Err PlainException | Some k => r_pred k end.
  (** first_grtr(arr, cut).unwrap_or(0) - 1. impl.rs:786-794, 1224-1229 *)
  Definition r_cell_or0 (l : list F) (cut : F) : Res nat :=
    match r_first_grtr l cut with None => r_pred 0 | Some k => r_pred k end.
  (** The literal 0.9999. impl.rs:717 *)
  Definition r_almost1 : F := lit 9999 10000.

  Variable veh : vehicle F.
  Variable props : physprops F.
  Variable sp : simparams F.

  (** max_fc_eff_kw, vehicle.rs:634-638. *)
  Definition r_max_fc_eff_kw : Res F :=
    r_get (fc_kw_out_array veh)
      (match r_first_eq (fc_eff_array veh) (amax (fc_eff_array veh)) with Some k => k | None => O end).
  (** mc_peak_eff, vehicle.rs:629-631. *)
  Definition r_mc_peak_eff : F := amax (mc_full_eff_array veh).
  (** mc_full_eff_array[cmp::max(1, first_grtr(grid, min(top * 0.9999, x))? - 1)], e.g. impl.rs:750-760. *)
  Definition r_eff_at (grid : list F) (top x : F) : Res F :=
    do k <- r_cell grid (nmin (top * r_almost1) x);
    r_get (mc_full_eff_array veh) (Nat.max 1 k).

  (** ** set_misc_calcs, impl.rs:624-645.  [aux] is aux_in_kw[i] on entry. *)
  Definition r_set_misc_calcs (e : step_env F) (prev : row F) (aux : F) : misc_row F :=
    let aux' := if e_aux_zero e then
                  if no_elec_aux veh then aux_kw veh / alt_eff veh else aux_kw veh
                else aux in
    let soc1 := soc (dec prev) in
    let rb := soc1 >=? min_soc veh + perc_high_acc_buf veh in
    let tag := ((soc1 <? min_soc veh) || (high_acc_fc_on_tag (misc prev) && negb rb))%bool in
    mkmisc aux' rb tag (mps_ach (spd prev) + max_trac_mps2 veh * e_dt e).

  (** ** set_comp_lims, impl.rs:652-840 *)
  (** impl.rs:701-727 *)
  Definition r_mc_elec_in_lim (elec avail : F) : Res F :=
    let mx := amax (mc_kw_in_array veh) in
    if elec >? n0 then
      if avail =? mx then
        do x <- r_last (mc_kw_out_array veh); Ok (nmin x (mc_max_kw veh))
      else
        do k <- r_cell (mc_kw_in_array veh) (nmin (mx * r_almost1) avail);
        do x <- r_get (mc_kw_out_array veh) k;
        Ok (nmin x (mc_max_kw veh))
    else Ok n0.
  (** impl.rs:742-762 *)
  Definition r_mc_elec_kw_in (mcout : F) : Res F :=
    if mcout =? n0 then Ok n0
    else if mcout =? mc_max_kw veh then
      do x <- r_last (mc_full_eff_array veh); Ok (mcout / x)
    else do x <- r_eff_at (mc_kw_out_array veh) (mc_max_kw veh) mcout; Ok (mcout / x).
  (** impl.rs:772-798 (the unwrap_or(0) - 1 of lines 793-794 panics like the others) *)
  Definition r_mech_mc_in (chg road : F) : Res F :=
    if chg =? n0 then Ok n0
    else if mc_max_kw veh =? chg - road then
      do x <- r_last (mc_full_eff_array veh); Ok (nmin (mc_max_kw veh) (chg / x))
    else
      do k <- r_cell_or0 (mc_kw_out_array veh) (nmin (mc_max_kw veh * r_almost1) (chg - road));
      do x <- r_get (mc_full_eff_array veh) (Nat.max 1 k);
      Ok (nmin (mc_max_kw veh) (chg / x)).
  (** impl.rs:800-806 *)
  Definition r_max_trac_kw (trac_mps : F) : F :=
    wheel_coef_of_fric veh * drive_axle_weight_frac veh * veh_kg veh * a_grav_mps2 props
    / (n1 + veh_cg_m veh * wheel_coef_of_fric veh / wheel_base_m veh) / k1000 * trac_mps.
  (** impl.rs:808-838 *)
  Definition r_trans_kw_out (m : misc_row F) (c : ctl_row F) (mcout fcmax elec trac : F) : F :=
    let slow := (no_elec_sys veh || no_elec_aux veh || high_acc_fc_on_tag m)%bool in
    if impose_coast c then n0
    else if is_h2fc (fc_eff_type veh) then
      if slow then nmin ((mcout - aux_in_kw m) * trans_eff veh) (trac / trans_eff veh)
      else nmin ((mcout - nmin elec n0) * trans_eff veh) (trac / trans_eff veh)
    else if slow then nmin ((mcout + fcmax - aux_in_kw m) * trans_eff veh) (trac / trans_eff veh)
    else nmin ((mcout + fcmax - nmin elec n0) * trans_eff veh) (trac / trans_eff veh).
  (** impl.rs:652-840 *)
  Definition r_set_comp_lims (e : step_env F) (prev : row F) (m : misc_row F) (c : ctl_row F) : Res (lims_row F) :=
    let dt := e_dt e in
    let soc1 := soc (dec prev) in
    let road := cur_max_roadway_chg_kw c in
    let fs := nmin (fs_max_kw veh)
                (fs_kw_out_ach (fc prev) + fs_max_kw veh / fs_secs_to_peak_pwr veh * dt) in
    let fctr := fc_kw_out_ach (fc prev) + fc_max_kw veh / fc_sec_to_peak_pwr veh * dt in
    let fcmax := nmin (fc_max_kw veh) fctr in
    let dis := if ((ess_max_kwh veh =? n0) || (soc1 <? min_soc veh))%bool then n0
               else ess_max_kwh veh * nsqrt (ess_round_trip_eff veh) * k3600 * (soc1 - min_soc veh) / dt in
    let essout := nmin (ess_max_kw veh) dis in
    let chgcap := if ((ess_max_kwh veh =? n0) || (ess_max_kw veh =? n0))%bool then n0
                  else nmax ((max_soc veh - soc1) * ess_max_kwh veh
                             / nsqrt (ess_round_trip_eff veh) / (dt / k3600)) n0 in
    let chg := nmin chgcap (ess_max_kw veh) in
    let elec := if is_h2fc (fc_eff_type veh) then fcmax + road + essout - aux_in_kw m
                else road + essout - aux_in_kw m in
    let avail := nmin elec (mc_max_elec_in_kw veh) in
    do mcel <- r_mc_elec_in_lim elec avail;
    let mctr := nabs (mc_mech_kw_out_ach (dec prev)) + mc_max_kw veh / mc_sec_to_peak_pwr veh * dt in
    let mcout := nmax (nmin (nmin mcel mctr) ((if stop_start veh then n0 else n1) * mc_max_kw veh))
                      (- mc_max_kw veh) in
    do mcelin <- r_mc_elec_kw_in mcout;
    let perc := if mc_max_kw veh =? n0 then n0
                else nmin ((chg + aux_in_kw m) / mc_max_kw veh) n1 in
    do mechin <- r_mech_mc_in chg road;
    let trac := r_max_trac_kw (max_trac_mps m) in
    let tr := r_trans_kw_out m c mcout fcmax elec trac in
    Ok (mklims fs fctr fcmax dis essout chgcap chg elec avail mcel mctr mcout mcelin perc mechin trac tr).

  (** ** set_power_calcs, impl.rs:846-935.  [v] is the speed it works with (lines 847-851). *)
  Definition r_set_power_calcs (e : step_env F) (prev : row F) (l : lims_row F) (v : F) : pwr_row F :=
    let dt := e_dt e in
    let v1 := mps_ach (spd prev) in
    let g := e_grade e v in
    let drag := lit 1 2 * air_density_kg_per_m3 props * drag_coef veh * frontal_area_m2 veh
                * ncube ((v1 + v) / n2) / k1000 in
    let accel := veh_kg veh / (n2 * dt) * (nsq v - nsq v1) / k1000 in
    let ascent := a_grav_mps2 props * nsin (natan g) * veh_kg veh * (v1 + v) / n2 / k1000 in
    let trac := drag + accel + ascent in
    let spare := cur_max_trac_kw l - trac in
    let rr := veh_kg veh * a_grav_mps2 props * wheel_rr_coef veh * ncos (natan g) * (v1 + v) / n2 / k1000 in
    let rad := v / wheel_radius_m veh in
    let tire := (lit 1 2 * wheel_inertia_kg_m2 veh * num_wheels veh
                 * (nsq rad - nsq (v1 / wheel_radius_m veh)) / dt) / k1000 in
    let whl := trac + rr + tire in
    let perc := max_regen veh / (n1 + regen_a veh * nexp ((- regen_b veh) *
                  ((mph_of (e_mps e) + v1 * MPH_PER_MPS) / n2 + n1))) in
    let regen := nmax (nmin (cur_max_mech_mc_kw_in l * trans_eff veh) (perc * (- whl))) n0 in
    let fric := - nmin (regen + whl) n0 in
    let req := whl + fric in
    let met := req <=? cur_max_trans_kw_out l in
    let out := if met then req else cur_max_trans_kw_out l in
    let inp := if out >? n0 then out / trans_eff veh else out * trans_eff veh in
    let help := if met then
                  if is_h2fc (fc_eff_type veh) then nmax inp (- cur_max_mech_mc_kw_in l)
                  else nmax (inp - cur_max_fc_kw_out l) (- cur_max_mech_mc_kw_in l)
                else nmax (cur_max_mc_kw_out l) (- cur_max_mech_mc_kw_in l) in
    mkpwr drag accel ascent trac spare rr rad tire whl perc regen fric req met out inp help.

  (** ** set_ach_speed, impl.rs:941-1085 *)
  (** t3, t2, t1, t0; impl.rs:958-1009 *)
  Definition r_cubic (e : step_env F) (v1 : F) (l : lims_row F) (g : F) : F * F * F * F :=
    let dt := e_dt e in
    let rho := air_density_kg_per_m3 props in
    let cd := drag_coef veh in
    let fa := frontal_area_m2 veh in
    let m := veh_kg veh in
    let gr := a_grav_mps2 props in
    let drag3 := n1 / nofZ 16 * rho * cd * fa in
    let accel2 := lit 1 2 * m / dt in
    let drag2 := nofZ 3 / nofZ 16 * rho * cd * fa * v1 in
    let wheel2 := lit 1 2 * wheel_inertia_kg_m2 veh * num_wheels veh / (dt * nsq (wheel_radius_m veh)) in
    let drag1 := nofZ 3 / nofZ 16 * rho * cd * fa * nsq v1 in
    let roll1 := lit 1 2 * m * gr * wheel_rr_coef veh * ncos (natan g) in
    let ascent1 := lit 1 2 * gr * nsin (natan g) * m in
    let accel0 := (- lit 1 2) * m * nsq v1 / dt in
    let drag0 := n1 / nofZ 16 * rho * cd * fa * ncube v1 in
    let roll0 := lit 1 2 * m * gr * wheel_rr_coef veh * ncos (natan g) * v1 in
    let ascent0 := lit 1 2 * gr * nsin (natan g) * m * v1 in
    let wheel0 := (- lit 1 2) * wheel_inertia_kg_m2 veh * num_wheels veh * nsq v1
                  / (dt * nsq (wheel_radius_m veh)) in
    (drag3 / k1000, (accel2 + drag2 + wheel2) / k1000, (drag1 + roll1 + ascent1) / k1000,
     (accel0 + drag0 + roll0 + ascent0 + wheel0) / k1000 - cur_max_trans_kw_out l).
  (** pwr_err_fn, impl.rs:1018-1020 *)
  Definition r_pwr_err (t : F * F * F * F) (x : F) : F :=
    let '(t3, t2, t1, t0) := t in t3 * ncube x + t2 * nsq x + t1 * x + t0.
  (** pwr_err_per_speed_guess_fn, impl.rs:1021-1023 *)
  Definition r_pwr_err_slope (t : F * F * F * F) (x : F) : F :=
    let '(t3, t2, t1, t0) := t in nofZ 3 * t3 * nsq x + n2 * t2 * x + t1.
  (** The while loop, impl.rs:1024-1061: [n] is max_iter - spd_ach_i; [xs] are speed_guesses, newest first,
      of which the loop body reads the last two.  The vectors of errors and slopes are recomputed from the
      guesses. *)
  Fixpoint r_newton (t : F * F * F * F) (n : nat) (x : F) (xs : list F) : list F :=
    match n with
    | O => x :: xs
    | S k =>
        let g := newton_gain sp in
        let b := r_pwr_err t x - x * r_pwr_err_slope t x in
        let x' := x * (n1 - g) - g * b / r_pwr_err_slope t x in
        if nabs ((x' - x) / x) <? newton_xtol sp then x' :: x :: xs else r_newton t k x' (x :: xs)
    end.
  (** ys.min().unwrap(): the least entry. impl.rs:1069-1073 *)
  Fixpoint r_least (y : F) (l : list F) : F :=
    match l with [] => y | a :: r => r_least (if a <? y then a else y) r end.
  (** speed_guesses[ys.iter().position(|x| x == ys.min())], impl.rs:1065-1075; speed_guesses in order *)
  Definition r_best (t : F * F * F * F) (guesses : list F) : Res F :=
    let ys := map (fun x => nabs (r_pwr_err t x)) guesses in
    match ys with
    | [] => Err IndexError
    | y :: r =>
        match r_position (fun x => x =? r_least y r) ys with
        | None => Err PlainException
        | Some k => r_get guesses k
        end
    end.
  (** impl.rs:1010-1076: the speed and the iteration count *)
  Definition r_solve_speed (t : F * F * F * F) (v1 : F) : Res (F * nat) :=
    let guesses := rev (r_newton t (newton_max_iter sp - 1) (nmax n1 v1) []) in
    do b <- r_best t guesses;
    Ok (nmax b n0, length guesses).
  (** The grade loop, impl.rs:947-1080; grade_tol is 1e-4 (impl.rs:950) and at most 3 rounds are made. *)
  Fixpoint r_grade_loop (e : step_env F) (v1 : F) (l : lims_row F) (g : F) (fuel : nat) : Res (F * nat) :=
    do vn <- r_solve_speed (r_cubic e v1 l g) v1;
    let g' := e_grade e (fst vn) in
    match fuel with
    | O => Ok vn
    | S k => if nabs (g - g') >? lit 1 10000 then r_grade_loop e v1 l g' k else Ok vn
    end.
  (** impl.rs:941-1085 *)
  Definition r_mkspd (e : step_env F) (iters : nat) (v : F) : spd_row F :=
    mkspd iters v (v * MPH_PER_MPS) (v * e_dt e) (v * e_dt e * n1 / M_PER_MI).
  (** impl.rs:941-1085; the second set_power_calcs works with mps_ach[i], newton_iters[i] being positive *)
  Definition r_set_ach_speed (e : step_env F) (prev : row F) (l : lims_row F) (p : pwr_row F)
             (old : spd_row F) : Res (pwr_row F * spd_row F) :=
    if cyc_met p then Ok (p, r_mkspd e (newton_iters old) (e_mps e))
    else
      do vn <- r_grade_loop e (mps_ach (spd prev)) l (e_grade_est e) 2;
      Ok (r_set_power_calcs e prev l (fst vn), r_mkspd e (snd vn) (fst vn)).
  (** impl.rs:847-851 *)
  Definition r_start_speed (e : step_env F) (old : spd_row F) : F :=
    if Nat.ltb 0 (newton_iters old) then mps_ach old else e_mps e.

  (** ** set_hybrid_cont_calcs, impl.rs:1091-1320 *)
  (** impl.rs:1092-1130; [old] supplies the entries not written on this path *)
  Definition r_regen_buff (e : step_env F) (prev : row F) (l : lims_row F) (old : hyb_row F) : F * F * F :=
    let soc1 := soc (dec prev) in
    if no_elec_sys veh then (n0, ess_regen_buff_dischg_kw old, max_ess_regen_buff_chg_kw old)
    else if charging_on veh then
      (nmax (max_soc veh - max_regen_kwh veh / ess_max_kwh veh) ((max_soc veh + min_soc veh) / n2),
       ess_regen_buff_dischg_kw old, max_ess_regen_buff_chg_kw old)
    else
      let rb := nmax ((ess_max_kwh veh * max_soc veh
                       - lit 1 2 * veh_kg veh * nsq (e_mps e) * (n1 / k1000) * (n1 / k3600)
                         * r_mc_peak_eff * max_regen veh) / ess_max_kwh veh) (min_soc veh) in
      (rb,
       nmin (cur_ess_max_kw_out l) (nmax n0 ((soc1 - rb) * ess_max_kwh veh * k3600 / e_dt e)),
       nmin (nmax n0 ((rb - soc1) * ess_max_kwh veh * k3600 / e_dt e)) (cur_max_ess_chg_kw l)).
  (** impl.rs:1131-1163 *)
  Definition r_accel_buff (e : step_env F) (prev : row F) (l : lims_row F) (old : hyb_row F) : F * F * F :=
    let soc1 := soc (dec prev) in
    if no_elec_sys veh then (n0, ess_accel_buff_chg_kw old, max_ess_accell_buff_dischg_kw old)
    else
      let vb := max_accel_buffer_mph veh / MPH_PER_MPS in
      let ab := nmin (nmax ((nsq vb - nsq (e_mps e)) / nsq vb
                            * nmin (max_accel_buffer_perc_of_useable_soc veh * (max_soc veh - min_soc veh))
                                   (max_regen_kwh veh / ess_max_kwh veh)
                            + min_soc veh) (min_soc veh))
                     (max_soc veh) in
      (ab, nmax n0 ((ab - soc1) * ess_max_kwh veh * k3600 / e_dt e),
       nmin (nmax n0 ((soc1 - ab) * ess_max_kwh veh * k3600 / e_dt e)) (cur_ess_max_kw_out l)).
  (** impl.rs:1164-1193 *)
  Definition r_accel_regen_dischg (e : step_env F) (prev : row F) (l : lims_row F)
             (rb rbdis ab abchg : F) : F :=
    let soc1 := soc (dec prev) in
    let clamp x := nmax (nmin x (cur_ess_max_kw_out l)) (- cur_max_ess_chg_kw l) in
    if rb <? ab then clamp ((soc1 - (rb + ab) / n2) * ess_max_kwh veh * k3600 / e_dt e)
    else if soc1 >? rb then clamp rbdis
    else if soc1 <? ab then clamp ((- n1) * abchg)
    else clamp n0.
  (** impl.rs:1196-1231 *)
  Definition r_mc_for_max_fc_eff (out gap peak : F) : Res F :=
    if no_elec_sys veh then Ok n0
    else if out <? peak then
      if gap =? mc_max_kw veh then do x <- r_last (mc_full_eff_array veh); Ok (- gap / x)
      else do x <- r_eff_at (mc_kw_out_array veh) (mc_max_kw veh) gap; Ok (- gap / x)
    else if gap =? mc_max_kw veh then r_last (mc_kw_in_array veh)
    else
      do k <- r_cell_or0 (mc_kw_out_array veh) (nmin (mc_max_kw veh * r_almost1) gap);
      r_get (mc_kw_in_array veh) k.
  (** impl.rs:1232-1258 *)
  Definition r_elec_req_4ae (inp aux : F) : Res F :=
    if no_elec_sys veh then Ok n0
    else if inp >? n0 then
      if inp =? mc_max_kw veh then do x <- r_last (mc_full_eff_array veh); Ok (inp / x + aux)
      else do x <- r_eff_at (mc_kw_out_array veh) (mc_max_kw veh) inp; Ok (inp / x + aux)
    else Ok n0.
  (** impl.rs:1263-1273 *)
  Definition r_can_pwr_all_elec (e : step_env F) (prev : row F) (l : lims_row F) (ab inp req : F) : bool :=
    let tol := lit 1 1000000 in
    if fc_max_kw veh =? n0 then
      ((ab <? soc (dec prev)) && (inp - tol <=? cur_max_mc_kw_out l)
       && ((req <? cur_max_elec_kw l) || (fc_max_kw veh =? n0)))%bool
    else
      ((ab <? soc (dec prev)) && (inp - tol <=? cur_max_mc_kw_out l)
       && ((req <? cur_max_elec_kw l) || (fc_max_kw veh =? n0))
       && ((mph_of (e_mps e) - tol <=? mph_fc_on veh) || charging_on veh)
       && (req <=? kw_demand_fc_on veh))%bool.
  (** impl.rs:1091-1320 *)
  Definition r_set_hybrid_cont_calcs (e : step_env F) (prev : row F) (m : misc_row F) (l : lims_row F)
             (p : pwr_row F) (c : ctl_row F) (old : hyb_row F) : Res (hyb_row F) :=
    let soc1 := soc (dec prev) in
    let aux := aux_in_kw m in
    let road := cur_max_roadway_chg_kw c in
    let inp := trans_kw_in_ach p in
    let '(rb, rbdis, rbchg) := r_regen_buff e prev l old in
    let '(ab, abchg, abdis) := r_accel_buff e prev l old in
    let ard := r_accel_regen_dischg e prev l rb rbdis ab abchg in
    do peak <- r_max_fc_eff_kw;
    let gap := nabs (trans_kw_out_ach p - peak) in
    do mcfc <- r_mc_for_max_fc_eff (trans_kw_out_ach p) gap peak;
    do req <- r_elec_req_4ae inp aux;
    let can := r_can_pwr_all_elec e prev l ab inp req in
    (* 1274-1288 *)
    let des := if can then
                 if inp <? aux then aux + inp
                 else if rb <? ab then ard
                 else if soc1 >? rb then rbdis
                 else if soc1 <? ab then - abchg
                 else inp + aux - road
               else n0 in
    (* 1290-1311 *)
    let essae := if can then
                   nmax (- cur_max_ess_chg_kw l)
                     (nmax (- rbchg)
                        (nmax (nmin n0 (road - inp + aux)) (nmin (cur_ess_max_kw_out l) des)))
                 else n0 in
    let erae := nmin (nmax n0 (inp + aux - essae)) road in
    Ok (mkhyb rb rbdis rbchg ab abchg abdis ard gap mcfc req (fc_time_on (dec prev)) can des essae erae).

  (** ** set_fc_forced_state_rust, impl.rs:1326-1365 *)
  Definition r_set_fc_forced_state (e : step_env F) (p : pwr_row F) (h : hyb_row F) : Res (forced_row F) :=
    let inp := trans_kw_in_ach p in
    let on := ((prev_fc_time_on h >? n0) && (prev_fc_time_on h <? min_fc_time_on veh - e_dt e))%bool in
    if (negb on || negb (can_pwr_all_elec h))%bool then Ok (mkforced on 1 n0)
    else if inp <? n0 then Ok (mkforced on 2 inp)
    else
      do peak <- r_max_fc_eff_kw;
      if peak =? inp then Ok (mkforced on 3 n0)
      else if ((idle_fc_kw veh >? inp) && (accel_kw p >=? n0))%bool then Ok (mkforced on 4 (inp - idle_fc_kw veh))
      else if peak >? inp then Ok (mkforced on 5 n0)
      else Ok (mkforced on 6 (inp - peak)).

  (** ** set_hybrid_cont_decisions, impl.rs:1371-1682 *)
  (** impl.rs:1381-1472 *)
  Definition r_ess_if_fc_req (m : misc_row F) (l : lims_row F) (h : hyb_row F) (des : F) : F :=
    let aux := aux_in_kw m in
    let top x := nmin (cur_ess_max_kw_out l)
                   (nmin (mc_max_elec_in_kw veh + aux) (nmin (cur_max_mc_elec_kw_in l + aux) x)) in
    let chg := cur_max_ess_chg_kw l in
    if accel_buff_soc h >? regen_buff_soc h then top (nmax (- chg) (ess_accel_regen_dischg_kw h))
    else if ess_regen_buff_dischg_kw h >? n0 then
      top (nmax (- chg) (nmin (ess_accel_regen_dischg_kw h)
                           (nmin (mc_elec_in_lim_kw l + aux) (nmax (ess_regen_buff_dischg_kw h) des))))
    else if ess_accel_buff_chg_kw h >? n0 then
      top (nmax (- chg) (nmax (- max_ess_regen_buff_chg_kw h) (nmin (- ess_accel_buff_chg_kw h) des)))
    else if des >? n0 then
      top (nmax (- chg) (nmin des (max_ess_accell_buff_dischg_kw h)))
    else
      top (nmax (- chg) (nmax des (- max_ess_regen_buff_chg_kw h))).
  (** impl.rs:1488-1535 *)
  Definition r_mc_if_fc_req (el : F) : Res F :=
    let mx := amax (mc_kw_in_array veh) in
    if (no_elec_sys veh || (el =? n0))%bool then Ok n0
    else if el >? n0 then
      if el =? mx then do x <- r_last (mc_full_eff_array veh); Ok (el * x)
      else do x <- r_eff_at (mc_kw_in_array veh) mx el; Ok (el * x)
    else
      if - el =? mx then do x <- r_last (mc_full_eff_array veh); Ok (el / x)
      else do x <- r_eff_at (mc_kw_in_array veh) mx (- el); Ok (el / x).
  (** impl.rs:1537-1565 *)
  Definition r_mc_mech_out (l : lims_row F) (p : pwr_row F) (h : hyb_row F) (f : forced_row F) (mcreq : F) : F :=
    let inp := trans_kw_in_ach p in
    let can := can_pwr_all_elec h in
    if mc_max_kw veh =? n0 then n0
    else if (fc_forced_on f && can && (pt_eqb (veh_pt_type veh) HEV || pt_eqb (veh_pt_type veh) PHEV)
             && negb (is_h2fc (fc_eff_type veh)))%bool then mc_mech_kw_4forced_fc f
    else if inp <=? n0 then
      if (negb (is_h2fc (fc_eff_type veh)) && (fc_max_kw veh >? n0))%bool then
        if can then - nmin (cur_max_mech_mc_kw_in l) (- inp)
        else nmin (- nmin (cur_max_mech_mc_kw_in l) (- inp)) (nmax (- cur_max_fc_kw_out l) mcreq)
      else nmin (- nmin (cur_max_mech_mc_kw_in l) (- inp)) (- inp)
    else if can then inp
    else nmax (min_mc_kw_2help_fc p) mcreq.
  (** impl.rs:1567-1602 *)
  Definition r_mc_elec_in (mech : F) : Res F :=
    let mx := amax (mc_kw_in_array veh) in
    if mech =? n0 then Ok n0
    else if mech <? n0 then
      if - mech =? mx then do x <- r_last (mc_full_eff_array veh); Ok (mech * x)
      else do x <- r_eff_at (mc_kw_in_array veh) mx (- mech); Ok (mech * x)
    else
      if mc_max_kw veh =? mech then do x <- r_last (mc_full_eff_array veh); Ok (mech / x)
      else do x <- r_eff_at (mc_kw_out_array veh) (mc_max_kw veh) mech; Ok (mech / x).
  (** impl.rs:1604-1624 *)
  Definition r_roadway (h : hyb_row F) (c : ctl_row F) (elin erreq : F) : F :=
    let road := cur_max_roadway_chg_kw c in
    if road =? n0 then n0
    else if is_h2fc (fc_eff_type veh) then
      nmax n0 (nmax elin (nmax (max_ess_regen_buff_chg_kw h) (nmax (ess_regen_buff_dischg_kw h) road)))
    else if can_pwr_all_elec h then er_ae_kw_out h
    else erreq.
  (** impl.rs:1630-1655 *)
  Definition r_ess_out (m : misc_row F) (l : lims_row F) (p : pwr_row F) (h : hyb_row F)
             (elin road help des : F) : F :=
    let aux := aux_in_kw m in
    if ((ess_max_kw veh =? n0) || (ess_max_kwh veh =? n0))%bool then n0
    else if is_h2fc (fc_eff_type veh) then
      if trans_kw_out_ach p >=? n0 then
        nmin (cur_ess_max_kw_out l)
          (nmin (elin + aux - road) (nmax help (nmax des (ess_accel_regen_dischg_kw h))))
      else elin + aux - road
    else if (high_acc_fc_on_tag m || no_elec_aux veh)%bool then elin - road
    else elin + aux - road.
  (** impl.rs:1657-1667 *)
  Definition r_ess_cur_kwh (e : step_env F) (prev : row F) (ess : F) : F :=
    if no_elec_sys veh then n0
    else if ess <? n0 then
      ess_cur_kwh (dec prev) - ess * e_dt e / k3600 * nsqrt (ess_round_trip_eff veh)
    else
      ess_cur_kwh (dec prev) - ess * e_dt e / k3600 * (n1 / nsqrt (ess_round_trip_eff veh)).
  (** impl.rs:1371-1682; [old_fc] is fc_kw_out_ach[i] on entry (line 1676) *)
  Definition r_set_hybrid_cont_decisions (e : step_env F) (prev : row F) (m : misc_row F) (l : lims_row F)
             (p : pwr_row F) (h : hyb_row F) (f : forced_row F) (c : ctl_row F) (old_fc : F) : Res (dec_row F) :=
    let aux := aux_in_kw m in
    let road := cur_max_roadway_chg_kw c in
    let d0 := - mc_elec_in_kw_for_max_fc_eff h - road in
    let des := if d0 >? n0 then d0 * ess_dischg_to_fc_max_eff_perc veh
               else d0 * ess_chg_to_fc_max_eff_perc veh in
    let essreq := r_ess_if_fc_req m l h des in
    let erreq := nmax n0 (nmin road (nmin (cur_max_mech_mc_kw_in l) (essreq - mc_elec_in_lim_kw l + aux))) in
    let elreq := essreq + erreq - aux in
    do mcreq <- r_mc_if_fc_req elreq;
    let mech := r_mc_mech_out l p h f mcreq in
    do elin <- r_mc_elec_in mech;
    let rd := r_roadway h c elin erreq in
    let help := elin + aux - cur_max_fc_kw_out l - rd in
    let ess := r_ess_out m l p h elin rd help des in
    let kwh := r_ess_cur_kwh e prev ess in
    let soc' := if ess_max_kwh veh =? n0 then n0 else kwh / ess_max_kwh veh in
    let ton := if (can_pwr_all_elec h && negb (fc_forced_on f) && (old_fc =? n0))%bool then n0
               else fc_time_on (dec prev) + e_dt e in
    Ok (mkdec des essreq erreq elreq mcreq mech elin rd help ess kwh soc' ton).

  (** ** set_fc_power, impl.rs:1688-1747 *)
  Definition r_fc_out (m : misc_row F) (l : lims_row F) (p : pwr_row F) (d : dec_row F) : F :=
    let aux := aux_in_kw m in
    if fc_max_kw veh =? n0 then n0
    else if is_h2fc (fc_eff_type veh) then
      nmin (cur_max_fc_kw_out l)
           (nmax n0 (mc_elec_kw_in_ach d + aux - ess_kw_out_ach d - roadway_chg_kw_out_ach d))
    else if (no_elec_sys veh || no_elec_aux veh || high_acc_fc_on_tag m)%bool then
      nmin (cur_max_fc_kw_out l) (nmax n0 (trans_kw_in_ach p - mc_mech_kw_out_ach d + aux))
    else nmin (cur_max_fc_kw_out l) (nmax n0 (trans_kw_in_ach p - mc_mech_kw_out_ach d)).
  (** fc_eff_array[first_grtr(fc_kw_out_array, min(fc_kw_out_ach, fc_max_kw))? - 1], impl.rs:1724-1741 *)
  Definition r_fc_eff_at (x : F) : Res F :=
    do k <- r_cell (fc_kw_out_array veh) (nmin x (fc_max_kw veh));
    r_get (fc_eff_array veh) k.
  (** impl.rs:1688-1747 *)
  Definition r_set_fc_power (e : step_env F) (m : misc_row F) (l : lims_row F) (p : pwr_row F)
             (d : dec_row F) : Res (fc_row F) :=
    let out := r_fc_out m l p d in
    let pct := if fc_max_kw veh =? n0 then n0 else out / fc_max_kw veh in
    do inp <- (if out =? n0 then Ok n0
               else do x <- r_fc_eff_at out;
                    if negb (x =? n0) then Ok (out / x) else Ok n0);
    Ok (mkfc out pct inp inp (inp * e_dt e / k3600)).

  (** ** solve_step, impl.rs:608-618 *)
  Definition r_solve_row (e : step_env F) (prev cur : row F) : Res (row F) :=
    let c := ctl cur in
    let m := r_set_misc_calcs e prev (aux_in_kw (misc cur)) in
    do l <- r_set_comp_lims e prev m c;
    let p0 := r_set_power_calcs e prev l (r_start_speed e (spd cur)) in
    do ps <- r_set_ach_speed e prev l p0 (spd cur);
    let p := fst ps in
    do h <- r_set_hybrid_cont_calcs e prev m l p c (hyb cur);
    do f <- r_set_fc_forced_state e p h;
    do d <- r_set_hybrid_cont_decisions e prev m l p h f c (fc_kw_out_ach (fc cur));
    do q <- r_set_fc_power e m l p d;
    Ok (mkrow m l p (snd ps) h f d q c).
End RustModel.
