(** Model of the post-processing of the Rust implementation: set_post_scalars,
    rust/fastsim-core/src/simdrive/simdrive_impl.rs ("impl.rs") 1751-1901.  Definitions only.

    The scalars are those of the Python program (PostModel.v); log messages are not modelled. *)
From Verif Require Import Num Numpy CycleModel VehModel SimModel SimState WalkModel PostModel RustModel RustWalkModel.

Section RustPost.
  Context {F : Type} {N : Num F}.
  Local Open Scope num_scope.

  (** dist_m, cycle.rs:1122-1124. *)
  Definition r_dist_m (c : cyc F) : list F := zipw nmul (mps c) (r_dt_s c).
  (** impl.rs:1752-1756 *)
  Definition r_post_mpgge (d : sdrive F) : F :=
    if sum_rows d (fun r => fs_kwh_out_ach (fc r)) =? n0 then n0
    else sum_rows d (fun r => dist_mi_ach (spd r)) / (sum_rows d (fun r => fs_kwh_out_ach (fc r)) / kwh_per_gge (d_props d)).
  (** An entry of ess_loss_kw, impl.rs:1792-1802. *)
  Definition r_ess_loss (v : vehicle F) (p : F) : F :=
    if ((ess_max_kw v =? n0) || (ess_max_kwh v =? n0))%bool then n0
    else if p <? n0 then - p - (- p * nsqrt (ess_round_trip_eff v))
    else p * (n1 / nsqrt (ess_round_trip_eff v)) - p.
  (** impl.rs:1792: entry 0 is left at zero. *)
  Definition r_ess_loss_arr (d : sdrive F) : list F :=
    match d_rows d with
    | [] => []
    | _ :: r => n0 :: map (fun x => r_ess_loss (d_veh d) (ess_kw_out_ach (dec x))) r
    end.
  (** impl.rs:1890: maximum of the distances between achieved and prescribed speed. *)
  Definition r_miss_speed (d : sdrive F) : F :=
    match zipw (fun r v => nabs (mps_ach (spd r) - v)) (d_rows d) (mps (d_cyc d)) with
    | [] => n0
    | a :: r => nmaxl a r
    end.
  (** impl.rs:1860-1868: signed, unlike in Python. *)
  Definition r_miss_time_frac (d : sdrive F) : F :=
    let t0 := last (time_s (d_cyc0 d)) n0 in
    (last (time_s (d_cyc d)) n0 - t0) / t0.
  (** get_fs_cumu_mj_out_ach, simdrive.rs:388-390. *)
  Definition r_fs_cumu (d : sdrive F) : list F :=
    cumsum (map (fun x => x * lit 1 1000) (zipw nmul (map (fun r => fs_kw_out_ach (fc r)) (d_rows d)) (r_dt_s (d_cyc d)))).
  (** set_post_scalars, impl.rs:1751-1901; the loop for accel_kw (1847-1851) is [post_accel] of WalkModel.v.  An empty
      cycle makes it fail at 1764. *)
  Definition r_set_post_scalars (d : sdrive F) : Res (post_scalars F) :=
    match d_rows d with
    | [] => Err PlainException
    | _ :: _ =>
      let v := d_veh d in
      let s := d_sp d in
      let road := r_sum_dt d (fun r => roadway_chg_kw_out_ach (dec r)) in
      let dis := - n1 * (soc_last d - soc_first d) * ess_max_kwh v * nofZ 3600 in
      let mi := sum_rows d (fun r => dist_mi_ach (spd r)) in
      let fuel := r_sum_dt d (fun r => fs_kw_out_ach (fc r)) in
      let drag := r_sum_dt d (fun r => drag_kw (pwr r)) in
      let asc := r_sum_dt d (fun r => ascent_kw (pwr r)) in
      let rr := r_sum_dt d (fun r => rr_kw (pwr r)) in
      let loss := r_ess_loss_arr d in
      let brake := r_sum_dt d (fun r => cyc_fric_brake_kw (pwr r)) in
      let trans := r_sum_dt d (fun r => trans_kw_in_ach (pwr r) - trans_kw_out_ach (pwr r)) in
      let mc := r_sum_dt d (fun r => mc_elec_kw_in_ach (dec r) - mc_mech_kw_out_ach (dec r)) in
      let esseff := nsum (zipw nmul loss (r_dt_s (d_cyc d))) in
      let aux := r_sum_dt d (fun r => aux_in_kw (misc r)) in
      let fcl := r_sum_dt d (fun r => fc_kw_in_ach (fc r) - fc_kw_out_ach (fc r)) in
      let net := drag + asc + rr + brake + trans + mc + esseff + aux + fcl in
      let ke := lit 1 2 * veh_kg v * (nsq (mps_ach_at d 0) - nsq (mps_ach_at d (length (d_rows d) - 1))) / nofZ 1000 in
      let err := ((road + dis + fuel + ke) - net) / (road + dis + fuel + ke) in
      let dm := nsum (r_dist_m (d_cyc0 d)) in
      if dm >? n0 then
        let md := nabs (sum_rows d (fun r => dist_m_ach (spd r)) - dm) / dm in
        let mt := r_miss_time_frac d in
        let ms := r_miss_speed d in
        let miss := if negb (missed_trace_correction s) then md >? trace_miss_dist_tol s else mt >? trace_miss_time_tol s in
        Ok (mkpost (r_fs_cumu d) (r_post_mpgge d) road dis
          (if mi >? n0 then dis / nofZ 3600 / mi else n0)
          (if mi >? n0 then (road + dis) / nofZ 3600 / mi else n0)
          fuel
          (if fuel + road =? n0 then n1 else dis / (fuel + road))
          drag asc rr loss brake trans mc esseff aux fcl net ke err
          (nabs err >? energy_audit_error_tol s)
          (miss || (ms >? trace_miss_speed_mps_tol s))%bool
          md mt ms)
      else Err PlainException
    end.
  (** sim_drive with its last line, impl.rs:395-460. *)
  Definition r_sim_drive_post (d : sdrive F) (init_soc : option F) (ovr : option (list F)) : Res (sdrive F * post_scalars F) :=
    do d1 <- r_sim_drive d init_soc ovr; do p <- r_set_post_scalars d1; Ok (d1, p).
End RustPost.
