(** Model of the SimDrive object of python/fastsim/simdrive.py: state, initialisation, grade lookup and
    solve_step on the state.  Definitions only.

    The per-step arrays are a list of rows, one per time stamp.  Entries are read with a default, so an
    index error that the code would raise for cycles with arrays of unequal length is not modelled; the
    entry points check the index ranges that matter. *)
From Verif Require Import Num Numpy CycleModel VehModel SimModel.

(** simdrive.py:194-334 (attributes of a SimDrive) *)
Record sdrive (F : Type) := mksd {
  d_veh : vehicle F; d_props : physprops F; d_sp : simparams F;
  d_cyc : cyc F; d_cyc0 : cyc F; d_cache : @CycleCache F;
  d_i : nat; d_rows : list (row F); d_hev_sim_count : nat }.
Arguments mksd {F}. Arguments d_veh {F}. Arguments d_props {F}. Arguments d_sp {F}.
Arguments d_cyc {F}. Arguments d_cyc0 {F}. Arguments d_cache {F}. Arguments d_i {F}.
Arguments d_rows {F}. Arguments d_hev_sim_count {F}.

Section SimState.
  Context {F : Type} {N : Num F}.
  Local Open Scope num_scope.

  (** np.zeros / [False] entries of init_arrays, simdrive.py:210-332. *)
  Definition zero_row : row F :=
    mkrow (mkmisc n0 false false n0)
          (mklims n0 n0 n0 n0 n0 n0 n0 n0 n0 n0 n0 n0 n0 n0 n0 n0 n0)
          (mkpwr n0 n0 n0 n0 n0 n0 n0 n0 n0 n0 n0 n0 n0 false n0 n0 n0)
          (mkspd 0 n0 n0 n0 n0)
          (mkhyb n0 n0 n0 n0 n0 n0 n0 n0 n0 n0 n0 false n0 n0 n0)
          (mkforced false 0 n0)
          (mkdec n0 n0 n0 n0 n0 n0 n0 n0 n0 n0 n0 n0 n0)
          (mkfc n0 n0 n0 n0 n0)
          (mkctl n0 false 0 0 n0).

  (** Attribute assignments. simdrive.py:210-334. *)
  Definition with_rows (d : sdrive F) (r : list (row F)) : sdrive F :=
    mksd (d_veh d) (d_props d) (d_sp d) (d_cyc d) (d_cyc0 d) (d_cache d) (d_i d) r (d_hev_sim_count d).
  (** simdrive.py:202-208 *)
  Definition with_cyc (d : sdrive F) (c : cyc F) : sdrive F :=
    mksd (d_veh d) (d_props d) (d_sp d) c (d_cyc0 d) (d_cache d) (d_i d) (d_rows d) (d_hev_sim_count d).
  (** simdrive.py:202-208 *)
  Definition with_cyc0 (d : sdrive F) (c : cyc F) : sdrive F :=
    mksd (d_veh d) (d_props d) (d_sp d) (d_cyc d) c (d_cache d) (d_i d) (d_rows d) (d_hev_sim_count d).
  (** simdrive.py:390-432, 632-661 *)
  Definition with_i (d : sdrive F) (i : nat) : sdrive F :=
    mksd (d_veh d) (d_props d) (d_sp d) (d_cyc d) (d_cyc0 d) (d_cache d) i (d_rows d) (d_hev_sim_count d).
  (** simdrive.py:194-208 *)
  Definition with_sp (d : sdrive F) (s : simparams F) : sdrive F :=
    mksd (d_veh d) (d_props d) s (d_cyc d) (d_cyc0 d) (d_cache d) (d_i d) (d_rows d) (d_hev_sim_count d).
  (** simdrive.py:1585-1653 *)
  Definition with_count (d : sdrive F) (n : nat) : sdrive F :=
    mksd (d_veh d) (d_props d) (d_sp d) (d_cyc d) (d_cyc0 d) (d_cache d) (d_i d) (d_rows d) n.

  (** simdrive.py:210-334 (x[i] of every array) *)
  Definition row_at (d : sdrive F) (i : nat) : row F := nth i (d_rows d) zero_row.
  (** self.mps_ach[i] etc. simdrive.py:210-334. *)
  Definition mps_ach_at (d : sdrive F) (i : nat) : F := mps_ach (spd (row_at d i)).
  (** cycle.py:97-107 *)
  Definition cmps (c : cyc F) (i : nat) : F := nth i (mps c) n0.
  (** cycle.py:97-107 *)
  Definition ctime (c : cyc F) (i : nat) : F := nth i (time_s c) n0.
  (** Cycle.dt_s_at_i, cycle.py:201-208, for i in range (see [dt_s_at_i] for the checked version). *)
  Definition cdt (c : cyc F) (i : nat) : F := if Nat.ltb i 1 then n0 else ctime c i - ctime c (i - 1).
  (** cycle.py:97-107 *)
  Definition with_mps (c : cyc F) (l : list F) : cyc F := mkcyc (time_s c) l (grade c) (road_type c).
  (** self.cyc.mps[i] = v; simdrive.py:547-576, 1768-2188 *)
  Definition set_cyc_mps (d : sdrive F) (i : nat) (v : F) : sdrive F :=
    with_cyc d (with_mps (d_cyc d) (set_nth (mps (d_cyc d)) i v)).
  (** simdrive.py:632-661 *)
  Definition set_cyc_grade (d : sdrive F) (i : nat) (g : F) : sdrive F :=
    let c := d_cyc d in
    with_cyc d (mkcyc (time_s c) (mps c) (set_nth (grade c) i g) (road_type c)).
  (** simdrive.py:663-1583 (x[i] = v) *)
  Definition upd_row (d : sdrive F) (i : nat) (f : row F -> row F) : sdrive F :=
    with_rows d (set_nth (d_rows d) i (f (row_at d i))).
  (** simdrive.py:210-334 *)
  Definition row_ctl (f : ctl_row F -> ctl_row F) (r : row F) : row F :=
    mkrow (misc r) (lims r) (pwr r) (spd r) (hyb r) (forced r) (dec r) (fc r) (f (ctl r)).
  (** simdrive.py:210-334 *)
  Definition row_spd (f : spd_row F -> spd_row F) (r : row F) : row F :=
    mkrow (misc r) (lims r) (pwr r) (f (spd r)) (hyb r) (forced r) (dec r) (fc r) (ctl r).
  (** simdrive.py:390-432 *)
  Definition row_aux (a : F) (r : row F) : row F :=
    mkrow (mkmisc a (reached_buff (misc r)) (high_acc_fc_on_tag (misc r)) (max_trac_mps (misc r)))
          (lims r) (pwr r) (spd r) (hyb r) (forced r) (dec r) (fc r) (ctl r).

  (** simdrive.py:587-630 *)
  Definition okd (r : Res F) : F := match r with Ok x => x | Err _ => n0 end.

  (** ** _estimate_grade_for_step and _lookup_grade_for_step, simdrive.py:587-630.
      For cycles with arrays of one length and i in range these never raise. *)
  Definition estimate_grade (d : sdrive F) (i : nat) : F :=
    if grade_all_zero (d_cache d) then n0
    else if (negb (coast_allow (d_sp d)) && negb (idm_allow (d_sp d)))%bool then nth i (grade (d_cyc d)) n0
    else okd (do x <- trapz_step_start_distance (d_cyc d) i; interp_grade (d_cache d) x).
  (** simdrive.py:604-630 *)
  Definition lookup_grade (d : sdrive F) (i : nat) (v : option F) : F :=
    if grade_all_zero (d_cache d) then n0
    else if (negb (coast_allow (d_sp d)) && negb (idm_allow (d_sp d)))%bool then nth i (grade (d_cyc d)) n0
    else okd (do x <- trapz_step_start_distance (d_cyc d) i;
              do dd <- match v with
                       | Some m => Ok (lit 1 2 * (m + mps_ach_at d (i - 1)) * cdt (d_cyc d) i)
                       | None => trapz_distance_for_step (d_cyc d) i
                       end;
              average_grade_over_range (d_cyc0 d) x dd (Some (d_cache d))).

  (** ** solve_step on the object, simdrive.py:663-673 *)
  Definition env_at (d : sdrive F) (i : nat) : step_env F :=
    mkenv (cdt (d_cyc d) i) (cmps (d_cyc d) i) (fun v => lookup_grade d i (Some v)) (estimate_grade d i)
          (all_zero (map (fun r => aux_in_kw (misc r)) (skipn i (d_rows d)))).
  (** simdrive.py:663-673 *)
  Definition solve_step (d : sdrive F) (i : nat) : sdrive F :=
    upd_row d i (solve_row (d_veh d) (d_props d) (d_sp d) (env_at d i) (row_at d (i - 1))).

  (** ** init_arrays and init_for_step, simdrive.py:210-333 and 390-432 *)
  Definition init_arrays (d : sdrive F) : sdrive F :=
    mksd (d_veh d) (d_props d) (d_sp d) (d_cyc d) (d_cyc0 d) (build_cache (d_cyc0 d)) 1
         (repeat zero_row (clen (d_cyc d))) (d_hev_sim_count d).
  (** Row 0 after lines 417-422 (cur_soc_target is not read anywhere and not modelled). *)
  Definition first_row (d : sdrive F) (init_soc : F) (r : row F) : row F :=
    let p := pwr r in
    let q := dec r in
    mkrow (misc r) (lims r)
      (mkpwr (drag_kw p) (accel_kw p) (ascent_kw p) (cyc_trac_kw_req p) (spare_trac_kw p) (rr_kw p)
             (cyc_whl_rad_per_sec p) (cyc_tire_inertia_kw p) (cyc_whl_kw_req p) (regen_contrl_lim_kw_perc p)
             (cyc_regen_brake_kw p) (cyc_fric_brake_kw p) (cyc_trans_kw_out_req p) true
             (trans_kw_out_ach p) (trans_kw_in_ach p) (min_mc_kw_2help_fc p))
      (mkspd (newton_iters (spd r)) (cmps (d_cyc0 d) 0) (cmps (d_cyc0 d) 0 * MPH_PER_MPS)
             (dist_m_ach (spd r)) (dist_mi_ach (spd r)))
      (hyb r) (forced r)
      (mkdec (ess_desired_kw_4fc_eff q) (ess_kw_if_fc_req q) (er_kw_if_fc_req q) (mc_elec_kw_in_if_fc_req q)
             (mc_kw_if_fc_req q) (mc_mech_kw_out_ach q) (mc_elec_kw_in_ach q) (roadway_chg_kw_out_ach q)
             (min_ess_kw_2help_fc q) (ess_kw_out_ach q) (init_soc * ess_max_kwh (d_veh d)) init_soc
             (fc_time_on q))
      (fc r) (ctl r).
  (** [self.aux_in_kw = aux_in_kw_override] if the length fits, 407-415. *)
  Definition override_aux (rows : list (row F)) (ovr : option (list F)) : list (row F) :=
    match ovr with
    | Some l => if Nat.eqb (length l) (length rows) then zipw row_aux l rows else rows
    | None => rows
    end.
  (** simdrive.py:390-432 *)
  Definition changes_cycle (s : simparams F) : bool :=
    (missed_trace_correction s || idm_allow s || coast_allow s)%bool.
  (** simdrive.py:390-432 *)
  Definition init_for_step (d : sdrive F) (init_soc : F) (ovr : option (list F)) : Res (sdrive F) :=
    if (negb (pt_eqb (veh_pt_type (d_veh d)) CONV)
        && ((init_soc >? max_soc (d_veh d)) || (init_soc <? min_soc (d_veh d))))%bool
    then Err ValueError
    else
      let d1 := init_arrays d in
      match override_aux (d_rows d1) ovr with
      | [] => Err IndexError
      | r0 :: rest =>
          let d2 := with_rows d1 (first_row d1 init_soc r0 :: rest) in
          Ok (if changes_cycle (d_sp d) then with_cyc d2 (d_cyc0 d) else d2)
      end.

  (** SimDrive.__init__, simdrive.py:194-208; [sp] and [props] are the defaults there. *)
  Definition new_sd (v : vehicle F) (pr : physprops F) (s : simparams F) (c : cyc F) : sdrive F :=
    init_arrays (mksd v pr s c c (build_cache c) 1 [] 0).
End SimState.
