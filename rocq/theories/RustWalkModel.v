(** Model of whole walks of the Rust implementation, rust/fastsim-core/src/simdrive/simdrive_impl.rs
    ("impl.rs") and cyc_mods.rs, for runs without trace-miss correction, eco-coasting and car following.
    Definitions only.  The step itself is RustModel.v; states are those of SimState.v. *)
From Verif Require Import Num Numpy CycleModel VehModel SimModel SimState WalkModel RustModel.

Section RustWalk.
  Context {F : Type} {N : Num F}.
  Local Open Scope num_scope.

  (** cyc0.build_cache().grade_all_zero, cycle.rs:409. *)
  Definition r_grade_all_zero (c : cyc F) : bool := forallb (fun g => g =? n0) (grade c).
  (** init_arrays, impl.rs:287-387: all arrays as long as cyc0.  (The other entries of the cache are not read
      in the runs modelled here; they are those of the Python cache.) *)
  Definition r_init_arrays (d : sdrive F) : sdrive F :=
    mksd (d_veh d) (d_props d) (d_sp d) (d_cyc d) (d_cyc0 d) (build_cache (d_cyc0 d)) 1
         (repeat zero_row (clen (d_cyc0 d))) (d_hev_sim_count d).
  (** impl.rs:541-547: the override replaces the array whatever its length; an override of another length than
      the arrays is not modelled (None here).  The field aux_in_kw_override is None unless set by hand. *)
  Definition r_override (rows : list (row F)) (ovr : option (list F)) : option (list (row F)) :=
    match ovr with
    | Some l => if Nat.eqb (length l) (length rows) then Some (zipw row_aux l rows) else None
    | None => Some rows
    end.
  (** init_for_step, impl.rs:525-566; first_row sets the entries of lines 549-554. *)
  Definition r_init_for_step (d : sdrive F) (init_soc : F) (ovr : option (list F)) : Res (sdrive F) :=
    if (pt_eqb (veh_pt_type (d_veh d)) CONV
        || ((min_soc (d_veh d) <=? init_soc) && (init_soc <=? max_soc (d_veh d))))%bool
    then
      let d1 := r_init_arrays d in
      match r_override (d_rows d1) ovr with
      | None => Err PlainException
      | Some [] => Err IndexError
      | Some (r0 :: rest) =>
          let d2 := with_rows d1 (first_row d1 init_soc r0 :: rest) in
          Ok (if changes_cycle (d_sp d) then with_cyc d2 (d_cyc0 d) else d2)
      end
    else Err PlainException.
  (** lookup_grade_for_step and estimate_grade_for_step, cyc_mods.rs:191-230, when neither coasting nor IDM is
      allowed. *)
  Definition r_plain_grade (d : sdrive F) (i : nat) : F :=
    if r_grade_all_zero (d_cyc0 d) then n0 else nth i (grade (d_cyc d)) n0.
  (** What solve_step reads from the cycles; dt_s_at_i, cycle.rs:1117-1119; impl.rs:624-636. *)
  Definition r_env_at (d : sdrive F) (i : nat) : step_env F :=
    mkenv (nth i (time_s (d_cyc d)) n0 - nth (i - 1) (time_s (d_cyc d)) n0) (nth i (mps (d_cyc d)) n0)
          (fun _ => r_plain_grade d i) (r_plain_grade d i)
          (forallb (fun r => aux_in_kw (misc r) =? n0) (skipn i (d_rows d))).
  (** step, impl.rs:569-605, with the three options off. *)
  Definition r_plain_step (d : sdrive F) : Res (sdrive F) :=
    let i := d_i d in
    do r <- r_solve_row (d_veh d) (d_props d) (d_sp d) (r_env_at d i) (row_at d (i - 1)) (row_at d i);
    Ok (with_i (with_rows d (set_nth (d_rows d) i r)) (S i)).
  (** The loop of walk, impl.rs:497-499; [fuel] bounds its rounds. *)
  Fixpoint r_walk_loop (fuel : nat) (d : sdrive F) : Res (sdrive F) :=
    if Nat.ltb (d_i d) (length (time_s (d_cyc d))) then
      match fuel with
      | O => Err OutOfFuel
      | S f => do d' <- r_plain_step d; r_walk_loop f d'
      end
    else Ok d.
  (** walk, impl.rs:491-516 (the rest is logging). *)
  Definition r_walk (d : sdrive F) (init_soc : F) (ovr : option (list F)) : Res (sdrive F) :=
    do d1 <- r_init_for_step d init_soc ovr;
    r_walk_loop (length (time_s (d_cyc d1))) d1.

  (** ** sim_drive, impl.rs:395-460, without set_post_scalars (RustPostModel.v) *)
  (** dt_s, cycle.rs:1112-1114, and diff, utils.rs:31-40: the first step lasts no time. *)
  Definition r_dt_s (c : cyc F) : list F := match time_s c with [] => [] | _ => n0 :: diff (time_s c) end.
  (** (&x * dt_s).sum(), impl.rs:421-422 and 1759-1809. *)
  Definition r_sum_dt (d : sdrive F) (f : row F -> F) : F := nsum (zipw nmul (map f (d_rows d)) (r_dt_s (d_cyc d))).
  (** impl.rs:421-436 *)
  Definition r_ess_2fuel (d : sdrive F) : F :=
    let e := r_sum_dt d (fun r => fs_kw_out_ach (fc r)) + r_sum_dt d (fun r => roadway_chg_kw_out_ach (dec r)) in
    if e >? n0 then nabs ((soc_first d - soc_last d) * ess_max_kwh (d_veh d) * nofZ 3600 / e) else n0.
  (** impl.rs:437-446 *)
  Definition r_next_soc (d : sdrive F) : F := nmin (max_soc (d_veh d)) (nmax (min_soc (d_veh d)) (soc_last d)).
  (** impl.rs:416-447; [fuel] bounds the rounds *)
  Fixpoint r_balance_loop (fuel : nat) (d : sdrive F) (ovr : option (list F)) (s e2f : F) : Res (sdrive F * F) :=
    if ((e2f >? ess_to_fuel_ok_error (d_veh d)) && Nat.ltb (d_hev_sim_count d) (sim_count_max (d_sp d)))%bool then
      match fuel with
      | O => Err OutOfFuel
      | S f =>
          do d1 <- r_walk (with_count d (S (d_hev_sim_count d))) s ovr;
          r_balance_loop f d1 ovr (r_next_soc d1) (r_ess_2fuel d1)
      end
    else Ok (d, s).
  (** impl.rs:395-457 *)
  Definition r_sim_drive (d : sdrive F) (init_soc : option F) (ovr : option (list F)) : Res (sdrive F) :=
    let d0 := with_count d 0 in
    match init_soc with
    | Some s => r_walk d0 s ovr
    | None =>
        match veh_pt_type (d_veh d) with
        | CONV => r_walk d0 (mid_soc (d_veh d)) ovr
        | HEV => do r <- r_balance_loop (sim_count_max (d_sp d)) d0 ovr (mid_soc (d_veh d)) n1;
                 r_walk (fst r) (snd r) ovr
        | PHEV | BEV => r_walk d0 (max_soc (d_veh d)) ovr
        end
    end.
End RustWalk.
