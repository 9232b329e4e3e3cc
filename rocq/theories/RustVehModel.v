(** Model of the compiled vehicle class, rust/fastsim-core/src/vehicle.rs (set_derived and what it calls), of
    interpolate in utils.rs, and of Vehicle.to_rust, i.e. copy_vehicle(veh, 'rust') in python/fastsim/vehicle.py.
    Definitions only.

    The record of VehModel.v serves for both classes.  Differences: a compiled vehicle always has a motor map
    (an array), so mc_eff_map is [Some] here; modern_max, small_motor_power_kw and large_motor_power_kw, which
    are attributes of the compiled object, keep the values to_rust gives them (vehicle.py:886-887, 897);
    max_regen_kwh, which set_derived stores, is computed from the mass as in Python (VehModel.max_regen_kwh).
    A panic of assert! is [Err AssertionError], an index out of range [Err IndexError], an anyhow or
    validation error [Err PlainException].  NaN is not modelled. *)
From Verif Require Import Num Numpy CycleModel VehModel.

(** Assignment to fc_peak_eff_override and mc_peak_eff_override. vehicle.rs:830-839, vehicle.py:888 *)
Definition r_with_peaks {F} (v : vehicle F) (fo mo : option F) : vehicle F :=
  {| is_template := is_template v; veh_pt_type := veh_pt_type v; drag_coef := drag_coef v;
     frontal_area_m2 := frontal_area_m2 v; glider_kg := glider_kg v; veh_cg_m := veh_cg_m v;
     drive_axle_weight_frac := drive_axle_weight_frac v; wheel_base_m := wheel_base_m v;
     cargo_kg := cargo_kg v; veh_override_kg := veh_override_kg v;
     comp_mass_multiplier := comp_mass_multiplier v; fs_max_kw := fs_max_kw v;
     fs_secs_to_peak_pwr := fs_secs_to_peak_pwr v; fs_kwh := fs_kwh v;
     fs_kwh_per_kg := fs_kwh_per_kg v; fc_max_kw := fc_max_kw v;
     fc_pwr_out_perc := fc_pwr_out_perc v; fc_eff_map := fc_eff_map v;
     fc_eff_type := fc_eff_type v; fc_sec_to_peak_pwr := fc_sec_to_peak_pwr v;
     fc_base_kg := fc_base_kg v; fc_kw_per_kg := fc_kw_per_kg v;
     min_fc_time_on := min_fc_time_on v; idle_fc_kw := idle_fc_kw v;
     mc_max_kw := mc_max_kw v; mc_pwr_out_perc := mc_pwr_out_perc v; mc_eff_map := mc_eff_map v;
     mc_sec_to_peak_pwr := mc_sec_to_peak_pwr v; mc_pe_kg_per_kw := mc_pe_kg_per_kw v;
     mc_pe_base_kg := mc_pe_base_kg v; ess_max_kw := ess_max_kw v;
     ess_max_kwh := ess_max_kwh v; ess_kg_per_kwh := ess_kg_per_kwh v;
     ess_base_kg := ess_base_kg v; ess_round_trip_eff := ess_round_trip_eff v;
     ess_life_coef_a := ess_life_coef_a v; ess_life_coef_b := ess_life_coef_b v;
     min_soc := min_soc v; max_soc := max_soc v;
     ess_dischg_to_fc_max_eff_perc := ess_dischg_to_fc_max_eff_perc v;
     ess_chg_to_fc_max_eff_perc := ess_chg_to_fc_max_eff_perc v;
     wheel_inertia_kg_m2 := wheel_inertia_kg_m2 v; num_wheels := num_wheels v;
     wheel_rr_coef := wheel_rr_coef v; wheel_radius_m := wheel_radius_m v;
     wheel_coef_of_fric := wheel_coef_of_fric v;
     max_accel_buffer_mph := max_accel_buffer_mph v;
     max_accel_buffer_perc_of_useable_soc := max_accel_buffer_perc_of_useable_soc v;
     perc_high_acc_buf := perc_high_acc_buf v; mph_fc_on := mph_fc_on v;
     kw_demand_fc_on := kw_demand_fc_on v; max_regen := max_regen v;
     stop_start := stop_start v; force_aux_on_fc := force_aux_on_fc v; alt_eff := alt_eff v;
     chg_eff := chg_eff v; aux_kw := aux_kw v; trans_kg := trans_kg v;
     trans_eff := trans_eff v; ess_to_fuel_ok_error := ess_to_fuel_ok_error v;
     fc_peak_eff_override := fo;
     mc_peak_eff_override := mo; regen_a := regen_a v;
     regen_b := regen_b v; veh_props := veh_props v; charging_on := charging_on v;
     no_elec_sys := no_elec_sys v; no_elec_aux := no_elec_aux v;
     input_kw_out_array := input_kw_out_array v; fc_kw_out_array := fc_kw_out_array v;
     fc_eff_array := fc_eff_array v; mc_eff_array := mc_eff_array v; mc_kw_in_array := mc_kw_in_array v;
     mc_kw_out_array := mc_kw_out_array v; mc_max_elec_in_kw := mc_max_elec_in_kw v;
     mc_full_eff_array := mc_full_eff_array v; veh_kg := veh_kg v; max_trac_mps2 := max_trac_mps2 v;
     ess_mass_kg := ess_mass_kg v; mc_mass_kg := mc_mass_kg v; fc_mass_kg := fc_mass_kg v;
     fs_mass_kg := fs_mass_kg v |}.

Section RustVeh.
  Context {F : Type} {N : Num F}.
  Local Open Scope num_scope.

  (** ** interpolate, utils.rs:128-174 *)
  (** The knots kept: the first one and each that is to the right of the last one kept. *)
  Fixpoint r_rising (last : F) (knots : list (F * F)) : list (F * F) :=
    match knots with
    | [] => []
    | (x, y) :: r => if x >? last then (x, y) :: r_rising x r else r_rising last r
    end.
  (** utils.rs:136-145 *)
  Definition r_knots (knots : list (F * F)) : list (F * F) :=
    match knots with [] => [] | (x, y) :: r => (x, y) :: r_rising x r end.
  (** [while x > x_data[i + 1] { i += 1 }] *)
  Fixpoint r_seek (x : F) (knots : list (F * F)) (i : nat) : nat :=
    match knots with
    | _ :: ((b :: _) as t) => if x >? fst b then r_seek x t (S i) else i
    | _ => i
    end.
  (** [size - 2] underflows, and panics, if there are fewer than two knots. *)
  Definition r_interpolate (x : F) (xs ys : list F) (extrapolate : bool) : Res F :=
    do _ <- assertR (Nat.eqb (length xs) (length ys));
    let k := r_knots (combine xs ys) in
    match length k with
    | S (S m) =>
        match nth_error k m with
        | None => Err IndexError
        | Some c =>
            let i := if x >=? fst c then m else r_seek x k 0 in
            match nth_error k i, nth_error k (S i) with
            | Some (xl, yl), Some (xr, yr) =>
                let yr' := if (negb extrapolate && (x <? xl))%bool then yl else yr in
                let yl' := if (negb extrapolate && (x >? xr))%bool then yr' else yl in
                Ok (yl' + (yr' - yl') / (xr - xl) * (x - xl))
            | _, _ => Err IndexError
            end
        end
    | _ => Err IndexError
    end.
  (** [iter().map(|x| interpolate(x, ..)).collect()], vehicle.rs:757-768, 798-808. *)
  Fixpoint r_table (xs xp fp : list F) : Res (list F) :=
    match xs with
    | [] => Ok []
    | x :: r => do y <- r_interpolate x xp fp false; do t <- r_table r xp fp; Ok (y :: t)
    end.

  (** ** Constants, params.rs:93-122 *)
  Definition r_fc_perc_out_array : list F := map (fun z => lit z 1000)
    [0; 1; 2; 3; 4; 5; 6; 7; 8; 9; 10; 11; 12; 13; 14; 15; 16; 17; 18; 19; 20; 21; 22; 23; 24; 25; 26; 27; 28; 29;
     30; 35; 40; 45; 50; 55; 60; 65; 70; 80; 90; 100; 110; 120; 130; 140; 150; 160; 170; 180; 190; 200; 210; 220;
     230; 240; 250; 260; 270; 280; 290; 300; 310; 320; 330; 340; 350; 360; 370; 380; 390; 400; 410; 420; 430; 440;
     450; 460; 470; 480; 490; 500; 510; 520; 530; 540; 550; 560; 570; 580; 590; 600; 650; 700; 750; 800; 850; 900;
     950; 1000]%Z.
  (** params.rs:103-111 *)
  Definition r_mc_perc_out_array : list F := map (fun z => lit z 100)
    [0; 1; 2; 3; 4; 5; 6; 7; 8; 9; 10; 11; 12; 13; 14; 15; 16; 17; 18; 19; 20; 21; 22; 23; 24; 25; 26; 27; 28; 29;
     30; 31; 32; 33; 34; 35; 36; 37; 38; 39; 40; 41; 42; 43; 44; 45; 46; 47; 48; 49; 50; 51; 52; 53; 54; 55; 56; 57;
     58; 59; 60; 61; 62; 63; 64; 65; 66; 67; 68; 69; 70; 71; 72; 73; 74; 75; 76; 77; 78; 79; 80; 81; 82; 83; 84; 85;
     86; 87; 88; 89; 90; 91; 92; 93; 94; 95; 96; 97; 98; 99; 100]%Z.
  (** params.rs:116-118 *)
  Definition r_large_baseline_eff : list F := map (fun z => lit z 100) [83; 85; 87; 89; 90; 91; 93; 94; 94; 93; 92]%Z.
  (** params.rs:120-122 *)
  Definition r_small_baseline_eff : list F := map (fun z => lit z 100) [12; 16; 21; 29; 35; 42; 75; 92; 93; 93; 92]%Z.

  (** ** Input validation, vehicle.rs:131-553 *)
  (** [range(min = 0)] *)
  Definition r_at_least_0 (v : vehicle F) : list F :=
    [drag_coef v; frontal_area_m2 v; glider_kg v; wheel_base_m v; cargo_kg v; comp_mass_multiplier v; fs_max_kw v;
     fs_secs_to_peak_pwr v; fs_kwh v; fs_kwh_per_kg v; fc_max_kw v; fc_sec_to_peak_pwr v; fc_base_kg v; fc_kw_per_kg v;
     min_fc_time_on v; idle_fc_kw v; mc_max_kw v; mc_sec_to_peak_pwr v; mc_pe_kg_per_kw v; mc_pe_base_kg v; ess_max_kw v;
     ess_max_kwh v; ess_kg_per_kwh v; ess_base_kg v; wheel_inertia_kg_m2 v; num_wheels v; wheel_rr_coef v; wheel_radius_m v;
     wheel_coef_of_fric v; max_accel_buffer_mph v; perc_high_acc_buf v; mph_fc_on v; kw_demand_fc_on v; aux_kw v; trans_kg v;
     ess_to_fuel_ok_error v] ++ match veh_override_kg v with Some x => [x] | None => [] end.
  (** [range(min = 0, max = 1)] *)
  Definition r_within_0_1 (v : vehicle F) : list F :=
    [drive_axle_weight_frac v; ess_round_trip_eff v; min_soc v; max_soc v; ess_dischg_to_fc_max_eff_perc v;
     ess_chg_to_fc_max_eff_perc v; max_accel_buffer_perc_of_useable_soc v; max_regen v; alt_eff v; chg_eff v; trans_eff v]
    ++ match fc_peak_eff_override v with Some x => [x] | None => [] end
    ++ match mc_peak_eff_override v with Some x => [x] | None => [] end.
  (** The patterns for veh_pt_type and fc_eff_type (131-135, 205-209) are not anchored, so that longer names are
      accepted too; names other than the known ones are one value of the model, [FC_OTHER], refused here. *)
  Definition r_validate (v : vehicle F) : bool :=
    (forallb (fun x => x >=? n0) (r_at_least_0 v) && forallb (fun x => (x >=? n0) && (x <=? n1)) (r_within_0_1 v) &&
     match fc_eff_type v with FC_OTHER => false | _ => true end)%bool.

  (** ** Peak efficiencies, vehicle.rs:629-670 *)
  Definition r_fc_peak_eff (v : vehicle F) : Res F := lmax (fc_eff_array v).
  (** 629-631; unlike in Python the two arrays are not compared. *)
  Definition r_mc_peak_eff (v : vehicle F) : Res F := lmax (mc_full_eff_array v).
  (** 644-653: mc_eff_map, an array of its own, stays. *)
  Definition r_set_mc_peak_eff (v : vehicle F) (new_peak : F) : Res (vehicle F) :=
    do a <- lmax (mc_eff_array v);
    do b <- lmax (mc_full_eff_array v);
    Ok (with_mc_eff v (mc_eff_map v) (scale (new_peak / a) (mc_eff_array v)) (scale (new_peak / b) (mc_full_eff_array v))).
  (** 655-669 *)
  Definition r_set_fc_peak_eff (v : vehicle F) (new_peak : F) : Res (vehicle F) :=
    do a <- r_fc_peak_eff v;
    let arr := scale (new_peak / a) (fc_eff_array v) in
    do b <- lmax arr;
    Ok (with_fc_eff v arr (scale (new_peak / b) (fc_eff_map v))).

  (** ** set_veh_mass, vehicle.rs:576-620 *)
  Definition r_set_veh_mass (v : vehicle F) : vehicle F :=
    match veh_override_kg v with
    | None =>
        let em := if ((ess_max_kwh v =? n0) || (ess_max_kw v =? n0))%bool then n0
                  else (ess_max_kwh v * ess_kg_per_kwh v + ess_base_kg v) * comp_mass_multiplier v in
        let mm := if mc_max_kw v =? n0 then n0
                  else (mc_pe_base_kg v + mc_pe_kg_per_kw v * mc_max_kw v) * comp_mass_multiplier v in
        let fm := if fc_max_kw v =? n0 then n0
                  else (n1 / fc_kw_per_kg v * fc_max_kw v + fc_base_kg v) * comp_mass_multiplier v in
        let sm := if fs_max_kw v =? n0 then n0 else (n1 / fs_kwh_per_kg v * fs_kwh v) * comp_mass_multiplier v in
        let kg := cargo_kg v + glider_kg v + trans_kg v * comp_mass_multiplier v + em + mm + fm + sm in
        with_mass v None kg (max_trac v kg) em mm fm sm
    | Some x => with_mass v (Some x) x (max_trac v x) (ess_mass_kg v) (mc_mass_kg v) (fc_mass_kg v) (fs_mass_kg v)
    end.

  (** ** set_derived, vehicle.rs:696-861 *)
  (** 773-795: a motor map of zeros stands for none. *)
  Definition r_mc_eff_map (v : vehicle F) : list F :=
    let m := match mc_eff_map v with Some m => m | None => [] end in
    if (Nat.eqb (length m) (length r_large_baseline_eff) && forallb (fun x => x =? n0) m)%bool then
      let modern_diff := modern_max - nmaxl (hd n0 r_large_baseline_eff) (tl r_large_baseline_eff) in
      let large_adj := map (fun x => x + modern_diff) r_large_baseline_eff in
      let p := nmax n0 (nmin ((mc_max_kw v - lit 75 10) / (nofZ 75 - lit 75 10)) n1) in
      zipw (fun l s => p * l + (n1 - p) * s) large_adj r_small_baseline_eff
    else m.
  (** 739-828, up to the peak overrides; 757: the engine table is computed only if it is empty. *)
  Definition r_derive_maps (v : vehicle F) : Res (vehicle F) :=
    do _ <- check_pt v;
    do fce <- match fc_eff_array v with
              | [] => r_table r_fc_perc_out_array (fc_pwr_out_perc v) (fc_eff_map v)
              | l => Ok l
              end;
    let mce := r_mc_eff_map v in
    let mckout := map (fun x => x * mc_max_kw v) (linspace n0 n1 (length r_mc_perc_out_array)) in
    do mcf <- r_table (tl r_mc_perc_out_array) (mc_pwr_out_perc v) mce;
    let mckin := n0 :: zipw ndiv (tl mckout) mcf in
    do mx <- lmax mckin;
    Ok (with_derived v (Some mce) (charging_on v) (calc_no_elec_sys v) (calc_no_elec_aux v)
          (map (fun x => x * fc_max_kw v) (fc_pwr_out_perc v)) (map (fun x => x * fc_max_kw v) r_fc_perc_out_array)
          fce mce mckin mckout mx (n0 :: mcf)).
  (** 841-855 *)
  Definition r_check_eff (v : vehicle F) : Res unit :=
    do a <- lmin (fc_eff_array v);
    do b <- r_fc_peak_eff v;
    if negb ((a >=? n0) && (b <? n1)) then Err PlainException
    else if no_elec_sys v then Ok tt
    else do c <- lmin (mc_full_eff_array v);
         do d <- r_mc_peak_eff v;
         if ((c >=? n0) && (d <? n1))%bool then Ok tt else Err PlainException.
  (** The overrides are taken once: they are None afterwards, 830-839. *)
  Definition r_set_derived (v : vehicle F) : Res (vehicle F) :=
    if negb (r_validate v) then Err PlainException
    else
      do v1 <- r_derive_maps v;
      do v2 <- opt_set r_set_fc_peak_eff (fc_peak_eff_override v1) v1;
      do v3 <- opt_set r_set_mc_peak_eff (mc_peak_eff_override v2) (r_with_peaks v2 None (mc_peak_eff_override v2));
      do _ <- r_check_eff v3;
      Ok (r_set_veh_mass (r_with_peaks v3 None None)).

  (** ** Vehicle.to_rust, vehicle.py:736-739, 846-911 *)
  (** The compiled object before set_derived: parameters as they are; a mass override of 0 becomes none (850-851),
      a missing motor map eleven zeros (852-856); mc_peak_eff_override is not passed on (the field is not read from
      yaml, vehicle.rs:551, and not assigned); everything derived is emptied (889-908). *)
  Definition to_rust_input (v : vehicle F) : vehicle F :=
    let kg := match veh_override_kg v with Some x => if x =? n0 then None else Some x | None => None end in
    let m := match mc_eff_map v with Some m => m | None => repeat n0 11 end in
    with_mass (with_derived (r_with_peaks v (fc_peak_eff_override v) None) (Some m) false false false [n0] [] [] [n0] [] [] n0 [])
      kg n0 n0 n0 n0 n0 n0.
  (** vehicle.py:736-739, 779-911 *)
  Definition to_rust (v : vehicle F) : Res (vehicle F) := r_set_derived (to_rust_input v).
End RustVeh.
