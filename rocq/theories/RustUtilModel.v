(** Model of the helper functions of the compiled package that have a Python counterpart: air density, fuel heating value,
    drag coefficients from coast-down coefficients, the error between two signals and tyre codes (vehicle_utils.rs, utils.rs,
    params.rs and air.rs in rust/fastsim-core/src), and of the tables of air properties (air.rs).
    Not modelled: the fit of the coefficients by simulation (simdrive_optimize, the default), which is left to the argmin
    library.  Text is ASCII. *)
From Coq Require Import Ascii.
From Verif Require Import Num Numpy CycleModel VehModel SimModel SimState UtilModel RustVehModel.

(** ** tire_code_to_radius, utils.rs:500-549 *)
(** TIRE_CODE_REGEX, utils.rs:500-504, at the start of a text: as in Python but for the optional space after the aspect ratio.
    The load letter, at most one, changes nothing of the groups.  utils.rs:500-504. *)
Definition r_tire_here (s : string) : list (string * string * string) :=
  flat_map (fun x0 => flat_map (fun x1 => flat_map (fun x2 => flat_map (fun x3 => flat_map (fun x4 => flat_map (fun x5 => flat_map (fun x6 =>
    map (fun x7 => (fst x1, fst x3, fst x7)) (number false (snd x6)))
    (optm (one (among ["X"; "|"; "-"; " "]%char)) (snd x5)))
    (optm (one (among ["B"; "|"; "D"; "R"]%char)) (snd x4)))
    (optm (one (Ascii.eqb " ")) (snd x3)))
    (number false (snd x2))) (one (Ascii.eqb "/") (snd x1))) (number true (snd x0)))
    (optm (one (among ["P"; "|"; "L"; "T"; "S"]%char)) s).
(** captures, utils.rs:530-538: the first place where the pattern matches, and there the preferred match. *)
Fixpoint r_captures (s : string) : option (string * string * string) :=
  match r_tire_here s with
  | m :: _ => Some m
  | [] => match s with EmptyString => None | String _ r => r_captures r end
  end.

Section RustUtil.
  Context {F : Type} {N : Num F}.
  Local Open Scope num_scope.

  (** tire_code_to_radius, utils.rs:530-549; the parse of digits with at most one point does not fail. *)
  Definition r_tire_code_to_radius (tire_code : string) : Res F :=
    match r_captures tire_code with
    | None => Err ValueError
    | Some (g1, g2, g3) =>
        let width_mm := float_of g1 in
        let aspect_ratio := float_of g2 in
        let rim_diameter_in := float_of g3 in
        let sidewall_height_mm := width_mm * aspect_ratio / nofZ 100 in
        let radius_mm := rim_diameter_in * lit 254 10 / n2 + sidewall_height_mm in
        Ok (radius_mm / nofZ 1000)
    end.

  (** ** params.rs *)
  (** RustPhysicalProperties::default, params.rs:59-77; the record of the Python class has the same fields. *)
  Definition r_default_props : @pprops F := mkpprops (lit 12 10) (lit 981 100) (lit 337 10) (lit 75 100) (lit 147 10).
  (** params.rs:79-82 *)
  Definition r_get_fuel_lhv (p : @pprops F) : F := pp_kwh_per_gge p / lit 3785 1000 / pp_fuel_rho p * nofZ 3600.
  (** params.rs:84-87 *)
  Definition r_set_fuel_lhv (p : @pprops F) (fuel_lhv_kj_per_kg : F) : @pprops F :=
    mkpprops (pp_air_density p) (pp_grav p) (fuel_lhv_kj_per_kg * lit 3785 1000 * pp_fuel_rho p / nofZ 3600) (pp_fuel_rho p) (pp_fuel_afr p).

  (** ** air.rs *)
  (** get_rho, air.rs:66-71. *)
  Definition r_get_rho (te_air : F) (h : option F) : F :=
    let h := match h with Some h => h | None => nofZ 180 end in
    let te_standard := lit 1504 100 - lit 649 100000 * h in
    let p := nofZ 101290 * npow ((te_standard + lit 2731 10) / lit 28808 100) (lit 5256 1000) in
    p / (nofZ 287 * (te_air + lit 27315 100)).

  (** AirProperties::default, air.rs:128-159. *)
  Definition air_te : list F := map (fun z => lit z 100000000)
    [-6000000000; -5703690616; -5319581980; -4821658352; -4176195280; -3339475442; -2254827664; -848788571; 973873099; 3336606527;
     6399440042; 10369819869; 15516660498; 22188558305; 30837402042; 42048979341; 56582652205; 75422788725; 99845434496; 131504739396;
     172544993435; 225745859876; 294710642291; 384110336915; 500000000000]%Z.
  (** air.rs:160-168 *)
  Definition air_k : list F := map (fun z => lit z 1000000)
    [19597; 19841; 20156; 20561; 21083; 21753; 22612; 23708; 25102; 26867; 29090; 31875; 35342; 39633; 44917; 51398; 59334; 69059;
     81025; 95855; 114420; 137970; 168280; 207950; 260810]%Z.
  (** air.rs:169-176 *)
  Definition air_cp : list F := map (fun z => lit z 10)
    [10062; 10061; 10060; 10059; 10057; 10056; 10055; 10056; 10059; 10066; 10083; 10116; 10179; 10289; 10470; 10734; 11076; 11461;
     11845; 12195; 12501; 12771; 13017; 13245; 13470]%Z.
  (** air.rs:177-184 *)
  Definition air_h : list F := map nofZ
    [338940; 341930; 345790; 350800; 357290; 365710; 376610; 390750; 409080; 432860; 463710; 503800; 556020; 624280; 714030; 832880;
     991400; 1203800; 1488700; 1869600; 2376700; 3049400; 3939100; 5113600; 6662000]%Z.
  (** air.rs:185-193 *)
  Definition air_mu : list F := map (fun z => lit z 1000000000)
    [14067; 14230; 14440; 14711; 15058; 15502; 16069; 16791; 17703; 18850; 20283; 22058; 24240; 26899; 30112; 33966; 38567; 44049;
     50595; 58464; 68036; 79878; 94840; 114230; 140060]%Z.
  (** air.rs:195 *)
  Definition air_pr : list F := zipw ndiv (zipw nmul air_mu air_cp) air_k.
  (** air.rs:78-80 *)
  Definition get_k (te_air : F) : Res F := r_interpolate te_air air_te air_k false.
  (** air.rs:87-89 *)
  Definition get_cp (te_air : F) : Res F := r_interpolate te_air air_te air_cp false.
  (** air.rs:96-98 *)
  Definition get_h (te_air : F) : Res F := r_interpolate te_air air_te air_h false.
  (** air.rs:105-107 *)
  Definition get_pr (te_air : F) : Res F := r_interpolate te_air air_te air_pr false.
  (** air.rs:114-116 *)
  Definition get_mu (te_air : F) : Res F := r_interpolate te_air air_te air_mu false.
  (** air.rs:123-125 *)
  Definition get_te_from_h (h : F) : Res F := r_interpolate h air_h air_te false.

  (** ** vehicle_utils.rs *)
  (** abc_to_drag_coeffs with simdrive_optimize = Some(false), vehicle_utils.rs:28-111: the changed vehicle and the returned pair.
      The cycle made at 73-80 is only used by the fit.  N_PER_LBF and MPH_PER_MPS, params.rs:11-14, are those of parameters.py. *)
  Definition r_abc_to_drag_coeffs (veh : vehicle F) (a_lbf b_lbf__mph c_lbf__mph2 : F)
      (custom_rho : option bool) (custom_rho_temp_degC custom_rho_elevation_m : option F) : vehicle F * (F * F) :=
    let density :=
      if match custom_rho with Some b => b | None => false end
      then r_get_rho (match custom_rho_temp_degC with Some t => t | None => nofZ 20 end) custom_rho_elevation_m
      else pp_air_density r_default_props in
    let a_newton := a_lbf * N_PER_LBF in
    let c_newton := c_lbf__mph2 * N_PER_LBF * MPH_PER_MPS * MPH_PER_MPS in
    let drag_coef := c_newton / (lit 1 2 * frontal_area_m2 veh * density) in
    let wheel_rr_coef := a_newton / veh_kg veh / pp_grav r_default_props in
    (with_drag veh drag_coef wheel_rr_coef, (drag_coef, wheel_rr_coef)).

  (** The loop of get_error_val, vehicle_utils.rs:138-140. *)
  Fixpoint r_error_loop (err : F) (t y : list F) : F :=
    match t, y with
    | t0 :: ((t1 :: _) as t'), y0 :: ((y1 :: _) as y') => r_error_loop (err + lit 1 2 * (t1 - t0) * (y0 + y1)) t' y'
    | _, _ => err
    end.
  (** get_error_val, vehicle_utils.rs:113-143; on empty signals the bound of the loop underflows, or else the subscript fails. *)
  Definition r_get_error_val (model test time_steps : list F) : Res F :=
    do _ <- assertR (Nat.eqb (length model) (length test) && Nat.eqb (length test) (length time_steps));
    match time_steps with
    | [] => Err IndexError
    | t0 :: _ =>
        let y := zipw (fun a b => nabs (a - b)) model test in
        Ok (r_error_loop n0 time_steps y / (last time_steps t0 - t0))
    end.
End RustUtil.
