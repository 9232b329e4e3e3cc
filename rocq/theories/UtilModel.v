(** utils/utilities.py, auxiliaries.py, calibration.get_error_val, resample.py and the physical
    properties of parameters.py.  Not modelled: plotting, file copying, the vehicle-file writers, the
    optimiser and curve-fit branches of auxiliaries.py. *)
From Coq Require Import Ascii.
From Verif Require Import Num Numpy CycleModel VehModel SimModel SimState WalkModel.

(** The assignment veh.drag_coef, veh.wheel_rr_coef = x, y, auxiliaries.py:114. *)
Definition with_drag {F} (v : vehicle F) (x y : F) : vehicle F :=
  {| is_template := is_template v; veh_pt_type := veh_pt_type v; drag_coef := x;
     frontal_area_m2 := frontal_area_m2 v; glider_kg := glider_kg v; veh_cg_m := veh_cg_m v;
     drive_axle_weight_frac := drive_axle_weight_frac v; wheel_base_m := wheel_base_m v;
     cargo_kg := cargo_kg v; veh_override_kg := veh_override_kg v;
     comp_mass_multiplier := comp_mass_multiplier v; fs_max_kw := fs_max_kw v;
     fs_secs_to_peak_pwr := fs_secs_to_peak_pwr v; fs_kwh := fs_kwh v;
     fs_kwh_per_kg := fs_kwh_per_kg v; fc_max_kw := fc_max_kw v;
     fc_pwr_out_perc := fc_pwr_out_perc v; fc_eff_map := fc_eff_map v;
     fc_eff_type := fc_eff_type v; fc_sec_to_peak_pwr := fc_sec_to_peak_pwr v;
     fc_base_kg := fc_base_kg v; fc_kw_per_kg := fc_kw_per_kg v;
     min_fc_time_on := min_fc_time_on v; idle_fc_kw := idle_fc_kw v;
     mc_max_kw := mc_max_kw v; mc_pwr_out_perc := mc_pwr_out_perc v;
     mc_eff_map := mc_eff_map v; mc_sec_to_peak_pwr := mc_sec_to_peak_pwr v;
     mc_pe_kg_per_kw := mc_pe_kg_per_kw v; mc_pe_base_kg := mc_pe_base_kg v;
     ess_max_kw := ess_max_kw v; ess_max_kwh := ess_max_kwh v;
     ess_kg_per_kwh := ess_kg_per_kwh v; ess_base_kg := ess_base_kg v;
     ess_round_trip_eff := ess_round_trip_eff v; ess_life_coef_a := ess_life_coef_a v;
     ess_life_coef_b := ess_life_coef_b v; min_soc := min_soc v; max_soc := max_soc v;
     ess_dischg_to_fc_max_eff_perc := ess_dischg_to_fc_max_eff_perc v;
     ess_chg_to_fc_max_eff_perc := ess_chg_to_fc_max_eff_perc v;
     wheel_inertia_kg_m2 := wheel_inertia_kg_m2 v; num_wheels := num_wheels v;
     wheel_rr_coef := y; wheel_radius_m := wheel_radius_m v;
     wheel_coef_of_fric := wheel_coef_of_fric v;
     max_accel_buffer_mph := max_accel_buffer_mph v;
     max_accel_buffer_perc_of_useable_soc := max_accel_buffer_perc_of_useable_soc v;
     perc_high_acc_buf := perc_high_acc_buf v; mph_fc_on := mph_fc_on v;
     kw_demand_fc_on := kw_demand_fc_on v; max_regen := max_regen v;
     stop_start := stop_start v; force_aux_on_fc := force_aux_on_fc v; alt_eff := alt_eff v;
     chg_eff := chg_eff v; aux_kw := aux_kw v; trans_kg := trans_kg v;
     trans_eff := trans_eff v; ess_to_fuel_ok_error := ess_to_fuel_ok_error v;
     fc_peak_eff_override := fc_peak_eff_override v;
     mc_peak_eff_override := mc_peak_eff_override v; regen_a := regen_a v;
     regen_b := regen_b v; veh_props := veh_props v; charging_on := charging_on v;
     no_elec_sys := no_elec_sys v; no_elec_aux := no_elec_aux v;
     input_kw_out_array := input_kw_out_array v; fc_kw_out_array := fc_kw_out_array v;
     fc_eff_array := fc_eff_array v; mc_eff_array := mc_eff_array v;
     mc_kw_in_array := mc_kw_in_array v; mc_kw_out_array := mc_kw_out_array v;
     mc_max_elec_in_kw := mc_max_elec_in_kw v; mc_full_eff_array := mc_full_eff_array v;
     veh_kg := veh_kg v; max_trac_mps2 := max_trac_mps2 v; ess_mass_kg := ess_mass_kg v;
     mc_mass_kg := mc_mass_kg v; fc_mass_kg := fc_mass_kg v; fs_mass_kg := fs_mass_kg v |}.

(** ** Attribute paths, utilities.py:203-329 *)
Section Paths.
  (** Attribute values: references to objects and other data. *)
  Context {A : Type}.
  (** utils/utilities.py:203-330 *)
  Inductive pyval := Ref (l : nat) | Data (a : A).
  (** An object: its attributes and whether its class has reset_orphaned
      (Vehicle, Cycle and SimDriveParams do: vehicle.py:742, cycle.py:240, simdrive.py:101;
      PhysicalProperties and SimDrive do not).  Only Python objects are modelled: their attributes are
      references, while those of compiled objects are copies. *)
  Record pyobj := mkobj { attrs : list (string * pyval); resettable : bool }.
  (** utils/utilities.py:203-330 *)
  Definition heap := list pyobj.

  (** utils/utilities.py:203-330 (attribute lookup) *)
  Fixpoint assoc (n : string) (l : list (string * pyval)) : option pyval :=
    match l with [] => None | (k, v) :: r => if String.eqb k n then Some v else assoc n r end.
  (** utils/utilities.py:203-330 *)
  Fixpoint assoc_set (n : string) (v : pyval) (l : list (string * pyval)) : list (string * pyval) :=
    match l with
    | [] => [(n, v)]
    | (k, w) :: r => if String.eqb k n then (k, v) :: r else (k, w) :: assoc_set n v r
    end.
  (** Python's getattr. utils/utilities.py:203-259. *)
  Definition getattr (h : heap) (o : pyval) (n : string) : Res pyval :=
    match o with
    | Data _ => Err AttributeError
    | Ref l => match nth_error h l with
               | None => Err AttributeError
               | Some ob => match assoc n (attrs ob) with Some v => Ok v | None => Err AttributeError end
               end
    end.
  (** Python's setattr: creates the attribute if there is none. utils/utilities.py:261-303. *)
  Definition setattr (h : heap) (o : pyval) (n : string) (v : pyval) : Res heap :=
    match o with
    | Data _ => Err AttributeError
    | Ref l => match nth_error h l with
               | None => Err AttributeError
               | Some ob => Ok (set_nth h l (mkobj (assoc_set n v (attrs ob)) (resettable ob)))
               end
    end.
  (** Calling reset_orphaned(): nothing happens if the class has it (vehicle.py:742-744). *)
  Definition reset_orphaned (h : heap) (o : pyval) : Res unit :=
    match o with
    | Data _ => Err AttributeError
    | Ref l => match nth_error h l with
               | Some ob => if resettable ob then Ok tt else Err AttributeError
               | None => Err AttributeError
               end
    end.
  (** The [is] operator. utils/utilities.py:203-330. *)
  Definition same_object (a b : pyval) : bool := match a, b with Ref i, Ref j => Nat.eqb i j | _, _ => false end.

  (** The loop over path[1:-1], utilities.py:224-227. *)
  Fixpoint follow (h : heap) (cur : pyval) (names : list string) : Res (list pyval) :=
    match names with
    | [] => Ok [cur]
    | n :: r => do c <- getattr h cur n; do cs <- follow h c r; Ok (cur :: cs)
    end.
  (** get_containers_with_path, utilities.py:203-227, for a list path. *)
  Definition get_containers (h : heap) (struct : pyval) (path : list string) : Res (list pyval) :=
    match path with
    | [] => Err IndexError
    | n :: r => do c <- getattr h struct n; follow h c (removelast r)
    end.
  (** get_attr_with_path, utilities.py:230-255. *)
  Definition get_attr_with_path (h : heap) (struct : pyval) (path : list string) : Res pyval :=
    match path with
    | [n] => getattr h struct n
    | _ => do cs <- get_containers h struct path; getattr h (last cs struct) (last path ""%string)
    end.
  (** The loop that puts the containers back into each other, utilities.py:294-301, given the remaining
      containers and names from inner to outer.  An exception leaves the changes made so far. *)
  Fixpoint put_back (h : heap) (struct nested : pyval) (l : list (pyval * string)) : heap * Res pyval :=
    match l with
    | [] => (h, Ok nested)
    | (c, n) :: r =>
        match (if same_object c struct then Ok tt else reset_orphaned h c) with
        | Err e => (h, Err e)
        | Ok _ => match setattr h c n nested with
                  | Err e => (h, Err e)
                  | Ok h' => put_back h' struct c r
                  end
        end
    end.
  (** set_attr_with_path, utilities.py:258-303: the new heap and the returned object. *)
  Definition set_attr_with_path (h : heap) (struct : pyval) (path : list string) (v : pyval) : heap * Res pyval :=
    match path with
    | [n] => match setattr h struct n v with Ok h' => (h', Ok struct) | Err e => (h, Err e) end
    | _ =>
        match get_containers h struct path with
        | Err e => (h, Err e)
        | Ok cs =>
            let containers := struct :: cs in
            let inner := last containers struct in
            match reset_orphaned h inner with
            | Err e => (h, Err e)
            | Ok _ =>
                match setattr h inner (last path ""%string) v with
                | Err e => (h, Err e)
                | Ok h1 => put_back h1 struct inner (combine (tl (rev containers)) (tl (rev path)))
                end
            end
        end
    end.
  (** set_attrs_with_path, utilities.py:306-329. *)
  Fixpoint set_attrs_with_path (h : heap) (struct : pyval) (l : list (list string * pyval)) : heap * Res pyval :=
    match l with
    | [] => (h, Ok struct)
    | (p, v) :: r => match set_attr_with_path h struct p v with
                     | (h', Err e) => (h', Err e)
                     | (h', Ok s) => set_attrs_with_path h' s r
                     end
    end.
End Paths.
Arguments pyval : clear implicits. Arguments pyobj : clear implicits. Arguments heap : clear implicits.

(** str.split("."), utilities.py:222, 249, 284. *)
Fixpoint split_dot (s : string) : list string :=
  match s with
  | EmptyString => [EmptyString]
  | String c r =>
      if Ascii.eqb c "." then EmptyString :: split_dot r
      else match split_dot r with [] => [String c EmptyString] | w :: ws => String c w :: ws end
  end.

(** ** Log levels, utilities.py:93-194 *)
Definition in_range (lo hi : ascii) (c : ascii) : bool := ((N_of_ascii lo <=? N_of_ascii c) && (N_of_ascii c <=? N_of_ascii hi))%N.
(** utils/utilities.py:87-91 ([A-Z]) *)
Definition is_upper : ascii -> bool := in_range "A" "Z".
(** utils/utilities.py:87-91 ([a-z]) *)
Definition is_lower : ascii -> bool := in_range "a" "z".
(** utils/utilities.py:87-91 ([0-9]) *)
Definition is_digit : ascii -> bool := in_range "0" "9".
(** utils/utilities.py:93-148 *)
Definition to_upper (c : ascii) : ascii := if is_lower c then ascii_of_N (N_of_ascii c - 32) else c.
(** utils/utilities.py:87-91 *)
Definition to_lower (c : ascii) : ascii := if is_upper c then ascii_of_N (N_of_ascii c + 32) else c.
(** utils/utilities.py:87-148 *)
Fixpoint smap (f : ascii -> ascii) (s : string) : string := match s with EmptyString => EmptyString | String c r => String (f c) (smap f r) end.
(** str.upper and str.lower on ASCII text. utils/utilities.py:93-148. *)
Definition upper := smap to_upper.
(** utils/utilities.py:87-91 *)
Definition lower := smap to_lower.

(** The levels of the loggers "fastsim" and "fastsim_core". utils/utilities.py:93-194. *)
Record levels := mklevels { fast_level : Z; core_level : Z }.
(** utils/utilities.py:93 *)
Inductive level_arg := LStr (s : string) | LInt (z : Z).
(** utilities.py:122-131 *)
Definition allowed_args : list (string * Z) :=
  [("CRITICAL", 50); ("ERROR", 40); ("WARNING", 30); ("INFO", 20); ("DEBUG", 10); ("NOTSET", 0); ("NONE", 51)]%string%Z.
(** logging._nameToLevel of the Python standard library. utils/utilities.py:93-148. *)
Definition name_to_level : list (string * Z) :=
  [("CRITICAL", 50); ("FATAL", 50); ("ERROR", 40); ("WARN", 30); ("WARNING", 30); ("INFO", 20); ("DEBUG", 10); ("NOTSET", 0)]%string%Z.
(** utils/utilities.py:93-148 *)
Fixpoint level_of (n : string) (l : list (string * Z)) : option Z :=
  match l with [] => None | (k, z) :: r => if String.eqb k n then Some z else level_of n r end.
(** set_log_level, utilities.py:93-149: the new levels and the previous level. *)
Definition set_log_level (st : levels) (a : level_arg) : levels * Res Z :=
  let level := match a with
    | LStr s => do _ <- assertR (existsb (String.eqb (upper s)) (map fst allowed_args));
                match level_of (upper s) name_to_level with Some z => Ok z | None => Err KeyError end
    | LInt z => do _ <- assertR (existsb (Z.eqb z) (map snd allowed_args)); Ok z
    end in
  match level with Err e => (st, Err e) | Ok z => (mklevels z z, Ok (fast_level st)) end.
(** disable_logging, utilities.py:151-161. *)
Definition disable_logging (st : levels) : levels * Res Z := set_log_level st (LInt 51).
(** enable_logging, utilities.py:163-176. *)
Definition enable_logging (st : levels) (a : option level_arg) : levels * Res unit :=
  match set_log_level st (match a with None => LInt 30 | Some x => x end) with (st', Ok _) => (st', Ok tt) | (st', Err e) => (st', Err e) end.
(** [with suppress_logging(): body], utilities.py:178-197; [body] maps the levels it starts with to the
    levels it leaves and its result or exception.  An exception of the finally clause replaces the body's. *)
Definition suppress_logging {A} (body : levels -> levels * Res A) (st : levels) : levels * Res A :=
  match disable_logging st with
  | (st1, Err e) => (st1, Err e)
  | (st1, Ok prev) =>
      let (st2, r) := body st1 in
      match enable_logging st2 (Some (LInt prev)) with
      | (st3, Err e) => (st3, Err e)
      | (st3, Ok _) => (st3, r)
      end
  end.

(** ** camel_to_snake, utilities.py:87-90 *)
(** The longest prefix of lower-case letters and the rest. utils/utilities.py:87-91. *)
Fixpoint span_lower (s : string) : string * string :=
  match s with
  | String c r => if is_lower c then let (a, b) := span_lower r in (String c a, b) else (EmptyString, s)
  | EmptyString => (EmptyString, EmptyString)
  end.
(** re.sub('(.)([A-Z][a-z]+)', r'\1_\2', s); [n] bounds the length.  The dot does not match a newline. *)
(** utils/utilities.py:87-91 *)
Fixpoint sub_words (n : nat) (s : string) : string :=
  match n, s with
  | S n', String c (String u r) =>
      let (low, rest) := span_lower r in
      if (negb (Ascii.eqb c "010") && is_upper u && negb (String.eqb low ""))%bool
      then String c (String "_" (String u (append low (sub_words n' rest))))
      else String c (sub_words n' (String u r))
  | _, _ => s
  end.
(** re.sub('([a-z0-9])([A-Z])', r'\1_\2', s); utils/utilities.py:87-91 *)
Fixpoint sub_caps (n : nat) (s : string) : string :=
  match n, s with
  | S n', String c (String u r) =>
      if ((is_lower c || is_digit c) && is_upper u)%bool then String c (String "_" (String u (sub_caps n' r)))
      else String c (sub_caps n' (String u r))
  | _, _ => s
  end.
(** utils/utilities.py:87-91 *)
Definition camel_to_snake (name : string) : string :=
  let s := sub_words (String.length name) name in lower (sub_caps (String.length s) s).

(** ** calculate_tire_radius, utilities.py:381-420 *)
(** Matching with Python's re: the possible matches in order of preference, each with the rest. *)
(** utils/utilities.py:381-420 *)
Definition matcher := string -> list (string * string).
(** utils/utilities.py:381-420 *)
Definition one (p : ascii -> bool) : matcher := fun s =>
  match s with String c r => if p c then [(String c EmptyString, r)] else [] | EmptyString => [] end.
(** utils/utilities.py:381-420 *)
Definition seqm (a b : matcher) : matcher := fun s =>
  flat_map (fun x => map (fun y => (append (fst x) (fst y), snd y)) (b (snd x))) (a s).
(** utils/utilities.py:381-420 *)
Definition optm (a : matcher) : matcher := fun s => a s ++ [(EmptyString, s)].
(** One or more, as many as possible first. utils/utilities.py:381-420. *)
Fixpoint some_fuel (n : nat) (p : ascii -> bool) : matcher :=
  match n with
  | O => fun _ => []
  | S n' => fun s => flat_map (fun x => map (fun y => (append (fst x) (fst y), snd y)) (some_fuel n' p (snd x)) ++ [x]) (one p s)
  end.
(** utils/utilities.py:381-420 *)
Definition somem (p : ascii -> bool) : matcher := fun s => some_fuel (String.length s) p s.
(** Between two and three ([two = true]), or one and two, as many as possible first. utils/utilities.py:381-420. *)
Definition up_to (two : bool) (p : ascii -> bool) : matcher :=
  if two then fun s => seqm (one p) (seqm (one p) (one p)) s ++ seqm (one p) (one p) s
  else fun s => seqm (one p) (one p) s ++ one p s.
(** utils/utilities.py:381-420 *)
Definition among (chars : list ascii) (c : ascii) : bool := existsb (Ascii.eqb (to_upper c)) chars.
(** [(([0-9]{2,3}\.)?[0-9]+)] and, with [two = false], [(([0-9]{1,2}\.)?[0-9]+)]. utils/utilities.py:381-420. *)
Definition number (two : bool) : matcher := seqm (optm (seqm (up_to two is_digit) (one (Ascii.eqb ".")))) (somem is_digit).
(** The pattern up to the load letters (which match always) with its groups 1, 3 and 5. utils/utilities.py:381-420. *)
Definition tire_matches (s : string) : list (string * string * string) :=
  flat_map (fun x0 => flat_map (fun x1 => flat_map (fun x2 => flat_map (fun x3 => flat_map (fun x4 => flat_map (fun x5 =>
    map (fun x6 => (fst x1, fst x3, fst x6)) (number false (snd x5)))
    (optm (one (among ["X"; "|"; "-"; " "]%char)) (snd x4)))
    (optm (one (among ["B"; "|"; "D"; "R"]%char)) (snd x3)))
    (number false (snd x2))) (one (Ascii.eqb "/") (snd x1))) (number true (snd x0)))
    (optm (one (among ["P"; "|"; "L"; "T"; "S"]%char)) s).

Section Numbers.
  Context {F : Type} {N : Num F}.
  Local Open Scope num_scope.

  (** float(text) for digits with at most one point: all digits as an integer over a power of ten. *)
  (** utils/utilities.py:381-420 *)
  Fixpoint digits_value (s : string) (acc : Z) (scale : Z) (after : bool) : Z * Z :=
    match s with
    | EmptyString => (acc, scale)
    | String c r =>
        if is_digit c then digits_value r (acc * 10 + Z.of_N (N_of_ascii c - 48))%Z (if after then scale * 10 else scale)%Z after
        else digits_value r acc scale true
    end.
  (** utils/utilities.py:381-420 *)
  Definition float_of (s : string) : F := let (p, q) := digits_value s 0 1 false in lit p q.

  (** utils/utilities.py:381-420 *)
  Definition calculate_tire_radius (tire_code units : string) : Res F :=
    match tire_matches tire_code with
    | [] => Err ValueError
    | (g1, g3, g5) :: _ =>
        let width_mm := float_of g1 in
        let aspect_ratio := float_of g3 in
        let rim_diameter_in := float_of g5 in
        let sidewall_height_mm := width_mm * aspect_ratio / nofZ 100 in
        let diameter_mm := rim_diameter_in * lit 254 10 + n2 * sidewall_height_mm in
        let radius_mm := diameter_mm / n2 in
        if String.eqb units "m" then Ok (radius_mm / nofZ 1000)
        else if String.eqb units "cm" then Ok (radius_mm / nofZ 10)
        else if String.eqb units "mm" then Ok radius_mm
        else if String.eqb units "ft" then Ok (radius_mm / lit 254 10 / nofZ 12)
        else if String.eqb units "in" then Ok (radius_mm / lit 254 10)
        else Err ValueError
    end.

  (** ** Conversions *)
  (** Division of Python floats. utils/utilities.py:42-56. *)
  Definition pydiv (a b : F) : Res F := if b =? n0 then Err ZeroDivisionError else Ok (a / b).
  (** parameters.py:24-26 *)
  Definition N_PER_LBF : F := lit 4448 1000.
  (** l__100km_to_mpg, utilities.py:42-47. *)
  Definition l__100km_to_mpg (x : F) : Res F := pydiv n1 (x / lit 3785 1000 / nofZ 100 / nofZ 1000 * nofZ 1609).
  (** mpg_to_l__100km, utilities.py:50-55. *)
  Definition mpg_to_l__100km (mpg : F) : Res F := pydiv n1 (mpg / lit 3785 1000 * nofZ 1609 / nofZ 1000 / nofZ 100).

  (** PhysicalProperties, parameters.py:30-63, in full. *)
  Record pprops := mkpprops { pp_air_density : F; pp_grav : F; pp_kwh_per_gge : F; pp_fuel_rho : F; pp_fuel_afr : F }.
  (** parameters.py:41-49 *)
  Definition default_props : pprops := mkpprops (lit 12 10) (lit 981 100) (lit 337 10) (lit 75 100) (lit 147 10).
  (** parameters.py:51-53 *)
  Definition get_fuel_lhv (p : pprops) : F := pp_kwh_per_gge p / lit 3785 1000 / pp_fuel_rho p * nofZ 3600.
  (** parameters.py:55-57 *)
  Definition set_fuel_lhv (p : pprops) (v : F) : pprops :=
    mkpprops (pp_air_density p) (pp_grav p) (v * lit 3785 1000 * pp_fuel_rho p / nofZ 3600) (pp_fuel_rho p) (pp_fuel_afr p).
  (** copy_physical_properties(p) of a Python object, parameters.py:69-106: from_dict of all attributes. *)
  Definition copy_physical_properties (p : pprops) : pprops :=
    mkpprops (pp_air_density p) (pp_grav p) (pp_kwh_per_gge p) (pp_fuel_rho p) (pp_fuel_afr p).
  (** physical_properties_equal for distinct objects, parameters.py:109-116. *)
  Definition physical_properties_equal (a b : pprops) : bool :=
    ((pp_air_density a =? pp_air_density b) && (pp_grav a =? pp_grav b) && (pp_kwh_per_gge a =? pp_kwh_per_gge b) &&
     (pp_fuel_rho a =? pp_fuel_rho b) && (pp_fuel_afr a =? pp_fuel_afr b))%bool.

  (** get_rho_air, utilities.py:25-39. *)
  Definition get_rho_air (temperature_degC elevation_m : F) : F :=
    let T_standard := lit 1504 100 - lit 649 100000 * elevation_m in
    let p := nofZ 101290 * npow ((T_standard + lit 2731 10) / lit 28808 100) (lit 5256 1000) in
    p / (nofZ 287 * (temperature_degC + lit 27315 100)).

  (** The air density used by the two functions below, auxiliaries.py:50-53, 175-176. *)
  Definition ambient_density (custom : option (F * F)) : F :=
    match custom with Some (t, e) => get_rho_air t e | None => lit 12 10 end.
  (** SimDriveParams(), simdrive.py:45-96: the default simulation parameters. *)
  Definition default_sim_params : simparams F :=
    mksimparams true false n1 (- lit 1 2) (lit 5 10000) 5 n1 (lit 1 1000) (lit 1 1000) 30
      (lit 9 10) 100 (lit 1 1000000000) (lit 2 1000) false false (nofZ 40) (- lit 25 10) (lit 75 10) n0 (nofZ 20)
      false (lit 3333 100) n1 n2 (nofZ 4) n1 (lit 15 10) None (lit 3 10).
  (** The cycle of the coast-down run: 0..299 s, from 70 mph to a stop, auxiliaries.py:55-65. *)
  Definition coastdown_cycle : cyc F :=
    mkcyc (map nofN (seq 0 300)) (linspace (nofZ 70 / MPH_PER_MPS) n0 300) (repeat n0 300) (repeat n0 300).
  (** sd_coast.impose_coast = [True] * len(sd_coast.impose_coast), auxiliaries.py:118. *)
  Definition impose_all (d : sdrive F) : sdrive F := upd_ctl_rows d (fun _ => ctl_coast true).
  (** abc_to_drag_coeffs with simdrive_optimize=False and use_rust=False, auxiliaries.py:17-150: the changed vehicle
      and the returned pair.  The run after the calculation is only used for plots but its exceptions get out, as does
      the IndexError of np.where(...)[0][0] when no achieved speed is below 0.1 m/s. *)
  Definition abc_to_drag_coeffs (veh : vehicle F) (a b c : F) (custom : option (F * F)) : Res (vehicle F * (F * F)) :=
    let a_newton := a * N_PER_LBF in
    let c_newton := c * N_PER_LBF * MPH_PER_MPS * MPH_PER_MPS in
    let drag := c_newton / (lit 1 2 * frontal_area_m2 veh * ambient_density custom) in
    let rr := a_newton / veh_kg veh / lit 981 100 in
    let veh' := with_drag veh drag rr in
    do sd <- sim_drive (impose_all (new_sd veh' (mkprops (lit 12 10) (lit 981 100) (lit 337 10)) default_sim_params coastdown_cycle)) None None;
    if existsb (fun r => mps_ach (spd r) <? lit 1 10) (d_rows sd) then Ok (veh', (drag, rr)) else Err IndexError.
  (** drag_coeffs_to_abc with fit_with_curve=False, auxiliaries.py:153-231. *)
  Definition drag_coeffs_to_abc (veh : vehicle F) (custom : option (F * F)) : F * F * F :=
    let c_newton := drag_coef veh * (lit 1 2 * frontal_area_m2 veh * ambient_density custom) in
    let b_newton := n0 in
    let a_newton := wheel_rr_coef veh * veh_kg veh * lit 981 100 in
    (a_newton / N_PER_LBF, b_newton / N_PER_LBF / MPH_PER_MPS, c_newton / N_PER_LBF / MPH_PER_MPS / MPH_PER_MPS).

  (** ** Signals *)
  (** np.trapz(y, x): sum of (x[i+1] - x[i]) * (y[i+1] + y[i]) / 2. auxiliaries.py:17-150. *)
  Definition trapz (y x : list F) : F := nsum (zipw (fun d m => d * m / n2) (diff x) (zipw nadd (tl y) (removelast y))).
  (** get_error_val, calibration.py:52-71. *)
  Definition get_error_val (model test time_steps : list F) : Res F :=
    do _ <- assertR (Nat.eqb (length model) (length test) && Nat.eqb (length test) (length time_steps));
    do t1 <- pyget time_steps (-1);
    do t0 <- pyget time_steps 0;
    Ok (trapz (zipw (fun a b => nabs (a - b)) model test) time_steps / (t1 - t0)).

  (** rollav, utilities.py:58-84: x.diff() fails for lists and arrays; for a pandas Series joining the number 0
      and an array fails. *)
  Inductive pyseq := PyList (l : list F) | PySeries (l : list F).
  (** utils/utilities.py:58-85 *)
  Definition seq_len (s : pyseq) : nat := match s with PyList l | PySeries l => length l end.
  (** utils/utilities.py:58-85 *)
  Definition rollav (x y : pyseq) (width : nat) : Res (list F) :=
    do _ <- assertR (Nat.eqb (seq_len x) (seq_len y));
    match x with PyList _ => Err AttributeError | PySeries _ => Err ValueError end.

  (** resample (here resample_frame), resample.py:6-55, on a data frame given as its columns. *)
  Definition frame := list (string * list F).
  (** resample.py:6-56 *)
  Fixpoint column (c : string) (df : frame) : Res (list F) :=
    match df with [] => Err KeyError | (k, v) :: r => if String.eqb k c then Ok v else column c r end.
  (** resample.py:6-56 *)
  Definition resample_time (times : list F) (dt_new : F) : Res (list F) :=
    do last_t <- pyget times (-1);
    Ok (arange n0 (nofZ (nfloor (last_t / dt_new)) * dt_new + dt_new) dt_new).
  (** The running integral df.time.diff().fillna(0) * df[col], summed. resample.py:6-56. *)
  Definition cumu_vals (times vals : list F) : list F := cumsum (zipw nmul (n0 :: diff times) vals).
  (** resample.py:6-56 *)
  Definition resample_rate (new_time times vals : list F) (dt_new : F) : list F :=
    map (fun x => x / dt_new) (diff_prepend n0 (interp new_time times (cumu_vals times vals))).
  (** resample.py:6-56 *)
  Definition resample_frame (df : frame) (dt_new : F) (time_col : string) (rate_vars hold_vars : list string) : Res frame :=
    do times <- column time_col df;
    do new_time <- resample_time times dt_new;
    Ok (flat_map (fun c : string * list F =>
      let (name, vals) := c in
      if existsb (String.eqb name) rate_vars then [(name, resample_rate new_time times vals dt_new)]
      else if existsb (String.eqb name) hold_vars then []
      else [(name, interp new_time times vals)]) df).
End Numbers.
Arguments pprops : clear implicits. Arguments pyseq : clear implicits. Arguments frame : clear implicits.
