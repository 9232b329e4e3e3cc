(** Model of the import of vehicles in the compiled package (rust/fastsim-core/src/vehicle_import.rs): the choice of the records of
    fueleconomy.gov for a request, the choice of the EPA test for such a record, and the sizes of the vehicle made of the two.
    Not modelled: reading and fetching of files, the older matching procedure (vehicle_import.rs:547-708), the other fields of the
    vehicle (defaults) and the two procedures it passes through afterwards (set_derived: C113; abc_to_drag_coeffs: C123).
    Text is ASCII. *)
From Coq Require Import Ascii.
From Verif Require Import Num Numpy CycleModel VehModel SimModel SimState UtilModel PrepModel RustVehModel RustUtilModel.

(** ** Text *)
(** str::split_ascii_whitespace (Rust library), as used at vehicle_import.rs:432 and 472: the maximal pieces without blanks. *)
Definition blank (c : ascii) : bool := let n := nat_of_ascii c in (Nat.eqb n 32 || Nat.eqb n 9 || Nat.eqb n 10 || Nat.eqb n 12 || Nat.eqb n 13)%bool.
(** The same with the piece read so far, vehicle_import.rs:432 and 472. *)
Fixpoint words_from (w : string) (s : string) : list string :=
  match s with
  | EmptyString => if String.eqb w "" then [] else [w]
  | String c r => if blank c then (if String.eqb w "" then words_from "" r else w :: words_from "" r) else words_from (w ++ String c "")%string r
  end.
(** The same from the start of a text, vehicle_import.rs:432 and 472. *)
Definition words (s : string) : list string := words_from "" s.
(** replace("4WD", "AWD"), vehicle_import.rs:431 and 470. *)
Fixpoint awd (s : string) : string :=
  match s with
  | String "4" (String "W" (String "D" r)) => String "A" (String "W" (String "D" (awd r)))
  | String c r => String c (awd r)
  | EmptyString => EmptyString
  end.
(** The words of the name of a model, vehicle_import.rs:431-432 and 470-472. *)
Definition model_words (s : string) : list string := words (awd (smap to_upper s)).
(** eq_ignore_ascii_case, vehicle_import.rs:454 and 467. *)
Definition same_text (a b : string) : bool := String.eqb (smap to_upper a) (smap to_upper b).
(** ends_with, vehicle_import.rs:462. *)
Fixpoint ends_with (s p : string) : bool := (String.eqb s p || match s with EmptyString => false | String _ r => ends_with r p end)%bool.
(** The text without its first character, efid[1..], vehicle_import.rs:462. *)
Definition tail (s : string) : string := match s with EmptyString => EmptyString | String _ r => r end.
(** s[i..j]: refused (a panic) if i > j or j beyond the end; used at vehicle_import.rs:372-406. *)
Definition slice (i j : nat) (s : string) : Res string :=
  if (Nat.leb i j && Nat.leb j (String.length s))%bool then Ok (substring i (j - i) s) else Err ValueError.
(** find(..).unwrap(), vehicle_import.rs:372-406. *)
Definition find_text (p s : string) : Res nat := match index 0 p s with Some i => Ok i | None => Err ValueError end.
(** The value of decimal digits after those already read, str::parse::<u32> (Rust library), vehicle_import.rs:374-408. *)
Fixpoint u32_digits (acc : Z) (s : string) : option Z :=
  match s with
  | EmptyString => Some acc
  | String c r => if is_digit c then let v := (acc * 10 + (Z.of_nat (nat_of_ascii c) - 48))%Z in if (v <? 4294967296)%Z then u32_digits v r else None else None
  end.
(** parse::<u32>(), vehicle_import.rs:374-408: an optional plus sign and one or more digits. *)
Definition parse_u32 (s : string) : option Z :=
  let d := match s with String "+" r => r | _ => s end in if String.eqb d "" then None else u32_digits 0 d.
(** parse().unwrap(), vehicle_import.rs:374-408. *)
Definition must (o : option Z) : Res Z := match o with Some z => Ok z | None => Err ValueError end.

(** ** derive_transmission_specs, vehicle_import.rs:366-410 *)
(** The character before "-spd", vehicle_import.rs:372-375 and 399-402; an index below zero is refused. *)
Definition gear_before_spd (t : string) : Res Z :=
  do i <- find_text "-spd" t; if Nat.eqb i 0 then Err ValueError else do x <- slice (i - 1) i t; must (parse_u32 x).
(** The text between the first S and the first closing bracket, vehicle_import.rs:381-384, 387-390 and 393-396. *)
Definition gears_after_s (t : string) : Res Z :=
  do i <- find_text "S" t; do j <- find_text ")" t; do x <- slice (i + 1) j t; must (parse_u32 x).
(** vehicle_import.rs:366-410. *)
Definition transmission_specs (t : string) : Res (Z * string) :=
  if has_sub "Manual" t then do n <- gear_before_spd t; Ok (n, "M"%string)
  else if has_sub "variable gear ratios" t then Ok (1%Z, "CVT"%string)
  else if has_sub "AV-S" t then do n <- gears_after_s t; Ok (n, "SCV"%string)
  else if has_sub "AM-S" t then do n <- gears_after_s t; Ok (n, "AMS"%string)
  else if has_sub "S" t then do n <- gears_after_s t; Ok (n, "SA"%string)
  else if has_sub "-spd" t then do n <- gear_before_spd t; Ok (n, "A"%string)
  else do i <- find_text "(A" t; do j <- find_text ")" t; do x <- slice (i + 2) j t; Ok (match parse_u32 x with Some n => n | None => 1%Z end, "A"%string).

(** ** Records *)
(** VehicleDataFE, vehicle_import.rs:75-195, the fields read; [fe_displ] is the number that its text stands for, 0 if none (line 434), next to
    the text, and [fe_efid] the efid of the first entry of the emissions list, empty if there is none (lines 435-439). *)
Record fe_data (F : Type) := mkfe { fe_year : Z; fe_make : string; fe_model : string; fe_drive : string; fe_alt : string; fe_cyl : string;
  fe_displ : F; fe_displ_text : string; fe_trans : string; fe_efid : string; fe_range : Z }.
Arguments mkfe {F}. Arguments fe_year {F}. Arguments fe_make {F}. Arguments fe_model {F}. Arguments fe_drive {F}. Arguments fe_alt {F}. Arguments fe_cyl {F}.
Arguments fe_displ {F}. Arguments fe_displ_text {F}. Arguments fe_trans {F}. Arguments fe_efid {F}. Arguments fe_range {F}.
(** VehicleDataEPA, vehicle_import.rs:232-284, the fields read. *)
Record epa_data (F : Type) := mkepa { epa_year : Z; epa_make : string; epa_model : string; epa_test : string; epa_displ : F; epa_hp : Z; epa_cyl : string;
  epa_tcode : string; epa_ttype : string; epa_gears : Z; epa_drive : string; epa_lbs : F; epa_fuel : string }.
Arguments mkepa {F}. Arguments epa_year {F}. Arguments epa_make {F}. Arguments epa_model {F}. Arguments epa_test {F}. Arguments epa_displ {F}. Arguments epa_hp {F}.
Arguments epa_cyl {F}. Arguments epa_tcode {F}. Arguments epa_ttype {F}. Arguments epa_gears {F}. Arguments epa_drive {F}. Arguments epa_lbs {F}. Arguments epa_fuel {F}.
(** VehicleInputRecord, vehicle_import.rs:1068-1080, without the name of the output file. *)
Record request (F : Type) := mkreq { rq_make : string; rq_model : string; rq_year : Z; rq_width : F; rq_height : F; rq_tank : F; rq_ess_kwh : F; rq_mc : F;
  rq_ess : F; rq_fc : option F }.
Arguments mkreq {F}. Arguments rq_make {F}. Arguments rq_model {F}. Arguments rq_year {F}. Arguments rq_width {F}. Arguments rq_height {F}. Arguments rq_tank {F}.
Arguments rq_ess_kwh {F}. Arguments rq_mc {F}. Arguments rq_ess {F}. Arguments rq_fc {F}.
(** The fields of the new vehicle that depend on the records or the powertrain, vehicle_import.rs:963-1008. *)
Record sizes (F : Type) := mksizes { z_pt : pt_type; z_kg : F; z_cg : F; z_area : F; z_fs : F; z_fs_kwh : F; z_fc : F; z_mc : F; z_ess : F; z_ess_kwh : F;
  z_dischg : F; z_mph_on : F; z_kw_on : F; z_aux : F; z_trans : F; z_range : F }.
Arguments mksizes {F}. Arguments z_pt {F}. Arguments z_kg {F}. Arguments z_cg {F}. Arguments z_area {F}. Arguments z_fs {F}. Arguments z_fs_kwh {F}. Arguments z_fc {F}.
Arguments z_mc {F}. Arguments z_ess {F}. Arguments z_ess_kwh {F}. Arguments z_dischg {F}. Arguments z_mph_on {F}. Arguments z_kw_on {F}. Arguments z_aux {F}.
Arguments z_trans {F}. Arguments z_range {F}.

Section Import.
  Context {F : Type} {N : Num F}.
  Local Open Scope num_scope.

  (** f64::round (Rust library), used at vehicle_import.rs:487 and 491: to the nearest integer, halves away from zero. *)
  Definition r_round (x : F) : F := if x <? n0 then - nofZ (nfloor (- x + lit 1 2)) else nofZ (nfloor (x + lit 1 2)).

  (** The share of words in common, vehicle_import.rs:470-480, with words counted as often as they occur in the name of the test.
      Where either name is blank the code divides by zero; the result, not a number, wins no comparison, as the 0 here. *)
  Definition word_match (fe x : string) : F :=
    let a := model_words fe in let b := model_words x in
    let c := nofZ (Z.of_nat (List.length (filter (fun w => existsb (String.eqb w) a) b))) in
    c * c / (nofZ (Z.of_nat (List.length b)) * nofZ (Z.of_nat (List.length a))).
  (** name_match, vehicle_import.rs:461-481. *)
  Definition name_match (fe : fe_data F) (x : epa_data F) : F :=
    let by_id := (negb (String.eqb (epa_test x) "") && negb (String.eqb (fe_efid fe) "") && ends_with (epa_test x) (tail (fe_efid fe)))%bool in
    if (by_id || same_text (epa_model x) (fe_model fe))%bool then n1 else word_match (fe_model fe) (epa_model x).
  (** The first character of the drive, vehicle_import.rs:440-449. *)
  Definition fe_drive_code (fe : fe_data F) : string := match fe_drive fe with EmptyString => EmptyString | String c _ => String c EmptyString end.
  (** vehicle_import.rs:497-504. *)
  Definition epa_drive_code (x : epa_data F) : string :=
    if (has_sub "4WD" (epa_model x) || has_sub "AWD" (epa_model x) || has_sub "4-Wheel Drive" (epa_drive x))%bool then "A"%string else epa_drive x.
  (** score, vehicle_import.rs:455 and 485-516. *)
  Definition match_score (fe : fe_data F) (gears : Z) (trans : string) (x : epa_data F) : F :=
    let engine := if String.eqb (fe_alt fe) "EV"
                  then (String.eqb (epa_cyl x) "" && (r_round (epa_displ x) =? n0))%bool
                  else (String.eqb (epa_cyl x) (fe_cyl fe) && (r_round (epa_displ x * nofZ 10) / nofZ 10 =? fe_displ fe))%bool in
    (if engine then n1 else n0) + (if String.eqb (epa_drive_code x) (fe_drive_code fe) then n1 else n0)
    + (if String.eqb (epa_tcode x) trans then lit 1 2 else if String.prefix (epa_ttype x) trans then lit 1 4 else n0)
    + (if Z.eqb (epa_gears x) gears then lit 1 2 else n0).
  (** The tests that come into question, with the two marks, vehicle_import.rs:451-521. *)
  Definition candidates (fe : fe_data F) (gears : Z) (trans : string) (tests : list (epa_data F)) : list (F * F * epa_data F) :=
    flat_map (fun x =>
      if (Z.eqb (epa_year x) (fe_year fe) && same_text (epa_make x) (fe_make fe))%bool then
        if has_sub "Cold CO" (epa_fuel x) then []
        else if name_match fe x =? n0 then [] else [(name_match fe x, match_score fe gears trans x, x)]
      else []) tests.
  (** The search for the best, vehicle_import.rs:525-536; the index of the best stands for the candidate itself. *)
  Fixpoint best (l : list (F * F * epa_data F)) (id score : F) (b : epa_data F) : F * epa_data F :=
    match l with
    | [] => (id, b)
    | (i, s, x) :: r => if ((id <? i) || ((i =? id) && (score <? s)))%bool then best r i s x else best r id score b
    end.
  (** match_epatest_with_fegov_v2, vehicle_import.rs:427-543. *)
  Definition match_test (fe : fe_data F) (tests : list (epa_data F)) : Res (option (epa_data F)) :=
    do g <- transmission_specs (fe_trans fe);
    match candidates fe (fst g) (snd g) tests with
    | [] => Ok None
    | ((_, _, x) :: _) as l => let r := best l n0 n0 x in Ok (if fst r =? n0 then None else Some (snd r))
    end.

  (** get_fuel_economy_gov_data_for_input_record, vehicle_import.rs:815-831; [strip] removes blanks at both ends
      (and the separators 28 to 31, which Rust's trim keeps). *)
  Definition records_for (rq : request F) (fes : list (fe_data F)) : list (fe_data F) :=
    let plain s := strip (smap to_lower s) in
    filter (fun fe => (Z.eqb (fe_year fe) (rq_year rq) && String.eqb (plain (fe_make fe)) (plain (rq_make rq)) && String.eqb (plain (fe_model fe)) (plain (rq_model rq)))%bool) fes.

  (** HP_PER_KW, params.rs:16. *)
  Definition hp_per_kw : F := lit 134102 100000.
  (** IN_PER_M, params.rs:17. *)
  Definition in_per_m : F := lit 393701 10000.
  (** LBS_PER_KG, params.rs:18. *)
  Definition lbs_per_kg : F := lit 220462 100000.
  (** vehicle_import.rs:841-846. *)
  Definition import_pt (alt : string) : pt_type :=
    if String.eqb alt "Hybrid" then HEV else if String.eqb alt "Plug-in Hybrid" then PHEV else if String.eqb alt "EV" then BEV else CONV.
  (** try_make_single_vehicle, vehicle_import.rs:833-1008, for a test that is not the empty record (line 838). *)
  Definition make_sizes (fe : fe_data F) (x : epa_data F) (rq : request F) : sizes F :=
    let pt := import_pt (fe_alt fe) in
    let kg := epa_lbs x / lbs_per_kg in
    let cg := if String.eqb (fe_drive fe) "Front-Wheel Drive" then lit 53 100 else - lit 53 100 in
    let area := lit 85 100 * (rq_width rq * rq_height rq) / (in_per_m * in_per_m) in
    let tank := rq_tank rq * pp_kwh_per_gge r_default_props in
    let power := nofZ (epa_hp x) / hp_per_kw in
    let engine := match rq_fc rq with Some k => k | None => power end in
    match pt with
    | CONV => mksizes pt kg cg area (nofZ 2000) tank power n0 n0 n0 n0 (nofZ 55) (nofZ 100) (lit 7 10) (lit 92 100) n0
    | HEV => mksizes pt kg cg area (nofZ 2000) tank engine (rq_mc rq) (rq_ess rq) (rq_ess_kwh rq) n0 n1 (nofZ 100) (lit 5 10) (lit 95 100) n0
    | PHEV => mksizes pt kg cg area (nofZ 2000) tank engine (rq_mc rq) (rq_ess rq) (rq_ess_kwh rq) n1 (nofZ 85) (nofZ 120) (lit 3 10) (lit 98 100) n0
    | BEV => mksizes pt kg cg area n0 n0 n0 power (lit 105 100 * power) (rq_ess_kwh rq) n0 n1 (nofZ 100) (lit 25 100) (lit 98 100) (nofZ (fe_range fe))
    end.
  (** The sequence of try_import_vehicles, vehicle_import.rs:1025-1063, with the record each vehicle is named after (lines 1036-1050).  A panic
      in the reading of a transmission ends the import. *)
  Fixpoint import_records (rq : request F) (hits : list (fe_data F)) (tests : list (epa_data F)) : Res (list (fe_data F * sizes F)) :=
    match hits with
    | [] => Ok []
    | fe :: r =>
        do m <- match_test fe tests;
        do l <- import_records rq r tests;
        Ok (match m with Some x => (fe, make_sizes fe x rq) :: l | None => l end)
    end.
  (** try_import_vehicles, vehicle_import.rs:1025-1063. *)
  Definition import_vehicles (rq : request F) (fes : list (fe_data F)) (tests : list (epa_data F)) : Res (list (fe_data F * sizes F)) :=
    import_records rq (records_for rq fes) tests.
End Import.
