(** Model of utils/vehicle_import_preproc.py:28-147.  Definitions only.
    CSV files are lists of rows of text (the csv module is not modelled), directories lists of files in the order of iterdir();
    openpyxl's reading of a workbook is a parameter.  Texts are ASCII. *)
From Coq Require Import Ascii.
From Verif Require Import Num UtilModel VehDictModel.
Local Open Scope string_scope.

(** str.strip(). utils/vehicle_import_preproc.py:28-42. *)
Definition is_space (c : ascii) : bool := let n := nat_of_ascii c in (Nat.eqb n 32 || (Nat.leb 9 n && Nat.leb n 13) || (Nat.leb 28 n && Nat.leb n 31))%bool.
(** utils/vehicle_import_preproc.py:28-42 *)
Fixpoint lstrip (s : string) : string := match s with EmptyString => EmptyString | String c r => if is_space c then lstrip r else s end.
(** utils/vehicle_import_preproc.py:28-42 *)
Fixpoint rstrip (s : string) : string :=
  match s with
  | EmptyString => EmptyString
  | String c r => match rstrip r with EmptyString => if is_space c then EmptyString else String c EmptyString | t => String c t end
  end.
(** utils/vehicle_import_preproc.py:28-42 *)
Definition strip (s : string) : string := rstrip (lstrip s).

(** utils/vehicle_import_preproc.py:28-42 (a row of the file) *)
Definition csv_row : Type := list string.
(** [{h: v for (h, v) in zip(header, row)}[k]], 40: a repeated name has its last value. *)
Definition cell (header : list string) (row : csv_row) (k : string) : Res string :=
  match find (fun hv => String.eqb (fst hv) k) (rev (combine header row)) with Some (_, v) => Ok v | None => Err KeyError end.

(** Dicts with integer keys, in insertion order. utils/vehicle_import_preproc.py:57-87. *)
Definition zdict (V : Type) : Type := list (Z * V).
(** utils/vehicle_import_preproc.py:57-87 (d[k]) *)
Fixpoint zget {V} (d : zdict V) (k : Z) : option V :=
  match d with [] => None | (j, v) :: r => if Z.eqb j k then Some v else zget r k end.
(** utils/vehicle_import_preproc.py:57-87 (d[k] = v) *)
Fixpoint zset {V} (d : zdict V) (k : Z) (v : V) : zdict V :=
  match d with [] => [(k, v)] | (j, w) :: r => if Z.eqb j k then (k, v) :: r else (j, w) :: zset r k v end.
(** [if k not in d: d[k] = []; d[k].append(x)]. utils/vehicle_import_preproc.py:68-87. *)
Definition zappend {A} (d : zdict (list A)) (k : Z) (x : A) : zdict (list A) :=
  zset d k (match zget d k with Some l => l | None => [] end ++ [x])%list.

Section Prep.
  (** int(text). *)
  Variable int_of : string -> option Z.
  (** utils/vehicle_import_preproc.py:68-87 (int(row[k])) *)
  Definition int_cell (header : list string) (row : csv_row) (k : string) : Res Z :=
    do t <- cell header row k; match int_of t with Some n => Ok n | None => Err ValueError end.

  (** process_vehicles, 68-76: rows and ids by year. *)
  Definition process_vehicle (header : list string) (st : zdict (list csv_row) * zdict (list Z)) (row : csv_row) :
    Res (zdict (list csv_row) * zdict (list Z)) :=
    do year <- int_cell header row "year";
    do id <- int_cell header row "id";
    Ok (zappend (fst st) year row, zappend (snd st) year id).
  (** utils/vehicle_import_preproc.py:68-75 *)
  Fixpoint process_vehicles (header : list string) (st : zdict (list csv_row) * zdict (list Z)) (rows : list csv_row) :
    Res (zdict (list csv_row) * zdict (list Z)) :=
    match rows with [] => Ok st | r :: rs => do st' <- process_vehicle header st r; process_vehicles header st' rs end.
  (** process_emissions, 77-83. *)
  Definition process_emission (header : list string) (ids : zdict (list Z)) (st : zdict (list csv_row)) (row : csv_row) : Res (zdict (list csv_row)) :=
    do id <- int_cell header row "id";
    Ok (fold_left (fun st yi => if existsb (Z.eqb id) (snd yi) then zappend st (fst yi) row else st) ids st).
  (** utils/vehicle_import_preproc.py:77-87 *)
  Fixpoint process_emissions (header : list string) (ids : zdict (list Z)) (st : zdict (list csv_row)) (rows : list csv_row) : Res (zdict (list csv_row)) :=
    match rows with [] => Ok st | r :: rs => do st' <- process_emission header ids st r; process_emissions header ids st' rs end.
  (** process_csv, 28-42: the stripped header and the rows; an empty file has no rows. *)
  Definition csv_header (file : list csv_row) : list string := match file with [] => [] | h :: _ => map strip h end.
  (** sort_fueleconomygov_data_by_year, 57-87: the files {year}-vehicles.csv and {year}-emissions.csv that are written (45-54),
      each with its header first. *)
  Definition sort_by_year (vehicles emissions : list csv_row) : Res (zdict (list csv_row) * zdict (list csv_row)) :=
    let vh := csv_header vehicles in let eh := csv_header emissions in
    do st <- process_vehicles vh ([], []) (tl vehicles);
    do em <- process_emissions eh (snd st) [] (tl emissions);
    Ok (map (fun yr => (fst yr, vh :: snd yr)) (fst st), map (fun yr => (fst yr, eh :: snd yr)) em).
End Prep.

(** EPA_TEST_FILE_RX, 101, on the stem of a file name: two digits, then something else; and the year, 112-113. *)
Definition epa_year (stem : string) : option Z :=
  match stem with
  | String a (String b (String c _)) =>
      match digit a, digit b, digit c with
      | Some a, Some b, None => let y := (10 * a + b)%Z in Some (if (70 <? y)%Z then (y + 1900)%Z else (y + 2000)%Z)
      | _, _, _ => None
      end
  | _ => None
  end.
(** process_epa_test_data, 104-120: the files {year}-testcar.csv written, from (stem, suffix, content). *)
Definition epa_file {C} (of_xlsx : C -> C) (out : zdict C) (f : string * string * C) : zdict C :=
  let '(stem, suffix, c) := f in
  match epa_year stem with
  | None => out
  | Some y => if String.eqb suffix ".csv" then zset out y c else if String.eqb suffix ".xlsx" then zset out y (of_xlsx c) else out
  end.
(** utils/vehicle_import_preproc.py:104-120 *)
Definition process_epa {C} (of_xlsx : C -> C) (files : list (string * string * C)) : zdict C := fold_left (epa_file of_xlsx) files [].

(** YEAR_PREFIX_CSV.match(name), 123: four digits, a dash, and ".csv" somewhere after it. *)
Fixpoint has_sub (p s : string) : bool := (String.prefix p s || match s with EmptyString => false | String _ r => has_sub p r end)%bool.
(** utils/vehicle_import_preproc.py:123-147 *)
Definition zip_year (name : string) : option Z :=
  match name with
  | String a (String b (String c (String d (String e r)))) =>
      if (Ascii.eqb e "-" && has_sub ".csv" r)%bool then leading_year name else None
  | _ => None
  end.
(** create_zip_archives_by_year, 126-147: the names in every {year}.zip. *)
Definition zip_by_year (names : list string) : zdict (list string) :=
  fold_left (fun d n => match zip_year n with Some y => zappend d y n | None => d end) names [].
