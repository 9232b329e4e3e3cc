(** Independent vocabulary for the label properties C49, C50 and C76-C79. *)
From Verif Require Import Num Numpy CycleModel VehModel SimModel SimState WalkModel PostModel ListFacts UtilModel LabelModel.
Local Open Scope R_scope.

(** The dict has the number [x] under the key [k]. *)
Definition has (out : ldict R) (k : string) (x : R) : Prop := In (k, LNum x) out.
(** 55 % city and 45 % highway: of the fuel per mile (so that miles per gallon combine harmonically), of kWh per mile. *)
Definition combined_mpg (city hwy c : R) : Prop := / c = 55 / 100 * / city + 45 / 100 * / hwy.
Definition combined_kwh (city hwy c : R) : Prop := c = 55 / 100 * city + 45 / 100 * hwy.
Definition between (a b x : R) : Prop := Rmin a b <= x <= Rmax a b.

(** The adjustment coefficients of the EPA rule for model years before 2017 and from 2017: fuel per mile as adjusted
    is intercept + slope * fuel per mile as measured. *)
Definition coef_city (year : Z) : R * R :=
  if (year <? 2017)%Z then (3259 / 1000000, 11805 / 10000) else (4091 / 1000000, 11601 / 10000).
Definition coef_hwy (year : Z) : R * R :=
  if (year <? 2017)%Z then (1376 / 1000000, 13466 / 10000) else (3191 / 1000000, 12945 / 10000).
Definition adjusted_mpg (c : R * R) (lab adj : R) : Prop := / adj = fst c + snd c * / lab.
(** Battery consumption (kWh per mile): the same rule with 33.7 kWh for a gallon, but raised by at most the factor that
    lowers miles per gallon by 30 %. *)
Definition adjusted_kwh (c : R * R) (lab adj : R) : Prop := adj = Rmin (33.7 * fst c + snd c * lab) (10 / 7 * lab).

(** Miles between charges at which the utility factor table has entries: 0, 1, 3, 5, ... *)
Definition uf_miles (i : nat) : R := match i with O => 0 | S k => IZR (2 * Z.of_nat k + 1) end.
(** The utility factor of [m] miles is the table's entry for the greatest listed distance up to [m]. *)
Definition utility_factor (m u : R) : Prop :=
  exists i z, nth_error uf_table i = Some z /\ u = IZR z / 100000 /\ uf_miles i <= m /\ m <= uf_miles 601 /\
    (forall j, (i < j <= 601)%nat -> m < uf_miles j).

(** Miles driven and fuel energy used in a run. *)
Definition miles (d : sdrive R) : R := Rsum (map (fun r => dist_mi_ach (spd r)) (d_rows d)).
Definition fuel_kwh (d : sdrive R) : R := Rsum (map (fun r => fs_kwh_out_ach (fc r)) (d_rows d)).

(** The broken line through the samples passes 60 at time [t]: between the last sample at or below and the first above. *)
Definition passes_60 (mph times : list R) (t : R) : Prop :=
  exists k a b c d, nth_error mph k = Some a /\ nth_error mph (S k) = Some b /\ nth_error times k = Some c /\ nth_error times (S k) = Some d /\
    a <= 60 < b /\ t = c + (d - c) * ((60 - a) / (b - a)) /\
    (forall j x, (j <= k)%nat -> nth_error mph j = Some x -> x <= 60) /\ (forall j x, (k < j)%nat -> nth_error mph j = Some x -> 60 < x).

(** The keys of a label result. *)
Definition lab_keys : list string := ["veh"; "adjParams"; "labUddsMpgge"; "labHwyMpgge"; "labCombMpgge"; "labUddsKwhPerMile";
  "labHwyKwhPerMile"; "labCombKwhPerMile"; "adjUddsMpgge"; "adjHwyMpgge"; "adjCombMpgge"; "adjUddsKwhPerMile"; "adjHwyKwhPerMile";
  "adjCombKwhPerMile"; "adjUddsEssKwhPerMile"; "adjHwyEssKwhPerMile"; "UF"; "netAccel"; "resFound"]%string.
Definition range_keys : list string := ["adjCombEssKwhPerMile"; "netRangeMiles"]%string.
Definition phev_keys : list string := ["phev_calcs"; "adjCsCombMpgge"; "adjCdCombMpgge"; "netPhevCDMiles"]%string.
Definition joined_key : string := "adjCombEssKwhPerMilenetRangeMiles".
Definition has_key (out : ldict R) (k : string) : Prop := exists x, In (k, x) out.
(** City, highway and combined entries. *)
Definition mpg_triples : list (string * string * string) :=
  [("labUddsMpgge", "labHwyMpgge", "labCombMpgge"); ("adjUddsMpgge", "adjHwyMpgge", "adjCombMpgge")]%string.
Definition kwh_triples : list (string * string * string) :=
  [("labUddsKwhPerMile", "labHwyKwhPerMile", "labCombKwhPerMile"); ("adjUddsKwhPerMile", "adjHwyKwhPerMile", "adjCombKwhPerMile")]%string.

(** A new simulation of the vehicle over a cycle with the default settings. *)
Definition fresh (v : vehicle R) (c : cyc R) : sdrive R := new_sd v label_props default_sim_params c.
(** How many times the cycle can be driven on the usable battery energy. *)
Definition cycles (v : vehicle R) (r : phev_runs R) : R := (max_soc v - min_soc v) * ess_max_kwh v / cd_batt r / cd_mi r.
(** Mileage as adjusted: by the rule, but lowered by at most 30 %. *)
Definition capped_mpg (c : R * R) (lab adj : R) : Prop := adj = Rmax (/ (fst c + snd c * / lab)) (7 / 10 * lab).
