(** Independent vocabulary for C122: the label in the two implementations. *)
From Verif Require Import Num Numpy CycleModel VehModel SimModel SimState WalkModel PostModel LabelModel LabelSpec RustSpec RustLabelModel.
Local Open Scope R_scope.

(** The key of Python's dict and the field of Rust's record for each number that both report. *)
Definition label_fields : list (string * (rlabel R -> R)) :=
  [("labUddsMpgge", rl_lab_udds_mpgge); ("labHwyMpgge", rl_lab_hwy_mpgge); ("labCombMpgge", rl_lab_comb_mpgge);
   ("labUddsKwhPerMile", rl_lab_udds_kwh_per_mi); ("labHwyKwhPerMile", rl_lab_hwy_kwh_per_mi); ("labCombKwhPerMile", rl_lab_comb_kwh_per_mi);
   ("adjUddsMpgge", rl_adj_udds_mpgge); ("adjHwyMpgge", rl_adj_hwy_mpgge); ("adjCombMpgge", rl_adj_comb_mpgge);
   ("adjUddsKwhPerMile", rl_adj_udds_kwh_per_mi); ("adjHwyKwhPerMile", rl_adj_hwy_kwh_per_mi); ("adjCombKwhPerMile", rl_adj_comb_kwh_per_mi);
   ("adjUddsEssKwhPerMile", rl_adj_udds_ess_kwh_per_mi); ("adjHwyEssKwhPerMile", rl_adj_hwy_ess_kwh_per_mi);
   ("adjCombEssKwhPerMile", rl_adj_comb_ess_kwh_per_mi); ("netRangeMiles", rl_net_range_miles); ("UF", rl_uf)]%string.
(** Those reported only for plug-in hybrids. *)
Definition plug_in_fields : list (string * (rlabel R -> option R)) :=
  [("adjCsCombMpgge", rl_adj_cs_comb_mpgge); ("adjCdCombMpgge", rl_adj_cd_comb_mpgge); ("netPhevCDMiles", rl_net_phev_cd_miles)]%string.

(** Both implementations simulate the vehicle alike over the cycle: a plain run (C109) whose clock starts at zero, on a
    cycle that moves; from whatever charge it starts, the engine stays below its rated power. *)
Record alike (v : vehicle R) (c : cyc R) : Prop := {
  al_plain : plain_run (fresh v c) None;
  al_clock : nth 0 (time_s c) 0 = 0;
  al_moves : moves c;
  al_calm : forall s x, sim_drive_walk (fresh v c) s None = Ok x -> below_rated x }.
(** The limits of the charge of the battery are in order. *)
Definition charge_limits (v : vehicle R) : Prop := 0 <= min_soc v /\ min_soc v <= max_soc v /\ max_soc v <= 1.

(** Speeds that rise with every sample until one is above 60 and stay above it afterwards. *)
Definition rises_past_60 (mph : list R) : Prop :=
  exists k a b, nth_error mph k = Some a /\ nth_error mph (S k) = Some b /\ a <= 60 < b /\
    (forall i x y, (i <= k)%nat -> nth_error mph i = Some x -> nth_error mph (S i) = Some y -> x < y) /\
    (forall j x, (k < j)%nat -> nth_error mph j = Some x -> 60 < x).
(** The speeds reached in the acceleration test (mph). *)
Definition speeds (a : sdrive R) : list R := map (fun r => mph_ach (spd r)) (d_rows a).
(** Each number that the dict has is in the record; the three of plug-in hybrids are missing in those of other vehicles. *)
Definition same_figures (v : vehicle R) (out : ldict R) (r : rlabel R) : Prop :=
  (forall k f x, In (k, f) label_fields -> has out k x -> f r = x) /\
  (forall k f x, In (k, f) plug_in_fields -> has out k x -> f r = Some x) /\
  (forall k f, In (k, f) plug_in_fields -> veh_pt_type v <> PHEV -> f r = None).
