(** Specifications for the comparison of runs that change the driven cycle, C118-C120. *)
From Verif Require Import Num CycleModel CycleSpec VehModel SimModel SimState WalkModel RustSpec.
Local Open Scope R_scope.

(** A level road. *)
Definition level (c : cyc R) : Prop := forall g, In g (grade c) -> g = 0.
(** A starting state of charge that a run accepts. *)
Definition soc_ok (v : vehicle R) (s : R) : Prop := veh_pt_type v = CONV \/ min_soc v <= s <= max_soc v.
(** Both cycles of one length, times of the trace increasing from zero, on a vehicle whose maps both
    implementations read alike. *)
Record run_ok (d : sdrive R) (ovr : option (list R)) : Prop := {
  ro_cyc : wf (d_cyc d); ro_cyc0 : wf (d_cyc0 d); ro_len : clen (d_cyc d) = clen (d_cyc0 d);
  ro_times : increasing (time_s (d_cyc0 d)); ro_start : hd 0 (time_s (d_cyc0 d)) = 0;
  ro_veh : comparable (d_veh d); ro_loads : loads_ok ovr (d_veh d); ro_fits : fits ovr d }.
(** Following a leader that drives the trace, on a level road, without the other options. *)
Record follow_run (d : sdrive R) (ovr : option (list R)) : Prop := {
  fr_ok : run_ok d ovr; fr_level : level (d_cyc0 d);
  fr_idm : idm_allow (d_sp d) = true; fr_trace : missed_trace_correction (d_sp d) = false; fr_coast : coast_allow (d_sp d) = false }.
(** Driving the trace with correction of missed distance only. *)
Record trace_run (d : sdrive R) (ovr : option (list R)) : Prop := {
  tr_ok : run_ok d ovr;
  tr_trace : missed_trace_correction (d_sp d) = true; tr_idm : idm_allow (d_sp d) = false; tr_coast : coast_allow (d_sp d) = false;
  tr_min : -1 < min_time_dilation (d_sp d); tr_max : -1 < max_time_dilation (d_sp d) }.
(** The same row but for fuel and for the acceleration power, which Python works out anew after the run. *)
Definition same_but_fuel_accel (a b : row R) : Prop := same_but_fuel a (row_accel (accel_kw (pwr a)) b).
(** Step [i] was driven without a correction. *)
Definition uncorrected (d : sdrive R) (i : nat) : Prop := trace_miss_iters (ctl (row_at d i)) = 0%nat.
