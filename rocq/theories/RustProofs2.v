(** The Rust step against the Python step: the engine, and whole rows. *)
From Verif Require Import Num Numpy ListFacts CycleModel VehModel SimModel SimState WalkModel SimSpec RustModel RustSpec FrameProofs SimProofs3 SimProofs4 SimProofs7 RustProofs.
Local Open Scope R_scope.

(** ** set_fc_power *)
Lemma fc_out_range (v : vehicle R) m l q d : 0 <= cur_max_fc_kw_out l <= fc_max_kw v ->
  0 <= calc_fc_out v m l q d <= fc_max_kw v.
Proof.
  intros [L1 L2]. unfold calc_fc_out. rewrite !nmin_R, !nmax_R. unR. destruct (Reqb_spec (fc_max_kw v) 0); [lra|].
  assert (Q : forall y, 0 <= Rmin (cur_max_fc_kw_out l) (Rmax 0 y) <= fc_max_kw v).
  { intros y. split; [apply Rmin_glb; [lra|apply Rmax_l]|]. apply Rle_trans with (1 := Rmin_l _ _). lra. }
  destruct (is_h2fc _); [apply Q|]. destruct (_ || _)%bool; apply Q.
Qed.
Lemma fc_same (v : vehicle R) e m l q d : engine_tables_ok v -> 0 <= cur_max_fc_kw_out l <= fc_max_kw v ->
  let f := set_fc_power v e m l q d in
  exists x, r_set_fc_power v e m l q d = Ok (mkfc (fc_kw_out_ach f) (fc_kw_out_ach_pct f) x x (x * e_dt e / 3600)) /\
    (fc_kw_out_ach f < fc_max_kw v \/ fc_max_kw v = 0 -> x = fc_kw_in_ach f) /\
    (fc_kw_out_ach f = fc_max_kw v -> 0 < fc_max_kw v ->
       let eff := nth (length (fc_eff_array v) - 2) (fc_eff_array v) 0 in
       x = if Reqb eff 0 then 0 else fc_kw_out_ach f / eff).
Proof.
  intros E L. pose proof (fc_out_range v m l q d L) as RG. unfold set_fc_power, r_set_fc_power. cbv zeta. cbn [fc_kw_out_ach fc_kw_out_ach_pct fc_kw_in_ach].
  change (r_fc_out v m l q d) with (calc_fc_out v m l q d). set (out := calc_fc_out v m l q d) in *.
  destruct (et_top v E) as [T1 T2].
  assert (PCT : (if neqb (fc_max_kw v) n0 then n0 else ndiv out (fc_max_kw v)) = (if neqb out n0 then n0 else if neqb (fc_max_kw v) n0 then n0 else ndiv out (fc_max_kw v))).
  { unR. destruct (Reqb_spec out 0) as [Z|Z]; [|reflexivity]. rewrite Z. destruct (Reqb (fc_max_kw v) 0); [reflexivity|]. unfold Rdiv. ring. }
  rewrite PCT. unR. change (@k3600 R RNum) with 3600.
  destruct (Reqb_spec out 0) as [Z|Z].
  { cbn [bindR]. exists 0. split; [reflexivity|]. split; [reflexivity|]. intros; lra. }
  assert (MP : 0 < fc_max_kw v) by lra.
  unfold r_fc_eff_at, fc_eff_at. rewrite !nmin_R. replace (Rmin out (fc_max_kw v)) with out by (rewrite Rmin_left; lra).
  destruct (Req_dec out (fc_max_kw v)) as [EQ|NE].
  - assert (CL : r_cell (fc_kw_out_array v) out = Ok (length (fc_eff_array v) - 2)%nat).
    { unfold r_cell, r_first_grtr. pose proof (et_two v E) as L2. rewrite r_position_eq. unR.
      destruct (first_above (fc_kw_out_array v) out) as [(k & a & EE & A1 & A2 & A3)|(EE & A)].
      { exfalso. pose proof (T2 a (nth_error_In _ _ A1)). lra. }
      change (@nltb R RNum) with Rltb in EE. rewrite EE. pose proof (et_len v E) as LL.
      destruct (fc_kw_out_array v) eqn:Q; [cbn in LL; lia|]. rewrite <- Q in *. rewrite LL.
      destruct (length (fc_eff_array v) - 1)%nat as [|j] eqn:J; [lia|]. cbn [r_pred]. f_equal. lia. }
    rewrite CL. cbn [bindR]. pose proof (et_two v E) as L2.
    assert (KO : (length (fc_eff_array v) - 2 < length (fc_eff_array v))%nat) by lia.
    rewrite (r_get_nth _ _ _ (nth_error_nth' _ 0 KO)). cbn [bindR]. set (eff := nth _ (fc_eff_array v) 0).
    exists (if Reqb eff 0 then 0 else out / eff). split; [destruct (Reqb eff 0); reflexivity|]. split; [intros; lra|]. intros _ _. reflexivity.
  - assert (LT : out < fc_max_kw v) by lra.
    destruct (cell_found _ out 0 _ (et_zero v E) (proj1 RG) T1 LT) as (k & K1 & K2 & K3). rewrite K1, K2. cbn [bindR].
    assert (KO : (k < length (fc_eff_array v))%nat) by (rewrite <- (et_len v E); lia).
    pose proof (nth_error_nth' _ 0 KO) as E1. rewrite (r_get_nth _ _ _ E1), (getZ_nat _ _ _ E1). cbn [bindR].
    set (eff := nth k _ 0). exists (if negb (Reqb eff 0) then out / eff else 0). split; [destruct (Reqb eff 0); reflexivity|].
    split; [reflexivity|]. intros; lra.
Qed.

(** ** A row *)
Lemma fc_lim_range (v : vehicle R) pr e p m c : comparable v -> 0 < e_dt e -> 0 <= fc_kw_out_ach (fc p) ->
  0 <= cur_max_fc_kw_out (set_comp_lims v pr e p m c) <= fc_max_kw v.
Proof.
  intros V D P. unfold set_comp_lims. cbn [cur_max_fc_kw_out]. rewrite nmin_R. unR. pose proof (cp_engine v V) as E.
  assert (M0 : 0 <= fc_max_kw v). { apply (proj2 (et_top v E)). eapply nth_error_In. apply (et_zero v E). }
  split; [|apply Rmin_l]. apply Rmin_glb; [exact M0|]. pose proof (et_sec v E).
  assert (0 <= fc_max_kw v / fc_sec_to_peak_pwr v * e_dt e); [|lra]. apply Rmult_le_pos; [|lra]. apply Rmult_le_pos; [exact M0|].
  apply Rlt_le, Rinv_0_lt_compat. assumption.
Qed.
(** The row with other fuel entries. *)
Definition with_fuel (r : row R) (x dt : R) : row R :=
  mkrow (misc r) (lims r) (pwr r) (spd r) (hyb r) (forced r) (dec r) (mkfc (fc_kw_out_ach (fc r)) (fc_kw_out_ach_pct (fc r)) x x (x * dt / 3600)) (ctl r).
Lemma row_same (v : vehicle R) pr sp e p cur : comparable v -> 0 < e_dt e -> 0 <= fc_kw_out_ach (fc p) ->
  (forall x, Rabs (e_grade_est e - e_grade e x) <= 1/1000000) ->
  let r := solve_row v pr sp e p cur in
  (no_motor v -> 0 <= aux_in_kw (misc r)) -> cur_max_roadway_chg_kw (ctl cur) <= cur_max_ess_chg_kw (lims r) ->
  exists x, r_solve_row v pr sp e p cur = Ok (with_fuel r x (e_dt e)) /\
    (fc_kw_out_ach (fc r) < fc_max_kw v \/ fc_max_kw v = 0 -> with_fuel r x (e_dt e) = r) /\
    (fc_kw_out_ach (fc r) = fc_max_kw v -> 0 < fc_max_kw v ->
       let eff := nth (length (fc_eff_array v) - 2) (fc_eff_array v) 0 in
       x = if Reqb eff 0 then 0 else fc_kw_out_ach (fc r) / eff).
Proof.
  intros V D P G. unfold solve_row, r_solve_row. cbv zeta. rewrite misc_same.
  set (m := set_misc_calcs v e p _). set (l := set_comp_lims v pr e p m (ctl cur)).
  change (r_start_speed e (spd cur)) with (start_speed_of e (spd cur)).
  destruct (set_ach_speed v pr sp e p l _ (spd cur)) as [q s] eqn:AS. cbn [misc lims].
  intros A RD. rewrite (lims_same v pr e p m (ctl cur) V D A RD). fold l. cbn [bindR]. rewrite power_same, ach_same, AS by assumption.
  cbn [bindR fst snd]. rewrite hyb_same by assumption. cbn [bindR]. rewrite forced_same by assumption. cbn [bindR].
  rewrite dec_same by assumption. cbn [bindR]. set (h := set_hybrid_cont_calcs _ _ _ _ _ _ _ _). set (f := set_fc_forced_state _ _ _ _).
  set (d := set_hybrid_cont_decisions _ _ _ _ _ _ _ _ _ _). cbn [fc].
  destruct (fc_same v e m l q d (cp_engine v V) (fc_lim_range v pr e p m (ctl cur) V D P)) as (x & X1 & X2 & X3).
  exists x. rewrite X1. cbn [bindR]. split; [reflexivity|]. split; [|exact X3].
  intros H. rewrite (X2 H). unfold with_fuel. cbn [misc lims pwr spd hyb forced dec fc ctl]. f_equal.
  unfold set_fc_power. cbn [fc_kw_out_ach fc_kw_out_ach_pct fc_kw_in_ach]. f_equal. unR. change (@k3600 R RNum) with 3600. unfold Rdiv. ring.
Qed.
