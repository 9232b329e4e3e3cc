(** Buses, powertrain modes, buffers, the engine timer, published limits. *)
From Verif Require Import Num Numpy ListFacts CycleModel CycleSpec VehModel SimModel SimState WalkModel
  FrameProofs WalkProofs StepEqs StepProofs SimSpec SimProofs1 SimProofs2 SimProofs3 SimProofs4.
Local Open Scope R_scope.

(** ** C22: the battery and the zero entry of an engine map *)
Lemma battery_loss eta p dt : 0 < eta <= 1 -> 0 < dt -> p * (dt / 3600) <= drawn_kwh eta p dt.
Proof.
  intros E T. unfold drawn_kwh. assert (S0 : 0 < sqrt eta) by (apply sqrt_lt_R0; lra).
  assert (S1 : sqrt eta <= 1). { rewrite <- sqrt_1. apply sqrt_le_1_alt. lra. }
  apply Rmult_le_compat_r; [lra|]. destruct (Rlt_dec p 0); [nra|]. apply div_eff_ge; lra.
Qed.
Lemma zero_eff_fuel d0 ovr d i : is_step d0 ovr d i -> fc_eff_at (d_veh d0) (fc_kw_out_ach (fc (row_at d i))) = 0 ->
  fc_kw_in_ach (fc (row_at d i)) = 0.
Proof.
  intros H Z. open_step H. rewrite (fe_in _ _ _ _ _ _ _ (op_fc _ _ _ _ _ _ _ O)), Z. unR.
  destruct (Reqb_spec (fc_kw_out_ach (fc (row_at d i))) 0); auto.
  destruct (Reqb_spec 0 0); [reflexivity|lra].
Qed.
(** Fuel storage output is fuel converter input; energies. *)
Lemma fuel_energy d0 ovr d i : is_step d0 ovr d i ->
  fs_kw_out_ach (fc (row_at d i)) = fc_kw_in_ach (fc (row_at d i)) /\
  fs_kwh_out_ach (fc (row_at d i)) = fc_kw_in_ach (fc (row_at d i)) * step_dt d i / 3600 /\
  (fc_kw_out_ach (fc (row_at d i)) = 0 -> fc_kw_in_ach (fc (row_at d i)) = 0).
Proof.
  intros H. open_step H. pose proof (op_fc _ _ _ _ _ _ _ O) as L.
  split; [exact (fe_fs _ _ _ _ _ _ _ L)|]. split.
  - rewrite (fe_kwh _ _ _ _ _ _ _ L), (fe_fs _ _ _ _ _ _ _ L), (op_dt _ _ _ _ _ _ _ O). toR. field.
  - intros Z. rewrite (fe_in _ _ _ _ _ _ _ L), Z. unR. destruct (Reqb_spec 0 0); [reflexivity|lra].
Qed.

(** ** C31: a vehicle without motor and battery *)
Lemma road_zero d0 ovr d i : is_step d0 ovr d i -> roadway_chg_kw_out_ach (dec (row_at d i)) = 0.
Proof.
  intros H. open_step H. rewrite (de_road _ _ _ _ _ _ _ _ _ _ _ (op_dec _ _ _ _ _ _ _ O)).
  unfold calc_roadway. rewrite (op_road _ _ _ _ _ _ _ O). unR. destruct (Reqb_spec 0 0); [reflexivity|lra].
Qed.
Lemma no_motor d0 ovr d i : is_step d0 ovr d i -> mc_max_kw (d_veh d0) = 0 ->
  mc_mech_kw_out_ach (dec (row_at d i)) = 0 /\ mc_elec_kw_in_ach (dec (row_at d i)) = 0.
Proof.
  intros H Z. pose proof (mc_elec _ _ _ _ H) as EL. open_step H.
  assert (A : mc_mech_kw_out_ach (dec (row_at d i)) = 0).
  { rewrite (de_mech _ _ _ _ _ _ _ _ _ _ _ (op_dec _ _ _ _ _ _ _ O)). unfold calc_mc_mech_out. rewrite Z. unR.
    destruct (Reqb_spec 0 0); [reflexivity|lra]. }
  split; auto. rewrite EL, A. unfold calc_mc_elec_in. unR. destruct (Reqb_spec 0 0); [reflexivity|lra].
Qed.
Lemma no_battery d0 ovr d i : is_step d0 ovr d i -> ess_max_kw (d_veh d0) = 0 ->
  let r := row_at d i in
  ess_kw_out_ach (dec r) = 0 /\ cur_max_ess_chg_kw (lims r) = 0 /\ cur_max_mech_mc_kw_in (lims r) = 0 /\
  cyc_regen_brake_kw (pwr r) = 0 /\
  cyc_trans_kw_out_req (pwr r) = Rmax 0 (cyc_whl_kw_req (pwr r)).
Proof.
  intros H Z. cbv zeta. destruct (brakes _ _ _ _ H) as (B1 & B2 & B3 & _). cbv zeta in *.
  open_step H. pose proof (op_lims _ _ _ _ _ _ _ O) as L.
  assert (C : cur_max_ess_chg_kw (lims (row_at d i)) = 0).
  { rewrite (le_chg _ _ _ _ _ _ _ L), (le_chgcap _ _ _ _ _ _ _ L), Z. toR. destruct (Reqb_spec 0 0); [|lra].
    rewrite orb_true_r. unfold Rmin. destruct (Rle_dec 0 0); reflexivity. }
  assert (M : cur_max_mech_mc_kw_in (lims (row_at d i)) = 0).
  { rewrite (le_mechin _ _ _ _ _ _ _ L), C. unfold calc_mech_mc_in. unR. destruct (Reqb_spec 0 0); [reflexivity|lra]. }
  split. { rewrite (de_ess _ _ _ _ _ _ _ _ _ _ _ (op_dec _ _ _ _ _ _ _ O)). unfold calc_ess_out. rewrite Z. unR.
    destruct (Reqb_spec 0 0); [reflexivity|lra]. }
  split; auto. split; auto. rewrite M in B1.
  assert (G : cyc_regen_brake_kw (pwr (row_at d i)) = 0) by (rewrite B1; mm; lra).
  split; auto. rewrite B3, B2, G. mm; lra.
Qed.

(** ** C26: a parked electric vehicle *)
Lemma parked_motor d0 ovr d i : is_step d0 ovr d i -> veh_pt_type (d_veh d0) = BEV -> fc_max_kw (d_veh d0) = 0 ->
  trans_kw_in_ach (pwr (row_at d i)) = 0 -> 0 <= cur_max_mech_mc_kw_in (lims (row_at d i)) ->
  mc_mech_kw_out_ach (dec (row_at d i)) = 0.
Proof.
  intros H T F P L. open_step H.
  assert (P' : trans_kw_in_ach q = 0) by (revert P; q_of O; auto).
  rewrite (de_mech _ _ _ _ _ _ _ _ _ _ _ (op_dec _ _ _ _ _ _ _ O)). unfold calc_mc_mech_out. rewrite P', T, F.
  cbn [pt_eqb]. rewrite !andb_false_r. toR. cbn [andb].
  destruct (Reqb_spec (mc_max_kw (d_veh d0)) 0); auto.
  destruct (Rleb_spec 0 0); [|lra]. destruct (Rltb_spec 0 0); [lra|]. rewrite andb_false_r. mm; lra.
Qed.

(** ** C56: buses *)
Lemma electric_bus d0 ovr d i : is_step d0 ovr d i -> let v := d_veh d0 in let r := row_at d i in
  ess_max_kw v <> 0 -> ess_max_kwh v <> 0 -> is_h2fc (fc_eff_type v) = false ->
  ess_kw_out_ach (dec r) = mc_elec_kw_in_ach (dec r) + (if aux_on_shaft v r then 0 else aux_in_kw (misc r)).
Proof.
  intros H v r K1 K2 F. pose proof (road_zero _ _ _ _ H) as RZ. open_step H. unfold r.
  rewrite (de_ess _ _ _ _ _ _ _ _ _ _ _ (op_dec _ _ _ _ _ _ _ O)). unfold calc_ess_out, aux_on_shaft, v in *. toR.
  destruct (Reqb_spec (ess_max_kw (d_veh d0)) 0); [lra|]. destruct (Reqb_spec (ess_max_kwh (d_veh d0)) 0); [lra|].
  rewrite F. cbn [orb]. rewrite orb_comm. rewrite RZ. destruct (_ || _)%bool; lra.
Qed.
Lemma mechanical_bus d0 ovr d i : is_step d0 ovr d i -> let v := d_veh d0 in let r := row_at d i in
  fc_max_kw v <> 0 -> is_h2fc (fc_eff_type v) = false -> no_elec_aux v = true \/ no_elec_sys v = false ->
  fc_kw_out_ach (fc r) =
  Rmin (cur_max_fc_kw_out (lims r))
       (Rmax 0 (trans_kw_in_ach (pwr r) - mc_mech_kw_out_ach (dec r) + (if aux_on_shaft v r then aux_in_kw (misc r) else 0))).
Proof.
  intros H v r K F NE. open_step H. unfold r.
  rewrite (fe_out _ _ _ _ _ _ _ (op_fc _ _ _ _ _ _ _ O)). unfold calc_fc_out, aux_on_shaft, v in *. q_of O. toR.
  destruct (Reqb_spec (fc_max_kw (d_veh d0)) 0); [lra|]. rewrite F.
  destruct (no_elec_aux (d_veh d0)); [rewrite orb_true_r; cbn [orb]; reflexivity|].
  destruct NE as [NE|NE]; [discriminate|]. rewrite NE. cbn [orb]. destruct (high_acc_fc_on_tag _); f_equal; f_equal; ring.
Qed.
Lemma fuel_cell_bus d0 ovr d i : is_step d0 ovr d i -> let v := d_veh d0 in let r := row_at d i in
  fc_max_kw v <> 0 -> is_h2fc (fc_eff_type v) = true ->
  fc_kw_out_ach (fc r) = Rmin (cur_max_fc_kw_out (lims r))
    (Rmax 0 (mc_elec_kw_in_ach (dec r) + aux_in_kw (misc r) - ess_kw_out_ach (dec r))) /\
  (ess_max_kw v <> 0 -> ess_max_kwh v <> 0 ->
   (0 <= trans_kw_out_ach (pwr r) ->
      ess_kw_out_ach (dec r) <= mc_elec_kw_in_ach (dec r) + aux_in_kw (misc r) /\
      ess_kw_out_ach (dec r) <= cur_ess_max_kw_out (lims r)) /\
   (trans_kw_out_ach (pwr r) < 0 -> ess_kw_out_ach (dec r) = mc_elec_kw_in_ach (dec r) + aux_in_kw (misc r))).
Proof.
  intros H v r K F. pose proof (road_zero _ _ _ _ H) as RZ. open_step H. unfold r. split.
  - rewrite (fe_out _ _ _ _ _ _ _ (op_fc _ _ _ _ _ _ _ O)). unfold calc_fc_out, v in *. toR.
    destruct (Reqb_spec (fc_max_kw (d_veh d0)) 0); [lra|]. rewrite F, RZ. f_equal. f_equal. ring.
  - intros K1 K2. q_of O. rewrite (de_ess _ _ _ _ _ _ _ _ _ _ _ (op_dec _ _ _ _ _ _ _ O)). unfold calc_ess_out, v in *. toR.
    destruct (Reqb_spec (ess_max_kw (d_veh d0)) 0); [lra|]. destruct (Reqb_spec (ess_max_kwh (d_veh d0)) 0); [lra|].
    cbn [orb]. rewrite F, RZ. destruct (Rleb_spec 0 (trans_kw_out_ach q)); split; intros; try lra.
    mm; lra.
Qed.

(** ** C57: electric-only driving *)
Lemma all_electric d0 ovr d i : is_step d0 ovr d i -> let v := d_veh d0 in let r := row_at d i in
  (follows_trace d0 ->
   (can_pwr_all_elec (hyb r) = true <->
    accel_buff_soc (hyb r) < soc (dec (row_at d (i - 1))) /\
    trans_kw_in_ach (pwr r) - 1 / 1000000 <= cur_max_mc_kw_out (lims r) /\
    (fc_max_kw v <> 0 ->
       elec_kw_req_4ae (hyb r) < cur_max_elec_kw (lims r) /\
       (nth i (mps (d_cyc d)) 0 * 2.2369 - 1 / 1000000 <= mph_fc_on v \/ charging_on v = true) /\
       elec_kw_req_4ae (hyb r) <= kw_demand_fc_on v))).
Proof.
  intros H v r T. open_step H. unfold r. q_of O.
  rewrite (he_can _ _ _ _ _ _ _ _ _ (op_hyb _ _ _ _ _ _ _ O)). unfold calc_can_pwr_all_elec.
  rewrite (sr_mps _ _ _ _ _ _ _ (op_step _ _ _ _ _ _ _ O) (replans_off _ T)). toR.
  change (cmps (d_cyc d) i) with (nth i (mps (d_cyc d)) 0). fold v.
  replace (22369 / 10000) with 2.2369 by lra.
  set (ab := accel_buff_soc _). set (s1 := soc _). set (inp := trans_kw_in_ach q). set (mc := cur_max_mc_kw_out _).
  set (rq := elec_kw_req_4ae _). set (el := cur_max_elec_kw _). set (sp := nth i _ 0 * _).
  destruct (Reqb_spec (fc_max_kw v) 0) as [Z|Z].
  - rewrite orb_true_r, andb_true_r, andb_true_iff, Rltb_true, Rleb_true. tauto.
  - rewrite orb_false_r, !andb_true_iff, !Rltb_true, orb_true_iff, !Rleb_true. tauto.
Qed.
Lemma all_electric_motor d0 ovr d i : is_step d0 ovr d i -> let v := d_veh d0 in let r := row_at d i in
  mc_max_kw v <> 0 -> can_pwr_all_elec (hyb r) = true -> fc_forced_on (forced r) = false ->
  0 < trans_kw_in_ach (pwr r) -> mc_mech_kw_out_ach (dec r) = trans_kw_in_ach (pwr r).
Proof.
  intros H v r M C F P. open_step H. revert P. unfold r in *. q_of O. intros P.
  rewrite (de_mech _ _ _ _ _ _ _ _ _ _ _ (op_dec _ _ _ _ _ _ _ O)). unfold calc_mc_mech_out. rewrite C, F. unR.
  fold v. cbn [andb].
  destruct (Reqb_spec (mc_max_kw v) 0); [lra|]. destruct (Rleb_spec (trans_kw_in_ach q) 0); [lra|]. reflexivity.
Qed.
Lemma all_electric_engine d0 ovr d i : is_step d0 ovr d i -> let v := d_veh d0 in let r := row_at d i in
  increasing (time_s (d_cyc d)) -> 0 <= fc_max_kw v -> 0 < fc_sec_to_peak_pwr v ->
  mc_max_kw v <> 0 -> is_h2fc (fc_eff_type v) = false -> no_elec_sys v = false ->
  can_pwr_all_elec (hyb r) = true -> fc_forced_on (forced r) = false -> aux_on_shaft v r = false ->
  0 < trans_kw_in_ach (pwr r) -> fc_kw_out_ach (fc r) = 0 /\ fs_kw_out_ach (fc r) = 0.
Proof.
  intros H v r I A B M F NE C FO AX P.
  assert (Z : fc_kw_out_ach (fc r) = 0).
  { destruct (Req_EM_T (fc_max_kw v) 0) as [K|K]; [now apply (fc_none _ _ _ _ H)|].
    unfold r, v in *. rewrite (mechanical_bus _ _ _ _ H K F (or_intror NE)), AX.
    rewrite (all_electric_motor _ _ _ _ H M C FO P).
    destruct (fc_within _ _ _ _ H I A B) as (W & _). mm; lra. }
  split; auto. destruct (fuel_energy _ _ _ _ H) as (E1 & _ & E2). unfold r in *. rewrite E1. auto.
Qed.

(** ** C58: the engine timer and forced operation *)
Lemma forced_on d0 ovr d i : is_step d0 ovr d i -> let v := d_veh d0 in let r := row_at d i in
  let on := fc_time_on (dec (row_at d (i - 1))) in
  (fc_forced_on (forced r) = true <-> 0 < on < min_fc_time_on v - step_dt d i) /\
  prev_fc_time_on (hyb r) = on.
Proof.
  intros H v r on. open_step H. unfold r.
  pose proof (he_prev _ _ _ _ _ _ _ _ _ (op_hyb _ _ _ _ _ _ _ O)) as PV. split; [|exact PV].
  rewrite (op_forced _ _ _ _ _ _ _ O). unfold set_fc_forced_state. rewrite PV, (op_dt _ _ _ _ _ _ _ O). fold on v. unR.
  assert (E : (Rltb 0 on && Rltb on (min_fc_time_on v - step_dt d i))%bool = true <->
              0 < on < min_fc_time_on v - step_dt d i).
  { rewrite andb_true_iff, !Rltb_true. tauto. }
  destruct (_ && _)%bool eqn:Q; rewrite <- E; repeat (match goal with |- context [if ?b then _ else _] => destruct b end);
    cbn [fc_forced_on]; tauto.
Qed.
Lemma timer d0 ovr d i : is_step d0 ovr d i -> follows_trace d0 -> no_dilation d0 ->
  let r := row_at d i in
  (can_pwr_all_elec (hyb r) = true -> fc_forced_on (forced r) = false -> fc_time_on (dec r) = 0) /\
  (can_pwr_all_elec (hyb r) = false \/ fc_forced_on (forced r) = true ->
   fc_time_on (dec r) = fc_time_on (dec (row_at d (i - 1))) + step_dt d i).
Proof.
  intros H T M r. open_step H. unfold r.
  rewrite (de_ton _ _ _ _ _ _ _ _ _ _ _ (op_dec _ _ _ _ _ _ _ O)).
  destruct (sr_unsolved _ _ _ _ _ _ _ (op_step _ _ _ _ _ _ _ O) M (replans_off _ T)) as (_ & _ & U).
  rewrite U, (op_dt _ _ _ _ _ _ _ O). cbn [fc_kw_out_ach zero_row fc]. unR. destruct (Reqb_spec 0 0); [|lra].
  split.
  - intros -> ->. reflexivity.
  - intros [-> | ->]; cbn [andb negb]; rewrite ?andb_false_r; reflexivity.
Qed.
(** The power the engine is left with in each forced state. *)
Lemma forced_states d0 ovr d i : is_step d0 ovr d i -> no_dilation d0 -> let v := d_veh d0 in let r := row_at d i in
  let f := forced r in let inp := trans_kw_in_ach (pwr r) in
  let rest := inp - mc_mech_kw_4forced_fc f in
  (fc_forced_on f = false \/ can_pwr_all_elec (hyb r) = false -> fc_forced_state f = 1%Z /\ mc_mech_kw_4forced_fc f = 0) /\
  (fc_forced_on f = true -> can_pwr_all_elec (hyb r) = true ->
     (inp < 0 -> fc_forced_state f = 2%Z /\ rest = 0) /\
     (0 <= inp -> inp = max_fc_eff_kw v -> fc_forced_state f = 3%Z /\ rest = inp) /\
     (0 <= inp -> inp <> max_fc_eff_kw v -> inp < idle_fc_kw v -> 0 <= accel_kw (pwr r) ->
        fc_forced_state f = 4%Z /\ rest = idle_fc_kw v) /\
     (0 <= inp -> inp < max_fc_eff_kw v -> idle_fc_kw v <= inp \/ accel_kw (pwr r) < 0 ->
        fc_forced_state f = 5%Z /\ rest = inp) /\
     (0 <= inp -> max_fc_eff_kw v < inp -> idle_fc_kw v <= inp \/ accel_kw (pwr r) < 0 ->
        fc_forced_state f = 6%Z /\ rest = max_fc_eff_kw v)).
Proof.
  intros H M v r f inp rest. unfold rest, inp, f, r. clear rest inp f r. open_step H.
  destruct (op_x _ _ _ _ _ _ _ O M) as (_ & ->).
  rewrite (op_forced _ _ _ _ _ _ _ O). unfold set_fc_forced_state. fold v. set (on := (_ && _)%bool).
  set (can := can_pwr_all_elec _). set (inp := trans_kw_in_ach q). unR. split.
  - intros C.
    assert (E : (negb on || negb can)%bool = true).
    { destruct on; cbn [negb orb]; auto. destruct can; cbn; auto. destruct C as [C|C]; auto.
      revert C. cbn [negb orb].
      repeat (match goal with |- context [if ?b then _ else _] => destruct b end); cbn [fc_forced_on]; auto. }
    rewrite E. cbn. auto.
  - intros C1 C2. rewrite C2 in *. cbn [negb orb] in *. rewrite orb_false_r in *.
    assert (E : on = true). { revert C1. destruct on; auto. }
    rewrite E. cbn [negb].
    destruct (Rltb_spec inp 0); destruct (Reqb_spec (max_fc_eff_kw v) inp); destruct (Rltb_spec inp (idle_fc_kw v));
      destruct (Rleb_spec 0 (accel_kw q)); destruct (Rltb_spec inp (max_fc_eff_kw v)); cbn [andb fc_forced_state mc_mech_kw_4forced_fc];
      repeat split; intros; lra.
Qed.

(** ** C59: state-of-charge buffers *)
Lemma accel_buffer d0 ovr d i : is_step d0 ovr d i -> let v := d_veh d0 in let h := hyb (row_at d i) in
  (no_elec_sys v = true -> accel_buff_soc h = 0 /\ regen_buff_soc h = 0) /\
  (no_elec_sys v = false -> min_soc v <= max_soc v -> min_soc v <= accel_buff_soc h <= max_soc v).
Proof.
  intros H v h. open_step H. unfold h.
  pose proof (he_accel _ _ _ _ _ _ _ _ _ (op_hyb _ _ _ _ _ _ _ O)) as A.
  pose proof (he_regen _ _ _ _ _ _ _ _ _ (op_hyb _ _ _ _ _ _ _ O)) as B.
  unfold calc_accel_buff in A. unfold calc_regen_buff in B. fold v in A, B.
  split; intros Z; rewrite Z in *.
  - injection A as -> _ _. injection B as -> _ _. auto.
  - intros M. injection A as -> _ _. toR. mm; lra.
Qed.
Lemma regen_buffer d0 ovr d i : is_step d0 ovr d i -> let v := d_veh d0 in let h := hyb (row_at d i) in
  no_elec_sys v = false -> min_soc v <= max_soc v -> 0 < ess_max_kwh v -> 0 <= veh_kg v ->
  0 <= max_regen v -> 0 <= mc_peak_eff v ->
  min_soc v <= regen_buff_soc h <= max_soc v.
Proof.
  intros H v h Z M K G R P. open_step H. unfold h.
  pose proof (he_regen _ _ _ _ _ _ _ _ _ (op_hyb _ _ _ _ _ _ _ O)) as B.
  unfold calc_regen_buff in B. fold v in B. rewrite Z in B. destruct (charging_on v).
  - injection B as -> _ _. unfold max_regen_kwh. toR.
    assert (0 <= 1 / 2 * veh_kg v * 729 / 3600000 / ess_max_kwh v).
    { apply Rmult_le_pos; [|left; now apply Rinv_0_lt_compat]. lra. }
    mm; lra.
  - injection B as -> _ _. toR.
    set (y := 1 / 2 * veh_kg v * (e_mps e * e_mps e) * (1 / 1000) * (1 / 3600) * mc_peak_eff v * max_regen v).
    assert (Y : 0 <= y).
    { unfold y. assert (0 <= e_mps e * e_mps e) by nra.
      apply Rmult_le_pos; auto. apply Rmult_le_pos; auto. apply Rmult_le_pos; [|lra]. apply Rmult_le_pos; [|lra].
      apply Rmult_le_pos; auto. lra. }
    assert ((ess_max_kwh v * max_soc v - y) / ess_max_kwh v <= max_soc v).
    { apply (Rmult_le_reg_r (ess_max_kwh v)); auto. unfold Rdiv. rewrite Rmult_assoc, Rinv_l by lra. lra. }
    mm; lra.
Qed.
(** The exact set points. *)
Lemma buffer_points d0 ovr d i : is_step d0 ovr d i -> follows_trace d0 -> let v := d_veh d0 in let h := hyb (row_at d i) in
  no_elec_sys v = false -> ess_max_kwh v <> 0 -> max_accel_buffer_mph v <> 0 ->
  let s := nth i (mps (d_cyc d)) 0 in
  let reserve := Rmin (max_accel_buffer_perc_of_useable_soc v * (max_soc v - min_soc v))
                      (kinetic_J (veh_kg v) 27 / 3600000 / ess_max_kwh v) in
  accel_buff_soc h = Rmin (max_soc v) (Rmax (min_soc v)
      (min_soc v + (1 - (s / (max_accel_buffer_mph v / 2.2369)) ^ 2) * reserve)) /\
  (charging_on v = false -> regen_buff_soc h = Rmax (min_soc v)
      (max_soc v - kinetic_J (veh_kg v) s / 3600000 * mc_peak_eff v * max_regen v / ess_max_kwh v)) /\
  (charging_on v = true -> regen_buff_soc h = Rmax ((max_soc v + min_soc v) / 2)
      (max_soc v - kinetic_J (veh_kg v) 27 / 3600000 / ess_max_kwh v)).
Proof.
  intros H T v h Z K MB s reserve. open_step H. unfold h.
  pose proof (he_accel _ _ _ _ _ _ _ _ _ (op_hyb _ _ _ _ _ _ _ O)) as A.
  pose proof (he_regen _ _ _ _ _ _ _ _ _ (op_hyb _ _ _ _ _ _ _ O)) as B.
  unfold calc_accel_buff in A. unfold calc_regen_buff in B. fold v in A, B. rewrite Z in A, B.
  rewrite (sr_mps _ _ _ _ _ _ _ (op_step _ _ _ _ _ _ _ O) (replans_off _ T)) in A, B.
  change (cmps (d_cyc d) i) with s in A, B.
  assert (KJ : forall x, kinetic_J (veh_kg v) x / 3600000 = 1 / 2 * veh_kg v * (x * x) * (1 / 1000) * (1 / 3600)).
  { intros y. unfold kinetic_J. field. }
  split.
  - injection A as -> _ _. unfold max_regen_kwh. toR. rewrite Rmin_comm. f_equal. rewrite Rmax_comm. f_equal.
    rewrite Rplus_comm. f_equal. unfold reserve. rewrite KJ.
    replace (1 / 2 * veh_kg v * (27 * 27) * (1 / 1000) * (1 / 3600)) with (1 / 2 * veh_kg v * 729 / 3600000) by field.
    replace (22369 / 10000) with 2.2369 by lra. field. repeat split; auto; lra.
  - split; intros C; rewrite C in B; injection B as -> _ _.
    + toR. rewrite Rmax_comm. f_equal. rewrite KJ. field. auto.
    + unfold max_regen_kwh. toR. rewrite Rmax_comm. f_equal. rewrite KJ. field. auto.
Qed.

(** ** C60: published motor limits *)
Lemma motor_limits d0 ovr d i : is_step d0 ovr d i -> let v := d_veh d0 in let l := lims (row_at d i) in
  0 <= mc_max_kw v ->
  - mc_max_kw v <= cur_max_mc_kw_out l <= mc_max_kw v /\
  (stop_start v = true -> cur_max_mc_kw_out l <= 0) /\
  (0 <= mc_transi_lim_kw l -> cur_max_mc_kw_out l <= mc_transi_lim_kw l) /\
  mc_transi_lim_kw l = Rabs (mc_mech_kw_out_ach (dec (row_at d (i - 1)))) + mc_max_kw v / mc_sec_to_peak_pwr v * step_dt d i /\
  (cur_max_elec_kw l <= 0 -> cur_max_mc_kw_out l <= 0) /\
  cur_max_avail_elec_kw l = Rmin (cur_max_elec_kw l) (mc_max_elec_in_kw v) /\
  cur_max_elec_kw l = (if is_h2fc (fc_eff_type v) then cur_max_fc_kw_out l else 0) + cur_ess_max_kw_out l
                      - aux_in_kw (misc (row_at d i)) /\
  cur_max_mech_mc_kw_in l <= mc_max_kw v.
Proof.
  intros H v l M. open_step H. unfold l. pose proof (op_lims _ _ _ _ _ _ _ O) as L.
  pose proof (le_mc _ _ _ _ _ _ _ L) as MC. rewrite nmax_R, !nmin_R in MC. unR. fold v in MC.
  assert (SS : (if stop_start v then 0 else 1) * mc_max_kw v <= mc_max_kw v) by (destruct (stop_start v); lra).
  assert (TR : mc_transi_lim_kw (lims (row_at d i)) = Rabs (mc_mech_kw_out_ach (dec (row_at d (i - 1))))
     + mc_max_kw v / mc_sec_to_peak_pwr v * step_dt d i).
  { rewrite (le_mctr _ _ _ _ _ _ _ L), (op_dt _ _ _ _ _ _ _ O). unR. reflexivity. }
  split. { rewrite MC. mm; lra. }
  split. { intros E. rewrite E in MC. rewrite MC. mm; lra. }
  split. { intros E. rewrite MC. mm; lra. }
  split; auto. split.
  { intros E. assert (Z : mc_elec_in_lim_kw (lims (row_at d i)) = 0).
    { rewrite (le_mcel _ _ _ _ _ _ _ L). unfold calc_mc_elec_in_lim. unR.
      destruct (Rltb_spec 0 (cur_max_elec_kw (lims (row_at d i)))); [lra|reflexivity]. }
    rewrite Z in MC. rewrite MC. mm; lra. }
  split. { rewrite (le_avail _ _ _ _ _ _ _ L), nmin_R. reflexivity. }
  split. { rewrite (le_elec _ _ _ _ _ _ _ L), (op_road _ _ _ _ _ _ _ O). unR. fold v. destruct (is_h2fc _); lra. }
  rewrite (le_mechin _ _ _ _ _ _ _ L). unfold calc_mech_mc_in. toR. fold v. rcase; auto. rcase; mm; lra.
Qed.
(** Fuel storage limit. *)
Lemma fuel_limit d0 ovr d i : is_step d0 ovr d i ->
  cur_max_fs_kw_out (lims (row_at d i)) = Rmin (fs_max_kw (d_veh d0))
    (fs_kw_out_ach (fc (row_at d (i - 1))) + fs_max_kw (d_veh d0) / fs_secs_to_peak_pwr (d_veh d0) * step_dt d i).
Proof.
  intros H. open_step H. rewrite (le_fs _ _ _ _ _ _ _ (op_lims _ _ _ _ _ _ _ O)), nmin_R, (op_dt _ _ _ _ _ _ _ O). unR. reflexivity.
Qed.

(** ** C61: battery power planned for when the engine has to run *)
Lemma planned_battery d0 ovr d i : is_step d0 ovr d i -> let v := d_veh d0 in let l := lims (row_at d i) in
  let r := row_at d i in
  ess_kw_if_fc_req (dec r) <= cur_ess_max_kw_out l /\
  ess_kw_if_fc_req (dec r) <= mc_max_elec_in_kw v + aux_in_kw (misc r) /\
  ess_kw_if_fc_req (dec r) <= cur_max_mc_elec_kw_in l + aux_in_kw (misc r) /\
  (- cur_max_ess_chg_kw l <= ess_kw_if_fc_req (dec r) \/
   ess_kw_if_fc_req (dec r) = Rmin (Rmin (cur_ess_max_kw_out l) (mc_max_elec_in_kw v + aux_in_kw (misc r)))
                                   (cur_max_mc_elec_kw_in l + aux_in_kw (misc r))) /\
  mc_elec_kw_in_if_fc_req (dec r) = ess_kw_if_fc_req (dec r) - aux_in_kw (misc r) + er_kw_if_fc_req (dec r).
Proof.
  intros H v l r. open_step H. unfold l, r. pose proof (op_dec _ _ _ _ _ _ _ O) as D.
  pose proof (de_essreq _ _ _ _ _ _ _ _ _ _ _ D) as E. unfold calc_ess_if_fc_req in E. fold v in E.
  assert (X : exists x, ess_kw_if_fc_req (dec (row_at d i)) =
     Rmin (Rmin (Rmin (cur_ess_max_kw_out (lims (row_at d i))) (mc_max_elec_in_kw v + aux_in_kw (misc (row_at d i))))
                (cur_max_mc_elec_kw_in (lims (row_at d i)) + aux_in_kw (misc (row_at d i))))
          (Rmax (- cur_max_ess_chg_kw (lims (row_at d i))) x)).
  { rewrite E. cbv zeta. unR. repeat (match goal with |- context [if ?b then _ else _] => destruct b end);
      rewrite !nmin_R, ?nmax_R; eexists; reflexivity. }
  destruct X as (y & X). rewrite X.
  split; [mm; lra|]. split; [mm; lra|]. split; [mm; lra|]. split; [mm; lra|].
  rewrite <- X. rewrite (de_elreq _ _ _ _ _ _ _ _ _ _ _ D). unR. lra.
Qed.
Lemma planned_motor d0 ovr d i : is_step d0 ovr d i -> motor_map_ok (d_veh d0) -> let r := row_at d i in
  let el := mc_elec_kw_in_if_fc_req (dec r) in let mech := mc_kw_if_fc_req (dec r) in
  no_elec_sys (d_veh d0) = false ->
  mech <= el /\ (0 < el -> 0 < mech) /\ (el < 0 -> mech < 0) /\ (el = 0 -> mech = 0).
Proof.
  intros H M r el mech N. open_step H. unfold mech, r.
  rewrite (de_mcreq _ _ _ _ _ _ _ _ _ _ _ (op_dec _ _ _ _ _ _ _ O)). fold r. fold el. unfold calc_mc_if_fc_req.
  rewrite N. unR.
  pose proof (mm_two _ M) as L2.
  assert (L1 : (1 <= length (mc_full_eff_array (d_veh d0)) - 1)%nat) by lia.
  assert (EL := mm_eff _ M _ _ L1 (mc_last_point _ L2)).
  assert (EA : forall t x, 0 < mc_eff_at (d_veh d0) (mc_kw_in_array (d_veh d0)) t x <= 1).
  { intros t y. destruct (mc_eff_point _ _ t y L2 (mm_in _ M)) as (k & K1 & K2 & _). eapply M; eauto. }
  assert (DV : forall x f, x < 0 -> 0 < f <= 1 -> x / f <= x).
  { intros y f Y Fp. pose proof (div_eff_ge (- y) f Fp ltac:(lra)). unfold Rdiv in *. lra. }
  destruct (Reqb_spec el 0) as [Z|Z]. { repeat split; intros; lra. }
  destruct (Rltb_spec 0 el).
  - pose proof (EA (amax (mc_kw_in_array (d_veh d0))) el). rcase; repeat split; intros; nra.
  - pose proof (EA (amax (mc_kw_in_array (d_veh d0))) (el * - (1))). assert (el < 0) by lra.
    rcase; repeat split; intros; try lra; try (apply DV; lra);
      (eapply Rle_lt_trans; [apply DV|]; lra).
Qed.
