(** The remaining per-step results: battery protection, motor limits and look-ups, buffer rates, the
    powertrain controller's plan and the motor decision; a parked electric vehicle. *)
From Verif Require Import Num Numpy ListFacts CycleModel CycleSpec VehModel SimModel SimState WalkModel
  FrameProofs WalkProofs StepEqs StepProofs SimSpec SimProofs1 SimProofs2 SimProofs3 SimProofs4 SimProofs5.
Local Open Scope R_scope.

(** The efficiency the motor look-ups use. *)
Lemma motor_eff_at (v : vehicle R) grid top x y : (2 <= length (mc_full_eff_array v))%nat ->
  length grid = length (mc_full_eff_array v) -> In top grid -> y = x ->
  motor_eff v grid top x (if Reqb y top then mc_eff_last v else mc_eff_at v grid top x).
Proof.
  intros L2 L3 T ->. destruct (Reqb_spec x top) as [E|E].
  - exists (length (mc_full_eff_array v) - 1)%nat. split; [lia|]. split; [now apply mc_last_point|].
    split; auto. intros D. now contradiction D.
  - destruct (mc_eff_point v _ top x L2 L3) as (k & K1 & K2 & K3).
    exists k. split; auto. split; auto. split. { intros D. now contradiction E. }
    intros _ G0 G1 G2. apply (K3 0 top); auto.
    + apply Rmin_glb; lra.
    + pose proof (Rmin_l (top - 1 / 100) x). lra.
Qed.
Lemma Reqb_sym a b : Reqb a b = Reqb b a.
Proof. destruct (Reqb_spec a b), (Reqb_spec b a); auto; exfalso; auto. Qed.

(** ** Battery protection *)
Lemma protection d0 ovr d i : is_step d0 ovr d i -> let v := d_veh d0 in let r := row_at d i in
  let s := soc (dec (row_at d (i - 1))) in
  (high_acc_fc_on_tag (misc r) = true <->
   s < min_soc v \/ (high_acc_fc_on_tag (misc (row_at d (i - 1))) = true /\ s < min_soc v + perc_high_acc_buf v)) /\
  (reached_buff (misc r) = true <-> min_soc v + perc_high_acc_buf v <= s) /\
  max_trac_mps (misc r) = speed d (i - 1) + max_trac_mps2 v * step_dt d i.
Proof.
  intros H v r s. open_step H. unfold r. rewrite (op_misc _ _ _ _ _ _ _ O). fold v.
  cbn [set_misc_calcs high_acc_fc_on_tag reached_buff max_trac_mps].
  rewrite (op_dt _ _ _ _ _ _ _ O). fold s. unR. split; [|split; [|reflexivity]].
  - rewrite orb_true_iff, andb_true_iff, Rltb_true, Bool.negb_involutive, Rltb_true. tauto.
  - rewrite Bool.negb_true_iff, Rltb_false. tauto.
Qed.
Lemma protection_start d0 ovr d : wf_sd d0 -> run d0 ovr d -> high_acc_fc_on_tag (misc (row_at d 0)) = false.
Proof. intros W R. destruct (run_starts _ _ _ W R) as (s & K). apply K. Qed.

(** ** Motor limits *)
Section Motor.
  Variables (d0 : sdrive R) (ovr : option (list R)) (d : sdrive R) (i : nat).
  Hypothesis H : is_step d0 ovr d i.
  Let v := d_veh d0.
  Let r := row_at d i.
  Let l := lims r.
  Hypothesis L2 : (2 <= length (mc_full_eff_array v))%nat.
  Hypothesis LO : length (mc_kw_out_array v) = length (mc_full_eff_array v).
  Hypothesis LI : length (mc_kw_in_array v) = length (mc_full_eff_array v).
  Hypothesis TO : In (mc_max_kw v) (mc_kw_out_array v).
  Let NI : mc_kw_in_array v <> [].
  Proof. intros E. rewrite E in LI. cbn in LI. lia. Qed.
  Let TI : In (amax (mc_kw_in_array v)) (mc_kw_in_array v).
  Proof. now apply amax_in. Qed.

  Lemma motor_elec_limit :
    (cur_max_mc_kw_out l = 0 -> cur_max_mc_elec_kw_in l = 0) /\
    (cur_max_mc_kw_out l <> 0 -> exists eff, motor_eff v (mc_kw_out_array v) (mc_max_kw v) (cur_max_mc_kw_out l) eff /\
       cur_max_mc_elec_kw_in l = cur_max_mc_kw_out l / eff).
  Proof.
    open_step H. unfold l, r. pose proof (op_lims _ _ _ _ _ _ _ O) as L.
    rewrite (le_mcelin _ _ _ _ _ _ _ L). fold r. fold l. unfold calc_mc_elec_kw_in. unR.
    destruct (Reqb_spec (cur_max_mc_kw_out l) 0); split; intros; try lra.
    eexists. split; [apply (motor_eff_at v _ _ (cur_max_mc_kw_out l) _ L2 LO TO eq_refl)|].
    fold v. destruct (Reqb _ _); reflexivity.
  Qed.
  Lemma motor_regen_limit :
    (cur_max_ess_chg_kw l = 0 -> cur_max_mech_mc_kw_in l = 0) /\
    (cur_max_ess_chg_kw l <> 0 -> exists eff, motor_eff v (mc_kw_out_array v) (mc_max_kw v) (cur_max_ess_chg_kw l) eff /\
       cur_max_mech_mc_kw_in l = Rmin (mc_max_kw v) (cur_max_ess_chg_kw l / eff)).
  Proof.
    open_step H. unfold l, r. pose proof (op_lims _ _ _ _ _ _ _ O) as L.
    rewrite (le_mechin _ _ _ _ _ _ _ L). rewrite (op_road _ _ _ _ _ _ _ O). fold r. fold l. unfold calc_mech_mc_in. toR.
    destruct (Reqb_spec (cur_max_ess_chg_kw l) 0); split; intros; try lra.
    eexists. split; [apply (motor_eff_at v _ _ (cur_max_ess_chg_kw l) (cur_max_ess_chg_kw l) L2 LO TO eq_refl)|].
    fold v. rewrite Rminus_0_r, (Reqb_sym (mc_max_kw v)). destruct (Reqb _ _); reflexivity.
  Qed.
  (** The largest motor output that the available electric power can feed: the entry of the output grid
      at the last input grid point below it. *)
  Lemma motor_feed_limit : let a := cur_max_avail_elec_kw l in let top := amax (mc_kw_in_array v) in
    (cur_max_elec_kw l <= 0 -> mc_elec_in_lim_kw l = 0) /\
    (0 < cur_max_elec_kw l -> a = top ->
       mc_elec_in_lim_kw l = Rmin (nth (length (mc_full_eff_array v) - 1) (mc_kw_out_array v) 0) (mc_max_kw v)) /\
    (0 < cur_max_elec_kw l -> a <> top -> nth_error (mc_kw_in_array v) 0 = Some 0 -> 1/100 <= top -> 0 <= a ->
       exists j, grid_point (mc_kw_in_array v) (Rmin (top - 1/100) a) j /\
         mc_elec_in_lim_kw l = Rmin (nth j (mc_kw_out_array v) 0) (mc_max_kw v)).
  Proof.
    cbv zeta. open_step H. unfold l, r. pose proof (op_lims _ _ _ _ _ _ _ O) as L.
    rewrite (le_mcel _ _ _ _ _ _ _ L). fold r. fold l. unfold calc_mc_elec_in_lim. toR. fold v.
    assert (NO : mc_kw_out_array v <> []). { intros E. rewrite E in LO. cbn in LO. lia. }
    split; [intros P; destruct (Rltb_spec 0 (cur_max_elec_kw l)); [lra|reflexivity]|]. split.
    - intros P E. destruct (Rltb_spec 0 (cur_max_elec_kw l)); [|lra]. rewrite E.
      destruct (Reqb_spec (amax (mc_kw_in_array v)) (amax (mc_kw_in_array v))); [|lra].
      f_equal. pose proof (getZ_last _ NO) as G. rewrite <- LO. symmetry. now apply nth_error_nth.
    - intros P NE Z0 T A0. destruct (Rltb_spec 0 (cur_max_elec_kw l)); [|lra].
      destruct (Reqb_spec (cur_max_avail_elec_kw l) (amax (mc_kw_in_array v))); [lra|].
      set (y := Rmin _ _) in *.
      assert (Y0 : 0 <= y) by (unfold y; apply Rmin_glb; lra).
      assert (Y1 : y < amax (mc_kw_in_array v)) by (unfold y; pose proof (Rmin_l (amax (mc_kw_in_array v) - 1/100) (cur_max_avail_elec_kw l)); lra).
      unfold below, argmax_b. unR.
      destruct (first_above (mc_kw_in_array v) y) as [(k & a & E & A1 & A2 & A3)|(E & A)];
        change (@nltb R RNum) with Rltb in E; rewrite E; clear E.
      + destruct k as [|k]. { rewrite Z0 in A1. injection A1 as <-. lra. }
        assert (LK : (S k < length (mc_kw_in_array v))%nat) by (apply nth_error_Some; congruence).
        exists k. split.
        * split; [intros j c Hj; apply A3; lia|]. split.
          -- exists (nth k (mc_kw_in_array v) 0). apply nth_error_nth'. lia.
          -- intros c Hc. congruence.
        * f_equal. replace (Z.of_nat (S k) - 1)%Z with (Z.of_nat k) by lia. apply getZ_nat. apply nth_error_nth'. lia.
      + destruct (In_nth_error _ _ TI) as (j & J). specialize (A _ _ J). lra.
  Qed.
  Lemma motor_share_limit :
    (mc_max_kw v = 0 -> ess_lim_mc_regen_perc_kw l = 0) /\
    (mc_max_kw v <> 0 -> ess_lim_mc_regen_perc_kw l =
       Rmin ((cur_max_ess_chg_kw l + aux_in_kw (misc r)) / mc_max_kw v) 1).
  Proof.
    open_step H. unfold l, r. rewrite (le_perc _ _ _ _ _ _ _ (op_lims _ _ _ _ _ _ _ O)). fold v r. fold l. toR.
    destruct (Reqb_spec (mc_max_kw v) 0); split; intros; lra.
  Qed.
  (** Electric power needed for driving on the motor alone. *)
  Lemma electric_need : let inp := trans_kw_in_ach (pwr r) in
    (no_elec_sys v = true \/ inp <= 0 -> elec_kw_req_4ae (hyb r) = 0) /\
    (no_elec_sys v = false -> 0 < inp -> exists eff, motor_eff v (mc_kw_out_array v) (mc_max_kw v) inp eff /\
       elec_kw_req_4ae (hyb r) = inp / eff + aux_in_kw (misc r)).
  Proof.
    cbv zeta. open_step H. unfold r. q_of O. rewrite (he_req _ _ _ _ _ _ _ _ _ (op_hyb _ _ _ _ _ _ _ O)).
    unfold calc_elec_req_4ae. unR. fold v. split.
    - intros [->| ?]; auto. destruct (no_elec_sys v); auto. destruct (Rltb_spec 0 (trans_kw_in_ach q)); [lra|auto].
    - intros -> P. destruct (Rltb_spec 0 (trans_kw_in_ach q)); [|lra].
      eexists. split; [apply (motor_eff_at v _ _ (trans_kw_in_ach q) _ L2 LO TO eq_refl)|].
      unfold mc_div_eff. unR. destruct (Reqb _ _); reflexivity.
  Qed.
  (** Shaft power planned for the planned electric power. *)
  Lemma planned_shaft : let el := mc_elec_kw_in_if_fc_req (dec r) in let mech := mc_kw_if_fc_req (dec r) in
    let grid := mc_kw_in_array v in
    (no_elec_sys v = true \/ el = 0 -> mech = 0) /\
    (no_elec_sys v = false -> 0 < el -> exists eff, motor_eff v grid (amax grid) el eff /\ mech = el * eff) /\
    (no_elec_sys v = false -> el < 0 -> exists eff, motor_eff v grid (amax grid) (- el) eff /\ mech = el / eff).
  Proof.
    cbv zeta. open_step H. unfold r.
    rewrite (de_mcreq _ _ _ _ _ _ _ _ _ _ _ (op_dec _ _ _ _ _ _ _ O)). unfold calc_mc_if_fc_req. unR. fold v.
    set (el := mc_elec_kw_in_if_fc_req _). split; [|split].
    - intros [->| ->]; auto. destruct (no_elec_sys v); auto. destruct (Reqb_spec 0 0); [auto|lra].
    - intros -> P. destruct (Reqb_spec el 0); [lra|]. destruct (Rltb_spec 0 el); [|lra].
      eexists. split; [apply (motor_eff_at v _ _ el _ L2 LI TI eq_refl)|]. destruct (Reqb _ _); reflexivity.
    - intros -> P. destruct (Reqb_spec el 0); [lra|]. destruct (Rltb_spec 0 el); [lra|].
      replace (el * - (1)) with (- el) by ring.
      eexists. split; [apply (motor_eff_at v _ _ (- el) _ L2 LI TI eq_refl)|]. destruct (Reqb _ _); reflexivity.
  Qed.
  (** Electric power that would put the engine at its most efficient output. *)
  Lemma best_point_power : let out := trans_kw_out_ach (pwr r) in let gap := fc_kw_gap_fr_eff (hyb r) in
    let p := mc_elec_in_kw_for_max_fc_eff (hyb r) in
    gap = Rabs (out - max_fc_eff_kw v) /\
    (no_elec_sys v = true -> p = 0) /\
    (no_elec_sys v = false -> out < max_fc_eff_kw v ->
       exists eff, motor_eff v (mc_kw_out_array v) (mc_max_kw v) gap eff /\ p = - gap / eff) /\
    (no_elec_sys v = false -> max_fc_eff_kw v <= out -> gap = mc_max_kw v ->
       p = nth (length (mc_full_eff_array v) - 1) (mc_kw_in_array v) 0) /\
    (no_elec_sys v = false -> max_fc_eff_kw v <= out -> gap <> mc_max_kw v ->
       nth_error (mc_kw_out_array v) 0 = Some 0 -> 1/100 <= mc_max_kw v ->
       exists j, grid_point (mc_kw_out_array v) (Rmin (mc_max_kw v - 1/100) gap) j /\ p = nth j (mc_kw_in_array v) 0).
  Proof.
    cbv zeta. open_step H. unfold r. q_of O. pose proof (op_hyb _ _ _ _ _ _ _ O) as HH.
    rewrite (he_mcfc _ _ _ _ _ _ _ _ _ HH). pose proof (he_gap _ _ _ _ _ _ _ _ _ HH) as G. unR. fold v in G.
    split; [exact G|]. clear G.
    set (gap := fc_kw_gap_fr_eff _) in *. set (out := trans_kw_out_ach q) in *. unfold calc_mc_for_max_fc_eff, mc_div_eff. toR. fold v.
    split; [intros ->; auto|]. split; [|split].
    - intros -> P. destruct (Rltb_spec out (max_fc_eff_kw v)); [|lra].
      eexists. split; [apply (motor_eff_at v _ _ gap _ L2 LO TO eq_refl)|]. destruct (Reqb _ _); reflexivity.
    - intros -> P E. destruct (Rltb_spec out (max_fc_eff_kw v)); [lra|]. rewrite E.
      destruct (Reqb_spec (mc_max_kw v) (mc_max_kw v)); [|lra].
      rewrite <- LI. replace (Z.of_nat (length (mc_kw_in_array v)) - 1)%Z with (Z.of_nat (length (mc_kw_in_array v) - 1)) by lia.
      apply getZ_nat. apply nth_error_nth'. lia.
    - intros -> P E Z0 T. destruct (Rltb_spec out (max_fc_eff_kw v)); [lra|].
      destruct (Reqb_spec gap (mc_max_kw v)); [lra|].
      set (y := Rmin _ _) in *.
      assert (GP : gap = Rabs (out - max_fc_eff_kw v)).
      { pose proof (he_gap _ _ _ _ _ _ _ _ _ HH) as G. exact G. }
      assert (Y0 : 0 <= y). { unfold y; apply Rmin_glb; [lra|]. rewrite GP. apply Rabs_pos. }
      assert (Y1 : y < mc_max_kw v) by (unfold y; pose proof (Rmin_l (mc_max_kw v - 1/100) gap); lra).
      unfold below, argmax_b. unR.
      destruct (first_above (mc_kw_out_array v) y) as [(k & b & E1 & A1 & A2 & A3)|(E1 & A)];
        change (@nltb R RNum) with Rltb in E1; rewrite E1; clear E1.
      + destruct k as [|k]. { rewrite Z0 in A1. injection A1 as <-. lra. }
        assert (LK : (S k < length (mc_kw_out_array v))%nat) by (apply nth_error_Some; congruence).
        exists k. split.
        * split; [intros j c Hj; apply A3; lia|]. split.
          -- exists (nth k (mc_kw_out_array v) 0). apply nth_error_nth'. lia.
          -- intros c Hc. congruence.
        * replace (Z.of_nat (S k) - 1)%Z with (Z.of_nat k) by lia. apply getZ_nat. apply nth_error_nth'. lia.
      + destruct (In_nth_error _ _ TO) as (j & J). specialize (A _ _ J). lra.
  Qed.
End Motor.

(** ** Buffer rates and the plan *)
Lemma buffer_rates d0 ovr d i : is_step d0 ovr d i -> follows_trace d0 -> no_dilation d0 ->
  let v := d_veh d0 in let r := row_at d i in let h := hyb r in let l := lims r in
  let s := soc (dec (row_at d (i - 1))) in
  let to target := to_soc_kw (ess_max_kwh v) s target (step_dt d i) in
  (no_elec_sys v = true \/ charging_on v = true -> ess_regen_buff_dischg_kw h = 0 /\ max_ess_regen_buff_chg_kw h = 0) /\
  (no_elec_sys v = false -> charging_on v = false ->
     ess_regen_buff_dischg_kw h = Rmin (cur_ess_max_kw_out l) (Rmax 0 (to (regen_buff_soc h))) /\
     max_ess_regen_buff_chg_kw h = Rmin (cur_max_ess_chg_kw l) (Rmax 0 (- to (regen_buff_soc h)))) /\
  (no_elec_sys v = true -> ess_accel_buff_chg_kw h = 0 /\ max_ess_accell_buff_dischg_kw h = 0) /\
  (no_elec_sys v = false ->
     ess_accel_buff_chg_kw h = Rmax 0 (- to (accel_buff_soc h)) /\
     max_ess_accell_buff_dischg_kw h = Rmin (cur_ess_max_kw_out l) (Rmax 0 (to (accel_buff_soc h)))).
Proof.
  intros H T M v r h l s to. open_step H. unfold h, r.
  pose proof (he_regen _ _ _ _ _ _ _ _ _ (op_hyb _ _ _ _ _ _ _ O)) as B.
  pose proof (he_accel _ _ _ _ _ _ _ _ _ (op_hyb _ _ _ _ _ _ _ O)) as A.
  destruct (sr_unsolved _ _ _ _ _ _ _ (op_step _ _ _ _ _ _ _ O) M (replans_off _ T)) as (_ & U & _).
  rewrite U in A, B. unfold calc_regen_buff in B. unfold calc_accel_buff in A. rewrite (op_dt _ _ _ _ _ _ _ O) in A, B.
  fold v in A, B. fold s in A, B. unfold to, to_soc_kw.
  assert (N : forall a, - ((s - a) * ess_max_kwh v * 3600 / step_dt d i) = (a - s) * ess_max_kwh v * 3600 / step_dt d i).
  { intros a. unfold Rdiv. ring. }
  split; [|split; [|split]].
  - intros [E|E]; rewrite E in B; [|destruct (no_elec_sys v)]; injection B as _ -> ->; auto.
  - intros E1 E2. rewrite E1, E2 in B. injection B as B1 B2 B3. rewrite B2, B3, B1. toR. rewrite N.
    split; auto. apply Rmin_comm.
  - intros E. rewrite E in A. injection A as _ -> ->. auto.
  - intros E. rewrite E in A. injection A as A1 A2 A3. rewrite A2, A3, A1. toR. rewrite N.
    split; auto. apply Rmin_comm.
Qed.
Lemma buffer_power d0 ovr d i : is_step d0 ovr d i ->
  let v := d_veh d0 in let r := row_at d i in let h := hyb r in let l := lims r in
  let s := soc (dec (row_at d (i - 1))) in
  ess_accel_regen_dischg_kw h = within_battery (cur_ess_max_kw_out l) (cur_max_ess_chg_kw l)
    (if Rlt_dec (regen_buff_soc h) (accel_buff_soc h)
     then to_soc_kw (ess_max_kwh v) s ((regen_buff_soc h + accel_buff_soc h) / 2) (step_dt d i)
     else if Rlt_dec (regen_buff_soc h) s then ess_regen_buff_dischg_kw h
     else if Rlt_dec s (accel_buff_soc h) then - ess_accel_buff_chg_kw h else 0).
Proof.
  intros H v r h l s. open_step H. unfold h, r.
  rewrite (he_ard _ _ _ _ _ _ _ _ _ (op_hyb _ _ _ _ _ _ _ O)). unfold calc_accel_regen_dischg.
  rewrite (op_dt _ _ _ _ _ _ _ O). fold r h l v s. toR. unfold within_battery, to_soc_kw.
  destruct (Rltb_spec (regen_buff_soc h) (accel_buff_soc h)), (Rlt_dec (regen_buff_soc h) (accel_buff_soc h)); try lra; auto.
  destruct (Rltb_spec (regen_buff_soc h) s), (Rlt_dec (regen_buff_soc h) s); try lra; auto.
  destruct (Rltb_spec s (accel_buff_soc h)), (Rlt_dec s (accel_buff_soc h)); try lra; auto.
  replace (- (1) * ess_accel_buff_chg_kw h) with (- ess_accel_buff_chg_kw h) by ring. reflexivity.
Qed.
(** Battery power wanted while driving on the motor alone. *)
Lemma electric_plan d0 ovr d i : is_step d0 ovr d i ->
  let v := d_veh d0 in let r := row_at d i in let h := hyb r in let l := lims r in
  let s := soc (dec (row_at d (i - 1))) in let inp := trans_kw_in_ach (pwr r) in let aux := aux_in_kw (misc r) in
  (can_pwr_all_elec h = false -> desired_ess_kw_out_for_ae h = 0 /\ ess_ae_kw_out h = 0) /\
  (can_pwr_all_elec h = true ->
     desired_ess_kw_out_for_ae h =
       (if Rlt_dec inp aux then inp + aux
        else if Rlt_dec (regen_buff_soc h) (accel_buff_soc h) then ess_accel_regen_dischg_kw h
        else if Rlt_dec (regen_buff_soc h) s then ess_regen_buff_dischg_kw h
        else if Rlt_dec s (accel_buff_soc h) then - ess_accel_buff_chg_kw h
        else inp + aux) /\
     ess_ae_kw_out h = Rmax (Rmax (- Rmin (cur_max_ess_chg_kw l) (max_ess_regen_buff_chg_kw h)) (Rmin 0 (aux - inp)))
                            (Rmin (cur_ess_max_kw_out l) (desired_ess_kw_out_for_ae h))) /\
  er_ae_kw_out h = Rmin 0 (Rmax 0 (inp + aux - ess_ae_kw_out h)).
Proof.
  intros H v r h l s inp aux. unfold inp. open_step H. unfold h, r. q_of O.
  pose proof (op_hyb _ _ _ _ _ _ _ O) as HH. pose proof (op_road _ _ _ _ _ _ _ O) as RZ.
  pose proof (he_des _ _ _ _ _ _ _ _ _ HH) as E1. pose proof (he_essae _ _ _ _ _ _ _ _ _ HH) as E2.
  pose proof (he_erae _ _ _ _ _ _ _ _ _ HH) as E3. rewrite RZ in E1, E2, E3.
  fold r in E1, E2, E3. fold h in E1, E2, E3. fold l in E2. fold s in E1. fold aux in E1, E2, E3. fold r h.
  rewrite E3, E2, E1. toR. set (y := trans_kw_in_ach q). split; [|split].
  - intros ->. auto.
  - intros ->.
    assert (D : (if Rltb y aux then aux + y
        else if Rltb (regen_buff_soc h) (accel_buff_soc h) then ess_accel_regen_dischg_kw h
        else if Rltb (regen_buff_soc h) s then ess_regen_buff_dischg_kw h
        else if Rltb s (accel_buff_soc h) then - ess_accel_buff_chg_kw h else y + aux - 0) =
       (if Rlt_dec y aux then y + aux
        else if Rlt_dec (regen_buff_soc h) (accel_buff_soc h) then ess_accel_regen_dischg_kw h
        else if Rlt_dec (regen_buff_soc h) s then ess_regen_buff_dischg_kw h
        else if Rlt_dec s (accel_buff_soc h) then - ess_accel_buff_chg_kw h else y + aux)).
    { destruct (Rltb_spec y aux), (Rlt_dec y aux); try lra.
      destruct (Rltb_spec (regen_buff_soc h) (accel_buff_soc h)), (Rlt_dec (regen_buff_soc h) (accel_buff_soc h)); try lra; auto.
      destruct (Rltb_spec (regen_buff_soc h) s), (Rlt_dec (regen_buff_soc h) s); try lra; auto.
      destruct (Rltb_spec s (accel_buff_soc h)), (Rlt_dec s (accel_buff_soc h)); try lra; auto. }
    split; [exact D|]. rewrite D. f_equal. replace (0 - y + aux) with (aux - y) by ring. f_equal. mm; lra.
  - rewrite Rmin_comm. reflexivity.
Qed.
(** Battery power wanted, and then planned, for when the engine has to run. *)
Lemma engine_plan d0 ovr d i : is_step d0 ovr d i ->
  let v := d_veh d0 in let r := row_at d i in let h := hyb r in let l := lims r in let aux := aux_in_kw (misc r) in
  let want := ess_desired_kw_4fc_eff (dec r) in
  let limit := Rmin (Rmin (cur_ess_max_kw_out l) (mc_max_elec_in_kw v + aux)) (cur_max_mc_elec_kw_in l + aux) in
  let plan x := ess_kw_if_fc_req (dec r) = Rmin limit (Rmax (- cur_max_ess_chg_kw l) x) in
  want = - mc_elec_in_kw_for_max_fc_eff h * (if Rlt_dec (mc_elec_in_kw_for_max_fc_eff h) 0
            then ess_dischg_to_fc_max_eff_perc v else ess_chg_to_fc_max_eff_perc v) /\
  (regen_buff_soc h < accel_buff_soc h -> plan (ess_accel_regen_dischg_kw h)) /\
  (accel_buff_soc h <= regen_buff_soc h -> 0 < ess_regen_buff_dischg_kw h ->
     plan (Rmin (Rmin (ess_accel_regen_dischg_kw h) (mc_elec_in_lim_kw l + aux)) (Rmax (ess_regen_buff_dischg_kw h) want))) /\
  (accel_buff_soc h <= regen_buff_soc h -> ess_regen_buff_dischg_kw h <= 0 -> 0 < ess_accel_buff_chg_kw h ->
     plan (Rmax (- max_ess_regen_buff_chg_kw h) (Rmin (- ess_accel_buff_chg_kw h) want))) /\
  (accel_buff_soc h <= regen_buff_soc h -> ess_regen_buff_dischg_kw h <= 0 -> ess_accel_buff_chg_kw h <= 0 -> 0 < want ->
     plan (Rmin want (max_ess_accell_buff_dischg_kw h))) /\
  (accel_buff_soc h <= regen_buff_soc h -> ess_regen_buff_dischg_kw h <= 0 -> ess_accel_buff_chg_kw h <= 0 -> want <= 0 ->
     plan (Rmax want (- max_ess_regen_buff_chg_kw h))) /\
  er_kw_if_fc_req (dec r) = 0 /\
  mc_elec_kw_in_if_fc_req (dec r) = ess_kw_if_fc_req (dec r) - aux /\
  min_ess_kw_2help_fc (dec r) = mc_elec_kw_in_ach (dec r) + aux - cur_max_fc_kw_out l.
Proof.
  intros H v r h l aux want limit plan. unfold plan, want. pose proof (road_zero _ _ _ _ H) as RA. open_step H. unfold r.
  pose proof (op_dec _ _ _ _ _ _ _ O) as D. pose proof (op_road _ _ _ _ _ _ _ O) as RZ.
  pose proof (de_des _ _ _ _ _ _ _ _ _ _ _ D) as E1. rewrite RZ in E1. fold r in E1. fold h v in E1. fold r.
  pose proof (de_erreq _ _ _ _ _ _ _ _ _ _ _ D) as E2. rewrite RZ in E2. fold r in E2. fold l aux in E2.
  assert (ER : er_kw_if_fc_req (dec r) = 0). { rewrite E2. toR. mm; lra. }
  split. { rewrite E1. cbv zeta. unR. set (m := mc_elec_in_kw_for_max_fc_eff h).
    destruct (Rltb_spec 0 (- m - 0)), (Rlt_dec m 0); try lra. }
  pose proof (de_essreq _ _ _ _ _ _ _ _ _ _ _ D) as E3. fold r in E3. fold l h v in E3. unfold calc_ess_if_fc_req in E3.
  fold aux in E3. fold want in E3. fold want.
  assert (EL : mc_elec_kw_in_if_fc_req (dec r) = ess_kw_if_fc_req (dec r) - aux).
  { pose proof (de_elreq _ _ _ _ _ _ _ _ _ _ _ D) as E4. fold r in E4. rewrite E4, ER. unR. fold aux. lra. }
  remember (ess_kw_if_fc_req (dec r)) as y eqn:Y. rewrite E3. toR. fold limit. set (chg := - cur_max_ess_chg_kw l).
  split; [|split; [|split; [|split; [|split]]]].
  - intros P. destruct (Rltb_spec (regen_buff_soc h) (accel_buff_soc h)); [reflexivity|lra].
  - intros P1 P2. destruct (Rltb_spec (regen_buff_soc h) (accel_buff_soc h)); [lra|].
    destruct (Rltb_spec 0 (ess_regen_buff_dischg_kw h)); [reflexivity|lra].
  - intros P1 P2 P3. destruct (Rltb_spec (regen_buff_soc h) (accel_buff_soc h)); [lra|].
    destruct (Rltb_spec 0 (ess_regen_buff_dischg_kw h)); [lra|].
    destruct (Rltb_spec 0 (ess_accel_buff_chg_kw h)); [|lra].
    replace (- (1) * max_ess_regen_buff_chg_kw h) with (- max_ess_regen_buff_chg_kw h) by ring. reflexivity.
  - intros P1 P2 P3 P4. destruct (Rltb_spec (regen_buff_soc h) (accel_buff_soc h)); [lra|].
    destruct (Rltb_spec 0 (ess_regen_buff_dischg_kw h)); [lra|].
    destruct (Rltb_spec 0 (ess_accel_buff_chg_kw h)); [lra|].
    destruct (Rltb_spec 0 want); [reflexivity|lra].
  - intros P1 P2 P3 P4. destruct (Rltb_spec (regen_buff_soc h) (accel_buff_soc h)); [lra|].
    destruct (Rltb_spec 0 (ess_regen_buff_dischg_kw h)); [lra|].
    destruct (Rltb_spec 0 (ess_accel_buff_chg_kw h)); [lra|].
    destruct (Rltb_spec 0 want); [lra|reflexivity].
  - split; auto. split.
    + rewrite EL, E3. reflexivity.
    + pose proof (de_help _ _ _ _ _ _ _ _ _ _ _ D) as E4. fold r in E4, RA. rewrite E4, RA. unR. fold aux l. lra.
Qed.

(** ** The motor decision *)
Lemma motor_help d0 ovr d i : is_step d0 ovr d i -> let v := d_veh d0 in let r := row_at d i in let l := lims r in
  min_mc_kw_2help_fc (pwr r) = Rmax (- cur_max_mech_mc_kw_in l)
    (if cyc_met (pwr r)
     then trans_kw_in_ach (pwr r) - (if is_h2fc (fc_eff_type v) then 0 else cur_max_fc_kw_out l)
     else cur_max_mc_kw_out l).
Proof.
  intros H v r l. open_step H. unfold r. q_of O. rewrite (pe_help _ _ _ _ _ _ _ (op_pwr _ _ _ _ _ _ _ O)).
  fold v r. fold l. destruct (cyc_met q); [destruct (is_h2fc _)|]; toR; rewrite ?Rminus_0_r; apply Rmax_comm.
Qed.
Lemma motor_decision d0 ovr d i : is_step d0 ovr d i -> let v := d_veh d0 in let r := row_at d i in let l := lims r in
  let inp := trans_kw_in_ach (pwr r) in let mech := mc_mech_kw_out_ach (dec r) in
  let can := can_pwr_all_elec (hyb r) in
  let engine := is_h2fc (fc_eff_type v) = false /\ 0 < fc_max_kw v in
  let regen := - Rmin (cur_max_mech_mc_kw_in l) (- inp) in
  let forced := fc_forced_on (forced r) = true /\ can = true /\ is_h2fc (fc_eff_type v) = false /\
                (veh_pt_type v = HEV \/ veh_pt_type v = PHEV) in
  (mc_max_kw v = 0 -> mech = 0) /\
  (mc_max_kw v <> 0 -> forced -> mech = mc_mech_kw_4forced_fc (SimModel.forced r)) /\
  (mc_max_kw v <> 0 -> ~ forced -> 0 < inp ->
     mech = if can then inp else Rmax (min_mc_kw_2help_fc (pwr r)) (mc_kw_if_fc_req (dec r))) /\
  (mc_max_kw v <> 0 -> ~ forced -> inp <= 0 -> engine ->
     mech = if can then regen else Rmin regen (Rmax (- cur_max_fc_kw_out l) (mc_kw_if_fc_req (dec r)))) /\
  (mc_max_kw v <> 0 -> ~ forced -> inp <= 0 -> ~ engine -> mech = Rmin regen (- inp)).
Proof.
  intros H v r l inp mech can engine regen forced0. unfold forced0, regen, inp, mech, can. clear forced0 regen inp mech can.
  open_step H. unfold r. q_of O.
  rewrite (de_mech _ _ _ _ _ _ _ _ _ _ _ (op_dec _ _ _ _ _ _ _ O)). fold v r. fold l. unfold calc_mc_mech_out.
  set (b := (_ && negb _)%bool).
  assert (B : b = true <-> fc_forced_on (forced r) = true /\ can_pwr_all_elec (hyb r) = true /\ is_h2fc (fc_eff_type v) = false /\
                (veh_pt_type v = HEV \/ veh_pt_type v = PHEV)).
  { unfold b. rewrite !andb_true_iff, orb_true_iff, Bool.negb_true_iff.
    destruct (veh_pt_type v); cbn [pt_eqb]; intuition congruence. }
  toR. set (inp := trans_kw_in_ach q).
  split. { intros E. rewrite E. destruct (Reqb_spec 0 0); [auto|lra]. }
  destruct (Reqb_spec (mc_max_kw v) 0); [split; [|split; [|split]]; intros; lra|].
  split. { intros _ Q. apply B in Q. now rewrite Q. }
  assert (E : (negb (is_h2fc (fc_eff_type v)) && Rltb 0 (fc_max_kw v))%bool = true <-> engine).
  { unfold engine. rewrite andb_true_iff, Bool.negb_true_iff, Rltb_true. tauto. }
  split; [|split]; intros _ Q; (assert (Q' : b = false) by (destruct b; auto; exfalso; apply Q, B; auto)); rewrite Q'.
  - intros P. destruct (Rleb_spec inp 0); [lra|]. reflexivity.
  - intros P EN. destruct (Rleb_spec inp 0); [|lra]. apply E in EN. rewrite EN. reflexivity.
  - intros P EN. destruct (Rleb_spec inp 0); [|lra].
    destruct (negb (is_h2fc (fc_eff_type v)) && Rltb 0 (fc_max_kw v))%bool eqn:X; [|reflexivity].
    destruct EN. now apply E.
Qed.
(** Battery of a fuel-cell vehicle. *)
Lemma fuel_cell_battery d0 ovr d i : is_step d0 ovr d i -> let v := d_veh d0 in let r := row_at d i in
  ess_max_kw v <> 0 -> ess_max_kwh v <> 0 -> is_h2fc (fc_eff_type v) = true -> 0 <= trans_kw_out_ach (pwr r) ->
  ess_kw_out_ach (dec r) =
    Rmin (Rmin (cur_ess_max_kw_out (lims r)) (mc_elec_kw_in_ach (dec r) + aux_in_kw (misc r)))
         (Rmax (Rmax (min_ess_kw_2help_fc (dec r)) (ess_desired_kw_4fc_eff (dec r))) (ess_accel_regen_dischg_kw (hyb r))).
Proof.
  intros H v r K1 K2 F P. pose proof (road_zero _ _ _ _ H) as RZ. open_step H. revert P. unfold r. q_of O. intros P.
  rewrite (de_ess _ _ _ _ _ _ _ _ _ _ _ (op_dec _ _ _ _ _ _ _ O)). unfold calc_ess_out, v in *. toR.
  destruct (Reqb_spec (ess_max_kw (d_veh d0)) 0); [lra|]. destruct (Reqb_spec (ess_max_kwh (d_veh d0)) 0); [lra|].
  cbn [orb]. rewrite F, RZ. destruct (Rleb_spec 0 (trans_kw_out_ach q)); [|lra]. rewrite Rminus_0_r. mm; lra.
Qed.
(** Engine load fraction. *)
Lemma engine_share d0 ovr d i : is_step d0 ovr d i -> let v := d_veh d0 in let r := row_at d i in
  fc_kw_out_ach_pct (fc r) = (if Req_EM_T (fc_max_kw v) 0 then 0 else fc_kw_out_ach (fc r) / fc_max_kw v).
Proof.
  intros H v r. pose proof (fc_none _ _ _ _ H) as FN. open_step H. unfold r. rewrite (fe_pct _ _ _ _ _ _ _ (op_fc _ _ _ _ _ _ _ O)). fold v r.
  unR. destruct (Reqb_spec (fc_kw_out_ach (fc r)) 0) as [E|E]; destruct (Reqb_spec (fc_max_kw v) 0), (Req_EM_T (fc_max_kw v) 0); try lra.
  rewrite E. unfold Rdiv. ring.
Qed.

(** ** C26: a parked electric vehicle *)
(** The auxiliaries drain it, whatever its state of charge. *)
Lemma parked_drain d0 ovr d i : is_step d0 ovr d i -> let v := d_veh d0 in let r := row_at d i in
  veh_pt_type v = BEV -> fc_max_kw v = 0 -> ess_max_kw v <> 0 -> 0 < ess_max_kwh v -> no_elec_sys v = false ->
  no_elec_aux v = false -> is_h2fc (fc_eff_type v) = false ->
  high_acc_fc_on_tag (misc r) = false -> trans_kw_in_ach (pwr r) = 0 -> 0 <= cur_max_mech_mc_kw_in (lims r) ->
  0 <= aux_in_kw (misc r) ->
  soc (dec r) = soc (dec (row_at d (i - 1)))
    - aux_in_kw (misc r) * step_dt d i / (3600 * sqrt (ess_round_trip_eff v) * ess_max_kwh v).
Proof.
  intros H v r T F K1 K2 N1 N2 H2 TG P L A.
  pose proof (parked_motor _ _ _ _ H T F P L) as M0.
  pose proof (mc_elec _ _ _ _ H) as ME. rewrite M0 in ME.
  assert (ME0 : mc_elec_kw_in_ach (dec r) = 0).
  { unfold r. rewrite ME. unfold calc_mc_elec_in. unR. destruct (Reqb_spec 0 0); [reflexivity|lra]. }
  assert (K3 : ess_max_kwh v <> 0) by lra.
  pose proof (electric_bus _ _ _ _ H K1 K3 H2) as EB. cbv zeta in EB. unfold aux_on_shaft in EB.
  fold v r in EB. rewrite N2, TG, ME0 in EB. cbn [orb] in EB.
  pose proof (soc_is _ _ _ _ H) as SI. pose proof (stored _ _ _ _ H N1) as ST.
  destruct H as (W & R & Hi).
  pose proof (kwh_soc _ _ _ W R K3 (i - 1)%nat ltac:(lia)) as KS.
  fold v in SI, ST, KS. fold r in SI, ST. rewrite EB in ST. unfold drawn_kwh in ST.
  destruct (Rlt_dec (0 + aux_in_kw (misc r)) 0); [lra|].
  destruct SI as (_ & SI). rewrite (SI K3), ST, KS. destruct (Req_EM_T (sqrt (ess_round_trip_eff v)) 0) as [Z|Z].
  - rewrite Z. unfold Rdiv. rewrite !Rmult_0_r, Rmult_0_l, Rinv_0. field. lra.
  - field. split; lra.
Qed.
(** Below the minimum state of charge an electric vehicle recharges itself in every step, moving or not. *)
Lemma below_min_charges d0 ovr d i : is_step d0 ovr d i -> increasing (time_s (d_cyc d)) ->
  let v := d_veh d0 in let r := row_at d i in let s := soc (dec (row_at d (i - 1))) in
  motor_map_ok v -> In (mc_max_kw v) (mc_kw_out_array v) ->
  veh_pt_type v = BEV -> fc_max_kw v = 0 -> 0 < ess_max_kw v -> 0 < ess_max_kwh v -> 0 < ess_round_trip_eff v ->
  no_elec_sys v = false -> is_h2fc (fc_eff_type v) = false -> 0 < mc_max_kw v -> 0 < mc_sec_to_peak_pwr v ->
  0 < trans_eff v -> min_soc v <= max_soc v ->
  impose_coast (ctl r) = false -> 0 < aux_in_kw (misc r) -> s < min_soc v ->
  trans_kw_out_ach (pwr r) <= - aux_in_kw (misc r) * trans_eff v /\
  ess_kw_out_ach (dec r) < 0 /\ s < soc (dec r).
Proof.
  intros H I v r s M T0 PT F P K E N H2 MC MS TE MM IC AX S1.
  pose proof (run_dt_pos _ _ _ _ H I) as DT.
  assert (TG : high_acc_fc_on_tag (misc r) = true).
  { destruct (protection _ _ _ _ H) as (Q & _). apply Q. left. exact S1. }
  assert (P' : 0 <= ess_max_kw v) by lra.
  destruct (ess_limits _ _ _ _ H) as (E1 & E2).
  rewrite (dis_empty _ _ _ _ H S1) in E1.
  assert (EM0 : cur_ess_max_kw_out (lims r) = 0) by (unfold r; rewrite E1; fold v; mm; lra).
  assert (CP : 0 < cur_max_ess_chg_kw (lims r)).
  { unfold r. rewrite E2, (chg_cap _ _ _ _ H I K P' E) by (fold v; lra). fold v. fold s.
    assert (0 < sqrt (ess_round_trip_eff v)) by now apply sqrt_lt_R0.
    assert (0 < ess_max_kwh v * (max_soc v - s) / sqrt (ess_round_trip_eff v) / (step_dt d i / 3600)).
    { apply Rdiv_lt_0_compat; [|lra]. apply Rdiv_lt_0_compat; [|lra]. apply Rmult_lt_0_compat; lra. }
    mm; lra. }
  assert (MCO : cur_max_mc_kw_out (lims r) = 0).
  { open_step H. pose proof (op_lims _ _ _ _ _ _ _ O) as L. unfold r. rewrite (le_mc _ _ _ _ _ _ _ L).
    assert (EL : cur_max_elec_kw (lims r) <= 0).
    { destruct (motor_limits _ _ _ _ H) as (_ & _ & _ & _ & _ & _ & EE & _); [fold v; lra|]. fold v r in EE.
      rewrite H2, EM0 in EE. lra. }
    destruct (motor_feed_limit d0 ovr d i H (mm_two _ M) (mm_out _ M) (mm_in _ M)) as (Q & _).
    rewrite (Q EL).
    destruct (motor_limits _ _ _ _ H) as (_ & _ & _ & TR & _); [fold v; lra|]. rewrite TR. toR. fold v.
    pose proof (Rabs_pos (mc_mech_kw_out_ach (dec (row_at d (i - 1))))).
    assert (0 < mc_max_kw v / mc_sec_to_peak_pwr v * step_dt d i).
    { apply Rmult_lt_0_compat; [apply Rdiv_lt_0_compat; lra|lra]. }
    destruct (stop_start v); mm; lra. }
  assert (FM : cur_max_fc_kw_out (lims r) <= 0).
  { open_step H. unfold r. rewrite (le_fc _ _ _ _ _ _ _ (op_lims _ _ _ _ _ _ _ O)), nmin_R. fold v. rewrite F. apply Rmin_l. }
  assert (LIM : cur_max_trans_kw_out (lims r) <= - aux_in_kw (misc r) * trans_eff v).
  { unfold r. rewrite (trans_limit _ _ _ _ H IC). fold v r. rewrite TG, orb_true_r, MCO, H2.
    eapply Rle_trans; [apply Rmin_l|]. apply Rmult_le_compat_r; lra. }
  destruct (transmission _ _ _ _ H) as (_ & TO & _ & TI). fold v r in TO, TI.
  assert (OUT : trans_kw_out_ach (pwr r) <= - aux_in_kw (misc r) * trans_eff v).
  { rewrite TO. eapply Rle_trans; [apply Rmin_r|]. exact LIM. }
  split; auto.
  assert (ON : trans_kw_out_ach (pwr r) < 0) by nra.
  assert (IN : trans_kw_in_ach (pwr r) < 0) by (rewrite TI by lra; nra).
  destruct (motor_regen_limit d0 ovr d i H (mm_two _ M) (mm_out _ M) T0) as (_ & RG).
  destruct RG as (eff & (k & K1 & K2 & _) & RG); [fold v r; lra|].
  pose proof (mm_eff _ M _ _ K1 K2) as EF. fold v r in RG.
  assert (MI : 0 < cur_max_mech_mc_kw_in (lims r)).
  { rewrite RG. apply Rmin_glb_lt; auto. apply Rdiv_lt_0_compat; lra. }
  assert (MECH : mc_mech_kw_out_ach (dec r) < 0).
  { destruct (motor_decision _ _ _ _ H) as (_ & _ & _ & _ & D). fold v r in D. rewrite D; [mm; lra|lra| |lra|].
    - intros (_ & _ & _ & [Q|Q]); rewrite PT in Q; discriminate.
    - intros (_ & Q). lra. }
  destruct (motor_eff_used _ _ _ _ H (mm_two _ M) (mm_out _ M) (mm_in _ M) T0) as (_ & _ & EU).
  destruct (EU MECH) as (f & (k' & K1' & K2' & _) & EL). pose proof (mm_eff _ M _ _ K1' K2') as EF'.
  fold r in EL.
  assert (ELN : mc_elec_kw_in_ach (dec r) < 0) by (rewrite EL; nra).
  assert (K3 : ess_max_kwh v <> 0) by lra. assert (P3 : ess_max_kw v <> 0) by lra.
  pose proof (electric_bus _ _ _ _ H P3 K3 H2) as EB. fold v r in EB. unfold aux_on_shaft in EB. rewrite TG, orb_true_r in EB.
  assert (EN : ess_kw_out_ach (dec r) < 0) by (rewrite EB; lra).
  split; auto. pose proof (soc_step _ _ _ _ H K N) as ST. fold v r s in ST. rewrite ST. unfold drawn_kwh.
  destruct (Rlt_dec (ess_kw_out_ach (dec r)) 0); [|lra].
  assert (0 < sqrt (ess_round_trip_eff v)) by now apply sqrt_lt_R0.
  assert (0 < - (ess_kw_out_ach (dec r) * sqrt (ess_round_trip_eff v) * (step_dt d i / 3600) / ess_max_kwh v)).
  { replace (- (ess_kw_out_ach (dec r) * sqrt (ess_round_trip_eff v) * (step_dt d i / 3600) / ess_max_kwh v))
      with ((- ess_kw_out_ach (dec r)) * sqrt (ess_round_trip_eff v) * (step_dt d i / 3600) / ess_max_kwh v) by (field; lra).
    apply Rdiv_lt_0_compat; auto. apply Rmult_lt_0_compat; [|lra]. apply Rmult_lt_0_compat; lra. }
  lra.
Qed.
