(** C113-C114: the compiled vehicle class against the Python one. *)
From Coq Require Import Floats Lia.
From Verif Require Import Num FloatNum Numpy ListFacts CycleModel CycleSpec VehModel VehSpec VehProofs VehProofs2 SimModel SimState WalkModel
  WalkProofs SimSpec SimDemo SimProps VehProps ConcatProofs ResampleProofs PlainSpec PlainProps RustModel RustWalkModel RustSpec RustProps
  RustVehModel RustVehSpec RustVehProofs RustVehProofs2.
Local Open Scope R_scope.
Local Set Warnings "-inexact-float".

(** ** Lemmas *)
Lemma same_alike (v w : vehicle R) : same_but_overrides v w -> drives_alike w v.
Proof.
  unfold same_but_overrides. intros E.
  constructor; match goal with |- ?f v = ?f w => exact (f_equal f E) end.
Qed.
Lemma without_comparable (v : vehicle R) : comparable v <-> comparable (without_overrides v).
Proof.
  split; intros [[[]|N] [] E K]; (constructor; [|constructor; assumption|assumption|assumption]);
    solve [left; constructor; assumption|right; exact N].
Qed.
Lemma same_comparable (v w : vehicle R) : same_but_overrides v w -> comparable w -> comparable v.
Proof. intros E C. apply without_comparable. rewrite E. now apply (without_comparable w). Qed.
Lemma same_plain (v r : vehicle R) pr sp c ovr : same_but_overrides r v -> plain_run (new_sd v pr sp c) ovr -> plain_run (new_sd r pr sp c) ovr.
Proof.
  intros E [A B C D G H I V L X]. constructor; try assumption.
  - now apply (same_comparable r v).
  - pose proof (same_alike _ _ E) as Q. change (loads_ok ovr v) in L. change (loads_ok ovr r). intros (N1 & N2 & N3 & N4).
    assert (NV : no_motor v).
    { unfold no_motor. rewrite <- (da_mc_max_kw _ _ Q), <- (da_no_elec_sys _ _ Q), <- (da_fc_eff_type _ _ Q), <- (da_ess_max_kw _ _ Q), <- (da_ess_max_kwh _ _ Q). auto. }
    destruct (L NV) as (L1 & L2 & L3). rewrite (da_aux_kw _ _ Q), (da_alt_eff _ _ Q). auto.
Qed.

Lemma r_mass_is (v : vehicle R) : let r := r_set_veh_mass v in
  match veh_override_kg v with
  | Some x => veh_kg r = x /\ ess_mass_kg r = ess_mass_kg v /\ mc_mass_kg r = mc_mass_kg v /\ fc_mass_kg r = fc_mass_kg v /\ fs_mass_kg r = fs_mass_kg v
  | None => veh_kg r = sum_of_parts v /\ ess_mass_kg r = battery_kg v /\ mc_mass_kg r = motor_kg v /\ fc_mass_kg r = engine_kg v /\ fs_mass_kg r = tank_kg v
  end.
Proof.
  intros r. unfold r, r_set_veh_mass. destruct (veh_override_kg v) as [x|]; [cbn; auto|]. cbn [veh_kg ess_mass_kg mc_mass_kg fc_mass_kg fs_mass_kg with_mass].
  unfold sum_of_parts, battery_kg, motor_kg, engine_kg, tank_kg. unR. change (@n0 R RNum) with 0. change (@n1 R RNum) with 1.
  repeat split; repeat destruct (Req_EM_T _ _); repeat rcase; cbn [orb]; try congruence; unfold Rdiv; try ring.
Qed.

(** ** C113: to_rust *)
(** The compiled vehicle has every attribute, given and derived, that deriving the Python vehicle gives. *)
Theorem C113_to_rust : forall (v w : vehicle R), set_derived v = Ok w -> mc_peak_eff_override v = None ->
  inputs_valid v -> fc_eff_type v <> FC_OTHER -> maps_ok v ->
  exists r, to_rust v = Ok r /\ same_but_overrides r w /\
    veh_override_kg r = override_of v /\ fc_peak_eff_override r = None /\ mc_peak_eff_override r = None.
Proof. exact to_rust_derives. Qed.
(** A vehicle that was derived already - as every vehicle made by Vehicle.from_vehdb and the like is - and its
    compiled counterpart are the same. *)
Theorem C113_derived : forall (v0 v : vehicle R), set_derived v0 = Ok v -> mc_peak_eff_override v0 = None ->
  (forall x, In x (fc_eff_map v0) -> 0 < x) -> pos_if_given (fc_peak_eff_override v0) ->
  inputs_valid v -> fc_eff_type v <> FC_OTHER -> maps_ok v -> exists r, to_rust v = Ok r /\ same_but_overrides r v.
Proof.
  intros v0 v H NM FP PG IV TY MO. pose proof (C44_parameters_kept v0 v H) as K. unfold same_parameters in K.
  assert (Q : fc_pwr_out_perc v = fc_pwr_out_perc v0 /\ mc_peak_eff_override v = mc_peak_eff_override v0) by tauto. destruct Q as (Q1 & Q2).
  destruct (C44_again_engine_override v0 v H) as (_ & A); auto. { rewrite <- Q1. apply (mo_fc _ MO). }
  destruct (to_rust_derives v v (A NM)) as (r & R1 & R2 & _); auto; [congruence|]. eauto.
Qed.
(** What to_rust accepts has all its inputs in range. *)
Theorem C113_ranges : forall (v r : vehicle R), to_rust v = Ok r -> inputs_valid v.
Proof.
  intros v r H. apply valid_only. unfold to_rust in H. destruct (r_open _ _ H) as (? & ? & ? & ? & ? & ? & ? & O). apply (ro_valid _ _ _ _ _ _ _ _ _ O).
Qed.
(** Python's run on the vehicle and the compiled run on its counterpart agree: every channel in every step,
    fuel apart; and fuel too if the engine stays below its rated power. *)
Theorem C113_run_agrees : forall (v r : vehicle R) pr sp c s ovr, same_but_overrides r v -> plain_run (new_sd v pr sp c) ovr ->
  s <> None \/ veh_pt_type v <> HEV ->
  match sim_drive (new_sd v pr sp c) s ovr, r_sim_drive (new_sd r pr sp c) s ovr with
  | Ok dp, Ok dr => length (d_rows dr) = length (d_rows dp) /\ (forall j, same_but_fuel (row_at dp j) (row_at dr j)) /\
                    ((forall j, fc_kw_out_ach (fc (row_at dp j)) < fc_max_kw v \/ fc_max_kw v = 0) -> d_rows dr = d_rows dp)
  | Err _, Err _ => True
  | _, _ => False
  end.
Proof.
  intros v r pr sp c s ovr E P S. pose proof (same_alike _ _ E) as AL.
  assert (CH : changes_cycle sp = false). { unfold changes_cycle. pose proof (pr_trace _ _ P) as A1. pose proof (pr_coast _ _ P) as A2. pose proof (pr_idm _ _ P) as A3. cbn in A1, A2, A3. now rewrite A1, A2, A3. }
  pose proof (C102_attributes v r pr sp c s ovr (pr_cyc _ _ P) CH AL) as SO.
  pose proof (C109_sim_drive (new_sd r pr sp c) s ovr (same_plain v r pr sp c ovr E P)) as T. change (d_veh (new_sd r pr sp c)) with r in T. rewrite (da_veh_pt_type _ _ AL) in T. specialize (T S).
  assert (VEH : forall d, sim_drive (new_sd r pr sp c) s ovr = Ok d -> d_veh d = r).
  { intros d. pose proof (same_plain v r pr sp c ovr E P) as PR. unfold sim_drive. destruct s as [x|].
    - intros Q. now rewrite (veh_of_walk _ _ _ _ (plain_run_count _ _ 0 PR) Q).
    - destruct S as [S|S]; [congruence|]. change (d_veh (new_sd r pr sp c)) with r. rewrite <- (da_veh_pt_type _ _ AL) in S.
      destruct (veh_pt_type r); try congruence; intros Q; now rewrite (veh_of_walk _ _ _ _ (plain_run_count _ _ 0 PR) Q). }
  destruct (sim_drive (new_sd v pr sp c) s ovr) as [dp|e]; destruct (sim_drive (new_sd r pr sp c) s ovr) as [dq|e']; cbn in SO; try contradiction.
  - destruct (r_sim_drive (new_sd r pr sp c) s ovr) as [dr|]; [|exact T]. destruct T as (T1 & T2 & T3).
    assert (RE : forall j, row_at dp j = row_at dq j) by (intros j; unfold row_at; now rewrite SO).
    split; [now rewrite SO|]. split; [intros j; rewrite RE; apply T2|]. intros B. rewrite SO, (T3); [reflexivity|]. intros j. rewrite <- RE, (VEH _ eq_refl), (da_fc_max_kw _ _ AL). apply B.
  - destruct (r_sim_drive (new_sd r pr sp c) s ovr) as [dr|]; [contradiction|exact I].
Qed.
(** With an override of the motor's peak efficiency the two are not the same vehicle: Python's electric powers are those
    of the map before scaling, the compiled ones those of the scaled map. *)
Definition both {A} (v : vehicle float) (f : vehicle float -> A) : Res (A * A) := bindR (set_derived v) (fun x => bindR (to_rust x) (fun y => Ok (f x, f y))).
Lemma both_witness {A} v (f : vehicle float -> A) p : both v f = Ok p -> exists x y, set_derived v = Ok x /\ to_rust x = Ok y /\ (f x, f y) = p.
Proof.
  unfold both. intros H. destruct (set_derived v) as [x|]; [|discriminate]. cbn [bindR] in H. destruct (to_rust x) as [y|] eqn:E; [|discriminate]. cbn [bindR] in H.
  exists x, y. split; [reflexivity|]. split; [exact E|]. congruence.
Qed.
Theorem C113_motor_override_refuted : exists v0 v r : vehicle float, set_derived v0 = Ok v /\ to_rust v = Ok r /\
  (mc_max_elec_in_kw v, nth 50 (mc_full_eff_array v) 0, (mc_max_elec_in_kw r, nth 50 (mc_full_eff_array r) 0))%float
    = (37.5, 0.8, (42.187499999999993, 0.8))%float.
Proof.
  exists (with_maps demo_hev None (Some 0.8) [0; 0.5; 1] (Some [0.8; 0.9; 0.8]))%float.
  apply (both_witness _ (fun v => (mc_max_elec_in_kw v, nth 50 (mc_full_eff_array v) 0))%float). vm_compute. reflexivity.
Qed.
(** With a motor map that goes beyond rated power they differ at rated power: Python takes the map's last entry,
    the compiled class interpolates. *)
Theorem C113_long_grid_refuted : exists v0 v r : vehicle float, set_derived v0 = Ok v /\ to_rust v = Ok r /\
  (mc_max_elec_in_kw v, nth 100 (mc_full_eff_array v) 0, (mc_max_elec_in_kw r, nth 100 (mc_full_eff_array r) 0))%float
    = (50, 0.6, (40, 0.75))%float.
Proof.
  exists (with_maps demo_hev None None [0; 0.5; 1.5] (Some [0.8; 0.9; 0.6]))%float.
  apply (both_witness _ (fun v => (mc_max_elec_in_kw v, nth 100 (mc_full_eff_array v) 0))%float). vm_compute. reflexivity.
Qed.
(** Python accepts vehicles that to_rust refuses: a negative mass override counts as none in Python. *)
Theorem C113_accepted_refuted : exists v0 v : vehicle float, set_derived v0 = Ok v /\ veh_kg v = 1513.8%float /\
  to_rust v0 = Err PlainException.
Proof.
  exists (with_override_kg demo_hev (Some (-1)%float)).
  destruct (set_derived (with_override_kg demo_hev (Some (-1)%float))) as [v|] eqn:E; [|vm_compute in E; discriminate].
  exists v. split; [reflexivity|]. assert (Q : bindR (set_derived (with_override_kg demo_hev (Some (-1)%float))) (fun x => Ok (veh_kg x)) = Ok 1513.8%float) by (vm_compute; reflexivity).
  rewrite E in Q. cbn [bindR] in Q. split; [congruence|]. vm_compute. reflexivity.
Qed.
Example C113_run : both demo_hev (fun v => (veh_kg v, nth 50 (fc_eff_array v) 0, nth 30 (mc_kw_in_array v) 0, veh_override_kg v))%float
  = Ok ((1500, 0.176, 10.465116279069768, Some 1500), (1500, 0.176, 10.465116279069768, Some 1500))%float.
Proof. vm_compute. reflexivity. Qed.
Lemma demo_maps : maps_ok (demo_hev (F := R)).
Proof.
  assert (G : grid [0; @lit R RNum 1 2; 1]).
  { split; [cbn; lia|]. apply increasing_SS. rewrite lit_R. repeat constructor; lra. }
  constructor; [exact G|exact G|cbn; lra|]. intros m E. injection E as <-. exists (lit 8 10). split; [now left|]. rewrite lit_R. lra.
Qed.
Lemma demo_valid : inputs_valid (demo_hev (F := R)).
Proof.
  constructor; try (intros x E; injection E as <-); try discriminate; unfold demo_hev, demo_veh, demo_veh_of, z;
    cbn [drag_coef frontal_area_m2 glider_kg wheel_base_m cargo_kg comp_mass_multiplier drive_axle_weight_frac fs_max_kw fs_secs_to_peak_pwr fs_kwh fs_kwh_per_kg
      fc_max_kw fc_sec_to_peak_pwr fc_base_kg fc_kw_per_kg min_fc_time_on idle_fc_kw mc_max_kw mc_sec_to_peak_pwr mc_pe_kg_per_kw mc_pe_base_kg ess_max_kw ess_max_kwh
      ess_kg_per_kwh ess_base_kg ess_round_trip_eff min_soc max_soc ess_dischg_to_fc_max_eff_perc ess_chg_to_fc_max_eff_perc wheel_inertia_kg_m2 num_wheels wheel_rr_coef
      wheel_radius_m wheel_coef_of_fric max_accel_buffer_mph max_accel_buffer_perc_of_useable_soc perc_high_acc_buf mph_fc_on kw_demand_fc_on max_regen ess_to_fuel_ok_error
      alt_eff chg_eff aux_kw trans_kg trans_eff]; rewrite ?lit_R; change (@n0 R RNum) with 0; change (@n1 R RNum) with 1; change (@n2 R RNum) with 2; cbn [nofZ RNum]; repeat split; lra.
Qed.
Example C113_case : exists (w r : vehicle R), set_derived demo_hev = Ok w /\ inputs_valid demo_hev /\ maps_ok demo_hev /\
  to_rust demo_hev = Ok r /\ same_but_overrides r w /\ veh_override_kg r = Some 1500 /\ plain_run (demo_sd (F := R) demo_hev demo_trip) None.
Proof.
  destruct hev_derives as (w & H). destruct (C113_to_rust demo_hev w H) as (r & R1 & R2 & R3 & _); try reflexivity; try discriminate; auto using demo_valid, demo_maps.
  exists w, r. split; [exact H|]. split; [exact demo_valid|]. split; [exact demo_maps|]. split; [exact R1|]. split; [exact R2|].
  split; [rewrite R3; apply C45_case|]. destruct C109_case as (_ & _ & _ & _ & _ & _ & P & _). exact P.
Qed.

(** ** C114: editing a compiled vehicle *)
(** Deriving again changes nothing, over the reals and in binary64, unless an override of the motor's peak was used up. *)
Theorem C114_again : forall (v r : vehicle R), r_set_derived v = Ok r -> mc_peak_eff_override v = None -> r_set_derived r = Ok r.
Proof. exact r_again. Qed.
Theorem C114_again_float : forall (v r : vehicle float), r_set_derived v = Ok r -> mc_peak_eff_override v = None -> r_set_derived r = Ok r.
Proof. exact r_again. Qed.
(** The engine's table is computed once.  Giving the vehicle another engine map and deriving again has no effect but
    on that attribute. *)
Theorem C114_engine_map_ignored : forall (v r r' : vehicle R) m, r_set_derived v = Ok r -> mc_peak_eff_override v = None ->
  r_set_derived (with_fc_eff r (fc_eff_array r) m) = Ok r' -> r' = with_fc_eff r (fc_eff_array r) m.
Proof. intros v r r' m H N E. apply fc_stale; [now apply (r_settled v)|exact E]. Qed.
(** The motor's follows the map. *)
Theorem C114_motor_map : forall (v r : vehicle R) m, r_set_derived v = Ok r -> mc_peak_eff_override v = None -> mc_eff_map v = Some m ->
  (exists x, In x m /\ x <> 0) -> length m = length (mc_pwr_out_perc v) -> grid (mc_pwr_out_perc v) ->
  mc_eff_array r = m /\ length (mc_full_eff_array r) = motor_points /\ nth 0 (mc_full_eff_array r) 0 = 0 /\
  (forall k, (1 <= k < motor_points)%nat -> on_polyline (mc_pwr_out_perc v) m (INR k / 100) (nth k (mc_full_eff_array r) 0)) /\
  (forall k, (1 <= k < motor_points)%nat -> nth k (mc_kw_in_array r) 0 = INR k / 100 * mc_max_kw v / nth k (mc_full_eff_array r) 0) /\
  is_max (mc_max_elec_in_kw r) (mc_kw_in_array r).
Proof.
  intros v r m H N ME NZ LE (G1 & G2). destruct (r_open _ _ H) as (fce & mcf & mx & arr & map_ & mce' & mcf' & [_ _ _ _ MC MX _ _ MN _ _ ->]). clear H.
  destruct (MN N) as [-> ->]. clear MN. pose proof (r_given v m ME NZ) as RG.
  set (w := r_with_peaks _ _ _).
  assert (E1 : mc_eff_array (r_set_veh_mass w) = r_mc_eff_map v) by (rewrite (proj_mass mc_eff_array) by reflexivity; reflexivity).
  assert (E2 : mc_full_eff_array (r_set_veh_mass w) = n0 :: mcf) by (rewrite (proj_mass mc_full_eff_array) by reflexivity; reflexivity).
  assert (E3 : mc_kw_in_array (r_set_veh_mass w) = n0 :: zipw ndiv (tl (r_grid_kw v)) mcf) by (rewrite (proj_mass mc_kw_in_array) by reflexivity; reflexivity).
  assert (E4 : mc_max_elec_in_kw (r_set_veh_mass w) = mx) by (rewrite (proj_mass mc_max_elec_in_kw) by reflexivity; reflexivity).
  rewrite E1, E2, E3, E4. clear E1 E2 E3 E4 w. rewrite RG in *. apply lmax_max in MX.
  rewrite (r_table_interp _ _ _ G1 LE G2), r_mc_perc in MC.
  assert (GK : r_grid_kw v = grid_kw v) by (unfold r_grid_kw, grid_kw; now rewrite r_mc_perc). rewrite GK in *. clear GK.
  assert (MT : mcf = interp (tl mc_perc_out_array) (mc_pwr_out_perc v) m) by congruence. clear MC.
  assert (LT : length (tl (@mc_perc_out_array R RNum)) = 100%nat) by (rewrite tl_len, motor_grid_len; reflexivity).
  assert (LM : length mcf = 100%nat) by (rewrite MT, interp_len; exact LT).
  assert (LG : length (tl (grid_kw v)) = 100%nat) by (rewrite tl_len, grid_kw_len; reflexivity).
  unfold motor_points in *. change (@n0 R RNum) with 0 in *.
  split; [reflexivity|]. split; [cbn [length]; lia|]. split; [reflexivity|]. split; [|split].
  - intros [|k] K; [lia|]. change (nth (S k) (0 :: mcf) 0) with (nth k mcf 0). rewrite MT, interp_nth by lia. rewrite nth_tl, motor_grid by (unfold motor_points; lia).
    apply interp1_polyline; auto. destruct (mc_pwr_out_perc v); [cbn in G1; lia|discriminate].
  - intros [|k] K; [lia|]. change (nth (S k) (0 :: mcf) 0) with (nth k mcf 0). change (nth (S k) (0 :: ?l) 0) with (nth k l 0). rewrite zipw_div by lia.
    rewrite nth_tl, kw_out_entry by (unfold motor_points; lia). reflexivity.
  - exact MX.
Qed.
(** Peaks set on a compiled vehicle: the engine's table is scaled and stays so ... *)
Theorem C114_engine_peak_kept : forall (v r r' : vehicle R) (p a : R), r_set_derived v = Ok r -> mc_peak_eff_override v = None ->
  is_max a (fc_eff_array r) -> 0 < a -> 0 < p < 1 -> r_set_fc_peak_eff r p = Ok r' ->
  is_max p (fc_eff_array r') /\ fc_eff_array r' = map (fun x => x * (p / a)) (fc_eff_array r) /\ fc_eff_map r' = fc_eff_map r /\
  r_set_derived r' = Ok r'.
Proof.
  intros v r r' p a H N A A0 P E. pose proof (r_settled v r H N) as S.
  unfold r_set_fc_peak_eff, r_fc_peak_eff in E. rewrite (lmax_some _ _ A) in E. cbn [bindR] in E.
  assert (MB : is_max p (scale (p / a) (fc_eff_array r))).
  { replace p with (a * (p / a)) at 1 by (field; lra). apply max_scale; [left; apply Rdiv_lt_0_compat; lra|exact A]. }
  change (ndiv p a) with (p / a) in E. rewrite (lmax_some _ _ MB) in E. cbn [bindR] in E.
  assert (E' : r' = with_fc_eff r (scale (p / a) (fc_eff_array r)) (scale (ndiv p p) (fc_eff_map r))) by congruence. clear E. subst r'.
  split; [exact MB|]. split; [reflexivity|]. split; [cbn [fc_eff_map with_fc_eff]; apply scale_one; unR; field; lra|].
  apply fc_kept; [exact S| |].
  - intros Q. rewrite Q in MB. destruct MB as [[] _].
  - pose proof (st_eff _ S) as K. unfold r_check_eff, r_fc_peak_eff, r_mc_peak_eff in *. cbn [fc_eff_array with_fc_eff no_elec_sys mc_full_eff_array].
    rewrite (lmax_some _ _ MB), (lmax_some _ _ A) in *. destruct (lmin (fc_eff_array r)) as [lo|] eqn:LO; [|discriminate]. cbn [bindR] in *.
    assert (NN : forall x, In x (fc_eff_array r) -> 0 <= x).
    { intros x X. pose proof (lmin_le _ _ LO x X). revert K. change (@n0 R RNum) with 0. unR. destruct (Rleb_spec 0 lo); [intros _; lra|discriminate]. }
    destruct (lmin_some (scale (p / a) (fc_eff_array r))) as (lo' & L1 & L2).
    { intros Q. rewrite Q in MB. destruct MB as [[] _]. }
    { intros x X. apply in_map_iff in X as (y & <- & Y). unR. apply Rmult_le_pos; [auto|left; apply Rdiv_lt_0_compat; lra]. }
    rewrite L1. cbn [bindR]. change (@n0 R RNum) with 0 in *. change (@n1 R RNum) with 1 in *. unR.
    destruct (Rleb_spec 0 lo'); [|lra]. destruct (Rltb_spec p 1); [|lra]. cbn [andb negb].
    destruct (negb (Rleb 0 lo && Rltb a 1)); [discriminate|exact K].
Qed.
(** ... while the motor's is lost when deriving again: exactly the other way round than in Python (C46). *)
Theorem C114_motor_peak_lost : forall (v r r' : vehicle R) p, r_set_derived v = Ok r -> mc_peak_eff_override v = None ->
  r_set_mc_peak_eff r p = Ok r' -> r_set_derived r' = Ok r.
Proof. intros v r r' p H N. apply motor_lost. now apply (r_settled v). Qed.
Theorem C114_mass : forall (v r : vehicle R), r_set_derived v = Ok r ->
  match veh_override_kg v with
  | Some x => veh_kg r = x /\ ess_mass_kg r = ess_mass_kg v /\ mc_mass_kg r = mc_mass_kg v /\ fc_mass_kg r = fc_mass_kg v /\ fs_mass_kg r = fs_mass_kg v
  | None => veh_kg r = sum_of_parts v /\ ess_mass_kg r = battery_kg v /\ mc_mass_kg r = motor_kg v /\ fc_mass_kg r = engine_kg v /\ fs_mass_kg r = tank_kg v
  end.
Proof.
  intros v r H. destruct (r_open _ _ H) as (fce & mcf & mx & arr & map_ & mce' & mcf' & [_ _ _ _ _ _ _ _ _ _ _ ->]). clear H.
  set (w := r_with_peaks _ _ _). pose proof (r_mass_is w) as M. exact M.
Qed.
Theorem C114_traction : forall (v r : vehicle R), r_set_derived v = Ok r -> veh_kg r <> 0 -> a_grav_mps2 (veh_props v) <> 0 ->
  max_trac_mps2 r = wheel_coef_of_fric v * drive_axle_weight_frac v * a_grav_mps2 (veh_props v) / (1 + veh_cg_m v * wheel_coef_of_fric v / wheel_base_m v).
Proof.
  intros v r H. destruct (r_open _ _ H) as (fce & mcf & mx & arr & map_ & mce' & mcf' & [_ _ _ _ _ _ _ _ _ _ _ ->]). clear H.
  set (w := r_with_peaks _ _ _). intros K G.
  assert (E : max_trac_mps2 (r_set_veh_mass w) = max_trac v (veh_kg (r_set_veh_mass w))) by (unfold r_set_veh_mass; destruct (veh_override_kg w); reflexivity).
  rewrite E. unfold max_trac. unR. change (@n1 R RNum) with 1.
  set (kg := veh_kg (r_set_veh_mass w)) in *. clearbody kg. clear E w. set (q := 1 + _). unfold Rdiv. rewrite Rinv_mult. set (iq := / q). field. auto.
Qed.
(** An override of the motor's peak is used up by the first derivation; the second goes back to the map as given.
    The engine's stays in its table. *)
Theorem C114_overrides_once : forall (v r r2 r0 : vehicle R), r_set_derived v = Ok r -> r_set_derived r = Ok r2 ->
  r_set_derived (r_with_peaks v (fc_peak_eff_override v) None) = Ok r0 ->
  mc_peak_eff_override r = None /\ fc_peak_eff_override r = None /\
  mc_full_eff_array r2 = mc_full_eff_array r0 /\ mc_eff_array r2 = mc_eff_array r0 /\
  fc_eff_array r2 = fc_eff_array r /\ fc_eff_array r0 = fc_eff_array r.
Proof.
  intros v r r2 r0 H H2 H0. pose proof H as HH.
  destruct (r_open _ _ H) as (fce & mcf & mx & arr & map_ & mce' & mcf' & [V C FN FO MC MX FNN FSS _ _ EF ->]). clear H.
  set (r := r_set_veh_mass _) in *.
  assert (P : forall A (f : vehicle R -> A), (forall w o a b c d e g, f (with_mass w o a b c d e g) = f w) -> f r = f (r_with_peaks (r_before_mass v fce mcf mx arr map_ mce' mcf') None None)) by (intros A f Q; now apply proj_mass).
  assert (N1 : fc_peak_eff_override r = None) by (rewrite (P _ fc_peak_eff_override) by reflexivity; reflexivity).
  assert (N2 : mc_peak_eff_override r = None) by (rewrite (P _ mc_peak_eff_override) by reflexivity; reflexivity).
  assert (A1 : fc_eff_array r = arr) by (rewrite (P _ fc_eff_array) by reflexivity; reflexivity).
  assert (MM : r_mc_eff_map r = r_mc_eff_map v) by (apply map_again; [rewrite (P _ mc_eff_map)|rewrite (P _ mc_max_kw)]; reflexivity).
  assert (GP : mc_pwr_out_perc r = mc_pwr_out_perc v) by (rewrite (P _ mc_pwr_out_perc); reflexivity).
  assert (NE : arr <> []) by (intros ->; discriminate EF).
  clearbody r. clear P HH.
  destruct (r_open _ _ H2) as (fce2 & mcf2 & mx2 & arr2 & map2 & mce2 & mcf2' & [_ _ _ FO2 MC2 _ FNN2 _ MN2 _ _ ->]). clear H2.
  destruct (FNN2 N1) as [-> _]. destruct (MN2 N2) as [-> ->]. clear FNN2 MN2. rewrite MM, GP, MC in MC2. assert (mcf2 = mcf) by congruence. subst mcf2. clear MC2.
  rewrite A1 in FO2. rewrite (FO2 NE). clear FO2.
  destruct (r_open _ _ H0) as (fce0 & mcf0 & mx0 & arr0 & map0 & mce0 & mcf0' & [_ _ FN0 FO0 MC0 _ FNN0 FSS0 MN0 _ _ ->]). clear H0.
  destruct (MN0 eq_refl) as [-> ->]. clear MN0.
  change (r_table (tl r_mc_perc_out_array) (mc_pwr_out_perc v) (r_mc_eff_map v) = Ok mcf0) in MC0. assert (mcf0 = mcf) by congruence. subst mcf0. clear MC0.
  change (fc_eff_array (r_with_peaks v (fc_peak_eff_override v) None)) with (fc_eff_array v) in FN0, FO0.
  change (fc_pwr_out_perc (r_with_peaks v (fc_peak_eff_override v) None)) with (fc_pwr_out_perc v) in FN0.
  change (fc_eff_map (r_with_peaks v (fc_peak_eff_override v) None)) with (fc_eff_map v) in FN0, FNN0, FSS0.
  change (fc_peak_eff_override (r_with_peaks v (fc_peak_eff_override v) None)) with (fc_peak_eff_override v) in FNN0, FSS0.
  assert (fce0 = fce). { destruct (fc_eff_array v) as [|x l]; [specialize (FN eq_refl); specialize (FN0 eq_refl); congruence|]. rewrite FO, FO0 by discriminate. reflexivity. } subst fce0.
  assert (arr0 = arr). { destruct (fc_peak_eff_override v) as [q|].
    - destruct (FSS q eq_refl) as (a & b & Q1 & Q2 & _). destruct (FSS0 q eq_refl) as (a' & b' & Q1' & Q2' & _). congruence.
    - destruct (FNN eq_refl), (FNN0 eq_refl). congruence. } subst arr0.
  split; [exact N2|]. split; [exact N1|].
  rewrite !(proj_mass mc_full_eff_array) by reflexivity. rewrite !(proj_mass mc_eff_array) by reflexivity. rewrite !(proj_mass fc_eff_array) by reflexivity.
  split; [reflexivity|]. split; [cbn [mc_eff_array with_mc_eff r_with_peaks r_before_mass]; exact MM|]. rewrite A1. split; reflexivity.
Qed.
(** 'After giving a vehicle another engine map and deriving, its table follows the map': true of Python, not of the
    compiled class. *)
Definition new_map : list float := [0.2; 0.4; 0.35]%float.
Theorem C114_engine_map_followed_refuted : exists (r r' w : vehicle float), to_rust demo_hev = Ok r /\
  r_set_derived (with_fc_eff r (fc_eff_array r) new_map) = Ok r' /\ set_derived (with_fc_eff demo_hev (fc_eff_array demo_hev) new_map) = Ok w /\
  (lmax (fc_eff_array r'), lmax (fc_eff_array w)) = (Ok 0.3, Ok 0.4)%float.
Proof.
  destruct (to_rust (F := float) demo_hev) as [r|] eqn:A; [|vm_compute in A; discriminate]. exists r.
  assert (Q : bindR (to_rust (F := float) demo_hev) (fun r => bindR (r_set_derived (with_fc_eff r (fc_eff_array r) new_map)) (fun r' => lmax (fc_eff_array r'))) = Ok 0.3%float) by (vm_compute; reflexivity).
  rewrite A in Q. cbn [bindR] in Q. destruct (r_set_derived (with_fc_eff r (fc_eff_array r) new_map)) as [r'|]; [|discriminate]. cbn [bindR] in Q. exists r'.
  assert (Q2 : bindR (set_derived (with_fc_eff demo_hev (fc_eff_array demo_hev) new_map)) (fun r' => lmax (fc_eff_array r')) = Ok 0.4%float) by (vm_compute; reflexivity).
  destruct (set_derived (with_fc_eff demo_hev (fc_eff_array demo_hev) new_map)) as [w|]; [|discriminate]. cbn [bindR] in Q2. exists w. rewrite Q, Q2. auto.
Qed.
(** 'A mass override of zero is none': true of Python (C45), not of the compiled class. *)
Theorem C114_zero_override_refuted : exists (r r' : vehicle float), to_rust demo_hev = Ok r /\ r_set_derived (with_override_kg r (Some 0%float)) = Ok r' /\
  veh_kg r' = 0%float /\ veh_kg (set_veh_mass (with_override_kg demo_hev (Some 0%float))) = 1513.8%float.
Proof.
  destruct (to_rust (F := float) demo_hev) as [r|] eqn:A; [|vm_compute in A; discriminate]. exists r.
  assert (Q : bindR (to_rust (F := float) demo_hev) (fun r => bindR (r_set_derived (with_override_kg r (Some 0%float))) (fun r' => Ok (veh_kg r'))) = Ok 0%float) by (vm_compute; reflexivity).
  rewrite A in Q. cbn [bindR] in Q. destruct (r_set_derived (with_override_kg r (Some 0%float))) as [r'|]; [|discriminate]. cbn [bindR] in Q. exists r'.
  split; [reflexivity|]. split; [reflexivity|]. split; [congruence|]. vm_compute. reflexivity.
Qed.
Example C114_run :
  bindR (to_rust (F := float) demo_hev) (fun r => bindR (r_set_fc_peak_eff r 0.4%float) (fun e => bindR (r_set_derived e) (fun e' =>
    bindR (r_set_mc_peak_eff r 0.45%float) (fun m => bindR (r_set_derived m) (fun m' =>
      Ok (r_fc_peak_eff e, r_fc_peak_eff e', fc_eff_map e', (r_mc_peak_eff m, r_mc_peak_eff m', mc_eff_map m)))))))
  = Ok (Ok 0.4, Ok 0.4, [0.1; 0.3; 0.25], (Ok 0.45, Ok 0.9, Some [0.8; 0.9; 0.8]))%float.
Proof. vm_compute. reflexivity. Qed.
Example C114_case : exists r : vehicle R, to_rust demo_hev = Ok r /\ r_set_derived r = Ok r /\ veh_kg r = 1500 /\
  nth 50 (mc_full_eff_array r) 0 = 0.9 /\ exists a, is_max a (fc_eff_array r) /\ 0 < a.
Proof.
  destruct C113_case as (w & r & H & _ & _ & T & S & K & _). exists r. split; [exact T|]. unfold to_rust in T. split; [exact (C114_again _ _ T eq_refl)|].
  split. { pose proof (C114_mass _ _ T) as M.
    assert (Q : veh_override_kg (to_rust_input (demo_hev (F := R))) = Some 1500).
    { unfold to_rust_input. cbn [veh_override_kg with_mass]. change (veh_override_kg (demo_hev (F := R))) with (Some (@z R RNum 1500)). cbv iota.
      unfold z. change (@n0 R RNum) with 0. unR. destruct (Reqb_spec 1500 0); [lra|reflexivity]. }
    rewrite Q in M. apply M. }
  split. { change (mc_full_eff_array r) with (mc_full_eff_array (without_overrides r)). rewrite S. change (mc_full_eff_array (without_overrides w)) with (mc_full_eff_array w).
    destruct C44_case as (u & U & _ & _ & _ & _ & _ & _ & _). assert (u = w) by congruence. subst u.
    destruct (C44_motor_tables _ _ H) as (_ & _ & _ & _ & m & t & M & _ & _ & _ & P & _ & _ & _ & RS & _).
    { apply demo_maps. }
    cbn in RS. rewrite RS. cbn in M. subst m. apply (on_polyline_unique (mc_pwr_out_perc (@demo_hev R RNum)) [lit 8 10; lit 9 10; lit 8 10] (INR 50 / 100)); [discriminate|reflexivity|apply demo_maps|apply P; lia|].
    right. right. exists 0%nat, 0, (1/2), 0.8, 0.9. cbn; rewrite ?lit_R; unR; repeat split; try (f_equal; lra); lra. }
  change (fc_eff_array r) with (fc_eff_array (without_overrides r)). rewrite S. change (fc_eff_array (without_overrides w)) with (fc_eff_array w).
  destruct C44_case as (u & U & _ & _ & EM & _). assert (u = w) by congruence. subst u.
  destruct (C44_efficiencies _ _ H) as (_ & _ & (a & _ & A) & _). exists a. split; [exact A|]. apply (em_eff _ EM), A.
Qed.
