(** Vehicle derivation, mass and peak efficiencies: C44-C46. *)
From Coq Require Import Lia PrimFloat.
From Verif Require Import Num FloatNum Numpy ListFacts CycleModel CycleSpec VehModel SimModel SimState FrameProofs SimSpec SimProofs1 SimProofs3 SimDemo
  ResampleProofs VehSpec VehProofs VehProofs2 VehProofs3.
Local Open Scope R_scope.
Local Set Warnings "-inexact-float".

(** Example vehicles: [v] with the given peak overrides, motor power grid and motor map. *)
Definition with_maps {F} (v : vehicle F) (fo mo : option F) (grid : list F) (m : option (list F)) : vehicle F :=
  {| is_template := is_template v; veh_pt_type := veh_pt_type v; drag_coef := drag_coef v;
     frontal_area_m2 := frontal_area_m2 v; glider_kg := glider_kg v; veh_cg_m := veh_cg_m v;
     drive_axle_weight_frac := drive_axle_weight_frac v; wheel_base_m := wheel_base_m v;
     cargo_kg := cargo_kg v; veh_override_kg := veh_override_kg v;
     comp_mass_multiplier := comp_mass_multiplier v; fs_max_kw := fs_max_kw v;
     fs_secs_to_peak_pwr := fs_secs_to_peak_pwr v; fs_kwh := fs_kwh v;
     fs_kwh_per_kg := fs_kwh_per_kg v; fc_max_kw := fc_max_kw v;
     fc_pwr_out_perc := fc_pwr_out_perc v; fc_eff_map := fc_eff_map v;
     fc_eff_type := fc_eff_type v; fc_sec_to_peak_pwr := fc_sec_to_peak_pwr v;
     fc_base_kg := fc_base_kg v; fc_kw_per_kg := fc_kw_per_kg v;
     min_fc_time_on := min_fc_time_on v; idle_fc_kw := idle_fc_kw v;
     mc_max_kw := mc_max_kw v; mc_pwr_out_perc := grid;
     mc_eff_map := m; mc_sec_to_peak_pwr := mc_sec_to_peak_pwr v;
     mc_pe_kg_per_kw := mc_pe_kg_per_kw v; mc_pe_base_kg := mc_pe_base_kg v;
     ess_max_kw := ess_max_kw v; ess_max_kwh := ess_max_kwh v;
     ess_kg_per_kwh := ess_kg_per_kwh v; ess_base_kg := ess_base_kg v;
     ess_round_trip_eff := ess_round_trip_eff v; ess_life_coef_a := ess_life_coef_a v;
     ess_life_coef_b := ess_life_coef_b v; min_soc := min_soc v; max_soc := max_soc v;
     ess_dischg_to_fc_max_eff_perc := ess_dischg_to_fc_max_eff_perc v;
     ess_chg_to_fc_max_eff_perc := ess_chg_to_fc_max_eff_perc v;
     wheel_inertia_kg_m2 := wheel_inertia_kg_m2 v; num_wheels := num_wheels v;
     wheel_rr_coef := wheel_rr_coef v; wheel_radius_m := wheel_radius_m v;
     wheel_coef_of_fric := wheel_coef_of_fric v;
     max_accel_buffer_mph := max_accel_buffer_mph v;
     max_accel_buffer_perc_of_useable_soc := max_accel_buffer_perc_of_useable_soc v;
     perc_high_acc_buf := perc_high_acc_buf v; mph_fc_on := mph_fc_on v;
     kw_demand_fc_on := kw_demand_fc_on v; max_regen := max_regen v;
     stop_start := stop_start v; force_aux_on_fc := force_aux_on_fc v; alt_eff := alt_eff v;
     chg_eff := chg_eff v; aux_kw := aux_kw v; trans_kg := trans_kg v;
     trans_eff := trans_eff v; ess_to_fuel_ok_error := ess_to_fuel_ok_error v;
     fc_peak_eff_override := fo;
     mc_peak_eff_override := mo; regen_a := regen_a v;
     regen_b := regen_b v; veh_props := veh_props v; charging_on := charging_on v;
     no_elec_sys := no_elec_sys v; no_elec_aux := no_elec_aux v;
     input_kw_out_array := input_kw_out_array v; fc_kw_out_array := fc_kw_out_array v;
     fc_eff_array := fc_eff_array v; mc_eff_array := mc_eff_array v;
     mc_kw_in_array := mc_kw_in_array v; mc_kw_out_array := mc_kw_out_array v;
     mc_max_elec_in_kw := mc_max_elec_in_kw v; mc_full_eff_array := mc_full_eff_array v;
     veh_kg := veh_kg v; max_trac_mps2 := max_trac_mps2 v; ess_mass_kg := ess_mass_kg v;
     mc_mass_kg := mc_mass_kg v; fc_mass_kg := fc_mass_kg v; fs_mass_kg := fs_mass_kg v |}.
Section Cars.
  Context {F : Type} {N : Num F}.
  (** The hybrid of the other examples with the default motor map, no mass override. *)
  Definition plain_hev : vehicle F := with_override_kg (with_maps demo_hev None None mc_pwr_out_perc_default None) None.
  (** Its motor map in full, with the peak at [g] of rated power. *)
  Definition peaked (g : F) : vehicle F :=
    with_maps demo_hev None None [n0; lit 2 100; lit 4 100; lit 6 100; lit 8 100; lit 1 10; lit 2 10; g; lit 6 10; lit 8 10; n1]
      (Some [lit 3 10; lit 4 10; lit 5 10; lit 6 10; lit 7 10; lit 75 100; lit 8 10; lit 95 100; lit 92 100; lit 91 100; lit 9 10]).
  Definition conv_with_motor : vehicle F := demo_veh CONV (z 100) (z 5) n0 n0 true true (lit 7 10).
  Definition derived {A} (v : vehicle F) (f : vehicle F -> A) : option A := match set_derived v with Ok v' => Some (f v') | Err _ => None end.
End Cars.

(** ** C44: derived parameters *)
Theorem C44_rejects : forall (v : vehicle R), is_template v = false ->
  (veh_pt_type v = BEV /\ (fs_max_kw v <> 0 \/ fs_kwh v <> 0 \/ fc_max_kw v <> 0)) \/
  (veh_pt_type v = CONV /\ stop_start v = false /\ (mc_max_kw v <> 0 \/ ess_max_kw v <> 0 \/ ess_max_kwh v <> 0)) ->
  set_derived v = Err AssertionError.
Proof. exact rejects. Qed.
Theorem C44_accepted : forall (v v' : vehicle R), set_derived v = Ok v' -> is_template v = false ->
  (veh_pt_type v = BEV -> fs_max_kw v = 0 /\ fs_kwh v = 0 /\ fc_max_kw v = 0) /\
  (veh_pt_type v = CONV -> stop_start v = false -> mc_max_kw v = 0 /\ ess_max_kw v = 0 /\ ess_max_kwh v = 0).
Proof. exact accepted. Qed.
(** Vehicles that are accepted: consistent component sizes, maps of matching sizes on increasing grids with
    efficiencies below one, and a peak motor efficiency at one of the full percents that are tabulated. *)
Theorem C44_accepts : forall (v : vehicle R) (m : list R),
  is_template v = false ->
  (veh_pt_type v = BEV -> fs_max_kw v = 0 /\ fs_kwh v = 0 /\ fc_max_kw v = 0) ->
  (veh_pt_type v = CONV -> stop_start v = false -> mc_max_kw v = 0 /\ ess_max_kw v = 0 /\ ess_max_kwh v = 0) ->
  fc_peak_eff_override v = None -> mc_peak_eff_override v = None ->
  fc_pwr_out_perc v <> [] -> length (fc_eff_map v) = length (fc_pwr_out_perc v) -> increasing (fc_pwr_out_perc v) ->
  (forall x, In x (fc_eff_map v) -> 0 <= x < 1) ->
  motor_map_of v m -> length m = length (mc_pwr_out_perc v) -> increasing (mc_pwr_out_perc v) ->
  (forall x, In x m -> 0 <= x < 1) ->
  (exists i k x, (1 <= k < 100)%nat /\ nth_error (mc_pwr_out_perc v) i = Some (INR k / 100) /\ nth_error m i = Some x /\ is_max x m) ->
  exists v', set_derived v = Ok v'.
Proof. exact accepts. Qed.
(** A map with its peak at 40.5 % is refused, though nothing is wrong with it; at 40 % it is accepted. *)
Theorem C44_peak_between_points_refuted : exists v : vehicle float,
  set_derived v = Err AssertionError /\ v = peaked (lit 405 1000) /\ derived (peaked (lit 4 10)) get_mcPeakEff = Some (Ok 0.95%float).
Proof. exists (peaked (lit 405 1000)). vm_compute. auto. Qed.
Theorem C44_flags : forall (v v' : vehicle R), set_derived v = Ok v' ->
  (no_elec_sys v' = true <-> ess_max_kwh v = 0 \/ ess_max_kw v = 0 \/ mc_max_kw v = 0) /\
  (no_elec_aux v' = true <-> no_elec_sys v' = true \/ mc_max_kw v <= aux_kw v \/ force_aux_on_fc v = true) /\
  charging_on v' = false.
Proof. exact flags. Qed.
Theorem C44_engine_tables : forall (v v' : vehicle R), set_derived v = Ok v' -> increasing (fc_pwr_out_perc v) ->
  length (fc_kw_out_array v') = engine_points /\ length (fc_eff_array v') = engine_points /\
  (forall k, (k < engine_points)%nat -> nth k (fc_kw_out_array v') 0 = engine_percent k / 100 * fc_max_kw v) /\
  input_kw_out_array v' = map (fun x => x * fc_max_kw v) (fc_pwr_out_perc v) /\
  exists table, length table = engine_points /\
    (forall k, (k < engine_points)%nat -> on_polyline (fc_pwr_out_perc v) (fc_eff_map v) (engine_percent k / 100) (nth k table 0)) /\
    rescaled (fc_peak_eff_override v) table (fc_eff_array v').
Proof. exact engine_tables. Qed.
Theorem C44_motor_tables : forall (v v' : vehicle R), set_derived v = Ok v' -> increasing (mc_pwr_out_perc v) ->
  length (mc_kw_out_array v') = motor_points /\ length (mc_kw_in_array v') = motor_points /\ length (mc_full_eff_array v') = motor_points /\
  (forall k, (k < motor_points)%nat -> nth k (mc_kw_out_array v') 0 = INR k / 100 * mc_max_kw v) /\
  exists m table, motor_map_of v m /\ length table = motor_points /\
    nth 0 table 0 = 0 /\ nth 100 table 0 = last m 0 /\
    (forall k, (1 <= k < 100)%nat -> on_polyline (mc_pwr_out_perc v) m (INR k / 100) (nth k table 0)) /\
    nth 0 (mc_kw_in_array v') 0 = 0 /\
    (forall k, (1 <= k < motor_points)%nat -> nth k (mc_kw_in_array v') 0 = nth k (mc_kw_out_array v') 0 / nth k table 0) /\
    is_max (mc_max_elec_in_kw v') (mc_kw_in_array v') /\
    rescaled (mc_peak_eff_override v) table (mc_full_eff_array v') /\
    rescaled (mc_peak_eff_override v) m (mc_eff_array v') /\ mc_eff_map v' = Some (mc_eff_array v').
Proof. exact motor_tables. Qed.
Theorem C44_efficiencies : forall (v v' : vehicle R), set_derived v = Ok v' ->
  (forall x, In x (fc_eff_array v') -> 0 <= x < 1) /\ (forall x, In x (mc_full_eff_array v') -> 0 <= x < 1) /\
  (exists m, get_fcPeakEff v' = Ok m /\ is_max m (fc_eff_array v')) /\
  (exists m, get_mcPeakEff v' = Ok m /\ is_max m (mc_full_eff_array v') /\ is_max m (mc_eff_array v')).
Proof. exact efficiencies. Qed.
Theorem C44_parameters_kept : forall (v v' : vehicle R), set_derived v = Ok v' -> same_parameters v v'.
Proof. exact parameters_kept. Qed.
(** Positive maps give tables on which the step theorems about engine and motor apply. *)
Theorem C44_ready : forall (v v' : vehicle R), set_derived v = Ok v' ->
  (increasing (fc_pwr_out_perc v) -> (forall x, In x (fc_eff_map v) -> 0 < x) -> pos_if_given (fc_peak_eff_override v) -> engine_map_ok v') /\
  (increasing (mc_pwr_out_perc v) -> (forall m, mc_eff_map v = Some m -> forall x, In x m -> 0 < x) -> pos_if_given (mc_peak_eff_override v) -> motor_map_ok v').
Proof. intros v v' H. split; intros; [eapply engine_ready|eapply motor_ready]; eauto. Qed.
(** Without peak overrides deriving again changes nothing, over the reals and in binary64. *)
Theorem C44_again : forall (v v' : vehicle R), fc_peak_eff_override v = None -> mc_peak_eff_override v = None ->
  set_derived v = Ok v' -> set_derived v' = Ok v'.
Proof. intros v v'. apply derive_twice. unR. rcase; [lra|reflexivity]. Qed.
Theorem C44_again_float : forall (v v' : vehicle float), fc_peak_eff_override v = None -> mc_peak_eff_override v = None ->
  set_derived v = Ok v' -> set_derived v' = Ok v'.
Proof. intros v v'. apply derive_twice. reflexivity. Qed.
(** An engine override is repeatable too. *)
Theorem C44_again_engine_override : forall (v v' : vehicle R), set_derived v = Ok v' -> increasing (fc_pwr_out_perc v) ->
  (forall x, In x (fc_eff_map v) -> 0 < x) -> pos_if_given (fc_peak_eff_override v) ->
  fc_eff_map v' = fc_eff_map v /\ (mc_peak_eff_override v = None -> set_derived v' = Ok v').
Proof. exact derive_stable. Qed.
(** With a motor override the first call leaves the electric powers of the unscaled map; the second corrects them. *)
Theorem C44_again_motor_override_refuted : exists v v' v'' : vehicle float, set_derived v = Ok v' /\ set_derived v' = Ok v'' /\
  (mc_max_elec_in_kw v', mc_max_elec_in_kw v'') = (37.5, 42.187499999999993)%float.
Proof.
  pose (v := with_maps demo_hev None (Some 0.8%float) [0; 0.5; 1]%float (Some [0.8; 0.9; 0.8]%float)).
  destruct (set_derived v) as [v'|] eqn:A; [|vm_compute in A; discriminate A].
  destruct (set_derived v') as [v''|] eqn:B.
  2: { assert (Q : bindR (set_derived v) (fun x => set_derived x) = Err e) by (rewrite A; exact B). vm_compute in Q. discriminate Q. }
  exists v, v', v''. split; [exact A|]. split; [exact B|].
  assert (Q : bindR (set_derived v) (fun x => bindR (set_derived x) (fun y => Ok (mc_max_elec_in_kw x, mc_max_elec_in_kw y))) = Ok (37.5, 42.187499999999993)%float) by (vm_compute; reflexivity).
  rewrite A in Q. cbn [bindR] in Q. rewrite B in Q. cbn [bindR] in Q. congruence.
Qed.
(** The motor map is settled by the first derivation: changing the motor size later keeps the old motor's map. *)
Theorem C44_stale_motor_map : forall (v v' v'' : vehicle R) (x : R), set_derived v = Ok v' -> mc_peak_eff_override v = None ->
  set_derived (with_mc_max_kw v' x) = Ok v'' -> exists m, motor_map_of v m /\ mc_eff_map v'' = Some m /\ mc_eff_array v'' = m.
Proof. exact stale_motor_map. Qed.
Example C44_run :
  derived plain_hev (fun v => (mc_eff_array v, nth 37 (fc_eff_array v) 0, nth 10 (mc_kw_in_array v) 0, mc_max_elec_in_kw v))%float
    = Some ([0.36; 0.39333333333333331; 0.43333333333333335; 0.49333333333333329; 0.53666666666666663; 0.58666666666666667; 0.81333333333333335;
             0.93; 0.93666666666666676; 0.93333333333333346; 0.92333333333333334], 0.126, 5.1136363636363633, 32.490974729241877)%float /\
  derived (with_mc_max_kw plain_hev 75%float) (fun v : vehicle float => nth 7 (mc_eff_array v) 0)%float = Some 0.95%float /\
  match @set_derived float _ plain_hev with
  | Ok v => derived (with_mc_max_kw v 75%float) (fun v : vehicle float => nth 7 (mc_eff_array v) 0)%float = Some 0.93%float
  | Err _ => False
  end /\
  @set_derived float _ conv_with_motor = Err AssertionError /\ @set_derived float _ demo_bev = Err AssertionError.
Proof. vm_compute. repeat split. Qed.

(** The hybrid of the examples, over the reals. *)
Local Ltac car_num := unfold demo_conv, demo_hev, demo_bev, demo_veh, demo_veh_of, z; cbn -[IZR Rlt Rle]; rewrite ?lit_R; unR; try lra; try reflexivity; try congruence.
Lemma hev_derives : exists v', set_derived (@demo_hev R RNum) = Ok v'.
Proof.
  apply (C44_accepts demo_hev [lit 8 10; lit 9 10; lit 8 10]); try reflexivity; try discriminate.
  - intros i j a b L A B. destruct i as [|[|[|i]]], j as [|[|[|j]]]; cbn in A, B; try lia; try (destruct j; discriminate); try (destruct i; discriminate);
    injection A as <-; injection B as <-; car_num.
  - intros x X. cbn in X. repeat (destruct X as [<-|X]; [car_num|]). destruct X.
  - intros i j a b L A B. destruct i as [|[|[|i]]], j as [|[|[|j]]]; cbn in A, B; try lia; try (destruct j; discriminate); try (destruct i; discriminate);
    injection A as <-; injection B as <-; car_num.
  - intros x X. cbn in X. repeat (destruct X as [<-|X]; [car_num|]). destruct X.
  - exists 1%nat, 50%nat, (lit 9 10). split; [lia|]. split; [cbn [nth_error mc_pwr_out_perc demo_hev demo_veh demo_veh_of]; f_equal; rewrite lit_R; cbn; lra|].
    split; [reflexivity|]. split; [right; now left|]. intros x X. cbn in X. repeat (destruct X as [<-|X]; [car_num|]). destruct X.
Qed.
Example C44_case : exists v', set_derived (@demo_hev R RNum) = Ok v' /\ set_derived v' = Ok v' /\ no_elec_sys v' = false /\
  engine_map_ok v' /\ motor_map_ok v' /\ nth 50 (mc_kw_out_array v') 0 = 15 /\ nth 50 (mc_kw_in_array v') 0 = 15 / 0.9 /\
  set_derived (@conv_with_motor R RNum) = Err AssertionError.
Proof.
  destruct hev_derives as (v' & H). exists v'. split; [exact H|].
  assert (I3 : increasing [0; lit 1 2; 1]).
  { intros i j a b L A B. destruct i as [|[|[|i]]], j as [|[|[|j]]]; cbn in A, B; try lia; try (destruct j; discriminate); try (destruct i; discriminate);
    injection A as <-; injection B as <-; car_num. }
  split; [now apply (C44_again demo_hev)|].
  split. { destruct (no_elec_sys v') eqn:E; [|reflexivity]. exfalso. apply (C44_flags _ _ H) in E. revert E. car_num. }
  destruct (C44_ready _ _ H) as (E1 & E2).
  split. { apply E1; [exact I3| |exact Logic.I]. intros x X. cbn in X. repeat (destruct X as [<-|X]; [car_num|]). destruct X. }
  split. { apply E2; [exact I3| |exact Logic.I]. intros m M x X. cbn in M. injection M as <-. cbn in X. repeat (destruct X as [<-|X]; [car_num|]). destruct X. }
  destruct (C44_motor_tables _ _ H I3) as (_ & _ & _ & K & m & t & M & _ & _ & _ & P & _ & Q & _).
  assert (O : nth 50 (mc_kw_out_array v') 0 = 15). { rewrite K by (unfold motor_points; lia). car_num. }
  split; [exact O|]. split.
  { rewrite Q by (unfold motor_points; lia). rewrite O. f_equal.
    apply (on_polyline_unique (mc_pwr_out_perc (@demo_hev R RNum)) m (INR 50 / 100)); [discriminate|cbn in M; now subst m|exact I3|apply P; lia|]. cbn in M. subst m.
    right. right. exists 0%nat, 0, (1/2), 0.8, 0.9. cbn; rewrite ?lit_R; unR; repeat split; try (f_equal; lra); lra. }
  apply C44_rejects; [reflexivity|]. right. split; [reflexivity|]. split; [reflexivity|]. left. car_num.
Qed.

(** ** C45: mass *)
Theorem C45_mass : forall (v : vehicle R), let v' := set_veh_mass v in
  match override_of v with
  | Some x => veh_kg v' = x /\ ess_mass_kg v' = 0 /\ mc_mass_kg v' = 0 /\ fc_mass_kg v' = 0 /\ fs_mass_kg v' = 0 /\ veh_override_kg v' = Some x
  | None => veh_kg v' = sum_of_parts v /\ ess_mass_kg v' = battery_kg v /\ mc_mass_kg v' = motor_kg v /\ fc_mass_kg v' = engine_kg v /\
            fs_mass_kg v' = tank_kg v /\ veh_override_kg v' = Some 0
  end.
Proof. exact mass_is. Qed.
Theorem C45_derived_mass : forall (v v' : vehicle R), set_derived v = Ok v' ->
  veh_kg v' = match override_of v with Some x => x | None => sum_of_parts v end.
Proof.
  intros v v' H. destruct (derived_mass _ _ H) as (w & -> & A & B). pose proof (mass_is w) as M. cbn zeta in M. rewrite A in M. destruct (override_of v); [tauto|]. rewrite <- B. tauto.
Qed.
Theorem C45_again : forall (v : vehicle R), set_veh_mass (set_veh_mass v) = set_veh_mass v.
Proof. intros v. apply mass_again. unR. rcase; [lra|reflexivity]. Qed.
Theorem C45_again_float : forall (v : vehicle float), set_veh_mass (set_veh_mass v) = set_veh_mass v.
Proof. intros v. apply mass_again. reflexivity. Qed.
Theorem C45_traction : forall (v : vehicle R), let v' := set_veh_mass v in veh_kg v' <> 0 -> a_grav_mps2 (veh_props v) <> 0 ->
  max_trac_mps2 v' = wheel_coef_of_fric v * drive_axle_weight_frac v * a_grav_mps2 (veh_props v) / (1 + veh_cg_m v * wheel_coef_of_fric v / wheel_base_m v).
Proof. exact traction_is. Qed.
Example C45_run : let w := @set_veh_mass float _ plain_hev in
  (veh_kg w, ess_mass_kg w, mc_mass_kg w, fc_mass_kg w, fs_mass_kg w, veh_override_kg w, max_trac_mps2 w) = (1513.8, 121.8, 70, 125.99999999999999, 56, Some 0, 3.6224487137740145)%float /\
  veh_kg (@set_veh_mass float _ demo_hev) = 1500%float.
Proof. vm_compute. repeat split. Qed.
Example C45_case : override_of (@plain_hev R RNum) = None /\ veh_kg (set_veh_mass (@plain_hev R RNum)) = 1513.8 /\
  override_of (@demo_hev R RNum) = Some 1500 /\ veh_kg (set_veh_mass (@demo_hev R RNum)) = 1500.
Proof.
  assert (A : override_of (@plain_hev R RNum) = None) by reflexivity.
  assert (B : override_of (@demo_hev R RNum) = Some 1500).
  { unfold override_of. car_num. destruct (Rlt_dec 0 1500); [reflexivity|lra]. }
  pose proof (C45_mass (@plain_hev R RNum)) as M. pose proof (C45_mass (@demo_hev R RNum)) as M2. cbn zeta in M, M2. rewrite A in M. rewrite B in M2.
  split; [exact A|]. split; [|tauto]. destruct M as (-> & _).
  unfold sum_of_parts, battery_kg, motor_kg, engine_kg, tank_kg.
  change (glider_kg (@plain_hev R RNum)) with (@z R RNum 900).
  change (cargo_kg (@plain_hev R RNum)) with (@z R RNum 100).
  change (trans_kg (@plain_hev R RNum)) with (@z R RNum 100).
  change (comp_mass_multiplier (@plain_hev R RNum)) with (@lit R RNum 14 10).
  change (ess_max_kwh (@plain_hev R RNum)) with (@lit R RNum 15 10).
  change (ess_max_kw (@plain_hev R RNum)) with (@z R RNum 25).
  change (ess_base_kg (@plain_hev R RNum)) with (@z R RNum 75).
  change (ess_kg_per_kwh (@plain_hev R RNum)) with (@z R RNum 8).
  change (mc_max_kw (@plain_hev R RNum)) with (@z R RNum 30).
  change (mc_pe_base_kg (@plain_hev R RNum)) with (@z R RNum 20).
  change (mc_pe_kg_per_kw (@plain_hev R RNum)) with (@n1 R RNum).
  change (fc_max_kw (@plain_hev R RNum)) with (@z R RNum 60).
  change (fc_base_kg (@plain_hev R RNum)) with (@z R RNum 60).
  change (fc_kw_per_kg (@plain_hev R RNum)) with (@n2 R RNum).
  change (fs_max_kw (@plain_hev R RNum)) with (@z R RNum 2000).
  change (fs_kwh (@plain_hev R RNum)) with (@z R RNum 400).
  change (fs_kwh_per_kg (@plain_hev R RNum)) with (@z R RNum 10).
  unfold z. rewrite ?lit_R. change (@n2 R RNum) with 2. change (@n1 R RNum) with 1. cbn [nofZ RNum].
  assert (NZ : forall a b c : R, a <> 0 -> (if Req_EM_T a 0 then b else c) = c) by (intros a b c Q; destruct (Req_EM_T a 0); [contradiction|reflexivity]).
  rewrite !NZ by lra. lra.
Qed.

(** ** C46: peak efficiencies *)
(** [set_fcPeakEff] scales the working table only. *)
Theorem C46_engine_peak : forall (v v' : vehicle R) (p a : R), get_fcPeakEff v = Ok a -> 0 < a -> 0 < p -> set_fcPeakEff v p = Ok v' ->
  get_fcPeakEff v' = Ok p /\ fc_eff_array v' = map (fun x => x * (p / a)) (fc_eff_array v) /\ v' = with_fc_eff v (fc_eff_array v') (fc_eff_map v).
Proof. exact fc_peak_set. Qed.
Theorem C46_motor_peak : forall (v v' : vehicle R) (p a : R), get_mcPeakEff v = Ok a -> 0 < a -> 0 < p -> set_mcPeakEff v p = Ok v' ->
  get_mcPeakEff v' = Ok p /\ mc_full_eff_array v' = map (fun x => x * (p / a)) (mc_full_eff_array v) /\
  mc_eff_array v' = map (fun x => x * (p / a)) (mc_eff_array v) /\
  v' = with_mc_eff v (Some (mc_eff_array v')) (mc_eff_array v') (mc_full_eff_array v').
Proof. exact mc_peak_set. Qed.
(** Both settings are accepted for every derived vehicle. *)
Theorem C46_accepted : forall (v v' : vehicle R) (p : R), set_derived v = Ok v' ->
  (exists w, set_fcPeakEff v' p = Ok w) /\ (exists w, set_mcPeakEff v' p = Ok w).
Proof.
  intros v v' p H. destruct (efficiencies _ _ H) as (_ & _ & (a & _ & A & _) & (b & B & _)). split; [|eapply mc_peak_ok; eauto].
  apply fc_peak_ok. intros Q. rewrite Q in A. destruct A.
Qed.
(** The engine setting is lost at the next derivation ... *)
Theorem C46_engine_peak_lost : forall (v v1 v' : vehicle R) (p a : R), set_derived v = Ok v1 -> fc_peak_eff_override v = None -> mc_peak_eff_override v = None ->
  get_fcPeakEff v1 = Ok a -> 0 < a -> 0 < p -> set_fcPeakEff v1 p = Ok v' -> set_derived v' = Ok v1.
Proof. exact fc_peak_lost. Qed.
(** ... while the motor setting stays, and only then reaches the table of electric powers. *)
Theorem C46_motor_peak_kept : forall (v v1 v' : vehicle R) (p a : R), set_derived v = Ok v1 -> fc_peak_eff_override v = None -> mc_peak_eff_override v = None ->
  get_mcPeakEff v1 = Ok a -> 0 < a -> 0 < p < 1 -> set_mcPeakEff v1 p = Ok v' ->
  exists v2, set_derived v' = Ok v2 /\ get_mcPeakEff v2 = Ok p /\ mc_full_eff_array v2 = mc_full_eff_array v' /\
    mc_eff_map v2 = mc_eff_map v' /\ mc_kw_in_array v' = mc_kw_in_array v1.
Proof. exact mc_peak_survives. Qed.
(** With an override, set_derived puts the peak back to it whatever was set before. *)
Theorem C46_override_engine : forall (v v' : vehicle R) (p : R), set_derived v = Ok v' -> fc_peak_eff_override v = Some p -> 0 < p ->
  increasing (fc_pwr_out_perc v) -> (forall x, In x (fc_eff_map v) -> 0 < x) -> get_fcPeakEff v' = Ok p.
Proof. exact engine_override_peak. Qed.
Theorem C46_override_motor : forall (v v' : vehicle R) (p : R), set_derived v = Ok v' -> mc_peak_eff_override v = Some p -> 0 < p ->
  (forall m, mc_eff_map v = Some m -> forall x, In x m -> 0 < x) -> get_mcPeakEff v' = Ok p.
Proof. exact motor_override_peak. Qed.
Example C46_run :
  bindR (set_derived (@demo_hev float _)) (fun v => bindR (set_fcPeakEff v 0.4%float) (fun w => bindR (set_derived w) (fun u =>
    Ok (get_fcPeakEff v, get_fcPeakEff w, fc_eff_map w, get_fcPeakEff u))))
    = Ok (Ok 0.3, Ok 0.4, [0.1; 0.3; 0.25], Ok 0.3)%float /\
  bindR (set_derived (@demo_hev float _)) (fun v => bindR (set_mcPeakEff v 0.45%float) (fun w => bindR (set_derived w) (fun u =>
    Ok (get_mcPeakEff w, mc_eff_map w, get_mcPeakEff u, (mc_max_elec_in_kw v, mc_max_elec_in_kw w, mc_max_elec_in_kw u)))))
    = Ok (Ok 0.45, Some [0.4; 0.45; 0.4], Ok 0.45, (37.5, 37.5, 75))%float.
Proof. vm_compute. split; reflexivity. Qed.
Example C46_override_run :
  bindR (set_derived (with_maps demo_hev (Some 0.25%float) (Some 0.5%float) [0; 0.5; 1]%float (Some [0.8; 0.9; 0.8]%float))) (fun v =>
  bindR (set_fcPeakEff v 0.4%float) (fun w => bindR (set_mcPeakEff w 0.45%float) (fun w => bindR (set_derived w) (fun u =>
    Ok (get_fcPeakEff w, get_mcPeakEff w, get_fcPeakEff u, get_mcPeakEff u)))))
  = Ok (Ok 0.4, Ok 0.45, Ok 0.25, Ok 0.5)%float.
Proof. vm_compute. reflexivity. Qed.
Example C46_case : exists v v' w, set_derived (@demo_hev R RNum) = Ok v /\
  set_fcPeakEff v 0.4 = Ok v' /\ get_fcPeakEff v' = Ok 0.4 /\ set_derived v' = Ok v /\ set_mcPeakEff v 0.45 = Ok w /\ get_mcPeakEff w = Ok 0.45.
Proof.
  destruct hev_derives as (v & H). destruct (C46_accepted _ _ 0.4 H) as ((v' & A) & _). destruct (C46_accepted _ _ 0.45 H) as (_ & (w & B)).
  exists v, v', w. destruct C44_case as (u & U & _ & _ & E1 & E2 & _). assert (u = v) by congruence. subst u. clear U.
  destruct (efficiencies _ _ H) as (_ & _ & (a & A1 & A2) & (b & B1 & B2 & _)).
  assert (AP : 0 < a). { apply (em_eff _ E1), A2. }
  assert (BP : 0 < b). { pose proof (mm_two _ E2) as L2. destruct (nth_error (mc_full_eff_array v) 1) as [x|] eqn:X; [|apply nth_error_None in X; lia].
    pose proof (mm_eff _ E2 1%nat x (le_n 1) X). pose proof (proj2 B2 x (nth_error_In _ _ X)). lra. }
  split; [exact H|]. split; [exact A|]. destruct (C46_engine_peak v v' 0.4 a A1 AP ltac:(lra) A) as (Q1 & _). split; [exact Q1|].
  split; [assert (P4 : 0 < 0.4) by lra; exact (C46_engine_peak_lost demo_hev v v' 0.4 a H eq_refl eq_refl A1 AP P4 A)|]. split; [exact B|]. apply (C46_motor_peak v w 0.45 b B1 BP ltac:(lra) B).
Qed.
