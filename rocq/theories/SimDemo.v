(** Small vehicles and a short cycle on which the examples beside the simulation theorems run, for every
    number type, and the fact that walks without re-planning always complete. *)
From Verif Require Import Num Numpy ListFacts CycleModel CycleSpec VehModel SimModel SimState WalkModel
  FrameProofs WalkProofs.
From Coq Require Import Lia.

Section Demo.
  Context {F : Type} {N : Num F}.
  Local Open Scope num_scope.
  Definition z (k : Z) : F := nofZ k.
  Definition demo_props : physprops F := mkprops (lit 12 10) (lit 981 100) (lit 337 10).
  (** SimDriveParams defaults, with the given switches. *)
  Definition demo_sp (mtc coast idm : bool) : simparams F :=
    mksimparams true mtc n1 (- lit 1 2) (lit 5 10000) 5 n1 (lit 1 1000) (lit 1 1000) 30
      (lit 9 10) 100 (lit 1 1000000000) (lit 2 1000) coast false (z 40) (- lit 25 10) (lit 75 10) n0 (z 20)
      idm (lit 3333 100) n1 n2 (z 4) n1 (lit 15 10) None (lit 3 10).
  (** A vehicle with engine of [fcp], motor of [mcp] and battery of [essp] kW and [kwh] kWh; its engine
      and motor maps have three points.  [es]: no electric system, [ea]: no electric auxiliaries. *)
  Definition demo_veh_of (ft : fc_type) (pt : pt_type) (fcp mcp essp kwh : F) (es ea : bool) (aux : F) : vehicle F :=
    {| is_template := false; veh_pt_type := pt; drag_coef := lit 3 10; frontal_area_m2 := n2;
       glider_kg := z 900; veh_cg_m := lit 53 100; drive_axle_weight_frac := lit 6 10; wheel_base_m := lit 27 10;
       cargo_kg := z 100; veh_override_kg := Some (z 1500); comp_mass_multiplier := lit 14 10;
       fs_max_kw := z 2000; fs_secs_to_peak_pwr := n1; fs_kwh := z 400; fs_kwh_per_kg := z 10;
       fc_max_kw := fcp; fc_pwr_out_perc := [n0; lit 1 2; n1]; fc_eff_map := [lit 1 10; lit 3 10; lit 25 100];
       fc_eff_type := ft; fc_sec_to_peak_pwr := n2; fc_base_kg := z 60; fc_kw_per_kg := n2;
       min_fc_time_on := z 5; idle_fc_kw := lit 5 2;
       mc_max_kw := mcp; mc_pwr_out_perc := [n0; lit 1 2; n1]; mc_eff_map := Some [lit 8 10; lit 9 10; lit 8 10];
       mc_sec_to_peak_pwr := z 4; mc_pe_kg_per_kw := n1; mc_pe_base_kg := z 20;
       ess_max_kw := essp; ess_max_kwh := kwh; ess_kg_per_kwh := z 8; ess_base_kg := z 75;
       ess_round_trip_eff := lit 81 100; ess_life_coef_a := z 110; ess_life_coef_b := - lit 68 100;
       min_soc := lit 2 10; max_soc := lit 8 10;
       ess_dischg_to_fc_max_eff_perc := n0; ess_chg_to_fc_max_eff_perc := n0;
       wheel_inertia_kg_m2 := lit 8 10; num_wheels := z 4; wheel_rr_coef := lit 1 100; wheel_radius_m := lit 3 10;
       wheel_coef_of_fric := lit 7 10; max_accel_buffer_mph := z 60; max_accel_buffer_perc_of_useable_soc := lit 2 10;
       perc_high_acc_buf := n0; mph_fc_on := z 30; kw_demand_fc_on := z 20; max_regen := lit 95 100;
       stop_start := false; force_aux_on_fc := false; alt_eff := n1; chg_eff := lit 86 100; aux_kw := aux;
       trans_kg := z 100; trans_eff := lit 9 10; ess_to_fuel_ok_error := lit 5 1000;
       fc_peak_eff_override := None; mc_peak_eff_override := None; regen_a := z 500; regen_b := lit 99 100;
       veh_props := demo_props; charging_on := false; no_elec_sys := es; no_elec_aux := ea;
       input_kw_out_array := map (fun x => x * fcp) [n0; lit 1 2; n1];
       fc_kw_out_array := map (fun x => x * fcp) [n0; lit 1 2; n1];
       fc_eff_array := [lit 1 10; lit 3 10; lit 25 100];
       mc_eff_array := [lit 8 10; lit 9 10; lit 8 10];
       mc_kw_in_array := [n0; lit 1 2 * mcp / lit 9 10; mcp / lit 8 10];
       mc_kw_out_array := [n0; lit 1 2 * mcp; mcp];
       mc_max_elec_in_kw := mcp / lit 8 10; mc_full_eff_array := [n0; lit 9 10; lit 8 10];
       veh_kg := z 1500; max_trac_mps2 := lit 36 10; ess_mass_kg := n0; mc_mass_kg := n0; fc_mass_kg := n0;
       fs_mass_kg := n0 |}.
  Definition demo_veh := demo_veh_of SI.
  Definition demo_conv : vehicle F := demo_veh CONV (z 100) n0 n0 n0 true true (lit 7 10).
  Definition demo_hev : vehicle F := demo_veh HEV (z 60) (z 30) (z 25) (lit 15 10) false false (lit 3 10).
  Definition demo_bev : vehicle F := demo_veh BEV n0 (z 80) (z 85) (z 24) false false (lit 3 10).
  (** The hybrid with a fuel cell instead of the engine. *)
  Definition demo_fcv : vehicle F := demo_veh_of H2FC HEV (z 60) (z 30) (z 25) (lit 15 10) false false (lit 3 10).
  (** Five time stamps: speed up, hold on a slope, brake to a stop. *)
  Definition demo_trip : cyc F :=
    mkcyc (map z [0; 2; 4; 5; 8]%Z) (map z [0; 6; 9; 9; 0]%Z) [n0; n0; lit 1 50; lit 1 50; n0] (repeat n0 5).
  (** The last speed cannot be reached. *)
  Definition demo_dash : cyc F := mkcyc (map z [0; 2; 3]%Z) (map z [0; 6; 16]%Z) (repeat n0 3) (repeat n0 3).
  (** Standing for an hour. *)
  Definition demo_park : cyc F := mkcyc (map z [0; 1800; 3600]%Z) (repeat n0 3) (repeat n0 3) (repeat n0 3).
  Definition demo_sd (v : vehicle F) (c : cyc F) : sdrive F := new_sd v demo_props (demo_sp false false false) c.

  Lemma walk_loop_total n : forall d, changes_cycle (d_sp d) = false ->
    (length (time_s (d_cyc d)) <= d_i d + n)%nat -> exists d', walk_loop n d = Ok d'.
  Proof.
    induction n as [|n IH]; intros d C L; cbn [walk_loop].
    - destruct (Nat.ltb_spec (d_i d) (length (time_s (d_cyc d)))); [lia|]. eauto.
    - destruct (Nat.ltb_spec (d_i d) (length (time_s (d_cyc d)))); [|eauto].
      assert (S1 : exists d1, sim_drive_step d = Ok d1 /\ d_sp d1 = d_sp d /\ d_cyc d1 = d_cyc d /\ d_i d1 = S (d_i d)).
      { unfold changes_cycle in C. apply Bool.orb_false_iff in C as [C CC]. apply Bool.orb_false_iff in C as [CM CI].
        unfold sim_drive_step. rewrite CM, CI, CC. cbn [bindR andb orb]. eexists. split; [reflexivity|]. auto. }
      destruct S1 as (d1 & E1 & E2 & E3 & E4). rewrite E1. cbn [bindR]. apply IH; [now rewrite E2|]. rewrite E3, E4. lia.
  Qed.
  (** Without a cycle-changing option every walk from an admissible state of charge completes. *)
  Lemma walk_total d0 s ovr : (0 < clen (d_cyc d0))%nat -> changes_cycle (d_sp d0) = false ->
    veh_pt_type (d_veh d0) = CONV \/ (nltb (max_soc (d_veh d0)) s = false /\ nltb s (min_soc (d_veh d0)) = false) ->
    exists d, sim_drive_walk d0 s ovr = Ok d.
  Proof.
    intros L C S. unfold sim_drive_walk.
    assert (I : exists d1, init_for_step d0 s ovr = Ok d1).
    { unfold init_for_step. 
      replace (negb (pt_eqb (veh_pt_type (d_veh d0)) CONV) && _)%bool with false.
      2:{ destruct S as [S|[S1 S2]]; [now rewrite S|]. rewrite S1, S2. now rewrite Bool.andb_false_r. }
      assert (RL : length (override_aux (d_rows (init_arrays d0)) ovr) = clen (d_cyc d0)).
      { unfold override_aux. cbn [d_rows init_arrays]. destruct ovr as [l|]; [|apply repeat_length].
        destruct (Nat.eqb_spec (length l) (length (repeat zero_row (clen (d_cyc d0))))) as [Q|]; [|apply repeat_length].
        rewrite zipw_length, Q, repeat_length. lia. }
      cbv zeta. destruct (override_aux _ ovr); [cbn in RL; lia|]. eauto. }
    destruct I as (d1 & I). rewrite I. cbn [bindR].
    destruct (init_rows _ _ _ _ I) as (_ & _ & i3 & _ & _ & _ & i7 & _).
    destruct (walk_loop_total (length (time_s (d_cyc d1))) d1) as (d2 & W).
    { now rewrite i3. } { lia. }
    rewrite W. cbn [bindR]. eauto.
  Qed.
End Demo.
