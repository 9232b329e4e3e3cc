(** Proofs about vehicle dicts: from_dict, copy_vehicle, veh_equal and clean_data (C47, C48, C79-C81). *)
From Coq Require Import Lia Ascii.
From Verif Require Import Num Numpy ListFacts CycleModel VehModel SimModel SimState FrameProofs VehSpec VehProofs VehProofs2 VehDictModel.

Section Copy.
  Context {F : Type} {N : Num F} (T : texts F).
  (** The constructor's arguments, as a copy passes them: maps replaced, everything derived unset. *)
  Definition bare (v : pyveh F) (m : list F) : vehicle F :=
    let c := pv_core v in
      {| is_template := String.eqb (pv_scenario v) template_name; veh_pt_type := veh_pt_type c; drag_coef := drag_coef c;
         frontal_area_m2 := frontal_area_m2 c; glider_kg := glider_kg c; veh_cg_m := veh_cg_m c;
         drive_axle_weight_frac := drive_axle_weight_frac c; wheel_base_m := wheel_base_m c; cargo_kg := cargo_kg c;
         veh_override_kg := veh_override_kg c; comp_mass_multiplier := comp_mass_multiplier c;
         fs_max_kw := fs_max_kw c; fs_secs_to_peak_pwr := fs_secs_to_peak_pwr c; fs_kwh := fs_kwh c; fs_kwh_per_kg := fs_kwh_per_kg c;
         fc_max_kw := fc_max_kw c; fc_pwr_out_perc := fc_pwr_out_perc_default; fc_eff_map := m;
         fc_eff_type := fc_of (pv_type v); fc_sec_to_peak_pwr := fc_sec_to_peak_pwr c; fc_base_kg := fc_base_kg c; fc_kw_per_kg := fc_kw_per_kg c;
         min_fc_time_on := min_fc_time_on c; idle_fc_kw := idle_fc_kw c;
         mc_max_kw := mc_max_kw c; mc_pwr_out_perc := mc_pwr_out_perc_default; mc_eff_map := None; mc_sec_to_peak_pwr := mc_sec_to_peak_pwr c;
         mc_pe_kg_per_kw := mc_pe_kg_per_kw c; mc_pe_base_kg := mc_pe_base_kg c;
         ess_max_kw := ess_max_kw c; ess_max_kwh := ess_max_kwh c; ess_kg_per_kwh := ess_kg_per_kwh c; ess_base_kg := ess_base_kg c;
         ess_round_trip_eff := ess_round_trip_eff c; ess_life_coef_a := ess_life_coef_a c; ess_life_coef_b := ess_life_coef_b c;
         min_soc := min_soc c; max_soc := max_soc c; ess_dischg_to_fc_max_eff_perc := ess_dischg_to_fc_max_eff_perc c;
         ess_chg_to_fc_max_eff_perc := ess_chg_to_fc_max_eff_perc c; wheel_inertia_kg_m2 := wheel_inertia_kg_m2 c;
         num_wheels := nofZ (pv_wheels v); wheel_rr_coef := wheel_rr_coef c; wheel_radius_m := wheel_radius_m c;
         wheel_coef_of_fric := wheel_coef_of_fric c; max_accel_buffer_mph := max_accel_buffer_mph c;
         max_accel_buffer_perc_of_useable_soc := max_accel_buffer_perc_of_useable_soc c; perc_high_acc_buf := perc_high_acc_buf c;
         mph_fc_on := mph_fc_on c; kw_demand_fc_on := kw_demand_fc_on c; max_regen := max_regen c; stop_start := stop_start c;
         force_aux_on_fc := force_aux_on_fc c; alt_eff := alt_eff c; chg_eff := chg_eff c; aux_kw := aux_kw c;
         trans_kg := trans_kg c; trans_eff := trans_eff c; ess_to_fuel_ok_error := ess_to_fuel_ok_error c;
         fc_peak_eff_override := fc_peak_eff_override c; mc_peak_eff_override := mc_peak_eff_override c;
         regen_a := regen_a c; regen_b := regen_b c; veh_props := veh_props c;
         charging_on := false; no_elec_sys := false; no_elec_aux := false; input_kw_out_array := []; fc_kw_out_array := []; fc_eff_array := [];
         mc_eff_array := []; mc_kw_in_array := []; mc_kw_out_array := []; mc_max_elec_in_kw := n0; mc_full_eff_array := [];
         veh_kg := n0; max_trac_mps2 := n0; ess_mass_kg := n0; mc_mass_kg := n0; fc_mass_kg := n0; fs_mass_kg := n0 |}.

  Definition sound_peak (o : option F) : Prop := match o with Some x => nltb n0 x = true /\ nltb x n1 = true | None => True end.
  Definition sound_mass (o : option F) : Prop := match o with Some x => neqb x x = true | None => True end.

  Ltac go := lazy [from_dict fill_maps fill_rest convert_all construct copy_dict pget pset pitem bindR String.eqb Ascii.eqb Bool.eqb
     read_literal as_text from_literal assertR plen clean_override to_F to_Z truthy convert np_isnan find fst snd keys_and_types app map val_keys combine
     mem existsb orb andb negb keys_to_remove gF gZ gB gS gA gOF gOA gFs gP gD pv_core pv_scenario pv_selection pv_year pv_type pv_wheels pv_vals pv_rho pv_afr
     pt_text with_core py_set_derived].
  Lemma default_len s m : default_fc_map (F := F) s = Ok m -> length m = 12%nat.
  Proof. unfold default_fc_map. destruct (fc_of s); intros H; try discriminate; injection H as <-; reflexivity. Qed.
  Lemma explode18 (l : list F) : length l = 18%nat -> exists a b c d e f g h i j k m n o p q r s, l = [a; b; c; d; e; f; g; h; i; j; k; m; n; o; p; q; r; s].
  Proof. intros H. do 18 (destruct l as [|? l]; [discriminate|]). destruct l; [|discriminate]. repeat eexists. Qed.
  Lemma pt_of_text t : pt_of (pt_text t) = Some t. Proof. now destruct t. Qed.

  Lemma pset_same (d : pydict F) k v : pget d k = Some v -> pset d k v = d.
  Proof.
    induction d as [|[k' w] r IH]; cbn [pget pset]; [discriminate|]. destruct (String.eqb k' k) eqn:E.
    - intros H. injection H as ->. apply String.eqb_eq in E. now subst.
    - intros H. now rewrite IH.
  Qed.
  Lemma override_kept (d : pydict F) k o : pget d k = Some (opt_num o) -> sound_peak o ->
    (nltb n0 (ndiv n0 n0) && nltb (ndiv n0 n0) n1)%bool = false -> clean_override T d k = d.
  Proof.
    intros H S Z. unfold clean_override. rewrite H. destruct o as [x|]; cbn [opt_num to_F].
    - destruct S as [A B]. rewrite A, B. cbn [andb]. now apply pset_same.
    - rewrite Z. now apply pset_same.
  Qed.
  Lemma fill_rest_same (d : pydict F) b o y t p q : pget d "stop_start" = Some (VBool b) -> pget d "veh_override_kg" = Some (opt_num o) ->
    pget d "veh_year" = Some (VInt y) -> pget d "veh_pt_type" = Some (VStr (pt_text t)) ->
    pget d "fc_peak_eff_override" = Some (opt_num p) -> pget d "mc_peak_eff_override" = Some (opt_num q) ->
    sound_mass o -> sound_peak p -> sound_peak q -> (nltb n0 (ndiv n0 n0) && nltb (ndiv n0 n0) n1)%bool = false -> fill_rest T d = Ok d.
  Proof.
    intros A B C D E G SO SP SQ Z. unfold fill_rest, pitem. rewrite A. cbn [np_isnan bindR]. rewrite B.
    assert (K : clean_override T (clean_override T d "fc_peak_eff_override") "mc_peak_eff_override" = d).
    { rewrite (override_kept d _ p); auto. apply (override_kept d _ q); auto. }
    destruct o as [x|]; cbn [opt_num np_isnan bindR].
    - unfold is_nan. cbn in SO. rewrite SO. cbn [negb bindR]. rewrite C. cbn [np_isnan bindR]. rewrite C. cbn [bindR to_Z]. rewrite (pset_same _ _ _ C), D.
      cbn [bindR]. rewrite pt_of_text. cbn [assertR bindR]. now rewrite K.
    - cbn [opt_num] in B; rewrite (pset_same _ _ _ B). rewrite C. cbn [np_isnan bindR]. rewrite C. cbn [bindR to_Z]. rewrite (pset_same _ _ _ C), D.
      cbn [bindR]. rewrite pt_of_text. cbn [assertR bindR]. now rewrite K.
  Qed.
  Definition settled (e : string * pyval F) : Prop :=
    (if String.eqb (fst e) "props" then Ok (snd e)
                  else if (mem (fst e) ["veh_override_kg"; "mc_eff_map"; "fc_peak_eff_override"; "mc_peak_eff_override"]%string
                           && match snd e with VNone => true | _ => false end)%bool then Ok (snd e)
                  else match find (fun e' => String.eqb (fst e') (fst e)) keys_and_types with
                       | Some (_, t) => convert T t (snd e)
                       | None => Err KeyError
                       end) = Ok (snd e).
  Lemma convert_all_same d : Forall settled d -> convert_all T d = Ok d.
  Proof.
    induction 1 as [|[k v] r A _ IH]; [reflexivity|]. cbn [convert_all]. unfold settled in A. cbn [fst snd] in A. rewrite A. cbn [bindR]. rewrite IH. reflexivity.
  Qed.
  Lemma gOF_opt (d : pydict F) k o : pget d k = Some (opt_num o) -> gOF d k = Ok o.
  Proof. intros H. unfold gOF. rewrite H. now destruct o. Qed.

  (** The dict of a copy after the maps have been filled in. *)
  Definition filled (v : pyveh F) (m : list F) : pydict F :=
    pset (pset (pset (pset (copy_dict v) "fc_eff_map" (VArr m)) "fc_pwr_out_perc" (VArr fc_pwr_out_perc_default)) "mc_pwr_out_perc" (VArr mc_pwr_out_perc_default)) "mc_eff_map" VNone.
  Lemma fill_maps_copy (v : pyveh F) : fill_maps T (copy_dict v) = (do m <- default_fc_map (pv_type v); Ok (filled v m)).
  Proof.
    destruct v as [c sc se ye te wh vals rho afr]. unfold filled. go. unfold opt_list.
    destruct (default_fc_map te) as [m|] eqn:E; [|reflexivity]. rewrite (default_len _ _ E).
    change (Datatypes.length fc_pwr_out_perc_default =? 12)%nat with true. change (Datatypes.length mc_pwr_out_perc_default =? 11)%nat with true. cbn iota.
    destruct (mc_eff_map c); reflexivity.
  Qed.
  Lemma fill_rest_copy (v : pyveh F) m : length (pv_vals v) = 18%nat -> sound_mass (veh_override_kg (pv_core v)) ->
    sound_peak (fc_peak_eff_override (pv_core v)) -> sound_peak (mc_peak_eff_override (pv_core v)) ->
    (nltb n0 (ndiv n0 n0) && nltb (ndiv n0 n0) n1)%bool = false -> fill_rest T (filled v m) = Ok (filled v m).
  Proof.
    intros L A B C Z. destruct v as [c sc se ye te wh vals rho afr]. cbn [pv_vals pv_core] in *.
    destruct (explode18 _ L) as (x1 & x2 & x3 & x4 & x5 & x6 & x7 & x8 & x9 & x10 & x11 & x12 & x13 & x14 & x15 & x16 & x17 & x18 & ->).
    unfold filled. eapply fill_rest_same; try reflexivity; assumption.
  Qed.
  Lemma convert_copy (v : pyveh F) m : length (pv_vals v) = 18%nat -> convert_all T (filled v m) = Ok (filled v m).
  Proof.
    intros L. destruct v as [c sc se ye te wh vals rho afr]. cbn [pv_vals pv_core] in *.
    destruct (explode18 _ L) as (x1 & x2 & x3 & x4 & x5 & x6 & x7 & x8 & x9 & x10 & x11 & x12 & x13 & x14 & x15 & x16 & x17 & x18 & ->).
    apply convert_all_same. unfold filled. go.
    repeat (apply Forall_cons; [first [reflexivity | unfold settled, opt_num; cbn [snd]; lazymatch goal with |- context [match ?o with Some _ => _ | None => _ end] => destruct o; reflexivity end]|]). apply Forall_nil.
  Qed.
  Lemma construct_copy (v : pyveh F) m : length (pv_vals v) = 18%nat -> construct (filled v m) = Ok (with_core v (bare v m)).
  Proof.
    intros L. destruct v as [c sc se ye te wh vals rho afr]. cbn [pv_vals pv_core] in *.
    destruct (explode18 _ L) as (x1 & x2 & x3 & x4 & x5 & x6 & x7 & x8 & x9 & x10 & x11 & x12 & x13 & x14 & x15 & x16 & x17 & x18 & ->).
    lazy [filled construct copy_dict pget pset pitem bindR String.eqb Ascii.eqb Bool.eqb
     fst snd keys_and_types app map val_keys combine
     mem existsb orb andb negb keys_to_remove gF gZ gB gS gA gOA gFs gP gD pv_core pv_scenario pv_selection pv_year pv_type pv_wheels pv_vals pv_rho pv_afr with_core].
    rewrite pt_of_text.
    rewrite (gOF_opt _ "veh_override_kg" (veh_override_kg c)) by reflexivity. rewrite (gOF_opt _ "fc_peak_eff_override" (fc_peak_eff_override c)) by reflexivity.
    rewrite (gOF_opt _ "mc_peak_eff_override" (mc_peak_eff_override c)) by reflexivity. reflexivity.
  Qed.
  Lemma copy_is (v : pyveh F) : length (pv_vals v) = 18%nat -> sound_mass (veh_override_kg (pv_core v)) ->
    sound_peak (fc_peak_eff_override (pv_core v)) -> sound_peak (mc_peak_eff_override (pv_core v)) ->
    (nltb n0 (ndiv n0 n0) && nltb (ndiv n0 n0) n1)%bool = false ->
    copy_vehicle T v = (do m <- default_fc_map (pv_type v); do c1 <- set_derived (bare v m); do c2 <- set_derived c1; Ok (with_core v c2)).
  Proof.
    intros L A B C Z. unfold copy_vehicle, from_dict. rewrite fill_maps_copy. destruct (default_fc_map (pv_type v)) as [m|]; [|reflexivity]. cbn [bindR].
    rewrite fill_rest_copy by assumption. cbn [bindR]. rewrite convert_copy by assumption. cbn [bindR]. rewrite construct_copy by assumption. cbn [bindR]. unfold py_set_derived. cbn [with_core pv_core].
    destruct (set_derived (bare v m)) as [c1|]; [|reflexivity]. cbn [bindR snd]. cbn [with_core pv_core]. reflexivity.
  Qed.
End Copy.
