(** Proofs about copies of vehicles and their comparison (C47, C48). *)
From Coq Require Import Lia Ascii.
From Verif Require Import Num Numpy ListFacts CycleModel CycleSpec VehModel SimModel SimState FrameProofs VehSpec VehProofs VehProofs2 VehProofs3 VehDictModel DictSpec DictProofs.
Local Open Scope R_scope.

(** ** set_derived depends on the parameters and maps only *)
Lemma derive_bare (v : pyveh R) c : coherent v -> set_derived (pv_core v) = Ok c ->
  fc_pwr_out_perc (pv_core v) = fc_pwr_out_perc_default -> mc_pwr_out_perc (pv_core v) = mc_pwr_out_perc_default ->
  mc_eff_map (pv_core v) = Some (default_mc_eff_map (pv_core v)) -> set_derived (bare v (fc_eff_map (pv_core v))) = Ok c.
Proof.
  intros CO H P1 P2 P3. open_dv H OD. apply (set_derived_close _ _ fce mcf0 mcf mx arr map_ mce' mcf').
  set (w := bare v (fc_eff_map (pv_core v))).
  assert (T : is_template w = is_template (pv_core v)) by (symmetry; apply CO).
  assert (W : num_wheels w = num_wheels (pv_core v)) by (symmetry; apply CO).
  assert (Y : fc_eff_type w = fc_eff_type (pv_core v)) by (symmetry; apply CO).
  assert (G1 : fc_pwr_out_perc w = fc_pwr_out_perc (pv_core v)) by (symmetry; exact P1).
  assert (G2 : mc_pwr_out_perc w = mc_pwr_out_perc (pv_core v)) by (symmetry; exact P2).
  assert (G3 : used_map w = used_map (pv_core v)) by (unfold used_map at 2; rewrite P3; reflexivity).
  constructor.
  - rewrite <- (od_check _ _ _ _ _ _ _ _ _ _ OD). unfold check_pt. rewrite T. reflexivity.
  - rewrite G1. apply (od_fc _ _ _ _ _ _ _ _ _ _ OD).
  - rewrite G2, G3. apply (od_mc _ _ _ _ _ _ _ _ _ _ OD).
  - rewrite G3. apply (od_ends _ _ _ _ _ _ _ _ _ _ OD).
  - apply (od_mx _ _ _ _ _ _ _ _ _ _ OD).
  - apply (od_fc_none _ _ _ _ _ _ _ _ _ _ OD).
  - apply (od_fc_some _ _ _ _ _ _ _ _ _ _ OD).
  - rewrite G3. apply (od_mc_none _ _ _ _ _ _ _ _ _ _ OD).
  - rewrite G3. apply (od_mc_some _ _ _ _ _ _ _ _ _ _ OD).
  - apply (od_eff _ _ _ _ _ _ _ _ _ _ OD).
  - rewrite (od_v' _ _ _ _ _ _ _ _ _ _ OD). unfold before_mass. rewrite G3. change (grid_kw w) with (grid_kw (pv_core v)). rewrite G1.
    change (calc_no_elec_sys w) with (calc_no_elec_sys (pv_core v)). change (calc_no_elec_aux w) with (calc_no_elec_aux (pv_core v)).
    change (fc_max_kw w) with (fc_max_kw (pv_core v)).
    generalize (used_map (pv_core v)). intros um. unfold w in *. clear w OD H G3 P3. revert T W Y G1 G2. unfold bare.
    cbn [is_template num_wheels fc_eff_type fc_pwr_out_perc mc_pwr_out_perc]. intros -> -> -> -> ->. unfold set_veh_mass.
    match goal with |- context [use_override (with_mc_eff (with_fc_eff (with_derived ?x _ _ _ _ _ _ _ _ _ _ _ _) _ _) _ _ _)] => idtac end.
    unfold use_override. cbn [with_mc_eff with_fc_eff with_derived veh_override_kg].
    destruct (veh_override_kg (pv_core v)) as [x|]; [destruct (nltb n0 x)|]; reflexivity.
Qed.

Lemma R_guard : (nltb (@n0 R RNum) (ndiv n0 n0) && nltb (ndiv n0 n0) n1)%bool = false.
Proof. unR. replace (0 / 0) with 0 by (unfold Rdiv; lra). rcase; [lra|reflexivity]. Qed.
Lemma sound_of (v : pyveh R) : coherent v -> sound_mass (veh_override_kg (pv_core v)) /\ sound_peak (fc_peak_eff_override (pv_core v)) /\ sound_peak (mc_peak_eff_override (pv_core v)).
Proof.
  intros CO. assert (P : forall o, between01 o -> sound_peak (F := R) o).
  { intros [x|]; cbn; [|auto]. intros H. unR. split; apply Rltb_true; lra. }
  split; [|split; apply P, CO]. destruct (veh_override_kg (pv_core v)); cbn; [|exact Logic.I]. unR. now apply Reqb_true.
Qed.
Lemma copy_open (T : texts R) (v w : pyveh R) : coherent v -> copy_vehicle T v = Ok w ->
  exists m c1 c2, default_fc_map (pv_type v) = Ok m /\ set_derived (bare v m) = Ok c1 /\ set_derived c1 = Ok c2 /\ w = with_core v c2.
Proof.
  intros CO H. destruct (sound_of v CO) as (A & B & C). rewrite (copy_is T v (co_vals v CO) A B C R_guard) in H.
  destruct (default_fc_map (pv_type v)) as [m|] eqn:E; [|discriminate]. cbn [bindR] in H.
  destruct (set_derived (bare v m)) as [c1|] eqn:E1; [|discriminate]. cbn [bindR] in H.
  destruct (set_derived c1) as [c2|] eqn:E2; [|discriminate]. cbn [bindR] in H.
  match type of H with Ok ?x = Ok _ => assert (w = x) by congruence end. subst w. now exists m, c1, c2.
Qed.
Lemma override_of_mass (c : vehicle R) : override_of (set_veh_mass c) = override_of c.
Proof.
  rewrite <- !override_is. unfold set_veh_mass. destruct (use_override c) as [x|] eqn:U; [exact U|]. unfold use_override. cbn. unR. rcase; [lra|reflexivity].
Qed.
Lemma override_of_derived (c c' : vehicle R) : set_derived c = Ok c' -> override_of c' = override_of c.
Proof. intros H. open_dv H OD. rewrite (od_v' _ _ _ _ _ _ _ _ _ _ OD), override_of_mass. reflexivity. Qed.
Lemma copy_settings (T : texts R) (v w : pyveh R) : coherent v -> copy_vehicle T v = Ok w ->
  same_settings v w /\ override_of (pv_core w) = override_of (pv_core v) /\ coherent w.
Proof.
  intros CO H. destruct (copy_open T v w CO H) as (m & c1 & c2 & A & B & C & ->).
  pose proof (override_of_derived _ _ B) as O1. pose proof (override_of_derived _ _ C) as O2.
  assert (OV : override_of (pv_core (with_core v c2)) = override_of (pv_core v)). { cbn [with_core pv_core]. rewrite O2, O1. reflexivity. }
  pose proof (parameters_kept _ _ B) as P1. pose proof (parameters_kept _ _ C) as P2. clear O1 O2 A B C H.
  assert (S : same_settings v (with_core v c2)).
  { unfold same_parameters in P1, P2. cbn in P1. unfold bare in P1. decompose [and] P2. clear P2. decompose [and] P1. clear P1.
    constructor; try reflexivity; cbn [with_core pv_core]; try congruence.
    unfold numbers. repeat (apply Forall_cons; [congruence|]). apply Forall_nil. }
  split; [exact S|]. split; [exact OV|].
  destruct CO as [L1 L2 L3 L4 L5 L6]. unfold same_parameters in P1, P2. cbn in P1. decompose [and] P2. clear P2. decompose [and] P1. clear P1.
  constructor; cbn [with_core pv_core pv_vals pv_scenario pv_type pv_wheels]; try congruence.
  - etransitivity; eassumption.
Qed.

(** ** The maps of a copy *)
Lemma per_mille_is l : per_mille l = percents (F := R) l.
Proof. unfold per_mille, percents. apply map_ext. intros z. now rewrite lit_R. Qed.
Lemma engine_default_is t m : default_fc_map (F := R) t = Ok m <-> In (t, m) engine_types.
Proof.
  unfold default_fc_map, fc_of, engine_types. rewrite !per_mille_is. split.
  - intros H. repeat match type of H with context [String.eqb t ?k] => destruct (String.eqb_spec t k) end; try discriminate;
    match type of H with Ok ?x = Ok _ => assert (m = x) by congruence end; subst; cbn [In]; tauto.
  - cbn [In]. intros H. repeat (destruct H as [H|H]; [injection H as <- <-; reflexivity|]). destruct H.
Qed.
Lemma engine_unknown t : ~ In t (map fst engine_types) -> default_fc_map (F := R) t = Err AssertionError.
Proof.
  intros H. destruct (default_fc_map t) as [m|e] eqn:E.
  - apply engine_default_is in E. destruct H. apply (in_map fst _ _ E).
  - revert E. unfold default_fc_map. destruct (fc_of t); congruence.
Qed.
Lemma engine_grid_is : engine_grid_default = fc_pwr_out_perc_default. Proof. apply per_mille_is. Qed.
Lemma motor_grid_is : motor_grid_default = mc_pwr_out_perc_default. Proof. apply per_mille_is. Qed.
Lemma motor_default_is (c : vehicle R) m : motor_map_default c m <-> m = default_mc_eff_map c.
Proof.
  assert (Q : motor_map_default c (default_mc_eff_map c)).
  { pose proof (used_map_of (with_mc_eff c None [] [])) as U. unfold motor_map_of, used_map in U. cbn [with_mc_eff mc_eff_map] in U. exact U. }
  split; [|intros ->; exact Q]. intros (L & P). destruct Q as (L' & P'). apply (nth_ext _ _ 0 0); [congruence|].
  intros k K. rewrite L in K. now rewrite P, P'.
Qed.
(** Without overrides set_derived keeps the maps (and settles the motor map). *)
Lemma derived_maps (c c' : vehicle R) : set_derived c = Ok c' ->
  fc_pwr_out_perc c' = fc_pwr_out_perc c /\ mc_pwr_out_perc c' = mc_pwr_out_perc c /\ mc_max_kw c' = mc_max_kw c /\
  (fc_peak_eff_override c = None -> fc_eff_map c' = fc_eff_map c) /\ (mc_peak_eff_override c = None -> mc_eff_map c' = Some (used_map c)).
Proof.
  intros H. open_dv H OD. assert (V : c' = set_veh_mass (before_mass c fce mcf mx arr map_ mce' mcf')) by apply (od_v' _ _ _ _ _ _ _ _ _ _ OD).
  repeat split.
  - rewrite V. unmass. - rewrite V. unmass. - rewrite V. unmass.
  - intros Q. destruct (od_fc_none _ _ _ _ _ _ _ _ _ _ OD Q) as (_ & <-). rewrite V. unmass.
  - intros Q. destruct (od_mc_none _ _ _ _ _ _ _ _ _ _ OD Q) as (<- & _). rewrite V. unmass.
Qed.
Lemma copy_maps (T : texts R) (v w : pyveh R) : coherent v -> copy_vehicle T v = Ok w ->
  fc_pwr_out_perc (pv_core w) = engine_grid_default /\ mc_pwr_out_perc (pv_core w) = motor_grid_default /\
  (fc_peak_eff_override (pv_core v) = None -> mc_peak_eff_override (pv_core v) = None -> default_maps w).
Proof.
  intros CO H. destruct (copy_open T v w CO H) as (m & c1 & c2 & A & B & C & ->).
  destruct (derived_maps _ _ B) as (A1 & A2 & A3 & A4 & A5). destruct (derived_maps _ _ C) as (B1 & B2 & B3 & B4 & B5).
  assert (G1 : fc_pwr_out_perc c2 = engine_grid_default) by (rewrite B1, A1, engine_grid_is; reflexivity).
  assert (G2 : mc_pwr_out_perc c2 = motor_grid_default) by (rewrite B2, A2, motor_grid_is; reflexivity).
  cbn [with_core pv_core]. split; [exact G1|]. split; [exact G2|]. intros FN MN.
  assert (K1 : fc_peak_eff_override c1 = None) by (transitivity (fc_peak_eff_override (bare v m)); [apply (parameters_kept _ _ B)|exact FN]).
  assert (K2 : mc_peak_eff_override c1 = None) by (transitivity (mc_peak_eff_override (bare v m)); [apply (parameters_kept _ _ B)|exact MN]).
  unfold default_maps. cbn [with_core pv_core pv_type]. split; [exact G1|]. split.
  { rewrite B4, A4 by assumption. now apply engine_default_is. }
  split; [exact G2|]. exists (used_map c1). split; [now apply B5|]. apply motor_default_is. unfold used_map. rewrite A5 by assumption.
  unfold default_mc_eff_map. rewrite B3, A3. reflexivity.
Qed.
(** Copying a derived vehicle. *)
Lemma copy_same (T : texts R) (v : pyveh R) c0 : coherent v -> set_derived c0 = Ok (pv_core v) ->
  fc_peak_eff_override (pv_core v) = None -> mc_peak_eff_override (pv_core v) = None ->
  (copy_vehicle T v = Ok v <-> default_maps v).
Proof.
  intros CO D FN MN. split; [intros H; now apply (copy_maps T v v)|]. intros (A & B & C & m & M & K).
  apply motor_default_is in K. subst m. rewrite engine_grid_is in A. rewrite motor_grid_is in C. apply engine_default_is in B.
  assert (P : fc_peak_eff_override c0 = None /\ mc_peak_eff_override c0 = None).
  { split; [rewrite <- FN|rewrite <- MN]; symmetry; apply (parameters_kept _ _ D). }
  assert (D2 : set_derived (pv_core v) = Ok (pv_core v)).
  { apply (derive_twice c0); try apply P; [unR; rcase; [lra|reflexivity]|exact D]. }
  destruct (sound_of v CO) as (S1 & S2 & S3). rewrite (copy_is T v (co_vals v CO) S1 S2 S3 R_guard), B. cbn [bindR].
  rewrite (derive_bare v _ CO D2 A C M). cbn [bindR]. rewrite D2. cbn [bindR]. destruct v. reflexivity.
Qed.
Lemma copy_unknown (T : texts R) (v : pyveh R) : coherent v -> ~ In (pv_type v) (map fst engine_types) -> copy_vehicle T v = Err AssertionError.
Proof.
  intros CO H. destruct (sound_of v CO) as (S1 & S2 & S3). rewrite (copy_is T v (co_vals v CO) S1 S2 S3 R_guard). now rewrite engine_unknown.
Qed.
