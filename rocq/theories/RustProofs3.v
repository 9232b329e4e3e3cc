(** Whole walks of the Rust implementation against those of the Python one. *)
From Verif Require Import Num Numpy ListFacts CycleModel CycleSpec VehModel SimModel SimState WalkModel SimSpec RustModel RustWalkModel RustSpec
  FrameProofs WalkProofs StepProofs PlainProofs SimProofs3 RustProofs RustProofs2.
From Coq Require Import FunctionalExtensionality.
Local Open Scope R_scope.

(** ** Fuel is not read by anything else *)
Definition upd_fs (x : R) (l : lims_row R) : lims_row R :=
  mklims x (fc_trans_lim_kw l) (cur_max_fc_kw_out l) (ess_cap_lim_dischg_kw l) (cur_ess_max_kw_out l) (ess_cap_lim_chg_kw l)
   (cur_max_ess_chg_kw l) (cur_max_elec_kw l) (cur_max_avail_elec_kw l) (mc_elec_in_lim_kw l) (mc_transi_lim_kw l)
   (cur_max_mc_kw_out l) (cur_max_mc_elec_kw_in l) (ess_lim_mc_regen_perc_kw l) (cur_max_mech_mc_kw_in l)
   (cur_max_trac_kw l) (cur_max_trans_kw_out l).
Lemma upd_fs_but x l : limits_but_fuel (upd_fs x l) = limits_but_fuel l.
Proof. reflexivity. Qed.
Lemma sbf_refl r : same_but_fuel r r.
Proof. constructor; reflexivity. Qed.
Lemma sbf_trans a b c : same_but_fuel a b -> same_but_fuel b c -> same_but_fuel a c.
Proof. intros [] []. constructor; congruence. Qed.
Lemma sbf_fuel r x dt : same_but_fuel r (with_fuel r x dt).
Proof. constructor; reflexivity. Qed.

Section Cong.
  Variables (v : vehicle R) (pr : physprops R) (sp : simparams R) (e : step_env R).
  Lemma lims_cong p p' m c : same_but_fuel p p' -> exists x, set_comp_lims v pr e p' m c = upd_fs x (set_comp_lims v pr e p m c) /\
    (fc p = fc p' -> x = cur_max_fs_kw_out (set_comp_lims v pr e p m c)).
  Proof.
    intros S. exists (cur_max_fs_kw_out (set_comp_lims v pr e p' m c)). unfold set_comp_lims. cbn [cur_max_fs_kw_out].
    rewrite <- (sf_dec _ _ S), <- (sf_out _ _ S). split; [reflexivity|]. intros ->. reflexivity.
  Qed.
  Lemma grade_loop_fs x l v1 : forall fuel g, grade_loop v pr sp e v1 (upd_fs x l) g fuel = grade_loop v pr sp e v1 l g fuel.
  Proof.
    induction fuel as [|k IH]; intros g; cbn [grade_loop]; change (speed_cubic v pr e v1 (upd_fs x l) g) with (speed_cubic v pr e v1 l g).
    - reflexivity.
    - destruct (newton_mps_estimate _ _ _) as [y n]. rewrite IH. reflexivity.
  Qed.
  Lemma row_cong p p' cur cur' : same_but_fuel p p' -> same_but_fuel cur cur' ->
    same_but_fuel (solve_row v pr sp e p cur) (solve_row v pr sp e p' cur') /\
    fc (solve_row v pr sp e p cur) = fc (solve_row v pr sp e p' cur') /\
    (fc p = fc p' -> lims (solve_row v pr sp e p cur) = lims (solve_row v pr sp e p' cur')).
  Proof.
    intros P C. unfold solve_row. cbv zeta.
    rewrite <- (sf_misc _ _ C), <- (sf_ctl _ _ C), <- (sf_spd _ _ C), <- (sf_hyb _ _ C), <- (sf_out _ _ C).
    assert (EM : forall a, set_misc_calcs v e p' a = set_misc_calcs v e p a).
    { intros a. unfold set_misc_calcs. rewrite <- (sf_dec _ _ P), <- (sf_misc _ _ P), <- (sf_spd _ _ P). reflexivity. }
    rewrite EM. set (m := set_misc_calcs v e p _). destruct (lims_cong p p' m (ctl cur) P) as (x & -> & X).
    set (l := set_comp_lims v pr e p m (ctl cur)) in *. clearbody l m.
    assert (EP : forall y, set_power_calcs v pr e p' (upd_fs x l) y = set_power_calcs v pr e p l y).
    { intros y. unfold set_power_calcs. rewrite <- (sf_spd _ _ P). reflexivity. }
    assert (EA : forall q old, set_ach_speed v pr sp e p' (upd_fs x l) q old = set_ach_speed v pr sp e p l q old).
    { intros q old. unfold set_ach_speed. rewrite <- (sf_spd _ _ P). destruct (cyc_met q); [reflexivity|].
      rewrite grade_loop_fs.
      destruct (grade_loop _ _ _ _ _ _ _) as [y n]. rewrite EP. reflexivity. }
    rewrite EP, EA. destruct (set_ach_speed _ _ _ _ _ _ _ _) as [q s].
    assert (EH : forall c old, set_hybrid_cont_calcs v e p' m (upd_fs x l) q c old = set_hybrid_cont_calcs v e p m l q c old).
    { intros c old. unfold set_hybrid_cont_calcs, calc_regen_buff, calc_accel_buff, calc_accel_regen_dischg, calc_can_pwr_all_elec.
      rewrite <- (sf_dec _ _ P). reflexivity. }
    rewrite EH. set (h := set_hybrid_cont_calcs _ _ _ _ _ _ _ _). clearbody h. set (f := set_fc_forced_state _ _ _ _). clearbody f.
    assert (ED : forall c o, set_hybrid_cont_decisions v e p' m (upd_fs x l) q h f c o = set_hybrid_cont_decisions v e p m l q h f c o).
    { intros c o. unfold set_hybrid_cont_decisions, calc_ess_cur_kwh. rewrite <- (sf_dec _ _ P). reflexivity. }
    rewrite ED. set (d := set_hybrid_cont_decisions _ _ _ _ _ _ _ _ _ _). clearbody d. clear EP EA EH ED EM.
    change (set_fc_power v e m (upd_fs x l) q d) with (set_fc_power v e m l q d). cbn [fc lims].
    split; [constructor; reflexivity|]. split; [reflexivity|]. intros E. rewrite (X E). destruct l; reflexivity.
  Qed.
End Cong.

(** ** One step of a walk *)
Lemma solve_row_accel_is (v : vehicle R) pr sp e p cur : newton_iters (spd cur) = 0%nat ->
  let r := solve_row v pr sp e p cur in
  accel_kw (pwr r) = ndiv (nmul (ndiv (veh_kg v) (nmul n2 (e_dt e))) (nsub (nsq (mps_ach (spd r))) (nsq (mps_ach (spd p))))) (nofZ 1000).
Proof.
  intros Z. unfold solve_row, set_ach_speed, start_speed_of. rewrite Z. cbn [Nat.ltb Nat.leb]. destruct (cyc_met _); [reflexivity|].
  destruct (grade_loop _ _ _ _ _ _ _) as [x n]. reflexivity.
Qed.
Lemma aux_of_solve (v : vehicle R) pr sp e p cur : 0 <= default_aux v -> 0 <= aux_in_kw (misc cur) ->
  0 <= aux_in_kw (misc (solve_row v pr sp e p cur)).
Proof.
  intros D A. unfold solve_row. destruct (set_ach_speed _ _ _ _ _ _ _ _) as [q s]. cbn [misc]. unfold set_misc_calcs. cbn [aux_in_kw].
  destruct (e_aux_zero e); [exact D|exact A].
Qed.
Lemma fc_of_solve (v : vehicle R) pr sp e p cur : comparable v -> 0 < e_dt e -> 0 <= fc_kw_out_ach (fc p) ->
  0 <= fc_kw_out_ach (fc (solve_row v pr sp e p cur)) <= fc_max_kw v.
Proof.
  intros V D P. unfold solve_row. destruct (set_ach_speed _ _ _ _ _ _ _ _) as [q s]. cbn [fc]. unfold set_fc_power. cbn [fc_kw_out_ach].
  apply fc_out_range. apply fc_lim_range; assumption.
Qed.
Lemma chg_of_solve (v : vehicle R) pr sp e p cur : 0 <= ess_max_kw v -> 0 <= cur_max_ess_chg_kw (lims (solve_row v pr sp e p cur)).
Proof. intros H. unfold solve_row. destruct (set_ach_speed _ _ _ _ _ _ _ _) as [q s]. cbn [lims]. now apply chg_pos. Qed.
Lemma ctl_of_solve (v : vehicle R) pr sp e p cur : ctl (solve_row v pr sp e p cur) = ctl cur.
Proof. unfold solve_row. destruct (set_ach_speed _ _ _ _ _ _ _ _) as [q s]. reflexivity. Qed.

(** At rated power the Python implementation uses the last efficiency. *)
Lemma fc_rated (v : vehicle R) e m l q d : engine_tables_ok v -> 0 < fc_max_kw v ->
  fc_kw_out_ach (set_fc_power v e m l q d) = fc_max_kw v ->
  fuel_at (set_fc_power v e m l q d) (e_dt e) (last (fc_eff_array v) 0).
Proof.
  intros E MP. unfold fuel_at, set_fc_power. cbn [fc_kw_out_ach fc_kw_in_ach fs_kw_out_ach fs_kwh_out_ach].
  set (out := calc_fc_out v m l q d). intros EQ. change (@k3600 R RNum) with 3600. unfold fc_eff_at. rewrite nmin_R. unR.
  replace (Rmin out (fc_max_kw v)) with out by (rewrite Rmin_left; lra).
  assert (B : getZ (fc_eff_array v) (below (fc_kw_out_array v) out) = last (fc_eff_array v) 0).
  { destruct (et_top v E) as [T1 T2]. unfold below, argmax_b.
    destruct (first_above (fc_kw_out_array v) out) as [(k & a & _ & A1 & A2 & _)|(-> & _)].
    { exfalso. pose proof (T2 a (nth_error_In _ _ A1)). lra. }
    pose proof (et_two v E) as L2. assert (NE : fc_eff_array v <> []) by (intros Q; rewrite Q in L2; cbn in L2; lia).
    pose proof (getZ_last _ NE) as G. destruct (fc_eff_array v) as [|a0 l0]; [congruence|]. rewrite last_nth. symmetry. apply nth_error_nth. exact G. }
  rewrite B. destruct (Reqb_spec out 0); [lra|].
  destruct (Req_EM_T (last (fc_eff_array v) 0) 0) as [Z|Z]; destruct (Reqb_spec (last (fc_eff_array v) 0) 0); try contradiction; cbn [negb];
    repeat split; field; exact Z.
Qed.

Lemma rated_row (v : vehicle R) pr sp e p cur : engine_tables_ok v -> 0 < fc_max_kw v ->
  let r := solve_row v pr sp e p cur in
  fc_kw_out_ach (fc r) = fc_max_kw v -> fuel_at (fc r) (e_dt e) (last (fc_eff_array v) 0).
Proof.
  intros E M. unfold solve_row. destruct (set_ach_speed _ _ _ _ _ _ _ _) as [q s]. cbn [fc]. now apply fc_rated.
Qed.

(** States of the two walks, after the same number of steps. *)
Record twins (dp dr : sdrive R) : Prop := {
  k_veh : d_veh dr = d_veh dp; k_props : d_props dr = d_props dp; k_sp : d_sp dr = d_sp dp;
  k_cyc : d_cyc dr = d_cyc dp; k_cyc0 : d_cyc0 dr = d_cyc0 dp; k_i : d_i dr = d_i dp;
  k_len : length (d_rows dr) = length (d_rows dp); k_cache : d_cache dr = d_cache dp; k_count : d_hev_sim_count dr = d_hev_sim_count dp;
  k_rows : forall j, same_but_fuel (row_at dp j) (row_at dr j);
  k_first : row_at dp 0 = row_at dr 0;
  k_above : forall j, (d_i dp <= j)%nat -> row_at dp j = row_at dr j;
  k_fc : forall j, fc_kw_out_ach (fc (row_at dp j)) < fc_max_kw (d_veh dp) \/ fc_max_kw (d_veh dp) = 0 -> fc (row_at dp j) = fc (row_at dr j);
  k_lims : forall j, (1 <= j)%nat -> fc (row_at dp (j - 1)) = fc (row_at dr (j - 1)) -> lims (row_at dp j) = lims (row_at dr j);
  k_rated : forall j, 0 < fc_max_kw (d_veh dp) -> fc_kw_out_ach (fc (row_at dp j)) = fc_max_kw (d_veh dp) ->
     fuel_at (fc (row_at dp j)) (cdt (d_cyc dp) j) (last (fc_eff_array (d_veh dp)) 0) /\
     fuel_at (fc (row_at dr j)) (cdt (d_cyc dp) j) (nth (length (fc_eff_array (d_veh dp)) - 2) (fc_eff_array (d_veh dp)) 0) }.
(** What is known of the Python walk at each step. *)
Record live (d : sdrive R) : Prop := {
  v_cmp : comparable (d_veh d); v_road : replans (d_sp d) = false \/ r_grade_all_zero (d_cyc0 d) = true;
  v_cache : d_cache d = build_cache (d_cyc0 d); v_pos : (1 <= d_i d)%nat;
  v_len : length (d_rows d) = length (time_s (d_cyc d));
  v_dt : forall i, (1 <= i < length (time_s (d_cyc d)))%nat -> 0 < cdt (d_cyc d) i;
  v_aux : no_motor (d_veh d) -> 0 <= default_aux (d_veh d) /\ forall j, (d_i d <= j)%nat -> 0 <= aux_in_kw (misc (row_at d j));
  v_new : forall j, (d_i d <= j)%nat -> newton_iters (spd (row_at d j)) = 0%nat /\ cur_max_roadway_chg_kw (ctl (row_at d j)) = 0;
  v_fc : forall j, 0 <= fc_kw_out_ach (fc (row_at d j)) <= fc_max_kw (d_veh d);
  v_acc : forall j, (1 <= j < d_i d)%nat -> accel_kw (pwr (row_at d j)) =
    ndiv (nmul (ndiv (veh_kg (d_veh d)) (nmul n2 (cdt (d_cyc d) j))) (nsub (nsq (mps_ach_at d j)) (nsq (mps_ach_at d (j - 1))))) (nofZ 1000) }.

Lemma road_at d i : live d -> (forall v, lookup_grade d i v = r_plain_grade d i) /\ estimate_grade d i = r_plain_grade d i.
Proof.
  intros L. unfold lookup_grade, estimate_grade, r_plain_grade. rewrite (v_cache _ L).
  change (grade_all_zero (build_cache (d_cyc0 d))) with (r_grade_all_zero (d_cyc0 d)).
  destruct (v_road _ L) as [H|H]; [|rewrite H; auto]. unfold replans in H. apply Bool.orb_false_iff in H as [-> ->]. cbn [andb negb]. auto.
Qed.
Lemma env_twin dp dr : live dp -> twins dp dr -> r_env_at dr (d_i dp) = env_at dp (d_i dp).
Proof.
  intros L T. unfold r_env_at, env_at, r_plain_grade. rewrite (k_cyc _ _ T), (k_cyc0 _ _ T).
  pose proof (v_pos _ L) as P1. f_equal.
  - unfold cdt. destruct (Nat.ltb_spec (d_i dp) 1); [lia|reflexivity].
  - apply functional_extensionality. intros x. symmetry. apply (road_at _ _ L).
  - symmetry. apply (road_at _ _ L).
  - unfold all_zero.
    rewrite (map_skipn_seq _ _ zero_row).
    replace (skipn (d_i dp) (d_rows dr)) with (map (fun j => nth j (d_rows dr) zero_row) (seq (d_i dp) (length (d_rows dr) - d_i dp)))
      by (rewrite <- (map_skipn_seq (fun x => x)); apply map_id).
    rewrite (k_len _ _ T).
    replace (map (fun j => aux_in_kw (misc (nth j (d_rows dp) zero_row))) (seq (d_i dp) (length (d_rows dp) - d_i dp)))
      with (map (fun x => x) (map (fun j => aux_in_kw (misc (nth j (d_rows dp) zero_row))) (seq (d_i dp) (length (d_rows dp) - d_i dp)))) by apply map_id.
    rewrite map_map. set (l := seq _ _). clearbody l. induction l as [|j l IH]; [reflexivity|]. cbn [map forallb]. rewrite IH.
    change (nth j (d_rows dr) zero_row) with (row_at dr j). change (nth j (d_rows dp) zero_row) with (row_at dp j).
    now rewrite (sf_misc _ _ (k_rows _ _ T j)).
Qed.

Lemma step_twin dp dr : live dp -> twins dp dr -> (d_i dp < length (d_rows dp))%nat ->
  let dp' := with_i (solve_step dp (d_i dp)) (S (d_i dp)) in
  exists dr', r_plain_step dr = Ok dr' /\ live dp' /\ twins dp' dr'.
Proof.
  intros L T HI dp'. set (i := d_i dp) in *. pose proof (v_pos _ L) as P1. fold i in P1.
  set (e := env_at dp i). set (p := row_at dp (i - 1)). set (cur := row_at dp i).
  set (p' := row_at dr (i - 1)). set (cur' := row_at dr i).
  set (rp := solve_row (d_veh dp) (d_props dp) (d_sp dp) e p cur). set (rr := solve_row (d_veh dp) (d_props dp) (d_sp dp) e p' cur').
  assert (D : 0 < e_dt e). { cbn. apply (v_dt _ L). rewrite <- (v_len _ L). fold i. lia. }
  destruct (row_cong (d_veh dp) (d_props dp) (d_sp dp) e p p' cur cur' (k_rows _ _ T _) (k_rows _ _ T _)) as (C1 & C2 & C3). fold rp rr in C1, C2, C3.
  destruct (v_new _ L i (Nat.le_refl _)) as [N0 R0]. fold cur in N0, R0.
  pose proof (v_cmp _ L) as V.
  assert (FP : 0 <= fc_kw_out_ach (fc p')) by (unfold p'; rewrite <- (sf_out _ _ (k_rows _ _ T _)); apply (v_fc _ L)).
  assert (AX : no_motor (d_veh dp) -> 0 <= aux_in_kw (misc rp)).
  { intros M. destruct (v_aux _ L M) as [A1 A2]. apply aux_of_solve; [exact A1|]. apply A2. fold i. lia. }
  assert (GE : forall x, Rabs (e_grade_est e - e_grade e x) <= 1/1000000).
  { intros x. cbn. destruct (road_at dp i L) as [-> ->]. rewrite Rminus_diag_eq, Rabs_R0 by reflexivity. lra. }
  assert (AX' : no_motor (d_veh dp) -> 0 <= aux_in_kw (misc rr)) by (rewrite <- (sf_misc _ _ C1); exact AX).
  assert (RD : cur_max_roadway_chg_kw (ctl cur') <= cur_max_ess_chg_kw (lims rr)).
  { unfold cur'. rewrite <- (sf_ctl _ _ (k_rows _ _ T _)). fold cur. rewrite R0. apply chg_of_solve. apply (cp_ess _ V). }
  destruct (row_same (d_veh dp) (d_props dp) (d_sp dp) e p' cur' V D FP GE AX' RD) as (x & RS & X1 & X2). fold rr in RS, X1, X2.
  set (rw := with_fuel rr x (e_dt e)) in *.
  set (dr' := with_i (with_rows dr (set_nth (d_rows dr) i rw)) (S i)). exists dr'. split.
  { unfold r_plain_step. rewrite (k_i _ _ T). fold i. rewrite (env_twin _ _ L T : r_env_at dr i = e), (k_veh _ _ T), (k_props _ _ T), (k_sp _ _ T).
    fold p' cur'. rewrite RS. reflexivity. }
  assert (RA : forall j, row_at dp' j = if Nat.eqb j i then rp else row_at dp j).
  { intros j. unfold dp', row_at at 1. cbn [d_rows with_i solve_step upd_row with_rows]. now apply row_at_set. }
  assert (RB : forall j, row_at dr' j = if Nat.eqb j i then rw else row_at dr j).
  { intros j. unfold dr', row_at at 1. cbn [d_rows with_i with_rows]. apply row_at_set. rewrite (k_len _ _ T). exact HI. }
  assert (SF : same_but_fuel rp rw) by (eapply sbf_trans; [exact C1|apply sbf_fuel]).
  split.
  - constructor; try (cbn; apply L).
    + cbn. lia.
    + cbn. rewrite set_nth_length. apply L.
    + intros M. split; [apply (v_aux _ L M)|]. cbn [d_i with_i dp']. intros j Hj. rewrite RA. destruct (Nat.eqb_spec j i); [lia|]. apply (v_aux _ L M). fold i. lia.
    + cbn [d_i with_i dp']. intros j Hj. rewrite RA. destruct (Nat.eqb_spec j i); [lia|]. apply (v_new _ L). fold i. lia.
    + intros j. rewrite RA. destruct (Nat.eqb_spec j i); [|apply L]. apply fc_of_solve; [exact V|exact D|apply L].
    + cbn [d_i with_i dp']. intros j Hj. unfold mps_ach_at. rewrite !RA. change (d_veh dp') with (d_veh dp). change (d_cyc dp') with (d_cyc dp).
      destruct (Nat.eqb_spec (j - 1) i); [lia|]. destruct (Nat.eqb_spec j i) as [->|Q].
      * exact (solve_row_accel_is (d_veh dp) (d_props dp) (d_sp dp) e p cur N0).
      * apply (v_acc _ L). fold i. lia.
  - constructor; try (cbn; apply T).
    + reflexivity.
    + cbn. rewrite !set_nth_length. apply T.
    + intros j. rewrite RA, RB. destruct (Nat.eqb_spec j i); [exact SF|apply T].
    + rewrite RA, RB. destruct (Nat.eqb_spec 0 i); [lia|apply T].
    + cbn [d_i with_i dp']. intros j Hj. rewrite RA, RB. destruct (Nat.eqb_spec j i); [lia|]. apply T. fold i. lia.
    + intros j. rewrite RA, RB. change (d_veh dp') with (d_veh dp). destruct (Nat.eqb_spec j i); [|apply T]. rewrite C2. intros O. rewrite (X1 O). reflexivity.
    + intros j Hj. rewrite !RA, !RB. destruct (Nat.eqb_spec j i) as [->|Q].
      * destruct (Nat.eqb_spec (i - 1) i); [lia|]. intros O. exact (C3 O).
      * destruct (Nat.eqb_spec (j - 1) i) as [Q2|Q2]; [|apply (k_lims _ _ T); exact Hj].
        intros _. rewrite (k_above _ _ T j); [reflexivity|]. fold i. lia.
    + intros j. rewrite RA, RB. change (d_veh dp') with (d_veh dp). change (d_cyc dp') with (d_cyc dp). destruct (Nat.eqb_spec j i) as [->|Q]; [|apply T].
      intros M O. split; [exact (rated_row (d_veh dp) (d_props dp) (d_sp dp) e p cur (cp_engine _ V) M O)|].
      assert (O' : fc_kw_out_ach (fc rr) = fc_max_kw (d_veh dp)) by (rewrite <- (sf_out _ _ C1); exact O).
      specialize (X2 O' M). cbv zeta in X2. unfold fuel_at. cbn [rw with_fuel fc fc_kw_out_ach fc_kw_in_ach fs_kw_out_ach fs_kwh_out_ach].
      set (eff := nth _ _ 0) in *. 
      assert (XE : x = if Req_EM_T eff 0 then 0 else fc_kw_out_ach (fc rr) / eff).
      { rewrite X2. destruct (Reqb_spec eff 0), (Req_EM_T eff 0); try contradiction; reflexivity. }
      rewrite <- XE. repeat split.
Qed.

Lemma loop_twin : forall fuel dp dr, changes_cycle (d_sp dp) = false -> live dp -> twins dp dr ->
  match walk_loop fuel dp with
  | Ok dp' => exists dr', r_walk_loop fuel dr = Ok dr' /\ live dp' /\ twins dp' dr' /\ (length (d_rows dp') <= d_i dp')%nat
  | Err x => r_walk_loop fuel dr = Err x
  end.
Proof.
  induction fuel as [|f IH]; intros dp dr HS L T; cbn [walk_loop r_walk_loop]; rewrite (k_i _ _ T), (k_cyc _ _ T);
    (destruct (Nat.ltb_spec (d_i dp) (length (time_s (d_cyc dp)))) as [Q|Q];
     [|exists dr; rewrite (v_len _ L); exact (conj eq_refl (conj L (conj T Q)))]).
  - reflexivity.
  - rewrite (PlainProofs.plain_step dp HS). cbn [bindR]. rewrite <- (v_len _ L) in Q.
    destruct (step_twin dp dr L T Q) as (dr' & -> & L' & T'). cbn [bindR]. now apply IH.
Qed.

(** ** Whole walks *)
Lemma accel_same (a : R) r : accel_kw (pwr r) = a -> row_accel a r = r.
Proof. intros <-. destruct r as [m l p s h f d c k]. destruct p. reflexivity. Qed.
Lemma post_accel_same d : live d -> (length (d_rows d) <= d_i d)%nat -> post_accel d = d.
Proof.
  intros L H. unfold post_accel.
  assert (E : d_rows (post_accel d) = d_rows d).
  { apply nth_ext with (d := zero_row) (d' := zero_row); [apply post_accel_len|]. intros n Hn. rewrite post_accel_len in Hn.
    destruct n as [|n]; [apply (post_accel_0 d)|]. change (row_at (post_accel d) (S n) = row_at d (S n)).
    rewrite post_accel_row by lia. apply accel_same. apply (v_acc _ L). lia. }
  unfold post_accel in E. cbn [d_rows with_rows] in E. rewrite E. destruct d; reflexivity.
Qed.
Lemma inc_dt (c : cyc R) i : increasing (time_s c) -> (1 <= i < length (time_s c))%nat -> 0 < cdt c i.
Proof.
  intros I H. unfold cdt, ctime. destruct (Nat.ltb_spec i 1); [lia|]. unR.
  pose proof (I (i - 1)%nat i _ _ ltac:(lia) (nth_error_nth' (time_s c) 0 (n := (i - 1)%nat) ltac:(lia)) (nth_error_nth' (time_s c) 0 (n := i) ltac:(lia))). lra.
Qed.
Lemma init_twin d s ovr : wf_sd d -> fits ovr d ->
  match init_for_step d s ovr with
  | Ok d1 => r_init_for_step d s ovr = Ok d1
  | Err x => exists y, r_init_for_step d s ovr = Err y
  end.
Proof.
  intros (_ & _ & W) FT. unfold init_for_step, r_init_for_step.
  assert (Q : (pt_eqb (veh_pt_type (d_veh d)) CONV || ((min_soc (d_veh d) <=? s)%num && (s <=? max_soc (d_veh d))%num))%bool =
              negb (negb (pt_eqb (veh_pt_type (d_veh d)) CONV) && ((s >? max_soc (d_veh d))%num || (s <? min_soc (d_veh d))%num))%bool).
  { destruct (pt_eqb _ _); [reflexivity|]. cbn [orb negb andb]. unR.
    destruct (Rleb_spec (min_soc (d_veh d)) s), (Rleb_spec s (max_soc (d_veh d))), (Rltb_spec (max_soc (d_veh d)) s), (Rltb_spec s (min_soc (d_veh d)));
      cbn; try reflexivity; exfalso; lra. }
  rewrite Q. match goal with |- context [if ?b then Err ValueError else _] => destruct b end; cbn [negb]; [eexists; reflexivity|].
  assert (RI : r_init_arrays d = init_arrays d) by (unfold r_init_arrays, init_arrays; now rewrite W). rewrite RI.
  assert (RO : r_override (d_rows (init_arrays d)) ovr = Some (override_aux (d_rows (init_arrays d)) ovr)).
  { unfold r_override, override_aux. destruct ovr as [l|]; [|reflexivity].
    cbn [init_arrays d_rows]. rewrite repeat_length, (FT l eq_refl). unfold clen. now rewrite Nat.eqb_refl. }
  rewrite RO. destruct (override_aux _ _); [eexists; reflexivity|reflexivity].
Qed.
Lemma plain_replans {F} (s : simparams F) : changes_cycle s = false -> replans s = false.
Proof. unfold replans. intros H. destruct (plain_flags _ H) as (_ & -> & ->). reflexivity. Qed.
Lemma start_live d s ovr d1 : wf_sd d -> replans (d_sp d) = false \/ r_grade_all_zero (d_cyc0 d) = true -> comparable (d_veh d) ->
  increasing (time_s (if changes_cycle (d_sp d) then d_cyc0 d else d_cyc d)) -> loads_ok ovr (d_veh d) -> init_for_step d s ovr = Ok d1 -> live d1 /\ twins d1 d1.
Proof.
  intros W H V I A E.
  destruct (init_rows _ _ _ _ E) as (i1 & i2 & i3 & i4 & i5 & i6 & i7 & i8 & i9 & i10 & i11 & i12 & i13).
  assert (AB : forall j, (1 <= j)%nat -> exists a, row_at d1 j = row_aux a zero_row /\ (a = aux_start ovr (clen (d_cyc d)) j \/ a = 0)).
  { intros j Hj. destruct (Nat.lt_ge_cases j (length (d_rows d1))) as [Q|Q].
    - exists (aux_start ovr (clen (d_cyc d)) j). split; [apply i13; lia|now left].
    - exists 0. split; [unfold row_at; rewrite nth_overflow by lia; reflexivity|now right]. }
  assert (FC : forall j, fc_kw_out_ach (fc (row_at d1 j)) = 0).
  { intros [|j]; [rewrite i12; reflexivity|]. destruct (AB (S j)) as (a & -> & _); [lia|reflexivity]. }
  split.
  - constructor; rewrite ?i1, ?i3, ?i4, ?i7, ?i8; auto.
    + rewrite i9. destruct W as (_ & _ & W3). destruct (changes_cycle _); [exact W3|reflexivity].
    + intros i Hi. now apply inc_dt.
    + intros M. destruct (A M) as (A0 & A1 & A2). split.
      { unfold default_aux. destruct (no_elec_aux _); [|exact A0]. unR. apply Rmult_le_pos; [exact A0|]. now apply Rlt_le, Rinv_0_lt_compat. } intros j Hj. destruct (AB j Hj) as (a & -> & [->| ->]); cbn; [|lra].
      unfold aux_start, is_override. destruct ovr as [l|]; [|unR; lra]. destruct (Nat.eqb _ _); [|unR; lra].
      destruct (nth_in_or_default j l n0) as [Q|Q]; [now apply (A2 l)|rewrite Q; unR; lra].
    + intros j Hj. destruct (AB j Hj) as (a & -> & _). split; reflexivity.
    + intros j. rewrite FC. split; [lra|]. pose proof (cp_engine _ V) as EE. apply (proj2 (et_top _ EE)). eapply nth_error_In. apply (et_zero _ EE).
    + intros j Hj. lia.
  - constructor; auto.
    + intros j. apply sbf_refl.
    + intros j M O. rewrite FC in O. lra.
Qed.
Lemma walk_twin d s ovr : wf_sd d -> changes_cycle (d_sp d) = false -> comparable (d_veh d) -> increasing (time_s (d_cyc d)) ->
  loads_ok ovr (d_veh d) -> fits ovr d ->
  match sim_drive_walk d s ovr with
  | Ok dp => exists dr, r_walk d s ovr = Ok dr /\ twins dp dr /\ live dp
  | Err _ => exists y, r_walk d s ovr = Err y
  end.
Proof.
  intros W H V I A FT. unfold sim_drive_walk, r_walk. pose proof (init_twin d s ovr W FT) as IT.
  destruct (init_for_step d s ovr) as [d1|x] eqn:E; cbn [bindR].
  - rewrite IT. cbn [bindR]. destruct (start_live d s ovr d1 W (or_introl (plain_replans _ H)) V ltac:(rewrite H; exact I) A E) as [L T].
    destruct (init_rows _ _ _ _ E) as (_ & _ & i3 & _).
    pose proof (loop_twin (length (time_s (d_cyc d1))) d1 d1 ltac:(rewrite i3; exact H) L T) as LT. destruct (walk_loop _ d1) as [d2|x]; cbn [bindR].
    + destruct LT as (dr & R1 & L2 & T2 & HL). rewrite post_accel_same by assumption. exists dr. auto.
    + rewrite LT. now exists x.
  - destruct IT as [y ->]. now exists y.
Qed.
