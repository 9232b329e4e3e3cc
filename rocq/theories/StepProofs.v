(** A solved row, taken apart into the outcomes of the methods that solve_step calls. *)
From Verif Require Import Num Numpy ListFacts CycleModel CycleSpec VehModel SimModel SimState WalkModel
  FrameProofs WalkProofs.

Section Step.
  Context {F : Type} {N : Num F}.

  (** [r] is row [i] and [p] row [i-1] of a run: [q] holds the powers as set_power_calcs left them. *)
  Record parts (v : vehicle F) (pr : physprops F) (sp : simparams F) (e : step_env F) (p cur r : row F)
         (q : pwr_row F) : Prop := {
    pt_misc : misc r = set_misc_calcs v e p (aux_in_kw (misc cur));
    pt_lims : lims r = set_comp_lims v pr e p (misc r) (ctl cur);
    pt_speed : set_ach_speed v pr sp e p (lims r)
                 (set_power_calcs v pr e p (lims r) (start_speed_of e (spd cur))) (spd cur) = (q, spd r);
    pt_pwr : pwr r = mkpwr (drag_kw q) (accel_kw (pwr r)) (ascent_kw q) (cyc_trac_kw_req q) (spare_trac_kw q)
                           (rr_kw q) (cyc_whl_rad_per_sec q) (cyc_tire_inertia_kw q) (cyc_whl_kw_req q)
                           (regen_contrl_lim_kw_perc q) (cyc_regen_brake_kw q) (cyc_fric_brake_kw q)
                           (cyc_trans_kw_out_req q) (cyc_met q) (trans_kw_out_ach q) (trans_kw_in_ach q)
                           (min_mc_kw_2help_fc q);
    pt_hyb : hyb r = set_hybrid_cont_calcs v e p (misc r) (lims r) q (ctl cur) (hyb cur);
    pt_forced : forced r = set_fc_forced_state v e q (hyb r);
    pt_dec : dec r = set_hybrid_cont_decisions v e p (misc r) (lims r) q (hyb r) (forced r) (ctl cur)
                       (fc_kw_out_ach (fc cur));
    pt_fc : fc r = set_fc_power v e (misc r) (lims r) q (dec r);
    pt_ctl : ctl_in r = ctl_in cur }.

  Lemma pwr_but_accel (p q : pwr_row F) : pwr (row_accel n0 (mkrow (misc zero_row) (lims zero_row) p (spd zero_row)
      (hyb zero_row) (forced zero_row) (dec zero_row) (fc zero_row) (ctl zero_row))) =
    pwr (row_accel n0 (mkrow (misc zero_row) (lims zero_row) q (spd zero_row)
      (hyb zero_row) (forced zero_row) (dec zero_row) (fc zero_row) (ctl zero_row))) ->
    p = mkpwr (drag_kw q) (accel_kw p) (ascent_kw q) (cyc_trac_kw_req q) (spare_trac_kw q)
              (rr_kw q) (cyc_whl_rad_per_sec q) (cyc_tire_inertia_kw q) (cyc_whl_kw_req q)
              (regen_contrl_lim_kw_perc q) (cyc_regen_brake_kw q) (cyc_fric_brake_kw q)
              (cyc_trans_kw_out_req q) (cyc_met q) (trans_kw_out_ach q) (trans_kw_in_ach q)
              (min_mc_kw_2help_fc q).
  Proof. destruct p, q. cbn. intros H. injection H. intros. subst. reflexivity. Qed.

  Lemma parts_of v pr sp e p cur r :
    same_but_accel r (solve_row v pr sp e p cur) -> ctl_in r = ctl_in cur ->
    exists q, parts v pr sp e p cur r q.
  Proof.
    unfold same_but_accel, solve_row.
    destruct (set_ach_speed v pr sp e p _ _ _) as [q s] eqn:E.
    unfold core. intros H HC.
    assert (HM := f_equal (fun t => fst (fst (fst (fst (fst (fst (fst t))))))) H).
    assert (HL := f_equal (fun t => snd (fst (fst (fst (fst (fst (fst t))))))) H).
    assert (HP := f_equal (fun t => snd (fst (fst (fst (fst (fst t)))))) H).
    assert (HS := f_equal (fun t => snd (fst (fst (fst (fst t))))) H).
    assert (HH := f_equal (fun t => snd (fst (fst (fst t)))) H).
    assert (HF := f_equal (fun t => snd (fst (fst t))) H).
    assert (HD := f_equal (fun t => snd (fst t)) H).
    assert (HC' := f_equal snd H). clear H.
    cbn [fst snd] in *. unfold row_accel in *. cbn [misc lims pwr spd hyb forced dec fc ctl] in *.
    assert (HP' := pwr_but_accel (pwr r) q HP). clear HP.
    rewrite <- HM in *. rewrite <- HL in *. rewrite <- HS in *. rewrite <- HH in *.
    rewrite <- HF in *. rewrite <- HD in *.
    exists q. constructor; assumption.
  Qed.

  (** The speed at which the recorded powers were evaluated. *)
  Lemma parts_power v pr sp e p cur r q : parts v pr sp e p cur r q ->
    exists x, q = set_power_calcs v pr e p (lims r) x /\
      (newton_iters (spd cur) = 0%nat -> x = mps_ach (spd r)).
  Proof.
    intros P. pose proof (pt_speed _ _ _ _ _ _ _ _ P) as H. unfold set_ach_speed in H.
    destruct (cyc_met _) eqn:M.
    - injection H as <- Hs. exists (start_speed_of e (spd cur)). split; auto.
      intros Z. unfold start_speed_of. rewrite Z. cbn. rewrite <- Hs. reflexivity.
    - destruct (grade_loop v pr sp e _ _ _ _) as [x n] eqn:G. injection H as <- Hs.
      exists x. split; auto. intros _. rewrite <- Hs. reflexivity.
  Qed.

  (** Every step of a completed run. *)
  Record step_of_run (d0 d : sdrive F) (ovr : option (list F)) (i : nat) (e : step_env F) (cur : row F)
         (q : pwr_row F) : Prop := {
    sr_parts : parts (d_veh d0) (d_props d0) (d_sp d0) e (row_at d (i - 1)) cur (row_at d i) q;
    sr_dt : e_dt e = cdt (d_cyc d) i;
    sr_grade : forall x, e_grade e x = lookup_grade d i (Some x);
    sr_est : e_grade_est e = estimate_grade d i;
    sr_mps : replans (d_sp d0) = false -> e_mps e = cmps (d_cyc d) i;
    sr_adopt : replans (d_sp d0) = true -> cmps (d_cyc d) i = mps_ach_at d i;
    sr_fresh : missed_trace_correction (d_sp d0) = false ->
               newton_iters (spd cur) = 0%nat /\ pwr (row_at d i) = q;
    sr_unsolved : missed_trace_correction (d_sp d0) = false -> replans (d_sp d0) = false -> unsolved cur;
    sr_road : cur_max_roadway_chg_kw (ctl cur) = n0 }.

  Lemma run_steps d0 ovr d : wf_sd d0 -> run d0 ovr d ->
    forall i, (1 <= i < length (d_rows d))%nat -> exists e cur q, step_of_run d0 d ovr i e cur q.
  Proof.
    intros W R i Hi. destruct (run_walked _ _ _ W R) as (d1 & s & A & K).
    destruct (wk_rows _ _ _ _ K i Hi) as (e & cur & H1 & H2 & H3 & (H4 & H4') & H5 & H6 & H7).
    rewrite (wk_veh _ _ _ _ K), (wk_props _ _ _ _ K), (wk_sp _ _ _ _ K) in *.
    rewrite (al_veh _ _ A), (al_props _ _ A), (al_sp _ _ A) in *.
    destruct (parts_of _ _ _ _ _ _ _ H1 H2) as (q & P).
    exists e, cur, q. constructor; auto.
    - intros M. destruct (H7 M) as [H8 _]. clear H7. rename H8 into H7. split; auto.
      rewrite (pt_pwr _ _ _ _ _ _ _ _ P).
      rewrite (wk_accel _ _ _ _ K i Hi), (wk_veh _ _ _ _ K), (al_veh _ _ A).
      destruct (parts_power _ _ _ _ _ _ _ _ P) as (x & Hq & Hx). specialize (Hx H7).
      assert (EA : accel_kw q = ndiv (nmul (ndiv (veh_kg (d_veh d0)) (nmul n2 (cdt (d_cyc d) i)))
                 (nsub (nsq (mps_ach_at d i)) (nsq (mps_ach_at d (i - 1))))) (nofZ 1000)).
      { rewrite Hq. unfold set_power_calcs. cbn [accel_kw]. rewrite H3, Hx. reflexivity. }
      rewrite <- EA. destruct q; reflexivity.
    - intros M. destruct (H7 M) as [_ H8]. exact H8.
    - pose proof (wk_road _ _ _ _ K i) as RD. unfold ctl_in in H2. injection H2 as H2 _. unfold road in RD. congruence.
  Qed.
  (** The settings and the first row of a completed run. *)
  Record run_start (d0 d : sdrive F) (s : F) : Prop := {
    rs_veh : d_veh d = d_veh d0; rs_props : d_props d = d_props d0; rs_sp : d_sp d = d_sp d0;
    rs_cyc0 : d_cyc0 d = d_cyc0 d0; rs_cache : d_cache d = build_cache (d_cyc0 d0);
    rs_len : length (d_rows d) = clen (d_cyc d0); rs_pos : (0 < length (d_rows d))%nat;
    rs_wf : wf_sd d;
    rs_times : missed_trace_correction (d_sp d0) = false ->
               time_s (d_cyc d) = time_s (if changes_cycle (d_sp d0) then d_cyc0 d0 else d_cyc d0);
    rs_cycmps : replans (d_sp d0) = false ->
               mps (d_cyc d) = mps (if changes_cycle (d_sp d0) then d_cyc0 d0 else d_cyc d0);
    rs_grade : replans (d_sp d0) = false ->
               grade (d_cyc d) = grade (if changes_cycle (d_sp d0) then d_cyc0 d0 else d_cyc d0);
    rs_soc : soc (dec (row_at d 0)) = s;
    rs_kwh : ess_cur_kwh (dec (row_at d 0)) = nmul s (ess_max_kwh (d_veh d0));
    rs_soc_ok : veh_pt_type (d_veh d0) = CONV \/
                (nltb (max_soc (d_veh d0)) s = false /\ nltb s (min_soc (d_veh d0)) = false);
    rs_mps : mps_ach_at d 0 = cmps (d_cyc0 d0) 0;
    rs_fc : fc_kw_out_ach (fc (row_at d 0)) = n0;
    rs_fs : fs_kw_out_ach (fc (row_at d 0)) = n0;
    rs_mc : mc_mech_kw_out_ach (dec (row_at d 0)) = n0;
    rs_on : fc_time_on (dec (row_at d 0)) = n0;
    rs_tag : high_acc_fc_on_tag (misc (row_at d 0)) = false }.
  Lemma run_starts d0 ovr d : wf_sd d0 -> run d0 ovr d -> exists s, run_start d0 d s.
  Proof.
    intros W R. destruct (run_walked _ _ _ W R) as (d1 & s & A & K). exists s.
    destruct (wk_row0 _ _ _ _ K) as (r1 & r2 & r3 & r4 & r5 & r6 & r7 & r8).
    pose proof (wk_soc_ok _ _ _ _ K) as SO.
    pose proof (wk_times _ _ _ _ K) as KT. pose proof (wk_mps _ _ _ _ K) as KM. pose proof (wk_grade _ _ _ _ K) as KG.
    rewrite (wk_sp _ _ _ _ K) in KT, KM, KG.
    destruct A as [a1 a2 a3 a4 a5 a6 _]. rewrite a1 in *. rewrite a3, a4 in *.
    constructor; auto; try (rewrite ?(wk_veh _ _ _ _ K), ?(wk_props _ _ _ _ K), ?(wk_sp _ _ _ _ K),
      ?(wk_cyc0 _ _ _ _ K), ?(wk_cache _ _ _ _ K), ?(wk_len _ _ _ _ K); congruence); try apply K.
    all: intros M; first [rewrite (KT M)|rewrite (KM M)|rewrite (KG M)];
      destruct (changes_cycle (d_sp d0)) eqn:C; auto; destruct (a6 eq_refl) as (b1 & b2 & b3); auto.
  Qed.
End Step.
