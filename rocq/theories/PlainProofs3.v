(** Which attributes of a vehicle a step reads. *)
From Verif Require Import Num Numpy ListFacts CycleModel CycleSpec VehModel SimModel SimState WalkModel
  FrameProofs WalkProofs SimSpec SimDemo WalkSpec WalkProofs2 PlainProofs PlainProofs2 PlainSpec.
From Coq Require Import Lia FunctionalExtensionality.
Local Open Scope R_scope.

Section Alike.
  Variables (v w : vehicle R) (pr : physprops R) (sp : simparams R).
  Hypothesis A : drives_alike v w.
  Ltac sub := repeat match goal with H : ?f w = _ |- context [?f w] => rewrite H end.
  Ltac opn := destruct A.
  Lemma al_misc e p a : set_misc_calcs w e p a = set_misc_calcs v e p a.
  Proof. opn. unfold set_misc_calcs. sub. reflexivity. Qed.
  Lemma al_last : mc_eff_last w = mc_eff_last v.
  Proof. opn. unfold mc_eff_last. sub. reflexivity. Qed.
  Lemma al_at g t x : mc_eff_at w g t x = mc_eff_at v g t x.
  Proof. opn. unfold mc_eff_at. sub. reflexivity. Qed.
  Lemma al_lims e p m c : set_comp_lims w pr e p m c = set_comp_lims v pr e p m c.
  Proof.
    pose proof al_last as Q. pose proof al_at as Q'. opn.
    unfold set_comp_lims, calc_mc_elec_in_lim, calc_mc_elec_kw_in, calc_mech_mc_in, calc_max_trac_kw. sub.
    rewrite ?Q, ?Q'. reflexivity.
  Qed.
  Lemma al_pwr e p l x : set_power_calcs w pr e p l x = set_power_calcs v pr e p l x.
  Proof. opn. unfold set_power_calcs. sub. reflexivity. Qed.
  Lemma al_cubic e x l g : speed_cubic w pr e x l g = speed_cubic v pr e x l g.
  Proof. opn. unfold speed_cubic. sub. reflexivity. Qed.
  Lemma al_grade e x l fuel : forall g, grade_loop w pr sp e x l g fuel = grade_loop v pr sp e x l g fuel.
  Proof. induction fuel as [|f IH]; intros g; cbn [grade_loop]; rewrite al_cubic; [reflexivity|].
    destruct (newton_mps_estimate _ _ _). destruct (nltb _ _); auto. Qed.
  Lemma al_spd e p l q o : set_ach_speed w pr sp e p l q o = set_ach_speed v pr sp e p l q o.
  Proof.
    unfold set_ach_speed. destruct (cyc_met q); [reflexivity|]. rewrite al_grade. cbv zeta.
    destruct (grade_loop _ _ _ _ _ _ _ _). now rewrite al_pwr.
  Qed.
  Lemma al_max_fc : max_fc_eff_kw w = max_fc_eff_kw v.
  Proof. opn. unfold max_fc_eff_kw. sub. reflexivity. Qed.
  Lemma al_max_regen : max_regen_kwh w = max_regen_kwh v.
  Proof. opn. unfold max_regen_kwh. sub. reflexivity. Qed.
  Lemma al_div x k : mc_div_eff w x k = mc_div_eff v x k.
  Proof. unfold mc_div_eff. rewrite al_last, al_at. opn. sub. reflexivity. Qed.
  Lemma al_regen e p l o : calc_regen_buff w e p l o = calc_regen_buff v e p l o.
  Proof. unfold calc_regen_buff, mc_peak_eff. rewrite al_max_regen. opn. sub. reflexivity. Qed.
  Lemma al_accel e p l o : calc_accel_buff w e p l o = calc_accel_buff v e p l o.
  Proof. unfold calc_accel_buff. rewrite al_max_regen. opn. sub. reflexivity. Qed.
  Lemma al_dis e p l a b c d : calc_accel_regen_dischg w e p l a b c d = calc_accel_regen_dischg v e p l a b c d.
  Proof. unfold calc_accel_regen_dischg. opn. sub. reflexivity. Qed.
  Lemma al_mcfc a b : calc_mc_for_max_fc_eff w a b = calc_mc_for_max_fc_eff v a b.
  Proof. unfold calc_mc_for_max_fc_eff. rewrite al_max_fc, al_div. opn. sub. reflexivity. Qed.
  Lemma al_req a b : calc_elec_req_4ae w a b = calc_elec_req_4ae v a b.
  Proof. unfold calc_elec_req_4ae. rewrite al_div. opn. sub. reflexivity. Qed.
  Lemma al_can e p l a b c : calc_can_pwr_all_elec w e p l a b c = calc_can_pwr_all_elec v e p l a b c.
  Proof. unfold calc_can_pwr_all_elec. opn. sub. reflexivity. Qed.
  Lemma al_hyb e p m l q c o : set_hybrid_cont_calcs w e p m l q c o = set_hybrid_cont_calcs v e p m l q c o.
  Proof.
    unfold set_hybrid_cont_calcs. rewrite al_regen, al_accel, al_max_fc. cbv zeta.
    destruct (calc_regen_buff v e p l o) as [[rb r1] r2], (calc_accel_buff v e p l o) as [[ab a1] a2].
    rewrite al_dis, al_mcfc, al_req, al_can. reflexivity.
  Qed.
  Lemma al_forced e q h : set_fc_forced_state w e q h = set_fc_forced_state v e q h.
  Proof. unfold set_fc_forced_state. rewrite al_max_fc. opn. sub. reflexivity. Qed.
  Lemma al_mcin x : calc_mc_elec_in w x = calc_mc_elec_in v x.
  Proof. unfold calc_mc_elec_in. rewrite al_last, !al_at. opn. sub. reflexivity. Qed.
  Lemma al_mcif x : calc_mc_if_fc_req w x = calc_mc_if_fc_req v x.
  Proof. unfold calc_mc_if_fc_req. rewrite al_last, !al_at. opn. sub. reflexivity. Qed.
  Lemma al_dec e p m l q h f c o : set_hybrid_cont_decisions w e p m l q h f c o = set_hybrid_cont_decisions v e p m l q h f c o.
  Proof.
    unfold set_hybrid_cont_decisions, calc_ess_if_fc_req, calc_mc_mech_out, calc_roadway, calc_ess_out, calc_ess_cur_kwh.
    cbv zeta. rewrite !al_mcif, !al_mcin. opn. sub. reflexivity.
  Qed.
  Lemma al_fc e m l q d : set_fc_power w e m l q d = set_fc_power v e m l q d.
  Proof. unfold set_fc_power, calc_fc_out, fc_eff_at. opn. sub. reflexivity. Qed.
  Lemma al_solve e p cur : solve_row w pr sp e p cur = solve_row v pr sp e p cur.
  Proof.
    unfold solve_row. cbv zeta. rewrite al_misc, al_lims, al_pwr, al_spd.
    destruct (set_ach_speed v pr sp e p _ _ _) as [q s].
    now rewrite al_hyb, al_forced, al_dec, al_fc.
  Qed.
End Alike.
