(** Every step of a completed run, opened up; road load, engine power and transmission limits of runs. *)
From Verif Require Import Num Numpy ListFacts CycleModel CycleSpec DistProofs VehModel SimModel SimState WalkModel
  FrameProofs WalkProofs StepEqs StepProofs SimSpec SimProofs1.
Local Open Scope R_scope.

Record opened (d0 d : sdrive R) (i : nat) (e : step_env R) (cur : row R) (q : pwr_row R) (x : R) : Prop := {
  op_step : step_of_run d0 d None i e cur q;
  op_misc : misc (row_at d i) = set_misc_calcs (d_veh d0) e (row_at d (i - 1)) (aux_in_kw (misc cur));
  op_lims : lims_eqs (d_veh d0) (d_props d0) e (row_at d (i - 1)) (misc (row_at d i)) (ctl cur) (lims (row_at d i));
  op_pwr : pwr_eqs (d_veh d0) (d_props d0) e (row_at d (i - 1)) (lims (row_at d i)) x q;
  op_hyb : hyb_eqs (d_veh d0) e (row_at d (i - 1)) (misc (row_at d i)) (lims (row_at d i)) q (ctl cur) (hyb cur) (hyb (row_at d i));
  op_forced : forced (row_at d i) = set_fc_forced_state (d_veh d0) e q (hyb (row_at d i));
  op_dec : dec_eqs (d_veh d0) e (row_at d (i - 1)) (misc (row_at d i)) (lims (row_at d i)) q (hyb (row_at d i))
                   (forced (row_at d i)) (ctl cur) (fc_kw_out_ach (fc cur)) (dec (row_at d i));
  op_fc : fc_eqs (d_veh d0) e (misc (row_at d i)) (lims (row_at d i)) q (dec (row_at d i)) (fc (row_at d i));
  op_x : no_dilation d0 -> x = speed d i /\ pwr (row_at d i) = q;
  op_dt : e_dt e = step_dt d i;
  op_road : cur_max_roadway_chg_kw (ctl cur) = 0;
  op_coast : impose_coast (ctl cur) = impose_coast (ctl (row_at d i));
  op_q : exists a, pwr (row_at d i) =
    mkpwr (drag_kw q) a (ascent_kw q) (cyc_trac_kw_req q) (spare_trac_kw q)
          (rr_kw q) (cyc_whl_rad_per_sec q) (cyc_tire_inertia_kw q) (cyc_whl_kw_req q)
          (regen_contrl_lim_kw_perc q) (cyc_regen_brake_kw q) (cyc_fric_brake_kw q)
          (cyc_trans_kw_out_req q) (cyc_met q) (trans_kw_out_ach q) (trans_kw_in_ach q)
          (min_mc_kw_2help_fc q) }.

Lemma is_step_open d0 ovr d i : is_step d0 ovr d i -> exists e cur q x, opened d0 d i e cur q x.
Proof.
  intros (W & R & Hi). destruct (run_steps _ _ _ W R i Hi) as (e & cur & q & S).
  assert (S' : step_of_run d0 d None i e cur q) by (destruct S; constructor; assumption).
  pose proof (sr_parts _ _ _ _ _ _ _ S) as P.
  destruct (parts_power _ _ _ _ _ _ _ _ P) as (x & Hq & Hx).
  exists e, cur, q, x. constructor; auto.
  - apply P.
  - pose proof (pt_lims _ _ _ _ _ _ _ _ P) as H. rewrite H. apply lims_are.
  - rewrite Hq. apply pwr_are.
  - pose proof (pt_hyb _ _ _ _ _ _ _ _ P) as H. rewrite H at 1. apply hyb_are.
  - apply P.
  - pose proof (pt_dec _ _ _ _ _ _ _ _ P) as H. rewrite H at 1. apply dec_are.
  - pose proof (pt_fc _ _ _ _ _ _ _ _ P) as H. rewrite H at 1. apply fc_are.
  - intros M. destruct (sr_fresh _ _ _ _ _ _ _ S M) as (Z & Y). split; auto.
  - rewrite (sr_dt _ _ _ _ _ _ _ S). apply cdt_step. lia.
  - exact (sr_road _ _ _ _ _ _ _ S).
  - pose proof (pt_ctl _ _ _ _ _ _ _ _ P) as H. unfold ctl_in in H. congruence.
  - exists (accel_kw (pwr (row_at d i))). exact (pt_pwr _ _ _ _ _ _ _ _ P).
Qed.
Ltac open_step H := let e := fresh "e" in let cur := fresh "cur" in let q := fresh "q" in
  let x := fresh "x" in let O := fresh "O" in destruct (is_step_open _ _ _ _ H) as (e & cur & q & x & O).

Lemma run_dt_pos d0 ovr d i : is_step d0 ovr d i -> increasing (time_s (d_cyc d)) -> 0 < step_dt d i.
Proof.
  intros (W & R & Hi) I. destruct (run_starts _ _ _ W R) as (s & K).
  apply step_dt_pos; auto. { apply K. }
  pose proof (rs_wf _ _ _ K) as (W1 & W2 & W3). rewrite W3, (rs_cyc0 _ _ _ K).
  destruct W as (_ & _ & W). rewrite <- W. rewrite (rs_len _ _ _ K) in Hi. lia.
Qed.
(** A property of all steps by induction along the run. *)
Lemma run_ind (Q : nat -> Prop) d0 ovr d : wf_sd d0 -> run d0 ovr d -> Q 0%nat ->
  (forall i, is_step d0 ovr d i -> Q (i - 1)%nat -> Q i) -> forall i, (i < length (d_rows d))%nat -> Q i.
Proof.
  intros W R Q0 QS. induction i; auto. intros H. apply QS. { split; [exact W|split; [exact R|lia]]. }
  replace (S i - 1)%nat with i by lia. apply IHi. lia.
Qed.

(** ** C20 *)
Lemma road_load d0 ovr d i : is_step d0 ovr d i -> no_dilation d0 ->
  let v := d_veh d0 in let pr := d_props d0 in let q := pwr (row_at d i) in
  let th := atan (lookup_grade d i (Some (speed d i))) in
  let dt := step_dt d i in
  drag_kw q = drag_power (air_density_kg_per_m3 pr) (drag_coef v) (frontal_area_m2 v) (mean_speed d i) /\
  accel_kw q = mean_kw (kinetic_J (veh_kg v) (speed d (i - 1))) (kinetic_J (veh_kg v) (speed d i)) dt /\
  ascent_kw q = climb_power (veh_kg v) (a_grav_mps2 pr) th (mean_speed d i) /\
  rr_kw q = roll_power (veh_kg v) (a_grav_mps2 pr) (wheel_rr_coef v) th (mean_speed d i) /\
  cyc_tire_inertia_kw q =
    mean_kw (wheels_J (num_wheels v) (wheel_inertia_kg_m2 v) (wheel_radius_m v) (speed d (i - 1)))
            (wheels_J (num_wheels v) (wheel_inertia_kg_m2 v) (wheel_radius_m v) (speed d i)) dt /\
  cyc_whl_rad_per_sec q = speed d i / wheel_radius_m v /\
  cyc_trac_kw_req q = drag_kw q + accel_kw q + ascent_kw q /\
  spare_trac_kw q = cur_max_trac_kw (lims (row_at d i)) - cyc_trac_kw_req q /\
  cyc_whl_kw_req q = drag_kw q + accel_kw q + ascent_kw q + rr_kw q + cyc_tire_inertia_kw q.
Proof.
  intros H M. open_step H. cbv zeta. destruct (op_x _ _ _ _ _ _ _ O M) as (-> & ->).
  pose proof (op_pwr _ _ _ _ _ _ _ O) as E. rewrite <- (op_dt _ _ _ _ _ _ _ O).
  rewrite <- (sr_grade _ _ _ _ _ _ _ (op_step _ _ _ _ _ _ _ O)). unfold mean_speed.
  split; [exact (pw_drag _ _ _ _ _ _ _ E)|]. split; [exact (pw_accel _ _ _ _ _ _ _ E)|].
  split; [exact (pw_climb _ _ _ _ _ _ _ E)|]. split; [exact (pw_roll _ _ _ _ _ _ _ E)|].
  split; [exact (pw_tire _ _ _ _ _ _ _ E)|]. split; [exact (pe_rad _ _ _ _ _ _ _ E)|].
  split; [exact (pe_trac _ _ _ _ _ _ _ E)|]. split; [exact (pe_spare _ _ _ _ _ _ _ E)|].
  exact (pw_whl _ _ _ _ _ _ _ E).
Qed.

Lemma replans_off d0 : follows_trace d0 -> replans (d_sp d0) = false.
Proof. intros (A & B). unfold replans. now rewrite A, B. Qed.
Lemma all_zero_nth (l : list R) i : all_zero l = true -> nth i l 0 = 0.
Proof.
  intros H. unfold all_zero in H. rewrite forallb_forall in H.
  destruct (Nat.lt_ge_cases i (length l)) as [L|L]; [|apply nth_overflow; lia].
  specialize (H _ (nth_In l 0 L)). unR. now apply Reqb_true in H.
Qed.
Lemma grade_on_trace d0 ovr d i x : is_step d0 ovr d i -> follows_trace d0 -> d_cyc d0 = d_cyc0 d0 ->
  lookup_grade d i (Some x) = nth i (grade (d_cyc0 d0)) 0.
Proof.
  intros (W & R & Hi) T C. destruct (run_starts _ _ _ W R) as (s & K).
  unfold lookup_grade. rewrite (rs_cache _ _ _ K), (rs_sp _ _ _ K). destruct T as (T1 & T2).
  change (grade_all_zero (build_cache (d_cyc0 d0))) with (all_zero (grade (d_cyc0 d0))).
  destruct (all_zero (grade (d_cyc0 d0))) eqn:Z.
  - rewrite all_zero_nth; auto.
  - rewrite T1, T2. cbn [negb andb]. rewrite (rs_grade _ _ _ K); [|now apply replans_off].
    rewrite C. now destruct (changes_cycle _).
Qed.
Lemma grade_replanned d0 ovr d i : is_step d0 ovr d i -> ~ follows_trace d0 ->
  1 / 1000000 < mean_speed d i * step_dt d i ->
  average_grade_over_range (d_cyc0 d0) (trapezoid (d_cyc d) 0 (i - 1)) (mean_speed d i * step_dt d i)
     (Some (build_cache (d_cyc0 d0))) = Ok (lookup_grade d i (Some (speed d i))).
Proof.
  intros (W & R & Hi) T L. destruct (run_starts _ _ _ W R) as (s & K).
  unfold lookup_grade. rewrite (rs_cache _ _ _ K), (rs_sp _ _ _ K), (rs_cyc0 _ _ _ K).
  assert (E : (negb (coast_allow (d_sp d0)) && negb (idm_allow (d_sp d0)))%bool = false).
  { destruct (coast_allow (d_sp d0)) eqn:A; auto. destruct (idm_allow (d_sp d0)) eqn:B; auto.
    destruct T. now split. }
  rewrite E. destruct (grade_all_zero (build_cache (d_cyc0 d0))) eqn:Z.
  { unfold average_grade_over_range. rewrite Z. reflexivity. }
  pose proof (rs_wf _ _ _ K) as (W1 & W2 & W3).
  assert (LI : (i <= length (time_s (d_cyc d)))%nat).
  { rewrite (rs_len _ _ _ K) in Hi. unfold clen in *. rewrite W3, (rs_cyc0 _ _ _ K).
    destruct W as (_ & _ & W). unfold clen in W. lia. }
  rewrite (start_distance (d_cyc d) i); [|apply W1|lia]. cbn [bindR].
  rewrite cdt_step by lia. toR.
  replace (1 / 2 * (speed d i + mps_ach_at d (i - 1)) * step_dt d i) with (mean_speed d i * step_dt d i)
    by (unfold mean_speed, speed, mps_ach_at; field).
  unfold average_grade_over_range. rewrite Z. unfold tol6. toR. rcase; [lra|]. reflexivity.
Qed.

(** Fields of the recorded powers that do not involve the post-processed acceleration power. *)
Ltac q_of O := let a := fresh "a" in let Eq := fresh "Eq" in
  destruct (op_q _ _ _ _ _ _ _ O) as (a & Eq); rewrite Eq;
  cbn [drag_kw accel_kw ascent_kw cyc_trac_kw_req spare_trac_kw rr_kw cyc_whl_rad_per_sec cyc_tire_inertia_kw
       cyc_whl_kw_req regen_contrl_lim_kw_perc cyc_regen_brake_kw cyc_fric_brake_kw cyc_trans_kw_out_req cyc_met
       trans_kw_out_ach trans_kw_in_ach min_mc_kw_2help_fc].

Lemma brakes d0 ovr d i : is_step d0 ovr d i ->
  let v := d_veh d0 in let q := pwr (row_at d i) in
  cyc_regen_brake_kw q = Rmax 0 (Rmin (cur_max_mech_mc_kw_in (lims (row_at d i)) * trans_eff v)
                                      (regen_contrl_lim_kw_perc q * - cyc_whl_kw_req q)) /\
  cyc_fric_brake_kw q = Rmax 0 (- cyc_whl_kw_req q - cyc_regen_brake_kw q) /\
  cyc_trans_kw_out_req q = cyc_whl_kw_req q + cyc_fric_brake_kw q /\
  (follows_trace d0 -> regen_contrl_lim_kw_perc q =
     regen_share v ((nth i (mps (d_cyc d)) 0 * 2.2369 + speed d (i - 1) * 2.2369) / 2)).
Proof.
  intros H. open_step H. cbv zeta. pose proof (op_pwr _ _ _ _ _ _ _ O) as E. q_of O.
  split; [exact (pw_regen _ _ _ _ _ _ _ E)|]. split; [exact (pw_fric _ _ _ _ _ _ _ E)|].
  split; [exact (pw_req _ _ _ _ _ _ _ E)|]. intros T.
  rewrite (pw_share _ _ _ _ _ _ _ E).
  now rewrite (sr_mps _ _ _ _ _ _ _ (op_step _ _ _ _ _ _ _ O) (replans_off _ T)).
Qed.
Lemma brake_split d0 ovr d i : is_step d0 ovr d i -> 0 <= max_regen (d_veh d0) <= 1 -> 0 <= regen_a (d_veh d0) ->
  let q := pwr (row_at d i) in
  0 <= cyc_regen_brake_kw q /\ 0 <= cyc_fric_brake_kw q /\
  (0 <= cyc_whl_kw_req q -> cyc_regen_brake_kw q = 0 /\ cyc_fric_brake_kw q = 0 /\
                            cyc_trans_kw_out_req q = cyc_whl_kw_req q) /\
  (cyc_whl_kw_req q < 0 -> cyc_regen_brake_kw q + cyc_fric_brake_kw q = - cyc_whl_kw_req q /\
                           cyc_trans_kw_out_req q = - cyc_regen_brake_kw q).
Proof.
  intros H A B. open_step H. cbv zeta. pose proof (op_pwr _ _ _ _ _ _ _ O) as E. q_of O.
  pose proof (pw_regen _ _ _ _ _ _ _ E) as R1. pose proof (pw_fric _ _ _ _ _ _ _ E) as R2.
  split. { rewrite R1. apply Rmax_l. } split. { rewrite R2. apply Rmax_l. }
  exact (pw_split _ _ _ _ _ _ _ E A B).
Qed.

(** ** C27, C39 *)
Lemma transmission d0 ovr d i : is_step d0 ovr d i ->
  let v := d_veh d0 in let q := pwr (row_at d i) in let lim := cur_max_trans_kw_out (lims (row_at d i)) in
  (cyc_met q = true <-> cyc_trans_kw_out_req q <= lim) /\
  trans_kw_out_ach q = Rmin (cyc_trans_kw_out_req q) lim /\
  (0 < trans_kw_out_ach q -> trans_kw_in_ach q = trans_kw_out_ach q / trans_eff v) /\
  (trans_kw_out_ach q <= 0 -> trans_kw_in_ach q = trans_kw_out_ach q * trans_eff v).
Proof.
  intros H. open_step H. cbv zeta. pose proof (op_pwr _ _ _ _ _ _ _ O) as E. q_of O.
  split; [exact (pw_met _ _ _ _ _ _ _ E)|]. split; [exact (pw_out _ _ _ _ _ _ _ E)|].
  pose proof (pw_in _ _ _ _ _ _ _ E) as I. destruct (Rlt_dec 0 (trans_kw_out_ach q)) as [L|L];
  split; intros; auto; lra.
Qed.
Lemma transmission_sign d0 ovr d i : is_step d0 ovr d i -> 0 < trans_eff (d_veh d0) ->
  let q := pwr (row_at d i) in
  (0 < trans_kw_out_ach q <-> 0 < trans_kw_in_ach q) /\ (trans_kw_out_ach q < 0 <-> trans_kw_in_ach q < 0).
Proof.
  intros H T. destruct (transmission _ _ _ _ H) as (_ & _ & A & B). cbv zeta in *.
  set (o := trans_kw_out_ach _) in *. set (n := trans_kw_in_ach _) in *.
  destruct (Rlt_dec 0 o) as [L|L].
  - rewrite (A L). assert (0 < o / trans_eff (d_veh d0)) by (apply Rdiv_lt_0_compat; auto). split; split; intros; lra.
  - assert (L' : o <= 0) by lra. rewrite (B L'). split; split; intros; nra.
Qed.
Lemma grip d0 ovr d i : is_step d0 ovr d i ->
  cur_max_trac_kw (lims (row_at d i)) =
    grip_kw (d_veh d0) (a_grav_mps2 (d_props d0)) (speed d (i - 1) + max_trac_mps2 (d_veh d0) * step_dt d i).
Proof.
  intros H. open_step H. rewrite (le_trac _ _ _ _ _ _ _ (op_lims _ _ _ _ _ _ _ O)).
  unfold calc_max_trac_kw, grip_kw. rewrite (op_misc _ _ _ _ _ _ _ O). cbn [set_misc_calcs max_trac_mps].
  rewrite (op_dt _ _ _ _ _ _ _ O). toR. reflexivity.
Qed.
Lemma trans_limit d0 ovr d i : is_step d0 ovr d i ->
  let r := row_at d i in let v := d_veh d0 in let l := lims r in
  impose_coast (ctl r) = false ->
  cur_max_trans_kw_out l = Rmin
    ((cur_max_mc_kw_out l + (if is_h2fc (fc_eff_type v) then 0 else cur_max_fc_kw_out l)
      + (if (no_elec_sys v || no_elec_aux v || high_acc_fc_on_tag (misc r))%bool
         then - aux_in_kw (misc r) else Rmax 0 (- cur_max_elec_kw l))) * trans_eff v)
    (cur_max_trac_kw l / trans_eff v).
Proof.
  intros H. open_step H. cbv zeta. intros C.
  rewrite (le_trans _ _ _ _ _ _ _ (op_lims _ _ _ _ _ _ _ O)), (op_coast _ _ _ _ _ _ _ O), C.
  destruct (no_elec_sys _ || no_elec_aux _ || high_acc_fc_on_tag _)%bool; destruct (is_h2fc _); toR;
    f_equal; f_equal; try ring; mm; lra.
Qed.
Lemma coast_limit d0 ovr d i : is_step d0 ovr d i -> impose_coast (ctl (row_at d i)) = true ->
  cur_max_trans_kw_out (lims (row_at d i)) = 0 /\
  trans_kw_out_ach (pwr (row_at d i)) = Rmin (cyc_trans_kw_out_req (pwr (row_at d i))) 0.
Proof.
  intros H C. destruct (transmission _ _ _ _ H) as (_ & A & _). cbv zeta in A.
  open_step H. pose proof (le_trans _ _ _ _ _ _ _ (op_lims _ _ _ _ _ _ _ O)) as L.
  rewrite (op_coast _ _ _ _ _ _ _ O), C in L. rewrite L in A. unR. auto.
Qed.

(** ** C21 *)
Lemma fc_out_clamp d0 ovr d i : is_step d0 ovr d i ->
  fc_kw_out_ach (fc (row_at d i)) = 0 \/
  exists y, fc_kw_out_ach (fc (row_at d i)) = Rmin (cur_max_fc_kw_out (lims (row_at d i))) (Rmax 0 y).
Proof.
  intros H. open_step H. rewrite (fe_out _ _ _ _ _ _ _ (op_fc _ _ _ _ _ _ _ O)).
  unfold calc_fc_out. unR. rcase; [left; reflexivity|right].
  destruct (is_h2fc _); [|destruct (_ || _ || _)%bool]; rewrite nmin_R, nmax_R; eexists; reflexivity.
Qed.
Lemma fc_limit d0 ovr d i : is_step d0 ovr d i ->
  cur_max_fc_kw_out (lims (row_at d i)) =
  Rmin (fc_max_kw (d_veh d0)) (fc_kw_out_ach (fc (row_at d (i - 1)))
        + fc_max_kw (d_veh d0) / fc_sec_to_peak_pwr (d_veh d0) * step_dt d i).
Proof.
  intros H. open_step H. pose proof (op_lims _ _ _ _ _ _ _ O) as L.
  rewrite (le_fc _ _ _ _ _ _ _ L), (le_fctr _ _ _ _ _ _ _ L), nmin_R, (op_dt _ _ _ _ _ _ _ O). unR. reflexivity.
Qed.
Lemma fc_none d0 ovr d i : is_step d0 ovr d i -> fc_max_kw (d_veh d0) = 0 ->
  fc_kw_out_ach (fc (row_at d i)) = 0 /\ fc_kw_out_ach_pct (fc (row_at d i)) = 0 /\
  fc_kw_in_ach (fc (row_at d i)) = 0 /\ fs_kw_out_ach (fc (row_at d i)) = 0 /\ fs_kwh_out_ach (fc (row_at d i)) = 0.
Proof.
  intros H Z. open_step H. pose proof (op_fc _ _ _ _ _ _ _ O) as L.
  assert (A : fc_kw_out_ach (fc (row_at d i)) = 0).
  { rewrite (fe_out _ _ _ _ _ _ _ L). unfold calc_fc_out. unR. rcase; [reflexivity|lra]. }
  assert (B : fc_kw_in_ach (fc (row_at d i)) = 0).
  { rewrite (fe_in _ _ _ _ _ _ _ L), A. unR. rcase; [reflexivity|lra]. }
  split; auto. split. { rewrite (fe_pct _ _ _ _ _ _ _ L), A. unR. rcase; [reflexivity|lra]. }
  split; auto. rewrite (fe_kwh _ _ _ _ _ _ _ L), (fe_fs _ _ _ _ _ _ _ L), B. unR. split; auto. ring.
Qed.
Lemma fc_pos d0 ovr d : wf_sd d0 -> run d0 ovr d -> increasing (time_s (d_cyc d)) ->
  0 <= fc_max_kw (d_veh d0) -> 0 < fc_sec_to_peak_pwr (d_veh d0) ->
  forall i, (i < length (d_rows d))%nat -> 0 <= fc_kw_out_ach (fc (row_at d i)).
Proof.
  intros W R I A B. apply (run_ind _ _ _ _ W R).
  - destruct (run_starts _ _ _ W R) as (s & K). rewrite (rs_fc _ _ _ K). unR. lra.
  - intros i H IH. pose proof (run_dt_pos _ _ _ _ H I) as T. pose proof (fc_limit _ _ _ _ H) as L.
    assert (0 <= fc_max_kw (d_veh d0) / fc_sec_to_peak_pwr (d_veh d0) * step_dt d i).
    { apply Rmult_le_pos; [|lra]. apply Rmult_le_pos; auto. left. now apply Rinv_0_lt_compat. }
    destruct (fc_out_clamp _ _ _ _ H) as [-> |(y & ->)]; [lra|]. mm; lra.
Qed.
Lemma fc_within d0 ovr d i : is_step d0 ovr d i -> increasing (time_s (d_cyc d)) ->
  0 <= fc_max_kw (d_veh d0) -> 0 < fc_sec_to_peak_pwr (d_veh d0) ->
  0 <= fc_kw_out_ach (fc (row_at d i)) <= cur_max_fc_kw_out (lims (row_at d i)) /\
  cur_max_fc_kw_out (lims (row_at d i)) <= fc_max_kw (d_veh d0) /\
  fc_kw_out_ach (fc (row_at d i)) <= fc_kw_out_ach (fc (row_at d (i - 1)))
        + fc_max_kw (d_veh d0) / fc_sec_to_peak_pwr (d_veh d0) * step_dt d i.
Proof.
  intros H I A B. pose proof H as (W & R & Hi).
  pose proof (fc_pos _ _ _ W R I A B i ltac:(lia)) as P1.
  pose proof (fc_pos _ _ _ W R I A B (i - 1)%nat ltac:(lia)) as P0.
  pose proof (run_dt_pos _ _ _ _ H I) as T. pose proof (fc_limit _ _ _ _ H) as L.
  assert (0 <= fc_max_kw (d_veh d0) / fc_sec_to_peak_pwr (d_veh d0) * step_dt d i).
  { apply Rmult_le_pos; [|lra]. apply Rmult_le_pos; auto. left. now apply Rinv_0_lt_compat. }
  set (s := fc_max_kw (d_veh d0) / _ * _) in *. set (o := fc_kw_out_ach (fc (row_at d i))) in *.
  destruct (fc_out_clamp _ _ _ _ H) as [Z|(y & Z)]; fold o in Z; rewrite L in *; mm; lra.
Qed.
