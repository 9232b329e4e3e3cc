(** Road load, brakes, engine power, transmission limits of one step and of every step of a run. *)
From Verif Require Import Num Numpy ListFacts CycleModel CycleSpec VehModel SimModel SimState WalkModel
  FrameProofs WalkProofs StepEqs StepProofs SimSpec.
Local Open Scope R_scope.

Ltac toR := unR; unfold k1000, k3600, mph_of, MPH_PER_MPS, nsq, ncube in *; rewrite ?lit_R, ?nmax_R, ?nmin_R in *; unR.
Lemma Rmax_cases a b : (Rmax a b = a /\ b <= a) \/ (Rmax a b = b /\ a <= b).
Proof. unfold Rmax. destruct (Rle_dec a b); [right|left]; split; auto; lra. Qed.
Lemma Rmin_cases a b : (Rmin a b = a /\ a <= b) \/ (Rmin a b = b /\ b <= a).
Proof. unfold Rmin. destruct (Rle_dec a b); [left|right]; split; auto; lra. Qed.
Ltac mm1 a b L := let X := fresh in let Y := fresh in
  destruct (L a b) as [[X Y]|[X Y]]; rewrite X in *; clear X.
Ltac mm := repeat match goal with
  | |- context [Rmax ?a ?b] => mm1 a b Rmax_cases
  | |- context [Rmin ?a ?b] => mm1 a b Rmin_cases
  | H : context [Rmax ?a ?b] |- _ => mm1 a b Rmax_cases
  | H : context [Rmin ?a ?b] |- _ => mm1 a b Rmin_cases
  end.
Lemma cdt_step (d : sdrive R) i : (1 <= i)%nat -> cdt (d_cyc d) i = step_dt d i.
Proof. intros H. unfold cdt, step_dt, ctime. destruct (Nat.ltb_spec i 1); [lia|]. unR. reflexivity. Qed.
Lemma step_dt_pos (d : sdrive R) i : wf_sd d -> increasing (time_s (d_cyc d)) ->
  (1 <= i < clen (d_cyc d))%nat -> 0 < step_dt d i.
Proof.
  intros (W & _) I H. unfold step_dt, clen in *.
  assert (A := nth_error_nth' (time_s (d_cyc d)) 0 (n := i) ltac:(lia)).
  assert (B := nth_error_nth' (time_s (d_cyc d)) 0 (n := (i - 1)%nat) ltac:(lia)).
  assert (L : (i - 1 < i)%nat) by lia. pose proof (I _ _ _ _ L B A). lra.
Qed.

(** ** Powers *)
Section Pwr.
  Variables (v : vehicle R) (pr : physprops R) (e : step_env R) (p : row R) (l : lims_row R) (x : R) (q : pwr_row R).
  Hypothesis E : pwr_eqs v pr e p l x q.
  Let v1 := mps_ach (spd p).
  Let g := atan (e_grade e x).

  Lemma pw_drag : drag_kw q = drag_power (air_density_kg_per_m3 pr) (drag_coef v) (frontal_area_m2 v) ((v1 + x) / 2).
  Proof. rewrite (pe_drag _ _ _ _ _ _ _ E). unfold drag_power. toR. fold v1. field. Qed.
  Lemma pw_accel : accel_kw q = mean_kw (kinetic_J (veh_kg v) v1) (kinetic_J (veh_kg v) x) (e_dt e).
  Proof.
    rewrite (pe_accel _ _ _ _ _ _ _ E). unfold mean_kw, kinetic_J. toR. fold v1. unfold Rdiv.
    rewrite Rinv_mult. ring.
  Qed.
  Lemma pw_climb : ascent_kw q = climb_power (veh_kg v) (a_grav_mps2 pr) g ((v1 + x) / 2).
  Proof. rewrite (pe_ascent _ _ _ _ _ _ _ E). unfold climb_power. toR. fold v1 g. field. Qed.
  Lemma pw_roll : rr_kw q = roll_power (veh_kg v) (a_grav_mps2 pr) (wheel_rr_coef v) g ((v1 + x) / 2).
  Proof. rewrite (pe_rr _ _ _ _ _ _ _ E). unfold roll_power. toR. fold v1 g. field. Qed.
  Lemma pw_tire : cyc_tire_inertia_kw q =
    mean_kw (wheels_J (num_wheels v) (wheel_inertia_kg_m2 v) (wheel_radius_m v) v1)
            (wheels_J (num_wheels v) (wheel_inertia_kg_m2 v) (wheel_radius_m v) x) (e_dt e).
  Proof.
    rewrite (pe_tire _ _ _ _ _ _ _ E). unfold mean_kw, wheels_J. toR. fold v1.
    set (a := x / wheel_radius_m v). set (b := v1 / wheel_radius_m v). unfold Rdiv. ring.
  Qed.
  Lemma pw_whl : cyc_whl_kw_req q = drag_kw q + accel_kw q + ascent_kw q + rr_kw q + cyc_tire_inertia_kw q.
  Proof. rewrite (pe_whl _ _ _ _ _ _ _ E), (pe_trac _ _ _ _ _ _ _ E). toR. ring. Qed.
  Lemma pw_share : regen_contrl_lim_kw_perc q = regen_share v ((e_mps e * 2.2369 + v1 * 2.2369) / 2).
  Proof.
    rewrite (pe_perc _ _ _ _ _ _ _ E). unfold regen_share. toR. fold v1.
    replace (22369 / 10000) with 2.2369 by lra. reflexivity.
  Qed.
  Lemma share_01 m : 0 <= max_regen v <= 1 -> 0 <= regen_a v -> 0 <= regen_share v m <= 1.
  Proof.
    intros A B. unfold regen_share. pose proof (exp_pos (- regen_b v * (m + 1))) as X.
    set (y := exp _) in *. assert (0 <= regen_a v * y) by (apply Rmult_le_pos; lra).
    split.
    - apply Rmult_le_pos; [lra|]. left. apply Rinv_0_lt_compat. lra.
    - apply (Rmult_le_reg_r (1 + regen_a v * y)); [lra|]. unfold Rdiv. rewrite Rmult_assoc, Rinv_l by lra. lra.
  Qed.
  Lemma pw_regen : cyc_regen_brake_kw q =
    Rmax 0 (Rmin (cur_max_mech_mc_kw_in l * trans_eff v) (regen_contrl_lim_kw_perc q * - cyc_whl_kw_req q)).
  Proof. rewrite (pe_regen _ _ _ _ _ _ _ E). toR. apply Rmax_comm. Qed.
  Lemma pw_fric : cyc_fric_brake_kw q = Rmax 0 (- cyc_whl_kw_req q - cyc_regen_brake_kw q).
  Proof. rewrite (pe_fric _ _ _ _ _ _ _ E). toR. mm; lra. Qed.
  Lemma pw_req : cyc_trans_kw_out_req q = cyc_whl_kw_req q + cyc_fric_brake_kw q.
  Proof. exact (pe_req _ _ _ _ _ _ _ E). Qed.
  Lemma pw_split : 0 <= max_regen v <= 1 -> 0 <= regen_a v ->
    (0 <= cyc_whl_kw_req q -> cyc_regen_brake_kw q = 0 /\ cyc_fric_brake_kw q = 0 /\
                              cyc_trans_kw_out_req q = cyc_whl_kw_req q) /\
    (cyc_whl_kw_req q < 0 -> cyc_regen_brake_kw q + cyc_fric_brake_kw q = - cyc_whl_kw_req q /\
                             cyc_trans_kw_out_req q = - cyc_regen_brake_kw q).
  Proof.
    intros A B. rewrite pw_req.
    pose proof (share_01 ((e_mps e * 2.2369 + v1 * 2.2369) / 2) A B) as S1. rewrite <- pw_share in S1.
    set (s := regen_contrl_lim_kw_perc q) in *. set (w := cyc_whl_kw_req q) in *.
    pose proof pw_regen as G. pose proof pw_fric as H. fold s w in G, H.
    split; intros W.
    - assert (s * - w <= 0) by nra. mm; lra.
    - assert (s * - w <= - w) by nra. assert (0 <= s * - w) by nra. mm; lra.
  Qed.
  Lemma pw_met : cyc_met q = true <-> cyc_trans_kw_out_req q <= cur_max_trans_kw_out l.
  Proof. rewrite (pe_met _ _ _ _ _ _ _ E). unR. apply Rleb_true. Qed.
  Lemma pw_out : trans_kw_out_ach q = Rmin (cyc_trans_kw_out_req q) (cur_max_trans_kw_out l).
  Proof.
    rewrite (pe_out _ _ _ _ _ _ _ E). pose proof pw_met as M. destruct (cyc_met q).
    - destruct M as [M _]. specialize (M eq_refl). now rewrite Rmin_left.
    - rewrite Rmin_right; auto. destruct M as [_ M].
      destruct (Rle_dec (cyc_trans_kw_out_req q) (cur_max_trans_kw_out l)) as [L|L]; [discriminate (M L)|lra].
  Qed.
  Lemma pw_in : trans_kw_in_ach q = if Rlt_dec 0 (trans_kw_out_ach q) then trans_kw_out_ach q / trans_eff v
                                    else trans_kw_out_ach q * trans_eff v.
  Proof. rewrite (pe_in _ _ _ _ _ _ _ E). unR. rcase; destruct (Rlt_dec _ _); try reflexivity; exfalso; lra. Qed.
End Pwr.

Lemma drag_power_pos rho cd a s : 0 <= rho -> 0 <= cd -> 0 <= a -> 0 <= s -> 0 <= drag_power rho cd a s.
Proof.
  intros. unfold drag_power. assert (0 <= s ^ 3) by now apply pow_le.
  assert (0 <= rho * cd * a * s ^ 3) by (repeat (assumption || apply Rmult_le_pos)). lra.
Qed.
Lemma cos_atan_pos g : 0 < cos (atan g).
Proof. pose proof (atan_bound g). apply cos_gt_0; lra. Qed.
Lemma roll_power_pos m g c t s : 0 <= m -> 0 <= g -> 0 <= c -> 0 <= cos t -> 0 <= s -> 0 <= roll_power m g c t s.
Proof.
  intros. unfold roll_power. assert (0 <= c * (m * g * cos t) * s) by (repeat (assumption || apply Rmult_le_pos)). lra.
Qed.
