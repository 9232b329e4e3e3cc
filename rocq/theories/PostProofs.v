(** Proofs for properties C30, C31, C41-C43, C66 and C67 (post-processing). *)
From Coq Require Import Lia.
From Verif Require Import Num Numpy ListFacts CycleModel CycleSpec ConcatProofs DistProofs VehModel SimModel SimState
  WalkModel FrameProofs WalkProofs StepProofs StepEqs SimSpec SimProofs1 SimProofs2 SimProofs3 SimProofs4 SimProofs5 SimProofs6
  WalkSpec WalkProofs2 PostModel PostSpec.
Local Open Scope R_scope.

(** ** Sums over steps *)
Lemma Rsum_plus {A} (f g : A -> R) l : Rsum (map f l) + Rsum (map g l) = Rsum (map (fun i => f i + g i) l).
Proof. induction l as [|a l IH]; [unfold Rsum; cbn; lra|]. cbn [map]. rewrite !Rsum_cons, <- IH. lra. Qed.
Lemma Rsum_minus {A} (f g : A -> R) l : Rsum (map f l) - Rsum (map g l) = Rsum (map (fun i => f i - g i) l).
Proof. induction l as [|a l IH]; [unfold Rsum; cbn; lra|]. cbn [map]. rewrite !Rsum_cons, <- IH. lra. Qed.
Lemma Rsum_scal {A} (f : A -> R) k l : Rsum (map (fun i => f i * k) l) = Rsum (map f l) * k.
Proof. induction l as [|a l IH]; [unfold Rsum; cbn; lra|]. cbn [map]. rewrite !Rsum_cons, IH. lra. Qed.
Lemma over_plus d f g : over_steps d f + over_steps d g = over_steps d (fun i => f i + g i).
Proof. unfold over_steps. rewrite Rsum_plus. f_equal. apply map_ext. intros. lra. Qed.
Lemma over_minus d f g : over_steps d f - over_steps d g = over_steps d (fun i => f i - g i).
Proof. unfold over_steps. rewrite Rsum_minus. f_equal. apply map_ext. intros. lra. Qed.
Lemma over_ext d f g : (forall i, (1 <= i < length (d_rows d))%nat -> f i = g i) -> over_steps d f = over_steps d g.
Proof. intros E. unfold over_steps. f_equal. apply map_ext_in. intros i I. apply in_seq in I. rewrite E by lia. reflexivity. Qed.
Lemma total_ext d f g : (forall i, (1 <= i < length (d_rows d))%nat -> f i = g i) -> total d f = total d g.
Proof. intros E. unfold total. f_equal. apply map_ext_in. intros i I. apply in_seq in I. rewrite E by lia. reflexivity. Qed.
Lemma Rsum_zero {A} (l : list A) : Rsum (map (fun _ => 0) l) = 0.
Proof. induction l as [|a l IH]; [reflexivity|]. cbn [map]. rewrite Rsum_cons, IH. lra. Qed.
Lemma over_zero d f : (forall i, (1 <= i < length (d_rows d))%nat -> f i = 0) -> over_steps d f = 0.
Proof.
  intros E. rewrite (over_ext d f (fun _ => 0) E). unfold over_steps.
  transitivity (Rsum (map (fun _ => 0) (seq 1 (length (d_rows d) - 1)))); [|apply Rsum_zero].
  f_equal. apply map_ext. intros. lra.
Qed.
Lemma telescope (g : nat -> R) n : Rsum (map (fun i => g i - g (i - 1)%nat) (seq 1 n)) = g n - g 0%nat.
Proof.
  induction n as [|n IH]; [unfold Rsum; cbn; lra|]. rewrite seq_S, map_app, Rsum_app, IH. cbn [map plus]. unfold Rsum. cbn [fold_right].
  replace (S n - 1)%nat with n by lia. lra.
Qed.

Section Run.
  Variables (d0 : sdrive R) (ovr : option (list R)) (d : sdrive R).
  Hypotheses (W : wf_sd d0) (RN : run d0 ovr d).
  Let v := d_veh d0.

  Lemma step_of i : (1 <= i < length (d_rows d))%nat -> is_step d0 ovr d i.
  Proof. intros H. split; [exact W|split; [exact RN|exact H]]. Qed.
  Lemma run_len : length (d_rows d) = length (time_s (d_cyc d)) /\ (0 < length (d_rows d))%nat /\ d_veh d = v /\ d_props d = d_props d0
    /\ d_sp d = d_sp d0 /\ d_cyc0 d = d_cyc0 d0.
  Proof.
    destruct (run_starts _ _ _ W RN) as (s & K). pose proof (rs_wf _ _ _ K) as (W1 & W2 & W3).
    split; [|repeat split; apply K].
    rewrite (rs_len _ _ _ K). unfold clen in *. rewrite W3, (rs_cyc0 _ _ _ K). destruct W as (_ & _ & W4). exact W4.
  Qed.
  Lemma first_is : exists s, row_at d 0 = first_row d0 s (row_aux (aux_start ovr (length (d_rows d)) 0) zero_row).
  Proof.
    destruct (last_walk _ _ _ W RN) as (d1 & s & A & W1 & H). exists s. rewrite (walk_first _ _ _ _ W1 H).
    pose proof (walk_walked _ _ _ _ W1 H) as K. rewrite (wk_len _ _ _ _ K). destruct A as [a1 a2 a3 a4 a5 a6 _].
    unfold first_row. now rewrite a1, a4.
  Qed.
  Lemma sum_dt_over f : sum_dt d f = f (row_at d 0) * first_time d + over_steps d (fun i => f (row_at d i)).
  Proof.
    destruct run_len as (L & P & _). unfold sum_dt, over_steps. rewrite nsum_Rsum.
    rewrite (zipw_seq _ _ _ (f zero_row) 0) by (now rewrite map_length, dt_s_length).
    rewrite map_length. destruct (length (d_rows d)) as [|n] eqn:E; [lia|].
    cbn [seq]. rewrite Nat.sub_succ, Nat.sub_0_r. cbn [map]. rewrite Rsum_cons. rewrite map_nth.
    change (nth 0 (d_rows d) zero_row) with (row_at d 0). change (@nmul R RNum) with Rmult. f_equal.
    - f_equal. rewrite dt_s_nth by lia. reflexivity.
    - f_equal. apply map_ext_in. intros i I. apply in_seq in I. rewrite map_nth.
      change (nth i (d_rows d) zero_row) with (row_at d i). f_equal.
      rewrite dt_s_nth by lia. unfold step_dt. destruct i as [|i]; [lia|]. now rewrite Nat.sub_succ, Nat.sub_0_r.
  Qed.
  Lemma sum_dt_zero f : f (row_at d 0) = 0 -> sum_dt d f = over_steps d (fun i => f (row_at d i)).
  Proof. intros Z. rewrite sum_dt_over, Z. lra. Qed.
  Lemma sum_rows_total f : f (row_at d 0) = 0 -> sum_rows d f = total d (fun i => f (row_at d i)).
  Proof.
    destruct run_len as (L & P & _). intros Z. unfold sum_rows, total. rewrite nsum_Rsum. unfold row_at in *. revert Z P.
    destruct (d_rows d) as [|r0 l]; cbn [length]; [lia|]. intros Z _. cbn [map]. rewrite Rsum_cons. cbn in Z. rewrite Z, Rplus_0_l.
    rewrite Nat.sub_succ, Nat.sub_0_r. f_equal. rewrite <- seq_shift, map_map. cbn [nth].
    clear. induction l as [|a l IH]; [reflexivity|]. cbn [length seq map nth]. f_equal. rewrite <- seq_shift, map_map. exact IH.
  Qed.
  Lemma ess_loss_over : nsum (zipw nmul (ess_loss_arr d) (dt_s (d_cyc d))) =
    over_steps d (fun i => ess_loss v (ess_kw_out_ach (dec (row_at d i)))).
  Proof.
    destruct run_len as (L & P & V & _). rewrite nsum_Rsum. unfold over_steps, ess_loss_arr. rewrite V.
    assert (N : forall i, (i < length (d_rows d))%nat -> nth i (dt_s (d_cyc d)) 0 = match i with O => first_time d | _ => step_dt d i end).
    { intros i Hi. rewrite dt_s_nth by lia. unfold step_dt. destruct i; [reflexivity|]. now rewrite Nat.sub_succ, Nat.sub_0_r. }
    assert (LD : length (dt_s (d_cyc d)) = length (d_rows d)) by (rewrite dt_s_length; lia).
    unfold row_at. revert P N LD. destruct (d_rows d) as [|r0 l]; cbn [length]; [lia|]. intros _ N LD.
    destruct (dt_s (d_cyc d)) as [|t0 ts]; [discriminate|]. cbn [zipw]. rewrite Rsum_cons. unR. rewrite Rmult_0_l, Rplus_0_l.
    rewrite (zipw_seq _ _ _ 0 0) by (rewrite map_length; cbn in LD; lia). rewrite map_length, Nat.sub_succ, Nat.sub_0_r.
    rewrite <- seq_shift, map_map. f_equal. apply map_ext_in. intros i I. apply in_seq in I. specialize (N (S i) ltac:(lia)).
    cbn [nth] in N |- *. rewrite N. rewrite (nth_indep _ 0 (ess_loss v (ess_kw_out_ach (dec (zero_row (F := R)))))) by (rewrite map_length; lia).
    now rewrite (map_nth (fun x => ess_loss v (ess_kw_out_ach (dec x)))).
  Qed.
  Lemma no_battery_out i : ess_max_kw v = 0 \/ ess_max_kwh v = 0 -> (1 <= i < length (d_rows d))%nat ->
    ess_kw_out_ach (dec (row_at d i)) = 0.
  Proof.
    intros Z I. pose proof (step_of i I) as H. open_step H.
    rewrite (de_ess _ _ _ _ _ _ _ _ _ _ _ (op_dec _ _ _ _ _ _ _ O)). unfold calc_ess_out. unR. fold v.
    destruct Z as [Z|Z]; rewrite Z, (proj2 (Reqb_true 0 0) eq_refl); rewrite ?orb_true_r; reflexivity.
  Qed.

  (** Energy drawn from the battery's store. *)
  Lemma drawn_loss p dt : ess_max_kwh v <> 0 -> (ess_max_kw v = 0 -> p = 0) ->
    drawn_kwh (ess_round_trip_eff v) p dt * 3600 = (p + ess_loss v p) * dt.
  Proof.
    intros B A. unfold drawn_kwh, ess_loss. unR. rewrite (proj2 (Reqb_false _ _) B), orb_false_r.
    destruct (Reqb_spec (ess_max_kw v) 0) as [Z|Z].
    - rewrite (A Z). destruct (Rlt_dec 0 0); [lra|]. unfold Rdiv. lra.
    - destruct (Rlt_dec p 0), (Rltb_spec p 0); try lra; unfold Rdiv; lra.
  Qed.
  Lemma dischg_over : no_elec_sys v = false \/ ess_max_kwh v = 0 ->
    - (soc_last d - soc_first d) * ess_max_kwh v * 3600 =
    over_steps d (fun i => ess_kw_out_ach (dec (row_at d i)) + ess_loss v (ess_kw_out_ach (dec (row_at d i)))).
  Proof.
    intros E. destruct run_len as (L & P & _). destruct (Req_dec (ess_max_kwh v) 0) as [B|B].
    { rewrite B. rewrite over_zero; [lra|]. intros i I. rewrite no_battery_out by auto.
      unfold ess_loss. unR. rewrite B, (proj2 (Reqb_true 0 0) eq_refl), orb_true_r. lra. }
    destruct E as [E|E]; [|now destruct B].
    pose proof (stored_sum _ _ _ W RN E (length (d_rows d) - 1) ltac:(lia)) as S.
    rewrite !(kwh_soc _ _ _ W RN B) in S by lia. unfold soc_last, soc_first, over_steps. fold v in S.
    set (l := seq 1 (length (d_rows d) - 1)) in *.
    transitivity (Rsum (map (fun i => drawn_kwh (ess_round_trip_eff v) (ess_kw_out_ach (dec (row_at d i))) (step_dt d i)) l) * 3600).
    - lra.
    - rewrite <- Rsum_scal. f_equal. apply map_ext_in. intros i I. apply in_seq in I. rewrite drawn_loss; auto.
      intros Z. apply no_battery_out; auto. lia.
  Qed.
  Lemma accel_run i : (1 <= i < length (d_rows d))%nat -> step_dt d i <> 0 ->
    accel_kw (pwr (row_at d i)) * step_dt d i = veh_kg v / 2 * (speed d i ^ 2 - speed d (i - 1) ^ 2) / 1000.
  Proof.
    intros I D. destruct (last_walk _ _ _ W RN) as (d1 & s & A & W1 & H).
    pose proof (walk_walked _ _ _ _ W1 H) as K. rewrite (wk_accel _ _ _ _ K i I), cdt_step by lia.
    destruct run_len as (_ & _ & V & _). rewrite V. unfold nsq, mps_ach_at, speed. unR. field. exact D.
  Qed.
  Lemma ke_over : increasing (time_s (d_cyc d)) ->
    1 / 2 * veh_kg v * (speed d 0 ^ 2 - speed d (final_step d) ^ 2) / 1000 = - over_steps d (fun i => accel_kw (pwr (row_at d i))).
  Proof.
    intros I. unfold over_steps.
    transitivity (- Rsum (map (fun i => (fun j => veh_kg v / 2 * speed d j ^ 2 / 1000) i - (fun j => veh_kg v / 2 * speed d j ^ 2 / 1000) (i - 1)%nat)
                            (seq 1 (length (d_rows d) - 1)))).
    - rewrite telescope. unfold final_step. lra.
    - f_equal. f_equal. apply map_ext_in. intros i J. apply in_seq in J. cbv beta.
      pose proof (run_dt_pos _ _ _ _ (step_of i ltac:(lia)) I). rewrite accel_run; [lra|lia|lra].
  Qed.

  (** ** C30 *)
  Lemma audit_sum : increasing (time_s (d_cyc d)) -> no_elec_sys v = false \/ ess_max_kwh v = 0 ->
    audit_gap (set_post_scalars d) =
    over_steps d (fun i => driveline_imbalance (row_at d i) + road_imbalance (row_at d i)) - aux_load d 0 * first_time d.
  Proof.
    intros I E. destruct run_len as (L & P & V & _). destruct first_is as (s & F0).
    pose proof (dischg_over E) as D. pose proof (ke_over I) as KE. pose proof ess_loss_over as EL.
    unfold audit_gap, set_post_scalars. cbn [roadway_chg_kj ess_dischg_kj fuel_kj ke_kj drag_kj ascent_kj rr_kj brake_kj trans_kj mc_kj
      ess_eff_kj aux_kj fc_kj].
    rewrite EL. rewrite (sum_dt_over (fun r => aux_in_kw (misc r))). rewrite !sum_dt_zero by (rewrite F0; cbn; unR; lra).
    change (aux_in_kw (misc (row_at d 0))) with (aux_load d 0).
    rewrite V. change (@nofZ R RNum 3600) with 3600. change (@nofZ R RNum 1000) with 1000.
    replace (@lit R RNum 1 2) with (1 / 2) by (rewrite lit_R; lra).
    unfold nsq, mps_ach_at. change (mps_ach (spd (row_at d 0))) with (speed d 0).
    change (mps_ach (spd (row_at d (length (d_rows d) - 1)))) with (speed d (final_step d)).
    unR. replace (speed d 0 * speed d 0 - speed d (final_step d) * speed d (final_step d))
      with (speed d 0 ^ 2 - speed d (final_step d) ^ 2) by ring.
    unfold v in *. rewrite D, KE.
    transitivity (over_steps d (fun i => roadway_chg_kw_out_ach (dec (row_at d i))) +
      over_steps d (fun i => ess_kw_out_ach (dec (row_at d i)) + ess_loss (d_veh d0) (ess_kw_out_ach (dec (row_at d i)))) +
      over_steps d (fun i => fs_kw_out_ach (fc (row_at d i))) - over_steps d (fun i => accel_kw (pwr (row_at d i)))
      - (over_steps d (fun i => drag_kw (pwr (row_at d i))) + over_steps d (fun i => ascent_kw (pwr (row_at d i)))
         + over_steps d (fun i => rr_kw (pwr (row_at d i))) + over_steps d (fun i => cyc_fric_brake_kw (pwr (row_at d i)))
         + over_steps d (fun i => trans_kw_in_ach (pwr (row_at d i)) - trans_kw_out_ach (pwr (row_at d i)))
         + over_steps d (fun i => mc_elec_kw_in_ach (dec (row_at d i)) - mc_mech_kw_out_ach (dec (row_at d i)))
         + over_steps d (fun i => ess_loss (d_veh d0) (ess_kw_out_ach (dec (row_at d i))))
         + over_steps d (fun i => aux_in_kw (misc (row_at d i)))
         + over_steps d (fun i => fc_kw_in_ach (fc (row_at d i)) - fc_kw_out_ach (fc (row_at d i))))
      - aux_load d 0 * first_time d).
    { lra. }
    f_equal. repeat rewrite ?over_plus, ?over_minus. apply over_ext. intros i J.
    destruct (fuel_energy _ _ _ _ (step_of i J)) as (-> & _). unfold driveline_imbalance, road_imbalance. lra.
  Qed.
  Lemma road_left i : no_dilation d0 -> increasing (time_s (d_cyc d)) -> (1 <= i < length (d_rows d))%nat ->
    road_imbalance (row_at d i) * step_dt d i =
    shortfall (row_at d i) * step_dt d i + (wheels_kJ d i - wheels_kJ d (i - 1)).
  Proof.
    intros M I J. pose proof (step_of i J) as H. pose proof (run_dt_pos _ _ _ _ H I) as D.
    destruct (road_load _ _ _ _ H M) as (_ & _ & _ & _ & T & _ & _ & _ & Q).
    destruct (brakes _ _ _ _ H) as (_ & _ & B & _). cbv zeta in *. destruct run_len as (_ & _ & V & _).
    unfold road_imbalance, shortfall, wheels_kJ. rewrite V. fold v in T. rewrite B, Q, T. unfold mean_kw, v in *. field. lra.
  Qed.
  Lemma audit_met : no_dilation d0 -> increasing (time_s (d_cyc d)) -> no_elec_sys v = false \/ ess_max_kwh v = 0 ->
    audit_gap (set_post_scalars d) =
    over_steps d (fun i => driveline_imbalance (row_at d i) + shortfall (row_at d i))
    + (wheels_kJ d (final_step d) - wheels_kJ d 0) - aux_load d 0 * first_time d.
  Proof.
    intros M I E. rewrite audit_sum by auto. f_equal. unfold final_step. rewrite <- (telescope (wheels_kJ d)).
    unfold over_steps. rewrite Rsum_plus. f_equal. apply map_ext_in. intros i J. apply in_seq in J.
    pose proof (road_left i M I ltac:(lia)). lra.
  Qed.
  Lemma audit_zero : no_dilation d0 -> increasing (time_s (d_cyc d)) -> no_elec_sys v = false \/ ess_max_kwh v = 0 ->
    (forall i, (1 <= i < length (d_rows d))%nat ->
       driveline_imbalance (row_at d i) = 0 /\ cyc_met (pwr (row_at d i)) = true) ->
    speed d (final_step d) = speed d 0 -> aux_load d 0 = 0 \/ first_time d = 0 ->
    let p := set_post_scalars d in
    audit_gap p = 0 /\ (0 <= energy_audit_error_tol (d_sp d0) -> energy_audit_error p = 0 /\ audit_warning p = false).
  Proof.
    intros M I E H S A p. assert (G : audit_gap p = 0).
    { unfold p. rewrite audit_met by auto. rewrite over_zero.
      - unfold wheels_kJ. rewrite S. destruct A as [A|A]; rewrite A; lra.
      - intros i J. destruct (H i J) as (-> & C). destruct (transmission _ _ _ _ (step_of i J)) as (B & O & _). cbv zeta in *.
        apply B in C. unfold shortfall. rewrite O, Rmin_left by exact C. lra. }
    split; auto. intros T.
    assert (Z : energy_audit_error p = 0).
    { change (energy_audit_error p) with (audit_gap p / (roadway_chg_kj p + ess_dischg_kj p + fuel_kj p + ke_kj p)). rewrite G. unfold Rdiv. lra. }
    split; auto. change (audit_warning p) with (Rltb (energy_audit_error_tol (d_sp d)) (Rabs (energy_audit_error p))).
    rewrite Z, Rabs_R0. destruct run_len as (_ & _ & _ & _ & -> & _). destruct (Rltb_spec (energy_audit_error_tol (d_sp d0)) 0); [lra|reflexivity].
  Qed.
  (** The discharge figure of a vehicle without electric system. *)
  Lemma phantom : no_elec_sys v = true -> ess_max_kwh v <> 0 -> (2 <= length (d_rows d))%nat ->
    ess_dischg_kj (set_post_scalars d) = soc (dec (row_at d 0)) * ess_max_kwh v * 3600.
  Proof.
    intros E B L2. destruct run_len as (L & P & V & _). unfold set_post_scalars. cbn [ess_dischg_kj]. rewrite V.
    pose proof (step_of (length (d_rows d) - 1) ltac:(lia)) as H.
    pose proof (stored_none _ _ _ _ H E) as Z. destruct (soc_is _ _ _ _ H) as (_ & S). specialize (S B). rewrite Z in S.
    unfold soc_last, soc_first. rewrite S. unR. change (@nofZ R RNum 3600) with 3600. unfold Rdiv. lra.
  Qed.
End Run.

(** ** C30: when the driveline balances *)
Lemma shaft_driveline d0 ovr d i : is_step d0 ovr d i -> let v := d_veh d0 in let r := row_at d i in
  let asked := trans_kw_in_ach (pwr r) - mc_mech_kw_out_ach (dec r) + (if aux_on_shaft v r then aux_load d i else 0) in
  is_h2fc (fc_eff_type v) = false -> fc_max_kw v <> 0 -> ess_max_kw v <> 0 -> ess_max_kwh v <> 0 ->
  no_elec_aux v = true \/ no_elec_sys v = false ->
  driveline_imbalance r = Rmin (cur_max_fc_kw_out (lims r)) (Rmax 0 asked) - asked.
Proof.
  intros H v r asked A B C D E. pose proof (electric_bus _ _ _ _ H C D A) as EB.
  pose proof (mechanical_bus _ _ _ _ H B A E) as MB. cbv zeta in *. pose proof (road_zero _ _ _ _ H) as RZ.
  unfold driveline_imbalance, r. rewrite RZ, EB, MB. unfold asked, r, aux_load, v. destruct (aux_on_shaft _ _); lra.
Qed.
Lemma engine_driveline d0 ovr d i : is_step d0 ovr d i -> let v := d_veh d0 in let r := row_at d i in
  let asked := trans_kw_in_ach (pwr r) + aux_load d i in
  is_h2fc (fc_eff_type v) = false -> fc_max_kw v <> 0 -> ess_max_kw v = 0 -> mc_max_kw v = 0 -> no_elec_aux v = true ->
  driveline_imbalance r = Rmin (cur_max_fc_kw_out (lims r)) (Rmax 0 asked) - asked.
Proof.
  intros H v r asked A B C D E. pose proof (no_battery _ _ _ _ H C) as (EB & _).
  pose proof (no_motor _ _ _ _ H D) as (M1 & M2).
  pose proof (mechanical_bus _ _ _ _ H B A (or_introl E)) as MB. cbv zeta in *. pose proof (road_zero _ _ _ _ H) as RZ.
  unfold driveline_imbalance, r. rewrite RZ, EB, M2, MB, M1. unfold asked, r, aux_load, v in *.
  unfold aux_on_shaft. rewrite E. cbn [orb].
  replace (trans_kw_in_ach (pwr (row_at d i)) - 0 + aux_in_kw (misc (row_at d i))) with
    (trans_kw_in_ach (pwr (row_at d i)) + aux_in_kw (misc (row_at d i))) by ring. lra.
Qed.
Lemma battery_driveline d0 ovr d i : is_step d0 ovr d i -> let v := d_veh d0 in let r := row_at d i in
  is_h2fc (fc_eff_type v) = false -> fc_max_kw v = 0 -> ess_max_kw v <> 0 -> ess_max_kwh v <> 0 ->
  driveline_imbalance r = mc_mech_kw_out_ach (dec r) - trans_kw_in_ach (pwr r) - (if aux_on_shaft v r then aux_load d i else 0).
Proof.
  intros H v r A B C D. pose proof (electric_bus _ _ _ _ H C D A) as EB.
  destruct (fc_none _ _ _ _ H B) as (MB & _). cbv zeta in *. pose proof (road_zero _ _ _ _ H) as RZ.
  unfold driveline_imbalance, r. rewrite RZ, EB, MB. unfold r, aux_load, v. destruct (aux_on_shaft _ _); lra.
Qed.
Lemma cell_driveline d0 ovr d i : is_step d0 ovr d i -> let v := d_veh d0 in let r := row_at d i in
  let asked := mc_elec_kw_in_ach (dec r) + aux_load d i - ess_kw_out_ach (dec r) in
  is_h2fc (fc_eff_type v) = true -> fc_max_kw v <> 0 ->
  driveline_imbalance r = (mc_mech_kw_out_ach (dec r) - trans_kw_in_ach (pwr r))
    + (Rmin (cur_max_fc_kw_out (lims r)) (Rmax 0 asked) - asked).
Proof.
  intros H v r asked A B. destruct (fuel_cell_bus _ _ _ _ H B A) as (MB & _). cbv zeta in *. pose proof (road_zero _ _ _ _ H) as RZ.
  unfold driveline_imbalance, r. rewrite RZ, MB. unfold asked, aux_load, r. lra.
Qed.
