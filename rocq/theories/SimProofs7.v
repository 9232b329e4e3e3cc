(** Proofs for the refined grade, the best engine power and roadway charging. *)
From Verif Require Import Num Numpy ListFacts CycleModel CycleSpec VehModel SimModel SimState WalkModel
  FrameProofs WalkProofs StepEqs StepProofs SimSpec SimSpec2 SimProofs1 SimProofs2 SimProofs3 SimProofs4 SimProofs5.
Local Open Scope R_scope.

(** ** Grade *)
Lemma grade_loop_rounds v pr sp (e : step_env R) v1 l fuel : forall g r n,
  grade_loop v pr sp e v1 l g fuel = (r, n) ->
  refined (e_grade e) (fun g' x m => newton_mps_estimate sp (speed_cubic v pr e v1 l g') v1 = (x, m)) fuel g r n.
Proof.
  induction fuel as [|k IH]; intros g r n H; cbn [grade_loop] in H;
    destruct (newton_mps_estimate sp (speed_cubic v pr e v1 l g) v1) as [x m] eqn:E.
  - injection H as <- <-. apply given_up. exact E.
  - revert H. toR. destruct (Rltb_spec (1 / 1000000) (Rabs (g - e_grade e x))) as [L|L]; intros H.
    + apply (again _ _ k g x m); auto.
    + injection H as <- <-. apply settled; [exact E|lra].
Qed.
Lemma refined_mono (look look' : R -> R) (found found' : R -> R -> nat -> Prop) k g x n :
  (forall y, look y = look' y) -> (forall a b c, found a b c -> found' a b c) ->
  refined look found k g x n -> refined look' found' k g x n.
Proof.
  intros E I H. induction H as [k g x n A B|g x n A|k g y m x n A B C IH].
  - apply settled; auto. now rewrite <- E.
  - apply given_up. auto.
  - apply (again _ _ k g y m); auto; rewrite <- E; auto.
Qed.
Lemma grade_refined d0 ovr d i : is_step d0 ovr d i -> increasing (time_s (d_cyc d)) ->
  wheel_radius_m (d_veh d0) <> 0 -> (1 <= newton_max_iter (d_sp d0))%nat -> no_dilation d0 ->
  newton_iters (spd (row_at d i)) <> 0%nat ->
  refined (fun x => lookup_grade d i (Some x))
    (search_result (d_veh d0) (d_props d0) (d_sp d0) (cur_max_trans_kw_out (lims (row_at d i))) (speed d (i - 1)) (step_dt d i))
    2 (estimate_grade d i) (speed d i) (newton_iters (spd (row_at d i))).
Proof.
  intros H I RD MI M NI. pose proof (run_dt_pos _ _ _ _ H I) as DT.
  open_step H. pose proof (op_step _ _ _ _ _ _ _ O) as S.
  pose proof (pt_speed _ _ _ _ _ _ _ _ (sr_parts _ _ _ _ _ _ _ S)) as P.
  destruct (sr_fresh _ _ _ _ _ _ _ S M) as (Z & _).
  pose proof (op_dt _ _ _ _ _ _ _ O) as ED.
  unfold set_ach_speed in P. destruct (cyc_met _).
  - injection P as _ P. exfalso. apply NI. rewrite <- P. exact Z.
  - destruct (grade_loop _ _ _ _ _ _ _ _) as [x1 n1] eqn:G. injection P as _ P.
    apply grade_loop_rounds in G. unfold speed at 2. rewrite <- P. unfold mkspd_of. cbn [mps_ach newton_iters].
    rewrite (sr_est _ _ _ _ _ _ _ S) in G.
    revert G. apply refined_mono.
    + intros y. now rewrite <- (sr_grade _ _ _ _ _ _ _ S).
    + intros gg xx nn E. fold (speed d (i - 1)) in E. set (v1 := speed d (i - 1)) in *.
      set (c := speed_cubic _ _ _ _ _ _) in E.
      destruct (newton_result _ _ _ _ _ MI E) as (xs & b & N1 & N2 & N3 & N4).
      assert (EQ : forall y, cub_y c y = wheel_kw (d_veh d0) (d_props d0) gg v1 (step_dt d i) y
                                          - cur_max_trans_kw_out (lims (row_at d i))).
      { intros y. unfold c. rewrite cubic_is_balance, ED; auto. rewrite ED. apply Rgt_not_eq. exact DT. }
      exists (cub_m c), xs, b. cbv zeta. split.
      * intros y. apply (derivable_pt_lim_ext (cub_y c)); auto. apply cubic_slope.
      * split; [exact (search_ext _ _ _ _ _ _ _ _ EQ N1)|]. split; [exact (best_ext _ _ _ _ EQ N2)|]. auto.
Qed.

(** ** argmax *)
Lemma argmax_from_spec : forall (l pre : list R) best bi,
  nth_error pre bi = Some best -> (forall j x, nth_error pre j = Some x -> x <= best) ->
  (forall j x, (j < bi)%nat -> nth_error pre j = Some x -> x < best) ->
  let k := argmax_from best bi (length pre) l in let es := pre ++ l in
  exists e, nth_error es k = Some e /\ (forall j x, nth_error es j = Some x -> x <= e) /\
    (forall j x, (j < k)%nat -> nth_error es j = Some x -> x < e).
Proof.
  induction l as [|x r IH]; intros pre best bi A B C; cbn [argmax_from]; cbv zeta.
  - rewrite app_nil_r. eauto.
  - assert (L : (bi < length pre)%nat) by (apply nth_error_Some; rewrite A; discriminate).
    assert (SP : forall j y, nth_error (pre ++ [x]) j = Some y -> nth_error pre j = Some y \/ (j = length pre /\ y = x)).
    { intros j y Q. destruct (Nat.lt_ge_cases j (length pre)) as [J|J].
      - rewrite nth_error_app1 in Q by lia. auto.
      - rewrite nth_error_app2 in Q by lia. destruct (j - length pre)%nat eqn:D; cbn in Q.
        + right. split; [lia|congruence].
        + destruct n; discriminate. }
    toR. assert (EL : S (length pre) = length (pre ++ [x])) by (rewrite app_length; cbn; lia).
    rewrite EL. change (pre ++ x :: r) with (pre ++ [x] ++ r). rewrite app_assoc.
    destruct (Rltb_spec best x) as [Q|Q].
    + apply IH.
      * rewrite nth_error_app2, Nat.sub_diag by lia. reflexivity.
      * intros j y Y. destruct (SP _ _ Y) as [Y'|(_ & ->)]; [|lra]. apply B in Y'. lra.
      * intros j y J Y. rewrite nth_error_app1 in Y by lia. apply B in Y. lra.
    + apply IH.
      * now rewrite nth_error_app1 by lia.
      * intros j y Y. destruct (SP _ _ Y) as [Y'|(_ & ->)]; [|lra]. eauto.
      * intros j y J Y. rewrite nth_error_app1 in Y by lia. eauto.
Qed.
Lemma argmax_spec (es : list R) : es <> [] ->
  exists e, nth_error es (argmax_n es) = Some e /\ (forall j x, nth_error es j = Some x -> x <= e) /\
    (forall j x, (j < argmax_n es)%nat -> nth_error es j = Some x -> x < e).
Proof.
  destruct es as [|x r]; [congruence|]. intros _. unfold argmax_n.
  apply (argmax_from_spec r [x] x 0); [reflexivity| |intros; lia].
  intros [|[|j]] y; cbn; intros Q; try discriminate. injection Q as <-. lra.
Qed.
Lemma best_power (v : vehicle R) : fc_eff_array v <> [] -> length (fc_kw_out_array v) = length (fc_eff_array v) ->
  most_efficient (fc_kw_out_array v) (fc_eff_array v) (max_fc_eff_kw v).
Proof.
  intros NE L. destruct (argmax_spec _ NE) as (e & A & B & C). exists (argmax_n (fc_eff_array v)), e.
  split; auto. split; auto. unfold max_fc_eff_kw. apply nth_error_nth'. rewrite L.
  apply nth_error_Some. rewrite A. discriminate.
Qed.

(** ** Roadway charging at a single solved step *)
Lemma step_parts (d : sdrive R) i : (i < length (d_rows d))%nat ->
  exists q, parts (d_veh d) (d_props d) (d_sp d) (env_at d i) (row_at d (i - 1)) (row_at d i) (row_at (solve_step d i) i) q.
Proof.
  intros L. unfold solve_step. rewrite upd_row_same by exact L. apply parts_of.
  - unfold same_but_accel. reflexivity.
  - unfold solve_row. destruct (set_ach_speed _ _ _ _ _ _ _ _). reflexivity.
Qed.
Lemma road_limits (d : sdrive R) i : (i < length (d_rows d))%nat ->
  let avail := cur_max_roadway_chg_kw (ctl (row_at d i)) in let r := row_at (solve_step d i) i in
  let used := roadway_chg_kw_out_ach (dec r) in
  (avail = 0 -> used = 0) /\
  (0 <= avail -> is_h2fc (fc_eff_type (d_veh d)) = false -> 0 <= used <= avail) /\
  (avail <> 0 -> is_h2fc (fc_eff_type (d_veh d)) = true ->
   used = Rmax (Rmax (Rmax (Rmax 0 (mc_elec_kw_in_ach (dec r))) (max_ess_regen_buff_chg_kw (hyb r)))
                     (ess_regen_buff_dischg_kw (hyb r))) avail).
Proof.
  intros L. cbv zeta. destruct (step_parts d i L) as (q & P).
  set (r := row_at (solve_step d i) i) in *. set (cur := row_at d i) in *.
  pose proof (dec_are (d_veh d) (env_at d i) (row_at d (i - 1)) (misc r) (lims r) q (hyb r) (forced r) (ctl cur) (fc_kw_out_ach (fc cur))) as D.
  rewrite <- (pt_dec _ _ _ _ _ _ _ _ P) in D.
  pose proof (hyb_are (d_veh d) (env_at d i) (row_at d (i - 1)) (misc r) (lims r) q (ctl cur) (hyb cur)) as H.
  rewrite <- (pt_hyb _ _ _ _ _ _ _ _ P) in H.
  rewrite (de_road _ _ _ _ _ _ _ _ _ _ _ D). unfold calc_roadway. toR. split; [|split].
  - intros ->. destruct (Reqb_spec 0 0); [reflexivity|lra].
  - intros A NH. rewrite NH. destruct (Reqb_spec (cur_max_roadway_chg_kw (ctl cur)) 0) as [E|E]; [lra|].
    destruct (can_pwr_all_elec (hyb r)).
    + rewrite (he_erae _ _ _ _ _ _ _ _ _ H). rewrite nmin_R, nmax_R. split; [|apply Rmin_r].
      apply Rmin_glb; [apply Rmax_l|exact A].
    + rewrite (de_erreq _ _ _ _ _ _ _ _ _ _ _ D). rewrite nmax_R, !nmin_R. split; [apply Rmax_l|].
      apply Rmax_lub; [exact A|]. eapply Rle_trans; [apply Rmin_l|apply Rmin_l].
  - intros E ->. destruct (Reqb_spec (cur_max_roadway_chg_kw (ctl cur)) 0); [lra|reflexivity].
Qed.
Lemma road_bus (d : sdrive R) i : (i < length (d_rows d))%nat ->
  let v := d_veh d in let r := row_at (solve_step d i) i in
  ess_max_kw v <> 0 -> ess_max_kwh v <> 0 -> is_h2fc (fc_eff_type v) = false ->
  ess_kw_out_ach (dec r) + roadway_chg_kw_out_ach (dec r) =
    mc_elec_kw_in_ach (dec r) + (if aux_on_shaft v r then 0 else aux_in_kw (misc r)).
Proof.
  intros L. cbv zeta. intros K1 K2 NH. destruct (step_parts d i L) as (q & P).
  set (r := row_at (solve_step d i) i) in *. set (cur := row_at d i) in *.
  pose proof (dec_are (d_veh d) (env_at d i) (row_at d (i - 1)) (misc r) (lims r) q (hyb r) (forced r) (ctl cur) (fc_kw_out_ach (fc cur))) as D.
  rewrite <- (pt_dec _ _ _ _ _ _ _ _ P) in D.
  rewrite (de_ess _ _ _ _ _ _ _ _ _ _ _ D). unfold calc_ess_out, aux_on_shaft. rewrite NH. unR.
  destruct (Reqb_spec (ess_max_kw (d_veh d)) 0); [lra|]. destruct (Reqb_spec (ess_max_kwh (d_veh d)) 0); [lra|].
  cbn [orb]. rewrite (Bool.orb_comm (no_elec_aux (d_veh d))).
  destruct (high_acc_fc_on_tag (misc r) || no_elec_aux (d_veh d))%bool; lra.
Qed.
Lemma road_supply (d : sdrive R) i : (i < length (d_rows d))%nat ->
  let v := d_veh d in let r := row_at (solve_step d i) i in
  cur_max_elec_kw (lims r) = (if is_h2fc (fc_eff_type v) then cur_max_fc_kw_out (lims r) else 0)
    + cur_max_roadway_chg_kw (ctl (row_at d i)) + cur_ess_max_kw_out (lims r) - aux_in_kw (misc r).
Proof.
  intros L. cbv zeta. destruct (step_parts d i L) as (q & P).
  set (r := row_at (solve_step d i) i) in *. set (cur := row_at d i) in *.
  pose proof (lims_are (d_veh d) (d_props d) (env_at d i) (row_at d (i - 1)) (misc r) (ctl cur)) as D.
  rewrite <- (pt_lims _ _ _ _ _ _ _ _ P) in D.
  rewrite (le_elec _ _ _ _ _ _ _ D). unR. destruct (is_h2fc _); lra.
Qed.
