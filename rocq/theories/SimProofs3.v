(** Efficiency maps, component losses and the battery. *)
From Verif Require Import Num Numpy ListFacts CycleModel CycleSpec VehModel SimModel SimState WalkModel
  FrameProofs WalkProofs StepEqs StepProofs SimSpec SimProofs1 SimProofs2.
Local Open Scope R_scope.

(** ** Map look-ups *)
Lemma getZ_nat (l : list R) k x : nth_error l k = Some x -> getZ l (Z.of_nat k) = x.
Proof. intros H. unfold getZ. now rewrite (pyget_nonneg _ _ _ H). Qed.
Lemma getZ_last (l : list R) : l <> [] -> nth_error l (length l - 1) = Some (getZ l (-1)).
Proof.
  destruct l as [|a l]; [congruence|]. intros _. unfold getZ. rewrite pyget_last, last_nth.
  apply nth_error_nth'. cbn. lia.
Qed.
Lemma first_above (grid : list R) x :
  (exists k a, first_true (map (fun g => nltb x g) grid) = Some k /\ nth_error grid k = Some a /\ x < a /\
     forall j b, (j < k)%nat -> nth_error grid j = Some b -> b <= x) \/
  (first_true (map (fun g => nltb x g) grid) = None /\ forall j b, nth_error grid j = Some b -> b <= x).
Proof.
  destruct (first_true _) as [k|] eqn:E.
  - left. apply first_true_Some in E. destruct E as [E1 E2]. rewrite nth_error_map in E1.
    destruct (nth_error grid k) as [a|] eqn:G; [|discriminate]. cbn in E1. injection E1 as E1. unR.
    apply Rltb_true in E1. exists k, a. split; [reflexivity|]. split; auto. split; auto. intros j b Hj Hb.
    specialize (E2 j Hj). rewrite nth_error_map, Hb in E2. cbn in E2. injection E2 as E2. unR.
    now apply Rltb_false in E2.
  - right. split; auto. rewrite first_true_None in E. intros j b Hb. specialize (E j).
    rewrite nth_error_map, Hb in E. cbn in E. unR. destruct (Rltb_spec x b); [congruence|lra].
Qed.
(** The fuel-converter look-up. *)
Lemma below_point (grid eff : list R) x g0 : length grid = length eff -> nth_error grid 0 = Some g0 -> g0 <= x ->
  exists k, grid_point grid x k /\ nth_error eff k = Some (getZ eff (below grid x)).
Proof.
  intros L G H. unfold below, argmax_b.
  destruct (first_above grid x) as [(k & a & -> & A1 & A2 & A3)|(-> & A)].
  - destruct k as [|k]. { rewrite G in A1. injection A1 as <-. lra. }
    assert (LK : (S k < length grid)%nat) by (apply nth_error_Some; congruence).
    exists k. split.
    + split; [intros j b Hj; apply A3; lia|]. split.
      * exists (nth k grid 0). apply nth_error_nth'. lia.
      * intros b Hb. congruence.
    + replace (Z.of_nat (S k) - 1)%Z with (Z.of_nat k) by lia.
      rewrite (nth_error_nth' eff 0) by lia. f_equal. symmetry. apply getZ_nat. apply nth_error_nth'. lia.
  - assert (LG : (0 < length grid)%nat) by (apply nth_error_Some; congruence).
    exists (length grid - 1)%nat. split.
    + split; [intros j b _; apply A|]. split.
      * exists (nth (length grid - 1) grid 0). apply nth_error_nth'. lia.
      * intros b Hb. assert (S (length grid - 1) < length grid)%nat by (apply nth_error_Some; congruence). lia.
    + rewrite L. change (Z.of_nat 0 - 1)%Z with (-1)%Z. apply getZ_last.
      intros ->. cbn in L. lia.
Qed.
(** The motor look-up. *)
Lemma mc_eff_point (v : vehicle R) grid top x : (2 <= length (mc_full_eff_array v))%nat ->
  length grid = length (mc_full_eff_array v) ->
  exists k, (1 <= k)%nat /\ nth_error (mc_full_eff_array v) k = Some (mc_eff_at v grid top x) /\
    (forall g0 b, nth_error grid 0 = Some g0 -> g0 <= Rmin (top - 1/100) x ->
       In b grid -> Rmin (top - 1/100) x < b ->
       exists j, grid_point grid (Rmin (top - 1/100) x) j /\ k = Nat.max 1 j).
Proof.
  intros L2 L. unfold mc_eff_at, below, argmax_b. rewrite nmin_R. rewrite lit_R. unR. set (y := Rmin _ _).
  destruct (first_above grid y) as [(k & a & E & A1 & A2 & A3)|(E & A)];
    change (@nltb R RNum) with Rltb in E; rewrite E; clear E.
  - assert (LK : (k < length grid)%nat) by (apply nth_error_Some; congruence).
    exists (Nat.max 1 (k - 1)). split; [lia|]. split.
    + replace (Z.max 1 (Z.of_nat k - 1)) with (Z.of_nat (Nat.max 1 (k - 1))) by lia.
      rewrite (nth_error_nth' _ 0) by lia. f_equal. symmetry. apply getZ_nat. apply nth_error_nth'. lia.
    + intros g0 b G0 G1 _ _. destruct k as [|k]. { rewrite G0 in A1. injection A1 as <-. lra. }
      exists k. split; [|lia]. split; [intros j c Hj; apply A3; lia|]. split.
      * exists (nth k grid 0). apply nth_error_nth'. lia.
      * intros c Hc. congruence.
  - exists 1%nat. split; [lia|]. split.
    + change (Z.max 1 (Z.of_nat 0 - 1)) with (Z.of_nat 1).
      rewrite (nth_error_nth' _ 0) by lia. f_equal. symmetry. apply getZ_nat. apply nth_error_nth'. lia.
    + intros g0 b _ _ B1 B2. apply In_nth_error in B1. destruct B1 as (j & B1). specialize (A _ _ B1). lra.
Qed.
Lemma mc_last_point (v : vehicle R) : (2 <= length (mc_full_eff_array v))%nat ->
  nth_error (mc_full_eff_array v) (length (mc_full_eff_array v) - 1) = Some (mc_eff_last v).
Proof. intros L. unfold mc_eff_last. apply getZ_last. intros E. rewrite E in L. cbn in L. lia. Qed.
Lemma nmaxl_in (a : R) l : In (nmaxl a l) (a :: l).
Proof.
  unfold nmaxl. revert a; induction l as [|b l IH]; intros a; cbn [fold_left]; [now left|].
  specialize (IH (nmax a b)). destruct IH as [IH|IH].
  - rewrite <- IH. unfold nmax. destruct (nltb a b); cbn; auto.
  - right. now right.
Qed.
Lemma nmaxl_ge (l : list R) : forall a x, In x (a :: l) -> x <= nmaxl a l.
Proof.
  unfold nmaxl. induction l as [|b l IH]; intros a x H; cbn [fold_left].
  - destruct H as [->|[]]. lra.
  - assert (A : nmax a b <= fold_left nmax l (nmax a b)) by (apply IH; now left).
    rewrite nmax_R in A at 1. destruct H as [->|[->|H]].
    + pose proof (Rmax_l x b). lra.
    + pose proof (Rmax_r a x). lra.
    + apply IH. now right.
Qed.
Lemma amax_in (l : list R) : l <> [] -> In (amax l) l.
Proof. destruct l; [congruence|]. intros _. apply nmaxl_in. Qed.
Lemma amax_ge (l : list R) x : In x l -> x <= amax l.
Proof. destruct l; [intros []|]. apply nmaxl_ge. Qed.

(** ** C22, C23: efficiencies used at a step *)
Lemma fc_eff_used d0 ovr d i g0 : is_step d0 ovr d i -> increasing (time_s (d_cyc d)) ->
  0 <= fc_max_kw (d_veh d0) -> 0 < fc_sec_to_peak_pwr (d_veh d0) ->
  length (fc_kw_out_array (d_veh d0)) = length (fc_eff_array (d_veh d0)) ->
  nth_error (fc_kw_out_array (d_veh d0)) 0 = Some g0 -> g0 <= fc_kw_out_ach (fc (row_at d i)) ->
  0 < fc_kw_out_ach (fc (row_at d i)) ->
  exists k eff, grid_point (fc_kw_out_array (d_veh d0)) (fc_kw_out_ach (fc (row_at d i))) k /\
    nth_error (fc_eff_array (d_veh d0)) k = Some eff /\
    fc_kw_in_ach (fc (row_at d i)) = (if Req_EM_T eff 0 then 0 else fc_kw_out_ach (fc (row_at d i)) / eff).
Proof.
  intros H I A B L G0 G1 P. destruct (fc_within _ _ _ _ H I A B) as (W1 & W2 & _).
  open_step H. rewrite (fe_in _ _ _ _ _ _ _ (op_fc _ _ _ _ _ _ _ O)).
  set (o := fc_kw_out_ach (fc (row_at d i))) in *.
  destruct (below_point _ _ o g0 L G0 G1) as (k & K1 & K2). exists k, (fc_eff_at (d_veh d0) o).
  split; auto. unfold fc_eff_at at 1. rewrite nmin_R, Rmin_left by lra. split; auto.
  unR. destruct (Reqb_spec o 0); [lra|].
  destruct (Reqb_spec (fc_eff_at (d_veh d0) o) 0); cbn [negb]; destruct (Req_EM_T _ _); try reflexivity; lra.
Qed.
Lemma mc_elec d0 ovr d i : is_step d0 ovr d i ->
  mc_elec_kw_in_ach (dec (row_at d i)) = calc_mc_elec_in (d_veh d0) (mc_mech_kw_out_ach (dec (row_at d i))).
Proof. intros H. open_step H. exact (de_elin _ _ _ _ _ _ _ _ _ _ _ (op_dec _ _ _ _ _ _ _ O)). Qed.
Lemma motor_eff_used d0 ovr d i : is_step d0 ovr d i ->
  let v := d_veh d0 in
  (2 <= length (mc_full_eff_array v))%nat ->
  length (mc_kw_out_array v) = length (mc_full_eff_array v) ->
  length (mc_kw_in_array v) = length (mc_full_eff_array v) ->
  In (mc_max_kw v) (mc_kw_out_array v) ->
  let mech := mc_mech_kw_out_ach (dec (row_at d i)) in
  let elec := mc_elec_kw_in_ach (dec (row_at d i)) in
  (mech = 0 -> elec = 0) /\
  (0 < mech -> exists eff, motor_eff v (mc_kw_out_array v) (mc_max_kw v) mech eff /\ elec = mech / eff) /\
  (mech < 0 -> exists eff, motor_eff v (mc_kw_in_array v) (amax (mc_kw_in_array v)) (- mech) eff /\ elec = mech * eff).
Proof.
  intros H v L2 L3 L4 T mech elec. unfold elec. rewrite (mc_elec _ _ _ _ H). fold mech. unfold calc_mc_elec_in.
  assert (NE : mc_kw_in_array (d_veh d0) <> []). { intros E. unfold v in *. rewrite E in L4. cbn in L4. lia. }
  unR. destruct (Reqb_spec mech 0) as [Z|Z]. { split; auto. split; intros; lra. }
  split; [intros; lra|]. split; intros S.
  - destruct (Rltb_spec mech 0); [lra|]. destruct (Reqb_spec (mc_max_kw (d_veh d0)) mech) as [E|E].
    + exists (mc_eff_last (d_veh d0)). split; [|reflexivity].
      exists (length (mc_full_eff_array v) - 1)%nat. split; [lia|]. split; [now apply mc_last_point|].
      split; auto. intros D. exfalso. apply D. now rewrite <- E.
    + exists (mc_eff_at (d_veh d0) (mc_kw_out_array (d_veh d0)) (mc_max_kw (d_veh d0)) mech). split; [|reflexivity].
      destruct (mc_eff_point v _ (mc_max_kw v) mech L2 L3) as (k & K1 & K2 & K3).
      exists k. split; auto. split; auto. split. { intros D. exfalso. apply E. symmetry. exact D. }
      intros _ G0 G1 G2. apply (K3 0 (mc_max_kw v)); auto.
      * apply Rmin_glb; lra.
      * pose proof (Rmin_l (mc_max_kw v - 1 / 100) mech). lra.
  - destruct (Rltb_spec mech 0); [|lra]. replace (mech * - (1)) with (- mech) by ring.
    destruct (Reqb_spec (- mech) (amax (mc_kw_in_array (d_veh d0)))) as [E|E].
    + exists (mc_eff_last (d_veh d0)). split; [|reflexivity].
      exists (length (mc_full_eff_array v) - 1)%nat. split; [lia|]. split; [now apply mc_last_point|].
      split; auto. intros D. now contradiction D.
    + exists (mc_eff_at (d_veh d0) (mc_kw_in_array (d_veh d0)) (amax (mc_kw_in_array (d_veh d0))) (- mech)).
      split; [|reflexivity].
      destruct (mc_eff_point v _ (amax (mc_kw_in_array v)) (- mech) L2 L4) as (k & K1 & K2 & K3).
      exists k. split; auto. split; auto. split. { intros D. now contradiction E. }
      intros _ G0 G1 G2. apply (K3 0 (amax (mc_kw_in_array v))); auto.
      * apply Rmin_glb; lra.
      * now apply amax_in.
      * pose proof (Rmin_l (amax (mc_kw_in_array v) - 1 / 100) (- mech)). lra.
Qed.

Lemma div_eff_ge x eff : 0 < eff <= 1 -> 0 <= x -> x <= x / eff.
Proof.
  intros E X. unfold Rdiv. assert (1 <= / eff). { rewrite <- Rinv_1 at 1. apply Rinv_le_contravar; lra. } nra.
Qed.
Lemma trans_loss d0 ovr d i : is_step d0 ovr d i -> 0 < trans_eff (d_veh d0) <= 1 ->
  trans_kw_out_ach (pwr (row_at d i)) <= trans_kw_in_ach (pwr (row_at d i)).
Proof.
  intros H E. destruct (transmission _ _ _ _ H) as (_ & _ & A & B). cbv zeta in *.
  set (o := trans_kw_out_ach _) in *.
  destruct (Rlt_dec 0 o) as [L|L]; [rewrite (A L)|rewrite B by lra].
  - apply div_eff_ge; lra.
  - nra.
Qed.
Lemma motor_loss d0 ovr d i : is_step d0 ovr d i -> motor_map_ok (d_veh d0) ->
  mc_mech_kw_out_ach (dec (row_at d i)) <= mc_elec_kw_in_ach (dec (row_at d i)).
Proof.
  intros H M. rewrite (mc_elec _ _ _ _ H). set (mech := mc_mech_kw_out_ach _). unfold calc_mc_elec_in. unR.
  pose proof (mm_two _ M) as L2.
  assert (L1 : (1 <= length (mc_full_eff_array (d_veh d0)) - 1)%nat) by lia.
  assert (EL := mm_eff _ M _ _ L1 (mc_last_point _ L2)).
  assert (EA : forall g t x, length g = length (mc_full_eff_array (d_veh d0)) -> 0 < mc_eff_at (d_veh d0) g t x <= 1).
  { intros g t x Hg. destruct (mc_eff_point _ g t x L2 Hg) as (k & K1 & K2 & _). eapply M; eauto. }
  destruct (Reqb_spec mech 0); [lra|]. destruct (Rltb_spec mech 0).
  - pose proof (EA _ (amax (mc_kw_in_array (d_veh d0))) (mech * - (1)) (mm_in _ M)). rcase; nra.
  - rcase; apply div_eff_ge; try lra. apply EA, M.
Qed.
Lemma getZ_below_in (eff grid : list R) x : (1 <= length eff)%nat -> length grid = length eff -> In (getZ eff (below grid x)) eff.
Proof.
  intros L1 L. unfold below, argmax_b.
  assert (LE : In (getZ eff (-1)) eff). { eapply nth_error_In. apply getZ_last. intros ->. cbn in L1. lia. }
  destruct (first_above grid x) as [(k & a & -> & A1 & _)|(-> & A)]; [|exact LE].
  destruct k as [|k]; [exact LE|]. replace (Z.of_nat (S k) - 1)%Z with (Z.of_nat k) by lia.
  assert (LK : (S k < length grid)%nat) by (apply nth_error_Some; congruence).
  assert (E := nth_error_nth' eff 0 (n := k) ltac:(lia)). rewrite (getZ_nat _ _ _ E). eapply nth_error_In; eauto.
Qed.
Lemma fc_loss d0 ovr d i : is_step d0 ovr d i -> increasing (time_s (d_cyc d)) ->
  0 <= fc_max_kw (d_veh d0) -> 0 < fc_sec_to_peak_pwr (d_veh d0) -> engine_map_ok (d_veh d0) ->
  0 <= fc_kw_out_ach (fc (row_at d i)) <= fc_kw_in_ach (fc (row_at d i)).
Proof.
  intros H I A B M. destruct (fc_within _ _ _ _ H I A B) as (W1 & W2 & _). split; [lra|].
  open_step H. rewrite (fe_in _ _ _ _ _ _ _ (op_fc _ _ _ _ _ _ _ O)).
  set (o := fc_kw_out_ach (fc (row_at d i))) in *. unR.
  assert (E : 0 < fc_eff_at (d_veh d0) o <= 1). { apply M. apply getZ_below_in; apply M. }
  destruct (Reqb_spec o 0); [lra|]. destruct (Reqb_spec (fc_eff_at (d_veh d0) o) 0); [lra|]. cbn [negb].
  apply div_eff_ge; lra.
Qed.

(** ** C24: stored energy *)
Lemma stored d0 ovr d i : is_step d0 ovr d i -> no_elec_sys (d_veh d0) = false ->
  ess_cur_kwh (dec (row_at d i)) = ess_cur_kwh (dec (row_at d (i - 1)))
    - drawn_kwh (ess_round_trip_eff (d_veh d0)) (ess_kw_out_ach (dec (row_at d i))) (step_dt d i).
Proof.
  intros H N. open_step H. rewrite (de_kwh _ _ _ _ _ _ _ _ _ _ _ (op_dec _ _ _ _ _ _ _ O)).
  unfold calc_ess_cur_kwh, drawn_kwh. rewrite N, (op_dt _ _ _ _ _ _ _ O). toR.
  set (p := ess_kw_out_ach _). destruct (Rltb_spec p 0); destruct (Rlt_dec p 0); try lra.
Qed.
Lemma stored_none d0 ovr d i : is_step d0 ovr d i -> no_elec_sys (d_veh d0) = true ->
  ess_cur_kwh (dec (row_at d i)) = 0.
Proof.
  intros H N. open_step H. rewrite (de_kwh _ _ _ _ _ _ _ _ _ _ _ (op_dec _ _ _ _ _ _ _ O)).
  unfold calc_ess_cur_kwh. now rewrite N.
Qed.
Lemma soc_is d0 ovr d i : is_step d0 ovr d i ->
  (ess_max_kwh (d_veh d0) = 0 -> soc (dec (row_at d i)) = 0) /\
  (ess_max_kwh (d_veh d0) <> 0 -> soc (dec (row_at d i)) = ess_cur_kwh (dec (row_at d i)) / ess_max_kwh (d_veh d0)).
Proof.
  intros H. open_step H. rewrite (de_soc _ _ _ _ _ _ _ _ _ _ _ (op_dec _ _ _ _ _ _ _ O)). unR.
  destruct (Reqb_spec (ess_max_kwh (d_veh d0)) 0); split; intros; auto; lra.
Qed.
Lemma kwh_soc d0 ovr d : wf_sd d0 -> run d0 ovr d -> ess_max_kwh (d_veh d0) <> 0 ->
  forall i, (i < length (d_rows d))%nat ->
  ess_cur_kwh (dec (row_at d i)) = soc (dec (row_at d i)) * ess_max_kwh (d_veh d0).
Proof.
  intros W R Z. apply (run_ind _ _ _ _ W R).
  - destruct (run_starts _ _ _ W R) as (s & K). rewrite (rs_kwh _ _ _ K), (rs_soc _ _ _ K). reflexivity.
  - intros i H _. destruct (soc_is _ _ _ _ H) as (_ & S). rewrite (S Z). field. exact Z.
Qed.
Lemma stored_sum d0 ovr d : wf_sd d0 -> run d0 ovr d -> no_elec_sys (d_veh d0) = false ->
  forall n, (n < length (d_rows d))%nat ->
  ess_cur_kwh (dec (row_at d n)) = ess_cur_kwh (dec (row_at d 0))
    - Rsum (map (fun i => drawn_kwh (ess_round_trip_eff (d_veh d0)) (ess_kw_out_ach (dec (row_at d i))) (step_dt d i))
                (seq 1 n)).
Proof.
  intros W R N. induction n; intros L. { cbn. lra. }
  rewrite seq_S, map_app, Rsum_app. cbn [map]. rewrite Rsum_cons. cbn [Rsum fold_right].
  assert (H : is_step d0 ovr d (S n)) by (split; [exact W|split; [exact R|lia]]).
  rewrite (stored _ _ _ _ H N). replace (S n - 1)%nat with n by lia.
  rewrite IHn by lia. cbn [Nat.add]. lra.
Qed.

(** ** C25: battery limits *)
Section Battery.
  Variables (d0 d : sdrive R) (ovr : option (list R)) (i : nat).
  Hypothesis H : is_step d0 ovr d i.
  Hypothesis I : increasing (time_s (d_cyc d)).
  Let v := d_veh d0.
  Let l := lims (row_at d i).
  Let s1 := soc (dec (row_at d (i - 1))).
  Hypothesis K : 0 < ess_max_kwh v.
  Hypothesis P : 0 <= ess_max_kw v.
  Hypothesis E : 0 < ess_round_trip_eff v.
  Let dt := step_dt d i.

  Lemma bat_dt : 0 < dt. Proof. exact (run_dt_pos _ _ _ _ H I). Qed.
  Lemma bat_sqrt : 0 < sqrt (ess_round_trip_eff v). Proof. now apply sqrt_lt_R0. Qed.
  Lemma dis_cap : min_soc v <= s1 ->
    ess_cap_lim_dischg_kw l = ess_max_kwh v * (s1 - min_soc v) * sqrt (ess_round_trip_eff v) / (dt / 3600).
  Proof.
    intros W. pose proof bat_dt as T. open_step H. unfold l.
    rewrite (le_dis _ _ _ _ _ _ _ (op_lims _ _ _ _ _ _ _ O)), (op_dt _ _ _ _ _ _ _ O). toR. fold v s1 dt.
    destruct (Reqb_spec (ess_max_kwh v) 0); [lra|]. destruct (Rltb_spec s1 (min_soc v)); [lra|].
    cbn [orb]. field. lra.
  Qed.
  Lemma dis_empty : s1 < min_soc v -> ess_cap_lim_dischg_kw l = 0.
  Proof.
    intros W. open_step H. unfold l. rewrite (le_dis _ _ _ _ _ _ _ (op_lims _ _ _ _ _ _ _ O)). toR. fold v s1.
    destruct (Rltb_spec s1 (min_soc v)); [|lra]. rewrite orb_true_r. reflexivity.
  Qed.
  Lemma chg_cap : ess_max_kw v <> 0 ->
    ess_cap_lim_chg_kw l = Rmax 0 (ess_max_kwh v * (max_soc v - s1) / sqrt (ess_round_trip_eff v) / (dt / 3600)).
  Proof.
    intros W. pose proof bat_dt as T. pose proof bat_sqrt as Q. open_step H. unfold l.
    rewrite (le_chgcap _ _ _ _ _ _ _ (op_lims _ _ _ _ _ _ _ O)), (op_dt _ _ _ _ _ _ _ O). toR. fold v s1 dt.
    destruct (Reqb_spec (ess_max_kwh v) 0); [lra|]. destruct (Reqb_spec (ess_max_kw v) 0); [lra|]. cbn [orb].
    rewrite Rmax_comm. f_equal. field. lra.
  Qed.
  Lemma chg_none : ess_max_kw v = 0 -> ess_cap_lim_chg_kw l = 0.
  Proof.
    intros W. open_step H. unfold l. rewrite (le_chgcap _ _ _ _ _ _ _ (op_lims _ _ _ _ _ _ _ O)). toR. fold v.
    destruct (Reqb_spec (ess_max_kw v) 0); [|lra]. rewrite orb_true_r. reflexivity.
  Qed.
  Lemma ess_limits : cur_ess_max_kw_out l = Rmin (ess_max_kw v) (ess_cap_lim_dischg_kw l) /\
    cur_max_ess_chg_kw l = Rmin (ess_cap_lim_chg_kw l) (ess_max_kw v).
  Proof.
    open_step H. unfold l, v. rewrite (le_ess _ _ _ _ _ _ _ (op_lims _ _ _ _ _ _ _ O)),
      (le_chg _ _ _ _ _ _ _ (op_lims _ _ _ _ _ _ _ O)), !nmin_R. auto.
  Qed.
  Lemma ess_limits_range : 0 <= cur_ess_max_kw_out l <= ess_max_kw v /\ 0 <= cur_max_ess_chg_kw l <= ess_max_kw v.
  Proof.
    destruct ess_limits as (-> & ->). pose proof bat_dt as T. pose proof bat_sqrt as Q.
    assert (A : 0 <= ess_cap_lim_dischg_kw l).
    { destruct (Rlt_dec s1 (min_soc v)) as [L|L]; [rewrite dis_empty by auto; lra|]. rewrite dis_cap by lra.
      apply Rmult_le_pos. { apply Rmult_le_pos; [|lra]. apply Rmult_le_pos; lra. }
      left. apply Rinv_0_lt_compat. lra. }
    assert (B : 0 <= ess_cap_lim_chg_kw l).
    { destruct (Req_EM_T (ess_max_kw v) 0) as [Z|Z]; [rewrite chg_none by auto; lra|]. rewrite chg_cap by auto. apply Rmax_l. }
    mm; lra.
  Qed.
  Let s2 := soc (dec (row_at d i)).
  Let p := ess_kw_out_ach (dec (row_at d i)).
  Hypothesis N : no_elec_sys v = false.
  Lemma soc_step : s2 = s1 - drawn_kwh (ess_round_trip_eff v) p dt / ess_max_kwh v.
  Proof.
    destruct (soc_is _ _ _ _ H) as (_ & S). fold v in S. unfold s2. rewrite S by lra.
    rewrite (stored _ _ _ _ H N). pose proof H as (W & R & Hi).
    fold v p dt. rewrite (kwh_soc _ _ _ W R) by (fold v; lra || lia). fold v. fold s1. field. lra.
  Qed.
  Lemma soc_stays : min_soc v <= s1 <= max_soc v -> - cur_max_ess_chg_kw l <= p <= cur_ess_max_kw_out l ->
    min_soc v <= s2 <= max_soc v.
  Proof.
    intros W L. destruct ess_limits as (E1 & E2). rewrite E1, E2 in L. pose proof bat_dt as T. pose proof bat_sqrt as Q.
    rewrite soc_step. unfold drawn_kwh. set (r := sqrt (ess_round_trip_eff v)) in *.
    destruct (Rlt_dec p 0) as [Z|Z].
    - assert (ess_max_kw v <> 0). { intros Y. rewrite (chg_none Y), Y in L. mm; lra. }
      rewrite chg_cap in L by auto. fold r in L.
      set (c := ess_max_kwh v * (max_soc v - s1) / r / (dt / 3600)) in *.
      assert (C : - c <= p). { assert (0 <= c).
        { unfold c. apply Rmult_le_pos; [apply Rmult_le_pos; [apply Rmult_le_pos; lra|]|]; left; apply Rinv_0_lt_compat; lra. }
        rewrite Rmax_right in L by lra. mm; lra. }
      assert (X : p * r * (dt / 3600) >= - (ess_max_kwh v * (max_soc v - s1))).
      { replace (ess_max_kwh v * (max_soc v - s1)) with (c * r * (dt / 3600)) by (unfold c; field; lra).
        assert (0 < r * (dt / 3600)) by (apply Rmult_lt_0_compat; lra). nra. }
      assert (X0 : p * r * (dt / 3600) <= 0). { assert (0 < r * (dt / 3600)) by (apply Rmult_lt_0_compat; lra). nra. }
      set (y := p * r * (dt / 3600)) in *.
      assert (Y : y / ess_max_kwh v * ess_max_kwh v = y) by (field; lra).
      set (z := y / ess_max_kwh v) in *. split; nra.
    - rewrite dis_cap in L by lra. fold r in L.
      set (c := ess_max_kwh v * (s1 - min_soc v) * r / (dt / 3600)) in *.
      assert (C : p <= c) by (mm; lra).
      assert (X : p / r * (dt / 3600) <= ess_max_kwh v * (s1 - min_soc v)).
      { replace (ess_max_kwh v * (s1 - min_soc v)) with (c / r * (dt / 3600)) by (unfold c; field; lra).
        apply Rmult_le_compat_r; [lra|]. apply Rmult_le_compat_r; [left; apply Rinv_0_lt_compat; lra|lra]. }
      assert (X0 : 0 <= p / r * (dt / 3600)).
      { apply Rmult_le_pos; [|lra]. apply Rmult_le_pos; [lra|left; apply Rinv_0_lt_compat; lra]. }
      set (y := p / r * (dt / 3600)) in *.
      assert (Y : y / ess_max_kwh v * ess_max_kwh v = y) by (field; lra).
      set (z := y / ess_max_kwh v) in *. split; nra.
  Qed.
  Lemma soc_exact_min : min_soc v <= s1 -> p = ess_cap_lim_dischg_kw l -> s2 = min_soc v.
  Proof.
    intros W L. pose proof bat_dt as T. pose proof bat_sqrt as Q. rewrite dis_cap in L by lra.
    rewrite soc_step, L. unfold drawn_kwh. set (r := sqrt (ess_round_trip_eff v)) in *.
    destruct (Rlt_dec _ 0) as [Z|Z].
    - exfalso. apply Rlt_not_le in Z. apply Z. apply Rmult_le_pos; [|left; apply Rinv_0_lt_compat; lra].
      apply Rmult_le_pos; [apply Rmult_le_pos; lra|lra].
    - field. lra.
  Qed.
  Lemma soc_exact_max : s1 < max_soc v -> 0 < ess_max_kw v -> p = - ess_cap_lim_chg_kw l -> s2 = max_soc v.
  Proof.
    intros W Z0 L. pose proof bat_dt as T. pose proof bat_sqrt as Q. rewrite chg_cap in L by lra.
    set (r := sqrt (ess_round_trip_eff v)) in *.
    assert (C : 0 < ess_max_kwh v * (max_soc v - s1) / r / (dt / 3600)).
    { apply Rdiv_lt_0_compat; [|lra]. apply Rdiv_lt_0_compat; [|lra]. apply Rmult_lt_0_compat; lra. }
    rewrite Rmax_right in L by lra. rewrite soc_step. unfold drawn_kwh. fold r. rewrite L.
    destruct (Rlt_dec _ 0) as [Z|Z]; [|lra]. field. lra.
  Qed.
End Battery.
