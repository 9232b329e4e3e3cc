(** Proofs for properties C31, C41-C43, C66-C68 (post-processing). *)
From Coq Require Import Lia Ascii.
From Verif Require Import Num Numpy ListFacts CycleModel CycleSpec ConcatProofs RateProofs DistProofs VehModel SimModel SimState
  WalkModel FrameProofs WalkProofs StepProofs StepEqs SimSpec SimProofs1 SimProofs2 SimProofs3 SimProofs4 SimProofs5 SimProofs6
  WalkSpec WalkProofs2 PostModel PostSpec PostProofs.
Local Open Scope R_scope.

(** ** Reported figures (C31, C66, C67) *)
Section Figures.
  Variables (d0 : sdrive R) (ovr : option (list R)) (d : sdrive R).
  Hypotheses (W : wf_sd d0) (RN : run d0 ovr d).
  Let v := d_veh d0.
  Let p := set_post_scalars d.
  Let miles := total d (fun i => dist_mi_ach (spd (row_at d i))).
  Let fuel_kwh := total d (fun i => fs_kwh_out_ach (fc (row_at d i))).

  Lemma miles_is : sum_rows d (fun r => dist_mi_ach (spd r)) = miles.
  Proof. destruct (first_is _ _ _ W RN) as (s & F0). apply (sum_rows_total _ _ _ W RN). rewrite F0. reflexivity. Qed.
  Lemma kwh_is : sum_rows d (fun r => fs_kwh_out_ach (fc r)) = fuel_kwh.
  Proof. destruct (first_is _ _ _ W RN) as (s & F0). apply (sum_rows_total _ _ _ W RN). rewrite F0. reflexivity. Qed.
  Lemma fuel_is : fuel_kj p = over_steps d (fun i => fs_kw_out_ach (fc (row_at d i))).
  Proof. destruct (first_is _ _ _ W RN) as (s & F0). apply (sum_dt_zero _ _ _ W RN (fun r => fs_kw_out_ach (fc r))). rewrite F0. reflexivity. Qed.
  Lemma fuel_kwh_is : fuel_kj p = 3600 * fuel_kwh.
  Proof.
    rewrite fuel_is. unfold over_steps, fuel_kwh, total. rewrite Rmult_comm, <- Rsum_scal. f_equal. apply map_ext_in.
    intros i I. apply in_seq in I. destruct (fuel_energy _ _ _ _ (step_of _ _ _ W RN i ltac:(lia))) as (A & B & _).
    rewrite A, B. field.
  Qed.
  Lemma roadway_is : roadway_chg_kj p = 0.
  Proof.
    destruct (first_is _ _ _ W RN) as (s & F0).
    transitivity (over_steps d (fun i => roadway_chg_kw_out_ach (dec (row_at d i)))).
    - apply (sum_dt_zero _ _ _ W RN (fun r => roadway_chg_kw_out_ach (dec r))). rewrite F0. reflexivity.
    - apply over_zero. intros i I. apply (road_zero _ _ _ _ (step_of _ _ _ W RN i I)).
  Qed.
  Lemma mpgge_is : (fuel_kj p = 0 -> mpgge p = 0) /\
    (fuel_kj p <> 0 -> mpgge p = miles / (fuel_kj p / 3600 / kwh_per_gge (d_props d0))).
  Proof.
    destruct (run_len _ _ _ W RN) as (_ & _ & _ & PR & _).
    change (mpgge p) with (post_mpgge d). unfold post_mpgge. rewrite miles_is, kwh_is, fuel_kwh_is, PR. unR.
    destruct (Reqb_spec fuel_kwh 0); split; intros; try lra. f_equal. f_equal. field.
  Qed.
  Lemma no_fuel : fc_max_kw v = 0 -> mpgge p = 0 /\ fuel_kj p = 0.
  Proof.
    intros Z. assert (F : fuel_kj p = 0).
    { rewrite fuel_is. apply over_zero. intros i I. apply (fc_none _ _ _ _ (step_of _ _ _ W RN i I) Z). }
    split; auto. now apply mpgge_is.
  Qed.
  Lemma per_mile : let disch := (soc (dec (row_at d 0)) - final_soc d) * ess_max_kwh v in
    ess_dischg_kj p = disch * 3600 /\
    (0 < miles -> battery_kwh_per_mi p = disch / miles /\ electric_kwh_per_mi p = disch / miles) /\
    (miles <= 0 -> battery_kwh_per_mi p = 0 /\ electric_kwh_per_mi p = 0) /\
    (fuel_kj p = 0 -> ess2fuel_kwh p = 1) /\
    (fuel_kj p <> 0 -> ess2fuel_kwh p = disch / (fuel_kj p / 3600)).
  Proof.
    destruct (run_len _ _ _ W RN) as (_ & _ & VH & _). intros disch.
    assert (D : ess_dischg_kj p = disch * 3600).
    { unfold p, set_post_scalars. cbn [ess_dischg_kj]. rewrite VH. unfold soc_last, soc_first, disch, final_soc, v. unR.
      change (@nofZ R RNum 3600) with 3600. ring. }
    split; auto. pose proof roadway_is as RZ.
    change (battery_kwh_per_mi p) with (if Rltb 0 (sum_rows d (fun r => dist_mi_ach (spd r))) then
      ess_dischg_kj p / 3600 / sum_rows d (fun r => dist_mi_ach (spd r)) else 0).
    change (electric_kwh_per_mi p) with (if Rltb 0 (sum_rows d (fun r => dist_mi_ach (spd r))) then
      (roadway_chg_kj p + ess_dischg_kj p) / 3600 / sum_rows d (fun r => dist_mi_ach (spd r)) else 0).
    change (ess2fuel_kwh p) with (if Reqb (fuel_kj p + roadway_chg_kj p) 0 then 1 else ess_dischg_kj p / (fuel_kj p + roadway_chg_kj p)).
    rewrite miles_is, RZ, D, Rplus_0_r, Rplus_0_l.
    destruct (Rltb_spec 0 miles); destruct (Reqb_spec (fuel_kj p) 0); repeat split; intros; try lra; try (field; lra).
  Qed.
  Lemma cumulative i : (i < length (d_rows d))%nat ->
    nth i (fs_cumu_mj_out_ach p) 0 =
    Rsum (map (fun j => fs_kw_out_ach (fc (row_at d j)) * step_dt d j) (seq 1 i)) / 1000.
  Proof.
    intros I. destruct (run_len _ _ _ W RN) as (L & P & _). destruct (first_is _ _ _ W RN) as (s & F0).
    unfold p, set_post_scalars. cbn [fs_cumu_mj_out_ach].
    set (l := zipw _ _ _). assert (LL : length l = length (d_rows d)).
    { unfold l. rewrite zipw_length, map_length, dt_s_length. lia. }
    rewrite (nth_indep _ 0 ((fun x => nmul x (lit 1 1000)) 0)) by (rewrite map_length; unfold cumsum; rewrite cumsum_from_length; lia).
    rewrite (map_nth (fun x => nmul x (lit 1 1000))). rewrite lit_R. unR. unfold Rdiv at 1. rewrite cumsum_nth by lia.
    assert (Q : forall k, (k < length (d_rows d))%nat -> Rsum (firstn (S k) l) =
                Rsum (map (fun j => fs_kw_out_ach (fc (row_at d j)) * step_dt d j) (seq 1 k))).
    { assert (N : forall k, (k < length (d_rows d))%nat -> nth k l 0 = fs_kw_out_ach (fc (row_at d k)) * nth k (dt_s (d_cyc d)) 0).
      { intros k Hk. unfold l. rewrite (zipw_nth _ _ _ k 0 0) by (rewrite ?map_length, ?dt_s_length; lia).
        unR. f_equal. rewrite (nth_indep _ 0 (fs_kw_out_ach (fc (zero_row (F := R))))) by (rewrite map_length; lia).
        now rewrite (map_nth (fun r => fs_kw_out_ach (fc r))). }
      induction k as [|k IH]; intros Hk.
      - rewrite Rsum_firstn_S by lia. rewrite N by lia. rewrite F0. cbn. unR. lra.
      - rewrite Rsum_firstn_S by lia. rewrite IH, N by lia. rewrite seq_S, map_app, Rsum_app. cbn [map plus].
        rewrite Rsum_cons. rewrite dt_s_nth by lia. unfold step_dt. rewrite Nat.sub_succ, Nat.sub_0_r. unfold Rsum at 3. cbn [fold_right]. lra. }
    rewrite Q by lia. unfold Rdiv. rewrite ?Rmult_1_l. f_equal.
  Qed.

  (** Trace miss *)
  Lemma miss_len : length (mps (d_cyc d)) = length (d_rows d) /\ length (time_s (d_cyc d)) = length (d_rows d).
  Proof.
    destruct (run_len _ _ _ W RN) as (L & _). destruct (run_starts _ _ _ W RN) as (s & K). destruct (rs_wf _ _ _ K) as ((A & _) & _).
    unfold clen in *. split; lia.
  Qed.
  Lemma speed_miss : let miss i := Rabs (speed d i - nth i (mps (d_cyc d)) 0) in
    (forall i, (i < length (d_rows d))%nat -> miss i <= trace_miss_speed_mps p) /\
    (exists i, (i < length (d_rows d))%nat /\ trace_miss_speed_mps p = miss i).
  Proof.
    intros miss. destruct (run_len _ _ _ W RN) as (L & P & _).
    change (trace_miss_speed_mps p) with (miss_speed d). unfold miss_speed. rewrite <- L.
    set (f := fun i : nat => nabs _). assert (F : forall i, f i = miss i) by reflexivity.
    destruct (length (d_rows d)) as [|n] eqn:E; [lia|]. cbn [seq map]. split.
    - intros i I. change (miss i) with (f i). apply nmaxl_ge. change (In (f i) (map f (seq 0 (S n)))). apply in_map, in_seq. lia.
    - pose proof (nmaxl_in (f 0%nat) (map f (seq 1 n))) as Q. change (f 0%nat :: map f (seq 1 n)) with (map f (seq 0 (S n))) in Q.
      apply in_map_iff in Q as (i & Q1 & Q2). apply in_seq in Q2. exists i. split; [lia|]. change (miss i) with (f i). symmetry. exact Q1.
  Qed.
  (** A run that coasts or follows a leader rewrites the driven cycle to the achieved speeds. *)
  Lemma replanned_miss : ~ follows_trace d0 -> trace_miss_speed_mps p = 0.
  Proof.
    intros T. destruct speed_miss as (_ & i & I & Q). rewrite Q. cbv beta.
    assert (E : nth i (mps (d_cyc d)) 0 = speed d i).
    { destruct (last_walk _ _ _ W RN) as (d1 & s & A & W1 & H). pose proof (walk_walked _ _ _ _ W1 H) as K.
      destruct i as [|i].
      { destruct (wk_cyc_first _ _ _ _ K) as [Z _]. destruct (wk_row0 _ _ _ _ K) as (_ & _ & Z' & _).
        assert (CH : changes_cycle (d_sp d) = true).
        { destruct (run_len _ _ _ W RN) as (_ & _ & _ & _ & -> & _). unfold follows_trace, changes_cycle in *.
          destruct (coast_allow (d_sp d0)), (idm_allow (d_sp d0)); rewrite ?orb_true_r; auto; exfalso; apply T; split; reflexivity. }
        rewrite CH in Z. unfold speed. rewrite Z'. exact Z. }
      destruct (wk_rows _ _ _ _ K (S i) ltac:(lia)) as (e & cur & _ & _ & _ & _ & _ & B & _). apply B.
      destruct (run_len _ _ _ W RN) as (_ & _ & _ & _ & -> & _). unfold follows_trace, replans in *.
      destruct (coast_allow (d_sp d0)), (idm_allow (d_sp d0)); cbn; auto; exfalso; apply T; split; reflexivity. }
    rewrite E. unfold Rminus. now rewrite Rplus_opp_r, Rabs_R0.
  Qed.
  Lemma dist_miss : let target := Rsum (dist_m (d_cyc0 d0)) in
    let driven := total d (fun i => dist_m_ach (spd (row_at d i))) in
    (0 < target -> trace_miss_dist_frac p = Rabs (driven - target) / target) /\
    (target <= 0 -> trace_miss_dist_frac p = 0).
  Proof.
    destruct (run_len _ _ _ W RN) as (_ & _ & _ & _ & _ & C0). destruct (first_is _ _ _ W RN) as (s & F0).
    intros target driven. change (trace_miss_dist_frac p) with (miss_dist_frac d). unfold miss_dist_frac.
    rewrite (sum_rows_total _ _ _ W RN (fun r => dist_m_ach (spd r))) by (rewrite F0; reflexivity).
    rewrite C0, nsum_Rsum. unR. fold target. fold driven. destruct (Rltb_spec 0 target); split; intros; try lra; auto.
  Qed.
  Lemma time_miss : let target := last (time_s (d_cyc0 d0)) 0 in
    trace_miss_time_frac p = Rabs (last (time_s (d_cyc d)) 0 - target) / target.
  Proof. destruct (run_len _ _ _ W RN) as (_ & _ & _ & _ & _ & C0). cbv zeta. rewrite <- C0. reflexivity. Qed.
  Lemma miss_flag : trace_miss p = true <->
    trace_miss_speed_mps_tol (d_sp d0) < trace_miss_speed_mps p \/
    (missed_trace_correction (d_sp d0) = true /\ trace_miss_time_tol (d_sp d0) < trace_miss_time_frac p) \/
    (missed_trace_correction (d_sp d0) = false /\ trace_miss_dist_tol (d_sp d0) < trace_miss_dist_frac p).
  Proof.
    destruct (run_len _ _ _ W RN) as (_ & _ & _ & _ & SP & _).
    change (trace_miss p) with ((negb (missed_trace_correction (d_sp d)) && Rltb (trace_miss_dist_tol (d_sp d)) (trace_miss_dist_frac p)
      || missed_trace_correction (d_sp d) && Rltb (trace_miss_time_tol (d_sp d)) (trace_miss_time_frac p)
      || Rltb (trace_miss_speed_mps_tol (d_sp d)) (trace_miss_speed_mps p))%bool). rewrite SP.
    rewrite !orb_true_iff, !andb_true_iff, negb_true_iff.
    assert (Q : forall a b, Rltb a b = true <-> a < b).
    { intros a b. destruct (Rltb_spec a b); split; intros; auto; try discriminate; lra. }
    rewrite !Q. tauto.
  Qed.
  (** Gap to the lead vehicle. *)
  Lemma gap_is i : (i < length (d_rows d))%nat ->
    nth i (gap_to_lead_vehicle_m d) 0 = gap_at (d_cyc d) (d_cyc0 d0) i + (if idm_allow (d_sp d0) then idm_minimum_gap_m (d_sp d0) else 0).
  Proof.
    intros I. destruct (run_len _ _ _ W RN) as (L & P & _ & _ & SP & C0). destruct (run_starts _ _ _ W RN) as (s & K).
    destruct (rs_wf _ _ _ K) as ((A & _) & (B & _) & C). unfold clen in *. rewrite C0 in *.
    unfold gap_to_lead_vehicle_m. rewrite SP, C0.
    assert (G : nth i (zipw nsub (cumsum (trapz_step_distances (d_cyc0 d0))) (cumsum (trapz_step_distances (d_cyc d)))) 0 = gap_at (d_cyc d) (d_cyc0 d0) i).
    { assert (time_s (d_cyc d) <> []) by (destruct (time_s (d_cyc d)); cbn in *; [lia|discriminate]).
      assert (time_s (d_cyc0 d0) <> []) by (destruct (time_s (d_cyc0 d0)); cbn in *; [lia|discriminate]).
      rewrite (zipw_nth _ _ _ i 0 0) by (rewrite cum_dist_length; auto; lia).
      rewrite !cum_dist_nth by (auto; lia). reflexivity. }
    destruct (idm_allow (d_sp d0)); [|rewrite G; lra].
    rewrite (nth_indep _ 0 ((fun x => nadd x (idm_minimum_gap_m (d_sp d0))) 0)).
    - rewrite (map_nth (fun x => nadd x (idm_minimum_gap_m (d_sp d0)))), G. reflexivity.
    - rewrite map_length, zipw_length, !cum_dist_length; auto; try lia;
      [destruct (time_s (d_cyc d)); cbn in *; [lia|discriminate]|destruct (time_s (d_cyc0 d0)); cbn in *; [lia|discriminate]].
  Qed.
End Figures.
