(** C109-C111: the Rust implementation of a simulated run against the Python one. *)
From Coq Require Import Floats Sorting.Sorted Lia.
From Verif Require Import Num FloatNum Numpy ListFacts CycleModel CycleSpec ConcatProofs VehModel SimModel SimState WalkModel
  FrameProofs WalkProofs StepEqs StepProofs SimSpec SimProofs3 SimDemo SimProps VehSpec VehProps
  RustModel RustWalkModel RustSpec RustProofs RustProofs2 PlainProofs RustProofs3.
Local Open Scope R_scope.
Local Set Warnings "-inexact-float".

(** ** Lemmas *)
Lemma run_twin d s ovr : plain_run d ovr ->
  match sim_drive_walk d s ovr with
  | Ok dp => exists dr, r_walk d s ovr = Ok dr /\ twins dp dr /\ live dp
  | Err _ => exists y, r_walk d s ovr = Err y
  end.
Proof.
  intros P. apply walk_twin; try apply P.
  - split; [apply P|split; apply P].
  - unfold changes_cycle. now rewrite (pr_trace _ _ P), (pr_coast _ _ P), (pr_idm _ _ P).
Qed.
Lemma twins_equal dp dr : twins dp dr -> below_rated dp -> dr = dp.
Proof.
  intros T B.
  assert (F : forall j, fc (row_at dp j) = fc (row_at dr j)) by (intros j; apply (k_fc _ _ T), B).
  assert (RW : d_rows dr = d_rows dp).
  { apply nth_ext with (d := zero_row) (d' := zero_row); [apply T|]. intros j _. change (row_at dr j = row_at dp j).
    destruct j as [|j]; [symmetry; apply T|]. pose proof (k_rows _ _ T (S j)) as SF. pose proof (k_lims _ _ T (S j) ltac:(lia) (F _)) as L.
    pose proof (F (S j)) as FJ. destruct SF. destruct (row_at dp (S j)), (row_at dr (S j)). cbn in *. congruence. }
  destruct T. destruct dp, dr; cbn in *. congruence.
Qed.
Lemma veh_of_walk d s ovr dp : plain_run d ovr -> sim_drive_walk d s ovr = Ok dp -> d_veh dp = d_veh d.
Proof. intros P E. eapply wk_veh. apply walk_walked; [split; [apply P|split; apply P]|exact E]. Qed.
Lemma cyc_of_walk d s ovr dp : plain_run d ovr -> sim_drive_walk d s ovr = Ok dp -> d_cyc dp = d_cyc d.
Proof.
  intros P. assert (H : changes_cycle (d_sp d) = false) by (unfold changes_cycle; now rewrite (pr_trace _ _ P), (pr_coast _ _ P), (pr_idm _ _ P)).
  unfold sim_drive_walk. intros E. inv_ok E. rename x into d1. inv_ok E. rename x into d2. injection E as <-.
  destruct (init_rows _ _ _ _ E0) as (i1 & i2 & i3 & i4 & i5 & i6 & i7 & i8 & i9 & i10 & _). rewrite H in i8.
  assert (I1 : pinv d1 d1 (env_at d1)) by (constructor; auto; rewrite ?i7; intros; lia).
  assert (H1 : changes_cycle (d_sp d1) = false) by now rewrite i3.
  assert (L1 : length (d_rows d1) = length (time_s (d_cyc d1))) by (rewrite i9, i8; reflexivity).
  destruct (pinv_loop d1 H1 L1 _ _ _ I1 E1) as [I _]. cbn. rewrite (pi_cyc _ _ _ I). exact i8.
Qed.
Lemma plain_run_count d ovr n : plain_run d ovr -> plain_run (with_count d n) ovr.
Proof. intros []. constructor; assumption. Qed.

(** ** C109: both implementations compute the same run *)
(** A run that Python completes is completed by Rust with the same results at every step, fuel apart. *)
Theorem C109_walk : forall d s ovr dp, plain_run d ovr -> sim_drive_walk d s ovr = Ok dp ->
  exists dr, r_walk d s ovr = Ok dr /\ length (d_rows dr) = length (d_rows dp) /\
    forall j, same_but_fuel (row_at dp j) (row_at dr j).
Proof.
  intros d s ovr dp P E. pose proof (run_twin d s ovr P) as R0. rewrite E in R0. destruct R0 as (dr & R1 & T & L).
  exists dr. split; [exact R1|]. split; apply T.
Qed.
(** Fuel too is the same in every step in which the engine is below its rated power. *)
Theorem C109_fuel : forall d s ovr dp dr j, plain_run d ovr -> sim_drive_walk d s ovr = Ok dp -> r_walk d s ovr = Ok dr ->
  fc_kw_out_ach (fc (row_at dp j)) <> fc_max_kw (d_veh d) -> fc (row_at dp j) = fc (row_at dr j).
Proof.
  intros d s ovr dp dr j P E E' N. pose proof (run_twin d s ovr P) as R0. rewrite E in R0. destruct R0 as (dr' & R1 & T & L).
  assert (dr' = dr) as -> by congruence. apply (k_fc _ _ T). rewrite (veh_of_walk _ _ _ _ P E).
  assert (0 <= fc_kw_out_ach (fc (row_at dp j)) <= fc_max_kw (d_veh d)); [|lra].
  rewrite <- (veh_of_walk _ _ _ _ P E). apply L.
Qed.
(** If the engine stays below its rated power throughout, the two end in the same state. *)
Theorem C109_identical : forall d s ovr dp, plain_run d ovr -> sim_drive_walk d s ovr = Ok dp -> below_rated dp ->
  r_walk d s ovr = Ok dp.
Proof.
  intros d s ovr dp P E B. pose proof (run_twin d s ovr P) as R0. rewrite E in R0. destruct R0 as (dr & R1 & T & L).
  now rewrite R1, (twins_equal _ _ T B).
Qed.
(** One refuses a run exactly when the other does. *)
Theorem C109_refuses : forall d s ovr, plain_run d ovr ->
  (exists x, sim_drive_walk d s ovr = Err x) <-> (exists y, r_walk d s ovr = Err y).
Proof.
  intros d s ovr P. pose proof (run_twin d s ovr P) as R0. destruct (sim_drive_walk d s ovr) as [dp|x].
  - destruct R0 as (dr & -> & _). split; intros [y Q]; discriminate.
  - split; [intros _; exact R0|eauto].
Qed.
(** sim_drive: with a starting state of charge, or without one for every powertrain but the hybrid. *)
Theorem C109_sim_drive : forall d s ovr, plain_run d ovr -> s <> None \/ veh_pt_type (d_veh d) <> HEV ->
  match sim_drive d s ovr, r_sim_drive d s ovr with
  | Ok dp, Ok dr => length (d_rows dr) = length (d_rows dp) /\ (forall j, same_but_fuel (row_at dp j) (row_at dr j)) /\ (below_rated dp -> dr = dp)
  | Err _, Err _ => True
  | _, _ => False
  end.
Proof.
  intros d s ovr P Q.
  assert (G : forall x, match sim_drive_walk (with_count d 0) x ovr, r_walk (with_count d 0) x ovr with
    | Ok dp, Ok dr => length (d_rows dr) = length (d_rows dp) /\ (forall j, same_but_fuel (row_at dp j) (row_at dr j)) /\ (below_rated dp -> dr = dp)
    | Err _, Err _ => True | _, _ => False end).
  { intros x. pose proof (run_twin _ x ovr (plain_run_count d ovr 0 P)) as R0. destruct (sim_drive_walk _ x ovr) as [dp|y].
    - destruct R0 as (dr & -> & T & _). split; [apply T|]. split; [apply T|]. now apply twins_equal.
    - destruct R0 as (y' & ->). exact I. }
  unfold sim_drive, r_sim_drive. destruct s as [x|]; [apply G|]. destruct Q as [Q|Q]; [congruence|].
  destruct (veh_pt_type (d_veh d)); try apply G. congruence.
Qed.
(** The step itself, from any two rows, through the step interface. *)
Theorem C109_step : forall v pr sp e p cur, comparable v -> 0 < e_dt e -> 0 <= fc_kw_out_ach (fc p) ->
  (forall x, e_grade e x = e_grade_est e) ->
  let r := solve_row v pr sp e p cur in
  (no_motor v -> 0 <= aux_in_kw (misc r)) -> cur_max_roadway_chg_kw (ctl cur) <= cur_max_ess_chg_kw (lims r) ->
  exists r', r_solve_row v pr sp e p cur = Ok r' /\ same_but_fuel r r' /\
    (fc_kw_out_ach (fc r) <> fc_max_kw v -> r' = r).
Proof.
  intros v pr sp e p cur V D P G r A RD.
  assert (GE : forall x, Rabs (e_grade_est e - e_grade e x) <= 1/1000000) by (intros x; rewrite G, Rminus_diag_eq, Rabs_R0 by reflexivity; lra).
  destruct (row_same v pr sp e p cur V D P GE A RD) as (x & E & X1 & _). exists (with_fuel r x (e_dt e)). split; [exact E|].
  split; [apply sbf_fuel|]. intros N. apply X1. pose proof (fc_of_solve v pr sp e p cur V D P) as Q. fold r in Q |- *. lra.
Qed.
(** Derived vehicles meet the requirement on maps if the motor has at least one kW and its electric grid has
    no point just below its top. *)
Theorem C109_derived : forall v v', set_derived v = Ok v' -> increasing (fc_pwr_out_perc v) -> increasing (mc_pwr_out_perc v) ->
  (forall m, mc_eff_map v = Some m -> forall x, In x m -> 0 < x) -> mc_peak_eff_override v = None ->
  0 <= fc_max_kw v -> 0 < fc_sec_to_peak_pwr v -> 0 <= ess_max_kw v ->
  (1 <= mc_max_kw v /\ 0 < mc_sec_to_peak_pwr v /\ cuts_agree (mc_kw_in_array v') (mc_max_elec_in_kw v')) \/
  (mc_max_kw v = 0 /\ (ess_max_kw v = 0 \/ ess_max_kwh v = 0) /\ fc_eff_type v <> H2FC) ->
  comparable v'.
Proof.
  intros v v' H I1 I2 MP MO F0 FS E0 M.
  pose proof (C44_parameters_kept v v' H) as K. unfold same_parameters in K.
  destruct (C44_flags v v' H) as (N1 & _ & _).
  destruct (C44_engine_tables v v' H I1) as (L1 & L2 & T & _ & _).
  destruct (C44_motor_tables v v' H I2) as (L3 & L4 & L5 & T2 & m & table & MM & LT & Z0 & Z100 & _ & IN0 & INK & (MX1 & MX2) & RS & _ & _).
  rewrite MO in RS. cbn in RS.
  assert (MOK : motor_map_ok v'). { apply (proj2 (C44_ready v v' H) I2 MP). now rewrite MO. }
  assert (EQ : fc_max_kw v' = fc_max_kw v /\ fc_sec_to_peak_pwr v' = fc_sec_to_peak_pwr v /\ mc_max_kw v' = mc_max_kw v /\ mc_sec_to_peak_pwr v' = mc_sec_to_peak_pwr v /\
     ess_max_kw v' = ess_max_kw v /\ ess_max_kwh v' = ess_max_kwh v /\ fc_eff_type v' = fc_eff_type v) by tauto.
  destruct EQ as (e1 & e2 & e3 & e4 & e5 & e6 & e7). clear K.
  assert (NE : forall (l : list R) k, (k < length l)%nat -> nth_error l k = Some (nth k l 0)) by (intros; now apply nth_error_nth').
  constructor.
  - destruct M as [(M1 & M2 & M3)|(M1 & M2 & M3)]; [left|right].
    + constructor; rewrite ?e3, ?e4, ?L3, ?L4, ?L5; unfold motor_points in *; try lia; try lra; auto.
      * rewrite NE by lia. rewrite T2 by lia. cbn [INR]. f_equal. field.
      * rewrite NE by lia. now rewrite IN0.
      * intros x Hx. apply In_nth with (d := 0) in Hx as (k & Hk & <-). rewrite T2 by lia. apply Rmult_le_pos; [|lra].
        apply Rmult_le_pos; [apply pos_INR|lra].
      * replace (mc_max_kw v) with (nth 100 (mc_kw_out_array v') 0); [apply nth_In; lia|]. rewrite T2 by lia. rewrite INR_IZR_INZ. cbn [Z.of_nat]. cbn. field.
      * split; assumption.
      * apply Rlt_le_trans with (nth 100 (mc_kw_in_array v') 0); [|apply MX2, nth_In; lia]. rewrite INK, T2 by lia.
        assert (EF : 0 < nth 100 table 0 <= 1) by (apply (mm_eff _ MOK 100%nat); [lia|rewrite RS; apply NE; lia]).
        apply Rdiv_lt_0_compat; [|lra]. rewrite INR_IZR_INZ. cbn. lra.
      * intros a Ha. apply In_nth with (d := 0) in Ha as (k & Hk & <-). rewrite L3 in Hk. rewrite T2 by lia.
        destruct (Nat.eq_dec k 100) as [->|Q].
        -- rewrite INR_IZR_INZ. cbn. split; intros; lra.
        -- assert (INR k <= 99) by (replace 99 with (INR 99) by (rewrite INR_IZR_INZ; reflexivity); apply le_INR; lia).
           pose proof (pos_INR k). split; intros; exfalso; nra.
    + unfold no_motor. rewrite e3, e5, e6, e7. split; [exact M1|]. split; [apply N1; tauto|]. tauto.
  - constructor; rewrite ?e1, ?e2, ?L1, ?L2; unfold engine_points in *; try lia; auto.
    + rewrite NE by lia. rewrite T by lia. unfold engine_percent. cbn. f_equal. field.
    + assert (EP : forall k, (k < 100)%nat -> 0 <= engine_percent k <= 100).
      { intros k Hk. assert (IK : INR k <= 99) by (replace 99 with (INR 99) by (rewrite INR_IZR_INZ; reflexivity); apply le_INR; lia). pose proof (pos_INR k).
        unfold engine_percent. destruct (Nat.ltb_spec k 30).
        - lra.
        - destruct (Nat.ltb_spec k 38); [rewrite minus_INR by lia; rewrite (INR_IZR_INZ 30); cbn; pose proof (le_INR 30 k ltac:(lia)) as Q; rewrite (INR_IZR_INZ 30) in Q; cbn in Q; pose proof (le_INR k 38 ltac:(lia)) as Q2; rewrite (INR_IZR_INZ 38) in Q2; cbn in Q2; lra|].
          destruct (Nat.ltb_spec k 91); [split; [apply pos_INR|]; rewrite minus_INR by lia; rewrite (INR_IZR_INZ 31); cbn; lra|].
          rewrite minus_INR by lia. rewrite (INR_IZR_INZ 91). cbn. pose proof (le_INR 91 k ltac:(lia)) as Q; rewrite (INR_IZR_INZ 91) in Q; cbn in Q. lra. }
      split.
      * replace (fc_max_kw v) with (nth 99 (fc_kw_out_array v') 0); [apply nth_In; lia|]. rewrite T by lia. unfold engine_percent. cbn [Nat.ltb Nat.leb Nat.sub]. rewrite INR_IZR_INZ. cbn. field.
      * intros x Hx. apply In_nth with (d := 0) in Hx as (k & Hk & <-). rewrite T by lia. specialize (EP k ltac:(lia)). nra.
  - rewrite e5. exact E0.
  - rewrite e6. intros Q Z. assert (no_elec_sys v' = true) by (apply N1; tauto). congruence.
Qed.
(** The demonstration vehicles meet the requirements. *)
Lemma demo_tables fcp mcp essp kwh pt es ea aux : 0 <= fcp -> 0 <= essp -> (es = false -> kwh <> 0) ->
  1 <= mcp \/ (mcp = 0 /\ es = true /\ (essp = 0 \/ kwh = 0)) ->
  comparable (demo_veh (F := R) pt fcp mcp essp kwh es ea aux).
Proof.
  intros F0 E0 K M. constructor; [| |exact E0|exact K].
  - destruct M as [M|(M1 & M2 & M3)]; [left|right; unfold no_motor; cbn; repeat split; auto; discriminate].
    constructor; unfold demo_veh, demo_veh_of, z; cbn [mc_max_kw mc_full_eff_array mc_kw_out_array mc_kw_in_array mc_max_elec_in_kw mc_sec_to_peak_pwr];
      rewrite ?lit_R; unR; cbn [length nth_error]; try lia; try lra; try reflexivity.
    + intros x [<-|[<-|[<-|[]]]]; lra.
    + cbn. auto.
    + split; [cbn; auto|]. intros x [<-|[<-|[<-|[]]]]; lra.
    + intros a [<-|[<-|[<-|[]]]]; split; intros; lra.
    + intros a [<-|[<-|[<-|[]]]]; split; intros; lra.
  - constructor; unfold demo_veh, demo_veh_of, z; cbn [fc_eff_array fc_kw_out_array fc_max_kw fc_sec_to_peak_pwr map];
      rewrite ?lit_R; unR; cbn [length nth_error]; try lia; try lra.
    + now rewrite Rmult_0_l.
    + split; [cbn; rewrite Rmult_1_l; auto|]. intros x [<-|[<-|[<-|[]]]]; lra.
Qed.
Lemma demo_plain v c ovr : comparable v -> wf c -> increasing (time_s c) -> loads_ok ovr v -> (forall l, ovr = Some l -> length l = length (time_s c)) ->
  plain_run (demo_sd v c) ovr.
Proof. intros. constructor; auto. Qed.
Lemma demo_comparable : comparable demo_conv /\ comparable demo_hev /\ comparable demo_bev.
Proof. repeat split; apply demo_tables; unfold z; rewrite ?lit_R; unR; try discriminate; try (intros _); try lra; try (left; lra); right; repeat split; auto. Qed.
Example C109_case : exists dp dr, plain_run conv_trip None /\ sim_drive_walk conv_trip (1/2) None = Ok dp /\ r_walk conv_trip (1/2) None = Ok dr /\
  length (d_rows dr) = 5%nat /\ plain_run hev_trip None /\ plain_run bev_trip (Some [0; 1; 1; 1; 0]).
Proof.
  destruct demo_comparable as (V1 & V2 & V3).
  assert (P : plain_run conv_trip None).
  { apply demo_plain; auto using demo_trip_wf, demo_trip_inc; [|discriminate]. intros _. demo_num. repeat split; try lra. discriminate. }
  destruct (walk_total conv_trip (1/2) None) as (dp & E); [cbn; lia|reflexivity|left; reflexivity|].
  destruct (C109_walk _ _ _ _ P E) as (dr & E' & LN & _). exists dp, dr. split; [exact P|]. split; [exact E|]. split; [exact E'|].
  split. { rewrite LN. exact (wk_len _ _ _ _ (walk_walked conv_trip _ _ _ (conj (pr_cyc _ _ P) (conj (pr_cyc0 _ _ P) (pr_len _ _ P))) E)). }
  split; apply demo_plain; auto using demo_trip_wf, demo_trip_inc; try discriminate.
  - intros (Q & _). exfalso. revert Q. unfold demo_hev, demo_veh, demo_veh_of, z. cbn [mc_max_kw]. unR. lra.
  - intros (Q & _). exfalso. revert Q. unfold demo_bev, demo_veh, demo_veh_of, z. cbn [mc_max_kw]. unR. lra.
  - intros l Q. injection Q as <-. reflexivity.
Qed.
Definition shown {A} (r : Res (sdrive float)) (f : row float -> A) : option (list A) :=
  match r with Ok d => Some (map f (d_rows d)) | Err _ => None end.
Example C109_run : let f r := (mps_ach (spd r), soc (dec r), fs_kw_out_ach (fc r), mc_mech_kw_out_ach (dec r)) in
  shown (sim_drive_walk (demo_sd demo_hev demo_trip) 0.5%float None) f = shown (r_walk (demo_sd demo_hev demo_trip) 0.5%float None) f /\
  shown (sim_drive_walk (demo_sd demo_hev demo_trip) 0.5%float None) (fun r => soc (dec r)) =
    Some [0.5; 0.5; 0.5; 0.49886254747032882; 0.50635429504747898]%float.
Proof. vm_compute. repeat split. Qed.

(** ** C110: the engine at its rated power *)
(** There Python takes the last efficiency of the engine's table, Rust the last but one. *)
Theorem C110_rated : forall d s ovr dp dr j, plain_run d ovr -> sim_drive_walk d s ovr = Ok dp -> r_walk d s ovr = Ok dr ->
  0 < fc_max_kw (d_veh d) -> fc_kw_out_ach (fc (row_at dp j)) = fc_max_kw (d_veh d) ->
  let effs := fc_eff_array (d_veh d) in
  fuel_at (fc (row_at dp j)) (cdt (d_cyc d) j) (last effs 0) /\
  fuel_at (fc (row_at dr j)) (cdt (d_cyc d) j) (nth (length effs - 2) effs 0).
Proof.
  intros d s ovr dp dr j P E E' M O. pose proof (run_twin d s ovr P) as R0. rewrite E in R0. destruct R0 as (dr' & R1 & T & L).
  assert (dr' = dr) as -> by congruence. pose proof (k_rated _ _ T j) as K. rewrite (veh_of_walk _ _ _ _ P E), (cyc_of_walk _ _ _ _ P E) in K. auto.
Qed.
(** With an efficiency table that ends flat the two end in the same state whatever the load. *)
Theorem C110_flat_top : forall d s ovr dp, plain_run d ovr -> sim_drive_walk d s ovr = Ok dp ->
  let effs := fc_eff_array (d_veh d) in nth (length effs - 2) effs 0 = last effs 0 -> r_walk d s ovr = Ok dp.
Proof.
  intros d s ovr dp P E effs Q. pose proof (run_twin d s ovr P) as R0. rewrite E in R0. destruct R0 as (dr & R1 & T & L). rewrite R1. f_equal.
  assert (F : forall j, fc (row_at dp j) = fc (row_at dr j)).
  { intros j. pose proof (v_fc _ L j) as RG.
    destruct (Req_dec (fc_kw_out_ach (fc (row_at dp j))) (fc_max_kw (d_veh dp))) as [O|O]; [|apply (k_fc _ _ T); lra].
    destruct (Req_dec (fc_max_kw (d_veh dp)) 0) as [Z|Z]; [apply (k_fc _ _ T); lra|].
    destruct (k_rated _ _ T j) as [A B]; [lra|exact O|]. rewrite (veh_of_walk _ _ _ _ P E) in A, B. fold effs in A, B. rewrite Q in B.
    pose proof (k_rows _ _ T j) as SF. destruct SF. unfold fuel_at in A, B. rewrite <- sf_out in B.
    destruct (fc (row_at dp j)), (fc (row_at dr j)). cbn in *. destruct A as (A1 & A2 & A3), B as (B1 & B2 & B3). congruence. }
  assert (RW : d_rows dr = d_rows dp).
  { apply nth_ext with (d := zero_row) (d' := zero_row); [apply T|]. intros j _. change (row_at dr j = row_at dp j).
    destruct j as [|j]; [symmetry; apply T|]. pose proof (k_rows _ _ T (S j)) as SF. pose proof (k_lims _ _ T (S j) ltac:(lia) (F _)) as LL.
    pose proof (F (S j)) as FJ. destruct SF. destruct (row_at dp (S j)), (row_at dr (S j)). cbn in *. congruence. }
  destruct T. destruct dp, dr; cbn in *. congruence.
Qed.
(** A parked car whose auxiliary load is the engine's rated power: 400 kW of fuel in Python, 333 in Rust. *)
Theorem C110_same_fuel_refuted : exists (d : sdrive float) s ovr,
  shown (sim_drive_walk d s ovr) (fun r => fs_kw_out_ach (fc r)) = Some [0; 400; 400]%float /\
  shown (r_walk d s ovr) (fun r => fs_kw_out_ach (fc r)) = Some [0; 333.33333333333337; 333.33333333333337]%float.
Proof. exists (demo_sd demo_conv demo_park), 0.5%float, (Some [100; 100; 100]%float). vm_compute. split; reflexivity. Qed.
Lemma demo_park_inc : increasing (time_s (demo_park (F := R))).
Proof. apply increasing_SS. unfold demo_park, z. cbn [time_s map]. unR. repeat constructor; lra. Qed.
(** The hypotheses of C110_rated, over the reals: the parked car again. *)
Example C110_case : let d := demo_sd (F := R) demo_conv demo_park in let o := Some [100; 100; 100] in
  plain_run d o /\ exists dp dr, sim_drive_walk d (1/2) o = Ok dp /\ r_walk d (1/2) o = Ok dr /\
  (fc_kw_out_ach (fc (row_at dp 1)) = fc_max_kw (d_veh d) ->
   fs_kw_out_ach (fc (row_at dp 1)) = 400 /\ fs_kw_out_ach (fc (row_at dr 1)) = 100 / (3/10)).
Proof.
  intros d o. assert (P : plain_run d o).
  { apply demo_plain; [apply demo_comparable|repeat split|apply demo_park_inc| |intros l Q; injection Q as <-; reflexivity].
    intros _. demo_num. repeat split; try lra. intros l x Q. injection Q as <-. intros [<-|[<-|[<-|[]]]]; lra. }
  split; [exact P|]. destruct (walk_total d (1/2) o) as (dp & E); [cbn; lia|reflexivity|left; reflexivity|].
  destruct (C109_walk _ _ _ _ P E) as (dr & E' & _). exists dp, dr. split; [exact E|]. split; [exact E'|]. intros O.
  destruct (C110_rated d (1/2) o dp dr 1 P E E') as [A B]; [unfold d; demo_num|exact O|].
  pose proof (C109_walk _ _ _ _ P E) as (dr' & E2 & _ & SF). assert (dr' = dr) as -> by congruence. pose proof (sf_out _ _ (SF 1%nat)) as SO.
  unfold fuel_at in A, B. rewrite O in A. rewrite <- SO, O in B. destruct A as (_ & A & _), B as (_ & B & _). rewrite A, B.
  assert (EE : fc_eff_array (d_veh d) = [1/10; 3/10; 25/100]) by (unfold d; demo_num). rewrite EE. cbn [length Nat.sub nth last].
  assert (FM : fc_max_kw (d_veh d) = 100) by (unfold d; demo_num). rewrite FM.
  destruct (Req_EM_T (25/100) 0), (Req_EM_T (3/10) 0); split; lra.
Qed.

(** ** C111: runs that only one of the two completes, and small motors *)
(** Through the step interface: a road that offers more charging power than the battery may take makes the
    Rust program abort. *)
Theorem C111_road_power : forall v pr sp e p cur, comparable v -> has_motor v ->
  let chg := cur_max_ess_chg_kw (lims (solve_row v pr sp e p cur)) in
  0 < chg < cur_max_roadway_chg_kw (ctl cur) -> exists x, r_solve_row v pr sp e p cur = Err x.
Proof.
  intros v pr sp e p cur V M. unfold solve_row. destruct (set_ach_speed _ _ _ _ _ _ _ _) as [q s]. cbn [lims].
  unfold r_solve_row. cbv zeta. rewrite misc_same. set (m := set_misc_calcs v e p _). intros C.
  enough (Q : exists x, r_set_comp_lims v pr e p m (ctl cur) = Err x) by (destruct Q as [x ->]; now exists x).
  unfold r_set_comp_lims. destruct (r_mc_elec_in_lim _ _ _) as [a|x]; cbn [bindR]; [|now exists x].
  destruct (r_mc_elec_kw_in _ _) as [b|x]; cbn [bindR]; [|now exists x].
  unfold set_comp_lims in C. cbn [cur_max_ess_chg_kw] in C.
  match type of C with 0 < ?c < ?r => set (chg := c) in C end.
  match goal with |- context [r_mech_mc_in v ?c _] => assert (CC : c = chg) end.
  { unfold chg. destruct (_ || _)%bool; [reflexivity|]. unR. do 2 f_equal. rewrite !Rmult_1_r. reflexivity. }
  rewrite CC. clear CC. clearbody chg. unfold r_mech_mc_in. unR. pose proof (hm_kw v M).
  destruct (Reqb_spec chg 0); [lra|]. destruct (Reqb_spec (mc_max_kw v) (chg - cur_max_roadway_chg_kw (ctl cur))); [lra|].
  exists IndexError. unfold r_cell_or0, r_first_grtr. rewrite almost1_R, nmin_R.
  pose proof (hm_out0 v M) as O0. destruct (mc_kw_out_array v) as [|g0 gs]; [discriminate|]. cbn in O0. injection O0 as ->. cbn [r_position]. unR.
  destruct (Rltb_spec (Rmin (mc_max_kw v * (9999/10000)) (chg - cur_max_roadway_chg_kw (ctl cur))) 0) as [Q|Q]; [reflexivity|].
  exfalso. pose proof (Rmin_r (mc_max_kw v * (9999/10000)) (chg - cur_max_roadway_chg_kw (ctl cur))). lra.
Qed.
(** Hypotheses met: the hybrid at half charge, standing for two seconds, may take 25 kW; the road offers 30. *)
Example C111_road_case :
  let cur := row_ctl (fun _ => mkctl 30 false 0 0 0) (zero_row (F := R)) in
  let prev := first_row hev_trip (1/2) (zero_row (F := R)) in
  comparable demo_hev /\ has_motor demo_hev /\
  0 < cur_max_ess_chg_kw (lims (solve_row demo_hev demo_props (demo_sp false false false) (mkenv 2 0 (fun _ => 0) 0 false) prev cur)) < cur_max_roadway_chg_kw (ctl cur) /\
  exists x, r_solve_row demo_hev demo_props (demo_sp false false false) (mkenv 2 0 (fun _ => 0) 0 false) prev cur = Err x.
Proof.
  intros cur prev. assert (V : comparable demo_hev) by apply demo_comparable.
  assert (M : has_motor demo_hev). { destruct (cp_motor _ V) as [M|(Q & _)]; [exact M|]. exfalso. revert Q. unfold demo_hev, demo_veh, demo_veh_of, z. cbn [mc_max_kw]. unR. lra. }
  assert (C : 0 < cur_max_ess_chg_kw (lims (solve_row demo_hev demo_props (demo_sp false false false) (mkenv 2 0 (fun _ => 0) 0 false) prev cur)) < cur_max_roadway_chg_kw (ctl cur)).
  { unfold solve_row. destruct (set_ach_speed _ _ _ _ _ _ _ _) as [q s]. cbn [lims ctl cur row_ctl cur_max_roadway_chg_kw].
    unfold set_comp_lims. cbn [cur_max_ess_chg_kw]. rewrite nmin_R. unfold prev. cbn [first_row dec soc zero_row].
    assert (E1 : ess_max_kw (demo_hev (F := R)) = 25) by demo_num. assert (E2 : ess_max_kwh (demo_hev (F := R)) = 15/10) by demo_num.
    assert (E3 : max_soc (demo_hev (F := R)) = 8/10) by demo_num. assert (E4 : ess_round_trip_eff (demo_hev (F := R)) = 81/100) by demo_num.
    unR. rewrite E1, E2, E3, E4. destruct (Reqb_spec (15/10) 0); [lra|]. destruct (Reqb_spec 25 0); [lra|]. cbn [orb].
    split; [|apply Rle_lt_trans with (1 := Rmin_r _ _); lra]. apply Rmin_glb_lt; [|lra]. rewrite nmax_R. apply Rlt_le_trans with (2 := Rmax_l _ _).
    cbn [e_dt]. change (@k3600 R RNum) with 3600. unR. assert (0 < sqrt (81/100)) by (apply sqrt_lt_R0; lra).
    repeat first [apply Rdiv_lt_0_compat | apply Rmult_lt_0_compat]; lra. }
  split; [exact V|]. split; [exact M|]. split; [exact C|]. now apply C111_road_power.
Qed.
(** 'Both complete the same runs' is false for a hybrid without starting charge: Python searches the charge
    in [0, 1], and refuses its own next guess when a large load has emptied the battery; Rust searches within
    the battery's limits and finishes. *)
Theorem C111_same_runs_refuted : exists (d : sdrive float) ovr,
  sim_drive d None ovr = Err ValueError /\
  exists dr, r_sim_drive d None ovr = Ok dr /\ length (d_rows dr) = 3%nat /\ min_soc (d_veh dr) = soc_first dr.
Proof.
  exists (demo_sd demo_hev demo_park), (Some [0; 0; 80]%float). split; [vm_compute; reflexivity|].
  assert (W : match r_sim_drive (demo_sd demo_hev demo_park) None (Some [0; 0; 80]%float) with Ok x => (length (d_rows x), min_soc (d_veh x), soc_first x) = (3%nat, 0.2, 0.2)%float | Err _ => False end) by (vm_compute; reflexivity).
  destruct (r_sim_drive _ _ _) as [dr|]; [|contradiction]. injection W as W1 W2 W3. exists dr. split; [reflexivity|]. split; [exact W1|]. congruence.
Qed.
(** 'Both read the motor's map alike' is false for motors below one kW. *)
Definition small_hev : Res (vehicle float) := set_derived (with_mc_max_kw plain_hev 0.5%float).
Theorem C111_small_motor_refuted : exists (v : vehicle float) c, small_hev = Ok v /\
  shown (sim_drive_walk (demo_sd v c) 0.5%float None) (fun r => cur_max_mc_elec_kw_in (lims r)) = Some [0; 0.27027027027027023; 0.53957669356231208]%float /\
  shown (r_walk (demo_sd v c) 0.5%float None) (fun r => cur_max_mc_elec_kw_in (lims r)) = Some [0; 0.27027027027027023; 0.53986978247788098]%float.
Proof.
  set (c := (mkcyc [0; 2; 3.388] [0; 6; 8] [0; 0; 0] [0; 0; 0])%float).
  destruct small_hev as [v|] eqn:E; [|vm_compute in E; discriminate E]. exists v, c. split; [reflexivity|].
  assert (W : match small_hev with Ok v =>
     (shown (sim_drive_walk (demo_sd v c) 0.5%float None) (fun r => cur_max_mc_elec_kw_in (lims r)), shown (r_walk (demo_sd v c) 0.5%float None) (fun r => cur_max_mc_elec_kw_in (lims r)))
     = (Some [0; 0.27027027027027023; 0.53957669356231208], Some [0; 0.27027027027027023; 0.53986978247788098])%float | Err _ => False end) by (vm_compute; reflexivity).
  rewrite E in W. injection W as W1 W2. split; congruence.
Qed.
