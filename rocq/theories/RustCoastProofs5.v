(** Whole runs with eco-coasting: steps and loops. *)
From Verif Require Import Num Numpy ListFacts CycleModel CycleSpec DistProofs VehModel SimModel SimState WalkModel SimSpec WalkSpec CoastSpec
  RustModel RustWalkModel RustPostModel RustCycModel RustModsModel RustSpec RustCycSpec RustModsSpec RustCoastSpec
  FrameProofs WalkProofs StepProofs PlainProofs SimProofs1 SimProofs3 WalkProofs3 CoastProofs CoastProofs8 RustProofs RustProofs2 RustProofs3 RustCycProofs RustCycProofs2
  RustModsProofs RustModsProofs2 RustCoastProofs RustCoastProofs2 RustCoastProofs3 RustCoastProofs4.
From Coq Require Import FunctionalExtensionality Lia.
Local Open Scope R_scope.

Lemma pred_ok i : (1 <= i)%nat -> r_pred i = Ok (i - 1)%nat.
Proof. intros H. destruct i; [lia|]. cbn. now rewrite Nat.sub_0_r. Qed.
Lemma delay_any (d : sdrive R) i : wf_sd d -> d_cache d = build_cache (d_cyc0 d) -> (1 <= i < clen (d_cyc d))%nat -> r_set_coast_delay d i = set_coast_delay d i.
Proof.
  intros W CA HI. pose proof (has_samples0 d i W HI) as NE. destruct W as (W1 & W0 & L). unfold r_set_coast_delay, set_coast_delay. unfold clen in HI.
  assert (DS : cc_distances (d_cache d) = cumsum (trapz_step_distances (d_cyc0 d))) by (rewrite CA; reflexivity).
  rewrite r_start, pred_ok, DS by lia. rewrite (start_place d i (conj W1 (conj W0 L)) HI). change (trapezoid (d_cyc d) 0 (i - 1)) with (place d i). cbn [bindR].
  rewrite (r_get_ok _ (i - 1) 0) by (rewrite cum_dist_length by (apply W0 || exact NE); unfold clen in L; lia).
  cbn [bindR]. rewrite r_trapz_same by (apply W0 || exact NE).
  match goal with |- (do x <- ?a; _) = (do y <- ?b; _) => change b with a; destruct a as [delay|] end; [|reflexivity]. cbn [bindR]. f_equal. unfold upd_ctl_rows. f_equal. apply mapi_ext. intros j r.
  f_equal. apply functional_extensionality. intros cc. destruct (Nat.ltb j i); [reflexivity|]. f_equal. destruct delay as [z|]; [|reflexivity].
  destruct (z <? 0)%Z; [|reflexivity]. destruct (Z.ltb_spec (z + (Z.of_nat j - Z.of_nat i)) 0); lia.
Qed.
Lemma idle_start (d : sdrive R) i : (1 <= i < length (mps (d_cyc d)))%nat -> not_due d i -> r_start_coast d i = Ok d /\ start_coast d i = Ok d.
Proof.
  intros HI ND. unfold r_start_coast, start_coast. destruct (_ && _)%bool; [|split; reflexivity].
  unfold r_should_impose_coast, should_impose_coast. cbv zeta. rewrite pred_ok by lia. cbn [bindR]. rewrite !(r_get_ok _ i 0) by lia. cbn [bindR].
  unfold cmps. rewrite mps_ach_speed. unR. change (@n0 R RNum) with 0.
  destruct ND as [[A B]|[A B]]; destruct (Rltb_spec 0 (coast_start_speed_m_per_s (d_sp d))); try lra.
  - destruct (Rltb_spec (speed d (i - 1)) (coast_brake_start_speed_m_per_s (d_sp d))); [|lra]. split; reflexivity.
  - destruct (Rleb_spec (coast_start_speed_m_per_s (d_sp d)) (nth i (mps (d_cyc d)) 0)); [lra|]. split; reflexivity.
Qed.
(** A run with only coasting switched on. *)
Record coasting (d : sdrive R) : Prop := {
  q_live : live d; q_flat : r_grade_all_zero (d_cyc0 d) = true; q_cyc : wf (d_cyc d); q_cyc0 : wf (d_cyc0 d);
  q_times : time_s (d_cyc0 d) = time_s (d_cyc d);
  q_trace : missed_trace_correction (d_sp d) = false; q_idm : idm_allow (d_sp d) = false; q_coast : coast_allow (d_sp d) = true }.
Lemma coasting_wf d : coasting d -> wf_sd d.
Proof. intros Q. split; [apply Q|split; [apply Q|]]. unfold clen. now rewrite (q_times _ Q). Qed.
Lemma start_agrees d i : coasting d -> (1 <= i < length (d_rows d))%nat -> ordinary_step d i -> r_start_coast d i = start_coast d i.
Proof.
  intros Q HI O. pose proof (v_len _ (q_live _ Q)) as LL. destruct (q_cyc _ Q) as (W1 & _).
  destruct (coast_at d i) eqn:E2.
  { unfold r_start_coast, start_coast. rewrite E2. cbn [negb]. rewrite Bool.andb_false_r. reflexivity. }
  destruct (Rlt_le_dec (1/1000000) (speed d (i - 1))) as [E1|E1].
  - destruct (os_start _ _ O E1 E2) as [ND|(stop & d' & x & A1 & A2 & A3 & A4 & A5 & A6)].
    + destruct (idle_start d i) as [-> ->]; [lia|exact ND|reflexivity].
    + exact (start_same d i stop d' x A1 A2 A3 A4 A5 A6).
  - unfold r_start_coast, start_coast. rewrite lit_R, mps_ach_speed. unR. destruct (Rltb_spec (1 / IZR 1000000) (speed d (i - 1))); [lra|reflexivity].
Qed.

Lemma adopted_speed (d : sdrive R) i : (i < length (mps (d_cyc d)))%nat -> cmps (d_cyc (solve_and_adopt d i)) i = speed (solve_and_adopt d i) i.
Proof. intros H. unfold solve_and_adopt. cbv zeta. rewrite cmps_set_same by exact H. reflexivity. Qed.
Lemma frame_wf i d d' : frame i d d' -> wf (d_cyc d) -> wf (d_cyc d').
Proof. intros [] (A & B & C). unfold wf. rewrite fr_mlen, fr_time, fr_grade, fr_rt. auto. Qed.
Lemma frame_coasting i d d' : frame i d d' -> live d' -> coasting d -> coasting d'.
Proof.
  intros F L Q. destruct (fr_fixed _ _ _ F) as (a & b & c & e & f & g & h). constructor; rewrite ?c, ?e; try apply Q; auto.
  - apply (frame_wf _ _ _ F), Q. - rewrite (fr_time _ _ _ F). apply Q.
Qed.
Lemma coast_speed_same dp dr dp' : coasting dp -> let i := d_i dp in (i < length (d_rows dp))%nat -> near (S i) dp dr -> ordinary_step dp i ->
  set_coast_speed dp i = Ok dp' -> exists dr', r_set_coast_speed dr i = Ok dr' /\ near (S i) dp' dr' /\ coasting dp' /\ frame i dp dp'.
Proof.
  intros Q i HI T O E. pose proof (coast_frame dp i dp' HI E) as FR. pose proof (q_live _ Q) as L. pose proof (v_pos _ L) as P1. fold i in P1.
  cut (exists dr', r_set_coast_speed dr i = Ok dr' /\ near (S i) dp' dr' /\ live dp').
  { intros (dr' & A & B & C). exists dr'. split; [exact A|]. split; [exact B|]. split; [|exact FR]. exact (frame_coasting _ _ _ FR C Q). }
  clear FR. unfold set_coast_speed in E. inv_ok E. rename x into d1, E0 into E1.
  pose proof (plans_start _ _ _ E1) as PL. pose proof (live_plans _ _ PL L) as L1. pose proof (start_frame _ _ _ HI E1) as F1.
  destruct (pl_fixed _ _ PL) as (f1 & f2 & f3 & f4 & f5 & f6 & f7). fold i in f6.
  pose proof (start_near (S i) dp dr i T) as SN. rewrite (start_agrees dp i Q (conj P1 HI) O), E1 in SN. cbn [near_res] in SN. destruct SN as (e1 & R1 & T1).
  unfold r_set_coast_speed. cbv zeta. rewrite R1. cbn [bindR]. pose proof (e_kin _ _ _ T) as K. pose proof (e_kin _ _ _ T1) as K1.
  rewrite (coast_near _ _ _ i T1), (n_sp _ _ K), (n_cyc _ _ K1), (ach_kin_at _ _ K).
  pose proof (frame_coasting _ _ _ F1 L1 Q) as Q1. pose proof (coasting_wf _ Q1) as W1. pose proof (pl_len _ _ PL) as LN. pose proof (v_len _ L1) as LT. destruct (q_cyc _ Q1) as (LM & _).
  destruct (negb (coast_at d1 i)) eqn:EC.
  { injection E as <-. eexists. split; [reflexivity|]. rewrite (q_idm _ Q). rewrite (delayed_kin _ _ K1), lead_speed_same.
    2:{ destruct (q_cyc0 _ Q1) as (A & _). intros Z. rewrite Z in A. cbn in A. rewrite (q_times _ Q1) in A. lia. }
    split; [now apply near_mps|]. apply (live_plans d1); [apply plans_mps|exact L1]. }
  apply Bool.negb_false_iff in EC.
  change (@coast_brake_start_speed_m_per_s R) with (@coast_brake_start_speed_m_per_s R) in *. cbv zeta in E.
  set (v1 := nth i (mps (d_cyc d1)) n0) in *. change (cmps (d_cyc d1) i) with v1 in E.
  set (d2 := if (mps_ach_at dp (i - 1) >? coast_brake_start_speed_m_per_s (d_sp dp))%num then _ else d1) in E.
  match goal with |- context [r_solve_and_adopt ?u i] => match u with (if _ then _ else _) => set (e2 := u) in * end end.
  assert (T2 : near (S i) d2 e2) by (unfold d2, e2; destruct (_ >? _)%num; [now apply near_mps|exact T1]).
  assert (P2 : plans d1 d2) by (unfold d2; destruct (_ >? _)%num; [apply plans_mps|apply plans_refl]).
  assert (F2 : frame i d1 d2) by (unfold d2; destruct (_ >? _)%num; [now apply frame_set_mps|apply frame_refl]).
  pose proof (live_plans _ _ P2 L1) as L2. destruct (pl_fixed _ _ P2) as (g1 & g2 & g3 & g4 & g5 & g6 & g7). rewrite f6 in g6.
  assert (I2 : (d_i d2 < length (d_rows d2))%nat) by (rewrite g6, (pl_len _ _ P2), LN; exact HI).
  destruct (adopt_near d2 e2 L2) as (e3 & R3 & T3); [rewrite g6; exact T2|exact I2|]. rewrite g6 in R3, T3. rewrite R3. cbn [bindR].
  pose proof (live_adopt d2 L2 I2) as L3. rewrite g6 in L3. pose proof (frame_solve_adopt i d2) as F3.
  assert (LM2 : (i < length (mps (d_cyc d2)))%nat) by (rewrite (fr_mlen _ _ _ F2), LM, <- LT, LN; exact HI).
  assert (D3 : solve_and_adopt d2 i = tried d1 (speed dp (i - 1)) i).
  { unfold tried. cbv zeta. unfold d2, v1. rewrite mps_ach_speed, f3. rewrite nmin_R. unR. destruct (Rlt_dec _ _) as [Z|Z].
    - now rewrite (proj2 (Rltb_true _ _) Z). - now rewrite (proj2 (Rltb_false _ _) (Rnot_lt_le _ _ Z)). }
  pose proof (adopted_speed d2 i LM2) as AV. set (d3 := solve_and_adopt d2 i) in *.
  pose proof (e_kin _ _ _ T3) as K3. rewrite (n_cyc _ _ K3). change (nth i (mps (d_cyc d3)) n0) with (cmps (d_cyc d3) i). change (nth (i - 1) (mps (d_cyc d3)) n0) with (cmps (d_cyc d3) (i - 1)).
  pose proof (frame_trans _ _ _ _ F1 (frame_trans _ _ _ _ F2 F3)) as FF. pose proof (frame_coasting _ _ _ FF L3 Q) as Q3.
  pose proof (fr_len _ _ _ FF) as LN3. pose proof (v_len _ L3) as LT3.
  destruct (fr_fixed _ _ _ FF) as (h1 & h2 & h3 & h4 & h5 & h6 & h7). fold i in h6.
  rewrite r_dt_at_ok by lia. cbn [bindR]. change (nth i (time_s (d_cyc d3)) 0 - nth (i - 1) (time_s (d_cyc d3)) 0) with (duration (d_cyc d3) i).
  rewrite cdt_duration in E. destruct (cmps (d_cyc d3) i <? lit 1 1000000)%num eqn:EZ.
  { (* at rest *)
    inv_ok E. rename x into d4, E0 into E4. injection E as <-. change (r_coast_until e3 i 0) with (clear_coast e3 i). 
    pose proof (until_near (S i) _ _ i 0 T3) as T4. change (r_coast_until d3 i 0) with (clear_coast d3 i) in T4. change (r_coast_until e3 i 0) with (clear_coast e3 i) in T4.
    pose proof (delay_near (S i) _ _ i T4) as DN. rewrite delay_any in DN.
    2:{ exact (coasting_wf _ Q3). } 2:{ exact (eq_trans h5 (eq_trans (v_cache _ L) (f_equal build_cache (eq_sym h4)))). } 2:{ change (1 <= i < length (time_s (d_cyc d3)))%nat. lia. }
    rewrite E4 in DN. cbn [near_res] in DN. destruct DN as (e4 & -> & T5). cbn [bindR]. eexists. split; [reflexivity|]. split; [now apply near_mps|].
    apply (live_plans d3); [|exact L3]. eapply plans_trans; [apply (plans_range d3 i 0 0)|]. eapply plans_trans; [apply (plans_delay _ _ _ E4)|apply plans_mps]. }
  rewrite (lit_R 1 1000000) in *. destruct (nabs (cmps (d_cyc d3) i - v1)%num >? _)%num eqn:EX.
  2:{ injection E as <-. eauto. }
  assert (OC : ordinary_change d3 i).
  { rewrite D3. apply (os_change _ _ O d1 E1 EC); rewrite <- D3.
    - rewrite <- AV. unR. change (Rltb (cmps (d_cyc d3) i) (1 / IZR 1000000) = false) in EZ. now apply Rltb_false in EZ.
    - rewrite <- AV. change (Rltb (1 / IZR 1000000) (Rabs (cmps (d_cyc d3) i - v1)) = true) in EX. now apply Rltb_true in EX. }
  destruct OC as (stop & CS & DU & OC).
  inv_ok E. destruct x as [d4 b]. rename E0 into E4. cbn [fst snd] in E.
  assert (AE : ((cmps (d_cyc d3) i - cmps (d_cyc d3) (i - 1)) / duration (d_cyc d3) i)%num = (speed d3 i - speed d3 (i - 1)) / duration (d_cyc d3) i).
  { rewrite AV. change (cmps (d_cyc d3) (i - 1)) with (nth (i - 1) (mps (d_cyc d3)) 0). rewrite (cs_driven _ _ _ CS). reflexivity. }
  rewrite AE in *. destruct (OC d4 b E4) as [SM AV4].
  pose proof (adjust_near (S i) _ _ i ((speed d3 i - speed d3 (i - 1)) / duration (d_cyc d3) i) T3) as AN.
  rewrite (adjust_same d3 i stop CS _ d4 b DU E4 SM) in AN. cbn [near_res2] in AN. destruct AN as (e4 & -> & T4). cbn [bindR fst snd].
  pose proof (plans_adjust _ _ _ _ _ E4) as P4. pose proof (live_plans _ _ P4 L3) as L4. destruct (pl_fixed _ _ P4) as (k1 & k2 & k3 & k4 & k5 & k6 & k7).
  destruct b; [|injection E as <-; eauto].
  inv_ok E. rename x into d5, E0 into E5. injection E as <-.
  assert (X : exists e5, (if coast_allow_passing (d_sp dp) then Ok e4 else do p <- r_prevent_collisions 12 e4 i n1; Ok (fst p)) = Ok e5 /\ near (S i) d5 e5 /\ plans d4 d5).
  { destruct (coast_allow_passing (d_sp dp)) eqn:EP.
    - injection E5 as <-. exists e4. auto using plans_refl.
    - inv_ok E5. injection E5 as <-. destruct x as [d5 b]. cbn [fst]. destruct (AV4 eq_refl) as (h & AS); [rewrite h3; exact EP|].
      pose proof (prevent_near (S i) i 12 d4 e4 n1 T4) as PN. unfold prevent_collisions in E. rewrite (prevent_same d4 i h AS 12 n1), E in PN by (unR; lra).
      cbn [near_res2] in PN. destruct PN as (e5 & -> & T5). cbn [bindR fst]. exists e5. split; [reflexivity|]. split; [exact T5|]. exact (plans_prevent _ _ _ _ _ _ E). }
  destruct X as (e5 & -> & T5 & P5). cbn [bindR]. pose proof (live_plans _ _ P5 L4) as L5. destruct (pl_fixed _ _ P5) as (m1 & m2 & m3 & m4 & m5 & m6 & m7).
  assert (DI : d_i d5 = i) by (rewrite m6, k6; exact h6).
  assert (I5 : (d_i d5 < length (d_rows d5))%nat) by (rewrite DI, (pl_len _ _ P5), (pl_len _ _ P4), LN3; exact HI).
  destruct (adopt_near d5 e5 L5) as (e6 & R6 & T6); [rewrite DI; exact T5|exact I5|]. rewrite DI in R6, T6. exists e6. split; [exact R6|]. split; [exact T6|].
  pose proof (live_adopt d5 L5 I5) as L6. rewrite DI in L6. exact L6.
Qed.

(** ** Steps and loops *)
Lemma flat_grade d i : d_cache d = build_cache (d_cyc0 d) -> r_grade_all_zero (d_cyc0 d) = true -> lookup_grade d i None = 0 /\ r_lookup_grade d i None = 0.
Proof.
  intros Q Z. unfold lookup_grade, r_lookup_grade. rewrite Q. change (grade_all_zero (build_cache (d_cyc0 d))) with (r_grade_all_zero (d_cyc0 d)).
  rewrite Z. split; reflexivity.
Qed.
Lemma coast_sim_step dp dr dp' : coasting dp -> (d_i dp < length (d_rows dp))%nat -> near (d_i dp) dp dr -> ordinary_step dp (d_i dp) ->
  sim_drive_step dp = Ok dp' -> exists dr', r_step dr = Ok dr' /\ near (d_i dp') dp' dr' /\ coasting dp'.
Proof.
  intros Q HI T O E. pose proof (e_kin _ _ _ T) as K. unfold sim_drive_step in E. unfold r_step. rewrite (n_sp _ _ K), (n_i _ _ K).
  rewrite (q_idm _ Q), (q_coast _ Q), (q_trace _ Q) in *. cbn [orb andb bindR] in *. set (i := d_i dp) in *.
  inv_ok E. rename x into d2, E0 into E2. injection E as <-.
  destruct (coast_speed_same dp dr d2 Q HI (near_le _ (S i) _ _ (Nat.le_succ_diag_r i) T) O E2) as (e2 & R2 & T2 & Q2 & F2). fold i in R2, T2, F2. rewrite R2. cbn [bindR].
  destruct (fr_fixed _ _ _ F2) as (f1 & f2 & f3 & f4 & f5 & f6 & f7). fold i in f6. pose proof (q_live _ Q2) as L2.
  assert (I2 : (d_i d2 < length (d_rows d2))%nat) by (rewrite f6, (fr_len _ _ _ F2); exact HI).
  destruct (solve_near d2 e2 L2) as (e3 & R3 & T3); [rewrite f6; exact T2|exact I2|]. rewrite f6 in R3, T3. rewrite R3. cbn [bindR].
  pose proof (live_solved d2 L2 I2) as L3. rewrite f6 in L3. set (p := solve_step d2 i) in *.
  eexists. split; [reflexivity|]. pose proof (e_kin _ _ _ T3) as K3. rewrite (ach_near _ _ _ i T3).
  assert (CP : d_cache p = build_cache (d_cyc0 p)) by apply (v_cache _ L2). assert (ZP : r_grade_all_zero (d_cyc0 p) = true) by apply (q_flat _ Q2).
  destruct (flat_grade (set_cyc_mps p i (mps_ach_at p i)) i CP ZP) as [-> _].
  destruct (flat_grade (set_cyc_mps e3 i (mps_ach_at p i)) i) as [_ ->].
  { cbn. rewrite (n_cache _ _ K3), (n_cyc0 _ _ K3). exact CP. } { cbn. rewrite (n_cyc0 _ _ K3). exact ZP. }
  split; [apply near_i, near_grade, near_mps, T3|].
  set (w := mps_ach_at p i).
  assert (L4 : live (set_cyc_grade (set_cyc_mps (with_i p (S i)) i w) i 0)) by apply live_grade, live_mps, L3.
  constructor; try exact L4; try (cbn; apply Q2).
  destruct (q_cyc _ Q2) as (w1 & w2 & w3). unfold wf. cbn. rewrite !set_nth_length. auto.
Qed.
Lemma coast_loop_same : forall fuel dp dr dp', coasting dp -> near (d_i dp) dp dr ->
  (forall k e, after_steps k dp = Ok e -> (d_i e < length (d_rows e))%nat -> ordinary_step e (d_i e)) ->
  walk_loop fuel dp = Ok dp' -> exists dr', r_full_loop fuel dr = Ok dr' /\ near (d_i dp') dp' dr' /\ coasting dp' /\ (length (d_rows dp') <= d_i dp')%nat.
Proof.
  induction fuel as [|f IH]; intros dp dr dp' Q T O E; cbn [walk_loop r_full_loop] in *; pose proof (e_kin _ _ _ T) as K; rewrite (n_i _ _ K), (n_cyc _ _ K);
    pose proof (v_len _ (q_live _ Q)) as LL; destruct (Nat.ltb_spec (d_i dp) (length (time_s (d_cyc dp)))) as [H|H]; try discriminate;
    try (injection E as <-; exists dr; rewrite LL; exact (conj eq_refl (conj T (conj Q H)))).
  inv_ok E. rename x into d1. destruct (coast_sim_step dp dr d1 Q) as (e1 & -> & T1 & Q1); auto; [lia|apply (O 0%nat dp eq_refl); lia|]. cbn [bindR].
  apply (IH d1 e1 dp' Q1 T1); [|exact E]. intros k e A. apply (O (S k) e). cbn [after_steps]. rewrite (proj2 (Nat.ltb_lt _ _)) by lia. rewrite E0. exact A.
Qed.
Lemma coast_init d s ovr d1 : coast_run d ovr -> init_for_step d s ovr = Ok d1 -> coasting d1 /\ near (d_i d1) d1 d1 /\ r_init_for_step d s ovr = Ok d1.
Proof.
  intros P E. pose proof (cr_ok _ _ P) as Q.
  assert (W : wf_sd d) by (split; [apply Q|split; apply Q]).
  assert (Z : r_grade_all_zero (d_cyc0 d) = true).
  { apply forallb_forall. intros g G. rewrite (cr_level _ _ P g G). unR. destruct (Reqb_spec 0 0); [reflexivity|contradiction]. }
  assert (CC : changes_cycle (d_sp d) = true) by (unfold changes_cycle; rewrite (cr_coast _ _ P), !Bool.orb_true_r; reflexivity).
  destruct (start_live d s ovr d1 W (or_intror Z) (ro_veh _ _ Q) ltac:(rewrite CC; apply Q) (ro_loads _ _ Q) E) as [L T].
  pose proof (init_twin d s ovr W (ro_fits _ _ Q)) as IT. rewrite E in IT.
  destruct (init_rows _ _ _ _ E) as (i1 & i2 & i3 & i4 & i5 & i6 & i7 & i8 & i9 & _). rewrite CC in i8.
  split; [|split; [apply near_refl|exact IT]]. constructor; rewrite ?i3, ?i4, ?i8; auto; try apply P; try apply Q.
Qed.
Lemma coast_walk d s ovr dp : coast_run d ovr -> ordinary_run d s ovr -> sim_drive_walk d s ovr = Ok dp ->
  exists dr, r_full_walk d s ovr = Ok dr /\ near (d_i dp) dp dr.
Proof.
  intros P O E. unfold sim_drive_walk in E. inv_ok E. rename x into d1. inv_ok E. rename x into d2. injection E as <-.
  destruct (coast_init d s ovr d1 P E0) as (Q & T & R1). unfold r_full_walk. rewrite R1. cbn [bindR].
  destruct (coast_loop_same (length (time_s (d_cyc d1))) d1 d1 d2 Q T) as (dr & R2 & T2 & Q2 & H); [intros k e; now apply O|exact E1|].
  exists dr. split; [exact R2|]. rewrite post_accel_same by (assumption || apply Q2). exact T2.
Qed.

(** ** Runs in which no coast is due *)
Record idle (c0 : cyc R) (sp : simparams R) (d : sdrive R) : Prop := {
  z_coasting : coasting d; z_flags : forall j, coast_at d j = false; z_cyc0 : d_cyc0 d = c0; z_sp : d_sp d = sp;
  z_speeds : forall j, (d_i d <= j)%nat -> nth j (mps (d_cyc d)) 0 = nth j (mps c0) 0 }.
Lemma nth_set_nth_same {A} (l : list A) i v x : (i < length l)%nat -> nth i (set_nth l i v) x = v.
Proof. intros H. apply nth_error_nth, set_nth_same, H. Qed.
Lemma nth_set_nth_other {A} (l : list A) i j v x : i <> j -> nth j (set_nth l i v) x = nth j l x.
Proof. intros H. rewrite <- !nth_default_eq. unfold nth_default. now rewrite set_nth_other. Qed.
Section Idle.
Context (c0 : cyc R) (sp : simparams R).
Lemma idle_ordinary d : idle c0 sp d -> (d_i d < length (d_rows d))%nat -> not_due d (d_i d) -> ordinary_step d (d_i d).
Proof.
  intros Z H ND. pose proof (q_live _ (z_coasting _ _ _ Z)) as L. pose proof (v_len _ L) as LL. destruct (q_cyc _ (z_coasting _ _ _ Z)) as (W1 & _). pose proof (v_pos _ L) as P.
  destruct (idle_start d (d_i d) ltac:(lia) ND) as [_ E]. constructor; [auto|]. intros d1 E1 C. rewrite E in E1. injection E1 as <-. rewrite (z_flags _ _ _ Z) in C. discriminate.
Qed.
Lemma idle_step d : idle c0 sp d -> (d_i d < length (d_rows d))%nat -> not_due d (d_i d) -> exists d', sim_drive_step d = Ok d' /\ idle c0 sp d' /\ d_i d' = S (d_i d) /\ length (d_rows d') = length (d_rows d).
Proof.
  intros Z H ND. pose proof (z_coasting _ _ _ Z) as Q. pose proof (q_live _ Q) as L. pose proof (v_len _ L) as LL. destruct (q_cyc _ Q) as (W1 & _). pose proof (v_pos _ L) as P.
  destruct (idle_start d (d_i d) ltac:(lia) ND) as [_ E].
  assert (S : exists d', sim_drive_step d = Ok d' /\ (forall j, coast_at d' j = false) /\
                (forall j, (S (d_i d) <= j)%nat -> nth j (mps (d_cyc d')) 0 = nth j (mps (d_cyc d)) 0) /\ d_cyc0 d' = d_cyc0 d /\ d_sp d' = d_sp d /\ d_i d' = S (d_i d) /\ length (d_rows d') = length (d_rows d)).
  { unfold sim_drive_step, set_coast_speed. rewrite (q_idm _ Q), (q_coast _ Q), (q_trace _ Q). cbn [bindR orb andb]. rewrite E. cbn [bindR]. rewrite (z_flags _ _ _ Z). cbn [negb bindR]. rewrite (q_idm _ Q).
    eexists. split; [reflexivity|]. set (i := d_i d) in *. split; [|split; [|repeat split]].
    - intros j. pose proof (z_flags _ _ _ Z j) as C. revert C. unfold coast_at, row_at, solve_step, upd_row. cbn [with_i set_cyc_grade set_cyc_mps with_cyc with_rows d_rows].
      destruct (Nat.eqb_spec j i) as [->|]; [|rewrite nth_set_nth_other by auto; auto]. rewrite nth_set_nth_same by exact H. rewrite ctl_of_solve. auto.
    - intros j J. unfold solve_step, upd_row. cbn [with_i set_cyc_grade set_cyc_mps with_cyc with_rows with_mps d_cyc mps]. rewrite !nth_set_nth_other by lia. reflexivity.
    - unfold solve_step, upd_row. cbn [with_i set_cyc_grade set_cyc_mps with_cyc with_rows d_rows]. apply set_nth_length. }
  destruct S as (d' & S & F1 & F2 & F3 & F5 & F4 & F6). exists d'. split; [exact S|]. split; [|split; assumption].
  destruct (coast_sim_step d d d' Q H (near_refl _ _) (idle_ordinary _ Z H ND) S) as (_ & _ & _ & Q').
  constructor; [exact Q'|exact F1|rewrite F3; apply Z|rewrite F5; apply Z|]. intros j J. rewrite F4 in J. rewrite F2 by lia. apply (z_speeds _ _ _ Z). lia.
Qed.
Lemma idle_after : forall k d e, idle c0 sp d ->
  (forall m u, after_steps m d = Ok u -> idle c0 sp u -> (d_i u < length (d_rows u))%nat -> not_due u (d_i u)) ->
  after_steps k d = Ok e -> idle c0 sp e.
Proof.
  induction k as [|k IH]; intros d e Z ND E; cbn [after_steps] in E; [now injection E as <-|].
  destruct (Nat.ltb_spec (d_i d) (length (d_rows d))) as [H|H]; [|now injection E as <-].
  destruct (idle_step d Z H (ND 0%nat d eq_refl Z H)) as (d' & S & Z' & _). rewrite S in E. cbn [bindR] in E. apply (IH d' e Z'); [|exact E].
  intros m u A. apply (ND (Datatypes.S m)). cbn [after_steps]. rewrite (proj2 (Nat.ltb_lt _ _) H), S. exact A.
Qed.
Lemma idle_completes : (forall u, idle c0 sp u -> (d_i u < length (d_rows u))%nat -> not_due u (d_i u)) ->
  forall fuel d, idle c0 sp d -> (length (d_rows d) <= d_i d + fuel)%nat -> exists d', walk_loop fuel d = Ok d'.
Proof.
  intros ND. induction fuel as [|f IH]; intros d Z H; cbn [walk_loop]; rewrite <- (v_len _ (q_live _ (z_coasting _ _ _ Z)));
    destruct (Nat.ltb_spec (d_i d) (length (d_rows d))) as [Q|Q]; eauto; [lia|].
  destruct (idle_step d Z Q (ND d Z Q)) as (d' & -> & Z' & I & L). cbn [bindR]. apply IH; [exact Z'|]. lia.
Qed.
End Idle.
Lemma idle_init d s ovr d1 : coast_run d ovr -> init_for_step d s ovr = Ok d1 -> idle (d_cyc0 d) (d_sp d) d1.
Proof.
  intros P E. destruct (coast_init d s ovr d1 P E) as (Q & _).
  assert (CC : changes_cycle (d_sp d) = true) by (unfold changes_cycle; rewrite (cr_coast _ _ P), !Bool.orb_true_r; reflexivity).
  destruct (init_rows _ _ _ _ E) as (i1 & i2 & i3 & i4 & i5 & i6 & i7 & i8 & i9 & i10 & i11 & i12 & i13). rewrite CC in i8.
  constructor; auto; [|intros j _; now rewrite i8].
  intros j. unfold coast_at. destruct j as [|j]; [rewrite i12; reflexivity|]. destruct (Nat.lt_ge_cases (S j) (length (d_rows d1))) as [H|H]; [rewrite i13 by lia; reflexivity|].
  unfold row_at. rewrite nth_overflow by exact H. reflexivity.
Qed.
Lemma idle_run d s ovr : coast_run d ovr ->
  (forall d1 m u, init_for_step d s ovr = Ok d1 -> after_steps m d1 = Ok u -> idle (d_cyc0 d) (d_sp d) u -> (d_i u < length (d_rows u))%nat -> not_due u (d_i u)) -> ordinary_run d s ovr.
Proof.
  intros P ND d1 k e I A H. pose proof (idle_init d s ovr d1 P I) as Z.
  assert (ZE : idle (d_cyc0 d) (d_sp d) e) by (apply (idle_after _ _ k d1 e Z); [intros m u; now apply ND|exact A]).
  apply (idle_ordinary _ _ e ZE H). exact (ND d1 k e I A ZE H).
Qed.
(** A trace slower than the speed set for the start of coasts. *)
Lemma below_start_due c0 sp u : 0 < coast_start_speed_m_per_s sp -> (forall v, In v (mps c0) -> v < coast_start_speed_m_per_s sp) ->
  idle c0 sp u -> (d_i u < length (d_rows u))%nat -> not_due u (d_i u).
Proof.
  intros S0 SB Z H. right. rewrite (z_sp _ _ _ Z). split; [exact S0|]. rewrite (z_speeds _ _ _ Z) by lia. apply SB, nth_In.
  destruct (q_cyc0 _ (z_coasting _ _ _ Z)) as (A & _). rewrite (z_cyc0 _ _ _ Z) in A. rewrite A.
  pose proof (q_times _ (z_coasting _ _ _ Z)) as T. rewrite (z_cyc0 _ _ _ Z) in T. rewrite T, <- (v_len _ (q_live _ (z_coasting _ _ _ Z))). exact H.
Qed.
(** A run whose speeds stay below that at which the brakes are used. *)
Lemma slow_due : forall m d u fuel d', (1 <= d_i d)%nat -> length (d_rows d) = length (time_s (d_cyc d)) -> walk_loop fuel d = Ok d' -> after_steps m d = Ok u -> (d_i u < length (d_rows u))%nat ->
  row_at d' (d_i u - 1) = row_at u (d_i u - 1).
Proof.
  induction m as [|m IH]; intros d u fuel d' P1 LL E A H; cbn [after_steps] in A.
  - injection A as ->. destruct (py_frame _ _ _ P1 LL E) as (F & _). apply F. lia.
  - destruct (Nat.ltb_spec (d_i d) (length (d_rows d))) as [Q|Q]; [|injection A as <-; lia].
    destruct fuel as [|f]; cbn [walk_loop] in E; rewrite <- LL, (proj2 (Nat.ltb_lt _ _) Q) in E; [discriminate|].
    inv_ok E. rewrite E0 in A. cbn [bindR] in A. pose proof (step_stepped d x ltac:(lia) E0) as ST.
    apply (IH x u f d'); rewrite ?(st_i _ _ _ ST), ?(st_len _ _ _ ST), ?(st_tlen _ _ _ ST); auto; lia.
Qed.
